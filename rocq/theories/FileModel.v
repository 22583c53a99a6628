(** * Model of file sessions
    Source: /repo/include/cli/clifilesession.h. *)

From Verif Require Import Base FromStringModel HistoryModel StorageModel TerminalModel MenuModel SessionModel.
Open Scope nat_scope.
Open Scope list_scope.

(** A [std::istream] over a text: what is still to be read, [eofbit], and
    [failbit]/[badbit] together.  Errors while reading are not modelled. *)
Record istream := mkIn { in_rest : str; in_eof : bool; in_fail : bool }.
Definition in_good (i : istream) : bool := negb (in_eof i) && negb (in_fail i).

Fixpoint upto_nl (s : str) : option (str * str) :=
  match s with
  | [] => None
  | c :: s' =>
      if Ascii.eqb c "010" then Some ([], s')
      else match upto_nl s' with Some (l, r) => Some (c :: l, r) | None => None end
  end.
(** [std::getline] into an empty string; lines longer than [max_size] are not modelled. *)
Definition getline (i : istream) : str * istream :=
  if in_good i then
    match upto_nl (in_rest i) with
    | Some (l, r) => (l, mkIn r false false)
    | None => (in_rest i, mkIn [] true (match in_rest i with [] => true | _ => false end))
    end
  else ([], mkIn (in_rest i) (in_eof i) true).

(** clifilesession.h:78-79 the members [exit] and [in], the session, and the colour
    state of its stream. *)
Record fsess := mkFs { fs_world : world; fs_force : bool; fs_in : istream; fs_exit : bool }.
Inductive lres := LOk (s : fsess) | LExc (x : exn) (s : fsess) | LUB | LFuel.
Definition l_bind (r : lres) (f : fsess -> lres) : lres := match r with LOk s => f s | _ => r end.

(** clifilesession.h:52-57: the session's exit action is a library function that
    only sets [exit]; the user's code (elsewhere) is that of [E]. *)
Definition file_env (E : env) : env :=
  mkEnv (e_plat E) (e_real E) (e_custom E) (e_handler E)
    (fun sid k args tr => match k with KSesExit => mkURes [] UReturn | _ => e_hook E sid k args tr end)
    (fun k => match k with KSesExit => true | _ => e_has E k end).

(** Whether the session's exit action was called among the events. *)
Definition exit_called (sid : nat) (evs : list event) : bool :=
  existsb (fun e => match e with EvHook i KSesExit _ => Nat.eqb i sid | _ => false end) evs.

Section Run.
(** [own]: the exit action is still the constructor's, not replaced by the user
    ([CliSession::ExitAction] is public).  [color]: the global colour flag, that user
    code may change. *)
Context (E : env) (own : bool) (fuel : nat) (tty : bool) (color : list event -> bool).
Definition fenv : env := if own then file_env E else E.

(** The state after library code ran from world [w] of [s] to [w']. *)
Definition arrive (s : fsess) (w' : world) : fsess :=
  mkFs w' (fs_force s) (fs_in s)
    (fs_exit s || (own && exit_called (w_sid w') (skipn (length (w_trace (fs_world s))) (w_trace w')))).
Definition of_h (s : fsess) (r : hres) : lres :=
  match r with HOk w => LOk (arrive s w) | HExc x w => LExc x (arrive s w) | HUB => LUB | HFuel => LFuel end.
Definition of_f (s : fsess) (r : fres) : lres :=
  match r with FOk w => LOk (arrive s w) | FExc x w => LExc x (arrive s w) | FUB => LUB | FFuel => LFuel end.

Definition fs_enter (s : fsess) : lres := of_h s (session_enter fenv (fs_world s)).
Definition fs_leave (s : fsess) : lres := of_h s (session_exit fenv (fs_world s)).
Definition fs_feed (line : str) (s : fsess) : lres := of_f s (feed fenv fuel line (fs_world s)).
Definition fs_prompt (s : fsess) : lres :=
  match prompt tty (color (w_trace (fs_world s))) (fs_force s) (fs_world s) with
  | None => LUB
  | Some (b, force) => LOk (mkFs (out b (fs_world s)) force (fs_in s) (fs_exit s))
  end.

(** clifilesession.h:63-74 the loop of [Start]; [LFuel] after [n] rounds. *)
Fixpoint fs_loop (n : nat) (s : fsess) : lres :=
  if fs_exit s then LOk s
  else match n with
  | O => LFuel
  | S n' =>
      l_bind (fs_prompt s) (fun s1 =>
      l_bind (if in_good (fs_in s1) then LOk s1 else fs_leave s1) (fun s2 =>
      let (line, i) := getline (fs_in s2) in
      let s3 := mkFs (fs_world s2) (fs_force s2) i (fs_exit s2) in
      l_bind (if in_eof i then fs_leave s3 else fs_feed line s3) (fs_loop n')))
  end.
(** clifilesession.h:59-75 [Start] *)
Definition fs_start (n : nat) (s : fsess) : lres := l_bind (fs_enter s) (fs_loop n).
End Run.

(** clifilesession.h:45-58 the constructor: a history of one command; [None]:
    [std::invalid_argument]. *)
Definition open_file (i : istream) (out_good : bool) (sid : nat) (root : cmd) (nxt : nat) (st : storage) (tr : list event) : option fsess :=
  if in_good i && out_good then Some (mkFs (open_session sid 1 root nxt st tr) false i false) else None.
