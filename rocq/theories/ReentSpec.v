(** * Specification of user code that calls the session *)

From Verif Require Import Base SplitModel FromStringModel HistoryModel HistorySpec StorageModel MenuModel SessionModel ResolveSpec SessionSpec ReentModel.
Open Scope nat_scope.
Open Scope list_scope.

(** ** User code without calls *)
Fixpoint straight (os : list op) (e : uend) : prog :=
  match os with [] => PEnd e | o :: os' => PDo (RDo o) (fun _ _ => straight os' e) end.
Definition code (r : uresult) : prog := straight (ur_ops r) (ur_end r).
(** The user functions of [E] as programs. *)
Definition plain (E : env) : renv :=
  mkREnv E (fun sid n args tr => code (e_handler E sid n args tr)) (fun _ sid k args tr => code (e_hook E sid k args tr)).
(** The actions in use are those of [E]. *)
Definition acts_of (E : env) (s : rstate) : Prop := forall k, a_now (r_acts s) k <> None <-> e_has E k = true.
Definition agrees (E : env) (r : rres) (f : fres) : Prop :=
  match r, f with
  | ROk _ s, FOk w => r_w s = w /\ acts_of E s
  | RExc x s, FExc y w => x = y /\ r_w s = w /\ acts_of E s
  | RUB, FUB | RFuel, FFuel => True
  | _, _ => False
  end.
Definition agrees_h (E : env) (r : rres) (h : hres) : Prop := agrees E r (hres_fres h).

(** ** How a program can end *)
Inductive ends : prog -> uend -> Prop :=
| ends_here e : ends (PEnd e) e
| ends_later o k a tr e : ends (k a tr) e -> ends (PDo o k) e.

(** ** From one state to a later one *)
Definition later (s s' : rstate) : Prop :=
  (exists evs, w_trace (r_w s') = w_trace (r_w s) ++ evs) /\
  w_sid (r_w s') = w_sid (r_w s) /\
  (w_exit (r_w s) = true -> w_exit (r_w s') = true) /\
  w_next (r_w s) <= w_next (r_w s') /\
  (sound (r_w s) -> sound (r_w s')) /\
  (forall n, h_max (w_hist (r_w s)) = n -> length (h_buf (w_hist (r_w s))) <= n ->
             h_max (w_hist (r_w s')) = n /\ length (h_buf (w_hist (r_w s'))) <= n).
Definition left_in (P : rstate -> Prop) (r : rres) : Prop :=
  match r with ROk _ s => P s | RExc _ s => P s | _ => True end.

(** ** What feeding a line means *)
Section Feed.
Context (R : renv) (fuel : nat).
Notation E := (re_env R).

(** An action or handler runs, if there is one, after it was logged. *)
Definition hook_code (k : hook) (args : list str) (none : world -> world) (s : rstate) : rres :=
  match r_acts s with
  | mkActs now notes =>
      match now k with
      | Some a =>
          let w1 := log (EvHook (w_sid (r_w s)) k args) (r_w s) in
          run_prog (run_call R fuel) (re_hook R a (w_sid (r_w s)) k args (w_trace w1)) (mkR w1 (r_touched s) (mkActs now (notes ++ [NRun k a])))
      | None => ROk None (mkR (none (r_w s)) (r_touched s) (mkActs now (notes ++ [NEmpty k])))
      end
  end.
(** What user code throws is reported once: by the handler in use at that moment. *)
Definition reported (line : str) (r : rres) : rres :=
  match r with
  | RExc XOther (mkR w t a) =>
      ROk None (mkR (out (lit "Cli. Unknown exception caught handling command line """ ++ line ++ lit """" ++ nl) w) t a)
  | RExc (XBadCast what) s | RExc (XStd what) s => hook_code KExcept [line; what] (out (what ++ nl)) s
  | ROk _ s => ROk None s
  | _ => r
  end.
(** A command of the user runs after it was logged. *)
Definition command_code (u : nat) (vs : list value) (s : rstate) : rres :=
  match s with
  | mkR w t a =>
      let w1 := log (EvCall (w_sid w) u vs) w in
      run_prog (run_call R fuel) (re_handler R (w_sid w) u vs (w_trace w1)) (mkR w1 t a)
  end.
End Feed.

(** Lines of the global menu, and the function each one calls. *)
Inductive global_call (E : env) : list str -> call -> Prop :=
| gc_help : global_call E [lit "help"] KHelp
| gc_exit : global_call E [lit "exit"] KExit
| gc_history : global_call E [lit "history"] KShow
| gc_bang a n : convert E (PInt UInt) a = COk (VInt n) -> global_call E [lit "!"; a] (KFromHistory n).

(** Feeding lines one after another. *)
Fixpoint r_feeds (R : renv) (fuel : nat) (lines : list str) (s : rstate) : rres :=
  match lines with
  | [] => ROk None s
  | l :: ls => match run_call R fuel (KFeed l) s with ROk _ s' => r_feeds R fuel ls s' | r => r end
  end.
(** The program that feeds lines, letting exceptions through. *)
Fixpoint feeding (lines : list str) : prog :=
  match lines with
  | [] => PEnd UReturn
  | l :: ls => PDo (RCall (KFeed l)) (fun a _ => match a with AThrew x => PEnd (UThrow x) | AGot _ => feeding ls end)
  end.

(** ** User code that keeps to the rules
    It removes only commands of [D] and inserts only user commands (as [tame_op]); it
    feeds legible lines, goes only to menus of [M], and does not call
    [ExecFromHistory]; it lets no [std::bad_cast] escape, unless the session throws one
    or hands out something illegible. *)
Section Rules.
Context (E : env) (D M : nat -> Prop).
Definition fair_call (c : call) : Prop :=
  match c with
  | KFeed line => legible E line
  | KPrevious line => legible E line /\ ~ recall E line
  | KCurrent id => M id
  | KFromHistory _ => False
  | _ => True
  end.
Definition bad_cast (x : exn) : Prop := exists what, x = XBadCast what.
Definition fair_answer (a : answer) : Prop :=
  match a with AGot (Some t) => legible E t | AGot None => True | AThrew x => ~ bad_cast x end.
Inductive fair : prog -> Prop :=
| fair_end e : (forall x, e = UThrow x -> ~ bad_cast x) -> fair (PEnd e)
| fair_op o k : tame_op D o -> (forall tr, fair (k (AGot None) tr)) -> fair (PDo (RDo o) k)
| fair_call_ c k : fair_call c -> (forall a tr, fair_answer a -> fair (k a tr)) -> fair (PDo (RCall c) k).
End Rules.
Definition fair_code (R : renv) (D M : nat -> Prop) : Prop :=
  strict (e_plat (re_env R)) = false /\
  (forall sid n args tr, fair (re_env R) D M (re_handler R sid n args tr)) /\
  (forall a sid k args tr, fair (re_env R) D M (re_hook R a sid k args tr)).

(** ** The actions in use *)
(** The action last set, [now] before the first one. *)
Inductive in_use (now : hook -> option nat) (k : hook) : list note -> option nat -> Prop :=
| iu_none : in_use now k [] (now k)
| iu_set l a : in_use now k (l ++ [NSet k a]) a
| iu_other l n a : (forall x, n <> NSet k x) -> in_use now k l a -> in_use now k (l ++ [n]) a.
(** An action was called, or none was, after [l]. *)
Definition fits (now : hook -> option nat) (l : list note) (n : note) : Prop :=
  match n with
  | NSet _ _ => True
  | NRun k a => in_use now k l (Some a)
  | NEmpty k => in_use now k l None
  end.
(** The hooks called, in order. *)
Definition hooks (evs : list event) : list hook := flat_map (fun e => match e with EvHook _ k _ => [k] | _ => [] end) evs.
Definition runs (l : list note) : list hook := flat_map (fun n => match n with NRun k _ => [k] | _ => [] end) l.
(** From [s] to [s']: each action called was the one in use, those called are those of the
    trace, and those in use at the end are those last set. *)
Definition faithful (s s' : rstate) : Prop :=
  exists l evs,
    a_notes (r_acts s') = a_notes (r_acts s) ++ l /\ w_trace (r_w s') = w_trace (r_w s) ++ evs /\
    (forall l1 n l2, l = l1 ++ n :: l2 -> fits (a_now (r_acts s)) l1 n) /\
    hooks evs = runs l /\
    (forall k, in_use (a_now (r_acts s)) k l (a_now (r_acts s') k)).

(** Menus of [M] exist. *)
Definition have (M : nat -> Prop) (w : world) : Prop :=
  forall id, M id -> exists m anc, chain (w_root w) (m :: anc) /\ cmd_id m = id.
(** A normal return or an exception other than [std::bad_cast], in a state satisfying [P];
    or calls are nested deeper than the fuel. *)
Definition r_safe (E : env) (P : world -> Prop) (r : rres) : Prop :=
  match r with
  | ROk a s => P (r_w s) /\ fair_answer E (AGot a)
  | RExc x s => P (r_w s) /\ ~ bad_cast x
  | RUB => False
  | RFuel => True
  end.
