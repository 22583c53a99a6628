(** * Model of file sessions when reading fails

    Source: /repo/include/cli/clifilesession.h:59-75.  An exception while [std::getline]
    reads (of the stream buffer, as libstdc++ throws for a read error, or [std::bad_alloc]
    for the line) is caught in the library and sets [badbit], not [eofbit]; the string
    keeps what was appended to it.

    Simplification: [in_rest] is what can be read before the failure; everything else
    as in FileModel.v. *)

From Verif Require Import Base FromStringModel HistoryModel StorageModel TerminalModel MenuModel SessionModel FileModel.
Open Scope nat_scope.
Open Scope list_scope.

(** [std::getline]: at the end of what can be read, reading fails. *)
Definition getline_x (i : istream) : str * istream :=
  if in_good i then
    match upto_nl (in_rest i) with
    | Some (l, r) => (l, mkIn r false false)
    | None => (in_rest i, mkIn [] false true)
    end
  else ([], mkIn (in_rest i) (in_eof i) true).

Section Run.
Context (E : env) (own : bool) (fuel : nat) (tty : bool) (color : list event -> bool).

(** clifilesession.h:63-74 the loop of [Start] *)
Fixpoint fx_loop (n : nat) (s : fsess) : lres :=
  if fs_exit s then LOk s
  else match n with
  | O => LFuel
  | S n' =>
      l_bind (fs_prompt tty color s) (fun s1 =>                                         (* 65 *)
      l_bind (if in_good (fs_in s1) then LOk s1 else fs_leave E own s1) (fun s2 =>      (* 67-68 *)
      let (line, i) := getline_x (fs_in s2) in                                          (* 69 *)
      let s3 := mkFs (fs_world s2) (fs_force s2) i (fs_exit s2) in
      l_bind (if in_eof i then fs_leave E own s3 else fs_feed E own fuel line s3) (fx_loop n')))  (* 70-73 *)
  end.
(** clifilesession.h:59-75 [Start] *)
Definition fx_start (n : nat) (s : fsess) : lres := l_bind (fs_enter E own s) (fx_loop n).
End Run.
