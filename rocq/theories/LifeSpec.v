(** * Specification of lifetimes *)

From Verif Require Import Base SplitModel FromStringModel HistoryModel StorageModel TerminalModel MenuModel SessionModel SessionSpec CompletionModel ProcessorModel ProcessorSpec StorageSpec IsolationSpec LifeModel.
Open Scope nat_scope.
Open Scope list_scope.

(** ** The rules
    What a careful programmer keeps in mind: which [Cli] objects have contents (their
    menus and storage) and which were moved from, which sessions may be used, which menus
    exist. *)
Inductive cstate := CNone | CFull (t : nat) | CEmpty | CGone.
Inductive sstate := SNone | SUsable (c : nat) | SStale | SGone.
Inductive tstate := TNone | TThere | TGone.
Record view := mkView { v_cli : nat -> cstate; v_ses : nat -> sstate; v_tree : nat -> tstate }.
Definition v_init : view := mkView (fun _ => CNone) (fun _ => SNone) (fun _ => TNone).

(** The sessions of [c] must not be used any more; they can only be closed. *)
Definition stale (c : nat) (m : nat -> sstate) : nat -> sstate :=
  fun s => match m s with SUsable c' => if Nat.eqb c' c then SStale else SUsable c' | x => x end.
Definition at_ {A} (m : nat -> A) (i : nat) (a : A) : nat -> A := fun j => if Nat.eqb j i then a else m j.
Definition destroyed (x : cstate) (m : nat -> tstate) : nat -> tstate :=
  match x with CFull t => at_ m t TGone | _ => m end.

(** [None]: against the rules. *)
Definition v_step (v : view) (o : lop) : option view :=
  match o with
  | LNew c t _ _ =>
      match v_cli v c, v_tree v t with
      | CNone, TNone => Some (mkView (at_ (v_cli v) c (CFull t)) (v_ses v) (at_ (v_tree v) t TThere))
      | _, _ => None
      end
  | LCliFn c _ _ => match v_cli v c with CFull _ | CEmpty => Some v | _ => None end
  | LMove c c' =>
      match v_cli v c, v_cli v c' with
      | CFull _ as x, CNone | CEmpty as x, CNone =>
          Some (mkView (at_ (at_ (v_cli v) c CEmpty) c' x) (stale c (v_ses v)) (v_tree v))
      | _, _ => None
      end
  | LAssign c c' =>
      if Nat.eqb c c' then match v_cli v c with CFull _ | CEmpty => Some v | _ => None end
      else match v_cli v c, v_cli v c' with
      | CFull _ as x, CFull _ as y | CFull _ as x, CEmpty as y | CEmpty as x, CFull _ as y | CEmpty as x, CEmpty as y =>
          Some (mkView (at_ (at_ (v_cli v) c CEmpty) c' x) (stale c (stale c' (v_ses v))) (destroyed y (v_tree v)))
      | _, _ => None
      end
  | LDelete c =>
      match v_cli v c with
      | CFull _ as x | CEmpty as x => Some (mkView (at_ (v_cli v) c CGone) (stale c (v_ses v)) (destroyed x (v_tree v)))
      | _ => None
      end
  | LOpen s c _ =>
      match v_ses v s, v_cli v c with
      | SNone, CFull _ => Some (mkView (v_cli v) (at_ (v_ses v) s (SUsable c)) (v_tree v))
      | _, _ => None
      end
  | LSesFn s _ _ => match v_ses v s with SUsable _ | SStale => Some v | _ => None end
  | LCall s _ => match v_ses v s with SUsable _ => Some v | _ => None end
  | LClose s => match v_ses v s with SUsable _ | SStale => Some (mkView (v_cli v) (at_ (v_ses v) s SGone) (v_tree v)) | _ => None end
  | LMenu t o =>
      match v_tree v t, o with
      | TThere, _ => Some v
      | TGone, MInsert _ _ | TNone, _ => None
      | TGone, _ => Some v
      end
  end.
Fixpoint v_run (os : list lop) (v : view) : option view :=
  match os with [] => Some v | o :: os' => match v_step v o with Some v' => v_run os' v' | None => None end end.
Definition obeys (os : list lop) : Prop := v_run os v_init <> None.

(** A call that fails although the session's [Cli], storage and menus are all there. *)
Definition fault (E : env) (fn : nat -> nat -> hook -> list str -> list event -> uresult) (fuel : nat) (os : list lop) (bad : cres) : Prop :=
  exists pre s c post rs g x o st t, os = pre ++ LCall s c :: post /\ l_run E fn fuel pre g_init = LEnd rs g /\
    g_ses g s = Live x /\ g_clis g (s_cli x) = Live o /\ c_store o = Some st /\ c_tree o = Some (s_tree x) /\ g_trees g (s_tree x) = Live t /\
    run_call (with_fns E fn (pick (s_fns x) (c_fns o))) fuel c
      (mkWorld (t_root t) (t_next t) st s (s_cur x) (s_hist x) (s_exit x) (g_trace g)) = bad.

(** ** Programs and user code without other faults
    (The conditions of SessionSpec.v and ProcessorSpec.v, for whole programs; commands of
    [R] may be removed.) *)
Section Decent.
Context (E : env) (fn : nat -> nat -> hook -> list str -> list event -> uresult) (R : nat -> Prop).
Definition decent_op (o : op) : Prop := tame_op R o /\ legible_op E o.
Definition decent_code : Prop :=
  (forall sid h args tr, Forall decent_op (ur_ops (e_handler E sid h args tr))) /\
  (forall n sid k args tr, Forall decent_op (ur_ops (fn n sid k args tr))) /\
  handlers_no_bad_cast E /\ (forall n sid k args tr s, ur_end (fn n sid k args tr) <> UThrow (XBadCast s)) /\
  strict (e_plat E) = false.
Definition decent_tree (t : tree) : Prop :=
  unique_ids (t_root t) /\ Forall (fun i => i < t_next t) (ids (t_root t)) /\ is_menu (t_root t) /\
  (forall id, R id -> id < t_next t /\ forall m anc, chain (t_root t) (m :: anc) -> cmd_id m <> id) /\
  user_tree (t_root t) /\ every (legible_name E) (t_root t).
Definition decent_line (l : str) : Prop := legible E l /\ one_line l.
Definition plain_line (l : str) : Prop := decent_line l /\ ~ recall E l.
(** [fed]: the sessions that got a command that is not a recall. *)
Definition decent_call (fed : nat -> Prop) (s : nat) (c : call) : Prop :=
  match c with
  | CFeed l => decent_line l /\ (recall E l -> fed s)
  | CPrevious l => plain_line l
  | CComplete l => legible E l
  | _ => True
  end.
Definition decent_lop (fed : nat -> Prop) (o : lop) : Prop :=
  match o with
  | LNew _ _ r st => decent_tree r /\ Forall plain_line (st_commands st)
  | LOpen _ _ size => size >= 1
  | LCall s c => decent_call fed s c
  | LMenu _ (MRemove id) => R id
  | LMenu _ (MInsert _ c) => user_tree c /\ every (legible_name E) c
  | _ => True
  end.
Definition also_fed (fed : nat -> Prop) (o : lop) (s : nat) : Prop :=
  fed s \/ exists l, o = LCall s (CFeed l) /\ ~ recall E l /\ split l <> Some [].
Fixpoint decent (fed : nat -> Prop) (os : list lop) : Prop :=
  match os with [] => True | o :: os' => decent_lop fed o /\ decent (also_fed fed o) os' end.
End Decent.

(** ** Moving
    The program in which [c'] is used instead of [c]. *)
Definition ren (c c' x : nat) : nat := if Nat.eqb x c then c' else x.
Definition rename (c c' : nat) (o : lop) : lop :=
  let r := ren c c' in
  match o with
  | LNew x t m st => LNew (r x) t m st
  | LCliFn x k f => LCliFn (r x) k f
  | LMove x y => LMove (r x) (r y)
  | LAssign x y => LAssign (r x) (r y)
  | LDelete x => LDelete (r x)
  | LOpen s x n => LOpen s (r x) n
  | o => o
  end.
Definition mentions (c : nat) (o : lop) : Prop :=
  match o with
  | LNew x _ _ _ | LCliFn x _ _ | LDelete x | LOpen _ x _ => x = c
  | LMove x y | LAssign x y => x = c \/ y = c
  | _ => False
  end.
(** No session of [c] is open. *)
Definition own_tree (g : prog) (c : nat) : option nat := match g_clis g c with Live o => c_tree o | _ => None end.
Definition unused (c : nat) (g : prog) : Prop :=
  forall s x, g_ses g s = Live x -> s_cli x <> c /\ own_tree g c <> Some (s_tree x).
(** The same results and the same events. *)
Definition same_end (a b : lend) : Prop :=
  match a, b with
  | LEnd rs g, LEnd rs' g' => rs = rs' /\ g_trace g = g_trace g'
  | LEUndef, LEUndef | LEDeep, LEDeep | LEIll, LEIll => True
  | _, _ => False
  end.

(** ** Parts of a program
    A part: some of the [Cli] objects, menus and sessions. *)
Record part := mkPart { p_cli : nat -> bool; p_tree : nat -> bool; p_ses : nat -> bool }.
(** [o] is about [A] only, or about others only. *)
Definition names (A : part) (o : lop) : list bool :=
  match o with
  | LNew c t _ _ => [p_cli A c; p_tree A t]
  | LCliFn c _ _ | LDelete c => [p_cli A c]
  | LMove c c' | LAssign c c' => [p_cli A c; p_cli A c']
  | LOpen s c _ => [p_ses A s; p_cli A c]
  | LSesFn s _ _ | LCall s _ | LClose s => [p_ses A s]
  | LMenu t _ => [p_tree A t]
  end.
Definition inside (A : part) (o : lop) : bool := forallb (fun b => b) (names A o).
Definition outside (A : part) (o : lop) : bool := forallb negb (names A o).
Definition splits (A : part) (os : list lop) : Prop := Forall (fun o => inside A o = true \/ outside A o = true) os.
(** The results of the calls in [A]. *)
Fixpoint results (A : part) (os : list lop) (rs : list ret) : list ret :=
  match os, rs with
  | o :: os', r :: rs' => if inside A o then r :: results A os' rs' else results A os' rs'
  | _, _ => []
  end.
(** User functions keep no state common to several sessions (IsolationSpec.v). *)
Definition separate_code (E : env) (fn : nat -> nat -> hook -> list str -> list event -> uresult) : Prop :=
  (forall sid h args t t', own sid t = own sid t' -> e_handler E sid h args t = e_handler E sid h args t') /\
  (forall n sid k args t t', own sid t = own sid t' -> fn n sid k args t = fn n sid k args t').
