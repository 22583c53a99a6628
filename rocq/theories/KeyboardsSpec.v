(** * Specification of several keyboards on one terminal *)

From Verif Require Import Base TerminalModel TelnetSpec KeyboardModel KeyboardSpec KeyboardsModel.
Open Scope nat_scope.
Open Scope list_scope.

Definition ks_reaches (sgn : bool) (m : tmode) (l : list ksact) (s : keyboards) : Prop := ks_run sgn l (ks_init m) = Some s.

(** The functions called on keyboard [i], after it was constructed *)
Definition calls_of (i : nat) (l : list ksact) : list kcall :=
  flat_map (fun a => match a with KsDo j (MCall c) => if Nat.eqb j i then [c] else [] | _ => [] end) l.
Definition calls (l : list kact) : list kcall := flat_map (fun a => match a with MCall c => [c] | _ => [] end) l.
(** Whether input is active after them *)
Definition on_calls (b : bool) (cs : list kcall) : bool := fold_left (fun b c => match c with Activate => true | Deactivate => false | Destroy => b end) cs b.
(** All that was typed; the bytes keyboard [i] ([None]: somebody else) has read *)
Definition all_typed (l : list ksact) : str := flat_map (fun a => match a with KsType t => t | _ => [] end) l.
Definition by_whom (o : option nat) (s : keyboards) : str :=
  map snd (filter (fun p => match fst p, o with Some a, Some b => Nat.eqb a b | None, None => true | _, _ => false end) (ks_cons s)).

(** [k] and [t] are the same keyboard as far as its users can tell. *)
Definition alike (k t : kbd) : Prop :=
  k_w k = k_w t /\ k_m k = k_m t /\ k_enabled k = k_enabled t /\ k_mtx k = k_mtx t /\ k_stop k = k_stop t /\ k_reader k = k_reader t /\
  k_tty k = k_tty t /\ k_old k = k_old t /\ k_ready k = k_ready t /\ k_eof k = k_eof t /\ k_read k = k_read t /\ k_keys k = k_keys t /\
  bytes_by true k = bytes_by true t.

(** ** Nested use
    The keyboards that are active, the last one activated first, if one that is deactivated or destroyed always is the last one
    activated. *)
Fixpoint stacked (st : list nat) (l : list ksact) : option (list nat) :=
  match l with
  | [] => Some st
  | KsNew i _ :: l' | KsDo i (MCall Activate) :: l' => if existsb (Nat.eqb i) st then None else stacked (i :: st) l'
  | KsDo i (MCall Deactivate) :: l' | KsDo i (MCall Destroy) :: l' =>
      match st with j :: st' => if Nat.eqb i j then stacked st' l' else None | [] => None end
  | KsMode _ :: _ => None
  | _ :: l' => stacked st l'
  end.
