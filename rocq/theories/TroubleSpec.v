(** * Specification of shared history files with failures *)

From Verif Require Import Base StorageModel StorageSpec ShareModel ShareSpec FaultModel FaultSpec TroubleModel.
Open Scope nat_scope.
Open Scope list_scope.

(** The calls made, in order; the commands stored since the file was last cleared. *)
Fixpoint t_calls (l : list tact) : list sop :=
  match l with
  | [] => []
  | TAct (CallStore _ max cmds) :: l' | TNoRead _ max cmds :: l' => SStore max cmds :: t_calls l'
  | TAct (CallClear _) :: l' | TNoClear _ :: l' => SClear :: t_calls l'
  | _ :: l' => t_calls l'
  end.
Fixpoint t_entered (acc : list str) (l : list tact) : list str :=
  match l with
  | [] => acc
  | TAct (CallStore _ _ cmds) :: l' | TNoRead _ _ cmds :: l' => t_entered (acc ++ cmds) l'
  | TAct (CallClear _) :: l' => t_entered [] l'
  | _ :: l' => t_entered acc l'
  end.
(** How often writing failed or a process was killed. *)
Fixpoint hits (l : list tact) : nat :=
  match l with [] => 0 | TWriteError _ :: l' | TKill _ :: l' => S (hits l') | _ :: l' => hits l' end.

(** No call begins during another one. *)
Definition t_call (a : tact) : Prop :=
  match a with TAct (CallStore _ _ _) | TAct (CallClear _) | TNoRead _ _ _ | TNoClear _ => True | _ => False end.
Definition t_one_at_a_time (s0 : shared) (l : list tact) : Prop :=
  forall l1 a l2 s, l = l1 ++ a :: l2 -> t_call a -> t_run l1 s0 = Some s -> all_idle s.

(** Who acts, or is hit. *)
Definition t_actor (a : tact) : nat :=
  match a with TAct a => actor a | TNoRead i _ _ | TReadError i | TNoWrite i | TNoClear i | TWriteError i | TKill i => i end.
(** Process [i] begins a [Store] of these commands. *)
Definition stores (i max : nat) (cmds : list str) (a : tact) : Prop := a = TAct (CallStore i max cmds) \/ a = TNoRead i max cmds.
(** It calls nothing else, is not killed, and can write (reading may fail). *)
Definition unhurt (i : nat) (l : list tact) : Prop :=
  forall a, In a l -> t_actor a = i -> (exists n, a = TAct (GoOn i n)) \/ a = TReadError i.
(** From here on nobody but [i] opens the file for writing, or writes. *)
Definition t_writes (s : shared) (a : tact) : Prop := match a with TAct a => writes s a | _ => False end.
Definition t_sole_writer (i : nat) (s0 : shared) (l : list tact) : Prop :=
  forall l1 a l2 s, l = l1 ++ a :: l2 -> t_run l1 s0 = Some s -> t_writes s a -> t_actor a = i.

(** A byte at position [k] of what one of the calls of [Store] among [l] may write. *)
Definition t_byte (l : list tact) (k : nat) (b : ascii) : Prop :=
  exists i max cmds a old, In a l /\ stores i max cmds a /\
    nth_error (flat_map (fun c => c ++ ["010"%char]) (lastn max (old ++ cmds))) k = Some b.
