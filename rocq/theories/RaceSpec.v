(** * Specification of data races
    Happens-before, as in C++ ([intro.races]): the order of each thread, from each release of a
    mutex to the later acquisitions of it, from the start of a thread to its steps, and from its
    steps to the return of [join].  Executions are interleavings; by the standard, a program that
    only uses mutexes and has no race in these has no other executions. *)

From Verif Require Import Base SchedulerModel.

(** Mutexes; variables: the members [tasks] and [running] of a scheduler; [enabled], [oldt], [newt]
    of a keyboard and the two ends of its pipe; [handler] of an input device; the session with its
    terminal, history and stream; variables of user code. *)
Inductive mut := SchedM | KbdM.
Inductive loc := XTasks | XRunning | XEnabled | XOldt | XNewt | XShutdown | XReadPipe | XHandler | XSession | XUser (n : nat).

(** What a thread does: acquire and release; read, write, end the life of a variable; start and
    join a thread; and, to talk about tasks: put the [k]th task into the queue, take the [k]th out
    of it, start a task. *)
Inductive op :=
| OAcq (m : mut) | ORel (m : mut) | ORead (x : loc) | OWrite (x : loc) | OFree (x : loc) | OFork (i : nat) | OJoin (i : nat)
| OSend (k : nat) (j : job) | OTake (k : nat) (j : job) | OBegin (j : job).
Record ev := mkEv { e_thr : nat; e_op : op }.

Definition edge (a b : ev) : Prop :=
  e_thr a = e_thr b \/ (exists m, e_op a = ORel m /\ e_op b = OAcq m) \/ e_op a = OFork (e_thr b) \/ e_op b = OJoin (e_thr a).
(** [hb t i j]: the [i]th event of [t] happens before the [j]th. *)
Inductive hb (t : list ev) : nat -> nat -> Prop :=
| hb_edge i j a b : i < j -> nth_error t i = Some a -> nth_error t j = Some b -> edge a b -> hb t i j
| hb_trans i j k : hb t i j -> hb t j k -> hb t i k.

Definition writes (x : loc) (a : ev) : Prop := e_op a = OWrite x \/ e_op a = OFree x.
Definition uses (x : loc) (a : ev) : Prop := e_op a = ORead x \/ writes x a.
(** Two threads use a variable, one changes it, and neither use happens before the other. *)
Definition race_on (t : list ev) (x : loc) : Prop :=
  exists i j a b, nth_error t i = Some a /\ nth_error t j = Some b /\ e_thr a <> e_thr b /\
    uses x a /\ uses x b /\ (writes x a \/ writes x b) /\ ~ hb t i j /\ ~ hb t j i.

(** Uses of variables of user code. *)
Definition user_use (a : ev) : Prop := exists n, uses (XUser n) a.
