(** * Model of several Linux keyboards on one terminal
    Source: /repo/include/cli/detail/linuxkeyboard.h, as in KeyboardModel.v: each local session
    has a keyboard of its own, with its own thread, pipe, mutex and saved mode; terminal and
    standard input are the process's.  One thread (the one that runs the scheduler, say)
    constructs, activates, deactivates and destroys them. *)

From Verif Require Import Base TerminalModel KeyboardModel.
Open Scope nat_scope.
Open Scope list_scope.

(** The keyboards constructed so far; the one whose function the main thread is in; the
    terminal's mode, the standard input (what can be read, whether it has ended); who read what
    ([None]: somebody else).  The fields of a keyboard for the terminal and the standard
    input are not used. *)
Record keyboards := mkKbs { ks_all : nat -> option kbd; ks_busy : option nat; ks_tty : tmode; ks_ready : str; ks_eof : bool; ks_cons : list (option nat * ascii) }.
Definition ks_init (m : tmode) : keyboards := mkKbs (fun _ => None) None m [] false [].

(** A keyboard with the terminal and the standard input as they are *)
Definition load (s : keyboards) (k : kbd) : kbd := with_modes (ks_tty s) (k_old k) (with_input (ks_ready s) (ks_eof s) k).
Definition ks_set (i : nat) (k : kbd) (f : nat -> option kbd) : nat -> option kbd := fun j => if Nat.eqb j i then Some k else f j.
(** Whether the main thread is back in other code *)
Definition at_rest (k : kbd) : bool := match k_m k with MUser | MGone => true | _ => false end.
Definition died (s : keyboards) : bool :=
  match ks_busy s with Some i => match ks_all s i with Some k => match k_m k with MKilled => true | _ => false end | None => false end | None => false end.

(** A keyboard is constructed; something happens in keyboard [i]; somebody types; the input
    ends; somebody else reads; other code of the main thread sets the terminal's mode. *)
Inductive ksact := KsNew (i : nat) (junk : tmode) | KsDo (i : nat) (a : kact) | KsType (t : str) | KsHangup | KsTake | KsMode (m : tmode).

Section Keyboards.
Context (sgn : bool).
(** The main thread does one thing at a time. *)
Definition allowed (i : nat) (a : kact) (s : keyboards) : bool :=
  match a with
  | WGo | WSpurious | WSignal => true
  | MGo => match ks_busy s with Some j => Nat.eqb i j | None => false end
  | MCall _ => match ks_busy s with None => true | Some _ => false end
  | Type_ _ | Hangup | Take | SetMode _ => false
  end.
Definition ks_step (a : ksact) (s : keyboards) : option keyboards :=
  if died s then None else
  match a with
  | KsNew i junk =>
      match ks_busy s, ks_all s i with
      | None, None => Some (mkKbs (ks_set i (kbd_init (ks_tty s) junk) (ks_all s)) (Some i) (ks_tty s) (ks_ready s) (ks_eof s) (ks_cons s))
      | _, _ => None
      end
  | KsDo i b =>
      match ks_all s i with
      | Some k =>
          if allowed i b s then
            match k_step sgn b (load s k) with
            | Some k' =>
                Some (mkKbs (ks_set i k' (ks_all s))
                        (match b with MGo | MCall _ => if at_rest k' then None else Some i | _ => ks_busy s end)
                        (k_tty k') (k_ready k') (k_eof k')
                        (ks_cons s ++ map (fun p => (Some i, snd p)) (skipn (length (k_cons k)) (k_cons k'))))
            | None => None
            end
          else None
      | None => None
      end
  | KsType t => Some (mkKbs (ks_all s) (ks_busy s) (ks_tty s) (ks_ready s ++ t) (ks_eof s) (ks_cons s))
  | KsHangup => Some (mkKbs (ks_all s) (ks_busy s) (ks_tty s) (ks_ready s) true (ks_cons s))
  | KsTake =>
      match ks_ready s with
      | c :: r => Some (mkKbs (ks_all s) (ks_busy s) (ks_tty s) r (ks_eof s) (ks_cons s ++ [(None, c)]))
      | [] => None
      end
  | KsMode m => match ks_busy s with None => Some (mkKbs (ks_all s) None m (ks_ready s) (ks_eof s) (ks_cons s)) | Some _ => None end
  end.
Fixpoint ks_run (l : list ksact) (s : keyboards) : option keyboards :=
  match l with
  | [] => Some s
  | a :: l' => match ks_step a s with Some s' => ks_run l' s' | None => None end
  end.
End Keyboards.
