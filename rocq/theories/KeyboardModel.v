(** * Model of the Linux keyboard: decoding, the keyboard thread, activation, shutdown
    Source: /repo/include/cli/detail/linuxkeyboard.h.  The keyboard thread ([servant])
    runs [Read]; one thread (here: the main thread) constructs the keyboard, activates,
    deactivates and destroys it; the rest of the world types, hangs up, reads the
    standard input and sets the terminal's mode.  An execution is any list of actions.
    Assumed: the standard input is a terminal (or behaves like one for [tcgetattr]),
    [pipe] succeeds.  Calls that fail, and exceptions of [Post]: LinuxFailModel.v.  Not modelled:
    exceptions of the mutex, what the kernel's line discipline does to pending input when
    the mode changes. *)

From Verif Require Import Base TerminalModel.
Open Scope nat_scope.
Open Scope list_scope.

(** Terminal modes ([termios]): two flags and all the rest. *)
Record tmode := mkMode { md_icanon : bool; md_echo : bool; md_rest : nat }.
(** linuxkeyboard.h:223-224 *)
Definition manual (m : tmode) : tmode := mkMode false false (md_rest m).

(** Where the keyboard thread is: 149 before locking; 150 evaluating the predicate,
    suspended, woken; before unlocking (151); in [select] (72); before the reads of 174,
    187, 190 and 194; before [Notify] (153); finished. *)
Inductive wpc := WLock | WCheck | WSleep | WWoke | WUnlock | WSelect | WGet0 | WGet1 | WGet2 | WGet3 | WNotify (k : key) | WDone.

(** Where the main thread is: in other code; in [ActivateInputImpl] (134-140, with
    217-226), [DeactivateInput] (124-129), the destructor (114-119, with 89-95); after it; or the
    process was killed. *)
Inductive mpc :=
| MUser
| MAct0 | MAct1 | MAct2 | MAct3 | MAct4 | MAct5
| MDe0 | MDe1 | MDe2 | MDe3
| MDt0 | MDt1 | MDt2 | MDt3 | MGone | MKilled.

Inductive who := Worker | Main.
(** The members (233-239, 98-99; [k_stop]: something was written into the pipe,
    [k_reader]: its reading end is open), the threads, the terminal, the standard input
    (what can be read, and whether it has ended), what [GetChar] returned so far, which
    bytes were read and whether by the keyboard, and the keys given to [Notify]. *)
Record kbd := mkKbd {
  k_w : wpc; k_m : mpc; k_enabled : bool; k_mtx : option who; k_stop : bool; k_reader : bool;
  k_tty : tmode; k_old : tmode; k_ready : str; k_eof : bool;
  k_read : str; k_cons : list (bool * ascii); k_keys : list key }.

(** linuxkeyboard.h:107-113 the constructor: the thread is started, then input is activated.  [junk]:
    the indeterminate content of [oldt]. *)
Definition kbd_init (m junk : tmode) : kbd :=
  mkKbd WLock MAct0 false None false true m junk [] false [] [] [].

Definition to_w (p : wpc) (s : kbd) : kbd :=
  mkKbd p (k_m s) (k_enabled s) (k_mtx s) (k_stop s) (k_reader s) (k_tty s) (k_old s) (k_ready s) (k_eof s) (k_read s) (k_cons s) (k_keys s).
Definition to_m (p : mpc) (s : kbd) : kbd :=
  mkKbd (k_w s) p (k_enabled s) (k_mtx s) (k_stop s) (k_reader s) (k_tty s) (k_old s) (k_ready s) (k_eof s) (k_read s) (k_cons s) (k_keys s).
Definition with_mtx (o : option who) (s : kbd) : kbd :=
  mkKbd (k_w s) (k_m s) (k_enabled s) o (k_stop s) (k_reader s) (k_tty s) (k_old s) (k_ready s) (k_eof s) (k_read s) (k_cons s) (k_keys s).
Definition with_enabled (b : bool) (s : kbd) : kbd :=
  mkKbd (k_w s) (k_m s) b (k_mtx s) (k_stop s) (k_reader s) (k_tty s) (k_old s) (k_ready s) (k_eof s) (k_read s) (k_cons s) (k_keys s).
Definition with_pipe (stop reader : bool) (s : kbd) : kbd :=
  mkKbd (k_w s) (k_m s) (k_enabled s) (k_mtx s) stop reader (k_tty s) (k_old s) (k_ready s) (k_eof s) (k_read s) (k_cons s) (k_keys s).
Definition with_modes (tty old : tmode) (s : kbd) : kbd :=
  mkKbd (k_w s) (k_m s) (k_enabled s) (k_mtx s) (k_stop s) (k_reader s) tty old (k_ready s) (k_eof s) (k_read s) (k_cons s) (k_keys s).
Definition with_input (ready : str) (eof : bool) (s : kbd) : kbd :=
  mkKbd (k_w s) (k_m s) (k_enabled s) (k_mtx s) (k_stop s) (k_reader s) (k_tty s) (k_old s) ready eof (k_read s) (k_cons s) (k_keys s).
Definition add_key (k : key) (s : kbd) : kbd :=
  mkKbd (k_w s) (k_m s) (k_enabled s) (k_mtx s) (k_stop s) (k_reader s) (k_tty s) (k_old s) (k_ready s) (k_eof s) (k_read s) (k_cons s) (k_keys s ++ [k]).

(** linuxkeyboard.h:162-168 [GetChar]: at the end of the input the buffer keeps its 0; [None]: blocked. *)
Definition getchar (s : kbd) : option (ascii * kbd) :=
  match k_ready s with
  | c :: r => Some (c, mkKbd (k_w s) (k_m s) (k_enabled s) (k_mtx s) (k_stop s) (k_reader s) (k_tty s) (k_old s) r (k_eof s)
                         (k_read s ++ [c]) (k_cons s ++ [(true, c)]) (k_keys s))
  | [] => if k_eof s then
            Some ("000"%char, mkKbd (k_w s) (k_m s) (k_enabled s) (k_mtx s) (k_stop s) (k_reader s) (k_tty s) (k_old s) [] true
                         (k_read s ++ ["000"%char]) (k_cons s) (k_keys s))
          else None
  end.

Section Keyboard.
(** [sgn]: whether [char] is signed, so that 255 is [EOF]. *)
Context (sgn : bool).

(** linuxkeyboard.h:170-215 [Get], after each of its reads *)
Definition is_byte (n : N) (c : ascii) : bool := N.eqb (byte_of c) n.
Definition get0 (c : ascii) : wpc :=                                       (* 175-186, 208-212 *)
  if (sgn && is_byte 255 c) || is_byte 4 c then WNotify KEof
  else if is_byte 127 c || is_byte 8 c then WNotify KBackspace
  else if is_byte 10 c then WNotify KRet
  else if is_byte 12 c then WNotify KClear
  else if is_byte 27 c then WGet1
  else WNotify (KAscii c).
Definition get1 (c : ascii) : wpc := if is_byte 91 c then WGet2 else WNotify KIgnored.   (* 188, 214 *)
Definition get2 (c : ascii) : wpc :=                                       (* 191-205 *)
  if is_byte 51 c then WGet3
  else if is_byte 65 c then WNotify KUp
  else if is_byte 66 c then WNotify KDown
  else if is_byte 68 c then WNotify KLeft
  else if is_byte 67 c then WNotify KRight
  else if is_byte 70 c then WNotify KEnd
  else if is_byte 72 c then WNotify KHome
  else WNotify KIgnored.
Definition get3 (c : ascii) : wpc := if is_byte 126 c then WNotify KCanc else WNotify KIgnored.  (* 195-196 *)

Definition lock (who : who) (s : kbd) : option kbd :=
  match k_mtx s with None => Some (with_mtx (Some who) s) | Some _ => None end.
Definition opt_map {A B} (f : A -> B) (o : option A) : option B := match o with Some x => Some (f x) | None => None end.
Definition read_then (f : ascii -> wpc) (s : kbd) : option kbd := opt_map (fun '(c, s') => to_w (f c) s') (getchar s).

(** The next step of the keyboard thread; [None]: it cannot move. *)
Definition w_step (s : kbd) : option kbd :=
  match k_w s with
  | WLock => opt_map (to_w WCheck) (lock Worker s)
  | WCheck => if k_enabled s then Some (to_w WUnlock s) else Some (to_w WSleep (with_mtx None s))
  | WSleep => None
  | WWoke => opt_map (to_w WCheck) (lock Worker s)
  | WUnlock => Some (to_w WSelect (with_mtx None s))
  | WSelect =>                                                             (* 65-87 *)
      if k_stop s then Some (to_w WDone (with_pipe true false s))
      else match k_ready s with
           | _ :: _ => Some (to_w WGet0 s)
           | [] => if k_eof s then Some (to_w WGet0 s) else None
           end
  | WGet0 => read_then get0 s
  | WGet1 => read_then get1 s
  | WGet2 => read_then get2 s
  | WGet3 => read_then get3 s
  | WNotify k => Some (to_w WLock (add_key k s))
  | WDone => None
  end.

(** The next step of the main thread. *)
Definition m_step (s : kbd) : option kbd :=
  match k_m s with
  | MUser => None
  | MAct0 => Some (to_m MAct1 (with_modes (k_tty s) (k_tty s) s))            (* tcgetattr *)
  | MAct1 => Some (to_m MAct2 (with_modes (manual (k_old s)) (k_old s) s))   (* tcsetattr *)
  | MAct2 => opt_map (to_m MAct3) (lock Main s)
  | MAct3 => Some (to_m MAct4 (with_enabled true s))
  | MAct4 => Some (to_m MAct5 (match k_w s with WSleep => to_w WWoke s | _ => s end))   (* notify_one *)
  | MAct5 => Some (to_m MUser (with_mtx None s))
  | MDe0 => Some (to_m MDe1 (with_modes (k_old s) (k_old s) s))
  | MDe1 => opt_map (to_m MDe2) (lock Main s)
  | MDe2 => Some (to_m MDe3 (with_enabled false s))
  | MDe3 => Some (to_m MUser (with_mtx None s))
  | MDt0 => Some (to_m MDt1 (with_modes (k_old s) (k_old s) s))
  | MDt1 =>                                                                (* 91: write, or SIGPIPE *)
      if k_reader s then Some (to_m MDt2 (with_pipe true true s)) else Some (to_m MKilled s)
  | MDt2 => Some (to_m MDt3 s)                                             (* 92-94 *)
  | MDt3 => match k_w s with WDone => Some (to_m MGone s) | _ => None end  (* join *)
  | MGone => None
  | MKilled => None
  end.

(** What can happen: a step of a thread; a spurious wake-up; a signal handled by the
    keyboard thread while in [select], which then fails and leaves the sets as they
    were, the pipe in it (72-78); the main thread calls a function; somebody types; the
    input ends; somebody else reads a byte of the input; other code of the main thread
    (a command, say) sets the terminal's mode. *)
Inductive kcall := Activate | Deactivate | Destroy.
Inductive kact := WGo | MGo | WSpurious | WSignal | MCall (c : kcall) | Type_ (s : str) | Hangup | Take | SetMode (m : tmode).

Definition k_step (a : kact) (s : kbd) : option kbd :=
  match k_m s with
  | MKilled => None
  | _ =>
    match a with
    | WGo => w_step s
    | MGo => m_step s
    | WSpurious => match k_w s with WSleep => Some (to_w WWoke s) | _ => None end
    | WSignal => match k_w s with WSelect => Some (to_w WDone (with_pipe (k_stop s) false s)) | _ => None end
    | MCall c =>
        match k_m s with
        | MUser => Some (to_m (match c with Activate => MAct0 | Deactivate => MDe0 | Destroy => MDt0 end) s)
        | _ => None
        end
    | Type_ t => Some (with_input (k_ready s ++ t) (k_eof s) s)
    | Hangup => Some (with_input (k_ready s) true s)
    | Take =>
        match k_ready s with
        | c :: r => Some (mkKbd (k_w s) (k_m s) (k_enabled s) (k_mtx s) (k_stop s) (k_reader s) (k_tty s) (k_old s) r (k_eof s)
                            (k_read s) (k_cons s ++ [(false, c)]) (k_keys s))
        | [] => None
        end
    | SetMode m =>
        match k_m s with
        | MUser | MGone => Some (with_modes m (k_old s) s)
        | _ => None
        end
    end
  end.
Fixpoint k_run (l : list kact) (s : kbd) : option kbd :=
  match l with
  | [] => Some s
  | a :: l' => match k_step a s with Some s' => k_run l' s' | None => None end
  end.
End Keyboard.
