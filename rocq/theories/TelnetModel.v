(** * Model of telnet sessions: protocol, output encoding and key decoding
    Source: /repo/include/cli/detail/genericasioremotecli.h, detail/server.h. *)

From Verif Require Import Base TerminalModel.
Open Scope nat_scope.
Open Scope list_scope.

(** genericasioremotecli.h:57-66 [Encode] *)
Definition encode (data : str) : str :=
  flat_map (fun c => if Ascii.eqb c "010" then ["013"; c]%char else [c]) data.

(** genericasioremotecli.h:172-220 the commands and options.  Whether [char] is signed
    does not matter: both sides of all comparisons are [char] constants. *)
Definition SE : ascii := "240".
Definition NOP : ascii := "241".
Definition GA : ascii := "249".
Definition SB : ascii := "250".
Definition WILL : ascii := "251".
Definition WONT : ascii := "252".
Definition DO : ascii := "253".
Definition DONT : ascii := "254".
Definition IAC : ascii := "255".
Definition opt_ECHO : ascii := "001".
Definition opt_SGA : ascii := "003".
Definition opt_NAWS : ascii := "031".

(** genericasioremotecli.h:420-422 [State] and [escape] *)
Inductive tstate := TData | TSub | TWaitWill | TWaitWont | TWaitDo | TWaitDont.
Record telnet := mkTel { t_state : tstate; t_escape : bool }.
Definition telnet_init : telnet := mkTel TData false.

(** What consuming a byte does: a call of the virtual function [Output], bytes sent to
    the peer, and a message on [std::cerr] or [std::cout] of the process.  Traces
    (CLI_TELNET_TRACE) are off. *)
Inductive tout := OutByte (c : ascii) | Send (b : str) | Diag.

(** genericasioremotecli.h:403-409 [SendIacCmd]: written to the session's stream, hence
    encoded (server.h:101-105).  Assumes that the stream has no pending width and no
    error state; errors of the socket are not modelled. *)
Definition send_iac (action op : ascii) : tout := Send (encode [IAC; action; op]).

(** genericasioremotecli.h:345-361 *)
Definition rx_will (c : ascii) : tout :=
  if Ascii.eqb c opt_SGA then send_iac WILL opt_SGA
  else if Ascii.eqb c opt_NAWS then send_iac DO opt_NAWS
  else send_iac DONT c.
(** genericasioremotecli.h:370-386 *)
Definition rx_do (c : ascii) : tout :=
  if Ascii.eqb c opt_ECHO then send_iac DO opt_ECHO
  else if Ascii.eqb c opt_SGA then send_iac WILL opt_SGA
  else send_iac WONT c.

(** genericasioremotecli.h:248-275 [Data]; [RxWont], [RxDont] and [RxSub] do nothing. *)
Definition t_data (c : ascii) (s : tstate) : tstate * list tout :=
  match s with
  | TData => (TData, [OutByte c])
  | TSub => (TSub, [])
  | TWaitWill => (TData, [rx_will c])
  | TWaitWont => (TData, [])
  | TWaitDo => (TData, [rx_do c])
  | TWaitDont => (TData, [])
  end.

(** genericasioremotecli.h:277-343 [Command]; other bytes (no [default]) do nothing. *)
Definition t_command (c : ascii) (s : tstate) : tstate * list tout :=
  if Ascii.eqb c SE then match s with TSub => (TData, []) | _ => (s, [Diag]) end
  else if (N.leb 241 (byte_of c) && N.leb (byte_of c) 249)%N then (TData, [])
  else if Ascii.eqb c SB then match s with TSub => (s, [Diag]) | _ => (TSub, []) end
  else if Ascii.eqb c WILL then (TWaitWill, [])
  else if Ascii.eqb c WONT then (TWaitWont, [])
  else if Ascii.eqb c DO then (TWaitDo, [])
  else if Ascii.eqb c DONT then (TWaitDont, [])
  else (s, []).

(** genericasioremotecli.h:229-246 [Consume] *)
Definition consume (c : ascii) (t : telnet) : telnet * list tout :=
  if t_escape t then
    let (s, o) := if Ascii.eqb c IAC then t_data c (t_state t) else t_command c (t_state t) in
    (mkTel s false, o)
  else if Ascii.eqb c IAC then (mkTel (t_state t) true, [])
  else let (s, o) := t_data c (t_state t) in (mkTel s false, o).

(** genericasioremotecli.h:221-225 [OnDataReceived] *)
Fixpoint on_data (data : str) (t : telnet) : telnet * list tout :=
  match data with
  | [] => (t, [])
  | c :: data' => let (t1, o) := consume c t in let (t2, o') := on_data data' t1 in (t2, o ++ o')
  end.

(** server.h:61-77 [Read]: the completions of [async_read_some] one after the other *)
Fixpoint reads (chunks : list str) (t : telnet) : telnet * list tout :=
  match chunks with
  | [] => (t, [])
  | d :: chunks' => let (t1, o) := on_data d t in let (t2, o') := reads chunks' t1 in (t2, o ++ o')
  end.

(** ** Keys: genericasioremotecli.h:471-541 [CliTelnetSession::Output] *)
Inductive kstep := K1 | K2 | K3 | K4 | KWait0.
Definition is_char (n : N) (c : ascii) : bool := N.eqb (byte_of c) n.
Definition output (c : ascii) (s : kstep) : kstep * list key :=
  match s with
  | K1 =>
      if is_char 255 c || is_char 4 c then (K1, [KEof])     (* static_cast<char>(EOF), EOT *)
      else if is_char 8 c || is_char 127 c then (K1, [KBackspace])
      else if is_char 12 c then (K1, [KClear])
      else if is_char 27 c then (K2, [])
      else if is_char 13 c then (KWait0, [])
      else (K1, [KAscii c])
  | K2 => if is_char 91 c then (K3, []) else (K1, [KIgnored])
  | K3 =>
      if is_char 65 c then (K1, [KUp])
      else if is_char 66 c then (K1, [KDown])
      else if is_char 68 c then (K1, [KLeft])
      else if is_char 67 c then (K1, [KRight])
      else if is_char 70 c then (K1, [KEnd])
      else if is_char 72 c then (K1, [KHome])
      else (K4, [])
  | K4 => (K1, [if is_char 126 c then KCanc else KIgnored])
  | KWait0 => (K1, [if is_char 0 c || is_char 10 c then KRet else KIgnored])
  end.
Fixpoint outputs (cs : str) (s : kstep) : kstep * list key :=
  match cs with
  | [] => (s, [])
  | c :: cs' => let (s1, k) := output c s in let (s2, k') := outputs cs' s1 in (s2, k ++ k')
  end.

(** A [CliTelnetSession] as far as input is concerned; the keys are those given to
    [Notify] (inputdevice.h:59-62), in this order. *)
Record tdev := mkDev { d_tel : telnet; d_step : kstep }.
Definition dev_init : tdev := mkDev telnet_init K1.
Definition bytes_of (o : list tout) : str := flat_map (fun x => match x with OutByte c => [c] | _ => [] end) o.
Definition sent_of (o : list tout) : list str := flat_map (fun x => match x with Send b => [b] | _ => [] end) o.
Definition receive (data : str) (d : tdev) : tdev * (list key * list str) :=
  let (t, o) := on_data data (d_tel d) in
  let (s, ks) := outputs (bytes_of o) (d_step d) in
  (mkDev t s, (ks, sent_of o)).
Fixpoint receives (chunks : list str) (d : tdev) : tdev * (list key * list str) :=
  match chunks with
  | [] => (d, ([], []))
  | c :: chunks' =>
      let '(d1, (k1, s1)) := receive c d in
      let '(d2, (k2, s2)) := receives chunks' d1 in
      (d2, (k1 ++ k2, s1 ++ s2))
  end.

(** ** Output: server.h:101-110 [xsputn] and [overflow]: the bytes given to [Send] *)
Inductive write := WString (s : str) | WChar (c : ascii).
Definition written (w : write) : str := match w with WString s => s | WChar c => [c] end.
Definition wire_bytes (ws : list write) : str := flat_map (fun w => encode (written w)) ws.

(** genericasioremotecli.h:68-98 [OnConnect] *)
Definition greeting : list write :=
  [WString [IAC; DO; "034"%char];
   WString [IAC; SB; "034"%char; "001"%char; "000"%char; IAC; SE];
   WString [IAC; WILL; opt_ECHO]].
