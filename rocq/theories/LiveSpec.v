(** * Specification of changing menus while a line is being processed *)

From Verif Require Import Base FromStringModel FromStringProofs HistoryModel HistorySpec StorageModel MenuModel SessionModel ResolveSpec SessionSpec.
Open Scope nat_scope.
Open Scope list_scope.

Section Env.
Context (E : env).

(** Calling the function [u] in [w]: how it ends, and the world it leaves. *)
Definition call_end (u : nat) (vs : list value) (w : world) : uend :=
  ur_end (e_handler E (w_sid w) u vs (w_trace w ++ [EvCall (w_sid w) u vs])).
Definition call_left (u : nat) (vs : list value) (w : world) : world :=
  let w1 := log (EvCall (w_sid w) u vs) w in
  apply_ops (ur_ops (e_handler E (w_sid w) u vs (w_trace w1))) w1.

(** The words [toks] end with a call of the function [u] with the arguments [vs], of an
    enabled command that is in a menu of [root]. *)
Inductive offered (root : cmd) (toks : list str) : nat -> list value -> Prop :=
| of_fn m anc id name d pars pd u pre args vs :
    chain root (m :: anc) -> In (CFn id name true d pars pd (HUser u)) (cmd_kids m) ->
    toks = pre ++ name :: args -> converts E pars args vs -> offered root toks u vs
| of_free m anc id name d pd u pre args :
    chain root (m :: anc) -> In (CFree id name true d pd (HUser u)) (cmd_kids m) ->
    toks = pre ++ name :: args -> offered root toks u [VList args].
(** The last of the words leads to the menu [id], which is enabled and in the tree. *)
Definition leads (root : cmd) (toks : list str) (id : nat) : Prop :=
  exists m anc pre word, chain root (m :: anc) /\ cmd_id m = id /\ cmd_en m = true /\
    toks = pre ++ [word] /\ (word = cmd_name m \/ word = lit "..").

(** From one world to another by calls, each of a command that is enabled and in the menus
    at that moment; all of them ended with a [std::bad_cast]. *)
Inductive turned_down (toks : list str) : world -> world -> Prop :=
| td_none w : turned_down toks w w
| td_call w w1 u vs what :
    turned_down toks w w1 -> offered (w_root w1) toks u vs ->
    call_end u vs w1 = UThrow (XBadCast what) -> turned_down toks w (call_left u vs w1).

(** The line ran a function that returned, or led to a menu; or a function threw. *)
Definition answered (toks : list str) (w1 w' : world) : Prop :=
  (exists u vs, offered (w_root w1) toks u vs /\ call_end u vs w1 = UReturn /\ w' = call_left u vs w1) \/
  (exists id, leads (w_root w1) toks id /\ w' = set_cur id w1).
Definition threw (toks : list str) (w1 w' : world) (x : exn) : Prop :=
  exists u vs, offered (w_root w1) toks u vs /\ call_end u vs w1 = UThrow x /\ w' = call_left u vs w1.

(** Functions that end with a [std::bad_cast] change no vector: they only print, enable
    and disable. *)
Definition keeps_vectors (o : op) : Prop := match o with OInsert _ _ | ORemove _ => False | _ => True end.
Definition bad_casts_keep_vectors : Prop :=
  forall sid u vs tr what, ur_end (e_handler E sid u vs tr) = UThrow (XBadCast what) ->
    Forall keeps_vectors (ur_ops (e_handler E sid u vs tr)).
End Env.

(** The commands in the vector of the menu [mid], in order. *)
Definition holds (mid : nat) (l : list nat) (root : cmd) : Prop :=
  exists m anc, chain root (m :: anc) /\ cmd_id m = mid /\ map cmd_id (cmd_kids m) = l.
(** The vector is the same all the time while the operations are carried out. *)
Definition left_alone (mid : nat) (os : list op) (w : world) : Prop :=
  exists l, forall pre post, os = pre ++ post -> holds mid l (w_root (apply_ops pre w)).
(** What the function [u] does to the menus when it is called in [w]. *)
Definition call_ops (E : env) (u : nat) (vs : list value) (w : world) : list op :=
  ur_ops (e_handler E (w_sid w) u vs (w_trace w ++ [EvCall (w_sid w) u vs])).
