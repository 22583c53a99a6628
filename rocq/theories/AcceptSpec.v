(** * Specification: clients that connect *)

From Verif Require Import Base FromStringModel MenuModel SessionModel ServerModel.
Open Scope nat_scope.
Open Scope list_scope.

(** The bytes sent when a client connects: IAC DO LINEMODE, IAC SB LINEMODE MODE 0
    IAC SE, IAC WILL ECHO (RFC 854, 857, 1184). *)
Definition hello : str :=
  map ascii_of_nat [255; 253; 34; 255; 250; 34; 1; 0; 255; 240; 255; 251; 1].

(** Not the call of an enter action. *)
Definition no_enter (e : event) : Prop :=
  match e with EvHook _ KCliEnter _ | EvHook _ KSesEnter _ => False | _ => True end.

(** The global enter action, if set, returns. *)
Definition enter_returns (E : env) : Prop :=
  e_has E KCliEnter = true -> forall sid args tr, ur_end (e_hook E sid KCliEnter args tr) = UReturn.

(** Accepted connections whose handler did not run yet. *)
Definition accepts (q : list task) : nat := length (filter (fun t => match t with TkAccept _ => true | _ => false end) q).
