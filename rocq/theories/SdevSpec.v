(* Connections between two nodes: what happens at a device. *)
From Verif Require Import Common Bytes.
Local Open Scope N_scope.

Definition cells := list (option N).  (* memory; None: not written *)

Inductive event :=
| Order (id : bytes)            (* connection [id] is ordered, as server or as client; they are numbered *)
| Connected (id : bytes)        (* the socket of the client for [id] is connected: new protocol *)
| Failed (id : bytes)           (* it could not be connected *)
| Accepted                      (* server socket accepts a connection: new protocol *)
| Begin (p : nat)               (* protocol [p] begins: a client sends its request *)
| Request (p : nat) (m : cells) (* server protocol [p] has received a request *)
| Sent (p : nat) (mk : bool)    (* [p] has sent its message; [mk]: transport can be made *)
| Reply (p : nat) (ok mk : bool) (* client protocol [p] has received the reply, [ok]: accepted *)
| Broken (p : nat)              (* socket of [p] has an error *)
| Expire (r : nat).             (* order [r] passes its time *)

Definition order_of (v : event) : list bytes := match v with Order id => [id] | _ => [] end.
Definition ordered (l : list event) : list bytes := flat_map order_of l.
