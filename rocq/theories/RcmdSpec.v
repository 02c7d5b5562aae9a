(* Commands between two nodes: what is done and what is seen. *)
From Verif Require Import Common Bytes.

(* the two ends of a connection: the one which connected, and the one which accepted *)
Inductive end_ := Client | Server.
Definition other (e : end_) : end_ := match e with Client => Server | Server => Client end.

(* answer given to the caller of a command *)
Inductive answer := Timedout | Failed | Result (r : bytes).

(* what happens at one end; commands of one end are numbered in the order of their submission *)
Inductive op :=
| Submit (arg : bytes)            (* command for the other node *)
| SendDone                        (* packet is sent *)
| Recv                            (* packet has been received *)
| Finish (t : nat) (r : bytes)    (* command [t] of the other node is executed *)
| Late (t : nat)                  (* own command [t] passes its deadline *)
| FarLate (t : nat)               (* command [t] of the other node passes its deadline here *)
| Timer                           (* ProcessTimeout *)
| Cancel (t : nat).               (* own command [t] is cancelled by its caller *)

Inductive event :=
| At (e : end_) (o : op)
| Lost                            (* connection breaks *)
| Again.                          (* connection is there again *)

(* what was submitted at [e] *)
Definition submits (e : end_) (v : event) : list bytes :=
  match v with At Client (Submit a) => match e with Client => [a] | _ => [] end
             | At Server (Submit a) => match e with Server => [a] | _ => [] end
             | _ => [] end.
Definition submitted (e : end_) (l : list event) : list bytes := flat_map (submits e) l.

(* kinds of events: no cancellation by the caller, no break of the connection, no deadline
   at the executing node *)
Definition plain (o : op) : Prop := match o with Cancel _ => False | _ => True end.
Definition tame (v : event) : Prop := match v with At _ o => plain o | _ => True end.
Definition kept (v : event) : Prop := match v with Lost => False | _ => True end.
Definition unhurried (o : op) : Prop := match o with FarLate _ => False | _ => True end.
Definition calm_far (v : event) : Prop := match v with At _ o => unhurried o | _ => True end.
(* events which only go on with what is there *)
Definition onward (v : event) : Prop := match v with At _ SendDone | At _ Recv | At _ (Finish _ _) => True | _ => False end.
(* the same, with the results [res] of the executions *)
Definition onward_res (res : nat -> bytes) (v : event) : Prop := match v with At _ SendDone | At _ Recv => True | At _ (Finish t r) => r = res t | _ => False end.
