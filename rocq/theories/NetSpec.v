(* Two nodes connected by a network: what can be seen at the user side and at the network
   interface of one node. *)
From Verif Require Import Common.

Inductive packet : Type :=
| PData (d : N)                (* a buffer with data *)
| PAck (credit : nat).         (* acknowledge: so many more packets may be sent *)

Inductive act : Type :=
| APush (d : N)                (* the user gives a buffer *)
| ASend (p : packet)           (* SubmitSend *)
| APost                        (* SubmitRecv *)
| ADeliver (d : N).            (* the user gets a buffer *)

Definition pushed (l : list act) : list N := flat_map (fun a => match a with APush d => [d] | _ => [] end) l.
Definition delivered (l : list act) : list N := flat_map (fun a => match a with ADeliver d => [d] | _ => [] end) l.
Definition sent (l : list act) : list N := flat_map (fun a => match a with ASend (PData d) => [d] | _ => [] end) l.
Definition posts (l : list act) : nat := length (flat_map (fun a => match a with APost => [tt] | _ => [] end) l).
Definition credits (l : list act) : nat := list_sum (flat_map (fun a => match a with ASend (PAck n) => [n] | _ => [] end) l).
Definition acks (l : list act) : nat := length (flat_map (fun a => match a with ASend (PAck n) => [n] | _ => [] end) l).

(* what happens at one node *)
Inductive event : Type :=
| EPush (d : N)                (* the user puts a buffer in the queue, when there is room *)
| EInput                       (* ProcessInputEvent *)
| ETake                        (* the user takes a buffer from the other queue *)
| EFill (k : nat)              (* ProcessOutputEvent, ProcessPoolEvent, timer; the pool has k buffers *)
| ESent                        (* the oldest send operation is completed *)
| ERecv (k : nat).             (* the next packet is received; the pool has k buffers *)
