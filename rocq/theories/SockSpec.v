(* Buffers sent over a stream socket: what is given at one end and what comes out at the
   other. *)
From Verif Require Import Common Bytes.

Inductive message : Type :=
| MBuf (typ : N) (segs : list bytes)   (* a buffer with its segments *)
| MNull                                (* a null buffer *)
| MAck (n : N).                        (* acknowledge *)
Inductive item : Type :=
| IBuf (typ : N) (d : bytes)
| INull (typ : N)                      (* a null buffer *)
| ICredit (n : N).
Definition item_of (m : message) : item :=
  match m with MBuf t s => IBuf t (concat s) | MNull => INull 0 | MAck n => ICredit n end.

Inductive event : Type :=
| ESend (m : message) (stale : bytes)  (* SubmitSend; stale: old bytes behind the header *)
| EPost (segs : list nat)              (* SubmitRecv with a buffer: sizes of its segments *)
| EWrite (k : nat)                     (* the socket takes up to k bytes *)
| ERead (k : nat).                     (* the socket gives up to k bytes *)
Definition messages (l : list event) : list message := flat_map (fun e => match e with ESend m _ => [m] | _ => [] end) l.
Definition posts (l : list event) : list (list nat) := flat_map (fun e => match e with EPost s => [s] | _ => [] end) l.
