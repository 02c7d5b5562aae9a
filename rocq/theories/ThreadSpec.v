(* Vocabulary for the event loop of a thread. *)
From Verif Require Import Common.

Inductive waitmode := WNow | WTimed | WForever.      (* time-out = 0, > 0, < 0 *)
Inductive wakereason := WSignal | WTimeout | WSpurious.

Section S.
Context {E : Type}.

Inductive tact :=
| TFire (prio : Z) (e : E)     (* any thread fires an event *)
| TWait (m : waitmode)         (* the loop thread calls WaitEvent *)
| TWake (r : wakereason)       (* the loop thread leaves the condition wait *).

Inductive tout := TNothing | TReturn (x : option (nat * E)).  (* WaitEvent returned: queue number and event, or false *)

(* priority to queue number: negative means lowest (number 2) *)
Definition prio_queue (p : Z) : nat := if (p <? 0)%Z then 2 else Z.to_nat p.

(* events fired into queue [q] by a schedule, oldest first *)
Definition fired_into (q : nat) (l : list tact) : list E :=
  flat_map (fun a => match a with TFire p e => if prio_queue p =? q then [e] else [] | _ => [] end) l.

(* events returned from queue [q], oldest first *)
Definition returned_from (q : nat) (l : list tout) : list E :=
  flat_map (fun o => match o with TReturn (Some (n, e)) => if n =? q then [e] else [] | _ => [] end) l.

(* number of events returned in total *)
Definition num_returned (l : list tout) : nat :=
  length (filter (fun o => match o with TReturn (Some _) => true | _ => false end) l).

Definition valid_prio (a : tact) : Prop := match a with TFire p _ => (p < 3)%Z | _ => True end.

(* events that must be returned before the one at position [k] of its queue is,
   when the queue is looked at every time *)
Definition visits (k : nat) : nat := k + 1 + (k + 7) / 7.
Definition wait_bound (q k : nat) : nat := 8 ^ q * visits k.
End S.
Arguments tact : clear implicits.
Arguments tout : clear implicits.
