(* The multiplexer seen from outside: buffers arriving on inputs, buffers taken from
   outputs. *)
From Verif Require Import Common.

Section S.
Context {X : Type}.

Inductive xact :=
| AArrive (i : nat) (x : X)  (* the module connected to input i sends x, when it can *)
| AFireIn (k : nat)          (* a sender fires its input event (after releasing the mutex): k-th of those waiting *)
| ATake (o : nat)            (* the module connected to output o receives *)
| AFireOut (k : nat)         (* a receiver fires its output event *)
| AEvent                     (* the thread of the multiplexer takes the next event, when idle *)
| AGo                        (* ... makes the next step *)
| AStop | AStart.            (* the multiplexer module is stopped, started *)

(* buffers of input [i] *)
Definition of_input (i : nat) (l : list (nat * X)) : list X :=
  map snd (filter (fun p => fst p =? i) l).
Definition prefix {A} (a b : list A) : Prop := exists r, b = a ++ r.
End S.
Arguments xact : clear implicits.
