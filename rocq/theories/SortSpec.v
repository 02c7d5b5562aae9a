(* Specification for the HADAQ sorter. *)
From Verif Require Import Common ListFacts Bytes HadSpec.
Local Open Scope N_scope.

(* a subevent and its position in the order of arrival *)
Definition item : Type := nat * sub.
(* trigger number in a range of [2^k] numbers *)
Definition number (k : N) (x : sub) : N := (s_trig x / 256) mod 2^k.
(* [b] is [a] or follows within half of the range, which wraps *)
Definition follows (k : N) (a b : N) : Prop := (b + 2^k - a) mod 2^k <= 2^k / 2.
Fixpoint chain {A} (R : A -> A -> Prop) (l : list A) : Prop :=
  match l with a :: ((b :: _) as r) => R a b /\ chain R r | _ => True end.

(* a buffer at the input: end of file or subevents *)
Inductive sbuf := SEof | SBuf (l : list item).
Definition inside (b : sbuf) : list item := match b with SEof => [] | SBuf l => l end.
Definition insides (l : list sbuf) : list item := concat (map inside l).
(* what is sent: end of file, a received buffer as it is, or a new buffer *)
Inductive sout := OEof | OFwd (l : list item) | OOut (b : bytes).
Definition holds (o : sout) (l : list item) : Prop :=
  match o with OEof => l = [] | OFwd m => l = m | OOut b => b = enc_subs (map snd l) end.

(* increasing logical numbers *)
Definition rising (lab : nat -> Z) (l : list item) : Prop := chain (fun a b => (lab (fst a) < lab (fst b))%Z) l.

(* ---- when subevents are at most one buffer late ---- *)
(* [x] arrived two buffers before [y], or an end of file lies between: then its number is smaller *)
Definition one_late (lab : nat -> Z) (T : list sbuf) : Prop :=
  forall i j a b x y, nth_error T i = Some a -> In x (inside a) -> nth_error T j = Some b -> In y (inside b) ->
  (i + 2 <= j)%nat \/ (exists m, (i < m < j)%nat /\ nth_error T m = Some SEof) -> (lab (fst x) < lab (fst y))%Z.
(* the first buffer with subevents *)
Definition filled (l : list item) : bool := match l with [] => false | _ => true end.
Definition first (T : list sbuf) : list item := hd [] (filter filled (map inside T)).
Definition lowest_first (lab : nat -> Z) (T : list sbuf) : Prop := forall y, In y (insides T) -> exists x, In x (first T) /\ (lab (fst x) <= lab (fst y))%Z.
(* the numbers in the data are the labels, cut to [k] bits; different subevents have different labels *)
Definition labelled (k : N) (lab : nat -> Z) (l : list item) : Prop :=
  (forall x, In x l -> number k (snd x) = Z.to_N (lab (fst x) mod Z.of_N (2^k))) /\ (forall x y, In x l -> In y l -> lab (fst x) = lab (fst y) -> x = y).
(* less than half of the range apart *)
Definition close (k : N) (lab : nat -> Z) (x y : item) : Prop := (2 * Z.abs (lab (fst x) - lab (fst y)) < Z.of_N (2^k))%Z.
Definition lastl {A} (l : list A) : list A := match rev l with x :: _ => [x] | [] => [] end.
