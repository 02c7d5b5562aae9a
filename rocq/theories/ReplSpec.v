(* Replacement of all places where a text stands. *)
From Verif Require Import Common Bytes.

(* [m] stands in [s] at position [i] *)
Definition stands (m s : bytes) (i : nat) : Prop := exists a b, s = a ++ m ++ b /\ length a = i.
(* [u] is [s] with [r] at all places of [m], taken from the left without overlap *)
Inductive replaced (m r : bytes) : bytes -> bytes -> Prop :=
| none s : (forall i, ~ stands m s i) -> replaced m r s s
| more a t u : (forall i, (i < length a)%nat -> ~ stands m (a ++ m ++ t) i) -> replaced m r t u -> replaced m r (a ++ m ++ t) (a ++ r ++ u).
(* a text without percent sign *)
Definition plain (s : bytes) : Prop := ~ In 37%N s.
(* a template: texts, each followed by a mark (of a name or of a number), and a last text *)
Inductive mark := Mname | Mid.
(* [name] and [id] for the marks *)
Fixpoint filled (name id : bytes) (l : list (bytes * mark)) (c : bytes) : bytes :=
  match l with
  | [] => c
  | (w, Mname) :: l => w ++ name ++ filled name id l c
  | (w, Mid) :: l => w ++ id ++ filled name id l c
  end.
(* the word in the mark of names *)
Definition word : bytes := [110; 97; 109; 101]%N.  (* name *)
