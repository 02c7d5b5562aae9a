(* What a name mask means: '*' stands for any text, '?' for any one character, every
   other character for itself. *)
From Verif Require Import Common Bytes UrlSpec.
Open Scope N_scope.

Inductive matches : bytes -> bytes -> Prop :=
| M_end : matches [] []
| M_star m a s : matches m s -> matches (42 :: m) (a ++ s)
| M_any m c s : matches m s -> matches (63 :: m) (c :: s)
| M_char c m s : c <> 42 -> c <> 63 -> matches m s -> matches (c :: m) (c :: s).

(* characters with a meaning of their own: the semicolon, the opening bracket (a set of
   characters) and the terminating zero *)
Definition plain (m : bytes) : Prop := free 59 m /\ free 91 m /\ free 0 m.

(* masks separated by colons *)
Fixpoint join (l : list bytes) : bytes :=
  match l with
  | [] => []
  | [m] => m
  | m :: r => m ++ 58 :: join r
  end.
