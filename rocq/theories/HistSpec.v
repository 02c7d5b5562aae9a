(* Counting values in the bins of a histogram, with exact rational numbers. *)
From Coq Require Export QArith.
From Verif Require Import Common.
Local Close Scope Q_scope.

(* operations on a statistic object *)
Inductive op (T : Type) : Type :=
| OAlloc (nbins : Z) (lo hi : T)
| OReset
| OFill (z : T).
Arguments OAlloc {T}. Arguments OReset {T}. Arguments OFill {T}.

(* values filled since the last reset *)
Fixpoint values {T} (l : list (op T)) (acc : list T) : list T :=
  match l with
  | [] => acc
  | OReset :: r => values r []
  | OFill z :: r => values r (acc ++ [z])
  | OAlloc _ _ _ :: r => values r acc
  end.

(* [lo, hi) is cut in [n] parts of the same size; bin [k] is part number [k], from 1;
   bin 0 is for smaller values, bin n+1 for values not smaller than hi *)
Definition in_bin (lo hi : Q) (n k : Z) (z : Q) : Prop :=
  (k = 0%Z /\ (z < lo)%Q)
  \/ (k = (n + 1)%Z /\ (hi <= z)%Q)
  \/ ((1 <= k <= n)%Z /\ (inject_Z (k - 1) * (hi - lo) / inject_Z n <= z - lo < inject_Z k * (hi - lo) / inject_Z n)%Q).
(* the value is the lower limit of bin j+1 *)
Definition on_border (lo hi : Q) (n j : Z) (z : Q) : Prop := (0 <= j < n)%Z /\ (z - lo == inject_Z j * (hi - lo) / inject_Z n)%Q.

(* [count P l c]: [c] members of [l] have the property *)
Inductive count {T} (P : T -> Prop) : list T -> Z -> Prop :=
| Count_nil : count P [] 0
| Count_yes z l c : P z -> count P l c -> count P (l ++ [z]) (c + 1)
| Count_no z l c : ~ P z -> count P l c -> count P (l ++ [z]) c.

Definition qsum (l : list Q) : Q := fold_right Qplus 0%Q l.
