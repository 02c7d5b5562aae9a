(* Sums over lists. *)
From Verif Require Import Common.

Definition b2n (b : bool) : nat := if b then 1 else 0.
Fixpoint sumf {A} (f : A -> nat) (l : list A) : nat := match l with [] => 0 | x :: l => f x + sumf f l end.
Lemma sumf_upd {A} (f : A -> nat) d l : forall i y, i < length l -> sumf f (upd l i y) + f (nth i l d) = sumf f l + f y.
Proof. induction l as [|x l IH]; intros [|i] y H; cbn [length upd sumf nth] in *; try lia. specialize (IH i y ltac:(lia)). lia. Qed.
Lemma sumf_app {A} (f : A -> nat) a b : sumf f (a ++ b) = sumf f a + sumf f b.
Proof. induction a as [|x a IH]; cbn [sumf app]; lia. Qed.
Lemma sumf_in {A} (f : A -> nat) d l i : i < length l -> f (nth i l d) <= sumf f l.
Proof. revert i. induction l as [|x l IH]; intros [|i] H; cbn [length nth sumf] in *; try lia. specialize (IH i ltac:(lia)). lia. Qed.
Lemma sumf_zero {A} (f : A -> nat) l : sumf f l = 0 <-> Forall (fun x => f x = 0) l.
Proof. induction l as [|x l IH]; cbn [sumf]; [split; constructor|]. rewrite Forall_cons_iff, <- IH. lia. Qed.
Lemma sumf_le {A} (f g : A -> nat) l : (forall x, In x l -> f x <= g x) -> sumf f l <= sumf g l.
Proof. induction l as [|x l IH]; cbn [sumf]; intros H; [lia|]. assert (f x <= g x) by (apply H; left; reflexivity). specialize (IH (fun y Hy => H y (or_intror Hy))). lia. Qed.
Lemma sumf_eq {A} (f g : A -> nat) l : (forall x, In x l -> f x = g x) -> sumf f l = sumf g l.
Proof. intros H. apply Nat.le_antisymm; apply sumf_le; intros x Hx; rewrite (H x Hx); lia. Qed.
