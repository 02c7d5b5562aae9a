(* Facts about lists that the standard library lacks. *)
From Verif Require Import Common.

Section L.
Context {A : Type}.
Implicit Types l : list A.

Lemma nth_error_firstn_lt l n i : i < n -> nth_error (firstn n l) i = nth_error l i.
Proof. revert n i. induction l as [|x l IH]; intros [|n] [|i] H; cbn; auto; try lia. apply IH. lia. Qed.

Lemma nth_error_firstn_ge l n i : n <= i -> nth_error (firstn n l) i = None.
Proof. intros H. apply nth_error_None. rewrite firstn_length. lia. Qed.

Lemma nth_error_skipn l n i : nth_error (skipn n l) i = nth_error l (n + i).
Proof. revert n i. induction l as [|x l IH]; intros [|n] i; cbn; auto. destruct i; auto. Qed.

Lemma skipn_skipn l n k : skipn n (skipn k l) = skipn (k + n) l.
Proof. revert n k. induction l as [|x l IH]; intros n [|k]; cbn; auto. destruct n; auto. Qed.

Lemma skipn_cons_nth l n x : nth_error l n = Some x -> skipn n l = x :: skipn (S n) l.
Proof. revert n. induction l as [|y l IH]; intros [|n] H; cbn in *; try discriminate; [congruence|auto]. Qed.

Lemma firstn_S_nth l n x : nth_error l n = Some x -> firstn (S n) l = firstn n l ++ [x].
Proof. revert n. induction l as [|y l IH]; intros [|n] H; cbn in *; try discriminate; [congruence|]. f_equal. apply IH; auto. Qed.

Lemma in_firstn l n x : In x (firstn n l) -> In x l.
Proof. intros H. rewrite <- (firstn_skipn n l). apply in_or_app. auto. Qed.

Lemma in_skipn l n x : In x (skipn n l) -> In x l.
Proof. intros H. rewrite <- (firstn_skipn n l). apply in_or_app. auto. Qed.

Lemma nth_error_split_list l k x : nth_error l k = Some x -> l = firstn k l ++ x :: skipn (S k) l.
Proof. intros H. rewrite <- (skipn_cons_nth l k x H). symmetry. apply firstn_skipn. Qed.

Lemma nth_upd_eq (l : list A) i x d j : nth j (upd l i x) d = if ((j =? i) && (i <? length l)) then x else nth j l d.
Proof.
  revert i j. induction l as [|a l IH]; intros i j.
  - destruct i; cbn [upd]; rewrite andb_comm; cbn; reflexivity.
  - destruct i, j; cbn [upd nth length]; auto. rewrite IH. reflexivity.
Qed.

Lemma nth_error_upd (l : list A) i x j :
  nth_error (upd l i x) j = if (j =? i) && (i <? length l) then Some x else nth_error l j.
Proof.
  destruct (Nat.eqb_spec j i) as [->|H]; cbn [andb].
  - destruct (Nat.ltb_spec i (length l)).
    + apply nth_error_upd_same; auto.
    + assert (E : forall n, length l <= n -> nth_error (upd l n x) n = nth_error l n).
      { clear. intros n Hn. rewrite (proj2 (nth_error_None l n)) by auto. apply nth_error_None. rewrite upd_length. auto. }
      auto.
  - apply nth_error_upd_other. auto.
Qed.

Lemma upd_app_l (a b : list A) i x : i < length a -> upd (a ++ b) i x = upd a i x ++ b.
Proof. revert i. induction a as [|y a IH]; intros i H; cbn [length] in H; [lia|]. destruct i; cbn [app upd]; auto. f_equal. apply IH. lia. Qed.

Lemma upd_app_r (a b : list A) i x : length a <= i -> upd (a ++ b) i x = a ++ upd b (i - length a) x.
Proof. revert i. induction a as [|y a IH]; intros i H; cbn [length] in *; [rewrite Nat.sub_0_r; auto|]. destruct i; [lia|]. cbn [app upd]. f_equal. apply IH. lia. Qed.

Lemma upd_split (l : list A) i x : i < length l -> upd l i x = firstn i l ++ x :: skipn (S i) l.
Proof. revert i. induction l as [|y l IH]; intros i H; cbn [length] in *; [lia|]. destruct i; cbn; auto. f_equal. apply IH. lia. Qed.

Lemma upd_beyond (l : list A) i x : length l <= i -> upd l i x = l.
Proof. revert i. induction l as [|y l IH]; intros i H; cbn [length] in *; auto; destruct i; try lia; auto. cbn. f_equal. apply IH. lia. Qed.

End L.
Lemma NoDup_app_iff {A} (a b : list A) : NoDup (a ++ b) <-> NoDup a /\ NoDup b /\ (forall x, In x a -> ~ In x b).
Proof.
  induction a as [|x a IH]; cbn [app].
  - split; [intros H; split; [constructor|split; auto; intros y []]|intros (_ & H & _); auto].
  - rewrite !NoDup_cons_iff, IH, in_app_iff. cbn [In]. split.
    + intros (H1 & H2 & H3 & H4). repeat split; auto. intros y [->|Hy]; auto.
    + intros ((H1 & H2) & H3 & H4). split; [intros [H|H]; auto; apply (H4 x); auto|]. repeat split; auto.
Qed.
