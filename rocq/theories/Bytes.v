(* Byte strings as lists of N, little endian numbers. Shared by the codec areas. *)
From Verif Require Import Common ListFacts.
Open Scope N_scope.

Definition bytes := list N.
Definition lenN {A} (l : list A) : N := N.of_nat (length l).

(* [k] bytes of [x], least significant first: the memory image of an unsigned
   integer of [k] bytes on the little endian hosts DABC runs on; bits beyond
   8*k are cut off as by a C++ conversion *)
Fixpoint le (k : nat) (x : N) : bytes :=
  match k with O => [] | S k' => (x mod 256) :: le k' (x / 256) end.

Fixpoint unle (l : bytes) : N :=
  match l with [] => 0 | b :: r => b + 256 * unle r end.

Definition isbyte (b : N) : Prop := b < 256.
Definition takeN {A} (n : N) (l : list A) : list A := firstn (N.to_nat n) l.
Definition dropN {A} (n : N) (l : list A) : list A := skipn (N.to_nat n) l.

Lemma le_length k x : length (le k x) = k.
Proof. revert x. induction k; intros; cbn [le length]; auto. Qed.

Lemma lenN_le k x : lenN (le k x) = N.of_nat k.
Proof. unfold lenN. rewrite le_length. reflexivity. Qed.

Lemma pow256_S k : 256 ^ N.of_nat (S k) = 256 * 256 ^ N.of_nat k.
Proof. rewrite Nat2N.inj_succ, N.pow_succ_r'. reflexivity. Qed.

Lemma unle_le k x : unle (le k x) = x mod 256 ^ N.of_nat k.
Proof.
  revert x. induction k; intros x; cbn [le unle].
  - rewrite N.pow_0_r, N.mod_1_r. reflexivity.
  - rewrite IHk, pow256_S. rewrite N.mod_mul_r; [reflexivity|lia|apply N.pow_nonzero; lia].
Qed.

Lemma unle_le_small k x : x < 256 ^ N.of_nat k -> unle (le k x) = x.
Proof. intros H. rewrite unle_le. apply N.mod_small. auto. Qed.

Lemma unle_le4 x : x < 2^32 -> unle (le 4 x) = x.
Proof. intros H. apply unle_le_small. exact H. Qed.

Lemma unle_le8 x : x < 2^64 -> unle (le 8 x) = x.
Proof. intros H. apply unle_le_small. exact H. Qed.

Lemma le_bytes k x : Forall isbyte (le k x).
Proof. revert x. induction k; intros; cbn [le]; constructor; auto. unfold isbyte. apply N.mod_lt. lia. Qed.

Lemma unle_bound l : Forall isbyte l -> unle l < 256 ^ lenN l.
Proof.
  induction 1 as [|b r Hb Hr IH]; [reflexivity|].
  cbn [unle]. unfold lenN in *. cbn [length]. rewrite pow256_S. unfold isbyte in Hb. lia.
Qed.

Lemma le_unle l : Forall isbyte l -> le (length l) (unle l) = l.
Proof.
  induction 1 as [|b r Hb Hr IH]; [reflexivity|].
  unfold isbyte in Hb. cbn [unle length le]. f_equal.
  - rewrite N.mul_comm, N.mod_add by lia. apply N.mod_small. auto.
  - rewrite N.add_comm, N.mul_comm, N.div_add_l by lia. rewrite (N.div_small b 256) by auto. rewrite N.add_0_r. auto.
Qed.

Lemma lenN_app {A} (a b : list A) : lenN (a ++ b) = lenN a + lenN b.
Proof. unfold lenN. rewrite app_length. lia. Qed.

Lemma lenN_cons {A} (a : A) b : lenN (a :: b) = 1 + lenN b.
Proof. unfold lenN. cbn [length]. lia. Qed.

Lemma lenN_nil {A} : lenN (@nil A) = 0.
Proof. reflexivity. Qed.

Lemma lenN_repeat {A} (x : A) n : lenN (repeat x n) = N.of_nat n.
Proof. unfold lenN. rewrite repeat_length. reflexivity. Qed.

Lemma takeN_app {A} (a b : list A) n : n = lenN a -> takeN n (a ++ b) = a.
Proof. intros ->. unfold takeN, lenN. rewrite Nat2N.id, firstn_app, firstn_all, Nat.sub_diag. cbn [firstn]. apply app_nil_r. Qed.

Lemma dropN_app {A} (a b : list A) n : n = lenN a -> dropN n (a ++ b) = b.
Proof. intros ->. unfold dropN, lenN. rewrite Nat2N.id, skipn_app, skipn_all, Nat.sub_diag. reflexivity. Qed.

Lemma takeN_all {A} (a : list A) n : lenN a <= n -> takeN n a = a.
Proof. intros H. unfold takeN, lenN in *. apply firstn_all2. lia. Qed.

Lemma lenN_takeN {A} (a : list A) n : lenN (takeN n a) = N.min n (lenN a).
Proof. unfold takeN, lenN. rewrite firstn_length. lia. Qed.

Lemma lenN_dropN {A} (a : list A) n : lenN (dropN n a) = lenN a - n.
Proof. unfold dropN, lenN. rewrite skipn_length. lia. Qed.
