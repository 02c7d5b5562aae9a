(* A block of memory as list of bytes, accessed as bytes and as 32-bit words of a
   little-endian machine.  Access outside the block is undefined behaviour. *)
From Verif Require Import Common ListFacts Bytes.
Open Scope N_scope.

Definition getb (m : bytes) (off len : N) : res bytes :=
  if off + len <=? lenN m then Ok (takeN len (dropN off m)) else UB.
Definition getw (m : bytes) (off : N) : res N := do b <- getb m off 4; Ok (unle b).
Definition setb (m : bytes) (off : N) (d : bytes) : res bytes :=
  if off + lenN d <=? lenN m then Ok (takeN off m ++ d ++ dropN (off + lenN d) m) else UB.
Definition setw (m : bytes) (off v : N) : res bytes := setb m off (le 4 v).

Lemma takeN_dropN {A} (a : list A) n : takeN n a ++ dropN n a = a.
Proof. unfold takeN, dropN. apply firstn_skipn. Qed.
Lemma takeN_app_ge {A} (a b : list A) n : lenN a <= n -> takeN n (a ++ b) = a ++ takeN (n - lenN a) b.
Proof.
  intros H. unfold takeN, lenN in *. rewrite firstn_app. rewrite firstn_all2 by lia.
  do 2 f_equal. lia.
Qed.
Lemma takeN_app_le {A} (a b : list A) n : n <= lenN a -> takeN n (a ++ b) = takeN n a.
Proof.
  intros H. unfold takeN, lenN in *. rewrite firstn_app.
  replace (N.to_nat n - length a)%nat with 0%nat by lia. apply app_nil_r.
Qed.
Lemma dropN_app_ge {A} (a b : list A) n : lenN a <= n -> dropN n (a ++ b) = dropN (n - lenN a) b.
Proof.
  intros H. unfold dropN, lenN in *. rewrite skipn_app. rewrite skipn_all2 by lia.
  cbn [app]. f_equal. lia.
Qed.
Lemma dropN_app_le {A} (a b : list A) n : n <= lenN a -> dropN n (a ++ b) = dropN n a ++ b.
Proof.
  intros H. unfold dropN, lenN in *. rewrite skipn_app.
  replace (N.to_nat n - length a)%nat with 0%nat by lia. reflexivity.
Qed.
Lemma takeN_0 {A} (a : list A) : takeN 0 a = [].
Proof. reflexivity. Qed.
Lemma dropN_0 {A} (a : list A) : dropN 0 a = a.
Proof. reflexivity. Qed.
Lemma dropN_dropN {A} (a : list A) i j : dropN i (dropN j a) = dropN (j + i) a.
Proof. unfold dropN. rewrite skipn_skipn. f_equal. lia. Qed.
Lemma Forall_takeN {A} (P : A -> Prop) n l : Forall P l -> Forall P (takeN n l).
Proof. intros H. rewrite <- (takeN_dropN l n) in H. apply Forall_app in H. apply H. Qed.
Lemma Forall_dropN {A} (P : A -> Prop) n l : Forall P l -> Forall P (dropN n l).
Proof. intros H. rewrite <- (takeN_dropN l n) in H. apply Forall_app in H. apply H. Qed.
Lemma split_at {A} (l : list A) n : n <= lenN l -> exists a b, l = a ++ b /\ lenN a = n.
Proof. intros H. exists (takeN n l), (dropN n l). rewrite takeN_dropN, lenN_takeN. split; [auto|lia]. Qed.

Lemma getb_at a b c off : lenN a = off -> getb (a ++ b ++ c) off (lenN b) = Ok b.
Proof.
  intros <-. unfold getb. rewrite !lenN_app.
  destruct (N.leb_spec (lenN a + lenN b) (lenN a + (lenN b + lenN c))); [|lia].
  rewrite dropN_app, takeN_app by auto. reflexivity.
Qed.
Lemma getw_at a x c off : lenN a = off -> x < 2^32 -> getw (a ++ le 4 x ++ c) off = Ok x.
Proof.
  intros H X. unfold getw. assert (E := getb_at a (le 4 x) c off H). rewrite lenN_le in E. change (N.of_nat 4) with 4 in E. rewrite E.
  cbn [bind]. rewrite unle_le4 by auto. reflexivity.
Qed.
Lemma setb_at a b c off d : lenN a = off -> lenN d = lenN b -> setb (a ++ b ++ c) off d = Ok (a ++ d ++ c).
Proof.
  intros <- L. unfold setb. rewrite !lenN_app, L.
  destruct (N.leb_spec (lenN a + lenN b) (lenN a + (lenN b + lenN c))); [|lia].
  rewrite takeN_app by auto. rewrite (app_assoc a b c), (dropN_app (a ++ b)) by (rewrite lenN_app; auto). reflexivity.
Qed.
Lemma setw_at a b c off v : lenN a = off -> lenN b = 4 -> setw (a ++ b ++ c) off v = Ok (a ++ le 4 v ++ c).
Proof. intros H L. unfold setw. apply setb_at; auto.  Qed.
Lemma getw_ok m off : off + 4 <= lenN m -> Forall isbyte m -> exists w, getw m off = Ok w /\ w < 2^32.
Proof.
  intros H B. unfold getw, getb. destruct (N.leb_spec (off + 4) (lenN m)); [|lia]. cbn [bind].
  eexists. split; [reflexivity|].
  assert (F : Forall isbyte (takeN 4 (dropN off m))) by (apply Forall_takeN, Forall_dropN; exact B).
  apply unle_bound in F. rewrite lenN_takeN, lenN_dropN, N.min_l in F by lia. exact F.
Qed.
