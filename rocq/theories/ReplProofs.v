(* Replacement of all places: facts. *)
From Verif Require Import Common ListFacts Bytes DecStr ReplSpec ReplModel.

Lemma starts_spec m : forall s, starts m s = true <-> exists b, s = m ++ b.
Proof.
  induction m as [|x m IH]; intros s; cbn [starts app].
  - split; eauto.
  - destruct s as [|y s]; [split; [discriminate|intros (b & [=])]|]. rewrite andb_true_iff, N.eqb_eq, IH. split.
    + intros (-> & b & ->). eauto.
    + intros (b & [= -> ->]). eauto.
Qed.
Lemma stands_0 m s : stands m s 0 <-> starts m s = true.
Proof.
  rewrite starts_spec. split.
  - intros (a & b & -> & L). destruct a; [|discriminate]. exists b. reflexivity.
  - intros (b & ->). exists [], b. split; reflexivity.
Qed.
Lemma stands_S m x s i : stands m (x :: s) (S i) <-> stands m s i.
Proof.
  split; intros (a & b & E & L).
  - destruct a as [|y a]; [discriminate|]. cbn [app length] in *. injection E as <- ->. exists a, b. split; [reflexivity|lia].
  - subst. exists (x :: a), b. split; reflexivity.
Qed.
Lemma stands_nil m i : m <> [] -> ~ stands m [] i.
Proof. intros N (a & b & E & L). destruct a; [|discriminate]. destruct m; [congruence|discriminate]. Qed.
Lemma find_at_spec m : m <> [] -> forall s,
  match find_at m s with
  | Some i => exists a b, s = a ++ m ++ b /\ length a = i /\ forall j, (j < i)%nat -> ~ stands m s j
  | None => forall j, ~ stands m s j
  end.
Proof.
  intros N. induction s as [|x s IH]; cbn [find_at]; destruct (starts m _) eqn:S.
  - apply stands_0 in S as (a & b & E & L). exists a, b. repeat split; auto. lia.
  - intros j. apply stands_nil. exact N.
  - apply stands_0 in S as (a & b & E & L). exists a, b. repeat split; auto. lia.
  - assert (Z : ~ stands m (x :: s) 0) by (rewrite stands_0, S; discriminate). destruct (find_at m s) as [i|].
    + destruct IH as (a & b & -> & <- & F). exists (x :: a), b. repeat split. intros [|j] J; [exact Z|]. rewrite stands_S. apply F. lia.
    + intros [|j]; [exact Z|]. rewrite stands_S. apply IH.
Qed.

Lemma loop_ok m r : m <> [] -> forall f d t, (length t < f)%nat -> exists u, replace_loop f m r (d ++ t) (length d) = Ok (d ++ u) /\ replaced m r t u.
Proof.
  intros N. induction f as [|f IH]; intros d t L; [lia|]. cbn [replace_loop]. unfold find.
  replace (length d <=? length (d ++ t))%nat with true by (symmetry; apply Nat.leb_le; rewrite app_length; lia).
  rewrite skipn_app, skipn_all, Nat.sub_diag. cbn [skipn app]. pose proof (find_at_spec m N t) as F. destruct (find_at m t) as [i|].
  - destruct F as (a & b & -> & <- & F). assert (Lm : (0 < length m)%nat) by (destruct m; [congruence|cbn [length]; lia]).
    assert (E1 : firstn (length d + length a) (d ++ a ++ m ++ b) = d ++ a).
    { rewrite app_assoc, <- app_length, firstn_app, firstn_all, Nat.sub_diag. cbn [firstn]. apply app_nil_r. }
    assert (E2 : skipn (length d + length a + length m) (d ++ a ++ m ++ b) = b).
    { rewrite !app_assoc, <- !app_length, skipn_app, skipn_all, Nat.sub_diag. reflexivity. }
    rewrite E1, E2, <- app_length, firstn_app, firstn_all, Nat.sub_diag, skipn_app, skipn_all, Nat.sub_diag. cbn [firstn skipn app]. rewrite app_nil_r.
    destruct (IH ((d ++ a) ++ r) b) as (u & E & R); [rewrite !app_length in L; lia|].
    rewrite <- app_length. rewrite <- app_assoc in E at 1. rewrite E. exists (a ++ r ++ u). split; [rewrite <- !app_assoc; reflexivity|]. apply more; [exact F|exact R].
  - exists t. split; [reflexivity|]. apply none. exact F.
Qed.

(* the result is determined *)
Lemma replaced_unique m r s u : m <> [] -> replaced m r s u -> forall u', replaced m r s u' -> u = u'.
Proof.
  intros N R. induction R as [s F|a t u F R IH]; intros u' R'.
  - inversion R' as [s' F' E1 E2|a' t' u2 F' R2 E1 E2]; subst; [reflexivity|]. exfalso. apply (F (length a')). exists a', t'. split; reflexivity.
  - remember (a ++ m ++ t) as s eqn:E. destruct R' as [s F'|a' t' u2 F' R2].
    + exfalso. apply (F' (length a)). exists a, t. split; [exact E|reflexivity].
    + assert (L : length a = length a').
      { destruct (Nat.lt_trichotomy (length a) (length a')) as [H|[H|H]]; [|exact H|]; exfalso.
        - apply (F' _ H). exists a, t. split; [exact E|reflexivity].
        - apply (F _ H). exists a', t'. split; [reflexivity|reflexivity]. }
      assert (G : forall (x y x' y' : bytes), length x = length x' -> x ++ y = x' ++ y' -> x = x' /\ y = y').
      { induction x as [|c x IHx]; intros y [|c' x'] y' Lx Ex; try discriminate; [auto|]. cbn [app length] in *. injection Ex as -> Ex. destruct (IHx y x' y') as (-> & ->); [lia|exact Ex|auto]. }
      destruct (G a' (m ++ t') a (m ++ t)) as (-> & E3); [lia|exact E|]. destruct (G m t' m t eq_refl E3) as (_ & ->). f_equal. f_equal. apply IH. exact R2.
Qed.
Lemma replace_all_is m r s u : m <> [] -> replaced m r s u -> replace_all s m r = Ok u.
Proof.
  intros N R. unfold replace_all. destruct m as [|c m]; [congruence|]. destruct (loop_ok (c :: m) r N (S (length s)) [] s ltac:(lia)) as (v & E & R2). cbn [app length] in E.
  rewrite E. f_equal. eapply replaced_unique; [exact N|exact R2|exact R].
Qed.

(* ---- marks which begin with a percent sign ---- *)
Lemma plain_app a b : plain (a ++ b) <-> plain a /\ plain b.
Proof. unfold plain. rewrite in_app_iff. tauto. Qed.
Lemma plain_skip m a s i : plain a -> stands (37%N :: m) (a ++ s) i -> (length a <= i)%nat /\ stands (37%N :: m) s (i - length a).
Proof.
  revert i. induction a as [|x a IH]; intros i P H; cbn [app length] in *; [split; [lia|rewrite Nat.sub_0_r; exact H]|].
  destruct i as [|i].
  - apply stands_0, starts_spec in H as (b & [= -> _]). exfalso. apply P. left. reflexivity.
  - rewrite stands_S in H. destruct (IH i) as (L & T); [intros F; apply P; right; exact F|exact H|]. split; [lia|exact T].
Qed.
Lemma plain_none m s i : plain s -> ~ stands (37%N :: m) s i.
Proof. intros P H. rewrite <- (app_nil_r s) in H. apply plain_skip in H as (_ & H); [|exact P]. eapply stands_nil; [|exact H]. discriminate. Qed.
Lemma replaced_skip m r a s u : plain a -> replaced (37%N :: m) r s u -> replaced (37%N :: m) r (a ++ s) (a ++ u).
Proof.
  intros P R. destruct R as [s F|b t u F R].
  - apply none. intros i H. apply plain_skip in H as (_ & H); [|exact P]. exact (F _ H).
  - rewrite !(app_assoc a b). apply more; [|exact R]. intros i L H. rewrite <- app_assoc in H. apply plain_skip in H as (La & H); [|exact P]. rewrite app_length in L. apply (F (i - length a)%nat); [lia|exact H].
Qed.
Lemma replaced_first m r t u : replaced m r t u -> replaced m r (m ++ t) (r ++ u).
Proof. intros R. apply (more m r [] t u); [cbn [length]; lia|exact R]. Qed.
Lemma dec_plain n : plain (dec n).
Proof. intros H. pose proof (dec_digit n) as D. rewrite Forall_forall in D. specialize (D _ H). discriminate. Qed.
(* no %name% in a plain text with one %id% *)
Lemma no_name b c i : plain b -> plain c -> ~ stands t_name (b ++ t_id ++ c) i.
Proof.
  intros Pb Pc H. apply plain_skip in H as (_ & H); [|exact Pb]. unfold t_id in H. cbn [app] in H. destruct (i - length b)%nat as [|[|[|[|j]]]].
  - apply stands_0, starts_spec in H as (x & E). discriminate.
  - rewrite stands_S in H. apply stands_0, starts_spec in H as (x & E). discriminate.
  - do 2 rewrite stands_S in H. apply stands_0, starts_spec in H as (x & E). discriminate.
  - do 3 rewrite stands_S in H. apply stands_0, starts_spec in H as (x & E). injection E as E. apply Pc. rewrite E. cbn [app In]. auto 8.
  - do 4 rewrite stands_S in H. exact (plain_none _ _ _ Pc H).
Qed.

(* ---- templates with any marks ---- *)
Lemma replaced_pass m r p s u : (forall i, (i < length p)%nat -> ~ stands m (p ++ s) i) -> replaced m r s u -> replaced m r (p ++ s) (p ++ u).
Proof.
  intros F R. assert (D : forall i, stands m s i -> stands m (p ++ s) (length p + i)).
  { intros i (a & b & -> & <-). exists (p ++ a), b. rewrite app_length, <- app_assoc. split; reflexivity. }
  assert (B : forall i, stands m (p ++ s) (length p + i) -> stands m s i).
  { clear F R D. induction p as [|x p IH]; intros i H; [exact H|]. cbn [app length Nat.add] in H. rewrite stands_S in H. exact (IH i H). }
  destruct R as [s G|b t u G R].
  - apply none. intros i H. destruct (Nat.lt_ge_cases i (length p)) as [L|L]; [exact (F i L H)|]. replace i with (length p + (i - length p))%nat in H by lia. exact (G _ (B _ H)).
  - rewrite !(app_assoc p b). apply more; [|exact R]. intros i L H. rewrite <- app_assoc in H. destruct (Nat.lt_ge_cases i (length p)) as [Lp|Lp]; [exact (F i Lp H)|].
    replace i with (length p + (i - length p))%nat in H by lia. rewrite app_length in L. apply (G (i - length p)%nat); [lia|]. exact (B _ H).
Qed.
Lemma plain_cut w w' t t' : plain w -> plain w' -> w ++ 37%N :: t = w' ++ 37%N :: t' -> w = w'.
Proof.
  revert w'. induction w as [|x w IH]; intros [|y w'] P P' E; cbn [app] in E.
  - reflexivity.
  - injection E as <- _. exfalso. apply P'. left. reflexivity.
  - injection E as -> _. exfalso. apply P. left. reflexivity.
  - injection E as <- E. f_equal. apply IH; [intros H; apply P; right; exact H|intros H; apply P'; right; exact H|exact E].
Qed.
Lemma word_plain : plain word.
Proof. intros H. cbn in H. intuition discriminate. Qed.
Lemma filled_begin l c x : plain c -> Forall (fun e => plain (fst e) /\ fst e <> word) l -> filled t_name t_id l c <> word ++ 37%N :: x.
Proof.
  intros Pc F E. destruct F as [|(w, k) l (Pw & Nw) F]; cbn [filled fst] in *.
  - apply Pc. rewrite E. apply in_app_iff. right. left. reflexivity.
  - apply Nw. destruct k; exact (plain_cut _ _ _ _ Pw word_plain E).
Qed.
Lemma pass_name name l c : plain c -> Forall (fun e => plain (fst e) /\ fst e <> word) l -> replaced t_name name (filled t_name t_id l c) (filled name t_id l c).
Proof.
  intros Pc F. induction F as [|(w, k) l (Pw & Nw) F IH]; cbn [filled fst] in *.
  - apply none. intros i. apply plain_none. exact Pc.
  - destruct k; apply replaced_skip; auto; [apply replaced_first; exact IH|]. apply replaced_pass; [|exact IH].
    pose proof (fun x => filled_begin l c x Pc F) as B. intros i L H. unfold t_id in H at 1. cbn [app] in H. destruct i as [|[|[|[|j]]]]; [| | | |unfold t_id in L; cbn [length] in L; lia].
    + apply stands_0, starts_spec in H as (x & E). discriminate.
    + rewrite stands_S in H. apply stands_0, starts_spec in H as (x & E). discriminate.
    + rewrite !stands_S in H. apply stands_0, starts_spec in H as (x & E). discriminate.
    + rewrite !stands_S in H. apply stands_0, starts_spec in H as (x & E). injection E as E. exact (B x E).
Qed.
Lemma pass_id name id l c : plain c -> plain name -> Forall (fun e => plain (fst e)) l -> replaced t_id id (filled name t_id l c) (filled name id l c).
Proof.
  intros Pc Pn F. induction F as [|(w, k) l Pw F IH]; cbn [filled fst] in *.
  - apply none. intros i. apply plain_none. exact Pc.
  - destruct k; apply replaced_skip; auto; [apply replaced_skip; auto|apply replaced_first; exact IH].
Qed.
