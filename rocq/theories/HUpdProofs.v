(* Proofs about the update of a hierarchy. *)
From Verif Require Import Common ListFacts Bytes RecordSpec RecordModel RecordMap RecordOut RecordIn RecordProofs HierSpec HierModel HierProofs HierInv HierStream HierSync HUpdSpec HUpdModel.
Local Open Scope N_scope.

(* ---- one field ---- *)
Lemma land_zero w : w < 2^64 -> N.land w 9223372036854775807 = 0 -> w = 0 \/ w = 2^63.
Proof.
  intros L H. change 9223372036854775807 with (N.ones 63) in H. rewrite N.land_ones in H.
  pose proof (N.div_mod w (2^63) ltac:(lia)) as D. rewrite H in D.
  assert (w / 2^63 < 2) by (apply N.div_lt_upper_bound; lia). assert (w / 2^63 = 0 \/ w / 2^63 = 1) as [E|E] by lia; rewrite E in D; lia.
Qed.
Lemma deqb_exact a b : exact (VDouble a) -> exact (VDouble b) -> deqb a b = true -> a = b.
Proof.
  intros ((A1 & _) & _ & A2) ((B1 & _) & _ & B2) H. unfold deqb in H. apply andb_true_iff in H. destruct H as (_ & H).
  cbn in A1, B1. unfold word in *.
  apply orb_true_iff in H. destruct H as [H|H]; [apply N.eqb_eq; auto|]. apply andb_true_iff in H. destruct H as (H1 & H2).
  apply N.eqb_eq in H1, H2. apply land_zero in H1, H2; auto.
  destruct H1 as [->| ->]; destruct H2 as [->| ->]; congruence.
Qed.
Definition before (v : value) : Prop := exact v \/ v = VNone.
Lemma set_value_exact f v : exact v -> before (f_val f) -> f_val (set_value f v) = v.
Proof.
  intros EX BF. pose proof EX as ((P1 & P2) & N1 & N2).
  assert (BB : forall w, v = VBool w -> (if w =? 0 then 0 else 1) = w).
  { intros w ->. cbn in P2. destruct (N.eqb_spec w 0); lia. }
  unfold set_value. destruct v; cbn in P1; try tauto; destruct (f_val f) eqn:EF; cbn [f_val]; auto; try congruence;
    rewrite ?(BB _ eq_refl); auto;
    repeat match goal with |- context [if ?c then _ else _] => destruct c eqn:?E end; cbn [f_val]; auto;
    repeat match goal with H : (_ =? _) = true |- _ => apply N.eqb_eq in H; subst end; auto.
  all: try (match goal with H : deqb _ _ = true |- _ => apply deqb_exact in H; [congruence| |] end; destruct BF; congruence).
  all: try (destruct ws; [exfalso; apply P2; reflexivity|]; cbn [f_val]; auto;
    repeat match goal with |- context [if ?c then _ else _] => destruct c eqn:?E end; cbn [f_val]; auto).
  all: try (match goal with H : beqb ?a ?b = true |- _ => destruct (beqb_spec a b); [congruence|discriminate] end).
  all: try (exfalso; apply P2; reflexivity).
Qed.
Lemma set_value_same f v : compared v -> settable v -> f_val f = v -> set_value f v = f.
Proof.
  intros C (P1 & P2) E. unfold set_value. rewrite E. destruct v; cbn in C, P1, P2 |- *; auto; try tauto; rewrite ?N.eqb_refl, ?beqb_refl; auto.
  - destruct (N.eqb_spec w 0) as [->|]; cbn; auto. destruct (N.eqb_spec w 1); auto. lia.
  - unfold deqb. rewrite N.eqb_refl. cbn [orb]. rewrite andb_true_r. assert (is_nan w = false) as ->; [|reflexivity].
    unfold is_nan. destruct (N.eqb_spec (N.land w 9218868437227405312) 9218868437227405312); auto.
    destruct (N.eqb_spec (N.land w 4503599627370495) 0); auto. exfalso. apply C. split; auto.
  - destruct ws; rewrite ?beqb_refl; auto.
  - destruct ws; rewrite ?beqb_refl; auto.
  - destruct ws; rewrite ?beqb_refl; auto.
Qed.
Lemma set_value_changed f v : before (f_val f) -> exact v -> f_val f <> v -> f_mod (set_value f v) = true.
Proof. intros B E N. destruct (set_value_mod f v) as [X|X]; auto. exfalso. apply N. rewrite <- X at 1. apply set_value_exact; auto. Qed.

(* ---- all fields of an item ---- *)
Lemma fold_remove ks : forall d, msorted (d_map d) -> (forall k, In k ks -> has k (d_map d) = true) -> NoDup ks ->
  exists m, fold_left remove_field ks d = with_map d m (some ks || d_fch d) /\ msorted m /\ forall k, mget k m = if memb k ks then None else mget k (d_map d).
Proof.
  induction ks as [|k ks IH]; intros d S1 HS ND; cbn [fold_left].
  - exists (d_map d). split; [destruct d; reflexivity|]. auto.
  - inversion ND as [|? ? NI ND2]; subst. unfold remove_field at 2. rewrite (HS k) by (left; auto).
    assert (KN : NoDup (keys (d_map d))) by (apply msorted_nodup; auto).
    destruct (IH (with_map d (mdel k (d_map d)) true)) as (m & E & S2 & G).
    + apply mdel_sorted. auto.
    + intros k1 H1. cbn [with_map d_map]. unfold has. rewrite mget_mdel by auto. destruct (beqb_spec k1 k) as [->|]; [tauto|]. apply (HS k1). right. auto.
    + auto.
    + exists m. split; [rewrite E; cbn; destruct (some ks); reflexivity|]. split; auto. intros k1. rewrite G. cbn [with_map d_map]. rewrite mget_mdel by auto.
      unfold memb. cbn [existsb]. destruct (beqb k1 k); cbn [orb]; auto. destruct (existsb (beqb k1) ks); auto.
Qed.
Lemma fold_set (src : fmap field) : NoDup (keys src) -> forall d, msorted (d_map d) ->
  exists m, fold_left (fun d e => set_field d (fst e) (f_val (snd e))) src d = with_map d m (d_fch d) /\ msorted m /\ forall k, mget k m = match mget k src with
      | Some f => Some (set_value (match mget k (d_map d) with Some g => g | None => mkF VNone false end) (f_val f))
      | None => mget k (d_map d) end.
Proof.
  induction src as [|(k, f) src IH]; intros ND d S1; cbn [fold_left].
  - exists (d_map d). split; [destruct d; reflexivity|]. auto.
  - inversion ND as [|? ? NI ND2]; subst. cbn [fst snd].
    destruct (IH ND2 (set_field d k (f_val f))) as (m & E & S2 & G); [apply map_set_sorted; auto|].
    exists m. split; [rewrite E; reflexivity|]. split; auto. intros k1. rewrite G. cbn [set_field with_map d_map mget]. unfold map_set.
    rewrite mget_mset by auto. destruct (beqb_spec k1 k) as [->|]; auto.
    rewrite (mget_none_keys k src) by auto. reflexivity.
Qed.
Definition lost (src : fmap field) (d : hdata) : list bytes := filter (fun k => negb (has k src)) (map fst (d_map d)).
Lemma move_spec src d : msorted src -> msorted (d_map d) ->
  exists m, move_from src d = with_map d m (some (lost src d) || d_fch d) /\ msorted m /\ forall k, mget k m = match mget k src with
      | Some f => Some (set_value (match mget k (d_map d) with Some g => g | None => mkF VNone false end) (f_val f))
      | None => None end.
Proof.
  intros S1 S2. unfold move_from. fold (lost src d).
  assert (NS : NoDup (keys src)) by (apply msorted_nodup; auto).
  assert (ND : NoDup (keys (d_map d))) by (apply msorted_nodup; auto).
  destruct (fold_remove (lost src d) d S2) as (m & E & S3 & G).
  - intros k H. apply filter_In in H. destruct H as (H & _). apply keys_mget in H. destruct H as (v & H). unfold has. rewrite H. auto.
  - apply NoDup_filter. auto.
  - rewrite E. destruct (fold_set src NS (with_map d m (some (lost src d) || d_fch d)) S3) as (m2 & E2 & S4 & G2).
    exists m2. split; [rewrite E2; reflexivity|]. split; auto. intros k. rewrite G2. cbn [with_map d_map]. rewrite G.
    destruct (mget k src) as [f|] eqn:EK.
    + assert (memb k (lost src d) = false) as ->; auto. apply memb_false. intros X. apply filter_In in X. destruct X as (_ & X).
      unfold has in X. rewrite EK in X. discriminate.
    + destruct (mget k (d_map d)) as [g|] eqn:EG; [|destruct (memb k (lost src d)); auto].
      rewrite memb_true; auto. apply filter_In. split; [apply (mget_some_keys k g); auto|]. unfold has. rewrite EK. auto.
Qed.

Definition fvals (Q : value -> Prop) (m : fmap field) : Prop := Forall (fun e => Q (f_val (snd e))) m.
Lemma fvals_get Q m k f : fvals Q m -> mget k m = Some f -> Q (f_val f).
Proof. intros H E. apply mget_in in E. unfold fvals in H. rewrite Forall_forall in H. apply (H (k, f) E). Qed.

Lemma move_vals src d : msorted src -> msorted (d_map d) -> fvals exact src -> fvals exact (d_map d) ->
  vals (d_map (move_from src d)) = vals src.
Proof.
  intros S1 S2 E1 E2. destruct (move_spec src d S1 S2) as (m & -> & S3 & G). cbn [with_map d_map].
  apply msorted_ext; try (apply vals_sorted; auto). intros k. rewrite !mget_vals, G.
  destruct (mget k src) as [f|] eqn:EK; auto. f_equal. apply set_value_exact; [exact (fvals_get exact src k f E1 EK)|].
  unfold before. destruct (mget k (d_map d)) as [g|] eqn:EG; [left; eapply fvals_get; eauto|right; auto].
Qed.
Lemma move_sorted src d : msorted src -> msorted (d_map d) -> msorted (d_map (move_from src d)).
Proof. intros S1 S2. destruct (move_spec src d S1 S2) as (m & -> & S3 & G). auto. Qed.
Lemma with_map_same d : with_map d (d_map d) (d_fch d) = d.
Proof. destruct d; reflexivity. Qed.
Lemma wc_get d k f : mget k (d_map d) = Some f -> f_mod f = true -> was_changed d = true.
Proof. intros H1 H2. apply mget_in in H1. apply (wc_in d (k, f)); auto. Qed.

(* nothing reported: nothing done *)
Lemma move_quiet src d : msorted src -> msorted (d_map d) -> fvals exact src ->
  was_changed (move_from src d) = false -> move_from src d = d.
Proof.
  intros S1 S2 E1. destruct (move_spec src d S1 S2) as (m & -> & S3 & G). intros W.
  assert (some (lost src d) = false) as EL.
  { unfold was_changed in W. cbn [with_map d_fch] in W. destruct (some (lost src d)); auto. }
  rewrite EL. cbn [orb]. assert (m = d_map d) as ->; [|apply with_map_same].
  apply msorted_ext; auto. intros k. rewrite G. destruct (mget k src) as [f|] eqn:EK.
  - pose proof (fvals_get _ _ _ _ E1 EK) as X1. destruct (mget k (d_map d)) as [g|] eqn:EG.
    + destruct (set_value_mod g (f_val f)) as [X|X]; [rewrite X; auto|]. exfalso.
      pose proof (G k) as GK. rewrite EK, EG in GK. assert (was_changed (with_map d m (some (lost src d) || d_fch d)) = true); [|congruence].
      apply (wc_get _ k (set_value g (f_val f))); auto.
    + exfalso. pose proof (G k) as GK. rewrite EK, EG in GK. assert (was_changed (with_map d m (some (lost src d) || d_fch d)) = true); [|congruence].
      eapply (wc_get _ k); [exact GK|]. apply set_value_new. destruct X1 as (A & B & _). split; auto.
  - destruct (mget k (d_map d)) as [g|] eqn:EG; auto. exfalso.
    assert (In k (lost src d)) as X. { apply filter_In. split; [apply (mget_some_keys k g); auto|]. unfold has. rewrite EK. auto. }
    destruct (lost src d); [destruct X|discriminate].
Qed.
Lemma move_same src d : msorted src -> msorted (d_map d) -> fvals (fun v => exact v /\ compared v) src ->
  vals src = vals (d_map d) -> move_from src d = d.
Proof.
  intros S1 S2 E1 EV. destruct (move_spec src d S1 S2) as (m & -> & S3 & G).
  assert (KK : forall k, match mget k src, mget k (d_map d) with Some f, Some g => f_val f = f_val g | None, None => True | _, _ => False end).
  { intros k. assert (mget k (vals src) = mget k (vals (d_map d))) as X by congruence. rewrite !mget_vals in X.
    destruct (mget k src), (mget k (d_map d)); auto; congruence. }
  assert (lost src d = []) as ->.
  { destruct (lost src d) as [|k r] eqn:EL; auto. assert (In k (lost src d)) as X by (rewrite EL; left; auto).
    apply filter_In in X. destruct X as (X1 & X2). apply keys_mget in X1. destruct X1 as (g & X1). specialize (KK k). rewrite X1 in KK.
    unfold has in X2. destruct (mget k src); [discriminate|destruct KK]. }
  cbn [some orb]. assert (m = d_map d) as ->; [|apply with_map_same].
  apply msorted_ext; auto. intros k. rewrite G. specialize (KK k). destruct (mget k src) as [f|] eqn:EK, (mget k (d_map d)) as [g|] eqn:EG; try tauto.
  f_equal. destruct (fvals_get _ _ _ _ E1 EK) as ((A & _) & B). apply set_value_same; auto.
Qed.
(* fields with an underscore *)
Lemma move_named src d : msorted src -> msorted (d_map d) -> fvals exact src ->
  (forall k, named k = true -> has k (d_map d) = true -> has k src = true) ->
  was_changed_with under (move_from src d) = false ->
  filter (fun e => named (fst e)) (vals (d_map (move_from src d))) = filter (fun e => named (fst e)) (vals (d_map d)).
Proof.
  intros S1 S2 E1 KN. destruct (move_spec src d S1 S2) as (m & -> & S3 & G). cbn [with_map d_map]. intros W.
  apply msorted_ext; try (apply filter_sorted; apply vals_sorted; auto). intros k.
  rewrite !mget_filter by (apply msorted_nodup; apply vals_sorted; auto). rewrite !mget_vals.
  assert (W2 : forall f, named k = true -> mget k m = Some f -> f_mod f = true -> False).
  { intros f X1 X2 X3. apply mget_in in X2.
    assert (was_changed_with under (with_map d m (some (lost src d) || d_fch d)) = true); [|congruence].
    apply (wcw_in _ (k, f)); auto. cbn [fst]. destruct k as [|c k]; [discriminate|]. cbn [named] in X1. apply N.eqb_eq in X1. subst. reflexivity. }
  destruct (named k) eqn:NK.
  2:{ destruct (mget k m), (mget k (d_map d)); cbn [fst]; rewrite ?NK; auto. }
  pose proof (G k) as GK. specialize (KN k NK). unfold has in KN.
  destruct (mget k src) as [f|] eqn:EK.
  - rewrite GK in *. destruct (mget k (d_map d)) as [g|] eqn:EG.
    + destruct (set_value_mod g (f_val f)) as [X|X]; [rewrite X; auto|exfalso; eauto].
    + exfalso. apply (W2 _ eq_refl eq_refl). apply set_value_new. destruct (fvals_get _ _ _ _ E1 EK) as (A & B & _). split; auto.
  - rewrite GK. destruct (mget k (d_map d)) as [g|]; auto. discriminate (KN eq_refl).
Qed.
