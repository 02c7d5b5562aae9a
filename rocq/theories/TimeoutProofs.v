From Verif Require Import Common TimeoutSpec TimeoutModel.
Local Open Scope Z_scope.

Lemma nth_upd {A} (l : list A) i x d j : nth j (upd l i x) d = if ((j =? i) && (i <? length l))%nat then x else nth j l d.
Proof.
  revert i j. induction l as [|a l IH]; intros i j.
  - destruct i; cbn [upd]; rewrite andb_comm; cbn; reflexivity.
  - destruct i, j; cbn [upd nth length]; auto. rewrite IH. reflexivity.
Qed.

Definition optR (o : option Z) (z : Z) : Prop := match o with None => z <= 0 | Some d => z = d /\ 0 < d end.

Record SlotR (s : sslot) (m : bool * trec) : Prop := {
  sr_alive : fst m = ss_alive s;
  sr_req : match ss_req s with
           | None => r_active (snd m) = false
           | Some (t, v) => r_active (snd m) = true /\ r_mark (snd m) = t /\ r_interv (snd m) = v /\ 0 < t
           end;
  sr_dl : optR (ss_dl s) (r_next (snd m));
  sr_prev : optR (ss_prev s) (r_prev (snd m)) }.

Lemma dead_R : SlotR ss_dead slot_dead.
Proof. constructor; cbn; auto; lia. Qed.
Lemma new_R : SlotR ss_new (true, trec_new).
Proof. constructor; cbn; auto; lia. Qed.

Definition ListR (l : list sslot) (m : list (bool * trec)) : Prop :=
  length l = length m /\ forall i, SlotR (ss_get l i) (tt_get m i).

Lemma listR_upd l m i s r : ListR l m -> SlotR s r -> ListR (upd l i s) (upd m i r).
Proof.
  intros [L H] HR. split; [rewrite !upd_length; auto|].
  intros j. unfold ss_get, tt_get. rewrite !nth_upd, L. destruct (_ && _); auto. apply H.
Qed.

Lemma act_R l m i now tm : 0 < now -> ListR l m -> ListR (ss_act l i now tm) (tt_act m i now tm).
Proof.
  intros Hn HL. pose proof (proj2 HL i) as [A R D P]. unfold ss_act, tt_act.
  destruct (tt_get m i) as [al r]. cbn [fst snd] in *. apply listR_upd; auto.
  constructor; cbn; auto.
Qed.

Lemma cb_R now ops : 0 < now -> Forall (fun o => match o with CAct _ t _ => now <= t | CEvent _ => False end) ops ->
  forall l m, ListR l m -> ListR (fold_left ss_cb ops l) (fold_left tt_cb ops m).
Proof.
  intros Hn. induction 1 as [|o ops Ho _ IH]; intros l m HL; cbn [fold_left]; auto.
  apply IH. destruct o; [|contradiction]. cbn [ss_cb tt_cb]. apply act_R; auto. lia.
Qed.

Definition core (s : sslot) := (ss_alive s, ss_dl s, ss_prev s).

Lemma act_core l i now tm j : core (ss_get (ss_act l i now tm) j) = core (ss_get l j).
Proof.
  unfold ss_act, ss_get. rewrite nth_upd. destruct ((j =? i) && (i <? length l))%nat eqn:E; auto.
  apply andb_prop in E as [E _]. apply Nat.eqb_eq in E. subst. reflexivity.
Qed.

Lemma cb_core ops : forall l j, core (ss_get (fold_left ss_cb ops l) j) = core (ss_get l j).
Proof.
  induction ops as [|o ops IH]; intros l j; cbn [fold_left]; auto. rewrite IH.
  destruct o; cbn [ss_cb]; auto. apply act_core.
Qed.

Lemma cb_length ops : forall l, length (fold_left ss_cb ops l) = length l.
Proof.
  induction ops as [|o ops IH]; intros l; cbn [fold_left]; auto. rewrite IH.
  destruct o; cbn [ss_cb]; auto. unfold ss_act. apply upd_length.
Qed.

(* deadline of a slot that is used *)
Definition dl (l : list sslot) (j : nat) : option Z := if ss_alive (ss_get l j) then ss_dl (ss_get l j) else None.

Lemma dl_core l l' j : core (ss_get l j) = core (ss_get l' j) -> dl l j = dl l' j.
Proof. unfold core, dl. intros H. inversion H. reflexivity. Qed.

(* [min] is not later than the deadline of slot j *)
Definition covers (l : list sslot) (now min : Z) (j : nat) : Prop :=
  forall d, dl l j = Some d -> 0 <= min /\ now + min <= d.

Lemma check1_R l m i now cb min : 0 < now -> cb_ok now cb -> ListR l m -> -1 <= min ->
  exists l' m' min' o, ss_check1 l i now cb = (l', o) /\ tt_check1 m i now cb min = (m', min', o) /\
    ListR l' m' /\ length l' = length l /\ -1 <= min' /\
    (covers l' now min' i) /\ (forall j, covers l' now min j -> covers l' now min' j) /\
    (forall j, j <> i -> dl l' j = dl l j).
Proof.
  intros Hn Hcb HL Hmin. pose proof (proj2 HL i) as S.
  unfold ss_check1, tt_check1. destruct (tt_get m i) as [al r] eqn:Em.
  destruct S as [A R D P]. cbn [fst snd] in *. subst al.
  destruct (ss_alive (ss_get l i)) eqn:Ea.
  2: { do 4 eexists. split; [reflexivity|]. split; [reflexivity|]. split; [exact HL|]. split; auto. split; auto. split; [|split; auto].
       intros d. unfold dl. rewrite Ea. discriminate. }
  unfold r_check_next, is_null.
  destruct (ss_dl (ss_get l i)) as [d|] eqn:Ed; cbn [optR] in D.
  2: { replace (r_next r <=? 0) with true by (symmetry; apply Z.leb_le; auto).
       do 4 eexists. split; [reflexivity|]. split; [reflexivity|]. split; [exact HL|]. split; auto. split; auto. split; [|split; auto].
       intros d. unfold dl. rewrite Ea, Ed. discriminate. }
  destruct D as [D1 D2]. rewrite D1.
  replace (d <=? 0) with false by (symmetry; apply Z.leb_gt; auto).
  destruct (Z.leb_spec 0 (d - now)) as [Hd|Hd].
  { replace (d <? now) with false by (symmetry; apply Z.ltb_ge; lia).
    do 4 eexists. split; [reflexivity|]. split; [reflexivity|]. split; [exact HL|]. split; auto.
    split; [destruct (Z.ltb_spec min 0), (Z.ltb_spec (d - now) min); cbn [orb]; lia|]. split; [|split; auto].
    - intros d'. unfold dl. rewrite Ea, Ed. intros E'; inversion E'; subst d'.
      destruct (Z.ltb_spec min 0), (Z.ltb_spec (d - now) min); cbn [orb]; lia.
    - intros j C d' E'. specialize (C d' E').
      destruct (Z.ltb_spec min 0), (Z.ltb_spec (d - now) min); cbn [orb]; lia. }
  replace (d <? now) with true by (symmetry; apply Z.ltb_lt; lia).
  assert (EL : match ss_prev (ss_get l i) with None => 0 | Some p => now - p end = (if r_prev r <=? 0 then 0 else now - r_prev r)).
  { destruct (ss_prev (ss_get l i)); cbn [optR] in P.
    - destruct P as [-> P]. replace (z <=? 0) with false by (symmetry; apply Z.leb_gt; auto). reflexivity.
    - replace (r_prev r <=? 0) with true by (symmetry; apply Z.leb_le; auto). reflexivity. }
  rewrite <- EL. set (last := match ss_prev (ss_get l i) with None => 0 | Some p => now - p end).
  specialize (Hcb i last). destruct (cb i last) as [ops dist]. cbn [fst] in Hcb.
  pose proof (cb_R now ops Hn Hcb _ _ HL) as HL1.
  set (l1 := fold_left ss_cb ops l) in *. set (m1 := fold_left tt_cb ops m) in *.
  pose proof (proj2 HL1 i) as S1. destruct (tt_get m1 i) as [al1 r1] eqn:Em1.
  destruct S1 as [A1 R1 Dl1 P1]. cbn [fst snd] in *.
  assert (Core : forall j, core (ss_get l1 j) = core (ss_get l j)) by (intro; apply cb_core).
  assert (Len : length l1 = length l) by apply cb_length.
  unfold r_set_next. destruct (Z.leb_spec 0 dist) as [Hds|Hds].
  - do 4 eexists. split; [reflexivity|]. split; [reflexivity|].
    assert (B : -1 <= (if (min <? 0) || (dist <? min) then dist else min) /\
                0 <= (if (min <? 0) || (dist <? min) then dist else min) <= dist).
    { destruct (Z.ltb_spec min 0), (Z.ltb_spec dist min); cbn [orb]; lia. }
    split; [apply listR_upd; auto; constructor; cbn; auto; lia|].
    split; [rewrite upd_length; auto|]. split; [lia|]. split; [|split].
    + intros d'. unfold dl, ss_get. rewrite !nth_upd, Nat.eqb_refl. cbn [andb].
      destruct (Nat.ltb_spec i (length l1)); cbn [ss_alive ss_dl].
      * destruct (ss_alive (nth i l1 ss_dead)); [|discriminate]. intro E'; inversion E'; subst. lia.
      * exfalso. unfold ss_get in Ea. rewrite nth_overflow in Ea; [discriminate|lia].
    + intros j C d' E'. specialize (C d' E'). destruct (Z.ltb_spec min 0), (Z.ltb_spec dist min); cbn [orb]; lia.
    + intros j Hj. rewrite <- (dl_core l1 l j (Core j)). unfold dl, ss_get. rewrite !nth_upd.
      destruct (Nat.eqb_spec j i); [congruence|]. reflexivity.
  - do 4 eexists. split; [reflexivity|]. split; [reflexivity|].
    split; [apply listR_upd; auto; constructor; cbn; auto; lia|].
    split; [rewrite upd_length; auto|]. split; [lia|]. split; [|split; auto].
    + intros d'. unfold dl, ss_get. rewrite !nth_upd, Nat.eqb_refl. cbn [andb].
      destruct (Nat.ltb_spec i (length l1)); cbn [ss_alive ss_dl].
      * destruct (ss_alive (nth i l1 ss_dead)); discriminate.
      * exfalso. unfold ss_get in Ea. rewrite nth_overflow in Ea; [discriminate|lia].
    + intros j Hj. rewrite <- (dl_core l1 l j (Core j)). unfold dl, ss_get. rewrite !nth_upd.
      destruct (Nat.eqb_spec j i); [congruence|]. reflexivity.
Qed.

Lemma checks_R now cb idx : 0 < now -> cb_ok now cb -> forall l m min, ListR l m -> -1 <= min -> NoDup idx ->
  exists l' m' min' o, ss_checks idx l now cb = (l', o) /\ tt_checks idx m now cb min = (m', min', o) /\
    ListR l' m' /\ length l' = length l /\ -1 <= min' /\
    (forall j, In j idx \/ covers l now min j -> covers l' now min' j).
Proof.
  intros Hn Hcb. induction idx as [|i idx IH]; intros l m min HL Hmin ND; cbn [ss_checks tt_checks].
  - do 4 eexists. repeat (split; [reflexivity||assumption|]). intros j [[]|H]; auto.
  - inversion ND as [|? ? Hi ND']; subst.
    destruct (check1_R l m i now cb min Hn Hcb HL Hmin) as (l1 & m1 & min1 & o1 & E1 & E2 & HL1 & Ln1 & Hm1 & C1 & C2 & C3).
    destruct (IH l1 m1 min1 HL1 Hm1 ND') as (l2 & m2 & min2 & o2 & E3 & E4 & HL2 & Ln2 & Hm2 & C4).
    rewrite E1, E2, E3, E4. do 4 eexists. split; [reflexivity|]. split; [reflexivity|]. split; [exact HL2|]. split; [lia|]. split; [exact Hm2|].
    intros j H. apply C4. destruct (in_dec Nat.eq_dec j idx); [left; auto|right].
    destruct (Nat.eq_dec j i) as [->|Hj]; auto.
    destruct H as [[H|H]|H]; try congruence; try contradiction.
    apply C2. intros d E. rewrite C3 in E by auto. apply H; auto.
Qed.

Definition NextOk (l : list sslot) (nxt : Z) : Prop := forall j d, dl l j = Some d -> 0 < nxt <= d.

Lemma get_over l j : (length l <= j)%nat -> dl l j = None.
Proof. intros H. unfold dl, ss_get. rewrite nth_overflow; auto. Qed.

Lemma no_due_check l now cb : (forall j d, dl l j = Some d -> now <= d) -> forall idx, ss_checks idx l now cb = (l, []).
Proof.
  intros H idx. induction idx as [|i idx IH]; cbn [ss_checks]; auto.
  assert (E : ss_check1 l i now cb = (l, [])).
  { unfold ss_check1. specialize (H i). unfold dl in H.
    destruct (if ss_alive (ss_get l i) then ss_dl (ss_get l i) else None); auto.
    specialize (H z eq_refl). replace (z <? now) with false by (symmetry; apply Z.ltb_ge; lia). reflexivity. }
  rewrite E, IH. reflexivity.
Qed.

(* how long the loop may sleep *)
Definition wait_ok (l : list sslot) (now w : Z) : Prop :=
  (w = -1 /\ forall j, dl l j = None) \/ (0 <= w /\ forall j d, dl l j = Some d -> now + w <= d).

Lemma check_R (force : bool) l t now cb : 0 < now -> cb_ok now cb -> ListR l (tt_slots t) ->
  (force = false -> NextOk l (tt_next t)) ->
  exists l' t' o w, ss_check l now cb = (l', o) /\ tt_check t force now cb = (t', o, w) /\
    ListR l' (tt_slots t') /\ NextOk l' (tt_next t') /\ length l' = length l /\ wait_ok l' now w.
Proof.
  intros Hn Hcb HL HN. unfold tt_check, is_null, ss_check.
  assert (Full : exists l' t' o w, ss_checks (seq 0 (length l)) l now cb = (l', o) /\
     (let '(l0, min, o0) := tt_checks (seq 0 (length (tt_slots t))) (tt_slots t) now cb (-1) in
        (mkTT l0 (if 0 <=? min then now + min else 0), o0, min)) = (t', o, w) /\
     ListR l' (tt_slots t') /\ NextOk l' (tt_next t') /\ length l' = length l /\ wait_ok l' now w).
  { rewrite <- (proj1 HL).
    destruct (checks_R now cb (seq 0 (length l)) Hn Hcb l (tt_slots t) (-1) HL ltac:(lia) (seq_NoDup _ _))
      as (l' & m' & min' & o & E1 & E2 & HL' & Ln & Hm & C).
    rewrite E1, E2. do 4 eexists. split; [reflexivity|]. split; [reflexivity|]. cbn [tt_slots tt_next].
    assert (CC : forall j d, dl l' j = Some d -> 0 <= min' /\ now + min' <= d).
    { intros j d E. destruct (Nat.lt_ge_cases j (length l')) as [L|L].
      - apply (C j); auto. left. apply in_seq. lia.
      - rewrite get_over in E by auto. discriminate. }
    split; auto. split; [|split; auto].
    - intros j d E. specialize (CC j d E). destruct (Z.leb_spec 0 min'); lia.
    - unfold wait_ok. destruct (Z_lt_le_dec min' 0).
      + left. split; [lia|]. intros j. destruct (dl l' j) eqn:E; auto. specialize (CC j z E). lia.
      + right. split; auto. intros j d E. specialize (CC j d E). lia. }
  destruct force; cbn [negb andb]; [exact Full|]. specialize (HN eq_refl).
  destruct (Z.leb_spec (tt_next t) 0).
  - rewrite no_due_check.
    + do 4 eexists. split; [reflexivity|]. split; [reflexivity|]. split; auto. split; auto. split; auto.
      left. split; auto. intros j. destruct (dl l j) eqn:E; auto. specialize (HN j z E). lia.
    + intros j d E. specialize (HN j d E). lia.
  - destruct (Z.ltb_spec 0 (tt_next t - now)); [|exact Full].
    rewrite no_due_check.
    + do 4 eexists. split; [reflexivity|]. split; [reflexivity|]. split; auto. split; auto. split; auto.
      right. split; [lia|]. intros j d E. specialize (HN j d E). lia.
    + intros j d E. specialize (HN j d E). lia.
Qed.

Definition act_ok (t0 : Z) (a : kact) : Prop :=
  match act_time a with
  | None => True
  | Some t => t0 <= t /\ match a with KEvent _ _ cb | KCheck _ cb => cb_ok t cb | _ => True end
  end.

Lemma step_R l t a t0 : 0 < t0 -> act_ok t0 a -> ListR l (tt_slots t) -> NextOk l (tt_next t) ->
  exists l' t' o w, ss_step l a = (l', o) /\ tt_step t a = (t', o, w) /\
    ListR l' (tt_slots t') /\ NextOk l' (tt_next t') /\
    match a, w with KCheck now _, Some w => wait_ok l' now w | KCheck _ _, None => False | _, _ => True end.
Proof.
  intros Ht Ha HL HN. unfold act_ok in Ha. destruct a as [i now tm|i now cb|now cb|i|]; cbn [ss_step tt_step act_time] in *.
  - do 4 eexists. split; [reflexivity|]. split; [reflexivity|]. cbn [tt_slots tt_next]. split; [apply act_R; auto; lia|]. split; auto.
    intros j d E. apply (HN j d). rewrite <- E. apply dl_core. symmetry. apply act_core.
  - pose proof (proj2 HL i) as S. destruct (tt_get (tt_slots t) i) as [al r] eqn:Etg. destruct S as [A R D P]. cbn [fst snd] in *. subst al.
    destruct (ss_alive (ss_get l i)) eqn:Ea.
    2: { do 4 eexists. split; [reflexivity|]. split; [reflexivity|]. auto. }
    unfold r_check_event. destruct (ss_req (ss_get l i)) as [[mk v]|].
    2: { rewrite R. do 4 eexists. split; [reflexivity|]. split; [reflexivity|]. cbn [tt_slots tt_next].
         assert (U : ListR l (upd (tt_slots t) i (true, r))).
         { split; [rewrite upd_length; apply HL|]. intros j. unfold tt_get. rewrite nth_upd. pose proof (proj2 HL j) as S.
           destruct ((j =? i) && (i <? length (tt_slots t)))%nat eqn:E; auto.
           apply andb_prop in E as [E _]. apply Nat.eqb_eq in E. subst j.
           rewrite <- Etg. exact (proj2 HL i). }
         auto. }
    destruct R as (R1 & R2 & R3 & R4). rewrite R1, R3.
    destruct (Z.ltb_spec v 0).
    + do 4 eexists. split; [reflexivity|]. split; [reflexivity|]. cbn [tt_slots tt_next].
      split; [apply listR_upd; auto; constructor; cbn; auto; lia|]. split; auto.
      intros j d. unfold dl, ss_get. rewrite !nth_upd. destruct (_ && _) eqn:E; [discriminate|]. apply HN.
    + match goal with |- context [ss_check ?x now cb] => set (l1 := x) end.
      match goal with |- context [tt_check ?x true now cb] => set (t1 := x) end.
      assert (HL1 : ListR l1 (tt_slots t1)).
      { unfold l1, t1. cbn [tt_slots]. apply listR_upd; auto. constructor; cbn; auto; [lia|].
        unfold is_null. destruct (ss_prev (ss_get l i)) as [p|]; cbn [optR] in P |- *.
        - destruct P as [-> P]. replace (p <=? 0) with false by (symmetry; apply Z.leb_gt; auto). cbn [andb]. auto.
        - replace (r_prev r <=? 0) with true by (symmetry; apply Z.leb_le; auto). cbn [andb].
          destruct (Z.ltb_spec 0 v); cbn; auto; lia. }
      destruct Ha as [Ha1 Ha2].
      destruct (check_R true l1 t1 now cb ltac:(lia) Ha2 HL1 ltac:(discriminate)) as (l' & t' & o & w & E1 & E2 & H1 & H2 & _).
      rewrite E1, E2. do 4 eexists. split; [reflexivity|]. split; [reflexivity|]. auto.
  - destruct Ha as [Ha1 Ha2].
    destruct (check_R false l t now cb ltac:(lia) Ha2 HL ltac:(auto)) as (l' & t' & o & w & E1 & E2 & H1 & H2 & _ & H3).
    rewrite E1, E2. do 4 eexists. split; [reflexivity|]. split; [reflexivity|]. auto.
  - do 4 eexists. split; [reflexivity|]. split; [reflexivity|]. cbn [tt_slots tt_next].
    split; [apply listR_upd; auto; apply dead_R|]. split; auto.
    intros j d. unfold dl, ss_get. rewrite !nth_upd. destruct (_ && _); [discriminate|]. apply HN.
  - do 4 eexists. split; [reflexivity|]. split; [reflexivity|]. cbn [tt_slots tt_next].
    assert (G : forall j, (ss_get (l ++ [ss_new]) j = ss_get l j /\ tt_get (tt_slots t ++ [(true, trec_new)]) j = tt_get (tt_slots t) j) \/
                (ss_get (l ++ [ss_new]) j = ss_new /\ tt_get (tt_slots t ++ [(true, trec_new)]) j = (true, trec_new))).
    { intros j. pose proof (proj1 HL) as Ln. unfold ss_get, tt_get. destruct (Nat.lt_ge_cases j (length l)).
      - left. rewrite !app_nth1; auto; lia.
      - destruct (Nat.eq_dec j (length l)) as [->|].
        + right. rewrite !app_nth2 by lia. rewrite <- Ln, !Nat.sub_diag. auto.
        + left. rewrite !nth_overflow; auto; rewrite ?app_length; cbn [length]; lia. }
    split; [|split; auto].
    + split; [rewrite !app_length; cbn [length]; rewrite (proj1 HL); auto|].
      intros j. destruct (G j) as [[-> ->]|[-> ->]]; [apply HL|apply new_R].
    + intros j d. unfold dl. destruct (G j) as [[-> _]|[-> _]]; [apply HN|discriminate].
Qed.

Lemma run_R acts : forall t0 l t, 0 < t0 -> clock_ok t0 acts -> ListR l (tt_slots t) -> NextOk l (tt_next t) ->
  exists l' t' o, ss_run l acts = (l', o) /\ tt_run t acts = (t', o) /\ ListR l' (tt_slots t') /\ NextOk l' (tt_next t').
Proof.
  induction acts as [|a acts IH]; intros t0 l t Ht Hc HL HN; cbn [ss_run tt_run].
  - eauto 10.
  - cbn [clock_ok] in Hc.
    assert (Ha : act_ok t0 a /\ exists t1, t0 <= t1 /\ clock_ok t1 acts).
    { unfold act_ok. destruct (act_time a); [|split; auto; exists t0; split; auto; lia].
      destruct Hc as (H1 & H2 & H3). split; auto. exists z. auto. }
    destruct Ha as (Ha & t1 & Ht1 & Hc1).
    destruct (step_R l t a t0 Ht Ha HL HN) as (l' & t' & o & w & E1 & E2 & HL1 & HN1 & _).
    destruct (IH t1 l' t' ltac:(lia) Hc1 HL1 HN1) as (l2 & t2 & o2 & E3 & E4 & HL2 & HN2).
    rewrite E1, E2, E3, E4. eauto 10.
Qed.

Lemma init_R n : ListR (repeat ss_new n) (tt_slots (tt_new n)) /\ NextOk (repeat ss_new n) (tt_next (tt_new n)).
Proof.
  assert (G : forall j, (ss_get (repeat ss_new n) j = ss_new /\ tt_get (repeat (true, trec_new) n) j = (true, trec_new)) \/
                        (ss_get (repeat ss_new n) j = ss_dead /\ tt_get (repeat (true, trec_new) n) j = slot_dead)).
  { intros j. unfold ss_get, tt_get. destruct (Nat.lt_ge_cases j n) as [H|H].
    - left. split; (rewrite (nth_indep _ _ ss_new) || rewrite (nth_indep _ _ (true, trec_new))); rewrite ?repeat_length; auto; apply nth_repeat.
    - right. rewrite !nth_overflow; auto; rewrite repeat_length; auto. }
  split.
  - split; [cbn [tt_new tt_slots]; rewrite !repeat_length; reflexivity|]. intros j. cbn [tt_new tt_slots]. destruct (G j) as [[-> ->]|[-> ->]]; [apply new_R|apply dead_R].
  - intros j d. unfold dl. destruct (G j) as [[-> _]|[-> _]]; discriminate.
Qed.

Lemma timeouts_exact n acts : clock_ok 1 acts -> 
  snd (tt_run (tt_new n) acts) = snd (ss_run (repeat ss_new n) acts).
Proof.
  intros Hc. destruct (init_R n) as [HL HN].
  destruct (run_R acts 1 _ _ ltac:(lia) Hc HL HN) as (l' & t' & o & -> & -> & _). reflexivity.
Qed.

Lemma sleep_bounded n acts now cb : clock_ok 1 (acts ++ [KCheck now cb]) ->
  exists w t' o, tt_step (fst (tt_run (tt_new n) acts)) (KCheck now cb) = (t', o, Some w) /\
   let l := fst (ss_run (repeat ss_new n) (acts ++ [KCheck now cb])) in
   (w = -1 /\ (forall j, ss_alive (ss_get l j) = true -> ss_dl (ss_get l j) = None)) \/
   (0 <= w /\ forall j d, ss_alive (ss_get l j) = true -> ss_dl (ss_get l j) = Some d -> now + w <= d).
Proof.
  intros Hc. destruct (init_R n) as [HL HN].
  assert (S : forall acts t0, 0 < t0 -> clock_ok t0 (acts ++ [KCheck now cb]) -> clock_ok t0 acts /\ exists t1, 0 < t1 /\ act_ok t1 (KCheck now cb)).
  { clear. induction acts as [|a acts IH]; intros t0 H0 H; cbn [app clock_ok] in *.
    - split; auto. exists t0. split; auto. unfold act_ok. cbn in *. tauto.
    - destruct (act_time a); [|apply IH; auto]. destruct H as (H1 & H2 & H3). destruct (IH z ltac:(lia) H3) as (H4 & H5). auto. }
  assert (A : forall acts l, ss_run l (acts ++ [KCheck now cb]) =
      let '(l1, o1) := ss_run l acts in let '(l2, o2) := ss_step l1 (KCheck now cb) in (l2, o1 ++ o2)).
  { clear. induction acts as [|a acts IH]; intros l.
    - cbn [app ss_run]. destruct (ss_step l (KCheck now cb)). rewrite app_nil_r. reflexivity.
    - cbn [app ss_run]. destruct (ss_step l a) as [l1 o1]. rewrite IH. destruct (ss_run l1 acts) as [l2 o2].
      destruct (ss_step l2 (KCheck now cb)). rewrite app_assoc. reflexivity. }
  destruct (S acts 1 ltac:(lia) Hc) as (Hc1 & t1 & Ht1 & Ha).
  destruct (run_R acts 1 _ _ ltac:(lia) Hc1 HL HN) as (l' & t' & o & E1 & E2 & HL' & HN').
  rewrite E2. cbn [fst].
  destruct (step_R l' t' _ t1 Ht1 Ha HL' HN') as (l2 & t2 & o2 & w & E3 & E4 & _ & _ & W).
  destruct w as [w|]; [|contradiction]. exists w, t2, o2. split; auto.
  rewrite A, E1, E3. cbn [fst]. cbn zeta. unfold wait_ok in W. unfold dl in W.
  destruct W as [[W1 W2]|[W1 W2]]; [left|right]; split; auto.
  - intros j Hj. specialize (W2 j). rewrite Hj in W2. exact W2.
  - intros j d Hj. specialize (W2 j d). rewrite Hj in W2. exact W2.
Qed.

(* ---- one activation, seen by its worker ---- *)
Lemma act_other l j now tm i : j <> i -> ss_get (ss_act l j now tm) i = ss_get l i.
Proof.
  intros H. unfold ss_act, ss_get. rewrite nth_upd. destruct (Nat.eqb_spec i j); [congruence|]. reflexivity.
Qed.

Lemma cb_other i ops : Forall (fun o => match o with CAct k _ _ => k <> i | CEvent _ => True end) ops ->
  forall l, ss_get (fold_left ss_cb ops l) i = ss_get l i.
Proof.
  induction 1 as [|o ops Ho _ IH]; intros l; cbn [fold_left]; auto. rewrite IH.
  destruct o; cbn [ss_cb]; auto. apply act_other; auto.
Qed.

Lemma check1_other l j now cb i : j <> i -> cb_leaves i cb ->
  forall l' o, ss_check1 l j now cb = (l', o) -> ss_get l' i = ss_get l i /\ delivered i o = [] /\ length l' = length l.
Proof.
  intros Hj Hc l' o. unfold ss_check1.
  destruct (if ss_alive (ss_get l j) then ss_dl (ss_get l j) else None) as [d|]; [|intros E; inversion E; auto].
  destruct (d <? now); [|intros E; inversion E; auto].
  match goal with |- context [cb j ?x] => specialize (Hc j x); destruct (cb j x) as [ops dist] end.
  cbn [fst] in Hc. intros E. inversion E; subst. split; [|split].
  - unfold ss_get at 1. rewrite nth_upd. destruct (Nat.eqb_spec i j); [congruence|]. cbn [andb]. apply cb_other; auto.
  - cbn. destruct (Nat.eqb_spec j i); [congruence|]. reflexivity.
  - rewrite upd_length. apply cb_length.
Qed.

Lemma checks_other i now cb : cb_leaves i cb -> forall idx l l' o, ~ In i idx ->
  ss_checks idx l now cb = (l', o) -> ss_get l' i = ss_get l i /\ delivered i o = [] /\ length l' = length l.
Proof.
  intros Hc. induction idx as [|j idx IH]; intros l l' o Hi; cbn [ss_checks].
  - intros E; inversion E; auto.
  - destruct (ss_check1 l j now cb) as [l1 o1] eqn:E1. destruct (ss_checks idx l1 now cb) as [l2 o2] eqn:E2.
    intros E; inversion E; subst. cbn [In] in Hi.
    destruct (check1_other l j now cb i ltac:(tauto) Hc _ _ E1) as (A & B & C).
    destruct (IH l1 _ _ ltac:(tauto) E2) as (A' & B' & C').
    unfold delivered in *. rewrite filter_app, B, B'. split; [congruence|]. split; auto. congruence.
Qed.

Lemma check_split i now cb l l' o : cb_leaves i cb -> (i < length l)%nat -> ss_check l now cb = (l', o) ->
  exists l1 l2 o2, ss_get l1 i = ss_get l i /\ length l1 = length l /\ ss_check1 l1 i now cb = (l2, o2) /\
     ss_get l' i = ss_get l2 i /\ delivered i o = delivered i o2 /\ length l' = length l2.
Proof.
  intros Hc Hi. unfold ss_check.
  assert (Sq : seq 0 (length l) = seq 0 i ++ i :: seq (S i) (length l - S i)).
  { replace (length l) with (i + S (length l - S i))%nat at 1 by lia. rewrite seq_app. reflexivity. }
  rewrite Sq.
  assert (App : forall a b l, ss_checks (a ++ b) l now cb =
     let '(l1, o1) := ss_checks a l now cb in let '(l2, o2) := ss_checks b l1 now cb in (l2, o1 ++ o2)).
  { clear. induction a as [|x a IH]; intros b l; cbn [app ss_checks].
    - destruct (ss_checks b l now cb); reflexivity.
    - destruct (ss_check1 l x now cb) as [l1 o1]. rewrite IH. destruct (ss_checks a l1 now cb) as [l2 o2].
      destruct (ss_checks b l2 now cb). rewrite app_assoc. reflexivity. }
  rewrite App. destruct (ss_checks (seq 0 i) l now cb) as [l1 o1] eqn:E1.
  cbn [ss_checks]. destruct (ss_check1 l1 i now cb) as [l2 o2] eqn:E2.
  destruct (ss_checks (seq (S i) (length l - S i)) l2 now cb) as [l3 o3] eqn:E3.
  intros E; inversion E; subst.
  destruct (checks_other i now cb Hc (seq 0 i) l l1 o1 ltac:(rewrite in_seq; lia) E1) as (A & B & C).
  destruct (checks_other i now cb Hc (seq (S i) (length l - S i)) l2 l' o3 ltac:(rewrite in_seq; lia) E3) as (A' & B' & C').
  exists l1, l2, o2. unfold delivered in *. rewrite !filter_app, B, B', app_nil_r. auto 10.
Qed.

(* slot i waits for time [t] *)
Definition pending (l : list sslot) (i : nat) (t : Z) : Prop :=
  (i < length l)%nat /\ ss_alive (ss_get l i) = true /\ ss_dl (ss_get l i) = Some t /\ ss_req (ss_get l i) = None.

Lemma check_pending i now cb l l' o t : cb_leaves i cb -> pending l i t -> now <= t -> ss_check l now cb = (l', o) ->
  pending l' i t /\ delivered i o = [].
Proof.
  intros Hc (P0 & P1 & P2 & P3) Ht E.
  destruct (check_split _ _ _ _ _ _ Hc P0 E) as (l1 & l2 & o2 & A & B & C & D & F & G).
  unfold ss_check1 in C. rewrite A, P1, P2 in C. replace (t <? now) with false in C by (symmetry; apply Z.ltb_ge; lia).
  inversion C; subst. rewrite F. unfold pending. rewrite D, A, G, B. auto.
Qed.

Lemma check_due i now cb l l' o t : cb_leaves i cb -> pending l i t -> t < now -> ss_check l now cb = (l', o) ->
  exists last, delivered i o = [mkD i now last].
Proof.
  intros Hc (P0 & P1 & P2 & P3) Ht E.
  destruct (check_split _ _ _ _ _ _ Hc P0 E) as (l1 & l2 & o2 & A & B & C & D & F & G).
  unfold ss_check1 in C. rewrite A, P1, P2 in C. replace (t <? now) with true in C by (symmetry; apply Z.ltb_lt; lia).
  destruct (cb i _) in C. inversion C; subst. rewrite F. cbn. rewrite Nat.eqb_refl. eauto.
Qed.

Lemma step_pending i l t a l' o : pending l i t -> leaves i a -> not_after t a -> ss_step l a = (l', o) ->
  pending l' i t /\ delivered i o = [].
Proof.
  intros P La Na. destruct a as [j now tm|j now cb|now cb|j|]; cbn [ss_step leaves not_after act_time] in *.
  - intros E; inversion E; subst. split; auto. destruct P as (P0 & P). unfold pending. rewrite act_other by auto.
    unfold ss_act. rewrite upd_length. auto.
  - unfold not_after in Na. cbn in Na. destruct (Nat.eq_dec j i) as [->|Hj].
    + destruct P as (P0 & P1 & P2 & P3). rewrite P1, P3. intros E; inversion E; subst. split; auto. repeat split; auto.
    + assert (U : forall s, pending (upd l j s) i t).
      { intros s. destruct P as (P0 & P1 & P2 & P3). unfold pending, ss_get. rewrite upd_length, !nth_upd.
        destruct (Nat.eqb_spec i j); [congruence|]. cbn [andb]. auto. }
      destruct (ss_alive (ss_get l j)); [|intros E; inversion E; subst; auto].
      destruct (ss_req (ss_get l j)) as [[mk v]|]; [|intros E; inversion E; subst; auto].
      destruct (v <? 0); [intros E; inversion E; subst; auto|].
      apply check_pending; auto.
  - apply check_pending; auto.
  - intros E; inversion E; subst. split; auto. destruct P as (P0 & P). unfold pending, ss_get. rewrite upd_length, nth_upd.
    destruct (Nat.eqb_spec i j); [congruence|]. cbn [andb]. auto.
  - intros E; inversion E; subst. split; auto. destruct P as (P0 & P). unfold pending, ss_get in *.
    rewrite app_length. cbn [length]. rewrite app_nth1 by auto. split; [lia|auto].
Qed.

Lemma run_pending i t acts : Forall (leaves i) acts -> Forall (not_after t) acts ->
  forall l l' o, pending l i t -> ss_run l acts = (l', o) -> pending l' i t /\ delivered i o = [].
Proof.
  induction acts as [|a acts IH]; intros HA HB l l' o P; cbn [ss_run].
  - intros E; inversion E; subst; auto.
  - inversion HA; inversion HB; subst. destruct (ss_step l a) as [l1 o1] eqn:E1. destruct (ss_run l1 acts) as [l2 o2] eqn:E2.
    intros E; inversion E; subst.
    destruct (step_pending _ _ _ _ _ _ P ltac:(eassumption) ltac:(eassumption) E1) as (P1 & D1).
    destruct (IH ltac:(auto) ltac:(auto) _ _ _ P1 E2) as (P2 & D2). split; auto.
    unfold delivered in *. rewrite filter_app, D1, D2. reflexivity.
Qed.

Lemma ss_run_app a b l : ss_run l (a ++ b) = let '(l1, o1) := ss_run l a in let '(l2, o2) := ss_run l1 b in (l2, o1 ++ o2).
Proof.
  revert l. induction a as [|x a IH]; intros l; cbn [app ss_run].
  - destruct (ss_run l b); reflexivity.
  - destruct (ss_step l x) as [l1 o1]. rewrite IH. destruct (ss_run l1 a) as [l2 o2]. destruct (ss_run l2 b). rewrite app_assoc. reflexivity.
Qed.

Lemma ss_act_pending l i t v t1 cb l1 o1 : (i < length l)%nat -> ss_alive (ss_get l i) = true -> 0 <= v -> t1 <= t + v ->
  cb_leaves i cb -> ss_run l [KAct i t v; KEvent i t1 cb] = (l1, o1) -> pending l1 i (t + v) /\ delivered i o1 = [].
Proof.
  intros Hi Ha Hv Ht Hc. cbn [ss_run ss_step]. cbn [app].
  assert (G : forall s, ss_get (upd l i s) i = s).
  { intros s. unfold ss_get. rewrite nth_upd, Nat.eqb_refl. destruct (Nat.ltb_spec i (length l)); auto; lia. }
  unfold ss_act. rewrite !G. cbn [ss_alive ss_req]. rewrite Ha.
  replace (v <? 0) with false by (symmetry; apply Z.ltb_ge; lia).
  match goal with |- context [ss_check ?x t1 cb] => destruct (ss_check x t1 cb) as [l2 o2] eqn:E; set (l0 := x) in * end.
  rewrite app_nil_r. intros E2; inversion E2; subst.
  assert (P : pending l0 i (t + v)).
  { assert (G0 : ss_get l0 i = mkSS true None (Some (t + v))
        (match ss_prev (ss_get l i) with None => if 0 <? v then Some t else None | p => p end)).
    { unfold l0, ss_get at 1. rewrite nth_upd, Nat.eqb_refl, upd_length. destruct (Nat.ltb_spec i (length l)); [|lia]. reflexivity. }
    unfold pending. rewrite G0. unfold l0. rewrite !upd_length. cbn. auto. }
  apply (check_pending i t1 cb l0 _ _ _ Hc P Ht E).
Qed.

Lemma tt_run_app a b t : tt_run t (a ++ b) = let '(l1, o1) := tt_run t a in let '(l2, o2) := tt_run l1 b in (l2, o1 ++ o2).
Proof.
  revert t. induction a as [|x a IH]; intros l; cbn [app tt_run].
  - destruct (tt_run l b); reflexivity.
  - destruct (tt_step l x) as [[l1 o1] ?]. rewrite IH. destruct (tt_run l1 a) as [l2 o2]. destruct (tt_run l2 b). rewrite app_assoc. reflexivity.
Qed.

Lemma clock_ok_prefix a b t0 : clock_ok t0 (a ++ b) -> clock_ok t0 a.
Proof.
  revert t0. induction a as [|x a IH]; intros t0 H; cbn [app clock_ok] in *; auto.
  destruct (act_time x); [|eauto]. destruct H as (H1 & H2 & H3). eauto.
Qed.

(* an activation with delay v >= 0 at time t *)
Lemma due_once n pre i t v t1 cb1 mid t2 cb2 :
  let acts := pre ++ [KAct i t v; KEvent i t1 cb1] ++ mid in
  clock_ok 1 (acts ++ [KCheck t2 cb2]) ->
  fst (tt_get (tt_slots (fst (tt_run (tt_new n) pre))) i) = true ->
  0 <= v -> t1 <= t + v -> cb_leaves i cb1 ->
  Forall (leaves i) mid -> Forall (not_after (t + v)) mid ->
  t + v < t2 -> cb_leaves i cb2 ->
  exists o0 o1 o2 last,
    snd (tt_run (tt_new n) pre) = o0 /\
    snd (tt_run (tt_new n) acts) = o0 ++ o1 /\
    snd (tt_run (tt_new n) (acts ++ [KCheck t2 cb2])) = o0 ++ o1 ++ o2 /\
    delivered i o1 = [] /\ delivered i o2 = [mkD i t2 last].
Proof.
  intros acts Hc Ha Hv Ht1 Hc1 Hm1 Hm2 Ht2 Hc2.
  destruct (init_R n) as [HL HN].
  assert (C0 : clock_ok 1 acts) by (eapply clock_ok_prefix; exact Hc).
  assert (C1 : clock_ok 1 pre) by (eapply clock_ok_prefix; exact C0).
  pose proof (timeouts_exact n _ Hc) as X2. pose proof (timeouts_exact n _ C0) as X1. pose proof (timeouts_exact n _ C1) as X0.
  rewrite X0, X1, X2. clear X0 X1 X2.
  destruct (run_R pre 1 _ _ ltac:(lia) C1 HL HN) as (l' & t' & o & E1 & E2 & HL' & HN').
  rewrite E2 in Ha. cbn [fst] in Ha.
  assert (Al : ss_alive (ss_get l' i) = true).
  { pose proof (sr_alive _ _ (proj2 HL' i)). congruence. }
  assert (Hi : (i < length l')%nat).
  { destruct (Nat.lt_ge_cases i (length l')); auto. unfold ss_get in Al. rewrite nth_overflow in Al; [discriminate|auto]. }
  unfold acts. rewrite (ss_run_app (pre ++ _)), (ss_run_app pre), E1, (ss_run_app _ mid).
  destruct (ss_run l' [KAct i t v; KEvent i t1 cb1]) as [l1 o1] eqn:F1.
  destruct (ss_act_pending _ _ _ _ _ _ _ _ Hi Al Hv Ht1 Hc1 F1) as (P1 & D1).
  destruct (ss_run l1 mid) as [l2 o2] eqn:F2.
  destruct (run_pending i (t + v) mid Hm1 Hm2 _ _ _ P1 F2) as (P2 & D2).
  cbn [ss_run ss_step]. destruct (ss_check l2 t2 cb2) as [l3 o3] eqn:F3.
  destruct (check_due i t2 cb2 l2 l3 o3 (t + v) Hc2 P2 Ht2 F3) as (last & D3).
  exists o, (o1 ++ o2), o3, last. cbn [snd]. rewrite app_nil_r, <- !app_assoc. split; auto. split; auto. split; auto. split; auto.
  unfold delivered in *. rewrite filter_app, D1, D2. reflexivity.
Qed.
