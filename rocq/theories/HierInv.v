(* Invariants of a hierarchy under edits and marks, and the relation to an earlier state. *)
From Verif Require Import Common ListFacts Bytes RecordSpec RecordModel RecordMap HierSpec HierModel HierProofs.
Local Open Scope N_scope.

Definition NC (d : hdata) (m : mask) : bool := d_nc d || any m || was_changed d.
Definition MC (d : hdata) (m : mask) : bool := d_mc d || m_names m || (was_changed d && was_changed_with under d).
Definition CC (d : hdata) (m : mask) : bool := d_cc d || m_value m || m_childs m.

(* flags are set together *)
Definition FS (d : hdata) : Prop := (d_mc d = true -> d_nc d = true) /\ (d_cc d = true -> d_nc d = true).
Definition quiet (d : hdata) : Prop := d_nc d = false /\ d_mc d = false /\ d_cc d = false /\ was_changed d = false.
(* the history of an item is not handed down *)
Definition own_hist (d : hdata) : Prop := match d_hist d with Some h => hs_childs h = false | None => True end.

Lemma quiet_with d : was_changed d = false -> was_changed_with under d = false.
Proof.
  unfold was_changed, was_changed_with. intros H. apply orb_false_iff in H. destruct H as (_ & H).
  induction (d_map d) as [|e m IH]; auto. cbn [existsb] in *. apply orb_false_iff in H. destruct H as (H1 & H2).
  rewrite H1. cbn [andb orb]. auto.
Qed.

Lemma mark_own_idle ver now inh m tm d : FS d -> NC d m = false -> mark_own ver now inh m tm d = (d, m, tm).
Proof.
  intros (F1 & F2) H. unfold mark_own. fold (NC d m). rewrite H. unfold NC in H.
  apply orb_false_iff in H. destruct H as (H & H3). apply orb_false_iff in H. destruct H as (H1 & H2).
  unfold any in H2. apply orb_false_iff in H2. destruct H2 as (H2 & H5). apply orb_false_iff in H2. destruct H2 as (H2 & H4).
  rewrite H2, H4, H5, H3. cbn [andb]. rewrite !orb_false_r.
  do 2 f_equal. destruct d as [f1 f2 f3 f4 f5 f6 f7 f8 f9 f10]. cbn [d_nc] in H1. subst f6. reflexivity.
Qed.

Section Sel.
(* the fields looked at; [names]: only those announced in a list of names *)
Variable names : bool.
Variable P : bytes -> bool.
Hypothesis HP : names = true -> forall k, P k = prefixb under k.

Definition sel (m : fmap field) : fmap value := filter (fun e => P (fst e)) (vals m).

Definition fver (d : hdata) : N := if names then d_mv d else d_nv d.
Definition cver (d : hdata) : N := if names then d_mv d else d_cv d.
Definition fpend (d : hdata) : bool := if names then d_mc d || was_changed_with under d else d_nc d || was_changed d.
Definition cpend (d : hdata) : bool := if names then d_mc d else d_cc d.
(* no history comes from above *)
Definition noinh (inh : option N) : Prop := names = true -> inh = None.
Definition nohist (d : hdata) : Prop := names = true -> own_hist d.

Lemma time_not : names = true -> P time_name = false.
Proof. intros H. rewrite (HP H). reflexivity. Qed.

Lemma clear_quiet m : existsb (fun e => f_mod (snd e)) (clear_map m) = false.
Proof. induction m as [|e m IH]; auto. Qed.

Lemma sel_clear m : sel (clear_map m) = sel m.
Proof. unfold sel. rewrite vals_clear. reflexivity. Qed.

Lemma sel_set_other m k v : msorted m -> P k = false -> sel (map_set m k v) = sel m.
Proof.
  intros HS HK. unfold sel, map_set. rewrite vals_mset. apply filter_mset_other. auto.
Qed.

Lemma mark_own_busy ver now inh m tm d d' m' tm' : msorted (d_map d) -> NC d m = true ->
  mark_own ver now inh m tm d = (d', m', tm') ->
  d_nv d' = ver /\ d_mv d' = (if MC d m then ver else d_mv d) /\ d_cv d' = (if CC d m then ver else d_cv d) /\
  quiet d' /\ msorted (d_map d') /\ m_value m' = true /\ m_names m' = (m_names m || MC d m) /\
  d_auto d' = d_auto d /\ (inh = None -> own_hist d -> own_hist d') /\
  (noinh inh -> nohist d -> names = true -> sel (d_map d') = sel (d_map d)).
Proof.
  intros S1 H E. unfold mark_own in E. fold (NC d m) in E. fold (MC d m) in E. fold (CC d m) in E. rewrite H in E.
  set (d1 := mkD _ _ _ _ _ _ _ _ _ _) in E. cbv zeta in E.
  set (tm1 := if d_auto d1 then if tm =? 0 then now else tm else tm) in E.
  set (d2 := if d_auto d1 then set_field d1 time_name (VDatime tm1) else d1) in E.
  assert (A1 : d_nv d2 = ver /\ d_mv d2 = d_mv d1 /\ d_cv d2 = d_cv d1 /\ msorted (d_map d2) /\ d_auto d2 = d_auto d /\ d_hist d2 = d_hist d /\
     (names = true -> sel (d_map d2) = sel (d_map d))).
  { unfold d2. change (d_auto d1) with (d_auto d).
    destruct (d_auto d) eqn:EA; cbn [set_field with_map d_map d_nv d_mv d_cv d_auto d_hist];
      (split; [reflexivity|]; split; [reflexivity|]; split; [reflexivity|]; split; [|split; [auto|split; [reflexivity|]]]); auto.
    - apply map_set_sorted. auto.
    - intros HN. apply sel_set_other; auto. apply time_not; auto. }
  destruct A1 as (V1 & V2 & V3 & S2 & A2 & H2 & L2). clearbody d2 tm1.
  assert (A2' : exists d3 doing, check_history inh d2 = (d3, doing) /\
     d_nv d3 = ver /\ d_mv d3 = d_mv d1 /\ d_cv d3 = d_cv d1 /\ msorted (d_map d3) /\ d_auto d3 = d_auto d /\
     (inh = None -> own_hist d -> own_hist d3) /\
     (noinh inh -> nohist d -> names = true -> sel (d_map d3) = sel (d_map d))).
  { do 2 eexists. split; [apply surjective_pairing|]. unfold check_history.
    destruct (d_hist d2) as [h|] eqn:EH; cbn [fst].
    - repeat split; auto. unfold own_hist. rewrite EH, <- H2. auto.
    - destruct inh as [c|]; cbn [fst].
      + cbn. repeat split; auto; try discriminate.
        * apply map_set_sorted. auto.
        * intros NI _ HN. specialize (NI HN). discriminate.
      + repeat split; auto. unfold own_hist. rewrite EH, <- H2. auto. }
  destruct A2' as (d3 & doing & E3 & W1 & W2 & W3 & S3 & A3 & H3 & L3). rewrite E3 in E. clear E3.
  assert (A4 : exists d4, (if doing && was_changed d then record_history ver d3 else d3) = d4 /\
     d_nv d4 = ver /\ d_mv d4 = d_mv d1 /\ d_cv d4 = d_cv d1 /\ d_map d4 = d_map d3 /\ d_auto d4 = d_auto d /\
     (own_hist d3 -> own_hist d4)).
  { eexists. split; [reflexivity|]. destruct (doing && was_changed d).
    - unfold record_history. destruct (d_hist d3) as [h|] eqn:EH; cbn; repeat split; auto.
      unfold own_hist. rewrite EH. auto.
    - repeat split; auto. }
  destruct A4 as (d4 & E4 & X1 & X2 & X3 & X4 & X5 & X6). rewrite E4 in E. clear E4.
  injection E as <- <- <-. cbn. rewrite X1, X2, X3, X4.
  split; [reflexivity|]. split; [reflexivity|]. split; [reflexivity|].
  split. { unfold quiet, was_changed. cbn. split; [reflexivity|]. split; [reflexivity|]. split; [reflexivity|]. apply clear_quiet. }
  split; [apply (map_keys (fun e => mkF (f_val (snd e)) false)); auto|].
  split; [reflexivity|]. split; [reflexivity|]. split; [auto|]. split.
  - intros Q1 Q2. exact (X6 (H3 Q1 Q2)).
  - intros Q1 Q2 Q3. etransitivity; [apply sel_clear|]. auto.
Qed.

Lemma filter_all {A} (f : A -> bool) l : (forall x, In x l -> f x = true) -> filter f l = l.
Proof. induction l as [|x l IH]; intros H; auto. cbn [filter]. rewrite (H x) by (left; auto). f_equal. apply IH. intros y Hy. apply H. right. auto. Qed.

(* ---- well-formed items ---- *)
Definition good_kid (d : hdata) (c : hnode) : Prop :=
  d_nv (dat c) <= d_cv d /\ (names = true -> d_mv (dat c) <= d_mv d).
Inductive wfn : hnode -> Prop :=
| wfn_intro k d l : FS d -> msorted (d_map d) -> d_cv d <= d_nv d -> d_mv d <= d_nv d -> nohist d ->
    NoDup (map nm l) -> Forall (good_kid d) l -> Forall wfn l -> wfn (HN k d l).
Lemma wfn_inv k d l : wfn (HN k d l) -> FS d /\ msorted (d_map d) /\ d_cv d <= d_nv d /\ d_mv d <= d_nv d /\ nohist d /\
  NoDup (map nm l) /\ Forall (good_kid d) l /\ Forall wfn l.
Proof. intros W. inversion W; subst. repeat (split; [assumption|]). assumption. Qed.
Inductive clean : hnode -> Prop :=
| clean_intro k d l : quiet d -> Forall clean l -> clean (HN k d l).

Fixpoint view (n : hnode) : tree :=
  match n with HN _ d l => T (sel (d_map d)) (map (fun c => (nm c, view c)) l) end.

(* ---- relation of an item to what a copy made earlier shows at its place ---- *)
Definition of (oo : option tree) : fmap value := match oo with Some t => t_fields t | None => [] end.
Definition ok (oo : option tree) : list (bytes * tree) := match oo with Some t => t_kids t | None => [] end.

Inductive Inv (v : N) : option tree -> hnode -> Prop :=
| Inv_intro oo k d l :
   (v < fver d \/ fpend d = true \/ sel (d_map d) = of oo) ->
   (v < cver d \/ cpend d = true \/ map nm l = map fst (ok oo)) ->
   subseq (filter (fun x => memb x (map fst (ok oo))) (map nm l)) (map fst (ok oo)) ->
   Forall (fun c => Inv v (tfind (nm c) (ok oo)) c) l ->
   Inv v oo (HN k d l).

Lemma Inv_inv v oo k d l : Inv v oo (HN k d l) ->
   (v < fver d \/ fpend d = true \/ sel (d_map d) = of oo) /\
   (v < cver d \/ cpend d = true \/ map nm l = map fst (ok oo)) /\
   subseq (filter (fun x => memb x (map fst (ok oo))) (map nm l)) (map fst (ok oo)) /\
   Forall (fun c => Inv v (tfind (nm c) (ok oo)) c) l.
Proof. intros I0. inversion I0; subst. repeat (split; [assumption|]). assumption. Qed.

Lemma Inv_init v n : wfn n -> Inv v (Some (view n)) n.
Proof.
  induction n as [k d l IH] using hnode_ind2. intros W. destruct (wfn_inv _ _ _ W) as (H1 & H2 & H3 & H4 & H5 & H6 & H7 & H8). constructor; auto.
  - right. right. cbn. rewrite map_map. reflexivity.
  - cbn. rewrite map_map. cbn [fst]. rewrite filter_all; [apply subseq_refl|].
    intros x Hx. unfold memb. apply existsb_exists. exists x. split; auto. apply beqb_refl.
  - rewrite Forall_forall in *. intros c Hc. cbn [ok t_kids view].
    erewrite tfind_in; [apply IH; auto| |].
    + rewrite map_map. exact H6.
    + apply in_map_iff. exists c. auto.
Qed.

(* ---- marks ---- *)
Lemma inherit_none d inh : noinh inh -> nohist d -> noinh (inherit d inh).
Proof.
  unfold noinh, nohist, own_hist, inherit. intros H1 H2 HN. specialize (H1 HN). specialize (H2 HN). subst.
  destruct (d_hist d) as [h|]; auto. rewrite H2. rewrite andb_false_r. auto.
Qed.

(* what a mark does to an item: [m] is reported to the parent *)
Definition marked (ver v : N) (n n' : hnode) (m : mask) : Prop :=
  nm n' = nm n /\ wfn n' /\
  (any m = false -> n' = n) /\
  (any m = true -> m_value m = true /\ d_nv (dat n') = ver) /\
  (names = true -> m_names m = false -> d_mv (dat n') = d_mv (dat n)) /\
  d_mv (dat n') <= ver /\ d_nv (dat n) <= d_nv (dat n') /\ d_nv (dat n') <= ver /\
  (forall oo, Inv v oo n -> Inv v oo n').

Lemma marked_refl ver v n m : wfn n -> d_nv (dat n) <= ver -> any m = false -> marked ver v n n m.
Proof.
  intros W B A. destruct n as [k d l]. destruct (wfn_inv _ _ _ W) as (H1 & H2 & H3 & H4 & H5 & H6 & H7 & H8). cbn [dat] in B.
  unfold marked. cbn [nm dat]. rewrite A. split; [reflexivity|]. split; [exact W|]. split; [reflexivity|]. split; [discriminate|].
  split; [reflexivity|]. split; [lia|]. split; [lia|]. split; [lia|]. auto.
Qed.

Lemma any_mor a b : any (mor a b) = any a || any b.
Proof. destruct a as [[] [] []], b as [[] [] []]; reflexivity. Qed.

Lemma own_step ver v now inh tm k d l l' m d' m' tm' :
  noinh inh -> wfn (HN k d l) -> v < ver -> d_nv d <= ver ->
  map nm l' = map nm l -> Forall wfn l' -> NoDup (map nm l) ->
  (NC d m = false -> l' = l) ->
  (NC d m = true -> Forall (good_kid (mkD [] false ver (if MC d m then ver else d_mv d) (if CC d m then ver else d_cv d) false false false false None)) l') ->
  (forall oo, Forall (fun c => Inv v (tfind (nm c) (ok oo)) c) l -> Forall (fun c => Inv v (tfind (nm c) (ok oo)) c) l') ->
  mark_own ver now inh m tm d = (d', m', tm') ->
  nm (HN k d' l') = nm (HN k d l) /\ wfn (HN k d' l') /\
  (any m' = false -> HN k d' l' = HN k d l) /\
  (any m' = true -> m_value m' = true /\ d_nv d' = ver) /\
  (m_names m' = false -> d_mv d' = d_mv d) /\
  d_mv d' <= ver /\ d_nv d <= d_nv d' /\ d_nv d' <= ver /\
  quiet d' /\ (NC d m = true -> any m' = true) /\ (NC d m = false -> m' = m) /\
  (forall oo, Inv v oo (HN k d l) -> Inv v oo (HN k d' l')).
Proof.
  intros NI W V0 B EN W' ND K0 K1 KI E. destruct (wfn_inv _ _ _ W) as (H1 & H2 & H3 & H4 & H5 & H6 & H7 & H8). destruct (NC d m) eqn:EC.
  - destruct (mark_own_busy ver now inh m tm d d' m' tm' H2 EC E) as (Q1 & Q2 & Q3 & Q4 & Q5 & Q6 & Q7 & Q8 & Q9 & Q10).
    specialize (K1 eq_refl).
    assert (MV : d_mv d' <= ver) by (rewrite Q2; destruct (MC d m); lia).
    assert (AT : any m' = true) by (unfold any; rewrite Q6; reflexivity).
    split; [reflexivity|]. split.
    { constructor; auto.
      - destruct Q4 as (a1 & a2 & a3 & a4). split; congruence.
      - rewrite Q1, Q3. destruct (CC d m); lia.
      - rewrite Q1. lia.
      - intros HN. apply Q9; auto.
      - rewrite EN. auto.
      - eapply Forall_impl; [|exact K1]. intros c. unfold good_kid. cbn. rewrite Q2, Q3. auto. }
    split; [intros X; rewrite AT in X; discriminate|]. split; [auto|].
    split. { rewrite Q7, Q2. intros X. apply orb_false_iff in X. destruct X as (_ & ->). auto. }
    split; [auto|]. split; [lia|]. split; [lia|]. split; [auto|]. split; [auto|]. split; [discriminate|].
    intros oo I0. destruct (Inv_inv _ _ _ _ _ I0) as (J1 & J2 & J3 & J4). constructor.
    + destruct names eqn:EM; unfold fver, fpend in *; rewrite ?EM in *.
      * rewrite Q2. destruct (MC d m) eqn:EMC; [left; lia|]. unfold MC in EMC.
        apply orb_false_iff in EMC. destruct EMC as (E1 & E2). apply orb_false_iff in E1. destruct E1 as (E1 & E3).
        destruct J1 as [X|[X|X]]; [left; auto| |right; right; rewrite Q10; auto].
        rewrite E1 in X. cbn [orb] in X. rewrite X, andb_true_r in E2. apply quiet_with in E2. congruence.
      * left. lia.
    + rewrite EN. destruct names eqn:EM; unfold cver, cpend in *; rewrite ?EM in *.
      * rewrite Q2. destruct J2 as [X|[X|X]]; [left; destruct (MC d m); lia| |auto].
        left. unfold MC. rewrite X. cbn [orb]. lia.
      * rewrite Q3. destruct J2 as [X|[X|X]]; [left; destruct (CC d m); lia| |auto].
        left. unfold CC. rewrite X. cbn [orb]. lia.
    + rewrite EN. auto.
    + auto.
  - rewrite (mark_own_idle ver now inh m tm d H1 EC) in E. injection E as <- <- <-.
    specialize (K0 eq_refl). subst l'. unfold NC in EC.
    apply orb_false_iff in EC. destruct EC as (EC & F3). apply orb_false_iff in EC. destruct EC as (F1 & F2).
    split; [reflexivity|]. split; [exact W|]. split; [reflexivity|]. split; [intros X; rewrite F2 in X; discriminate|].
    split; [auto|]. split; [lia|]. split; [lia|]. split; [lia|].
    split. { destruct H1 as (a1 & a2). repeat split; auto.
      - destruct (d_mc d); auto. rewrite F1 in a1. symmetry. auto.
      - destruct (d_cc d); auto. rewrite F1 in a2. symmetry. auto. }
    split; [discriminate|]. split; [auto|]. auto.
Qed.

Lemma mark_tree_ok ver v now : v < ver -> forall n inh tm n' m tm',
  noinh inh -> wfn n -> d_nv (dat n) <= ver ->
  mark_tree ver now inh tm n = (n', m, tm') -> marked ver v n n' m /\ clean n'.
Proof.
  intros V0. induction n as [k d l IH] using hnode_ind2. intros inh tm n' m tm' NI W B E.
  rewrite mark_tree_eq in E. destruct (wfn_inv _ _ _ W) as (H1 & H2 & H3 & H4 & H5 & H6 & H7 & H8). cbn [dat] in B.
  destruct (mark_kids ver now (inherit d inh) tm l) as ((l', mk), tm1) eqn:EK.
  destruct (mark_own ver now inh mk tm1 d) as ((d', m'), tm2) eqn:EO. injection E as <- <- <-.
  assert (KS : map nm l' = map nm l /\ Forall wfn l' /\ Forall clean l' /\ (any mk = false -> l' = l) /\
     (any mk = true -> m_value mk = true) /\
     (any mk = true -> Forall (fun c => d_nv (dat c) <= ver) l') /\
     Forall (fun c => d_mv (dat c) <= ver) l' /\
     (names = true -> m_names mk = false -> Forall2 (fun c c' => d_mv (dat c') = d_mv (dat c)) l l') /\
     (forall kk, Forall (fun c => Inv v (tfind (nm c) kk) c) l -> Forall (fun c => Inv v (tfind (nm c) kk) c) l')).
  { assert (BK : Forall (fun c => d_nv (dat c) <= ver) l).
    { eapply Forall_impl; [|exact H7]. intros c (a1 & a2). lia. }
    pose proof (inherit_none d inh NI H5) as NI2.
    clear - IH H8 BK EK NI2 V0. revert tm l' mk tm1 EK.
    induction l as [|c l IHl]; intros tm l' mk tm1 EK; cbn [mark_kids] in EK.
    - injection EK as <- <- <-. repeat split; auto; discriminate.
    - inversion IH as [|? ? I1 I2]; subst. inversion H8 as [|? ? W1 W2]; subst. inversion BK as [|? ? B1 B2]; subst.
      destruct (mark_tree ver now (inherit d inh) tm c) as ((c', mc), t1) eqn:E1.
      destruct (mark_kids ver now (inherit d inh) t1 l) as ((r', mr), t2) eqn:E2. injection EK as <- <- <-.
      destruct (I1 _ _ _ _ _ NI2 W1 B1 E1) as ((M1 & M2 & M3 & M4 & M5 & M6 & M7 & M8 & M9) & CL).
      destruct (IHl I2 W2 B2 _ _ _ _ E2) as (K1 & K2 & K3 & K4 & K5 & K6 & K7 & K8 & K9).
      cbn [map]. rewrite M1, K1. split; [reflexivity|]. split; [auto|]. split; [auto|].
      rewrite any_mor. split; [|split; [|split; [|split; [|split]]]].
      + intros X. apply orb_false_iff in X. destruct X as (X1 & X2). rewrite (M3 X1), (K4 X2). auto.
      + intros X. cbn [mor m_value]. apply orb_true_iff in X. apply orb_true_iff. destruct X as [X|X]; [left; apply M4; auto|right; auto].
      + intros _. constructor; auto. destruct (any mr) eqn:EA; [apply K6; auto|]. rewrite (K4 eq_refl). auto.
      + auto.
      + intros XN X. cbn [mor m_names] in X. apply orb_false_iff in X. destruct X as (X1 & X2). constructor; auto.
      + intros kk F. inversion F; subst. constructor; [rewrite M1; apply M9; auto|apply K9; auto]. }
  destruct KS as (K1 & K2 & K3 & K4 & K5 & K6 & K7 & K8 & K9).
  assert (G : NC d mk = true -> Forall (good_kid (mkD [] false ver (if MC d mk then ver else d_mv d) (if CC d mk then ver else d_cv d) false false false false None)) l').
  { intros _. unfold good_kid. cbn.
    assert (A1 : Forall (fun c => d_nv (dat c) <= (if CC d mk then ver else d_cv d)) l').
    { destruct (any mk) eqn:EA.
      - assert (CC d mk = true) as -> by (unfold CC; rewrite (K5 eq_refl); destruct (d_cc d); reflexivity). apply K6. auto.
      - rewrite (K4 eq_refl). eapply Forall_impl; [|exact H7]. intros c (a1 & a2). destruct (CC d mk); lia. }
    assert (A2 : Forall (fun c => names = true -> d_mv (dat c) <= (if MC d mk then ver else d_mv d)) l').
    { destruct (MC d mk) eqn:EA; [eapply Forall_impl; [|exact K7]; auto|]. unfold MC in EA. apply orb_false_iff in EA. destruct EA as (EA & _).
      apply orb_false_iff in EA. destruct EA as (_ & EA). destruct names eqn:EN; [|apply Forall_forall; discriminate]. specialize (K8 eq_refl EA). clear - K8 H7 EN.
      induction K8; constructor; inversion H7 as [|? ? G1 G2]; subst; auto. intros _. rewrite H. destruct G1. auto. }
    clear - A1 A2. induction A1; constructor; inversion A2; subst; auto. }
  assert (K0 : NC d mk = false -> l' = l).
  { intros X. apply K4. unfold NC in X. apply orb_false_iff in X. destruct X as (X & _). apply orb_false_iff in X. tauto. }
  destruct (own_step ver v now inh tm1 k d l l' mk d' m' tm2 NI W V0 B K1 K2 H6 K0 G (fun oo => K9 (ok oo)) EO)
    as (R1 & R2 & R3 & R4 & R5 & R6 & R7 & R8 & R9 & R10 & R11 & R12).
  split; [|constructor; auto]. unfold marked. cbn [nm dat].
  exact (conj R1 (conj R2 (conj R3 (conj R4 (conj (fun _ => R5) (conj R6 (conj R7 (conj R8 R12)))))))).
Qed.

Lemma wfn_replace k d a x b x' : wfn (HN k d (a ++ x :: b)) -> nm x' = nm x -> wfn x' ->
  d_nv (dat x') <= d_cv d -> (names = true -> d_mv (dat x') <= d_mv d) -> wfn (HN k d (a ++ x' :: b)).
Proof.
  intros W EN WX V1 V2. destruct (wfn_inv _ _ _ W) as (H1 & H2 & H3 & H4 & H5 & H6 & H7 & H8). constructor; auto.
  - rewrite map_app in *. cbn [map] in *. rewrite EN. auto.
  - apply Forall_app in H7. destruct H7 as (F1 & F2). inversion F2; subst. apply Forall_app. split; auto. constructor; auto. split; auto.
  - apply Forall_app in H8. destruct H8 as (F1 & F2). inversion F2; subst. apply Forall_app. split; auto.
Qed.

Lemma map_nm_replace (a : list hnode) x b x' : nm x' = nm x -> map nm (a ++ x' :: b) = map nm (a ++ x :: b).
Proof. intros E. rewrite !map_app. cbn [map]. rewrite E. reflexivity. Qed.

Lemma Inv_replace v oo k d a x b x' : nm x' = nm x -> (forall oo, Inv v oo x -> Inv v oo x') ->
  Inv v oo (HN k d (a ++ x :: b)) -> Inv v oo (HN k d (a ++ x' :: b)).
Proof.
  intros EN HX I0. destruct (Inv_inv _ _ _ _ _ I0) as (J1 & J2 & J3 & J4). constructor; rewrite ?(map_nm_replace a x b x' EN); auto.
  apply Forall_app in J4. destruct J4 as (F1 & F2). inversion F2; subst. apply Forall_app. split; auto. constructor; auto.
  rewrite EN. auto.
Qed.

Lemma mark_at_ok ver v now path : v < ver -> forall n inh tm n' m tm',
  (names = true -> path = []) -> noinh inh -> wfn n -> d_nv (dat n) <= ver ->
  mark_at ver now inh tm path n = (n', m, tm') -> marked ver v n n' m /\ (path = [] -> clean n').
Proof.
  intros V0. induction path as [|k p IH]; intros n inh tm n' m tm' NM NI W B E.
  - cbn [mark_at] in E. destruct (mark_tree_ok ver v now V0 _ _ _ _ _ _ NI W B E) as (M & C). auto.
  - destruct n as [name d l]. cbn [mark_at] in E. pose proof (find_kid_split k l) as FK.
    destruct (find_kid k l) as [((a, x), b)|].
    2:{ injection E as <- <- <-. split; [|discriminate]. cbn [dat] in *. destruct (wfn_inv _ _ _ W) as (H1 & H2 & H3 & H4 & H5 & H6 & H7 & H8). apply marked_refl; auto. }
    destruct FK as (-> & EN & NA). destruct (wfn_inv _ _ _ W) as (H1 & H2 & H3 & H4 & H5 & H6 & H7 & H8). cbn [dat] in *.
    destruct (mark_at ver now (inherit d inh) tm p x) as ((x', mx), t1) eqn:EX.
    pose proof (inherit_none d inh NI H5) as NI2.
    assert (WX : wfn x) by (apply Forall_app in H8; destruct H8 as (_ & F); inversion F; auto).
    assert (GX : good_kid d x) by (apply Forall_app in H7; destruct H7 as (_ & F); inversion F; auto). destruct GX as (G1 & G2).
    assert (BX : d_nv (dat x) <= ver) by lia.
    assert (NF : names = false) by (destruct names; auto; discriminate (NM eq_refl)).
    destruct (IH _ _ _ _ _ _ ltac:(rewrite NF; discriminate) NI2 WX BX EX) as ((M1 & M2 & M3 & M4 & M5 & M6 & M7 & M8 & M9) & _).
    split; [|discriminate]. destruct (any mx) eqn:EA.
    + destruct (M4 eq_refl) as (MV & NV).
      set (d1 := with_flags d true (d_mc d || m_names mx) (d_cc d || m_value mx || m_childs mx)) in E.
      destruct (mark_own ver now inh no_mask t1 d1) as ((d2, m2), t2) eqn:EO. injection E as <- <- <-.
      assert (W1 : wfn (HN name d1 (a ++ x :: b))).
      { constructor; auto. split; intros; reflexivity. }
      assert (NCT : NC d1 no_mask = true) by reflexivity.
      assert (CCT : CC d1 no_mask = true) by (unfold CC; cbn; rewrite MV; destruct (d_cc d); reflexivity).
      assert (K9 : forall oo, Forall (fun c => Inv v (tfind (nm c) (ok oo)) c) (a ++ x :: b) -> Forall (fun c => Inv v (tfind (nm c) (ok oo)) c) (a ++ x' :: b)).
      { intros oo F. apply Forall_app in F. destruct F as (F1 & F2). inversion F2; subst. apply Forall_app. split; auto. constructor; auto. rewrite M1. auto. }
      assert (WL : Forall wfn (a ++ x' :: b)).
      { apply Forall_app in H8. destruct H8 as (F1 & F2). inversion F2; subst. apply Forall_app. split; auto. }
      assert (G : NC d1 no_mask = true -> Forall (good_kid (mkD [] false ver (if MC d1 no_mask then ver else d_mv d1) (if CC d1 no_mask then ver else d_cv d1) false false false false None)) (a ++ x' :: b)).
      { intros _. rewrite CCT. apply Forall_app in H7. destruct H7 as (F1 & F2). pose proof (Forall_inv F2) as F3. pose proof (Forall_inv_tail F2) as F4.
        assert (GG : forall c, d_nv (dat c) <= ver -> good_kid (mkD [] false ver (if MC d1 no_mask then ver else d_mv d1) ver false false false false None) c).
        { intros c a1. split; cbn; [lia|]. rewrite NF. discriminate. }
        apply Forall_app. split; [eapply Forall_impl; [|exact F1]|]. { intros c (a1 & a2). apply GG. lia. }
        constructor; [apply GG; lia|eapply Forall_impl; [|exact F4]]. intros c (a1 & a2). apply GG. lia. }
      destruct (own_step ver v now inh t1 name d1 (a ++ x :: b) (a ++ x' :: b) no_mask d2 m2 t2 NI W1 V0 B
        (map_nm_replace a x b x' M1) WL H6 ltac:(discriminate) G K9 EO)
        as (R1 & R2 & R3 & R4 & R5 & R6 & R7 & R8 & R9 & R10 & R11 & R12).
      destruct (mark_own_busy ver now inh no_mask t1 d1 d2 m2 t2 H2 NCT EO) as (Q1 & Q2 & Q3 & Q4 & Q5 & Q6 & Q7 & Q8 & Q9 & Q10).
      unfold marked. cbn [nm dat]. split; [reflexivity|]. split; [exact R2|]. split; [rewrite EA; discriminate|].
      split; [auto|]. split; [rewrite NF; discriminate|].
      split; [auto|]. split; [auto|]. split; [auto|].
      intros oo I0. apply R12. destruct (Inv_inv _ _ _ _ _ I0) as (J1 & J2 & J3 & J4). constructor; auto.
      * destruct J1 as [X|[X|X]]; auto. right. left. unfold fpend in *. destruct names; [|reflexivity].
        cbn. apply orb_true_iff in X. destruct X as [X|X]; [rewrite X; reflexivity|]. apply orb_true_iff. right. exact X.
      * destruct J2 as [X|[X|X]]; auto. right. left. unfold cpend in *. destruct names; cbn; rewrite X; reflexivity.
    + rewrite (M3 eq_refl) in E. injection E as <- <- <-. apply marked_refl; auto.
Qed.

(* ---- changes of fields and settings ---- *)
Definition mildd (d d' : hdata) : Prop :=
  d_nv d' = d_nv d /\ d_mv d' = d_mv d /\ d_cv d' = d_cv d /\
  (FS d -> FS d') /\ msorted (d_map d') /\ (nohist d -> nohist d') /\
  (fpend d = true -> fpend d' = true) /\ (cpend d = true -> cpend d' = true) /\
  (fpend d' = true \/ sel (d_map d') = sel (d_map d)).
Inductive mild : hnode -> hnode -> Prop :=
| mild_intro k d d' l l' : mildd d d' -> Forall2 mild l l' -> mild (HN k d l) (HN k d' l').

Lemma mildd_refl d : msorted (d_map d) -> mildd d d.
Proof. intros H. unfold mildd. repeat (split; [solve [auto]|]). auto. Qed.
Lemma mildd_trans a b c : mildd a b -> mildd b c -> mildd a c.
Proof.
  intros (A1 & A2 & A3 & A4 & A5 & A6 & A7 & A8 & A9) (B1 & B2 & B3 & B4 & B5 & B6 & B7 & B8 & B9). unfold mildd.
  split; [congruence|]. split; [congruence|]. split; [congruence|]. split; [auto|]. split; [auto|]. split; [auto|].
  split; [auto|]. split; [auto|]. destruct B9 as [B9|B9]; [auto|]. destruct A9 as [A9|A9]; [auto|]. right. congruence.
Qed.
Lemma mild_refl n : wfn n -> mild n n.
Proof.
  induction n as [k d l IH] using hnode_ind2. intros W. destruct (wfn_inv _ _ _ W) as (H1 & H2 & H3 & H4 & H5 & H6 & H7 & H8).
  constructor; [apply mildd_refl; auto|]. clear - IH H8. induction l; constructor; inversion IH; inversion H8; subst; auto.
Qed.
Lemma mild_nm n n' : mild n n' -> nm n' = nm n.
Proof. intros H. inversion H. reflexivity. Qed.

Lemma mild_names l l' : Forall2 mild l l' -> map nm l' = map nm l.
Proof. intros F. induction F; cbn [map]; auto. rewrite (mild_nm _ _ H), IHF. reflexivity. Qed.

Lemma mild_wfn n : forall n', mild n n' -> wfn n -> wfn n'.
Proof.
  induction n as [k d l IH] using hnode_ind2. intros n' M W. inversion M as [k0 d0 d' l0 l' MD F]; subst.
  destruct (wfn_inv _ _ _ W) as (H1 & H2 & H3 & H4 & H5 & H6 & H7 & H8). destruct MD as (A1 & A2 & A3 & A4 & A5 & A6 & A7 & A8 & A9).
  constructor; auto; try lia.
  - rewrite (mild_names _ _ F). auto.
  - clear - F H7 A2 A3. induction F; constructor; inversion H7 as [|? ? G1 G2]; subst; auto.
    inversion H; subst. destruct H0 as (B1 & B2 & _). destruct G1 as (G1 & G3). unfold good_kid. cbn [dat] in *. rewrite A2, A3, B1, B2. auto.
  - clear - F H8 IH. induction F; constructor; inversion H8; inversion IH; subst; auto.
Qed.

Lemma mild_Inv v n : forall n' oo, mild n n' -> Inv v oo n -> Inv v oo n'.
Proof.
  induction n as [k d l IH] using hnode_ind2. intros n' oo M I0. inversion M as [k0 d0 d' l0 l' MD F]; subst.
  destruct (Inv_inv _ _ _ _ _ I0) as (J1 & J2 & J3 & J4). destruct MD as (A1 & A2 & A3 & A4 & A5 & A6 & A7 & A8 & A9).
  constructor.
  - assert (fver d' = fver d) as -> by (unfold fver; destruct names; auto).
    destruct A9 as [A9|A9]; [auto|]. rewrite A9. destruct J1 as [J1|[J1|J1]]; auto.
  - assert (cver d' = cver d) as -> by (unfold cver; destruct names; auto). rewrite (mild_names _ _ F).
    destruct J2 as [J2|[J2|J2]]; auto.
  - rewrite (mild_names _ _ F). auto.
  - generalize dependent (ok oo). intros o _ _ J4. clear - F J4 IH. induction F; constructor; inversion J4; inversion IH; subst; auto.
    rewrite (mild_nm _ _ H). auto.
Qed.

Lemma mild_update f path : (forall n, wfn n -> mild n (f n)) -> forall n, wfn n -> mild n (update_at path f n).
Proof.
  intros HF. induction path as [|k p IH]; intros n W; cbn [update_at]; auto.
  destruct n as [name d l]. pose proof (find_kid_split k l) as FK.
  destruct (find_kid k l) as [((a, x), b)|]; [|apply mild_refl; auto]. destruct FK as (-> & EN & NA).
  destruct (wfn_inv _ _ _ W) as (H1 & H2 & H3 & H4 & H5 & H6 & H7 & H8). apply Forall_app in H8. destruct H8 as (F1 & F2).
  constructor; [apply mildd_refl; auto|]. apply Forall2_app.
  - clear - F1. induction F1; constructor; auto using mild_refl.
  - inversion F2; subst. constructor; [auto|]. clear - H9. induction H9; constructor; auto using mild_refl.
Qed.

Lemma mild_on f n : wfn n -> mildd (dat n) (f (dat n)) -> mild n (on_data f n).
Proof.
  intros W M. destruct n as [k d l]. unfold on_data. cbn [nm dat kids] in *. constructor; auto.
  destruct (wfn_inv _ _ _ W) as (_ & _ & _ & _ & _ & _ & _ & H8). clear - H8. induction H8; constructor; auto using mild_refl.
Qed.

Lemma wc_in d e : In e (d_map d) -> f_mod (snd e) = true -> was_changed d = true.
Proof. intros H1 H2. unfold was_changed. apply orb_true_iff. right. apply existsb_exists. eauto. Qed.
Lemma wcw_in d e : In e (d_map d) -> f_mod (snd e) = true -> prefixb under (fst e) = true -> was_changed_with under d = true.
Proof. intros H1 H2 H3. unfold was_changed_with. apply existsb_exists. exists e. rewrite H2, H3. auto. Qed.

Lemma mildd_set d k v : msorted (d_map d) -> storable v -> mildd d (set_field d k v).
Proof.
  intros S1 S2. unfold set_field. destruct (map_set_cases (d_map d) k v S1 S2) as [E|(f & F1 & E)].
  - rewrite E. replace (with_map d (d_map d) (d_fch d)) with d by (destruct d; reflexivity). apply mildd_refl. auto.
  - pose proof (sel_set_other (d_map d) k v S1) as SO. pose proof (map_set_sorted (d_map d) k v S1) as MS. rewrite E in *.
    set (d' := with_map d (mset k f (d_map d)) (d_fch d)).
    assert (WC : was_changed d' = true) by (apply (wc_in d' (k, f)); [apply mset_in|exact F1]).
    unfold mildd. split; [reflexivity|]. split; [reflexivity|]. split; [reflexivity|]. split; [auto|]. split; [auto|]. split; [auto|].
    unfold fpend. rewrite WC. destruct names eqn:EN.
    + split; [|split; [auto|]].
      * intros X. apply orb_true_iff in X. apply orb_true_iff. destruct X as [X|X]; [left; exact X|right].
        apply existsb_exists in X. destruct X as (e & X1 & X2). apply andb_true_iff in X2. destruct X2 as (X2 & X3).
        destruct (beqb_spec (fst e) k) as [<-|N1].
        -- apply (wcw_in d' (fst e, f)); auto. apply mset_in.
        -- apply (wcw_in d' e); auto. apply mset_keep; auto.
      * destruct (P k) eqn:EP; [left|right; auto]. apply orb_true_iff. right. apply (wcw_in d' (k, f)); [apply mset_in|exact F1|].
        cbn [fst]. rewrite <- (HP eq_refl). exact EP.
    + rewrite !orb_true_r. auto.
Qed.

Lemma mildd_del d k : msorted (d_map d) -> (names = true -> P k = false) -> mildd d (remove_field d k).
Proof.
  intros S1 NP. unfold remove_field. destruct (has k (d_map d)) eqn:EH; [|apply mildd_refl; auto].
  unfold mildd. cbn [with_map d_nv d_mv d_cv d_map]. split; [reflexivity|]. split; [reflexivity|]. split; [reflexivity|]. split; [auto|].
  split; [apply mdel_sorted; auto|]. split; [auto|]. unfold fpend. destruct names eqn:EN.
  - split; [|split; [auto|]].
    + intros X. apply orb_true_iff in X. apply orb_true_iff. destruct X as [X|X]; [left; exact X|right].
      apply existsb_exists in X. destruct X as (e & X1 & X2). apply andb_true_iff in X2. destruct X2 as (X2 & X3).
      apply (wcw_in _ e); auto. cbn [with_map d_map]. unfold mdel. apply filter_In. split; auto.
      destruct (beqb_spec k (fst e)) as [->|]; auto. rewrite <- (HP eq_refl), (NP eq_refl) in X3. discriminate.
    + right. unfold sel. rewrite vals_mdel. apply filter_mdel_other. auto.
  - unfold was_changed. cbn [with_map d_fch orb]. rewrite !orb_true_r. auto.
Qed.

Lemma mildd_hist d a h : msorted (d_map d) -> (nohist d -> nohist (with_hist d a h)) -> mildd d (with_hist d a h).
Proof. intros H1 H2. unfold mildd. repeat (split; [solve [auto]|]). auto. Qed.

Lemma mild_time w n : wfn n -> mild n (enable_time w n).
Proof.
  induction n as [k d l IH] using hnode_ind2. intros W. destruct (wfn_inv _ _ _ W) as (H1 & H2 & H3 & H4 & H5 & H6 & H7 & H8).
  cbn [enable_time]. constructor; [apply mildd_hist; auto|].
  destruct w.
  - clear - IH H8. induction l; cbn [map]; constructor; inversion IH; inversion H8; subst; auto.
  - clear - H8. induction H8; constructor; auto using mild_refl.
Qed.

Lemma mild_trans a : forall b c, mild a b -> mild b c -> mild a c.
Proof.
  induction a as [k d l IH] using hnode_ind2. intros b c M1 M2.
  inversion M1 as [k0 d0 d1 l0 l1 D1 F1]; subst. inversion M2 as [k0 d0 d2 l0 l2 D2 F2]; subst.
  constructor; [eapply mildd_trans; eauto|]. clear - IH F1 F2. revert l2 F2.
  induction F1; intros l2 F2; inversion F2; subst; constructor; inversion IH; subst; eauto.
Qed.

Lemma mild_history len w n : word len -> (names = true -> 0 < len /\ w = false) -> wfn n -> mild n (enable_history len w n).
Proof.
  intros HL HV W. unfold enable_history. set (n1 := if 0 <? len then enable_time w n else n).
  assert (M1 : mild n n1) by (unfold n1; destruct (0 <? len); [apply mild_time|apply mild_refl]; auto).
  pose proof (mild_wfn _ _ M1 W) as W1. clearbody n1.
  destruct (N.eqb_spec (match d_hist (dat n1) with Some h => hs_cap h | None => 0 end) len) as [E|NE]; [auto|].
  eapply mild_trans; [exact M1|]. assert (S1 : msorted (d_map (dat n1))) by (destruct n1; destruct (wfn_inv _ _ _ W1) as (_ & ? & _); auto).
  destruct (N.ltb_spec 0 len) as [L|L]; apply mild_on; auto.
  - eapply mildd_trans; [|apply mildd_set].
    + apply mildd_hist; auto. intros _ EN. destruct (HV EN) as (_ & ->). reflexivity.
    + exact S1.
    + split; [split; [exact HL|exact I]|discriminate].
  - eapply mildd_trans; [|apply mildd_del].
    + apply mildd_hist; auto. intros _ EN. exact I.
    + exact S1.
    + intros EN. destruct (HV EN). lia.
Qed.

(* ---- new and removed items ---- *)
(* no item of the earlier tree is created again *)
Fixpoint fresh (path : list bytes) (oo : option tree) (n : hnode) : Prop :=
  match path with
  | [] => True
  | k :: p => match find_kid k (kids n) with
              | Some (_, x, _) => fresh p (tfind k (ok oo)) x
              | None => tfind k (ok oo) = None
              end
  end.

Lemma tfind_absent k l : tfind k l = None -> ~ In k (map fst l).
Proof.
  induction l as [|(k1, t) l IH]; cbn [map fst In tfind]; auto. destruct (beqb_spec k k1) as [->|N1]; [discriminate|].
  intros H [X|X]; [congruence|]. apply IH in H. auto.
Qed.

Lemma fresh_new p k : fresh p None (new_item k).
Proof. destruct p; cbn; auto. Qed.

Lemma insert_split sort x l : exists a b, l = a ++ b /\ insert_kid sort x l = a ++ x :: b.
Proof.
  induction l as [|c l (a & b & -> & E)]; cbn [insert_kid]; [exists [], []; auto|].
  assert (D : insert_kid sort x (a ++ b) = a ++ x :: b) by exact E. clear E. cbn [insert_kid]. rewrite D.
  destruct sort, (bcmp (nm c) (nm x)); try (exists (c :: a), b; auto; fail). exists [], (c :: a ++ b). auto.
Qed.

Lemma new_wfn k : wfn (new_item k).
Proof.
  unfold new_item. constructor; cbn; auto; try lia.
  - split; discriminate.
  - intros _. exact I.
  - constructor.
Qed.
Lemma new_Inv v k : Inv v None (new_item k).
Proof. unfold new_item. constructor; cbn; auto. constructor. Qed.

Lemma childs_changed_wfn k d l l' : wfn (HN k d l) -> NoDup (map nm l') -> Forall (good_kid d) l' -> Forall wfn l' ->
  wfn (HN k (childs_changed d) l').
Proof.
  intros W N1 G1 F1. destruct (wfn_inv _ _ _ W) as (H1 & H2 & H3 & H4 & H5 & H6 & H7 & H8). constructor; auto. split; auto.
Qed.
Lemma childs_changed_Inv v oo k d l l' : Inv v oo (HN k d l) ->
  subseq (filter (fun x => memb x (map fst (ok oo))) (map nm l')) (map fst (ok oo)) ->
  Forall (fun c => Inv v (tfind (nm c) (ok oo)) c) l' -> Inv v oo (HN k (childs_changed d) l').
Proof.
  intros I0 S1 F1. constructor; auto.
  - right. left. unfold fpend. destruct names; reflexivity.
  - right. left. unfold cpend. destruct names; reflexivity.
Qed.

Lemma good_kid_replace d a x b x' : Forall (good_kid d) (a ++ x :: b) -> d_nv (dat x') = d_nv (dat x) -> d_mv (dat x') = d_mv (dat x) ->
  Forall (good_kid d) (a ++ x' :: b).
Proof.
  intros F E1 E2. apply Forall_app in F. destruct F as (F1 & F2). inversion F2 as [|? ? (G1 & G2) F3]; subst. apply Forall_app. split; auto.
  constructor; auto. unfold good_kid. rewrite E1, E2. auto.
Qed.

Lemma create_ok sort path : forall n, wfn n ->
  nm (create_at path sort n) = nm n /\ d_nv (dat (create_at path sort n)) = d_nv (dat n) /\ d_mv (dat (create_at path sort n)) = d_mv (dat n) /\
  wfn (create_at path sort n) /\ (forall v oo, fresh path oo n -> Inv v oo n -> Inv v oo (create_at path sort n)).
Proof.
  induction path as [|k p IH]; intros n W; cbn [create_at]; [auto 6|]. destruct n as [name d l]. cbn [fresh kids].
  pose proof (find_kid_split k l) as FK. destruct (wfn_inv _ _ _ W) as (H1 & H2 & H3 & H4 & H5 & H6 & H7 & H8).
  destruct (find_kid k l) as [((a, x), b)|].
  - destruct FK as (-> & EN & NA). assert (WX : wfn x) by (apply Forall_app in H8; destruct H8 as (_ & F); inversion F; auto).
    destruct (IH x WX) as (A1 & A2 & A3 & A4 & A5). split; [reflexivity|]. split; [reflexivity|]. split; [reflexivity|]. split.
    + apply wfn_replace with x; auto.
      * apply Forall_app in H7; destruct H7 as (_ & F); inversion F as [|? ? (G1 & G2) _]; subst. lia.
      * apply Forall_app in H7; destruct H7 as (_ & F); inversion F as [|? ? (G1 & G2) _]; subst. rewrite A3. auto.
    + intros v oo FR I0. destruct (Inv_inv _ _ _ _ _ I0) as (J1 & J2 & J3 & J4).
      constructor; rewrite ?(map_nm_replace a x b _ A1); auto.
      apply Forall_app in J4. destruct J4 as (F1 & F2). inversion F2; subst. apply Forall_app. split; auto. constructor; auto. rewrite A1. auto.
  - destruct (IH (new_item k) (new_wfn k)) as (A1 & A2 & A3 & A4 & A5).
    set (x := create_at p sort (new_item k)) in *. destruct (insert_split sort x l) as (a & b & -> & EI). rewrite EI.
    cbn [nm new_item dat hd0 d_nv d_mv] in A1, A2, A3.
    split; [reflexivity|]. split; [reflexivity|]. split; [reflexivity|]. split.
    + apply childs_changed_wfn with (a ++ b); auto.
      * rewrite map_app in *. cbn [map]. rewrite A1. apply NoDup_Add with (a := k) (l := map nm a ++ map nm b); [apply Add_app|]. split; auto.
      * apply Forall_app in H7. destruct H7. apply Forall_app. split; auto. constructor; auto. split; [lia|]. intros _. lia.
      * apply Forall_app in H8. destruct H8. apply Forall_app. auto.
    + intros v oo FR I0. destruct (Inv_inv _ _ _ _ _ I0) as (J1 & J2 & J3 & J4). apply childs_changed_Inv with (a ++ b); auto.
      * rewrite map_app in *. cbn [map]. rewrite A1. rewrite filter_app in *. cbn [filter].
        assert (memb k (map fst (ok oo)) = false) as ->; auto.
        apply tfind_absent in FR. unfold memb. destruct (existsb (beqb k) (map fst (ok oo))) eqn:EX; auto. exfalso. apply FR.
        apply existsb_exists in EX. destruct EX as (y & Y1 & Y2). destruct (beqb_spec k y) as [EY|]; [rewrite EY; auto|discriminate].
      * apply Forall_app in J4. destruct J4 as (F1 & F2). apply Forall_app. split; auto. constructor; auto.
        rewrite A1, FR. apply A5; [apply fresh_new|apply new_Inv].
Qed.

Lemma remove_ok path : forall n, wfn n ->
  nm (remove_at path n) = nm n /\ d_nv (dat (remove_at path n)) = d_nv (dat n) /\ d_mv (dat (remove_at path n)) = d_mv (dat n) /\
  wfn (remove_at path n) /\ (forall v oo, Inv v oo n -> Inv v oo (remove_at path n)).
Proof.
  induction path as [|k p IH]; intros n W; cbn [remove_at]; [auto 6|]. destruct n as [name d l].
  pose proof (find_kid_split k l) as FK. destruct (wfn_inv _ _ _ W) as (H1 & H2 & H3 & H4 & H5 & H6 & H7 & H8).
  destruct (find_kid k l) as [((a, x), b)|]; [|auto 6]. destruct FK as (-> & EN & NA).
  assert (CUT : forall q, q = HN name (childs_changed d) (a ++ b) ->
    nm q = name /\ d_nv (dat q) = d_nv d /\ d_mv (dat q) = d_mv d /\ wfn q /\ (forall v oo, Inv v oo (HN name d (a ++ x :: b)) -> Inv v oo q)).
  { intros q ->. split; [reflexivity|]. split; [reflexivity|]. split; [reflexivity|]. split.
    - apply childs_changed_wfn with (a ++ x :: b); auto.
      + rewrite map_app in *. cbn [map] in H6. apply NoDup_remove_1 in H6. auto.
      + apply Forall_app in H7. destruct H7 as (F1 & F2). inversion F2; subst. apply Forall_app. auto.
      + apply Forall_app in H8. destruct H8 as (F1 & F2). inversion F2; subst. apply Forall_app. auto.
    - intros v oo I0. destruct (Inv_inv _ _ _ _ _ I0) as (J1 & J2 & J3 & J4). apply childs_changed_Inv with (a ++ x :: b); auto.
      + eapply subseq_trans; [exact J3|]. apply subseq_filter. rewrite !map_app. cbn [map]. apply (subseq_remove (map nm a) (map nm b) [nm x]).
      + apply Forall_app in J4. destruct J4 as (F1 & F2). inversion F2; subst. apply Forall_app. auto. }
  destruct p as [|k2 p]; [apply CUT; auto|].
  assert (WX : wfn x) by (apply Forall_app in H8; destruct H8 as (_ & F); inversion F; auto).
  destruct (IH x WX) as (A1 & A2 & A3 & A4 & A5). set (x' := remove_at (k2 :: p) x) in *.
  assert (KEEP : forall q, q = HN name d (a ++ x' :: b) ->
    nm q = name /\ d_nv (dat q) = d_nv d /\ d_mv (dat q) = d_mv d /\ wfn q /\ (forall v oo, Inv v oo (HN name d (a ++ x :: b)) -> Inv v oo q)).
  { intros q ->. split; [reflexivity|]. split; [reflexivity|]. split; [reflexivity|]. split.
    + apply wfn_replace with x; auto.
      * apply Forall_app in H7; destruct H7 as (_ & F); inversion F as [|? ? (G1 & G2) _]; subst. lia.
      * apply Forall_app in H7; destruct H7 as (_ & F); inversion F as [|? ? (G1 & G2) _]; subst. rewrite A3. auto.
    + intros v oo. apply Inv_replace; auto. }
  destruct (kids x); [apply KEEP; auto|]. destruct (kids x'); [apply CUT; auto|apply KEEP; auto].
Qed.

(* ---- all operations ---- *)
Definition valid_op (o : hop) : Prop :=
  match o with
  | OSet _ _ v => storable v
  | ODel _ k => names = true -> P k = false
  | OMark p _ _ => names = true -> p = []
  | OHistory _ len w => word len /\ (names = true -> 0 < len /\ w = false)
  | _ => True
  end.
Definition fresh_op (oo : option tree) (n : hnode) (o : hop) : Prop :=
  match o with OCreate p _ => fresh p oo n | _ => True end.

Lemma mild_step n n' : wfn n -> mild n n' -> wfn n' /\ d_nv (dat n) <= d_nv (dat n') /\ forall v oo, Inv v oo n -> Inv v oo n'.
Proof.
  intros W M. split; [eapply mild_wfn; eauto|]. split; [|intros; eapply mild_Inv; eauto].
  inversion M; subst. destruct H as (A1 & _). cbn [dat]. lia.
Qed.

Lemma hstep_ok n o : valid_op o -> wfn n ->
  wfn (hstep n o) /\ d_nv (dat n) <= d_nv (dat (hstep n o)) /\
  forall v oo, v <= d_nv (dat n) -> fresh_op oo n o -> Inv v oo n -> Inv v oo (hstep n o).
Proof.
  intros V W. destruct o as [p k v|p k|p s|p|p now tm|p len w|p w]; cbn [hstep valid_op fresh_op] in *.
  - destruct (mild_step n (update_at p (on_data (fun d => set_field d k v)) n) W) as (A1 & A2 & A3).
    { apply mild_update; auto. intros x WX. apply mild_on; auto. apply mildd_set; auto. destruct x; destruct (wfn_inv _ _ _ WX) as (_ & ? & _); auto. }
    auto.
  - destruct (mild_step n (update_at p (on_data (fun d => remove_field d k)) n) W) as (A1 & A2 & A3).
    { apply mild_update; auto. intros x WX. apply mild_on; auto. apply mildd_del; auto. destruct x; destruct (wfn_inv _ _ _ WX) as (_ & ? & _); auto. }
    auto.
  - destruct (create_ok s p n W) as (A1 & A2 & A3 & A4 & A5). split; [auto|]. split; [lia|]. auto.
  - destruct (remove_ok p n W) as (A1 & A2 & A3 & A4 & A5). split; [auto|]. split; [lia|]. auto.
  - unfold mark_changed. destruct (mark_at (next_version n) now None tm p n) as ((n', m), tm') eqn:E. cbn [fst].
    assert (Q : forall v, v <= d_nv (dat n) -> marked (next_version n) v n n' m).
    { intros v L. eapply mark_at_ok; eauto; unfold next_version; try lia. intros _. reflexivity. }
    destruct (Q _ (N.le_refl _)) as (M1 & M2 & M3 & M4 & M5 & M6 & M7 & M8 & M9). split; [auto|]. split; [auto|].
    intros v oo L _. apply (Q v L).
  - destruct (mild_step n (update_at p (enable_history len w) n) W) as (A1 & A2 & A3); [|auto].
    apply mild_update; auto. intros x WX. destruct V. apply mild_history; auto.
  - destruct (mild_step n (update_at p (enable_time w) n) W) as (A1 & A2 & A3); [|auto].
    apply mild_update; auto. intros x WX. apply mild_time; auto.
Qed.

Fixpoint fresh_ops (oo : option tree) (n : hnode) (ops : list hop) : Prop :=
  match ops with
  | [] => True
  | o :: r => fresh_op oo n o /\ fresh_ops oo (hstep n o) r
  end.

Lemma hrun_ok ops : forall n, Forall valid_op ops -> wfn n ->
  wfn (hrun ops n) /\ d_nv (dat n) <= d_nv (dat (hrun ops n)) /\
  forall v oo, v <= d_nv (dat n) -> fresh_ops oo n ops -> Inv v oo n -> Inv v oo (hrun ops n).
Proof.
  induction ops as [|o ops IH]; intros n V W; cbn [hrun fold_left fresh_ops]; [split; [auto|split; [lia|auto]]|].
  inversion V; subst. destruct (hstep_ok n o H1 W) as (A1 & A2 & A3). destruct (IH _ H2 A1) as (B1 & B2 & B3).
  fold (hrun ops (hstep n o)). split; [auto|]. split; [lia|]. intros v oo L (F1 & F2) I0. apply B3; auto. lia.
Qed.

Lemma mark_clean now tm n : wfn n -> clean (mark_changed now tm [] n).
Proof.
  intros W. unfold mark_changed. destruct (mark_at (next_version n) now None tm [] n) as ((n', m), tm') eqn:E. cbn [fst].
  destruct (mark_at_ok (next_version n) (d_nv (dat n)) now [] ltac:(unfold next_version; lia) n None tm n' m tm'
    ltac:(auto) ltac:(intros _; reflexivity) W ltac:(unfold next_version; lia) E) as (_ & C). auto.
Qed.

(* ---- what is not announced did not change ---- *)
Lemma quiet_fields v oo k d l : Inv v oo (HN k d l) -> quiet d -> fver d <= v -> sel (d_map d) = of oo.
Proof.
  intros I0 (Q1 & Q2 & Q3 & Q4) L. destruct (Inv_inv _ _ _ _ _ I0) as (J1 & J2 & J3 & J4).
  destruct J1 as [J1|[J1|J1]]; [lia| |auto]. unfold fpend in J1. destruct names.
  - rewrite Q2, (quiet_with _ Q4) in J1. discriminate.
  - rewrite Q1, Q4 in J1. discriminate.
Qed.
Lemma quiet_names v oo k d l : Inv v oo (HN k d l) -> quiet d -> cver d <= v -> map nm l = map fst (ok oo).
Proof.
  intros I0 (Q1 & Q2 & Q3 & Q4) L. destruct (Inv_inv _ _ _ _ _ I0) as (J1 & J2 & J3 & J4).
  destruct J2 as [J2|[J2|J2]]; [lia| |auto]. unfold cpend in J2. destruct names; congruence.
Qed.

Lemma map_pairs {A B C} (f : A -> C) (g : B -> C) : forall l l', map f l = map g l' -> Forall2 (fun a b => f a = g b) l l'.
Proof. induction l; intros [|b l'] H; try discriminate; constructor; injection H as H1 H2; auto. Qed.

Lemma quiet_kids v n : forall oo, wfn n -> clean n -> Inv v oo n -> cver (dat n) <= v ->
  map (fun c => (nm c, view c)) (kids n) = ok oo.
Proof.
  induction n as [k d l IH] using hnode_ind2. intros oo W C I0 L. cbn [kids dat] in *.
  inversion C as [k0 d0 l0 Q CL]; subst. pose proof (quiet_names _ _ _ _ _ I0 Q L) as EN.
  destruct (wfn_inv _ _ _ W) as (H1 & H2 & H3 & H4 & H5 & H6 & H7 & H8).
  destruct (Inv_inv _ _ _ _ _ I0) as (J1 & J2 & J3 & J4). rewrite EN in H6.
  assert (PW : forall e, In e (ok oo) -> tfind (fst e) (ok oo) = Some (snd e)).
  { intros (k1, t1) He. apply tfind_in; auto. }
  generalize dependent (ok oo). intros o EN ND _ _ J4 PW. apply map_pairs in EN.
  assert (PX : Forall2 (fun c e => nm c = fst e /\ tfind (nm c) o = Some (snd e)) l o).
  { clear - EN PW. assert (G : forall o2, incl o2 o -> Forall2 (fun c e => nm c = fst e) l o2 -> Forall2 (fun c e => nm c = fst e /\ tfind (nm c) o = Some (snd e)) l o2).
    { clear EN. intros o2 IN F. revert IN. induction F as [|c e l0 o0 E F IHF]; intros IN; constructor.
      - split; auto. rewrite E. apply PW. apply IN. left. auto.
      - apply IHF. intros z Hz. apply IN. right. auto. }
    apply G; auto. apply incl_refl. }
  clear - HP IH CL H7 H8 J4 PX L. revert PX. generalize o at 2 3. intros o2 PX.
  induction PX as [|c (k1, t1) l o' (E1 & E2) F IHF]; cbn [map]; auto.
  inversion IH as [|? ? I1 I2]; inversion CL as [|? ? C1 C2]; inversion H7 as [|? ? (G1 & G2) G3]; inversion H8 as [|? ? W1 W2]; inversion J4 as [|? ? K1 K2]; subst.
  cbn [fst snd] in *. f_equal; [|apply IHF; auto]. f_equal; [auto|]. rewrite E2 in K1.
  assert (FV : fver (dat c) <= v /\ cver (dat c) <= v).
  { destruct c as [kc dc lc]. destruct (wfn_inv _ _ _ W1) as (X1 & X2 & X3 & X4 & _). cbn [dat] in *. unfold fver, cver in *. destruct names; [specialize (G2 eq_refl)|]; lia. }
  destruct FV as (FV & CV). specialize (I1 _ W1 C1 K1 CV). destruct c as [kc dc lc]. cbn [kids dat view] in *.
  inversion C1; subst. rewrite (quiet_fields _ _ _ _ _ K1 ltac:(auto) FV), I1. destruct t1. reflexivity.
Qed.
End Sel.
