(* A reader one update behind: reading the difference makes its copy equal to the source. *)
From Verif Require Import Common ListFacts Bytes RecordSpec RecordModel RecordMap RecordOut RecordIn RecordProofs HierSpec HierModel HierProofs HierInv HierStream HierSync HierProps HUpdSpec HUpdModel HUpdProofs HUpdTree HUpdSync.
Local Open Scope N_scope.

(* items of a hierarchy which was built without marks, recording of times and history *)
Definition zok (d : hdata) : Prop :=
  sok d /\ d_nv d = 0 /\ d_mv d = 0 /\ d_cv d = 0 /\ d_auto d = false /\ d_hist d = None.
Lemma zok_sok d : zok d -> sok d.
Proof. intros H. apply H. Qed.

Lemma d_upd_rest sd td : msorted (d_map sd) -> msorted (d_map td) ->
  d_nv (d_upd sd td) = d_nv td /\ d_mv (d_upd sd td) = d_mv td /\ d_cv (d_upd sd td) = d_cv td /\
  d_auto (d_upd sd td) = d_auto td /\ d_hist (d_upd sd td) = d_hist td /\ msorted (d_map (d_upd sd td)).
Proof.
  intros S1 S2. unfold d_upd. destruct (move_spec (d_map sd) (with_flags td false (d_mc td) false) S1 S2) as (m & -> & S3 & _).
  destruct (was_changed _); cbn; auto 10.
Qed.
Lemma d_upd_pend sd td : d_nc (d_upd sd td) = false -> was_changed (d_upd sd td) = false.
Proof. unfold d_upd. destruct (was_changed (move_from (d_map sd) (with_flags td false (d_mc td) false))) eqn:W; [discriminate|auto]. Qed.

Section Copy.
Context (kd : skind) (v : N).
Notation nms := (by_names kd).
Notation P := (carried kd).
Notation vw := (view (carried kd)).

Lemma set_modified_wfn n : wfn nms n -> wfn nms (set_modified true true n) /\ d_nv (dat (set_modified true true n)) = d_nv (dat n) /\ d_mv (dat (set_modified true true n)) = d_mv (dat n).
Proof.
  induction n as [k d l IH] using hnode_ind2. intros W. destruct (wfn_inv _ _ _ _ W) as (H1 & H2 & H3 & H4 & H5 & H6 & H7 & H8).
  cbn [set_modified dat]. split; [|auto].
  constructor; auto.
  - split; intros _; apply orb_true_r.
  - rewrite map_map. erewrite map_ext; [exact H6|]. intros c. destruct c; reflexivity.
  - rewrite Forall_map. rewrite Forall_forall in *. intros c Hc. destruct (IH c Hc (H8 c Hc)) as (_ & A1 & A2). specialize (H7 c Hc).
    unfold good_kid in *. rewrite A1, A2. auto.
  - rewrite Forall_map. rewrite Forall_forall in *. intros c Hc. apply IH; auto.
Qed.
Lemma set_modified_Inv n : forall oo, Inv nms P v oo n -> Inv nms P v oo (set_modified true true n).
Proof.
  induction n as [k d l IH] using hnode_ind2. intros oo I0. destruct (Inv_inv _ _ _ _ _ _ _ I0) as (J1 & J2 & J3 & J4). cbn [set_modified].
  assert (EN : map nm (map (set_modified true true) l) = map nm l).
  { rewrite map_map. apply map_ext. intros c. destruct c; reflexivity. }
  constructor; rewrite ?EN; auto.
  - destruct J1 as [J1|[J1|J1]]; auto. right. left. unfold fpend in *. destruct nms; [exact J1|]. cbn. rewrite orb_true_r. auto.
  - destruct J2 as [J2|[J2|J2]]; auto. right. left. unfold cpend in *. destruct nms; [exact J2|]. cbn. rewrite orb_true_r. auto.
  - rewrite Forall_map. rewrite Forall_forall in *. intros c Hc. replace (nm (set_modified true true c)) with (nm c) by (destruct c; reflexivity). auto.
Qed.

Lemma updq_ok s : forall t, every zok s -> wfn nms s -> every sok t -> wfn nms t -> clean t ->
  wfn nms (updq s t) /\ d_nv (dat (updq s t)) = d_nv (dat t) /\ d_mv (dat (updq s t)) = d_mv (dat t) /\ nm (updq s t) = nm t /\
  map nm (kids (updq s t)) = map nm (kids s).
Proof.
  induction s as [sk sd sl IH] using hnode_ind2. intros [tk td tl] ZS WS ST WT CT. rewrite updq_eq.
  apply every_inv in ZS. apply every_inv in ST. destruct ZS as (Z1 & Z2), ST as (T1 & T2). inversion CT as [? ? ? C1 C2]; subst.
  destruct (wfn_inv _ _ _ _ WS) as (A1 & A2 & A3 & A4 & A5 & A6 & A7 & A8). destruct (wfn_inv _ _ _ _ WT) as (B1 & B2 & B3 & B4 & B5 & B6 & B7 & B8).
  assert (K : forall tl, Forall (every sok) tl -> Forall (wfn nms) tl -> Forall clean tl -> Forall (good_kid nms td) tl ->
     map nm (fst (updq_kids sl tl)) = map nm sl /\ Forall (wfn nms) (fst (updq_kids sl tl)) /\ Forall (good_kid nms td) (fst (updq_kids sl tl))).
  { clear - IH Z2 A8. induction sl as [|c r IHr]; intros tl T2 B8 C2 B7; [cbn; auto|].
    inversion IH as [|? ? I1 I2]; inversion Z2 as [|? ? Q1 Q2]; inversion A8 as [|? ? W1 W2]; subst. rewrite updq_kids_cons.
    destruct (find_kid (nm c) tl) as [((a, x), b)|] eqn:EF.
    - apply find_kid_in in EF. destruct EF as (-> & EN). apply forall_mid in T2, B8, C2, B7.
      destruct T2 as (X1 & X2), B8 as (X3 & X4), C2 as (X5 & X6), B7 as (X7 & X8).
      destruct (I1 x Q1 W1 X1 X3 X5) as (J1 & J2 & J3 & J4 & J5). destruct (IHr I2 Q2 W2 b X2 X4 X6 X8) as (R1 & R2 & R3).
      destruct (updq_kids r b) as (t', w'). cbn [fst map] in *. split; [congruence|]. split; [auto|]. constructor; auto.
      unfold good_kid in *. rewrite J2, J3. auto.
    - destruct (IHr I2 Q2 W2 tl T2 B8 C2 B7) as (R1 & R2 & R3). destruct (updq_kids r tl) as (t', w'). cbn [fst map] in *.
      destruct (set_modified_wfn c W1) as (M1 & M2 & M3). split; [f_equal; [destruct c; reflexivity|auto]|]. split; [auto|]. constructor; auto.
      unfold good_kid. rewrite M2, M3. destruct c as [kc dc lc]. apply every_inv in Q1. destruct Q1 as ((_ & Y1 & Y2 & _) & _). cbn [dat]. rewrite Y1, Y2. split; [lia|]. intros _. lia. }
  destruct (K tl T2 B8 C2 B7) as (K1 & K2 & K3). destruct (updq_kids sl tl) as (tl', w) eqn:EQ. cbn [fst] in *.
  destruct (d_upd_rest sd td (proj1 (zok_sok _ Z1)) B2) as (D1 & D2 & D3 & D4 & D5 & D6).
  destruct (d_upd_flags sd td) as (F1 & F2). destruct C1 as (Q1 & Q2 & Q3 & Q4).
  cbn [kids nm dat].
  assert (G : forall fl : bool, wfn nms (HN tk (if fl then childs_changed (d_upd sd td) else d_upd sd td) tl')).
  { intros fl. constructor; auto.
    - destruct fl; split; cbn; auto; intros X; congruence.
    - destruct fl; exact D6.
    - destruct fl; cbn; rewrite D3, D1; auto.
    - destruct fl; cbn; rewrite D2, D1; auto.
    - unfold nohist, own_hist in *. destruct fl; cbn; rewrite D5; auto.
    - rewrite K1. auto.
    - eapply Forall_impl; [|exact K3]. intros c (g1 & g2). destruct fl; split; cbn; rewrite ?D3, ?D2; auto. }
  split; [apply G|]. split; [destruct w; cbn; auto|]. split; [destruct w; cbn; auto|]. auto.
Qed.

(* the relation of an item to the copy as the reader goes through it *)
Fixpoint PInv (n c : hnode) {struct n} : Prop :=
  match n with
  | HN _ d l =>
    (v < fver nms d \/ fpend nms d = true \/ sel P (d_map d) = sel P (d_map (dat c))) /\
    (v < cver nms d \/ cpend nms d = true \/ map nm l = map nm (kids c)) /\
    (fix go (l old : list hnode) : Prop :=
       match l with
       | [] => True
       | x :: r => match find_kid (nm x) old with
                   | Some (_, y, b) => PInv x y /\ go r b
                   | None => PInv x (new_item (nm x)) /\ go r old
                   end
       end) l (kids c)
  end.
Definition pkids := fix go (l old : list hnode) : Prop :=
  match l with
  | [] => True
  | x :: r => match find_kid (nm x) old with
              | Some (_, y, b) => PInv x y /\ go r b
              | None => PInv x (new_item (nm x)) /\ go r old
              end
  end.
Lemma PInv_eq k d l c : PInv (HN k d l) c =
  ((v < fver nms d \/ fpend nms d = true \/ sel P (d_map d) = sel P (d_map (dat c))) /\
   (v < cver nms d \/ cpend nms d = true \/ map nm l = map nm (kids c)) /\ pkids l (kids c)).
Proof. reflexivity. Qed.
Lemma pkids_cons x r old : pkids (x :: r) old =
  match find_kid (nm x) old with
  | Some (_, y, b) => PInv x y /\ pkids r b
  | None => PInv x (new_item (nm x)) /\ pkids r old
  end.
Proof. reflexivity. Qed.

Lemma PInv_none n : Inv nms P v None n -> forall k, PInv n (new_item k).
Proof.
  induction n as [k d l IH] using hnode_ind2. intros I0 k1. destruct (Inv_inv _ _ _ _ _ _ _ I0) as (J1 & J2 & J3 & J4).
  rewrite PInv_eq. split; [exact J1|]. split; [exact J2|]. cbn [kids new_item]. clear - IH J4.
  induction l as [|c l IHl]; [exact I|]. inversion IH; inversion J4; subst. rewrite pkids_cons. cbn [find_kid]. split; auto.
Qed.

Lemma find_kid_map k : forall cl tl, map (fun c => (nm c, vw c)) cl = map (fun c => (nm c, vw c)) tl ->
  match find_kid k tl with
  | Some (a, x, b) => exists a' y b', find_kid k cl = Some (a', y, b') /\ vw y = vw x /\ map (fun c => (nm c, vw c)) b' = map (fun c => (nm c, vw c)) b
  | None => find_kid k cl = None
  end.
Proof.
  intros cl tl. revert cl. induction tl as [|x tl IH]; intros [|y cl] E; try discriminate; [reflexivity|]. cbn [map] in E. injection E as EN EV E.
  cbn [find_kid]. rewrite EN. destruct (beqb k (nm x)).
  - exists [], y, cl. auto.
  - specialize (IH cl E). destruct (find_kid k tl) as [((a, z), b)|].
    + destruct IH as (a' & z' & b' & -> & H). exists (y :: a'), z', b'. auto.
    + rewrite IH. auto.
Qed.

(* no field with an underscore is lost, along the way the update goes *)
Fixpoint keepsP (s t : hnode) {struct s} : Prop :=
  match s with
  | HN _ sd sl =>
    (nms = true -> forall k, named k = true -> has k (d_map (dat t)) = true -> has k (d_map sd) = true) /\
    (fix go (sl tl : list hnode) : Prop :=
       match sl with
       | [] => True
       | c :: r => match find_kid (nm c) tl with
                   | Some (_, x, b) => keepsP c x /\ go r b
                   | None => go r tl
                   end
       end) sl (kids t)
  end.
Definition kkids := fix go (sl tl : list hnode) : Prop :=
  match sl with
  | [] => True
  | c :: r => match find_kid (nm c) tl with
              | Some (_, x, b) => keepsP c x /\ go r b
              | None => go r tl
              end
  end.
Lemma kkids_cons c r tl : kkids (c :: r) tl = match find_kid (nm c) tl with Some (_, x, b) => keepsP c x /\ kkids r b | None => kkids r tl end.
Proof. reflexivity. Qed.

Lemma fields_cond sd td : zok sd -> sok td -> quiet td ->
  (nms = true -> forall k, named k = true -> has k (d_map td) = true -> has k (d_map sd) = true) ->
  fpend nms (d_upd sd td) = true \/ sel P (d_map (d_upd sd td)) = sel P (d_map td).
Proof.
  intros ((S1 & E1) & _) (S2 & E2) Q KN. unfold fpend. unfold by_names in *. destruct kd.
  - destruct (d_nc (d_upd sd td)) eqn:NC; [left; auto|]. right.
    destruct (d_upd_quiet sd td (conj S1 E1) S2 NC) as (D1 & _). unfold sel. rewrite D1. auto.
  - destruct (was_changed_with under (d_upd sd td)) eqn:W; [left; rewrite orb_true_r; auto|]. right.
    unfold sel. cbn [carried]. rewrite d_upd_map. apply (move_named (d_map sd) (with_flags td false (d_mc td) false)); auto.
    unfold was_changed_with in *. rewrite d_upd_map in W. exact W.
Qed.

Lemma updq_PInv s : forall t c, every zok s -> Inv nms P v None s -> every sok t -> clean t -> keepsP s t -> vw c = vw t ->
  PInv (updq s t) c.
Proof.
  induction s as [sk sd sl IH] using hnode_ind2. intros [tk td tl] [ck cd cl] ZS IS ST CT KP VC. rewrite updq_eq.
  apply every_inv in ZS, ST. destruct ZS as (Z1 & Z2), ST as (T1 & T2). inversion CT as [? ? ? C1 C2]; subst.
  destruct (Inv_inv _ _ _ _ _ _ _ IS) as (_ & _ & _ & J4). cbn [keepsP] in KP. fold kkids in KP. destruct KP as (KF & KK). cbn [dat kids] in *.
  cbn [view] in VC. injection VC as VF VK.
  assert (K : forall tl cl, Forall (every sok) tl -> Forall clean tl -> kkids sl tl ->
     map (fun c => (nm c, vw c)) cl = map (fun c => (nm c, vw c)) tl ->
     pkids (fst (updq_kids sl tl)) cl /\ (snd (updq_kids sl tl) = false -> map nm (fst (updq_kids sl tl)) = map nm cl)).
  { clear - IH Z2 J4. induction sl as [|c r IHr]; intros tl cl T2 C2 KK VK.
    - split; [exact I|]. cbn. destruct tl, cl; try discriminate; auto.
    - inversion IH as [|? ? I1 I2]; inversion Z2 as [|? ? Q1 Q2]; inversion J4 as [|? ? W1 W2]; subst. rewrite updq_kids_cons.
      rewrite kkids_cons in KK. pose proof (find_kid_map (nm c) cl tl VK) as FM.
      destruct (find_kid (nm c) tl) as [((a, x), b)|] eqn:EF.
      + destruct FM as (a' & y & b' & EC & EV & EB). apply find_kid_in in EF. destruct EF as (-> & EN).
        apply forall_mid in T2, C2. destruct T2 as (X1 & X2), C2 as (X5 & X6). destruct KK as (KC & KR).
        destruct (IHr I2 Q2 W2 b b' X2 X6 KR EB) as (R1 & R2).
        pose proof (proj2 (proj2 (upd_mark 0 0 c x None 0))) as UN.
        destruct (updq_kids r b) as (t', w'). cbn [fst snd] in *. split.
        * rewrite pkids_cons, UN, EN, EC. split; auto.
        * intros X. apply orb_false_iff in X. destruct X as (X & Y). destruct a; [|discriminate]. cbn [app map] in VK. cbn [map]. rewrite UN, R2 by auto.
          destruct cl as [|y0 cl0]; [discriminate|]. cbn [map] in *. injection VK as V1 V2 V3. rewrite <- V1. f_equal.
          cbn [find_kid] in EC. rewrite V1, EN, beqb_refl in EC. injection EC as _ _ <-. auto.
      + destruct (IHr I2 Q2 W2 tl cl T2 C2 KK VK) as (R1 & R2). destruct (updq_kids r tl) as (t', w'). cbn [fst snd] in *. split; [|discriminate].
        rewrite pkids_cons. replace (nm (set_modified true true c)) with (nm c) by (destruct c; reflexivity). rewrite FM. split; auto.
        apply PInv_none. apply set_modified_Inv. exact W1. }
  destruct (K tl cl T2 C2 KK VK) as (K1 & K2). destruct (updq_kids sl tl) as (tl', w) eqn:EQ. cbn [fst snd] in *. rewrite PInv_eq. cbn [dat kids].
  split; [|split; [|exact K1]].
  - right. destruct (fields_cond sd td Z1 T1 C1 KF) as [F|F].
    + left. destruct w; [|exact F]. unfold fpend in *. destruct nms; cbn; auto.
    + right. destruct w; cbn [childs_changed with_flags d_map]; congruence.
  - destruct w; [right; left; unfold cpend; destruct nms; reflexivity|]. right. right. auto.
Qed.

Lemma PInv_mark ver now : v < ver -> forall n c inh tm n' m tm', noinh nms inh -> wfn nms n -> d_nv (dat n) <= ver ->
  mark_tree ver now inh tm n = (n', m, tm') -> PInv n c -> PInv n' c.
Proof.
  intros V0. pose proof (carried_under kd) as HP. induction n as [k d l IH] using hnode_ind2. intros c inh tm n' m tm' NI W B E.
  pose proof (mark_tree_ok nms P HP ver v now V0 _ inh tm _ _ _ NI W B E) as (MK & _).
  rewrite mark_tree_eq in E. destruct (wfn_inv _ _ _ _ W) as (H1 & H2 & H3 & H4 & H5 & H6 & H7 & H8). cbn [dat] in B.
  destruct (mark_kids ver now (inherit d inh) tm l) as ((l', mk), tm1) eqn:EK.
  destruct (mark_own ver now inh mk tm1 d) as ((d', m'), tm2) eqn:EO. injection E as <- <- <-.
  rewrite !PInv_eq. intros (J1 & J2 & J3).
  assert (K : map nm l' = map nm l /\ forall old, pkids l old -> pkids l' old).
  { assert (BK : Forall (fun c => d_nv (dat c) <= ver) l).
    { eapply Forall_impl; [|exact H7]. intros c0 (a1 & a2). lia. }
    pose proof (inherit_none nms P HP d inh NI H5) as NI2. clear - IH H8 BK EK NI2 V0 HP. revert tm l' mk tm1 EK.
    induction l as [|x l IHl]; intros tm l' mk tm1 EK; [injection EK as <- <- <-; auto|].
    inversion IH as [|? ? I1 I2]; inversion H8 as [|? ? W1 W2]; inversion BK as [|? ? B1 B2]; subst. rewrite mark_kids_cons in EK.
    destruct (mark_tree ver now (inherit d inh) tm x) as ((x', mx), t1) eqn:E1.
    destruct (mark_kids ver now (inherit d inh) t1 l) as ((r', mr), t2) eqn:E2. injection EK as <- <- <-.
    destruct (mark_tree_ok nms P HP ver v now V0 _ _ _ _ _ _ NI2 W1 B1 E1) as ((M1 & _) & _).
    destruct (IHl I2 W2 B2 _ _ _ _ E2) as (K1 & K2). cbn [map]. rewrite M1, K1. split; auto.
    intros old. rewrite !pkids_cons, M1. destruct (find_kid (nm x) old) as [((a, y), b)|]; intros (Q1 & Q2); split; eauto. }
  destruct K as (K1 & K2). rewrite K1. split; [|split; [|auto]].
  - destruct (NC d mk) eqn:EC.
    + destruct (mark_own_busy nms P HP ver now inh mk tm1 d d' m' tm2 H2 EC EO) as (Q1 & Q2 & Q3 & Q4 & Q5 & Q6 & Q7 & Q8 & Q9 & Q10).
      clear - J1 V0 Q1 Q2 Q10 H5 NI. unfold fver, fpend in *. destruct nms eqn:EM.
      * rewrite Q2. destruct (MC d mk) eqn:EMC; [left; lia|]. unfold MC in EMC.
        apply orb_false_iff in EMC. destruct EMC as (E1 & E2). apply orb_false_iff in E1. destruct E1 as (E1 & E3).
        destruct J1 as [X|[X|X]]; [left; auto| |right; right; rewrite Q10; auto].
        rewrite E1 in X. cbn [orb] in X. rewrite X, andb_true_r in E2. apply quiet_with in E2. congruence.
      * left. lia.
    + rewrite (mark_own_idle ver now inh mk tm1 d H1 EC) in EO. injection EO as <- <- <-. auto.
  - destruct (NC d mk) eqn:EC.
    + destruct (mark_own_busy nms P HP ver now inh mk tm1 d d' m' tm2 H2 EC EO) as (Q1 & Q2 & Q3 & Q4 & Q5 & Q6 & Q7 & Q8 & Q9 & Q10).
      clear - J2 V0 Q2 Q3. unfold cver, cpend in *. destruct nms eqn:EM.
      * rewrite Q2. destruct J2 as [X|[X|X]]; [left; destruct (MC d mk); lia| |auto].
        left. unfold MC. rewrite X. cbn [orb]. lia.
      * rewrite Q3. destruct J2 as [X|[X|X]]; [left; destruct (CC d mk); lia| |auto].
        left. unfold CC. rewrite X. cbn [orb]. lia.
    + rewrite (mark_own_idle ver now inh mk tm1 d H1 EC) in EO. injection EO as <- <- <-. auto.
Qed.

Lemma PInv_fields k d l c : PInv (HN k d l) c -> quiet d -> fver nms d <= v -> sel P (d_map d) = sel P (d_map (dat c)).
Proof.
  rewrite PInv_eq. intros (J1 & _) (Q1 & Q2 & Q3 & Q4) L. destruct J1 as [J1|[J1|J1]]; [lia| |auto]. unfold fpend in J1. destruct nms.
  - rewrite Q2, (quiet_with _ Q4) in J1. discriminate.
  - rewrite Q1, Q4 in J1. discriminate.
Qed.
Lemma PInv_kids n : forall c, wfn nms n -> clean n -> PInv n c -> cver nms (dat n) <= v ->
  map (fun c => (nm c, vw c)) (kids n) = map (fun c => (nm c, vw c)) (kids c).
Proof.
  induction n as [k d l IH] using hnode_ind2. intros c W C I0 L. cbn [kids dat] in *. inversion C as [? ? ? Q CL]; subst.
  destruct (wfn_inv _ _ _ _ W) as (H1 & H2 & H3 & H4 & H5 & H6 & H7 & H8). rewrite PInv_eq in I0. destruct I0 as (J1 & J2 & J3).
  assert (EN : map nm l = map nm (kids c)).
  { destruct J2 as [J2|[J2|J2]]; [lia| |auto]. destruct Q as (Q1 & Q2 & Q3 & Q4). unfold cpend in J2. destruct nms; congruence. }
  generalize dependent (kids c). intros cl J2 J3 EN. clear - IH CL H7 H8 J3 EN L. revert cl J3 EN.
  induction l as [|x l IHl]; intros [|y cl] J3 EN; try discriminate; [reflexivity|].
  inversion IH as [|? ? I1 I2]; inversion CL as [|? ? C1 C2]; inversion H7 as [|? ? (G1 & G2) G3]; inversion H8 as [|? ? W1 W2]; subst.
  cbn [map] in EN. injection EN as E1 E2. rewrite pkids_cons in J3. cbn [find_kid] in J3. rewrite E1, beqb_refl in J3. destruct J3 as (P1 & P2).
  cbn [map]. f_equal; [|apply IHl; auto]. f_equal; [auto|].
  destruct x as [kx dx lx]. inversion C1; subst. destruct (wfn_inv _ _ _ _ W1) as (X1 & X2 & X3 & X4 & _). cbn [dat] in *.
  assert (FV : fver nms dx <= v /\ cver nms dx <= v).
  { unfold fver, cver in *. destruct nms; [specialize (G2 eq_refl)|]; lia. }
  destruct FV as (FV & CV). specialize (I1 y W1 C1 P1 CV). pose proof (PInv_fields _ _ _ _ P1 ltac:(auto) FV) as EF.
  destruct y as [ky dy ly]. cbn [view kids dat] in *. congruence.
Qed.

Lemma rel_of_PInv V n : V <= v + 1 -> forall c, wfn nms n -> clean n -> PInv n c -> rel kd V n c.
Proof.
  intros LV. induction n as [k d l IH] using hnode_ind2. intros c W C I0. cbn [rel]. fold (rel_kids kd V).
  inversion C as [? ? ? Q CL]; subst. destruct (wfn_inv _ _ _ _ W) as (H1 & H2 & H3 & H4 & H5 & H6 & H7 & H8). split.
  - rewrite stored_fields. intros L. apply N.leb_gt in L. eapply PInv_fields; eauto. lia.
  - rewrite stored_childs. destruct (N.leb_spec V (cver nms d)) as [L|L].
    + rewrite PInv_eq in I0. destruct I0 as (_ & _ & J3). clear - IH CL H8 J3. revert J3. generalize (kids c). induction l as [|x l IHl]; intros old J3; [exact I|].
      inversion IH as [|? ? I1 I2]; inversion CL as [|? ? C1 C2]; inversion H8 as [|? ? W1 W2]; subst. rewrite pkids_cons in J3.
      cbn [rel_kids]. fold (rel_kids kd V). destruct (find_kid (nm x) old) as [((a, y), b)|]; destruct J3; split; auto.
    + apply (PInv_kids (HN k d l) c W C I0). cbn [dat]. lia.
Qed.

Lemma keeps_P s : forall t, wfn nms s -> wfn nms t -> (kd = SNames -> keeps_named (whole t) (whole s)) -> keepsP s t.
Proof.
  induction s as [sk sd sl IH] using hnode_ind2. intros [tk td tl] WS WT KN.
  destruct (wfn_inv _ _ _ _ WS) as (A1 & A2 & A3 & A4 & A5 & A6 & A7 & A8). destruct (wfn_inv _ _ _ _ WT) as (B1 & B2 & B3 & B4 & B5 & B6 & B7 & B8).
  cbn [keepsP]. fold kkids. cbn [dat kids]. split.
  - intros NM. unfold by_names in NM. destruct kd; [discriminate|]. specialize (KN eq_refl). intros k NK HK. unfold has in *.
    destruct (mget k (d_map td)) as [f|] eqn:EF; [|discriminate].
    pose proof (KN [] _ _ k (f_val f) eq_refl eq_refl NK) as X. cbn [whole t_fields] in X. rewrite !mget_vals, EF in X. specialize (X eq_refl).
    destruct (mget k (d_map sd)); auto.
  - assert (KK : forall c x, In c sl -> In x tl -> nm x = nm c -> kd = SNames -> keeps_named (whole x) (whole c)).
    { intros c x Hc Hx EN KD. specialize (KN KD). intros p y z k w T1 T2. apply (KN (nm c :: p)); cbn [tat whole t_kids].
      - erewrite tfind_in; [exact T1| |].
        + rewrite map_map. exact B6.
        + apply in_map_iff. exists x. rewrite EN. auto.
      - erewrite tfind_in; [exact T2| |].
        + rewrite map_map. exact A6.
        + apply in_map_iff. exists c. auto. }
    assert (G : forall sl2 tl2, incl sl2 sl -> incl tl2 tl -> kkids sl2 tl2).
    { rewrite Forall_forall in *. induction sl2 as [|c r IHr]; intros tl2 I1 I2; [exact I|]. rewrite kkids_cons.
      assert (Hc : In c sl) by (apply I1; left; auto). assert (I3 : incl r sl) by (intros z Hz; apply I1; right; auto).
      destruct (find_kid (nm c) tl2) as [((a, x), b)|] eqn:EF; [|auto]. apply find_kid_in in EF. destruct EF as (-> & EN).
      assert (Hx : In x tl) by (apply I2; apply in_or_app; right; left; auto). split; [apply IH; auto|].
      apply IHr; auto. intros z Hz. apply I2. apply in_or_app. right. right. auto. }
    apply G; apply incl_refl.
Qed.
End Copy.
