(* Theorems about the update of a hierarchy from a second one (C79). *)
From Verif Require Import Common ListFacts Bytes RecordSpec RecordModel RecordMap RecordOut RecordIn RecordProofs HierSpec HierModel HierProofs HierInv HierStream HierSync HierProps HUpdSpec HUpdModel HUpdProofs HUpdTree HUpdSync HUpdCopy.
Local Open Scope N_scope.

(* How a source is made: items and fields are created and removed, nothing is marked; fields
   with an underscore are not removed again when only names are transferred *)
Definition edit (kd : skind) (o : hop) : Prop :=
  match o with
  | OSet _ _ v => exact v
  | ODel _ k => kd = SNames -> named k = false
  | OCreate _ _ | ORemove _ => True
  | _ => False
  end.
Definition built (kd : skind) (s : hnode) : Prop :=
  exists name ops, Forall (edit kd) ops /\ s = hrun ops (new_item name).

(* ---- connection to the proofs ---- *)
Lemma vals_sorted_back (m : fmap field) : msorted (vals m) -> msorted m.
Proof.
  induction m as [|(k, f) m IH]; cbn [vals map]; auto. intros H. pose proof (msorted_tail _ _ H) as H2. specialize (IH H2).
  destruct m as [|(k2, f2) m]; auto. cbn [map fst snd msorted] in *. tauto.
Qed.
Lemma sok_of n : ordered (whole n) -> values exact (whole n) -> every sok n.
Proof.
  induction n as [k d l IH] using hnode_ind2. cbn [whole]. intros O1 V1. inversion O1 as [f0 l0 O2 O3]; inversion V1 as [f1 l1 V2 V3]; subst.
  constructor.
  - split; [apply vals_sorted_back; auto|]. unfold fvals, vals in *. rewrite Forall_map in V2. exact V2.
  - rewrite Forall_map in O3, V3. cbn [snd] in *. rewrite Forall_forall in *. intros c Hc. auto.
Qed.
Lemma comp_of n : values compared (whole n) -> every (fun d => fvals compared (d_map d)) n.
Proof.
  induction n as [k d l IH] using hnode_ind2. cbn [whole]. intros V1. inversion V1 as [f1 l1 V2 V3]; subst. constructor.
  - unfold fvals, vals in *. rewrite Forall_map in V2. exact V2.
  - rewrite Forall_map in V3. cbn [snd] in *. rewrite Forall_forall in *. intros c Hc. auto.
Qed.

Lemma shows_whole kd a : forall b, whole a = whole b -> shows kd a = shows kd b.
Proof.
  induction a as [k d l IH] using hnode_ind2. intros [k2 d2 l2] E. cbn [whole shows] in *. injection E as E1 E2. rewrite E1. f_equal.
  clear E1. revert l2 E2. induction IH as [|x l I1 I2 IHl]; intros [|y l2] E2; try discriminate; auto. cbn [map] in *.
  injection E2 as E3 E4 E5. rewrite (I1 y E4), E3. f_equal. auto.
Qed.

Section Every.
Context (D : hdata -> Prop) (D0 : D hd0) (DC : forall d, D d -> D (childs_changed d)).
Lemma every_update p f n : (forall x, every D x -> every D (f x)) -> every D n -> every D (update_at p f n).
Proof.
  intros H. revert n. induction p as [|k p IH]; intros [name d l] E; cbn [update_at]; auto.
  destruct (find_kid k l) as [((a, x), b)|] eqn:EF; auto. apply find_kid_in in EF. destruct EF as (-> & _).
  apply every_inv in E. destruct E as (E1 & E2). constructor; auto. apply Forall_app in E2. destruct E2 as (E2 & E3). inversion E3; subst.
  apply Forall_app. split; auto.
Qed.
Lemma every_on f n : (forall d, D d -> D (f d)) -> every D n -> every D (on_data f n).
Proof. intros H E. destruct n as [k d l]. apply every_inv in E. destruct E. constructor; cbn; auto. Qed.
Lemma every_new k : every D (new_item k).
Proof. constructor; auto. Qed.
Lemma every_create p sort : forall n, every D n -> every D (create_at p sort n).
Proof.
  induction p as [|k p IH]; intros [name d l] E; cbn [create_at]; auto. apply every_inv in E. destruct E as (E1 & E2).
  destruct (find_kid k l) as [((a, x), b)|] eqn:EF.
  - apply find_kid_in in EF. destruct EF as (-> & _). constructor; auto. apply Forall_app in E2. destruct E2 as (E2 & E3). inversion E3; subst.
    apply Forall_app. split; auto.
  - constructor; auto. destruct (insert_split sort (create_at p sort (new_item k)) l) as (a & b & -> & ->).
    apply Forall_app in E2. destruct E2. apply Forall_app. split; auto. constructor; auto. apply IH. apply every_new.
Qed.
Lemma every_remove p : forall n, every D n -> every D (remove_at p n).
Proof.
  induction p as [|k p IH]; intros [name d l] E; cbn [remove_at]; auto. pose proof E as E0. apply every_inv in E. destruct E as (E1 & E2).
  destruct (find_kid k l) as [((a, x), b)|] eqn:EF; auto. apply find_kid_in in EF. destruct EF as (-> & _).
  apply Forall_app in E2. destruct E2 as (E2 & E3). inversion E3; subst.
  assert (G : every D (HN name (childs_changed d) (a ++ b))) by (constructor; auto; apply Forall_app; auto).
  assert (G2 : every D (HN name d (a ++ remove_at p x :: b))) by (constructor; auto; apply Forall_app; auto).
  destruct p; auto. destruct (kids x), (kids (remove_at (b0 :: p) x)); auto.
Qed.
Lemma every_edit kd ops : (forall d k v, D d -> exact v -> D (set_field d k v)) -> (forall d k, D d -> D (remove_field d k)) ->
  Forall (edit kd) ops -> forall n, every D n -> every D (hrun ops n).
Proof.
  intros H1 H2 F. induction F as [|o ops E F IH]; intros n EN; auto. unfold hrun. cbn [fold_left]. fold (hrun ops (hstep n o)). apply IH.
  destruct o; cbn [edit hstep] in *; try tauto.
  - apply every_update; auto. intros x. apply every_on. auto.
  - apply every_update; auto. intros x. apply every_on. auto.
  - apply every_create. auto.
  - apply every_remove. auto.
Qed.
End Every.

Lemma fvals_mset (Q : value -> Prop) k f m : Q (f_val f) -> fvals Q m -> fvals Q (mset k f m).
Proof.
  intros H. unfold fvals. induction m as [|(k1, f1) m IH]; intros F; cbn [mset]; [constructor; auto|]. inversion F; subst.
  destruct (bcmp k k1); constructor; auto.
Qed.
Lemma zok_set d k v : zok d -> exact v -> zok (set_field d k v).
Proof.
  intros ((S1 & S2) & R) E. split; [|exact R]. split; [apply map_set_sorted; auto|]. cbn [set_field with_map d_map]. unfold map_set.
  apply fvals_mset; auto. rewrite set_value_exact; auto. unfold before.
  destruct (mget k (d_map d)) as [f|] eqn:EG; [left; exact (fvals_get exact _ _ _ S2 EG)|right; reflexivity].
Qed.
Lemma zok_del d k : zok d -> zok (remove_field d k).
Proof.
  intros H. unfold remove_field. destruct (has k (d_map d)); auto. destruct H as ((S1 & S2) & R). split; [|exact R].
  split; [apply mdel_sorted; auto|]. cbn [with_map d_map]. unfold fvals, mdel in *. rewrite Forall_forall in *. intros e He. apply filter_In in He. apply S2. tauto.
Qed.
Lemma built_zok kd s : built kd s -> every zok s.
Proof.
  intros (name & ops & F & ->). apply (every_edit zok) with (kd := kd); auto.
  - split; [split; constructor|cbn; auto 10].
  - apply zok_set.
  - apply zok_del.
  - apply every_new. split; [split; constructor|cbn; auto 10].
Qed.
Lemma Inv_zero kd n v : every zok n -> forall oo, Inv (by_names kd) (carried kd) 0 oo n -> Inv (by_names kd) (carried kd) v oo n.
Proof.
  induction n as [k d l IH] using hnode_ind2. intros E oo I0. apply every_inv in E. destruct E as ((_ & Z1 & Z2 & Z3 & _) & E2).
  destruct (Inv_inv _ _ _ _ _ _ _ I0) as (J1 & J2 & J3 & J4). constructor; auto.
  - destruct J1 as [J1|J1]; auto. exfalso. unfold fver in J1. destruct (by_names kd); lia.
  - destruct J2 as [J2|J2]; auto. exfalso. unfold cver in J2. destruct (by_names kd); lia.
  - rewrite Forall_forall in *. intros c Hc. auto.
Qed.
Lemma fresh_ops_none ops : forall n, fresh_ops None n ops.
Proof. induction ops as [|o ops IH]; intros n; cbn [fresh_ops]; auto. split; auto. destruct o; cbn [fresh_op]; auto. apply fresh_none. Qed.
Lemma built_ok kd s v : built kd s -> wfn (by_names kd) s /\ Inv (by_names kd) (carried kd) v None s.
Proof.
  intros B. pose proof (built_zok _ _ B) as Z. destruct B as (name & ops & F & ->). pose proof (carried_under kd) as HP.
  assert (VO : Forall (valid_op (by_names kd) (carried kd)) ops).
  { apply valid_all. eapply Forall_impl; [|exact F]. intros o H. destruct o; cbn in *; auto; try tauto. destruct H as (A & B & _). split; auto. }
  destruct (hrun_ok (by_names kd) (carried kd) HP ops (new_item name) VO (new_wfn _ _ HP name)) as (W & _ & I1). split; auto.
  apply Inv_zero; auto. apply I1; [cbn; lia|apply fresh_ops_none|apply new_Inv; auto].
Qed.

(* a mark of items without recording of times and history leaves their fields *)
Definition bare (d : hdata) : Prop := sok d /\ d_auto d = false /\ d_hist d = None.
Lemma mark_bare ver now n : forall tm n' m tm', every bare n -> mark_tree ver now None tm n = (n', m, tm') ->
  every bare n' /\ whole n' = whole n /\ nm n' = nm n.
Proof.
  induction n as [k d l IH] using hnode_ind2. intros tm n' m tm' PL E. rewrite mark_tree_eq in E.
  apply every_inv in PL. destruct PL as ((P1 & P2 & P3) & P4).
  assert (inherit d None = None) as EI by (unfold inherit; rewrite P3; reflexivity). rewrite EI in E.
  destruct (mark_kids ver now None tm l) as ((l', mk), tm1) eqn:EK.
  destruct (mark_own ver now None mk tm1 d) as ((d', m'), tm2) eqn:EO. injection E as <- <- <-.
  assert (K : Forall (every bare) l' /\ map (fun c => (nm c, whole c)) l' = map (fun c => (nm c, whole c)) l).
  { clear - IH P4 EK. revert tm l' mk tm1 EK. induction l as [|c l IHl]; intros tm l' mk tm1 EK; cbn [mark_kids] in EK.
    - injection EK as <- <- <-. split; auto.
    - inversion IH as [|? ? I1 I2]; inversion P4 as [|? ? Q1 Q2]; subst.
      destruct (mark_tree ver now None tm c) as ((c', mc), t1) eqn:E1.
      destruct (mark_kids ver now None t1 l) as ((r', mr), t2) eqn:E2. injection EK as <- <- <-.
      destruct (I1 _ _ _ _ Q1 E1) as (A1 & A2 & A3). destruct (IHl I2 Q2 _ _ _ _ E2) as (B1 & B2). split; auto. cbn [map]. congruence. }
  destruct K as (K1 & K2). cbn [whole nm].
  assert (DD : bare d' /\ vals (d_map d') = vals (d_map d)).
  { unfold mark_own in EO. fold (NC d mk) in EO. destruct (NC d mk).
    - cbn [d_auto] in EO. rewrite P2 in EO. unfold check_history in EO. cbn [d_hist] in EO. rewrite P3 in EO. cbn [andb] in EO.
      injection EO as <- <- <-. split; [|apply vals_clear]. split; [|split; auto]. destruct P1 as (S1 & S2). split.
      + apply (map_keys (fun e => mkF (f_val (snd e)) false)); auto.
      + cbn [with_flags with_map d_map]. unfold clear_map, fvals in *. rewrite Forall_map. exact S2.
    - injection EO as <- <- <-. split; auto. split; auto. }
  destruct DD as (D1 & D2). split; [constructor; auto|]. rewrite D2, K2. auto.
Qed.
Lemma upd_bare s : forall t, every zok s -> every bare t -> every bare (updated s t) /\ d_nv (dat (updated s t)) = d_nv (dat t).
Proof.
  assert (ZB : forall d, zok d -> bare d) by (intros d (A & _ & _ & _ & B & C); split; auto).
  induction s as [sk sd sl IH] using hnode_ind2. intros [tk td tl] ES ET. apply every_inv in ES, ET.
  destruct ES as (S1 & S2), ET as (T1 & T2). unfold updated. rewrite upd_eq.
  assert (K : forall tl, Forall (every bare) tl -> forall sl' tl' w, upd_kids sl tl = (sl', tl', w) -> Forall (every bare) tl').
  { clear - IH S2 ZB. induction sl as [|c r IHr]; intros tl T2 sl' tl' w E.
    - rewrite upd_kids_nil in E. injection E as <- <- <-. auto.
    - inversion IH as [|? ? I1 I2]; inversion S2 as [|? ? Q1 Q2]; subst. rewrite upd_kids_cons in E.
      destruct (find_kid (nm c) tl) as [((a, x), b)|] eqn:EF.
      + apply find_kid_in in EF. destruct EF as (-> & EN). apply forall_mid in T2. destruct T2 as (X1 & X2).
        specialize (I1 x Q1 X1). unfold updated in I1. destruct (upd c x) as ((c', x'), ch). cbn [fst snd] in I1.
        destruct (upd_kids r b) as ((r', t'), w') eqn:EK. injection E as <- <- <-. constructor; [apply I1|eauto].
      + destruct (upd_kids r tl) as ((r', t'), w') eqn:EK. injection E as <- <- <-. constructor; [|eauto].
        destruct (set_modified_ok bare true true c) as (M1 & M2 & M3); [auto|]. apply M3. exact (every_impl _ _ _ ZB Q1). }
  destruct (upd_kids sl tl) as ((sl', tl'), w) eqn:EK. cbn [fst snd dat].
  destruct (d_upd_rest sd td (proj1 (zok_sok _ S1)) (proj1 (proj1 T1))) as (D1 & D2 & D3 & D4 & D5 & D6).
  destruct T1 as (T1 & TA & TH). destruct (d_upd_ok sd td (zok_sok _ S1) T1) as (D7 & D8). split.
  - constructor; [|eapply K; eauto]. destruct (w_sub w), (w_list w); (split; [exact D8|cbn; split; congruence]).
  - destruct (w_sub w), (w_list w); cbn; auto.
Qed.
Lemma bare_sok n : every bare n -> every sok n.
Proof. apply every_impl. intros d H. apply H. Qed.
Lemma zok_every n : every zok n -> every sok n.
Proof. apply every_impl. apply zok_sok. Qed.

Definition state (kd : skind) (m : hnode) : Prop := wfn (by_names kd) m /\ clean m /\ every bare m.

Lemma hupdate_step kd now s m : state kd m -> built kd s ->
  state kd (hupdate now s m) /\ whole (hupdate now s m) = whole s /\
  version (hupdate now s m) = (if reported s m then version m + 1 else version m) /\
  (reported s m = false -> hupdate now s m = m) /\
  forall v c, v <= version m -> keepsP kd s m -> view (carried kd) c = view (carried kd) m -> PInv kd v (hupdate now s m) c.
Proof.
  intros (W & C & B) BS. pose proof (built_zok _ _ BS) as Z. pose proof (built_ok kd s (version m) BS) as (WS & _).
  pose proof (carried_under kd) as HP.
  destruct (upd_whole s m (zok_every _ Z) (bare_sok _ B)) as (U1 & U2 & U3).
  destruct (upd_bare s m Z B) as (U4 & U5).
  destruct (updq_ok kd s m Z WS (bare_sok _ B) W C) as (Q1 & Q2 & Q3 & Q4 & Q5).
  unfold hupdate, version in *. destruct (reported s m) eqn:R.
  - unfold mark_changed. cbn [mark_at]. unfold next_version. rewrite U5. set (ver := d_nv (dat m) + 1).
    destruct (upd_mark ver now s m None 0) as (M1 & M2 & _). rewrite M1.
    destruct (mark_tree ver now None 0 (updq s m)) as ((n', mk), tm') eqn:EM. cbn [fst snd] in *.
    destruct (mark_bare ver now (updated s m) 0 n' mk tm' U4 M1) as (B1 & B2 & B3).
    destruct (mark_tree_ok _ _ HP ver (d_nv (dat m)) now ltac:(unfold ver; lia) _ _ _ _ _ _ ltac:(intros _; reflexivity) Q1 ltac:(unfold ver; lia) EM) as (MK & CL).
    destruct MK as (MK1 & MK2 & MK3 & MK4 & _). split; [split; auto|]. split; [congruence|]. split; [apply MK4; auto|]. split; [discriminate|].
    intros v c LV KP VC. apply (PInv_mark kd v ver now ltac:(unfold ver; lia) (updq s m) c None 0 n' mk tm' ltac:(intros _; reflexivity) Q1 ltac:(unfold ver; lia) EM).
    apply updq_PInv; auto.
    + apply (built_ok kd s v BS).
    + apply bare_sok. auto.
  - destruct (upd_quiet s m (zok_every _ Z) (bare_sok _ B) R) as (X1 & X2). specialize (X2 C).
    assert (updated s m = m) as -> by (unfold updated; rewrite X2; reflexivity).
    split; [split; auto|]. split; [unfold updated in U1; rewrite X2 in U1; exact U1|]. split; [reflexivity|]. split; [reflexivity|].
    intros v c LV KP VC. assert (I0 : PInv kd v m c).
    { clear - VC. revert c VC. induction m as [k d l IH] using hnode_ind2. intros [kc dc lc] VC. rewrite PInv_eq. cbn [dat kids view] in *.
      injection VC as V1 V2. split; [auto|]. split.
      - right. right. assert (E : map fst (map (fun c => (nm c, view (carried kd) c)) lc) = map fst (map (fun c => (nm c, view (carried kd) c)) l)) by congruence.
        rewrite !map_map in E. cbn [fst] in E. auto.
      - clear V1. revert lc V2. induction IH as [|x l I1 I2 IHl]; intros [|y lc] V2; try discriminate; [exact I|]. cbn [map] in V2. injection V2 as E1 E2 E3.
        rewrite pkids_cons. cbn [find_kid]. rewrite E1, beqb_refl. split; auto. }
    exact I0.
Qed.
Lemma new_state kd top : state kd (new_item top).
Proof.
  pose proof (carried_under kd) as HP. split; [apply (new_wfn _ _ HP)|]. split.
  - constructor; [|constructor]. repeat split.
  - constructor; [|constructor]. split; [split; constructor|split; reflexivity].
Qed.
Lemma updates_state kd us : forall m, state kd m -> Forall (fun u => built kd (snd u)) us -> state kd (updates us m).
Proof.
  induction us as [|u us IH]; intros m S1 F; auto. inversion F; subst. unfold updates. cbn [fold_left]. fold (updates us (hupdate (fst u) (snd u) m)).
  apply IH; auto. apply hupdate_step; auto.
Qed.

(* ---- C79 ---- *)

(* Whatever the target held, after UpdateHierarchyFrom it shows what the source showed; its
   own name stays.  Full statement: for all values; refuted below. *)
Theorem C79_content_partial : forall s t, ordered (whole s) -> ordered (whole t) ->
  values exact (whole s) -> values exact (whole t) ->
  whole (updated s t) = whole s /\ nm (updated s t) = nm t.
Proof.
  intros s t O1 O2 V1 V2. destruct (upd_whole s t (sok_of s O1 V1) (sok_of t O2 V2)) as (A & B & _). auto.
Qed.
Print Assumptions C79_content_partial.

(* When the result is false the target already showed what the source shows. *)
Theorem C79_silent_partial : forall s t, ordered (whole s) -> ordered (whole t) ->
  values exact (whole s) -> values exact (whole t) -> reported s t = false -> whole t = whole s.
Proof.
  intros s t O1 O2 V1 V2 R. destruct (upd_whole s t (sok_of s O1 V1) (sok_of t O2 V2)) as (A & _).
  destruct (upd_quiet s t (sok_of s O1 V1) (sok_of t O2 V2) R) as (B & _). congruence.
Qed.
Print Assumptions C79_silent_partial.

(* A hierarchy which is only updated shows what its last source showed when it was given. *)
Theorem C79_current_partial : forall top us now s, Forall (fun u => built SFull (snd u)) us -> built SFull s ->
  whole (updates (us ++ [(now, s)]) (new_item top)) = whole s.
Proof.
  intros top us now s F B. unfold updates. rewrite fold_left_app. cbn [fold_left fst snd]. fold (updates us (new_item top)).
  apply (hupdate_step SFull); auto. apply updates_state; auto. apply new_state.
Qed.
Print Assumptions C79_current_partial.

(* Each update which brings something new counts the version up by one; an update with the
   same content leaves everything as it was, versions included.  Full statement: for all
   values; refuted below. *)
Theorem C79_version_partial : forall top us now s, Forall (fun u => built SFull (snd u)) us -> built SFull s ->
  let m0 := updates us (new_item top) in
  let m1 := hupdate now s m0 in
  (whole s <> whole m0 -> version m1 = version m0 + 1) /\
  (whole s = whole m0 -> values compared (whole s) -> m1 = m0).
Proof.
  intros top us now s F B m0 m1. assert (S0 : state SFull m0) by (apply updates_state; [apply new_state|auto]).
  destruct (hupdate_step SFull now s m0 S0 B) as (_ & E1 & E2 & E3 & _). fold m1 in E1, E2, E3. destruct S0 as (W & C & BR).
  pose proof (zok_every _ (built_zok _ _ B)) as Z. split.
  - intros NE. rewrite E2. destruct (reported s m0) eqn:R; auto. exfalso. apply NE. specialize (E3 eq_refl). congruence.
  - intros EQ VC. apply E3. unfold reported. rewrite (upd_same s m0 Z (comp_of s VC) (bare_sok _ BR) C EQ). reflexivity.
Qed.
Print Assumptions C79_version_partial.

(* A reader which is one update behind: it showed what the master showed, and asks for what
   changed since the version the master had then.  After the next update and the transfer it
   shows what the source of the update showed.  Items may disappear, come back and change
   places.  Full statement: for a reader further behind, all values, and names with fields
   removed; refuted below. *)
Theorem C79_sync_partial : forall kd top us now s V copy now' tail,
  let m0 := updates us (new_item top) in
  let m1 := hupdate now s m0 in
  Forall (fun u => built kd (snd u)) us -> built kd s -> (kd = SNames -> keeps_named (whole m0) (whole s)) ->
  plain copy -> shows kd copy = shows kd m0 -> V <= version m0 + 1 ->
  sendable (shows kd s) -> tree_len (shows kd s) < 2^32 ->
  exists b copy', save_hier kd V m1 = Some b /\
    update_from tail b now' copy = Some (Done (copy', true)) /\
    shows kd copy' = shows kd s /\ plain copy'.
Proof.
  intros kd top us now s V copy now' tail m0 m1 F B KN PC SC LV SD TL.
  assert (S0 : state kd m0) by (apply updates_state; [apply new_state|auto]).
  destruct (hupdate_step kd now s m0 S0 B) as ((W1 & C1 & B1) & E1 & _ & _ & IV). fold m1 in W1, C1, B1, E1, IV.
  destruct S0 as (W0 & C0 & B0). pose proof (shows_whole kd m1 s E1) as ES. rewrite <- ES in *. rewrite !shows_view in *.
  assert (KP : keepsP kd s m0) by (apply keeps_P; auto; apply (built_ok kd s 0 B)).
  pose proof (rel_of_PInv kd (version m0) V m1 LV copy W1 C1 (IV (version m0) copy (N.le_refl _) KP SC)) as RL.
  destruct (update_ok kd V m1 copy now' tail RL PC W1 SD TL) as (c' & U1 & U2 & U3 & U4).
  exists (hbytes kd V m1), c'. rewrite shows_view. auto.
Qed.
Print Assumptions C79_sync_partial.

(* ---- cases ---- *)
Definition src (ops : list hop) : hnode := hrun ops (new_item [83]).
Lemma src_built kd ops : Forall (edit kd) ops -> built kd (src ops).
Proof. intros F. exists [83], ops. auto. Qed.
(* A with a field, B with an item inside; then A is gone and comes back behind B, which loses
   its inner item and gets a field *)
Definition ops_a : list hop := [OCreate [nA] false; OSet [nA] fx (VUInt 1); OCreate [nB; nA] false; OSet [nB] f_x (VUInt 5)].
Definition ops_b : list hop := [OCreate [nB] false; OSet [nB] fx (VUInt 7); OSet [nB] f_x (VUInt 5); OCreate [nA] false; OSet [nA] fx (VUInt 1)].
Ltac edits := repeat constructor; cbn; try discriminate; try reflexivity; auto; unfold word; try lia.

Example C79_case_current : whole (updates [(10, src ops_a); (20, src ops_b)] start) = whole (src ops_b) /\
  version (updates [(10, src ops_a)] start) = 1 /\ version (updates [(10, src ops_a); (20, src ops_b)] start) = 2 /\
  version (updates [(10, src ops_a); (20, src ops_b); (30, src ops_b)] start) = 2 /\
  whole (src ops_b) <> whole (src ops_a).
Proof. vm_compute. repeat split. discriminate. Qed.
Example C79_case_hyps : forall kd, built kd (src ops_a) /\ built kd (src ops_b) /\
  keeps_named (whole (updates [(10, src ops_a)] start)) (whole (src ops_b)).
Proof.
  intros kd. split; [|split].
  - apply src_built. unfold ops_a. edits.
  - apply src_built. unfold ops_b. edits.
  - intros p x y k v. assert (E1 : whole (updates [(10, src ops_a)] start) = T [] [(nA, T [(fx, VUInt 1)] []); (nB, T [(f_x, VUInt 5)] [(nA, T [] [])])]) by (vm_compute; reflexivity).
    assert (E2 : whole (src ops_b) = T [] [(nB, T [(f_x, VUInt 5); (fx, VUInt 7)] []); (nA, T [(fx, VUInt 1)] [])]) by (vm_compute; reflexivity).
    rewrite E1, E2. clear E1 E2. destruct p as [|k1 p]; cbn [tat t_kids tfind].
    + intros [= <-] [= <-] _ X. discriminate.
    + destruct (beqb k1 nA) eqn:EA.
      * destruct (beqb_spec k1 nA) as [->|]; [|discriminate]. destruct p; cbn [tat t_kids tfind]; [|discriminate].
        intros [= <-] [= <-] NK X. cbn [t_fields mget] in *. destruct (beqb k fx); congruence.
      * destruct (beqb_spec k1 nB) as [->|]; [|discriminate]. destruct p as [|k2 p]; cbn [tat t_kids tfind].
        -- intros [= <-] [= <-] NK X. cbn [t_fields mget] in *. destruct (beqb k f_x); congruence.
        -- intros _. discriminate.
Qed.
Example C79_case_sync : forall kd, exists c0 c1, transfer kd 0 (updates [(10, src ops_a)] start) start = Some c0 /\
  transfer kd 1 (updates [(10, src ops_a); (20, src ops_b)] start) c0 = Some c1 /\ shows kd c1 = shows kd (src ops_b) /\
  shows kd c0 <> shows kd (src ops_b).
Proof. intros []; vm_compute; eexists; eexists; (split; [reflexivity|split; [reflexivity|split; [reflexivity|discriminate]]]). Qed.

(* ---- what does not hold ---- *)

(* A negative zero does not replace a zero. *)
Theorem C79_zero_refuted : exists s t, ordered (whole s) /\ ordered (whole t) /\
  values (fun v => settable v /\ v <> VNone) (whole s) /\ values exact (whole t) /\
  reported s t = false /\ whole (updated s t) <> whole s.
Proof.
  exists (src [OSet [] fx (VDouble (2^63))]), (updates [(10, src [OSet [] fx (VDouble 0)])] start).
  split; [vm_compute; repeat constructor|]. split; [vm_compute; repeat constructor|].
  split; [repeat constructor; discriminate|]. split; [repeat constructor; discriminate|].
  split; [vm_compute; reflexivity|vm_compute; discriminate].
Qed.
Print Assumptions C79_zero_refuted.

(* The same array of strings, or the same value which is not a number, counts as a change
   with each update. *)
Theorem C79_repeat_refuted : forall v, v = VArrStr [[97]] \/ v = VDouble 9221120237041090560 ->
  let s := src [OSet [] fx v] in
  built SFull s /\ whole (updates [(10, s)] start) = whole s /\
  version (updates [(10, s); (20, s)] start) = version (updates [(10, s)] start) + 1.
Proof.
  intros v [-> | ->]; cbv zeta; (split; [apply src_built; repeat constructor; try discriminate; cbn; unfold word, cchar; lia|vm_compute; auto]).
Qed.
Print Assumptions C79_repeat_refuted.

(* The update takes new items out of the source, which no longer shows what it showed; see
   plugins/root/src/Monitor.cxx:286-294, where the source is sent as list of names after it
   was used for an update. *)
Theorem C79_source_refuted : exists s, built SFull s /\ whole (updated s start) = whole s /\
  t_kids (whole s) <> [] /\ t_kids (whole (left_in s start)) = [].
Proof.
  exists (src ops_a). split; [apply src_built; unfold ops_a; edits|]. vm_compute. repeat split. discriminate.
Qed.
Print Assumptions C79_source_refuted.

(* A reader two updates behind: B disappears and comes back in front of A, the reader drops A
   when it looks for B, and the fields of A, which did not change, are not sent again. *)
Theorem C79_lagging_refuted : exists s0 s1 s2 c0 c1, built SFull s0 /\ built SFull s1 /\ built SFull s2 /\
  let m0 := updates [(10, s0)] start in
  let m2 := updates [(10, s0); (20, s1); (30, s2)] start in
  transfer SFull 0 m0 start = Some c0 /\ shows SFull c0 = shows SFull m0 /\
  transfer SFull (version m0 + 1) m2 c0 = Some c1 /\
  tat [nA] (shows SFull c1) = Some (T [] []) /\ tat [nA] (shows SFull m2) = Some (T [(fx, VUInt 1)] []).
Proof.
  exists (src [OCreate [nA] false; OSet [nA] fx (VUInt 1); OCreate [nB] false]),
    (src [OCreate [nA] false; OSet [nA] fx (VUInt 1)]),
    (src [OCreate [nB] false; OCreate [nA] false; OSet [nA] fx (VUInt 1)]). eexists. eexists.
  split; [apply src_built; edits|]. split; [apply src_built; edits|]. split; [apply src_built; edits|]. cbv zeta.
  split; [vm_compute; reflexivity|]. split; [vm_compute; reflexivity|]. split; [vm_compute; reflexivity|]. vm_compute. auto.
Qed.
Print Assumptions C79_lagging_refuted.

(* Transfer of names: a field with an underscore which is gone from the source stays in the
   copy. *)
Theorem C79_names_removed_refuted : exists s0 s1 s2 c0 c1, built SNames s0 /\ built SNames s1 /\ built SNames s2 /\
  let m0 := updates [(10, s0); (20, s1)] start in
  let m1 := updates [(10, s0); (20, s1); (30, s2)] start in
  transfer SNames 0 m0 start = Some c0 /\ transfer SNames (version m0) m1 c0 = Some c1 /\
  tat [nA] (shows SNames c1) = Some (T [(f_x, VUInt 1)] []) /\ tat [nA] (shows SNames s2) = Some (T [] []).
Proof.
  exists (src [OCreate [nA] false; OSet [nA] f_x (VUInt 1)]),
    (src [OCreate [nA] false; OSet [nA] f_x (VUInt 1); OSet [] fx (VUInt 1)]),
    (src [OCreate [nA] false; OSet [] fx (VUInt 1)]). eexists. eexists.
  split; [apply src_built; edits|]. split; [apply src_built; edits|]. split; [apply src_built; edits|]. cbv zeta.
  split; [vm_compute; reflexivity|]. split; [vm_compute; reflexivity|]. vm_compute. auto.
Qed.
Print Assumptions C79_names_removed_refuted.

(* An item created in the target itself and not yet marked: the update forgets it, no reader
   is told. *)
Theorem C79_pending_refuted : exists s c0 c1, built SFull s /\
  let m0 := updates [(10, src [OSet [] fx (VUInt 1)]); (20, src [OSet [] fx (VUInt 2)])] start in
  let m1 := hupdate 30 s (hstep m0 (OCreate [nA] false)) in
  transfer SFull 0 m0 start = Some c0 /\ whole m1 = whole s /\ transfer SFull (version m0 + 1) m1 c0 = Some c1 /\
  tat [nA] (shows SFull c1) = None /\ tat [nA] (shows SFull m1) = Some (T [] []).
Proof.
  exists (src [OSet [] fx (VUInt 2); OCreate [nA] false]). eexists. eexists. split; [apply src_built; edits|]. cbv zeta.
  split; [vm_compute; reflexivity|]. split; [vm_compute; reflexivity|]. split; [vm_compute; reflexivity|]. vm_compute. auto.
Qed.
Print Assumptions C79_pending_refuted.
