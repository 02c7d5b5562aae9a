(* Theorems about hierarchies (C23, C24, C25). *)
From Verif Require Import Common ListFacts Bytes RecordSpec RecordModel RecordMap RecordOut RecordIn RecordProps HierSpec HierModel HierProofs HierInv HierStream HierSync HierHist.
Local Open Scope N_scope.

(* What a reader of the item sees of it with one kind of transfer *)
Fixpoint shows (kd : skind) (n : hnode) : tree :=
  match n with
  | HN _ d l => T (filter (fun e => carried kd (fst e)) (vals (d_map d))) (map (fun c => (nm c, shows kd c)) l)
  end.
(* all fields of all items *)
Fixpoint whole (n : hnode) : tree :=
  match n with HN _ d l => T (vals (d_map d)) (map (fun c => (nm c, whole c)) l) end.
(* the item at a path of names *)
Fixpoint node_at (path : list bytes) (n : hnode) : option hnode :=
  match path with
  | [] => Some n
  | k :: p => match find (fun c => beqb k (nm c)) (kids n) with Some x => node_at p x | None => None end
  end.
Definition version (n : hnode) : N := d_nv (dat n).

(* Edits covered: values which can be stored; for the transfer of names no field with an
   underscore is removed, items are marked from the top and no history is switched off or
   inherited (see the refuted statements below) *)
Definition allowed (kd : skind) (o : hop) : Prop :=
  match o with
  | OSet _ _ v => storable v
  | OHistory _ len w => word len /\ (kd = SNames -> 0 < len /\ w = false)
  | ODel _ k => kd = SNames -> named k = false
  | OMark p _ _ => kd = SNames -> p = []
  | _ => True
  end.

(* no item which the copy [o] knows is created again after it was removed *)
Fixpoint no_reuse (o : tree) (n : hnode) (ops : list hop) : Prop :=
  match ops with
  | [] => True
  | op :: r =>
    match op with
    | OCreate p _ => forall q, starts q p -> ~ is_item q (whole n) -> ~ is_item q o
    | _ => True
    end /\ no_reuse o (hstep n op) r
  end.

(* ---- connection to the proofs ---- *)
Lemma shows_view kd n : shows kd n = view (carried kd) n.
Proof.
  induction n as [k d l IH] using hnode_ind2. cbn [shows view]. unfold sel. f_equal. apply map_ext_in. intros c Hc.
  rewrite Forall_forall in IH. f_equal. auto.
Qed.
Lemma whole_view n : whole n = view (fun _ => true) n.
Proof.
  induction n as [k d l IH] using hnode_ind2. cbn [whole view]. unfold sel. rewrite filter_all by auto. f_equal. apply map_ext_in. intros c Hc.
  rewrite Forall_forall in IH. f_equal. auto.
Qed.
Lemma allowed_valid kd o : allowed kd o -> valid_op (by_names kd) (carried kd) o.
Proof. destruct o; cbn; auto; destruct kd; cbn; intuition discriminate. Qed.
Lemma allowed_full o : allowed SFull o -> valid_op false (fun _ => true) o.
Proof. destruct o; cbn; auto; intuition discriminate. Qed.

Lemma find_kid_tfind P k l : match find_kid k l with
  | Some (_, x, _) => tfind k (map (fun c => (nm c, view P c)) l) = Some (view P x)
  | None => tfind k (map (fun c => (nm c, view P c)) l) = None end.
Proof.
  induction l as [|c l IH]; cbn [find_kid map tfind]; auto. destruct (beqb k (nm c)); auto.
  destruct (find_kid k l) as [((a, x), b)|]; auto.
Qed.
Lemma fresh_none p : forall n, fresh p None n.
Proof. induction p as [|k p IH]; intros n; cbn; auto. destruct (find_kid k (kids n)) as [((a, x), b)|]; auto. Qed.
Lemma fresh_of p : forall o n, (forall q, starts q p -> ~ is_item q (whole n) -> ~ is_item q o) -> fresh p (Some o) n.
Proof.
  induction p as [|k p IH]; intros o n H; cbn [fresh]; auto. destruct n as [name d l]. cbn [kids ok].
  pose proof (find_kid_tfind (fun _ => true) k l) as F.
  destruct (find_kid k l) as [((a, x), b)|].
  - destruct (tfind k (t_kids o)) as [t|] eqn:E; [|apply fresh_none]. apply IH. intros q (c & Q) N1 N2.
    apply (H (k :: q)).
    + exists c. cbn. congruence.
    + unfold is_item. rewrite whole_view. cbn [tat view t_kids]. rewrite F. rewrite <- whole_view. exact N1.
    + unfold is_item. cbn [tat]. rewrite E. exact N2.
  - destruct (tfind k (t_kids o)) as [t|] eqn:E; auto. exfalso. apply (H [k]).
    + exists p. reflexivity.
    + unfold is_item. rewrite whole_view. cbn [tat view t_kids]. rewrite F. auto.
    + unfold is_item. cbn [tat]. rewrite E. discriminate.
Qed.
Lemma no_reuse_fresh o ops : forall n, no_reuse o n ops -> fresh_ops (Some o) n ops.
Proof.
  induction ops as [|op ops IH]; intros n H; cbn [fresh_ops no_reuse] in *; auto. destruct H as (H1 & H2). split; auto.
  destruct op; cbn [fresh_op]; auto. apply fresh_of. auto.
Qed.
Lemma item_view P : forall q n, is_item q (view P n) <-> is_item q (whole n).
Proof.
  induction q as [|k q IH]; intros [name d l]; unfold is_item in *; cbn [tat]; [cbn; split; discriminate|].
  rewrite whole_view. cbn [view t_kids]. pose proof (find_kid_tfind P k l) as F1. pose proof (find_kid_tfind (fun _ => true) k l) as F2.
  destruct (find_kid k l) as [((a, x), b)|]; rewrite F1, F2; [rewrite <- whole_view; apply IH|tauto].
Qed.
Lemma no_reuse_view P m0 ops : forall n, no_reuse (whole m0) n ops -> no_reuse (view P m0) n ops.
Proof.
  induction ops as [|op ops IH]; intros n H; cbn [no_reuse] in *; auto. destruct H as (H1 & H2). split; auto.
  destruct op; auto. intros q Q1 Q2. rewrite item_view. auto.
Qed.
Lemma valid_all kd ops : Forall (allowed kd) ops -> Forall (valid_op (by_names kd) (carried kd)) ops.
Proof. apply Forall_impl. apply allowed_valid. Qed.

(* ---- C23 ---- *)

(* The copy showed what the master showed at some earlier moment (m0), and asks for what
   changed since the version the master had then.  After any edits, a mark of all items, and
   the transfer, it shows what the master shows.  Full statement: without no_reuse, allowed;
   refuted below. *)
Theorem C23_sync_partial : forall kd top ops1 ops2 now tm V copy now' tail,
  let m0 := hrun ops1 (new_item top) in
  let m1 := hrun (ops2 ++ [OMark [] now tm]) m0 in
  Forall (allowed kd) (ops1 ++ ops2) -> no_reuse (whole m0) m0 ops2 ->
  plain copy -> shows kd copy = shows kd m0 -> V <= version m0 + 1 ->
  sendable (shows kd m1) -> tree_len (shows kd m1) < 2^32 ->
  exists b copy', save_hier kd V m1 = Some b /\
    update_from tail b now' copy = Some (Done (copy', true)) /\
    shows kd copy' = shows kd m1 /\ plain copy'.
Proof.
  intros kd top ops1 ops2 now tm V copy now' tail m0 m1 HA HR HC HS HV S1 S2.
  apply Forall_app in HA. destruct HA as (HA1 & HA2). apply valid_all in HA1, HA2. rewrite !shows_view in *.
  pose proof (carried_under kd) as HP.
  destruct (hrun_ok (by_names kd) (carried kd) HP ops1 (new_item top) HA1 (new_wfn _ _ HP top)) as (W0 & _). fold m0 in W0.
  destruct (hrun_ok (by_names kd) (carried kd) HP ops2 m0 HA2 W0) as (W1 & L1 & I1).
  assert (E1 : m1 = mark_changed now tm [] (hrun ops2 m0)). { unfold m1. rewrite hrun_app. reflexivity. }
  assert (NR : fresh_ops (Some (view (carried kd) m0)) m0 ops2).
  { apply no_reuse_fresh. apply no_reuse_view. auto. }
  assert (I2 : Inv (by_names kd) (carried kd) (d_nv (dat m0)) (Some (view (carried kd) m0)) m1).
  { assert (I0 := I1 (d_nv (dat m0)) (Some (view (carried kd) m0)) (N.le_refl _) NR (Inv_init _ _ _ _ W0)).
    rewrite E1. destruct (hstep_ok (by_names kd) (carried kd) HP (hrun ops2 m0) (OMark [] now tm)) as (_ & _ & X); cbn; auto. apply X; cbn; auto. }
  assert (W2 : wfn (by_names kd) m1).
  { rewrite E1. destruct (hstep_ok (by_names kd) (carried kd) HP (hrun ops2 m0) (OMark [] now tm)) as (X & _); cbn; auto. }
  assert (C1 : clean m1). { rewrite E1. eapply mark_clean; eauto. }
  assert (R : rel kd V m1 copy).
  { eapply rel_of_Inv; eauto.
    - intros t [= <-]. eapply view_nodup; eauto.
    - cbn [of ok]. rewrite HS. destruct (view (carried kd) m0); reflexivity. }
  destruct (update_ok kd V m1 copy now' tail R HC W2 S1 S2) as (c' & U1 & U2 & U3 & U4).
  exists (hbytes kd V m1), c'. rewrite shows_view. auto.
Qed.
Print Assumptions C23_sync_partial.

(* The first transfer (version 0) makes any copy, whatever it held, equal to the master. *)
Theorem C23_first_partial : forall kd top ops copy now tail,
  let m := hrun ops (new_item top) in
  Forall (allowed kd) ops -> plain copy -> sendable (shows kd m) -> tree_len (shows kd m) < 2^32 ->
  exists b copy', save_hier kd 0 m = Some b /\
    update_from tail b now copy = Some (Done (copy', true)) /\
    shows kd copy' = shows kd m /\ plain copy'.
Proof.
  intros kd top ops copy now tail m HA HC S1 S2. apply valid_all in HA. rewrite shows_view in *.
  pose proof (carried_under kd) as HP.
  destruct (hrun_ok (by_names kd) (carried kd) HP ops (new_item top) HA (new_wfn _ _ HP top)) as (W0 & _). fold m in W0.
  destruct (update_ok kd 0 m copy now tail (rel_zero kd 0 m eq_refl copy) HC W0 S1 S2) as (c' & U1 & U2 & U3 & U4).
  exists (hbytes kd 0 m), c'. rewrite shows_view. auto.
Qed.
Print Assumptions C23_first_partial.

(* ---- C24 ---- *)
Definition changed (before : option tree) (x : hnode) : Prop :=
  match before with
  | Some t => vals (d_map (dat x)) <> t_fields t \/ map nm (kids x) <> map fst (t_kids t)
  | None => vals (d_map (dat x)) <> [] \/ kids x <> []
  end.

Lemma find_of_kid k l : find (fun c => beqb k (nm c)) l = match find_kid k l with Some (_, x, _) => Some x | None => None end.
Proof.
  induction l as [|c l IH]; cbn [find find_kid]; auto. destruct (beqb k (nm c)); auto. rewrite IH.
  destruct (find_kid k l) as [((a, x), b)|]; auto.
Qed.
Lemma node_step k p name d l : node_at (k :: p) (HN name d l) = match find_kid k l with Some (_, x, _) => node_at p x | None => None end.
Proof. cbn [node_at kids]. rewrite find_of_kid. destruct (find_kid k l) as [((a, x), b)|]; auto. Qed.
Lemma node_app q : forall p n, node_at (q ++ p) n = match node_at q n with Some y => node_at p y | None => None end.
Proof.
  induction q as [|k q IH]; intros p n; auto. cbn [app node_at]. destruct (find _ (kids n)); auto.
Qed.
Lemma kid_in k l a x b : find_kid k l = Some (a, x, b) -> In x l /\ nm x = k.
Proof. intros H. pose proof (find_kid_split k l) as F. rewrite H in F. destruct F as (H1 & H2 & _). split; auto. rewrite H1. apply in_or_app. right. left. auto. Qed.

Definition oat (p : list bytes) (oo : option tree) : option tree := match oo with Some t => tat p t | None => None end.
Lemma node_facts v p : forall n oo x, wfn false n -> Inv false (fun _ => true) v oo n -> node_at p n = Some x ->
  wfn false x /\ Inv false (fun _ => true) v (oat p oo) x /\ version x <= version n.
Proof.
  induction p as [|k p IH]; intros [name d l] oo x W I0 H.
  - cbn in H. injection H as <-. split; auto. split; [|lia]. destruct oo; auto.
  - rewrite node_step in H. destruct (find_kid k l) as [((a, y), b)|] eqn:E; [|discriminate].
    destruct (kid_in _ _ _ _ _ E) as (Y1 & Y2). destruct (wfn_inv _ _ _ _ W) as (H1 & H2 & H3 & H4 & H5 & H6 & H7 & H8).
    destruct (Inv_inv _ _ _ _ _ _ _ I0) as (J1 & J2 & J3 & J4). rewrite Forall_forall in *.
    destruct (IH y _ x (H8 _ Y1) (J4 _ Y1) H) as (A1 & A2 & A3). split; auto. split.
    + rewrite Y2 in A2. destruct oo as [t|]; cbn [oat ok tat] in *; auto. 
    + destruct (H7 _ Y1) as (G & _). unfold version in *. cbn [dat]. lia.
Qed.
Lemma node_clean p : forall n x, clean n -> node_at p n = Some x -> clean x.
Proof.
  induction p as [|k p IH]; intros [name d l] x C H.
  - cbn in H. congruence.
  - rewrite node_step in H. destruct (find_kid k l) as [((a, y), b)|] eqn:E; [|discriminate].
    destruct (kid_in _ _ _ _ _ E) as (Y1 & Y2). inversion C; subst. rewrite Forall_forall in *. eauto.
Qed.
Lemma mark_at_clean ver now p : forall n inh tm x, wfn false n -> d_nv (dat n) < ver ->
  node_at p (fst (fst (mark_at ver now inh tm p n))) = Some x -> clean x.
Proof.
  assert (HP : false = true -> forall k : bytes, (fun _ : bytes => true) k = prefixb under k) by discriminate.
  induction p as [|k p IH]; intros [name d l] inh tm x W L H.
  - destruct (mark_at ver now inh tm [] (HN name d l)) as ((n', m), tm') eqn:E. cbn [node_at fst] in H. injection H as <-.
    destruct (mark_at_ok false (fun _ => true) HP ver (d_nv d) now [] L _ _ _ _ _ _ ltac:(auto) ltac:(discriminate) W ltac:(cbn [dat] in *; lia) E) as (_ & C). cbn [fst]. auto.
  - cbn [mark_at] in H. destruct (find_kid k l) as [((a, y), b)|] eqn:E.
    2:{ cbn [fst] in H. rewrite node_step, E in H. discriminate. }
    destruct (kid_in _ _ _ _ _ E) as (Y1 & Y2). destruct (wfn_inv _ _ _ _ W) as (H1 & H2 & H3 & H4 & H5 & H6 & H7 & H8).
    rewrite Forall_forall in *. destruct (H7 _ Y1) as (G & _). cbn [dat] in L.
    specialize (IH y (inherit d inh) tm x (H8 _ Y1) ltac:(lia)).
    destruct (mark_at ver now (inherit d inh) tm p y) as ((y', m), tm1) eqn:EM. cbn [fst] in *.
    assert (NY : nm y' = k).
    { destruct (mark_at_ok false (fun _ => true) HP ver (d_nv d) now p L _ _ _ _ _ _ ltac:(discriminate) ltac:(discriminate) (H8 _ Y1) ltac:(lia) EM) as ((M1 & _) & _). congruence. }
    pose proof (find_kid_split k l) as F. rewrite E in F. destruct F as (E1 & _ & E2).
    assert (FK : find_kid k (a ++ y' :: b) = Some (a, y', b)) by (apply find_kid_app; auto).
    destruct (any m).
    + destruct (mark_own _ _ _ _ _ _) as ((d2, m2), tm2). cbn [fst] in H. rewrite node_step, FK in H. auto.
    + cbn [fst] in H. rewrite node_step, FK in H. auto.
Qed.

(* The version of a hierarchy never decreases. *)
Theorem C24_versions_grow : forall top ops1 ops2, Forall (allowed SFull) (ops1 ++ ops2) ->
  version (hrun ops1 (new_item top)) <= version (hrun (ops1 ++ ops2) (new_item top)).
Proof.
  intros top ops1 ops2 HA. apply Forall_app in HA. destruct HA as (HA1 & HA2).
  assert (HP : false = true -> forall k : bytes, (fun _ : bytes => true) k = prefixb under k) by discriminate.
  assert (V1 := Forall_impl _ allowed_full HA1). assert (V2 := Forall_impl _ allowed_full HA2).
  destruct (hrun_ok false (fun _ => true) HP ops1 (new_item top) V1 (new_wfn _ _ HP top)) as (W0 & _).
  destruct (hrun_ok false (fun _ => true) HP ops2 _ V2 W0) as (_ & L & _). rewrite hrun_app. exact L.
Qed.
Print Assumptions C24_versions_grow.

(* After MarkChangedItems of the item at p0, every item at or below p0 whose fields or
   sub-items are not those it had in the earlier state m0, and every item above it, has a
   version newer than the one the hierarchy had then.  Full statement: without no_reuse;
   refuted below. *)
Theorem C24_marked_partial : forall top ops1 ops2 p0 now tm p x q y,
  let m0 := hrun ops1 (new_item top) in
  let m1 := hrun (ops2 ++ [OMark p0 now tm]) m0 in
  Forall (allowed SFull) (ops1 ++ ops2) -> no_reuse (whole m0) m0 ops2 ->
  starts p0 p -> node_at p m1 = Some x -> changed (tat p (whole m0)) x ->
  starts q p -> node_at q m1 = Some y ->
  version m0 < version y.
Proof.
  intros top ops1 ops2 p0 now tm p x q y m0 m1 HA HR SP NX CX SQ NY.
  apply Forall_app in HA. destruct HA as (HA1 & HA2).
  assert (HP : false = true -> forall k : bytes, (fun _ : bytes => true) k = prefixb under k) by discriminate.
  assert (V1 := Forall_impl _ allowed_full HA1). assert (V2 := Forall_impl _ allowed_full HA2).
  destruct (hrun_ok false (fun _ => true) HP ops1 (new_item top) V1 (new_wfn _ _ HP top)) as (W0 & _). fold m0 in W0.
  destruct (hrun_ok false (fun _ => true) HP ops2 m0 V2 W0) as (W1 & L1 & I1).
  assert (E1 : m1 = mark_changed now tm p0 (hrun ops2 m0)). { unfold m1. rewrite hrun_app. reflexivity. }
  assert (NR : fresh_ops (Some (view (fun _ => true) m0)) m0 ops2).
  { apply no_reuse_fresh. apply no_reuse_view. auto. }
  assert (I0 := I1 (d_nv (dat m0)) (Some (view (fun _ => true) m0)) (N.le_refl _) NR (Inv_init _ _ _ _ W0)).
  destruct (hstep_ok false (fun _ => true) HP (hrun ops2 m0) (OMark p0 now tm)) as (W2 & L2 & I2); [cbn; discriminate|auto|].
  assert (I3 : Inv false (fun _ => true) (d_nv (dat m0)) (Some (view (fun _ => true) m0)) m1).
  { rewrite E1. apply I2; cbn; auto. }
  assert (W3 : wfn false m1). { rewrite E1. exact W2. }
  assert (VX : version m0 < version x).
  { destruct (node_facts _ _ _ _ _ W3 I3 NX) as (X1 & X2 & X3). cbn [oat] in X2. rewrite <- whole_view in X2.
    assert (CL : clean x).
    { destruct SP as (c & ->). rewrite node_app in NX. destruct (node_at p0 m1) as [z|] eqn:NZ; [|discriminate].
      eapply node_clean; [|exact NX]. rewrite E1 in NZ. unfold mark_changed in NZ. eapply mark_at_clean; [| |exact NZ]; auto.
      unfold next_version. lia. }
    destruct x as [kx dx lx]. unfold version in *. cbn [dat] in *. inversion CL; subst.
    destruct (N.lt_ge_cases (d_nv (dat m0)) (d_nv dx)) as [|LE]; auto. exfalso.
    destruct (wfn_inv _ _ _ _ X1) as (_ & _ & Q3 & _).
    assert (F1 := quiet_fields false (fun _ => true) HP _ _ _ _ _ X2 ltac:(auto) ltac:(cbn; lia)).
    assert (F2 := quiet_names false (fun _ => true) HP _ _ _ _ _ X2 ltac:(auto) ltac:(cbn; lia)).
    unfold sel in F1. rewrite filter_all in F1 by auto. unfold changed in CX. cbn [dat kids] in CX.
    destruct (tat p (whole m0)) as [t|]; cbn [of ok] in *; [tauto|]. destruct lx; [tauto|discriminate]. }
  destruct SQ as (c & ->). rewrite node_app, NY in NX.
  destruct (node_facts _ _ _ _ _ W3 I3 NY) as (Y1 & Y2 & _). destruct (node_facts _ _ _ _ _ Y1 Y2 NX) as (_ & _ & Y3). lia.
Qed.
Print Assumptions C24_marked_partial.

(* ---- C25 ---- *)

(* An item without sub-items; the history of depth n is enabled after any edits [ops0]; then
   edits and marks follow, the last one a mark.  [states] are the fields at each version.
   When there are more than n of them, reading the history gives the newest n + 1 of them, the
   present one first.  (A double zero may change its sign.)  Full statement: for any number of
   states; refuted below. *)
Theorem C25_history_partial : forall top ops0 n ops now tm,
  let s := hrun (ops0 ++ [OHistory [] n false]) (new_item top) in
  let m := hrun (ops ++ [OMark [] now tm]) s in
  let st := states s (ops ++ [OMark [] now tm]) in
  0 < n -> word n -> Forall item_op (ops0 ++ ops) -> word now -> word tm -> n < lenN st ->
  exists l, read_all (S (S (N.to_nat n))) (dat m) 0 [] = Ok l /\ Forall2 like l (newest (n + 1) st).
Proof.
  intros top ops0 n ops now tm s m st NP WN HF W1 W2 LT. apply Forall_app in HF. destruct HF as (HF0 & HF).
  destruct (bare_run top ops0 hd0 HF0) as (d0 & E0 & B0).
  { split; [|split; auto]. split; [exact I|]. split; [reflexivity|]. intros k f Q. discriminate. }
  destruct (enable_hinv n top d0 NP WN B0) as (d1 & E1 & HI1).
  assert (ES : s = HN top d1 []). { unfold s. rewrite hrun_app. change (new_item top) with (HN top hd0 []). rewrite E0. exact E1. }
  assert (HF' : Forall item_op (ops ++ [OMark [] now tm])). { apply Forall_app. split; auto. constructor; cbn; auto. }
  destruct (hist_run n top NP _ d1 [] HF' HI1) as (d2 & E2 & HI2).
  rewrite <- ES in *. fold st in HI2. fold m in E2. cbn [app] in HI2. rewrite E2. cbn [dat].
  apply read_all_ok; auto.
  (* nothing is pending after a mark *)
  unfold m in E2. rewrite hrun_app in E2. destruct (hist_run n top NP ops d1 [] HF HI1) as (d3 & E3 & HI3). rewrite <- ES in E3. rewrite E3 in E2.
  unfold hrun in E2. cbn [fold_left hstep] in E2. rewrite mark_single in E2. injection E2 as <-.
  destruct (hinv_mark n (d_nv d3 + 1) now tm d3 _ HI3 NP W1 W2) as [(WC & E)|(WC & _)].
  - rewrite E. auto.
  - unfold mark_own. rewrite WC. rewrite !orb_true_r.
    destruct (check_history _ _) as (d5, doing). cbn [fst]. unfold was_changed. cbn [d_fch with_flags with_map d_map orb].
    set (mm := d_map _). clearbody mm. clear. induction mm; auto.
Qed.
Print Assumptions C25_history_partial.

(* As long as the ring has free places, reading the history ends with a null pointer
   dereference. *)
Theorem C25_short_refuted : forall top ops0 n ops,
  let s := hrun (ops0 ++ [OHistory [] n false]) (new_item top) in
  let m := hrun ops s in
  0 < n -> word n -> Forall item_op (ops0 ++ ops) -> lenN (states s ops) <= n ->
  forall fuel, read_all (S (S fuel)) (dat m) 0 [] = UB.
Proof.
  intros top ops0 n ops s m NP WN HF LT fuel. apply Forall_app in HF. destruct HF as (HF0 & HF).
  destruct (bare_run top ops0 hd0 HF0) as (d0 & E0 & B0).
  { split; [|split; auto]. split; [exact I|]. split; [reflexivity|]. intros k f Q. discriminate. }
  destruct (enable_hinv n top d0 NP WN B0) as (d1 & E1 & HI1).
  assert (ES : s = HN top d1 []). { unfold s. rewrite hrun_app. change (new_item top) with (HN top hd0 []). rewrite E0. exact E1. }
  destruct (hist_run n top NP _ d1 [] HF HI1) as (d2 & E2 & HI2).
  rewrite <- ES in *. fold m in E2. cbn [app] in HI2. rewrite E2. cbn [dat].
  destruct HI2 as [_ _ _ (h & H1 & H2 & H3 & H4 & H5 & _)]. apply (read_all_short _ h); auto. rewrite H3, H5. lia.
Qed.
Print Assumptions C25_short_refuted.

(* ---- concrete cases and refuted statements ---- *)
(* transfer of the difference to version V from m to the copy c *)
Definition transfer (kd : skind) (V : N) (m c : hnode) : option hnode :=
  match save_hier kd V m with
  | Some b => match update_from [] b 7 c with Some (Done (c', true)) => Some c' | _ => None end
  | None => None
  end.

(* names: A, B, C; fields x and _x *)
Definition nA : bytes := [65].
Definition nB : bytes := [66].
Definition nC : bytes := [67].
Definition fx : bytes := [120].
Definition f_x : bytes := [95; 120].
Definition build : list hop :=
  [OCreate [nA] false; OCreate [nB; nC] false; OSet [nA] fx (VUInt 1); OSet [nB] f_x (VInt 5); OSet [nB; nC] fx (VStr [104; 105]); OMark [] 10 0].
Definition edits : list hop :=
  [ORemove [nA]; OSet [nB; nC] fx (VUInt 9); OCreate [nB; nA] true; OSet [nB] f_x (VInt 6); ODel [nB; nC] [121]; OMark [nB] 20 0; OCreate [[68]] false; OSet [] fx (VBool 1)].
Definition start : hnode := new_item [116].

(* no_reuse, allowed and sendable by computation *)
Definition itemb (q : list bytes) (t : tree) : bool := match tat q t with Some _ => true | None => false end.
Fixpoint no_reuseb (o : tree) (n : hnode) (ops : list hop) : bool :=
  match ops with
  | [] => true
  | op :: r =>
    match op with
    | OCreate p _ => forallb (fun i => itemb (firstn i p) (whole n) || negb (itemb (firstn i p) o)) (seq 0 (S (length p)))
    | _ => true
    end && no_reuseb o (hstep n op) r
  end.
Lemma no_reuseb_ok o ops : forall n, no_reuseb o n ops = true -> no_reuse o n ops.
Proof.
  induction ops as [|op ops IH]; intros n H; cbn [no_reuse no_reuseb] in *; auto. apply andb_true_iff in H. destruct H as (H1 & H2). split; auto.
  destruct op; auto. intros q (c & E) N1 N2. rewrite forallb_forall in H1. specialize (H1 (length q)).
  rewrite E, firstn_app, firstn_all, Nat.sub_diag, firstn_O, app_nil_r in H1. unfold itemb, is_item in *.
  destruct (tat q (whole n)); [apply N1; discriminate|]. destruct (tat q o); [|auto].
  cbn [orb negb] in H1. rewrite app_length in H1. assert (X : false = true); [apply H1|discriminate]. apply in_seq. lia.
Qed.
Ltac allow := repeat (apply Forall_cons || apply Forall_nil); cbn [allowed item_op]; unfold storable, settable, cstring, word, isbyte;
  repeat split; cbn; unfold cstring, word, isbyte; intros; try discriminate; try lia; auto;
  repeat (apply Forall_cons || apply Forall_nil); unfold cchar; lia.
Ltac send := repeat (apply sendable_intro || apply Forall_cons || apply Forall_nil); cbn;
  repeat split; cbn; unfold cstring, word, isbyte; try (vm_compute; reflexivity); try lia; repeat (apply Forall_cons || apply Forall_nil); unfold cchar; lia.

Example C23_sync_case :
  let m0 := hrun build start in
  let m1 := hrun (edits ++ [OMark [] 30 0]) m0 in
  Forall (allowed SFull) (build ++ edits) /\ no_reuse (whole m0) m0 edits /\ sendable (shows SFull m1) /\ tree_len (shows SFull m1) < 2^32 /\
  shows SFull m0 <> shows SFull m1 /\
  match transfer SFull 0 m0 start with
  | Some c0 => shows SFull c0 = shows SFull m0 /\ plain c0 /\
    match transfer SFull (version m0 + 1) m1 c0 with Some c1 => shows SFull c1 = shows SFull m1 | None => False end
  | None => False
  end.
Proof.
  cbv zeta. split.
  { unfold build, edits. cbn [app]. allow. }
  split. { apply no_reuseb_ok. vm_compute. reflexivity. }
  split. { vm_compute shows. send. }
  split. { vm_compute. reflexivity. }
  split. { vm_compute. discriminate. }
  vm_compute. split; [reflexivity|]. split; [|reflexivity]. repeat constructor.
Qed.

Example C23_sync_names_case :
  let e := [OSet [nB] f_x (VInt 6); OSet [nB; nC] fx (VUInt 9); ORemove [nA]; OCreate [nB; nA] true] in
  let m0 := hrun build start in
  let m1 := hrun (e ++ [OMark [] 30 0]) m0 in
  Forall (allowed SNames) (build ++ e) /\ no_reuse (whole m0) m0 e /\ sendable (shows SNames m1) /\ tree_len (shows SNames m1) < 2^32 /\
  shows SNames m0 <> shows SNames m1 /\
  match transfer SNames 0 m0 start with
  | Some c0 => shows SNames c0 = shows SNames m0 /\ plain c0 /\
    match transfer SNames (version m0 + 1) m1 c0 with Some c1 => shows SNames c1 = shows SNames m1 | None => False end
  | None => False
  end.
Proof.
  cbv zeta. split.
  { unfold build. cbn [app]. allow. }
  split. { apply no_reuseb_ok. vm_compute. reflexivity. }
  split. { vm_compute shows. send. }
  split. { vm_compute. reflexivity. }
  split. { vm_compute. discriminate. }
  vm_compute. split; [reflexivity|]. split; [|reflexivity]. repeat constructor.
Qed.

(* What goes wrong: the copy equals the master, asks for what changed since (also with the
   changes of the last version sent again), and differs afterwards *)
Definition out_of_sync (kd : skind) (ops1 ops2 : list hop) : Prop :=
  let m0 := hrun ops1 start in
  let m1 := hrun ops2 m0 in
  exists c0 c1, transfer kd 0 m0 start = Some c0 /\ shows kd c0 = shows kd m0 /\
    transfer kd (version m0) m1 c0 = Some c1 /\ shows kd c1 <> shows kd m1.
Ltac differ := unfold out_of_sync; cbv zeta; eexists; eexists; split; [vm_compute; reflexivity|]; split; [vm_compute; reflexivity|];
  split; [vm_compute; reflexivity|]; vm_compute; discriminate.

(* An item removed and created again without fields between two marks: the copy keeps the
   fields of the old item. *)
Theorem C23_recreated_refuted : exists ops1 ops2,
  Forall (allowed SFull) (ops1 ++ ops2 ++ [OMark [] 30 0]) /\ out_of_sync SFull ops1 (ops2 ++ [OMark [] 30 0]).
Proof.
  exists [OCreate [nA] false; OSet [nA] fx (VUInt 1); OMark [] 10 0], [ORemove [nA]; OCreate [nA] false].
  split; [cbn [app]; allow|differ].
Qed.
Print Assumptions C23_recreated_refuted.

(* An item removed and created again at an earlier place: an item which was not touched loses
   its fields in the copy. *)
Theorem C23_moved_refuted : exists ops1 ops2,
  Forall (allowed SFull) (ops1 ++ ops2 ++ [OMark [] 30 0]) /\
  (forall o, In o ops2 -> match o with OSet (k :: _) _ _ | OCreate (k :: _) _ | ORemove (k :: _) => k = nA | _ => False end) /\
  let m0 := hrun ops1 start in
  let m1 := hrun (ops2 ++ [OMark [] 30 0]) m0 in
  exists c0 c1, transfer SFull 0 m0 start = Some c0 /\ shows SFull c0 = shows SFull m0 /\
    transfer SFull (version m0) m1 c0 = Some c1 /\
    tat [nA] (shows SFull c1) = tat [nA] (shows SFull m1) /\
    tat [nB] (shows SFull c1) = Some (T [] []) /\ tat [nB] (shows SFull m1) = Some (T [(fx, VUInt 1)] []).
Proof.
  exists [OCreate [nB] false; OCreate [nA] false; OSet [nB] fx (VUInt 1); OMark [] 10 0; OSet [nA] fx (VUInt 1); OMark [] 20 0], [ORemove [nA]; OCreate [nA] true; OSet [nA] fx (VUInt 2)].
  split; [cbn [app]; allow|]. split.
  - intros o [<-|[<-|[<-|[]]]]; reflexivity.
  - cbv zeta. eexists. eexists. split; [vm_compute; reflexivity|]. split; [vm_compute; reflexivity|].
    split; [vm_compute; reflexivity|]. vm_compute. auto.
Qed.
Print Assumptions C23_moved_refuted.

(* A field set to an empty value for the first time is not announced. *)
Theorem C23_empty_field_refuted : out_of_sync SFull
  [OCreate [nA] false; OMark [] 10 0; OSet [] fx (VUInt 1); OMark [] 15 0] [OSet [nA] fx VNone; OMark [] 20 0].
Proof. differ. Qed.
Print Assumptions C23_empty_field_refuted.

(* Transfer of names: removing a field with an underscore is not announced. *)
Theorem C23_names_removed_refuted : out_of_sync SNames
  [OCreate [nA] false; OSet [nA] f_x (VUInt 1); OMark [] 10 0; OSet [] fx (VUInt 1); OMark [] 15 0] [ODel [nA] f_x; OMark [] 20 0].
Proof. differ. Qed.
Print Assumptions C23_names_removed_refuted.

(* Transfer of names: the field _history of an item which inherits its history is not
   announced. *)
Theorem C23_names_history_refuted : out_of_sync SNames
  [OCreate [nA] false; OHistory [] 5 true; OMark [] 10 0; OSet [] fx (VUInt 1); OMark [] 15 0] [OSet [nA] fx (VUInt 1); OMark [] 20 0].
Proof. differ. Qed.
Print Assumptions C23_names_history_refuted.

(* Transfer of names: a change of an item announced by marking one of its sub-items is not
   found from the top. *)
Theorem C23_names_inner_mark_refuted : out_of_sync SNames
  [OCreate [nA; nB] false; OMark [] 10 0; OSet [] fx (VUInt 1); OMark [] 15 0] [OSet [nA; nB] fx (VUInt 1); OSet [nA] f_x (VUInt 1); OMark [nA; nB] 20 0; OMark [] 30 0].
Proof. differ. Qed.
Print Assumptions C23_names_inner_mark_refuted.

(* A copy which is a master itself: a change received with everything is not announced to a
   reader of names. *)
Theorem C23_relay_refuted : exists ops1 ops2 c0 c1 r0 r1,
  let m0 := hrun ops1 start in
  let m1 := hrun ops2 m0 in
  transfer SFull 0 m0 start = Some c0 /\ transfer SNames 0 c0 start = Some r0 /\ shows SNames r0 = shows SNames m0 /\
  transfer SFull (version m0) m1 c0 = Some c1 /\ shows SFull c1 = shows SFull m1 /\
  transfer SNames (version c0) c1 r0 = Some r1 /\ shows SNames r1 <> shows SNames m1.
Proof.
  exists [OCreate [nA] false; OMark [] 10 0; OSet [] fx (VUInt 1); OMark [] 15 0], [OSet [nA] f_x (VUInt 1); OMark [] 20 0].
  do 4 eexists. cbv zeta. split; [vm_compute; reflexivity|]. split; [vm_compute; reflexivity|]. split; [vm_compute; reflexivity|].
  split; [vm_compute; reflexivity|]. split; [vm_compute; reflexivity|]. split; [vm_compute; reflexivity|]. vm_compute. discriminate.
Qed.
Print Assumptions C23_relay_refuted.

Example C24_marked_case :
  let m0 := hrun build start in
  let m1 := hrun ([OSet [nB; nC] fx (VUInt 9)] ++ [OMark [nB] 20 0]) m0 in
  Forall (allowed SFull) (build ++ [OSet [nB; nC] fx (VUInt 9)]) /\ starts [nB] [nB; nC] /\
  match node_at [nB; nC] m1, node_at [nA] m1 with
  | Some x, Some y => changed (tat [nB; nC] (whole m0)) x /\ version x = version m0 + 1 /\ version y = version m0
  | _, _ => False
  end.
Proof.
  cbv zeta. split; [unfold build; cbn [app]; allow|]. split; [exists [nC]; reflexivity|]. vm_compute. split; [|auto]. left. discriminate.
Qed.

(* An item removed and created again keeps no version although its fields changed. *)
Theorem C24_recreated_refuted : exists ops1 ops2 x,
  let m0 := hrun ops1 start in
  let m1 := hrun (ops2 ++ [OMark [] 30 0]) m0 in
  Forall (allowed SFull) (ops1 ++ ops2) /\ node_at [nA] m1 = Some x /\ changed (tat [nA] (whole m0)) x /\ version x < version m0.
Proof.
  exists [OCreate [nA] false; OSet [nA] fx (VUInt 1); OMark [] 10 0], [ORemove [nA]; OCreate [nA] false]. eexists. cbv zeta.
  split; [cbn [app]; allow|]. split; [vm_compute; reflexivity|]. split; [|vm_compute; reflexivity]. vm_compute. left. discriminate.
Qed.
Print Assumptions C24_recreated_refuted.

Example C25_history_case :
  let ops := [OSet [] fx (VUInt 1); OMark [] 10 0; OSet [] fx (VStr [65]); OSet [] [121] (VInt 3); OMark [] 20 0; ODel [] fx; OMark [] 30 0;
              OMark [] 35 0; OSet [] [121] (VInt 4)] in
  let s := hrun ([] ++ [OHistory [] 2 false]) start in
  let st := states s (ops ++ [OMark [] 40 0]) in
  Forall item_op ([] ++ ops) /\ lenN st = 4 /\
  exists l, read_all 4 (dat (hrun (ops ++ [OMark [] 40 0]) s)) 0 [] = Ok l /\ map vals l = newest 3 st.
Proof.
  cbv zeta. split; [cbn [app]; repeat (apply Forall_cons || apply Forall_nil); cbn [item_op]; unfold storable, settable; repeat split; cbn; unfold cstring, word; try discriminate; try lia; repeat (apply Forall_cons || apply Forall_nil); unfold cchar; lia|].
  split; [vm_compute; reflexivity|]. eexists. split; vm_compute; reflexivity.
Qed.

(* An item with sub-items: a version which is due to a sub-item only is not in the history. *)
Theorem C25_sub_item_refuted : exists ops l,
  let s := hrun [OCreate [nA] false; OHistory [] 2 false] start in
  read_all 4 (dat (hrun ops s)) 0 [] = Ok l /\ 3 < lenN (states s ops) /\ ~ Forall2 like l (newest 3 (states s ops)).
Proof.
  exists [OSet [] fx (VUInt 1); OMark [] 10 0; OSet [nA] fx (VUInt 1); OMark [] 20 0; OSet [] fx (VUInt 2); OMark [] 30 0; OSet [] fx (VUInt 3); OMark [] 40 0].
  eexists. cbv zeta. split; [vm_compute; reflexivity|]. split; [vm_compute; reflexivity|]. intros H.
  match type of H with Forall2 _ ?l ?s => let s' := eval vm_compute in s in change (Forall2 like l s') in H end.
  inversion_clear H as [|? ? ? ? _ H2]. inversion_clear H2 as [|? ? ? ? _ H3]. inversion_clear H3 as [|? ? ? ? H4 _].
  specialize (H4 time_name). vm_compute in H4. destruct H4 as (g & [= <-] & [Q|(x & y & _ & Q & _)]); discriminate.
Qed.
Print Assumptions C25_sub_item_refuted.

(* A copy with a history of its own: changes it receives are not recorded. *)
Theorem C25_copy_refuted : exists m c h,
  fold_left (fun o e => match o with
             | Some (m, c) => let m' := hrun [OSet [] fx (VUInt e); OMark [] e 0] m in
                              match transfer SFull (version m) m' c with Some c' => Some (m', c') | None => None end
             | None => None end) [11; 12; 13; 14; 15] (Some (start, hrun [OMark [] 1 0; OHistory [] 2 false; OMark [] 1 0] start)) = Some (m, c) /\
  mget fx (vals (d_map (dat c))) = Some (VUInt 15) /\ d_hist (dat c) = Some h /\ hs_arr h = [].
Proof. do 3 eexists. split; [vm_compute; reflexivity|]. vm_compute. auto. Qed.
Print Assumptions C25_copy_refuted.
