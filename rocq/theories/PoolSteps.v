(* Every call of the pool state machine keeps the invariant and has the
   effect the specification describes. *)
From Verif Require Import Common ListFacts BufferSpec BufferModel BufferProofs PoolSpec PoolModel PoolArith PoolProofs.

Lemma cnt_app (a b : list nat) i : cnt (a ++ b) i = cnt a i + cnt b i.
Proof. apply count_occ_app. Qed.

Lemma locs_nodup l : NoDup (map g_obj l) -> NoDup (locs_of l).
Proof.
  induction l as [|g l IH]; intros H; [constructor|]. inversion H; subst. rewrite locs_of_cons. apply NoDup_app_iff.
  split; [apply range_nodup|]. split; auto. intros a Ha Hb. apply range_in in Ha as [Ha _]. apply in_locs in Hb as (g' & G1 & G2 & _).
  apply H2. rewrite <- Ha, G2. apply in_map. auto.
Qed.

Lemma right_cnt l k q i : (0 < q -> k < length l) -> cnt (map g_id (right_segs l k q)) i + cnt (map g_id (firstn k l)) i = cnt (map g_id l) i.
Proof.
  intros H. rewrite <- (firstn_skipn k l) at 3. rewrite map_app, cnt_app. unfold right_segs. destruct (Nat.ltb_spec 0 q).
  - rewrite (skipn_cons_nth l k (nth k l seg0)) by (apply nth_error_nth'; auto). cbn [map seg_tail g_id count_occ].
    destruct (Nat.eq_dec (g_id (nth k l seg0)) i); lia.
  - lia.
Qed.

Lemma left_cnt l k q i : (0 < q -> k < length l) ->
  cnt (map g_id (left_segs l k q)) i + cnt (map g_id (skipn (if 0 <? q then S k else k) l)) i = cnt (map g_id l) i.
Proof.
  intros H. rewrite <- (firstn_skipn k l) at 3. unfold left_segs. rewrite !map_app, !cnt_app. destruct (Nat.ltb_spec 0 q).
  - rewrite (skipn_cons_nth l k (nth k l seg0)) by (apply nth_error_nth'; auto). cbn [map seg_head g_id count_occ].
    destruct (Nat.eq_dec (g_id (nth k l seg0)) i); lia.
  - cbn [map count_occ]. lia.
Qed.

Lemma right_pseg sizes l k q : (0 < q -> k < length l /\ q < g_len (nth k l seg0)) -> Forall (pseg sizes) l -> Forall (pseg sizes) (right_segs l k q).
Proof.
  intros H F. rewrite Forall_forall in *. intros g Hg. unfold right_segs in Hg. destruct (Nat.ltb_spec 0 q).
  - destruct Hg as [<-|Hg]; [|apply F; eapply in_skipn; eauto].
    destruct (H H0) as [L1 L2]. destruct (F (nth k l seg0)) as (P1 & P2 & z & P3 & P4); [apply nth_In; auto|].
    split; auto. cbn [seg_tail g_len g_obj g_off]. split; [lia|]. exists z. split; auto. lia.
  - apply F. eapply in_skipn; eauto.
Qed.

Lemma left_pseg sizes l k q : (0 < q -> k < length l /\ q < g_len (nth k l seg0)) -> Forall (pseg sizes) l -> Forall (pseg sizes) (left_segs l k q).
Proof.
  intros H F. rewrite Forall_forall in *. intros g Hg. unfold left_segs in Hg. apply in_app_iff in Hg as [Hg|Hg]; [apply F; eapply in_firstn; eauto|].
  destruct (Nat.ltb_spec 0 q); [|destruct Hg]. destruct Hg as [<-|[]]. 
  destruct (H H0) as [L1 L2]. destruct (F (nth k l seg0)) as (P1 & P2 & z & P3 & P4); [apply nth_In; auto|].
  split; auto. cbn [seg_head g_len g_obj g_off]. split; [lia|]. exists z. split; auto. lia.
Qed.

Lemma firstn_upd_lt {A} (l : list A) n i x : firstn n (upd l i x) = if i <? n then upd (firstn n l) i x else firstn n l.
Proof.
  revert n i. induction l as [|a l IH]; intros n i.
  - rewrite firstn_nil. cbn [upd]. rewrite firstn_nil. destruct (i <? n); reflexivity.
  - destruct n as [|n]; [reflexivity|]. destruct i as [|i]; [reflexivity|]. cbn [firstn upd]. rewrite IH.
    change (S i <? S n) with (i <? n). destruct (i <? n); reflexivity.
Qed.

Lemma firstn_pad {A} (l : list A) x n : firstn (length l) (l ++ repeat x n) = l.
Proof. rewrite firstn_app, firstn_all, Nat.sub_diag. apply app_nil_r. Qed.

Section P.
Context {B : Type}.
Notation st := (st B).
Implicit Types s : st.

Lemma hnd_live X s h k : Inv X noY s -> hnd s h = Some k -> exists c, nth_error (s_conts s) k = Some (Some c) /\ getc s k = Some c /\
   buf (view_of s) h = Some (is_pool (c_owner c), locs_of (c_segs c)).
Proof.
  intros I E. pose proof E as E0. apply nth_None_error in E. destruct (i_h _ _ _ I h k E) as (c & Ec). exists c.
  split; auto. split; [apply nth_None_error; auto|]. unfold buf. change (handle (view_of s) h) with (hnd s h). rewrite E0.
  unfold vcont, view_of. cbn [v_conts]. apply nth_None_error. rewrite nth_error_map, Ec. reflexivity.
Qed.

Lemma buf_null s h : hnd s h = None -> buf (view_of s) h = None.
Proof. intros E. unfold buf. change (handle (view_of s) h) with (hnd s h). rewrite E. auto. Qed.

Lemma put_ok X X' s k c c' refs free : Inv X noY s -> nth_error (s_conts s) k = Some (Some c) ->
  PI (length (s_size s)) refs free (s_raw s) ->
  (forall i, nth i refs 0 + cnt_of (Some c) i + X i = nth i (s_refs s) 0 + cnt_of (Some c') i + X' i) ->
  cont_ok (s_size s) (s_mem s) c' ->
  Inv X' noY (set_cont (with_pool s refs free) k c') /\
  vt (set_cont (with_pool s refs free) k c') = t_put (vt s) k (is_pool (c_owner c'), locs_of (c_segs c')).
Proof.
  intros I E P R O. assert (Lk : k < length (s_conts s)) by (apply nth_error_Some; congruence). split.
  - constructor; cbn [set_cont with_conts with_pool s_size s_refs s_free s_raw s_mem s_conts s_handles]; auto; try apply I.
    + intros i. specialize (R i). rewrite (i_ref _ _ _ I) in R. pose proof (sumc_upd _ _ _ (Some c') i E). lia.
    + intros k' c2 H. rewrite nth_error_upd in H. destruct ((k' =? k) && (k <? length (s_conts s))); [injection H as <-; auto|].
      apply (i_ok _ _ _ I k'). auto.
    + intros h k' H. destruct (i_h _ _ _ I h k' H) as (c2 & E2). rewrite nth_error_upd. destruct (_ && _); eauto.
    + intros k' c2 H. rewrite nth_error_upd in H. destruct (Nat.eqb_spec k' k) as [->|]; cbn [andb] in H.
      * apply (i_live _ _ _ I k c). auto.
      * apply (i_live _ _ _ I k' c2). auto.
  - unfold vt, t_put. cbn [set_cont with_conts with_pool s_conts s_handles fst snd]. rewrite (map_upd vc). reflexivity.
Qed.

(* same as put_ok without a change of the counters *)
Lemma put_same X s k c c' : Inv X noY s -> nth_error (s_conts s) k = Some (Some c) ->
  (forall i, cnt_of (Some c) i = cnt_of (Some c') i) -> cont_ok (s_size s) (s_mem s) c' ->
  Inv X noY (set_cont s k c') /\ vt (set_cont s k c') = t_put (vt s) k (is_pool (c_owner c'), locs_of (c_segs c')).
Proof.
  intros I E R O. destruct (put_ok X X s k c c' (s_refs s) (s_free s) I E) as [I' V]; auto.
  - apply (i_pi _ _ _ I).
Qed.

(* ---- TakeBuffer ---- *)
Definition free_bytes s : nat := list_sum (map (fun i => nth i (s_size s) 0) (s_free s)).

Lemma take_ok X s n : Inv X noY s -> exists o, take s n = Ok o /\
  match o with
  | None => s_free s = [] \/ free_bytes s < n
  | Some (s1, c) =>
    s1 = with_pool s (s_refs s1) (s_free s1) /\
    Inv (fun i => X i + cnt_of (Some c) i) noY s1 /\ cont_ok (s_size s) (s_mem s) c /\ c_owner c = OPool /\
    (0 < n -> total (c_segs c) = n) /\ (n = 0 -> exists f r, s_free s = f :: r /\ nth_error (s_size s) f = Some (total (c_segs c))) /\
    s_free s = map g_id (c_segs c) ++ s_free s1 /\ fresh (view_of s) (locs_of (c_segs c)) /\ 0 < total (c_segs c) <= free_bytes s
  end.
Proof.
  intros I. unfold take. destruct (s_free s) as [|f fr] eqn:Ef; [exists None; auto|].
  pose proof (i_pi _ _ _ I) as P. rewrite Ef in P.
  assert (FA : Forall (fun i => i < length (s_size s)) (f :: fr)).
  { apply Forall_forall. intros i Hi. apply (pi_lt _ _ _ _ P). apply in_app_iff. auto. }
  assert (Hf : f < length (s_size s)) by (inversion FA; auto).
  assert (Pf : 0 < nth f (s_size s) 0).
  { pose proof (i_sizes _ _ _ I) as PS. rewrite Forall_forall in PS. apply PS, nth_In; auto. }
  set (n' := if n =? 0 then nth f (s_size s) 0 else n).
  replace (if n =? 0 then nth_error (s_size s) f else Some n) with (Some n').
  2: { unfold n'. destruct (n =? 0); auto. symmetry. apply nth_error_nth'. auto. }
  assert (Pn : 0 < n') by (unfold n'; destruct (Nat.eqb_spec n 0); lia).
  destruct (take_count_ok (s_size s) (f :: fr) n' 0 FA) as (o & Eo & Ho). rewrite Eo. cbn [bind].
  destruct o as [cn|].
  2: { exists None. split; auto. right. unfold free_bytes. rewrite Ef. unfold n' in Ho. destruct (Nat.eqb_spec n 0); [|exact Ho].
       cbn [map list_sum fold_right] in Ho. lia. }
  destruct Ho as [Hc1 Hc2].
  assert (LE : forall k l, list_sum (map (fun i => nth i (s_size s) 0) (firstn k l)) <= list_sum (map (fun i => nth i (s_size s) 0) l)).
  { clear. induction k as [|k IH]; intros [|x l]; cbn; try lia. specialize (IH l). unfold list_sum in IH. lia. }
  destruct (take_pop_ok (length (s_size s)) (s_raw s) (s_size s) (f :: fr) eq_refl (i_sizes _ _ _ I) (s_refs s) n' 0 P) as
    (segs & r' & f' & E & P' & A1 & A2 & A3 & A4 & A5); [specialize (LE cn (f :: fr)); lia|].
  rewrite E. cbn [bind]. eexists. split; [reflexivity|]. cbv beta iota.
  set (c := mkC _ _ _).
  assert (Ec : c_segs c = segs) by (unfold c_segs, c; cbn [c_num c_arr]; apply firstn_pad).
  assert (FP : Forall (pseg (s_size s)) segs) by (eapply Forall_impl; [|exact A2]; intros g [Hg _]; auto).
  assert (ND : NoDup (map g_id segs)).
  { pose proof (pi_nd _ _ _ _ P) as ND. rewrite A1, <- app_assoc in ND. apply NoDup_app_iff in ND. tauto. }
  assert (EO : map g_obj segs = map g_id segs).
  { apply map_ext_in. intros g Hg. rewrite Forall_forall in FP. destruct (FP g Hg). auto. }
  split; [destruct s; reflexivity|]. split.
  { constructor; cbn [with_pool s_size s_refs s_free s_raw s_mem s_conts s_handles]; auto; try apply I.
    intros i. rewrite A4, (i_ref _ _ _ I). cbn [cnt_of]. change (c_owner c) with OPool. cbn [is_pool]. rewrite Ec. lia. }
  split. { split; [|change (c_owner c) with OPool; rewrite Ec; auto]. unfold c. cbn [c_num c_arr]. rewrite app_length. lia. }
  split; auto. rewrite Ec. split. { unfold n' in A3. destruct (Nat.eqb_spec n 0); lia. }
  split. { intros ->. exists f, fr. split; auto. rewrite A3. unfold n'. cbn [Nat.eqb]. rewrite Nat.sub_0_r. apply nth_error_nth'. auto. }
  split; auto. split.
  { split; [apply locs_nodup; rewrite EO; auto|]. intros a Ha Hu. apply in_locs in Ha as (g & G1 & G2 & G3).
    assert (In (g_id g) (f :: fr)) by (rewrite A1; apply in_app_iff; left; apply in_map; auto).
    assert (Z : nth (g_id g) (s_refs s) 0 = 0).
    { apply (pi_zero _ _ _ _ P). { apply pseg_lt. rewrite Forall_forall in FP. auto. } apply in_app_iff. auto. }
    apply used_iff in Hu as (k & c' & H1 & H2).
    destruct (cont_ok_obj _ _ _ _ (i_ok _ _ _ I k c' H1) H2) as [(O1 & O2 & O3)|(e & O1 & O2 & O3)].
    - pose proof (sumc_le _ _ _ (g_id g) H1) as L. rewrite (i_ref _ _ _ I) in Z. cbn [cnt_of] in L. rewrite O1 in L. cbn [is_pool] in L.
      rewrite G2 in O3. rewrite Forall_forall in FP. destruct (FP g G1) as (F1 & _). rewrite <- F1 in O3.
      apply (count_occ_In Nat.eq_dec) in O3. lia.
    - rewrite Forall_forall in FP. pose proof (pseg_lt _ _ (FP g G1)). destruct (FP g G1) as (F1 & _). lia. }
  rewrite A3. split; [lia|]. unfold free_bytes. rewrite Ef. specialize (LE cn (f :: fr)). lia.
Qed.

(* ---- Duplicate ---- *)
Lemma inc_pool X s ids : Inv X noY s -> (forall i, In i ids -> 0 < sumc (s_conts s) i) ->
  exists refs, inc_refs (s_refs s) ids = Ok refs /\ Inv (fun i => X i + cnt ids i) noY (with_pool s refs (s_free s)) /\
     PI (length (s_size s)) refs (s_free s) (s_raw s) /\ (forall i, nth i refs 0 = nth i (s_refs s) 0 + cnt ids i).
Proof.
  intros I H. assert (Hp : forall i, In i ids -> 0 < nth i (s_refs s) 0) by (intros i Hi; rewrite (i_ref _ _ _ I); specialize (H i Hi); lia).
  destruct (inc_refs_ok ids (s_refs s)) as (r & E & L & C).
  { apply Forall_forall. intros i Hi. apply Hp in Hi. destruct (Nat.lt_ge_cases i (length (s_refs s))); auto. rewrite nth_overflow in Hi by auto. lia. }
  pose proof (PI_inc _ _ _ _ ids r (i_pi _ _ _ I) Hp L C) as P'.
  exists r. split; auto. split; [|auto].
  constructor; cbn [with_pool s_size s_refs s_free s_raw s_mem s_conts s_handles]; auto; try apply I.
  intros i. rewrite C, (i_ref _ _ _ I). lia.
Qed.

Lemma cont_ids X s k c i : Inv X noY s -> nth_error (s_conts s) k = Some (Some c) -> is_pool (c_owner c) = true ->
  In i (map g_id (c_segs c)) -> 0 < sumc (s_conts s) i.
Proof.
  intros I E O Hi. pose proof (sumc_le _ _ _ i E) as L. cbn [cnt_of] in L. rewrite O in L. apply (count_occ_In Nat.eq_dec) in Hi. lia.
Qed.

Lemma duplicate_ok X s h2 k c : Inv X noY s -> hnd s h2 = Some k -> nth_error (s_conts s) k = Some (Some c) ->
  exists s1 c', duplicate s h2 = Ok (Some (s1, c')) /\ s1 = with_pool s (s_refs s1) (s_free s1) /\
    Inv (fun i => X i + cnt_of (Some c') i) noY s1 /\
    c_segs c' = c_segs c /\ c_owner c' = c_owner c /\ c_num c' = c_num c /\ cont_ok (s_size s) (s_mem s) c'.
Proof.
  intros I E Ec. unfold duplicate, getc. rewrite E, (proj2 (nth_None_error _ _ _) Ec).
  destruct (i_ok _ _ _ I k c Ec) as [O1 O2].
  assert (L : length (c_segs c) = c_num c) by (unfold c_segs; rewrite firstn_length; lia).
  set (c' := mkC (c_segs c ++ repeat seg0 (c_cap c - c_num c)) (c_num c) (c_owner c)).
  assert (S1 : c_segs c' = c_segs c).
  { unfold c', c_segs at 1. cbn [c_num c_arr]. rewrite <- L at 1. apply firstn_pad. }
  assert (O' : cont_ok (s_size s) (s_mem s) c').
  { split; [unfold c'; cbn [c_num c_arr]; rewrite app_length, L; lia|]. rewrite S1. change (c_owner c') with (c_owner c). auto. }
  destruct (is_pool (c_owner c)) eqn:Ep.
  - destruct (inc_pool X s (map g_id (c_segs c)) I) as (r & Er & Ir & _); [intros i Hi; eapply cont_ids; eauto|].
    rewrite Er. cbn [bind]. eexists _, c'. split; [reflexivity|]. split; [destruct s; reflexivity|]. split.
    { constructor; try apply Ir. intros i. rewrite (i_ref _ _ _ Ir). cbn [cnt_of]. rewrite S1. change (c_owner c') with (c_owner c). rewrite Ep. auto. }
    auto.
  - cbn [bind]. eexists _, c'. split; [reflexivity|]. split; [destruct s; reflexivity|]. split.
    { constructor; try apply I. intros i. cbn [with_pool s_refs s_conts]. rewrite (i_ref _ _ _ I). cbn [cnt_of]. change (c_owner c') with (c_owner c). rewrite Ep. lia. }
    auto.
Qed.

(* ---- cutting ---- *)
Lemma cut_ok s h len : Inv noX noY s -> exists s', cut s h len = Ok (s', RDone) /\ Inv noX noY s' /\ MK s s' /\ s_size s' = s_size s /\ s_raw s' = s_raw s /\
  vt s' = match hnd s h, buf (view_of s) h with
          | Some c, Some (k, l) => if len =? 0 then vt s else if length l <=? len then t_release (vt s) h else t_put (vt s) c (k, skipn len l)
          | _, _ => vt s
          end.
Proof.
  intros I. unfold cut. destruct (hnd s h) as [k|] eqn:Eh.
  2: { exists s. split; [destruct (len =? 0); auto|]. split; auto. split; [apply MK_refl|auto]. }
  destruct (hnd_live _ _ _ _ I Eh) as (c & Ec & Eg & Eb). rewrite Eg, Eb, locs_of_length.
  destruct (Nat.eqb_spec len 0); [exists s; split; auto; split; auto; split; [apply MK_refl|auto]|].
  destruct (Nat.leb_spec (total (c_segs c)) len) as [T|T].
  { destruct (release_ok _ _ s h I) as (s' & E & I' & V & M & Z1 & Z2). rewrite E. cbn [bind]. exists s'. repeat (split; auto). }
  destruct (locate (c_segs c) len) as [nseg npos] eqn:El. pose proof (halves _ _ _ _ El) as [_ HR].
  apply locate_ok in El as (L1 & L2 & L3). destruct (i_ok _ _ _ I k c Ec) as [O1 O2].
  assert (LS : length (c_segs c) = c_num c) by (unfold c_segs; rewrite firstn_length; lia).
  assert (Lk : nseg < c_num c).
  { destruct (Nat.eq_dec nseg (c_num c)) as [->|]; [|lia]. rewrite <- LS, firstn_all in L2. lia. }
  destruct (Nat.leb_spec (c_num c) nseg); [lia|].
  set (arr1 := if 0 <? nseg then arr_shift (c_arr c) nseg (seq 0 (c_num c - nseg)) else c_arr c).
  set (arr2 := if 0 <? npos then upd arr1 0 _ else arr1).
  assert (A1 : firstn (c_num c - nseg) arr1 = skipn nseg (c_segs c)).
  { unfold arr1. destruct (Nat.ltb_spec 0 nseg).
    - unfold c_segs. apply arr_shift_ok; lia.
    - replace nseg with 0 by lia. rewrite Nat.sub_0_r. reflexivity. }
  assert (LA : length arr1 = length (c_arr c)) by (unfold arr1; destruct (0 <? nseg); auto; apply arr_shift_len).
  assert (N0 : nth 0 arr1 seg0 = nth nseg (c_segs c) seg0).
  { rewrite <- (nth_firstn_lt arr1 seg0 (c_num c - nseg)) by lia. rewrite A1, nth_skipn_eq. f_equal. lia. }
  set (c' := mkC arr2 (c_num c - nseg) (c_owner c)).
  assert (SC : c_segs c' = right_segs (c_segs c) nseg npos).
  { unfold c', c_segs at 1, arr2, right_segs. cbn [c_num c_arr]. destruct (Nat.ltb_spec 0 npos); [|auto].
    rewrite firstn_upd_lt. destruct (Nat.ltb_spec 0 (c_num c - nseg)); [|lia]. rewrite A1, N0.
    rewrite (skipn_cons_nth (c_segs c) nseg (nth nseg (c_segs c) seg0)) by (apply nth_error_nth'; lia). reflexivity. }
  assert (L3' : 0 < npos -> nseg < length (c_segs c)) by (intros; rewrite LS; auto).
  assert (O' : cont_ok (s_size s) (s_mem s) c').
  { split. { unfold c', arr2. cbn [c_num c_arr]. destruct (0 <? npos); rewrite ?upd_length; lia. }
    rewrite SC. change (c_owner c') with (c_owner c). destruct (c_owner c) as [|e|].
    - apply right_pseg; auto.
    - destruct O2 as (Le & l & g & M1 & M2 & M3 & M4). split; auto. rewrite M2 in *. cbn [length] in LS.
      assert (nseg = 0) by lia. subst nseg. cbn [firstn total] in L2. cbn [nth] in L3.
      unfold right_segs. cbn [total] in *. destruct (Nat.ltb_spec 0 npos); [|lia]. cbn [skipn nth]. eexists l, _. split; auto. split; [reflexivity|].
      cbn [seg_tail g_obj g_off g_len]. split; auto. specialize (L3 H0). lia.
    - unfold c'. cbn [c_num]. lia. }
  assert (V' : (is_pool (c_owner c'), locs_of (c_segs c')) = (is_pool (c_owner c), skipn len (locs_of (c_segs c)))) by (rewrite SC, HR; reflexivity).
  assert (FA : firstn nseg (c_arr c) = firstn nseg (c_segs c)) by (unfold c_segs; rewrite firstn_firstn; f_equal; lia).
  destruct ((0 <? nseg) && is_pool (c_owner c)) eqn:Ed.
  - apply andb_true_iff in Ed as [D1 D2]. rewrite FA.
    destruct (dec_refs_ok (length (s_size s)) (s_raw s) (map g_id (firstn nseg (c_segs c))) (s_refs s) (s_free s) (i_pi _ _ _ I)) as (r' & f' & Er & P' & C').
    { intros i. rewrite (i_ref _ _ _ I). pose proof (sumc_le _ _ _ i Ec) as L. cbn [cnt_of] in L. rewrite D2 in L.
      pose proof (right_cnt (c_segs c) nseg npos i L3'). lia. }
    rewrite Er. cbn [bind]. destruct (put_ok noX noX s k c c' r' f' I Ec P') as [I' V]; auto.
    { intros i. rewrite C'. cbn [cnt_of]. rewrite SC. change (c_owner c') with (c_owner c). rewrite D2.
      pose proof (right_cnt (c_segs c) nseg npos i L3'). pose proof (sumc_le _ _ _ i Ec) as L. cbn [cnt_of] in L. rewrite D2 in L.
      rewrite (i_ref _ _ _ I). unfold noX. lia. }
    rewrite V' in V. eexists. split; [reflexivity|]. split; [exact I'|]. split; [apply MK_mem; reflexivity|]. auto.
  - cbn [bind]. destruct (put_same noX s k c c' I Ec) as [I' V]; auto.
    { intros i. cbn [cnt_of]. rewrite SC. change (c_owner c') with (c_owner c). destruct (is_pool (c_owner c)); auto.
      rewrite andb_true_r in Ed. apply Nat.ltb_ge in Ed. assert (nseg = 0) by lia. subst nseg.
      pose proof (right_cnt (c_segs c) 0 npos i L3') as R. cbn [firstn map count_occ] in R. lia. }
    rewrite V' in V. replace (with_pool s (s_refs s) (s_free s)) with s by (destruct s; auto).
    eexists. split; [reflexivity|]. split; [exact I'|]. split; [apply MK_mem; reflexivity|]. auto.
Qed.

Lemma set_total_ok s h len : Inv noX noY s -> exists s' o, set_total s h len = Ok (s', o) /\ Inv noX noY s' /\ MK s s' /\ s_size s' = s_size s /\ s_raw s' = s_raw s /\
  match hnd s h, buf (view_of s) h with
  | Some c, Some (k, l) => if len =? 0 then o = RDone /\ vt s' = t_release (vt s) h
                           else if length l <? len then o = RThrown /\ vt s' = vt s
                           else o = RDone /\ vt s' = t_put (vt s) c (k, firstn len l)
  | _, _ => o = RDone /\ vt s' = vt s
  end.
Proof.
  intros I. unfold set_total. destruct (hnd s h) as [k|] eqn:Eh.
  2: { destruct (len =? 0).
       - unfold release. rewrite Eh. cbn [bind]. exists s, RDone. split; auto. split; auto. split; [apply MK_refl|auto].
       - exists s, RDone. split; auto. split; auto. split; [apply MK_refl|auto]. }
  destruct (hnd_live _ _ _ _ I Eh) as (c & Ec & Eg & Eb). rewrite Eg, Eb, locs_of_length.
  destruct (Nat.eqb_spec len 0).
  { destruct (release_ok _ _ s h I) as (s' & E & I' & V & M & Z1 & Z2). rewrite E. cbn [bind]. exists s', RDone. repeat (split; auto). }
  destruct (Nat.ltb_spec (total (c_segs c)) len) as [T|T].
  { exists s, RThrown. split; auto. split; auto. split; [apply MK_refl|auto]. }
  destruct (Nat.eqb_spec len (total (c_segs c))) as [T2|T2].
  { exists s, RDone. split; auto. split; auto. split; [apply MK_refl|]. split; auto. split; auto. split; auto.
    rewrite firstn_all2 by (rewrite locs_of_length; lia). unfold t_put, vt. cbn [fst snd]. f_equal.
    symmetry. apply list_eq_nth_error. intros j. rewrite nth_error_upd, map_length. destruct (Nat.eqb_spec j k) as [->|]; cbn [andb]; auto.
    rewrite nth_error_map, Ec. destruct (k <? _); auto. }
  destruct (locate (c_segs c) len) as [nseg npos] eqn:El. pose proof (halves _ _ _ _ El) as [HL _].
  apply locate_ok in El as (L1 & L2 & L3). destruct (i_ok _ _ _ I k c Ec) as [O1 O2].
  assert (LS : length (c_segs c) = c_num c) by (unfold c_segs; rewrite firstn_length; lia).
  assert (Lk : nseg < c_num c).
  { destruct (Nat.eq_dec nseg (c_num c)) as [->|]; [|lia]. rewrite <- LS, firstn_all in L2. lia. }
  destruct (Nat.leb_spec (c_num c) nseg); [lia|]. cbv zeta.
  set (arr := if 0 <? npos then upd (c_arr c) nseg _ else c_arr c).
  set (nseg' := if 0 <? npos then S nseg else nseg).
  assert (N' : nseg' <= c_num c) by (unfold nseg'; destruct (0 <? npos); lia).
  assert (N0 : nth nseg (c_arr c) seg0 = nth nseg (c_segs c) seg0) by (unfold c_segs; rewrite nth_firstn_lt; auto).
  assert (FN : firstn nseg' arr = left_segs (c_segs c) nseg npos).
  { unfold nseg', arr, left_segs. destruct (Nat.ltb_spec 0 npos).
    - rewrite firstn_upd_lt. destruct (Nat.ltb_spec nseg (S nseg)); [|lia]. rewrite N0.
      rewrite (firstn_S_nth (c_arr c) nseg (nth nseg (c_segs c) seg0)) by (rewrite <- N0; apply nth_error_nth'; lia).
      rewrite upd_app_r by (rewrite firstn_length; lia). rewrite firstn_length. replace (nseg - Nat.min nseg (length (c_arr c))) with 0 by lia. cbn [upd].
      unfold c_segs. rewrite firstn_firstn. do 2 f_equal. lia.
    - unfold c_segs. rewrite firstn_firstn, app_nil_r. f_equal. lia. }
  assert (SK : skipn nseg' (firstn (c_num c) arr) = skipn nseg' (c_segs c)).
  { unfold arr, nseg'. destruct (Nat.ltb_spec 0 npos); auto. rewrite firstn_upd_lt. destruct (Nat.ltb_spec nseg (c_num c)); [|lia].
    fold (c_segs c). rewrite upd_split by lia. rewrite skipn_app, skipn_all2 by (rewrite firstn_length; lia).
    rewrite firstn_length. replace (S nseg - Nat.min nseg (length (c_segs c))) with 1 by lia. reflexivity. }
  assert (LA : length arr = length (c_arr c)) by (unfold arr; destruct (0 <? npos); rewrite ?upd_length; auto).
  assert (L3' : 0 < npos -> nseg < length (c_segs c)) by (intros; rewrite LS; auto).
  set (c' := mkC arr nseg' (c_owner c)).
  assert (SC : c_segs c' = left_segs (c_segs c) nseg npos) by exact FN.
  assert (O' : cont_ok (s_size s) (s_mem s) c').
  { split. { unfold c'. cbn [c_num c_arr]. lia. }
    rewrite SC. change (c_owner c') with (c_owner c). destruct (c_owner c) as [|e|].
    - apply left_pseg; auto.
    - destruct O2 as (Le & l & g & M1 & M2 & M3 & M4). split; auto. rewrite M2 in *. cbn [length] in LS.
      assert (nseg = 0) by lia. subst nseg. cbn [firstn total] in L2. cbn [nth] in L3.
      unfold left_segs. cbn [total] in *. destruct (Nat.ltb_spec 0 npos); [|lia]. cbn [firstn nth app]. eexists l, _. split; auto. split; [reflexivity|].
      cbn [seg_head g_obj g_off g_len]. split; auto. specialize (L3 H0). lia.
    - lia. }
  assert (V' : (is_pool (c_owner c'), locs_of (c_segs c')) = (is_pool (c_owner c), firstn len (locs_of (c_segs c)))) by (rewrite SC, HL; reflexivity).
  destruct (Nat.ltb_spec nseg' (c_num c)) as [HN|HN].
  - destruct (c_owner c) as [|e|] eqn:Eo.
    + rewrite SK.
      destruct (dec_refs_ok (length (s_size s)) (s_raw s) (map g_id (skipn nseg' (c_segs c))) (s_refs s) (s_free s) (i_pi _ _ _ I)) as (r' & f' & Er & P' & C').
      { intros i. rewrite (i_ref _ _ _ I). pose proof (sumc_le _ _ _ i Ec) as L. cbn [cnt_of] in L. rewrite Eo in L. cbn [is_pool] in L.
        pose proof (left_cnt (c_segs c) nseg npos i L3') as LC. fold nseg' in LC. lia. }
      rewrite Er. cbn [bind]. destruct (put_ok noX noX s k c c' r' f' I Ec P') as [I' V]; auto.
      { intros i. rewrite C'. cbn [cnt_of]. rewrite SC. change (c_owner c') with OPool. rewrite Eo. cbn [is_pool].
        pose proof (left_cnt (c_segs c) nseg npos i L3') as LC. fold nseg' in LC.
        pose proof (sumc_le _ _ _ i Ec) as L. cbn [cnt_of] in L. rewrite Eo in L. cbn [is_pool] in L.
        rewrite (i_ref _ _ _ I). unfold noX. lia. }
      rewrite V' in V. eexists _, RDone. split; [reflexivity|]. split; [exact I'|]. split; [apply MK_mem; reflexivity|]. auto.
    + exfalso. destruct O2 as (Le & l & g & M1 & M2 & M3 & M4). rewrite M2 in *. cbn [length total] in *.
      assert (nseg = 0) by lia. subst nseg. cbn [firstn total] in L2. unfold nseg' in HN. destruct (Nat.ltb_spec 0 npos); lia.
    + lia.
  - assert (HE : c_num c = nseg') by lia. rewrite HE. fold c'. destruct (put_same noX s k c c' I Ec) as [I' V]; auto.
    { intros i. cbn [cnt_of]. rewrite SC. change (c_owner c') with (c_owner c). destruct (is_pool (c_owner c)); auto.
      pose proof (left_cnt (c_segs c) nseg npos i L3') as LC. fold nseg' in LC. rewrite <- HE, <- LS, skipn_all in LC. cbn [map count_occ] in LC. lia. }
    rewrite V' in V. eexists _, RDone. split; [reflexivity|]. split; [exact I'|]. split; [apply MK_mem; reflexivity|]. auto.
Qed.
End P.
