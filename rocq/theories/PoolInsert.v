(* Insert, parts and writing; the step theorem of the pool state machine. *)
From Verif Require Import Common ListFacts BufferSpec BufferModel BufferProofs PoolSpec PoolModel PoolArith PoolProofs PoolSteps.

Lemma upd_comm {A} (l : list A) i j x y : i <> j -> upd (upd l i x) j y = upd (upd l j y) i x.
Proof.
  intros N. apply list_eq_nth_error. intros k. rewrite !nth_error_upd, !upd_length.
  destruct (Nat.eqb_spec k j), (Nat.eqb_spec k i); cbn [andb]; subst; try congruence; auto.
  all: destruct (_ <? _); auto.
Qed.

Section P.
Context {B : Type}.
Notation st := (st B).
Implicit Types s : st.

Lemma with_pool_id s : with_pool s (s_refs s) (s_free s) = s.
Proof. destruct s; reflexivity. Qed.

Lemma segs_len sizes (m : memory B) c : cont_ok sizes m c -> length (c_segs c) = c_num c.
Proof. intros [H _]. unfold c_segs. rewrite firstn_length. lia. Qed.

Lemma insert_tail s1 k c oc pos t q :
  Inv (fun i => noX i + cnt_of (Some oc) i) noY s1 -> nth_error (s_conts s1) k = Some (Some c) -> c_owner c = OPool -> c_owner oc = OPool ->
  cont_ok (s_size s1) (s_mem s1) oc -> 0 < c_num oc -> locate (c_segs c) pos = (t, q) ->
  c_num c + c_num oc + (if 0 <? q then 1 else 0) <= c_cap c ->
  let c' := mkC (ins_array c (Some (c_arr oc)) (c_num oc) t q) (c_num c + c_num oc + (if 0 <? q then 1 else 0)) OPool in
  exists refs, (if (0 <? q) && is_pool (c_owner c) then inc_refs (s_refs s1) [g_id (nth t (c_arr c) seg0)] else Ok (s_refs s1)) = Ok refs /\
    Inv noX noY (set_cont (with_pool s1 refs (s_free s1)) k c') /\
    vt (set_cont (with_pool s1 refs (s_free s1)) k c') =
      t_put (vt s1) k (true, firstn pos (locs_of (c_segs c)) ++ locs_of (c_segs oc) ++ skipn pos (locs_of (c_segs c))).
Proof.
  intros I Ec Oc Oo Ko Ho El Hn c'. destruct (halves _ _ _ _ El) as [HL HR]. pose proof El as El0. apply locate_ok in El as (L1 & L2 & L3).
  pose proof (i_ok _ _ _ I k c Ec) as Kc. pose proof (segs_len _ _ _ Kc) as LS. destruct Kc as [K1 K2]. rewrite Oc in K2.
  destruct Ko as [Ko1 Ko2]. rewrite Oo in Ko2.
  assert (SC : c_segs c' = left_segs (c_segs c) t q ++ c_segs oc ++ right_segs (c_segs c) t q).
  { unfold c', c_segs at 1. cbn [c_num c_arr]. apply (ins_array_ok c (c_arr oc) (c_num oc) pos t q); auto. }
  assert (O' : cont_ok (s_size s1) (s_mem s1) c').
  { split. { unfold c'. cbn [c_num c_arr]. rewrite ins_array_len. exact Hn. }
    rewrite SC. cbn [c' c_owner]. rewrite !Forall_app. split; [apply left_pseg; auto|]. split; auto. apply right_pseg; auto. }
  assert (L3' : 0 < q -> t < length (c_segs c)) by (intros Q; apply L3; auto).
  assert (CN : forall i, cnt (map g_id (c_segs c')) i = cnt (map g_id (c_segs c)) i + cnt (map g_id (c_segs oc)) i
                        + (if 0 <? q then cnt [g_id (nth t (c_segs c) seg0)] i else 0)).
  { intros i. rewrite SC, !map_app, !cnt_app. pose proof (left_cnt (c_segs c) t q i L3'). pose proof (right_cnt (c_segs c) t q i L3').
    assert (SP : cnt (map g_id (c_segs c)) i = cnt (map g_id (firstn t (c_segs c))) i + cnt (map g_id (skipn t (c_segs c))) i).
    { rewrite <- (firstn_skipn t (c_segs c)) at 1. rewrite map_app, cnt_app. auto. }
    destruct (Nat.ltb_spec 0 q) as [Q|Q].
    - rewrite (skipn_cons_nth (c_segs c) t (nth t (c_segs c) seg0)) in SP by (apply nth_error_nth'; auto). cbn [map] in SP.
      change (g_id (nth t (c_segs c) seg0) :: map g_id (skipn (S t) (c_segs c))) with ([g_id (nth t (c_segs c) seg0)] ++ map g_id (skipn (S t) (c_segs c))) in SP.
      rewrite cnt_app in SP. lia.
    - lia. }
  assert (V' : (is_pool (c_owner c'), locs_of (c_segs c')) = (true, firstn pos (locs_of (c_segs c)) ++ locs_of (c_segs oc) ++ skipn pos (locs_of (c_segs c)))).
  { rewrite SC, !locs_of_app, HL, HR. reflexivity. }
  rewrite Oc. cbn [is_pool]. rewrite andb_true_r. destruct (Nat.ltb_spec 0 q) as [Q|Q].
  - assert (Nt : nth t (c_arr c) seg0 = nth t (c_segs c) seg0) by (unfold c_segs; rewrite nth_firstn_lt; auto; rewrite <- LS; auto).
    rewrite Nt. destruct (inc_pool _ s1 [g_id (nth t (c_segs c) seg0)] I) as (r & Er & _ & Pr & Cr).
    { intros i [<-|[]]. eapply cont_ids; eauto. { rewrite Oc. reflexivity. } apply in_map, nth_In. auto. }
    exists r. split; auto. rewrite <- V'. apply (put_ok _ noX s1 k c c' r (s_free s1) I Ec); auto.
    intros i. rewrite Cr. cbn [cnt_of]. rewrite Oc, Oo. cbn [c' c_owner is_pool]. fold c'. rewrite CN. unfold noX. lia.
  - exists (s_refs s1). split; auto. rewrite <- V'. apply (put_ok _ noX s1 k c c' (s_refs s1) (s_free s1) I Ec); auto.
    + apply (i_pi _ _ _ I).
    + intros i. cbn [cnt_of]. rewrite Oc, Oo. cbn [c' c_owner is_pool]. fold c'. rewrite CN. unfold noX. lia.
Qed.

Lemma Inv_shape X s m : Inv X noY s -> same_shape (s_mem s) m -> Inv X noY (with_mem s m).
Proof.
  intros I [_ H]. constructor; cbn [with_mem s_size s_refs s_free s_raw s_mem s_conts s_handles]; try apply I.
  - intros i z Hz. destruct (i_mem _ _ _ I i z Hz) as (l & E & L). specialize (H i). rewrite E in H.
    destruct (nth_error m i) as [[l'|]|]; try contradiction. exists l'. split; auto. congruence.
  - intros k c Hk. destruct (i_ok _ _ _ I k c Hk) as [O1 O2]. split; auto. destruct (c_owner c) as [|e|]; auto.
    destruct O2 as (L & l & g & M1 & M2 & M3 & M4). split; auto. specialize (H e). rewrite M1 in H.
    destruct (nth_error m e) as [[l'|]|]; try contradiction. exists l', g. split; auto. split; auto. split; auto. congruence.
Qed.

Lemma drop_pending s1 oc : Inv (fun i => noX i + cnt_of (Some oc) i) noY s1 -> c_owner oc = OPool ->
  exists refs free, dec_refs (s_refs s1) (s_free s1) (map g_id (c_segs oc)) = Ok (refs, free) /\ Inv noX noY (with_pool s1 refs free).
Proof.
  intros I Oo. destruct (dec_refs_ok (length (s_size s1)) (s_raw s1) (map g_id (c_segs oc)) (s_refs s1) (s_free s1) (i_pi _ _ _ I)) as (r' & f' & E & P' & C').
  { intros i. rewrite (i_ref _ _ _ I). cbn [cnt_of]. rewrite Oo. cbn [is_pool]. lia. }
  exists r', f'. split; auto. constructor; cbn [with_pool s_size s_refs s_free s_raw s_mem s_conts s_handles]; auto; try apply I.
  intros i. rewrite C', (i_ref _ _ _ I). cbn [cnt_of]. rewrite Oo. cbn [is_pool]. unfold noX. lia.
Qed.

Lemma used_vt s s' : map vc (s_conts s) = map vc (s_conts s') -> forall a, used (view_of s) a <-> used (view_of s') a.
Proof.
  intros H a. unfold used, view_of. cbn [v_conts]. fold vc in *. change (fun c => option_map (fun c0 => (is_pool (c_owner c0), locs_of (c_segs c0))) c) with vc.
  change (map (option_map (fun c => (is_pool (c_owner c), locs_of (c_segs c)))) (s_conts s)) with (map vc (s_conts s)).
  change (map (option_map (fun c => (is_pool (c_owner c), locs_of (c_segs c)))) (s_conts s')) with (map vc (s_conts s')). rewrite H. tauto.
Qed.

Definition ins_pre s h h2 (mv : bool) : Prop :=
  h < length (s_handles s) /\ h2 < length (s_handles s) /\
  match buf (view_of s) h, buf (view_of s) h2 with
  | Some (k, l), Some (k2, l2) => k = true /\ (mv = true -> handle (view_of s) h <> handle (view_of s) h2)
  | _, _ => h <> h2
  end.

(* why an insertion is refused *)
Definition no_place s h pos h2 : Prop :=
  exists k k2 c c2 t q, hnd s h = Some k /\ hnd s h2 = Some k2 /\ getc s k = Some c /\ getc s k2 = Some c2 /\ locate (c_segs c) pos = (t, q) /\
    (is_pool (c_owner c2) = true -> c_cap c < c_num c + c_num c2 + (if 0 <? q then 1 else 0)).
Definition no_memory s h2 : Prop :=
  exists l, buf (view_of s) h2 = Some (false, l) /\ (s_free s = [] \/ free_bytes s < length l).

Definition ins_post s h pos h2 mv (r : res (st * bout)) : Prop :=
  exists s' o, r = Ok (s', o) /\ ((o = RTerminate /\ no_memory s h2) \/
    (Inv noX noY s' /\ s_size s' = s_size s /\ s_raw s' = s_raw s /\ (o = RThrown -> no_place s h pos h2) /\
     insert_rel (view_of s) (view_of s') h pos h2 mv o)).

Lemma keeps_refl (v : view B) : keeps v v.
Proof. intros a _ _. auto. Qed.

(* the end of Insert: optional release of the source *)
Lemma insert_end s s3 h2 (mv : bool) : Inv noX noY s3 ->
  exists s4, (if mv then release s3 h2 else Ok s3) = Ok s4 /\ Inv noX noY s4 /\ vt s4 = (if mv then t_release (vt s3) h2 else vt s3) /\
    MK s3 s4 /\ s_size s4 = s_size s3 /\ s_raw s4 = s_raw s3.
Proof.
  intros I. destruct mv.
  - destruct (release_ok _ _ s3 h2 I) as (s4 & E & I4 & V & M & Z). exists s4. auto.
  - exists s3. split; auto. split; auto. split; auto. split; [apply MK_refl|auto].
Qed.

Lemma locs_nil_num sizes (m : memory B) c : cont_ok sizes m c -> 0 < total (c_segs c) -> 0 < c_num c.
Proof. intros K H. rewrite <- (segs_len _ _ _ K). destruct (c_segs c); cbn in *; lia. Qed.

Lemma insert_ok s h pos h2 mv : Inv noX noY s -> ins_pre s h h2 mv -> ins_post s h pos h2 mv (insert s h pos h2 mv).
Proof.
  intros I (H1 & H2 & Hp). unfold ins_post, insert. destruct (hnd s h2) as [k2|] eqn:Eh2.
  2: { exists s, RDone. split; auto. right. split; auto. split; auto. split; auto. split; [discriminate|]. unfold insert_rel. rewrite (buf_null _ _ Eh2).
       split; auto. split; auto. apply keeps_refl. }
  destruct (hnd_live _ _ _ _ I Eh2) as (c2 & Ec2 & Eg2 & Eb2). rewrite Eg2.
  destruct (Nat.eqb_spec (total (c_segs c2)) 0) as [Z|Z].
  { exists s, RDone. split; auto. right. split; auto. split; auto. split; auto. split; [discriminate|]. unfold insert_rel. rewrite Eb2, locs_of_length, Z. cbn [Nat.eqb].
    split; auto. split; auto. apply keeps_refl. }
  assert (Zr : forall v' o (X : Prop), (X -> insert_rel (view_of s) v' h pos h2 mv o) <-> (X -> insert_rel (view_of s) v' h pos h2 mv o)) by tauto. clear Zr.
  destruct (hnd s h) as [k|] eqn:Eh.
  2: { rewrite (buf_null _ _ Eh) in Hp.
    destruct mv.
    - eexists _, RDone. split; [reflexivity|]. right. split; [|split; [reflexivity|split; [reflexivity|split; [discriminate|]]]].
      + constructor; cbn [with_handles s_size s_refs s_free s_raw s_mem s_conts s_handles]; try apply I.
        * intros h' k' E. rewrite !nth_error_upd, upd_length in E. destruct ((h' =? h) && (h <? length (s_handles s))).
          -- injection E as <-. eauto.
          -- destruct (_ && _); [discriminate|]. apply (i_h _ _ _ I h'). auto.
        * intros k' c' E. left. destruct (i_live _ _ _ I k' c' E) as [R|[]]. apply refers_true in R as [h' R]. apply refers_true.
          destruct (Nat.eq_dec h' h2) as [->|N].
          -- exists h. rewrite nth_error_upd_same by (rewrite upd_length; auto). apply nth_None_error in R. unfold hnd in Eh2. congruence.
          -- exists h'. assert (h' <> h). { intros ->. apply nth_None_error in R. unfold hnd in Eh. congruence. }
             rewrite !nth_error_upd_other by auto. auto.
      + unfold insert_rel. rewrite Eb2, locs_of_length. destruct (Nat.eqb_spec (total (c_segs c2)) 0); [lia|].
        change (handle (view_of s) h) with (hnd s h). change (handle (view_of s) h2) with (hnd s h2). rewrite Eh, Eh2.
        split; auto. split; [intros a _ _; reflexivity|]. unfold vtabs, view_of. cbn [v_handles v_conts with_handles s_handles s_conts]. f_equal.
        apply upd_comm. auto.
    - destruct (duplicate_ok noX s h2 k2 c2 I Eh2 Ec2) as (s1 & c' & E & W & I1 & S1 & O1 & N1 & K1). rewrite E. cbn [bind].
      assert (Hh : s_handles s1 = s_handles s /\ s_size s1 = s_size s /\ s_mem s1 = s_mem s /\ s_conts s1 = s_conts s /\ s_raw s1 = s_raw s) by (rewrite W; auto).
      destruct Hh as (Y1 & Y2 & Y3 & Y4 & Y5).
      destruct (put_new_ok noX s1 h c' I1) as (s' & E' & I' & V & M & Z1 & Z2). { rewrite Y1; auto. } { rewrite Y2, Y3. auto. }
      rewrite E'. cbn [bind]. exists s', RDone. split; auto. right. split; auto. split; [congruence|]. split; [congruence|]. split; [discriminate|].
      unfold insert_rel. rewrite Eb2, locs_of_length. destruct (Nat.eqb_spec (total (c_segs c2)) 0); [lia|].
      change (handle (view_of s) h) with (hnd s h). change (handle (view_of s) h2) with (hnd s h2). rewrite Eh, Eh2.
      split; auto. split. { intros a _ Ha. apply M in Ha. rewrite Y3 in Ha. auto. }
      rewrite !vt_view, V, S1, O1. unfold vt. rewrite Y1, Y4. reflexivity. }
  destruct (hnd_live _ _ _ _ I Eh) as (c & Ec & Eg & Eb). rewrite Eg. rewrite Eb, Eb2 in Hp. destruct Hp as [Oc Hmv].
  change (handle (view_of s) h) with (hnd s h) in Hmv. change (handle (view_of s) h2) with (hnd s h2) in Hmv. rewrite Eh, Eh2 in Hmv.
  assert (Oc' : c_owner c = OPool) by (destruct (c_owner c); auto; discriminate).
  assert (REL : forall s4 o, insert_rel (view_of s) (view_of s4) h pos h2 mv o <->
     match o with
     | RDone => keeps (view_of s) (view_of s4) /\
          exists l2', (if is_pool (c_owner c2) then l2' = locs_of (c_segs c2)
                       else fresh (view_of s) l2' /\ map (mget (s_mem s4)) l2' = map (mget (s_mem s)) (locs_of (c_segs c2))) /\
          let t1 := t_put (vt s) k (true, firstn pos (locs_of (c_segs c)) ++ l2' ++ skipn pos (locs_of (c_segs c))) in
          vt s4 = if mv then t_release (if is_pool (c_owner c2) then t_put t1 k2 (is_pool (c_owner c2), []) else t1) h2 else t1
     | RThrown => vt s4 = vt s /\ keeps (view_of s) (view_of s4)
     | _ => False
     end).
  { intros s4 o. unfold insert_rel. rewrite Eb2, locs_of_length. destruct (Nat.eqb_spec (total (c_segs c2)) 0); [lia|].
    change (handle (view_of s) h) with (hnd s h). change (handle (view_of s) h2) with (hnd s h2). rewrite Eh, Eh2.
    assert (EV : vcont (view_of s) k = Some (is_pool (c_owner c), locs_of (c_segs c))).
    { unfold buf in Eb. change (handle (view_of s) h) with (hnd s h) in Eb. rewrite Eh in Eb. exact Eb. }
    rewrite EV, Oc. destruct o; tauto. }
  pose proof (i_ok _ _ _ I k2 c2 Ec2) as K2. pose proof (locs_nil_num _ _ _ K2 ltac:(lia)) as NN2.
  rewrite Oc. cbn [andb].
  destruct (is_pool (c_owner c2)) eqn:Op2; cbn [negb].
  - (* pool source *)
    destruct mv; cbn [negb].
    + (* shared container *)
      cbn [bind]. assert (Nk : k <> k2) by (intros ->; apply Hmv; auto). clear Hmv.
      destruct (Nat.eqb_spec k k2); [congruence|].
      destruct (locate (c_segs c) pos) as [t q] eqn:El.
      destruct (Nat.ltb_spec (c_cap c) (c_num c + c_num c2 + (if 0 <? q then 1 else 0))) as [HC|HC].
      { exists s, RThrown. split; auto. right. split; auto. split; auto. split; auto. split; [intros _; exists k, k2, c, c2, t, q; auto 10|]. apply REL. split; auto. apply keeps_refl. }
      set (e2 := mkC (c_arr c2) 0 (c_owner c2)).
      assert (Oc2 : c_owner c2 = OPool) by (destruct (c_owner c2); auto; discriminate).
      destruct (put_ok noX (fun i => noX i + cnt_of (Some c2) i) s k2 c2 e2 (s_refs s) (s_free s) I Ec2 (i_pi _ _ _ I)) as [I2 V2].
      { intros i. cbn [cnt_of e2]. unfold e2. cbn [c_owner c_segs c_num firstn map count_occ]. unfold c_segs at 2. cbn [c_num firstn map count_occ].
        change (firstn (c_num c2) (c_arr c2)) with (c_segs c2). destruct (is_pool (c_owner c2)); unfold noX; lia. }
      { split; [cbn; lia|]. unfold e2. cbn [c_owner]. rewrite Oc2. constructor. }
      rewrite with_pool_id in I2, V2. set (s1 := set_cont s k2 e2) in *.
      assert (Ec1 : nth_error (s_conts s1) k = Some (Some c)) by (cbn [s1 set_cont with_conts s_conts]; rewrite nth_error_upd_other by auto; auto).
      destruct (insert_tail s1 k c c2 pos t q I2 Ec1 Oc' Oc2 K2 NN2 El HC) as (refs & Er & I3 & V3).
      cbn [s1 set_cont with_conts s_refs] in Er. rewrite Oc in Er. rewrite Er. cbn [bind].
      set (c' := mkC (ins_array c (Some (c_arr c2)) (c_num c2) t q) (c_num c + c_num c2 + (if 0 <? q then 1 else 0)) OPool) in *.
      rewrite Oc'. fold c'. cbn [is_pool].
      assert (G2 : getc (set_cont (with_pool s refs (s_free s)) k c') k2 = Some c2).
      { unfold getc. apply nth_None_error. cbn [set_cont with_conts with_pool s_conts]. rewrite nth_error_upd_other by auto. auto. }
      rewrite G2. cbn [bind]. fold e2.
      assert (ES : set_cont (set_cont (with_pool s refs (s_free s)) k c') k2 e2 = set_cont (with_pool s1 refs (s_free s1)) k c').
      { unfold s1, set_cont, with_conts, with_pool. cbn. f_equal. apply upd_comm. auto. }
      rewrite ES. destruct (insert_end s _ h2 true I3) as (s4 & E4 & I4 & V4 & M4 & Z1 & Z2). rewrite E4. cbn [bind].
      exists s4, RDone. split; auto. right. split; auto. split; [rewrite Z1; reflexivity|]. split; [rewrite Z2; reflexivity|]. split; [discriminate|].
      apply REL. split. { intros a _ Ha. apply M4 in Ha. exact Ha. }
      exists (locs_of (c_segs c2)). split; auto. cbv zeta. rewrite V4, V3, V2. f_equal. unfold t_put, vt. cbn [fst snd]. f_equal. cbn [e2 c_owner].
      rewrite upd_comm by auto. rewrite Op2. reflexivity.
    + (* duplicate *)
      destruct (duplicate_ok noX s h2 k2 c2 I Eh2 Ec2) as (s1 & oc & E & W & I1 & S1 & O1 & N1 & K1). rewrite E. cbn [bind].
      assert (Hh : s_handles s1 = s_handles s /\ s_size s1 = s_size s /\ s_mem s1 = s_mem s /\ s_conts s1 = s_conts s /\ s_raw s1 = s_raw s) by (rewrite W; auto).
      destruct Hh as (Y1 & Y2 & Y3 & Y4 & Y5).
      assert (Oo : c_owner oc = OPool) by (rewrite O1; destruct (c_owner c2); auto; discriminate).
      assert (VT1 : vt s1 = vt s) by (unfold vt; rewrite Y1, Y4; auto).
      destruct (locate (c_segs c) pos) as [t q] eqn:El.
      destruct (Nat.ltb_spec (c_cap c) (c_num c + c_num oc + (if 0 <? q then 1 else 0))) as [HC|HC].
      { rewrite Oo. cbn [is_pool]. destruct (drop_pending s1 oc I1 Oo) as (r & f & Ed & Id). rewrite Ed. cbn [bind].
        eexists _, RThrown. split; [reflexivity|]. right. split; [exact Id|]. split; [rewrite <- Y2; reflexivity|]. split; [rewrite <- Y5; reflexivity|].
        split; [intros _; exists k, k2, c, c2, t, q; rewrite N1 in HC; auto 10|]. apply REL. split. { rewrite <- VT1. reflexivity. } intros a _ _. cbn [view_of v_mem with_pool s_mem]. rewrite Y3. auto. }
      destruct (insert_tail s1 k c oc pos t q) as (refs & Er & I3 & V3); auto.
      { rewrite Y4; auto. } { rewrite Y2, Y3; auto. } { rewrite N1; auto. }
      rewrite Oc in Er. rewrite Er. cbn [bind]. rewrite Oc'. cbn [is_pool negb andb]. 
      destruct (insert_end s _ h2 false I3) as (s4 & E4 & I4 & V4 & M4 & Z1 & Z2). rewrite E4. cbn [bind].
      exists s4, RDone. split; auto. right. split; auto. split; [rewrite Z1; exact Y2|]. split; [rewrite Z2; exact Y5|]. split; [discriminate|].
      apply REL. split. { intros a _ Ha. apply M4 in Ha. cbn [view_of v_mem]. rewrite Ha. cbn [set_cont with_conts with_pool s_mem]. rewrite Y3. auto. }
      exists (locs_of (c_segs c2)). split; auto. cbv zeta. rewrite V4, V3, VT1, S1. reflexivity.
  - (* deep copy *)
    destruct (take_ok noX s (total (c_segs c2)) I) as (o & Et & Ht). rewrite Et. cbn [bind].
    destruct o as [[s1 oc]|]. 2: { cbn [bind]. exists s, RTerminate. split; auto. left. split; auto. exists (locs_of (c_segs c2)). rewrite locs_of_length. split; auto. }
    destruct Ht as (W & I1 & K1 & Oo & T1 & _ & _ & FR & _). specialize (T1 ltac:(lia)).
    assert (Hh : s_handles s1 = s_handles s /\ s_size s1 = s_size s /\ s_mem s1 = s_mem s /\ s_conts s1 = s_conts s /\ s_raw s1 = s_raw s) by (rewrite W; auto).
    destruct Hh as (Y1 & Y2 & Y3 & Y4 & Y5).
    assert (NE1 : nonempty (c_segs oc)).
    { destruct K1 as [_ K1]. rewrite Oo in K1. eapply Forall_impl; [|exact K1]. intros g (_ & Hg & _). auto. }
    assert (NE2 : nonempty (c_segs c2)).
    { destruct K2 as [K2 K2']. destruct (c_owner c2) as [|e|] eqn:Eo2; try discriminate.
      - destruct K2' as (_ & l & g & _ & Eg' & _). rewrite Eg' in *. cbn [total] in Z. constructor; [lia|constructor].
      - lia. }
    assert (SA : forall l, slice (locs_of l) 0 (total l) = locs_of l) by (intros l; rewrite <- locs_of_length; apply slice_all).
    assert (LV : forall c0, cont_ok (s_size s) (s_mem s) c0 -> live (s_mem s) (locs_of (c_segs c0))) by (intros; eapply cont_live; eauto; apply (i_mem _ _ _ I)).
    destruct (copyfrom_ok (c_segs oc) (c_segs c2) (s_mem s1) _ _ 0 0 _ _ (total (c_segs c2)) NE1 NE2 (ptr_buf_ok _ NE1) (ptr_buf_ok _ NE2)) as (m & Em & Sh & C1 & C2).
    { lia. } { lia. } { lia. }
    { rewrite <- T1, SA. apply FR. }
    { rewrite <- T1 at 1. rewrite !SA. intros a Ha Hb. apply FR in Ha. apply Ha. apply used_iff. eauto. }
    { rewrite <- T1, SA, Y3. apply LV. auto. }
    { rewrite SA, Y3. apply LV. auto. }
    rewrite SA in C1. rewrite <- T1, SA in C1, C2. rewrite Em. cbn [bind].
    pose proof (Inv_shape _ s1 m I1 Sh) as I1m. set (s1m := with_mem s1 m) in *.
    assert (K1m : cont_ok (s_size s1m) (s_mem s1m) oc).
    { destruct K1 as [X1 X2]. rewrite Oo in X2. split; auto. rewrite Oo. cbn [s1m with_mem s_size]. rewrite Y2. auto. }
    destruct (locate (c_segs c) pos) as [t q] eqn:El.
    destruct (Nat.ltb_spec (c_cap c) (c_num c + c_num oc + (if 0 <? q then 1 else 0))) as [HC|HC].
    { rewrite Oo. cbn [is_pool]. destruct (drop_pending s1m oc I1m Oo) as (r & f & Ed & Id). rewrite Ed. cbn [bind].
      eexists _, RThrown. split; [reflexivity|]. right. split; [exact Id|]. split; [rewrite <- Y2; reflexivity|]. split; [rewrite <- Y5; reflexivity|].
      split; [intros _; exists k, k2, c, c2, t, q; rewrite Op2; repeat (split; [solve [auto]|]); discriminate|]. apply REL. split. { unfold vt. cbn [with_pool with_mem s1m s_handles s_conts]. rewrite Y1, Y4. auto. }
      intros a Ha _. cbn [view_of v_mem with_pool s1m with_mem s_mem]. rewrite C2, Y3; auto. intros Hb. apply FR in Hb. auto. }
    destruct (insert_tail s1m k c oc pos t q) as (refs & Er & I3 & V3); auto.
    { cbn [s1m with_mem s_conts]. rewrite Y4; auto. } { apply (locs_nil_num _ _ _ K1). lia. }
    rewrite Oc in Er. rewrite Er. cbn [bind]. rewrite Oc'. cbn [is_pool negb andb].
    set (c' := mkC (ins_array c (Some (c_arr oc)) (c_num oc) t q) (c_num c + c_num oc + (if 0 <? q then 1 else 0)) OPool) in *.
    set (s3 := set_cont (with_pool s1m refs (s_free s1m)) k c') in *.
    destruct (insert_end s _ h2 mv I3) as (s4 & E4 & I4 & V4 & M4 & Z1 & Z2). cbn [bind]. rewrite E4. cbn [bind].
    exists s4, RDone. split; auto. right. split; auto. split; [rewrite Z1; exact Y2|]. split; [rewrite Z2; exact Y5|]. split; [discriminate|].
    apply REL. split.
    { intros a Ha Hb. apply M4 in Hb. cbn [view_of v_mem]. rewrite Hb. cbn [s3 set_cont with_conts with_pool s1m with_mem s_mem].
      rewrite C2, Y3; auto. intros Hc. apply FR in Hc. auto. }
    exists (locs_of (c_segs oc)). split.
    { split; auto. transitivity (map (mget m) (locs_of (c_segs oc))); [|rewrite C1, Y3; auto].
      apply map_ext_in. intros a Ha. apply M4.
      assert (Ek3 : nth_error (s_conts s3) k = Some (Some c')).
      { cbn [s3 set_cont with_conts s_conts with_pool s1m with_mem]. apply nth_error_upd_same. rewrite Y4. apply nth_error_Some. congruence. }
      assert (Nk4 : nth_error (map vc (s_conts s4)) k = Some (vc (Some c'))).
      { change (map vc (s_conts s4)) with (snd (vt s4)). rewrite V4. destruct mv.
        - apply t_release_live; auto. left. change (hnd s3 h2) with (nth h2 (s_handles s1) None). rewrite Y1. fold (hnd s h2). rewrite Eh2. intros X. apply Hmv; auto; congruence.
        - cbn [vt snd]. rewrite nth_error_map, Ek3. reflexivity. }
      assert (Hin : In a (locs_of (c_segs c'))).
      { assert (V3' : nth_error (snd (vt s3)) k = Some (vc (Some c'))) by (cbn [vt snd]; rewrite nth_error_map, Ek3; reflexivity).
        rewrite V3 in V3'. unfold t_put in V3'. cbn [snd] in V3'. rewrite nth_error_upd_same in V3'.
        - injection V3' as V3'. rewrite <- V3'. apply in_app_iff. right. apply in_app_iff. auto.
        - cbn [vt snd s1m with_mem s_conts]. rewrite map_length, Y4. apply nth_error_Some. congruence. }
      rewrite nth_error_map in Nk4. destruct (nth_error (s_conts s4) k) as [[c4|]|] eqn:E4k; try discriminate.
      cbn [option_map vc] in Nk4. injection Nk4 as N1 N2. apply used_iff. exists k, c4. split; auto. rewrite N2. auto. }
    cbv zeta. assert (VS : vt s1m = vt s) by (unfold vt; cbn [s1m with_mem s_handles s_conts]; rewrite Y1, Y4; auto).
    rewrite V4, V3, VS. reflexivity.
Qed.

(* ---- parts ---- *)
Lemma nth_error_seq_lt f n i : i < n -> nth_error (seq f n) i = Some (f + i).
Proof. intros H. rewrite (nth_error_nth' _ 0) by (rewrite seq_length; auto). rewrite seq_nth; auto. Qed.
Lemma firstn_In {A} (l : list A) n x : In x (firstn n l) -> In x l.
Proof. intros H. rewrite <- (firstn_skipn n l). apply in_app_iff. auto. Qed.
Lemma skipn_In {A} (l : list A) n x : In x (skipn n l) -> In x l.
Proof. intros H. rewrite <- (firstn_skipn n l). apply in_app_iff. auto. Qed.

Lemma gnp_ids segs r : n_first r <= n_last r < length segs ->
  map g_id (gnp_segs segs r) = map g_id (firstn (n_last r + 1 - n_first r) (skipn (n_first r) segs)).
Proof.
  intros H. apply list_eq_nth_error. intros i. unfold gnp_segs. rewrite map_map, nth_error_map, nth_error_map.
  destruct (Nat.lt_ge_cases i (n_last r + 1 - n_first r)) as [Hi|Hi].
  - rewrite nth_error_seq_lt by auto. rewrite nth_error_firstn_lt by auto. rewrite nth_error_skipn. cbn [option_map].
    rewrite (nth_error_nth' segs seg0) by lia. cbn [option_map]. f_equal.
    destruct (_ =? n_first r); [destruct (n_ptr r) as [[o f]|]|]; cbn [g_id]; destruct (_ =? n_last r); reflexivity.
  - rewrite (proj2 (nth_error_None _ _)) by (rewrite seq_length; auto). rewrite (proj2 (nth_error_None _ _)); auto. rewrite firstn_length. lia.
Qed.

Lemma gnp_pseg sizes segs r P0 P : GR segs r P0 P -> Forall (pseg sizes) segs -> Forall (pseg sizes) (gnp_segs segs r).
Proof.
  intros G HS. assert (Sub : forall a, In a (locs_of (gnp_segs segs r)) -> In a (locs_of segs)).
  { intros a. rewrite (gr_locs _ _ _ _ G). unfold slice. intros Ha. apply firstn_In in Ha. apply skipn_In in Ha. auto. }
  rewrite Forall_forall in HS. apply Forall_forall. intros g Hg.
  assert (A : g_id g = g_obj g /\ 0 < g_len g).
  { unfold gnp_segs in Hg. apply in_map_iff in Hg as (n & <- & Hn). apply in_seq in Hn. pose proof (gr_le _ _ _ _ G). pose proof (gr_pos _ _ _ _ G).
    destruct (HS (nth n segs seg0)) as (S1 & S2 & _). { apply nth_In. lia. }
    destruct (Nat.eqb_spec n (n_first r)) as [->|N1].
    - destruct (n_ptr r) as [[o f]|] eqn:Ep; [|exfalso; apply (gr_ptr _ _ _ _ G); auto].
      apply (gr_obj _ _ _ _ G) in Ep. destruct (_ =? n_last r); cbn [g_id g_obj g_len]; split; try lia; congruence.
    - destruct (_ =? n_last r); cbn [g_id g_obj g_len]; split; auto; lia. }
  destruct A as [A1 A2]. split; auto. split; auto.
  destruct (in_locs segs (g_obj g, g_off g + g_len g - 1)) as [F _]. destruct F as (g2 & G1 & G2 & G3).
  { apply Sub. apply in_locs. exists g. cbn [fst snd]. split; auto. split; auto. lia. }
  cbn [fst snd] in *. destruct (HS g2 G1) as (_ & _ & z & Z1 & Z2). exists z. rewrite G2. split; auto. lia.
Qed.

Lemma next_part_ok X s k c p P F len : Inv X noY s -> nth_error (s_conts s) k = Some (Some c) -> c_owner c = OPool -> PR (c_segs c) p P F -> 0 < len ->
  if F <? len then next_part s c p len = Ok (s, p, None)
  else exists s1 q d, next_part s c p len = Ok (s1, q, Some d) /\ s1 = with_pool s (s_refs s1) (s_free s1) /\
    Inv (fun i => X i + cnt_of (Some d) i) noY s1 /\ PR (c_segs c) q (P + len) (F - len) /\ c_owner d = OPool /\
    cont_ok (s_size s) (s_mem s) d /\ locs_of (c_segs d) = slice (locs_of (c_segs c)) P len.
Proof.
  intros I Ec Oc R Hl. pose proof (i_ok _ _ _ I k c Ec) as K. pose proof (segs_len _ _ _ K) as LS. destruct K as [K1 K2]. rewrite Oc in K2.
  assert (NE : nonempty (c_segs c)) by (eapply Forall_impl; [|exact K2]; intros g (_ & Hg & _); auto).
  pose proof (get_next_part_ok (c_segs c) NE p P F len R Hl) as G. unfold next_part. destruct (F <? len).
  { rewrite G. reflexivity. }
  destruct G as (q & r & E & RQ & G). rewrite E. cbn [bind]. rewrite Oc. cbn [is_pool].
  pose proof (gr_le _ _ _ _ G) as LE.
  assert (EI : map g_id (firstn (n_last r + 1 - n_first r) (skipn (n_first r) (c_arr c))) = map g_id (gnp_segs (c_segs c) r)).
  { rewrite gnp_ids by auto. f_equal. unfold c_segs. rewrite skipn_firstn_comm, firstn_firstn. f_equal. lia. }
  rewrite EI. destruct (inc_pool X s (map g_id (gnp_segs (c_segs c) r)) I) as (rf & Er & Ir & _).
  { intros i Hi. rewrite gnp_ids in Hi by auto. eapply cont_ids; eauto. { rewrite Oc. reflexivity. }
    apply in_map_iff in Hi as (g & <- & Hg). apply in_map. apply firstn_In in Hg. apply skipn_In in Hg. auto. }
  rewrite Er. cbn [bind]. set (sg := gnp_segs (c_segs c) r) in *.
  assert (SC : c_segs (mkC (sg ++ repeat seg0 (c_cap c - length sg)) (length sg) OPool) = sg).
  { unfold c_segs. cbn [c_num c_arr]. rewrite firstn_app, Nat.sub_diag, firstn_all, firstn_O, app_nil_r. auto. }
  eexists _, q, _. split; [reflexivity|]. split; [reflexivity|].
  split. { constructor; try apply Ir. intros i. cbn [cnt_of c_owner is_pool]. rewrite SC. apply (i_ref _ _ _ Ir). }
  split; auto. split; auto. split.
  - split. { cbn [c_num c_arr]. rewrite app_length. lia. } cbn [c_owner]. rewrite SC. eapply gnp_pseg; eauto.
  - rewrite SC. unfold sg. rewrite (gr_locs _ _ _ _ G). f_equal. lia.
Qed.

Lemma part_ok s h h2 skip n : Inv noX noY s -> h < length (s_handles s) -> 0 < n ->
  match buf (view_of s) h2 with Some (k, _) => k = true | None => True end ->
  exists s' o, part s h h2 skip n = Ok (s', o) /\ Inv noX noY s' /\ s_size s' = s_size s /\ s_raw s' = s_raw s /\
    MK s s' /\
      match buf (view_of s) h2 with
      | Some (k, l) => let pos := if skip <=? length l then skip else 0 in
                       if pos + n <=? length l
                       then o = RDone /\ vt s' = t_new (vt s) h (k, slice l pos n)
                       else o = RNothing /\ vt s' = t_set (vt s) h None
      | None => o = RNothing /\ vt s' = t_set (vt s) h None
      end.
Proof.
  intros I Hh Hn Hk. unfold part. destruct (hnd s h2) as [k|] eqn:Eh2.
  2: { rewrite (buf_null _ _ Eh2). destruct (set_handle_ok noX noY s h None I Hh) as (s1 & E1 & I1 & V1 & M1 & Z1 & Z2).
       { intros j []. } { discriminate. } rewrite E1. exists s1, RNothing. split; [reflexivity|]. auto 10. }
  destruct (hnd_live _ _ _ _ I Eh2) as (c & Ec & Eg & Eb). rewrite Eg, Eb in *. rewrite locs_of_length.
  assert (Oc : c_owner c = OPool) by (destruct (c_owner c); auto; discriminate).
  assert (NE : nonempty (c_segs c)).
  { destruct (i_ok _ _ _ I k c Ec) as [_ K2]. rewrite Oc in K2. eapply Forall_impl; [|exact K2]; intros g (_ & Hg & _); auto. }
  cbv zeta. set (pos := if skip <=? total (c_segs c) then skip else 0).
  assert (Sk : exists s1 p1, (if skip =? 0 then Ok (s, ptr_buf (c_segs c))
         else do (s1, q, d) <- next_part s c (ptr_buf (c_segs c)) skip;
              match d with
              | Some d => if is_pool (c_owner d)
                          then do (refs, free) <- dec_refs (s_refs s1) (s_free s1) (map g_id (c_segs d)); Ok (with_pool s1 refs free, q)
                          else Ok (s1, q)
              | None => Ok (s1, q)
              end) = Ok (s1, p1) /\ s1 = with_pool s (s_refs s1) (s_free s1) /\ Inv noX noY s1 /\ PR (c_segs c) p1 pos (total (c_segs c) - pos)).
  { pose proof (ptr_buf_ok _ NE) as R0. destruct (Nat.eqb_spec skip 0) as [->|Ns].
    - exists s, (ptr_buf (c_segs c)). split; auto. split; [symmetry; apply with_pool_id|]. split; auto. unfold pos. cbn [Nat.leb]. rewrite Nat.sub_0_r. auto.
    - pose proof (next_part_ok noX s k c _ _ _ skip I Ec Oc R0 ltac:(lia)) as N. unfold pos. destruct (Nat.leb_spec skip (total (c_segs c))) as [L|L].
      + destruct (Nat.ltb_spec (total (c_segs c)) skip); [lia|]. destruct N as (s1 & q & d & E & W & I1 & RQ & Od & _). rewrite E. cbn [bind]. rewrite Od. cbn [is_pool].
        destruct (drop_pending s1 d I1 Od) as (rf & f & Ed & Id). rewrite Ed. cbn [bind]. eexists _, q. split; [reflexivity|].
        split; [rewrite W; reflexivity|]. split; auto.
      + destruct (Nat.ltb_spec (total (c_segs c)) skip); [|lia]. rewrite N. cbn [bind]. exists s, (ptr_buf (c_segs c)). split; auto.
        split; [symmetry; apply with_pool_id|]. split; auto. rewrite Nat.sub_0_r. auto. }
  destruct Sk as (s1 & p1 & E1 & W1 & I1 & R1). rewrite E1. cbn [bind]. clear E1.
  assert (Y : s_handles s1 = s_handles s /\ s_size s1 = s_size s /\ s_mem s1 = s_mem s /\ s_conts s1 = s_conts s /\ s_raw s1 = s_raw s) by (rewrite W1; auto).
  destruct Y as (Y1 & Y2 & Y3 & Y4 & Y5).
  assert (Lp : pos <= total (c_segs c)) by (unfold pos; destruct (Nat.leb_spec skip (total (c_segs c))); lia).
  pose proof (next_part_ok noX s1 k c _ _ _ n I1 ltac:(rewrite Y4; auto) Oc R1 Hn) as N.
  destruct (Nat.ltb_spec (total (c_segs c) - pos) n), (Nat.leb_spec (pos + n) (total (c_segs c))); try lia.
  - rewrite N. cbn [bind]. destruct (set_handle_ok noX noY s1 h None I1 ltac:(rewrite Y1; auto)) as (s2 & E2 & I2 & V2 & M2 & Z1 & Z2).
    { intros j []. } { discriminate. } rewrite E2. cbn [bind]. exists s2, RNothing. split; auto. split; auto. split; [congruence|]. split; [congruence|].
    split. { intros a Ha. rewrite M2, Y3; auto. } split; auto. rewrite V2. unfold vt. rewrite Y1, Y4. auto.
  - destruct N as (s2 & q & d & E & W & I2 & _ & Od & Kd & Ld). rewrite E. cbn [bind].
    assert (U : s_handles s2 = s_handles s1 /\ s_size s2 = s_size s1 /\ s_mem s2 = s_mem s1 /\ s_conts s2 = s_conts s1 /\ s_raw s2 = s_raw s1) by (rewrite W; auto).
    destruct U as (U1 & U2 & U3 & U4 & U5).
    destruct (put_new_ok noX s2 h d I2) as (s3 & E3 & I3 & V3 & M3 & Z1 & Z2). { rewrite U1, Y1; auto. } { rewrite U2, U3. auto. }
    rewrite E3. cbn [bind]. exists s3, RDone. split; auto. split; auto. split; [congruence|]. split; [congruence|].
    split. { intros a Ha. rewrite M3, U3, Y3; auto. } split; auto. rewrite V3, Od, Ld. unfold vt. rewrite U1, U4, Y1, Y4, Oc. auto.
Qed.

(* ---- writing ---- *)
Lemma mget_app (m : memory B) x a : fst a < length m -> mget (m ++ x) a = mget m a.
Proof. destruct a as [o f]. cbn [fst]. intros H. unfold mget. rewrite nth_error_app1 by auto. auto. Qed.
Lemma mget_firstn (m : memory B) n a : fst a < n -> mget (firstn n m) a = mget m a.
Proof. destruct a as [o f]. cbn [fst]. intros H. unfold mget. rewrite nth_error_firstn_lt by auto. auto. Qed.
Lemma mget_out (m : memory B) a : length m <= fst a -> mget m a = None.
Proof. destruct a as [o f]. cbn [fst]. intros H. unfold mget. rewrite (proj2 (nth_error_None _ _)) by auto. auto. Qed.

Lemma mget_obj (m : memory B) a : mget m a <> None -> fst a < length m.
Proof. intros H. destruct (Nat.lt_ge_cases (fst a) (length m)); auto. rewrite mget_out in H by auto. congruence. Qed.

Lemma write_ok s h bs : Inv noX noY s ->
  match buf (view_of s) h with Some (_, l) => length bs <= length l /\ NoDup (firstn (length bs) l) | None => True end ->
  exists s', write s h bs = Ok (s', RDone) /\ Inv noX noY s' /\ s_size s' = s_size s /\ s_raw s' = s_raw s /\ vt s' = vt s /\
    match buf (view_of s) h with
    | Some (_, l) => (forall a, ~ In a (firstn (length bs) l) -> mget (s_mem s') a = mget (s_mem s) a) /\
                     map (mget (s_mem s')) (firstn (length bs) l) = map Some bs
    | None => forall a, mget (s_mem s') a = mget (s_mem s) a
    end.
Proof.
  intros I H. unfold write. destruct (hnd s h) as [k|] eqn:Eh.
  2: { rewrite (buf_null _ _ Eh). exists s. auto 10. }
  destruct (hnd_live _ _ _ _ I Eh) as (c & Ec & Eg & Eb). rewrite Eg. rewrite Eb in *. destruct H as [Hl ND].
  destruct (Nat.eqb_spec (length bs) 0) as [E0|E0].
  { destruct bs; [|discriminate]. exists s. auto 10. }
  pose proof (i_ok _ _ _ I k c Ec) as K. rewrite locs_of_length in Hl.
  pose proof (cont_live _ _ c (i_mem _ _ _ I) K) as LV.
  assert (NE : nonempty (c_segs c)).
  { destruct K as [K1 K2]. destruct (c_owner c) as [|e|].
    - eapply Forall_impl; [|exact K2]; intros g (_ & Hg & _); auto.
    - destruct K2 as (_ & l & g & _ & Eg' & _). rewrite Eg' in *. cbn [total] in Hl. constructor; [lia|constructor].
    - exfalso. unfold c_segs in Hl. rewrite K2 in Hl. cbn in Hl. lia. }
  set (m0 := s_mem s ++ [Some bs]). set (n := length bs) in *.
  assert (SL : locs_of [mkSeg 0 (length (s_mem s)) 0 n] = map (fun i => (length (s_mem s), i)) (seq 0 n)).
  { cbn [locs_of flat_map]. rewrite app_nil_r. reflexivity. }
  assert (SS : slice (locs_of [mkSeg 0 (length (s_mem s)) 0 n]) 0 n = map (fun i => (length (s_mem s), i)) (seq 0 n)).
  { rewrite SL. unfold slice. cbn [skipn]. apply firstn_all2. rewrite map_length, seq_length. lia. }
  assert (ST : slice (locs_of (c_segs c)) 0 n = firstn n (locs_of (c_segs c))) by reflexivity.
  assert (FI : forall a, In a (firstn n (locs_of (c_segs c))) -> mget (s_mem s) a <> None).
  { intros a Ha. unfold live in LV. rewrite Forall_forall in LV. apply LV. eapply firstn_In; eauto. }
  assert (SRC : map (mget m0) (map (fun i => (length (s_mem s), i)) (seq 0 n)) = map Some bs).
  { rewrite map_map. apply list_eq_nth_error. intros i. rewrite !nth_error_map. destruct (Nat.lt_ge_cases i n) as [Hi|Hi].
    - rewrite nth_error_seq_lt by auto. cbn [option_map]. unfold mget, m0. rewrite nth_error_app2, Nat.sub_diag by auto. cbn [nth_error Nat.add].
      cbn [snd]. destruct (nth_error bs i) eqn:E; auto. apply nth_error_None in E. unfold n in Hi. lia.
    - rewrite (proj2 (nth_error_None _ _)) by (rewrite seq_length; auto). rewrite (proj2 (nth_error_None _ _)); auto. }
  destruct (copyfrom_ok (c_segs c) [mkSeg 0 (length (s_mem s)) 0 n] m0 (ptr_buf (c_segs c)) (ptr_mem (length (s_mem s), 0) n) 0 0 (total (c_segs c)) n n NE) as (m & Em & Sh & C1 & C2).
  { constructor; [cbn; lia|constructor]. } { apply ptr_buf_ok; auto. } { apply ptr_mem_ok. lia. } { lia. } { lia. } { lia. }
  { rewrite ST. auto. }
  { rewrite ST, SS. intros a Ha Hb. apply FI in Ha. apply mget_obj in Ha. apply in_map_iff in Hb as (i & <- & _). cbn [fst] in Ha. lia. }
  { rewrite ST. apply Forall_forall. intros a Ha. apply FI in Ha. unfold m0. rewrite mget_app; auto. apply mget_obj; auto. }
  { rewrite SS. apply Forall_forall. intros a Ha Hn. assert (X : In (mget m0 a) (map Some bs)) by (rewrite <- SRC; apply in_map; auto).
    rewrite Hn in X. apply in_map_iff in X as (? & X & _). discriminate. }
  rewrite SS, SRC in C1. rewrite ST in C1, C2. rewrite Em. cbn [bind].
  assert (LM : length m = S (length (s_mem s))). { destruct Sh as [L _]. rewrite <- L. unfold m0. rewrite app_length. cbn. lia. }
  eexists. split; [reflexivity|]. split.
  { apply Inv_shape; auto. destruct Sh as [_ Sh]. split.
    - rewrite firstn_length. lia.
    - intros o. specialize (Sh o). destruct (Nat.lt_ge_cases o (length (s_mem s))) as [Ho|Ho].
      + rewrite nth_error_firstn_lt by auto. unfold m0 in Sh. rewrite nth_error_app1 in Sh by auto. auto.
      + rewrite !(proj2 (nth_error_None _ _)); auto. rewrite firstn_length. lia. }
  split; auto. split; auto. split; auto. cbn [with_mem s_mem]. split.
  - intros a Ha. destruct (Nat.lt_ge_cases (fst a) (length (s_mem s))) as [Ho|Ho].
    + rewrite mget_firstn, C2 by auto. unfold m0. apply mget_app. auto.
    + rewrite !mget_out; auto. rewrite firstn_length. lia.
  - rewrite <- C1. apply map_ext_in. intros a Ha. apply mget_firstn. apply mget_obj. auto.
Qed.
End P.
