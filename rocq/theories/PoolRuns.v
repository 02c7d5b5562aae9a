(* The step theorem of the pool state machine and histories of calls. *)
From Verif Require Import Common ListFacts BufferSpec BufferModel BufferProofs PoolSpec PoolModel PoolArith PoolProofs PoolSteps PoolInsert.
Require Import Permutation.

Section P.
Context {B : Type}.
Notation st := (st B).
Implicit Types s : st.

(* states reached by calls covered by op_ok *)
Inductive reach (blocks : list (list B)) (nh : nat) : st -> Prop :=
| reach_init : reach blocks nh (init blocks nh)
| reach_step s op s' o : reach blocks nh s -> op_ok (view_of s) (s_raw s) op ->
    step s op = Ok (s', o) -> o <> RTerminate -> reach blocks nh s'.

(* why a call ends the process *)
Definition ends s (op : bop B) : Prop :=
  match op with
  | OTake _ n => s_free s = [] \/ free_bytes s < n
  | OInsert _ _ h2 _ => no_memory s h2
  | OAppend h h2 _ => no_memory s h2 \/ no_place s h (match buf (view_of s) h with Some (_, l) => length l | None => 0 end) h2
  | OPrepend h h2 _ => no_memory s h2 \/ no_place s h 0 h2
  | _ => False
  end.

Definition post s op (r : res (st * bout)) : Prop :=
  exists s' o, r = Ok (s', o) /\ ((o = RTerminate /\ ends s op) \/
    (Inv noX noY s' /\ s_size s' = s_size s /\ length (s_handles s') = length (s_handles s) /\ step_rel (view_of s) op o (view_of s'))).

Lemma t_release_len (t : tabs) h : length (fst (t_release t h)) = length (fst t).
Proof. unfold t_release. destruct (nth h (fst t) None); auto. destruct (refers _ _); cbn [fst]; apply upd_length. Qed.
Lemma t_set_len (t : tabs) h k : length (fst (t_set t h k)) = length (fst t).
Proof. unfold t_set. cbn [fst]. rewrite upd_length. apply t_release_len. Qed.
Lemma t_new_len (t : tabs) h k : length (fst (t_new t h k)) = length (fst t).
Proof. unfold t_new. rewrite t_set_len. reflexivity. Qed.

Lemma vt_len s s' t : vt s' = t -> length (fst t) = length (s_handles s) -> length (s_handles s') = length (s_handles s).
Proof. intros H E. change (s_handles s') with (fst (vt s')). rewrite H. auto. Qed.

Lemma insert_len s s' h pos h2 mv o : insert_rel (view_of s) (view_of s') h pos h2 mv o -> length (s_handles s') = length (s_handles s).
Proof.
  intros H. change (s_handles s') with (fst (vtabs (view_of s'))). change (s_handles s) with (fst (vtabs (view_of s))).
  unfold insert_rel in H. destruct (buf (view_of s) h2) as [[k2 l2]|]; [|destruct H as (_ & -> & _); auto].
  destruct (length l2 =? 0). { destruct H as (_ & -> & _); auto. }
  destruct (handle (view_of s) h) as [c|], (handle (view_of s) h2) as [c2|]; try contradiction.
  - destruct (vcont (view_of s) c) as [[k l]|]; try contradiction. destruct o; try contradiction.
    + destruct H as (_ & l2' & _ & ->). destruct mv; cbn [t_put fst]; auto. rewrite t_release_len. destruct k2; reflexivity.
    + destruct H as [-> _]. auto.
  - destruct H as (_ & _ & ->). destruct mv; [cbn [fst]; rewrite !upd_length; auto|apply t_new_len].
Qed.

Lemma Inv_create s (bs : list B) : Inv noX noY s -> Inv noX noY (with_mem s (s_mem s ++ [Some bs])).
Proof.
  intros I. constructor; cbn [with_mem s_size s_refs s_free s_raw s_mem s_conts s_handles]; try apply I.
  - intros i z Hz. destruct (i_mem _ _ _ I i z Hz) as (l & E & L). exists l. split; auto. rewrite nth_error_app1; auto. apply nth_error_Some. congruence.
  - intros k c Hk. destruct (i_ok _ _ _ I k c Hk) as [O1 O2]. split; auto. destruct (c_owner c) as [|e|]; auto.
    destruct O2 as (L & l & g & M1 & M2 & M3 & M4). split; auto. exists l, g. split; auto. rewrite nth_error_app1; auto. apply nth_error_Some. congruence.
Qed.

Lemma mem_len s : Inv noX noY s -> length (s_size s) <= length (s_mem s).
Proof.
  intros I. destruct (length (s_size s)) as [|n] eqn:E; [lia|].
  destruct (nth_error (s_size s) n) as [z|] eqn:E2; [|apply nth_error_None in E2; lia].
  destruct (i_mem _ _ _ I n z E2) as (l & L & _). assert (n < length (s_mem s)) by (apply nth_error_Some; congruence). lia.
Qed.

Lemma used_mem s a : Inv noX noY s -> used (view_of s) a -> fst a < length (s_mem s).
Proof. intros I U. apply (mget_obj (s_mem s)). apply (proj1 (Inv_sound s I)). auto. Qed.

Lemma create_ok s h bs : Inv noX noY s -> h < length (s_handles s) -> post s (OCreate h bs) (step s (OCreate h bs)).
Proof.
  intros I Hh. unfold post. cbn [step]. pose proof (Inv_create s bs I) as I1. set (s0 := with_mem s (s_mem s ++ [Some bs])) in *.
  set (c := mkC (mkSeg 0 (length (s_mem s)) 0 (length bs) :: repeat seg0 7) 1 (OExt (length (s_mem s)))).
  destruct (put_new_ok noX s0 h c) as (s' & E & I' & V & M & Z1 & Z2).
  - constructor; apply I1.
  - auto.
  - split; [cbn; lia|]. cbn [c c_owner]. split; [apply (mem_len s I)|]. exists bs, (mkSeg 0 (length (s_mem s)) 0 (length bs)).
    cbn [s0 with_mem s_mem g_obj g_off g_len]. split; [rewrite nth_error_app2, Nat.sub_diag by auto; reflexivity|]. split; [reflexivity|]. split; [reflexivity|lia].
  - rewrite E. cbn [bind]. exists s', RDone. split; auto. right. split; auto. split; [rewrite Z1; reflexivity|]. 
    split; [apply (vt_len s s' _ V); rewrite t_new_len; reflexivity|].
    assert (SL : locs_of (c_segs c) = map (fun i => (length (s_mem s), i)) (seq 0 (length bs))).
    { cbn [c c_segs c_num c_arr firstn locs_of flat_map]. rewrite app_nil_r. reflexivity. }
    assert (FRESH : forall a, In a (locs_of (c_segs c)) -> ~ used (view_of s) a).
    { intros a Ha U. apply (used_mem s a I) in U. rewrite SL in Ha. apply in_map_iff in Ha as (i & <- & _). cbn [fst] in U. lia. }
    assert (NEWC : forall a, In a (locs_of (c_segs c)) -> used (view_of s') a).
    { intros a Ha. unfold used. exists (length (s_conts s)), (is_pool (c_owner c)), (locs_of (c_segs c)). split; auto.
      change (v_conts (view_of s')) with (snd (vt s')). rewrite V. unfold t_new, t_set. cbn [snd].
      change (fst (vt s0), snd (vt s0) ++ [Some (is_pool (c_owner c), locs_of (c_segs c))]) with (vt (with_conts s0 (s_conts s0 ++ [Some c])))
        || replace (fst (vt s0), snd (vt s0) ++ [Some (is_pool (c_owner c), locs_of (c_segs c))]) with (vt (with_conts s0 (s_conts s0 ++ [Some c])))
           by (unfold vt; cbn [with_conts s_handles s_conts fst snd]; rewrite map_app; reflexivity).
      rewrite (t_release_live _ h (length (s_conts s)) c); auto.
      - cbn [with_conts s_conts s0 with_mem]. rewrite nth_error_app2, Nat.sub_diag by auto. reflexivity.
      - left. cbn [hnd with_conts s_handles s0 with_mem]. intros X. unfold hnd in X. cbn [with_conts s0 with_mem s_handles] in X. apply nth_None_error in X. destruct (i_h _ _ _ I _ _ X) as (c0 & E0).
        assert (length (s_conts s) < length (s_conts s)) by (apply nth_error_Some; congruence). lia. }
    cbn [step_rel]. split; auto. split.
    { intros a Ha Hb. apply M in Hb. cbn [view_of v_mem]. rewrite Hb. apply mget_app. apply used_mem; auto. }
    exists (locs_of (c_segs c)). split; [split; auto|].
    { rewrite SL. apply FinFun.Injective_map_NoDup; [|apply seq_NoDup]. intros x y X. congruence. }
    split; auto. cbn [view_of v_mem].
    transitivity (map (mget (s_mem s0)) (locs_of (c_segs c))). { apply map_ext_in. intros a Ha. apply M. auto. }
    rewrite SL, map_map. apply list_eq_nth_error. intros i. rewrite !nth_error_map. destruct (Nat.lt_ge_cases i (length bs)) as [Hi|Hi].
    + rewrite nth_error_seq_lt by auto. cbn [option_map]. unfold mget. cbn [s0 with_mem s_mem]. rewrite nth_error_app2, Nat.sub_diag by auto. cbn [nth_error fst snd Nat.add].
      destruct (nth_error bs i) eqn:Eb; auto. apply nth_error_None in Eb. lia.
    + rewrite (proj2 (nth_error_None _ _)) by (rewrite seq_length; auto). rewrite (proj2 (nth_error_None _ _)); auto.
Qed.

Lemma with_pool_fields s s1 : s1 = with_pool s (s_refs s1) (s_free s1) ->
  s_handles s1 = s_handles s /\ s_size s1 = s_size s /\ s_mem s1 = s_mem s /\ s_conts s1 = s_conts s /\ s_raw s1 = s_raw s.
Proof. intros ->. auto. Qed.

Lemma take_post s h n s1 c : Inv noX noY s -> h < length (s_handles s) ->
  s1 = with_pool s (s_refs s1) (s_free s1) -> Inv (fun i => noX i + cnt_of (Some c) i) noY s1 -> cont_ok (s_size s) (s_mem s) c -> c_owner c = OPool ->
  (0 < n -> total (c_segs c) = n) -> fresh (view_of s) (locs_of (c_segs c)) ->
  exists s2, put_new s1 h c = Ok s2 /\ Inv noX noY s2 /\ s_size s2 = s_size s /\ length (s_handles s2) = length (s_handles s) /\
    vt s2 = t_new (vt s) h (true, locs_of (c_segs c)) /\
    exists l, (0 < n -> length l = n) /\ fresh (view_of s) l /\ vtabs (view_of s2) = t_new (vtabs (view_of s)) h (true, l) /\ keeps (view_of s) (view_of s2).
Proof.
  intros I Hh W I1 K O T FR. destruct (with_pool_fields _ _ W) as (Y1 & Y2 & Y3 & Y4 & Y5).
  destruct (put_new_ok noX s1 h c I1) as (s' & E' & I' & V & M & Z1 & Z2). { rewrite Y1; auto. } { rewrite Y2, Y3. auto. }
  exists s'. split; auto. split; auto. split; [congruence|].
  assert (V' : vt s' = t_new (vt s) h (true, locs_of (c_segs c))) by (rewrite V, O; unfold vt; rewrite Y1, Y4; auto).
  split; [apply (vt_len s s' _ V'); rewrite t_new_len; reflexivity|]. split; auto.
  exists (locs_of (c_segs c)). rewrite locs_of_length. split; auto. split; auto. split; auto.
  intros a _ Ha. apply M in Ha. rewrite Y3 in Ha. auto.
Qed.

Lemma set_post s h k : Inv noX noY s -> h < length (s_handles s) ->
  (forall j, k = Some j -> exists h2, h2 <> h /\ hnd s h2 = Some j) ->
  exists s', set_handle s h k = Ok s' /\ Inv noX noY s' /\ s_size s' = s_size s /\ length (s_handles s') = length (s_handles s) /\ 
    vt s' = t_set (vt s) h k /\ keeps (view_of s) (view_of s').
Proof.
  intros I Hh Hk. destruct (set_handle_ok noX noY s h k I Hh) as (s' & E & I' & V & M & Z1 & Z2).
  { intros j []. }
  { intros j ->. destruct (Hk j eq_refl) as (h2 & N & E). apply nth_None_error in E. destruct (i_h _ _ _ I _ _ E) as (c & Ec). exists c. split; auto. right. exists h2. auto. }
  exists s'. split; auto. split; auto. split; auto. split; [apply (vt_len s s' _ V); rewrite t_set_len; reflexivity|]. split; auto. apply MK_keeps; auto.
Qed.

Lemma raw_ok s refs free raw : Inv noX noY s -> PI (length (s_size s)) refs free raw -> refs = s_refs s ->
  Inv noX noY (mkS (s_size s) refs free raw (s_mem s) (s_conts s) (s_handles s)).
Proof. intros I P ->. constructor; cbn [s_size s_refs s_free s_raw s_mem s_conts s_handles]; auto; apply I. Qed.

Lemma step_ok s op : Inv noX noY s -> op_ok (view_of s) (s_raw s) op -> post s op (step s op).
Proof.
  intros I OK. destruct op as [h n|h n|h bs|h cap|h h2|h h2|h|h h2|h n|h n|h pos h2 mv|h h2 mv|h h2 mv|h h2 skip n|h bs| |id].
  - (* OTake *) cbn [step]. destruct (take_ok noX s n I) as (o & Et & Ht). rewrite Et. cbn [bind]. destruct o as [[s1 c]|].
    + destruct Ht as (W & I1 & K & O & T1 & _ & _ & FR & _).
      destruct (take_post s h n s1 c) as (s2 & E2 & I2 & Z & L & _ & R); auto. rewrite E2. exists s2, RDone. split; auto.
    + exists s, RTerminate. split; auto.
  - (* OTakeReq *) cbn [step]. destruct (take_ok noX s n I) as (o & Et & Ht). rewrite Et. cbn [bind]. destruct o as [[s1 c]|].
    + destruct Ht as (W & I1 & K & O & T1 & _ & _ & FR & _).
      destruct (take_post s h n s1 c) as (s2 & E2 & I2 & Z & L & _ & R); auto. rewrite E2. exists s2, RDone. split; auto.
    + destruct (set_post s h None I OK) as (s1 & E1 & I1 & Z & L & V & K); [discriminate|]. rewrite E1. exists s1, RNothing. split; auto. right. cbn [step_rel]. auto 10.
  - (* OCreate *) apply create_ok; auto.
  - (* OMakeEmpty *) cbn [step]. set (c := mkC (repeat seg0 cap) 0 ONone).
    destruct (put_new_ok noX s h c) as (s' & E & I' & V & M & Z1 & Z2); auto.
    { split; [cbn; lia|reflexivity]. }
    rewrite E. exists s', RDone. split; auto. right. split; auto. split; auto. split; [apply (vt_len s s' _ V); rewrite t_new_len; reflexivity|].
    cbn [step_rel]. split; auto. split; [apply MK_keeps; auto|]. exact V.
  - (* OAssign *) cbn [step]. destruct OK as (H1 & H2 & N).
    destruct (set_post s h (hnd s h2) I H1) as (s1 & E1 & I1 & Z & L & V & K). { intros j E. exists h2. split; auto. }
    rewrite E1. exists s1, RDone. split; auto. right. cbn [step_rel]. auto 10.
  - (* OMove *) cbn [step]. destruct OK as (H1 & H2 & N).
    destruct (set_post s h (hnd s h2) I H1) as (s1 & E1 & I1 & Z & L & V & K). { intros j E. exists h2. split; auto. }
    rewrite E1. cbn [bind]. eexists _, RDone. split; [reflexivity|]. right.
    assert (Hs1 : forall x, nth_error (s_handles s1) x = if x =? h then Some (hnd s h2) else nth_error (s_handles s) x).
    { intros x. change (s_handles s1) with (fst (vt s1)). rewrite V. unfold t_set. cbn [fst].
      assert (FR : fst (t_release (vt s) h) = upd (s_handles s) h None).
      { unfold t_release. rewrite nth_vt. destruct (hnd s h) as [j|] eqn:Eh; cbn [fst vt].
        - destruct (refers (upd (s_handles s) h None) j); reflexivity.
        - apply list_eq_nth_error. intros y. rewrite nth_error_upd. destruct (Nat.eqb_spec y h) as [->|]; cbn [andb]; auto.
          destruct (Nat.ltb_spec h (length (s_handles s))); auto. unfold hnd in Eh.
          rewrite (nth_error_nth' _ None) by auto. rewrite Eh. auto. }
      rewrite FR, !nth_error_upd, upd_length. destruct (Nat.eqb_spec x h) as [->|]; cbn [andb]; auto.
      destruct (Nat.ltb_spec h (length (s_handles s))); auto. cbn [view_of v_handles] in H1. lia. }
    split; [|split; [exact Z|split; [cbn [with_handles s_handles]; rewrite upd_length; auto|]]].
    + constructor; cbn [with_handles s_size s_refs s_free s_raw s_mem s_conts s_handles]; try apply I1.
      * intros x k E. rewrite nth_error_upd in E. destruct (_ && _); [discriminate|]. apply (i_h _ _ _ I1 x). auto.
      * intros k c E. left. destruct (i_live _ _ _ I1 k c E) as [R|[]]. apply refers_true in R as [x R]. apply refers_true.
        destruct (Nat.eq_dec x h2) as [->|Nx].
        -- exists h. rewrite nth_error_upd_other by auto. rewrite Hs1 in *. rewrite Nat.eqb_refl. destruct (Nat.eqb_spec h2 h); [congruence|].
           apply nth_None_error in R. unfold hnd. congruence.
        -- exists x. rewrite nth_error_upd_other by auto. auto.
    + cbn [step_rel]. split; auto. split; [exact K|]. cbv zeta.
      transitivity (upd (fst (vt s1)) h2 None, snd (vt s1)); [reflexivity|]. rewrite V. reflexivity.
  - (* ORelease *) cbn [step]. destruct (release_ok noX noY s h I) as (s1 & E1 & I1 & V & M & Z1 & Z2). rewrite E1. exists s1, RDone. split; auto. right.
    split; auto. split; auto. split; [apply (vt_len s s1 _ V); rewrite t_release_len; reflexivity|]. cbn [step_rel]. split; auto. split; [apply MK_keeps; auto|exact V].
  - (* ODup *) cbn [step]. destruct OK as [H1 H2]. destruct (hnd s h2) as [k|] eqn:Eh2.
    + destruct (hnd_live _ _ _ _ I Eh2) as (c & Ec & Eg & Eb).
      destruct (duplicate_ok noX s h2 k c I Eh2 Ec) as (s1 & c' & E & W & I1 & S1 & O1 & N1 & K1). rewrite E. cbn [bind].
      destruct (with_pool_fields _ _ W) as (Y1 & Y2 & Y3 & Y4 & Y5).
      destruct (put_new_ok noX s1 h c' I1) as (s' & E' & I' & V & M & Z1 & Z2). { rewrite Y1; auto. } { rewrite Y2, Y3. auto. }
      rewrite E'. exists s', RDone. split; auto. right. split; auto. split; [congruence|].
      assert (V' : vt s' = t_new (vt s) h (is_pool (c_owner c), locs_of (c_segs c))) by (rewrite V, O1, S1; unfold vt; rewrite Y1, Y4; auto).
      split; [apply (vt_len s s' _ V'); rewrite t_new_len; reflexivity|]. cbn [step_rel]. split; auto. split.
      { intros a _ Ha. apply M in Ha. rewrite Y3 in Ha. auto. }
      rewrite Eb. exact V'.
    + unfold duplicate. rewrite Eh2. cbn [bind]. destruct (set_post s h None I H1) as (s1 & E1 & I1 & Z & L & V & K); [discriminate|].
      rewrite E1. exists s1, RDone. split; auto. right. split; auto. split; auto. split; auto. cbn [step_rel]. rewrite (buf_null _ _ Eh2). auto.
  - (* OCut *) cbn [step]. destruct (cut_ok s h n I) as (s' & E & I' & M & Z1 & Z2 & V). rewrite E. exists s', RDone. split; auto. right. split; auto. split; auto.
    split. { apply (vt_len s s' _ V). destruct (hnd s h); auto. destruct (buf (view_of s) h) as [[k l]|]; auto. destruct (n =? 0); auto. destruct (length l <=? n); auto. apply t_release_len. }
    cbn [step_rel]. split; auto. split; [apply MK_keeps; auto|]. exact V.
  - (* OSetTotal *) cbn [step]. destruct (set_total_ok s h n I) as (s' & o & E & I' & M & Z1 & Z2 & V). rewrite E. exists s', o. split; auto. right. split; auto. split; auto.
    split.
    { destruct (hnd s h); [destruct (buf (view_of s) h) as [[k l]|]; [destruct (n =? 0); [|destruct (length l <? n)]|]|]; destruct V as [_ V]; apply (vt_len s s' _ V); auto. apply t_release_len. }
    cbn [step_rel]. split; [apply MK_keeps; auto|exact V].
  - (* OInsert *) cbn [step]. destruct (insert_ok s h pos h2 mv I OK) as (s' & o & E & [[-> D]|(I' & Z & _ & _ & R)]).
    + exists s', RTerminate. split; auto.
    + exists s', o. split; auto. right. split; auto. split; auto. split; auto. eapply insert_len; eauto.
  - (* OAppend *) cbn [step].
    assert (EL : match hnd s h with Some k => match getc s k with Some c => total (c_segs c) | None => 0 end | None => 0 end
       = match buf (view_of s) h with Some (_, l) => length l | None => 0 end).
    { destruct (hnd s h) as [k|] eqn:Eh; [|rewrite (buf_null _ _ Eh); auto]. destruct (hnd_live _ _ _ _ I Eh) as (c & _ & -> & ->). rewrite locs_of_length. auto. }
    rewrite EL. destruct (insert_ok s h (match buf (view_of s) h with Some (_, l) => length l | None => 0 end) h2 mv I OK) as (s' & o & E & [[-> D]|(I' & Z & _ & T & R)]); unfold nothrow; rewrite E; cbn [bind].
    + exists s', RTerminate. split; auto. left. split; auto. left; auto.
    + destruct o; eexists _, _; (split; [reflexivity|]).
      3: { left. split; auto. right. auto. }
      3: { unfold insert_rel in R. destruct (buf (view_of s) h2) as [[k2 l2]|]; [|destruct R; discriminate]. destruct (length l2 =? 0); [destruct R; discriminate|].
           destruct (handle (view_of s) h), (handle (view_of s) h2); try contradiction; try (destruct R; discriminate). destruct (vcont _ _) as [[]|]; contradiction. }
      all: right; split; auto; split; auto; split; auto; eapply insert_len; eauto.
  - (* OPrepend *) cbn [step].
    destruct (insert_ok s h 0 h2 mv I OK) as (s' & o & E & [[-> D]|(I' & Z & _ & T & R)]); unfold nothrow; rewrite E; cbn [bind].
    + exists s', RTerminate. split; auto. left. split; auto. left; auto.
    + destruct o; eexists _, _; (split; [reflexivity|]).
      3: { left. split; auto. right. auto. }
      3: { unfold insert_rel in R. destruct (buf (view_of s) h2) as [[k2 l2]|]; [|destruct R; discriminate]. destruct (length l2 =? 0); [destruct R; discriminate|].
           destruct (handle (view_of s) h), (handle (view_of s) h2); try contradiction; try (destruct R; discriminate). destruct (vcont _ _) as [[]|]; contradiction. }
      all: right; split; auto; split; auto; split; auto; eapply insert_len; eauto.
  - (* OPart *) cbn [step]. destruct OK as (H1 & H2 & Hn & Hb). destruct (part_ok s h h2 skip n I H1 Hn Hb) as (s' & o & E & I' & Z1 & Z2 & M & V).
    rewrite E. exists s', o. split; auto. right. split; auto. split; auto. split.
    { destruct (buf (view_of s) h2) as [[k l]|]; [cbv zeta in V; destruct (_ <=? length l) in V|]; destruct V as [_ V]; apply (vt_len s s' _ V).
      all: rewrite ?t_new_len, ?t_set_len; reflexivity. }
    cbn [step_rel]. split; [apply MK_keeps; auto|exact V].
  - (* OWrite *) cbn [step]. destruct OK as (H1 & Hb). destruct (write_ok s h bs I Hb) as (s' & E & I' & Z1 & Z2 & V & C). rewrite E. exists s', RDone. split; auto. right.
    split; auto. split; auto. split; [apply (vt_len s s' _ V); reflexivity|]. cbn [step_rel]. split; auto. split; [exact V|].
    destruct (buf (view_of s) h) as [[k l]|]; auto. destruct C. auto.
  - (* ORawTake *) cbn [step]. destruct (s_free s) as [|i r] eqn:Ef.
    + exists s, RNothing. split; auto. right. split; auto. split; auto. split; auto. cbn [step_rel]. split; auto. apply keeps_refl.
    + eexists _, RDone. split; [reflexivity|]. right. pose proof (i_pi _ _ _ I) as P. rewrite Ef in P.
      assert (Pm : Permutation ((i :: r) ++ s_raw s) (r ++ s_raw s ++ [i])).
      { cbn [app]. rewrite app_assoc. apply Permutation_cons_append. }
      split; [apply raw_ok; auto|split; [reflexivity|split; [reflexivity|]]].
      * constructor; [apply P| | |].
        -- eapply Permutation_NoDup; [exact Pm|apply P].
        -- intros x Hx. apply (pi_lt _ _ _ _ P). eapply Permutation_in; [apply Permutation_sym; exact Pm|auto].
        -- intros x Hx. rewrite (pi_zero _ _ _ _ P) by auto. split; intros; (eapply Permutation_in; [|eassumption]); auto using Permutation_sym.
      * cbn [step_rel]. split; auto. intros a _ _. auto.
  - (* ORawRelease *) cbn [step]. eexists _, RDone. split; [reflexivity|]. right. cbn [op_ok] in OK. pose proof (i_pi _ _ _ I) as P.
    assert (NR : NoDup (s_raw s)). { pose proof (pi_nd _ _ _ _ P) as N. clear -N. induction (s_free s); cbn in N; auto. inversion N; auto. }
    assert (Pm : Permutation (s_free s ++ s_raw s) ((s_free s ++ [id]) ++ remove Nat.eq_dec id (s_raw s))).
    { rewrite <- app_assoc. apply Permutation_app_head. cbn [app].
      clear -OK NR. induction (s_raw s) as [|x l IH]; [destruct OK|]. inversion NR as [|? ? N1 N2]; subst. cbn [remove]. destruct (Nat.eq_dec id x) as [->|Nx].
      - rewrite notin_remove by auto. auto.
      - destruct OK as [->|OK]; [congruence|]. rewrite perm_swap. apply perm_skip. auto. }
    split; [apply raw_ok; auto|split; [reflexivity|split; [reflexivity|]]].
    * constructor; [apply P| | |].
      -- eapply Permutation_NoDup; [exact Pm|apply P].
      -- intros x Hx. apply (pi_lt _ _ _ _ P). eapply Permutation_in; [apply Permutation_sym; exact Pm|auto].
      -- intros x Hx. rewrite (pi_zero _ _ _ _ P) by auto. split; intros; (eapply Permutation_in; [|eassumption]); auto using Permutation_sym.
    * cbn [step_rel]. split; auto. intros a _ _. auto.
Qed.

Lemma nth_repeat_0 n i : nth i (repeat 0 n) 0 = 0.
Proof. revert i. induction n; intros [|i]; cbn; auto. Qed.

Lemma Inv_init (blocks : list (list B)) nh : Forall (fun b => b <> []) blocks -> Inv noX noY (init blocks nh).
Proof.
  intros H. constructor; cbn [init s_size s_refs s_free s_raw s_mem s_conts s_handles].
  - apply Forall_map. eapply Forall_impl; [|exact H]. intros b Hb. destruct b; [congruence|cbn; lia].
  - rewrite map_length. constructor; rewrite ?app_nil_r.
    + apply repeat_length.
    + apply seq_NoDup.
    + intros i Hi. apply in_seq in Hi. lia.
    + intros i Hi. rewrite nth_repeat_0. split; auto. intros _. apply in_seq. lia.
  - intros i. rewrite nth_repeat_0. reflexivity.
  - intros i z Hz. rewrite nth_error_map in Hz |- *. destruct (nth_error blocks i) as [b|]; [|discriminate]. injection Hz as <-. exists b. auto.
  - intros k c Hk. destruct k; discriminate.
  - intros h k Hk. apply nth_error_In in Hk. apply repeat_spec in Hk. discriminate.
  - intros k c Hk. destruct k; discriminate.
Qed.

Lemma reach_inv blocks nh s : Forall (fun b => b <> []) blocks -> reach blocks nh s ->
  Inv noX noY s /\ s_size s = map (@length B) blocks /\ length (s_handles s) = nh.
Proof.
  intros H R. induction R as [|s op s' o R (I & Z & L) OK E N].
  - split; [apply Inv_init; auto|]. split; auto. apply repeat_length.
  - destruct (step_ok s op I OK) as (s2 & o2 & E2 & [[D _]|(I2 & Z2 & L2 & _)]); rewrite E in E2; injection E2 as <- <-.
    + congruence.
    + split; auto. split; congruence.
Qed.

Lemma step_total blocks nh s op : Forall (fun b => b <> []) blocks -> reach blocks nh s -> op_ok (view_of s) (s_raw s) op ->
  exists s' o, step s op = Ok (s', o) /\
    ((o = RTerminate /\ ends s op) \/ (sound (view_of s') /\ step_rel (view_of s) op o (view_of s'))).
Proof.
  intros H R OK. destruct (reach_inv blocks nh s H R) as (I & _ & _).
  destruct (step_ok s op I OK) as (s2 & o2 & E2 & [D|(I2 & Z2 & L2 & X)]); exists s2, o2; split; auto. right. split; auto. apply Inv_sound; auto.
Qed.

Lemma used_obj s i : Inv noX noY s -> i < length (s_size s) -> (0 < sumc (s_conts s) i <-> exists f, used (view_of s) (i, f)).
Proof.
  intros I Hi. split.
  - intros H. unfold sumc in H.
    assert (X : exists oc, In oc (s_conts s) /\ 0 < cnt_of oc i).
    { clear -H. induction (s_conts s) as [|oc cs IH]; cbn in H; [lia|]. destruct (Nat.eq_dec (cnt_of oc i) 0) as [E|E].
      - destruct IH as (oc' & A & C). { unfold list_sum. lia. } exists oc'. split; auto. right; auto.
      - exists oc. split; [left; auto|lia]. }
    destruct X as ([c|] & A & C); [|cbn in C; lia]. apply In_nth_error in A as [k A]. pose proof (i_ok _ _ _ I k c A) as [_ K].
    cbn [cnt_of] in C. destruct (c_owner c) eqn:O; cbn [is_pool] in C; try lia.
    apply (count_occ_In Nat.eq_dec) in C. apply in_map_iff in C as (g & <- & Hg). rewrite Forall_forall in K. destruct (K g Hg) as (E & L & _).
    exists (g_off g). apply used_iff. exists k, c. split; auto. apply in_locs. exists g. cbn [fst snd]. split; auto. split; auto. lia.
  - intros (f & U). apply used_iff in U as (k & c & A & U). pose proof (i_ok _ _ _ I k c A) as [K0 K]. pose proof (sumc_le _ _ _ i A) as L. cbn [cnt_of] in L.
    apply in_locs in U as (g & Hg & E & _). cbn [fst] in E. destruct (c_owner c) eqn:O; cbn [is_pool] in L.
    + rewrite Forall_forall in K. destruct (K g Hg) as (E1 & _). assert (X : In i (map g_id (c_segs c))) by (apply in_map_iff; exists g; split; auto; congruence).
      apply (count_occ_In Nat.eq_dec) in X. lia.
    + destruct K as (Le & l & g' & _ & Es & Eo & _). rewrite Es in Hg. destruct Hg as [<-|[]]. lia.
    + unfold c_segs in Hg. rewrite K in Hg. destruct Hg.
Qed.

Lemma accounting blocks nh s : Forall (fun b => b <> []) blocks -> reach blocks nh s ->
  NoDup (s_free s ++ s_raw s) /\
  (forall i, In i (s_free s ++ s_raw s) <-> i < length blocks /\ ~ exists f, used (view_of s) (i, f)) /\
  (forall i, nth i (s_refs s) 0 = list_sum (map (fun x => match x with
      | Some c => if is_pool (c_owner c) then count_occ Nat.eq_dec (map g_id (c_segs c)) i else 0
      | None => 0 end) (s_conts s))) /\
  Permutation (s_free s ++ s_raw s) (filter (fun i => nth i (s_refs s) 0 =? 0) (seq 0 (length blocks))).
Proof.
  intros H R. destruct (reach_inv blocks nh s H R) as (I & Z & _). pose proof (i_pi _ _ _ I) as P.
  assert (LZ : length (s_size s) = length blocks) by (rewrite Z, map_length; auto). rewrite LZ in P.
  assert (RF : forall i, nth i (s_refs s) 0 = sumc (s_conts s) i) by (intros i; rewrite (i_ref _ _ _ I); unfold noX; lia).
  split; [apply P|]. split; [|split].
  - intros i. split.
    + intros Hi. pose proof (pi_lt _ _ _ _ P i Hi) as Li. split; auto. intros U. apply (used_obj s i I) in U; [|lia]. apply (pi_zero _ _ _ _ P i Li) in Hi. rewrite RF in Hi. lia.
    + intros (Li & N). apply (pi_zero _ _ _ _ P i Li). rewrite RF. destruct (Nat.eq_dec (sumc (s_conts s) i) 0); auto. exfalso. apply N. apply used_obj; auto; lia.
  - intros i. rewrite RF. reflexivity.
  - apply NoDup_Permutation; [apply P|apply NoDup_filter, seq_NoDup|]. intros i. rewrite filter_In, in_seq, Nat.eqb_eq. split.
    + intros Hi. pose proof (pi_lt _ _ _ _ P i Hi) as Li. split; [lia|]. apply (pi_zero _ _ _ _ P i Li). auto.
    + intros (Li & E). apply (pi_zero _ _ _ _ P i); auto. lia.
Qed.

(* TakeBuffer on the pool itself *)
Lemma take_exact blocks nh s n : Forall (fun b => b <> []) blocks -> reach blocks nh s -> 0 < n ->
  exists o, take s n = Ok o /\
  match o with
  | None => list_sum (map (fun i => length (nth i blocks [])) (s_free s)) < n
  | Some (s1, c) => n <= list_sum (map (fun i => length (nth i blocks [])) (s_free s)) /\
      length (locs_of (c_segs c)) = n /\ fresh (view_of s) (locs_of (c_segs c)) /\ s_free s = map g_id (c_segs c) ++ s_free s1 /\
      s1 = with_pool s (s_refs s1) (s_free s1)
  end.
Proof.
  intros H R Hn. destruct (reach_inv blocks nh s H R) as (I & Z & _).
  assert (FB : free_bytes s = list_sum (map (fun i => length (nth i blocks [])) (s_free s))).
  { unfold free_bytes. rewrite Z. f_equal. apply map_ext. intros i. rewrite <- (map_nth (@length B) blocks [] i). reflexivity. }
  destruct (take_ok noX s n I) as (o & E & T). exists o. split; auto. destruct o as [[s1 c]|].
  - destruct T as (W & _ & _ & _ & T & _ & F & FR & L). rewrite locs_of_length, T by auto. rewrite <- FB. split; [specialize (T Hn); lia|]. auto.
  - rewrite <- FB. destruct T as [T|T]; auto. unfold free_bytes. rewrite T. cbn. auto.
Qed.

Lemma append_fits blocks nh s h h2 mv k k2 c c2 : Forall (fun b => b <> []) blocks -> reach blocks nh s ->
  h < nh -> h2 < nh -> hnd s h = Some k -> hnd s h2 = Some k2 -> getc s k = Some c -> getc s k2 = Some c2 -> 
  c_owner c = OPool -> c_owner c2 = OPool -> (mv = true -> k <> k2) -> c_num c + c_num c2 <= c_cap c ->
  exists s', step s (OAppend h h2 mv) = Ok (s', RDone).
Proof.
  intros H R L1 L2 E1 E2 G1 G2 O1 O2 N C. destruct (reach_inv blocks nh s H R) as (I & Z & Lh).
  assert (B1 : buf (view_of s) h = Some (true, locs_of (c_segs c))).
  { destruct (hnd_live _ _ _ _ I E1) as (c' & _ & X & Y). rewrite G1 in X. injection X as <-. rewrite Y, O1. auto. }
  assert (B2 : buf (view_of s) h2 = Some (true, locs_of (c_segs c2))).
  { destruct (hnd_live _ _ _ _ I E2) as (c' & _ & X & Y). rewrite G2 in X. injection X as <-. rewrite Y, O2. auto. }
  assert (OK : op_ok (view_of s) (s_raw s) (OAppend h h2 mv)).
  { cbn [op_ok]. rewrite B1, B2. cbn [view_of v_handles]. split; [lia|]. split; [lia|]. split; auto. intros M.
    change (hnd s h <> hnd s h2). rewrite E1, E2. intros X. injection X as X. apply N in M. congruence. }
  destruct (step_ok s _ I OK) as (s' & o & E & D). rewrite E. exists s'. f_equal. f_equal. destruct D as [(-> & D)|(_ & _ & _ & D)].
  - exfalso. cbn [ends] in D. rewrite B1 in D. destruct D as [(l & D & _)|(k' & k2' & c' & c2' & t & q & D1 & D2 & D3 & D4 & D5 & D6)].
    + congruence.
    + assert (c' = c) by congruence. assert (c2' = c2) by congruence. subst. rewrite O2 in D6. specialize (D6 eq_refl).
      rewrite locs_of_length in D5. destruct (locate_ok _ _ _ _ D5) as (X1 & X2 & X3). 
      destruct (Nat.ltb_spec 0 q); [|lia]. specialize (X3 ltac:(auto)). exfalso.
      assert (T : total (c_segs c) = total (firstn t (c_segs c)) + total (skipn t (c_segs c))) by (rewrite <- total_app, firstn_skipn; auto).
      destruct X3 as [X3 X4]. rewrite (skipn_cons_nth (c_segs c) t (nth t (c_segs c) seg0)) in T by (apply nth_error_nth'; auto).
      cbn [total] in T. lia.
  - cbn [step_rel] in D. rewrite B1 in D. unfold insert_rel in D. rewrite B2 in D. destruct (length (locs_of (c_segs c2)) =? 0).
    { destruct D; auto. }
    change (handle (view_of s) h) with (hnd s h) in D. change (handle (view_of s) h2) with (hnd s h2) in D. rewrite E1, E2 in D.
    destruct (vcont (view_of s) k) as [[k0 l0]|]; [|contradiction]. destruct o; auto; try contradiction.
    (* an exception leaves Append as the end of the process *)
    exfalso. cbn [step] in E. unfold nothrow in E. destruct (insert _ _ _ _ _) as [[s3 [| | |]]| |]; cbn [bind] in E; congruence.
Qed.
End P.
