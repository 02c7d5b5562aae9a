(* Invariant of the pool state machine and its preservation. *)
From Verif Require Import Common ListFacts BufferSpec BufferModel BufferProofs PoolSpec PoolModel PoolArith.

Definition cnt_of (oc : option cont) (i : nat) : nat :=
  match oc with Some c => if is_pool (c_owner c) then cnt (map g_id (c_segs c)) i else 0 | None => 0 end.
Definition sumc (cs : list (option cont)) (i : nat) : nat := list_sum (map (fun oc => cnt_of oc i) cs).

Lemma list_sum_upd l k x y : nth_error l k = Some y -> list_sum (upd l k x) + y = list_sum l + x.
Proof.
  revert k. induction l as [|a l IH]; intros [|k] H; cbn in *; try discriminate.
  - injection H as ->. lia.
  - specialize (IH k H). unfold list_sum in IH. lia.
Qed.

Lemma map_upd {A C} (f : A -> C) l k x : map f (upd l k x) = upd (map f l) k (f x).
Proof. revert k. induction l as [|a l IH]; intros [|k]; cbn; auto. f_equal. apply IH. Qed.

Lemma sumc_upd cs k old x i : nth_error cs k = Some old -> sumc (upd cs k x) i + cnt_of old i = sumc cs i + cnt_of x i.
Proof.
  intros H. unfold sumc. rewrite map_upd. apply list_sum_upd. rewrite nth_error_map, H. reflexivity.
Qed.

Lemma sumc_app a b i : sumc (a ++ b) i = sumc a i + sumc b i.
Proof. unfold sumc. rewrite map_app. apply list_sum_app. Qed.

Lemma sumc_le cs k oc i : nth_error cs k = Some oc -> cnt_of oc i <= sumc cs i.
Proof. intros H. pose proof (sumc_upd cs k oc None i H). cbn [cnt_of] in *. lia. Qed.

Lemma nth_None_error {A} (l : list (option A)) k x : nth k l None = Some x <-> nth_error l k = Some (Some x).
Proof.
  split.
  - intros H. destruct (Nat.lt_ge_cases k (length l)).
    + rewrite (nth_error_nth' l None) by auto. congruence.
    + rewrite nth_overflow in H by auto. discriminate.
  - intros H. apply nth_error_nth. auto.
Qed.

Section P.
Context {B : Type}.
Notation st := (st B).
Implicit Types s : st.

Definition cont_ok (sizes : list nat) (mem : memory B) (c : cont) : Prop :=
  c_num c <= length (c_arr c) /\
  match c_owner c with
  | OPool => Forall (pseg sizes) (c_segs c)
  | OExt e => length sizes <= e /\ exists l g, nth_error mem e = Some (Some l) /\ c_segs c = [g] /\ g_obj g = e /\ g_off g + g_len g <= length l
  | ONone => c_num c = 0
  end.

Record Inv (X : nat -> nat) (y : nat -> Prop) s : Prop := {
  i_sizes : Forall (fun z => 0 < z) (s_size s);
  i_pi : PI (length (s_size s)) (s_refs s) (s_free s) (s_raw s);
  i_ref : forall i, nth i (s_refs s) 0 = sumc (s_conts s) i + X i;
  i_mem : forall i z, nth_error (s_size s) i = Some z -> exists l, nth_error (s_mem s) i = Some (Some l) /\ length l = z;
  i_ok : forall k c, nth_error (s_conts s) k = Some (Some c) -> cont_ok (s_size s) (s_mem s) c;
  i_h : forall h k, nth_error (s_handles s) h = Some (Some k) -> exists c, nth_error (s_conts s) k = Some (Some c);
  i_live : forall k c, nth_error (s_conts s) k = Some (Some c) -> refers (s_handles s) k = true \/ y k }.

Definition noX : nat -> nat := fun _ => 0.
Definition noY : nat -> Prop := fun _ => False.

Definition vc (oc : option cont) := option_map (fun c => (is_pool (c_owner c), locs_of (c_segs c))) oc.
Definition vt s : tabs := (s_handles s, map vc (s_conts s)).
Lemma vt_view s : vtabs (view_of s) = vt s.
Proof. reflexivity. Qed.

(* memory of everything in use afterwards is as before *)
Definition MK s s' : Prop := forall a, used (view_of s') a -> mget (s_mem s') a = mget (s_mem s) a.

Lemma used_iff s a : used (view_of s) a <-> exists k c, nth_error (s_conts s) k = Some (Some c) /\ In a (locs_of (c_segs c)).
Proof.
  unfold used, view_of. cbn [v_conts]. split.
  - intros (k & b & l & H1 & H2). rewrite nth_error_map in H1.
    destruct (nth_error (s_conts s) k) as [[c|]|] eqn:E; cbn in H1; try discriminate. injection H1 as <- <-. eauto.
  - intros (k & c & H1 & H2). exists k, (is_pool (c_owner c)), (locs_of (c_segs c)). rewrite nth_error_map, H1. auto.
Qed.

Lemma in_locs l a : In a (locs_of l) <-> exists g, In g l /\ fst a = g_obj g /\ g_off g <= snd a < g_off g + g_len g.
Proof.
  unfold locs_of. rewrite in_flat_map. split; intros (g & H1 & H2); exists g; split; auto; apply range_in; auto.
Qed.

Lemma pseg_lt sizes g : pseg sizes g -> g_id g < length sizes.
Proof. intros (H & _ & z & H1 & _). rewrite H. apply nth_error_Some. congruence. Qed.

Lemma cont_ok_obj sizes mem c a : cont_ok sizes mem c -> In a (locs_of (c_segs c)) ->
  (c_owner c = OPool /\ fst a < length sizes /\ In (fst a) (map g_id (c_segs c))) \/
  (exists e, c_owner c = OExt e /\ fst a = e /\ length sizes <= e).
Proof.
  intros [H1 H2] Ha. apply in_locs in Ha as (g & G1 & G2 & G3). destruct (c_owner c) as [|e|] eqn:Eo.
  - left. rewrite Forall_forall in H2. pose proof (H2 g G1) as Pg. split; auto. split.
    + rewrite G2. destruct Pg as (Eid & _). rewrite <- Eid. apply pseg_lt; auto.
    + apply in_map_iff. exists g. split; auto. destruct Pg as (Eid & _). congruence.
  - right. destruct H2 as (L & l & g' & M1 & M2 & M3 & M4). rewrite M2 in G1. destruct G1 as [<-|[]]. exists e. split; auto. split; [congruence|auto].
  - unfold c_segs in G1. rewrite H2 in G1. destruct G1.
Qed.

Lemma mget_in (m : memory B) o f l : nth_error m o = Some (Some l) -> f < length l -> mget m (o, f) <> None.
Proof. intros H1 H2. unfold mget. cbn [fst snd]. rewrite H1. apply nth_error_Some. auto. Qed.

Lemma cont_live sizes (m : memory B) c : (forall i z, nth_error sizes i = Some z -> exists l, nth_error m i = Some (Some l) /\ length l = z) ->
  cont_ok sizes m c -> live m (locs_of (c_segs c)).
Proof.
  intros IM [H1 H2]. apply Forall_forall. intros a Ha. apply in_locs in Ha as (g & G1 & G2 & G3).
  destruct a as [o f]. cbn [fst snd] in *. destruct (c_owner c) as [|e|].
  - rewrite Forall_forall in H2. destruct (H2 g G1) as (_ & _ & z & Z1 & Z2). destruct (IM _ _ Z1) as (l & L1 & L2).
    subst o. apply (mget_in m _ _ l); auto. lia.
  - destruct H2 as (L & l & g' & M1 & M2 & M3 & M4). rewrite M2 in G1. destruct G1 as [<-|[]]. subst o. rewrite M3.
    apply (mget_in m _ _ l); auto. lia.
  - unfold c_segs in G1. rewrite H2 in G1. destruct G1.
Qed.

Lemma Inv_sound s : Inv noX noY s -> sound (view_of s).
Proof.
  intros I. split; [|split].
  - intros a Ha. apply used_iff in Ha as (k & c & H1 & H2).
    pose proof (cont_live _ _ c (i_mem _ _ _ I) (i_ok _ _ _ I k c H1)) as L. unfold live in L. rewrite Forall_forall in L. apply L. auto.
  - intros h k H. destruct (i_h _ _ _ I h k H) as (c & E). cbn [view_of v_conts]. rewrite nth_error_map, E. cbn. eauto.
  - intros k x H. cbn [view_of v_conts v_handles] in *. rewrite nth_error_map in H.
    destruct (nth_error (s_conts s) k) as [[c|]|] eqn:E; cbn in H; try discriminate.
    destruct (i_live _ _ _ I k c E) as [|[]]; auto.
Qed.

Lemma refers_true hs k : refers hs k = true <-> exists h, nth_error hs h = Some (Some k).
Proof.
  unfold refers. rewrite existsb_exists. split.
  - intros ([x|] & H1 & H2); [|discriminate]. apply Nat.eqb_eq in H2 as ->. apply In_nth_error in H1 as [h H1]. eauto.
  - intros [h H]. exists (Some k). split; [eapply nth_error_In; eauto|apply Nat.eqb_refl].
Qed.

Lemma MK_refl s : MK s s.
Proof. intros a _. auto. Qed.
Lemma MK_mem s s' : s_mem s' = s_mem s -> MK s s'.
Proof. intros H a _. rewrite H. auto. Qed.

Lemma MK_keeps s s' : MK s s' -> keeps (view_of s) (view_of s').
Proof. intros H a _ Ha. apply H. auto. Qed.

(* ---- destruction ---- *)
Lemma destroy_ok X y s k c : Inv X (fun j => y j \/ j = k) s -> nth_error (s_conts s) k = Some (Some c) -> refers (s_handles s) k = false ->
  exists s', destroy s k = Ok s' /\ Inv X y s' /\ vt s' = (s_handles s, upd (map vc (s_conts s)) k None) /\ MK s s' /\
    s_size s' = s_size s /\ s_raw s' = s_raw s.
Proof.
  intros I E R. unfold destroy, getc. rewrite (proj2 (nth_None_error _ _ _) E).
  assert (HH : forall h k', nth_error (s_handles s) h = Some (Some k') -> exists c', nth_error (upd (s_conts s) k None) k' = Some (Some c')).
  { intros h k' Hk. destruct (i_h _ _ _ I h k' Hk) as (c' & E'). exists c'. rewrite nth_error_upd_other; auto. intros <-.
    rewrite (proj2 (refers_true (s_handles s) k)) in R by eauto. discriminate. }
  assert (HL : forall k' c', nth_error (upd (s_conts s) k None) k' = Some (Some c') -> k' <> k /\ nth_error (s_conts s) k' = Some (Some c')).
  { intros k' c' H. rewrite nth_error_upd in H. destruct (Nat.eqb_spec k' k) as [->|Ne]; cbn [andb] in H.
    - assert (k < length (s_conts s)) by (apply nth_error_Some; congruence). destruct (Nat.ltb_spec k (length (s_conts s))); [discriminate|lia].
    - auto. }
  assert (HV : map vc (upd (s_conts s) k None) = upd (map vc (s_conts s)) k None) by (rewrite (map_upd vc); reflexivity).
  assert (LV : forall k' c', nth_error (upd (s_conts s) k None) k' = Some (Some c') -> refers (s_handles s) k' = true \/ y k').
  { intros k' c' H. destruct (HL _ _ H) as [N H']. destruct (i_live _ _ _ I k' c' H') as [|[|]]; auto. }
  destruct (c_owner c) as [|e|] eqn:Eo.
  - destruct (dec_refs_ok (length (s_size s)) (s_raw s) (map g_id (c_segs c)) (s_refs s) (s_free s) (i_pi _ _ _ I)) as (r' & f' & Ed & P' & C').
    { intros i. rewrite (i_ref _ _ _ I). pose proof (sumc_le _ _ _ i E) as L. cbn [cnt_of] in L. rewrite Eo in L. cbn [is_pool] in L. lia. }
    cbn [with_conts s_refs s_free]. rewrite Ed. cbn [bind]. eexists. split; [reflexivity|]. split.
    { constructor; cbn [with_pool with_conts s_size s_refs s_free s_raw s_mem s_conts s_handles]; auto; try apply I.
      - intros i. rewrite C', (i_ref _ _ _ I). pose proof (sumc_upd _ _ _ None i E) as L. cbn [cnt_of] in L. rewrite Eo in L. cbn [is_pool] in L. lia.
      - intros k' c' H. apply (i_ok _ _ _ I k'). apply HL. auto. }
    split; [unfold vt; cbn; rewrite HV; auto|]. split; [apply MK_mem; reflexivity|auto].
  - assert (Hs : forall i, sumc (upd (s_conts s) k None) i = sumc (s_conts s) i).
    { intros i. pose proof (sumc_upd _ _ _ None i E) as L. cbn [cnt_of] in L. rewrite Eo in L. cbn [is_pool] in L. lia. }
    cbn [with_conts s_conts s_mem]. destruct (existsb (owned_by e) (upd (s_conts s) k None)) eqn:Ex.
    + eexists. split; [reflexivity|]. split.
      { constructor; cbn [with_conts s_size s_refs s_free s_raw s_mem s_conts s_handles]; auto; try apply I.
        - intros i. rewrite Hs. apply I.
        - intros k' c' H. apply (i_ok _ _ _ I k'). apply HL. auto. }
      split; [unfold vt; cbn; rewrite HV; auto|]. split; [apply MK_mem; reflexivity|auto].
    + assert (NE : forall k' c', nth_error (upd (s_conts s) k None) k' = Some (Some c') -> c_owner c' <> OExt e).
      { intros k' c' H Ho. assert (Y : existsb (owned_by e) (upd (s_conts s) k None) = true); [|congruence].
        apply existsb_exists. exists (Some c'). split; [eapply nth_error_In; eauto|]. cbn. rewrite Ho. apply Nat.eqb_refl. }
      pose proof (i_ok _ _ _ I k c E) as OKc. destruct OKc as [_ OKc]. rewrite Eo in OKc. destruct OKc as (Le & _).
      eexists. split; [reflexivity|]. split.
      { constructor; cbn [with_mem with_conts s_size s_refs s_free s_raw s_mem s_conts s_handles]; auto; try apply I.
        - intros i. rewrite Hs. apply I.
        - intros i z Hz. rewrite nth_error_upd_other; [apply (i_mem _ _ _ I); auto|].
          assert (i < length (s_size s)) by (apply nth_error_Some; congruence). lia.
        - intros k' c' H. destruct (HL _ _ H) as [N H']. destruct (i_ok _ _ _ I k' c' H') as [O1 O2]. split; auto.
          destruct (c_owner c') as [|e'|] eqn:Eo'; auto. destruct O2 as (L & l & g & M1 & M2). split; auto. exists l, g. split; auto.
          rewrite nth_error_upd_other; auto. intros <-. apply (NE _ _ H). auto. }
      split; [unfold vt; cbn; rewrite HV; auto|]. split; [|auto].
      intros a Ha. apply used_iff in Ha as (k' & c' & H1 & H2). cbn [with_mem with_conts s_conts s_mem] in *.
      destruct (HL _ _ H1) as [N H']. destruct (cont_ok_obj _ _ _ _ (i_ok _ _ _ I k' c' H') H2) as [(O1 & O2 & _)|(e' & O1 & O2 & O3)].
      * unfold mget. rewrite nth_error_upd_other; auto. lia.
      * unfold mget. rewrite nth_error_upd_other; auto. intros Ee. apply (NE _ _ H1). rewrite O1. f_equal. congruence.
  - assert (Hs : forall i, sumc (upd (s_conts s) k None) i = sumc (s_conts s) i).
    { intros i. pose proof (sumc_upd _ _ _ None i E) as L. cbn [cnt_of] in L. rewrite Eo in L. cbn [is_pool] in L. lia. }
    eexists. split; [reflexivity|]. split.
      { constructor; cbn [with_conts s_size s_refs s_free s_raw s_mem s_conts s_handles]; auto; try apply I.
        - intros i. rewrite Hs. apply I.
        - intros k' c' H. apply (i_ok _ _ _ I k'). apply HL. auto. }
      split; [unfold vt; cbn; rewrite HV; auto|]. split; [apply MK_mem; reflexivity|auto].
Qed.

Lemma nth_vt s h : nth h (fst (vt s)) None = hnd s h.
Proof. reflexivity. Qed.

Lemma release_ok X y s h : Inv X y s ->
  exists s', release s h = Ok s' /\ Inv X y s' /\ vt s' = t_release (vt s) h /\ MK s s' /\ s_size s' = s_size s /\ s_raw s' = s_raw s.
Proof.
  intros I. unfold release, t_release. rewrite nth_vt. destruct (hnd s h) as [k|] eqn:Eh.
  2: { exists s. split; auto. split; auto. split; auto. split; [apply MK_refl|auto]. }
  assert (Eh' : nth_error (s_handles s) h = Some (Some k)) by (apply nth_None_error; auto).
  destruct (i_h _ _ _ I h k Eh') as (c & Ec).
  assert (I1 : Inv X (fun j => y j \/ (j = k /\ refers (upd (s_handles s) h None) k = false)) (with_handles s (upd (s_handles s) h None))).
  { constructor; cbn [with_handles s_size s_refs s_free s_raw s_mem s_conts s_handles]; try apply I.
    - intros h' k' H. rewrite nth_error_upd in H. destruct ((h' =? h) && (h <? length (s_handles s))); [discriminate|].
      apply (i_h _ _ _ I h'). auto.
    - intros k' c' H. destruct (i_live _ _ _ I k' c' H) as [R|]; auto.
      destruct (Nat.eq_dec k' k) as [->|N].
      + destruct (refers (upd (s_handles s) h None) k) eqn:E; auto.
      + left. apply refers_true in R as [h' R]. apply refers_true. exists h'. rewrite nth_error_upd_other; auto. intros <-. congruence. }
  cbn [fst vt]. cbn [with_handles s_handles] in *. destruct (refers (upd (s_handles s) h None) k) eqn:R.
  - eexists. split; [reflexivity|]. split.
    { constructor; try apply I1. intros k' c' H. destruct (i_live _ _ _ I1 k' c' H) as [|[|[_ F]]]; auto. discriminate. }
    split; [reflexivity|]. split; [apply MK_mem; reflexivity|]. auto.
  - destruct (destroy_ok X y (with_handles s (upd (s_handles s) h None)) k c) as (s' & E & I' & V & M & Z); auto.
    { constructor; try apply I1. intros k' c' H. destruct (i_live _ _ _ I1 k' c' H) as [|[|[F _]]]; auto. }
    exists s'. repeat (split; auto).
Qed.

Lemma t_release_live s h j c : nth_error (s_conts s) j = Some (Some c) ->
  (hnd s h <> Some j \/ exists h2, h2 <> h /\ nth_error (s_handles s) h2 = Some (Some j)) ->
  nth_error (snd (t_release (vt s) h)) j = Some (vc (Some c)).
Proof.
  intros E H. unfold t_release. rewrite nth_vt. cbn [fst snd vt].
  assert (E1 : nth_error (map vc (s_conts s)) j = Some (vc (Some c))) by (rewrite nth_error_map, E; reflexivity).
  destruct (hnd s h) as [k|] eqn:Eh; auto. destruct (refers (upd (s_handles s) h None) k) eqn:R; cbn [snd]; auto.
  rewrite nth_error_upd_other; auto. intros ->. destruct H as [H|(h2 & N & H)]; [congruence|].
  rewrite (proj2 (refers_true _ _)) in R; [discriminate|]. exists h2. rewrite nth_error_upd_other; auto.
Qed.

Lemma set_handle_ok X y s h k : Inv X y s -> h < length (s_handles s) -> (forall j, y j -> k = Some j) ->
  (forall j, k = Some j -> exists c, nth_error (s_conts s) j = Some (Some c) /\
     (hnd s h <> Some j \/ exists h2, h2 <> h /\ nth_error (s_handles s) h2 = Some (Some j))) ->
  exists s', set_handle s h k = Ok s' /\ Inv X noY s' /\ vt s' = t_set (vt s) h k /\ MK s s' /\ s_size s' = s_size s /\ s_raw s' = s_raw s.
Proof.
  intros I Hl Hy Hk. unfold set_handle. destruct (release_ok X y s h I) as (s1 & E & I1 & V & M & Z1 & Z2). rewrite E. cbn [bind].
  assert (Hh : fst (t_release (vt s) h) = upd (s_handles s) h None).
  { unfold t_release. rewrite nth_vt. destruct (hnd s h) as [j|] eqn:Eh; cbn [fst vt].
    - destruct (refers (upd (s_handles s) h None) j); reflexivity.
    - apply list_eq_nth_error. intros i. rewrite nth_error_upd. destruct (Nat.eqb_spec i h) as [->|]; cbn [andb]; auto.
      destruct (Nat.ltb_spec h (length (s_handles s))); auto. rewrite (nth_error_nth' _ None) by auto. f_equal. auto. }
  assert (Hs1 : s_handles s1 = upd (s_handles s) h None) by (rewrite <- Hh, <- V; reflexivity).
  eexists. split; [reflexivity|]. split.
  { constructor; cbn [with_handles s_size s_refs s_free s_raw s_mem s_conts s_handles]; try apply I1.
    - intros h' k' H. rewrite nth_error_upd in H. destruct ((h' =? h) && (h <? length (s_handles s1))).
      + injection H as ->. destruct (Hk k' eq_refl) as (c & E1 & E2).
        pose proof (t_release_live s h k' c E1 E2) as T. rewrite <- V in T. cbn [vt snd] in T. rewrite nth_error_map in T.
        destruct (nth_error (s_conts s1) k') as [[c'|]|] eqn:Ec; try discriminate. eauto.
      + apply (i_h _ _ _ I1 h'). auto.
    - intros k' c' H. left. apply refers_true. destruct (i_live _ _ _ I1 k' c' H) as [R|Y].
      + apply refers_true in R as [h' R]. exists h'. rewrite nth_error_upd_other; auto. intros <-.
        rewrite Hs1, nth_error_upd_same in R by auto. discriminate.
      + apply Hy in Y. subst k. exists h. apply nth_error_upd_same. rewrite Hs1, upd_length. auto. }
  split. { unfold t_set. rewrite <- V. reflexivity. }
  split. { intros a Ha. apply M. exact Ha. }
  auto.
Qed.

Lemma put_new_ok X s h c : Inv (fun i => X i + cnt_of (Some c) i) noY s -> h < length (s_handles s) -> cont_ok (s_size s) (s_mem s) c ->
  exists s', put_new s h c = Ok s' /\ Inv X noY s' /\ vt s' = t_new (vt s) h (is_pool (c_owner c), locs_of (c_segs c)) /\ MK s s' /\
    s_size s' = s_size s /\ s_raw s' = s_raw s.
Proof.
  intros I Hl Hc. unfold put_new.
  destruct (set_handle_ok X (fun j => j = length (s_conts s)) (with_conts s (s_conts s ++ [Some c])) h (Some (length (s_conts s)))) as (s' & E & I' & V & M & Z1 & Z2).
  - constructor; cbn [with_conts s_size s_refs s_free s_raw s_mem s_conts s_handles]; try apply I.
    + intros i. rewrite sumc_app, (i_ref _ _ _ I). change (sumc [Some c] i) with (cnt_of (Some c) i + 0). lia.
    + intros k c' H. destruct (Nat.lt_ge_cases k (length (s_conts s))).
      * rewrite nth_error_app1 in H by auto. apply (i_ok _ _ _ I k). auto.
      * rewrite nth_error_app2 in H by auto. destruct (k - length (s_conts s)) as [|[|]]; cbn in H; try discriminate. injection H as <-. auto.
    + intros h' k H. destruct (i_h _ _ _ I h' k H) as (c' & E). exists c'. rewrite nth_error_app1; auto. apply nth_error_Some. congruence.
    + intros k c' H. destruct (Nat.lt_ge_cases k (length (s_conts s))).
      * rewrite nth_error_app1 in H by auto. destruct (i_live _ _ _ I k c' H) as [|[]]; auto.
      * right. rewrite nth_error_app2 in H by auto. destruct (k - length (s_conts s)) as [|n] eqn:Ek; [lia|]. destruct n; discriminate.
  - auto.
  - intros j ->. auto.
  - intros j Ej. injection Ej as <-. exists c. cbn [with_conts s_conts s_handles]. split.
    + rewrite nth_error_app2, Nat.sub_diag by auto. reflexivity.
    + left. change (hnd s h <> Some (length (s_conts s))). intros Eh. apply nth_None_error in Eh.
      destruct (i_h _ _ _ I _ _ Eh) as (c' & Ec). assert (length (s_conts s) < length (s_conts s)) by (apply nth_error_Some; congruence). lia.
  - exists s'. split; auto. split; auto. split.
    { rewrite V. unfold t_new, vt. cbn [with_conts s_handles s_conts fst snd]. rewrite map_app, map_length. reflexivity. }
    split; auto.
Qed.
End P.
