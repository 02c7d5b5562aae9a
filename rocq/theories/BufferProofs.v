From Coq Require FinFun.
From Verif Require Import Common ListFacts BufferSpec BufferModel.

(* ---- slices and ranges ---- *)
Section Sl.
Context {A : Type}.
Implicit Types l : list A.

Lemma slice_length l p n : p + n <= length l -> length (slice l p n) = n.
Proof. intros H. unfold slice. rewrite firstn_length, skipn_length. lia. Qed.

Lemma slice_app_l (a b : list A) p n : p + n <= length a -> slice (a ++ b) p n = slice a p n.
Proof.
  intros H. unfold slice. rewrite skipn_app, firstn_app, skipn_length.
  replace (n - (length a - p)) with 0 by lia. cbn [firstn]. apply app_nil_r.
Qed.

Lemma slice_app_r (a b : list A) p n : length a <= p -> slice (a ++ b) p n = slice b (p - length a) n.
Proof. intros H. unfold slice. rewrite skipn_app, skipn_all2 by lia. reflexivity. Qed.

Lemma slice_add l p n k : slice l p (n + k) = slice l p n ++ slice l (p + n) k.
Proof.
  unfold slice. rewrite <- (firstn_skipn n (skipn p l)) at 1.
  rewrite skipn_skipn.
  destruct (Nat.le_gt_cases n (length (skipn p l))).
  - rewrite firstn_app, firstn_firstn, firstn_length.
    replace (Nat.min (n + k) n) with n by lia. replace (n + k - Nat.min n (length (skipn p l))) with k by lia. reflexivity.
  - rewrite !firstn_all2 with (n := n) by lia.
    rewrite skipn_length in H. rewrite (skipn_all2 (n := p + n)) by lia.
    rewrite app_nil_r, firstn_nil, app_nil_r. apply firstn_all2. rewrite skipn_length. lia.
Qed.

Lemma slice_0 l p : slice l p 0 = [].
Proof. reflexivity. Qed.

Lemma slice_all l : slice l 0 (length l) = l.
Proof. unfold slice. cbn [skipn]. apply firstn_all. Qed.

Lemma slice_nth l p n i : i < n -> nth_error (slice l p n) i = nth_error l (p + i).
Proof.
  intros H. unfold slice. rewrite nth_error_firstn_lt by auto. apply nth_error_skipn.
Qed.

Lemma slice_in l p n x : In x (slice l p n) -> In x l.
Proof. intros H. eapply in_skipn, in_firstn, H. Qed.

Lemma slice_slice l p n q k : q + k <= n -> slice (slice l p n) q k = slice l (p + q) k.
Proof.
  intros H. unfold slice. rewrite skipn_firstn_comm, firstn_firstn, skipn_skipn. f_equal. lia.
Qed.
End Sl.

Lemma range_length o f n : length (range o f n) = n.
Proof. unfold range. rewrite map_length, seq_length. reflexivity. Qed.

Lemma map_seq_shift {A} (g : nat -> A) n k b : map g (seq (n + b) k) = map (fun i => g (n + i)) (seq b k).
Proof. revert b. induction k as [|k IH]; intros b; cbn [seq map]; auto. f_equal. replace (S (n + b)) with (n + S b) by lia. apply IH. Qed.

Lemma range_app o f n k : range o f (n + k) = range o f n ++ range o (f + n) k.
Proof.
  unfold range. rewrite seq_app, map_app. f_equal. rewrite (Nat.add_comm 0 n), map_seq_shift.
  apply map_ext. intros i. f_equal. lia.
Qed.

Lemma slice_range o f n p k : p + k <= n -> slice (range o f n) p k = range o (f + p) k.
Proof.
  intros H. replace n with (p + (k + (n - p - k))) by lia. rewrite range_app.
  rewrite slice_app_r by (rewrite range_length; lia). rewrite range_length, Nat.sub_diag, range_app.
  rewrite slice_app_l by (rewrite range_length; lia).
  rewrite <- (range_length o (f + p) k) at 2. apply slice_all.
Qed.

Lemma range_in o f n a : In a (range o f n) <-> fst a = o /\ f <= snd a < f + n.
Proof.
  unfold range. rewrite in_map_iff. destruct a as [x y]. cbn. split.
  - intros (k & E & H). inversion E; subst. apply in_seq in H. lia.
  - intros (-> & H). exists (y - f). split; [f_equal; lia|]. apply in_seq. lia.
Qed.

Lemma range_nodup o f n : NoDup (range o f n).
Proof.
  unfold range. apply FinFun.Injective_map_NoDup; [|apply seq_NoDup]. intros x y E. inversion E. lia.
Qed.

Lemma locs_of_app a b : locs_of (a ++ b) = locs_of a ++ locs_of b.
Proof. apply flat_map_app. Qed.
Lemma total_app a b : total (a ++ b) = total a + total b.
Proof. induction a as [|g a IH]; cbn [app total]; lia. Qed.
Lemma locs_of_length l : length (locs_of l) = total l.
Proof. induction l as [|g l IH]; cbn [locs_of flat_map total]; auto. rewrite app_length, range_length. unfold locs_of in IH. lia. Qed.

(* ---- memory ---- *)
Section Mem.
Context {B : Type}.
Implicit Types m : memory B.

Lemma mread_mget m o f n : mread m (o, f) n <> None \/ n = 0 <-> Forall (fun a => mget m a <> None) (range o f n).
Proof.
  rewrite Forall_forall. unfold mread, mget. cbn [fst snd]. split.
  - intros [H| ->] a Ha; [|apply range_in in Ha; lia]. apply range_in in Ha as [E Ha]. rewrite E.
    destruct (nth_error m o) as [[l|]|]; try congruence.
    destruct (Nat.leb_spec (f + n) (length l)); [|congruence]. apply nth_error_Some. lia.
  - intros H. destruct n; [right; auto|left].
    specialize (H (o, f + n)). cbn [fst snd] in H. assert (Hi : In (o, f + n) (range o f (S n))) by (apply range_in; cbn; lia).
    specialize (H Hi). destruct (nth_error m o) as [[l|]|]; try congruence.
    apply nth_error_Some in H. destruct (Nat.leb_spec (f + S n) (length l)); [congruence|lia].
Qed.

Lemma mread_spec m o f n bs : mread m (o, f) n = Some bs -> length bs = n /\ map Some bs = map (mget m) (range o f n).
Proof.
  unfold mread. cbn [fst snd]. destruct (nth_error m o) as [[l|]|] eqn:E; try discriminate.
  destruct (Nat.leb_spec (f + n) (length l)); [|discriminate]. intros H0; inversion H0; subst bs.
  pose proof (slice_length l f n H) as L. split; auto. apply list_eq_nth_error. intros i.
  rewrite !nth_error_map. destruct (Nat.lt_ge_cases i n) as [Hi|Hi].
  - rewrite slice_nth by auto. unfold range. rewrite nth_error_seq_map by auto.
    cbn [option_map]. unfold mget. cbn [fst snd]. rewrite E.
    destruct (nth_error l (f + i)) eqn:E2; [reflexivity|]. apply nth_error_None in E2. lia.
  - rewrite !(proj2 (nth_error_None _ _)); auto; rewrite ?range_length; lia.
Qed.

Lemma mwrite_ok m o f bs : mread m (o, f) (length bs) <> None -> exists m', mwrite m (o, f) bs = Some m'.
Proof.
  unfold mread, mwrite. cbn [fst snd]. destruct (nth_error m o) as [[l|]|]; try congruence.
  destruct (f + length bs <=? length l); eauto. congruence.
Qed.

Definition same_shape m m' : Prop := length m = length m' /\ forall o, match nth_error m o, nth_error m' o with
  | Some (Some l), Some (Some l') => length l = length l' | Some None, Some None => True | None, None => True | _, _ => False end.

Lemma same_shape_refl m : same_shape m m.
Proof. split; auto. intros o. destruct (nth_error m o) as [[?|]|]; auto. Qed.
Lemma same_shape_trans m1 m2 m3 : same_shape m1 m2 -> same_shape m2 m3 -> same_shape m1 m3.
Proof.
  intros [L1 H1] [L2 H2]. split; [lia|]. intros o. specialize (H1 o). specialize (H2 o).
  destruct (nth_error m1 o) as [[?|]|], (nth_error m2 o) as [[?|]|], (nth_error m3 o) as [[?|]|]; auto; try contradiction; congruence.
Qed.
Lemma same_shape_get m m' a : same_shape m m' -> mget m a <> None <-> mget m' a <> None.
Proof.
  intros [L H]. specialize (H (fst a)). unfold mget.
  destruct (nth_error m (fst a)) as [[?|]|], (nth_error m' (fst a)) as [[?|]|]; try contradiction; try tauto.
  rewrite !nth_error_Some. lia.
Qed.

Lemma mwrite_spec m o f bs m' : mwrite m (o, f) bs = Some m' ->
  map (mget m') (range o f (length bs)) = map Some bs /\
  (forall a, ~ In a (range o f (length bs)) -> mget m' a = mget m a) /\ same_shape m m'.
Proof.
  unfold mwrite. cbn [fst snd]. destruct (nth_error m o) as [[l|]|] eqn:E; try discriminate.
  destruct (Nat.leb_spec (f + length bs) (length l)); [|discriminate]. intros H0; inversion H0; subst m'.
  assert (Ho : o < length m) by (apply nth_error_Some; congruence).
  assert (Lf : length (firstn f l) = f) by (rewrite firstn_length; lia).
  set (l' := firstn f l ++ bs ++ skipn (f + length bs) l).
  assert (G : forall a, mget (upd m o (Some l')) a = if fst a =? o then nth_error l' (snd a) else mget m a).
  { intros a. unfold mget. rewrite nth_error_upd. destruct (Nat.ltb_spec o (length m)); [|lia].
    rewrite andb_true_r. destruct (Nat.eqb_spec (fst a) o); auto. }
  split; [|split].
  - apply list_eq_nth_error. intros i. rewrite !nth_error_map. destruct (Nat.lt_ge_cases i (length bs)) as [Hi|Hi].
    + unfold range. rewrite nth_error_seq_map by auto. cbn [option_map]. rewrite G. cbn [fst snd]. rewrite Nat.eqb_refl.
      unfold l'. rewrite nth_error_app2 by lia. rewrite Lf. rewrite nth_error_app1 by lia.
      replace (f + i - f) with i by lia. destruct (nth_error bs i) eqn:E2; auto. apply nth_error_None in E2. lia.
    + rewrite !(proj2 (nth_error_None _ _)); auto; rewrite ?range_length; lia.
  - intros a Ha. rewrite G. destruct (Nat.eqb_spec (fst a) o) as [Ea|]; auto.
    unfold mget. rewrite Ea, E. rewrite range_in in Ha. unfold l'.
    destruct (Nat.lt_ge_cases (snd a) f).
    + rewrite nth_error_app1 by lia. apply nth_error_firstn_lt. lia.
    + rewrite nth_error_app2 by lia. rewrite nth_error_app2 by lia. rewrite nth_error_skipn, Lf. f_equal. lia.
  - split; [rewrite upd_length; auto|]. intros k. rewrite nth_error_upd.
    destruct (Nat.eqb_spec k o) as [->|]; cbn [andb].
    + destruct (Nat.ltb_spec o (length m)); [|lia]. rewrite E. unfold l'. rewrite !app_length, skipn_length. lia.
    + destruct (nth_error m k) as [[?|]|]; auto.
Qed.

Lemma map_mget_ext m m' (l : list loc) : (forall a, In a l -> mget m' a = mget m a) -> map (mget m') l = map (mget m) l.
Proof. intros H. apply map_ext_in. auto. Qed.

Lemma memcpy_ok m (t s : loc) n : 0 < n -> (forall a, In a (range (fst t) (snd t) n) -> ~ In a (range (fst s) (snd s) n)) ->
  Forall (fun a => mget m a <> None) (range (fst t) (snd t) n) ->
  Forall (fun a => mget m a <> None) (range (fst s) (snd s) n) ->
  exists m', memcpy m (Some t) (Some s) n = Ok m' /\ same_shape m m' /\
    map (mget m') (range (fst t) (snd t) n) = map (mget m) (range (fst s) (snd s) n) /\
    (forall a, ~ In a (range (fst t) (snd t) n) -> mget m' a = mget m a).
Proof.
  intros Hn D Ht Hs. unfold memcpy. destruct (Nat.eqb_spec n 0); [lia|].
  destruct t as [o f], s as [o' f']. cbn [fst snd] in *.
  apply mread_mget in Ht. apply mread_mget in Hs. destruct Ht as [Ht|]; [|lia]. destruct Hs as [Hs|]; [|lia].
  replace (overlap (o, f) (o', f') n) with false.
  2: { symmetry. unfold overlap. cbn [fst snd]. destruct (Nat.eqb_spec o o') as [->|]; auto. cbn [andb].
       destruct (Nat.ltb_spec f (f' + n)); auto. destruct (Nat.ltb_spec f' (f + n)); auto.
       exfalso. apply (D (o', Nat.max f f')); apply range_in; cbn; lia. }
  destruct (mread m (o', f') n) as [bs|] eqn:E; [|congruence].
  destruct (mread_spec _ _ _ _ _ E) as (L & R).
  destruct (mwrite_ok m o f bs) as (m' & W); [rewrite L; auto|]. rewrite W.
  destruct (mwrite_spec _ _ _ _ _ W) as (W1 & W2 & W3). rewrite L in *.
  exists m'. split; auto. split; auto. split; auto. congruence.
Qed.
End Mem.

(* ---- pointers ---- *)
Definition seg_start (segs : list seg) (k : nat) : nat := total (firstn k segs).
Definition nonempty (segs : list seg) : Prop := Forall (fun g => 0 < g_len g) segs.

(* pointer [p] stands at position P of the buffer, F bytes accessible *)
Record PR (segs : list seg) (p : ptr) (P F : nat) : Prop := {
  pr_segs : p_segs p = Some segs \/ (p_segs p = None /\ length segs = 1);
  pr_full : p_full p = F;
  pr_fit : P + F <= total segs;
  pr_pos : 0 < F -> exists g, nth_error segs (p_seg p) = Some g /\
             seg_start segs (p_seg p) <= P < seg_start segs (p_seg p) + g_len g /\
             p_at p = Some (g_obj g, g_off g + (P - seg_start segs (p_seg p))) /\
             0 < p_raw p <= seg_start segs (p_seg p) + g_len g - P /\
             (p_raw p < seg_start segs (p_seg p) + g_len g - P -> p_raw p = F) }.

Lemma seg_start_S segs k g : nth_error segs k = Some g -> seg_start segs (S k) = seg_start segs k + g_len g.
Proof. intros H. unfold seg_start. rewrite (firstn_S_nth _ _ _ H), total_app. cbn [total]. lia. Qed.

Lemma total_split segs k : total segs = seg_start segs k + total (skipn k segs).
Proof. unfold seg_start. rewrite <- total_app, firstn_skipn. reflexivity. Qed.

Lemma slice_seg segs k g P n : nth_error segs k = Some g -> seg_start segs k <= P -> P + n <= seg_start segs k + g_len g ->
  slice (locs_of segs) P n = range (g_obj g) (g_off g + (P - seg_start segs k)) n.
Proof.
  intros H H1 H2. rewrite (nth_error_split_list _ _ _ H) at 1. rewrite locs_of_app.
  rewrite slice_app_r by (rewrite locs_of_length; auto). rewrite locs_of_length.
  change (locs_of (g :: skipn (S k) segs)) with (range (g_obj g) (g_off g) (g_len g) ++ locs_of (skipn (S k) segs)).
  fold (seg_start segs k). rewrite slice_app_l by (rewrite range_length; lia). apply slice_range. lia.
Qed.

Lemma PR_range segs p P F n : PR segs p P F -> 0 < F -> n <= p_raw p ->
  exists a, p_at p = Some a /\ slice (locs_of segs) P n = range (fst a) (snd a) n.
Proof.
  intros R HF Hn. destruct (pr_pos _ _ _ _ R HF) as (g & E & H1 & H2 & H3 & H4).
  eexists. split; [exact H2|]. cbn [fst snd]. apply slice_seg; auto; lia.
Qed.

(* loop of long_shift *)
Lemma ls_loop_ok segs : nonempty segs -> forall l k len full, l = skipn k segs -> len <= full -> 0 < full -> full <= total l ->
  exists g k' len', ls_loop l k len full = Ok (Some g, k', len', len' + (full - len)) /\
    nth_error segs k' = Some g /\ seg_start segs k' + len' = seg_start segs k + len /\ len' <= g_len g /\ k <= k' /\ (len = 0 -> len' = 0).
Proof.
  intros NE. induction l as [|g l IH]; intros k len full El H1 H0 H2; cbn [total] in H2; [lia|].
  assert (Eg : nth_error segs k = Some g).
  { rewrite <- (Nat.add_0_r k), <- nth_error_skipn, <- El. reflexivity. }
  assert (Eg2 : l = skipn (S k) segs).
  { rewrite (skipn_cons_nth _ _ _ Eg) in El. congruence. }
  cbn [ls_loop]. destruct (Nat.ltb_spec (g_len g) len).
  - destruct (Nat.ltb_spec full (g_len g)); [lia|].
    destruct (IH (S k) (len - g_len g) (full - g_len g) Eg2) as (g' & k' & len' & E & A1 & A2 & A3 & A4 & A5); try lia.
    exists g', k', len'. rewrite E. rewrite (seg_start_S _ _ _ Eg) in A2.
    split; [do 2 f_equal; lia|]. repeat (split; auto); lia.
  - exists g, k, len. split; [do 2 f_equal; lia|]. repeat (split; auto).
Qed.

(* landing exactly at the end of a segment that begins after position P *)
Definition lands_on_end (segs : list seg) (P sz : nat) : Prop :=
  exists k, k < length segs /\ P < seg_start segs k /\ P + sz = seg_start segs (S k).

Lemma PR_zero segs p P : (p_segs p = Some segs \/ (p_segs p = None /\ length segs = 1)) -> p_full p = 0 -> P <= total segs -> PR segs p P 0.
Proof. intros. constructor; auto; lia. Qed.

Lemma shift_ok segs p P F sz : nonempty segs -> PR segs p P F -> sz <= F -> (sz = F \/ ~ lands_on_end segs P sz) ->
  exists q, shift p sz = Ok (q, sz) /\ PR segs q (P + sz) (F - sz) /\
   (sz < F -> sz <= p_raw p -> 0 < p_raw q) .
Proof.
  intros NE R Hs Hh. destruct R as [R1 R2 R3 R4]. unfold shift.
  destruct (Nat.eq_dec F 0) as [->|HF].
  { assert (sz = 0) by lia. subst sz. rewrite R2.
    destruct (Nat.ltb_spec 0 (p_raw p)).
    - eexists. split; [reflexivity|]. split; [|lia]. apply PR_zero; cbn; auto; lia.
    - unfold long_shift. rewrite R2. cbn [Nat.ltb Nat.leb Nat.eqb bind]. eexists. split; [reflexivity|]. split; [|lia]. apply PR_zero; cbn; auto; lia. }
  destruct (R4 ltac:(lia)) as (g & E & H1 & H2 & H3 & H4).
  destruct (Nat.ltb_spec sz (p_raw p)).
  { destruct (Nat.ltb_spec (p_full p) sz); [lia|]. eexists. split; [reflexivity|]. split; [|cbn; lia].
    constructor; cbn [p_segs p_seg p_at p_raw p_full]; auto; try lia.
    intros HF'. exists g. split; auto. split; [lia|]. split; [|split; lia].
    rewrite H2. cbn [move]. do 2 f_equal. lia. }
  destruct (Nat.ltb_spec (p_full p) sz); [lia|].
  unfold long_shift. destruct (Nat.eqb_spec (p_full p) sz) as [Ef|Ef].
  { cbn [bind]. eexists. split; [reflexivity|]. split; [|lia].
    replace (F - sz) with 0 by lia. apply PR_zero; cbn; auto; lia. }
  destruct (Nat.ltb_spec (p_full p) (p_raw p)); [lia|]. destruct (Nat.ltb_spec sz (p_raw p)); [lia|]. cbn [orb].
  assert (Hraw : P + p_raw p = seg_start segs (S (p_seg p))).
  { rewrite (seg_start_S _ _ _ E). destruct (Nat.eq_dec (p_raw p) (seg_start segs (p_seg p) + g_len g - P)); lia. }
  assert (Hsegs : p_segs p = Some segs).
  { destruct R1 as [R1|[_ R1]]; auto. exfalso.
    assert (p_seg p < length segs) by (apply nth_error_Some; congruence).
    replace (S (p_seg p)) with (length segs) in Hraw by lia. unfold seg_start in Hraw. rewrite firstn_all in Hraw. lia. }
  unfold bufsegs. rewrite Hsegs.
  destruct (ls_loop_ok segs NE (skipn (S (p_seg p)) segs) (S (p_seg p)) (sz - p_raw p) (p_full p - p_raw p) eq_refl)
    as (g' & k' & len' & E' & A1 & A2 & A3 & A4 & A5); try lia.
  { pose proof (total_split segs (S (p_seg p))). lia. }
  rewrite E'. cbn [bind]. destruct (Nat.ltb_spec (len' + (p_full p - p_raw p - (sz - p_raw p))) len'); [lia|].
  assert (Hl : len' < g_len g').
  { destruct (Nat.eq_dec len' (g_len g')); [|lia]. exfalso.
    pose proof (proj1 (Forall_forall _ _) NE g' (nth_error_In _ _ A1)) as Pos. cbn in Pos.
    destruct Hh as [Hh|Hh]; [lia|]. apply Hh. exists k'. split; [apply nth_error_Some; congruence|].
    rewrite (seg_start_S _ _ _ A1). split; [|lia].
    assert (seg_start segs k' + len' = P + sz) by lia.
    assert (seg_start segs (S (p_seg p)) <= seg_start segs k').
    { clear -A4. revert A4. generalize (S (p_seg p)). intros a Ha. unfold seg_start.
      rewrite <- (firstn_skipn a (firstn k' segs)), total_app, firstn_firstn. replace (Nat.min a k') with a by lia. lia. }
    assert (0 < p_raw p) by lia. lia. }
  eexists. split; [reflexivity|]. split; [|cbn; lia].
  constructor; cbn [p_segs p_seg p_at p_raw p_full]; auto; try lia.
  intros _. exists g'. split; auto. split; [lia|]. split; [|split; lia].
  do 3 f_equal. lia.
Qed.

(* staying within the current segment or moving to its end is always fine *)
Lemma shift_within segs p P F sz : nonempty segs -> PR segs p P F -> sz <= F -> (0 < F -> sz <= p_raw p) ->
  exists q, shift p sz = Ok (q, sz) /\ PR segs q (P + sz) (F - sz).
Proof.
  intros NE R H1 H2. destruct (shift_ok segs p P F sz NE R H1) as (q & E & Q & _); eauto.
  destruct (Nat.eq_dec sz F); [auto|]. right. intros (k & Hk & A & C).
  destruct R as [R1 R2 R3 R4]. destruct (R4 ltac:(lia)) as (g & Eg & G1 & G2 & G3 & G4).
  assert (Hk2 : p_seg p < k).
  { destruct (Nat.le_gt_cases k (p_seg p)) as [L|L]; auto.
    assert (seg_start segs k <= seg_start segs (p_seg p)); [|lia].
    unfold seg_start. rewrite <- (firstn_skipn k (firstn (p_seg p) segs)), total_app, firstn_firstn.
    replace (Nat.min k (p_seg p)) with k by lia. lia. }
  assert (seg_start segs (S (p_seg p)) <= seg_start segs k).
  { unfold seg_start. rewrite <- (firstn_skipn (S (p_seg p)) (firstn k segs)), total_app, firstn_firstn.
    replace (Nat.min (S (p_seg p)) k) with (S (p_seg p)) by lia. lia. }
  rewrite (seg_start_S _ _ _ Eg) in H.
  destruct (nth_error segs k) as [gk|] eqn:Ek; [|apply nth_error_None in Ek; lia].
  rewrite (seg_start_S _ _ _ Ek) in C.
  pose proof (proj1 (Forall_forall _ _) NE gk (nth_error_In _ _ Ek)) as Pos. cbn in Pos. specialize (H2 ltac:(lia)). lia.
Qed.

Lemma setfullsize_ok segs p P F n : PR segs p P F -> n <= F -> PR segs (setfullsize p n) P n.
Proof.
  intros [R1 R2 R3 R4] Hn. unfold setfullsize. destruct (Nat.ltb_spec n (p_full p)).
  - constructor; cbn [p_segs p_seg p_at p_raw p_full]; auto; try lia. intros H0.
    destruct (R4 ltac:(lia)) as (g & E & H1 & H2 & H3 & H4). exists g. split; auto. split; auto. split; auto.
    destruct (Nat.ltb_spec n (p_raw p)); lia.
  - assert (n = F) by lia. subst n. constructor; auto.
Qed.

Lemma ptr_buf_ok segs : nonempty segs -> PR segs (ptr_buf segs) 0 (total segs).
Proof.
  intros NE. unfold ptr_buf. destruct (Nat.ltb_spec 0 (total segs)).
  - destruct segs as [|g r]; [cbn in H; lia|]. inversion NE; subst. constructor; cbn [p_segs p_seg p_at p_raw p_full]; auto.
    intros _. exists g. split; [reflexivity|]. unfold seg_start. cbn [firstn total]. rewrite Nat.add_0_r. split; [lia|]. split; [|lia]. auto.
  - replace (total segs) with 0 by lia. apply PR_zero; cbn; auto. lia.
Qed.

Lemma ptr_mem_ok o f sz : 0 < sz -> PR [mkSeg 0 o f sz] (ptr_mem (o, f) sz) 0 sz.
Proof.
  intros H. constructor; cbn [ptr_mem p_segs p_seg p_at p_raw p_full]; auto.
  - cbn. lia.
  - intros _. eexists. split; [reflexivity|]. cbn. rewrite Nat.add_0_r. split; [lia|]. split; [auto|lia].
Qed.

Section Copy.
Context {B : Type}.
Implicit Types m : memory B.

Definition live m (l : list loc) : Prop := Forall (fun a => mget m a <> None) l.
Definition disjoint (a b : list loc) : Prop := forall x, In x a -> ~ In x b.

Lemma copy_loop_ok ts ss : nonempty ts -> nonempty ss -> forall fuel m pt ps P P' F F' sz rs,
  PR ts pt P F -> PR ss ps P' F' -> sz <= F -> sz <= F' -> sz <= fuel ->
  NoDup (slice (locs_of ts) P sz) -> disjoint (slice (locs_of ts) P sz) (slice (locs_of ss) P' sz) ->
  live m (slice (locs_of ts) P sz) -> live m (slice (locs_of ss) P' sz) ->
  exists m', copy_loop fuel m pt ps sz rs = Ok (m', rs + sz) /\ same_shape m m' /\
    map (mget m') (slice (locs_of ts) P sz) = map (mget m) (slice (locs_of ss) P' sz) /\
    (forall a, ~ In a (slice (locs_of ts) P sz) -> mget m' a = mget m a).
Proof.
  intros N1 N2. induction fuel as [|fuel IH]; intros m pt ps P P' F F' sz rs R1 R2 L1 L2 L3 ND D V1 V2.
  - assert (sz = 0) by lia. subst sz. cbn. exists m. rewrite Nat.add_0_r. split; auto. split; auto. apply same_shape_refl.
  - cbn [copy_loop]. destruct (Nat.eqb_spec sz 0) as [->|Hz].
    { exists m. rewrite Nat.add_0_r. split; auto. split; auto. apply same_shape_refl. }
    destruct (pr_pos _ _ _ _ R1 ltac:(lia)) as (g1 & _ & _ & _ & B1 & _).
    destruct (pr_pos _ _ _ _ R2 ltac:(lia)) as (g2 & _ & _ & _ & B2 & _).
    cbv zeta. set (n0 := if p_raw pt <? p_raw ps then p_raw pt else p_raw ps).
    set (n := if sz <? n0 then sz else n0).
    assert (Hn : 0 < n /\ n <= sz /\ n <= p_raw pt /\ n <= p_raw ps).
    { assert (0 < n0 <= p_raw pt /\ n0 <= p_raw ps) by (unfold n0; destruct (Nat.ltb_spec (p_raw pt) (p_raw ps)); lia).
      unfold n. destruct (Nat.ltb_spec sz n0); lia. }
    destruct Hn as (Hn1 & Hn2 & Hn3 & Hn4). destruct (Nat.eqb_spec n 0); [lia|].
    destruct (PR_range ts pt P F n R1 ltac:(lia) Hn3) as (a1 & Ea1 & S1).
    destruct (PR_range ss ps P' F' n R2 ltac:(lia) Hn4) as (a2 & Ea2 & S2).
    replace sz with (n + (sz - n)) in ND, D, V1, V2 by lia. rewrite slice_add in ND, D, V1, V2. rewrite slice_add in D.
    rewrite S1 in ND, D, V1. rewrite S2 in D, V2.
    apply NoDup_app_iff in ND as (ND1 & ND2 & ND3).
    unfold live in V1, V2. apply Forall_app in V1 as (V11 & V12). apply Forall_app in V2 as (V21 & V22).
    destruct (memcpy_ok m a1 a2 n Hn1) as (m1 & E1 & Sh1 & C1 & C2); auto.
    { intros x Hx Hy. apply (D x); apply in_or_app; auto. }
    rewrite Ea1, Ea2, E1. cbn [bind].
    destruct (shift_within ts pt P F n N1 R1 ltac:(lia) ltac:(auto)) as (q1 & -> & Q1). cbn [bind].
    destruct (shift_within ss ps P' F' n N2 R2 ltac:(lia) ltac:(auto)) as (q2 & -> & Q2). cbn [bind].
    assert (Nin : forall x, In x (slice (locs_of ss) (P' + n) (sz - n)) -> ~ In x (range (fst a1) (snd a1) n)).
    { intros x Hx Hy. apply (D x); apply in_or_app; auto. }
    destruct (IH m1 q1 q2 _ _ _ _ (sz - n) (rs + n) Q1 Q2 ltac:(lia) ltac:(lia) ltac:(lia) ND2) as (m2 & E2 & Sh2 & C3 & C4).
    { intros x Hx Hy. apply (D x); apply in_or_app; auto. }
    { eapply Forall_impl; [|exact V12]. intros x. apply (proj1 (same_shape_get m m1 x Sh1)). }
    { eapply Forall_impl; [|exact V22]. intros x. apply (proj1 (same_shape_get m m1 x Sh1)). }
    exists m2. rewrite E2. split; [do 2 f_equal; lia|]. split; [eapply same_shape_trans; eauto|]. split.
    + replace sz with (n + (sz - n)) by lia. rewrite !slice_add, !map_app, S1, S2. f_equal.
      * rewrite <- C1. apply map_mget_ext. intros x Hx. apply C4. auto.
      * rewrite C3. apply map_mget_ext. intros x Hx. apply C2. auto.
    + intros x Hx. replace sz with (n + (sz - n)) in Hx by lia. rewrite slice_add, S1 in Hx.
      rewrite C4, C2; auto; intros Hy; apply Hx; apply in_or_app; auto.
Qed.

Lemma copyfrom_ok ts ss m pt ps P P' F F' sz : nonempty ts -> nonempty ss ->
  PR ts pt P F -> PR ss ps P' F' -> sz <= F -> sz <= F' -> 0 < sz ->
  NoDup (slice (locs_of ts) P sz) -> disjoint (slice (locs_of ts) P sz) (slice (locs_of ss) P' sz) ->
  live m (slice (locs_of ts) P sz) -> live m (slice (locs_of ss) P' sz) ->
  exists m', copyfrom m pt ps sz = Ok (m', sz) /\ same_shape m m' /\
    map (mget m') (slice (locs_of ts) P sz) = map (mget m) (slice (locs_of ss) P' sz) /\
    (forall a, ~ In a (slice (locs_of ts) P sz) -> mget m' a = mget m a).
Proof.
  intros N1 N2 R1 R2 L1 L2 L0 ND D V1 V2. unfold copyfrom.
  destruct (Nat.eqb_spec sz 0); [lia|].
  destruct (Nat.leb_spec sz (p_raw pt)) as [H1|H1], (Nat.leb_spec sz (p_raw ps)) as [H2|H2]; cbn [andb].
  2-4: rewrite (pr_full _ _ _ _ R1), (pr_full _ _ _ _ R2); destruct (Nat.ltb_spec F' sz); [lia|]; destruct (Nat.ltb_spec F sz); [lia|];
       apply (copy_loop_ok ts ss N1 N2 sz m pt ps P P' F F' sz 0); auto.
  destruct (PR_range ts pt P F sz R1 ltac:(lia) H1) as (a1 & Ea1 & S1).
  destruct (PR_range ss ps P' F' sz R2 ltac:(lia) H2) as (a2 & Ea2 & S2).
  rewrite S1, S2 in *. rewrite Ea1, Ea2.
  destruct (memcpy_ok m a1 a2 sz L0 D V1 V2) as (m1 & -> & Sh1 & C1 & C2). cbn [bind]. eauto.
Qed.

Lemma copyto_mem_ok ss m ps P' F' o f sz : nonempty ss -> PR ss ps P' F' -> sz <= F' ->
  disjoint (range o f sz) (slice (locs_of ss) P' sz) -> live m (range o f sz) -> live m (slice (locs_of ss) P' sz) ->
  exists m', copyto_mem m ps (o, f) sz = Ok (m', sz) /\ same_shape m m' /\
    map (mget m') (range o f sz) = map (mget m) (slice (locs_of ss) P' sz) /\
    (forall a, ~ In a (range o f sz) -> mget m' a = mget m a).
Proof.
  intros N2 R2 L2 D V1 V2. unfold copyto_mem. destruct (Nat.eqb_spec sz 0) as [->|Hz].
  { exists m. split; auto. split; [apply same_shape_refl|]. split; auto. }
  destruct (Nat.leb_spec sz (p_raw ps)) as [H2|H2].
  - destruct (PR_range ss ps P' F' sz R2 ltac:(lia) H2) as (a2 & Ea2 & S2).
    rewrite S2 in *. rewrite Ea2. destruct (memcpy_ok m (o, f) a2 sz ltac:(lia) D V1 V2) as (m1 & -> & Sh1 & C1 & C2). cbn [bind]. eauto.
  - pose proof (ptr_mem_ok o f sz ltac:(lia)) as R1.
    unfold copyfrom. destruct (Nat.eqb_spec sz 0); [lia|]. cbn [ptr_mem p_raw p_full].
    destruct (Nat.leb_spec sz sz); [|lia]. destruct (Nat.leb_spec sz (p_raw ps)); [lia|]. cbn [andb].
    rewrite (pr_full _ _ _ _ R2). destruct (Nat.ltb_spec F' sz); [lia|]. destruct (Nat.ltb_spec sz sz); [lia|].
    assert (EL : slice (locs_of [mkSeg 0 o f sz]) 0 sz = range o f sz).
    { unfold locs_of. cbn [flat_map g_obj g_off g_len]. rewrite app_nil_r. rewrite slice_range by lia. rewrite Nat.add_0_r. reflexivity. }
    assert (N1 : nonempty [mkSeg 0 o f sz]) by (constructor; [cbn; lia|constructor]).
    destruct (copy_loop_ok _ ss N1 N2 sz m _ ps 0 P' sz F' sz 0 R1 R2) as (m' & E & Sh & C1 & C2); rewrite ?EL; auto; try lia.
    { apply range_nodup. }
    rewrite EL in *. exists m'. auto.
Qed.
End Copy.

(* ---- GetNextPart ---- *)
Section Part.
Variable segs : list seg.
Hypothesis NE : nonempty segs.

Record GR (r : gnp) (P0 P : nat) : Prop := {
  gr_ptr : n_ptr r <> None;
  gr_le : n_first r <= n_last r < length segs;
  gr_locs : locs_of (gnp_segs segs r) = slice (locs_of segs) P0 (P - P0);
  gr_one : n_last r = n_first r -> n_llen r = n_flen r;
  gr_pos : 0 < n_flen r /\ 0 < n_llen r;
  gr_obj : forall o f, n_ptr r = Some (o, f) -> o = g_obj (nth (n_first r) segs seg0) }.

Lemma nth_of {A} (l : list A) k x d : nth_error l k = Some x -> nth k l d = x.
Proof. intros H. apply nth_error_nth with (d := d) in H. auto. Qed.

Lemma seg_eta g : mkSeg (g_id g) (g_obj g) (g_off g) (g_len g) = g.
Proof. destruct g; reflexivity. Qed.

Lemma gnp_extend r k part : n_first r <= n_last r -> k = S (n_last r) ->
  (n_last r = n_first r -> n_llen r = n_flen r) ->
  (n_last r <> n_first r -> n_llen r = g_len (nth (n_last r) segs seg0)) ->
  n_ptr r <> None ->
  gnp_segs segs (mkG (n_first r) (n_ptr r) (n_flen r) k part) =
  gnp_segs segs r ++ [let g := nth k segs seg0 in mkSeg (g_id g) (g_obj g) (g_off g) part].
Proof.
  intros H1 H2 H3 H4 H5. unfold gnp_segs. cbn [n_first n_ptr n_flen n_last n_llen].
  replace (k + 1 - n_first r) with (n_last r + 1 - n_first r + 1) by lia. rewrite seq_app, map_app. f_equal.
  - apply map_ext_in. intros n Hn. apply in_seq in Hn. destruct (Nat.eqb_spec n k); [lia|].
    destruct (Nat.eqb_spec n (n_last r)) as [->|]; auto.
    destruct (Nat.eqb_spec (n_last r) (n_first r)) as [E|E].
    + rewrite (H3 E). destruct (n_ptr r) as [[o f]|]; reflexivity.
    + rewrite (H4 E). symmetry. apply seg_eta.
  - cbn [seq map]. replace (n_first r + (n_last r + 1 - n_first r)) with k by lia.
    rewrite Nat.eqb_refl. destruct (Nat.eqb_spec k (n_first r)); [lia|]. reflexivity.
Qed.

Lemma locs_of_single g : locs_of [g] = range (g_obj g) (g_off g) (g_len g).
Proof. cbn. apply app_nil_r. Qed.

Lemma seg_start_le a b : a <= b -> seg_start segs a <= seg_start segs b.
Proof.
  intros H. unfold seg_start. rewrite <- (firstn_skipn a (firstn b segs)), total_app, firstn_firstn.
  replace (Nat.min a b) with a by lia. lia.
Qed.

(* position after a shift that stays inside the buffer determines the segment *)
Lemma seg_unique k k' g g' x : nth_error segs k = Some g -> nth_error segs k' = Some g' ->
  seg_start segs k <= x < seg_start segs k + g_len g -> seg_start segs k' <= x < seg_start segs k' + g_len g' -> k = k'.
Proof.
  intros E E' H H'. destruct (Nat.lt_trichotomy k k') as [L|[L|L]]; auto.
  - pose proof (seg_start_le (S k) k' L). rewrite (seg_start_S _ _ _ E) in *. lia.
  - pose proof (seg_start_le (S k') k L). rewrite (seg_start_S _ _ _ E') in *. lia.
Qed.

Lemma gnp_loop_ok : forall fuel p P F len r P0, PR segs p P F -> len <= F -> P0 <= P ->
  (0 < len -> length segs - p_seg p <= fuel) ->
  (n_ptr r = None /\ P = P0 \/ GR r P0 P /\ (0 < len -> p_seg p = S (n_last r) /\ P = seg_start segs (p_seg p) /\ (n_last r <> n_first r -> n_llen r = g_len (nth (n_last r) segs seg0)))) ->
  exists q r', gnp_loop fuel (length segs) p len r = Ok (q, 0, r') /\ PR segs q (P + len) (F - len) /\
     (0 < len \/ n_ptr r <> None -> GR r' P0 (P + len)) /\
     (0 < len -> n_ptr r = None -> n_first r' = p_seg p) /\
     (n_ptr r = None -> 0 < len <= p_raw p -> n_last r' = n_first r').
Proof.
  induction fuel as [|fuel IH]; intros p P F len r P0 R Hl HP Hf HI.
  - assert (len = 0).
    { destruct (Nat.eq_dec len 0); auto. destruct (pr_pos _ _ _ _ R ltac:(lia)) as (g & E & _).
      assert (p_seg p < length segs) by (apply nth_error_Some; congruence). lia. }
    subst len. cbn. exists p, r. rewrite Nat.add_0_r, Nat.sub_0_r. split; auto. split; auto. split; [|split; lia].
    intros [?|H]; [lia|]. destruct HI as [[? _]|[? _]]; auto; congruence.
  - cbn [gnp_loop]. destruct (Nat.ltb_spec 0 len) as [H0|H0].
    2: { assert (len = 0) by lia. subst len. cbn [andb]. exists p, r. rewrite Nat.add_0_r, Nat.sub_0_r. split; auto. split; auto. split; [|split; lia].
         intros [?|H]; [lia|]. destruct HI as [[? _]|[? _]]; auto; congruence. }
    destruct (pr_pos _ _ _ _ R ltac:(lia)) as (g & E & A1 & A2 & A3 & A4).
    assert (Hk : p_seg p < length segs) by (apply nth_error_Some; congruence).
    destruct (Nat.ltb_spec (p_seg p) (length segs)); [|lia]. cbn [andb]. cbv zeta.
    set (part := if p_raw p <? len then p_raw p else len).
    assert (Hp : 0 < part <= len /\ part <= p_raw p /\ (part < len -> part = p_raw p)).
    { unfold part. destruct (Nat.ltb_spec (p_raw p) len); lia. }
    destruct Hp as (Hp1 & Hp2 & Hp3). destruct (Nat.eqb_spec part 0); [lia|].
    destruct (shift_within segs p P F part NE R ltac:(lia) ltac:(auto)) as (q & Eq & Q). rewrite Eq. cbn [bind].
    set (r1 := match n_ptr r with None => _ | Some _ => _ end).
    pose proof (slice_seg segs (p_seg p) g P part E ltac:(lia) ltac:(lia)) as SL.
    assert (GR1 : GR r1 P0 (P + part)).
    { unfold r1. destruct HI as [[N ->]|[G C]].
      - rewrite N. constructor; cbn [n_first n_ptr n_flen n_last n_llen]; auto; try lia; try congruence.
        + unfold gnp_segs. cbn [n_first n_ptr n_flen n_last n_llen]. replace (p_seg p + 1 - p_seg p) with 1 by lia.
          cbn [seq map]. rewrite Nat.eqb_refl. rewrite A2. cbn [g_id g_obj g_off].
          rewrite locs_of_single. cbn [g_obj g_off g_len]. replace (P0 + part - P0) with part by lia. symmetry. exact SL.
        + intros o f Eo. rewrite (nth_of _ _ _ _ E). congruence.
      - destruct (C H0) as (C1 & C2 & C3). destruct G as [G1 G2 G3 G4 G5 G6].
        destruct (n_ptr r) as [a|] eqn:Er; [|congruence].
        constructor; cbn [n_first n_ptr n_flen n_last n_llen]; auto; try lia; try congruence.
        rewrite <- Er. rewrite (gnp_extend r (p_seg p) part); auto; try lia; try congruence.
        rewrite locs_of_app, G3, locs_of_single, (nth_of _ _ _ _ E). cbn [g_obj g_off g_len].
        replace (P + part - P0) with ((P - P0) + part) by lia. rewrite slice_add. f_equal.
        replace (P0 + (P - P0)) with P by lia. rewrite SL. f_equal. lia. }
    assert (Cont : 0 < len - part -> p_seg q = S (n_last r1) /\ P + part = seg_start segs (p_seg q) /\
                   (n_last r1 <> n_first r1 -> n_llen r1 = g_len (nth (n_last r1) segs seg0))).
    { intros Hc. destruct (pr_pos _ _ _ _ Q ltac:(lia)) as (g' & E' & B1 & B2 & B3 & B4).
      assert (Hend : P + part = seg_start segs (S (p_seg p))).
      { rewrite (seg_start_S _ _ _ E). lia. }
      assert (Hq : p_seg q = S (p_seg p)).
      { destruct (nth_error segs (S (p_seg p))) as [g2|] eqn:E2.
        - apply (seg_unique _ _ g' g2 (P + part) E' E2); [lia|].
          pose proof (proj1 (Forall_forall _ _) NE g2 (nth_error_In _ _ E2)) as Pos. cbn in Pos. lia.
        - apply nth_error_None in E2. exfalso. pose proof (seg_start_le (S (p_seg q)) (S (p_seg p))) as Hle.
          assert (p_seg q < length segs) by (apply nth_error_Some; congruence).
          rewrite (seg_start_S _ _ _ E') in Hle. lia. }
      assert (Hl1 : n_last r1 = p_seg p) by (unfold r1; destruct (n_ptr r); reflexivity).
      assert (Hl2 : n_llen r1 = part) by (unfold r1; destruct (n_ptr r); reflexivity).
      rewrite Hl1, Hl2. split; auto. split; [congruence|]. intros Hne. rewrite (nth_of _ _ _ _ E).
      destruct HI as [[N ->]|[G C]]; [unfold r1 in Hne; rewrite N in Hne; cbn in Hne; congruence|].
      destruct (C H0) as (C1 & C2 & C3). rewrite (seg_start_S _ _ _ E) in Hend. lia. }
    destruct (IH q (P + part) (F - part) (len - part) r1 P0 Q) as (q2 & r2 & E2 & Q2 & G2 & _ & _); try lia.
    { intros Hc. destruct (Cont Hc) as (-> & _). assert (n_last r1 = p_seg p) by (unfold r1; destruct (n_ptr r); reflexivity). lia. }
    { right. auto. }
    exists q2, r2. rewrite E2. replace (P + len) with (P + part + (len - part)) by lia.
    replace (F - len) with (F - part - (len - part)) by lia. split; auto. split; auto.
    assert (N1 : n_ptr r1 <> None) by (apply (gr_ptr _ _ _ GR1)).
    split; [intros _; apply G2; auto|].
    assert (KF : forall fu p0 l0 r0 q0 rest r3, n_ptr r0 <> None -> gnp_loop fu (length segs) p0 l0 r0 = Ok (q0, rest, r3) -> n_first r3 = n_first r0).
    { clear. induction fu as [|fu IHf]; intros p0 l0 r0 q0 rest r3 Hn; cbn [gnp_loop].
      - destruct (_ && _); [discriminate|]. intros Z; inversion Z; auto.
      - destruct (_ && _); [|intros Z; inversion Z; auto]. cbv zeta.
        destruct (_ =? 0); [intros Z; inversion Z; auto|].
        destruct (shift p0 _) as [[? ?]| |]; cbn [bind]; try discriminate.
        destruct (n_ptr r0) as [a0|] eqn:E0; [|congruence]. intros Z. apply IHf in Z; cbn [n_ptr n_first] in *; congruence. }
    split.
    + intros _ N. rewrite (KF _ _ _ _ _ _ _ N1 E2). unfold r1. rewrite N. reflexivity.
    + intros N Hr. assert (part = len) by (unfold part; destruct (Nat.ltb_spec (p_raw p) len); lia).
      rewrite H1, Nat.sub_diag in E2. destruct fuel; cbn in E2; inversion E2; subst r2; unfold r1; rewrite N; reflexivity.
Qed.

(* a contiguous stretch of len bytes at position x *)
Definition contig (x len : nat) : Prop :=
  exists k g, nth_error segs k = Some g /\ seg_start segs k <= x /\ x + len <= seg_start segs k + g_len g.

Lemma gnp_skip_ok : forall fuel p P F len, PR segs p P F -> 0 < len <= F -> length segs - p_seg p <= fuel ->
  exists q P', gnp_skip fuel p len = Ok q /\ P <= P' /\ P' <= P + F /\ PR segs q P' (P + F - P') /\
     (P' = P \/ P' = P + F \/ exists k, P' = seg_start segs k) /\
     (P + F - P' < len \/ len <= p_raw q) /\ (forall x, P <= x < P' -> ~ contig x len).
Proof.
  induction fuel as [|fuel IH]; intros p P F len R Hl Hf.
  - exfalso. destruct (pr_pos _ _ _ _ R ltac:(lia)) as (g & E & _).
    assert (p_seg p < length segs) by (apply nth_error_Some; congruence). lia.
  - cbn [gnp_skip]. destruct (pr_pos _ _ _ _ R ltac:(lia)) as (g & E & A1 & A2 & A3 & A4).
    destruct (Nat.leb_spec len (p_raw p)).
    { exists p, P. replace (P + F - P) with F by lia. split; auto. split; auto. split; [lia|]. split; auto. split; auto. split; auto. intros; lia. }
    assert (Hraw : P + p_raw p = seg_start segs (p_seg p) + g_len g) by lia.
    destruct (shift_within segs p P F (p_raw p) NE R ltac:(lia) ltac:(auto)) as (q & Eq & Q). rewrite Eq. cbn [bind].
    rewrite (pr_full _ _ _ _ Q).
    assert (Hx : forall x, P <= x < P + p_raw p -> ~ contig x len).
    { intros x Hx (k' & g' & E' & B1 & B2). assert (k' = p_seg p); [|subst k'; rewrite E in E'; injection E' as <-; lia].
      apply (seg_unique _ _ g' g x E' E); lia. }
    destruct (Nat.ltb_spec (F - p_raw p) len).
    { exists q, (P + p_raw p). replace (P + F - (P + p_raw p)) with (F - p_raw p) by lia.
      split; auto. split; [lia|]. split; [lia|]. split; auto. split; [|split; auto].
      right. right. exists (S (p_seg p)). rewrite (seg_start_S _ _ _ E). lia. }
    assert (Hq : p_seg q = S (p_seg p)).
    { destruct (pr_pos _ _ _ _ Q ltac:(lia)) as (g' & E' & B1 & B2 & B3 & B4).
      rewrite Hraw, <- (seg_start_S _ _ _ E) in B1.
      destruct (nth_error segs (S (p_seg p))) as [g2|] eqn:E2.
      - apply (seg_unique _ _ g' g2 (seg_start segs (S (p_seg p))) E' E2); [lia|].
        pose proof (proj1 (Forall_forall _ _) NE g2 (nth_error_In _ _ E2)) as Pos. cbn in Pos. lia.
      - apply nth_error_None in E2. exfalso. pose proof (seg_start_le (S (p_seg q)) (S (p_seg p))) as Hle.
        assert (p_seg q < length segs) by (apply nth_error_Some; congruence).
        rewrite (seg_start_S _ _ _ E') in Hle. lia. }
    destruct (IH q (P + p_raw p) (F - p_raw p) len Q ltac:(lia)) as (q2 & P2 & E2 & C1 & C2 & C3 & C4 & C5 & C6).
    { assert (p_seg p < length segs) by (apply nth_error_Some; congruence). lia. }
    exists q2, P2. rewrite E2. replace (P + p_raw p + (F - p_raw p)) with (P + F) in * by lia.
    split; auto. split; [lia|]. split; [lia|]. split; auto. split.
    { right. destruct C4 as [->|[->|C4]]; auto. right. exists (S (p_seg p)). rewrite (seg_start_S _ _ _ E). lia. }
    split; auto. intros x Hx2. destruct (Nat.lt_ge_cases x (P + p_raw p)); [apply Hx; lia|apply C6; lia].
Qed.

Lemma get_next_part_ok p P F len : PR segs p P F -> 0 < len ->
  if F <? len then get_next_part segs p len true = Ok (p, None)
  else exists q r, get_next_part segs p len true = Ok (q, Some (n_first r, n_last r + 1 - n_first r, gnp_segs segs r)) /\
         PR segs q (P + len) (F - len) /\ GR r P (P + len).
Proof.
  intros R Hl. unfold get_next_part. rewrite (pr_full _ _ _ _ R). destruct (Nat.ltb_spec F len); auto. cbn [bind].
  rewrite (pr_full _ _ _ _ R). destruct (Nat.ltb_spec F len); [lia|].
  destruct (gnp_loop_ok (S (length segs)) p P F len (mkG 0 None 0 0 0) P R H ltac:(lia) ltac:(lia) ltac:(left; auto)) as (q & r & -> & Q & G & _).
  cbn [bind Nat.ltb Nat.leb]. exists q, r. split; auto.
Qed.

Lemma get_next_part_unseg_ok p P F len : PR segs p P F -> 0 < len ->
  exists P' q, P <= P' <= P + F /\ (P' = P \/ P' = P + F \/ exists k, P' = seg_start segs k) /\ (forall x, P <= x < P' -> ~ contig x len) /\
    if P + F - P' <? len then get_next_part segs p len false = Ok (q, None) /\ PR segs q P' (P + F - P')
    else exists r, get_next_part segs p len false = Ok (q, Some (n_first r, 1, gnp_segs segs r)) /\
         PR segs q (P' + len) (P + F - P' - len) /\ GR r P' (P' + len) /\ n_last r = n_first r.
Proof.
  intros R Hl. unfold get_next_part. rewrite (pr_full _ _ _ _ R). destruct (Nat.ltb_spec F len).
  { exists P, p. split; [lia|]. split; auto. split; [intros; lia|]. replace (P + F - P) with F by lia.
    destruct (Nat.ltb_spec F len); [|lia]. auto. }
  destruct (gnp_skip_ok (S (length segs)) p P F len R ltac:(lia) ltac:(lia)) as (q & P' & E & C1 & C2 & C3 & C4 & C5 & C6).
  rewrite E. cbn [bind]. rewrite (pr_full _ _ _ _ C3).
  destruct (Nat.ltb_spec (P + F - P') len) as [Hs|Hs].
  { exists P', q. split; auto. split; auto. split; auto. destruct (Nat.ltb_spec (P + F - P') len); [|lia]. auto. }
  destruct (gnp_loop_ok (S (length segs)) q P' (P + F - P') len (mkG 0 None 0 0 0) P' C3 Hs ltac:(lia) ltac:(lia) ltac:(left; auto)) as (q2 & r & E2 & Q & G & _ & L1).
  specialize (G ltac:(auto)). rewrite E2. cbn [bind]. change (0 <? 0) with false. cbv iota. exists P', q2. split; auto. split; auto. split; auto.
  destruct (Nat.ltb_spec (P + F - P') len); [lia|]. exists r.
  assert (E1 : n_last r = n_first r) by (apply L1; auto; lia).
  split; [|auto]. replace (n_last r + 1 - n_first r) with 1 by lia. reflexivity.
Qed.
End Part.
