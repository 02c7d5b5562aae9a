(* Reference counters, free list and segment arrays of the pool model. *)
From Verif Require Import Common ListFacts BufferSpec BufferModel BufferProofs PoolSpec PoolModel.

Notation cnt l i := (count_occ Nat.eq_dec l i).

Lemma nth_nth_error {A} (l : list A) i d : i < length l -> nth_error l i = Some (nth i l d).
Proof. apply nth_error_nth'. Qed.

(* ---- counters ---- *)
Lemma inc_refs_ok ids : forall refs, Forall (fun i => i < length refs) ids ->
  exists refs', inc_refs refs ids = Ok refs' /\ length refs' = length refs /\ forall i, nth i refs' 0 = nth i refs 0 + cnt ids i.
Proof.
  induction ids as [|x ids IH]; intros refs H; cbn [inc_refs].
  - exists refs. repeat (split; auto).
  - inversion H; subst. rewrite (nth_nth_error refs x 0) by auto.
    destruct (IH (upd refs x (nth x refs 0 + 1))) as (r' & E & L & C).
    { rewrite upd_length. auto. }
    exists r'. split; auto. rewrite upd_length in L. split; auto. intros i. rewrite C, nth_upd_eq. cbn [count_occ].
    destruct (Nat.eq_dec x i) as [->|N].
    + rewrite Nat.eqb_refl. destruct (Nat.ltb_spec i (length refs)); [cbn [andb]; lia|lia].
    + destruct (Nat.eqb_spec i x); [congruence|]. cbn [andb]. lia.
Qed.

Record PI (n : nat) (refs free raw : list nat) : Prop := {
  pi_len : length refs = n;
  pi_nd : NoDup (free ++ raw);
  pi_lt : forall i, In i (free ++ raw) -> i < n;
  pi_zero : forall i, i < n -> nth i refs 0 = 0 <-> In i (free ++ raw) }.

Lemma dec_refs_ok n raw ids : forall refs free, PI n refs free raw -> (forall i, cnt ids i <= nth i refs 0) ->
  exists refs' free', dec_refs refs free ids = Ok (refs', free') /\ PI n refs' free' raw /\
    forall i, nth i refs' 0 = nth i refs 0 - cnt ids i.
Proof.
  induction ids as [|x ids IH]; intros refs free P H; cbn [dec_refs].
  - exists refs, free. split; auto. split; auto. intros. cbn. lia.
  - pose proof (H x) as Hx. cbn [count_occ] in Hx. destruct (Nat.eq_dec x x) as [_|N]; [|congruence].
    assert (Lx : x < length refs).
    { destruct (Nat.lt_ge_cases x (length refs)); auto. rewrite nth_overflow in Hx by auto. lia. }
    rewrite (nth_nth_error refs x 0) by auto. destruct (nth x refs 0) as [|k] eqn:Ek; [lia|].
    assert (NI : ~ In x (free ++ raw)).
    { rewrite <- (pi_zero _ _ _ _ P) by (rewrite <- (pi_len _ _ _ _ P); auto). lia. }
    destruct (IH (upd refs x k) (if k =? 0 then free ++ [x] else free)) as (r' & f' & E & P' & C).
    { constructor.
      - rewrite upd_length. apply (pi_len _ _ _ _ P).
      - destruct (Nat.eqb_spec k 0); [|apply (pi_nd _ _ _ _ P)]. rewrite <- app_assoc. cbn [app].
        apply (proj2 (NoDup_Add (Add_app x free raw))). split; [apply (pi_nd _ _ _ _ P)|auto].
      - intros i Hi. destruct (Nat.eqb_spec k 0); [|apply (pi_lt _ _ _ _ P); auto].
        rewrite !in_app_iff in Hi. cbn [In] in Hi. destruct (Nat.eq_dec i x) as [->|]; [rewrite <- (pi_len _ _ _ _ P); auto|].
        apply (pi_lt _ _ _ _ P). rewrite in_app_iff. intuition (auto; congruence).
      - intros i Hi. rewrite nth_upd_eq. destruct (Nat.eqb_spec i x) as [->|Ne]; cbn [andb].
        + destruct (Nat.ltb_spec x (length refs)); [|lia]. destruct (Nat.eqb_spec k 0) as [->|].
          * rewrite !in_app_iff. cbn. intuition (auto; congruence).
          * split; [lia|intros; contradiction].
        + rewrite (pi_zero _ _ _ _ P) by auto. destruct (Nat.eqb_spec k 0); [|tauto]. rewrite !in_app_iff. cbn [In]. intuition (auto; congruence). }
    { intros i. rewrite nth_upd_eq. pose proof (H i) as Hi. cbn [count_occ] in Hi. destruct (Nat.eqb_spec i x) as [->|Ne]; cbn [andb].
      - destruct (Nat.ltb_spec x (length refs)); [|lia]. lia.
      - destruct (Nat.eq_dec x i); [congruence|]. auto. }
    exists r', f'. split; auto. split; auto. intros i. rewrite C, nth_upd_eq. cbn [count_occ].
    destruct (Nat.eqb_spec i x) as [->|Ne]; cbn [andb].
    + destruct (Nat.ltb_spec x (length refs)); [|lia]. destruct (Nat.eq_dec x x); [|congruence]. lia.
    + destruct (Nat.eq_dec x i); [congruence|]. auto.
Qed.

Lemma PI_inc n refs free raw ids refs' : PI n refs free raw -> (forall i, In i ids -> 0 < nth i refs 0) ->
  length refs' = length refs -> (forall i, nth i refs' 0 = nth i refs 0 + cnt ids i) -> PI n refs' free raw.
Proof.
  intros P H L C. constructor.
  - rewrite L. apply (pi_len _ _ _ _ P).
  - apply (pi_nd _ _ _ _ P).
  - apply (pi_lt _ _ _ _ P).
  - intros i Hi. rewrite <- (pi_zero _ _ _ _ P) by auto. rewrite C. split; [lia|]. intros Z.
    destruct (cnt ids i) eqn:E; [lia|]. exfalso. assert (In i ids) by (apply (count_occ_In Nat.eq_dec); lia). apply H in H0. lia.
Qed.

(* ---- taking blocks ---- *)
Lemma take_count_ok sizes fr : forall size sum, Forall (fun i => i < length sizes) fr ->
  exists o, take_count sizes fr size sum = Ok o /\
    match o with
    | Some k => k <= length fr /\ size <= sum + list_sum (map (fun i => nth i sizes 0) (firstn k fr))
    | None => sum + list_sum (map (fun i => nth i sizes 0) fr) < size
    end.
Proof.
  induction fr as [|x fr IH]; intros size sum H; cbn [take_count].
  - destruct (Nat.ltb_spec sum size); [exists None|exists (Some 0)]; cbn; split; auto; lia.
  - inversion H; subst. destruct (Nat.ltb_spec sum size).
    + rewrite (nth_nth_error sizes x 0) by auto. destruct (IH size (sum + nth x sizes 0) H3) as (o & -> & A). cbn [bind].
      exists (option_map S o). split; auto. destruct o as [k|]; cbn [option_map firstn map list_sum fold_right length] in *.
      * change (fold_right Nat.add 0) with list_sum. lia.
      * change (fold_right Nat.add 0) with list_sum. lia.
    + exists (Some 0). split; auto. cbn. lia.
Qed.

Definition pseg (sizes : list nat) (g : seg) : Prop :=
  g_id g = g_obj g /\ 0 < g_len g /\ exists z, nth_error sizes (g_obj g) = Some z /\ g_off g + g_len g <= z.

Lemma take_pop_ok n raw sizes fr : length sizes = n -> Forall (fun z => 0 < z) sizes -> forall refs size sum,
  PI n refs fr raw ->
  size <= sum + list_sum (map (fun i => nth i sizes 0) fr) ->
  exists segs refs' fr', take_pop sizes refs fr size sum = Ok (segs, refs', fr') /\ PI n refs' fr' raw /\
    fr = map g_id segs ++ fr' /\ Forall (fun g => pseg sizes g /\ g_off g = 0) segs /\
    total segs = size - sum /\ (forall i, nth i refs' 0 = nth i refs 0 + cnt (map g_id segs) i) /\
    length refs' = length refs.
Proof.
  intros Ln Pos. induction fr as [|x fr IH]; intros refs size sum P H; cbn [take_pop].
  - cbn in H. destruct (Nat.ltb_spec sum size); [lia|]. exists [], refs, []. cbn [map app total]. split; auto. split; auto. split; auto. split; auto. split; [lia|]. split; auto.
  - destruct (Nat.ltb_spec sum size).
    2: { exists [], refs, (x :: fr). cbn [map app total]. split; auto. split; auto. split; auto. split; auto. split; [lia|]. split; auto. }
    assert (Lx : x < n) by (apply (pi_lt _ _ _ _ P); left; auto).
    rewrite (nth_nth_error refs x 0) by (rewrite (pi_len _ _ _ _ P); auto).
    rewrite (proj2 (pi_zero _ _ _ _ P x Lx)) by (left; auto).
    rewrite (nth_nth_error sizes x 0) by lia.
    assert (P' : PI n (upd refs x 1) fr raw).
    { pose proof (pi_nd _ _ _ _ P) as ND. cbn [app] in ND. inversion ND; subst. constructor.
      - rewrite upd_length. apply (pi_len _ _ _ _ P).
      - auto.
      - intros i Hi. apply (pi_lt _ _ _ _ P). right. auto.
      - intros i Hi. rewrite nth_upd_eq. destruct (Nat.eqb_spec i x) as [->|Ne]; cbn [andb].
        + rewrite (pi_len _ _ _ _ P). destruct (Nat.ltb_spec x (length sizes)); [|lia]. split; [lia|contradiction].
        + rewrite (pi_zero _ _ _ _ P) by auto. cbn [app In]. intuition (auto; congruence). }
    cbn [map list_sum fold_right] in H. change (fold_right Nat.add 0) with list_sum in H.
    destruct (IH (upd refs x 1) size (sum + nth x sizes 0) P' ltac:(lia)) as (segs & r' & f' & E & A1 & A2 & A3 & A4 & A5 & A6).
    rewrite E. cbn [bind]. eexists (_ :: segs), r', f'. split; [reflexivity|]. split; auto.
    assert (Pz : 0 < nth x sizes 0) by (rewrite Forall_forall in Pos; apply Pos, nth_In; lia).
    split. { cbn [map g_id app]. congruence. }
    split. { constructor; auto. split; [|reflexivity]. split; [reflexivity|]. cbn [g_len g_off g_obj].
      destruct (Nat.ltb_spec (size - sum) (nth x sizes 0)); split; try lia; eexists; (split; [apply (nth_nth_error sizes x 0); lia|lia]). }
    split. { cbn [total g_len]. rewrite A4. destruct (Nat.ltb_spec (size - sum) (nth x sizes 0)); lia. }
    split. { intros i. rewrite A5, nth_upd_eq. cbn [map g_id count_occ]. destruct (Nat.eqb_spec i x) as [->|Ne]; cbn [andb].
      - rewrite (pi_len _ _ _ _ P). destruct (Nat.ltb_spec x n); [|lia]. destruct (Nat.eq_dec x x); [|congruence].
        rewrite (proj2 (pi_zero _ _ _ _ P x Lx)) by (left; auto). lia.
      - destruct (Nat.eq_dec x i); [congruence|]. auto. }
    rewrite upd_length in A6. auto.
Qed.

(* ---- Locate ---- *)
Lemma locate_from_ok l : forall i p, exists k q, locate_from l i p = (i + k, q) /\ k <= length l /\
  total (firstn k l) + q = Nat.min p (total l) /\ (0 < q -> k < length l /\ q < g_len (nth k l seg0)).
Proof.
  induction l as [|g l IH]; intros i p; cbn [locate_from].
  - exists 0, 0. rewrite Nat.add_0_r. cbn. split; auto. split; [lia|]. split; lia.
  - destruct (Nat.ltb_spec 0 p).
    2: { exists 0, 0. rewrite Nat.add_0_r. cbn. split; auto. split; [lia|]. split; lia. }
    destruct (Nat.leb_spec (g_len g) p).
    + destruct (IH (S i) (p - g_len g)) as (k & q & E & A1 & A2 & A3). exists (S k), q. rewrite E.
      split; [f_equal; lia|]. cbn [total length firstn nth]. split; [lia|]. split; [lia|]. intros; split; [|apply A3; auto]. apply A3 in H1. lia.
    + exists 0, p. rewrite Nat.add_0_r. cbn [total length firstn nth]. split; auto. split; [lia|]. split; lia.
Qed.

Lemma locate_ok l p k q : locate l p = (k, q) -> k <= length l /\
  total (firstn k l) + q = Nat.min p (total l) /\ (0 < q -> k < length l /\ q < g_len (nth k l seg0)).
Proof.
  intros H. destruct (locate_from_ok l 0 p) as (k' & q' & E & A). unfold locate in H. rewrite E in H. injection H as <- <-. auto.
Qed.

Definition seg_head (g : seg) (n : nat) : seg := mkSeg (g_id g) (g_obj g) (g_off g) n.
Definition seg_tail (g : seg) (n : nat) : seg := mkSeg (g_id g) (g_obj g) (g_off g + n) (g_len g - n).

(* the two halves of a segment list at a located position *)
Definition left_segs (l : list seg) (k q : nat) : list seg :=
  firstn k l ++ (if 0 <? q then [seg_head (nth k l seg0) q] else []).
Definition right_segs (l : list seg) (k q : nat) : list seg :=
  if 0 <? q then seg_tail (nth k l seg0) q :: skipn (S k) l else skipn k l.

Lemma locs_of_cons g l : locs_of (g :: l) = range (g_obj g) (g_off g) (g_len g) ++ locs_of l.
Proof. reflexivity. Qed.

Lemma halves l p k q : locate l p = (k, q) ->
  locs_of (left_segs l k q) = firstn p (locs_of l) /\ locs_of (right_segs l k q) = skipn p (locs_of l).
Proof.
  intros H. apply locate_ok in H as (A1 & A2 & A3).
  assert (E : locs_of l = locs_of (left_segs l k q) ++ locs_of (right_segs l k q)).
  { unfold left_segs, right_segs. destruct (Nat.ltb_spec 0 q).
    - destruct (A3 H) as [B1 B2]. rewrite <- (firstn_skipn k l) at 1. rewrite !locs_of_app, <- app_assoc. f_equal.
      rewrite (skipn_cons_nth l k (nth k l seg0)) by (apply nth_error_nth'; auto).
      rewrite !locs_of_cons, app_assoc. f_equal. cbn [seg_head seg_tail g_obj g_off g_len locs_of flat_map].
      rewrite app_nil_r, <- range_app. f_equal. lia.
    - rewrite app_nil_r, <- locs_of_app, firstn_skipn. reflexivity. }
  assert (L : length (locs_of (left_segs l k q)) = Nat.min p (total l)).
  { rewrite locs_of_length. unfold left_segs. rewrite total_app. destruct (Nat.ltb_spec 0 q); cbn [total seg_head g_len]; lia. }
  destruct (Nat.le_gt_cases (total l) p) as [G|G].
  - assert (R : locs_of (right_segs l k q) = []).
    { apply length_zero_iff_nil. apply (f_equal (@length _)) in E. rewrite app_length, L, locs_of_length in E. lia. }
    rewrite R, app_nil_r in E. rewrite R, <- E.
    rewrite firstn_all2, skipn_all2 by (rewrite locs_of_length; lia). auto.
  - rewrite E. replace (Nat.min p (total l)) with p in L by lia.
    rewrite firstn_app, skipn_app, <- L, firstn_all, skipn_all, Nat.sub_diag. cbn [firstn skipn]. rewrite app_nil_r. auto.
Qed.

(* ---- arrays ---- *)
Lemma list_ext_nth {A} (d : A) (a b : list A) : length a = length b -> (forall j, j < length a -> nth j a d = nth j b d) -> a = b.
Proof.
  revert b. induction a as [|x a IH]; intros [|y b] L H; cbn in L; try discriminate; auto.
  f_equal; [apply (H 0); cbn; lia|]. apply IH; [lia|]. intros j Hj. apply (H (S j)). cbn. lia.
Qed.

Lemma nth_app_if {A} (a b : list A) d j : nth j (a ++ b) d = if j <? length a then nth j a d else nth (j - length a) b d.
Proof. destruct (Nat.ltb_spec j (length a)); [apply app_nth1|apply app_nth2]; auto. Qed.

Lemma nth_firstn_lt {A} (a : list A) d n j : j < n -> nth j (firstn n a) d = nth j a d.
Proof. revert n j. induction a as [|x a IH]; intros [|n] [|j] H; cbn; auto; try lia. apply IH. lia. Qed.

Lemma nth_skipn_eq {A} (a : list A) d n j : nth j (skipn n a) d = nth (n + j) a d.
Proof. revert n. induction a as [|x a IH]; intros [|n]; cbn; auto. destruct j; auto. Qed.

Lemma arr_shift_len arr d ns : length (arr_shift arr d ns) = length arr.
Proof. revert arr. induction ns as [|n ns IH]; intros arr; cbn [arr_shift]; auto. rewrite IH, upd_length. auto. Qed.

Lemma arr_shift_nth d m : 0 < d -> forall b arr j, b + m + d <= length arr ->
  nth j (arr_shift arr d (seq b m)) seg0 = if (b <=? j) && (j <? b + m) then nth (j + d) arr seg0 else nth j arr seg0.
Proof.
  intros Hd. induction m as [|m IH]; intros b arr j H; cbn [seq arr_shift].
  - destruct (Nat.leb_spec b j), (Nat.ltb_spec j (b + 0)); cbn [andb]; auto; lia.
  - rewrite IH by (rewrite upd_length; lia). rewrite !nth_upd_eq.
    destruct (Nat.ltb_spec b (length arr)); [|lia].
    destruct (Nat.leb_spec (S b) j), (Nat.ltb_spec j (S b + m)), (Nat.leb_spec b j), (Nat.ltb_spec j (b + S m)),
      (Nat.eqb_spec (j + d) b), (Nat.eqb_spec j b); cbn [andb]; auto; try lia. congruence.
Qed.

Lemma arr_shift_ok arr num d : 0 < d <= num -> num <= length arr ->
  firstn (num - d) (arr_shift arr d (seq 0 (num - d))) = skipn d (firstn num arr).
Proof.
  intros H1 H2. apply (list_ext_nth seg0).
  - rewrite firstn_length, arr_shift_len, skipn_length, firstn_length. lia.
  - intros j Hj. rewrite firstn_length, arr_shift_len in Hj. rewrite nth_firstn_lt, nth_skipn_eq, nth_firstn_lt by lia.
    rewrite arr_shift_nth by lia. cbn [Nat.leb andb]. destruct (Nat.ltb_spec j (0 + (num - d))); [f_equal; lia|lia].
Qed.

Lemma ins_move_len k : forall arr lo d, length (ins_move k arr lo d) = length arr.
Proof. induction k; intros; cbn [ins_move]; auto. rewrite IHk, !upd_length. auto. Qed.

Lemma ins_move_nth k : forall arr lo d j, 0 < d -> lo + k + d <= length arr ->
  nth j (ins_move k arr lo d) seg0 = if (lo + d <=? j) && (j <? lo + k + d) then nth (j - d) arr seg0
                                     else if (lo <=? j) && (j <? lo + k) then seg0 else nth j arr seg0.
Proof.
  induction k as [|k IH]; intros arr lo d j Hd H; cbn [ins_move].
  - destruct (Nat.leb_spec (lo + d) j), (Nat.ltb_spec j (lo + 0 + d)), (Nat.leb_spec lo j), (Nat.ltb_spec j (lo + 0)); cbn [andb]; auto; lia.
  - rewrite IH by (rewrite ?upd_length; lia). rewrite !nth_upd_eq, !upd_length.
    destruct (Nat.ltb_spec (lo + k) (length arr)); [|lia]. destruct (Nat.ltb_spec (lo + k + d) (length arr)); [|lia].
    destruct (Nat.leb_spec (lo + d) j), (Nat.ltb_spec j (lo + k + d)), (Nat.leb_spec lo j), (Nat.ltb_spec j (lo + k)),
      (Nat.ltb_spec j (lo + S k + d)), (Nat.ltb_spec j (lo + S k)), (Nat.eqb_spec (j - d) (lo + k)), (Nat.eqb_spec (j - d) (lo + k + d)),
      (Nat.eqb_spec j (lo + k)), (Nat.eqb_spec j (lo + k + d)); cbn [andb]; auto; try lia; f_equal; lia.
Qed.

Lemma ins_copy_len ns : forall arr own t, length (ins_copy arr own t ns) = length arr.
Proof. induction ns; intros; cbn [ins_copy]; auto. rewrite IHns, upd_length. auto. Qed.

Lemma ins_copy_nth own t m : forall b arr j, t + b + m <= length arr ->
  nth j (ins_copy arr (Some own) t (seq b m)) seg0 = if (t + b <=? j) && (j <? t + b + m) then nth (j - t) own seg0 else nth j arr seg0.
Proof.
  induction m as [|m IH]; intros b arr j H; cbn [seq ins_copy].
  - destruct (Nat.leb_spec (t + b) j), (Nat.ltb_spec j (t + b + 0)); cbn [andb]; auto; lia.
  - rewrite IH by (rewrite upd_length; lia). rewrite nth_upd_eq. destruct (Nat.ltb_spec (t + b) (length arr)); [|lia].
    destruct (Nat.leb_spec (t + S b) j), (Nat.ltb_spec j (t + S b + m)), (Nat.leb_spec (t + b) j), (Nat.ltb_spec j (t + b + S m)),
      (Nat.eqb_spec j (t + b)); cbn [andb]; auto; try lia; f_equal; lia.
Qed.

Lemma ins_array_len c own onum t q : length (ins_array c own onum t q) = length (c_arr c).
Proof. unfold ins_array. destruct (0 <? q); rewrite ?upd_length, ins_copy_len, ins_move_len; auto. Qed.

Lemma ins_array_ok c own onum pos t q : locate (c_segs c) pos = (t, q) -> c_num c <= length (c_arr c) ->
  0 < onum <= length own -> c_num c + onum + (if 0 <? q then 1 else 0) <= length (c_arr c) ->
  firstn (c_num c + onum + (if 0 <? q then 1 else 0)) (ins_array c (Some own) onum t q)
  = left_segs (c_segs c) t q ++ firstn onum own ++ right_segs (c_segs c) t q.
Proof.
  intros HL HN HO HC. apply locate_ok in HL as (A1 & A2 & A3).
  assert (LS : length (c_segs c) = c_num c) by (unfold c_segs; rewrite firstn_length; lia).
  assert (NS : forall j, j < c_num c -> nth j (c_segs c) seg0 = nth j (c_arr c) seg0).
  { intros. unfold c_segs. apply nth_firstn_lt. auto. }
  apply (list_ext_nth seg0).
  - rewrite firstn_length, ins_array_len. unfold left_segs, right_segs.
    destruct (Nat.ltb_spec 0 q) as [Q|Q]; rewrite !app_length, ?firstn_length; cbn [length]; rewrite ?skipn_length; [destruct (A3 Q)|]; lia.
  - intros j Hj. rewrite firstn_length, ins_array_len in Hj. rewrite nth_firstn_lt by lia.
    unfold ins_array, left_segs, right_segs. destruct (Nat.ltb_spec 0 q) as [Q|Q].
    + destruct (A3 Q) as [B1 B2]. rewrite LS in *. cbv zeta.
      rewrite !nth_app_if, !app_length, !firstn_length, LS. cbn [length].
      replace (Nat.min t (c_num c)) with t by lia. replace (Nat.min onum (length own)) with onum by lia.
      rewrite !nth_upd_eq, !upd_length, ins_copy_len, ins_move_len.
      destruct (Nat.ltb_spec t (length (c_arr c))); [|lia]. destruct (Nat.ltb_spec (t + onum + 1) (length (c_arr c))); [|lia].
      rewrite !andb_true_r.
      assert (T : nth t (ins_copy (ins_move (c_num c - (t + 1)) (c_arr c) (t + 1) (c_num c + onum + 1 - c_num c)) (Some own) (t + 1) (seq 0 onum)) seg0
                  = nth t (c_segs c) seg0).
      { rewrite ins_copy_nth by (rewrite ins_move_len; lia). rewrite ins_move_nth by lia.
        destruct (Nat.leb_spec (t + 1 + 0) t); [lia|]. destruct (Nat.leb_spec (t + 1 + (c_num c + onum + 1 - c_num c)) t); [lia|].
        destruct (Nat.leb_spec (t + 1) t); [lia|]. cbn [andb]. rewrite NS by lia. auto. }
      rewrite T. destruct (Nat.eqb_spec j t) as [->|J1].
      { destruct (Nat.ltb_spec t (t + 1)); [|lia]. destruct (Nat.ltb_spec t t); [lia|]. rewrite Nat.sub_diag. reflexivity. }
      destruct (Nat.eqb_spec j (t + onum + 1)) as [->|J2].
      { destruct (Nat.ltb_spec (t + onum + 1) (t + 1)); [lia|]. destruct (Nat.ltb_spec (t + onum + 1 - (t + 1)) onum); [lia|].
        replace (t + onum + 1 - (t + 1) - onum) with 0 by lia. reflexivity. }
      rewrite ins_copy_nth by (rewrite ins_move_len; lia). rewrite ins_move_nth by lia.
      destruct (Nat.ltb_spec j (t + 1)).
      { destruct (Nat.ltb_spec j t); [|lia]. rewrite nth_firstn_lt by lia. rewrite NS by lia.
        destruct (Nat.leb_spec (t + 1 + 0) j); [lia|]. destruct (Nat.leb_spec (t + 1 + (c_num c + onum + 1 - c_num c)) j); [lia|].
        destruct (Nat.leb_spec (t + 1) j); [lia|]. reflexivity. }
      destruct (Nat.ltb_spec (j - (t + 1)) onum).
      { rewrite nth_firstn_lt by lia. destruct (Nat.leb_spec (t + 1 + 0) j); [|lia]. destruct (Nat.ltb_spec j (t + 1 + 0 + onum)); [|lia].
        cbn [andb]. reflexivity. }
      replace (j - (t + 1) - onum) with (S (j - (t + 1) - onum - 1)) by lia. cbn [nth]. rewrite nth_skipn_eq, NS by lia.
      destruct (Nat.ltb_spec j (t + 1 + 0 + onum)); [lia|]. rewrite andb_false_r.
      destruct (Nat.leb_spec (t + 1 + (c_num c + onum + 1 - c_num c)) j); [|lia].
      destruct (Nat.ltb_spec j (t + 1 + (c_num c - (t + 1)) + (c_num c + onum + 1 - c_num c))); [|lia]. cbn [andb]. f_equal. lia.
    + cbv zeta. rewrite app_nil_r. rewrite !nth_app_if, !firstn_length, LS.
      replace (Nat.min t (c_num c)) with t by lia. replace (Nat.min onum (length own)) with onum by lia.
      rewrite !Nat.add_0_r in *. rewrite LS in A1.
      rewrite ins_copy_nth by (rewrite ins_move_len; lia). rewrite ins_move_nth by lia.
      destruct (Nat.ltb_spec j t).
      { rewrite nth_firstn_lt by lia. rewrite NS by lia.
        destruct (Nat.leb_spec (t + 0) j); [lia|]. destruct (Nat.leb_spec (t + (c_num c + onum - c_num c)) j); [lia|].
        destruct (Nat.leb_spec t j); [lia|]. reflexivity. }
      destruct (Nat.ltb_spec (j - t) onum).
      { rewrite nth_firstn_lt by lia. destruct (Nat.leb_spec (t + 0) j); [|lia]. destruct (Nat.ltb_spec j (t + 0 + onum)); [|lia]. reflexivity. }
      rewrite nth_skipn_eq, NS by lia. destruct (Nat.ltb_spec j (t + 0 + onum)); [lia|]. rewrite andb_false_r.
      destruct (Nat.leb_spec (t + (c_num c + onum - c_num c)) j); [|lia].
      destruct (Nat.ltb_spec j (t + (c_num c - t) + (c_num c + onum - c_num c))); [|lia]. cbn [andb]. f_equal. lia.
Qed.
