(* Input side of the record streaming: reading back what was written. *)
From Verif Require Import Common ListFacts Bytes RecordSpec RecordModel RecordMap RecordOut.
Open Scope N_scope.

Lemma rread_app p a r n : n = lenN a -> rread (mkR p (a ++ r)) n = (mkR (p + n) r, Some a).
Proof.
  intros E. unfold rread. cbn [r_rest r_pos]. rewrite lenN_app.
  destruct (N.ltb_spec (lenN a + lenN r) n); [lia|]. rewrite takeN_app, dropN_app by auto. reflexivity.
Qed.

Lemma rnum_app p k x r d : x < 256 ^ N.of_nat k -> rnum (mkR p (le k x ++ r)) k d = (mkR (p + N.of_nat k) r, x).
Proof.
  intros H. unfold rnum. rewrite rread_app by (rewrite lenN_le; auto). f_equal. apply unle_le_small. auto.
Qed.

Lemma rshift_app p a r n : n = lenN a -> rshift (mkR p (a ++ r)) n = (mkR (p + n) r, true).
Proof.
  intros E. unfold rshift. cbn [r_rest r_pos]. rewrite lenN_app.
  destruct (N.ltb_spec (lenN a + lenN r) n); [lia|]. rewrite dropN_app by auto. reflexivity.
Qed.

Lemma verify_in_zeros p len z sz rest : p mod 8 = 0 -> sz mod 8 = 0 -> len + z = sz ->
  verify_in (mkR (p + len) (zeros z ++ rest)) p sz = (mkR (p + sz) rest, true).
Proof.
  intros A S8 E. unfold verify_in. cbn [r_pos]. replace (p + len - p) with len by lia.
  destruct (N.eqb_spec len sz) as [->|N].
  - replace z with 0 by lia. reflexivity.
  - rewrite A, S8. cbn [N.eqb negb]. destruct (N.ltb_spec sz len); [lia|].
    rewrite rshift_app by (rewrite lenN_zeros; lia). do 2 f_equal. lia.
Qed.

Lemma verify_in_exact p sz rest : verify_in (mkR (p + sz) rest) p sz = (mkR (p + sz) rest, true).
Proof. unfold verify_in. cbn [r_pos]. replace (p + sz - p) with sz by lia. rewrite N.eqb_refl. auto. Qed.

Lemma cstr_app b : cstring b -> forall r, cstr (b ++ 0 :: r) = Some b.
Proof.
  induction 1 as [|c b [H1 H2] Hb IH]; intros r; cbn [app cstr]; auto.
  destruct (N.eqb_spec c 0); [lia|]. rewrite IH. auto.
Qed.

Lemma read_str_ok tail p str rest : p mod 8 = 0 -> cstring str -> str_storesize str < 2^32 -> 4 <= lenN rest ->
  read_str tail (mkR p (str_bytes str ++ rest)) = Done (mkR (p + str_storesize str) rest, (str, true)).
Proof.
  intros A C B R4. unfold read_str. cbn [r_pos]. unfold str_bytes, padded.
  assert (L : lenN (le 4 (str_storesize str / 8) ++ str ++ [0]) = 4 + (lenN str + 1)).
  { rewrite !lenN_app, lenN_le, lenN_cons, lenN_nil. lia. }
  rewrite L. fold (str_storesize str). pose proof (str_storesize_8 str) as S8.
  pose proof (round8_ok (4 + (lenN str + 1))) as R8. fold (str_storesize str) in R8.
  set (z := str_storesize str - (4 + (lenN str + 1))).
  rewrite <- !app_assoc. rewrite rnum_app by (change (256 ^ N.of_nat 4) with (2^32); lia).
  cbn [r_rest]. replace (str_storesize str / 8 * 8) with (str_storesize str) by lia.
  assert (L2 : lenN (str ++ [0] ++ zeros z ++ rest) = str_storesize str - 4 + lenN rest).
  { rewrite !lenN_app, lenN_cons, lenN_nil, lenN_zeros. unfold z. lia. }
  rewrite L2. destruct (N.ltb_spec (str_storesize str - 4 + lenN rest) (str_storesize str)); [lia|].
  rewrite <- !app_assoc. cbn [app]. rewrite cstr_app by auto.
  unfold verify_in. cbn [r_pos]. replace (p + N.of_nat 4 - p) with 4 by lia.
  destruct (N.eqb_spec 4 (str_storesize str)); [lia|]. rewrite A. destruct S8 as (S8 & S9). rewrite S8. cbn [N.eqb negb].
  destruct (N.ltb_spec (str_storesize str) 4); [lia|].
  replace (str ++ 0 :: zeros z ++ rest) with ((str ++ [0] ++ zeros z) ++ rest) by (rewrite <- !app_assoc; reflexivity).
  rewrite rshift_app.
  - do 3 f_equal. lia.
  - rewrite !lenN_app, lenN_cons, lenN_nil, lenN_zeros. unfold z. lia.
Qed.

Lemma words_app ws : Forall word ws -> forall r, words (length ws) (concat (map (le 8) ws) ++ r) = ws.
Proof.
  induction 1 as [|w ws Hw Hws IH]; intros r; auto. cbn [length map concat words].
  rewrite <- app_assoc.
  rewrite firstn_app, le_length, Nat.sub_diag, (firstn_all2 (le 8 w)) by (rewrite le_length; auto).
  rewrite app_nil_r, unle_le8 by exact Hw. f_equal.
  rewrite skipn_app, le_length, Nat.sub_diag, (skipn_all2 (le 8 w)) by (rewrite le_length; auto). apply IH.
Qed.

Lemma lenN_words ws : lenN (concat (map (le 8) ws)) = 8 * lenN ws.
Proof.
  induction ws as [|w ws IH]; [reflexivity|]. cbn [map concat]. rewrite lenN_app, lenN_cons, IH, lenN_le. lia.
Qed.

Lemma cstrs_app l : Forall cstring l -> forall r, cstrs (length l) (concat (map (fun b => b ++ [0]) l) ++ r) = Some l.
Proof.
  induction 1 as [|b l Hb Hl IH]; intros r; auto. cbn [length map concat cstrs].
  rewrite <- !app_assoc. cbn [app]. rewrite cstr_app by auto.
  replace (skipn (S (length b)) (b ++ 0 :: concat (map (fun b => b ++ [0]) l) ++ r)) with (concat (map (fun b => b ++ [0]) l) ++ r).
  - rewrite IH. auto.
  - rewrite skipn_app. rewrite skipn_all2 by lia. replace (S (length b) - length b)%nat with 1%nat by lia. reflexivity.
Qed.

Lemma lenN_strs l : lenN (concat (map (fun b => b ++ [0]) l)) = lenN (concat l) + lenN l.
Proof.
  induction l as [|b l IH]; [reflexivity|]. cbn [map concat]. rewrite !lenN_app, IH, !lenN_cons, lenN_nil. lia.
Qed.

Lemma kind_small v : proper v -> kind v < 16.
Proof. destruct v; cbn; intros H; try reflexivity; destruct H. Qed.

Lemma land_mask k : k < 16777216 -> N.land k 16777215 = k.
Proof. intros H. change 16777215 with (N.ones 24). rewrite N.land_ones. apply N.mod_small. exact H. Qed.

Lemma sub_mul32 n c : c <= n -> 8 * n < 2^32 -> mul32 (sub32 n c) 8 = 8 * n - 8 * c.
Proof.
  intros H1 H2. unfold mul32, sub32.
  replace (n + 2^32 - c) with ((n - c) + 1 * 2^32) by lia.
  rewrite N.mod_add by discriminate. rewrite (N.mod_small (n - c)) by lia.
  rewrite N.mod_small; lia.
Qed.

(* header of a stored field *)
Lemma field_head v p rest : proper v -> flen v < 2^32 ->
  rnum (mkR p (field_bytes v ++ rest)) 4 0 =
    (mkR (p + 4) (le 4 (kind v) ++ concat (chunks v) ++ zeros (flen v - (8 + lenN (concat (chunks v)))) ++ rest), flen v / 8) /\
  rnum (mkR (p + 4) (le 4 (kind v) ++ concat (chunks v) ++ zeros (flen v - (8 + lenN (concat (chunks v)))) ++ rest)) 4 0 =
    (mkR (p + 4 + 4) (concat (chunks v) ++ zeros (flen v - (8 + lenN (concat (chunks v)))) ++ rest), kind v).
Proof.
  intros P B. pose proof (kind_small v P). split.
  - unfold field_bytes, padded. rewrite lenN_fbody. fold (flen v). unfold fbody. rewrite <- !app_assoc.
    rewrite rnum_app by (change (256 ^ N.of_nat 4) with (2^32); lia). reflexivity.
  - rewrite rnum_app by (change (256 ^ N.of_nat 4) with (2^32); lia). reflexivity.
Qed.

Lemma scalar_in_ok p w r f k : word w -> scalar_in (mkR p (le 8 w ++ r)) f k = (mkR (p + 8) r, f w).
Proof.
  intros H. unfold scalar_in. rewrite rread_app by (rewrite lenN_le; reflexivity). rewrite unle_le8 by exact H. auto.
Qed.

Lemma array_in_ok p ws r f k : Forall word ws -> lenN ws < 2^60 ->
  array_in (mkR p (le 8 (lenN ws) ++ concat (map (le 8) ws) ++ r)) f k = Done (mkR (p + 8 + 8 * lenN ws) r, f ws).
Proof.
  intros H B. unfold array_in. rewrite rread_app by (rewrite lenN_le; reflexivity).
  rewrite unle_le8 by lia. destruct (N.leb_spec (2^60) (lenN ws)); [lia|].
  rewrite rread_app by (rewrite lenN_words; lia).
  do 2 f_equal; [f_equal; lia|].
  f_equal. rewrite <- (app_nil_r (concat _)). unfold lenN. rewrite Nat2N.id. apply words_app. auto.
Qed.

Lemma field_in_ok v p rest : p mod 8 = 0 -> proper v -> is_buffer v = false -> flen v < 2^32 ->
  field_in (mkR p (field_bytes v ++ rest)) = Done (mkR (p + flen v) rest, (v, true)).
Proof.
  intros A P NB B. destruct (field_head v p rest P B) as (H1 & H2).
  unfold field_in. cbn [r_pos]. rewrite H1, H2. cbv zeta.
  pose proof (kind_small v P) as K. pose proof (flen_8 v) as F8.
  rewrite land_mask by lia. replace (flen v / 8 * 8) with (flen v) by lia. clear H1 H2 K.
  assert (FL : flen v = round8 (8 + lenN (concat (chunks v)))) by reflexivity.
  pose proof (round8_ok (8 + lenN (concat (chunks v)))) as R8. rewrite <- FL in R8.
  destruct v; cbn [proper is_buffer] in P, NB; try contradiction; try discriminate;
    cbn [kind N.eqb Pos.eqb chunks concat] in *; rewrite ?app_nil_r in *; unfold obind.
  - rewrite <- N.add_assoc. cbn [app]. rewrite lenN_nil in *. rewrite verify_in_zeros; auto; lia.
  - rewrite lenN_le in *. rewrite scalar_in_ok by auto. rewrite <- !N.add_assoc. rewrite verify_in_zeros; auto; lia.
  - rewrite lenN_le in *. rewrite scalar_in_ok by auto. rewrite <- !N.add_assoc. rewrite verify_in_zeros; auto; lia.
  - rewrite lenN_le in *. rewrite scalar_in_ok by auto. rewrite <- !N.add_assoc. rewrite verify_in_zeros; auto; lia.
  - rewrite lenN_le in *. rewrite scalar_in_ok by auto. rewrite <- !N.add_assoc. rewrite verify_in_zeros; auto; lia.
  - rewrite lenN_le in *. rewrite scalar_in_ok by auto. rewrite <- !N.add_assoc. rewrite verify_in_zeros; auto; lia.
  - rewrite lenN_app, lenN_le, lenN_words in *. rewrite <- app_assoc. rewrite array_in_ok by (auto; lia).
    rewrite <- !N.add_assoc. rewrite verify_in_zeros; auto; lia.
  - rewrite lenN_app, lenN_le, lenN_words in *. rewrite <- app_assoc. rewrite array_in_ok by (auto; lia).
    rewrite <- !N.add_assoc. rewrite verify_in_zeros; auto; lia.
  - rewrite lenN_app, lenN_le, lenN_words in *. rewrite <- app_assoc. rewrite array_in_ok by (auto; lia).
    rewrite <- !N.add_assoc. rewrite verify_in_zeros; auto; lia.
  - rewrite sub_mul32 by lia. rewrite app_assoc.
    rewrite rread_app by (rewrite lenN_app, lenN_zeros; lia).
    rewrite <- app_assoc. cbn [app]. rewrite cstr_app by auto.
    replace (p + 4 + 4 + (8 * (flen (VStr b) / 8) - 8 * 1)) with (p + flen (VStr b)) by lia.
    rewrite verify_in_exact. reflexivity.
  - rewrite lenN_app, lenN_le, lenN_strs in *. rewrite <- app_assoc.
    rewrite rread_app by (rewrite lenN_le; reflexivity).
    rewrite sub_mul32 by lia. rewrite app_assoc.
    rewrite rread_app by (rewrite lenN_app, lenN_zeros, lenN_strs; lia).
    assert (LW : lenN l < 2^64) by (unfold bytes in *; lia). rewrite unle_le8 by exact LW. rewrite lenN_app, lenN_strs, lenN_zeros.
    match goal with |- context [if ?c then _ else _] => destruct c eqn:E end; [apply N.ltb_lt in E; unfold bytes in *; lia|].
    unfold lenN at 1. rewrite Nat2N.id, cstrs_app by auto.
    match goal with |- context [mkR ?q rest] => replace q with (p + flen (VArrStr l)) by (unfold bytes in *; lia) end.
    rewrite verify_in_exact. reflexivity.
  - rewrite <- N.add_assoc. cbn [app]. rewrite lenN_nil in *. rewrite verify_in_zeros; auto; lia.
Qed.

Definition nobuf (m : fmap value) : Prop := Forall (fun e => is_buffer (snd e) = false) m.
Definition proper_map (m : fmap value) : Prop := Forall (fun e => cstring (fst e) /\ proper (snd e)) m.
Definition small_map (m : fmap value) : Prop := Forall (fun e => str_storesize (fst e) < 2^32 /\ flen (snd e) < 2^32) m.

Lemma entries_in_ok tail sel : proper_map sel -> nobuf sel -> small_map sel ->
  forall p rest m touched, p mod 8 = 0 ->
  entries_in tail (length sel) (mkR p (entries_bytes sel ++ rest)) m touched =
  Done (mkR (p + lenN (entries_bytes sel)) rest,
        (fold_left (fun m e => mset (fst e) (snd e) m) sel m, rev (keys sel) ++ touched)).
Proof.
  induction sel as [|(k, v) sel IH]; intros P NB SM p rest m touched A.
  - cbn [length entries_in fold_left]. unfold entries_bytes. cbn [map concat app]. rewrite lenN_nil, N.add_0_r. reflexivity.
  - inversion P as [|? ? (P1 & P2) P3]; subst. inversion NB as [|? ? N1 N2]; subst. inversion SM as [|? ? (S1 & S2) S3]; subst.
    cbn [fst snd] in *. cbn [length entries_in]. unfold entries_bytes in *. cbn [map concat]. change (entry_bytes (k, v)) with (str_bytes k ++ field_bytes v).
    cbn [fst snd]. rewrite <- !app_assoc.
    pose proof (flen_8 v). pose proof (str_storesize_8 k).
    rewrite read_str_ok; auto; [|rewrite !lenN_app, lenN_field_bytes; lia].
    unfold obind. rewrite field_in_ok; auto; [|lia].
    rewrite IH; auto; [|lia]. cbn [fold_left fst snd]. do 2 f_equal.
    + f_equal. rewrite !lenN_app, lenN_str_bytes, lenN_field_bytes. lia.
    + f_equal. cbn [keys map rev fst]. rewrite <- app_assoc. reflexivity.
Qed.

Lemma memb_spec k l : reflect (In k l) (memb k l).
Proof.
  unfold memb. destruct (existsb (beqb k) l) eqn:E; constructor.
  - apply existsb_exists in E. destruct E as (x & Hx & E). destruct (beqb_spec k x); [subst; auto|discriminate].
  - intros H. assert (existsb (beqb k) l = true); [|congruence]. apply existsb_exists. exists k. split; auto. apply beqb_refl.
Qed.

Definition merged (prefix : bytes) (sel old m : fmap value) : Prop :=
  msorted m /\ forall k, mget k m = match mget k sel with
                                     | Some v => Some v
                                     | None => if match_prefix k prefix then None else mget k old
                                     end.

Lemma map_in_ok tail prefix (m old : fmap value) p rest : let sel := selected prefix m in
  p mod 8 = 0 -> proper_map sel -> nobuf sel -> small_map sel -> msorted m -> msorted old ->
  lenN sel < 16777216 -> mlen prefix m < 2^35 ->
  exists m', map_in tail (mkR p (map_bytes prefix m ++ rest)) prefix old = Done (mkR (p + mlen prefix m) rest, (m', true)) /\
             merged prefix sel old m'.
Proof.
  intros sel A P NB SM MS MO CNT B. unfold map_in. cbn [r_pos]. unfold map_bytes, mbody. fold sel.
  rewrite <- !app_assoc. pose proof (mlen_8 prefix m) as M8.
  rewrite rnum_app by (change (256 ^ N.of_nat 4) with (2^32); lia).
  rewrite rnum_app by (change (256 ^ N.of_nat 4) with (2^32); lia). cbv zeta.
  rewrite land_mask by lia. unfold lenN at 1. rewrite Nat2N.id.
  rewrite entries_in_ok; auto; [|lia]. unfold obind.
  replace (mlen prefix m / 8 * 8) with (mlen prefix m) by lia.
  replace (p + N.of_nat 4 + N.of_nat 4 + lenN (entries_bytes sel)) with (p + mlen prefix m) by (unfold mlen; fold sel; lia).
  rewrite verify_in_exact. eexists. split; [reflexivity|].
  set (m1 := fold_left (fun m e => mset (fst e) (snd e) m) sel old).
  assert (S1 : msorted m1) by (apply fold_mset_sorted; auto).
  assert (SS : msorted sel) by (apply filter_sorted; auto).
  split; [apply filter_sorted; auto|]. intros k.
  rewrite mget_filter by (apply msorted_nodup; auto). unfold m1.
  rewrite mget_fold_mset by (auto; apply msorted_nodup; auto). cbn [fst]. rewrite app_nil_r.
  destruct (mget k sel) as [v|] eqn:E.
  - destruct (memb_spec k (rev (keys sel))) as [_|N]; auto. exfalso. apply N. rewrite <- in_rev.
    eapply mget_some_keys; eauto.
  - destruct (memb_spec k (rev (keys sel))) as [I|N].
    + rewrite <- in_rev in I. apply keys_mget in I. destruct I as (v & Hv). congruence.
    + cbn [orb]. destruct (mget k old); destruct (match_prefix k prefix); auto.
Qed.

Lemma record_in_ok tail (r : record) old p rest : let sel := selected [] (snd r) in
  p mod 8 = 0 -> cstring (fst r) -> str_storesize (fst r) < 2^32 ->
  proper_map sel -> nobuf sel -> small_map sel -> msorted (snd r) -> msorted old ->
  lenN sel < 16777216 -> rlen r < 2^35 ->
  exists m', record_in tail (mkR p (record_bytes r ++ rest)) old = Done (mkR (p + rlen r) rest, ((fst r, m'), true)) /\
             merged [] sel old m'.
Proof.
  intros sel A C B0 P NB SM MS MO CNT B. unfold record_in. cbn [r_pos]. unfold record_bytes, rbody.
  rewrite <- !app_assoc. pose proof (rlen_8 r) as R8. pose proof (str_storesize_8 (fst r)). pose proof (mlen_8 [] (snd r)).
  rewrite rnum_app by (change (256 ^ N.of_nat 8) with (2^64); lia).
  rewrite read_str_ok; auto; try lia.
  2:{ rewrite lenN_app, lenN_map_bytes. lia. }
  unfold obind.
  destruct (map_in_ok tail [] (snd r) old (p + N.of_nat 8 + str_storesize (fst r)) rest) as (m' & E & M); auto; try lia.
  { unfold rlen in B. lia. }
  rewrite E. replace (p + N.of_nat 8 + str_storesize (fst r) + mlen [] (snd r)) with (p + rlen r) by (unfold rlen; lia).
  rewrite verify_in_exact. exists m'. split; auto.
Qed.

(* sizes of the parts from the size of the whole *)
Lemma entries_len_le (m : fmap value) e : In e m -> lenN (entry_bytes e) <= lenN (entries_bytes m).
Proof.
  induction m as [|e' m IH]; intros H; [destruct H|]. unfold entries_bytes in *. cbn [map concat]. rewrite lenN_app.
  destruct H as [->|H]; [lia|]. specialize (IH H). lia.
Qed.

Lemma small_of_len prefix (m : fmap value) : mlen prefix m < 2^32 -> small_map (selected prefix m).
Proof.
  intros B. apply Forall_forall. intros e He. apply entries_len_le in He. unfold mlen in B. unfold entry_bytes in He.
  rewrite lenN_app, lenN_str_bytes, lenN_field_bytes in He. lia.
Qed.

Lemma selected_all (m : fmap value) : (forall k v, In (k, v) m -> visible k = true) -> selected [] m = m.
Proof.
  intros H. unfold selected. induction m as [|(k, v) m IH]; auto. cbn [filter fst]. unfold match_prefix at 1.
  rewrite (H k v (or_introl eq_refl)). cbn [andb prefixb]. f_equal. apply IH. intros; eapply H; right; eauto.
Qed.
