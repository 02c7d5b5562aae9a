(* Facts about byte order and header fields of HADAQ units. *)
From Verif Require Import Common ListFacts Bytes WordMem BufPtr HadSpec HadModel.
Open Scope N_scope.

Lemma land_mask w k : N.land w (N.shiftl 0xFF k) = N.shiftl ((w / 2^k) mod 256) k.
Proof.
  apply N.bits_inj. intro n. rewrite N.land_spec. destruct (N.ltb_spec n k) as [H|H].
  - rewrite !N.shiftl_spec_low by auto. apply andb_false_r.
  - rewrite !N.shiftl_spec_high' by auto. rewrite <- N.shiftr_div_pow2.
    change 256 with (2^8). rewrite <- N.land_ones, N.land_spec, N.shiftr_spec'.
    replace (n - k + k) with n by lia. reflexivity.
Qed.

Lemma lor_add_shift (a b n : N) : b < 2 ^ n -> N.lor (N.shiftl a n) b = a * 2 ^ n + b.
Proof.
  intros H. rewrite <- N.shiftl_mul_pow2. rewrite <- N.lxor_lor.
  - symmetry. apply N.add_nocarry_lxor. apply N.bits_inj_0. intro i. rewrite N.land_spec.
    destruct (N.ltb_spec i n) as [L|L]; [rewrite N.shiftl_spec_low by auto; reflexivity|].
    rewrite <- (N.mod_small b (2^n)) by auto. rewrite N.mod_pow2_bits_high by auto. apply andb_false_r.
  - apply N.bits_inj_0. intro i. rewrite N.land_spec.
    destruct (N.ltb_spec i n) as [L|L]; [rewrite N.shiftl_spec_low by auto; reflexivity|].
    rewrite <- (N.mod_small b (2^n)) by auto. rewrite N.mod_pow2_bits_high by auto. apply andb_false_r.
Qed.

Definition byte_of (w k : N) : N := (w / 2 ^ (8 * k)) mod 256.

Lemma bswap_arith w : bswap w =
  byte_of w 0 * 2^24 + (byte_of w 1 * 2^16 + (byte_of w 2 * 2^8 + byte_of w 3)).
Proof.
  unfold bswap.
  change 0xFF with (N.shiftl 0xFF 0) at 1. change 0xFF00 with (N.shiftl 0xFF 8).
  change 0xFF0000 with (N.shiftl 0xFF 16). change 0xFF000000 with (N.shiftl 0xFF 24).
  rewrite !land_mask. fold (byte_of w 0).
  change ((w / 2 ^ 0) mod 256) with (byte_of w 0). change ((w / 2 ^ 8) mod 256) with (byte_of w 1).
  change ((w / 2 ^ 16) mod 256) with (byte_of w 2). change ((w / 2 ^ 24) mod 256) with (byte_of w 3).
  assert (B : forall k, byte_of w k < 256) by (intro k; apply N.mod_lt; lia).
  rewrite N.shiftl_0_r. rewrite N.shiftl_shiftl. change (8 + 8) with 16.
  rewrite N.shiftr_shiftl_l by lia. change (16 - 8) with 8.
  rewrite N.shiftr_shiftl_l by lia. change (24 - 24) with 0. rewrite N.shiftl_0_r.
  rewrite <- !N.lor_assoc.
  generalize (B 0), (B 1), (B 2), (B 3). generalize (byte_of w 0), (byte_of w 1), (byte_of w 2), (byte_of w 3). intros b0 b1 b2 b3 H0 H1 H2 H3.
  rewrite (lor_add_shift b2 b3 8) by (change (2^8) with 256; lia).
  rewrite (lor_add_shift b1 _ 16) by (change (2^16) with 65536; change (2^8) with 256; lia).
  rewrite (lor_add_shift b0 _ 24); [reflexivity|].
  change (2^24) with 16777216; change (2^16) with 65536; change (2^8) with 256; lia.
Qed.

Ltac pows := change (2^32) with 4294967296 in *; change (2^24) with 16777216 in *;
  change (2^16) with 65536 in *; change (2^8) with 256 in *; change (2^0) with 1 in *.

Lemma bswap_lt w : bswap w < 2^32.
Proof.
  rewrite bswap_arith. assert (B : forall k, byte_of w k < 256) by (intro k; apply N.mod_lt; lia).
  generalize (B 0), (B 1), (B 2), (B 3). pows. lia.
Qed.

Lemma bytes_of w : w < 2^32 -> w = byte_of w 3 * 2^24 + (byte_of w 2 * 2^16 + (byte_of w 1 * 2^8 + byte_of w 0)).
Proof. intros H. unfold byte_of. change (8*0) with 0. change (8*1) with 8. change (8*2) with 16. change (8*3) with 24. pows. lia. Qed.

Lemma byte_of_sum b3 b2 b1 b0 : b0 < 256 -> b1 < 256 -> b2 < 256 -> b3 < 256 ->
  let w := b3 * 2^24 + (b2 * 2^16 + (b1 * 2^8 + b0)) in
  byte_of w 0 = b0 /\ byte_of w 1 = b1 /\ byte_of w 2 = b2 /\ byte_of w 3 = b3.
Proof. intros H0 H1 H2 H3 w. unfold byte_of. change (8*0) with 0. change (8*1) with 8. change (8*2) with 16. change (8*3) with 24. subst w. pows. lia. Qed.

Lemma bswap_bswap w : w < 2^32 -> bswap (bswap w) = w.
Proof.
  intros H. rewrite (bswap_arith (bswap w)). rewrite bswap_arith.
  assert (B : forall k, byte_of w k < 256) by (intro k; apply N.mod_lt; lia).
  destruct (byte_of_sum (byte_of w 0) (byte_of w 1) (byte_of w 2) (byte_of w 3)) as (E0 & E1 & E2 & E3); auto.
  rewrite E0, E1, E2, E3. symmetry. apply bytes_of. exact H.
Qed.

Lemma conv_conv dec v : v < 2^32 -> conv dec (conv dec v) = v.
Proof. intros H. unfold conv. destruct (is_swapped dec); auto. apply bswap_bswap; auto. Qed.
Lemma conv_lt dec v : v < 2^32 -> conv dec v < 2^32.
Proof. intros H. unfold conv. destruct (is_swapped dec); auto. apply bswap_lt. Qed.

Lemma swapped_direct d : dec_ok d -> is_swapped d = false.
Proof. intros (H & _). unfold is_swapped. apply N.ltb_ge. pows. lia. Qed.
Lemma swapped_bswap d : dec_ok d -> is_swapped (bswap d) = true.
Proof.
  intros (H & H0). unfold is_swapped. apply N.ltb_lt. rewrite bswap_arith.
  assert (byte_of d 0 <> 0). { unfold byte_of. change (8*0) with 0. change (2^0) with 1. rewrite N.div_1_r. exact H0. }
  pows. lia.
Qed.

(* ---- headers in memory: eight words (event) or four (subevent) ---- *)

Definition words (l : list N) : bytes := concat (map (le 4) l).

Lemma lenN_words l : lenN (words l) = 4 * lenN l.
Proof. induction l as [|x l IH]; [reflexivity|]. unfold words. cbn [map concat]. rewrite lenN_app, lenN_le, lenN_cons. fold (words l). lia. Qed.

Lemma words_split l k x : nth_error l k = Some x ->
  exists a c, words l = a ++ le 4 x ++ c /\ lenN a = 4 * N.of_nat k /\
    forall y, words (upd l k y) = a ++ le 4 y ++ c.
Proof.
  revert k. induction l as [|w l IH]; intros [|k] H; try discriminate.
  - injection H as ->. exists [], (words l). repeat split.
  - destruct (IH k H) as (a & c & E & L & U). exists (le 4 w ++ a), c. split; [|split].
    + unfold words. cbn [map concat]. fold (words l). rewrite E, <- !app_assoc. reflexivity.
    + rewrite lenN_app, lenN_le, L. lia.
    + intros y. unfold words. cbn [upd map concat]. fold (words (upd l k y)). rewrite U, <- !app_assoc. reflexivity.
Qed.

Lemma getw_words a l c o k x : lenN a = o -> nth_error l k = Some x -> word x ->
  getw (a ++ words l ++ c) (o + 4 * N.of_nat k) = Ok x.
Proof.
  intros L H X. destruct (words_split l k x H) as (p & q & E & Lp & _).
  rewrite E. rewrite <- !app_assoc. rewrite (app_assoc a p). apply getw_at; [rewrite lenN_app; lia|exact X].
Qed.
Lemma setw_words a l c o k x y : lenN a = o -> nth_error l k = Some x ->
  setw (a ++ words l ++ c) (o + 4 * N.of_nat k) y = Ok (a ++ words (upd l k y) ++ c).
Proof.
  intros L H. destruct (words_split l k x H) as (p & q & E & Lp & U).
  rewrite E, (U y). rewrite <- !app_assoc. rewrite (app_assoc a p).
  rewrite setw_at; [rewrite <- !app_assoc; reflexivity|rewrite lenN_app; lia|rewrite lenN_le; reflexivity].
Qed.

Lemma get_field_words a l c o k x dec : lenN a = o -> nth_error l 1 = Some dec -> word dec ->
  nth_error l k = Some x -> word x ->
  get_field (a ++ words l ++ c) o (N.of_nat k) = Ok (conv dec x).
Proof.
  intros L D Wd X Wx. unfold get_field. assert (G := getw_words a l c o 1 dec L D Wd).
  change (o + 4 * N.of_nat 1) with (o + 4) in G. rewrite G. cbn [bind].
  rewrite (getw_words a l c o k x L X Wx). reflexivity.
Qed.
Lemma set_field_words a l c o k x dec v : lenN a = o -> nth_error l 1 = Some dec -> word dec ->
  nth_error l k = Some x ->
  set_field (a ++ words l ++ c) o (N.of_nat k) v = Ok (a ++ words (upd l k (conv dec v)) ++ c).
Proof.
  intros L D Wd X. unfold set_field. assert (G := getw_words a l c o 1 dec L D Wd).
  change (o + 4 * N.of_nat 1) with (o + 4) in G. rewrite G. cbn [bind].
  apply (setw_words a l c o k x); auto.
Qed.

(* ---- the two byte orders ---- *)

Lemma le4 w : w < 2^32 -> le 4 w = [byte_of w 0; byte_of w 1; byte_of w 2; byte_of w 3].
Proof.
  intros H. unfold byte_of. change (8*0) with 0. change (8*1) with 8. change (8*2) with 16. change (8*3) with 24.
  cbn [le]. pows. rewrite N.div_1_r, !N.div_div by lia. reflexivity.
Qed.
Lemma le_bswap w : w < 2^32 -> le 4 (bswap w) = rev (le 4 w).
Proof.
  intros H. rewrite (le4 (bswap w)) by apply bswap_lt. rewrite (le4 w) by auto. rewrite bswap_arith.
  assert (B : forall k, byte_of w k < 256) by (intro k; apply N.mod_lt; lia).
  destruct (byte_of_sum (byte_of w 0) (byte_of w 1) (byte_of w 2) (byte_of w 3)) as (E0 & E1 & E2 & E3); auto.
  rewrite E0, E1, E2, E3. reflexivity.
Qed.

Definition stored (big : bool) (v : N) : N := if big then bswap v else v.
Lemma stored_lt big v : word v -> word (stored big v).
Proof. destruct big; auto. intros _. apply bswap_lt. Qed.

Lemma hdr_bytes_words big l : Forall word l -> hdr_bytes big l = words (map (stored big) l).
Proof.
  induction 1 as [|v l Hv Hl IH]; [reflexivity|]. unfold hdr_bytes, words in *. cbn [map concat]. rewrite IH. f_equal.
  unfold word_bytes, stored. destruct big; [|reflexivity]. symmetry. apply le_bswap. exact Hv.
Qed.

Lemma conv_stored big dec v : dec_ok dec -> conv (stored big dec) v = stored big v.
Proof.
  intros D. unfold conv, stored. destruct big.
  - rewrite swapped_bswap by auto. reflexivity.
  - rewrite swapped_direct by auto. reflexivity.
Qed.

Lemma dec_word d : dec_ok d -> word d.
Proof. intros (H & _). unfold word. pows. lia. Qed.

Lemma map_upd {A B} (f : A -> B) l k v : map f (upd l k v) = upd (map f l) k (f v).
Proof. revert k. induction l as [|x l IH]; intros [|k]; cbn; auto. f_equal. apply IH. Qed.
Lemma Forall_upd {A} (P : A -> Prop) l k v : Forall P l -> P v -> Forall P (upd l k v).
Proof. intros H V. revert k. induction H; intros [|k]; cbn; auto. Qed.

Lemma get_hdr big l a c k x dec : Forall word l -> nth_error l 1 = Some dec -> dec_ok dec ->
  nth_error l k = Some x ->
  get_field (a ++ hdr_bytes big l ++ c) (lenN a) (N.of_nat k) = Ok x.
Proof.
  intros W D Dk X. rewrite hdr_bytes_words by auto.
  assert (Wx : word x) by (eapply Forall_forall; [exact W|eapply nth_error_In; exact X]).
  rewrite (get_field_words a (map (stored big) l) c (lenN a) k (stored big x) (stored big dec)); auto.
  - rewrite conv_stored by auto. unfold stored. destruct big; auto. rewrite bswap_bswap by exact Wx. reflexivity.
  - apply map_nth_error. exact D.
  - apply stored_lt. apply dec_word. exact Dk.
  - apply map_nth_error. exact X.
  - apply stored_lt. exact Wx.
Qed.

Lemma set_hdr_field big l a c k dec v : Forall word l -> nth_error l 1 = Some dec -> dec_ok dec ->
  (k < length l)%nat -> word v ->
  set_field (a ++ hdr_bytes big l ++ c) (lenN a) (N.of_nat k) v = Ok (a ++ hdr_bytes big (upd l k v) ++ c).
Proof.
  intros W D Dk K V. rewrite !hdr_bytes_words by (auto using Forall_upd). rewrite map_upd.
  destruct (nth_error l k) as [x|] eqn:X. 2:{ apply nth_error_None in X. lia. }
  rewrite (set_field_words a (map (stored big) l) c (lenN a) k (stored big x) (stored big dec)); auto.
  - rewrite conv_stored by auto. reflexivity.
  - apply map_nth_error. exact D.
  - apply stored_lt. apply dec_word. exact Dk.
  - apply map_nth_error. exact X.
Qed.

(* data error bit *)
Lemma land_hi i : i < 2^32 -> negb (N.land i 0x80000000 =? 0) = N.testbit i 31.
Proof.
  intros H. destruct (N.testbit i 31) eqn:T.
  - destruct (N.eqb_spec (N.land i 0x80000000) 0) as [E|E]; [|reflexivity].
    assert (X : N.testbit (N.land i 0x80000000) 31 = false) by (rewrite E; reflexivity).
    rewrite N.land_spec, T in X. discriminate.
  - destruct (N.eqb_spec (N.land i 0x80000000) 0) as [E|E]; [reflexivity|]. destruct E.
    apply N.bits_inj_0. intro n. rewrite N.land_spec. change 0x80000000 with (2^31).
    destruct (N.eqb_spec n 31) as [->|N31]; [rewrite T; reflexivity|]. rewrite N.pow2_bits_false by auto. apply andb_false_r.
Qed.

Lemma lor_lt a b : a < 2^32 -> b < 2^32 -> N.lor a b < 2^32.
Proof.
  intros A B. destruct (N.eq_dec (N.lor a b) 0) as [->|Z]; [reflexivity|].
  apply N.log2_lt_pow2; [lia|]. rewrite N.log2_lor.
  destruct (N.eq_dec a 0) as [->|Za]; destruct (N.eq_dec b 0) as [->|Zb]; [destruct (Z eq_refl)| | |];
    try (assert (N.log2 a < 32) by (apply N.log2_lt_pow2; lia)); try (assert (N.log2 b < 32) by (apply N.log2_lt_pow2; lia));
    cbn [N.log2]; lia.
Qed.
Lemma land_lt a b : a < 2^32 -> N.land a b < 2^32.
Proof.
  intros A. destruct (N.eq_dec (N.land a b) 0) as [->|Z]; [reflexivity|].
  apply N.log2_lt_pow2; [lia|]. eapply N.le_lt_trans; [apply N.log2_land|].
  assert (N.log2 a < 32); [|lia]. apply N.log2_lt_pow2; [|exact A].
  destruct a; [destruct (Z eq_refl)|lia].
Qed.

Lemma tb k q b n : b < 2^k -> N.testbit (q * 2^k + b) n = if n <? k then N.testbit b n else N.testbit q (n - k).
Proof.
  intros B. rewrite <- lor_add_shift by auto. rewrite N.lor_spec. destruct (N.ltb_spec n k) as [L|L].
  - rewrite N.shiftl_spec_low by auto. reflexivity.
  - rewrite N.shiftl_spec_high' by auto. rewrite <- (N.mod_small b (2^k)) at 1 by auto.
    rewrite N.mod_pow2_bits_high by auto. apply orb_false_r.
Qed.
Lemma land_pow_lt k a b : a < 2^k -> N.land a b < 2^k.
Proof.
  intros A. rewrite <- (N.mod_small a (2^k)) by auto. rewrite <- N.land_ones.
  rewrite <- N.land_assoc, (N.land_comm (N.ones k)), N.land_assoc, N.land_ones. apply N.mod_lt. apply N.pow_nonzero. lia.
Qed.
Lemma lor_pow_lt k a b : a < 2^k -> b < 2^k -> N.lor a b < 2^k.
Proof.
  intros A B. assert (E : N.lor a b = N.lor a b mod 2^k).
  { rewrite <- N.land_ones, N.land_lor_distr_l, !N.land_ones, !N.mod_small by auto. reflexivity. }
  rewrite E. apply N.mod_lt. apply N.pow_nonzero. lia.
Qed.
Lemma land_cat k q b p c : b < 2^k -> c < 2^k ->
  N.land (q * 2^k + b) (p * 2^k + c) = N.land q p * 2^k + N.land b c.
Proof.
  intros B C. apply N.bits_inj. intro n. rewrite N.land_spec, !tb; auto using land_pow_lt.
  destruct (n <? k); rewrite N.land_spec; reflexivity.
Qed.
Lemma lor_cat k q b p c : b < 2^k -> c < 2^k ->
  N.lor (q * 2^k + b) (p * 2^k + c) = N.lor q p * 2^k + N.lor b c.
Proof.
  intros B C. apply N.bits_inj. intro n. rewrite N.lor_spec, !tb; auto using lor_pow_lt.
  destruct (n <? k); rewrite N.lor_spec; reflexivity.
Qed.

Lemma error_id i (on : bool) : word i ->
  (if on then N.lor i 0x80000000 else N.land i 0x7FFFFFFF) = i mod 2^31 + (if on then 2^31 else 0).
Proof.
  intros W. unfold word in W. destruct on.
  - assert (E : i = (i / 2^31) * 2^31 + i mod 2^31) by (rewrite (N.div_mod i (2^31)) at 1; lia).
    change 0x80000000 with (1 * 2^31 + 0). rewrite E at 1.
    rewrite lor_cat by (try (apply N.mod_lt); lia). rewrite N.lor_0_r.
    assert (Q : i / 2^31 = 0 \/ i / 2^31 = 1) by (change (2^31) with 2147483648; change (2^32) with 4294967296 in W; lia).
    assert (L : N.lor (i / 2^31) 1 = 1) by (destruct Q as [-> | ->]; reflexivity). rewrite L. clear. apply N.add_comm.
  - change 0x7FFFFFFF with (N.ones 31). rewrite N.land_ones. lia.
Qed.

Lemma set_error_spec big l a c dec i (on : bool) : Forall word l -> nth_error l 1 = Some dec -> dec_ok dec ->
  nth_error l 2 = Some i ->
  set_error (a ++ hdr_bytes big l ++ c) (lenN a) on =
    Ok (a ++ hdr_bytes big (upd l 2 (i mod 2^31 + (if on then 2^31 else 0))) ++ c) /\
  get_error (a ++ hdr_bytes big (upd l 2 (i mod 2^31 + (if on then 2^31 else 0))) ++ c) (lenN a) = Ok on.
Proof.
  intros W D Dk X.
  assert (Wi : word i) by (eapply Forall_forall; [exact W|eapply nth_error_In; exact X]).
  assert (Wn : word (i mod 2^31 + (if on then 2^31 else 0))).
  { unfold word. assert (i mod 2^31 < 2^31) by (apply N.mod_lt; lia). destruct on; lia. }
  assert (K : (2 < length l)%nat). { apply nth_error_Some. rewrite X. discriminate. }
  split.
  - unfold set_error, get_id. change 2 with (N.of_nat 2). rewrite (get_hdr big l a c 2 i dec) by auto.
    cbn [bind]. rewrite error_id by auto. rewrite set_hdr_field with (dec := dec) by auto. reflexivity.
  - unfold get_error, get_id. change (get_field (a ++ hdr_bytes big (upd l 2 (i mod 2^31 + (if on then 2^31 else 0))) ++ c) (lenN a) 2)
      with (get_field (a ++ hdr_bytes big (upd l 2 (i mod 2^31 + (if on then 2^31 else 0))) ++ c) (lenN a) (N.of_nat 2)).
    rewrite (get_hdr big _ a c 2 (i mod 2^31 + (if on then 2^31 else 0)) dec); auto using Forall_upd.
    + cbn [bind]. rewrite land_hi by exact Wn. f_equal.
      replace (i mod 2^31 + (if on then 2^31 else 0)) with ((if on then 1 else 0) * 2^31 + i mod 2^31) by (destruct on; lia).
      rewrite tb by (apply N.mod_lt; lia). change (31 <? 31) with false. destruct on; reflexivity.
    + rewrite nth_error_upd_other by lia. exact D.
    + apply nth_error_upd_same. exact K.
Qed.

Lemma trigtype_dec d typ : d < 2^24 -> typ < 16 ->
  N.lor (N.land d 0xFFFFFF0F) (N.shiftl typ 4) = d / 256 * 256 + typ * 16 + d mod 16.
Proof.
  intros D T.
  assert (E : d = ((d / 256) * 2^4 + (d / 16) mod 16) * 2^4 + d mod 16) by (change (2^4) with 16; lia).
  rewrite E at 1. change 0xFFFFFF0F with ((0xFFFFFF * 2^4 + 0) * 2^4 + 15).
  rewrite land_cat by (change (2^4) with 16; lia). rewrite land_cat by (change (2^4) with 16; lia).
  rewrite N.land_0_r. change 0xFFFFFF with (N.ones 24). rewrite N.land_ones, N.mod_small by (change (2^24) with 16777216 in *; lia).
  change 15 with (N.ones 4). rewrite N.land_ones, N.mod_small by (change (2^4) with 16; lia).
  rewrite N.shiftl_mul_pow2. replace (typ * 2^4) with ((0 * 2^4 + typ) * 2^4 + 0) by (change (2^4) with 16; lia).
  rewrite lor_cat by (change (2^4) with 16; lia). rewrite lor_cat by (change (2^4) with 16; lia).
  rewrite !N.lor_0_r, N.lor_0_l. change (2^4) with 16. lia.
Qed.
Lemma get_trigtype_dec d : N.shiftr (N.land d 0xF0) 4 = (d / 16) mod 16.
Proof.
  assert (E : d = ((d / 16 / 16) * 2^4 + (d / 16) mod 16) * 2^4 + d mod 16) by (change (2^4) with 16; lia).
  rewrite E at 1. change 0xF0 with ((0 * 2^4 + 15) * 2^4 + 0).
  rewrite land_cat by (change (2^4) with 16; lia). rewrite land_cat by (change (2^4) with 16; lia).
  rewrite !N.land_0_r. change 15 with (N.ones 4). rewrite N.land_ones, N.mod_small by (change (2^4) with 16; lia).
  rewrite N.shiftr_div_pow2. change (2^4) with 16. lia.
Qed.

Lemma set_trigtype_spec big l a c d typ : Forall word l -> nth_error l 1 = Some d -> dec_ok d -> d mod 16 <> 0 -> typ < 16 ->
  let d' := d / 256 * 256 + typ * 16 + d mod 16 in
  set_trigtype (a ++ hdr_bytes big l ++ c) (lenN a) typ = Ok (a ++ hdr_bytes big (upd l 1 d') ++ c) /\
  get_trigtype (a ++ hdr_bytes big (upd l 1 d') ++ c) (lenN a) = Ok typ /\ dec_ok d'.
Proof.
  intros W D Dk L T d'.
  assert (K : (1 < length l)%nat). { apply nth_error_Some. rewrite D. discriminate. }
  assert (Dk' : dec_ok d'). { destruct Dk as (H & _). unfold d'. split; change (2^24) with 16777216 in *; lia. }
  split; [|split; [|exact Dk']].
  - unfold set_trigtype, get_dec. change 1 with (N.of_nat 1). rewrite (get_hdr big l a c 1 d d) by auto.
    cbn [bind]. rewrite trigtype_dec; [|apply Dk|exact T]. rewrite set_hdr_field with (dec := d); auto.
    apply dec_word. exact Dk'.
  - unfold get_trigtype, get_dec. change (get_field (a ++ hdr_bytes big (upd l 1 d') ++ c) (lenN a) 1)
      with (get_field (a ++ hdr_bytes big (upd l 1 d') ++ c) (lenN a) (N.of_nat 1)).
    rewrite (get_hdr big _ a c 1 d' d'); auto.
    + cbn [bind]. rewrite get_trigtype_dec. f_equal. unfold d'. lia.
    + apply Forall_upd; auto. apply dec_word. exact Dk'.
    + apply nth_error_upd_same. exact K.
    + apply nth_error_upd_same. exact K.
Qed.
