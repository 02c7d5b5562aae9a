(* Output side of the record streaming: what is written, byte by byte, and that
   the size stream predicts it. *)
From Verif Require Import Common ListFacts Bytes RecordSpec RecordModel.
Open Scope N_scope.

Lemma round8_ok n : n <= round8 n /\ round8 n < n + 8 /\ round8 n mod 8 = 0.
Proof. unfold round8. lia. Qed.

Lemma round8_mult n : n mod 8 = 0 -> round8 n = n.
Proof. unfold round8. lia. Qed.

Lemma round8_add p n : p mod 8 = 0 -> round8 (p + n) = p + round8 n.
Proof. unfold round8. lia. Qed.

Definition zeros (n : N) : bytes := repeat 0 (N.to_nat n).
Definition padded (b : bytes) : bytes := b ++ zeros (round8 (lenN b) - lenN b).

Lemma lenN_zeros n : lenN (zeros n) = n.
Proof. unfold zeros. rewrite lenN_repeat. lia. Qed.

Lemma lenN_padded b : lenN (padded b) = round8 (lenN b).
Proof. unfold padded. rewrite lenN_app, lenN_zeros. pose proof (round8_ok (lenN b)). lia. Qed.

Lemma padded_mult b : lenN b mod 8 = 0 -> padded b = b.
Proof. intros H. unfold padded. rewrite round8_mult, N.sub_diag by auto. apply app_nil_r. Qed.

(* effect of successful writing *)
Definition put (s : ws) (b : bytes) : ws :=
  if w_real s then mkW true (w_pos s + lenN b) (w_left s - lenN b) (w_out s ++ b)
  else mkW false (w_pos s + lenN b) (w_left s) (w_out s).
Definition fits (s : ws) (n : N) : Prop := w_real s = true -> n <= w_left s.
Definition aligned (s : ws) : Prop := w_pos s mod 8 = 0.

Lemma put_real s b : w_real (put s b) = w_real s.
Proof. unfold put. destruct (w_real s); auto. Qed.
Lemma put_pos s b : w_pos (put s b) = w_pos s + lenN b.
Proof. unfold put. destruct (w_real s); auto. Qed.
Lemma put_left s b : w_real s = true -> w_left (put s b) = w_left s - lenN b.
Proof. unfold put. intros ->. auto. Qed.
Lemma put_out s b : w_real s = true -> w_out (put s b) = w_out s ++ b.
Proof. unfold put. intros ->. auto. Qed.

Lemma put_nil s : put s [] = s.
Proof. unfold put. destruct s as [[] p l o]; cbn [w_real w_pos w_left w_out]; rewrite lenN_nil; f_equal; try lia. apply app_nil_r. Qed.

Lemma put_put s a b : put (put s a) b = put s (a ++ b).
Proof.
  unfold put. destruct (w_real s) eqn:E; cbn [w_real w_pos w_left w_out]; rewrite lenN_app; f_equal; try lia.
  symmetry. apply app_assoc.
Qed.

Lemma fits_put s b n : fits (put s b) n <-> (w_real s = true -> n <= w_left s - lenN b).
Proof. unfold fits. rewrite put_real. split; intros H R; specialize (H R); rewrite (put_left s b R) in *; auto. Qed.

Lemma wwrite_put s b : fits s (lenN b) -> wwrite s b = (put s b, true).
Proof.
  unfold fits, wwrite, put. intros H. destruct (w_real s); auto.
  destruct (N.ltb_spec (w_left s) (lenN b)); auto. specialize (H eq_refl). lia.
Qed.

Lemma wwrites_put l : forall s, fits s (lenN (concat l)) -> wwrites s l = put s (concat l).
Proof.
  induction l as [|b l IH]; intros s H; cbn [concat].
  - symmetry. apply put_nil.
  - cbn [concat] in H. rewrite lenN_app in H. unfold wwrites in *. cbn [fold_left].
    rewrite wwrite_put by (intros R; specialize (H R); lia). cbn [fst].
    rewrite IH, put_put; auto. apply fits_put. intros R; specialize (H R); lia.
Qed.

Lemma zeros_add a b : zeros (a + b) = zeros a ++ zeros b.
Proof. unfold zeros. rewrite N2Nat.inj_add. apply repeat_app. Qed.

Lemma pad_put k : forall s rest, fits s rest -> rest / 8 < N.of_nat k -> pad k s rest = put s (zeros rest).
Proof.
  induction k as [|k IH]; intros s rest H Hk; [lia|]. cbn [pad].
  destruct (N.eqb_spec rest 0) as [->|N0]; [symmetry; apply put_nil|].
  cbv zeta. fold (zeros (N.min rest 8)).
  rewrite wwrite_put by (rewrite lenN_zeros; intros R; specialize (H R); lia). cbn [fst].
  destruct (N.leb_spec rest 8) as [L|L].
  - rewrite N.min_l by auto. rewrite N.sub_diag. destruct k; cbn [pad]; auto.
  - rewrite N.min_r by lia. rewrite IH, put_put, <- zeros_add.
    + do 2 f_equal. lia.
    + apply fits_put. rewrite lenN_zeros. intros R; specialize (H R); lia.
    + lia.
Qed.

Lemma verify_put s b sz : aligned s -> b <> [] -> fits s (round8 (lenN b)) ->
  (sz = round8 (lenN b) \/ (w_real s = false /\ sz = 0)) ->
  verify_out (put s b) (w_pos s) sz = (put s (padded b), true).
Proof.
  intros A NE F HS. unfold verify_out. rewrite put_pos, put_real.
  assert (0 < lenN b). { destruct b; [congruence|]. rewrite lenN_cons. lia. }
  pose proof (round8_ok (lenN b)) as R8. unfold aligned in A.
  replace (w_pos s + lenN b - w_pos s) with (lenN b) by lia.
  destruct (N.eqb_spec (lenN b) sz) as [E|E].
  { destruct HS as [HS|[_ HS]]; [|lia]. f_equal. f_equal. symmetry. apply padded_mult. lia. }
  rewrite A. cbn [N.eqb negb].
  destruct (w_real s) eqn:R; cbn [negb].
  - destruct HS as [HS|[HS _]]; [|discriminate]. subst sz.
    destruct (N.eqb_spec (round8 (lenN b) mod 8) 0); cbn [negb]; [|lia].
    destruct (N.ltb_spec (round8 (lenN b)) (lenN b)); [lia|].
    rewrite pad_put, put_put; auto; [|lia].
    apply fits_put. intros _. specialize (F R). lia.
  - f_equal. unfold put. rewrite R. cbn [w_pos w_left w_out]. rewrite lenN_padded.
    destruct (N.ltb_spec 0 ((w_pos s + lenN b) mod 8)).
    + f_equal. revert R8 A H0. generalize (round8 (lenN b)). intros. lia.
    + f_equal. revert R8 A H0. generalize (round8 (lenN b)). intros. lia.
Qed.

(* ---- the bytes written ---- *)
Definition str_bytes (str : bytes) : bytes := padded (le 4 (str_storesize str / 8) ++ str ++ [0]).

Lemma lenN_str_bytes str : lenN (str_bytes str) = str_storesize str.
Proof. unfold str_bytes. rewrite lenN_padded, !lenN_app, lenN_le, lenN_cons, lenN_nil. unfold str_storesize. f_equal. Qed.

Lemma str_storesize_8 str : str_storesize str mod 8 = 0 /\ 8 <= str_storesize str.
Proof. unfold str_storesize. pose proof (round8_ok (4 + (lenN str + 1))). lia. Qed.

Lemma write_str_put s str : aligned s -> fits s (str_storesize str) -> str_storesize str < 2^32 ->
  write_str s str = (put s (str_bytes str), true).
Proof.
  intros A F B. unfold write_str.
  assert (M : (maxstoresize s <? str_storesize str) = false).
  { apply N.ltb_ge. unfold maxstoresize. destruct (w_real s) eqn:R; [apply F; auto|lia]. }
  rewrite M. assert (L : lenN (le 4 (str_storesize str / 8) ++ str ++ [0]) = 4 + (lenN str + 1)).
  { rewrite !lenN_app, lenN_le, lenN_cons, lenN_nil. lia. }
  assert (C : concat [le 4 (str_storesize str / 8); str ++ [0]] = le 4 (str_storesize str / 8) ++ str ++ [0]).
  { cbn [concat]. rewrite app_nil_r. auto. }
  pose proof (round8_ok (4 + (lenN str + 1))) as R8.
  rewrite wwrites_put; rewrite C.
  - apply verify_put; auto.
    + cbn [le app]. discriminate.
    + rewrite L. exact F.
    + left. rewrite L. reflexivity.
  - rewrite L. intros R. specialize (F R). unfold str_storesize in F. lia.
Qed.

Definition fbody (sz : N) (v : value) : bytes := le 4 (sz / 8) ++ le 4 (kind v) ++ concat (chunks v).
Definition flen (v : value) : N := round8 (8 + lenN (concat (chunks v))).
Definition field_bytes (v : value) : bytes := padded (fbody (flen v) v).

Lemma lenN_fbody sz v : lenN (fbody sz v) = 8 + lenN (concat (chunks v)).
Proof. unfold fbody. rewrite !lenN_app, !lenN_le. lia. Qed.

Lemma lenN_field_bytes v : lenN (field_bytes v) = flen v.
Proof. unfold field_bytes. rewrite lenN_padded, lenN_fbody. reflexivity. Qed.

Lemma flen_8 v : flen v mod 8 = 0 /\ 8 <= flen v.
Proof. unfold flen. pose proof (round8_ok (8 + lenN (concat (chunks v)))). lia. Qed.

Lemma field_body_put s sz v : aligned s -> fits s (flen v) -> (sz = flen v \/ (w_real s = false /\ sz = 0)) ->
  field_body s sz v = (put s (padded (fbody sz v)), true).
Proof.
  intros A F HS. unfold field_body.
  assert (C : concat (le 4 (sz / 8) :: le 4 (kind v) :: chunks v) = fbody sz v) by reflexivity.
  pose proof (lenN_fbody sz v) as L. pose proof (round8_ok (8 + lenN (concat (chunks v)))) as R8.
  rewrite wwrites_put; rewrite C.
  - apply verify_put; auto.
    + unfold fbody. cbn [le app]. discriminate.
    + rewrite L. exact F.
    + rewrite L. exact HS.
  - rewrite L. intros R. specialize (F R). unfold flen in F. lia.
Qed.

Lemma field_size_eq v : field_size v = flen v.
Proof.
  unfold field_size. rewrite field_body_put; cbn [fst].
  - rewrite put_pos, lenN_padded, lenN_fbody. reflexivity.
  - reflexivity.
  - intros R. discriminate R.
  - right. auto.
Qed.

Definition same_put (s : ws) (b b' : bytes) : Prop := w_real s = false -> lenN b = lenN b'.

Lemma put_size s b b' : w_real s = false -> lenN b = lenN b' -> put s b = put s b'.
Proof. intros R L. unfold put. rewrite R, L. reflexivity. Qed.

Lemma field_out_put s v : aligned s -> fits s (flen v) -> field_out s v = (put s (field_bytes v), true).
Proof.
  intros A F. unfold field_out. rewrite field_size_eq. destruct (w_real s) eqn:R.
  - apply field_body_put; auto.
  - rewrite field_body_put; auto. f_equal. apply put_size; [exact R|].
    unfold field_bytes. rewrite !lenN_padded, !lenN_fbody. reflexivity.
Qed.

Definition entry_bytes (e : bytes * value) : bytes := str_bytes (fst e) ++ field_bytes (snd e).
Definition names_ok (m : fmap value) : Prop := Forall (fun e => str_storesize (fst e) < 2^32) m.

Lemma aligned_put s b : aligned s -> lenN b mod 8 = 0 -> aligned (put s b).
Proof. unfold aligned. rewrite put_pos. lia. Qed.

Lemma lenN_entry e : lenN (entry_bytes e) mod 8 = 0 /\ 16 <= lenN (entry_bytes e).
Proof.
  unfold entry_bytes. rewrite lenN_app, lenN_str_bytes, lenN_field_bytes.
  pose proof (str_storesize_8 (fst e)). pose proof (flen_8 (snd e)). lia.
Qed.

Lemma entry_out_put s e : aligned s -> fits s (lenN (entry_bytes e)) -> str_storesize (fst e) < 2^32 ->
  entry_out s e = put s (entry_bytes e).
Proof.
  intros A F B. unfold entry_out. unfold entry_bytes in *. rewrite lenN_app, lenN_str_bytes, lenN_field_bytes in F.
  pose proof (str_storesize_8 (fst e)). pose proof (flen_8 (snd e)).
  rewrite write_str_put; auto; [|intros R; specialize (F R); lia]. cbn [fst].
  rewrite field_out_put.
  - cbn [fst]. apply put_put.
  - apply aligned_put; auto. rewrite lenN_str_bytes. lia.
  - apply fits_put. rewrite lenN_str_bytes. intros R; specialize (F R); lia.
Qed.

Definition entries_bytes (m : fmap value) : bytes := concat (map entry_bytes m).

Lemma lenN_entries m : lenN (entries_bytes m) mod 8 = 0.
Proof.
  induction m as [|e m IH]; [reflexivity|]. unfold entries_bytes in *. cbn [map concat]. rewrite lenN_app.
  pose proof (lenN_entry e). lia.
Qed.

Lemma entries_out_put m : forall s, aligned s -> fits s (lenN (entries_bytes m)) -> names_ok m ->
  fold_left entry_out m s = put s (entries_bytes m).
Proof.
  induction m as [|e m IH]; intros s A F NK; cbn [fold_left].
  - symmetry. apply put_nil.
  - unfold entries_bytes in *. cbn [map concat] in *. rewrite lenN_app in F. inversion NK; subst.
    rewrite entry_out_put; auto; [|intros R; specialize (F R); lia].
    rewrite IH, put_put; auto.
    + apply aligned_put; auto. apply lenN_entry.
    + apply fits_put. intros R; specialize (F R); lia.
Qed.

Definition selected (prefix : bytes) (m : fmap value) : fmap value := filter (fun e => match_prefix (fst e) prefix) m.
Definition mlen (prefix : bytes) (m : fmap value) : N := 8 + lenN (entries_bytes (selected prefix m)).
Definition mbody (sz : N) (prefix : bytes) (m : fmap value) : bytes :=
  le 4 (sz / 8) ++ le 4 (lenN (selected prefix m)) ++ entries_bytes (selected prefix m).
Definition map_bytes (prefix : bytes) (m : fmap value) : bytes := mbody (mlen prefix m) prefix m.

Lemma lenN_mbody sz prefix m : lenN (mbody sz prefix m) = mlen prefix m.
Proof. unfold mbody, mlen. rewrite !lenN_app, !lenN_le. lia. Qed.

Lemma mlen_8 prefix m : mlen prefix m mod 8 = 0 /\ 8 <= mlen prefix m.
Proof. unfold mlen. pose proof (lenN_entries (selected prefix m)). lia. Qed.

Lemma map_body_put s sz prefix m : aligned s -> fits s (mlen prefix m) -> names_ok (selected prefix m) ->
  (sz = mlen prefix m \/ (w_real s = false /\ sz = 0)) ->
  map_body s sz prefix m = (put s (mbody sz prefix m), true).
Proof.
  intros A F NK HS. unfold map_body. fold (selected prefix m).
  pose proof (lenN_entries (selected prefix m)) as LE. pose proof (lenN_mbody sz prefix m) as L.
  pose proof (mlen_8 prefix m) as M8.
  assert (L8 : lenN (concat [le 4 (sz / 8); le 4 (lenN (selected prefix m))]) = 8).
  { cbn [concat]. rewrite app_nil_r, lenN_app, !lenN_le. reflexivity. }
  rewrite wwrites_put; [rewrite entries_out_put|].
  - rewrite put_put.
    assert (E : concat [le 4 (sz / 8); le 4 (lenN (selected prefix m))] ++ entries_bytes (selected prefix m) = mbody sz prefix m).
    { cbn [concat]. rewrite app_nil_r, <- app_assoc. reflexivity. }
    rewrite E. rewrite verify_put; auto.
    + f_equal. f_equal. apply padded_mult. lia.
    + unfold mbody. cbn [le app]. discriminate.
    + rewrite L, round8_mult by lia. auto.
    + rewrite L, round8_mult by lia. auto.
  - apply aligned_put; auto.
  - apply fits_put. rewrite L8. intros R; specialize (F R). unfold mlen in F. lia.
  - auto.
  - rewrite L8. intros R; specialize (F R). lia.
Qed.

Lemma map_size_eq prefix m : names_ok (selected prefix m) -> map_size prefix m = mlen prefix m.
Proof.
  intros NK. unfold map_size. rewrite map_body_put; cbn [fst]; auto.
  - rewrite put_pos, lenN_mbody. reflexivity.
  - reflexivity.
  - intros R. discriminate R.
Qed.

Lemma map_out_put s prefix m : aligned s -> fits s (mlen prefix m) -> names_ok (selected prefix m) ->
  map_out s prefix m = (put s (map_bytes prefix m), true).
Proof.
  intros A F NK. unfold map_out. rewrite map_size_eq by auto. destruct (w_real s) eqn:R.
  - apply map_body_put; auto.
  - rewrite map_body_put; auto. f_equal. apply put_size; [exact R|].
    unfold map_bytes. rewrite !lenN_mbody. reflexivity.
Qed.

Definition rlen (r : record) : N := 8 + str_storesize (fst r) + mlen [] (snd r).
Definition rbody (sz : N) (r : record) : bytes := le 8 sz ++ str_bytes (fst r) ++ map_bytes [] (snd r).
Definition record_bytes (r : record) : bytes := rbody (rlen r) r.

Definition record_ok (r : record) : Prop := str_storesize (fst r) < 2^32 /\ names_ok (selected [] (snd r)).

Lemma lenN_map_bytes prefix m : lenN (map_bytes prefix m) = mlen prefix m.
Proof. unfold map_bytes. apply lenN_mbody. Qed.

Lemma lenN_rbody sz r : lenN (rbody sz r) = rlen r.
Proof. unfold rbody, rlen. rewrite !lenN_app, lenN_le, lenN_str_bytes, lenN_map_bytes. lia. Qed.

Lemma rlen_8 r : rlen r mod 8 = 0 /\ 24 <= rlen r.
Proof. unfold rlen. pose proof (str_storesize_8 (fst r)). pose proof (mlen_8 [] (snd r)). lia. Qed.

Lemma record_body_put s sz r : aligned s -> fits s (rlen r) -> record_ok r ->
  (sz = rlen r \/ (w_real s = false /\ sz = 0)) ->
  record_body s sz r = (put s (rbody sz r), true).
Proof.
  intros A F (B1 & B2) HS. unfold record_body.
  pose proof (str_storesize_8 (fst r)) as S8. pose proof (mlen_8 [] (snd r)) as M8. pose proof (rlen_8 r) as R8.
  assert (L8 : lenN (concat [le 8 sz]) = 8). { cbn [concat]. rewrite app_nil_r, lenN_le. reflexivity. }
  unfold rlen in F.
  rewrite wwrites_put by (rewrite L8; intros R; specialize (F R); lia).
  rewrite write_str_put; auto.
  2:{ apply aligned_put; [exact A|reflexivity]. }
  2:{ apply fits_put. rewrite L8. intros R; specialize (F R). lia. }
  cbn [fst]. rewrite put_put. rewrite map_out_put; auto.
  2:{ apply aligned_put; auto. rewrite lenN_app, L8, lenN_str_bytes. lia. }
  2:{ apply fits_put. rewrite lenN_app, L8, lenN_str_bytes. intros R; specialize (F R). lia. }
  cbn [fst]. rewrite put_put.
  assert (E : (concat [le 8 sz] ++ str_bytes (fst r)) ++ map_bytes [] (snd r) = rbody sz r).
  { cbn [concat]. rewrite app_nil_r, <- app_assoc. reflexivity. }
  rewrite E. pose proof (lenN_rbody sz r) as L.
  rewrite verify_put; auto.
  - f_equal. f_equal. apply padded_mult. rewrite L. apply R8.
  - unfold rbody. cbn [le app]. discriminate.
  - rewrite L, round8_mult by apply R8. exact F.
  - rewrite L, round8_mult by apply R8. exact HS.
Qed.

Lemma record_size_eq r : record_ok r -> record_size r = rlen r.
Proof.
  intros B. unfold record_size. rewrite record_body_put; cbn [fst]; auto.
  - rewrite put_pos, lenN_rbody. reflexivity.
  - reflexivity.
  - intros R. discriminate R.
Qed.

Lemma record_out_put s r : aligned s -> fits s (rlen r) -> record_ok r ->
  record_out s r = (put s (record_bytes r), true).
Proof.
  intros A F B. unfold record_out. rewrite record_size_eq by auto. destruct (w_real s) eqn:R.
  - apply record_body_put; auto.
  - rewrite record_body_put; auto. f_equal. apply put_size; [exact R|].
    unfold record_bytes. rewrite !lenN_rbody. reflexivity.
Qed.

Lemma save_record_eq r : record_ok r -> rlen r < 2^32 -> save_record r = Some (record_bytes r).
Proof.
  intros B L. unfold save_record. rewrite record_size_eq, N.mod_small by auto.
  rewrite record_out_put; auto.
  - reflexivity.
  - intros _. cbn. lia.
Qed.
