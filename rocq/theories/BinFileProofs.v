(* Proofs about the binary file: reading of complete and of cut files, writing
   with enough and with limited disk space, splitting into several files. *)
From Verif Require Import Common ListFacts Bytes BinFileSpec BinFileModel.
Open Scope N_scope.

Lemma takeN_app_ge {A} (a b : list A) n : lenN a <= n -> takeN n (a ++ b) = a ++ takeN (n - lenN a) b.
Proof.
  intros H. unfold takeN, lenN in *. rewrite firstn_app. rewrite firstn_all2 by lia.
  do 2 f_equal. lia.
Qed.
Lemma takeN_app_le {A} (a b : list A) n : n <= lenN a -> takeN n (a ++ b) = takeN n a.
Proof.
  intros H. unfold takeN, lenN in *. rewrite firstn_app.
  replace (N.to_nat n - length a)%nat with 0%nat by lia. apply app_nil_r.
Qed.
Lemma takeN_dropN {A} (a : list A) n : takeN n a ++ dropN n a = a.
Proof. unfold takeN, dropN. apply firstn_skipn. Qed.
Lemma takeN_0 {A} (a : list A) : takeN 0 a = [].
Proof. reflexivity. Qed.

Lemma lenN_encode_buf b : lenN (encode_buf b) = 16 + lenN (snd b).
Proof. unfold encode_buf. rewrite !lenN_app, !lenN_le. lia. Qed.

Lemma fread_ok s a r n : b_rest s = a ++ r -> n = lenN a ->
  fread s n = (mkB (b_mode s) r (b_eof s) (b_disk s) (b_room s) (b_len s) (b_typ s), Some a).
Proof.
  intros H ->. unfold fread. rewrite H. rewrite lenN_app.
  destruct (N.leb_spec (lenN a) (lenN a + lenN r)); [|lia].
  rewrite takeN_app, dropN_app by auto. reflexivity.
Qed.
Lemma fread_short s n : lenN (b_rest s) < n ->
  fread s n = (mkB (b_mode s) [] true (b_disk s) (b_room s) (b_len s) (b_typ s), None).
Proof. intros H. unfold fread. destruct (N.leb_spec n (lenN (b_rest s))); [lia|]. reflexivity. Qed.

Lemma read_hdr_ok s x y r : b_mode s = Reading -> b_len s = 0 -> x < 2^64 -> y < 2^64 ->
  b_rest s = le 8 x ++ le 8 y ++ r ->
  read_hdr s = (mkB Reading r (b_eof s) (b_disk s) (b_room s) x y, Some (x, y)).
Proof.
  intros M L X Y R. unfold read_hdr. rewrite M, L. cbn [N.eqb negb].
  rewrite (fread_ok s (le 8 x ++ le 8 y) r).
  - cbv zeta. rewrite takeN_app, dropN_app by (rewrite lenN_le; reflexivity).
    rewrite !unle_le8 by auto. rewrite M. reflexivity.
  - rewrite R, <- app_assoc. reflexivity.
  - rewrite lenN_app, !lenN_le. reflexivity.
Qed.

Lemma as_size n : n <= 0xFFFFFFF0 -> as_code (n mod 2^32) = DiSize n.
Proof.
  intros H. rewrite N.mod_small by lia. unfold as_code.
  destruct (N.leb_spec n 0xFFFFFFF0); [reflexivity|lia].
Qed.

(* reading of the first [n] bytes of some buffers *)
Lemma input_cut l : Forall storable l -> forall n fuel s,
  b_mode s = Reading -> b_eof s = false -> b_len s = 0 ->
  b_rest s = takeN n (encode_bufs l) -> (length (b_rest s) < fuel)%nat ->
  input_loop fuel s = Ok (complete n l, di_Error).
Proof.
  induction 1 as [|b l (Hs & Ht) Hl IH]; intros n fuel s M E L R F.
  - destruct fuel as [|fuel]; [lia|]. cbn [input_loop]. unfold read_size. rewrite M, E.
    unfold read_hdr. rewrite M, L. cbn [N.eqb negb].
    rewrite fread_short. { reflexivity. }
    rewrite R. unfold encode_bufs. cbn [map concat]. rewrite lenN_takeN, lenN_nil. lia.
  - destruct fuel as [|fuel]; [lia|]. cbn [input_loop complete].
    unfold encode_bufs in R. cbn [map concat] in R. fold (encode_bufs l) in R.
    unfold read_size. rewrite M, E.
    destruct (N.ltb_spec n 16) as [C|C].
    + unfold read_hdr. rewrite M, L. cbn [N.eqb negb].
      rewrite fread_short. 2:{ rewrite R, lenN_takeN. lia. }
      destruct (N.leb_spec (16 + lenN (snd b)) n); [lia|]. reflexivity.
    + assert (R1 : b_rest s = le 8 (lenN (snd b)) ++ le 8 (fst b) ++ takeN (n - 16) (snd b ++ encode_bufs l)).
      { rewrite R. unfold encode_buf. rewrite <- !app_assoc.
        rewrite takeN_app_ge by (rewrite lenN_le; lia). f_equal.
        rewrite takeN_app_ge by (rewrite !lenN_le; lia). f_equal.
        f_equal. rewrite !lenN_le. lia. }
      assert (H64 : lenN (snd b) < 2^64) by lia.
      rewrite (read_hdr_ok s _ _ _ M L H64 Ht R1).
      rewrite as_size by lia. unfold read_complete. cbn [b_mode].
      rewrite N.ltb_irrefl. unfold read_pay. cbn [b_mode].
      destruct (N.eqb_spec (lenN (snd b)) 0); [lia|].
      cbn [b_len set_hdr b_typ b_mode b_rest b_eof b_disk b_room]. rewrite N.ltb_irrefl.
      destruct (N.leb_spec (16 + lenN (snd b)) n) as [D|D].
      * rewrite (fread_ok _ (snd b) (takeN (n - 16 - lenN (snd b)) (encode_bufs l))).
        2:{ cbn [b_rest]. apply takeN_app_ge. lia. }
        2:{ reflexivity. }
        cbn [b_mode b_eof b_disk b_room b_len b_typ set_hdr].
        rewrite (IH (n - 16 - lenN (snd b))); cbn [b_mode b_eof b_disk b_room b_len b_typ b_rest]; auto.
        -- cbn [bind fst snd]. destruct b. cbn [fst snd]. rewrite N.sub_add_distr. reflexivity.
        -- lia.
        -- rewrite R1 in F. rewrite !app_length, !le_length in F.
           rewrite takeN_app_ge, app_length in F by lia. lia.
      * rewrite fread_short. { reflexivity. }
        cbn [b_rest set_hdr]. rewrite lenN_takeN. lia.
Qed.

Lemma open_full d r : d = le 8 1237 ++ le 8 2 ++ r ->
  open_reading d = (mkB Reading r false [] 0 0 0, true).
Proof.
  intros ->. unfold open_reading.
  rewrite (fread_ok _ (le 8 1237 ++ le 8 2) r). 2:{ cbn [b_rest]. rewrite <- app_assoc. reflexivity. }
  2:{ reflexivity. }
  reflexivity.
Qed.

Lemma input_file_cut l n : Forall storable l ->
  input_file (takeN n (encode_file l)) = Ok (complete (n - 16) l, di_Error).
Proof.
  intros H. unfold input_file. destruct (N.ltb_spec n 16) as [C|C].
  - unfold open_reading. rewrite fread_short.
    2:{ cbn [b_rest]. rewrite lenN_takeN. lia. }
    replace (n - 16) with 0 by lia. destruct l as [|b l]; [reflexivity|]. cbn [complete].
    destruct (N.leb_spec (16 + lenN (snd b)) 0); [lia|reflexivity].
  - unfold encode_file. rewrite (app_assoc (le 8 1237)). rewrite takeN_app_ge by (cbn; lia).
    rewrite <- app_assoc. rewrite (open_full _ _ eq_refl). apply input_cut; auto.
    cbn [b_rest]. rewrite !app_length, !le_length. cbn [lenN]. lia.
Qed.

Lemma complete_all l n : lenN (encode_bufs l) <= n -> complete n l = l.
Proof.
  revert n. induction l as [|b l IH]; intros n H; [reflexivity|]. cbn [complete].
  unfold encode_bufs in H. cbn [map concat] in H. rewrite lenN_app, lenN_encode_buf in H. fold (encode_bufs l) in H.
  destruct (N.leb_spec (16 + lenN (snd b)) n); [|lia]. f_equal. apply IH. lia.
Qed.

Lemma input_file_full l : Forall storable l -> input_file (encode_file l) = Ok (l, di_Error).
Proof.
  intros H. rewrite <- (takeN_all (encode_file l) (lenN (encode_file l))) by lia.
  rewrite input_file_cut by auto. do 2 f_equal. apply complete_all.
  unfold encode_file. rewrite !lenN_app, !lenN_le. lia.
Qed.

(* the same with ReadBuffer *)
Lemma buffers_all l : forall maxsz, Forall storable l -> Forall (fun b : fbuf => lenN (snd b) <= maxsz) l ->
  forall fuel s, b_mode s = Reading -> b_len s = 0 -> b_rest s = encode_bufs l -> (length (b_rest s) < fuel)%nat ->
  buffer_loop fuel maxsz s = Ok l.
Proof.
  intros maxsz H. induction H as [|b l (Hs & Ht) Hl IH]; intros Hm fuel s M L R F.
  - destruct fuel as [|fuel]; [lia|]. cbn [buffer_loop]. unfold read_buffer.
    destruct (maxsz =? 0); [reflexivity|].
    unfold read_hdr. rewrite M, L. cbn [N.eqb negb]. rewrite fread_short. { reflexivity. }
    rewrite R. unfold lenN. cbn. lia.
  - destruct fuel as [|fuel]; [lia|]. cbn [buffer_loop].
    inversion Hm as [|? ? Hb Hr]; subst.
    unfold read_buffer. unfold fbuf, bytes in *. destruct (N.eqb_spec maxsz 0); [lia|].
    assert (R1 : b_rest s = le 8 (lenN (snd b)) ++ le 8 (fst b) ++ snd b ++ encode_bufs l).
    { rewrite R. unfold encode_bufs. cbn [map concat]. unfold encode_buf at 1. rewrite <- !app_assoc. reflexivity. }
    rewrite (read_hdr_ok s (lenN (snd b)) (fst b) (snd b ++ encode_bufs l)); auto; [|lia].
    destruct (N.ltb_spec maxsz (lenN (snd b))); [lia|].
    unfold read_pay. cbn [b_mode].
    destruct (N.eqb_spec (lenN (snd b)) 0); [lia|].
    cbn [b_len set_hdr b_typ b_mode b_rest b_eof b_disk b_room]. rewrite N.ltb_irrefl.
    rewrite (fread_ok _ (snd b) (encode_bufs l)); try reflexivity.
    cbn [set_hdr b_rest b_mode b_eof b_disk b_room b_len b_typ].
    rewrite IH; cbn [b_mode b_len b_rest]; auto.
    + cbn [bind]. destruct b. reflexivity.
    + cbn [b_len set_hdr]; lia.
    + rewrite R1, !app_length, !le_length in F. lia.
Qed.

Lemma buffers_of_file_full l maxsz : Forall storable l -> Forall (fun b : fbuf => lenN (snd b) <= maxsz) l ->
  buffers_of_file maxsz (encode_file l) = Ok l.
Proof.
  intros H Hm. unfold buffers_of_file. rewrite (open_full (encode_file l) (encode_bufs l) eq_refl).
  apply buffers_all; auto. cbn [b_rest]. unfold encode_file. rewrite !app_length, !le_length. lia.
Qed.

(* ---- any content ---- *)

Lemma le8_unle h : Forall isbyte h -> length h = 8%nat -> le 8 (unle h) = h.
Proof. intros H L. rewrite <- L. apply le_unle. exact H. Qed.

Lemma Forall_takeN {A} (P : A -> Prop) n l : Forall P l -> Forall P (takeN n l).
Proof. intros H. rewrite <- (takeN_dropN l n) in H. apply Forall_app in H. apply H. Qed.
Lemma Forall_dropN {A} (P : A -> Prop) n l : Forall P l -> Forall P (dropN n l).
Proof. intros H. rewrite <- (takeN_dropN l n) in H. apply Forall_app in H. apply H. Qed.

Lemma input_sound fuel : forall s, b_mode s = Reading -> b_len s = 0 -> Forall isbyte (b_rest s) ->
  (length (b_rest s) < fuel)%nat ->
  exists l c rest, input_loop fuel s = Ok (l, c) /\ b_rest s = encode_bufs l ++ rest.
Proof.
  induction fuel as [|fuel IH]; intros s M L B F; [lia|]. cbn [input_loop].
  unfold read_size. rewrite M. destruct (b_eof s).
  { exists [], di_EndOfStream, (b_rest s). split; reflexivity. }
  unfold read_hdr. rewrite M, L. cbn [N.eqb negb]. unfold fread at 1.
  destruct (N.leb_spec 16 (lenN (b_rest s))) as [C|C]; cbn [b_mode b_rest b_eof b_disk b_room b_len b_typ].
  2:{ exists [], di_Error, (b_rest s). split; reflexivity. }
  set (h := takeN 16 (b_rest s)). set (r := dropN 16 (b_rest s)).
  assert (Hh : le 8 (unle (takeN 8 h)) ++ le 8 (unle (dropN 8 h)) = h).
  { rewrite !le8_unle; [apply takeN_dropN| | | |]; try (apply Forall_takeN || apply Forall_dropN); try (apply Forall_takeN; exact B).
    - unfold dropN, h, takeN. rewrite skipn_length, firstn_length. unfold lenN in C. lia.
    - unfold h, takeN. rewrite !firstn_length. unfold lenN in C. lia. }
  assert (Hr : b_rest s = h ++ r) by (symmetry; apply takeN_dropN).
  assert (Br : Forall isbyte r) by (apply Forall_dropN; exact B).
  cbv zeta. set (sz := unle (takeN 8 h)) in *. set (ty := unle (dropN 8 h)) in *.
  destruct (as_code (sz mod 2^32)) as [n|c] eqn:A.
  2:{ exists [], c, (b_rest s). split; reflexivity. }
  assert (Hn : n = sz mod 2^32). { unfold as_code in A. destruct (_ <=? _) in A; congruence. }
  unfold read_complete. cbn [b_mode set_hdr]. rewrite M.
  destruct (N.ltb_spec n sz) as [D|D]. { exists [], di_Error, (b_rest s). split; reflexivity. }
  unfold read_pay. cbn [b_mode set_hdr].
  destruct (N.eqb_spec sz 0) as [Z|Z]. { exists [], di_Error, (b_rest s). split; reflexivity. }
  cbn [b_len set_hdr b_typ b_mode b_rest b_eof b_disk b_room]. rewrite N.ltb_irrefl.
  unfold fread. cbn [set_hdr b_rest b_mode b_eof b_disk b_room b_len b_typ].
  destruct (N.leb_spec sz (lenN r)) as [G|G]. 2:{ exists [], di_Error, (b_rest s). split; reflexivity. }
  match goal with |- context [input_loop fuel ?s2] => destruct (IH s2) as (l & c & rest & E & R2) end;
    cbn [b_mode b_len b_rest]; auto.
  - lia.
  - apply Forall_dropN. exact Br.
  - rewrite Hr, app_length in F. unfold dropN. rewrite skipn_length. unfold lenN in G. lia.
  - cbn [b_rest] in R2. rewrite E. cbn [bind fst snd].
    exists ((ty, takeN sz r) :: l), c, rest. split; [reflexivity|].
    unfold encode_bufs. cbn [map concat]. fold (encode_bufs l). unfold encode_buf. cbn [fst snd].
    rewrite lenN_takeN, N.min_l by lia. rewrite <- !app_assoc, <- R2.
    rewrite takeN_dropN, Hr, <- Hh at 1. rewrite <- app_assoc. reflexivity.
Qed.

Lemma input_file_sound d : Forall isbyte d ->
  exists l c, input_file d = Ok (l, c) /\
    (l <> [] -> exists version rest, lenN version = 8 /\ d = le 8 1237 ++ version ++ encode_bufs l ++ rest).
Proof.
  intros B. unfold input_file, open_reading, fread. cbn [b_rest].
  destruct (N.leb_spec 16 (lenN d)) as [C|C]; cbn [b_mode b_rest b_eof b_disk b_room b_len b_typ].
  2:{ exists [], di_Error. split; [reflexivity|]. intros X. destruct (X eq_refl). }
  unfold magic. destruct (N.eqb_spec (unle (takeN 8 (takeN 16 d))) 1237) as [E|E].
  2:{ exists [], di_Error. split; [reflexivity|]. intros X. destruct (X eq_refl). }
  match goal with |- context [input_loop ?k ?s2] => destruct (input_sound k s2) as (l & c & rest & I & R2) end;
    cbn [b_mode b_len b_rest set_hdr]; auto.
  - apply Forall_dropN. exact B.
  - unfold dropN. rewrite skipn_length. lia.
  - exists l, c. split; [exact I|]. intros _. exists (dropN 8 (takeN 16 d)), rest.
    cbn [b_rest set_hdr] in R2. split. { rewrite lenN_dropN, lenN_takeN. lia. }
    rewrite <- R2, <- E. rewrite le8_unle.
    + rewrite app_assoc, takeN_dropN, takeN_dropN. reflexivity.
    + do 2 apply Forall_takeN. exact B.
    + unfold takeN. rewrite !firstn_length. unfold lenN in C. lia.
Qed.

(* ---- writing ---- *)

Lemma fwrite_ok s d : lenN d <= b_room s ->
  fwrite s d = (mkB (b_mode s) (b_rest s) (b_eof s) (b_disk s ++ d) (b_room s - lenN d) (b_len s) (b_typ s), true).
Proof. intros H. unfold fwrite. destruct (N.leb_spec (lenN d) (b_room s)); [reflexivity|lia]. Qed.
Lemma fwrite_full s d : b_room s < lenN d ->
  fwrite s d = (mkB (b_mode s) (b_rest s) (b_eof s) (b_disk s ++ takeN (b_room s) d) 0 (b_len s) (b_typ s), false).
Proof. intros H. unfold fwrite. destruct (N.leb_spec (lenN d) (b_room s)); [lia|reflexivity]. Qed.

Lemma write_segs_spec segs : Forall (fun d => d <> []) segs -> forall s,
  b_mode s = Writing -> lenN (concat segs) <= b_len s ->
  (lenN (concat segs) <= b_room s ->
   write_segs s segs = (mkB Writing (b_rest s) (b_eof s) (b_disk s ++ concat segs) (b_room s - lenN (concat segs))
                            (b_len s - lenN (concat segs)) (b_typ s), true)) /\
  (b_room s < lenN (concat segs) ->
   exists s', write_segs s segs = (s', false) /\ b_mode s' = Closed /\ b_disk s' = b_disk s ++ takeN (b_room s) (concat segs)).
Proof.
  induction 1 as [|d r Hd Hr IH]; intros s M L.
  - cbn [concat write_segs]. rewrite lenN_nil. split; [|lia]. intros _.
    rewrite app_nil_r, !N.sub_0_r. destruct s as [m x1 x2 x3 x4 x5 x6]. cbn in M. subst m. reflexivity.
  - cbn [concat write_segs] in *. rewrite lenN_app in *. unfold write_pay. rewrite M.
    assert (Z : 0 < lenN d) by (destruct d; [congruence|rewrite lenN_cons; lia]).
    destruct (N.eqb_spec (lenN d) 0); [lia|]. destruct (N.ltb_spec (b_len s) (lenN d)); [lia|].
    split; intros R.
    + rewrite fwrite_ok by (cbn [b_room set_hdr]; lia). cbn [set_hdr b_mode b_rest b_eof b_disk b_room b_len b_typ]. rewrite M.
      match goal with |- write_segs ?s2 r = _ => destruct (IH s2) as (I & _) end; cbn [b_mode b_len]; auto; [lia|].
      rewrite I by (cbn [b_room]; lia). cbn [b_mode b_rest b_eof b_disk b_room b_len b_typ].
      rewrite <- app_assoc. do 2 f_equal; lia.
    + destruct (N.leb_spec (lenN d) (b_room s)) as [C|C].
      * rewrite fwrite_ok by (cbn [b_room set_hdr]; lia). cbn [set_hdr b_mode b_rest b_eof b_disk b_room b_len b_typ]. rewrite M.
        match goal with |- exists s', write_segs ?s2 r = _ /\ _ => destruct (IH s2) as (_ & I) end; cbn [b_mode b_len]; auto; [lia|].
        destruct I as (s' & E1 & E2 & E3); [cbn [b_room]; lia|]. exists s'. split; [exact E1|]. split; [exact E2|].
        rewrite E3. cbn [b_disk b_room]. rewrite takeN_app_ge by lia. rewrite <- app_assoc. reflexivity.
      * rewrite fwrite_full by (cbn [b_room set_hdr]; lia). eexists. split; [reflexivity|]. split; [reflexivity|].
        cbn [close b_disk set_hdr b_room]. rewrite takeN_app_le by lia. reflexivity.
Qed.

(* the part of Write_Buffer after the choice of the file *)
Definition put_buf (s : bf) (b : obuf) : bf * bool :=
  match write_hdr s (obuf_len b) (fst b) with
  | (s1, false) => (s1, false)
  | (s1, true) => write_segs s1 (snd b)
  end.

Lemma put_buf_spec s b : good b -> b_mode s = Writing -> b_len s = 0 ->
  (16 + obuf_len b <= b_room s ->
   put_buf s b = (mkB Writing (b_rest s) (b_eof s) (b_disk s ++ encode_buf (flat b)) (b_room s - (16 + obuf_len b)) 0 (fst b), true)) /\
  (b_room s < 16 + obuf_len b ->
   exists s', put_buf s b = (s', false) /\ b_mode s' = Closed /\ b_disk s' = b_disk s ++ takeN (b_room s) (encode_buf (flat b))).
Proof.
  intros (Hs & (Z & Y) & Ht) M L. unfold put_buf, write_hdr. rewrite M, L. cbn [N.eqb negb].
  cbn [flat fst snd] in *. unfold obuf_len in *. set (sz := lenN (concat (snd b))) in *.
  destruct (N.eqb_spec sz 0); [lia|].
  assert (Lh : lenN (le 8 sz ++ le 8 (fst b)) = 16) by (rewrite lenN_app, !lenN_le; reflexivity).
  assert (En : encode_buf (flat b) = (le 8 sz ++ le 8 (fst b)) ++ concat (snd b)).
  { unfold encode_buf, flat. cbn [fst snd]. rewrite <- app_assoc. reflexivity. }
  rewrite En. split; intros R.
  - rewrite fwrite_ok by (cbn [b_room set_hdr]; lia).
    match goal with |- write_segs ?s2 _ = _ => destruct (write_segs_spec _ Hs s2) as (I & _) end;
      cbn [b_mode b_len set_hdr b_rest b_eof b_disk b_room b_typ] in *; auto; [unfold sz; lia|].
    fold sz in I. rewrite I by lia. rewrite Lh, <- app_assoc. do 2 f_equal; lia.
  - destruct (N.leb_spec 16 (b_room s)) as [C|C].
    + rewrite fwrite_ok by (cbn [b_room set_hdr]; lia).
      match goal with |- exists s', write_segs ?s2 _ = _ /\ _ => destruct (write_segs_spec _ Hs s2) as (_ & I) end;
        cbn [b_mode b_len set_hdr b_rest b_eof b_disk b_room b_typ] in *; auto; [unfold sz; lia|].
      fold sz in I. destruct I as (s' & E1 & E2 & E3); [lia|]. exists s'. split; [exact E1|]. split; [exact E2|].
      rewrite E3, Lh. rewrite (takeN_app_ge (le 8 sz ++ le 8 (fst b))) by lia. rewrite Lh, <- app_assoc. reflexivity.
    + rewrite fwrite_full by (cbn [b_room set_hdr]; lia). eexists. split; [reflexivity|]. split; [reflexivity|].
      cbn [close b_disk set_hdr b_room]. rewrite (takeN_app_le (le 8 sz ++ le 8 (fst b))) by lia. reflexivity.
Qed.

Lemma output_buffer_put o b : b_mode (o_cur o) = Writing -> next_file o (obuf_len b) = false ->
  output_buffer o b =
  (let (s, ok) := put_buf (o_cur o) b in
   (mkO (o_done o) s (if ok then o_cursize o + obuf_len b else o_cursize o) (o_limit o) (o_num o), ok)).
Proof.
  intros M X. unfold output_buffer, put_buf. rewrite M, X. cbn [negb].
  destruct (write_hdr _ _ _) as [s1 [|]]; [|reflexivity].
  destruct (write_segs s1 (snd b)) as [s2 [|]]; reflexivity.
Qed.

(* one file, limited space: the disk holds the first bytes of the full file, and
   the acknowledged buffers are the complete ones *)
Lemma output_run_room l : Forall good l -> forall o,
  b_mode (o_cur o) = Writing -> b_len (o_cur o) = 0 -> o_limit o = 0 ->
  exists o' k, output_run o l = (o', repeat true k ++ (if (k <? length l)%nat then [false] else [])) /\
    k = length (complete (b_room (o_cur o)) (map flat l)) /\ o_done o' = o_done o /\
    b_disk (o_cur o') = b_disk (o_cur o) ++ takeN (b_room (o_cur o)) (encode_bufs (map flat l)).
Proof.
  induction 1 as [|b l Hb Hl IH]; intros o M L Lim.
  - exists o, 0%nat. cbn [output_run map complete length repeat app Nat.ltb Nat.leb]. split; [reflexivity|].
    split; [reflexivity|]. split; [reflexivity|]. unfold encode_bufs. cbn [map concat]. unfold takeN. rewrite firstn_nil, app_nil_r. reflexivity.
  - cbn [output_run]. rewrite output_buffer_put; auto.
    2:{ unfold next_file. rewrite Lim. reflexivity. }
    destruct (put_buf_spec (o_cur o) b Hb M L) as (P1 & P2).
    cbn [map complete]. change (lenN (snd (flat b))) with (obuf_len b).
    unfold encode_bufs. cbn [map concat]. fold (encode_bufs (map flat l)).
    destruct (N.leb_spec (16 + obuf_len b) (b_room (o_cur o))) as [C|C].
    + rewrite P1 by lia.
      match goal with |- context [output_run ?o1 l] => destruct (IH o1) as (o' & k & E1 & E2 & E3 & E4) end;
        cbn [o_cur b_mode b_len o_limit b_room o_done b_disk] in *; auto.
      rewrite E1. exists o', (S k). cbn [repeat app length]. rewrite <- E2.
      split. { reflexivity. } split; [reflexivity|]. split; [exact E3|].
      rewrite E4, <- app_assoc. rewrite takeN_app_ge by (rewrite lenN_encode_buf; exact C).
      rewrite lenN_encode_buf. reflexivity.
    + destruct P2 as (s' & E1 & E2 & E3); [lia|]. rewrite E1.
      eexists. exists 0%nat. split; [reflexivity|]. split; [reflexivity|]. split; [reflexivity|].
      cbn [o_cur]. rewrite E3. rewrite takeN_app_le by (rewrite lenN_encode_buf; change (lenN (snd (flat b))) with (obuf_len b); lia). reflexivity.
Qed.

Lemma lenN_encode_file l : lenN (encode_file l) = 16 + lenN (encode_bufs l).
Proof. unfold encode_file. rewrite !lenN_app, !lenN_le. lia. Qed.

Lemma output_init_ok room limit : 16 <= room ->
  output_init room limit = (mkO [] (mkB Writing [] false (le 8 1237 ++ le 8 2) (room - 16) 0 0) 0 limit 1, true).
Proof.
  intros H. unfold output_init, start_file, open_writing. cbn [o_cur b_mode b_room o_done app o_limit o_num].
  rewrite fwrite_ok by (cbn [b_room]; rewrite lenN_app, !lenN_le; lia). reflexivity.
Qed.
Lemma output_init_full room limit : room < 16 -> exists s,
  output_init room limit = (mkO [] s 0 limit 1, false) /\ b_disk s = takeN room (le 8 1237 ++ le 8 2) /\ b_mode s = Closed.
Proof.
  intros H. unfold output_init, start_file, open_writing. cbn [o_cur b_mode b_room o_done app o_limit o_num].
  rewrite fwrite_full by (cbn [b_room]; rewrite lenN_app, !lenN_le; lia). eexists. split; [reflexivity|]. split; reflexivity.
Qed.

Lemma disk_full l room : Forall good l ->
  let (o, ok) := output_init room 0 in
  ok = (16 <=? room) /\
  (ok = false -> files_of o = [takeN room (encode_file (map flat l))]) /\
  (ok = true -> exists o' k,
     output_run o l = (o', repeat true k ++ (if (k <? length l)%nat then [false] else [])) /\
     files_of o' = [takeN room (encode_file (map flat l))] /\
     complete (room - 16) (map flat l) = firstn k (map flat l)).
Proof.
  intros H. destruct (N.leb_spec 16 room) as [C|C].
  - rewrite output_init_ok by auto. split; [reflexivity|]. split; [discriminate|]. intros _.
    match goal with |- context [output_run ?o l] => destruct (output_run_room l H o) as (o' & k & E1 & E2 & E3 & E4) end;
      try reflexivity.
    exists o', k. split; [exact E1|]. cbn [o_cur b_room b_disk o_done] in *. split.
    + unfold files_of. rewrite E3, E4. cbn [app]. f_equal. unfold encode_file. rewrite (app_assoc (le 8 1237)).
      rewrite (takeN_app_ge (le 8 1237 ++ le 8 2)) by (rewrite lenN_app, !lenN_le; lia). reflexivity.
    + rewrite E2. clear. generalize (room - 16) as n. induction (map flat l) as [|b r IH]; intros n; [reflexivity|].
      cbn [complete]. destruct (_ <=? n); [|reflexivity]. cbn [length firstn]. f_equal. apply IH.
  - destruct (output_init_full room 0 C) as (s & E & D & _). rewrite E. split; [reflexivity|]. split; [|discriminate].
    intros _. unfold files_of. cbn [o_done o_cur app]. rewrite D. f_equal. unfold encode_file. rewrite (app_assoc (le 8 1237)).
    rewrite (takeN_app_le (le 8 1237 ++ le 8 2)) by (rewrite lenN_app, !lenN_le; lia). reflexivity.
Qed.

(* ---- several files ---- *)

Lemma room_for_16 l : 16 <= room_for l.
Proof. induction l as [|b l IH]; [cbn; lia|]. cbn [room_for fold_right]. fold (room_for l). lia. Qed.

Lemma payload_app a b : payload (a ++ [b]) = payload a + lenN (snd b).
Proof. unfold payload. rewrite map_app, concat_app, lenN_app. cbn [map concat]. rewrite app_nil_r. reflexivity. Qed.
Lemma encode_file_app g b : encode_file (g ++ [b]) = encode_file g ++ encode_buf b.
Proof. unfold encode_file, encode_bufs. rewrite map_app, concat_app. cbn [map concat]. rewrite app_nil_r, <- !app_assoc. reflexivity. Qed.

Lemma split_run l : Forall good l -> forall o g gs,
  b_mode (o_cur o) = Writing -> b_len (o_cur o) = 0 -> room_for l <= 16 + b_room (o_cur o) ->
  b_disk (o_cur o) = encode_file g -> o_done o = map encode_file gs -> o_cursize o = payload g ->
  o_num o = lenN gs + 1 ->
  Forall (fits (o_limit o)) (gs ++ [g]) ->
  exists o' gs', output_run o l = (o', repeat true (length l)) /\
    files_of o' = map encode_file gs' /\ concat gs' = concat gs ++ g ++ map flat l /\
    Forall (fits (o_limit o)) gs' /\ o_num o' = lenN gs'.
Proof.
  induction 1 as [|b l Hb Hl IH]; intros o g gs M L R D Dn Sz Nm Fi.
  - exists o, (gs ++ [g]). cbn [output_run length repeat]. split; [reflexivity|]. unfold files_of.
    rewrite D, Dn, map_app, concat_app. cbn [map concat]. rewrite !app_nil_r. repeat split; auto.
    rewrite lenN_app, lenN_cons, lenN_nil. lia.
  - cbn [room_for fold_right] in R. fold (room_for l) in R. change (lenN (snd (flat b))) with (obuf_len b) in R.
    assert (R16 : 16 <= room_for l). { apply room_for_16. }
    cbn [output_run].
    destruct (next_file o (obuf_len b)) eqn:X.
    + (* new file *)
      assert (O : output_buffer o b =
        (let (s, ok) := put_buf (mkB Writing [] false (le 8 1237 ++ le 8 2) (b_room (o_cur o) - 16) 0 0) b in
         (mkO (o_done o ++ [b_disk (o_cur o)]) s (if ok then obuf_len b else 0) (o_limit o) (o_num o + 1), ok))).
      { unfold output_buffer. rewrite M, X. unfold start_file, open_writing. rewrite M.
        rewrite fwrite_ok by (cbn [b_room]; rewrite lenN_app, !lenN_le; lia).
        cbn [negb]. unfold put_buf. cbn [o_cur o_done o_cursize o_limit o_num set_hdr b_mode b_rest b_eof b_disk b_room app].
        rewrite !lenN_app, !lenN_le. change (N.of_nat 8 + N.of_nat 8) with 16.
        destruct (write_hdr _ _ _) as [s1 [|]]; [|reflexivity].
        destruct (write_segs s1 (snd b)) as [s2 [|]]; reflexivity. }
      rewrite O.
      match goal with |- context [put_buf ?s b] => destruct (put_buf_spec s b Hb eq_refl eq_refl) as (P & _) end.
      cbn [b_room b_rest b_eof b_disk] in P. rewrite P by lia.
      match goal with |- context [output_run ?o1 l] => destruct (IH o1 [flat b] (gs ++ [g])) as (o' & gs' & E1 & E2 & E3 & E4 & E5) end;
        cbn [o_cur b_mode b_len b_room b_disk o_done o_cursize o_limit o_num] in *; auto.
      * lia.
      * change [flat b] with ([] ++ [flat b]). rewrite encode_file_app. reflexivity.
      * rewrite map_app, Dn, D. reflexivity.
      * unfold payload. cbn [map concat flat snd]. rewrite app_nil_r. reflexivity.
      * rewrite lenN_app, lenN_cons, lenN_nil, Nm. lia.
      * apply Forall_app. split; [exact Fi|]. constructor; [|constructor]. right. right. reflexivity.
      * exists o', gs'. rewrite E1. split; [reflexivity|]. split; [exact E2|]. split; [|auto].
        rewrite E3, concat_app. cbn [concat map]. rewrite app_nil_r, <- !app_assoc. reflexivity.
    + rewrite output_buffer_put by auto.
      destruct (put_buf_spec (o_cur o) b Hb M L) as (P & _). rewrite P by lia.
      match goal with |- context [output_run ?o1 l] => destruct (IH o1 (g ++ [flat b]) gs) as (o' & gs' & E1 & E2 & E3 & E4 & E5) end;
        cbn [o_cur b_mode b_len b_room b_disk o_done o_cursize o_limit o_num] in *; auto.
      * lia.
      * rewrite D, encode_file_app. reflexivity.
      * rewrite payload_app, Sz. reflexivity.
      * apply Forall_app in Fi. destruct Fi as (F1 & F2). apply Forall_app. split; [exact F1|].
        constructor; [|constructor]. unfold next_file in X. apply andb_false_iff in X. destruct X as [X|X].
        -- left. apply N.ltb_ge in X. lia.
        -- right. left. apply N.ltb_ge in X. rewrite payload_app, <- Sz. exact X.
      * exists o', gs'. rewrite E1. split; [reflexivity|]. split; [exact E2|]. split; [|auto].
        rewrite E3. cbn [map]. rewrite <- !app_assoc. reflexivity.
Qed.

Lemma split_all l room limit : Forall good l -> room_for l <= room ->
  exists o o' gs, output_init room limit = (o, true) /\ output_run o l = (o', repeat true (length l)) /\
    Forall2 (fun f g => input_file f = Ok (g, di_Error)) (files_of o') gs /\
    files_of o' = map encode_file gs /\
    concat gs = map flat l /\ Forall (fits limit) gs /\ o_num o' = lenN gs.
Proof.
  intros H R. assert (R16 : 16 <= room_for l). { apply room_for_16. }
  rewrite output_init_ok by lia.
  match goal with |- context [(?o, true) = _] => destruct (split_run l H o [] []) as (o' & gs & E1 & E2 & E3 & E4 & E5) end;
    cbn [o_cur b_mode b_len b_room b_disk o_done o_cursize o_limit o_num] in *; auto.
  - lia.
  - constructor; [|constructor]. right. left. unfold payload. cbn. lia.
  - eexists. exists o', gs. split; [reflexivity|]. split; [exact E1|]. split; [|auto].
    rewrite E2. assert (St : Forall storable (concat gs)).
    { rewrite E3. cbn [concat app]. apply Forall_map. eapply Forall_impl; [|exact H]. intros b (_ & Hb). exact Hb. }
    clear - St. induction gs as [|g gs IH]; [constructor|]. cbn [map concat] in *. apply Forall_app in St.
    constructor; [apply input_file_full; apply St|apply IH; apply St].
Qed.

(* one file: no limit *)
Lemma one_file l room : Forall good l -> room_for l <= room ->
  exists o o', output_init room 0 = (o, true) /\ output_run o l = (o', repeat true (length l)) /\
    files_of o' = [encode_file (map flat l)].
Proof.
  intros H R. assert (R16 : 16 <= room_for l) by apply room_for_16.
  rewrite output_init_ok by lia.
  match goal with |- context [(?o, true) = _] => destruct (output_run_room l H o) as (o' & k & E1 & E2 & E3 & E4) end; try reflexivity.
  cbn [o_cur b_room b_disk o_done] in *.
  assert (Len : lenN (encode_bufs (map flat l)) <= room - 16).
  { assert (lenN (encode_bufs (map flat l)) + 16 <= room_for l); [|lia]. clear. induction l as [|b l IH]; [cbn; lia|].
    cbn [room_for fold_right map]. fold (room_for l). unfold encode_bufs. cbn [map concat]. rewrite lenN_app, lenN_encode_buf.
    fold (encode_bufs (map flat l)). change (lenN (snd (flat b))) with (obuf_len b). lia. }
  rewrite complete_all in E2 by auto. rewrite map_length in E2. subst k.
  rewrite Nat.ltb_irrefl, app_nil_r in E1. eexists. exists o'. split; [reflexivity|]. split; [exact E1|].
  unfold files_of. rewrite E3, E4, takeN_all by auto. cbn [app]. unfold encode_file. rewrite <- app_assoc. reflexivity.
Qed.

Lemma good_storable l : Forall good l -> Forall storable (map flat l).
Proof. intros H. apply Forall_map. eapply Forall_impl; [|exact H]. intros b (_ & Hb). exact Hb. Qed.

Lemma file_roundtrip : forall l room, Forall good l -> room_for l <= room ->
  exists o o' f, output_init room 0 = (o, true) /\ output_run o l = (o', repeat true (length l)) /\
    files_of o' = [f] /\
    input_file f = Ok (map flat l, di_Error) /\
    forall maxsz, Forall (fun b => lenN (snd (flat b)) <= maxsz) l -> buffers_of_file maxsz f = Ok (map flat l).
Proof.
  intros l room H R. destruct (one_file l room H R) as (o & o' & E1 & E2 & E3).
  exists o, o', (encode_file (map flat l)). split; [exact E1|]. split; [exact E2|]. split; [exact E3|].
  split. { apply input_file_full. apply good_storable. exact H. }
  intros maxsz Hm. apply buffers_of_file_full; [apply good_storable; exact H|]. apply Forall_map. exact Hm.
Qed.

Lemma eof_is_error :
  exists l f, Forall storable l /\ f = encode_file l /\ input_file f = Ok (l, di_Error) /\ di_Error <> di_EndOfStream.
Proof.
  exists [(1,[10;11;12]);(7,[255])], (encode_file [(1,[10;11;12]);(7,[255])]). split.
  { repeat constructor; try discriminate. }
  split; [reflexivity|]. split; [vm_compute; reflexivity|discriminate].
Qed.

Lemma empty_segment :
  exists b c o o', storable (flat b) /\ good c /\ output_init 1000 0 = (o, true) /\
    output_buffer o b = (o', false) /\ snd (output_buffer o' c) = false /\ files_of o' <> [encode_file []].
Proof.
  exists (1, [[5];[];[6]]), (2, [[7]]). eexists. eexists. split. { repeat constructor; try discriminate. }
  split. { repeat constructor; try discriminate. }
  split; [vm_compute; reflexivity|]. split; [vm_compute; reflexivity|]. split; [vm_compute; reflexivity|].
  vm_compute. discriminate.
Qed.

Lemma cut_file : forall l n, Forall storable l ->
  input_file (takeN n (encode_file l)) = Ok (complete (n - 16) l, di_Error).
Proof. intros. apply input_file_cut. auto. Qed.

Lemma disk_full_read : forall l room, Forall good l -> 16 <= room ->
  exists o o' k f, output_init room 0 = (o, true) /\
    output_run o l = (o', repeat true k ++ (if (k <? length l)%nat then [false] else [])) /\
    files_of o' = [f] /\ f = takeN room (encode_file (map flat l)) /\
    input_file f = Ok (firstn k (map flat l), di_Error).
Proof.
  intros l room H R. generalize (disk_full l room H). destruct (output_init room 0) as [o ok] eqn:E. intros (E1 & _ & E2).
  assert (ok = true) as ->. { rewrite E1. apply N.leb_le. exact R. }
  destruct (E2 eq_refl) as (o' & k & F1 & F2 & F3).
  exists o, o', k, (takeN room (encode_file (map flat l))). split; [reflexivity|]. split; [exact F1|]. split; [exact F2|].
  split; [reflexivity|]. rewrite input_file_cut by (apply good_storable; exact H). rewrite F3. reflexivity.
Qed.

Lemma bytes_of_len n : exists l : bytes, lenN l = n.
Proof. exists (repeat 0 (N.to_nat n)). rewrite lenN_repeat. apply N2Nat.id. Qed.

Lemma limit_exceeded :
  exists l room o o' f, Forall good l /\ output_init room 1 = (o, true) /\
    output_run o l = (o', repeat true (length l)) /\ files_of o' = [f] /\ (1 < length l)%nat /\ 1048576 < lenN f.
Proof.
  destruct (bytes_of_len 524288) as (big & Lb).
  set (b := (1, [big]) : N * list bytes).
  assert (Gb : good b).
  { split. { constructor; [|constructor]. intros X. rewrite X in Lb. discriminate. }
    unfold storable, flat, b. cbn [fst snd concat]. rewrite app_nil_r, Lb. lia. }
  assert (Ob : obuf_len b = 524288). { unfold obuf_len, b. cbn [snd concat]. rewrite app_nil_r. exact Lb. }
  clearbody b. clear big Lb.

  assert (St : forall s cur, b_mode s = Writing -> b_len s = 0 -> 16 + 524288 <= b_room s -> cur <= 524288 ->
    exists s', output_buffer (mkO [] s cur 1 1) b = (mkO [] s' (cur + 524288) 1 1, true) /\ b_mode s' = Writing /\
      b_len s' = 0 /\ b_room s' = b_room s - (16 + 524288) /\ b_disk s' = b_disk s ++ encode_buf (flat b)).
  { intros s cur M L R C. rewrite output_buffer_put; [|exact M|].
    2:{ unfold next_file. cbn [o_limit o_cursize]. rewrite Ob. apply andb_false_iff. right. apply N.ltb_ge. lia. }
    cbn [o_cur]. destruct (put_buf_spec s b Gb M L) as (P & _). rewrite Ob in P. rewrite P by lia.
    eexists. split; [rewrite Ob; reflexivity|]. repeat split. }
  destruct (St (mkB Writing [] false (le 8 1237 ++ le 8 2) (2000000 - 16) 0 0) 0) as (s1 & E1 & M1 & L1 & R1 & D1);
    try reflexivity; [cbn; lia|lia|]. cbn [b_room b_disk] in R1, D1.
  destruct (St s1 (0 + 524288) M1 L1) as (s2 & E2 & M2 & L2 & R2 & D2); [lia|lia|].
  exists [b; b], 2000000. eexists. eexists. exists (b_disk s2).
  split. { constructor; [exact Gb|constructor; [exact Gb|constructor]]. }
  split. { apply output_init_ok. lia. }
  split. { cbn [output_run]. rewrite E1, E2. reflexivity. }
  split; [reflexivity|]. split; [cbn; lia|].
  rewrite D2, D1, !lenN_app, !lenN_le, !lenN_encode_buf. change (lenN (snd (flat b))) with (obuf_len b). rewrite Ob. lia.
Qed.
