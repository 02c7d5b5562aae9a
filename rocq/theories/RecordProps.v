(* Properties C18-C22: record streaming and field-map differences. *)
From Verif Require Import Common ListFacts Bytes RecordSpec RecordModel RecordMap RecordOut RecordIn RecordProofs.
Open Scope N_scope.

(* ------------------------------------------------------------------- C18 -- *)

Lemma flen_content v : proper v -> flen v <= content_len v + 32.
Proof.
  intros P. unfold flen. pose proof (round8_ok (8 + lenN (concat (chunks v)))) as R.
  destruct v; cbn [chunks concat content_len proper] in *; try contradiction;
    rewrite ?app_nil_r, ?lenN_app, ?lenN_le, ?lenN_words, ?lenN_strs, ?lenN_cons, ?lenN_nil in *; unfold bytes in *; lia.
Qed.

Lemma field_roundtrip v : proper v -> is_buffer v = false -> content_len v + 32 < 2^32 ->
  forall pos left written, pos mod 8 = 0 -> content_len v + 32 <= left ->
  exists b, field_out (mkW true pos left written) v = (mkW true (pos + lenN b) (left - lenN b) (written ++ b), true) /\
  forall p rest, p mod 8 = 0 -> field_in (mkR p (b ++ rest)) = Done (mkR (p + lenN b) rest, (v, true)).
Proof.
  intros P NB B pos left written A L. pose proof (flen_content v P) as F.
  exists (field_bytes v). rewrite field_out_put.
  - split; [reflexivity|]. intros p rest A'. rewrite lenN_field_bytes. apply field_in_ok; auto. lia.
  - exact A.
  - intros _. cbn [w_left]. lia.
Qed.

(* A field of any kind but buffer (up to 4 GB of content), written to a memory
   stream with room for it at an 8-byte aligned position, is read back with the
   same kind and value from whatever aligned position and with whatever data
   following, consuming exactly the bytes written.
   Missing for the full property: buffer fields, for which it is false, below. *)
Theorem C18_field_roundtrip_partial v : proper v -> is_buffer v = false -> content_len v + 32 < 2^32 ->
  forall pos left written, pos mod 8 = 0 -> content_len v + 32 <= left ->
  exists b, field_out (mkW true pos left written) v = (mkW true (pos + lenN b) (left - lenN b) (written ++ b), true) /\
  forall p rest, p mod 8 = 0 -> field_in (mkR p (b ++ rest)) = Done (mkR (p + lenN b) rest, (v, true)).
Proof. exact (field_roundtrip v). Qed.
Print Assumptions C18_field_roundtrip_partial.

(* cases meeting the hypotheses: a string array with an empty string inside, a string of 7 characters *)
Example C18_case_arrstr : let v := VArrStr [[65; 66]; []; [67]] in
  proper v /\ content_len v + 32 < 2^32 /\
  w_out (fst (field_out (mem0 100) v)) = [3;0;0;0; 10;0;0;0; 3;0;0;0;0;0;0;0; 65;66;0;0;67;0;0;0] /\
  field_in (mkR 8 (w_out (fst (field_out (mem0 100) v)) ++ [9; 9])) = Done (mkR 32 [9; 9], (v, true)).
Proof.
  repeat split; try (vm_compute; reflexivity).
  repeat (constructor; try (vm_compute; split; reflexivity)).
Qed.
Example C18_case_str : let v := VStr [65; 66; 67; 68; 69; 70; 71] in
  proper v /\ field_in (mkR 0 (w_out (fst (field_out (mem0 100) v)) ++ [1])) = Done (mkR 16 [1], (v, true)).
Proof. split; [|vm_compute; reflexivity]. repeat (constructor; try (vm_compute; split; reflexivity)). Qed.

(* A buffer field which ends the stream: the bytes are never copied out of the
   stream, yet the reader reports success. *)
Theorem C18_buffer_end_refuted : exists v b, proper v /\ is_buffer v = true /\
  field_out (mem0 100) v = (mkW true (lenN b) (100 - lenN b) b, true) /\
  field_in (mkR 0 b) = Done (mkR (lenN b) [], (VJunk 11, true)).
Proof.
  exists (VBuf [1; 2; 3]), [3;0;0;0; 11;0;0;0; 3;0;0;0;0;0;0;0; 1;2;3;0;0;0;0;0]. split; [repeat constructor|]. split; [reflexivity|].
  split; vm_compute; reflexivity.
Qed.
Print Assumptions C18_buffer_end_refuted.

(* A buffer field with data following: eight bytes of the following data are consumed. *)
Theorem C18_buffer_middle_refuted : exists v b, proper v /\ is_buffer v = true /\
  field_out (mem0 100) v = (mkW true (lenN b) (100 - lenN b) b, true) /\
  forall rest, 8 <= lenN rest -> exists s, field_in (mkR 0 (b ++ rest)) = Done (s, (v, false)) /\ r_pos s = lenN b + 8.
Proof.
  exists (VBuf [1; 2; 3]), [3;0;0;0; 11;0;0;0; 3;0;0;0;0;0;0;0; 1;2;3;0;0;0;0;0]. split; [repeat constructor|]. split; [reflexivity|].
  split; [vm_compute; reflexivity|]. intros rest H.
  destruct rest as [|a0 [|a1 [|a2 [|a3 [|a4 [|a5 [|a6 [|a7 rest]]]]]]]]; try (exfalso; revert H; vm_compute; congruence).
  match goal with |- context [mkR 0 ?l] =>
    change l with (le 4 3 ++ (le 4 11 ++ (le 8 3 ++ ([1; 2; 3; 0; 0; 0; 0; 0; a0; a1; a2; a3; a4; a5; a6; a7] ++ rest)))) end.
  unfold field_in. rewrite rnum_app by reflexivity. rewrite rnum_app by reflexivity. cbv zeta.
  change (N.land 11 16777215) with 11. cbn [N.eqb Pos.eqb]. rewrite rnum_app by reflexivity.
  change (mul32 (sub32 3 1) 8) with 16. rewrite rread_app by reflexivity.
  eexists. split; [vm_compute; reflexivity|reflexivity].
Qed.
Print Assumptions C18_buffer_middle_refuted.

(* ------------------------------------------------------------------- C19 -- *)

Definition short_name (k : bytes) : Prop := lenN k + 16 < 2^32.

Lemma short_storesize k : short_name k -> str_storesize k < 2^32.
Proof. unfold short_name, str_storesize. pose proof (round8_ok (4 + (lenN k + 1))). lia. Qed.

Lemma names_ok_of (prefix : bytes) (m : fmap value) :
  (forall k v, In (k, v) m -> short_name k) -> names_ok (selected prefix m).
Proof.
  intros H. apply Forall_forall. intros (k, v) HI. apply filter_In in HI. cbn [fst]. apply short_storesize. eapply H. apply HI.
Qed.

Lemma put_mem0 n b : lenN b <= n -> put (mem0 n) b = mkW true (lenN b) (n - lenN b) b.
Proof. reflexivity. Qed.

Lemma sizes_ok :
  (forall v, field_size v mod 8 = 0 /\ forall n, field_size v <= n ->
     exists b, field_out (mem0 n) v = (mkW true (lenN b) (n - lenN b) b, true) /\ lenN b = field_size v) /\
  (forall prefix m, (forall k v, In (k, v) m -> short_name k) ->
     map_size prefix m mod 8 = 0 /\ forall n, map_size prefix m <= n ->
     exists b, map_out (mem0 n) prefix m = (mkW true (lenN b) (n - lenN b) b, true) /\ lenN b = map_size prefix m) /\
  (forall r, short_name (fst r) -> (forall k v, In (k, v) (snd r) -> short_name k) ->
     record_size r mod 8 = 0 /\ (forall n, record_size r <= n ->
     exists b, record_out (mem0 n) r = (mkW true (lenN b) (n - lenN b) b, true) /\ lenN b = record_size r) /\
     (record_size r < 2^32 -> exists b, save_record r = Some b /\ lenN b = record_size r)).
Proof.
  split; [|split].
  - intros v. rewrite field_size_eq. split; [apply flen_8|]. intros n H. exists (field_bytes v).
    rewrite field_out_put; [|reflexivity|intros _; exact H]. rewrite lenN_field_bytes. split; auto.
    rewrite put_mem0; rewrite lenN_field_bytes; auto.
  - intros prefix m HN. pose proof (names_ok_of prefix m HN) as NK. rewrite map_size_eq by auto. split; [apply mlen_8|].
    intros n H. exists (map_bytes prefix m). rewrite map_out_put; [|reflexivity|intros _; exact H|exact NK].
    rewrite lenN_map_bytes. split; auto. rewrite put_mem0; rewrite lenN_map_bytes; auto.
  - intros r H1 HN. assert (RO : record_ok r). { split; [apply short_storesize; auto|apply names_ok_of; auto]. }
    rewrite record_size_eq by auto. split; [apply rlen_8|].
    assert (LB : lenN (record_bytes r) = rlen r) by apply lenN_rbody. split.
    + intros n H. exists (record_bytes r). rewrite record_out_put; [|reflexivity|intros _; exact H|exact RO].
      rewrite LB. split; auto. rewrite put_mem0; rewrite LB; auto.
    + intros H. exists (record_bytes r). split; auto. apply save_record_eq; auto.
Qed.

(* For every field, every field map and every record (names below 4 GB): the size
   the size stream predicts is a multiple of 8, and a memory stream which has at
   least that room gets exactly that many bytes written, successfully; hence
   SaveToBuffer fills the buffer it created completely (records below 4 GB). *)
Theorem C19_predicted_size :
  (forall v, field_size v mod 8 = 0 /\ forall n, field_size v <= n ->
     exists b, field_out (mem0 n) v = (mkW true (lenN b) (n - lenN b) b, true) /\ lenN b = field_size v) /\
  (forall prefix m, (forall k v, In (k, v) m -> short_name k) ->
     map_size prefix m mod 8 = 0 /\ forall n, map_size prefix m <= n ->
     exists b, map_out (mem0 n) prefix m = (mkW true (lenN b) (n - lenN b) b, true) /\ lenN b = map_size prefix m) /\
  (forall r, short_name (fst r) -> (forall k v, In (k, v) (snd r) -> short_name k) ->
     record_size r mod 8 = 0 /\ (forall n, record_size r <= n ->
     exists b, record_out (mem0 n) r = (mkW true (lenN b) (n - lenN b) b, true) /\ lenN b = record_size r) /\
     (record_size r < 2^32 -> exists b, save_record r = Some b /\ lenN b = record_size r)).
Proof. exact sizes_ok. Qed.
Print Assumptions C19_predicted_size.

Definition rec1 : record :=
  ([82; 49], [([97], VInt 5); ([97; 98], VStr [120; 121]); ([98], VArrStr [[65]; []]); ([99; 99], VArrInt [1; 18446744073709551615])]).

Example C19_case : record_size rec1 = 144 /\ (exists b, save_record rec1 = Some b /\ lenN b = 144) /\
  short_name (fst rec1) /\ (forall k v, In (k, v) (snd rec1) -> short_name k).
Proof.
  split; [vm_compute; reflexivity|]. split; [eexists; split; vm_compute; reflexivity|]. split; [vm_compute; reflexivity|].
  intros k v H. cbn in H. repeat (destruct H as [H|H]; [injection H as <- <-; vm_compute; reflexivity|]). destruct H.
Qed.

(* ------------------------------------------------------------------- C20 -- *)

Lemma sub_forall {A} (P : A -> Prop) (f : A -> bool) (l : list A) : (forall x, In x l -> P x) -> Forall P (filter f l).
Proof. intros H. apply Forall_forall. intros x Hx. apply filter_In in Hx. apply H. tauto. Qed.

Lemma filter_length_le {A} (f : A -> bool) (l : list A) : (length (filter f l) <= length l)%nat.
Proof. induction l as [|x l IH]; cbn [filter length]; auto. destruct (f x); cbn [length]; lia. Qed.

Lemma record_update r old : proper_record r -> (forall k v, In (k, v) (snd r) -> is_buffer v = false) ->
  (forall k v, In (k, v) (snd r) -> short_name k) -> short_name (fst r) ->
  record_size r < 2^32 -> lenN (snd r) < 2^24 -> msorted old ->
  exists b m, save_record r = Some b /\
    (forall tail, read_record tail b old = Done (mkR (lenN b) [], ((fst r, m), true))) /\
    msorted m /\
    forall k, mget k m = if visible k then mget k (snd r) else mget k old.
Proof.
  intros (P1 & P2 & P3) NB SN SN0 B CNT MO.
  assert (RO : record_ok r). { split; [apply short_storesize; auto|apply names_ok_of; auto]. }
  rewrite record_size_eq in B by auto.
  assert (LB : lenN (record_bytes r) = rlen r) by apply lenN_rbody.
  assert (SM : small_map (selected [] (snd r))). { apply small_of_len. unfold rlen in B. lia. }
  assert (CN : lenN (selected [] (snd r)) < 16777216).
  { unfold lenN, selected in *. pose proof (filter_length_le (fun e => match_prefix (fst e) []) (snd r)). lia. }
  assert (HM : forall tail, exists m', record_in tail (mkR 0 (record_bytes r ++ [])) old = Done (mkR (0 + rlen r) [], ((fst r, m'), true)) /\
             merged [] (selected [] (snd r)) old m').
  { intros tail. apply record_in_ok; auto.
    - apply short_storesize; auto.
    - apply sub_forall. intros (k, v) HI. apply (P3 k v HI).
    - apply sub_forall. intros (k, v) HI. apply (NB k v HI).
    - lia. }
  destruct (HM []) as (m & E & M). exists (record_bytes r), m.
  assert (MM : forall k, mget k m = if visible k then mget k (snd r) else mget k old).
  { intros k. destruct M as (_ & M). rewrite M. unfold selected. rewrite mget_filter by (apply msorted_nodup; auto). cbn [fst].
    unfold match_prefix. cbn [prefixb]. rewrite andb_true_r. destruct (mget k (snd r)); destruct (visible k); auto. }
  split; [apply save_record_eq; auto|]. split; [|split; [apply M|exact MM]].
  intros tail. destruct (HM tail) as (m' & E' & M'). unfold read_record. rewrite app_nil_r in E'. rewrite E'. rewrite LB.
  assert (m' = m) as ->; [|reflexivity].
  apply msorted_ext; [apply M'|apply M|]. intros k. destruct M as (_ & M), M' as (_ & M'). rewrite M, M'. reflexivity.
Qed.

Lemma record_roundtrip r : proper_record r -> all_visible r -> (forall k v, In (k, v) (snd r) -> is_buffer v = false) ->
  (forall k v, In (k, v) (snd r) -> short_name k) -> short_name (fst r) ->
  record_size r < 2^32 -> lenN (snd r) < 2^24 ->
  exists b, save_record r = Some b /\ forall tail, read_record tail b [] = Done (mkR (lenN b) [], (r, true)).
Proof.
  intros P V NB SN SN0 B CNT.
  destruct (record_update r [] P NB SN SN0 B CNT I) as (b & m & E1 & E2 & E3 & E4). exists b. split; auto.
  intros tail. rewrite E2. destruct r as (name, f). cbn [fst snd] in *. repeat f_equal.
  apply msorted_ext; auto; [apply P|]. intros k. rewrite E4.
  destruct (mget k f) as [v|] eqn:G.
  - rewrite (V k v); auto. apply mget_in. auto.
  - destruct (visible k); reflexivity.
Qed.

(* Every record without buffer fields, of less than 4 GB and 2^24 fields, whose
   field names do not start with '#' (such fields are excluded from I/O by the
   code) is saved and read back with the same name and the same fields.
   Missing: buffer fields, for which it is false, below. *)
Theorem C20_record_roundtrip_partial r : proper_record r -> all_visible r -> (forall k v, In (k, v) (snd r) -> is_buffer v = false) ->
  (forall k v, In (k, v) (snd r) -> short_name k) -> short_name (fst r) ->
  record_size r < 2^32 -> lenN (snd r) < 2^24 ->
  exists b, save_record r = Some b /\ forall tail, read_record tail b [] = Done (mkR (lenN b) [], (r, true)).
Proof. exact (record_roundtrip r). Qed.
Print Assumptions C20_record_roundtrip_partial.

(* Reading into a record which already has fields [old]: afterwards it has
   exactly the visible fields of the saved record and its own invisible ones. *)
Theorem C20_record_update_partial r old : proper_record r -> (forall k v, In (k, v) (snd r) -> is_buffer v = false) ->
  (forall k v, In (k, v) (snd r) -> short_name k) -> short_name (fst r) ->
  record_size r < 2^32 -> lenN (snd r) < 2^24 -> msorted old ->
  exists b m, save_record r = Some b /\
    (forall tail, read_record tail b old = Done (mkR (lenN b) [], ((fst r, m), true))) /\
    msorted m /\
    forall k, mget k m = if visible k then mget k (snd r) else mget k old.
Proof. exact (record_update r old). Qed.
Print Assumptions C20_record_update_partial.

Ltac inall H := cbn in H; repeat (destruct H as [H|H]; [injection H as <- <-; try (vm_compute; reflexivity)|]); try destruct H.
Ltac incase H := cbn in H; repeat (destruct H as [H|H]; [injection H as <- <-|]); try destruct H.
Ltac chars := repeat (first [apply Forall_nil|apply Forall_cons; [vm_compute; split; reflexivity|]]).
Ltac wordsT := repeat (first [apply Forall_nil|apply Forall_cons; [vm_compute; reflexivity|]]).

Example C20_case : proper_record rec1 /\ all_visible rec1 /\ (forall k v, In (k, v) (snd rec1) -> is_buffer v = false) /\
  exists b, save_record rec1 = Some b /\ read_record [] b [] = Done (mkR 144 [], (rec1, true)).
Proof.
  split; [|split; [intros k v H; inall H|split; [intros k v H; inall H|]]].
  - split; [chars|]. split; [vm_compute; auto|]. intros k v H. incase H; (split; [chars|]).
    + vm_compute; reflexivity.
    + chars.
    + repeat (first [apply Forall_nil|apply Forall_cons; [chars|]]).
    + wordsT.
  - eexists. split; vm_compute; reflexivity.
Qed.

(* A record whose only field is a buffer: reading reports success, the bytes are lost. *)
Theorem C20_buffer_refuted : exists r b, proper_record r /\ all_visible r /\ save_record r = Some b /\
  exists s, read_record [] b [] = Done (s, (([82], [([97], VJunk 11)]), true)) /\ snd r = [([97], VBuf [1; 2; 3])].
Proof.
  exists ([82], [([97], VBuf [1; 2; 3])]). eexists. split; [|split; [|split; [vm_compute; reflexivity|]]].
  - split; [chars|]. split; [vm_compute; auto|]. intros k v H. incase H. split; [chars|wordsT].
  - intros k v H. inall H.
  - eexists. split; [vm_compute; reflexivity|reflexivity].
Qed.
Print Assumptions C20_buffer_refuted.

(* A buffer field followed by another field: the field behind it is lost,
   although reading reports success. *)
Theorem C20_buffer_then_field_refuted : exists r b, proper_record r /\ all_visible r /\ save_record r = Some b /\
  mget [98] (snd r) = Some (VInt 7) /\
  exists s r', read_record [0] b [] = Done (s, (r', true)) /\ mget [98] (snd r') = None.
Proof.
  exists ([82], [([97], VBuf [1; 2; 3]); ([98], VInt 7)]). eexists.
  split; [|split; [|split; [vm_compute; reflexivity|split; [reflexivity|]]]].
  - split; [chars|]. split; [vm_compute; auto|]. intros k v H. incase H; (split; [chars|]); [wordsT|vm_compute; reflexivity].
  - intros k v H. inall H.
  - do 2 eexists. split; vm_compute; reflexivity.
Qed.
Print Assumptions C20_buffer_then_field_refuted.

(* ------------------------------------------------------------------- C21 -- *)

Lemma read_bounded b old : match read_record [0] b old with
  | Done (s, _) => r_pos s + lenN (r_rest s) = lenN b
  | Throw => True
  | Oob => False
  end.
Proof.
  pose proof (record_in_safe (mkR 0 b) old) as H. unfold read_record.
  destruct (record_in [0] (mkR 0 b) old) as [(s, x)| |]; cbn [safe] in H; auto.
Qed.

(* Whatever the bytes, the reader ends, its position stays inside the stream, and
   nothing behind the stream is read but a zero byte directly behind it.
   Missing: the scan for the end of a name is not limited by the stream, so
   without that zero byte the property is false, below. *)
Theorem C21_bounded_partial b old : match read_record [0] b old with
  | Done (s, _) => r_pos s + lenN (r_rest s) = lenN b
  | Throw => True
  | Oob => False
  end.
Proof. exact (read_bounded b old). Qed.
Print Assumptions C21_bounded_partial.

Example C21_case : exists s r, read_record [0] [1;2;3;4;5;6;7;8; 1;0;0;0;65;66;67;68; 255;255;255;255; 2;0;0;0; 9;9] [] = Done (s, (r, false)).
Proof. do 2 eexists. vm_compute. reflexivity. Qed.

(* 24 bytes without any zero behind the name's length: the scan leaves the stream *)
Theorem C21_overread_refuted : exists b, lenN b = 24 /\ read_record [] b [] = Oob.
Proof.
  exists [24;0;0;0;0;0;0;0; 1;0;0;0; 65;65;65;65; 65;65;65;65;65;65;65;65]. split; vm_compute; reflexivity.
Qed.
Print Assumptions C21_overread_refuted.

(* a truncated, otherwise correct record: the scan for a name starts at the end of the stream *)
Theorem C21_truncated_refuted : exists r b n, proper_record r /\ save_record r = Some b /\
  read_record [] (takeN n b) [] = Oob.
Proof.
  exists ([82], [([97], VInt 7)]). eexists. exists 24.
  split; [|split; vm_compute; reflexivity].
  split; [chars|]. split; [vm_compute; auto|]. intros k v H. incase H. split; [chars|vm_compute; reflexivity].
Qed.
Print Assumptions C21_truncated_refuted.

(* an array count in the data makes operator new[] throw out of the reader *)
Theorem C21_exception_refuted : exists b, lenN b = 56 /\ read_record [0] b [] = Throw.
Proof.
  exists [56;0;0;0;0;0;0;0; 1;0;0;0;82;0;0;0; 4;0;0;0; 1;0;0;0; 1;0;0;0;97;0;0;0;
          3;0;0;0; 6;0;0;0; 255;255;255;255;255;255;255;255; 0;0;0;0;0;0;0;0].
  split; vm_compute; reflexivity.
Qed.
Print Assumptions C21_exception_refuted.

(* reading reports success although a field's memory was never filled *)
Theorem C21_uninitialised_refuted : exists b s, read_record [0] b [] = Done (s, (([82], [([97], VJunk 6)]), true)).
Proof.
  exists [56;0;0;0;0;0;0;0; 1;0;0;0;82;0;0;0; 5;0;0;0; 1;0;0;0; 1;0;0;0;97;0;0;0;
          3;0;0;0; 6;0;0;0; 2;0;0;0;0;0;0;0; 0;0;0;0;0;0;0;0].
  eexists. vm_compute. reflexivity.
Qed.
Print Assumptions C21_uninitialised_refuted.

(* ------------------------------------------------------------------- C22 -- *)

(* [new] is turned into a difference against [old] and applied to [old].  The
   modification flags of [old] tell which of its fields may differ (this is what
   the code relies on): a field of both maps whose flag in [old] is clear has the
   same value in both.  The reserved name "dabc:del" is not used for a field.
   Then the result has exactly the fields of [new], with the same values (up to
   the sign of a floating point zero). *)
Theorem C22_diff_partial (new old : fmap field) : msorted new -> msorted old ->
  mget del_name new = None -> mget del_name old = None ->
  (forall k f, mget k new = Some f -> settable (f_val f)) ->
  (forall k f g, mget k new = Some f -> mget k old = Some g -> f_mod g = false -> f_val g = f_val f) ->
  let r := apply_diff old (make_diff new old) in
  msorted r /\
  forall k, k <> del_name ->
  match mget k new with
  | Some f => exists g, mget k r = Some g /\ same_val (f_val g) (f_val f)
  | None => mget k r = None
  end.
Proof. exact (diff_apply new old). Qed.
Print Assumptions C22_diff_partial.

Definition new1 : fmap field := [([97], mkF (VInt 1) false); ([98], mkF (VStr [65]) true); ([100], mkF (VArrInt [4]) true)].
Definition old1 : fmap field := [([97], mkF (VInt 1) false); ([98], mkF (VStr [66]) true); ([99], mkF (VBool 1) false)].

Example C22_case : make_diff new1 old1 =
    [([98], mkF (VStr [65]) true); ([100], mkF (VArrInt [4]) true); (del_name, mkF (VArrStr [[99]]) true)] /\
  apply_diff old1 (make_diff new1 old1) =
    [([97], mkF (VInt 1) false); ([98], mkF (VStr [65]) true); ([100], mkF (VArrInt [4]) true)] /\
  (forall k f, mget k new1 = Some f -> settable (f_val f)) /\
  (forall k f g, mget k new1 = Some f -> mget k old1 = Some g -> f_mod g = false -> f_val g = f_val f).
Proof.
  split; [vm_compute; reflexivity|]. split; [vm_compute; reflexivity|]. split.
  - intros k f H. apply mget_in in H. incase H; split; cbn; auto.
    + vm_compute; reflexivity.
    + chars.
    + wordsT.
    + discriminate.
  - intros k f g H1 H2 H3. apply mget_in in H1. apply mget_in in H2. cbn in H1, H2.
    repeat (destruct H1 as [H1|H1]); repeat (destruct H2 as [H2|H2]); try contradiction;
      injection H1 as <- <-; inversion H2; subst; try discriminate; auto.
Qed.

(* Without the assumption about the flags the difference misses changes. *)
Theorem C22_flags_refuted : exists new old k, msorted new /\ msorted old /\
  mget k new = Some (mkF (VInt 2) true) /\ mget k old = Some (mkF (VInt 1) false) /\
  mget k (apply_diff old (make_diff new old)) = Some (mkF (VInt 1) false).
Proof.
  exists [([97], mkF (VInt 2) true)], [([97], mkF (VInt 1) false)], [97].
  repeat split; vm_compute; reflexivity.
Qed.
Print Assumptions C22_flags_refuted.

(* A field called "dabc:del" is taken as the list of fields to delete. *)
Theorem C22_reserved_name_refuted : exists new old k, msorted new /\ msorted old /\
  mget k new = Some (mkF (VInt 2) true) /\ mget k (apply_diff old (make_diff new old)) = None.
Proof.
  exists [([97], mkF (VInt 2) true); (del_name, mkF (VArrStr [[97]]) true)], [], [97].
  repeat split; vm_compute; reflexivity.
Qed.
Print Assumptions C22_reserved_name_refuted.
