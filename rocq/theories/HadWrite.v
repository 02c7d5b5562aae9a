(* Proofs about the HADAQ write iterator. *)
From Verif Require Import Common ListFacts Bytes WordMem BufPtr HadSpec HadModel HadWords HadRead.
Open Scope N_scope.

Lemma as_words k : forall b, lenN b = 4 * N.of_nat k -> Forall isbyte b ->
  exists l, b = words l /\ length l = k /\ Forall word l.
Proof.
  induction k as [|k IH]; intros b L F.
  - exists []. destruct b; [auto|]. rewrite lenN_cons in L. lia.
  - destruct (split_at b 4 ltac:(lia)) as (x & y & -> & Lx). apply Forall_app in F. destruct F as (Fx & Fy).
    destruct (IH y) as (l & -> & Ll & Wl); [rewrite lenN_app in L; lia|exact Fy|].
    exists (unle x :: l). assert (E4 : length x = 4%nat) by (unfold lenN in Lx; lia). split; [|split].
    + unfold words. cbn [map concat]. f_equal. rewrite <- E4. symmetry. apply le_unle. exact Fx.
    + cbn. lia.
    + constructor; [|exact Wl]. apply unle_bound in Fx. rewrite Lx in Fx. exact Fx.
Qed.

Lemma unle_word_bytes big d : dec_ok d -> unle (word_bytes big d) = stored big d.
Proof.
  intros D. assert (W := dec_word d D). unfold word_bytes, stored. destruct big.
  - rewrite <- le_bswap by exact W. apply unle_le4. apply bswap_lt.
  - apply unle_le4. exact W.
Qed.
Lemma conv_lt' d v : word v -> word (conv d v).
Proof. intros H. unfold conv. destruct (is_swapped d); [apply bswap_lt|exact H]. Qed.

(* fields written one after the other *)
Lemma set_fieldN a l c o k x dec v : lenN a = o -> nth_error l 1 = Some dec -> word dec ->
  nth_error l (N.to_nat k) = Some x ->
  set_field (a ++ words l ++ c) o k v = Ok (a ++ words (upd l (N.to_nat k) (conv dec v)) ++ c).
Proof. intros L D W X. rewrite <- (N2Nat.id k) at 1. eapply set_field_words; eauto. Qed.

Lemma pad_up n : exists p, p < 8 /\ (n + p) mod 8 = 0 /\ (n + 7) / 8 * 8 = n + p.
Proof. exists ((n + 7) / 8 * 8 - n). lia. Qed.

(* one subevent written behind [a]; the subevent pointer stands at [o] with [rest] left *)
Lemma write_sub_at a rest s x :
  w_mem s = a ++ rest -> Forall isbyte rest -> wsub_ok x ->
  is_null (w_ev s) = false -> (if is_null (w_sub s) then shift (w_ev s) 32 else w_sub s) = mkP (Some (lenN a)) (lenN rest) ->
  wsub_size x < lenN rest -> wsub_size x < 2^32 ->
  exists y rest', same_sub x y /\ sub_ok y /\ lenN (enc_sub y) = wsub_size x /\ Forall isbyte rest' /\
    lenN rest = wsub_size x + lenN rest' /\
    write_sub s x = Ok (mkW (a ++ enc_sub y ++ rest') (w_ev s) (mkP (Some (lenN a + wsub_size x)) (lenN rest')) (w_full s), true).
Proof.
  intros M By (D & I & T) Ev Sb L Lw.
  destruct (pad_up (16 + lenN (ws_raw x))) as (p & Lp & Mp & Ep). unfold wsub_size in *. rewrite Ep in *.
  destruct (split_at rest 16 ltac:(lia)) as (gh & r1 & -> & Lh).
  rewrite lenN_app in L. apply Forall_app in By. destruct By as (Bh & By).
  destruct (split_at r1 (lenN (ws_raw x)) ltac:(lia)) as (gr & r2 & -> & Lr).
  rewrite lenN_app in L. apply Forall_app in By. destruct By as (_ & By).
  destruct (split_at r2 p ltac:(lia)) as (gp & rest' & -> & Lgp).
  rewrite lenN_app in L. apply Forall_app in By. destruct By as (_ & By).
  destruct (as_words 4 gh) as (l & -> & Ll & Wl); [exact Lh|exact Bh|].
  destruct l as [|g0 [|g1 [|g2 [|g3 [|]]]]]; try discriminate.
  assert (W1 : word g1) by (inversion Wl as [|? ? _ W']; inversion W'; auto).
  set (y := mkSub (ws_big x) (ws_dec x) (ws_id x) (ws_trig x) (ws_raw x) gp).
  assert (Ky : sub_ok y). { unfold sub_ok, y; cbn. rewrite Lgp. repeat split; auto; try lia; try apply D. }
  assert (Ly : lenN (enc_sub y) = 16 + lenN (ws_raw x) + p). { rewrite lenN_enc_sub. unfold y; cbn. rewrite Lgp. reflexivity. }
  exists y, rest'. split; [repeat split|]. split; [exact Ky|]. split; [exact Ly|]. split; [exact By|].
  split; [rewrite !lenN_app, Lr, Lgp; lia|].
  unfold write_sub, new_sub. rewrite Ev, Sb. cbn [p_full]. rewrite !lenN_app, Lh, Lr, Lgp.
  destruct (N.ltb_spec (16 + (lenN (ws_raw x) + (p + lenN rest'))) (16 + lenN (ws_raw x))); [lia|].
  cbn [addr p_off bind]. rewrite M. rewrite <- (app_assoc _ _ (gr ++ gp ++ rest')) || idtac.
  rewrite (set_fieldN a [g0; g1; g2; g3] (gr ++ gp ++ rest') (lenN a) 3 g3 g1) by auto.
  change (N.to_nat 3) with 3%nat. cbn [bind upd].
  unfold fill_sub. cbn [w_sub addr p_off bind w_mem].
  rewrite unle_word_bytes by exact D. unfold set_dec_direct.
  assert (Sw := setw_words a [g0; g1; g2; conv g1 (ws_trig x)] (gr ++ gp ++ rest') (lenN a) 1 g1 (stored (ws_big x) (ws_dec x)) eq_refl eq_refl).
  change (lenN a + 4 * N.of_nat 1) with (lenN a + 4) in Sw. rewrite Sw. clear Sw. cbn [bind upd].
  assert (Ws : word (stored (ws_big x) (ws_dec x))) by (apply stored_lt, dec_word; exact D).
  rewrite (set_fieldN a _ _ (lenN a) 3 (conv g1 (ws_trig x)) (stored (ws_big x) (ws_dec x))) by auto.
  change (N.to_nat 3) with 3%nat. cbn [bind upd].
  rewrite (set_fieldN a _ _ (lenN a) 2 g2 (stored (ws_big x) (ws_dec x))) by auto.
  change (N.to_nat 2) with 2%nat. cbn [bind upd].
  rewrite !conv_stored by exact D.
  set (hw := [g0; stored (ws_big x) (ws_dec x); stored (ws_big x) (ws_id x); stored (ws_big x) (ws_trig x)]).
  rewrite (app_assoc a (words hw)). rewrite setb_at; [|rewrite lenN_app, lenN_words; unfold lenN at 2; cbn [length hw]; lia|exact (eq_sym Lr)].
  cbn [bind]. rewrite <- app_assoc.
  unfold finish_sub. cbn [w_sub w_mem w_ev w_full].
  rewrite is_null_at by lia. cbn [p_full].
  destruct (N.ltb_spec (16 + (lenN (ws_raw x) + (p + lenN rest')) - 16) (lenN (ws_raw x))); [lia|].
  cbn [addr p_off bind]. unfold hw.
  rewrite (set_fieldN a _ _ (lenN a) 0 g0 (stored (ws_big x) (ws_dec x))) by auto.
  change (N.to_nat 0) with 0%nat. cbn [bind upd]. rewrite conv_stored by exact D.
  assert (Eq : a ++ words [stored (ws_big x) (lenN (ws_raw x) + 16); stored (ws_big x) (ws_dec x); stored (ws_big x) (ws_id x); stored (ws_big x) (ws_trig x)]
     ++ ws_raw x ++ gp ++ rest' = a ++ enc_sub y ++ rest').
  { unfold enc_sub, y. cbn [s_big s_dec s_id s_trig s_raw s_pad]. rewrite hdr_bytes_words by (apply (sub_words y Ky)).
    cbn [map]. rewrite <- !app_assoc. rewrite (N.add_comm 16). reflexivity. }
  rewrite Eq. rewrite sub_padded by auto. cbn [bind]. rewrite Ly.
  rewrite shift_at by lia. do 4 f_equal. lia.
Qed.

(* subevents written one after the other *)
Lemma write_subs_at l : forall a rest s,
  w_mem s = a ++ rest -> Forall isbyte rest -> Forall wsub_ok l ->
  is_null (w_ev s) = false -> (if is_null (w_sub s) then shift (w_ev s) 32 else w_sub s) = mkP (Some (lenN a)) (lenN rest) ->
  wsubs_size l < lenN rest -> wsubs_size l < 2^32 ->
  exists ys rest', Forall2 same_sub l ys /\ Forall sub_ok ys /\ lenN (enc_subs ys) = wsubs_size l /\ Forall isbyte rest' /\
    lenN rest = wsubs_size l + lenN rest' /\
    exists sb, write_subs s l = Ok (mkW (a ++ enc_subs ys ++ rest') (w_ev s) sb (w_full s), true) /\
      (l = [] /\ sb = w_sub s \/ l <> [] /\ sb = mkP (Some (lenN a + wsubs_size l)) (lenN rest')).
Proof.
  induction l as [|x l IH]; intros a rest s M By K Ev Sb L Lw.
  - exists [], rest. split; [constructor|]. split; [constructor|]. split; [reflexivity|]. split; [exact By|]. split; [cbn; lia|].
    exists (w_sub s). cbn [write_subs]. change (a ++ enc_subs [] ++ rest) with (a ++ rest). split; [|auto].
    rewrite <- M. destruct s; reflexivity.
  - inversion K as [|? ? Kx K']; subst. cbn [wsubs_size] in *.
    destruct (write_sub_at a rest s x M By Kx Ev Sb) as (y & r1 & Sy & Ky & Ly & By1 & L1 & E); [lia|lia|].
    set (s1 := mkW (a ++ enc_sub y ++ r1) (w_ev s) (mkP (Some (lenN a + wsub_size x)) (lenN r1)) (w_full s)) in *.
    destruct (IH (a ++ enc_sub y) r1 s1) as (ys & r2 & Sys & Kys & Lys & By2 & L2 & sb & E2 & C2); auto.
    { unfold s1. cbn [w_mem]. apply app_assoc. }
    { unfold s1. cbn [w_sub]. rewrite is_null_at by lia. rewrite lenN_app, Ly. reflexivity. }
    { lia. } { lia. }
    exists (y :: ys), r2. split; [constructor; auto|]. split; [constructor; auto|].
    split; [unfold enc_subs in *; cbn [map concat]; rewrite lenN_app; lia|]. split; [exact By2|]. split; [lia|].
    exists sb. cbn [write_subs]. rewrite E. cbn [bind]. rewrite E2. split.
    + unfold s1, enc_subs. cbn [w_ev w_full map concat]. rewrite <- !app_assoc. reflexivity.
    + right. split; [discriminate|]. destruct C2 as [(-> & ->)|(_ & ->)].
      * unfold s1. cbn [w_sub wsubs_size]. cbn [wsubs_size] in L2. f_equal; [f_equal; lia|lia].
      * rewrite lenN_app, Ly. f_equal. f_equal. lia.
Qed.

Lemma init_event_at a l c o seq run id date clock : lenN a = o -> length l = 8%nat -> Forall word l ->
  init_event (a ++ words l ++ c) o seq run id date clock =
  Ok (a ++ words [32; 0x30001; id; seq; date; clock; run; 0] ++ c).
Proof.
  intros L Len W. destruct l as [|g0 [|g1 [|g2 [|g3 [|g4 [|g5 [|g6 [|g7 [|]]]]]]]]]; try discriminate.
  unfold init_event, set_dec_direct.
  assert (Sw := setw_words a [g0; g1; g2; g3; g4; g5; g6; g7] c o 1 g1 0x30001 L eq_refl).
  change (o + 4 * N.of_nat 1) with (o + 4) in Sw. rewrite Sw. clear Sw. cbn [bind upd].
  assert (D : word 0x30001) by reflexivity.
  assert (C : forall v, conv 0x30001 v = v) by reflexivity.
  rewrite (set_fieldN a _ _ o 2 g2 0x30001) by auto. change (N.to_nat 2) with 2%nat. cbn [bind upd]. rewrite C.
  rewrite (set_fieldN a _ _ o 0 g0 0x30001) by auto. change (N.to_nat 0) with 0%nat. cbn [bind upd]. rewrite C.
  rewrite (set_fieldN a _ _ o 4 g4 0x30001) by auto. change (N.to_nat 4) with 4%nat. cbn [bind upd]. rewrite C.
  rewrite (set_fieldN a _ _ o 5 g5 0x30001) by auto. change (N.to_nat 5) with 5%nat. cbn [bind upd]. rewrite C.
  rewrite (set_fieldN a _ _ o 3 g3 0x30001) by auto. change (N.to_nat 3) with 3%nat. cbn [bind upd]. rewrite C.
  rewrite (set_fieldN a _ _ o 6 g6 0x30001) by auto. change (N.to_nat 6) with 6%nat. cbn [bind upd]. rewrite C.
  assert (Sw := setw_words a [32; 0x30001; id; seq; date; clock; run; g7] c o 7 g7 0 L eq_refl).
  change (o + 4 * N.of_nat 7) with (o + 28) in Sw. rewrite Sw. reflexivity.
Qed.

Lemma write_event_at a rest s e :
  w_mem s = a ++ rest -> Forall isbyte rest -> wevent_ok e ->
  (if is_null (w_ev s) then mkP (Some 0) (lenN (w_mem s)) else w_ev s) = mkP (Some (lenN a)) (lenN rest) ->
  wevent_size e < lenN rest -> wevent_size e < 2^32 ->
  exists u rest', same_event e u /\ unit_for TEvents u /\ unit_size u = wevent_size e /\ Forall isbyte rest' /\
    lenN rest = wevent_size e + lenN rest' /\
    exists sb, write_event s e = Ok (mkW (a ++ enc_unit u ++ rest') (mkP (Some (lenN a + wevent_size e)) (lenN rest')) sb (w_full s + wevent_size e), true).
Proof.
  intros M By (Wq & Wr & Wd & Wt & Ks) Ev L Lw. unfold wevent_size in *.
  destruct (split_at rest 32 ltac:(lia)) as (gh & r1 & -> & Lh).
  apply Forall_app in By. destruct By as (Bh & By).
  destruct (as_words 8 gh) as (l & -> & Ll & Wl); [exact Lh|exact Bh|].
  assert (Lt : lenN (words l ++ r1) = 32 + lenN r1) by (rewrite lenN_app, Lh; reflexivity).
  unfold write_event, new_event. rewrite Ev. cbn [p_full]. rewrite Lt in *.
  destruct (N.ltb_spec (32 + lenN r1) (32 + 0)); [lia|].
  cbn [addr p_off bind]. rewrite M. rewrite init_event_at by auto. cbn [bind].
  set (hw := [32; 0x30001; EvtId_DABC; we_seq e; we_date e; we_time e; we_run e; 0]).
  assert (Lhw : lenN (words hw) = 32) by (rewrite lenN_words; reflexivity).
  set (s1 := mkW (a ++ words hw ++ r1) (mkP (Some (lenN a)) (32 + lenN r1)) pnull (w_full s)).
  destruct (write_subs_at (we_subs e) (a ++ words hw) r1 s1) as (ys & r2 & Sys & Kys & Lys & By2 & L2 & sb & E2 & C2); auto.
  { unfold s1. cbn [w_mem]. apply app_assoc. }
  { unfold s1. cbn [w_ev]. apply is_null_at. lia. }
  { unfold s1. cbn [w_sub w_ev]. change (is_null pnull) with true. cbv iota. rewrite shift_at by lia. rewrite lenN_app, Lhw. f_equal. lia. }
  { lia. } { lia. }
  set (u := mkUnit false 0x30001 [0x2001; we_seq e; we_date e; we_time e; we_run e; 0] ys).
  assert (Us : unit_size u = 32 + wsubs_size (we_subs e)).
  { unfold unit_size, u. cbn [u_rest u_subs]. rewrite Lys. unfold lenN. cbn [length]. lia. }
  assert (Ku : unit_ok u).
  { split; [split; [reflexivity|discriminate]|]. split; [|split; [exact Kys|rewrite Us; exact Lw]].
    unfold u. cbn [u_rest]. repeat constructor; auto. }
  exists u, r2. split; [split; [reflexivity|]; split; [reflexivity|]; split; [reflexivity|exact Sys]|].
  split; [split; [exact Ku|reflexivity]|]. split; [exact Us|]. split; [exact By2|]. split; [lia|].
  rewrite E2. cbn [bind]. unfold finish_event. unfold s1. cbn [w_ev w_sub w_mem w_full].
  rewrite is_null_at by lia. cbn [addr p_off bind].
  assert (Dist : (if is_null sb then Ok 32 else do os <- addr sb; Ok (os - lenN a)) = Ok (unit_size u)).
  { rewrite Us. destruct C2 as [(C & ->)|(C & ->)].
    - unfold s1. cbn [w_sub]. change (is_null pnull) with true. cbv iota. rewrite C. reflexivity.
    - rewrite is_null_at by lia. cbn [addr p_off bind]. f_equal. rewrite lenN_app, Lhw. lia. }
  rewrite Dist. cbn [bind].
  rewrite <- (app_assoc a (words hw)). unfold hw.
  rewrite (set_fieldN a _ _ (lenN a) 0 32 0x30001) by (auto; reflexivity).
  change (N.to_nat 0) with 0%nat. cbn [bind upd]. change (conv 196609 (unit_size u)) with (unit_size u).
  assert (Eq : a ++ words [unit_size u; 196609; EvtId_DABC; we_seq e; we_date e; we_time e; we_run e; 0] ++ enc_subs ys ++ r2 = a ++ enc_unit u ++ r2).
  { unfold enc_unit. rewrite hdr_bytes_words by (apply unit_words; exact Ku). rewrite <- !app_assoc. reflexivity. }
  rewrite Eq. rewrite unit_padded by (auto; reflexivity). cbn [bind].
  rewrite shift_at by lia. exists sb. rewrite Us. do 4 f_equal. lia.
Qed.

Lemma write_events_at l : forall a rest s,
  w_mem s = a ++ rest -> Forall isbyte rest -> Forall wevent_ok l ->
  (if is_null (w_ev s) then mkP (Some 0) (lenN (w_mem s)) else w_ev s) = mkP (Some (lenN a)) (lenN rest) ->
  wevents_size l < lenN rest -> wevents_size l < 2^32 ->
  exists us rest', Forall2 same_event l us /\ Forall (unit_for TEvents) us /\ lenN (enc_units us) = wevents_size l /\
    lenN rest = wevents_size l + lenN rest' /\
    exists ev sb, write_events s l = Ok (mkW (a ++ enc_units us ++ rest') ev sb (w_full s + wevents_size l), true).
Proof.
  induction l as [|e l IH]; intros a rest s M By K Ev L Lw.
  - exists [], rest. split; [constructor|]. split; [constructor|]. split; [reflexivity|]. split; [cbn; lia|].
    exists (w_ev s), (w_sub s). cbn [write_events wevents_size]. change (a ++ enc_units [] ++ rest) with (a ++ rest).
    rewrite <- M, N.add_0_r. destruct s; reflexivity.
  - inversion K as [|? ? Ke K']; subst. cbn [wevents_size] in *.
    destruct (write_event_at a rest s e M By Ke Ev) as (u & r1 & Su & Ku & Lu & By1 & L1 & sb & E); [lia|lia|].
    set (s1 := mkW (a ++ enc_unit u ++ r1) (mkP (Some (lenN a + wevent_size e)) (lenN r1)) sb (w_full s + wevent_size e)) in *.
    destruct (IH (a ++ enc_unit u) r1 s1) as (us & r2 & Sus & Kus & Lus & L2 & ev & sb2 & E2); auto.
    { unfold s1. cbn [w_mem]. apply app_assoc. }
    { unfold s1. cbn [w_ev]. rewrite is_null_at by lia. rewrite lenN_app, lenN_enc_unit, Lu. reflexivity. }
    { lia. } { lia. }
    exists (u :: us), r2. split; [constructor; auto|]. split; [constructor; auto|].
    split; [unfold enc_units in *; cbn [map concat]; rewrite lenN_app, lenN_enc_unit; lia|]. split; [lia|].
    exists ev, sb2. cbn [write_events]. rewrite E. cbn [bind]. rewrite E2.
    unfold s1, enc_units. cbn [w_full map concat]. rewrite <- !app_assoc. f_equal. f_equal. f_equal. lia.
Qed.

Lemma wevents_pos l : l <> [] -> 0 < wevents_size l.
Proof. destruct l; [congruence|]. intros _. cbn [wevents_size]. unfold wevent_size. lia. Qed.

Lemma write_all m0 s0 l : w_reset m0 = Some s0 -> Forall isbyte m0 -> Forall wevent_ok l -> l <> [] ->
  wevents_size l < lenN m0 -> wevents_size l < 2^32 ->
  exists s us, write_events s0 l = Ok (s, true) /\ w_close s = enc_units us /\
    Forall2 same_event l us /\ Forall (unit_for TEvents) us.
Proof.
  intros R By K Ne L Lw. unfold w_reset in R. destruct (lenN m0 <? 32 + 16); [discriminate|]. injection R as <-.
  destruct (write_events_at l [] m0 (mkW m0 pnull pnull 0)) as (us & r & Sus & Kus & Lus & L2 & ev & sb & E); auto.
  eexists; exists us. split; [exact E|]. split; [|auto].
  assert (P := wevents_pos l Ne).
  unfold w_close. cbn [w_full w_mem app]. rewrite lenN_app.
  destruct (N.ltb_spec 0 (0 + wevents_size l)); [|lia]. destruct (N.leb_spec (0 + wevents_size l) (lenN (enc_units us) + lenN r)); [|lia].
  cbn [andb]. apply takeN_app. lia.
Qed.
