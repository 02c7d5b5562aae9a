(* The output side of the event builder: writing an event into the buffer. *)
From Verif Require Import Common ListFacts Bytes WordMem BufPtr HadSpec HadModel HadWords HadRead HadWrite CombSpec CombModel.
Local Open Scope N_scope.

(* ---- no access outside the buffer ---- *)
Lemma getw_in m o : o + 4 <= lenN m -> exists w, getw m o = Ok w.
Proof. intros H. unfold getw, getb. destruct (N.leb_spec (o + 4) (lenN m)); [|lia]. cbn [bind]. eauto. Qed.
Lemma setb_in m o d : o + lenN d <= lenN m -> exists m', setb m o d = Ok m' /\ lenN m' = lenN m.
Proof.
  intros H. unfold setb. destruct (N.leb_spec (o + lenN d) (lenN m)); [|lia]. eexists. split; [reflexivity|].
  rewrite !lenN_app, lenN_takeN, lenN_dropN. lia.
Qed.
Lemma setw_in m o v : o + 4 <= lenN m -> exists m', setw m o v = Ok m' /\ lenN m' = lenN m.
Proof. intros H. apply setb_in. rewrite lenN_le. change (N.of_nat 4) with 4. exact H. Qed.
Lemma set_field_in m o k v : o + 8 <= lenN m -> o + 4 * k + 4 <= lenN m -> exists m', set_field m o k v = Ok m' /\ lenN m' = lenN m.
Proof. intros H K. unfold set_field. destruct (getw_in m (o + 4)) as (d & ->); [lia|]. cbn [bind]. apply setw_in. lia. Qed.
Lemma get_field_in m o k : o + 8 <= lenN m -> o + 4 * k + 4 <= lenN m -> exists v, get_field m o k = Ok v.
Proof. intros H K. unfold get_field. destruct (getw_in m (o + 4)) as (d & ->); [lia|]. cbn [bind]. destruct (getw_in m (o + 4 * k)) as (w & ->); [lia|]. cbn [bind]. eauto. Qed.
Lemma set_error_in m o b : o + 12 <= lenN m -> exists m', set_error m o b = Ok m' /\ lenN m' = lenN m.
Proof. intros H. unfold set_error, get_id. destruct (get_field_in m o 2) as (i & ->); [lia|lia|]. cbn [bind]. apply set_field_in; lia. Qed.
Lemma init_event_in m o seq run id date clock : o + 32 <= lenN m -> exists m', init_event m o seq run id date clock = Ok m' /\ lenN m' = lenN m.
Proof.
  intros H. unfold init_event, set_dec_direct.
  destruct (setw_in m (o + 4) 0x30001) as (m1 & -> & L1); [lia|]. cbn [bind].
  destruct (set_field_in m1 o 2 id) as (m2 & -> & L2); [lia|lia|]. cbn [bind].
  destruct (set_field_in m2 o 0 32) as (m3 & -> & L3); [lia|lia|]. cbn [bind].
  destruct (set_field_in m3 o 4 date) as (m4 & -> & L4); [lia|lia|]. cbn [bind].
  destruct (set_field_in m4 o 5 clock) as (m5 & -> & L5); [lia|lia|]. cbn [bind].
  destruct (set_field_in m5 o 3 seq) as (m6 & -> & L6); [lia|lia|]. cbn [bind].
  destruct (set_field_in m6 o 6 run) as (m7 & -> & L7); [lia|lia|]. cbn [bind].
  destruct (setw_in m7 (o + 28) 0) as (m8 & -> & L8); [lia|]. exists m8. split; [reflexivity|lia].
Qed.

(* a pointer into a block of [L] bytes, not before [o] *)
Definition within (L o : N) (p : ptr) : Prop := is_null p = true \/ exists q, p = mkP (Some q) (L - q) /\ o <= q < L.
Definition wok (w : witer) : Prop := lenN (w_mem w) < 2^32 /\ within (lenN (w_mem w)) 0 (w_ev w).

Lemma within_shift L o q n : o <= q -> q <= L -> n <= L - q -> within L o (mkP (Some (q + n)) (L - q - n)).
Proof.
  intros H H2 H3. unfold within. destruct (N.eq_dec (L - q - n) 0) as [E|E].
  - left. rewrite E. reflexivity.
  - right. exists (q + n). split; [f_equal; lia|lia].
Qed.

Definition in_event (L o f : N) (w : witer) : Prop :=
  lenN (w_mem w) = L /\ w_ev w = mkP (Some o) (L - o) /\ o + 32 <= L /\ within L (o + 32) (w_sub w) /\ w_full w = f.

Lemma add_sub_in L o f w d : in_event L o f w -> exists r, add_sub w d = Ok r /\ in_event L o f (fst r).
Proof.
  intros (HL & He & Ho & Hs & Hf). unfold add_sub. rewrite He. rewrite is_null_at by lia.
  assert (Q : exists q, (if is_null (w_sub w) then shift (mkP (Some o) (L - o)) 32 else w_sub w) = mkP (Some q) (L - q) /\ o + 32 <= q /\ q <= L).
  { destruct (is_null (w_sub w)) eqn:N.
    - exists (o + 32). rewrite shift_at by lia. split; [f_equal; lia|lia].
    - destruct Hs as [H|(q & E & B)]; [congruence|]. exists q. rewrite E. split; [reflexivity|lia]. }
  destruct Q as (q & -> & Hq & Hq2). cbn [p_full].
  destruct (N.ltb_spec (L - q) (lenN d)) as [Lt|Ge].
  - eexists. split; [reflexivity|]. cbn [fst]. unfold in_event. cbn [w_mem w_ev w_sub w_full]. repeat split; auto.
    replace (mkP (Some q) (L - q)) with (mkP (Some (q + 0)) (L - q - 0)) by (f_equal; [f_equal|]; lia). apply within_shift; lia.
  - assert (M : exists m', (if lenN d =? 0 then Ok (w_mem w) else do o0 <- addr (mkP (Some q) (L - q)); setb (w_mem w) o0 d) = Ok m' /\ lenN m' = L).
    { destruct (lenN d =? 0); [eauto|]. cbn [addr p_off bind]. destruct (setb_in (w_mem w) q d) as (m' & E & El); [lia|]. exists m'. split; [exact E|lia]. }
    destruct M as (m' & -> & El). cbn [bind]. eexists. split; [reflexivity|]. cbn [fst]. unfold in_event. cbn [w_mem w_ev w_sub w_full]. repeat split; auto.
    rewrite shift_at by lia. apply within_shift; lia.
Qed.
Lemma add_items_in L o f l : forall w, in_event L o f w -> exists r, add_items w l = Ok r /\ in_event L o f r.
Proof.
  induction l as [|x l IH]; intros w H; cbn [add_items]; [eauto|].
  destruct (add_sub_in L o f w (enc_subs (i_subs x)) H) as (r & -> & H1). cbn [bind]. apply IH. exact H1.
Qed.
Lemma finish_event_in L o f w : L < 2^32 -> in_event L o f w -> exists r, finish_event w = Ok r /\ wok (fst r) /\ lenN (w_mem (fst r)) = L.
Proof.
  intros HB (HL & He & Ho & Hs & Hf). unfold finish_event. rewrite He. rewrite is_null_at by lia. cbn [addr p_off bind].
  assert (D : exists d, (if is_null (w_sub w) then Ok 32 else do os <- addr (w_sub w); Ok (os - o)) = Ok d).
  { destruct (is_null (w_sub w)) eqn:N; [eauto|].
    destruct Hs as [H|(q & E & B)]; [congruence|]. rewrite E. cbn [addr p_off bind]. eauto. }
  destruct D as (d & ->). cbn [bind].
  destruct (set_field_in (w_mem w) o 0 d) as (m' & -> & El); [lia|lia|]. cbn [bind]. unfold padded, get_size.
  destruct (get_field_in m' o 0) as (v & ->); [lia|lia|]. cbn [bind]. eexists. split; [reflexivity|].
  cbn [fst w_mem w_ev w_full]. split; [|lia].
  split; cbn [w_mem w_ev]; [lia|]. unfold shift. cbn [p_full p_off]. rewrite El, HL. destruct (N.ltb_spec (L - o) (pad8 v)); [left; reflexivity|]. apply within_shift; lia.
Qed.

Lemma put_event_in w seq run date clock id err l : wok w -> 32 <= avail w ->
  exists w', put_event w seq run date clock id err l = Ok w' /\ wok w' /\ lenN (w_mem w') = lenN (w_mem w).
Proof.
  intros (HB & Hw) Ha. unfold put_event, new_event. unfold avail in Ha.
  assert (Q : exists o, (if is_null (w_ev w) then mkP (Some 0) (lenN (w_mem w)) else w_ev w) = mkP (Some o) (lenN (w_mem w) - o) /\ o + 32 <= lenN (w_mem w)).
  { destruct (is_null (w_ev w)) eqn:N.
    - exists 0. split; [f_equal; lia|lia].
    - destruct Hw as [H|(q & E & B)]; [congruence|]. exists q. rewrite E in *. cbn [p_full] in Ha. split; [reflexivity|lia]. }
  destruct Q as (o & -> & Ho). cbn [p_full]. destruct (N.ltb_spec (lenN (w_mem w) - o) (32 + 0)); [lia|].
  cbn [addr p_off bind]. destruct (init_event_in (w_mem w) o seq run EvtId_DABC date clock Ho) as (m1 & -> & L1). cbn [bind fst w_ev w_mem w_sub w_full addr p_off].
  destruct (set_error_in m1 o err) as (m2 & -> & L2); [lia|]. cbn [bind].
  destruct (set_field_in m2 o 2 id) as (m3 & -> & L3); [lia|lia|]. cbn [bind].
  destruct (add_items_in (lenN (w_mem w)) o (w_full w) l (mkW m3 (mkP (Some o) (lenN (w_mem w) - o)) pnull (w_full w))) as (w1 & -> & K).
  { unfold in_event. cbn [w_mem w_ev w_sub w_full]. repeat split; auto; [lia|]. left. reflexivity. }
  cbn [bind]. destruct (finish_event_in _ _ _ _ HB K) as (r & -> & R1 & R2). cbn [bind]. eauto.
Qed.

(* ---- what is written ---- *)
Lemma add_items_at l : forall a rest s,
  w_mem s = a ++ rest -> is_null (w_ev s) = false ->
  (if is_null (w_sub s) then shift (w_ev s) 32 else w_sub s) = mkP (Some (lenN a)) (lenN rest) ->
  total l < lenN rest ->
  exists rest' sb, lenN rest = total l + lenN rest' /\ (Forall isbyte rest -> Forall isbyte rest') /\
    add_items s l = Ok (mkW (a ++ concat (map (fun x => enc_subs (i_subs x)) l) ++ rest') (w_ev s) sb (w_full s)) /\
    (l = [] /\ sb = w_sub s \/ sb = mkP (Some (lenN a + total l)) (lenN rest')).
Proof.
  induction l as [|x l IH]; intros a rest s M Ev Sb L.
  - exists rest, (w_sub s). cbn [total fold_right]. split; [lia|]. split; [auto|]. split; [|auto]. cbn [add_items map concat app]. rewrite <- M. destruct s; reflexivity.
  - cbn [total fold_right] in L. fold (total l) in L. unfold i_size in L. set (d := enc_subs (i_subs x)) in *.
    destruct (split_at rest (lenN d) ltac:(lia)) as (g & r1 & -> & Lg). rewrite lenN_app in L.
    cbn [add_items]. fold d. unfold add_sub. rewrite Ev, Sb. cbn [p_full]. rewrite lenN_app.
    destruct (N.ltb_spec (lenN g + lenN r1) (lenN d)); [lia|].
    assert (Em : (if lenN d =? 0 then Ok (w_mem s) else do o <- addr (mkP (Some (lenN a)) (lenN g + lenN r1)); setb (w_mem s) o d) = Ok (a ++ d ++ r1)).
    { rewrite M. destruct (N.eqb_spec (lenN d) 0) as [Z|Z].
      - destruct d; [|rewrite lenN_cons in Z; lia]. destruct g; [|rewrite lenN_cons in Lg; lia]. reflexivity.
      - cbn [addr p_off bind]. apply setb_at; [reflexivity|lia]. }
    rewrite Em. cbn [bind fst]. rewrite shift_at by lia.
    set (s1 := mkW (a ++ d ++ r1) (w_ev s) (mkP (Some (lenN a + lenN d)) (lenN g + lenN r1 - lenN d)) (w_full s)).
    destruct (IH (a ++ d) r1 s1) as (rest' & sb & L2 & By & E2 & C2).
    + unfold s1. cbn [w_mem]. apply app_assoc.
    + exact Ev.
    + unfold s1. cbn [w_sub]. rewrite is_null_at by lia. rewrite lenN_app. f_equal. lia.
    + lia.
    + exists rest', sb. split; [cbn [total fold_right]; fold (total l); unfold i_size; fold d; lia|]. split; [intros F; apply By; apply Forall_app in F; apply F|].
      rewrite E2. split.
      * unfold s1. cbn [w_ev w_full map concat]. fold d. rewrite <- !app_assoc. reflexivity.
      * right. cbn [total fold_right]. fold (total l). unfold i_size. fold d. destruct C2 as [(-> & ->)| ->].
        -- unfold s1. cbn [w_sub total fold_right] in *. f_equal; [f_equal; lia|lia].
        -- rewrite lenN_app. f_equal. f_equal. lia.
Qed.

Lemma enc_concat l : concat (map (fun x => enc_subs (i_subs x)) l) = enc_subs (concat (map i_subs l)).
Proof. induction l as [|x l IH]; [reflexivity|]. cbn [map concat]. rewrite IH. unfold enc_subs. rewrite map_app, concat_app. reflexivity. Qed.
Lemma total_len l : total l = lenN (enc_subs (concat (map i_subs l))).
Proof. rewrite <- enc_concat. induction l as [|x l IH]; [reflexivity|]. cbn [total fold_right map concat]. fold (total l). rewrite lenN_app, IH. reflexivity. Qed.

Lemma set_error_words a l c o b dec i : lenN a = o -> nth_error l 1 = Some dec -> word dec -> nth_error l 2 = Some i -> word i ->
  exists i', set_error (a ++ words l ++ c) o b = Ok (a ++ words (upd l 2 i') ++ c).
Proof.
  intros L D W I Wi. unfold set_error, get_id. change 2 with (N.of_nat 2). rewrite (get_field_words a l c o 2 i dec L D W I Wi). cbn [bind].
  rewrite (set_field_words a l c o 2 i dec _ L D W I). eauto.
Qed.

Lemma put_event_at a rest w seq run date clock id err l :
  w_mem w = a ++ rest -> Forall isbyte rest -> word seq -> word run -> word date -> word clock -> word id ->
  (if is_null (w_ev w) then mkP (Some 0) (lenN (w_mem w)) else w_ev w) = mkP (Some (lenN a)) (lenN rest) ->
  32 + total l < lenN rest -> lenN rest < 2^32 -> Forall sub_ok (concat (map i_subs l)) ->
  let u := mkUnit false 0x30001 [id; seq; date; clock; run; 0] (concat (map i_subs l)) in
  unit_for TEvents u /\
  exists rest' sb, Forall isbyte rest' /\ lenN rest = unit_size u + lenN rest' /\
    put_event w seq run date clock id err l =
      Ok (mkW (a ++ enc_unit u ++ rest') (mkP (Some (lenN a + unit_size u)) (lenN rest')) sb (w_full w + unit_size u)).
Proof.
  intros M By Wq Wr Wd Wc Wi Ev L Lw Ks u.
  assert (Us : unit_size u = 32 + total l). { unfold unit_size, u. cbn [u_rest u_subs]. rewrite total_len. unfold lenN at 1. cbn [length]. lia. }
  assert (Ku : unit_ok u).
  { split; [split; [reflexivity|discriminate]|]. split; [|split; [exact Ks|rewrite Us; lia]]. unfold u. cbn [u_rest]. repeat constructor; auto. }
  split; [split; [exact Ku|reflexivity]|].
  destruct (split_at rest 32 ltac:(lia)) as (gh & r1 & -> & Lh). apply Forall_app in By. destruct By as (Bh & By).
  destruct (as_words 8 gh) as (hd8 & -> & Ll & Wl); [exact Lh|exact Bh|].
  assert (Lt : lenN (words hd8 ++ r1) = 32 + lenN r1) by (rewrite lenN_app, Lh; reflexivity). rewrite Lt in *.
  unfold put_event, new_event. rewrite Ev. cbn [p_full]. destruct (N.ltb_spec (32 + lenN r1) (32 + 0)); [lia|].
  cbn [addr p_off bind]. rewrite M. rewrite init_event_at by auto. cbn [bind fst w_ev w_mem w_sub w_full addr p_off].
  destruct (set_error_words a [32; 196609; EvtId_DABC; seq; date; clock; run; 0] r1 (lenN a) err 196609 EvtId_DABC) as (i' & ->); try reflexivity.
  cbn [bind]. change (upd [32; 196609; EvtId_DABC; seq; date; clock; run; 0] 2%nat i') with [32; 196609; i'; seq; date; clock; run; 0].
  rewrite (set_fieldN a _ _ (lenN a) 2 i' 0x30001) by (auto; reflexivity). change (N.to_nat 2) with 2%nat. cbn [bind upd]. change (conv 196609 id) with id.
  set (hw := [32; 196609; id; seq; date; clock; run; 0]).
  assert (Lhw : lenN (words hw) = 32) by (rewrite lenN_words; reflexivity).
  set (s1 := mkW (a ++ words hw ++ r1) (mkP (Some (lenN a)) (32 + lenN r1)) pnull (w_full w)).
  destruct (add_items_at l (a ++ words hw) r1 s1) as (r2 & sb & L2 & By2 & E2 & C2).
  { unfold s1. cbn [w_mem]. apply app_assoc. }
  { unfold s1. cbn [w_ev]. apply is_null_at. lia. }
  { unfold s1. cbn [w_sub w_ev]. change (is_null pnull) with true. cbv iota. rewrite shift_at by lia. rewrite lenN_app, Lhw. f_equal. lia. }
  { lia. }
  exists r2, sb. split; [auto|]. split; [lia|].
  rewrite E2. cbn [bind]. unfold finish_event, s1. cbn [w_ev w_sub w_mem w_full].
  rewrite is_null_at by lia. cbn [addr p_off bind].
  assert (Dist : (if is_null sb then Ok 32 else do os <- addr sb; Ok (os - lenN a)) = Ok (unit_size u)).
  { rewrite Us. destruct C2 as [(C & ->)| ->].
    - unfold s1. cbn [w_sub]. change (is_null pnull) with true. cbv iota. rewrite C. reflexivity.
    - rewrite is_null_at by lia. cbn [addr p_off bind]. f_equal. rewrite lenN_app, Lhw. lia. }
  rewrite Dist. cbn [bind]. rewrite <- (app_assoc a (words hw)). unfold hw.
  rewrite (set_fieldN a _ _ (lenN a) 0 32 0x30001) by (auto; reflexivity).
  change (N.to_nat 0) with 0%nat. cbn [bind upd]. change (conv 196609 (unit_size u)) with (unit_size u).
  assert (Eq : a ++ words [unit_size u; 196609; id; seq; date; clock; run; 0] ++ concat (map (fun x => enc_subs (i_subs x)) l) ++ r2 = a ++ enc_unit u ++ r2).
  { unfold enc_unit. rewrite hdr_bytes_words by (apply unit_words; exact Ku). rewrite enc_concat, <- !app_assoc. reflexivity. }
  rewrite Eq. rewrite unit_padded by (auto; reflexivity). cbn [bind fst].
  rewrite shift_at by lia. do 3 f_equal. lia.
Qed.
