(* Reading well-formed MBS events. *)
From Verif Require Import Common ListFacts Bytes WordMem BufPtr MbsSpec MbsModel.
Open Scope N_scope.

Lemma full_at a s c o : o = lenN a -> 8 <= s -> s < 2^32 -> s mod 2 = 0 -> full_size (a ++ le 4 ((s - 8) / 2) ++ c) o = Ok s.
Proof.
  intros -> L U E. unfold full_size. change (2^32) with 4294967296 in *. rewrite getw_at by (auto; lia). cbn [bind]. change (2^32) with 4294967296. f_equal. lia.
Qed.
Lemma lenN_enc_msub x : lenN (enc_msub x) = msub_size x.
Proof. unfold enc_msub, msub_size. rewrite !lenN_app, !lenN_le. lia. Qed.
Lemma lenN_enc_mevent e : lenN (enc_mevent e) = mevent_size e.
Proof. unfold enc_mevent, mevent_size. rewrite !lenN_app, !lenN_le. lia. Qed.
Lemma enc_msubs_cons x l : enc_msubs (x :: l) = enc_msub x ++ enc_msubs l.
Proof. reflexivity. Qed.
Lemma enc_msubs_app x l : enc_msubs (x ++ l) = enc_msubs x ++ enc_msubs l.
Proof. unfold enc_msubs. rewrite map_app, concat_app. reflexivity. Qed.
Lemma msubs_even l : Forall msub_ok l -> lenN (enc_msubs l) mod 2 = 0.
Proof.
  induction 1 as [|x l (_ & _ & E & _) _ IH]; [reflexivity|]. rewrite enc_msubs_cons, lenN_app, lenN_enc_msub. unfold msub_size. lia.
Qed.
Lemma msubs_len l : 12 * N.of_nat (length l) <= lenN (enc_msubs l).
Proof.
  induction l as [|x l IH]; [cbn; lia|]. rewrite enc_msubs_cons, lenN_app, lenN_enc_msub. unfold msub_size. cbn [length]. lia.
Qed.
Lemma sub_full a x c o : o = lenN a -> msub_ok x -> full_size (a ++ enc_msub x ++ c) o = Ok (msub_size x).
Proof.
  intros O (_ & _ & E & L). unfold enc_msub. rewrite <- !app_assoc. apply full_at; auto; unfold msub_size in *; lia.
Qed.
Lemma event_even e : mevent_ok e -> mevent_size e mod 2 = 0.
Proof. intros (_ & _ & _ & K & _). apply msubs_even in K. unfold mevent_size. lia. Qed.
Lemma event_full a e c o : o = lenN a -> mevent_ok e -> full_size (a ++ enc_mevent e ++ c) o = Ok (mevent_size e).
Proof.
  intros O K. assert (V := event_even e K). destruct K as (_ & _ & _ & _ & L). unfold enc_mevent. rewrite <- !app_assoc. apply full_at; auto. unfold mevent_size. lia.
Qed.

(* header words at their positions *)
Lemma getw_off a b x c o : o = lenN a + lenN b -> word x -> getw (a ++ b ++ le 4 x ++ c) o = Ok x.
Proof. intros -> W. rewrite app_assoc. apply getw_at; auto. apply lenN_app. Qed.

Lemma see_sub_at a x c s o n : o = lenN a -> msub_ok x ->
  r_sub s = mkP (Some o) n -> r_raw s = mkP (Some (o + 12)) (lenN (ms_raw x)) ->
  see_sub (a ++ enc_msub x ++ c) s = Ok x.
Proof.
  intros -> (Wt & Wi & _ & _) Es Er. unfold see_sub. rewrite Es, Er. cbn [addr p_off p_full bind]. unfold enc_msub. rewrite <- !app_assoc.
  rewrite getw_off by (auto; rewrite lenN_le; reflexivity). cbn [bind].
  rewrite (app_assoc (le 4 _) (le 4 (ms_type x))). rewrite getw_off by (auto; rewrite lenN_app, !lenN_le; reflexivity). cbn [bind].
  rewrite <- !app_assoc.
  assert (G := getb_at (a ++ le 4 ((msub_size x - 8) / 2) ++ le 4 (ms_type x) ++ le 4 (ms_id x)) (ms_raw x) c (lenN a + 12)).
  rewrite <- !app_assoc in G. rewrite G by (rewrite !lenN_app, !lenN_le; lia). cbn [bind]. destruct x; reflexivity.
Qed.

Lemma next_sub_go a x c o n s : o = lenN a -> msub_ok x -> msub_size x <= n ->
  (if p_full (mkP (Some o) n) <? 12 then Ok (mkR (r_first s) (r_ev s) pnull (r_raw s), false)
   else do o1 <- addr (mkP (Some o) n); do k <- full_size (a ++ enc_msub x ++ c) o1;
        if k <? 12 then Ok (mkR (r_first s) (r_ev s) pnull (r_raw s), false)
        else Ok (mkR (r_first s) (r_ev s) (mkP (Some o) n) (shift (limit_to (mkP (Some o) n) k) 12), true)) =
  Ok (mkR (r_first s) (r_ev s) (mkP (Some o) n) (mkP (Some (o + 12)) (lenN (ms_raw x))), true).
Proof.
  intros O K L. assert (Z : 12 <= msub_size x) by (unfold msub_size; lia). cbn [p_full addr p_off bind].
  destruct (N.ltb_spec n 12); [lia|]. rewrite (sub_full a x c o O K). cbn [bind]. destruct (N.ltb_spec (msub_size x) 12); [lia|].
  rewrite limit_at by lia. rewrite shift_at by lia. do 4 f_equal. unfold msub_size. lia.
Qed.

Lemma sub_loop_at l : forall fuel a x c s, Forall msub_ok (x :: l) -> (length l < fuel)%nat ->
  r_sub s = mkP (Some (lenN a)) (lenN (enc_msubs (x :: l))) ->
  exists raw, sub_loop fuel (a ++ enc_msubs (x :: l) ++ c) s = Ok (mkR (r_first s) (r_ev s) pnull raw, l).
Proof.
  induction l as [|y l IH]; intros fuel a x c s K F Es; inversion K as [|? ? Kx Kl]; subst.
  - destruct fuel; [lia|]. cbn [sub_loop]. unfold next_sub. rewrite Es. rewrite enc_msubs_cons. change (enc_msubs []) with (@nil N). rewrite app_nil_r.
    rewrite is_null_at by (rewrite lenN_enc_msub; unfold msub_size; lia). cbn [addr p_off bind]. rewrite (sub_full a x c) by auto. cbn [bind].
    rewrite lenN_enc_msub. rewrite shift_at by lia. cbn [p_full]. rewrite N.sub_diag. cbn [bind]. change (0 <? 12) with true. cbn [bind]. eexists. reflexivity.
  - destruct fuel; [lia|]. cbn [sub_loop]. unfold next_sub at 1. rewrite Es. rewrite enc_msubs_cons.
    rewrite is_null_at by (rewrite lenN_app, lenN_enc_msub; unfold msub_size; lia). cbn [addr p_off bind]. rewrite <- app_assoc. rewrite (sub_full a x) by auto. cbn [bind].
    rewrite lenN_app, lenN_enc_msub, shift_at by lia.
    inversion Kl; subst.
    assert (G := next_sub_go (a ++ enc_msub x) y (enc_msubs l ++ c) (lenN a + msub_size x) (msub_size x + lenN (enc_msubs (y :: l)) - msub_size x) s).
    rewrite enc_msubs_cons in *. rewrite <- !app_assoc in *. rewrite G; [|rewrite lenN_app, lenN_enc_msub; auto|auto|rewrite lenN_app, lenN_enc_msub; lia].
    cbn [bind]. match goal with |- context [see_sub _ ?q] => set (s1 := q) end. assert (V := see_sub_at (a ++ enc_msub x) y (enc_msubs l ++ c) s1 (lenN a + msub_size x)). rewrite <- !app_assoc in V.
    erewrite V; [|rewrite lenN_app, lenN_enc_msub; auto|auto|reflexivity|reflexivity]. cbn [bind].
    destruct (IH fuel (a ++ enc_msub x) y c s1) as (raw & E); [auto|cbn [length] in F; lia| |].
    + unfold s1. cbn [r_sub]. rewrite enc_msubs_cons, !lenN_app, !lenN_enc_msub. f_equal. lia.
    + rewrite enc_msubs_cons, <- !app_assoc in E. rewrite E. cbn [bind]. unfold s1. cbn [r_first r_ev]. eexists. reflexivity.
Qed.

Lemma event_subs a e c s n fuel : mevent_ok e -> mevent_size e <= n -> (length (me_subs e) < fuel)%nat ->
  r_sub s = pnull -> r_ev s = mkP (Some (lenN a)) n ->
  exists raw, sub_loop fuel (a ++ enc_mevent e ++ c) s = Ok (mkR (r_first s) (r_ev s) pnull raw, me_subs e).
Proof.
  intros K L F Es Ee. destruct fuel; [lia|]. cbn [sub_loop]. unfold next_sub at 1. rewrite Es. cbn [is_null pnull p_off]. rewrite Ee.
  assert (Z : 16 <= mevent_size e) by (unfold mevent_size; lia).
  rewrite is_null_at by lia. cbn [addr p_off bind]. rewrite (event_full a e c) by auto. cbn [bind]. destruct (N.ltb_spec (mevent_size e) 16); [lia|].
  rewrite limit_at by lia. rewrite shift_at by lia.
  destruct (me_subs e) as [|x l] eqn:El.
  - assert (M0 : mevent_size e = 16) by (unfold mevent_size; rewrite El; reflexivity). rewrite M0. cbn [p_full]. change (16 - 16 <? 12) with true. cbn [bind].
    eexists. reflexivity.
  - destruct K as (K1 & K2 & K3 & K4 & K5). rewrite El in K4.
    set (h := le 4 ((mevent_size e - 8) / 2) ++ le 4 (me_type e) ++ le 4 (me_trig e) ++ le 4 (me_num e)).
    assert (Eh : enc_mevent e = h ++ enc_msubs (x :: l)) by (unfold enc_mevent, h; rewrite El, <- !app_assoc; reflexivity).
    assert (Lh : lenN h = 16) by (unfold h; rewrite !lenN_app, !lenN_le; reflexivity).
    assert (Ms : mevent_size e - 16 = lenN (enc_msubs (x :: l))) by (unfold mevent_size; rewrite El; lia).
    rewrite Eh, Ms. rewrite enc_msubs_cons.
    assert (G := next_sub_go (a ++ h) x (enc_msubs l ++ c) (lenN a + 16) (lenN (enc_msubs (x :: l))) s). rewrite enc_msubs_cons in G.
    rewrite <- !app_assoc in *. inversion K4; subst. rewrite Ee in G. rewrite G; [|rewrite lenN_app, Lh; auto|auto|rewrite lenN_app, lenN_enc_msub; lia]. cbn [bind].
    set (s1 := mkR (r_first s) (mkP (Some (lenN a)) n) _ _).
    assert (V := see_sub_at (a ++ h) x (enc_msubs l ++ c) s1 (lenN a + 16)). rewrite <- !app_assoc in V.
    erewrite V; [|rewrite lenN_app, Lh; auto|auto|reflexivity|reflexivity]. cbn [bind].
    destruct (sub_loop_at l fuel (a ++ h) x c s1) as (raw & E); [auto|cbn [length] in F; lia| |].
    + unfold s1. cbn [r_sub]. rewrite enc_msubs_cons, !lenN_app, Lh. reflexivity.
    + rewrite enc_msubs_cons, <- !app_assoc in E. rewrite E. cbn [bind]. unfold s1. cbn [r_first r_ev]. eexists. reflexivity.
Qed.

Lemma enc_mevents_cons e l : enc_mevents (e :: l) = enc_mevent e ++ enc_mevents l.
Proof. reflexivity. Qed.
Lemma enc_mevents_app e l : enc_mevents (e ++ l) = enc_mevents e ++ enc_mevents l.
Proof. unfold enc_mevents. rewrite map_app, concat_app. reflexivity. Qed.
Lemma mevents_len l : 16 * N.of_nat (length l) <= lenN (enc_mevents l).
Proof.
  induction l as [|x l IH]; [cbn; lia|]. rewrite enc_mevents_cons, lenN_app, lenN_enc_mevent. unfold mevent_size. cbn [length]. lia.
Qed.

(* the iterator arrives at event [e] *)
Definition at_event (a : bytes) (e : mevent) (l : list mevent) : riter :=
  mkR false (mkP (Some (lenN a)) (lenN (enc_mevents (e :: l)))) pnull pnull.

Lemma next_first e l : mevent_ok e -> next_event (enc_mevents (e :: l)) (r_reset (enc_mevents (e :: l))) = Ok (at_event [] e l, true).
Proof.
  intros K. unfold next_event, r_reset. cbn [r_ev r_first].
  assert (Z : 16 <= mevent_size e) by (unfold mevent_size; lia).
  assert (Lm : lenN (enc_mevents (e :: l)) = mevent_size e + lenN (enc_mevents l)) by (rewrite enc_mevents_cons, lenN_app, lenN_enc_mevent; reflexivity).
  destruct (N.eqb_spec (lenN (enc_mevents (e :: l))) 0); [lia|]. rewrite is_null_at by lia. cbn [bind p_full addr p_off].
  destruct (N.ltb_spec (lenN (enc_mevents (e :: l))) 16); [lia|]. cbn [bind].
  assert (G := event_full [] e (enc_mevents l) 0 eq_refl K). cbn [app] in G. rewrite <- enc_mevents_cons in G. rewrite G. cbn [bind].
  destruct (N.ltb_spec (lenN (enc_mevents (e :: l))) (mevent_size e)); [lia|]. reflexivity.
Qed.
Lemma next_next a e f l raw sub : mevent_ok e -> mevent_ok f ->
  next_event (a ++ enc_mevents (e :: f :: l)) (mkR false (mkP (Some (lenN a)) (lenN (enc_mevents (e :: f :: l)))) sub raw) = Ok (at_event (a ++ enc_mevent e) f l, true).
Proof.
  intros K Kf. unfold next_event. cbn [r_ev r_first]. assert (Z : 16 <= mevent_size e) by (unfold mevent_size; lia). assert (Zf : 16 <= mevent_size f) by (unfold mevent_size; lia).
  assert (Lm : lenN (enc_mevents (e :: f :: l)) = mevent_size e + (mevent_size f + lenN (enc_mevents l))) by (rewrite !enc_mevents_cons, !lenN_app, !lenN_enc_mevent; reflexivity).
  rewrite Lm. rewrite is_null_at by lia. cbn [addr p_off bind]. rewrite enc_mevents_cons. rewrite (event_full a e (enc_mevents (f :: l))) by auto. cbn [bind]. rewrite shift_at by lia. cbn [p_full addr p_off bind].
  match goal with |- context [?x <? 16] => destruct (N.ltb_spec x 16); [lia|] end.
  assert (G := event_full (a ++ enc_mevent e) f (enc_mevents l) (lenN a + mevent_size e)). rewrite <- !app_assoc in G. rewrite enc_mevents_cons, G; [|rewrite lenN_app, lenN_enc_mevent; auto|auto]. cbn [bind].
  match goal with |- context [?x <? mevent_size f] => destruct (N.ltb_spec x (mevent_size f)); [lia|] end.
  unfold at_event. rewrite lenN_app, lenN_enc_mevent, enc_mevents_cons, lenN_app, lenN_enc_mevent. do 3 f_equal. f_equal. lia.
Qed.
Lemma next_end a e raw sub : mevent_ok e ->
  next_event (a ++ enc_mevents [e]) (mkR false (mkP (Some (lenN a)) (lenN (enc_mevents [e]))) sub raw) = Ok (mkR false pnull sub raw, false).
Proof.
  intros K. unfold next_event. cbn [r_ev r_first]. assert (Z : 16 <= mevent_size e) by (unfold mevent_size; lia).
  assert (Lm : lenN (enc_mevents [e]) = mevent_size e) by (rewrite enc_mevents_cons, lenN_app, lenN_enc_mevent; change (lenN (enc_mevents [])) with 0; lia).
  rewrite Lm. rewrite is_null_at by lia. cbn [addr p_off bind]. rewrite enc_mevents_cons. rewrite (event_full a e) by auto. cbn [bind]. rewrite shift_at by lia. cbn [p_full]. rewrite N.sub_diag. change (0 <? 16) with true. reflexivity.
Qed.

Lemma see_event a e l fuel k : mevent_ok e -> (length (a ++ enc_mevents (e :: l)) < fuel)%nat ->
  exists raw,
  (do p <- event_pointer (a ++ enc_mevents (e :: l)) (at_event a e l); do o <- addr p; do all <- getb (a ++ enc_mevents (e :: l)) o (p_full p);
   do t <- getw (a ++ enc_mevents (e :: l)) (o + 4); do g <- getw (a ++ enc_mevents (e :: l)) (o + 8); do n <- getw (a ++ enc_mevents (e :: l)) (o + 12);
   do (s2, subs) <- sub_loop fuel (a ++ enc_mevents (e :: l)) (at_event a e l);
   do l2 <- event_loop k (a ++ enc_mevents (e :: l)) s2; Ok ((all, mkME t g n subs) :: l2)) =
  (do l2 <- event_loop k (a ++ enc_mevents (e :: l)) (mkR false (mkP (Some (lenN a)) (lenN (enc_mevents (e :: l)))) pnull raw); Ok ((enc_mevent e, e) :: l2)).
Proof.
  intros K F. assert (Z : 16 <= mevent_size e) by (unfold mevent_size; lia).
  assert (Lm : lenN (enc_mevents (e :: l)) = mevent_size e + lenN (enc_mevents l)) by (rewrite enc_mevents_cons, lenN_app, lenN_enc_mevent; reflexivity).
  destruct (event_subs a e (enc_mevents l) (at_event a e l) (lenN (enc_mevents (e :: l))) fuel) as (raw & E); [auto|lia| |reflexivity|reflexivity|].
  { assert (X := msubs_len (me_subs e)). unfold mevent_size in *. rewrite app_length in F. unfold lenN in *. lia. }
  exists raw. unfold event_pointer at 1. assert (Ev : r_ev (at_event a e l) = mkP (Some (lenN a)) (lenN (enc_mevents (e :: l)))) by reflexivity. rewrite Ev. rewrite is_null_at by lia. cbn [addr p_off bind].
  rewrite enc_mevents_cons in *. rewrite (event_full a e) by auto. cbn [bind]. rewrite limit_at by lia. cbn [addr p_off bind p_full].
  assert (G := getb_at a (enc_mevent e) (enc_mevents l) (lenN a) eq_refl). rewrite lenN_enc_mevent in G. rewrite G. cbn [bind].
  rewrite E. destruct K as (W1 & W2 & W3 & _).
  assert (E1 : getw (a ++ enc_mevent e ++ enc_mevents l) (lenN a + 4) = Ok (me_type e)).
  { unfold enc_mevent. rewrite <- !app_assoc. apply getw_off; auto. }
  assert (E2 : getw (a ++ enc_mevent e ++ enc_mevents l) (lenN a + 8) = Ok (me_trig e)).
  { unfold enc_mevent. rewrite <- !app_assoc. rewrite (app_assoc (le 4 _) (le 4 (me_type e))). apply getw_off; auto. }
  assert (E3 : getw (a ++ enc_mevent e ++ enc_mevents l) (lenN a + 12) = Ok (me_num e)).
  { unfold enc_mevent. rewrite <- !app_assoc. rewrite (app_assoc (le 4 (me_type e))), (app_assoc (le 4 _) (le 4 (me_type e) ++ _)). apply getw_off; auto. }
  rewrite E1, E2, E3. cbn [bind]. unfold at_event. cbn [r_first r_ev]. destruct e; reflexivity.
Qed.

Lemma event_loop_next l : forall fuel a e raw, Forall mevent_ok (e :: l) -> (length l < fuel)%nat ->
  event_loop fuel (a ++ enc_mevents (e :: l)) (mkR false (mkP (Some (lenN a)) (lenN (enc_mevents (e :: l)))) pnull raw) =
  Ok (map (fun e => (enc_mevent e, e)) l).
Proof.
  induction l as [|f l IH]; intros fuel a e raw K F; inversion K as [|? ? Ke Kl]; subst; (destruct fuel; [lia|]); cbn [event_loop].
  - rewrite next_end by auto. reflexivity.
  - inversion Kl; subst. rewrite next_next by auto. cbn [bind].
    assert (Em : a ++ enc_mevents (e :: f :: l) = (a ++ enc_mevent e) ++ enc_mevents (f :: l)) by (rewrite enc_mevents_cons, <- app_assoc; reflexivity).
    rewrite Em. edestruct (see_event (a ++ enc_mevent e) f l) as (raw' & E); [auto| |rewrite E].
    { apply Nat.lt_succ_diag_r. }
    rewrite IH by (auto; cbn [length] in F; lia). reflexivity.
Qed.

Lemma read_events l : Forall mevent_ok l -> read_all (enc_mevents l) = Ok (map (fun e => (enc_mevent e, e)) l).
Proof.
  intros K. unfold read_all. destruct l as [|e l]; [reflexivity|]. cbn [event_loop]. inversion K; subst. rewrite next_first by auto. cbn [bind].
  edestruct (see_event [] e l) as (raw' & E); [auto| |cbn [app] in E; rewrite E].
  { apply Nat.lt_succ_diag_r. }
  assert (G := event_loop_next l (length (enc_mevents (e :: l))) [] e raw'). cbn [app] in G. change (lenN (@nil N)) with 0 in *. rewrite G; [reflexivity|auto|].
  assert (X := mevents_len (e :: l)). unfold lenN in X. cbn [length] in X. lia.
Qed.

(* counting *)
Lemma count_next l : forall fuel a e raw sub, Forall mevent_ok (e :: l) -> (length l < fuel)%nat ->
  count_loop fuel (a ++ enc_mevents (e :: l)) (mkR false (mkP (Some (lenN a)) (lenN (enc_mevents (e :: l)))) sub raw) = Ok (lenN l).
Proof.
  induction l as [|f l IH]; intros fuel a e raw sub K F; inversion K as [|? ? Ke Kl]; subst; (destruct fuel; [lia|]); cbn [count_loop].
  - rewrite next_end by auto. reflexivity.
  - inversion Kl; subst. rewrite next_next by auto. cbn [bind].
    assert (Em : a ++ enc_mevents (e :: f :: l) = (a ++ enc_mevent e) ++ enc_mevents (f :: l)) by (rewrite enc_mevents_cons, <- app_assoc; reflexivity).
    rewrite Em. unfold at_event. rewrite IH by (auto; cbn [length] in F; lia). cbn [bind]. rewrite lenN_cons. reflexivity.
Qed.
Lemma num_events_at l : Forall mevent_ok l -> num_events (enc_mevents l) = Ok (lenN l).
Proof.
  intros K. unfold num_events. destruct l as [|e l]; [reflexivity|]. cbn [count_loop]. inversion K; subst. rewrite next_first by auto. cbn [bind]. unfold at_event.
  assert (G := count_next l (length (enc_mevents (e :: l))) [] e pnull pnull). cbn [app] in G. rewrite G; [cbn [bind]; rewrite lenN_cons; reflexivity|auto|].
  assert (X := mevents_len (e :: l)). unfold lenN in X. cbn [length] in X. lia.
Qed.

(* ---- walking over the subevents of an event ---- *)
Definition empty_last (l : list msub) : bool :=
  match rev l with x :: _ :: _ => lenN (ms_raw x) =? 0 | _ => false end.
Definition found (l : list msub) : list msub := if empty_last l then removelast l else l.

Lemma positions_shift l : forall o, Forall (fun p => o <= p) (positions o l).
Proof. induction l as [|x l IH]; intros o; [constructor|]. cbn [positions]. constructor; [lia|]. eapply Forall_impl; [|apply IH]. intros p H. cbv beta in H. unfold msub_size in H. lia. Qed.

(* from subevent [x], with [l] after it *)
Definition after_found (l : list msub) : list msub :=
  match rev l with x :: _ => if lenN (ms_raw x) =? 0 then removelast l else l | [] => [] end.
Lemma after_cons x y l : after_found (x :: y :: l) = x :: after_found (y :: l).
Proof.
  unfold after_found. change (rev (x :: y :: l)) with (rev (y :: l) ++ [x]). destruct (rev (y :: l)) as [|z r] eqn:E.
  - apply (f_equal (@length _)) in E. rewrite rev_length in E. discriminate.
  - cbn [app]. destruct (lenN (ms_raw z) =? 0); reflexivity.
Qed.
Lemma walk_at l : forall fuel m a x b c o, m = a ++ enc_msub x ++ enc_msubs l ++ c -> Forall msub_ok (x :: l) ->
  (length l < fuel)%nat -> full_size m o = Ok b -> o + b = lenN a + msub_size x + lenN (enc_msubs l) ->
  walk fuel m o (Some (lenN a)) = Ok (positions (lenN a + msub_size x) (after_found l)).
Proof.
  induction l as [|y l IH]; intros fuel m a x b c o Em K F Eb Es; inversion K as [|? ? Kx Kl]; subst; (destruct fuel; [lia|]);
    cbn [walk]; unfold next_sub_hdr; rewrite Eb; cbn [bind]; rewrite sub_full by auto; cbn [bind].
  - change (enc_msubs []) with (@nil N) in Es. rewrite lenN_nil in Es. destruct (N.ltb_spec (lenN a + msub_size x + 12) (o + b)); [lia|]. reflexivity.
  - rewrite enc_msubs_cons, lenN_app, lenN_enc_msub in Es. inversion Kl; subst. assert (Sy : msub_size y = 12 + lenN (ms_raw y)) by reflexivity.
    destruct (N.ltb_spec (lenN a + msub_size x + 12) (o + b)) as [L|L].
    + set (m := a ++ enc_msub x ++ enc_msubs (y :: l) ++ c) in *.
      assert (X := IH fuel m (a ++ enc_msub x) y b c o). rewrite lenN_app, lenN_enc_msub in X.
      rewrite X; clear X; [|unfold m; rewrite enc_msubs_cons, <- !app_assoc; reflexivity|auto|cbn [length] in F; lia|auto|lia].
      cbn [bind]. f_equal. destruct l as [|z l]; [|rewrite after_cons; reflexivity].
      unfold after_found. cbn [rev app removelast]. change (enc_msubs []) with (@nil N) in Es. rewrite lenN_nil in Es.
      destruct (N.eqb_spec (lenN (ms_raw y)) 0); [lia|]. reflexivity.
    + assert (lenN (enc_msubs l) = 0 /\ lenN (ms_raw y) = 0) as (Z1 & Z2) by lia.
      destruct l as [|z l]; [|rewrite enc_msubs_cons, lenN_app, lenN_enc_msub in Z1; unfold msub_size in Z1; lia].
      unfold after_found. cbn [rev app removelast]. rewrite Z2. reflexivity.
Qed.
Lemma walk_event a e c : mevent_ok e ->
  walk (S (length (a ++ enc_mevent e ++ c))) (a ++ enc_mevent e ++ c) (lenN a) None = Ok (positions (lenN a + 16) (found (me_subs e))).
Proof.
  intros K. cbn [walk]. unfold next_sub_hdr. assert (Eb := event_full a e c (lenN a) eq_refl K). rewrite Eb. cbn [bind].
  destruct (me_subs e) as [|x l] eqn:El.
  - replace (mevent_size e) with 16 by (unfold mevent_size; rewrite El; reflexivity). reflexivity.
  - assert (Kl : Forall msub_ok (x :: l)) by (rewrite <- El; apply K).
    set (h := le 4 ((mevent_size e - 8) / 2) ++ le 4 (me_type e) ++ le 4 (me_trig e) ++ le 4 (me_num e)).
    assert (Eh : enc_mevent e = h ++ enc_msubs (x :: l)) by (unfold enc_mevent, h; rewrite El, <- !app_assoc; reflexivity).
    assert (Lh : lenN h = 16) by (unfold h; rewrite !lenN_app, !lenN_le; reflexivity).
    assert (Ms : mevent_size e = 16 + lenN (enc_msubs (x :: l))) by (unfold mevent_size; rewrite El; lia).
    assert (Lx : 12 <= lenN (enc_msubs (x :: l))) by (rewrite enc_msubs_cons, lenN_app, lenN_enc_msub; unfold msub_size; lia).
    destruct (N.ltb_spec 16 (mevent_size e)); [|lia].
    assert (X := walk_at l (length (a ++ enc_mevent e ++ c)) (a ++ enc_mevent e ++ c) (a ++ h) x (mevent_size e) c (lenN a)).
    rewrite lenN_app, Lh in X. rewrite X; [|rewrite Eh, enc_msubs_cons, <- !app_assoc; reflexivity|auto| |auto| ].
    + cbn [bind]. f_equal. unfold found, empty_last. destruct l as [|y l]; [reflexivity|].
      unfold after_found. change (rev (x :: y :: l)) with (rev (y :: l) ++ [x]). destruct (rev (y :: l)) as [|z r] eqn:E.
      * apply (f_equal (@length _)) in E. rewrite rev_length in E. discriminate.
      * cbn [app]. destruct (r ++ [x]) eqn:Er; [destruct r; discriminate|]. destruct (lenN (ms_raw z) =? 0); reflexivity.
    + assert (Q := msubs_len (x :: l)). unfold lenN in Q. rewrite Eh, !app_length. cbn [length] in Q. lia.
    + rewrite enc_msubs_cons, lenN_app, lenN_enc_msub in Ms. lia.
Qed.
