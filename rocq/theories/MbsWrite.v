(* Writing MBS events. *)
From Verif Require Import Common ListFacts Bytes WordMem BufPtr MbsSpec MbsModel MbsRead.
Open Scope N_scope.

Lemma set_full_at a b c o s : o = lenN a -> lenN b = 4 -> 8 <= s -> s < 2^32 ->
  set_full_size (a ++ b ++ c) o s = Ok (a ++ le 4 ((s - 8) / 2) ++ c).
Proof.
  intros -> Lb L U. unfold set_full_size. change (2^32) with 4294967296 in *.
  replace ((s mod 4294967296 + 4294967296 - 8) mod 4294967296) with (s - 8) by lia. apply setw_at; auto.
Qed.
Lemma id_bytes crate procid control : crate < 2^8 -> procid < 2^16 -> control < 2^8 ->
  le 2 procid ++ le 1 crate ++ le 1 control = le 4 (procid + crate * 2^16 + control * 2^24).
Proof.
  intros H1 H2 H3. cbn [le app]. change (2^8) with 256 in *. change (2^16) with 65536 in *. change (2^24) with 16777216.
  f_equal; [lia|]. f_equal; [lia|]. f_equal; [lia|]. f_equal. lia.
Qed.

(* between subevents of an event: [a] finished events, [b] the event so far *)
Definition inside (a b rest : bytes) : witer :=
  mkW (a ++ b ++ rest) (mkP (Some (lenN a)) (lenN b + lenN rest)) (mkP (Some (lenN a + lenN b)) (lenN rest)) pnull (lenN a).
(* between events *)
Definition between (a rest : bytes) : witer :=
  mkW (a ++ rest) (mkP (Some (lenN a)) (lenN rest)) pnull pnull (lenN a).

Lemma mkW_eq m m' o n n' so so' sn sn' d f f' : m = m' -> n = n' -> so = so' -> sn = sn' -> f = f' ->
  @Ok (witer * bool) (mkW m (mkP (Some o) n) (mkP (Some so) sn) d f, true) = Ok (mkW m' (mkP (Some o) n') (mkP (Some so') sn') d f', true).
Proof. intros -> -> -> -> ->. reflexivity. Qed.

Lemma add_pieces_at l : forall p d rest ev sub full, Forall (fun b => b <> []) l -> lenN (concat l) <= lenN rest -> lenN rest <= p_full sub ->
  exists rest', add_pieces (mkW (p ++ d ++ rest) ev sub (mkP (Some (lenN p + lenN d)) (lenN rest)) full) l =
    Ok (mkW (p ++ (d ++ concat l) ++ rest') ev sub (mkP (Some (lenN p + lenN d + lenN (concat l))) (lenN rest')) full, true) /\
    lenN rest' + lenN (concat l) = lenN rest.
Proof.
  induction l as [|x l IH]; intros p d rest ev sub full Ne L Ls.
  - exists rest. cbn [concat add_pieces]. rewrite app_nil_r, lenN_nil, !N.add_0_r. auto.
  - inversion Ne as [|? ? Nx Nl]; subst. cbn [concat] in *. rewrite lenN_app in L. cbn [add_pieces].
    assert (Lx : 0 < lenN x) by (destruct x; [congruence|rewrite lenN_cons; lia]).
    destruct (split_at rest (lenN x)) as (r1 & r2 & -> & L1); [lia|]. rewrite lenN_app in *.
    unfold add_raw. cbn [w_data w_sub w_mem w_ev w_full]. rewrite is_null_at by lia.
    destruct (N.ltb_spec (p_full sub) (lenN x)); [lia|]. cbn [orb p_full]. rewrite N.min_l by lia. cbn [addr p_off bind].
    rewrite takeN_all by lia. rewrite (app_assoc p d). rewrite (setb_at (p ++ d) r1 r2 _ x) by (auto; rewrite lenN_app; reflexivity). cbn [bind].
    rewrite shift_at by lia. replace (lenN r1 + lenN r2 - lenN x) with (lenN r2) by lia.
    destruct (IH p (d ++ x) r2 ev sub full Nl) as (rest' & E & Lr); [lia|lia|].
    exists rest'. rewrite lenN_app in E. rewrite <- !app_assoc in *. rewrite N.add_assoc in E. rewrite E. split; [rewrite lenN_app, !N.add_assoc; reflexivity|rewrite lenN_app; lia].
Qed.

Lemma write_sub_at a b rest x : wsub_ok x -> msub_ok (sub_of x) -> msub_size (sub_of x) <= lenN rest -> lenN a + lenN b + lenN rest < 2^32 ->
  exists rest', write_sub (inside a b rest) x = Ok (inside a (b ++ enc_msub (sub_of x)) rest', true) /\
    lenN rest' + msub_size (sub_of x) = lenN rest.
Proof.
  intros Kx K L T. assert (Z : 12 <= msub_size (sub_of x)) by (unfold msub_size; lia). destruct x as [crate procid control l|x].
  - cbn [sub_of] in *. set (y := mkMS mbs_type (procid + crate * 2^16 + control * 2^24) (concat l)) in *.
    destruct Kx as (C1 & C2 & C3 & Ne). cbn [write_sub]. unfold new_sub, inside. cbn [w_sub w_data w_mem w_ev w_full]. rewrite is_null_at by lia. cbn [is_null pnull p_off negb p_full].
    destruct (N.ltb_spec (lenN rest) (12 + 0)); [lia|]. cbn [addr p_off bind].
    destruct (split_at rest 12) as (h & r & -> & Lh); [lia|]. rewrite lenN_app in *.
    unfold init_sub. change (N.lor 10 (N.shiftl 1 16)) with mbs_type. rewrite id_bytes by auto.
    set (hd := le 4 0 ++ le 4 mbs_type ++ le 4 (procid + crate * 2^16 + control * 2^24)).
    assert (Lhd : lenN hd = 12) by (unfold hd; rewrite !lenN_app, !lenN_le; reflexivity).
    rewrite (app_assoc a b). rewrite (setb_at (a ++ b) h r _ hd) by (rewrite ?lenN_app; lia). cbn [bind]. rewrite shift_at by lia.
    assert (Ly : msub_size y = 12 + lenN (concat l)) by reflexivity.
    destruct (add_pieces_at l ((a ++ b) ++ hd) [] r (mkP (Some (lenN a)) (lenN b + (lenN h + lenN r))) (mkP (Some (lenN a + lenN b)) (lenN h + lenN r)) (lenN a) Ne) as (rest' & E & Lr); [lia|cbn [p_full]; lia|].
    rewrite !lenN_app, Lhd, lenN_nil in E. cbn [app] in E. rewrite <- !app_assoc in *. rewrite N.add_0_r in E.
    replace (lenN h + lenN r - 12) with (lenN r) by lia. rewrite E. cbn [bind].
    exists rest'. split; [|lia].
    unfold finish_sub, max_raw. cbn [w_sub w_data w_mem w_ev w_full]. rewrite is_null_at by lia. cbn [addr p_off bind p_full].
    assert (Fi : (if is_null (mkP (Some (lenN a + lenN b + 12 + lenN (concat l))) (lenN rest')) then Ok ((lenN h + lenN r + 2^32 - 12) mod 2^32)
                  else Ok (lenN a + lenN b + 12 + lenN (concat l) - (lenN a + lenN b) - 12)) = Ok (lenN (concat l))).
    { unfold is_null. cbn [p_off p_full]. change (2^32) with 4294967296 in *. destruct (N.eqb_spec (lenN rest') 0); f_equal; lia. }
    rewrite Fi. cbn [bind]. clear Fi. cbn [N.eqb].
    destruct (N.ltb_spec ((lenN h + lenN r + 2^32 - 12) mod 2^32) (lenN (concat l))) as [Q|_]; [change (2^32) with 4294967296 in *; lia|].
    unfold hd. rewrite <- !app_assoc. rewrite (app_assoc a b).
    destruct K as (_ & _ & Ev & Us). cbn [ms_raw y] in Ev.
    rewrite set_full_at; [|rewrite lenN_app; auto|reflexivity|lia|change (2^32) with 4294967296 in *; lia]. cbn [bind].
    rewrite full_at; [|rewrite lenN_app; auto|lia|change (2^32) with 4294967296 in *; lia|lia]. cbn [bind]. rewrite shift_at by lia.
    assert (Ee : enc_msub y = le 4 ((lenN (concat l) + 12 - 8) / 2) ++ le 4 mbs_type ++ le 4 (procid + crate * 2^16 + control * 2^24) ++ concat l).
    { unfold enc_msub. rewrite Ly. cbn [ms_type ms_id ms_raw y]. do 4 f_equal. lia. }
    rewrite lenN_app, lenN_enc_msub. rewrite Ee, <- !app_assoc. apply mkW_eq; try reflexivity; lia.
  - cbn [sub_of] in *. cbn [write_sub]. unfold add_sub, inside. cbn [w_sub w_data w_mem w_ev w_full]. rewrite is_null_at by lia. cbn [p_full].
    rewrite lenN_enc_msub. destruct (N.ltb_spec (lenN rest) (msub_size x)); [lia|]. cbn [addr p_off bind].
    destruct (split_at rest (msub_size x)) as (h & r & -> & Lh); [lia|]. rewrite lenN_app in *.
    rewrite (app_assoc a b). rewrite (setb_at (a ++ b) h r) by (rewrite ?lenN_app, ?lenN_enc_msub; auto). cbn [bind]. rewrite shift_at by lia.
    exists r. split; [|lia]. rewrite lenN_app, lenN_enc_msub, <- !app_assoc. apply mkW_eq; try reflexivity; lia.
Qed.

Lemma write_subs_at l : forall a b rest, Forall wsub_ok l -> Forall msub_ok (map sub_of l) -> lenN (enc_msubs (map sub_of l)) <= lenN rest -> lenN a + lenN b + lenN rest < 2^32 ->
  exists rest', write_subs (inside a b rest) l = Ok (inside a (b ++ enc_msubs (map sub_of l)) rest', true) /\
    lenN rest' + lenN (enc_msubs (map sub_of l)) = lenN rest.
Proof.
  induction l as [|x l IH]; intros a b rest Kx K L T.
  - exists rest. cbn [map write_subs]. change (enc_msubs []) with (@nil N). rewrite app_nil_r, lenN_nil. split; [reflexivity|lia].
  - inversion Kx; inversion K; subst. cbn [map write_subs] in *. rewrite enc_msubs_cons in *. rewrite lenN_app, lenN_enc_msub in *.
    destruct (write_sub_at a b rest x) as (r1 & E1 & L1); auto; [lia|]. rewrite E1. cbn [bind].
    destruct (IH a (b ++ enc_msub (sub_of x)) r1) as (r2 & E2 & L2); auto; [lia|rewrite lenN_app, lenN_enc_msub; lia|].
    rewrite E2. exists r2. rewrite <- app_assoc. split; [reflexivity|lia].
Qed.

Lemma write_event_at a rest e : wevent_ok e -> mevent_size (event_of e) <= lenN rest -> lenN a + lenN rest < 2^32 ->
  exists rest', write_event (between a rest) e = Ok (between (a ++ enc_mevent (event_of e)) rest', true) /\
    lenN rest' + mevent_size (event_of e) = lenN rest.
Proof.
  intros (Ks & K) L T.
  (* the event as started: header and subevents copied *)
  assert (St : exists h w rest1 subs0, start_event (between a rest) (fst e) = Ok (inside a h rest1, true) /\
     h = w ++ le 4 (me_type (event_of e)) ++ le 4 (me_trig (event_of e)) ++ le 4 (me_num (event_of e)) ++ enc_msubs subs0 /\
     lenN w = 4 /\ lenN rest1 + lenN h = lenN rest /\ me_subs (event_of e) = subs0 ++ map sub_of (snd e)).
  { destruct e as [[n|x] l]; cbn [fst snd event_of start_event] in *.
    - assert (L16 : 16 <= lenN rest) by (unfold mevent_size in L; lia). unfold new_event, between. cbn [w_sub w_data w_mem w_ev w_full]. change (is_null pnull) with true. cbn [negb].
      rewrite is_null_at by lia. cbn [p_full]. destruct (N.ltb_spec (lenN rest) (16 + 0)); [lia|]. cbn [addr p_off bind].
      destruct (split_at rest 16) as (h & r & -> & Lh); [lia|]. rewrite lenN_app in *. unfold init_event.
      change (le 4 0 ++ le 4 (N.lor 10 (N.shiftl 1 16)) ++ le 2 0 ++ le 2 1 ++ le 4 n) with (le 4 0 ++ le 4 mbs_type ++ le 4 (1 * 2^16) ++ le 4 n).
      rewrite (setb_at a h r) by (auto; rewrite !lenN_app, !lenN_le, Lh; reflexivity). cbn [bind]. rewrite shift_at by lia.
      eexists. exists (le 4 0), r, []. split; [|split; [reflexivity|split; [reflexivity|split; [rewrite !lenN_app, !lenN_le; change (lenN (enc_msubs [])) with 0; lia|reflexivity]]]].
      unfold inside. cbn [me_type me_trig me_num]. apply mkW_eq; rewrite ?lenN_app, ?lenN_le; change (lenN (enc_msubs [])) with 0; [rewrite <- !app_assoc; reflexivity|lia|lia|lia|lia].
    - assert (Lx : mevent_size x <= lenN rest). { unfold mevent_size in *. cbn [me_subs event_of fst snd] in L. rewrite enc_msubs_app, lenN_app in L. lia. }
      assert (Z : 16 <= mevent_size x) by (unfold mevent_size; lia).
      unfold copy_event, between. cbn [w_sub w_data w_mem w_ev w_full]. change (is_null pnull) with true. cbn [negb]. rewrite is_null_at by lia. cbn [p_full].
      rewrite lenN_enc_mevent. destruct (N.ltb_spec (lenN rest) (mevent_size x)); [lia|]. cbn [addr p_off bind].
      destruct (split_at rest (mevent_size x)) as (h & r & -> & Lh); [lia|]. rewrite lenN_app in *.
      rewrite (setb_at a h r) by (auto; rewrite lenN_enc_mevent; auto). cbn [bind]. rewrite shift_at by lia.
      exists (enc_mevent x). exists (le 4 ((mevent_size x - 8) / 2)), r, (me_subs x). split; [|split; [reflexivity|split; [reflexivity|split; [rewrite lenN_enc_mevent; lia|reflexivity]]]].
      unfold inside. rewrite lenN_enc_mevent. apply mkW_eq; try reflexivity; lia. }
  destruct St as (h & w & rest1 & subs0 & E0 & Eh & Lw & Lr & Em). unfold write_event. rewrite E0. cbn [bind].
  assert (Ksub : Forall msub_ok (me_subs (event_of e))) by apply K. rewrite Em in Ksub. apply Forall_app in Ksub. destruct Ksub as (_ & Ksub).
  assert (Sz : mevent_size (event_of e) = lenN h + lenN (enc_msubs (map sub_of (snd e)))).
  { unfold mevent_size. rewrite Em, enc_msubs_app, Eh, !lenN_app, !lenN_le, Lw. lia. }
  destruct (write_subs_at (snd e) a h rest1) as (rest' & E1 & L1); auto; [lia|lia|].
  rewrite E1. cbn [bind]. exists rest'. split; [|lia].
  set (b := h ++ enc_msubs (map sub_of (snd e))) in *. assert (Lb : lenN b = mevent_size (event_of e)) by (unfold b; rewrite lenN_app; lia).
  assert (Z : 16 <= mevent_size (event_of e)) by (unfold mevent_size; lia).
  unfold finish_event, inside. cbn [w_sub w_data w_mem w_ev w_full]. rewrite is_null_at by lia. cbn [addr p_off bind p_full].
  assert (Fi : (if is_null (mkP (Some (lenN a + lenN b)) (lenN rest')) then Ok (lenN b + lenN rest') else Ok (lenN a + lenN b - lenN a)) = Ok (lenN b)).
  { unfold is_null. cbn [p_off p_full]. destruct (N.eqb_spec (lenN rest') 0); f_equal; lia. }
  rewrite Fi. cbn [bind]. assert (Eb : b = w ++ le 4 (me_type (event_of e)) ++ le 4 (me_trig (event_of e)) ++ le 4 (me_num (event_of e)) ++ enc_msubs (me_subs (event_of e))).
  { unfold b. rewrite Eh, Em, enc_msubs_app, <- !app_assoc. reflexivity. }
  rewrite shift_at by lia. rewrite Lb. replace (a ++ b ++ rest') with (a ++ w ++ (le 4 (me_type (event_of e)) ++ le 4 (me_trig (event_of e)) ++ le 4 (me_num (event_of e)) ++ enc_msubs (me_subs (event_of e))) ++ rest') by (rewrite Eb, <- !app_assoc; reflexivity).
  rewrite set_full_at by (auto; change (2^32) with 4294967296 in *; lia). cbn [bind]. unfold between. rewrite lenN_app, lenN_enc_mevent.
  assert (Ee : enc_mevent (event_of e) = le 4 ((mevent_size (event_of e) - 8) / 2) ++ le 4 (me_type (event_of e)) ++ le 4 (me_trig (event_of e)) ++ le 4 (me_num (event_of e)) ++ enc_msubs (me_subs (event_of e))) by reflexivity.
  rewrite Ee, <- !app_assoc. do 4 f_equal. f_equal. lia.
Qed.

Lemma write_events_at l : forall a rest, Forall wevent_ok l -> lenN (enc_mevents (map event_of l)) <= lenN rest -> lenN a + lenN rest < 2^32 ->
  exists rest', write_events (between a rest) l = Ok (between (a ++ enc_mevents (map event_of l)) rest', true).
Proof.
  induction l as [|e l IH]; intros a rest K L T.
  - exists rest. cbn [map write_events]. change (enc_mevents []) with (@nil N). rewrite app_nil_r. reflexivity.
  - inversion K; subst. cbn [map write_events] in *. rewrite enc_mevents_cons in *. rewrite lenN_app, lenN_enc_mevent in *.
    destruct (write_event_at a rest e) as (r1 & E1 & L1); auto; [lia|]. rewrite E1. cbn [bind].
    destruct (IH (a ++ enc_mevent (event_of e)) r1) as (r2 & E2); auto; [lia|rewrite lenN_app, lenN_enc_mevent; lia|].
    rewrite E2. exists r2. rewrite <- app_assoc. reflexivity.
Qed.

Lemma write_all m0 s0 l : w_reset m0 = Some s0 -> Forall wevent_ok l -> l <> [] -> lenN (enc_mevents (map event_of l)) <= lenN m0 -> lenN m0 < 2^32 ->
  exists s, write_events s0 l = Ok (s, true) /\ w_close s = Ok (enc_mevents (map event_of l)).
Proof.
  intros R K Ne L T. unfold w_reset in R. destruct (lenN m0 <? 16 + 12); [discriminate|]. injection R as <-.
  destruct (write_events_at l [] m0 K L) as (rest & E); [rewrite lenN_nil; lia|]. unfold between in E at 1. cbn [app] in E. rewrite lenN_nil in E.
  eexists. split; [exact E|]. cbn [app]. unfold w_close, between. cbn [w_data w_sub w_full w_mem]. change (is_null pnull) with true. cbn [bind w_data w_sub w_full w_mem]. change (is_null pnull) with true. cbn [bind w_full w_mem]. cbv zeta.
  set (d := enc_mevents (map event_of l)) in *. rewrite lenN_app. assert (P := mevents_len (map event_of l)). fold d in P. rewrite map_length in P.
  destruct l; [congruence|]. cbn [length] in P. destruct (N.ltb_spec 0 (lenN d)); [|lia]. destruct (N.leb_spec (lenN d) (lenN d + lenN rest)); [|lia].
  cbn [andb]. rewrite takeN_app by auto. reflexivity.
Qed.

(* after a finished event no subevent is open *)
Lemma finish_event_sub s s' : finish_event s = Ok (s', true) -> w_sub s' = pnull.
Proof.
  unfold finish_event. intros H. destruct (is_null (w_ev s)); [discriminate|]. destruct (addr (w_ev s)) as [o| |]; cbn [bind] in H; try discriminate.
  destruct (if is_null (w_sub s) then _ else _) as [n| |]; cbn [bind] in H; try discriminate. destruct (set_full_size _ _ _) as [m| |]; cbn [bind] in H; try discriminate.
  injection H as <-. reflexivity.
Qed.
Lemma write_events_sub l : forall s s', l <> [] -> write_events s l = Ok (s', true) -> w_sub s' = pnull.
Proof.
  induction l as [|e l IH]; intros s s' Nn H; [congruence|]. cbn [write_events] in H. destruct (write_event s e) as [[s1 b]| |] eqn:W; cbn [bind] in H; try discriminate.
  destruct b; [|discriminate]. destruct l as [|f l]; [|apply (IH s1); [discriminate|exact H]]. cbn [write_events] in H. injection H as <-.
  unfold write_event in W. destruct (start_event _ _) as [[s2 b]| |]; cbn [bind] in W; try discriminate. destruct b; [|discriminate].
  destruct (write_subs _ _) as [[s3 b]| |]; cbn [bind] in W; try discriminate. destruct b; [|discriminate]. apply (finish_event_sub _ _ W).
Qed.
