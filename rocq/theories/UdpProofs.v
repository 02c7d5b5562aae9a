(* Proofs about the HADAQ UDP receiver. *)
From Verif Require Import Common ListFacts Bytes WordMem HadSpec HadModel HadWords UdpSpec UdpModel.
Open Scope N_scope.

(* ---- header ---- *)

Lemma unle4 a b c d : unle [a; b; c; d] = a + 256 * b + 65536 * c + 16777216 * d.
Proof. cbn [unle]. lia. Qed.

Lemma bytes8 (d : bytes) : 8 <= lenN d -> exists a b c e f g h i r, d = a :: b :: c :: e :: f :: g :: h :: i :: r.
Proof.
  intros L. unfold lenN in L.
  do 8 (destruct d as [|? d]; [cbn in L; lia|]). repeat eexists.
Qed.

Lemma pad8_spec w : w < 2^32 -> pad8 w = if 2^32 - 8 <? w then 0 else (w + 7) / 8 * 8.
Proof.
  intros W. unfold pad8. change (2^32) with 4294967296 in *. destruct (N.eqb_spec (w mod 8) 0) as [E|E];
  destruct (N.ltb_spec (4294967296 - 8) w) as [L|L]; lia.
Qed.
Lemma pad8_mult w : w < 2^32 -> pad8 w mod 8 = 0.
Proof. intros W. rewrite pad8_spec by exact W. change (2^32) with 4294967296 in *. destruct (4294967296 - 8 <? w); lia. Qed.
Lemma pad8_lt w : w < 2^32 -> pad8 w < 2^32.
Proof. intros W. rewrite pad8_spec by exact W. change (2^32) with 4294967296 in *. destruct (N.ltb_spec (4294967296 - 8) w); lia. Qed.

Lemma announced_lt d : Forall isbyte d -> announced d < 2^32.
Proof.
  intros F. unfold announced.
  assert (B : forall l, Forall isbyte l -> (length l <= 4)%nat -> unle l < 2^32).
  { intros l Fl Ll. pose proof (unle_bound l Fl) as U. eapply N.lt_le_trans; [exact U|].
    change (2^32) with (256^4). apply N.pow_le_mono_r; [lia|]. unfold lenN. lia. }
  assert (F4 : Forall isbyte (takeN 4 d)) by (apply Forall_takeN; exact F).
  assert (L4 : (length (takeN 4 d) <= 4)%nat) by (unfold takeN; rewrite firstn_length; lia).
  destruct (nth 7 d 0 =? 0); apply B; auto.
  - apply Forall_rev. exact F4.
  - rewrite rev_length. exact L4.
Qed.

Lemma conv_announced d : Forall isbyte d -> 8 <= lenN d ->
  conv (unle (takeN 4 (dropN 4 d))) (unle (takeN 4 d)) = announced d.
Proof.
  intros F L. destruct (bytes8 d L) as (a & b & c & e & f & g & h & i & r & ->).
  unfold announced. cbn [nth]. change (takeN 4 (dropN 4 (a::b::c::e::f::g::h::i::r))) with [f;g;h;i].
  change (takeN 4 (a::b::c::e::f::g::h::i::r)) with [a;b;c;e].
  assert (F4 : Forall isbyte [a;b;c;e]) by (repeat match goal with H : Forall _ (_ :: _) |- _ => inversion_clear H end; auto).
  assert (Fi : isbyte f /\ isbyte g /\ isbyte h /\ isbyte i) by
    (repeat match goal with H : Forall _ (_ :: _) |- _ => inversion_clear H end; auto).
  unfold isbyte in Fi. unfold conv, is_swapped. rewrite unle4.
  destruct (N.ltb_spec 16777215 (f + 256*g + 65536*h + 16777216*i)) as [S1|S1]; destruct (N.eqb_spec i 0) as [I|I]; try lia.
  - assert (W : unle [a;b;c;e] < 2^32) by (apply (unle_bound _ F4)).
    rewrite <- (unle_le4 (bswap (unle [a;b;c;e]))) by apply bswap_lt.
    rewrite le_bswap by exact W. f_equal. f_equal. apply (le_unle _ F4).
Qed.

Lemma getw_drop m o : o + 4 <= lenN m -> getw m o = Ok (unle (takeN 4 (dropN o m))).
Proof. intros L. unfold getw, getb. replace (o + 4 <=? lenN m) with true by lia. reflexivity. Qed.

Lemma padded_any m o : Forall isbyte m -> o + 8 <= lenN m -> exists w, w < 2^32 /\ padded m o = Ok (pad8 w).
Proof.
  intros F L. destruct (getw_ok m (o + 4) ltac:(lia) F) as (d & Ed & Ld). destruct (getw_ok m o ltac:(lia) F) as (w & Ew & Lw).
  exists (conv d w). split.
  - unfold conv. destruct (is_swapped d); [apply bswap_lt|exact Lw].
  - unfold padded, get_size, get_field. rewrite Ed. cbn [bind]. replace (o + 4 * 0) with o by lia. rewrite Ew. reflexivity.
Qed.

Lemma padded_at a d z : Forall isbyte d -> 8 <= lenN d -> padded (a ++ d ++ z) (lenN a) = Ok (pad8 (announced d)).
Proof.
  intros F L. unfold padded, get_size, get_field.
  rewrite !getw_drop by (rewrite !lenN_app; lia). cbn [bind].
  rewrite !(dropN_app_ge a) by lia. replace (lenN a + 4 - lenN a) with 4 by lia.
  replace (lenN a + 4 * 0 - lenN a) with 0 by lia. rewrite dropN_0.
  rewrite (dropN_app_le d z) by lia. rewrite !takeN_app_le by (rewrite ?lenN_dropN; lia).
  rewrite conv_announced by auto. reflexivity.
Qed.

(* how a datagram is judged *)
Lemma judge_spec mtu a d z : Forall isbyte (a ++ d ++ z) -> 0 < lenN d -> lenN d <= mtu -> mtu <= lenN d + lenN z ->
  32 <= mtu -> mtu < 2^31 -> harmless d ->
  exists good, judge (a ++ d ++ z) (lenN a) (lenN d) = Ok (good, bad_trailer d) /\
    (good = true -> padded (a ++ d ++ z) (lenN a) = Ok (lenN d - 32) /\ 32 <= lenN d /\
       ((consistent d /\ unit_len d = lenN d - 32 /\ wrapped d = false) \/ (~ consistent d /\ lenN d = 32 /\ wrapped d = true))) /\
    (good = false -> ~ consistent d /\ wrapped d = false).
Proof.
  intros Fm D0 Dm Zm M32 M31 Hh.
  assert (Fd : Forall isbyte d) by (apply Forall_app in Fm; destruct Fm as (_ & Fm); apply Forall_app in Fm; apply Fm).
  change (2^31) with 2147483648 in *.
  destruct (N.lt_ge_cases (lenN d) 8) as [L|L].
  - destruct (padded_any (a ++ d ++ z) (lenN a) Fm) as (w & W & E). { rewrite !lenN_app. lia. }
    exists false. unfold judge. rewrite E. cbn [bind].
    pose proof (pad8_mult w W) as Pm. pose proof (pad8_lt w W) as Pl.
    replace (Z.of_N (lenN d) =? msgsize (pad8 w))%Z with false.
    2:{ symmetry. apply Z.eqb_neq. unfold msgsize. change (2^32) with 4294967296 in *.
        change (2^32)%Z with 4294967296%Z. change (2^31)%Z with 2147483648%Z.
        destruct (Z.ltb_spec (Z.of_N ((pad8 w + 32) mod 4294967296)) 2147483648); lia. }
    cbn [negb]. split; [|split; [discriminate|]].
    + f_equal. f_equal. unfold bad_trailer. replace (lenN d =? unit_len d + 32) with false by lia. reflexivity.
    + intros _. split; [unfold consistent; lia|]. unfold wrapped. replace (lenN d =? 32) with false by lia. reflexivity.
  - pose proof (padded_at a d z Fd L) as E. pose proof (announced_lt d Fd) as W.
    unfold judge. rewrite E. cbn [bind]. set (n := pad8 (announced d)) in *.
    assert (Pn : n = if 2^32 - 8 <? announced d then 0 else unit_len d) by (apply pad8_spec; exact W).
    pose proof (pad8_mult _ W) as Pm. pose proof (pad8_lt _ W) as Pl. fold n in Pm, Pl.
    change (2^32) with 4294967296 in *. change (4294967296 - 8) with 4294967288 in *.
    assert (U : unit_len d = (announced d + 7) / 8 * 8) by reflexivity.
    destruct (Z.eqb_spec (Z.of_N (lenN d)) (msgsize n)) as [Q|Q]; cbn [negb].
    + assert (Q2 : lenN d = (n + 32) mod 4294967296).
      { unfold msgsize in Q. change (2^32) with 4294967296 in Q. change (2^32)%Z with 4294967296%Z in Q. change (2^31)%Z with 2147483648%Z in Q.
        destruct (Z.ltb_spec (Z.of_N ((n + 32) mod 4294967296)) 2147483648); lia. }
      assert (Nw : n + 32 < 4294967296).
      { destruct (N.lt_ge_cases (n + 32) 4294967296) as [?|G]; [assumption|exfalso].
        assert (Lt : lenN d < 32) by lia.
        destruct (N.ltb_spec 4294967288 (announced d)); [lia|].
        unfold harmless in Hh. change (2^32) with 4294967296 in Hh. lia. }
      assert (Ln : lenN d = n + 32) by lia.
      assert (G1 : getb (a ++ d ++ z) (lenN a + n) 32 = Ok (dropN n d)).
      { unfold getb. replace (lenN a + n + 32 <=? lenN (a ++ d ++ z)) with true by (rewrite !lenN_app; lia).
        f_equal. rewrite dropN_app_ge by lia. replace (lenN a + n - lenN a) with n by lia.
        rewrite dropN_app_le by lia. rewrite takeN_app_le by (rewrite lenN_dropN; lia).
        apply takeN_all. rewrite lenN_dropN. lia. }
      assert (G2 : getb (a ++ d ++ z) (lenN a) 32 = Ok (takeN 32 d)).
      { unfold getb. replace (lenN a + 32 <=? lenN (a ++ d ++ z)) with true by (rewrite !lenN_app; lia).
        f_equal. rewrite dropN_app_ge by lia. rewrite N.sub_diag, dropN_0. apply takeN_app_le. lia. }
      rewrite G1. cbn [bind]. rewrite G2. cbn [bind].
      destruct (N.ltb_spec 4294967288 (announced d)) as [Wr|Wr].
      * assert (n = 0) by lia. assert (lenN d = 32) by lia.
        destruct (list_eq_dec N.eq_dec (dropN n d) (takeN 32 d)) as [Eq|Ne].
        2:{ exfalso. apply Ne. replace n with 0. rewrite dropN_0. symmetry. apply takeN_all. lia. }
        exists true. split; [|split; [|discriminate]].
        { f_equal. f_equal. unfold bad_trailer. replace (lenN d =? unit_len d + 32) with false by lia. reflexivity. }
        intros _. split; [f_equal; lia|]. split; [lia|]. right. split; [unfold consistent; lia|]. split; [lia|].
        unfold wrapped. change (2^32 - 8) with 4294967288. lia.
      * assert (Un : unit_len d = n) by lia.
        assert (Wf : wrapped d = false) by (unfold wrapped; change (2^32 - 8) with 4294967288; lia).
        unfold bad_trailer, consistent. rewrite Un. replace (lenN d =? n + 32) with true by lia. cbn [andb].
        destruct (list_eq_dec N.eq_dec (dropN n d) (takeN 32 d)) as [Eq|Ne];
        destruct (list_eq_dec N.eq_dec (takeN 32 d) (dropN n d)) as [Eq2|Ne2]; try congruence.
        -- exists true. split; [reflexivity|]. split; [|discriminate]. intros _.
           split; [f_equal; lia|]. split; [lia|]. left. split; [split; [lia|exact Eq2]|]. split; [lia|exact Wf].
        -- exists false. split; [reflexivity|]. split; [discriminate|]. intros _. split; [intros (_ & X); congruence|exact Wf].
    + assert (Q2 : lenN d <> n + 32).
      { intros X. apply Q. unfold msgsize. change (2^32) with 4294967296. change (2^32)%Z with 4294967296%Z. change (2^31)%Z with 2147483648%Z.
        destruct (Z.ltb_spec (Z.of_N ((n + 32) mod 4294967296)) 2147483648); lia. }
      assert (Q3 : lenN d <> unit_len d + 32). { destruct (N.ltb_spec 4294967288 (announced d)); lia. }
      exists false. split; [|split; [discriminate|]].
      * f_equal. f_equal. unfold bad_trailer. replace (lenN d =? unit_len d + 32) with false by lia. reflexivity.
      * intros _. split; [unfold consistent; lia|]. unfold wrapped. change (2^32 - 8) with 4294967288.
        destruct (N.ltb_spec 4294967288 (announced d)); [|lia].
        replace (lenN d =? 32) with false by lia. reflexivity.
Qed.

(* ---- buffers ---- *)

Definition cfg_ok (c : cfg) : Prop := 32 <= c_mtu c /\ c_mtu c < 2^31 /\ forall n, c_full c 0 n = false.

Lemma lenN_zero {A} (l : list A) : lenN l = 0 -> l = [].
Proof. destruct l; [auto|]. rewrite lenN_cons. lia. Qed.

Lemma nth_mid {A} (a : list A) x b : nth_error (a ++ x :: b) (length a) = Some x.
Proof. rewrite nth_error_app2 by lia. rewrite Nat.sub_diag. reflexivity. Qed.
Lemma upd_mid {A} (a : list A) x b y : upd (a ++ x :: b) (length a) y = a ++ y :: b.
Proof. rewrite upd_app_r by lia. rewrite Nat.sub_diag. reflexivity. Qed.

(* [K]: the datagrams taken into pool buffers that were in order *)
Inductive binv (c : cfg) (K : list bytes) : bufs -> Prop :=
| BIdle rs fr gs sd room out :
    Forall (Forall isbyte) fr -> out ++ rs = map glue gs -> Forall (fun g => glue g <> []) gs -> concat gs = K ->
    binv c K (mkB (rs ++ fr) (length rs) false None sd room out)
| BAct rs x y fr gs g sd room out :
    Forall (Forall isbyte) fr -> out ++ rs = map glue gs -> Forall (fun g => glue g <> []) gs -> concat gs ++ g = K ->
    x = glue g -> Forall isbyte x -> Forall isbyte y -> (lenN x = 0 \/ c_mtu c <= lenN y) ->
    binv c K (mkB (rs ++ (x ++ y) :: fr) (length rs) true (Some (lenN x)) sd room out).

Inductive bgo (c : cfg) (K : list bytes) : bufs -> Prop :=
| BGo rs x y fr gs g sd room out :
    Forall (Forall isbyte) fr -> out ++ rs = map glue gs -> Forall (fun g => glue g <> []) gs -> concat gs ++ g = K ->
    x = glue g -> Forall isbyte x -> Forall isbyte y -> c_mtu c <= lenN y ->
    bgo c K (mkB (rs ++ (x ++ y) :: fr) (length rs) true (Some (lenN x)) sd room out).

Lemma bgo_binv c K b : bgo c K b -> binv c K b.
Proof. intros []. econstructor; eauto. Qed.

Lemma send_loop_spec fr a t sd fuel rs room out : (room < fuel)%nat -> exists r1 r2 room',
  rs = r1 ++ r2 /\
  send_loop fuel (mkB (rs ++ fr) (length rs) a t sd room out) = Ok (mkB (r2 ++ fr) (length r2) a t sd room' (out ++ r1)) /\
  (room' = 0%nat \/ r2 = []).
Proof.
  revert rs room out. induction fuel as [|k IH]; intros rs room out L; [lia|].
  cbn [send_loop b_room]. destruct (Nat.eqb_spec room 0) as [->|R].
  - exists [], rs, O. rewrite app_nil_r. auto.
  - unfold process_send. cbn [b_ready b_queue b_asg b_tgt b_send b_room b_out]. destruct rs as [|r rs]; cbn [length app].
    + exists [], [], room. split; [reflexivity|]. split; [cbn; rewrite app_nil_r; reflexivity|auto].
    + cbn [bind]. destruct (Nat.ltb_spec 0 (length rs)) as [P|P].
      * destruct (IH rs (room - 1)%nat (out ++ [r]) ltac:(lia)) as (r1 & r2 & room' & E1 & E2 & E3).
        exists (r :: r1), r2, room'. split; [cbn; congruence|]. split; [|exact E3].
        rewrite E2. rewrite <- app_assoc. reflexivity.
      * destruct rs as [|? ?]; [|cbn in P; lia]. exists [r], [], (room - 1)%nat. split; [reflexivity|]. split; [reflexivity|auto].
Qed.

Lemma glue_app a b : glue (a ++ b) = glue a ++ glue b.
Proof. unfold glue. rewrite map_app, concat_app. reflexivity. Qed.

(* a buffer with content is closed and queued *)
Lemma close_ready c K rs x y fr gs g sd room out :
  Forall (Forall isbyte) fr -> out ++ rs = map glue gs -> Forall (fun g => glue g <> []) gs -> concat gs ++ g = K ->
  x = glue g -> 0 < lenN x -> 0 < lenN y ->
  exists b1 b2, close_buffer (mkB (rs ++ (x ++ y) :: fr) (length rs) true (Some (lenN x)) sd room out) = Ok (b1, true) /\
    buffer_ready b1 = Ok b2 /\ binv c K b2 /\ b_tgt b2 = None /\ b_asg b2 = false /\ b_send b2 = sd + 1 /\
    (b_room b2 = 0%nat \/ b_ready b2 = 0%nat) /\
    exists q, firstn (b_ready b2) (b_queue b2) = q /\ b_out b2 ++ q = out ++ rs ++ [x].
Proof.
  intros Ff E1 Eg EK Ex Lx Ly. eexists. unfold close_buffer, tgt_null, cur.
  cbn [b_tgt b_queue b_ready b_asg b_send b_room b_out]. rewrite nth_mid. cbn [bind].
  replace (lenN (x ++ y) - lenN x =? 0) with false by (rewrite lenN_app; lia).
  replace (lenN x =? 0) with false by lia. rewrite upd_mid. rewrite takeN_app by reflexivity.
  unfold buffer_ready. cbn [b_queue b_ready b_asg b_tgt b_send b_room b_out].
  destruct (send_loop_spec fr false None (sd + 1) (S room) (rs ++ [x]) room out ltac:(lia)) as (r1 & r2 & room' & S1 & S2 & S3).
  rewrite app_length in S2. cbn [length] in S2. rewrite Nat.add_1_r in S2. rewrite <- app_assoc in S2. cbn [app] in S2.
  eexists. split; [reflexivity|]. cbn [b_queue b_ready b_asg b_tgt b_send b_room b_out]. split; [exact S2|].
  assert (O2 : (out ++ r1) ++ r2 = map glue (gs ++ [g])).
  { rewrite <- app_assoc, <- S1, app_assoc, E1, map_app. cbn. congruence. }
  cbn [b_queue b_ready b_asg b_tgt b_send b_room b_out]. split.
  { apply (BIdle c K r2 fr (gs ++ [g])); auto.
    - apply Forall_app. split; [exact Eg|]. constructor; [|constructor]. rewrite <- Ex. intros X0. rewrite X0 in Lx. cbn in Lx. lia.
    - rewrite concat_app. cbn. rewrite app_nil_r. exact EK. }
  split; [reflexivity|]. split; [reflexivity|]. split; [reflexivity|]. split.
  { destruct S3 as [->| ->]; auto. }
  exists r2. split.
  - rewrite firstn_app, firstn_all, Nat.sub_diag. cbn. apply app_nil_r.
  - rewrite <- app_assoc, <- S1. reflexivity.
Qed.

Lemma assign_spec c K b : cfg_ok c -> binv c K b -> exists b' ok, assign c b = Ok (b', ok) /\ binv c K b' /\
  (ok = true -> bgo c K b') /\ b_queue b' = b_queue b /\ b_ready b' = b_ready b /\ b_out b' = b_out b /\
  b_send b' = b_send b /\ b_room b' = b_room b /\
  (ok = false -> b_asg b = false -> (b_ready b < length (b_queue b))%nat ->
     exists m, nth_error (b_queue b) (b_ready b) = Some m /\ lenN m < c_mtu c).
Proof.
  intros Hc [rs fr gs sd room out Ff E1 Eg EK|rs x y fr gs g sd room out Ff E1 Eg EK Ex Fx Fy Lx].
  - unfold assign. cbn [b_asg b_queue b_ready b_tgt b_send b_room b_out orb]. destruct fr as [|m fr].
    + rewrite app_nil_r. rewrite Nat.leb_refl. eexists. exists false. split; [reflexivity|]. split.
      { rewrite <- (app_nil_r rs) at 1. econstructor; eauto. }
      split; [discriminate|]. cbn. repeat (split; [reflexivity|]). intros _ _ ?. lia.
    + replace (length (rs ++ m :: fr) <=? length rs)%nat with false.
      2:{ symmetry. apply Nat.leb_gt. rewrite app_length. cbn. lia. }
      unfold tgt_null, cur. cbn [b_asg b_queue b_ready b_tgt b_send b_room b_out bind negb]. rewrite nth_mid. cbn [bind].
      eexists. eexists. split; [reflexivity|]. inversion_clear Ff.
      split; [|split; [|cbn [b_asg b_queue b_ready b_tgt b_send b_room b_out]; repeat (split; [reflexivity|])]].
      * apply (BAct c K rs [] m fr gs []); auto. rewrite app_nil_r. exact EK.
      * intros G. apply (BGo c K rs [] m fr gs []); auto; [rewrite app_nil_r; exact EK|].
        destruct (N.ltb_spec (lenN m) (c_mtu c)); [discriminate|assumption].
      * intros G _ _. exists m. split; [reflexivity|]. destruct (N.ltb_spec (lenN m) (c_mtu c)); [assumption|discriminate].
  - unfold assign. cbn [b_asg orb]. eexists. exists false. split; [reflexivity|]. split; [econstructor; eauto|].
    split; [discriminate|]. cbn. repeat (split; [reflexivity|]). intros _ ?. discriminate.
Qed.

(* a unit behind the filled part is accepted *)
Lemma accept_spec c K rs x d z fr gs g sd room out n g' :
  cfg_ok c -> Forall (Forall isbyte) fr -> out ++ rs = map glue gs -> Forall (fun g => glue g <> []) gs ->
  Forall isbyte x -> Forall isbyte d -> Forall isbyte z -> c_mtu c <= lenN d + lenN z -> x = glue g ->
  32 + n <= lenN d -> x ++ takeN n d = glue g' -> concat gs ++ g' = K ->
  exists b' more, accept c (mkB (rs ++ (x ++ d ++ z) :: fr) (length rs) true (Some (lenN x)) sd room out) (lenN x) n = Ok (b', more) /\
    binv c K b' /\ (more = true -> bgo c K b').
Proof.
  intros Hc Ff E1 Eg Fx Fd Fz Lz Ex Ln Eg' EK. unfold accept, rawsize, cur.
  cbn [b_asg b_queue b_ready b_tgt b_send b_room b_out]. rewrite nth_mid. cbn [bind].
  assert (Em : x ++ d ++ z = (x ++ takeN n d) ++ (dropN n d ++ z)).
  { rewrite <- !app_assoc. f_equal. rewrite app_assoc. rewrite takeN_dropN. reflexivity. }
  assert (Lxd : lenN (x ++ takeN n d) = lenN x + n) by (rewrite lenN_app, lenN_takeN; lia).
  rewrite Em. rewrite <- Lxd. set (x' := x ++ takeN n d) in *. set (y' := dropN n d ++ z) in *.
  assert (Ly : lenN y' = lenN d + lenN z - n) by (unfold y'; rewrite lenN_app, lenN_dropN; lia).
  assert (Fx' : Forall isbyte x') by (apply Forall_app; split; [exact Fx|apply Forall_takeN; exact Fd]).
  assert (Fy' : Forall isbyte y') by (apply Forall_app; split; [apply Forall_dropN; exact Fd|exact Fz]).
  replace (lenN (x' ++ y') - lenN x') with (lenN y') by (rewrite lenN_app; lia).
  destruct Hc as (M32 & M31 & Cf).
  destruct ((lenN y' <? c_mtu c) || c_full c (lenN x') (lenN (x' ++ y'))) eqn:T.
  - assert (P : 0 < lenN x').
    { destruct (N.eq_dec (lenN x') 0) as [Z0|?]; [|lia]. exfalso. rewrite Z0, Cf, orb_false_r in T. lia. }
    destruct (close_ready c K rs x' y' fr gs g' sd room out Ff E1 Eg EK Eg' P ltac:(lia)) as (b1 & b2 & C1 & C2 & I2 & _).
    rewrite C1. cbn [bind]. rewrite C2. cbn [bind].
    destruct (assign_spec c K b2) as (b3 & ok & A1 & A2 & A3 & _); [split; auto|exact I2|].
    exists b3, ok. split; [exact A1|]. split; auto.
  - apply orb_false_iff in T. destruct T as (T1 & T2). eexists. exists true. split; [reflexivity|].
    assert (B : bgo c K (mkB (rs ++ (x' ++ y') :: fr) (length rs) true (Some (lenN x')) sd room out)).
    { econstructor; eauto. lia. }
    split; [apply bgo_binv; exact B|auto].
Qed.

(* ---- statistic ---- *)

Definition cuts (c : cfg) (l : list bytes) : list bytes := map (takeN (c_mtu c)) l.
Definition kept (c : cfg) (l : list (fate * bytes)) : list bytes := only_consistent (cuts c (in_pool l)).
Definition wraps (c : cfg) (l : list (fate * bytes)) : list bytes := filter wrapped (cuts c (in_pool l)).

Definition stat_ok (c : cfg) (l : list (fate * bytes)) (t : stat) : Prop :=
  n_recv t = lenN (kept c l) + lenN (wraps c l) /\
  n_recvb t = total_len (kept c l) + total_len (wraps c l) /\
  n_recv t + n_disc t = lenN (judged l) /\ n_recvb t + n_discb t = total_len (cuts c (judged l)) /\
  n_disc32 t = lenN (filter bad_trailer (cuts c (judged l))) /\ n_lost t = lenN (dropped l).

Lemma only_app a b : only_consistent (a ++ b) = only_consistent a ++ only_consistent b.
Proof. apply filter_app. Qed.
Lemma only_yes d : consistent d -> only_consistent [d] = [d].
Proof. intros H. unfold only_consistent. cbn. destruct (consistent_dec d); [reflexivity|contradiction]. Qed.
Lemma only_no d : ~ consistent d -> only_consistent [d] = [].
Proof. intros H. unfold only_consistent. cbn. destruct (consistent_dec d); [contradiction|reflexivity]. Qed.
Lemma total_app a b : total_len (a ++ b) = total_len a + total_len b.
Proof. induction a as [|p a IH]; [reflexivity|]. cbn [app]. unfold total_len in *. cbn [fold_right]. lia. Qed.
Lemma total_one d : total_len [d] = lenN d.
Proof. unfold total_len. cbn [fold_right]. lia. Qed.

Lemma kept_other c l f (p : bytes) : is_pool f = false -> kept c (l ++ [(f, p)]) = kept c l.
Proof.
  intros E. unfold kept, in_pool. rewrite filter_app. cbn [filter fst]. rewrite E. rewrite app_nil_r. reflexivity.
Qed.
Lemma wraps_other c l f (p : bytes) : is_pool f = false -> wraps c (l ++ [(f, p)]) = wraps c l.
Proof.
  intros E. unfold wraps, in_pool. rewrite filter_app. cbn [filter fst]. rewrite E. rewrite app_nil_r. reflexivity.
Qed.
Lemma kept_pool c l (p : bytes) : kept c (l ++ [(FPool, p)]) = kept c l ++ only_consistent [takeN (c_mtu c) p].
Proof. unfold kept, in_pool, cuts. rewrite filter_app, !map_app, only_app. reflexivity. Qed.
Lemma wraps_pool c l (p : bytes) : wraps c (l ++ [(FPool, p)]) = wraps c l ++ filter wrapped [takeN (c_mtu c) p].
Proof. unfold wraps, in_pool, cuts. rewrite filter_app, !map_app, filter_app. reflexivity. Qed.
Definition looked (f : fate) : bool := match f with FPool | FSpare => true | _ => false end.
Lemma judged_snoc l f (p : bytes) : judged (l ++ [(f, p)]) = judged l ++ if looked f then [p] else [].
Proof. unfold judged. rewrite filter_app, map_app. destruct f; reflexivity. Qed.
Lemma dropped_snoc l f (p : bytes) : dropped (l ++ [(f, p)]) = dropped l ++ match f with FLost => [p] | _ => [] end.
Proof. unfold dropped. rewrite filter_app, map_app. destruct f; reflexivity. Qed.
Lemma cuts_app c a b : cuts c (a ++ b) = cuts c a ++ cuts c b.
Proof. apply map_app. Qed.

Lemma stat_lost c l t (p : bytes) : stat_ok c l t -> stat_ok c (l ++ [(FLost, p)]) (st_lost t).
Proof.
  intros (A & B & C & D & E & F). unfold stat_ok. rewrite kept_other, wraps_other by reflexivity. rewrite judged_snoc, dropped_snoc.
  cbn [looked]. rewrite app_nil_r, lenN_app. cbn [st_lost n_recv n_recvb n_disc n_discb n_disc32 n_lost].
  change (lenN [p]) with 1. repeat (split; [assumption|]). lia.
Qed.
Lemma stat_empty c l t (p : bytes) : stat_ok c l t -> stat_ok c (l ++ [(FEmpty, p)]) t.
Proof.
  intros (A & B & C & D & E & F). unfold stat_ok. rewrite kept_other, wraps_other by reflexivity. rewrite judged_snoc, dropped_snoc.
  cbn [looked]. rewrite !app_nil_r. repeat (split; [assumption|]). assumption.
Qed.
Lemma filter_one {A} (f : A -> bool) x : lenN (filter f [x]) = if f x then 1 else 0.
Proof. cbn. destruct (f x); reflexivity. Qed.
Lemma stat_disc c l t f (p : bytes) : looked f = true -> let d : bytes := takeN (c_mtu c) p in
  (is_pool f = true -> ~ consistent d /\ wrapped d = false) ->
  stat_ok c l t -> stat_ok c (l ++ [(f, p)]) (st_disc t (lenN d) (bad_trailer d)).
Proof.
  intros Hl d Hp (A & B & C & D & E & F). unfold stat_ok.
  assert (X : kept c (l ++ [(f, p)]) = kept c l /\ wraps c (l ++ [(f, p)]) = wraps c l).
  { destruct f; try discriminate.
    - destruct (Hp eq_refl) as (H1 & H2). rewrite kept_pool, wraps_pool. fold d. rewrite only_no by exact H1.
      cbn [filter]. rewrite H2. rewrite !app_nil_r. auto.
    - rewrite kept_other, wraps_other by reflexivity. auto. }
  destruct X as (-> & ->). rewrite judged_snoc, dropped_snoc, Hl. assert (Y : match f with FLost => [p] | _ => [] end = []) by (destruct f; auto; discriminate). rewrite Y.
  rewrite app_nil_r, cuts_app, filter_app, !lenN_app, total_app.
  change (cuts c [p]) with [d]. rewrite total_one, filter_one. change (lenN [p]) with 1.
  cbn [st_disc n_recv n_recvb n_disc n_discb n_disc32 n_lost].
  split; [exact A|]. split; [exact B|]. split; [lia|]. split; [lia|]. split; [lia|exact F].
Qed.
Lemma stat_recv c l t (p : bytes) : let d : bytes := takeN (c_mtu c) p in
  (consistent d /\ wrapped d = false) \/ (~ consistent d /\ wrapped d = true) -> bad_trailer d = false ->
  stat_ok c l t -> stat_ok c (l ++ [(FPool, p)]) (st_recv t (lenN d)).
Proof.
  intros d Hd Hb (A & B & C & D & E & F). unfold stat_ok. rewrite kept_pool, wraps_pool. fold d.
  rewrite judged_snoc, dropped_snoc. cbn [looked]. rewrite app_nil_r, cuts_app, filter_app, !lenN_app, !total_app.
  change (cuts c [p]) with [d]. rewrite total_one, !filter_one, Hb. change (lenN [p]) with 1.
  cbn [st_recv n_recv n_recvb n_disc n_discb n_disc32 n_lost].
  assert (X : lenN (only_consistent [d]) + (if wrapped d then 1 else 0) = 1 /\
              total_len (only_consistent [d]) + total_len (filter wrapped [d]) = lenN d).
  { cbn [filter]. destruct Hd as [(H1 & ->)|(H1 & ->)].
    - rewrite only_yes by exact H1. rewrite total_one. split; [reflexivity|]. cbn. lia.
    - rewrite only_no by exact H1. rewrite total_one. split; reflexivity. }
  destruct X as (X1 & X2). destruct (wrapped d); unfold bytes in *;
  (split; [lia|]; split; [lia|]; split; [lia|]; split; [lia|]; split; [lia|exact F]).
Qed.

(* ---- the whole receiver ---- *)

Definition item_ok (c : cfg) (x : sitem) : Prop :=
  match x with SData p _ => Forall isbyte p /\ harmless (takeN (c_mtu c) p) | SErr => True end.
Definition uinv (c : cfg) (s : ust) : Prop :=
  binv c (kept c (u_log s)) (u_b s) /\ lenN (u_spare s) = c_mtu c /\ Forall isbyte (u_spare s) /\
  Forall (item_ok c) (u_sock s) /\ stat_ok c (u_log s) (u_stat s).
Definition data_of (l : list sitem) : list bytes := flat_map (fun x => match x with SData p _ => [p] | SErr => [] end) l.
Definition fate_ok (c : cfg) (spare : bool) (x : fate * bytes) : Prop :=
  match fst x with FPool => spare = false | FSpare => spare = true | FLost => c_lost c = true | FEmpty => snd x = [] end.
Definition ext (c : cfg) (spare : bool) (s s' : ust) : Prop :=
  exists e, u_log s' = u_log s ++ e /\ map snd e ++ data_of (u_sock s') = data_of (u_sock s) /\
    Forall (fate_ok c spare) e /\ u_run s' = u_run s.

Lemma ext_refl c spare s s' : u_log s' = u_log s -> u_sock s' = u_sock s -> u_run s' = u_run s -> ext c spare s s'.
Proof. intros A B C. exists []. rewrite app_nil_r, B. auto. Qed.
Lemma ext_one c spare s s' s'' f p drop r : u_sock s = SData p drop :: r -> u_sock s' = r -> u_log s' = u_log s ++ [(f, p)] ->
  u_run s' = u_run s -> fate_ok c spare (f, p) -> ext c spare s' s'' -> ext c spare s s''.
Proof.
  intros A B C D E (e & E1 & E2 & E3 & E4). exists ((f, p) :: e). split; [rewrite E1, C, <- app_assoc; reflexivity|].
  split; [|split; [constructor; auto|congruence]]. cbn [map snd app]. rewrite E2, A, B. reflexivity.
Qed.

Lemma setb_mid a y z d : lenN y = lenN d -> setb (a ++ y ++ z) (lenN a) d = Ok (a ++ d ++ z).
Proof. intros L. apply setb_at; auto. Qed.

Lemma empty_cut c (p : bytes) : cfg_ok c -> lenN (takeN (c_mtu c) p) = 0 -> p = [].
Proof. intros (M & _) L. rewrite lenN_takeN in L. apply lenN_zero. lia. Qed.

(* reading into the spare buffer *)
Lemma read_spare c cnt s : cfg_ok c -> uinv c s -> exists s',
  read_loop c cnt true s = Ok s' /\ uinv c s' /\ ext c true s s' /\ u_b s' = u_b s.
Proof.
  intros Hc. revert s. induction cnt as [|k IH]; intros s I.
  { exists s. split; [reflexivity|]. split; [exact I|]. split; [apply ext_refl; auto|reflexivity]. }
  cbn [read_loop]. destruct (u_sock s) as [|[p drop|] r] eqn:Es.
  { exists s. split; [reflexivity|]. split; [exact I|]. split; [apply ext_refl; auto|reflexivity]. }
  2:{ eexists. split; [reflexivity|]. destruct I as (I1 & I2 & I3 & I4 & I5). rewrite Es in I4. inversion_clear I4.
      split; [split; [exact I1|repeat (split; [assumption|]); assumption]|]. split; [|reflexivity].
      exists []. rewrite app_nil_r. cbn. rewrite Es. auto. }
  destruct I as (I1 & I2 & I3 & I4 & I5). rewrite Es in I4. inversion I4 as [|? ? Hi I4r]; subst. destruct Hi as (Fp & Hh). cbv zeta.
  set (d := takeN (c_mtu c) p) in *.
  destruct (N.eqb_spec (lenN d) 0) as [D0|D0].
  { eexists. split; [reflexivity|]. split.
    - split; [cbn [add_log u_log u_b set_sock]; rewrite kept_other by reflexivity; exact I1|].
      split; [exact I2|]. split; [exact I3|]. split; [exact I4r|]. apply stat_empty. exact I5.
    - split; [|reflexivity]. apply (ext_one c true s (add_log (set_sock s r) FEmpty p (u_stat s)) _ FEmpty p drop r); [exact Es|reflexivity|reflexivity|reflexivity| |apply ext_refl; reflexivity].
      apply (empty_cut c p Hc). exact D0. }
  pose proof Hc as (M32 & M31 & _).
  assert (Ld : lenN d <= c_mtu c) by (unfold d; rewrite lenN_takeN; lia).
  cbn [target set_sock u_spare bind].
  destruct (split_at (u_spare s) (lenN d) ltac:(lia)) as (y & z & Ey & Ly).
  assert (W : setb (u_spare s) 0 d = Ok (d ++ z)).
  { rewrite Ey. change 0 with (lenN (@nil N)). change (y ++ z) with ([] ++ y ++ z). apply setb_mid. exact Ly. }
  rewrite W. cbn [bind].
  assert (Fd : Forall isbyte d) by (apply Forall_takeN; exact Fp).
  assert (Fz : Forall isbyte (d ++ z)).
  { rewrite Ey in I3. apply Forall_app in I3. apply Forall_app. tauto. }
  assert (Lz : lenN d + lenN z = c_mtu c) by (rewrite <- I2, Ey, lenN_app; lia).
  assert (Go : forall f t, fate_ok c true (f, p) -> is_pool f = false -> stat_ok c (u_log s ++ [(f, p)]) t ->
     uinv c (add_log (set_target true (set_sock s r) (d ++ z)) f p t) /\
     forall s', ext c true (add_log (set_target true (set_sock s r) (d ++ z)) f p t) s' -> ext c true s s').
  { intros f t Hf Hp Ht. split.
    - split; [cbn [add_log u_log u_b set_target set_spare set_sock]; rewrite kept_other by exact Hp; exact I1|].
      split; [cbn; rewrite lenN_app; exact Lz|]. split; [exact Fz|]. split; [exact I4r|exact Ht].
    - intros s' E. apply (ext_one c true s (add_log (set_target true (set_sock s r) (d ++ z)) f p t) s' f p drop r); [exact Es| | | |exact Hf|exact E]; reflexivity. }
  destruct (drop && c_lost c) eqn:Dr.
  { destruct (Go FLost (st_lost (u_stat s))) as (G1 & G2); [cbn; apply andb_true_iff in Dr; apply Dr|reflexivity|apply stat_lost; exact I5|].
    destruct (IH _ G1) as (s' & R & U & E & B). exists s'. split; [exact R|]. split; [exact U|]. split; [apply G2; exact E|exact B]. }
  destruct (judge_spec (c_mtu c) [] d z) as (good & J1 & J2 & J3); auto; try lia.
  cbn [app] in J1. change (lenN (@nil N)) with 0 in J1. rewrite J1. cbn [bind].
  destruct good; cbn [negb].
  - assert (T : bad_trailer d = false).
    { destruct (J2 eq_refl) as (_ & _ & [((C1 & C2) & _ & _)|(_ & L & Wr)]); unfold bad_trailer.
      - destruct (list_eq_dec N.eq_dec (takeN 32 d) (dropN (unit_len d) d)); [cbn; apply andb_false_r|contradiction].
      - unfold wrapped in Wr. replace (lenN d =? unit_len d + 32) with false; [reflexivity|].
        unfold unit_len. change (2^32 - 8) with 4294967288 in Wr. lia. }
    destruct (Go FSpare (st_disc (u_stat s) (lenN d) false)) as (G1 & G2); [reflexivity|reflexivity| |].
    { rewrite <- T. apply stat_disc; [reflexivity|discriminate|exact I5]. }
    eexists. split; [reflexivity|]. split; [exact G1|]. split; [|reflexivity]. apply G2. apply ext_refl; reflexivity.
  - destruct (Go FSpare (st_disc (u_stat s) (lenN d) (bad_trailer d))) as (G1 & G2); [reflexivity|reflexivity| |].
    { apply stat_disc; [reflexivity|discriminate|exact I5]. }
    destruct (IH _ G1) as (s' & R & U & E & B). exists s'. split; [exact R|]. split; [exact U|]. split; [apply G2; exact E|exact B].
Qed.

Lemma trailer_good d : (consistent d /\ unit_len d = lenN d - 32 /\ wrapped d = false) \/ (~ consistent d /\ lenN d = 32 /\ wrapped d = true) ->
  bad_trailer d = false.
Proof.
  intros [((C1 & C2) & _ & _)|(_ & L & Wr)]; unfold bad_trailer.
  - destruct (list_eq_dec N.eq_dec (takeN 32 d) (dropN (unit_len d) d)); [cbn; apply andb_false_r|contradiction].
  - unfold wrapped in Wr. replace (lenN d =? unit_len d + 32) with false; [reflexivity|].
    unfold unit_len. change (2^32 - 8) with 4294967288 in Wr. lia.
Qed.

(* reading into a buffer of the pool *)
Lemma read_pool c cnt s : cfg_ok c -> uinv c s -> bgo c (kept c (u_log s)) (u_b s) -> exists s',
  read_loop c cnt false s = Ok s' /\ uinv c s' /\ ext c false s s'.
Proof.
  intros Hc. revert s. induction cnt as [|k IH]; intros s I G.
  { exists s. split; [reflexivity|]. split; [exact I|]. apply ext_refl; auto. }
  cbn [read_loop]. destruct (u_sock s) as [|[p drop|] r] eqn:Es.
  { exists s. split; [reflexivity|]. split; [exact I|]. apply ext_refl; auto. }
  2:{ eexists. split; [reflexivity|]. destruct I as (I1 & I2 & I3 & I4 & I5). rewrite Es in I4. inversion_clear I4.
      split; [split; [exact I1|repeat (split; [assumption|]); assumption]|].
      exists []. rewrite app_nil_r. cbn. rewrite Es. auto. }
  destruct I as (I1 & I2 & I3 & I4 & I5). rewrite Es in I4. inversion I4 as [|? ? Hi I4r]; subst. destruct Hi as (Fp & Hh). cbv zeta.
  set (d := takeN (c_mtu c) p) in *.
  destruct (N.eqb_spec (lenN d) 0) as [D0|D0].
  { eexists. split; [reflexivity|]. split.
    - split; [cbn [add_log u_log u_b set_sock]; rewrite kept_other by reflexivity; exact I1|].
      split; [exact I2|]. split; [exact I3|]. split; [exact I4r|]. apply stat_empty. exact I5.
    - apply (ext_one c false s (add_log (set_sock s r) FEmpty p (u_stat s)) _ FEmpty p drop r); [exact Es|reflexivity|reflexivity|reflexivity| |apply ext_refl; reflexivity].
      apply (empty_cut c p Hc). exact D0. }
  pose proof Hc as (M32 & M31 & _).
  assert (Ld : lenN d <= c_mtu c) by (unfold d; rewrite lenN_takeN; lia).
  assert (Fd : Forall isbyte d) by (apply Forall_takeN; exact Fp).
  remember (kept c (u_log s)) as K eqn:EK. remember (u_b s) as b eqn:Eb.
  destruct G as [rs x y fr gs g sd room out Ff E1 Eg Ek Ex Fx Fy Ly].
  cbn [target set_sock u_b]. rewrite <- Eb. cbn [b_tgt]. unfold cur. cbn [b_queue b_ready]. rewrite nth_mid. cbn [bind].
  destruct (split_at y (lenN d) ltac:(lia)) as (y1 & z & Ey & Ly1). subst y.
  rewrite setb_mid by exact Ly1. cbn [bind].
  assert (Fz : Forall isbyte z) by (apply Forall_app in Fy; tauto).
  assert (Lz : c_mtu c <= lenN d + lenN z) by (rewrite lenN_app in Ly; lia).
  assert (Fm : Forall isbyte (x ++ d ++ z)) by (apply Forall_app; split; [exact Fx|apply Forall_app; auto]).
  assert (Bs : u_b (set_target false (set_sock s r) (x ++ d ++ z)) = mkB (rs ++ (x ++ d ++ z) :: fr) (length rs) true (Some (lenN x)) sd room out).
  { cbn [set_target set_bufs set_sock u_b]. rewrite <- Eb. cbn [b_queue b_ready b_asg b_tgt b_send b_room b_out]. rewrite upd_mid. reflexivity. }
  set (s1 := set_target false (set_sock s r) (x ++ d ++ z)) in *.
  assert (G1 : bgo c K (u_b s1)).
  { rewrite Bs. apply (BGo c K rs x (d ++ z) fr gs g); auto; [apply Forall_app; auto|rewrite lenN_app; lia]. }
  assert (L1 : u_log s1 = u_log s) by reflexivity.
  assert (T1 : u_stat s1 = u_stat s) by reflexivity.
  assert (Go : forall f t, fate_ok c false (f, p) -> kept c (u_log s ++ [(f, p)]) = K -> stat_ok c (u_log s ++ [(f, p)]) t ->
     uinv c (add_log s1 f p t) /\ bgo c (kept c (u_log (add_log s1 f p t))) (u_b (add_log s1 f p t)) /\
     forall s', ext c false (add_log s1 f p t) s' -> ext c false s s').
  { intros f t Hf Hp Ht.
    assert (B2 : bgo c (kept c (u_log (add_log s1 f p t))) (u_b (add_log s1 f p t))).
    { cbn [add_log u_log u_b]. rewrite L1, Hp. exact G1. }
    split; [|split; [exact B2|]].
    - split; [apply bgo_binv; exact B2|]. split; [exact I2|]. split; [exact I3|]. split; [exact I4r|exact Ht].
    - intros s' E. apply (ext_one c false s (add_log s1 f p t) s' f p drop r); [exact Es| | | |exact Hf|exact E]; reflexivity. }
  destruct (drop && c_lost c) eqn:Dr.
  { destruct (Go FLost (st_lost (u_stat s))) as (U1 & U2 & U3);
      [cbn; apply andb_true_iff in Dr; apply Dr|rewrite kept_other by reflexivity; congruence|apply stat_lost; exact I5|].
    rewrite T1. destruct (IH _ U1 U2) as (s' & R & U & E). exists s'. split; [exact R|]. split; [exact U|]. apply U3. exact E. }
  destruct (judge_spec (c_mtu c) x d z) as (good & J1 & J2 & J3); auto; try lia.
  rewrite J1. cbn [bind]. destruct good; cbn [negb].
  - destruct (J2 eq_refl) as (J4 & J5 & J6). rewrite J4. cbn [bind].
    assert (S2 : stat_ok c (u_log s ++ [(FPool, p)]) (st_recv (u_stat s) (lenN d))).
    { apply stat_recv; [|apply trailer_good; exact J6|exact I5]. fold d. tauto. }
    assert (A : exists g', x ++ takeN (lenN d - 32) d = glue g' /\ concat gs ++ g' = kept c (u_log s ++ [(FPool, p)])).
    { rewrite kept_pool. fold d. destruct J6 as [(C1 & C2 & _)|(C1 & C2 & _)].
      - exists (g ++ [d]). rewrite only_yes by exact C1. rewrite glue_app, <- EK, <- Ek, <- Ex. split; [|apply app_assoc].
        f_equal. unfold glue. cbn. rewrite app_nil_r. unfold unit_part. rewrite C2. reflexivity.
      - exists g. rewrite only_no by exact C1. rewrite C2. change (32 - 32) with 0. rewrite takeN_0, !app_nil_r. split; congruence. }
    destruct A as (g' & A1 & A2).
    destruct (accept_spec c _ rs x d z fr gs g sd room out (lenN d - 32) g' Hc Ff E1 Eg Fx Fd Fz Lz Ex ltac:(lia) A1 A2) as (b' & more & H1 & H2 & H3).
    cbn [add_log u_b]. rewrite Bs. rewrite H1. cbn [bind].
    set (s2 := set_bufs _ b').
    assert (U2 : uinv c s2).
    { split; [exact H2|]. split; [exact I2|]. split; [exact I3|]. split; [exact I4r|exact S2]. }
    assert (X2 : forall s', ext c false s2 s' -> ext c false s s').
    { intros s' E. apply (ext_one c false s s2 s' FPool p drop r); [exact Es| | | | |exact E]; reflexivity. }
    destruct more.
    + destruct (IH s2 U2 (H3 eq_refl)) as (s' & R & U & E). exists s'. split; [exact R|]. split; [exact U|]. apply X2. exact E.
    + exists s2. split; [reflexivity|]. split; [exact U2|]. apply X2. apply ext_refl; reflexivity.
  - destruct (J3 eq_refl) as (J4 & J5).
    destruct (Go FPool (st_disc (u_stat s) (lenN d) (bad_trailer d))) as (U1 & U2 & U3).
    + reflexivity.
    + rewrite kept_pool. fold d. rewrite only_no by exact J4. rewrite app_nil_r. congruence.
    + apply stat_disc; auto.
    + rewrite T1. destruct (IH _ U1 U2) as (s' & R & U & E). exists s'. split; [exact R|]. split; [exact U|]. apply U3. exact E.
Qed.

Lemma tgt_null_spec c K b : binv c K b -> exists z, tgt_null b = Ok z.
Proof.
  intros [rs fr gs sd room out|rs x y fr gs g sd room out]; unfold tgt_null, cur; cbn [b_tgt b_queue b_ready]; [eauto|].
  rewrite nth_mid. cbn [bind]. eauto.
Qed.
Lemma rawsize_spec c K b : binv c K b -> exists n, rawsize b = Ok n /\ (0 < c_mtu c -> c_mtu c <= n -> bgo c K b).
Proof.
  intros [rs fr gs sd room out|rs x y fr gs g sd room out]; unfold rawsize, cur; cbn [b_tgt b_queue b_ready].
  - exists 0. split; [reflexivity|lia].
  - rewrite nth_mid. cbn [bind]. eexists. split; [reflexivity|]. intros M L. econstructor; eauto.
    rewrite lenN_app in L. lia.
Qed.

(* no buffer could be had *)
Definition no_buffer (c : cfg) (b : bufs) : Prop :=
  (length (b_queue b) <= b_ready b)%nat \/
  (exists m, nth_error (b_queue b) (b_ready b) = Some m /\ lenN m < c_mtu c).

Lemma null_small c K b : binv c K b -> cfg_ok c -> tgt_null b = Ok true -> b_asg b = true -> no_buffer c b.
Proof.
  intros B (M & _) Z A. destruct B as [rs fr gs sd room out|rs x y fr gs g sd room out Ff E1 Eg Ek Ex Fx Fy L]; [discriminate|].
  right. cbn [b_queue b_ready]. rewrite nth_mid. eexists. split; [reflexivity|].
  unfold tgt_null, cur in Z. cbn [b_tgt b_queue b_ready] in Z. rewrite nth_mid in Z. cbn [bind] in Z.
  assert (lenN (x ++ y) - lenN x = 0) by (destruct (N.eqb_spec (lenN (x ++ y) - lenN x) 0); [assumption|discriminate]).
  rewrite lenN_app in *. lia.
Qed.

Lemma read_udp_spec c s : cfg_ok c -> uinv c s -> exists s' spare, read_udp c s = Ok s' /\ uinv c s' /\ ext c spare s s' /\
  (spare = true -> no_buffer c (u_b s) /\ 10 <= u_skip s).
Proof.
  intros Hc I. unfold read_udp. destruct (u_run s) eqn:Er; cbn [negb].
  2:{ exists s, false. split; [reflexivity|]. split; [exact I|]. split; [apply ext_refl; auto|discriminate]. }
  pose proof I as (I1 & I2 & I3 & I4 & I5).
  destruct (tgt_null_spec c _ _ I1) as (z & Ez). rewrite Ez. cbn [bind].
  assert (Gen : forall s1, uinv c s1 -> u_log s1 = u_log s -> u_sock s1 = u_sock s -> u_run s1 = u_run s ->
     exists s', (do raw <- rawsize (u_b s1); if raw <? c_mtu c then Ok s1 else read_loop c (c_loop c) false (set_skip s1 0 (u_stat s1))) = Ok s' /\
       uinv c s' /\ ext c false s s').
  { intros s1 J A B C. destruct (rawsize_spec c _ _ (proj1 J)) as (n & En & Hn). rewrite En. cbn [bind].
    destruct (N.ltb_spec n (c_mtu c)).
    - exists s1. split; [reflexivity|]. split; [exact J|]. apply ext_refl; auto.
    - destruct (read_pool c (c_loop c) (set_skip s1 0 (u_stat s1)) Hc J) as (s' & R & U & E).
      + apply Hn; [destruct Hc; lia|assumption].
      + exists s'. split; [exact R|]. split; [exact U|]. destruct E as (e & E1 & E2 & E3 & E4). exists e.
        cbn in E1, E2, E4. rewrite <- A, <- B, <- C. auto. }
  destruct z.
  - destruct (assign_spec c _ _ Hc I1) as (b1 & ok & A1 & A2 & A3 & A4 & A5 & A6 & A7 & A8 & A9). rewrite A1. cbn [bind].
    assert (J : uinv c (set_bufs s b1)) by (split; [exact A2|repeat (split; [assumption|]); assumption]).
    destruct ok; cbn [bind].
    + destruct (Gen (set_bufs s b1) J eq_refl eq_refl eq_refl) as (s' & R & U & E).
      exists s', false. split; [exact R|]. split; [exact U|]. split; [exact E|discriminate].
    + cbn [u_skip set_bufs]. destruct (N.ltb_spec (u_skip s) 10); cbn [bind].
      * eexists. exists false. split; [reflexivity|]. split; [|split; [apply ext_refl; reflexivity|discriminate]].
        split; [exact A2|]. repeat (split; [assumption|]). exact I5.
      * destruct (read_spare c (c_loop c) (set_skip (set_bufs s b1) (u_skip s + 1) (u_stat (set_bufs s b1))) Hc J) as (s' & R & U & E & _).
        exists s', true. split; [exact R|]. split; [exact U|]. split.
        { destruct E as (e & E1 & E2 & E3 & E4). exists e. auto. }
        intros _. split; [|assumption]. destruct (b_asg (u_b s)) eqn:Ea; [eapply null_small; eauto|].
        destruct (Nat.le_gt_cases (length (b_queue (u_b s))) (b_ready (u_b s))) as [?|G]; [left; assumption|].
        right. apply A9; auto.
  - cbn [bind]. destruct (Gen s I eq_refl eq_refl eq_refl) as (s' & R & U & E).
    exists s', false. split; [exact R|]. split; [exact U|]. split; [exact E|discriminate].
Qed.

(* state after flushing *)
Lemma flush_spec c oc s : cfg_ok c -> uinv c s -> exists s', flush c oc s = Ok s' /\ uinv c s' /\
  u_log s' = u_log s /\ u_sock s' = u_sock s /\ u_run s' = u_run s /\ u_last s' = b_send (u_b s') /\
  (oc = true \/ u_last s = b_send (u_b s) ->
     match b_tgt (u_b s') with None => True | Some o => o = 0 end /\
     (b_send (u_b s') <> b_send (u_b s) -> b_room (u_b s') = 0%nat \/ b_ready (u_b s') = 0%nat)).
Proof.
  intros Hc (I1 & I2 & I3 & I4 & I5). unfold flush.
  assert (Fin : forall b2, binv c (kept c (u_log s)) b2 -> uinv c (mkU b2 (u_spare s) (u_run s) (u_skip s) (b_send b2) (u_sock s) (u_log s) (u_stat s))).
  { intros b2 B2. split; [exact B2|]. repeat (split; [assumption|]). assumption. }
  destruct (oc || (u_last s =? b_send (u_b s))) eqn:T.
  2:{ cbn [bind]. eexists. split; [reflexivity|]. split; [apply Fin; exact I1|]. do 4 (split; [reflexivity|]).
      apply orb_false_iff in T. destruct T as (-> & T). intros [X|X]; [discriminate|]. lia. }
  remember (u_b s) as b eqn:Eb. remember (kept c (u_log s)) as K eqn:EK.
  destruct I1 as [rs fr gs sd room out Ff E1 Eg Ek|rs x y fr gs g sd room out Ff E1 Eg Ek Ex Fx Fy L].
  - unfold close_buffer, tgt_null. cbn [b_tgt bind]. eexists. split; [reflexivity|]. split; [apply Fin; econstructor; eauto|].
    do 4 (split; [reflexivity|]). cbn. intros _. split; [exact I|]. congruence.
  - destruct (N.eq_dec (lenN x) 0) as [X0|X0].
    + assert (E : close_buffer (mkB (rs ++ (x ++ y) :: fr) (length rs) true (Some (lenN x)) sd room out) =
                  Ok (mkB (rs ++ (x ++ y) :: fr) (length rs) true (Some (lenN x)) sd room out, false)).
      { unfold close_buffer, tgt_null, cur. cbn [b_tgt b_queue b_ready]. rewrite nth_mid. cbn [bind].
        destruct (lenN (x ++ y) - lenN x =? 0); [reflexivity|]. rewrite X0. reflexivity. }
      rewrite E. cbn [bind]. eexists. split; [reflexivity|]. split; [apply Fin; econstructor; eauto|].
      do 4 (split; [reflexivity|]). cbn. intros _. split; [exact X0|]. congruence.
    + pose proof Hc as (M32 & _). destruct (close_ready c K rs x y fr gs g sd room out Ff E1 Eg Ek Ex ltac:(lia) ltac:(lia)) as
        (b1 & b2 & C1 & C2 & B2 & C3 & C4 & C5 & C6 & C7).
      rewrite C1. cbn [bind]. rewrite C2. cbn [bind]. destruct oc; cbn [bind].
      * eexists. split; [reflexivity|]. split; [apply Fin; exact B2|]. do 4 (split; [reflexivity|]).
        cbn. intros _. rewrite C3. split; [exact I|]. intros _. exact C6.
      * destruct (assign_spec c _ _ Hc B2) as (b3 & ok & A1 & A2 & A3 & A4 & A5 & A6 & A7 & A8 & A9). rewrite A1. cbn [bind].
        eexists. split; [reflexivity|]. split; [apply Fin; exact A2|]. do 4 (split; [reflexivity|]). cbn. intros _. split.
        { unfold assign in A1. destruct (b_asg b2 || (length (b_queue b2) <=? b_ready b2)%nat).
          - injection A1 as <- <-. rewrite C3. exact I.
          - unfold tgt_null in A1. rewrite C3 in A1. cbn [bind negb] in A1. destruct (cur b2); cbn [bind] in A1; try discriminate.
            injection A1 as <- _. reflexivity. }
        intros _. rewrite A8, A5. exact C6.
Qed.

Definition act_ok (c : cfg) (a : action) : Prop :=
  match a with AArrive x => item_ok c x | APool m => Forall isbyte m | _ => True end.
Definition came (a : action) : list bytes := match a with AArrive (SData p _) => [p] | _ => [] end.

Lemma data_app a b : data_of (a ++ b) = data_of a ++ data_of b.
Proof. apply flat_map_app. Qed.

Definition step_ext (c : cfg) (s s' : ust) (a : action) : Prop :=
  exists e, u_log s' = u_log s ++ e /\ map snd e ++ data_of (u_sock s') = data_of (u_sock s) ++ came a /\
    Forall (fun x => fst x = FLost -> c_lost c = true) e /\ Forall (fun x => fst x = FEmpty -> snd x = []) e /\
    ((exists x, In x e /\ fst x = FSpare) -> no_buffer c (u_b s) /\ 10 <= u_skip s).

Lemma step_ext_refl c s s' a : u_log s' = u_log s -> data_of (u_sock s') = data_of (u_sock s) ++ came a -> step_ext c s s' a.
Proof. intros A B. exists []. rewrite app_nil_r. do 4 (split; [auto|]). intros (x & [] & _). Qed.
Lemma ext_step c spare s s' a : came a = [] -> ext c spare s s' -> (spare = true -> no_buffer c (u_b s) /\ 10 <= u_skip s) -> step_ext c s s' a.
Proof.
  intros Ea (e & E1 & E2 & E3 & E4) H. exists e. split; [exact E1|]. split; [rewrite Ea, app_nil_r; exact E2|].
  split; [|split].
  - eapply Forall_impl; [|exact E3]. intros (f & p) F X. cbn in X. subst f. exact F.
  - eapply Forall_impl; [|exact E3]. intros (f & p) F X. cbn in X. subst f. exact F.
  - intros (x & Hx & Fx). rewrite Forall_forall in E3. specialize (E3 x Hx). unfold fate_ok in E3. rewrite Fx in E3. auto.
Qed.

Lemma step_spec c s a : cfg_ok c -> act_ok c a -> uinv c s -> exists s', step c s a = Ok s' /\ uinv c s' /\ step_ext c s s' a.
Proof.
  intros Hc Ha I. pose proof I as (I1 & I2 & I3 & I4 & I5). destruct a; cbn [step].
  - destruct (assign_spec c _ _ Hc I1) as (b1 & ok & A1 & A2 & _). rewrite A1. cbn [bind]. eexists. split; [reflexivity|].
    split; [split; [exact A2|repeat (split; [assumption|]); assumption]|]. apply step_ext_refl; [reflexivity|cbn; rewrite app_nil_r; reflexivity].
  - destruct (flush_spec c true s Hc I) as (s1 & F1 & (J1 & J2 & J3 & J4 & J5) & F2 & F3 & F4 & _). rewrite F1. cbn [bind]. eexists.
    split; [reflexivity|]. split; [split; [exact J1|repeat (split; [assumption|]); assumption]|].
    apply step_ext_refl; [exact F2|cbn; rewrite F3, app_nil_r; reflexivity].
  - destruct (read_udp_spec c s Hc I) as (s' & sp & R & U & E & H). exists s'. split; [exact R|]. split; [exact U|].
    eapply ext_step; [reflexivity|exact E|exact H].
  - destruct (flush_spec c false s Hc I) as (s1 & F1 & F0 & F2 & F3 & F4 & _). exists s1. split; [exact F1|]. split; [exact F0|].
    apply step_ext_refl; [exact F2|cbn; rewrite F3, app_nil_r; reflexivity].
  - destruct (assign_spec c _ _ Hc I1) as (b1 & ok & A1 & A2 & A3 & A4 & A5 & A6 & A7 & A8 & A9). rewrite A1. cbn [bind].
    assert (J : uinv c (set_bufs s b1)) by (split; [exact A2|repeat (split; [assumption|]); assumption]).
    destruct ok.
    + destruct (read_udp_spec c _ Hc J) as (s' & sp & R & U & E & H). exists s'. split; [exact R|]. split; [exact U|].
      eapply (ext_step c sp); [reflexivity|exact E|]. intros Sp. destruct (H Sp) as (H1 & H2). split; [|exact H2].
      unfold no_buffer in *. cbn [set_bufs u_b] in H1. rewrite A4, A5 in H1. exact H1.
    + eexists. split; [reflexivity|]. split; [exact J|]. apply step_ext_refl; [reflexivity|cbn; rewrite app_nil_r; reflexivity].
  - destruct (Nat.eqb_spec (b_room (u_b s)) 0) as [R0|R0].
    { exists s. split; [reflexivity|]. split; [exact I|]. apply step_ext_refl; [reflexivity|cbn; rewrite app_nil_r; reflexivity]. }
    remember (u_b s) as b eqn:Eb.
    assert (P : exists b' m, process_send b = Ok (b', m) /\ binv c (kept c (u_log s)) b').
    { remember (kept c (u_log s)) as K eqn:EK.
      destruct I1 as [rs fr gs sd room out Ff E1 Eg Ek|rs x y fr gs g sd room out Ff E1 Eg Ek Ex Fx Fy L];
      unfold process_send; cbn [b_ready b_queue b_asg b_tgt b_send b_room b_out]; destruct rs as [|r rs]; cbn [length app].
      - eexists. eexists. split; [reflexivity|]. apply (BIdle c K [] fr gs); auto.
      - eexists. eexists. split; [reflexivity|]. apply (BIdle c K rs fr gs); auto. rewrite <- app_assoc. exact E1.
      - eexists. eexists. split; [reflexivity|]. apply (BAct c K [] x y fr gs g); auto.
      - eexists. eexists. split; [reflexivity|]. apply (BAct c K rs x y fr gs g); auto. rewrite <- app_assoc. exact E1. }
    destruct P as (b' & m & P1 & P2). rewrite P1. cbn [bind]. eexists. split; [reflexivity|].
    split; [split; [exact P2|repeat (split; [assumption|]); assumption]|]. apply step_ext_refl; [reflexivity|cbn; rewrite app_nil_r; reflexivity].
  - eexists. split; [reflexivity|]. split; [split; [exact I1|]; split; [exact I2|]; split; [exact I3|]; split; [|exact I5]|].
    + cbn. apply Forall_app. split; [exact I4|]. constructor; [exact Ha|constructor].
    + apply step_ext_refl; [reflexivity|]. cbn [set_sock u_sock]. rewrite data_app. f_equal. destruct x; reflexivity.
  - eexists. split; [reflexivity|]. split; [split; [|repeat (split; [assumption|]); assumption]|].
    2:{ apply step_ext_refl; [reflexivity|cbn; rewrite app_nil_r; reflexivity]. }
    cbn [set_bufs u_b u_log]. remember (u_b s) as b eqn:Eb. remember (kept c (u_log s)) as K eqn:EK.
    destruct I1 as [rs fr gs sd room out Ff E1 Eg Ek|rs x y fr gs g sd room out Ff E1 Eg Ek Ex Fx Fy L];
    cbn [b_ready b_queue b_asg b_tgt b_send b_room b_out]; rewrite <- app_assoc; cbn [app].
    + apply (BIdle c K rs (fr ++ [m]) gs); auto. apply Forall_app. auto.
    + apply (BAct c K rs x y (fr ++ [m]) gs g); auto. apply Forall_app. auto.
  - eexists. split; [reflexivity|]. split; [split; [|repeat (split; [assumption|]); assumption]|].
    2:{ apply step_ext_refl; [reflexivity|cbn; rewrite app_nil_r; reflexivity]. }
    cbn [set_bufs u_b u_log]. remember (u_b s) as b eqn:Eb. remember (kept c (u_log s)) as K eqn:EK.
    destruct I1; cbn [b_ready b_queue b_asg b_tgt b_send b_room b_out]; econstructor; eauto.
Qed.

Lemma init_inv c spare : lenN spare = c_mtu c -> Forall isbyte spare -> uinv c (init spare).
Proof.
  intros L F. split; [|split; [exact L|split; [exact F|split; [constructor|]]]].
  - apply (BIdle c _ [] [] []); auto.
  - repeat (split; [reflexivity|]). reflexivity.
Qed.

Lemma run_spec c s l : cfg_ok c -> Forall (act_ok c) l -> uinv c s -> exists s', run c s l = Ok s' /\ uinv c s' /\
  exists e, u_log s' = u_log s ++ e /\ map snd e ++ data_of (u_sock s') = data_of (u_sock s) ++ flat_map came l /\
    Forall (fun x => fst x = FLost -> c_lost c = true) e /\ Forall (fun x => fst x = FEmpty -> snd x = []) e.
Proof.
  intros Hc. revert s. induction l as [|a l IH]; intros s H I.
  - exists s. split; [reflexivity|]. split; [exact I|]. exists []. rewrite !app_nil_r. auto.
  - inversion_clear H as [|? ? Ha Hl]. destruct (step_spec c s a Hc Ha I) as (s1 & S1 & I1 & e1 & X1 & X2 & X3 & X4 & _).
    destruct (IH s1 Hl I1) as (s2 & R & I2 & e2 & Y1 & Y2 & Y3 & Y4). exists s2. cbn [run]. rewrite S1. cbn [bind].
    split; [exact R|]. split; [exact I2|]. exists (e1 ++ e2). split; [rewrite Y1, X1, app_assoc; reflexivity|].
    split; [|split; apply Forall_app; auto]. rewrite map_app, <- app_assoc, Y2. cbn [flat_map]. rewrite app_assoc, X2. symmetry. apply app_assoc.
Qed.
