(* Packets between two nodes: facts and the invariant of the receiver. *)
From Verif Require Import Common ListFacts Bytes RpktSpec RpktModel.
Local Open Scope N_scope.

(* ---- buffer sizes ---- *)
Lemma grow_ok f : forall size w, w < 2 ^ 31 -> 0 < size -> w < size * 2 ^ N.of_nat f ->
  exists n, grow (S f) size w = Ok n /\ w < n /\ (n = size \/ n <= 2 * w).
Proof.
  induction f as [|f IH]; intros size w W S H.
  - cbn [grow]. replace (2 ^ N.of_nat 0) with 1 in H by reflexivity. destruct (N.leb_spec size w); [lia|]. exists size. auto.
  - change (grow (Datatypes.S (Datatypes.S f)) size w) with (if size <=? w then grow (Datatypes.S f) ((size * 2) mod 2 ^ 32) w else Ok size).
    destruct (N.leb_spec size w).
    + assert (E : (size * 2) mod 2 ^ 32 = size * 2) by (apply N.mod_small; lia). rewrite E.
      rewrite Nat2N.inj_succ, N.pow_succ_r' in H. destruct (IH (size * 2) w W ltac:(lia) ltac:(lia)) as (n & G & L & D). exists n. split; [exact G|]. split; [exact L|]. right. destruct D; lia.
    + exists size. auto.
Qed.
Lemma grow_loop w : 2 ^ 31 <= w -> forall f size, (exists j, j <= 32 /\ size = (2 ^ j) mod 2 ^ 32) -> grow f size w = Loop.
Proof.
  intros W. induction f as [|f IH]; intros size (j & J & ->); [reflexivity|]. cbn [grow].
  assert (L : (2 ^ j) mod 2 ^ 32 <= w).
  { destruct (N.eq_dec j 32) as [->|]; [rewrite N.mod_same by discriminate; lia|].
    rewrite N.mod_small by (apply N.pow_lt_mono_r; lia). etransitivity; [apply (N.pow_le_mono_r 2 j 31); lia|exact W]. }
  destruct (N.leb_spec ((2 ^ j) mod 2 ^ 32) w); [|lia]. apply IH.
  destruct (N.eq_dec j 32) as [->|].
  - exists 32. split; [lia|]. reflexivity.
  - exists (j + 1). split; [lia|]. rewrite N.mod_small with (a := 2 ^ j) by (apply N.pow_lt_mono_r; lia). rewrite N.pow_add_r. reflexivity.
Qed.
Lemma ensure_ok w buf : w < 2 ^ 31 -> exists b, ensure w buf = Ok b /\ w < lenN b.
Proof.
  intros W. unfold ensure. destruct (N.ltb_spec w (lenN buf)); [eauto|].
  destruct (grow_ok 63 2048 w W ltac:(lia)) as (n & -> & L & _).
  - eapply N.lt_le_trans; [exact W|]. vm_compute. discriminate.
  - cbn [bind]. eexists. split; [reflexivity|]. rewrite lenN_repeat, N2Nat.id. exact L.
Qed.

(* ---- lists ---- *)
Lemma takeN_map {A B} (f : A -> B) n l : takeN n (map f l) = map f (takeN n l).
Proof. unfold takeN. apply firstn_map. Qed.
Lemma dropN_map {A B} (f : A -> B) n l : dropN n (map f l) = map f (dropN n l).
Proof. unfold dropN. apply skipn_map. Qed.
Lemma lenN_map {A B} (f : A -> B) l : lenN (map f l) = lenN l.
Proof. unfold lenN. rewrite map_length. reflexivity. Qed.
Lemma takeN_le {A} (a b : list A) n : n <= lenN a -> takeN n (a ++ b) = takeN n a.
Proof. unfold takeN, lenN. intros H. rewrite firstn_app. replace (N.to_nat n - length a)%nat with 0%nat by lia. cbn [firstn]. apply app_nil_r. Qed.
Lemma dropN_le {A} (a b : list A) n : n <= lenN a -> dropN n (a ++ b) = dropN n a ++ b.
Proof. unfold dropN, lenN. intros H. rewrite skipn_app. replace (N.to_nat n - length a)%nat with 0%nat by lia. reflexivity. Qed.
Lemma take_drop {A} n (l : list A) : takeN n l ++ dropN n l = l.
Proof. apply firstn_skipn. Qed.
Lemma copy_map g b off n : off + n <= lenN g -> copy (map Some g ++ b) off n = Ok (map (@Some N) (takeN n (dropN off g))).
Proof.
  intros H. unfold copy. rewrite lenN_app, lenN_map. destruct (N.leb_spec (off + n) (lenN g + lenN b)); [|lia].
  rewrite dropN_le, takeN_le, dropN_map, takeN_map; [reflexivity| |]; rewrite ?dropN_map, ?lenN_map, ?lenN_dropN; lia.
Qed.
Lemma dropN_0 {A} (l : list A) : dropN 0 l = l.
Proof. reflexivity. Qed.
Lemma takeN_0 {A} (l : list A) : takeN 0 l = [].
Proof. reflexivity. Qed.
Lemma two_parts {A} (g : list A) c r : takeN c g ++ takeN r (dropN c g) = takeN (c + r) g.
Proof.
  unfold takeN, dropN. rewrite <- (firstn_skipn (N.to_nat c) (firstn (N.to_nat (c + r)) g)). rewrite firstn_firstn, skipn_firstn_comm. f_equal; f_equal; lia.
Qed.
Lemma within_mid {A} (a g b x : list A) : within x g -> within x (a ++ g ++ b).
Proof. intros (u & v & ->). exists (a ++ u), (v ++ b). rewrite <- !app_assoc. reflexivity. Qed.
Lemma within_take {A} n (g : list A) : within (takeN n g) g.
Proof. exists [], (dropN n g). cbn [app]. rewrite take_drop. reflexivity. Qed.

(* ---- the stream ---- *)
Section Receiver.
  Context (decodes known : cells -> bool) (redirect : bool).
  Notation run := (run decodes known redirect).
  Notation feed := (feed decodes known redirect).
  Notation complete := (complete decodes known redirect).
  Notation process := (process decodes known).

  Lemma run_app s t x : run (s ++ t) x = do y <- run s x; do z <- run t (fst y); Ok (fst z, snd y ++ snd z).
  Proof.
    revert x. induction s as [|b s IH]; intros x; cbn [app RpktModel.run bind].
    - cbn [fst snd]. destruct (run t x) as [[y o]| |]; reflexivity.
    - destruct (feed x b) as [[y o]| |]; cbn [bind fst snd]; [|reflexivity|reflexivity]. rewrite IH.
      destruct (run s y) as [[z o2]| |]; cbn [bind fst snd]; [|reflexivity|reflexivity]. destruct (run t z) as [[w o3]| |]; cbn [bind fst snd]; [|reflexivity|reflexivity]. rewrite app_assoc. reflexivity.
  Qed.
  Lemma run_closed s g buf : run s (mkR Closed g buf) = Ok (mkR Closed g buf, []).
  Proof. induction s as [|b s IH]; cbn [RpktModel.run RpktModel.feed x_st bind fst snd]; [reflexivity|]. rewrite IH. reflexivity. Qed.
  Lemma feed_open st g buf b : st <> Closed ->
    feed (mkR st g buf) b = if lenN (g ++ [b]) <? want st then Ok (mkR st (g ++ [b]) buf, []) else complete st (g ++ [b]) buf.
  Proof. intros H. unfold RpktModel.feed. cbn [x_st x_got x_buf]. destruct st; try reflexivity. congruence. Qed.
  Lemma run_want st buf : st <> Closed -> forall s g, s <> [] -> lenN g + lenN s = want st -> run s (mkR st g buf) = complete st (g ++ s) buf.
  Proof.
    intros C. induction s as [|b s IH]; intros g NE L; [congruence|]. cbn [RpktModel.run]. rewrite feed_open by exact C.
    rewrite lenN_cons in L. rewrite lenN_app, lenN_cons, lenN_nil. destruct s as [|b2 s].
    - rewrite lenN_nil in L. destruct (N.ltb_spec (lenN g + (1 + 0)) (want st)); [lia|]. destruct (complete st (g ++ [b]) buf) as [[y o]| |]; cbn [bind RpktModel.run fst snd]; [rewrite app_nil_r|..]; reflexivity.
    - rewrite lenN_cons in L. destruct (N.ltb_spec (lenN g + (1 + 0)) (want st)); [|lia]. cbn [bind fst snd].
      rewrite IH; [|discriminate|rewrite lenN_app, !lenN_cons, lenN_nil; lia]. rewrite <- app_assoc. cbn [app].
      destruct (complete st (g ++ b :: b2 :: s) buf) as [[y o]| |]; reflexivity.
  Qed.

  (* ---- safety ---- *)
  (* what is given on comes from the stream [s] *)
  Definition sound (s : bytes) (o : seen) : Prop :=
    match o with
    | Got _ _ c r => exists cb rb, c = map Some cb /\ r = map Some rb /\ within (cb ++ rb) s
    | Redirect q => exists qb, q = map Some qb /\ lenN qb = msg_size /\ within qb s
    end.
  Definition headers_fit (s : bytes) : Prop := forall h, length h = 24%nat -> within h s -> field 0 h = header_dabc -> fits h.
  Definition good (pre : bytes) (x : rx) : Prop :=
    match x_st x with
    | Closed => True
    | WantHdr => lenN (x_got x) < 24 /\ exists a, pre = a ++ x_got x
    | WantData h => fits h /\ 0 < field 3 h /\ lenN (x_got x) < field 3 h /\ field 3 h < lenN (x_buf x) /\ exists a, pre = a ++ x_got x
    | WantDev => lenN (x_got x) < 76 /\ 100 < lenN (x_buf x) /\ exists a h, length h = 24%nat /\ takeN 24 (x_buf x) = map Some h /\ pre = a ++ h ++ x_got x
    end.

  Lemma process_good pre t h g buf a : fits h -> lenN g = field 3 h -> pre = a ++ g ->
    exists x o, process h (map Some g ++ buf) = Ok (x, o) /\ good pre x /\ Forall (sound (pre ++ t)) o.
  Proof.
    intros (F & _) L ->. unfold RpktModel.process, close.
    assert (G : good (a ++ g) (mkR WantHdr [] (map Some g ++ buf))) by (split; [reflexivity|exists (a ++ g); cbn [x_got]; rewrite app_nil_r; reflexivity]).
    assert (D : forall k tm, Forall (sound ((a ++ g) ++ t)) [Got k tm (map Some (takeN (field 4 h) g)) (map Some (takeN (field 5 h) (dropN (field 4 h) g)))]).
    { intros k tm. constructor; [|constructor]. exists (takeN (field 4 h) g), (takeN (field 5 h) (dropN (field 4 h) g)). repeat split. rewrite two_parts, <- app_assoc. apply within_mid, within_take. }
    assert (D0 : forall k tm, Forall (sound ((a ++ g) ++ t)) [Got k tm (map Some (takeN (field 4 h) g)) []]).
    { intros k tm. constructor; [|constructor]. exists (takeN (field 4 h) g), []. repeat split. rewrite app_nil_r, <- app_assoc. apply within_mid, within_take. }
    destruct (field 1 h =? 4); [do 2 eexists; repeat split; constructor|]. destruct (field 4 h =? 0); [do 2 eexists; repeat split; constructor|].
    rewrite copy_map by lia. cbn [bind]. rewrite dropN_0. destruct (decodes _); cbn [negb]; [|do 2 eexists; repeat split; constructor].
    assert (R : exists r, (if 0 <? field 5 h then copy (map Some g ++ buf) (field 4 h) (field 5 h) else Ok []) = Ok r /\ forall k tm, Forall (sound ((a ++ g) ++ t)) [Got k tm (map Some (takeN (field 4 h) g)) r]).
    { destruct (0 <? field 5 h); [rewrite copy_map by lia; eauto|eauto]. }
    destruct R as (r & -> & R). cbn [bind].
    destruct (field 1 h =? 1); [do 2 eexists; split; [reflexivity|auto]|].
    destruct (field 1 h =? 2); [destruct (known _); do 2 eexists; (split; [reflexivity|auto])|].
    destruct (field 1 h =? 3); [destruct (known _); do 2 eexists; (split; [reflexivity|auto])|]. do 2 eexists; (split; [reflexivity|auto]).
  Qed.

  Lemma feed_good pre b t x : headers_fit (pre ++ b :: t) -> good pre x ->
    exists y o, feed x b = Ok (y, o) /\ good (pre ++ [b]) y /\ Forall (sound (pre ++ b :: t)) o.
  Proof.
    intros H G. destruct x as [st g buf]. unfold good in G. cbn [x_st x_got x_buf] in G.
    assert (Ec : pre ++ b :: t = (pre ++ [b]) ++ t) by (rewrite <- app_assoc; reflexivity).
    destruct st as [|h| |]; [| | |do 2 eexists; split; [reflexivity|split; [exact I|constructor]]];
      rewrite feed_open by discriminate; rewrite lenN_app, lenN_cons, lenN_nil; cbn [want].
    - destruct G as (L & a & ->). destruct (N.ltb_spec (lenN g + (1 + 0)) 24) as [L2|L2].
      + do 2 eexists. split; [reflexivity|]. split; [|constructor]. split; cbn [x_got]; [rewrite lenN_app, lenN_cons, lenN_nil; lia|]. exists a. rewrite app_assoc. reflexivity.
      + assert (L3 : length (g ++ [b]) = 24%nat) by (rewrite app_length; unfold lenN in *; cbn [length]; lia).
        unfold RpktModel.complete. destruct (field 0 (g ++ [b]) =? header_connect).
        * destruct redirect; [|do 2 eexists; split; [reflexivity|split; [exact I|constructor]]].
          destruct (ensure_ok msg_size buf ltac:(vm_compute; reflexivity)) as (bf & -> & Lb). cbn [bind]. do 2 eexists. split; [reflexivity|]. split; [|constructor].
          assert (E24 : lenN (g ++ [b]) = 24) by (unfold lenN; rewrite L3; reflexivity).
          split; [reflexivity|]. cbn [x_buf x_got]. split; [rewrite lenN_app, lenN_map, lenN_dropN, E24; unfold msg_size in Lb; lia|].
          exists a, (g ++ [b]). split; [exact L3|]. split; [apply takeN_app; rewrite lenN_map; auto|]. rewrite app_nil_r, app_assoc. reflexivity.
        * destruct (N.eqb_spec (field 0 (g ++ [b])) header_dabc) as [Em|]; cbn [negb]; [|do 2 eexists; split; [reflexivity|split; [exact I|constructor]]].
          assert (F : fits (g ++ [b])).
          { apply H; [exact L3| |exact Em]. exists a, t. rewrite <- !app_assoc. reflexivity. }
          destruct (N.eqb_spec (field 3 (g ++ [b])) 0) as [E0|E0].
          -- rewrite Ec. destruct (process_good ((a ++ g) ++ [b]) t (g ++ [b]) [] buf ((a ++ g) ++ [b]) F) as (x & o & P & Gx & So); [rewrite E0; reflexivity|rewrite app_nil_r; reflexivity|]. exists x, o. auto.
          -- destruct (ensure_ok (field 3 (g ++ [b])) buf) as (bf & -> & Lb); [apply F|]. cbn [bind]. do 2 eexists. split; [reflexivity|]. split; [|constructor].
             split; [exact F|]. cbn [x_got x_buf]. split; [lia|]. split; [change (0 < field 3 (g ++ [b])); lia|]. split; [exact Lb|]. exists ((a ++ g) ++ [b]). rewrite app_nil_r. reflexivity.
    - destruct G as (F & P & L & Lb & a & ->). destruct (N.ltb_spec (lenN g + (1 + 0)) (field 3 h)) as [L2|L2].
      + do 2 eexists. split; [reflexivity|]. split; [|constructor]. unfold good; cbn [x_st x_got x_buf]. split; [exact F|]. split; [lia|]. split; [unfold lenN in *; rewrite app_length; cbn [length]; lia|]. split; [exact Lb|]. exists a. rewrite app_assoc. reflexivity.
      + rewrite Ec. unfold RpktModel.complete. apply process_good with (a := a); [exact F|rewrite lenN_app, lenN_cons, lenN_nil; lia|rewrite app_assoc; reflexivity].
    - destruct G as (L & Lb & a & h & Lh & Eh & ->). change (msg_size - 24) with 76. destruct (N.ltb_spec (lenN g + (1 + 0)) 76) as [L2|L2].
      + do 2 eexists. split; [reflexivity|]. split; [|constructor]. split; cbn [x_got x_buf]; [rewrite lenN_app, lenN_cons, lenN_nil; lia|]. split; [exact Lb|]. exists a, h. split; [exact Lh|]. split; [exact Eh|]. rewrite <- !app_assoc. reflexivity.
      + unfold RpktModel.complete. rewrite Eh, app_assoc, <- map_app. set (q := h ++ g ++ [b]).
        assert (Lq : lenN q = 100) by (unfold q, lenN in *; rewrite !app_length; cbn [length]; lia).
        rewrite copy_map by (rewrite Lq; reflexivity). cbn [bind]. do 2 eexists. split; [reflexivity|]. split; [exact I|]. constructor; [|constructor].
        exists q. rewrite dropN_0, takeN_all by (rewrite Lq; reflexivity). split; [reflexivity|]. split; [exact Lq|]. exists a, t. unfold q. rewrite <- !app_assoc. reflexivity.
  Qed.

  Lemma run_good t : forall pre x, headers_fit (pre ++ t) -> good pre x ->
    exists y o, run t x = Ok (y, o) /\ good (pre ++ t) y /\ Forall (sound (pre ++ t)) o.
  Proof.
    induction t as [|b t IH]; intros pre x H G; cbn [RpktModel.run].
    - rewrite app_nil_r. do 2 eexists. split; [reflexivity|]. split; [exact G|constructor].
    - destruct (feed_good pre b t x H G) as (y & o & -> & Gy & So). cbn [bind fst snd].
      assert (Ec : pre ++ b :: t = (pre ++ [b]) ++ t) by (rewrite <- app_assoc; reflexivity). rewrite Ec in *.
      destruct (IH (pre ++ [b]) y H Gy) as (z & o2 & -> & Gz & So2). cbn [bind fst snd]. do 2 eexists. split; [reflexivity|]. split; [exact Gz|]. apply Forall_app. auto.
  Qed.

  (* ---- round trip ---- *)
  Lemma header_fields k t c r : k < 2 ^ 32 -> t < 2 ^ 32 -> c + r < 2 ^ 32 ->
    let h := header k t c r in
    lenN h = 24 /\ field 0 h = header_dabc /\ field 1 h = k /\ field 2 h = t /\ field 3 h = c + r /\ field 4 h = c /\ field 5 h = r.
  Proof.
    intros K T S h. assert (F : forall i a x b, length a = (4 * i)%nat -> x < 2 ^ 32 -> field i (a ++ le 4 x ++ b) = x).
    { intros i a x b La Lx. unfold field. rewrite <- La, skipn_app, skipn_all, Nat.sub_diag. cbn [skipn app].
      rewrite firstn_app, le_length, Nat.sub_diag, firstn_all2 by (rewrite le_length; lia). cbn [firstn]. rewrite app_nil_r. apply unle_le4. exact Lx. }
    unfold h, header. split; [unfold lenN; rewrite !app_length, !le_length; reflexivity|].
    split; [apply (F 0%nat []); [reflexivity|vm_compute; reflexivity]|].
    split; [apply (F 1%nat (le 4 header_dabc)); [reflexivity|exact K]|].
    split; [rewrite app_assoc; apply (F 2%nat (le 4 header_dabc ++ le 4 k)); [reflexivity|exact T]|].
    split; [rewrite app_assoc, (app_assoc _ (le 4 t)); apply (F 3%nat ((le 4 header_dabc ++ le 4 k) ++ le 4 t)); [reflexivity|exact S]|].
    split; [rewrite app_assoc, (app_assoc _ (le 4 t)), (app_assoc _ (le 4 (c + r))); apply (F 4%nat (((le 4 header_dabc ++ le 4 k) ++ le 4 t) ++ le 4 (c + r))); [reflexivity|lia]|].
    rewrite <- (app_nil_r (le 4 r)). rewrite app_assoc, (app_assoc _ (le 4 t)), (app_assoc _ (le 4 (c + r))), (app_assoc _ (le 4 c)). apply (F 5%nat ((((le 4 header_dabc ++ le 4 k) ++ le 4 t) ++ le 4 (c + r)) ++ le 4 c)); [reflexivity|lia].
  Qed.

  (* messages as they are sent: a command with its timeout, or the reply to a waiting command *)
  Definition proper (m : msg) : Prop :=
    m_cmd m <> [] /\ decodes (map Some (m_cmd m)) = true /\ lenN (m_cmd m) + lenN (m_raw m) < 2 ^ 31 /\ m_timeout m < 2 ^ 32 /\
    (m_kind m = 1 \/ m_kind m = 2 /\ m_timeout m = 0 /\ known (map Some (m_cmd m)) = true).

  Lemma run_message m buf : proper m -> exists p buf', send (m_kind m) (m_timeout m) (m_cmd m) [m_raw m] = Ok p /\ run p (mkR WantHdr [] buf) = Ok (mkR WantHdr [] buf', [received m]).
  Proof.
    destruct m as [k tm c r]. intros (NE & D & L & T & K). cbn [m_kind m_timeout m_cmd m_raw] in *. unfold send, received. cbn [concat hd m_kind m_timeout m_cmd m_raw]. rewrite app_nil_r.
    assert (Er : (if 0 <? lenN r then copy r 0 (lenN r) else Ok []) = Ok r).
    { destruct (N.ltb_spec 0 (lenN r)) as [|Z]; [unfold copy; rewrite N.add_0_l, N.leb_refl, dropN_0, takeN_all by lia; reflexivity|]. destruct r; [reflexivity|rewrite lenN_cons in Z; lia]. }
    rewrite Er. cbn [bind]. assert (Lc : 0 < lenN c) by (destruct c; [congruence|rewrite lenN_cons; lia]).
    assert (K2 : k < 2 ^ 32) by (destruct K as [->|(-> & _)]; reflexivity).
    destruct (header_fields k tm (lenN c) (lenN r) K2 T ltac:(lia)) as (H0 & H1 & H2 & H3 & H4 & H5 & H6). set (h := header k tm (lenN c) (lenN r)) in *. cbn zeta in *.
    destruct (ensure_ok (field 3 h) buf ltac:(rewrite H4; exact L)) as (bf & Eb & Lb).
    eexists. exists (map Some (c ++ r) ++ dropN (lenN (c ++ r)) bf). split; [reflexivity|]. rewrite run_app.
    rewrite (run_want WantHdr buf ltac:(discriminate) h []); [|intros E; rewrite E in H0; discriminate|rewrite H0; reflexivity].
    cbn [app RpktModel.complete]. rewrite H1. change (header_dabc =? header_connect) with false. change (header_dabc =? header_dabc) with true. cbn [negb].
    destruct (N.eqb_spec (field 3 h) 0); [lia|]. rewrite Eb. cbn [bind fst snd].
    rewrite (run_want (WantData h) bf ltac:(discriminate) (c ++ r) []); [|destruct c; [congruence|discriminate]|cbn [want]; rewrite H4, lenN_app, lenN_nil; lia].
    cbn [app RpktModel.complete]. unfold RpktModel.process. rewrite H2, H3, H5, H6.
    destruct (N.eqb_spec k 4); [destruct K as [->|(-> & _)]; discriminate|]. destruct (N.eqb_spec (lenN c) 0); [lia|].
    rewrite copy_map by (rewrite lenN_app; lia). cbn [bind]. rewrite dropN_0, (takeN_app c r) by reflexivity. rewrite D. cbn [negb].
    assert (R : (if 0 <? lenN r then copy (map Some (c ++ r) ++ dropN (lenN (c ++ r)) bf) (lenN c) (lenN r) else Ok []) = Ok (map (@Some N) r)).
    { destruct (N.ltb_spec 0 (lenN r)) as [|Z]; [rewrite copy_map by (rewrite lenN_app; lia); rewrite (dropN_app c r) by reflexivity; rewrite takeN_all by lia; reflexivity|].
      destruct r; [reflexivity|rewrite lenN_cons in Z; lia]. }
    rewrite R. cbn [bind]. destruct K as [->|(-> & -> & Kn)]; [reflexivity|]. change (2 =? 1) with false. change (2 =? 2) with true. rewrite Kn. reflexivity.
  Qed.
End Receiver.
