(* Proofs about the MBS event builder: a call of BuildEvent goes on when it can. *)
From Verif Require Import Common ListFacts Bytes MbsSpec MCombSpec MCombModel MCombProofs MCombGroups MCombJoin MCombRun MCombKept MCombSend.
Local Open Scope N_scope.

Section Progress.
Context (c : conf).

Lemma usable_number cf e : usable (f_mask c) (f_lim c) cf e -> event_number c cf e <> None.
Proof.
  unfold usable, event_number. intros H.
  destruct (g_mbs cf && (f_lim c <=? trig_no e)%Z) eqn:S; [discriminate|]. destruct (g_real cf) eqn:R; [discriminate|]. destruct (g_nonum cf) eqn:N; [discriminate|].
  destruct H as [(A & B)|[H|(n & H)]]; [|discriminate|].
  - rewrite A in S. cbn in S. lia.
  - unfold carries in H. rewrite R in H. destruct H as (b & x & a & u & w & v & E & F & Ix & Rw & La & Lw & _).
    unfold sub_number. rewrite E. assert (Fi : find (fun y => ms_id y =? g_src cf) (b ++ x :: a) = Some x).
    { clear - F Ix. induction F as [|y b Ny F IH]; cbn; [apply N.eqb_eq in Ix; rewrite Ix; auto|]. apply N.eqb_neq in Ny. rewrite Ny. auto. }
    rewrite Fi, Rw. assert (g_shift cf + 4 <=? lenN (u ++ w ++ v) = true) as ->; [|discriminate]. apply N.leb_le. unfold lenN in *. rewrite !app_length. lia.
Qed.

Lemma prep_stuck now mf p p' : in_ok c p -> prep c now mf p = (p', false) -> unnumbered c (p_cfg p) (pending p).
Proof.
  intros K. unfold prep. set (p0 := set_last _ _).
  assert (S : same_in p p0) by (subst p0; repeat split).
  destruct (p_it p0) eqn:It; [discriminate|]. destruct (shift_ev c p0) as [p1 b] eqn:E. apply shift_spec in E; [|eapply same_ok; eauto].
  destruct E as (_ & _ & _ & _ & _ & _ & A & (sk & B & U) & D). destruct b; [discriminate|]. intros _. destruct D as [_ D].
  rewrite D, app_nil_r in A. unfold head in B. rewrite It in B. cbn in B. rewrite B in A. apply app_inv_head in A.
  rewrite <- (same_pending _ _ S), <- A, <- (same_cfg _ _ S). exact U.
Qed.
Lemma prep_all_stuck now mf l : forall l', Forall (in_ok c) l -> prep_all c now mf l = (l', false) -> exists p, In p l /\ unnumbered c (p_cfg p) (pending p).
Proof.
  induction l as [|p l IH]; cbn; intros l' K; [discriminate|]. inversion K as [|? ? K1 K2]; subst. destruct (prep c now mf p) as [p' [|]] eqn:P.
  - destruct (prep_all c now mf l) as [r' [|]] eqn:R; [discriminate|]. intros _. destruct (IH _ K2 eq_refl) as (q & Q1 & Q2). eauto.
  - intros _. exists p. split; auto. eapply prep_stuck; eauto.
Qed.

Lemma group_fits cfs Z pre s l l2 g now mf : sized Z (fun i => received i pre) -> Inv c cfs pre s ->
  Forall2 (looked c) (s_ins s) l -> entry c now mf l -> chosen c l l2 -> group_of l2 = Ok g -> lenN (enc_msubs (group_subs g)) + 16 <= bound cfs Z.
Proof.
  intros Sz I Lk En Ch Gr. destruct (selected_inputs c s l l2 _ _ Lk En Ch) as (S2 & K2 & So & _).
  assert (H : lenN (enc_msubs (group_subs g)) <= lenN g * Z).
  { apply group_size. intros i ev Me. destruct (member_sel _ _ So Gr _ _ Me) as (p2 & E2 & _ & Hd).
    destruct (Forall2_nth' _ _ _ S2 _ _ E2) as (p & E & p1 & Lp & Sp). apply (Sz i). pose proof I as (_ & _ & I3 & _). destruct (I3 _ _ E) as [R _]. rewrite <- R.
    destruct Lp as (_ & _ & _ & Lp & _). rewrite <- Lp, <- (same_pending _ _ Sp). unfold head in Hd. destruct (p_it p2) as [[x r]|] eqn:It; [|discriminate]. injection Hd as ->.
    apply in_or_app. right. rewrite (pending_head _ _ _ It). left. reflexivity. }
  assert (Lg : lenN g = lenN cfs) by (unfold lenN; rewrite (group_len _ _ So Gr); destruct I as (_ & I2 & _); rewrite <- I2, map_length, (Forall2_length _ _ _ S2); auto).
  unfold bound. rewrite Lg in *. lia.
Qed.

Lemma write_goes e l g s s' ok bd cap : e_send1 e = true -> e_take e = Some cap -> 28 <= cap -> lenN (enc_msubs (group_subs g)) + 16 <= bd ->
  out_ge bd s -> write e l g s = Ok (s', ok) -> ok = true.
Proof.
  intros Hs Ht Hc Hg Ho. unfold write. set (sz := lenN _) in *. rewrite Hs, Ht.
  assert (C28 : cap <? 28 = false) by (apply N.ltb_ge; auto).
  assert (X : exists s1, match s_out s with Some o => if place o sz then (s, true) else flush true s | None => (s, true) end = (s1, true)).
  { unfold out_ge in Ho. destruct (s_out s) as [[cp l0]|] eqn:O; [|eauto]. destruct (place (cp, l0) sz) eqn:Pl; [eauto|].
    unfold flush. rewrite O. destruct l0 as [|x l0]; [|eauto]. exfalso. unfold place in Pl. cbn [fst snd used_size fold_right] in Pl. apply N.leb_gt in Pl. lia. }
  destruct X as (s1 & ->). cbn [negb]. destruct (s_out s1) as [o|] eqn:O1; [|rewrite C28]; cbn [negb s_out].
  - rewrite O1. destruct o as [cp evs]. destruct (negb _); [intros [= <- <-]; auto|]. destruct (header l); cbn; try discriminate. intros [= _ <-]. auto.
  - destruct (negb _); [intros [= <- <-]; auto|]. destruct (header l); cbn; try discriminate. intros [= _ <-]. auto.
Qed.

Lemma build_goes cfs Z pre s e cap : f_tol c = 0 -> sized Z (fun i => received i pre) -> Inv c cfs pre s -> out_ge (bound cfs Z) s -> wired c s ->
  e_send1 e = true -> e_take e = Some cap -> 28 <= cap ->
  (forall p, In p (s_ins s) -> exists ev, In ev (pending p) /\ usable (f_mask c) (f_lim c) (p_cfg p) ev) ->
  (exists p, In p (s_ins s) /\ g_nonum (p_cfg p) = false) ->
  exists s', build c e s = Ok (s', true) /\
    exists i p p', nth_error (s_ins s) i = Some p /\ nth_error (s_ins s') i = Some p' /\ (length (pending p') < length (pending p))%nat.
Proof.
  intros Tol Sz I Og Wi Hs Ht Hc Us (pn & Ipn & Npn). pose proof I as (K & _).
  assert (NU : forall p, In p (s_ins s) -> ~ unnumbered c (p_cfg p) (pending p)).
  { intros p Ip U. destruct (Us _ Ip) as (ev & Ie & Ue). unfold unnumbered in U. rewrite Forall_forall in U. apply (usable_number _ _ Ue). auto. }
  assert (Cons : forall l l2 skip s1, Forall2 (looked c) (s_ins s) l -> entry c (e_now e) (anyfull s) l -> chosen c l l2 ->
     exists i p p', nth_error (s_ins s) i = Some p /\ nth_error (s_ins (set_ins (finish c (e_now e) skip l2) s1)) i = Some p' /\ (length (pending p') < length (pending p))%nat).
  { intros l l2 skip s1 Lk En Ch. destruct (selected_inputs c s l l2 _ _ Lk En Ch) as (S2 & K2 & So & (p2 & Ip & Sl & Nn)). cbn [s_ins set_ins].
    apply In_nth_error in Ip. destruct Ip as [i E2]. destruct (Forall2_nth' _ _ _ S2 _ _ E2) as (p & E & p1 & Lp & Sp).
    destruct (Forall2_nth _ _ _ (finish_spec c (e_now e) skip l2 K2) _ _ E2) as (p3 & E3 & Ad). exists i, p, p3. split; auto. split; auto.
    unfold advanced in Ad. rewrite Sl, Nn, andb_false_r in Ad. cbn in Ad. destruct Ad as (_ & _ & _ & A4 & sk & A5 & _).
    rewrite Forall_forall in So. pose proof (So _ (nth_error_In _ _ E2) Sl) as Hit. destruct (p_it p2) as [[ev r]|] eqn:It; [|congruence].
    assert (L1 : (length (p_done p1) + length (pending p1) = length (p_done p) + length (pending p))%nat).
    { rewrite <- !app_length. f_equal. apply Lp. }
    assert (L2 : (length (p_done p3) + length (pending p3) = length (p_done p2) + length (pending p2))%nat) by (rewrite <- !app_length; f_equal; exact A4).
    destruct Lp as (_ & _ & _ & _ & (sk0 & Lp & _) & _). assert (L3 : length (p_done p1) = (length (p_done p) + length sk0)%nat) by (rewrite Lp, app_length; auto).
    assert (L4 : length (p_done p3) = (length (p_done p2) + S (length sk))%nat). { rewrite A5. unfold head. rewrite It, !app_length. cbn. lia. }
    rewrite (same_done _ _ Sp), (same_pending _ _ Sp) in *. lia. }
  destruct (build_cases c e s K) as (s' & ok & B & Cs). revert B.
  destruct Cs as [F D ->|l ok P Lk T E1 E2 E3 E4 E5|l l2 g s1 P Lk En Ch Gr W ->|l l2 g P Lk En Ch Gr Ms ->|l l2 g s1 P Lk En Ch Gr Ms W ->]; intros B.
  - exfalso. specialize (Wi F). destruct D as (p & D1 & D2 & D3). rewrite Forall_forall in Wi. specialize (Wi _ D1). congruence.
  - exfalso. destruct ok.
    + destruct T as [T|[T|T]]; [discriminate| |lia].
      destruct (prep_all_spec c (e_now e) (anyfull s) _ _ _ K P) as [_ En]. specialize (En eq_refl).
      apply In_nth_error in Ipn. destruct Ipn as [i Ei]. destruct (Forall2_nth _ _ _ Lk _ _ Ei) as (p1 & Ep1 & Lp).
      assert (Np : p_it p1 <> None).
      { intros X. rewrite Forall_forall in En. destruct (En _ (nth_error_In _ _ Ep1)) as [_ En1]. destruct (En1 X) as [En2 _].
        destruct Lp as (_ & _ & _ & L4 & (sk & L5 & L6) & _). rewrite En2, app_nil_r, L5 in L4. apply app_inv_head in L4. subst sk. apply (NU pn); auto. eapply nth_error_In; eauto. }
      assert (In (p_num p1) (nums l)). { apply nums_in; [eapply nth_error_In; eauto|]. unfold counted. destruct Lp as (_ & -> & _). rewrite Npn. destruct (p_it p1); [auto|congruence]. }
      rewrite T in H. destruct H.
    + destruct (prep_all_stuck _ _ _ _ K P) as (p & Ip & U). exact (NU _ Ip U).
  - exfalso. assert (X : false = true); [|discriminate]. eapply write_goes with (s := set_ins l2 s); eauto. eapply group_fits; eauto.
  - eexists. split; [exact B|]. eapply Cons; eauto.
  - eexists. split; [exact B|]. eapply Cons; eauto.
Qed.
End Progress.
