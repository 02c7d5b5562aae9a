(* Proofs about the MBS event builder: events which must not be lost, sending, progress. *)
From Verif Require Import Common ListFacts Bytes MbsSpec MCombSpec MCombModel MCombProofs MCombGroups MCombJoin MCombRun.
Local Open Scope N_scope.

(* ---- special events and events of inputs without numbers ---- *)
Section Kept.
Context (c : conf) (cfs : list icfg) (Z : N).
Definition kept (cf : icfg) (e : mevent) : bool := g_nonum cf || is_special (f_lim c) cf e.
Definition sized (r : nat -> list mevent) : Prop := forall i e, In e (r i) -> lenN (enc_msubs (me_subs e)) <= Z.
Definition keeps (s : st) : Prop := forall i p, nth_error (s_ins s) i = Some p ->
  filter (kept (p_cfg p)) (p_done p) = filter (kept (p_cfg p)) (from_input i (s_made s)).
Definition wired (s : st) : Prop := f_full c = true -> Forall (fun p => p_conn p = true) (s_ins s).
Definition KI (pre : list op) (s : st) : Prop := Inv c cfs pre s /\ out_ge (bound cfs Z) s /\ keeps s /\ wired s.

Lemma unnumbered_kept cf l : unnumbered c cf l -> filter (kept cf) l = [].
Proof.
  induction 1 as [|e l U _ IH]; cbn; auto. rewrite IH. unfold kept, is_special. unfold event_number in U.
  destruct (g_mbs cf && (f_lim c <=? trig_no e)%Z); [discriminate|]. destruct (g_real cf); [discriminate|]. destruct (g_nonum cf); [discriminate|]. reflexivity.
Qed.
Lemma special_flag cf e n b : event_number c cf e = Some (n, b) -> is_special (f_lim c) cf e = b.
Proof.
  unfold event_number, is_special. destruct (g_mbs cf && (f_lim c <=? trig_no e)%Z); [intros [= _ <-]; auto|].
  destruct (g_real cf); [intros [= _ <-]; auto|]. destruct (g_nonum cf); [intros [= _ <-]; auto|]. destruct (sub_number cf e); [intros [= _ <-]; auto|discriminate].
Qed.
Lemma from_one i g : from_input i [g] = match nth_error g i with Some (Some e) => [e] | _ => [] end.
Proof. unfold from_input. cbn. apply app_nil_r. Qed.

Lemma find_special_none' l : forall k, find_special k l = None -> forall p, In p l -> counted p = true -> p_special p = false.
Proof.
  induction l as [|p l IH]; cbn; intros k H q I C; [tauto|]. destruct (counted p && p_special p) eqn:E; [discriminate|].
  destruct I as [ -> |I]; [rewrite C in E; exact E|eauto].
Qed.

Lemma wired_case e s s' ok : wired s -> case c e s s' ok -> wired s'.
Proof. intros W C F. eapply conn_shrunk; [eapply case_shrunk; eauto|auto]. Qed.

Lemma KI_case pre e s s' ok : sized (fun i => received i pre) -> room cfs Z e -> KI pre s -> case c e s s' ok -> KI pre s'.
Proof.
  intros Sz Ro (I & Og & Ke & Wi) Cs. pose proof (inv_case c cfs pre e s s' ok I Cs) as I'. pose proof (wired_case e s s' ok Wi Cs) as Wi'.
  split; auto. rewrite and_comm, and_assoc. split; [|split]; auto.
  all: assert (LkF : forall l, Forall2 (looked c) (s_ins s) l -> forall i p', nth_error l i = Some p' -> exists p sk, nth_error (s_ins s) i = Some p /\ p_cfg p' = p_cfg p /\ p_done p' = p_done p ++ sk /\ filter (kept (p_cfg p)) sk = []).
  1,3: intros l Lk i p' E; destruct (Forall2_nth' _ _ _ Lk _ _ E) as (p & Ep & A1 & A2 & A3 & A4 & (sk & A5 & A6) & A7); exists p, sk; repeat split; auto; apply unnumbered_kept; auto.
  all: assert (Gs : forall l l2 g, Forall2 (looked c) (s_ins s) l -> entry c (e_now e) (anyfull s) l -> chosen c l l2 -> group_of l2 = Ok g -> lenN (enc_msubs (group_subs g)) + 16 <= bound cfs Z).
  1,3: intros l l2 g Lk En Ch Gr; destruct (selected_inputs c s l l2 _ _ Lk En Ch) as (S2 & K2 & So & _);
    assert (H : lenN (enc_msubs (group_subs g)) <= lenN g * Z) by (
      apply group_size; intros i ev Me; destruct (member_sel _ _ So Gr _ _ Me) as (p2 & E2 & _ & Hd);
      destruct (Forall2_nth' _ _ _ S2 _ _ E2) as (p & E & p1 & Lp & Sp); apply (Sz i); pose proof I as (_ & _ & I3 & _); destruct (I3 _ _ E) as [R _]; rewrite <- R;
      destruct Lp as (_ & _ & _ & Lp & _); rewrite <- Lp, <- (same_pending _ _ Sp); unfold head in Hd; destruct (p_it p2) as [[x r]|] eqn:It; [|discriminate]; injection Hd as ->;
      apply in_or_app; right; rewrite (pending_head _ _ _ It); left; reflexivity);
    assert (Lg : lenN g = lenN cfs) by (unfold lenN; rewrite (group_len _ _ So Gr); destruct I as (_ & I2 & _); rewrite <- I2, map_length, (Forall2_length _ _ _ S2); auto);
    unfold bound; rewrite Lg in *; lia.
  - (* kept *)
    assert (Hsel : forall l l2, Forall2 (looked c) (s_ins s) l -> entry c (e_now e) (anyfull s) l -> chosen c l l2 -> forall i p2, nth_error l2 i = Some p2 ->
       exists p p1 sk, nth_error (s_ins s) i = Some p /\ nth_error l i = Some p1 /\ same_in p1 p2 /\ p_cfg p2 = p_cfg p /\ p_done p2 = p_done p ++ sk /\ filter (kept (p_cfg p)) sk = []).
    { intros l l2 Lk En Ch i p2 E2.
      assert (Sm : Forall2 same_in l l2). { destruct (chosen_facts c l l2 (proj1 En)) as (X & _); auto. eapply Forall_impl; [|exact (proj2 En)]; cbn; tauto. }
      destruct (Forall2_nth' _ _ _ Sm _ _ E2) as (p1 & E1 & S1). destruct (LkF _ Lk _ _ E1) as (p & sk & A1 & A2 & A3 & A4).
      exists p, p1, sk. rewrite (same_cfg _ _ S1), (same_done _ _ S1). auto 10. }
    destruct Cs as [F D ->|l ok P Lk T E1 E2 E3 E4 E5|l l2 g s1 P Lk En Ch Gr W ->|l l2 g P Lk En Ch Gr Ms ->|l l2 g s1 P Lk En Ch Gr Ms W ->].
    + exfalso. specialize (Wi F). destruct D as (p & D1 & D2 & D3). rewrite Forall_forall in Wi. specialize (Wi _ D1). congruence.
    + intros i p' E. rewrite E1 in E. destruct (LkF _ Lk _ _ E) as (p & sk & A1 & A2 & A3 & A4). rewrite A2, A3, filter_app, A4, app_nil_r, E5. exact (Ke _ _ A1).
    + apply write_spec in W. destruct W as (W1 & [[W2 _]|[W2 _]]); [|discriminate]. intros i p2 E. rewrite W1 in E. cbn in E.
      destruct (Hsel _ _ Lk En Ch _ _ E) as (p & p1 & sk & A1 & A2 & A3 & A4 & A5 & A6). rewrite A4, A5, filter_app, A6, app_nil_r, W2. exact (Ke _ _ A1).
    + intros i p3 E. cbn in E. destruct (selected_inputs c s l l2 _ _ Lk En Ch) as (S2 & K2 & So & _). pose proof (finish_spec c (e_now e) true l2 K2) as Fi.
      destruct (Forall2_nth' _ _ _ Fi _ _ E) as (p2 & E2 & Ad). destruct (Hsel _ _ Lk En Ch _ _ E2) as (p & p1 & sk & A1 & A2 & A3 & A4 & A5 & A6).
      cbn [s_made set_ins]. unfold advanced in Ad. destruct (p_sel p2 && negb (true && g_nonum (p_cfg p2))) eqn:B.
      * destruct Ad as (B1 & B2 & B3 & B4 & sk2 & B5 & B6). assert (B7 : filter (kept (p_cfg p)) sk2 = []) by (rewrite <- A4; apply unnumbered_kept; exact B6). rewrite B2, A4, B5, A5, !filter_app, A6, B7. assert (filter (kept (p_cfg p)) (head p2) = []) as ->; [|rewrite !app_nil_r; exact (Ke _ _ A1)].
        apply andb_prop in B. destruct B as [B Bn]. unfold head. destruct (p_it p2) as [[ev r]|] eqn:It; auto. cbn. rewrite Forall_forall in K2. pose proof (K2 _ (nth_error_In _ _ E2)) as Ok2.
        destruct (in_ok_head c _ _ _ Ok2 It) as [Nu _]. apply special_flag in Nu. unfold kept. rewrite <- A4. rewrite Nu.
        assert (Nn : g_nonum (p_cfg p2) = false) by (apply negb_true_iff in Bn; exact Bn).
        rewrite Nn. cbn. destruct Ms as [Ms _].
        assert (p_special p1 = false). { apply (find_special_none' _ _ Ms p1); [eapply nth_error_In; eauto|]. unfold counted. destruct A3 as (C1 & _ & _ & _ & I1 & _). rewrite <- C1, Nn, <- I1, It. reflexivity. }
        assert (p_special p2 = p_special p1) by apply A3. rewrite H0, H. reflexivity.
      * subst p3. rewrite A4, A5, filter_app, A6, app_nil_r. exact (Ke _ _ A1).
    + destruct (write_fit e l2 g (set_ins l2 s) s1 true (bound cfs Z) Ro (Gs _ _ _ Lk En Ch Gr) Og W) as [O1 Md]. specialize (Md eq_refl). cbn in Md.
      intros i p3 E. cbn in E. destruct (selected_inputs c s l l2 _ _ Lk En Ch) as (S2 & K2 & So & _). pose proof (finish_spec c (e_now e) false l2 K2) as Fi.
      destruct (Forall2_nth' _ _ _ Fi _ _ E) as (p2 & E2 & Ad). destruct (Hsel _ _ Lk En Ch _ _ E2) as (p & p1 & sk & A1 & A2 & A3 & A4 & A5 & A6).
      cbn [s_made set_ins]. rewrite Md, from_input_app, from_one, (group_nth' _ _ So Gr _ _ E2). unfold advanced in Ad. cbn in Ad. rewrite andb_true_r in Ad. destruct (p_sel p2) eqn:Sl.
      * destruct Ad as (B1 & B2 & B3 & B4 & sk2 & B5 & B6). assert (B7 : filter (kept (p_cfg p)) sk2 = []) by (rewrite <- A4; apply unnumbered_kept; exact B6). rewrite B2, A4, B5, A5, !filter_app, A6, B7, !app_nil_r. rewrite (Ke _ _ A1). f_equal. unfold head. destruct (p_it p2) as [[ev r]|]; reflexivity.
      * subst p3. rewrite A4, A5, !filter_app, A6, app_nil_r, app_nil_r. exact (Ke _ _ A1).
  - (* room *)
    destruct Cs as [F D ->|l ok P Lk T E1 E2 E3 E4 E5|l l2 g s1 P Lk En Ch Gr W ->|l l2 g P Lk En Ch Gr Ms ->|l l2 g s1 P Lk En Ch Gr Ms W ->]; auto.
    + unfold out_ge. rewrite E2. exact Og.
    + exact (proj1 (write_fit e l2 g (set_ins l2 s) s1 false (bound cfs Z) Ro (Gs _ _ _ Lk En Ch Gr) Og W)).
    + exact (proj1 (write_fit e l2 g (set_ins l2 s) s1 true (bound cfs Z) Ro (Gs _ _ _ Lk En Ch Gr) Og W)).
Qed.
End Kept.
