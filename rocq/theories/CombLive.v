(* The event builder ends with all events when BuildEvent is called often enough. *)
From Verif Require Import Common ListFacts Bytes WordMem BufPtr HadSpec HadModel HadWords HadRead TrigModel TrigProofs CombSpec CombModel CombWrite CombIn CombSafe CombBytes CombDone.
Local Open Scope N_scope.

Section S.
Variable c : conf.
Variable k : N.
Hypothesis HM : c_max c = 2^k.
Hypothesis HK : k < 31.
Variable B : N.
Variable n : nat.
Hypothesis HB : N.of_nat n * B < 2^32.
Hypothesis Hn : (0 < n)%nat.
Variable G : Z.
Hypothesis HG : (0 <= G)%Z.
Hypothesis HG4 : (4 * G < Z.of_N (2^k))%Z.
Hypothesis HT : (c_tol c <= 0 \/ 2 * G <= c_tol c)%Z.
Variable Fs : list (list (Z * item)).
Hypothesis Hlen : length Fs = n.
Hypothesis HFs : Fs <> [].
Hypothesis C0 : climbs G (map fst (hd [] Fs)).

Definition lin (f : list (list item)) (s : comb) : Prop := exists L P0 R0, din c k B G (hd [] Fs) Fs f L P0 R0 s.

Lemma unit_size_pos u : 0 < unit_size u. Proof. unfold unit_size. lia. Qed.
Lemma outcome_filled a E p q e s s1 r : sinv k B n a s -> bi c E p q s -> filled s -> big_env B n e -> envw e -> outcome c e s s1 r -> k_exact s1 = false -> filled s1.
Proof.
  intros Is I Hf Big Hw O He. assert (O' := O).
  destruct O as [l El Ed|l El Ed Eh|l b l2 El Ed Eh Eb Ea|l b l2 cm s2 El Ed Eh Eb Ea Ec E2|l b l2 s3 El Ed Eh Eb Ea Ec Ep|l b l2 s3 w El Ed Eh Eb Ea Ec Ep Ew|l b l2 s3 w w1 g El Ed Eh Eb Ea Eg Ec Ep Ew E1]; try exact Hf.
  - rewrite E2. destruct cm; exact Hf.
  - assert (Q := prepare_spec c e (set_in s l2) b (sz c (members l2))). rewrite Ep in Q. destruct Q as [->|Q]; [exact Hf|]. destruct (flush_spec _ _ _ _ Q) as (w & _ & _ & ->). exact Logic.I.
  - exfalso.
    assert (F := sinv_pok _ _ _ _ _ Is). destruct (fill_pok c k HM HK B _ F) as (Fl & Ml). subst l. destruct (aligned_all c k HM HK B b _ l2 _ Fl (proj1 (has_data_all _) Eh) Ea) as (M & It & _). specialize (It ltac:(discriminate)).
    assert (F2 := moved_pok _ _ _ _ M). assert (L2 : length l2 = n). { rewrite <- (len2 _ _ _ M). unfold fill. rewrite map_length. apply Is. }
    assert (Q := prepare_spec c e (set_in s l2) b (sz c (members l2))). rewrite Ep in Q. destruct Q as [(_ & _ & Q & _)|(s0 & m & _ & _ & Em & Er & _)]; [congruence|].
    destruct Big as (_ & Hb). rewrite Em in Hb. unfold w_reset in Er. destruct (lenN m <? 32 + 16); [discriminate|]. injection Er as <-. unfold is_place in Ew. cbn [w_mem w_ev] in Ew. change (is_null pnull) with true in Ew. cbv iota zeta in Ew. apply N.leb_gt in Ew.
    assert (Fi : Forall (iok B) (members l2)).
    { apply Forall_forall. intros x Hx. destruct (In_nth_error _ _ Hx) as (i & Ei). destruct (nth_error l2 i) as [p0|] eqn:Ep0.
      - rewrite (members_nth _ _ _ It Ep0) in Ei. assert (K := proj1 (Forall_forall _ _) F2 p0 (nth_error_In _ _ Ep0)). destruct K as [_ _ Po]. unfold all in Po. rewrite Ei in Po. inversion Po; assumption.
      - apply nth_error_None in Ep0. assert (Q : (i < length (members l2))%nat) by (apply nth_error_Some; congruence). rewrite (members_len _ It) in Q. lia. }
    assert (T1 := total_le B _ Fi). rewrite (members_len _ It), L2 in T1. assert (T2 := total_used c (members l2)).
    assert (T3 : sz c (members l2) <= total (used (c_skip c) (members l2))) by (apply N.mod_le; discriminate). clear - T1 T2 T3 Hb Ew. lia.
  - destruct (outcome_bi c k HM HK B n HB Hn a E p q e s _ _ Is I Hw O' He) as (E3 & p3 & q3 & I3 & Ne). unfold filled. cbn [k_out].
    assert (R := prepare_rest c e (set_in s l2) b (sz c g)). rewrite Ep in R. destruct R as (_ & _ & _ & _ & _ & R & _). cbn [k_built set_in] in R.
    assert (W := b_out _ _ _ _ _ I3). cbn [k_out] in W. destruct W as (rest & _ & _ & _ & _ & Wf & _). rewrite Wf.
    assert (Nq : q3 <> []). { apply Ne. cbn [k_built]. rewrite R. intros Q. rewrite <- (app_nil_r (k_built s)) in Q at 2. apply app_inv_head in Q. discriminate. }
    destruct q3 as [|(g3, u3) q3]; [congruence|]. unfold enc_units. cbn [map concat snd]. rewrite lenN_app, lenN_enc_unit. assert (Q := unit_size_pos u3). lia.
Qed.

Definition state (a : nat -> list item) (s : comb) : Prop := sinv k B n a s /\ out_ok s /\ (exists E p q, bi c E p q s) /\ filled s.

Lemma state_step a s x s1 : state a s -> act_okw B x -> act_big B n x -> step c s x = Ok s1 -> k_exact s1 = false -> state (fun i => a i ++ arrived i [x]) s1.
Proof.
  intros (Is & Ho & I & Hf) Hx Hbx Es He. destruct (step_ok c k HM HK B n a s x Hn Is Ho (act_okw_ok B x Hx)) as (s2 & E2 & Is2 & Ho2). assert (s2 = s1) by congruence. subst s2.
  split; [exact Is2|]. split; [exact Ho2|]. split; [exact (step_bi c k HM HK B n HB Hn a s x s1 Is Ho I Hx Es He)|].
  destruct x as [j b|e|e]; cbn [step] in Es.
  - destruct (nth_error (k_in s) j); injection Es as <-; exact Hf.
  - destruct (build_outcome c k HM HK B e s (sinv_pok _ _ _ _ _ Is)) as (s2 & r & E3 & O); [destruct Is as (L & _); rewrite L; exact Hn|exact Ho|apply (act_okw_ok B (CBuild e) Hx)|].
    rewrite E3 in Es. cbn [bind fst] in Es. injection Es as <-. destruct I as (E & p & q & I). exact (outcome_filled a E p q e s s2 r Is I Hf Hbx Hx O He).
  - injection Es as <-. destruct (flush c e s) as [s2|] eqn:Ef; [|exact Hf]. destruct (flush_spec _ _ _ _ Ef) as (w & _ & _ & ->). exact Logic.I.
Qed.

Lemma run_state l : Forall (act_okw B) l -> Forall (act_big B n) l -> forall a s s1, state a s -> run c s l = Ok s1 -> k_exact s1 = false -> state (fun i => a i ++ arrived i l) s1.
Proof.
  induction l as [|x l IH]; intros Hl Hb a s s1 St Er He; cbn [run] in Er.
  - injection Er as <-. destruct St as (Is & R). split; [|exact R]. refine (sinv_ext _ _ _ _ _ _ _ Is). intros i. cbn. rewrite app_nil_r. reflexivity.
  - inversion Hl as [|? ? Hx Hl']; subst. inversion Hb as [|? ? Hbx Hb']; subst. destruct St as (Is & Ho & R).
    destruct (step_ok c k HM HK B n a s x Hn Is Ho (act_okw_ok B x Hx)) as (s2 & E2 & Is2 & Ho2). rewrite E2 in Er. cbn [bind] in Er.
    assert (He2 := run_exact c k HM HK B n Hn l Hl' _ s2 s1 Is2 Ho2 Er He).
    assert (St2 := state_step a s x s2 (conj Is (conj Ho R)) Hx Hbx E2 He2). destruct (IH Hl' Hb' _ s2 s1 St2 Er He) as (Is3 & R3). split; [|exact R3].
    refine (sinv_ext _ _ _ _ _ _ _ Is3). intros i. cbn beta. rewrite (arrived_cons i x l). apply app_assoc_reverse.
Qed.

Lemma builds_done es : Forall (good_env c B n) es -> forall a s s1, state a s -> lin (futs n []) s -> (mu (k_in s) < length es)%nat \/ exhausted s ->
  run c s (map CBuild es) = Ok s1 -> k_exact s1 = false -> lin (futs n []) s1 /\ exhausted s1.
Proof.
  induction es as [|e es IH]; intros He a s s1 St D Hm Er Hx; cbn [map run] in Er.
  - injection Er as <-. split; [exact D|]. destruct Hm as [Hm|Hm]; [cbn in Hm; lia|exact Hm].
  - inversion He as [|? ? Hge He']; subst. assert (Hb := proj1 Hge). assert (Hw := proj1 (proj2 Hge)).
    assert (St' := St). destruct St' as (Is & Ho & I & Hf). assert (Hae : act_okw B (CBuild e)) by exact Hw.
    destruct (build_outcome c k HM HK B e s (sinv_pok _ _ _ _ _ Is)) as (s2 & r & E2 & O); [destruct Is as (L & _); rewrite L; exact Hn|exact Ho|apply (act_okw_ok B (CBuild e) Hae)|].
    cbn [step] in Er. rewrite E2 in Er. cbn [bind fst] in Er.
    assert (Hl : Forall (act_okw B) (map CBuild es)) by (apply Forall_map; eapply Forall_impl; [|exact He']; intros e0 (_ & H & _); exact H).
    destruct (step_ok c k HM HK B n a s (CBuild e) Hn Is Ho (act_okw_ok B (CBuild e) Hae)) as (s3 & E3 & Is3 & Ho3). cbn [step] in E3. rewrite E2 in E3. cbn [bind fst] in E3. assert (s3 = s2) by congruence. subst s3.
    assert (Hx2 := run_exact c k HM HK B n Hn _ Hl _ s2 s1 Is3 Ho3 Er Hx).
    assert (Es : step c s (CBuild e) = Ok s2) by (cbn [step]; rewrite E2; reflexivity).
    assert (St2 := state_step a s (CBuild e) s2 St Hae Hb Es Hx2). destruct D as (L & P0 & R0 & D).
    apply (IH He' _ s2 s1 St2); [| |exact Er|exact Hx].
    + exact (outcome_din c k HM HK B G HG HG4 (hd [] Fs) C0 HT Fs eq_refl HFs n Hlen _ L P0 R0 e s s2 r D Hb O).
    + assert (P := outcome_progress c k HM HK B G HG HG4 (hd [] Fs) C0 HT Fs eq_refl HFs n Hlen _ L P0 R0 e s s2 r D Hge Hf O). destruct Hm as [Hm|Hm].
      * destruct P as [P|P]; [left; cbn [length] in Hm; lia|right; exact P].
      * right. exact (exhausted_stays c k HM HK B G HG4 Fs n Hlen e s s2 r (sinv_pok _ _ _ _ _ Is) O Hm).
Qed.
End S.
