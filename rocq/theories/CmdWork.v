(* Work left in the commands system: every delivery reduces it. *)
From Verif Require Import Common ListFacts Sums CmdQSpec CmdQModel CmdModel CmdSpec CmdProofs.
Open Scope nat_scope.

Definition isk (k : kind) (e : qrec) : bool := kind_eqb (q_kind e) k.
Definition qw (l : list qrec) : nat := 5 * cnt (isk KSubmit) l + 3 * cnt (isk KPost) l + 2 * cnt (isk KReply) l.
Definition ww (x : wk) : nat := qw (q_list (w_q x)) + length (w_stack x) + b2n (w_loop x).
Definition cw (x : cmd) : nat := length (c_call x).
Lemma qw_app a b : qw (a ++ b) = qw a + qw b. Proof. unfold qw. rewrite !cnt_app. lia. Qed.
Lemma qw_post c i : qw [mkQ c KPost i] = 3. Proof. reflexivity. Qed.
Lemma qw_reply c i : qw [mkQ c KReply i] = 2. Proof. reflexivity. Qed.
(* what is still to be done with all commands *)
Definition work (s : sys) : nat := 4 * sumf cw (cmds s) + sumf ww (wks s) + 3 * length (fly s) + length (hands s).

Lemma work_w s w x : w < length (wks s) -> work (with_w s w x) + ww (worker s w) = work s + ww x.
Proof. intros L. assert (X := sumf_upd ww dead_wk (wks s) w x L). unfold work, with_w, worker. cbn [cmds wks fly hands]. lia. Qed.
Lemma work_c s c x : c < length (cmds s) -> work (with_c s c x) + 4 * cw (command s c) = work s + 4 * cw x.
Proof. intros L. assert (X := sumf_upd cw (mkC [] None false) (cmds s) c x L). unfold work, with_c, command. cbn [cmds wks fly hands]. lia. Qed.
Lemma work_c_same s c x : cw x = cw (command s c) -> work (with_c s c x) = work s.
Proof. intros E. destruct (Nat.lt_ge_cases c (length (cmds s))) as [L|L]; [assert (X := work_c s c x L); lia|]. unfold work, with_c. cbn [cmds wks fly hands]. rewrite upd_beyond by exact L. reflexivity. Qed.
Lemma work_pop s c : work (pop_call s c) <= work s.
Proof.
  unfold pop_call. destruct (c_call (command s c)) as [|r l] eqn:E; [lia|]. assert (L : c < length (cmds s)) by (apply call_len; rewrite E; discriminate).
  assert (X := work_c s c (mkC l (c_res (command s c)) (c_cancel (command s c))) L). unfold cw in X at 1 2. rewrite E in X. cbn [c_call length] in X. unfold set_call. cbv zeta.
  unfold work in *. cbn [with_fly with_c cmds wks fly hands] in *. rewrite app_length. cbn [length]. lia.
Qed.
Lemma work_reply s c r : work (reply s c r) <= work s.
Proof. unfold reply. assert (X := work_pop (if (0 <=? r)%Z then set_res s c r else s) c). destruct (0 <=? r)%Z; [|exact X]. assert (Y : work (set_res s c r) = work s) by (unfold set_res; cbv zeta; apply work_c_same; reflexivity). lia. Qed.
Lemma length_remove1 c l : has c l = true -> length l = S (length (remove1 c l)).
Proof. unfold has. induction l as [|x l IH]; cbn [existsb remove1 length]; [discriminate|]. destruct (Nat.eqb_spec x c) as [->|N]; intros H; [reflexivity|]. destruct (Nat.eqb_spec c x) as [E|_]; [congruence|]. cbn [orb length] in *. rewrite <- IH by exact H. reflexivity. Qed.
Lemma length_remove_nth {A} (l : list A) : forall n x, nth_error l n = Some x -> length l = S (length (remove_nth n l)).
Proof. induction l as [|y l IH]; intros [|n] x H; try discriminate H; cbn [remove_nth length]; [reflexivity|]. rewrite (IH n x H) at 1. reflexivity. Qed.
Lemma work_set_run s w st l : w < length (wks s) -> work (set_run s w st l) + length (w_stack (worker s w)) + b2n (w_loop (worker s w)) = work s + length st + b2n l.
Proof. intros L. unfold set_run. cbv zeta. set (x := mkW _ _ _ _ _ _). assert (X := work_w s w x L). unfold ww, x in X. cbn [w_q w_stack w_loop] in X. unfold x. lia. Qed.
Lemma work_process s w c : w < length (wks s) -> work (process s w c) <= work s + (if negb (is_nil (w_stack (worker s w))) then 3 else 2).
Proof.
  intros L. unfold process. cbv zeta. destruct (negb (w_norm _)); [change (work (lose s c)) with (work s); destruct (negb _); lia|]. destruct (c_cancel _); [assert (X := work_reply s c (-5)); destruct (negb _); lia|].
  change (match w_stack (worker s w) with [] => true | _ => false end) with (is_nil (w_stack (worker s w))). destruct (negb (is_nil (w_stack (worker s w)))) eqn:En; cbn [andb].
  - destruct (negb (last_sync (command s c))).
    + unfold push. cbn [kind_eqb fst]. unfold set_q. cbv zeta. set (x := mkW _ _ _ _ _ _). assert (X := work_w s w x L). unfold ww, x in X. cbn [w_q q_list w_stack w_loop] in X. rewrite qw_app, qw_post in X. unfold x. lia.
    + assert (X := work_set_run s w (c :: w_stack (worker s w)) (w_loop (worker s w)) L). cbn [length] in X. unfold work in X at 1. unfold work at 1. cbn [with_hands cmds wks fly hands length]. change (hands s) with (hands (set_run s w (c :: w_stack (worker s w)) (w_loop (worker s w)))). lia.
  - assert (X := work_set_run s w (c :: w_stack (worker s w)) (w_loop (worker s w)) L). cbn [length] in X. unfold work in X at 1. unfold work at 1. cbn [with_hands cmds wks fly hands length]. change (hands s) with (hands (set_run s w (c :: w_stack (worker s w)) (w_loop (worker s w)))). lia.
Qed.
Lemma qw_ge p l e r : erase p l = Some (e, r) -> qw l = qw r + qw [e].
Proof. intros E. destruct (erase_split _ _ _ _ E) as (_ & _ & _ & Hc). unfold qw. rewrite (Hc (isk KSubmit)), (Hc (isk KPost)), (Hc (isk KReply)), !cnt_cons, !cnt_nil. lia. Qed.
Lemma work_chkind q c q2 id : chkind q c KReply = (q2, id) -> qw (q_list q2) <= qw (q_list q) + 2.
Proof.
  unfold chkind. intros H. destruct (change_kind c KReply (q_list q)) as [[t r]|] eqn:E.
  - injection H as <- <-. cbn [q_list]. destruct (change_kind_split _ _ _ _ _ E) as (e & _ & _ & _ & _ & Hc). unfold qw. assert (A := Hc (isk KSubmit)). assert (B := Hc (isk KPost)). assert (C := Hc (isk KReply)). unfold isk in A at 4. unfold isk in B at 4. unfold isk in C at 4. cbn [q_kind kind_eqb b2n] in *. lia.
  - unfold push in H. cbn [kind_eqb] in H. injection H as <- <-. cbn [q_list]. rewrite qw_app, qw_reply. lia.
Qed.
Lemma work_set_q s w q : w < length (wks s) -> work (set_q s w q) + qw (Q s w) = work s + qw (q_list q).
Proof. intros L. unfold set_q. cbv zeta. set (x := mkW _ _ _ _ _ _). assert (X := work_w s w x L). unfold ww, x in X. cbn [w_q w_stack w_loop] in X. unfold Q. unfold x. lia. Qed.
Lemma work_notify s c r s' : fst r < length (wks s) -> notify s c r = Ok s' -> work s' <= work s + 2.
Proof.
  intros L H. unfold notify in H. cbv zeta in H. destruct r as [w [f|]]; cbn [fst snd] in *.
  - destruct (w_thr (worker s w) && w_act (worker s w)).
    + destruct (running s f w c); [|discriminate]. injection H as <-. unfold work. cbn [with_hands with_log cmds wks fly hands length]. lia.
    + injection H as <-. eapply Nat.le_trans; [apply work_pop|]. change (work s <= work s + 2). lia.
  - destruct (chkind (w_q (worker s w)) c KReply) as [q id] eqn:E. assert (K := work_chkind _ _ _ _ E). destruct (w_thr (worker s w) && w_act (worker s w)).
    + injection H as <-. assert (X := work_set_q s w q L). change (work (with_evs (set_q s w q) (evs s ++ [(w, EvReply, id)]))) with (work (set_q s w q)). unfold Q in X. lia.
    + destruct (pop_id q id) as [q2 x] eqn:P. injection H as <-. assert (Kp : qw (q_list q2) <= qw (q_list q)).
      { unfold pop_id, take in P. destruct (erase _ _) as [[e r]|] eqn:Ee; injection P as <- <-; cbn [q_list]; [rewrite (qw_ge _ _ _ _ Ee)|]; lia. }
      assert (X := work_set_q s w q2 L). unfold Q in X. eapply Nat.le_trans; [apply work_pop|]. change (work (set_q s w q2) <= work s + 2). lia.
Qed.

Lemma b2n_le b : b2n b <= 1. Proof. destruct b; cbn; lia. Qed.
Lemma reply_down s c r : has c (hands s) = true -> work (reply (with_hands s (remove1 c (hands s))) c r) < work s.
Proof. intros Hh. assert (X := work_reply (with_hands s (remove1 c (hands s))) c r). assert (Y := length_remove1 _ _ Hh). unfold work in X at 2. cbn [with_hands cmds wks fly hands] in X. unfold work at 2. lia. Qed.
Lemma notify_down s n c r s' : good s -> nth_error (fly s) n = Some (c, r) -> notify (with_fly s (remove_nth n (fly s))) c r = Ok s' -> work s' < work s.
Proof. intros (I & _) E H. assert (L := v_wk _ _ _ I c r (or_intror (or_introl (nth_error_In _ _ E)))). assert (X := work_notify (with_fly s (remove_nth n (fly s))) c r s' L H). assert (Y := length_remove_nth _ _ _ E). unfold work in X at 2. cbn [with_fly cmds wks fly hands] in X. unfold work at 2. lia. Qed.
Lemma deliver_down p s n w k id s' : good s -> nth_error (evs s) n = Some (w, k, id) -> w_loop (worker s w) && is_nil (w_stack (worker s w)) = false -> step p s (Deliver n) = Ok s' -> work s' < work s.
Proof.
  intros (I & _) E Lp H. unfold step in H. rewrite E, Lp in H.
    destruct (deliver_finds _ _ _ _ _ I E) as (e & r & Ep & Fe & Hin & _). rewrite Ep in H. cbv zeta in H. assert (Lw := in_Q_len _ _ _ Hin). assert (Er : erase (fun x => (q_id x =? id)%N) (Q s w) = Some (e, r)).
    { unfold pop_id, take in Ep. fold (Q s w) in Ep. destruct (erase _ (Q s w)) as [[x y]|]; [|discriminate]. injection Ep as <- <-. reflexivity. }
    assert (G := qw_ge _ _ _ _ Er). set (q := mkCQ r (q_dflt (w_q (worker s w))) (q_cnt (w_q (worker s w)))) in *. assert (X := work_set_q s w q Lw). change (q_list q) with r in X. set (s1 := with_evs (set_q s w q) (remove_nth n (evs s))) in *. change (work (set_q s w q)) with (work s1) in X. assert (L1 : w < length (wks s1)) by (unfold s1, set_q; cbn [with_evs with_w wks]; rewrite upd_length; exact Lw). clearbody s1.
    unfold fired in Fe. destruct e as [ec ek ei]. cbn [q_kind] in Fe. destruct k.
    + destruct (kind_eqb_spec ek KSubmit) as [->|]; [|discriminate]. change (qw [mkQ ec KSubmit ei]) with 5 in G. injection H as <-. set (s2 := set_run s1 w (w_stack (worker s1 w)) true). assert (Y := work_set_run s1 w (w_stack (worker s1 w)) true L1). fold s2 in Y. assert (L2 : w < length (wks s2)) by (unfold s2, set_run; cbn [with_w wks]; rewrite upd_length; exact L1). assert (Z := work_process s2 w ec L2). cbn [b2n] in Y. cbn [q_cmd]. destruct (negb _) in Z; lia.
    + destruct (kind_eqb_spec ek KReply) as [->|]; [|discriminate]. change (qw [mkQ ec KReply ei]) with 2 in G. injection H as <-. unfold work at 1. cbn [with_hands with_log cmds wks fly hands length]. unfold work in X at 1. lia.
Qed.
Lemma in_stack_len s w : w_stack (worker s w) <> [] -> w < length (wks s).
Proof. intros H. destruct (Nat.lt_ge_cases w (length (wks s))) as [L|L]; [exact L|]. unfold worker in H. rewrite nth_overflow in H by exact L. destruct H. reflexivity. Qed.
Lemma next_down p s w s' : good s -> w_loop (worker s w) = true -> is_nil (w_stack (worker s w)) = true -> step p s (Next w) = Ok s' -> work s' < work s.
Proof.
  intros (I & _) Lp Sn H. unfold step in H. rewrite Lp, Sn in H. cbn [andb] in H. assert (Lw : w < length (wks s)). { destruct (Nat.lt_ge_cases w (length (wks s))) as [L|L]; [exact L|]. unfold worker in Lp. rewrite nth_overflow in Lp by exact L. discriminate. }
    destruct (next_takes s w I) as [(e & r & Ep & Ke & _ & _)|(Ep & _)]; rewrite Ep in H; injection H as <-.
    + assert (Er : erase (fun x => kind_eqb (q_kind x) KPost) (Q s w) = Some (e, r)). { unfold pop_kind, take in Ep. fold (Q s w) in Ep. destruct (erase _ (Q s w)) as [[x y]|]; [|discriminate]. injection Ep as <- <-. reflexivity. }
      assert (G := qw_ge _ _ _ _ Er). destruct e as [ec ek ei]. cbn [q_kind] in Ke. subst ek. rewrite qw_post in G.
      set (q := mkCQ r (q_dflt (w_q (worker s w))) (q_cnt (w_q (worker s w)))) in *. assert (X := work_set_q s w q Lw). change (q_list q) with r in X. set (s1 := set_q s w q) in *. assert (L1 : w < length (wks s1)) by (unfold s1, set_q; cbn [with_w wks]; rewrite upd_length; exact Lw).
      assert (S1 : w_stack (worker s1 w) = w_stack (worker s w)) by (unfold s1, set_q; cbv zeta; rewrite worker_upd, Nat.eqb_refl, (proj2 (Nat.ltb_lt _ _) Lw); reflexivity). assert (Z := work_process s1 w ec L1). rewrite S1, Sn in Z. cbn [negb] in Z. cbn [q_cmd]. lia.
    + assert (Y := work_set_run s w [] false Lw). rewrite Lp in Y. cbn [length b2n] in Y. lia.
Qed.
Lemma finish_down p s w res s' : step p s (Finish w res) = Ok s' -> s' = s \/ work s' < work s.
Proof.
  intros H. unfold step in H. destruct (w_stack (worker s w)) as [|c st] eqn:Est; [left; congruence|]. assert (Lw : w < length (wks s)) by (apply in_stack_len; rewrite Est; discriminate).
  assert (Y := work_set_run s w st (w_loop (worker s w)) Lw). rewrite Est in Y. cbn [length] in Y. destruct (res =? -3)%Z; [injection H as <-; right; lia|]. destruct (has c (hands s)) eqn:Hh; [|left; congruence]. cbv zeta in H. injection H as <-. right.
  set (s1 := set_run s w st (w_loop (worker s w))) in *. set (v := if (res =? -2)%Z then 0%Z else res). assert (X := reply_down s1 c v Hh). change (hands s1) with (hands s) in X. lia.
Qed.
Lemma work_down p s o s' : good s -> delivery o = true -> step p s o = Ok s' -> s' = s \/ work s' < work s.
Proof.
  intros G D H. destruct o; try discriminate D.
  - unfold step in H. destruct (has c (hands s)) eqn:Hh; [|left; congruence]. injection H as <-. right. apply reply_down. exact Hh.
  - unfold step in H. destruct (nth_error (fly s) n) as [[c r]|] eqn:E; [|left; congruence]. right. eapply notify_down; eauto.
  - destruct (nth_error (evs s) n) as [[[w k] id]|] eqn:E; [|unfold step in H; rewrite E in H; left; congruence]. destruct (w_loop (worker s w) && is_nil (w_stack (worker s w))) eqn:Lp; [unfold step in H; rewrite E, Lp in H; left; congruence|]. right. eapply deliver_down; eauto.
  - eapply finish_down; eauto.
  - destruct (w_loop (worker s w)) eqn:Lp; [|unfold step in H; rewrite Lp in H; cbn [andb] in H; left; congruence]. destruct (is_nil (w_stack (worker s w))) eqn:Sn; [|unfold step in H; rewrite Lp, Sn in H; cbn [andb] in H; left; congruence]. right. eapply next_down; eauto.
Qed.
(* nothing can be delivered any more *)
Definition still (s : sys) : Prop := forall o, delivery o = true -> step true s o = Ok s.
Lemma still_hands s : still s -> hands s = [].
Proof.
  intros St. destruct (hands s) as [|c h] eqn:E; [reflexivity|]. exfalso. assert (H := St (Reply c 0) eq_refl). unfold step in H. assert (Hh : has c (hands s) = true) by (rewrite E; unfold has; cbn [existsb]; rewrite Nat.eqb_refl; reflexivity). rewrite Hh in H. injection H as H.
  assert (X := reply_down s c 0 Hh). rewrite H in X. lia.
Qed.
Lemma still_fly s : good s -> still s -> fly s = [].
Proof.
  intros G St. destruct (fly s) as [|[c r] h] eqn:E; [reflexivity|]. exfalso. assert (H := St (Notify 0) eq_refl). unfold step in H. assert (E0 : nth_error (fly s) 0 = Some (c, r)) by (rewrite E; reflexivity). rewrite E0 in H. assert (X := notify_down _ _ _ _ _ G E0 H). lia.
Qed.
Lemma still_stack s w : good s -> still s -> w_stack (worker s w) = [] /\ w_loop (worker s w) = false.
Proof.
  intros G St. assert (A : w_stack (worker s w) = []).
  { destruct (w_stack (worker s w)) as [|c st] eqn:E; [reflexivity|]. exfalso. assert (H := St (Finish w (-3)) eq_refl). unfold step in H. rewrite E in H. cbn [Z.eqb Pos.eqb] in H. injection H as H.
    assert (Lw : w < length (wks s)) by (apply in_stack_len; rewrite E; discriminate).
    assert (Y := work_set_run s w st (w_loop (worker s w)) Lw). rewrite H, E in Y. cbn [length] in Y. lia. }
  split; [exact A|]. destruct (w_loop (worker s w)) eqn:Lp; [|reflexivity]. exfalso. assert (X := next_down true s w s G Lp). rewrite A in X. specialize (X eq_refl (St (Next w) eq_refl)). lia.
Qed.
Lemma still_evs s : good s -> still s -> evs s = [].
Proof.
  intros G St. destruct (evs s) as [|[[w k] id] h] eqn:E; [reflexivity|]. exfalso. assert (E0 : nth_error (evs s) 0 = Some (w, k, id)) by (rewrite E; reflexivity). destruct (still_stack s w G St) as (_ & L). assert (X := deliver_down true s 0 w k id s G E0). rewrite L in X. specialize (X eq_refl (St (Deliver 0) eq_refl)). lia.
Qed.
Lemma still_is_quiet s : good s -> still s -> quiet s.
Proof. intros G St. split; [apply still_hands; exact St|]. split; [apply still_fly; assumption|]. split; [apply still_evs; assumption|]. intros w. apply still_stack; assumption. Qed.
Lemma quiet_done s : good s -> quiet s -> normal s -> lost s = [] /\ forall c, c_call (command s c) = [] /\ forall r, wait_reply s c r = 0.
Proof.
  intros G (H1 & H2 & H3 & H4) Nm. destruct G as (I & I2).
  assert (As : forall w e, In e (Q s w) -> q_kind e = KAssign).
  { intros w e He. assert (Ne : forall k, fired k e = false).
    { intros k. destruct (fired k e) eqn:Fe; [|reflexivity]. exfalso. assert (P : 0 < cnt (fun x => fired k x && (q_id x =? q_id e)%N) (Q s w)) by (apply cnt_pos; exists e; split; [exact He|rewrite Fe, N.eqb_refl; reflexivity]). rewrite <- (v_ev _ _ _ I), H3 in P. rewrite cnt_nil in P. lia. }
    assert (X1 := Ne EvSubmit). assert (X2 := Ne EvReply). assert (X3 := v_kind _ _ _ I w e He). assert (X4 := v_post _ _ _ I w e He). rewrite (proj2 (H4 w)) in X4. unfold fired in *. destruct (q_kind e); try discriminate; try congruence. specialize (X4 eq_refl). discriminate. }
  assert (L0 : lost s = []). { destruct (lost s) eqn:E; [reflexivity|]. destruct (v_lost _ _ _ I) as (w & L & N); [rewrite E; discriminate|]. rewrite (Nm w L) in N. discriminate. }
  assert (Q0 : forall c, Qs c s = 0).
  { intros c. unfold Qs. apply sumf_zero. apply Forall_forall. intros x Hx. apply (In_nth _ _ dead_wk) in Hx. destruct Hx as (w & Lw & Ew). apply cnt_zero. intros e He. apply asg_actq. apply (As w). unfold Q, worker. rewrite Ew. exact He. }
  split; [exact L0|]. intros c. split.
  - destruct (c_call (command s c)) eqn:E; [reflexivity|]. exfalso. assert (X := v_call _ _ _ I c). rewrite E in X. specialize (X ltac:(discriminate)). unfold Carry, inF, hn in X. rewrite H1, H2, L0, Q0 in X. cbn in X. discriminate.
  - intros r. unfold wait_reply. destruct (snd r); [reflexivity|]. apply cnt_zero. intros e He. apply asg_reply. eapply As; eauto.
Qed.

(* the state of the workers is not changed by deliveries *)
Definition fn (s s' : sys) : Prop := length (wks s') = length (wks s) /\ forall w, w_norm (worker s' w) = w_norm (worker s w).
Lemma fn_refl s : fn s s. Proof. split; auto. Qed.
Lemma fn_trans a b c : fn a b -> fn b c -> fn a c.
Proof. intros (E1 & H1) (E2 & H2). split; [congruence|]. intros w. rewrite H2. apply H1. Qed.
Lemma fn_wks s s' : wks s' = wks s -> fn s s'. Proof. intros W. split; [congruence|]. intros w. unfold worker. rewrite W. reflexivity. Qed.
Lemma fn_with_w s w x : w_norm x = w_norm (worker s w) -> fn s (with_w s w x).
Proof. intros N. split; [unfold with_w; cbn [wks]; apply upd_length|]. intros v. rewrite worker_upd. destruct (Nat.eqb_spec v w) as [->|Nv]; cbn [andb]; [destruct (w <? _); auto|reflexivity]. Qed.
Lemma fn_pop s c : fn s (pop_call s c). Proof. unfold pop_call. destruct (c_call (command s c)); apply fn_wks; reflexivity. Qed.
Lemma fn_reply s c r : fn s (reply s c r).
Proof. unfold reply. destruct (0 <=? r)%Z; [|apply fn_pop]. eapply fn_trans; [|apply fn_pop]. apply fn_wks; reflexivity. Qed.
Lemma fn_set_q s w q : fn s (set_q s w q). Proof. apply fn_with_w. reflexivity. Qed.
Lemma fn_set_run s w st l : fn s (set_run s w st l). Proof. apply fn_with_w. reflexivity. Qed.
Lemma fn_process s w c : fn s (process s w c).
Proof.
  unfold process. cbv zeta. destruct (negb (w_norm _)); [apply fn_wks; reflexivity|]. destruct (c_cancel _); [apply fn_reply|]. destruct (_ && _); [apply fn_set_q|].
  apply fn_trans with (b := set_run s w (c :: w_stack (worker s w)) (w_loop (worker s w))); [apply fn_set_run|apply fn_wks; reflexivity].
Qed.
Lemma fn_notify s c r s' : notify s c r = Ok s' -> fn s s'.
Proof.
  intros H. unfold notify in H. cbv zeta in H. destruct r as [w [f|]]; cbn [fst snd] in H.
  - destruct (w_thr (worker s w) && w_act (worker s w)); [destruct (running s f w c); [|discriminate]|]; injection H as <-; [apply fn_wks; reflexivity|]. eapply fn_trans; [|apply fn_pop]. apply fn_wks; reflexivity.
  - destruct (chkind (w_q (worker s w)) c KReply) as [q id]. destruct (w_thr (worker s w) && w_act (worker s w)); [injection H as <-; apply fn_trans with (b := set_q s w q); [apply fn_set_q|apply fn_wks; reflexivity]|].
    destruct (pop_id q id) as [q2 x]. injection H as <-. eapply fn_trans; [|apply fn_pop]. apply fn_trans with (b := set_q s w q2); [apply fn_set_q|apply fn_wks; reflexivity].
Qed.
Lemma fn_step p s o s' : delivery o = true -> step p s o = Ok s' -> fn s s'.
Proof.
  intros D H. destruct o; try discriminate D; unfold step in H.
  - destruct (has c (hands s)); injection H as <-; [|apply fn_refl]. eapply fn_trans; [|apply fn_reply]. apply fn_wks; reflexivity.
  - destruct (nth_error (fly s) n) as [[c r]|]; [|injection H as <-; apply fn_refl]. eapply fn_trans; [|eapply fn_notify; exact H]. apply fn_wks; reflexivity.
  - destruct (nth_error (evs s) n) as [[[w k] id]|]; [|injection H as <-; apply fn_refl]. destruct (_ && _); [injection H as <-; apply fn_refl|]. destruct (pop_id (w_q (worker s w)) id) as [q x]. cbv zeta in H.
    set (s1 := with_evs (set_q s w q) (remove_nth n (evs s))) in *. assert (F : fn s s1) by (apply fn_trans with (b := set_q s w q); [apply fn_set_q|apply fn_wks; reflexivity]). clearbody s1.
    destruct k, x as [e|]; injection H as <-; try exact F.
    + eapply fn_trans; [exact F|]. eapply fn_trans; [|apply fn_process]. apply fn_set_run.
  - destruct (w_stack (worker s w)) as [|c st]; [injection H as <-; apply fn_refl|]. destruct (res =? -3)%Z; [injection H as <-; apply fn_set_run|]. destruct (has c (hands s)); cbv zeta in H; injection H as <-; [|apply fn_refl].
    eapply fn_trans; [|apply fn_reply]. apply fn_trans with (b := set_run s w st (w_loop (worker s w))); [apply fn_set_run|apply fn_wks; reflexivity].
  - destruct (_ && _); [|injection H as <-; apply fn_refl]. destruct (pop_kind (w_q (worker s w)) KPost) as [q [e|]]; injection H as <-; [|apply fn_set_run]. eapply fn_trans; [|apply fn_process]. apply fn_set_q.
Qed.
Lemma fn_normal s s' : fn s s' -> normal s -> normal s'.
Proof. intros (E & H) N w L. rewrite H. apply N. lia. Qed.

Lemma in_wks_dec (p : wk -> bool) s : (exists w, p (worker s w) = true) \/ (forall w, w < length (wks s) -> p (worker s w) = false).
Proof.
  destruct (existsb p (wks s)) eqn:E.
  - left. apply existsb_exists in E. destruct E as (x & Hx & Px). apply (In_nth _ _ dead_wk) in Hx. destruct Hx as (w & _ & Ew). exists w. unfold worker. rewrite Ew. exact Px.
  - right. intros w L. destruct (p (worker s w)) eqn:Pw; [|reflexivity]. exfalso. apply Bool.not_true_iff_false in E. apply E. apply existsb_exists. exists (worker s w). split; [apply nth_In; exact L|exact Pw].
Qed.
Lemma progress s : good s -> (forall w, room s w) -> quiet s \/ exists o s', delivery o = true /\ step true s o = Ok s' /\ good s' /\ grow s s' /\ work s' < work s.
Proof.
  intros G R.
  assert (Go : forall o, delivery o = true -> (forall s', step true s o = Ok s' -> work s' < work s) -> exists o s', delivery o = true /\ step true s o = Ok s' /\ good s' /\ grow s s' /\ work s' < work s).
  { intros o D H. destruct (step_ok s o G R) as (s' & E & G' & Gr). exists o, s'. auto 8. }
  destruct (hands s) as [|c h] eqn:Eh.
  2: { right. apply (Go (Reply c 0)); [reflexivity|]. intros s' H. unfold step in H. assert (Hh : has c (hands s) = true) by (rewrite Eh; unfold has; cbn [existsb]; rewrite Nat.eqb_refl; reflexivity). rewrite Hh in H. injection H as <-. apply reply_down. exact Hh. }
  destruct (fly s) as [|[c r] h] eqn:Ef.
  2: { right. apply (Go (Notify 0)); [reflexivity|]. intros s' H. unfold step in H. assert (E0 : nth_error (fly s) 0 = Some (c, r)) by (rewrite Ef; reflexivity). rewrite E0 in H. eapply notify_down; eauto. }
  destruct (in_wks_dec (fun x => negb (is_nil (w_stack x))) s) as [(w & Hw)|Hs].
  { right. apply (Go (Finish w (-3))); [reflexivity|]. intros s' H. destruct (finish_down _ _ _ _ _ H) as [->|X]; [|exact X]. exfalso. unfold step in H. destruct (w_stack (worker s w)) as [|c st] eqn:E; [discriminate|]. cbn [Z.eqb Pos.eqb] in H. injection H as H. assert (Lw : w < length (wks s)) by (apply in_stack_len; rewrite E; discriminate). assert (Y := work_set_run s w st (w_loop (worker s w)) Lw). rewrite H, E in Y. cbn [length] in Y. lia. }
  assert (St : forall w, w_stack (worker s w) = []). { intros w. destruct (Nat.lt_ge_cases w (length (wks s))) as [L|L]; [|unfold worker; rewrite nth_overflow by exact L; reflexivity]. specialize (Hs w L). destruct (w_stack (worker s w)); [reflexivity|discriminate]. }
  destruct (in_wks_dec w_loop s) as [(w & Hw)|Hl].
  { right. apply (Go (Next w)); [reflexivity|]. intros s' H. eapply next_down; eauto. rewrite St. reflexivity. }
  assert (Lp : forall w, w_loop (worker s w) = false). { intros w. destruct (Nat.lt_ge_cases w (length (wks s))) as [L|L]; [auto|unfold worker; rewrite nth_overflow by exact L; reflexivity]. }
  destruct (evs s) as [|[[w k] id] h] eqn:Ee.
  2: { right. apply (Go (Deliver 0)); [reflexivity|]. intros s' H. assert (E0 : nth_error (evs s) 0 = Some (w, k, id)) by (rewrite Ee; reflexivity). eapply deliver_down; eauto. rewrite Lp. reflexivity. }
  left. unfold quiet. rewrite Eh, Ef, Ee. auto.
Qed.
Lemma settle m : forall s n, work s <= m -> good s -> (forall w, (q_cnt (w_q (worker s w)) <= n)%N) -> (n + N.of_nat (work s) < 2 ^ 32 - 1)%N ->
  exists l s', Forall (fun o => delivery o = true) l /\ length l <= work s /\ run true s l = Ok s' /\ good s' /\ quiet s' /\ fn s s'.
Proof.
  induction m as [|m IH]; intros s n Hm G Hn B.
  - assert (R : forall w, room s w) by (intros w; unfold room; specialize (Hn w); lia). destruct (progress s G R) as [Qt|(o & s' & _ & _ & _ & _ & X)]; [|lia]. exists [], s. split; [constructor|]. split; [cbn; lia|]. split; [reflexivity|]. split; [exact G|]. split; [exact Qt|apply fn_refl].
  - assert (R : forall w, room s w) by (intros w; unfold room; specialize (Hn w); lia). destruct (progress s G R) as [Qt|(o & s1 & D & E & G1 & Gr & X)].
    + exists [], s. split; [constructor|]. split; [cbn; lia|]. split; [reflexivity|]. split; [exact G|]. split; [exact Qt|apply fn_refl].
    + destruct (IH s1 (n + 1)%N) as (l & s' & Fd & Ll & Er & G' & Qt & F); [lia|exact G1|intros w; specialize (Hn w); specialize (Gr w); lia|lia|].
      exists (o :: l), s'. split; [constructor; assumption|]. split; [cbn [length]; lia|]. split; [cbn [run]; rewrite E; exact Er|]. split; [exact G'|]. split; [exact Qt|]. eapply fn_trans; [eapply fn_step; eauto|exact F].
Qed.
