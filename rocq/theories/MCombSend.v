(* Proofs about the MBS event builder: runs which keep events, sending, progress. *)
From Verif Require Import Common ListFacts Bytes MbsSpec MCombSpec MCombModel MCombProofs MCombGroups MCombJoin MCombRun MCombKept.
Local Open Scope N_scope.

(* ---- runs with the kept events ---- *)
(* no input is disconnected *)
Definition stays (o : op) : Prop := match o with Conn _ false => False | _ => True end.

Section KeptRun.
Context (c : conf) (cfgs : list (icfg * nat)) (Z : N).
Notation cfs := (map fst cfgs).
Definition kcond (pre : list op) : Prop := sized Z (fun i => received i pre) /\ (f_full c = true -> Forall stays pre).
Lemma kcond_app a b : kcond (a ++ b) -> kcond a.
Proof.
  intros [A B]. split.
  - intros i e I. apply (A i). rewrite received_app. apply in_or_app. auto.
  - intros F. specialize (B F). apply Forall_app in B. tauto.
Qed.
Definition KR (pre : list op) (s : st) : Prop := Inv c cfs pre s /\ (kcond pre -> KI c cfs Z pre s).

Lemma inv_push pre i b s : Inv c cfs pre s -> Inv c cfs (pre ++ [Push i b]) (set_ins (at_input i (add_buf b) (s_ins s)) s).
Proof.
  intros I. apply inv_upd; auto.
  - intros p. repeat split; auto. unfold in_ok, add_buf. cbn. destruct (p_it p) as [[]|]; intuition. destruct (p_queue p); discriminate.
  - intros j p E K. rewrite received_push. destruct (Nat.eqb i j); [|rewrite app_nil_r; auto]. apply add_buf_pending.
    unfold in_ok in K. destruct (p_it p) as [[]|]; [tauto|congruence].
Qed.
Lemma inv_conn pre i b s : Inv c cfs pre s -> Inv c cfs (pre ++ [Conn i b]) (set_ins (at_input i (set_conn b) (s_ins s)) s).
Proof. intros I. apply inv_upd; auto. intros j p E K. cbn. rewrite app_nil_r. destruct (Nat.eqb i j); auto. Qed.
Lemma inv_other pre o s : Inv c cfs pre s -> (forall i, received i [o] = []) -> Inv c cfs (pre ++ [o]) s.
Proof. intros (I1 & I2 & I3 & I4) R. split; [|split; [|split]]; auto. intros i p E. rewrite received_app, R, app_nil_r. auto. Qed.
Lemma inv_flush pre can s s' ok : Inv c cfs pre s -> flush can s = (s', ok) -> Inv c cfs pre s'.
Proof. intros (I1 & I2 & I3 & I4 & I5) F. apply flush_spec in F. destruct F as (F1 & F2 & F3 & F4 & _). unfold Inv. rewrite F1, F2, F4. auto. Qed.
Lemma inv_init : Inv c cfs [] (init cfgs).
Proof. destruct (inv_run c cfgs []) as (s & R & I). cbn in R. injection R as <-. exact I. Qed.

Lemma keeps_at s i f : keeps c s -> (forall p, p_cfg (f p) = p_cfg p /\ p_done (f p) = p_done p) -> keeps c (set_ins (at_input i f (s_ins s)) s).
Proof.
  intros K F j p' E. cbn in E. rewrite at_input_nth in E. destruct (nth_error (s_ins s) j) as [p|] eqn:Ej; [|destruct (Nat.eqb i j); discriminate].
  cbn [s_made set_ins]. destruct (F p) as [F1 F2]. destruct (Nat.eqb i j); cbn in E; injection E as <-; rewrite ?F1, ?F2; apply (K _ _ Ej).
Qed.

Lemma kept_run ops : Forall (op_env (room cfs Z)) ops -> kcond ops ->
  exists s, run c (init cfgs) ops = Ok s /\ KI c cfs Z ops s.
Proof.
  intros Ro Kc. destruct (run_total c (room cfs Z) KR) with (ops := ops) (pre := @nil op) (s := init cfgs) as (s & R & _ & K); auto.
  - intros pre s [I _]. apply I.
  - intros pre i b s [I K]. pose proof (inv_push pre i b s I) as I'. split; auto. intros Kp. destruct (K (kcond_app _ _ Kp)) as (_ & Og & Ke & Wi).
    split; auto. split; auto. split; [apply keeps_at; auto|]. intros F. apply at_input_Forall; [auto|apply Wi; auto].
  - intros pre i b s [I K]. pose proof (inv_conn pre i b s I) as I'. split; auto. intros Kp. destruct (K (kcond_app _ _ Kp)) as (_ & Og & Ke & Wi).
    split; auto. split; auto. split; [apply keeps_at; auto|]. intros F. destruct Kp as [_ Kp]. specialize (Kp F). apply Forall_app in Kp. destruct Kp as [_ Kp]. inversion Kp as [|? ? Kb _]; subst.
    destruct b; [|destruct Kb]. apply at_input_Forall; [auto|apply Wi; auto].
  - intros pre e s s' ok Q [I K] C. split; [eapply inv_case; eauto|]. intros Kp. apply (KI_case c cfs Z pre e s s' ok); auto. apply Kp.
  - intros pre can s s' ok [I K] F. pose proof (inv_flush _ _ _ _ _ I F) as I'. split; auto. intros Kp. destruct (K Kp) as (_ & Og & Ke & Wi). pose proof (flush_out _ _ _ _ _ F Og).
    apply flush_spec in F. destruct F as (F1 & F2 & _). split; auto. split; auto. unfold keeps, wired. rewrite F1, F2. auto.
  - intros pre e s [I K]. pose proof (inv_other pre (Build e) s I (fun _ => eq_refl)) as I'. split; auto. intros Kp. destruct (K (kcond_app _ _ Kp)) as (_ & X). split; auto.
  - intros pre es can s [I K]. pose proof (inv_other pre (Timer es can) s I (fun _ => eq_refl)) as I'. split; auto. intros Kp. destruct (K (kcond_app _ _ Kp)) as (_ & X). split; auto.
  - split; [apply inv_init|]. intros _. split; [apply inv_init|]. split; [exact Logic.I|]. split.
    + intros i p E. cbn in E. rewrite nth_error_map in E. destruct (nth_error cfgs i); [|discriminate]. injection E as <-. reflexivity.
    + intros _. apply Forall_forall. intros p Hp. cbn in Hp. apply in_map_iff in Hp. destruct Hp as (x & <- & _). reflexivity.
  - exists s. auto.
Qed.
End KeptRun.

(* ---- sending ---- *)
Definition follows (s s' : st) : Prop :=
  (exists r, produced s' = produced s ++ r) /\ (exists r, concat (s_sent s') = concat (s_sent s) ++ r) /\
  ((s_flag s = true -> s_flag s' = true) \/ exists r, concat (s_sent s') = produced s ++ r).
Lemma follows_refl s : follows s s.
Proof. split; [exists []; rewrite app_nil_r; auto|]. split; [exists []; rewrite app_nil_r; auto|]. auto. Qed.
Lemma follows_trans a b d : follows a b -> follows b d -> follows a d.
Proof.
  intros ((r1 & A1) & (r2 & A2) & A3) ((q1 & B1) & (q2 & B2) & B3). split; [exists (r1 ++ q1); rewrite B1, A1, app_assoc; auto|].
  split; [exists (r2 ++ q2); rewrite B2, A2, app_assoc; auto|].
  destruct A3 as [A3|(r & A3)]; [|right; exists (r ++ q2); rewrite B2, A3, app_assoc; auto].
  destruct B3 as [B3|(r & B3)]; [auto|]. right. exists (r1 ++ r). rewrite B3, A1, app_assoc. auto.
Qed.
Lemma flush_follows can s s' ok : flush can s = (s', ok) -> follows s s'.
Proof.
  intros F. pose proof (flush_spec _ _ _ _ F) as (_ & _ & _ & P & _). split; [exists []; rewrite app_nil_r; auto|].
  unfold flush in F. destruct (s_out s) as [[cap [|e l]]|] eqn:O; [|destruct can|]; injection F as <- <-; cbn.
  1,3,4: split; [exists []; rewrite app_nil_r; auto|auto].
  split; [exists (e :: l); rewrite concat_app; cbn; rewrite app_nil_r; auto|]. right. exists []. unfold produced, in_out. rewrite O, concat_app. cbn. rewrite !app_nil_r. reflexivity.
Qed.
Lemma flush_all s s' ok : flush true s = (s', ok) -> concat (s_sent s') = produced s.
Proof.
  unfold flush, produced, in_out. destruct (s_out s) as [[cap [|e l]]|] eqn:O; intros [= <- <-]; cbn; rewrite ?app_nil_r; auto.
  rewrite concat_app. cbn. rewrite app_nil_r. auto.
Qed.
Lemma follows_ins l s : follows s (set_ins l s). Proof. exact (follows_refl s). Qed.
Lemma write_follows e l g s s' ok : write e l g s = Ok (s', ok) -> follows s s'.
Proof.
  unfold write. set (sz := lenN _).
  set (r1 := match s_out s with Some o => if place o sz then (s, true) else flush (e_send1 e) s | None => (s, true) end).
  assert (H1 : follows s (fst r1)).
  { subst r1. destruct (s_out s) as [o|]; cbn; auto using follows_refl. destruct (place o sz); cbn; auto using follows_refl.
    destruct (flush (e_send1 e) s) as [s1 b] eqn:F. eapply flush_follows; eauto. }
  destruct r1 as [s1 b1]. cbn in H1. destruct b1; cbn; [|intros [= <- <-]; auto].
  set (r2 := match s_out s1 with Some _ => (s1, true) | None => _ end).
  assert (H2 : follows s (fst r2)).
  { subst r2. destruct (s_out s1) as [o|] eqn:O; cbn; auto. destruct (e_take e) as [cap|]; cbn; auto.
    destruct (cap <? 28); cbn; auto. eapply follows_trans; [exact H1|]. split; [exists []|split; [exists []|left; auto]]; unfold produced, in_out; cbn; rewrite ?O, ?app_nil_r; auto. }
  destruct r2 as [s2 b2]. cbn in H2. destruct b2; cbn; [|intros [= <- <-]; auto].
  destruct (s_out s2) as [[cap evs]|] eqn:O; [|discriminate].
  destruct (place (cap, evs) sz); cbn; [|intros [= <- <-]; auto].
  destruct (header l) as [h| |] eqn:Hh; cbn; try discriminate.
  set (x := mkME _ _ _ _). set (s3 := mkS _ _ _ _ _ _).
  assert (P3 : follows s s3).
  { eapply follows_trans; [exact H2|]. split; [exists [x]|split; [exists []|left; auto]]; unfold produced, in_out; subst s3; cbn; rewrite ?O, ?app_nil_r, ?app_assoc; auto. }
  destruct (place _ 0); intros [= <- <-]; auto.
  destruct (flush (e_send2 e) s3) as [s4 b] eqn:F. cbn. eapply follows_trans; [exact P3|]. eapply flush_follows; eauto.
Qed.
Lemma case_follows c e s s' ok : case c e s s' ok -> follows s s'.
Proof.
  intros [F D ->|l ok' P Lk T E1 E2 E3 E4 E5|l l2 g s1 P Lk En Ch Gr W ->|l l2 g P Lk En Ch Gr Ms ->|l l2 g s1 P Lk En Ch Gr Ms W ->].
  - apply follows_ins.
  - unfold follows, produced, in_out. rewrite E2, E3, E4. split; [exists []; rewrite app_nil_r; auto|]. split; [exists []; rewrite app_nil_r; auto|auto].
  - apply write_follows in W. exact W.
  - apply follows_ins.
  - apply write_follows in W. exact W.
Qed.

Section Sending.
Context (c : conf) (cfgs : list (icfg * nat)).
Notation cfs := (map fst cfgs).
Lemma run_app a b s : run c s (a ++ b) = bind (run c s a) (fun s => run c s b).
Proof. revert s. induction a as [|o a IH]; intros s; cbn; auto. destruct (step c s o); cbn; auto. Qed.

Lemma run_follows ops pre s s' : Inv c cfs pre s -> run c s ops = Ok s' -> Inv c cfs (pre ++ ops) s' /\ follows s s'.
Proof.
  intros I R. destruct (run_total c (fun _ => True) (fun pre x => Inv c cfs pre x /\ follows s x)) with (ops := ops) (pre := pre) (s := s) as (s1 & R1 & I1 & F1).
  - intros p x [A _]. apply A.
  - intros p i b x [A B]. split; [apply inv_push; auto|]. exact B.
  - intros p i b x [A B]. split; [apply inv_conn; auto|]. exact B.
  - intros p e x x' ok _ [A B] C. split; [eapply inv_case; eauto|]. eapply follows_trans; eauto. eapply case_follows; eauto.
  - intros p can x x' ok [A B] F. split; [eapply inv_flush; eauto|]. eapply follows_trans; eauto. eapply flush_follows; eauto.
  - intros p x [A B]. split; auto. eapply follows_trans; eauto. split; [exists []; rewrite app_nil_r; auto|]. split; [exists []; rewrite app_nil_r; auto|]. left. auto.
  - intros p e x [A B]. split; auto. apply inv_other; auto.
  - intros p es can x [A B]. split; auto. apply inv_other; auto.
  - apply Forall_forall. intros [| | |] _; cbn; auto. apply Forall_forall. auto.
  - split; auto using follows_refl.
  - rewrite R in R1. injection R1 as <-. auto.
Qed.

Lemma builds_follows pre es s s' : Inv c cfs pre s -> builds c es s = Ok s' -> follows s s'.
Proof.
  intros I R. destruct (builds_total c (fun _ => True) (fun pre x => Inv c cfs pre x /\ follows s x)) with (pre := pre) (es := es) (s := s) as (s1 & R1 & I1 & F1).
  - intros p x [A _]. apply A.
  - intros p e x x' ok _ [A B] C. split; [eapply inv_case; eauto|]. eapply follows_trans; eauto. eapply case_follows; eauto.
  - apply Forall_forall. auto.
  - split; auto using follows_refl.
  - rewrite R in R1. injection R1 as <-. auto.
Qed.

Lemma timer_flag es can s s' : timer c es can s = Ok s' -> s_flag s' = true.
Proof. unfold timer. destruct (s_flag s); [|intros [= <-]; auto]. destruct (builds c _ s); cbn; [|discriminate|discriminate]. intros [= <-]. reflexivity. Qed.

Lemma two_timers pre es can s2 mid es' s4 :
  run c (init cfgs) (pre ++ [Timer es can]) = Ok s2 -> run c s2 (mid ++ [Timer es' true]) = Ok s4 ->
  exists r, concat (s_sent s4) = produced s2 ++ r.
Proof.
  intros R2 R4. pose proof (inv_run c cfgs (pre ++ [Timer es can])) as (x & Rx & I2). rewrite R2 in Rx. injection Rx as <-.
  rewrite run_app in R2. destruct (run c (init cfgs) pre) as [s1| |]; cbn in R2; try discriminate.
  destruct (timer c es can s1) as [s1'| |] eqn:T; cbn in R2; try discriminate. injection R2 as ->. apply timer_flag in T.
  rewrite run_app in R4. destruct (run c s2 mid) as [s3| |] eqn:R3; cbn in R4; try discriminate.
  destruct (run_follows _ _ _ _ I2 R3) as [I3 F3]. destruct (timer c es' true s3) as [s4'| |] eqn:T4; cbn in R4; try discriminate. injection R4 as ->.
  unfold timer in T4. destruct F3 as ((r1 & A1) & (r2 & A2) & A3). destruct (s_flag s3) eqn:Fl.
  - destruct (builds c (firstn 100 es') s3) as [s5| |] eqn:B; cbn in T4; try discriminate. injection T4 as <-. apply (builds_follows _ _ _ _ I3) in B.
    destruct (flush true s5) as [s6 ok] eqn:F. apply flush_all in F. cbn. destruct B as ((q1 & B1) & _). exists (r1 ++ q1). rewrite F, B1, A1, app_assoc. auto.
  - injection T4 as <-. cbn. destruct A3 as [A3|(r & A3)]; [specialize (A3 T); congruence|]. eauto.
Qed.

(* ---- buffers ---- *)
Definition fits (C : N) (s : st) : Prop :=
  Forall (fun l => l <> [] /\ used_size l <= C) (s_sent s) /\ match s_out s with Some (cap, l) => cap <= C /\ used_size l <= cap | None => True end.
Lemma used_app a b : used_size (a ++ b) = used_size a + used_size b.
Proof. induction a as [|e a IH]; [reflexivity|]. change (used_size ((e :: a) ++ b)) with (mevent_size e + used_size (a ++ b)). change (used_size (e :: a)) with (mevent_size e + used_size a). lia. Qed.
Lemma flush_fits C can s s' ok : flush can s = (s', ok) -> fits C s -> fits C s'.
Proof.
  unfold flush, fits. destruct (s_out s) as [[cap [|e l]]|] eqn:O; [|destruct can|]; intros [= <- <-]; rewrite ?O; auto. intros (A & B & D). cbn [s_sent s_out]. split; auto.
  apply Forall_app. split; auto. constructor; auto. split; [discriminate|]. lia.
Qed.
Lemma write_fits C e l g s s' ok : (forall cap, e_take e = Some cap -> cap <= C) -> fits C s -> write e l g s = Ok (s', ok) -> fits C s'.
Proof.
  intros Hc Ho. unfold write. set (sz := lenN _) in *.
  set (r1 := match s_out s with Some o => if place o sz then (s, true) else flush (e_send1 e) s | None => (s, true) end).
  assert (H1 : fits C (fst r1)).
  { subst r1. destruct (s_out s) as [o|] eqn:O; cbn; auto. destruct (place o sz) eqn:Pl; cbn; auto.
    destruct (flush (e_send1 e) s) as [s1 b] eqn:F. eapply flush_fits; eauto. }
  destruct r1 as [s1 b1]. cbn in H1. destruct b1; cbn; [|intros [= <- <-]; auto].
  set (r2 := match s_out s1 with Some _ => (s1, true) | None => _ end).
  assert (H2 : fits C (fst r2)).
  { subst r2. destruct (s_out s1) as [o|] eqn:O; cbn; auto. destruct (e_take e) as [cap|] eqn:Tk; cbn; auto.
    specialize (Hc _ eq_refl). destruct (cap <? 28); cbn; auto. destruct H1 as [H1 _]. split; cbn; auto. split; auto. lia. }
  destruct r2 as [s2 b2]. cbn in H2. destruct b2; cbn; [|intros [= <- <-]; auto].
  destruct (s_out s2) as [[cap evs]|] eqn:O; [|discriminate]. destruct (place (cap, evs) sz) eqn:Pl; cbn [negb]; [|intros [= <- <-]; auto].
  destruct (header l) as [h| |] eqn:Hh; cbn [bind]; try discriminate.
  set (s3 := mkS _ _ _ _ _ _). assert (H3 : fits C s3).
  { destruct H2 as [A B]. rewrite O in B. subst s3. split; cbn [s_sent s_out]; auto. destruct B as [B1 B2]. split; auto. unfold place in Pl. cbn [fst snd] in Pl. apply N.leb_le in Pl.
    rewrite used_app. cbn [used_size fold_right]. unfold mevent_size. cbn [me_subs]. fold sz. lia. }
  destruct (place _ 0); intros [= <- <-]; auto.
  destruct (flush (e_send2 e) s3) as [s4 b] eqn:F. cbn [fst]. eapply flush_fits; eauto.
Qed.
Lemma case_fits C e s s' ok : (forall cap, e_take e = Some cap -> cap <= C) -> fits C s -> case c e s s' ok -> fits C s'.
Proof.
  intros Hc Fs [F D ->|l ok' P Lk T E1 E2 E3 E4 E5|l l2 g s1 P Lk En Ch Gr W ->|l l2 g P Lk En Ch Gr Ms ->|l l2 g s1 P Lk En Ch Gr Ms W ->]; auto.
  - unfold fits. rewrite E2, E3. exact Fs.
  - eapply write_fits; [exact Hc| |exact W]. exact Fs.
  - assert (fits C s1); [|auto]. eapply write_fits; [exact Hc| |exact W]. exact Fs.
Qed.
Lemma fits_run C ops : Forall (op_env (fun e => forall cap, e_take e = Some cap -> cap <= C)) ops -> exists s, run c (init cfgs) ops = Ok s /\ fits C s.
Proof.
  intros Q. destruct (run_total c (fun e => forall cap, e_take e = Some cap -> cap <= C) (fun pre x => Inv c cfs pre x /\ fits C x)) with (ops := ops) (pre := @nil op) (s := init cfgs) as (s1 & R1 & I1 & F1); auto.
  - intros p x [A _]. apply A.
  - intros p i b x [A B]. split; [apply inv_push; auto|]. exact B.
  - intros p i b x [A B]. split; [apply inv_conn; auto|]. exact B.
  - intros p e x x' ok Qe [A B] Cs. split; [eapply inv_case; eauto|]. eapply case_fits; eauto.
  - intros p can x x' ok [A B] F. split; [eapply inv_flush; eauto|]. eapply flush_fits; eauto.
  - intros p e x [A B]. split; auto. apply inv_other; auto.
  - intros p es can x [A B]. split; auto. apply inv_other; auto.
  - split; [apply inv_init|]. split; cbn; auto.
  - eauto.
Qed.
End Sending.
