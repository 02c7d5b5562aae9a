(* Proofs about stopping and waking up an OutputTransport. *)
From Verif Require Import Common OutTrSpec OutTrModel.

Definition busy (x : ostate) : bool :=
  match x with outInitTimeout | outWaitCallback | outStartWriting | outWaitFinishCallback | outFinishWriting => true | _ => false end.
Definition T0 (s : ot) : Prop :=
  (o_stop s = true -> o_run s = true /\ o_tr s = stStopped /\ suitable (o_state s) = false) /\
  (o_tr s = stRunning -> o_run s = true) /\ (o_tr s = stStopped -> o_run s = true -> o_stop s = true) /\
  (o_run s = false -> busy (o_state s) = false).
Definition T (s : ot) : Prop := T0 s /\ (o_state s = outInitTimeout -> o_timer s = true).

(* same for everything [T] speaks about *)
Definition same (s s1 : ot) : Prop :=
  o_state s1 = o_state s /\ o_stop s1 = o_stop s /\ o_tr s1 = o_tr s /\ o_run s1 = o_run s /\ o_timer s1 = o_timer s.
Lemma T_same s s1 : same s s1 -> T s -> T s1.
Proof. intros (A & B & C & D & E). unfold T, T0. rewrite A, B, C, D, E. auto. Qed.

Lemma T_change s x : T0 s -> (busy x = true -> o_run s = true) -> x <> outInitTimeout -> T (change s x).
Proof.
  intros (A & B & C & D) R N. unfold change. cbv zeta. change (o_stop (set_state s x)) with (o_stop s).
  destruct (o_stop s) eqn:S; cbn [andb].
  - destruct (suitable x) eqn:U.
    + unfold stop_transport. change (o_state (set_state s x)) with x. rewrite U. unfold base_stop. change (o_run (set_stop (set_state s x) false)) with (o_run s).
      destruct (A eq_refl) as (A1 & A2 & _). rewrite A1. unfold T, T0. cbn. rewrite A2. repeat split; try discriminate; try congruence.
      intros _. destruct x; try discriminate U; reflexivity.
    + destruct (A eq_refl) as (A1 & A2 & _). unfold T, T0. cbn. rewrite S, A1, A2. repeat split; auto; try congruence.
  - unfold T, T0. cbn. rewrite S. repeat split; auto; try discriminate; try congruence.
    intro Y. destruct (busy x); auto. specialize (R eq_refl). congruence.
Qed.
Lemma T_timeout s : T0 s -> o_run s = true -> T (set_timer (change s outInitTimeout) true).
Proof.
  intros (A & B & C & D) R. unfold change. cbv zeta. cbn [suitable]. rewrite Bool.andb_false_r. unfold T, T0. cbn. rewrite R.
  repeat split; auto; try discriminate. apply A; auto.
Qed.
Lemma T_timer s b : T s -> o_state s <> outInitTimeout -> T (set_timer s b).
Proof. intros [(A & B & C & D) E] N. unfold T, T0. cbn. repeat split; auto; try (apply A; auto). Qed.
Lemma state_change s x : o_state (change s x) = x.
Proof. unfold change, stop_transport, base_stop. destruct x, (o_stop s) eqn:A, (o_run s) eqn:B; cbn; rewrite ?A, ?B; cbn; rewrite ?B; reflexivity. Qed.
Lemma run_change s x : suitable x = false -> o_run (change s x) = o_run s.
Proof. intro U. unfold change. cbv zeta. rewrite U, Bool.andb_false_r. reflexivity. Qed.
Lemma same_refl s : same s s. Proof. repeat split. Qed.
Lemma same_close s e : same s (close_transport (close_output s) e).
Proof. unfold close_transport, close_output. destruct (o_out s); repeat split. Qed.

Section R.
Variable ora : list obs -> code.
Variable orab : list obs -> bool.
Variable retry : bool.
Variable lim : option nat.

Lemma T_error s : T0 s -> T (close_on_error orab retry s).
Proof.
  intro H. unfold close_on_error.
  assert (G : forall s1 (k : bool), T0 s1 -> T (set_timer (change (if k then s1 else close_transport (close_output (change s1 outClosed)) true) outRetry) retry)).
  { intros s1 k H1. apply T_timer; [|rewrite state_change; discriminate]. apply T_change; try discriminate.
    destruct k; [exact H1|]. eapply T_same; [apply same_close|]. apply T_change; auto; discriminate. }
  destruct (negb retry || negb (o_out s)); cbv zeta; [apply (G s false H)|]. apply (G (add s (ORetry (orab (o_log s))))). exact H.
Qed.

Definition keeps (p : part) : Prop := forall s s1 o, T s -> p s = Ok (s1, o) -> T s1.
Ltac got E := injection E as <- <-.

Lemma t_ready s s1 o : T s -> (o_state s = outReady -> o_run s = true) -> p_ready ora s = Ok (s1, o) -> T s1.
Proof.
  intros H R E. unfold p_ready in E. destruct (o_state s) eqn:S; try (got E; exact H). specialize (R eq_refl).
  destruct (o_q s) as [|b r] eqn:Q; [discriminate|].
  assert (G : forall s2 c, same s s2 -> after_check s2 c = Ok (s1, o) -> T s1).
  { intros s2 c K E2. pose proof (T_same _ _ K H) as H2. pose proof H2 as [H0 _].
    assert (R2 : o_run s2 = true) by (destruct K as (_ & _ & _ & K & _); congruence).
    destruct c; cbn [after_check] in E2; try (got E2; try exact H2; apply T_change; auto; discriminate).
    - destruct (o_q s2); [discriminate|]. got E2. eapply T_same; [|exact H2]. repeat split.
    - got E2. apply T_timeout; auto. }
  destruct (fst b).
  - destruct (o_out s); [|discriminate]. eapply G; [|exact E]. repeat split.
  - eapply G; [|exact E]. repeat split.
  - destruct (o_out s); [|discriminate]. got E. eapply T_same; [|exact H]. repeat split.
Qed.
Lemma t_wait : keeps p_wait.
Proof. intros s s1 o H E. unfold p_wait in E. destruct (o_state s); got E; exact H. Qed.
Lemma t_wait2 : keeps p_wait2.
Proof. intros s s1 o H E. unfold p_wait2 in E. destruct (o_state s); got E; exact H. Qed.
Lemma t_start : keeps (p_start ora).
Proof.
  intros s s1 o H E. unfold p_start in E. destruct (o_state s) eqn:S; try (got E; exact H).
  destruct (o_q s) as [|b r]; [discriminate|]. cbv zeta in E. destruct (o_out _); [|discriminate].
  assert (R : o_run s = true) by (destruct H as [(_ & _ & _ & D) _]; destruct (o_run s); auto; rewrite S in D; specialize (D eq_refl); discriminate).
  assert (G : forall c x, x <> outInitTimeout -> T (change (add (set_cur (take s b r) (Some b)) (OWrite b c)) x)).
  { intros c x N. apply T_change; [|intros _; exact R|exact N]. eapply (T_same s); [repeat split|exact H]. }
  destruct (ora _); got E; apply G; discriminate.
Qed.
Lemma t_finish : keeps (p_finish ora).
Proof.
  intros s s1 o H E. unfold p_finish in E. destruct (o_state s) eqn:S; try (got E; exact H).
  cbv zeta in E. destruct (o_out _); [|discriminate]. got E.
  assert (H2 : T0 (add (set_cur s None) (OComplete (ora (o_log (set_cur s None)))))) by (eapply (T_same s); [repeat split|exact H]).
  destruct (ora _); apply T_change; try exact H2; discriminate.
Qed.
Lemma t_end : keeps (p_end orab retry).
Proof.
  intros s s1 o H E. unfold p_end in E. destruct (o_state s) eqn:S; try (got E; exact H).
  - got E. apply T_error. apply H.
  - got E. eapply T_same; [apply same_close|]. apply T_change; [apply H|discriminate|discriminate].
Qed.
Lemma t_seq l : (forall p, In p l -> keeps p) -> forall s s1 b, T s -> seq_parts l s = Ok (s1, b) -> T s1.
Proof.
  induction l as [|p l IH]; intros A s s1 b H E; cbn [seq_parts] in E; [got E; exact H|].
  destruct (p s) as [[s2 o]| |] eqn:P; cbn [bind] in E; try discriminate.
  pose proof (A p (or_introl eq_refl) s s2 o H P) as H2. destruct o; [got E; exact H2|].
  eapply IH; eauto. intros q Q. apply A. right; exact Q.
Qed.

Lemma t_recv s s1 b : T s -> (o_state s = outReady -> o_run s = true) -> process_recv ora orab retry s = Ok (s1, b) -> T s1.
Proof.
  intros H R E. unfold process_recv in E. cbv zeta in E. set (s0 := if o_out s then s else change s outError) in E.
  assert (H0 : T s0 /\ (o_state s0 = outReady -> o_run s0 = true)).
  { unfold s0. destruct (o_out s); [auto|]. split; [apply T_change; try discriminate; apply H|rewrite state_change; discriminate]. }
  clearbody s0. destruct H0 as [H0 R0]. destruct (o_dead s0).
  - got E. eapply T_same; [apply same_close|]. apply T_change; try discriminate. exact (proj1 H0).
  - change (seq_parts (p_ready ora :: [p_wait; p_start ora; p_wait2; p_finish ora; p_end orab retry]) s0 = Ok (s1, b)) in E.
    remember [p_wait; p_start ora; p_wait2; p_finish ora; p_end orab retry] as l. cbn [seq_parts] in E.
    destruct (p_ready ora s0) as [[s2 o]| |] eqn:P; cbn [bind] in E; try discriminate.
    pose proof (t_ready _ _ _ H0 R0 P) as H2. destruct o; [got E; exact H2|].
    eapply t_seq; [|exact H2|exact E]. subst l. intros p. cbn [In]. intros Q.
    repeat (destruct Q as [<-|Q]; [auto using t_wait, t_start, t_wait2, t_finish, t_end|]). destruct Q.
Qed.
Lemma t_loop n : forall s s1 b, T s -> in_loop ora orab retry n s = Ok (s1, b) -> T s1.
Proof.
  induction n as [|n IH]; intros s s1 b H E; cbn [in_loop] in E; (destruct (o_run s) eqn:R; cbn [andb] in E; [|got E; exact H]);
    (destruct (o_conn s && _); [|got E; exact H]); (destruct (process_recv _ _ _ s) as [[s2 go]| |] eqn:P; cbn [bind] in E; try discriminate);
    pose proof (t_recv _ _ _ H (fun _ => R) P) as H2; destruct go; try (got E; exact H2). eapply IH; eauto.
Qed.
Lemma t_input s s1 b : T s -> process_input ora orab retry lim s = Ok (s1, b) -> T s1.
Proof.
  intros H E. unfold process_input in E. destruct lim; [eapply t_loop; eauto|]. destruct (o_run s) eqn:R; cbn [andb] in E; [|got E; exact H].
  destruct (o_conn s && _); [|got E; exact H]. destruct (process_recv _ _ _ s) as [[s2 go]| |] eqn:P; cbn [bind] in E; try discriminate.
  got E. eapply t_recv; eauto.
Qed.
Lemma t_input' s s1 : T s -> (do (s2, _) <- process_input ora orab retry lim s; Ok s2) = Ok s1 -> T s1.
Proof. intros H E. destruct (process_input _ _ _ _ s) as [[s2 b]| |] eqn:P; cbn [bind] in E; try discriminate. injection E as <-. eapply t_input; eauto. Qed.

Lemma t_stop s : T s -> o_tr s = stRunning -> T (set_tr (stop_transport s) stStopped).
Proof.
  intros [(A & B & C & D) E] R. specialize (B R). unfold stop_transport. destruct (suitable (o_state s)) eqn:S.
  - unfold base_stop. change (o_run (set_stop s false)) with (o_run s). rewrite B. unfold T, T0. cbn.
    repeat split; try discriminate; try congruence.
    + intros _. destruct (o_state s); try discriminate; reflexivity.
    + intro X. rewrite X in S. discriminate.
  - unfold T, T0. cbn. rewrite B. repeat split; auto; discriminate.
Qed.
Lemma t_step s e s1 : T s -> step ora orab retry lim s e = Ok s1 -> T s1.
Proof.
  intros H E. pose proof H as [H0 H1]. pose proof H0 as (A & B & C & D). destruct e; cbn [step] in E.
  - injection E as <-. destruct (o_conn s); [|exact H]. eapply T_same; [|exact H]. repeat split.
  - eapply t_input'; eauto.
  - destruct (o_timer s) eqn:Ti; [|injection E as <-; exact H]. cbv zeta in E. change (o_run (set_timer s false)) with (o_run s) in E.
    destruct (o_run s) eqn:R.
    + unfold process_timer in E. cbv zeta in E. change (o_state (set_timer s false)) with (o_state s) in E.
      set (s2 := match o_state s with outInitTimeout => change (set_timer s false) outReady | _ => set_timer s false end) in E.
      assert (H2 : T s2).
      { unfold s2. destruct (o_state s) eqn:S; try (apply T_timer; auto; rewrite S; discriminate). apply T_change; try discriminate. exact H0. }
      clearbody s2. destruct (o_state s2) eqn:S2; try (eapply t_input'; eauto; fail).
      destruct (o_out s2); [|injection E as <-; apply T_timer; auto; rewrite S2; discriminate].
      destruct (orab (o_log s2)); [|injection E as <-; apply T_timer; [eapply (T_same s2); [repeat split|exact H2]|cbn; rewrite S2; discriminate]].
      eapply t_input'; [|exact E]. apply T_change; try discriminate. exact (proj1 H2).
    + injection E as <-. split; [unfold T0; cbn; rewrite R; auto|]. cbn. intro X. specialize (D eq_refl). rewrite X in D. discriminate.
  - unfold process_callback in E. destruct c; try (injection E as <-; apply T_error; exact H0).
    destruct (o_state s) eqn:S; try (injection E as <-; exact H).
    + eapply t_input'; [|exact E]. apply T_change; try discriminate. exact H0.
    + destruct (process_recv _ _ _ _) as [[s2 go]| |] eqn:P; cbn [bind] in E; try discriminate.
      assert (H2 : T s2).
      { eapply t_recv; [| |exact P]; [|rewrite state_change; discriminate]. apply T_change; try discriminate; [exact H0|].
        intros _. destruct (o_run s); auto. specialize (D eq_refl). discriminate. }
      destruct go; [eapply t_input'; eauto|injection E as <-; exact H2].
  - injection E as <-. unfold start_transport. destruct (o_tr s) eqn:Z; try exact H; cbv zeta;
      (split; [|exact H1]); unfold T0; cbn; (repeat split; try discriminate); destruct (o_out s); discriminate.
  - injection E as <-. destruct (o_tr s) eqn:Z; try exact H. apply t_stop; auto.
  - injection E as <-. eapply T_same; [|exact H]. repeat split.
Qed.
Lemma t_run l : forall s s1, T s -> run ora orab retry lim s l = Ok s1 -> T s1.
Proof.
  induction l as [|e l IH]; intros s s1 H E; cbn [run] in E; [injection E as <-; exact H|].
  destruct (step _ _ _ _ s e) as [s2| |] eqn:P; cbn [bind] in E; try discriminate. eapply IH; [|exact E]. eapply t_step; eauto.
Qed.
Lemma t_new : T ot_new.
Proof. unfold T, T0. cbn. repeat split; discriminate. Qed.

(* ---- started and never stopped ---- *)
Definition U0 (s : ot) : Prop := o_run s = true /\ o_stop s = false /\ (o_tr s = stRunning \/ o_tr s = stError).
Definition U (s : ot) : Prop :=
  U0 s /\ (o_state s = outInitTimeout -> o_timer s = true) /\ (retry = true -> o_state s = outRetry -> o_timer s = true).
Definition waits (x : ostate) : bool := match x with outInitTimeout | outRetry => true | _ => false end.
Lemma U_same s s1 : same s s1 -> U s -> U s1.
Proof. intros (A & B & C & D & E). unfold U, U0. rewrite A, B, C, D, E. auto. Qed.
Lemma U0_same s s1 : same s s1 -> U0 s -> U0 s1.
Proof. intros (A & B & C & D & E). unfold U0. rewrite B, C, D. auto. Qed.
Lemma change_U s x : U0 s -> change s x = set_state s x.
Proof. intros (A & B & C). unfold change. cbv zeta. change (o_stop (set_state s x)) with (o_stop s). rewrite B. reflexivity. Qed.
Lemma U_change s x : U0 s -> waits x = false -> U (change s x).
Proof.
  intros H W. rewrite change_U by exact H. destruct H as (A & B & C). unfold U, U0. cbn. repeat split; auto; destruct x; discriminate.
Qed.
Lemma U_timer s x b : U0 s -> (x = outInitTimeout -> b = true) -> (retry = true -> x = outRetry -> b = true) -> U (set_timer (change s x) b).
Proof. intros H P Q. rewrite change_U by exact H. destruct H as (A & B & C). unfold U, U0. cbn. repeat split; auto. Qed.
Lemma U_error s : U0 s -> U (close_on_error orab retry s).
Proof.
  intro H. unfold close_on_error.
  assert (G : forall s1 (k : bool), U0 s1 -> U (set_timer (change (if k then s1 else close_transport (close_output (change s1 outClosed)) true) outRetry) retry)).
  { intros s1 k H1. apply U_timer; [|discriminate|auto]. destruct k; [exact H1|]. eapply U0_same; [apply same_close|]. apply (U_change s1 outClosed H1). reflexivity. }
  destruct (negb retry || negb (o_out s)); cbv zeta; [apply (G s false H)|]. apply (G (add s (ORetry (orab (o_log s))))). exact H.
Qed.
Definition keeps_u (p : part) : Prop := forall s s1 o, U s -> p s = Ok (s1, o) -> U s1.
Lemma u_ready : keeps_u (p_ready ora).
Proof.
  intros s s1 o H E. unfold p_ready in E. destruct (o_state s) eqn:S; try (got E; exact H).
  destruct (o_q s) as [|b r] eqn:Q; [discriminate|].
  assert (G : forall s2 c, same s s2 -> after_check s2 c = Ok (s1, o) -> U s1).
  { intros s2 c K E2. pose proof (U_same _ _ K H) as H2. pose proof H2 as [H0 _].
    destruct c; cbn [after_check] in E2; try (got E2; try exact H2; apply U_change; auto; fail).
    - destruct (o_q s2); [discriminate|]. got E2. eapply U_same; [|exact H2]. repeat split.
    - got E2. apply U_timer; auto; discriminate. }
  destruct (fst b).
  - destruct (o_out s); [|discriminate]. eapply G; [|exact E]. repeat split.
  - eapply G; [|exact E]. repeat split.
  - destruct (o_out s); [|discriminate]. got E. eapply U_same; [|exact H]. repeat split.
Qed.
Lemma u_wait : keeps_u p_wait.
Proof. intros s s1 o H E. unfold p_wait in E. destruct (o_state s); got E; exact H. Qed.
Lemma u_wait2 : keeps_u p_wait2.
Proof. intros s s1 o H E. unfold p_wait2 in E. destruct (o_state s); got E; exact H. Qed.
Lemma u_start : keeps_u (p_start ora).
Proof.
  intros s s1 o H E. unfold p_start in E. destruct (o_state s) eqn:S; try (got E; exact H).
  destruct (o_q s) as [|b r]; [discriminate|]. cbv zeta in E. destruct (o_out _); [|discriminate].
  assert (G : forall c x, waits x = false -> U (change (add (set_cur (take s b r) (Some b)) (OWrite b c)) x)).
  { intros c x N. apply U_change; [|exact N]. apply (U0_same s); [repeat split|apply H]. }
  destruct (ora _); got E; apply G; reflexivity.
Qed.
Lemma u_finish : keeps_u (p_finish ora).
Proof.
  intros s s1 o H E. unfold p_finish in E. destruct (o_state s) eqn:S; try (got E; exact H).
  cbv zeta in E. destruct (o_out _); [|discriminate]. got E. apply U_change; [apply (U0_same s); [repeat split|apply H]|]. destruct (ora _); reflexivity.
Qed.
Lemma u_end : keeps_u (p_end orab retry).
Proof.
  intros s s1 o H E. unfold p_end in E. destruct (o_state s) eqn:S; try (got E; exact H).
  - got E. apply U_error. apply H.
  - got E. eapply U_same; [apply same_close|]. apply U_change; [apply H|reflexivity].
Qed.
Lemma u_seq l : (forall p, In p l -> keeps_u p) -> forall s s1 b, U s -> seq_parts l s = Ok (s1, b) -> U s1.
Proof.
  induction l as [|p l IH]; intros A s s1 b H E; cbn [seq_parts] in E; [got E; exact H|].
  destruct (p s) as [[s2 o]| |] eqn:P; cbn [bind] in E; try discriminate.
  pose proof (A p (or_introl eq_refl) s s2 o H P) as H2. destruct o; [got E; exact H2|].
  eapply IH; eauto. intros q Q. apply A. right; exact Q.
Qed.
Lemma u_recv s s1 b : U s -> process_recv ora orab retry s = Ok (s1, b) -> U s1.
Proof.
  intros H E. unfold process_recv in E. cbv zeta in E. set (s0 := if o_out s then s else change s outError) in E.
  assert (H0 : U s0) by (unfold s0; destruct (o_out s); [auto|apply U_change; [apply H|reflexivity]]).
  clearbody s0. destruct (o_dead s0).
  - got E. eapply U_same; [apply same_close|]. apply U_change; [exact (proj1 H0)|reflexivity].
  - eapply u_seq; [|exact H0|exact E]. intros p. cbn [In]. intros Q.
    repeat (destruct Q as [<-|Q]; [auto using u_ready, u_wait, u_start, u_wait2, u_finish, u_end|]). destruct Q.
Qed.
Lemma u_loop n : forall s s1 b, U s -> in_loop ora orab retry n s = Ok (s1, b) -> U s1.
Proof.
  induction n as [|n IH]; intros s s1 b H E; cbn [in_loop] in E; (destruct (o_run s && _); [|got E; exact H]);
    (destruct (process_recv _ _ _ s) as [[s2 go]| |] eqn:P; cbn [bind] in E; try discriminate);
    pose proof (u_recv _ _ _ H P) as H2; destruct go; try (got E; exact H2). eapply IH; eauto.
Qed.
Lemma u_input' s s1 : U s -> (do (s2, _) <- process_input ora orab retry lim s; Ok s2) = Ok s1 -> U s1.
Proof.
  intros H E. destruct (process_input _ _ _ _ s) as [[s2 b]| |] eqn:P; cbn [bind] in E; try discriminate. injection E as <-.
  unfold process_input in P. destruct lim; [eapply u_loop; eauto|]. destruct (o_run s && _); [|got P; exact H].
  destruct (process_recv _ _ _ s) as [[s3 go]| |] eqn:R; cbn [bind] in P; try discriminate. got P. eapply u_recv; eauto.
Qed.
Lemma u_step s e s1 : U s -> e <> EvStop -> step ora orab retry lim s e = Ok s1 -> U s1.
Proof.
  intros H N E. pose proof H as [H0 H1]. pose proof H0 as (A & B & C). destruct e; cbn [step] in E; try congruence.
  - injection E as <-. destruct (o_conn s); [|exact H]. eapply U_same; [|exact H]. repeat split.
  - eapply u_input'; eauto.
  - destruct (o_timer s) eqn:Ti; [|injection E as <-; exact H]. cbv zeta in E. change (o_run (set_timer s false)) with (o_run s) in E.
    rewrite A in E. unfold process_timer in E. cbv zeta in E. change (o_state (set_timer s false)) with (o_state s) in E.
    assert (K : forall x, x <> outInitTimeout -> x <> outRetry -> o_state s = x -> U (set_timer s false)).
    { intros x X1 X2 X3. unfold U, U0. cbn. rewrite X3. repeat split; auto; congruence. }
    destruct (o_state s) eqn:S; try (change (o_state (set_timer s false)) with (o_state s) in E; rewrite S in E; eapply u_input'; [|exact E]; eapply K; eauto; discriminate).
    + rewrite state_change in E. eapply u_input'; [|exact E]. apply U_change; [exact H0|reflexivity].
    + change (o_state (set_timer s false)) with (o_state s) in E. rewrite S in E.
      assert (F : forall s2, o_state s2 = outRetry -> U0 s2 -> U (set_timer s2 retry)).
      { intros s2 X (Y1 & Y2 & Y3). unfold U, U0. cbn. rewrite X. repeat split; auto; discriminate. }
      destruct (o_out _); [|injection E as <-; apply F; auto].
      destruct (orab _); [|injection E as <-; apply F; auto].
      eapply u_input'; [|exact E]. apply U_change; [exact H0|reflexivity].
  - unfold process_callback in E. destruct c; try (injection E as <-; apply U_error; exact H0).
    destruct (o_state s) eqn:S; try (injection E as <-; exact H).
    + eapply u_input'; [|exact E]. apply U_change; [exact H0|reflexivity].
    + destruct (process_recv _ _ _ _) as [[s2 go]| |] eqn:P; cbn [bind] in E; try discriminate.
      assert (H2 : U s2) by (eapply u_recv; [|exact P]; apply U_change; [exact H0|reflexivity]).
      destruct go; [eapply u_input'; eauto|injection E as <-; exact H2].
  - injection E as <-. unfold start_transport. destruct C as [C|C]; rewrite C; exact H.
  - injection E as <-. eapply U_same; [|exact H]. repeat split.
Qed.
Lemma u_run l : forall s s1, U s -> ~ In EvStop l -> run ora orab retry lim s l = Ok s1 -> U s1.
Proof.
  induction l as [|e l IH]; intros s s1 H N E; cbn [run] in E; [injection E as <-; exact H|].
  destruct (step _ _ _ _ s e) as [s2| |] eqn:P; cbn [bind] in E; try discriminate. cbn [In] in N.
  eapply IH; [| |exact E]; [|tauto]. eapply u_step; [exact H| |exact P]. intro X. apply N. auto.
Qed.
Lemma u_start_new : U (start_transport ot_new).
Proof. unfold U, U0. cbn. repeat split; auto; discriminate. Qed.

(* events of the port do nothing while the transport waits *)
Lemma wait_recv s : o_out s = true -> o_dead s = false ->
  o_state s = outInitTimeout \/ o_state s = outWaitCallback \/ o_state s = outWaitFinishCallback ->
  process_recv ora orab retry s = Ok (s, false).
Proof.
  intros O D S. unfold process_recv. rewrite O. cbv zeta. rewrite D. cbn [seq_parts]. unfold p_ready, p_wait, p_start, p_wait2.
  destruct S as [S|[S|S]]; rewrite S; cbn [bind]; rewrite S; cbn [bind]; try reflexivity. rewrite S. cbn [bind]. rewrite S. reflexivity.
Qed.
Lemma wait_input s : o_out s = true -> o_dead s = false ->
  o_state s = outInitTimeout \/ o_state s = outWaitCallback \/ o_state s = outWaitFinishCallback ->
  process_input ora orab retry lim s = Ok (s, false).
Proof.
  intros O D S. unfold process_input. destruct lim as [[|n]|]; cbn [in_loop]; (destruct (o_run s && _); [|reflexivity]); rewrite wait_recv by assumption; reflexivity.
Qed.
End R.
