(* Proofs about stopping and waking up an InputTransport. *)
From Verif Require Import Common InTrSpec InTrModel InTrProgress.

Definition quiet (x : istate) : bool :=
  match x with inpInit | inpReady | inpError | inpClosed | inpReconnect | inpCompleting => true | _ => false end.
Definition timed (x : istate) : bool := match x with inpInitTimeout | inpComplitTimeout => true | _ => false end.
Definition T0 (s : it) : Prop :=
  (i_stop s = true -> i_run s = true /\ i_tr s <> stRunning /\ (suitable (i_state s) = false \/ i_state s = inpError)) /\
  (i_tr s = stRunning -> i_run s = true) /\ (i_tr s = stStopped -> i_run s = true -> i_stop s = true) /\
  (i_run s = false -> quiet (i_state s) = true).
Definition T (s : it) : Prop := T0 s /\ (timed (i_state s) = true -> i_timer s = true).
Definition same (s s1 : it) : Prop :=
  i_state s1 = i_state s /\ i_stop s1 = i_stop s /\ i_tr s1 = i_tr s /\ i_run s1 = i_run s /\ i_timer s1 = i_timer s.
(* same but for the state and the timeout *)
Definition near (s s1 : it) : Prop := i_stop s1 = i_stop s /\ i_tr s1 = i_tr s /\ i_run s1 = i_run s.
Definition Q (s : it) : Prop := i_run s = true \/ suitable (i_state s) = true.

Lemma T_same s s1 : same s s1 -> T s -> T s1.
Proof. intros (A & B & C & D & E). unfold T, T0. rewrite A, B, C, D, E. auto. Qed.
Lemma Q_same s s1 : same s s1 -> Q s -> Q s1.
Proof. intros (A & B & C & D & E). unfold Q. rewrite A, D. auto. Qed.
Lemma same_trans s s1 s2 : same s s1 -> same s1 s2 -> same s s2.
Proof. unfold same. intuition congruence. Qed.
Lemma suitable_quiet x : suitable x = true -> quiet x = true.
Proof. destruct x; auto; discriminate. Qed.

Lemma T_change s x : T0 s -> (i_run s = false -> quiet x = true) -> timed x = false -> T (change s x).
Proof.
  intros (A & B & C & D) R N. unfold change. cbv zeta. change (i_stop (w_state s x)) with (i_stop s).
  destruct (i_stop s) eqn:S; cbn [andb].
  - destruct (A eq_refl) as (A1 & A2 & _). destruct (suitable x) eqn:U.
    + unfold base_stop. change (i_run (w_stop (w_state s x) false)) with (i_run s). rewrite A1. unfold T, T0. cbn. rewrite N.
      repeat split; try discriminate; try contradiction. intros _. apply suitable_quiet. exact U.
    + unfold T, T0. cbn. rewrite S, A1, N. repeat split; auto; discriminate.
  - unfold T, T0. cbn. rewrite S, N. repeat split; auto; discriminate.
Qed.
Lemma state_change s x : i_state (change s x) = x.
Proof. unfold change, base_stop. cbv zeta. destruct (i_stop _ && _); [|reflexivity]. destruct (i_run _); reflexivity. Qed.
Lemma run_change s x : suitable x = false -> i_run (change s x) = i_run s.
Proof. intro U. unfold change. cbv zeta. rewrite U, Bool.andb_false_r. reflexivity. Qed.
Lemma Q_change s x : Q s -> (i_run s = false -> suitable x = true) -> Q (change s x).
Proof.
  intros _ H. destruct (suitable x) eqn:U; [right; rewrite state_change; exact U|]. left. rewrite run_change by exact U.
  destruct (i_run s); auto; specialize (H eq_refl); discriminate.
Qed.
Lemma T_timeout s x : T0 s -> i_run s = true -> suitable x = false -> T (w_timer (change s x) true).
Proof.
  intros (A & B & C & D) R U. unfold change. cbv zeta. rewrite U, Bool.andb_false_r. unfold T, T0. cbn. rewrite R, U.
  repeat split; auto; try discriminate; apply A; auto.
Qed.
Lemma T_timer s : T s -> T (w_timer s true).
Proof. intros [(A & B & C & D) E]. unfold T, T0. cbn. repeat split; auto; apply A; auto. Qed.
Lemma T_notimer s : T s -> timed (i_state s) = false -> T (w_timer s false).
Proof. intros [(A & B & C & D) E] N. unfold T, T0. cbn. rewrite N. repeat split; auto; try discriminate; apply A; auto. Qed.
Lemma running s : T s -> quiet (i_state s) = false -> i_run s = true.
Proof. intros [(A & B & C & D) E] N. destruct (i_run s); auto. specialize (D eq_refl). congruence. Qed.
Lemma T_state s x : T s -> i_run s = true -> suitable x = false -> timed x = false -> T (w_state s x).
Proof. intros [(A & B & C & D) E] R U N. unfold T, T0. cbn. rewrite R, U, N. repeat split; auto; try discriminate; apply A; auto. Qed.

Lemma same_close_input s : same s (close_input s).
Proof. unfold close_input. destruct (i_inp s); repeat split. Qed.
Lemma same_close s e : same s (close_transport s e).
Proof. repeat split. Qed.
Lemma same_send s : same s (send_cur s).
Proof. unfold send_cur. destruct (i_cur s); repeat split. Qed.
Lemma T_callback s c : T s -> T (read_callback s c).
Proof.
  intros H. pose proof H as [(A & B & C & D) E]. unfold read_callback. cbv zeta.
  assert (K : forall s0, near s s0 -> i_state s0 = i_state s \/ i_state s0 = inpCallBack -> i_timer s0 = i_timer s ->
    T (match i_state s0 with
       | inpInit => if Nat.eqb (i_ext s0) 0 then w_exit s0 else w_state s0 inpCompleting
       | inpSizeCallBack => w_size (w_state s0 inpCheckSize) c
       | inpCallBack => w_state s0 inpCompleting
       | _ => w_state s0 inpError end)).
  { intros s0 (X & Y & Z) S M.
    assert (G : forall s1 x, near s0 s1 -> i_state s1 = x -> timed x = false -> (quiet x = true \/ i_state s0 = inpSizeCallBack) -> (suitable x = false \/ x = inpError) -> T s1).
    { intros s1 x (X1 & Y1 & Z1) S1 N1 V W. unfold T, T0. rewrite X1, Y1, Z1, X, Y, Z, S1, N1. split; [|discriminate]. split; [|split; [exact B|split; [exact C|]]].
      - intro O. destruct (A O) as (A1 & A2 & _). auto.
      - intro O. destruct V as [V|V]; [exact V|]. destruct S as [S|S]; [|congruence]. rewrite <- S, V in D. specialize (D O). discriminate. }
    destruct (i_state s0) eqn:S0; try (eapply G; [..|reflexivity| | |]; [repeat split|..]; auto; fail).
    destruct (Nat.eqb (i_ext s0) 0); [|eapply G; [..|reflexivity| | |]; [repeat split|..]; auto].
    destruct S as [S|S]; [|discriminate]. apply (T_same s); [|exact H]. unfold same. cbn. rewrite S0, S, X, Y, Z, M. repeat split. }
  destruct c; try (apply K; [repeat split|left; reflexivity|reflexivity]).
  destruct (Nat.eqb (i_ext (note s _)) 0); apply K; try reflexivity; try (repeat split); auto.
Qed.
Lemma near_callback s c : near s (read_callback s c).
Proof.
  unfold read_callback. cbv zeta. destruct c; try (destruct (i_state (note s _)); try (destruct (Nat.eqb _ 0)); repeat split).
  destruct (Nat.eqb (i_ext (note s (OCall SQueue))) 0); cbn [i_state w_state];
  try (destruct (i_state (note s _)); try (destruct (Nat.eqb _ 0))); repeat split.
Qed.

Section R.
Variable osize : list iobs -> scode.
Variable ostart : list iobs -> stcode * bool.
Variable ocomp : list iobs -> cpcode * option N.
Variable ocb : list iobs -> option scode.
Variable opool : list iobs -> option N.
Variable ocreate : list iobs -> bool.
Variable env : list iobs -> list pev.
Variable auto recon : bool.
Variable lim : option nat.
Notation inside := (inside ocb).
Notation meanwhile := (meanwhile env).

Lemma T_inside s : T s -> T (inside s).
Proof. intro H. unfold InTrModel.inside. destruct (ocb _); [apply T_callback|]; exact H. Qed.
Lemma near_inside s : near s (inside s).
Proof. unfold InTrModel.inside. destruct (ocb _); [apply near_callback|repeat split]. Qed.

Definition keeps (p : part) : Prop := forall s s1 o, T s -> Q s -> p s = Ok (s1, o) -> T s1 /\ (o = None -> Q s1).
Ltac got E := injection E as <- <-.
Ltac same_case H HQ := split; [exact H|intros _; exact HQ].

Lemma t_closed : keeps p_closed.
Proof.
  intros s s1 o H HQ E. unfold p_closed in E. destruct (i_state s) eqn:S; try (got E; split; [exact H|discriminate]);
    (destruct (i_dead s); got E; [split; [|discriminate]|same_case H HQ]);
    (apply (T_same (change (close_input s) inpClosed)); [repeat split|]); (apply T_change; [|reflexivity|reflexivity]); apply (T_same _ _ (same_close_input s) H).
Qed.
Lemma t_recon : keeps (p_recon ocreate recon).
Proof.
  intros s s1 o H HQ E. unfold p_recon in E. destruct (i_state s) eqn:S; try (got E; same_case H HQ).
  destruct (i_inp s); [got E; split; [exact H|discriminate]|]. destruct (negb recon); [got E; split; [exact H|discriminate]|].
  destruct (ocreate _); got E.
  - split; [apply T_change; [exact (proj1 H)|reflexivity|reflexivity]|]. intros _. apply Q_change; [exact HQ|reflexivity].
  - split; [|discriminate]. apply T_timer. exact H.
Qed.
Lemma t_noinp : keeps p_noinp.
Proof.
  intros s s1 o H HQ E. unfold p_noinp in E. destruct (i_inp s); [|got E; split; [exact H|discriminate]].
  destruct (i_state s); got E; (split; [exact H|]); try discriminate; intros _; exact HQ.
Qed.
Definition Run (s : it) : Prop := i_tr s = stRunning /\ i_run s = true /\ i_stop s = false.
Lemma Run_T s : Run s -> (timed (i_state s) = true -> i_timer s = true) -> T s.
Proof. intros (A & B & C) D. unfold T, T0. rewrite A, B, C. repeat split; auto; discriminate. Qed.
Lemma Run_near s s1 : near s s1 -> Run s -> Run s1.
Proof. intros (A & B & C). unfold Run. rewrite A, B, C. auto. Qed.
Lemma T_Run s : T s -> i_tr s = stRunning -> Run s.
Proof. intros [(A & B & C & D) E] R. unfold Run. rewrite R. repeat split; auto. destruct (i_stop s); auto. destruct (A eq_refl) as (_ & X & _). contradiction. Qed.
Lemma t_init : keeps (p_init osize ocb env).
Proof.
  intros s s1 o H HQ E. unfold p_init in E. destruct (i_state s) eqn:S; try (got E; same_case H HQ).
  destruct (i_tr s) eqn:Tr; try (got E; split; [exact H|discriminate]). cbn [negb] in E. pose proof (T_Run s H Tr) as R.
  destruct (_ && _); [got E; split; [|discriminate]; apply T_change; [exact (proj1 H)|destruct R as (_ & R & _); rewrite R; discriminate|reflexivity]|].
  destruct (Nat.eqb _ 0); [got E; split; [exact H|discriminate]|]. destruct (i_inp s); [|discriminate].
  cbv zeta in E. set (s2 := inside _) in E.
  assert (R2 : Run s2) by (eapply Run_near; [apply near_inside|]; exact R).
  assert (H2 : T s2) by (apply T_inside; apply Run_T; [exact R|discriminate]).
  clearbody s2. destruct (i_exit s2); [got E; split; [exact H2|discriminate]|].
  assert (RQ : forall s3, near s2 s3 -> Q s3) by (intros s3 N; left; destruct (Run_near _ _ N R2) as (_ & X & _); exact X).
  assert (G : forall c x, timed x = false -> T (change (w_size (w_state (note s2 (OSize c)) inpInit) c) x)).
  { intros c x N. apply T_change; [|destruct R2 as (_ & X & _); cbn; rewrite X; discriminate|exact N]. eapply Run_T; [|discriminate]. eapply Run_near; [|exact R2]. repeat split. }
  assert (N : forall c, near s2 (change (w_size (w_state (note s2 (OSize c)) inpInit) c) inpCheckSize)).
  { intro c. unfold change. cbv zeta. cbn [suitable]. rewrite Bool.andb_false_r. repeat split. }
  destruct (osize _) eqn:Z; got E; try (split; [apply G; reflexivity|intros _; apply RQ, N]); (split; [|discriminate]).
  - apply Run_T; [|discriminate]. eapply Run_near; [|exact R2]. repeat split.
  - apply T_timeout; [|destruct R2 as (_ & X & _); exact X|reflexivity]. eapply Run_T; [|discriminate]. eapply Run_near; [|exact R2]. repeat split.
  - eapply T_same; [|exact H2]. repeat split.
Qed.
Lemma changed s x : T s -> quiet (i_state s) = false -> timed x = false -> T (change s x) /\ Q (change s x).
Proof.
  intros H N M. pose proof (running s H N) as R. split; [apply T_change; [apply H|congruence|exact M]|apply Q_change; [left; exact R|congruence]].
Qed.
Lemma t_size : keeps p_size.
Proof.
  intros s s1 o H HQ E. unfold p_size in E. destruct (i_state s) eqn:S; try (got E; same_case H HQ).
  assert (G : forall x, timed x = false -> T (change s x) /\ Q (change s x)) by (intros; apply changed; auto; rewrite S; reflexivity).
  destruct (i_size s); got E; try (split; [apply G; reflexivity|intros _; apply G; reflexivity]).
Qed.
Lemma t_need : keeps (p_need opool auto).
Proof.
  intros s s1 o H HQ E. unfold p_need in E. destruct (i_state s) eqn:S; try (got E; same_case H HQ).
  assert (G : forall s2 x, same s s2 -> timed x = false -> T (change s2 x) /\ Q (change s2 x)).
  { intros s2 x K N. apply changed; [eapply T_same; eauto| |exact N]. destruct K as (K & _). rewrite K, S. reflexivity. }
  destruct (opool _).
  - got E. split; [|intros _]; apply G; repeat split.
  - cbv zeta in E. destruct auto; got E; (split; [|discriminate]); [apply G; repeat split|]. apply T_timer. exact H.
Qed.
Lemma t_check : keeps p_check.
Proof.
  intros s s1 o H HQ E. unfold p_check in E. destruct (i_state s) eqn:S; try (got E; same_case H HQ).
  assert (G : forall x, timed x = false -> T (change s x) /\ Q (change s x)) by (intros; apply changed; auto; rewrite S; reflexivity).
  cbv zeta in E. destruct (_ <? _)%N; got E; (split; [|intros _]); apply G; reflexivity.
Qed.
Lemma t_has : keeps (p_has ostart ocb env).
Proof.
  intros s s1 o H HQ E. unfold p_has in E. destruct (i_state s) eqn:S; try (got E; same_case H HQ).
  assert (R : i_run s = true) by (apply running; [exact H|rewrite S; reflexivity]).
  destruct (i_inp s); [|discriminate]. cbv zeta in E. set (s2 := inside _) in E.
  assert (R2 : i_run s2 = true) by (destruct (near_inside (meanwhile (w_state s inpCallBack))) as (_ & _ & X); exact (eq_trans X R)).
  assert (H2 : T s2).
  { apply T_inside. eapply (T_same (w_state s inpCallBack)); [repeat split|]. apply T_state; auto. }
  clearbody s2. destruct (i_exit s2); [got E; split; [exact H2|discriminate]|].
  assert (G : forall s3 x, same s2 s3 -> timed x = false -> T (change s3 x) /\ Q (change s3 x)).
  { intros s3 x K N. assert (R3 : i_run s3 = true) by (destruct K as (_ & _ & _ & K & _); congruence).
    split; [apply T_change; [apply (T_same _ _ K H2)|congruence|exact N]|apply Q_change; [left; exact R3|congruence]]. }
  destruct (ostart _) as [c keep]. destruct c, keep; got E; (split; [|try discriminate]); try (intros _);
    try (apply G; repeat split); try (eapply T_same; [|exact H2]; repeat split).
Qed.
Lemma t_cb : keeps p_cb.
Proof. intros s s1 o H HQ E. unfold p_cb in E. destruct (i_state s); got E; (split; [exact H|]); try discriminate; intros _; exact HQ. Qed.
Lemma t_compl : keeps (p_compl ocomp env).
Proof.
  intros s s1 o H HQ E. unfold p_compl in E. destruct (i_state s) eqn:S; try (got E; same_case H HQ).
  assert (R : i_run s = true) by (destruct HQ as [X|X]; [exact X|rewrite S in X; discriminate]).
  cbv zeta in E. destruct (Bool.eqb _ _); [got E; split; [exact H|discriminate]|]. destruct (i_inp s); [|discriminate].
  assert (G : forall s3 x, same s s3 -> timed x = false -> T (change s3 x) /\ Q (change s3 x)).
  { intros s3 x K N. assert (R3 : i_run s3 = true) by (destruct K as (_ & _ & _ & K & _); congruence).
    split; [apply T_change; [apply (T_same _ _ K H)|congruence|exact N]|apply Q_change; [left; exact R3|congruence]]. }
  destruct (ocomp _) as [c d]. destruct c.
  - got E. split; [|intros _]; apply G; repeat split.
  - destruct (Nat.eqb _ 0); got E; (split; [|discriminate]); [exact H|].
    eapply T_same; [eapply same_trans; [|apply same_send]|exact H]. repeat split.
  - got E. split; [|intros _]; apply G; repeat split.
  - got E. split; [|intros _]; apply G; repeat split.
  - got E. split; [exact H|discriminate].
  - got E. split; [|discriminate]. apply T_timeout; [exact (proj1 H)|exact R|reflexivity].
  - got E. split; [|intros _]; apply G; repeat split.
Qed.
Lemma t_ready : keeps p_ready.
Proof.
  intros s s1 o H HQ E. unfold p_ready in E. destruct (i_state s) eqn:S; try (got E; same_case H HQ).
  destruct (Nat.eqb _ 0); got E; [split; [exact H|discriminate]|].
  split; [apply T_change; [|reflexivity|reflexivity]|intros _; apply Q_change; [|reflexivity]].
  - eapply T_same; [eapply same_trans; [apply (same_send s)|]|exact H]. repeat split.
  - eapply Q_same; [eapply same_trans; [apply (same_send s)|]|exact HQ]. repeat split.
Qed.
Lemma t_end : keeps p_end.
Proof.
  intros s s1 o H HQ E. unfold p_end in E.
  assert (K : same s (w_size (close_input s) (SSize 0))) by (eapply same_trans; [apply same_close_input|repeat split]).
  destruct (i_state s) eqn:S; try (got E; split; [exact H|discriminate]);
    cbv zeta in E; (destruct (Nat.eqb _ 0); got E; (split; [|discriminate]); [eapply T_same; [exact K|exact H]|]);
    (eapply T_same; [apply same_close|]); (apply T_change; [|reflexivity|reflexivity]); eapply T_same; try exact H; (eapply same_trans; [exact K|repeat split]).
Qed.
Lemma t_seq l : (forall p, In p l -> keeps p) -> forall s s1 b, T s -> Q s -> seq_parts l s = Ok (s1, b) -> T s1.
Proof.
  induction l as [|p l IH]; intros A s s1 b H HQ E; cbn [seq_parts] in E; [got E; exact H|].
  destruct (p s) as [[s2 o]| |] eqn:P; cbn [bind] in E; try discriminate.
  destruct (A p (or_introl eq_refl) s s2 o H HQ P) as [H2 Q2]. destruct o; [got E; exact H2|].
  eapply IH; eauto. intros q X. apply A. right; exact X.
Qed.
Notation process_send := (process_send osize ostart ocomp ocb opool ocreate env auto recon).
Notation out_loop := (out_loop osize ostart ocomp ocb opool ocreate env auto recon).
Notation process_output := (process_output osize ostart ocomp ocb opool ocreate env auto recon lim).
Notation step := (step osize ostart ocomp ocb opool ocreate env auto recon lim).
Notation run := (run osize ostart ocomp ocb opool ocreate env auto recon lim).
Lemma t_send s s1 b : T s -> i_run s = true -> process_send s = Ok (s1, b) -> T s1.
Proof.
  intros H R E. unfold InTrModel.process_send in E. eapply t_seq; [|exact H|left; exact R|exact E].
  intros p. cbn [In]. intro I.
  repeat (destruct I as [<-|I]; [auto using t_closed, t_recon, t_noinp, t_init, t_size, t_need, t_check, t_has, t_cb, t_compl, t_ready, t_end|]). destruct I.
Qed.
Lemma active_run s : active s = true -> i_run s = true.
Proof. unfold active. destruct (i_run s); auto. rewrite Bool.andb_false_r. discriminate. Qed.
Lemma t_loop n : forall s s1 b, T s -> out_loop n s = Ok (s1, b) -> T s1.
Proof.
  induction n as [|n IH]; intros s s1 b H E; cbn [InTrModel.out_loop] in E; (destruct (active s) eqn:A; [|got E; exact H]);
    (destruct (process_send s) as [[s2 go]| |] eqn:P; cbn [bind] in E; try discriminate);
    pose proof (t_send _ _ _ H (active_run _ A) P) as H2; destruct go; try (got E; exact H2). eapply IH; eauto.
Qed.
Lemma t_output s s1 b : T s -> process_output s = Ok (s1, b) -> T s1.
Proof.
  intros H E. unfold InTrModel.process_output in E. destruct lim; [eapply t_loop; eauto|]. destruct (active s) eqn:A; [|got E; exact H].
  destruct (process_send s) as [[s2 go]| |] eqn:P; cbn [bind] in E; try discriminate. got E. eapply t_send; eauto. apply active_run; exact A.
Qed.
Lemma t_output' s s1 : T s -> (do (s2, _) <- process_output s; Ok s2) = Ok s1 -> T s1.
Proof. intros H E. destruct (process_output s) as [[s2 b]| |] eqn:P; cbn [bind] in E; try discriminate. injection E as <-. eapply t_output; eauto. Qed.
Lemma t_stop s : T s -> i_tr s = stRunning -> T (w_tr (stop_transport s) stStopped).
Proof.
  intros [(A & B & C & D) E] R. specialize (B R). unfold stop_transport. destruct (suitable (i_state s)) eqn:S.
  - unfold base_stop. change (i_run (w_stop s false)) with (i_run s). rewrite B. unfold T, T0. cbn.
    repeat split; try discriminate.
    + intros _. apply suitable_quiet. exact S.
    + intro X. destruct (i_state s); discriminate.
  - unfold T, T0. cbn. rewrite B, S. repeat split; auto; try discriminate.
Qed.
Lemma t_step s e s1 : T s -> step s e = Ok s1 -> T s1.
Proof.
  intros H E. pose proof H as [H0 H1]. pose proof H0 as (A & B & C & D). unfold InTrModel.step in E. destruct (i_exit s); [injection E as <-; exact H|].
  destruct e.
  - eapply t_output'; eauto.
  - destruct (i_timer s) eqn:Ti; [|injection E as <-; exact H]. cbv zeta in E. change (i_run (w_timer s false)) with (i_run s) in E.
    destruct (i_run s) eqn:R.
    + unfold process_timer in E. cbv zeta in E. change (i_state (w_timer s false)) with (i_state s) in E.
      eapply t_output'; [|exact E]. clear E.
      destruct (i_state s) eqn:S; try (cbn [i_state w_timer]; rewrite S; apply T_notimer; [exact H|rewrite S; reflexivity]).
      * rewrite state_change. apply T_change; [exact H0|reflexivity|reflexivity].
      * cbn [i_state w_timer]. rewrite S. apply T_change; [exact H0|reflexivity|reflexivity].
    + injection E as <-. unfold T, T0. cbn. rewrite R. repeat split; auto; try (apply A; auto). intro X. specialize (D eq_refl). destruct (i_state s); discriminate.
  - destruct (i_run s) eqn:R; [|injection E as <-; exact H]. unfold process_buffer in E. destruct (i_state s) eqn:S; try (injection E as <-; exact H).
    destruct (opool _); [|injection E as <-; exact H]. eapply t_output'; [|exact E]. apply T_change; [exact H0| |reflexivity]. cbn. congruence.
  - injection E as <-. apply T_callback. exact H.
  - injection E as <-. unfold process_closed. cbv zeta.
    assert (K : T (match i_state s with inpClosed => s | _ => change (close_input s) inpClosed end)).
    { destruct (i_state s); try exact H; (apply T_change; [|reflexivity|reflexivity]); apply (T_same _ _ (same_close_input s) H). }
    destruct (negb recon); [eapply T_same; [apply same_close|exact K]|]. apply T_timer. apply T_change; [apply K|reflexivity|reflexivity].
  - injection E as <-. unfold start_transport. destruct (i_tr s) eqn:Z; try exact H; cbv zeta; cbn [i_inp w_run];
      (destruct (i_inp s); (split; [|exact H1]); unfold T0; cbn; repeat split; try discriminate; apply A; auto).
  - injection E as <-. destruct (i_tr s) eqn:Z; try exact H. apply t_stop; auto.
  - injection E as <-. exact H.
  - injection E as <-. exact H.
Qed.
Lemma t_run l : forall s s1, T s -> run s l = Ok s1 -> T s1.
Proof.
  induction l as [|e l IH]; intros s s1 H E; cbn [InTrModel.run] in E; [injection E as <-; exact H|].
  destruct (step s e) as [s2| |] eqn:P; cbn [bind] in E; try discriminate. eapply IH; [|exact E]. eapply t_step; eauto.
Qed.
(* events of the port do nothing while the transport waits *)
Definition waiting (x : istate) : bool := match x with inpSizeCallBack | inpInitTimeout | inpComplitTimeout | inpCallBack => true | _ => false end.
Lemma wait_send s : waiting (i_state s) = true -> i_inp s = true -> i_dead s = false -> process_send s = Ok (s, false).
Proof.
  intros W I D. unfold InTrModel.process_send. cbn [seq_parts]. unfold p_closed, p_recon, p_noinp, p_init, p_size, p_need, p_check, p_has, p_cb.
  destruct (i_state s) eqn:S; try discriminate W; rewrite D; cbn [bind]; rewrite S; cbn [bind]; rewrite I, S; cbn [bind]; try reflexivity.
  do 6 (rewrite S; cbn [bind]). reflexivity.
Qed.
Lemma wait_output s : waiting (i_state s) = true -> i_inp s = true -> i_dead s = false -> process_output s = Ok (s, false).
Proof.
  intros W I D. unfold InTrModel.process_output. destruct lim as [[|n]|]; cbn [InTrModel.out_loop]; (destruct (active s); [|reflexivity]); rewrite wait_send by assumption; reflexivity.
Qed.
Lemma t_new cap bc bu : T (it_new cap bc bu).
Proof. unfold T, T0. cbn. repeat split; discriminate. Qed.
(* waiting for a call-back: nothing that comes by itself changes that *)
Definition lost (s : it) : Prop := i_state s = inpCallBack /\ i_inp s = true /\ i_dead s = false /\ i_exit s = false.
Lemma lost_output s : lost s -> process_output s = Ok (s, false).
Proof. intros (A & B & C & D). apply wait_output; auto. rewrite A. reflexivity. Qed.
Lemma lost_step s e : lost s -> own_event e = true -> exists s1, step s e = Ok s1 /\ lost s1 /\ i_log s1 = i_log s.
Proof.
  intros H W. pose proof H as (A & B & C & D). unfold InTrModel.step. rewrite D. destruct e; try discriminate.
  - rewrite lost_output by exact H. cbn [bind]. eauto.
  - destruct (i_timer s); [|eauto]. cbv zeta. change (i_run (w_timer s false)) with (i_run s). destruct (i_run s).
    + unfold process_timer. cbv zeta. change (i_state (w_timer s false)) with (i_state s). rewrite A. change (i_state (w_timer s false)) with (i_state s). rewrite A.
      rewrite lost_output; [cbn [bind]; eexists; split; [reflexivity|]; split; auto|]; repeat split; auto.
    + eexists. split; [reflexivity|]. split; auto; repeat split; auto.
  - destruct (i_run s); [|eauto]. unfold process_buffer. rewrite A. eauto.
  - eexists. split; [reflexivity|]. split; auto; repeat split; auto.
Qed.
Lemma lost_run l : forall s, lost s -> forallb own_event l = true -> exists s1, run s l = Ok s1 /\ i_log s1 = i_log s.
Proof.
  induction l as [|e l IH]; intros s H W; cbn [InTrModel.run]; [eauto|]. cbn [forallb] in W. apply andb_prop in W as [W1 W2].
  destruct (lost_step s e H W1) as (s1 & P & H1 & L). rewrite P. cbn [bind]. destruct (IH s1 H1 W2) as (s2 & P2 & L2). exists s2. split; [exact P2|congruence].
Qed.
End R.
