(* Proofs about the OutputTransport model. *)
From Verif Require Import Common OutTrSpec OutTrModel.

(* [change] touches only the state, the stop request, the running flag and the timer *)
Lemma change_state s x : o_state (change s x) = x.
Proof. unfold change, stop_transport, base_stop. destruct x, (o_stop s) eqn:A, (o_run s) eqn:B; cbn; rewrite ?A, ?B; cbn; rewrite ?B; reflexivity. Qed.
Lemma change_rest s x :
  o_out (change s x) = o_out s /\ o_cur (change s x) = o_cur s /\ o_tr (change s x) = o_tr s /\
  o_conn (change s x) = o_conn s /\ o_q (change s x) = o_q s /\ o_dead (change s x) = o_dead s /\
  o_log (change s x) = o_log s.
Proof. unfold change, stop_transport, base_stop. destruct x, (o_stop s) eqn:A, (o_run s) eqn:B; cbn; rewrite ?A, ?B; cbn; rewrite ?B; repeat split; reflexivity. Qed.
Lemma ch_out s x : o_out (change s x) = o_out s. Proof. apply change_rest. Qed.
Lemma ch_conn s x : o_conn (change s x) = o_conn s. Proof. apply change_rest. Qed.
Lemma ch_q s x : o_q (change s x) = o_q s. Proof. apply change_rest. Qed.
Lemma ch_dead s x : o_dead (change s x) = o_dead s. Proof. apply change_rest. Qed.
Lemma ch_log s x : o_log (change s x) = o_log s. Proof. apply change_rest. Qed.

Lemma buf_eqb_refl b : buf_eqb b b = true.
Proof. destruct b as [[] n]; unfold buf_eqb; cbn; apply N.eqb_refl. Qed.
Lemma buf_eqb_true a b : buf_eqb a b = true -> a = b.
Proof. destruct a as [[] n], b as [[] m]; unfold buf_eqb; cbn; intro H; try discriminate; apply N.eqb_eq in H; subst; reflexivity. Qed.

(* how the state of the transport and the rules of the object go together *)
Definition okst (s : ot) : Prop :=
  match o_state s with
  | outReady | outInitTimeout | outWaitCallback => phase (o_log s) = Idle /\ o_out s = true
  | outStartWriting => phase (o_log s) = Checked /\ o_out s = true /\ o_conn s = true /\ exists n r, o_q s = (KData, n) :: r
  | outWaitFinishCallback | outFinishWriting => phase (o_log s) = Started /\ o_out s = true
  | outError => phase (o_log s) = Failed /\ o_out s = true
  | outClosing => phase (o_log s) = Closing /\ o_out s = true
  | outRetry => (phase (o_log s) = Waiting /\ o_out s = true) \/
                (phase (o_log s) = Done /\ o_out s = false /\ o_conn s = false)
  | outClosed => phase (o_log s) = Done /\ o_out s = false /\ o_conn s = false
  end.

(* states between two events *)
Definition stable (x : ostate) : bool :=
  match x with outStartWriting | outFinishWriting | outError | outClosing => false | _ => true end.

(* buffers that can still be taken from the port *)
Definition qv (s : ot) : list buf := if o_conn s then o_q s else [].

(* nothing taken from the port is lost or reordered *)
Definition flow (s s1 : ot) : Prop :=
  exists lost, taken (o_log s1) ++ qv s1 ++ lost = taken (o_log s) ++ qv s /\
               (o_conn s1 = true -> lost = [] /\ o_conn s = true).

Lemma flow_refl s : flow s s.
Proof. exists []. rewrite app_nil_r. auto. Qed.
Lemma flow_same s s1 : o_log s1 = o_log s \/ taken (o_log s1) = taken (o_log s) -> o_q s1 = o_q s -> o_conn s1 = o_conn s -> flow s s1.
Proof. intros A B C. exists []. unfold qv. rewrite B, C, app_nil_r. destruct A as [->| ->]; auto. Qed.
Lemma flow_trans s s1 s2 : flow s s1 -> flow s1 s2 -> flow s s2.
Proof.
  intros (r & A & B) (r2 & C & D). exists (r2 ++ r). split.
  - rewrite <- A. rewrite !app_assoc in *. rewrite C. reflexivity.
  - intro H. destruct (D H) as [-> H1]. destruct (B H1) as [-> H2]. auto.
Qed.

(* the effect of the setters on the fields used below *)
Lemma f_set_timer_o_state s x : o_state (set_timer s x) = o_state s. Proof. reflexivity. Qed.
Lemma f_set_timer_o_out s x : o_out (set_timer s x) = o_out s. Proof. reflexivity. Qed.
Lemma f_set_timer_o_conn s x : o_conn (set_timer s x) = o_conn s. Proof. reflexivity. Qed.
Lemma f_set_timer_o_q s x : o_q (set_timer s x) = o_q s. Proof. reflexivity. Qed.
Lemma f_set_timer_o_dead s x : o_dead (set_timer s x) = o_dead s. Proof. reflexivity. Qed.
Lemma f_set_timer_o_log s x : o_log (set_timer s x) = o_log s. Proof. reflexivity. Qed.
Lemma f_set_cur_o_state s x : o_state (set_cur s x) = o_state s. Proof. reflexivity. Qed.
Lemma f_set_cur_o_out s x : o_out (set_cur s x) = o_out s. Proof. reflexivity. Qed.
Lemma f_set_cur_o_conn s x : o_conn (set_cur s x) = o_conn s. Proof. reflexivity. Qed.
Lemma f_set_cur_o_q s x : o_q (set_cur s x) = o_q s. Proof. reflexivity. Qed.
Lemma f_set_cur_o_dead s x : o_dead (set_cur s x) = o_dead s. Proof. reflexivity. Qed.
Lemma f_set_cur_o_log s x : o_log (set_cur s x) = o_log s. Proof. reflexivity. Qed.
Lemma f_set_q_o_state s x : o_state (set_q s x) = o_state s. Proof. reflexivity. Qed.
Lemma f_set_q_o_out s x : o_out (set_q s x) = o_out s. Proof. reflexivity. Qed.
Lemma f_set_q_o_conn s x : o_conn (set_q s x) = o_conn s. Proof. reflexivity. Qed.
Lemma f_set_q_o_q s x : o_q (set_q s x) = x. Proof. reflexivity. Qed.
Lemma f_set_q_o_dead s x : o_dead (set_q s x) = o_dead s. Proof. reflexivity. Qed.
Lemma f_set_q_o_log s x : o_log (set_q s x) = o_log s. Proof. reflexivity. Qed.
Lemma f_add_o_state s x : o_state (add s x) = o_state s. Proof. reflexivity. Qed.
Lemma f_add_o_out s x : o_out (add s x) = o_out s. Proof. reflexivity. Qed.
Lemma f_add_o_conn s x : o_conn (add s x) = o_conn s. Proof. reflexivity. Qed.
Lemma f_add_o_q s x : o_q (add s x) = o_q s. Proof. reflexivity. Qed.
Lemma f_add_o_dead s x : o_dead (add s x) = o_dead s. Proof. reflexivity. Qed.
Lemma f_add_o_log s x : o_log (add s x) = x :: o_log s. Proof. reflexivity. Qed.
Lemma f_take_o_state s b r : o_state (take s b r) = o_state s. Proof. reflexivity. Qed.
Lemma f_take_o_out s b r : o_out (take s b r) = o_out s. Proof. reflexivity. Qed.
Lemma f_take_o_conn s b r : o_conn (take s b r) = o_conn s. Proof. reflexivity. Qed.
Lemma f_take_o_q s b r : o_q (take s b r) = r. Proof. reflexivity. Qed.
Lemma f_take_o_dead s b r : o_dead (take s b r) = o_dead s. Proof. reflexivity. Qed.
Lemma f_take_o_log s b r : o_log (take s b r) = OTake b :: o_log s. Proof. reflexivity. Qed.
Lemma f_close_transport_o_state s e : o_state (close_transport s e) = o_state s. Proof. reflexivity. Qed.
Lemma f_close_transport_o_out s e : o_out (close_transport s e) = o_out s. Proof. reflexivity. Qed.
Lemma f_close_transport_o_conn s e : o_conn (close_transport s e) = false. Proof. reflexivity. Qed.
Lemma f_close_transport_o_q s e : o_q (close_transport s e) = []. Proof. reflexivity. Qed.
Lemma f_close_transport_o_dead s e : o_dead (close_transport s e) = o_dead s. Proof. reflexivity. Qed.
Lemma f_close_transport_o_log s e : o_log (close_transport s e) = OClose e :: o_log s. Proof. reflexivity. Qed.
Lemma f_close_output_o_state s : o_state (close_output s) = o_state s. Proof. unfold close_output; destruct (o_out s); reflexivity. Qed.
Lemma f_close_output_o_out s : o_out (close_output s) = false. Proof. unfold close_output; destruct (o_out s); reflexivity. Qed.
Lemma f_close_output_o_conn s : o_conn (close_output s) = o_conn s. Proof. unfold close_output; destruct (o_out s); reflexivity. Qed.
Lemma f_close_output_o_q s : o_q (close_output s) = o_q s. Proof. unfold close_output; destruct (o_out s); reflexivity. Qed.
Lemma f_close_output_o_dead s : o_dead (close_output s) = o_dead s. Proof. unfold close_output; destruct (o_out s); reflexivity. Qed.
Lemma f_close_output_o_log s : o_log (close_output s) = (if o_out s then ODelete :: o_log s else o_log s). Proof. unfold close_output; destruct (o_out s); reflexivity. Qed.
#[local] Hint Rewrite change_state ch_out ch_conn ch_q ch_dead ch_log
  f_set_timer_o_state f_set_timer_o_out f_set_timer_o_conn f_set_timer_o_q f_set_timer_o_dead f_set_timer_o_log f_set_cur_o_state f_set_cur_o_out f_set_cur_o_conn f_set_cur_o_q f_set_cur_o_dead f_set_cur_o_log f_set_q_o_state f_set_q_o_out f_set_q_o_conn f_set_q_o_q f_set_q_o_dead f_set_q_o_log f_add_o_state f_add_o_out f_add_o_conn f_add_o_q f_add_o_dead f_add_o_log f_take_o_state f_take_o_out f_take_o_conn f_take_o_q f_take_o_dead f_take_o_log f_close_transport_o_state f_close_transport_o_out f_close_transport_o_conn f_close_transport_o_q f_close_transport_o_dead f_close_transport_o_log f_close_output_o_state f_close_output_o_out f_close_output_o_conn f_close_output_o_q f_close_output_o_dead f_close_output_o_log : otf.
Ltac chs := autorewrite with otf.

Section R.
Variable ora : list obs -> code.
Variable orab : list obs -> bool.
Variable retry : bool.
Variable lim : option nat.

Lemma close_on_error_ok s :
  phase (o_log s) = Failed -> o_out s = true ->
  okst (close_on_error orab retry s) /\ stable (o_state (close_on_error orab retry s)) = true /\
  flow s (close_on_error orab retry s).
Proof.
  intros P O. unfold close_on_error, okst, flow, qv. rewrite O. destruct retry; cbn [negb orb].
  - destruct (orab (o_log s)); chs; cbn [phase taken]; rewrite ?O, ?P; cbn [delta phase taken]; rewrite ?P; cbn [delta].
    + split; [auto|]. split; [reflexivity|]. exists []. rewrite app_nil_r. auto.
    + split; [auto|]. split; [reflexivity|]. exists (if o_conn s then o_q s else []). split; [reflexivity|discriminate].
  - chs. rewrite O. cbn [phase taken]. rewrite P. cbn [delta].
    split; [auto|]. split; [reflexivity|]. exists (if o_conn s then o_q s else []). split; [reflexivity|discriminate].
Qed.

(* also when everything was closed before *)
Lemma close_on_error_done s :
  phase (o_log s) = Done -> o_out s = false ->
  okst (close_on_error orab retry s) /\ stable (o_state (close_on_error orab retry s)) = true /\
  taken (o_log (close_on_error orab retry s)) = taken (o_log s) /\ o_conn (close_on_error orab retry s) = false.
Proof.
  intros P O. unfold close_on_error, okst. rewrite O. cbn [negb]. rewrite Bool.orb_true_r.
  chs. rewrite O. cbn [phase taken]. rewrite P. cbn [delta]. auto 8.
Qed.

Definition good (s : ot) (x : res (ot * option bool)) : Prop :=
  exists s1 o, x = Ok (s1, o) /\ okst s1 /\ flow s s1 /\
    (match o with Some _ => stable (o_state s1) = true | None => True end) /\
    o_dead s1 = o_dead s.

Lemma flow_take s s1 b r :
  o_conn s = true -> o_q s = b :: r -> taken (o_log s1) = taken (o_log s) ++ [b] -> o_q s1 = r -> o_conn s1 = o_conn s -> flow s s1.
Proof. intros K A B C D. exists []. unfold qv. rewrite D, K, A, B, C, app_nil_r, <- app_assoc. auto. Qed.

Ltac fin := unfold okst; chs; cbn [phase taken]; (split; [|split; [|split]]).

Lemma p_ready_ok s : okst s -> (o_state s = outReady -> o_conn s = true /\ o_q s <> []) -> good s (p_ready ora s).
Proof.
  intros K Q. unfold p_ready. destruct (o_state s) eqn:E;
    try (exists s, None; repeat split; auto; apply flow_refl).
  destruct (Q eq_refl) as [Hc Q1]; clear Q; rename Q1 into Q. unfold okst in K. rewrite E in K. destruct K as [P O].
  destruct (o_q s) as [|[k n] r] eqn:Eq; [congruence|]. cbn [fst]. rewrite O. destruct k.
  - (* data *)
    cbv zeta. destruct (ora (o_log s)); cbn [after_check].
    + eexists _, None. split; [reflexivity|]. fin; auto.
      * rewrite P, O, Eq. cbn [delta]. eauto 8.
      * apply flow_same; [right|..]; chs; reflexivity.
    + chs. rewrite Eq. eexists _, (Some true). split; [reflexivity|]. fin; rewrite ?E; auto.
      * rewrite P. auto.
      * eapply flow_take; [exact Hc|exact Eq|..]; chs; reflexivity.
    + eexists _, (Some true). split; [reflexivity|]. fin; rewrite ?E; auto.
      * rewrite P. auto.
      * apply flow_same; [right|..]; chs; reflexivity.
    + eexists _, (Some false). split; [reflexivity|]. fin; auto.
      * rewrite P. auto.
      * apply flow_same; [right|..]; chs; reflexivity.
    + eexists _, (Some false). split; [reflexivity|]. fin; auto.
      * rewrite P. auto.
      * apply flow_same; [right|..]; chs; reflexivity.
    + eexists _, None. split; [reflexivity|]. fin; auto.
      * rewrite P. auto.
      * apply flow_same; [right|..]; chs; reflexivity.
    + eexists _, None. split; [reflexivity|]. fin; auto.
      * rewrite P. auto.
      * apply flow_same; [right|..]; chs; reflexivity.
    + eexists _, None. split; [reflexivity|]. fin; auto.
      * rewrite P. auto.
      * apply flow_same; [right|..]; chs; reflexivity.
  - cbn [after_check]. eexists _, None. split; [reflexivity|]. fin; auto.
    + rewrite P. auto.
    + eapply flow_take; [exact Hc|exact Eq|..]; chs; reflexivity.
  - eexists _, (Some true). split; [reflexivity|]. fin; rewrite ?E; auto.
    + rewrite P. auto.
    + eapply flow_take; [exact Hc|exact Eq|..]; chs; reflexivity.
Qed.

Lemma p_wait_ok s : okst s -> good s (p_wait s).
Proof. intro K. unfold p_wait. destruct (o_state s) eqn:E; eexists s, _; repeat split; eauto using flow_refl; rewrite E; reflexivity. Qed.

Lemma p_wait2_ok s : okst s -> good s (p_wait2 s).
Proof. intro K. unfold p_wait2. destruct (o_state s) eqn:E; eexists s, _; repeat split; eauto using flow_refl; rewrite E; reflexivity. Qed.

Lemma p_start_ok s : okst s -> good s (p_start ora s).
Proof.
  intro K. unfold p_start. destruct (o_state s) eqn:E;
    try (exists s, None; repeat split; auto; apply flow_refl).
  unfold okst in K. rewrite E in K. destruct K as (P & O & Hc & n & r & Eq). rewrite Eq. cbv zeta.
  chs. rewrite O. cbn [o_log].
  assert (F : forall c x, flow s (change (add (set_cur (take s (KData, n) r) (Some (KData, n))) (OWrite (KData, n) c)) x)).
  { intros c x. eapply flow_take; [exact Hc|exact Eq|..]; chs; reflexivity. }
  destruct (ora _); eexists _, _; (split; [reflexivity|]); unfold okst; chs; cbn [phase]; rewrite P; cbn [delta];
    rewrite buf_eqb_refl; auto 8.
Qed.

Lemma p_finish_ok s : okst s -> good s (p_finish ora s).
Proof.
  intro K. unfold p_finish. destruct (o_state s) eqn:E;
    try (exists s, None; repeat split; auto; apply flow_refl).
  unfold okst in K. rewrite E in K. destruct K as (P & O). cbv zeta.
  chs. rewrite O.
  assert (F : forall c x, flow s (change (add (set_cur s None) (OComplete c)) x)).
  { intros c x. apply flow_same; [right|..]; chs; reflexivity. }
  destruct (ora _); eexists _, None; (split; [reflexivity|]); unfold okst; chs; cbn [phase]; rewrite P; cbn [delta after_end]; auto 8.
Qed.

Lemma p_end_ok s : okst s -> exists s1 b, p_end orab retry s = Ok (s1, Some b) /\ okst s1 /\ flow s s1 /\
   (o_state s <> outStartWriting -> o_state s <> outFinishWriting -> stable (o_state s1) = true).
Proof.
  intro K. unfold p_end. pose proof K as K0. unfold okst in K. destruct (o_state s) eqn:E;
    try (exists s, true; split; [reflexivity|]; split; [exact K0|]; split; [apply flow_refl|]; rewrite E; (reflexivity || congruence)).
  - destruct K as [P O]. destruct (close_on_error_ok s P O) as (A & B & C).
    eexists _, _. split; [reflexivity|]. auto.
  - destruct K as [P O]. eexists _, _. split; [reflexivity|].
    unfold okst. chs. rewrite O. cbn [phase taken]. rewrite P. split; [auto|]. split; [|reflexivity].
    exists (qv s). unfold qv at 1. chs. rewrite O. cbn [taken]. split; [reflexivity|discriminate].
Qed.

(* after a part that did not return, what may be the state *)
Lemma p_start_next s s1 o : p_start ora s = Ok (s1, o) -> o = None -> o_state s1 <> outStartWriting.
Proof.
  unfold p_start. intros H ->. destruct (o_state s) eqn:E; try (injection H as <-; congruence).
  destruct (o_q s); [discriminate|]. cbv zeta in H. destruct (o_out _); [|discriminate].
  destruct (ora _); inversion H; subst; chs; discriminate.
Qed.
Lemma p_finish_next s s1 o : p_finish ora s = Ok (s1, o) -> o_state s1 <> outFinishWriting.
Proof.
  unfold p_finish. intros H. destruct (o_state s) eqn:E; try (injection H as <- _; congruence).
  cbv zeta in H. destruct (o_out _); [|discriminate]. injection H as <- _. chs. destruct (ora _); discriminate.
Qed.
Lemma p_wait2_same s s1 : p_wait2 s = Ok (s1, None) -> s1 = s.
Proof. unfold p_wait2. destruct (o_state s); congruence. Qed.
Lemma p_finish_nostart s s1 : p_finish ora s = Ok (s1, None) -> o_state s1 = outStartWriting -> o_state s = outStartWriting.
Proof.
  unfold p_finish. intros H H1. destruct (o_state s) eqn:E; try (injection H as <-; congruence).
  cbv zeta in H. destruct (o_out _); [|discriminate]. injection H as <-. rewrite change_state in H1. destruct (ora _); discriminate.
Qed.

Lemma process_recv_ok s :
  okst s -> o_out s = true -> stable (o_state s) = true \/ o_state s = outFinishWriting ->
  (o_state s = outReady -> o_conn s = true /\ o_q s <> []) ->
  exists s1 b, process_recv ora orab retry s = Ok (s1, b) /\ okst s1 /\ stable (o_state s1) = true /\ flow s s1.
Proof.
  intros K O St Q. unfold process_recv. rewrite O. cbv zeta. destruct (o_dead s) eqn:D.
  - (* device destroyed *)
    eexists _, false. split; [reflexivity|].
    assert (Hf : flow s (close_transport (close_output (change (add s ODevice) outClosed)) false)).
    { exists (qv s). unfold qv at 1. chs. rewrite O. cbn [taken]. split; [reflexivity|discriminate]. }
    split; [|split; [chs; reflexivity|exact Hf]].
    unfold okst in *. chs. rewrite O. cbn [phase].
    replace (phase (o_log s)) with (match o_state s with outWaitFinishCallback | outFinishWriting => Started | outRetry => Waiting | _ => Idle end).
    { destruct (o_state s); repeat split. }
    destruct (o_state s); destruct St as [St|St]; try discriminate; intuition congruence.
  - cbn [seq_parts].
    destruct (p_ready_ok s K Q) as (s1 & r1 & E1 & K1 & F1 & B1 & _). rewrite E1. cbn [bind].
    destruct r1 as [b1|]; [eexists _, _; split; [reflexivity|]; auto|].
    destruct (p_wait_ok s1 K1) as (s2 & r2 & E2 & K2 & F2 & B2 & _). rewrite E2. cbn [bind].
    pose proof (flow_trans _ _ _ F1 F2) as F12.
    destruct r2 as [b2|]; [eexists _, _; split; [reflexivity|]; auto|].
    destruct (p_start_ok s2 K2) as (s3 & r3 & E3 & K3 & F3 & B3 & _). rewrite E3. cbn [bind].
    pose proof (flow_trans _ _ _ F12 F3) as F13.
    destruct r3 as [b3|]; [eexists _, _; split; [reflexivity|]; auto|].
    pose proof (p_start_next _ _ _ E3 eq_refl) as N3.
    destruct (p_wait2_ok s3 K3) as (s4 & r4 & E4 & K4 & F4 & B4 & _). rewrite E4. cbn [bind].
    pose proof (flow_trans _ _ _ F13 F4) as F14.
    destruct r4 as [b4|]; [eexists _, _; split; [reflexivity|]; auto|].
    apply p_wait2_same in E4. subst s4.
    destruct (p_finish_ok s3 K3) as (s5 & r5 & E5 & K5 & F5 & B5 & _). rewrite E5. cbn [bind].
    pose proof (flow_trans _ _ _ F13 F5) as F15.
    destruct r5 as [b5|]; [eexists _, _; split; [reflexivity|]; auto|].
    pose proof (p_finish_next _ _ _ E5) as N5.
    destruct (p_end_ok s5 K5) as (s6 & b6 & E6 & K6 & F6 & B6). rewrite E6. cbn [bind].
    eexists _, _; split; [reflexivity|]. split; [exact K6|]. split; [|exact (flow_trans _ _ _ F15 F6)].
    apply B6; [|exact N5]. intro Hs. apply N3. exact (p_finish_nostart _ _ E5 Hs).
Qed.

(* invariant between two events *)
Definition inv (s : ot) : Prop := okst s /\ stable (o_state s) = true.

Lemma inv_conn_out s : inv s -> o_conn s = true -> o_out s = true.
Proof. intros [K _] C. unfold okst in K. destruct (o_state s); intuition congruence. Qed.

Lemma in_loop_ok n : forall s, inv s ->
  exists s1 b, in_loop ora orab retry n s = Ok (s1, b) /\ inv s1 /\ flow s s1.
Proof.
  induction n as [|n IH]; intros s I; cbn [in_loop].
  all: destruct (o_run s && _) eqn:C; [|exists s, false; auto using flow_refl].
  all: apply andb_prop in C as [_ C]; apply andb_prop in C as [C C2].
  all: destruct (process_recv_ok s) as (s1 & b & E & K1 & S1 & F1);
    [apply I|apply inv_conn_out; auto|left; apply I|intros _; split; [exact C|destruct (o_q s); congruence]|].
  all: rewrite E; cbn [bind]; destruct b; [|exists s1, false; unfold inv; auto].
  - exists s1, true; unfold inv; auto.
  - destruct (IH s1) as (s2 & b2 & E2 & I2 & F2); [split; auto|]. exists s2, b2. split; [exact E2|]. split; [exact I2|].
    exact (flow_trans _ _ _ F1 F2).
Qed.

Lemma process_input_ok s : inv s ->
  exists s1 b, process_input ora orab retry lim s = Ok (s1, b) /\ inv s1 /\ flow s s1.
Proof.
  intro I. unfold process_input. destruct lim as [n|]; [apply in_loop_ok; exact I|].
  destruct (o_run s && _) eqn:C; [|exists s, false; auto using flow_refl].
  apply andb_prop in C as [_ C]; apply andb_prop in C as [C C2].
  destruct (process_recv_ok s) as (s1 & b & E & K1 & S1 & F1);
    [apply I|apply inv_conn_out; auto|left; apply I|intros _; split; [exact C|destruct (o_q s); congruence]|].
  rewrite E. cbn [bind]. exists s1, false. unfold inv. auto.
Qed.

Lemma inv_same s s1 :
  o_state s1 = o_state s -> o_log s1 = o_log s -> o_out s1 = o_out s -> o_conn s1 = o_conn s -> inv s -> inv s1.
Proof. intros A B C D [K S]. unfold inv, okst in *. rewrite A, B, C, D. destruct (o_state s); auto; discriminate. Qed.

Lemma change_inv s x :
  stable x = true -> phase (o_log s) = (match x with outReady | outInitTimeout | outWaitCallback => Idle | outWaitFinishCallback => Started | outRetry => Waiting | _ => Done end) ->
  o_out s = true -> x <> outClosed -> inv (change s x).
Proof. intros A B C D. split; [|rewrite change_state; exact A]. unfold okst. chs. destruct x; try discriminate; auto. congruence. Qed.

Lemma change_flow s x : flow s (change s x).
Proof. apply flow_same; [left|..]; chs; reflexivity. Qed.

Lemma process_timer_ok s : inv s ->
  exists s1, process_timer ora orab retry lim s = Ok s1 /\ inv s1 /\ flow s s1.
Proof.
  intro I. pose proof I as [K S]. unfold process_timer. cbv zeta. unfold okst in K.
  assert (G : forall s0, inv s0 -> exists s1, (do (s2, _) <- process_input ora orab retry lim s0; Ok s2) = Ok s1 /\ inv s1 /\ flow s0 s1).
  { intros s0 I0. destruct (process_input_ok s0 I0) as (s1 & b & E & I1 & F1). exists s1. rewrite E. auto. }
  destruct (o_state s) eqn:E; try discriminate; rewrite ?E; try (exact (G s I)).
  - rewrite change_state. destruct K as [P O].
    destruct (G (change s outReady)) as (s1 & E1 & I1 & F1). { apply change_inv; auto. discriminate. }
    exists s1. split; [exact E1|]. split; [exact I1|]. exact (flow_trans _ _ _ (change_flow _ _) F1).
  - destruct K as [[P O]|(P & O & C)]; rewrite O.
    + set (r := orab (o_log s)). destruct r.
      * destruct (G (change (add s (OInit true)) outReady)) as (s1 & E1 & I1 & F1).
        { apply change_inv; auto; [|discriminate]. cbn [o_log add phase]. rewrite P. reflexivity. }
        exists s1. split; [exact E1|]. split; [exact I1|]. eapply flow_trans; [|exact F1].
        eapply flow_trans; [|apply change_flow]. apply flow_same; [right|..]; reflexivity.
      * eexists. split; [reflexivity|]. split.
        -- split; [|cbn [o_state set_timer add]; rewrite E; reflexivity]. unfold okst. cbn [o_state set_timer add o_log o_out o_conn phase]. rewrite E, P.
           left. auto.
        -- apply flow_same; [right|..]; reflexivity.
    + eexists. split; [reflexivity|]. split; [apply (inv_same s); auto|]. apply flow_same; [left|..]; reflexivity.
Qed.

Lemma process_callback_ok s c : inv s ->
  exists s1, process_callback ora orab retry lim s c = Ok s1 /\ inv s1 /\ flow s s1.
Proof.
  intro I. pose proof I as [K S]. unfold process_callback, okst in *.
  assert (Hf : c <> COk -> exists s1, Ok (close_on_error orab retry (add s OFailed)) = Ok s1 /\ inv s1 /\ flow s s1).
  { intros _. eexists. split; [reflexivity|].
    assert (Fa : flow s (add s OFailed)) by (apply flow_same; [right|..]; reflexivity).
    assert (D : (phase (o_log (add s OFailed)) = Failed /\ o_out s = true) \/ (phase (o_log (add s OFailed)) = Done /\ o_out s = false /\ o_conn s = false)).
    { cbn [o_log add phase]. destruct (o_state s); try discriminate; destruct K as [K|K] || idtac; intuition;
        repeat match goal with H : phase _ = _ |- _ => rewrite H end; auto. }
    destruct D as [[P O]|(P & O & C)].
    - destruct (close_on_error_ok (add s OFailed) P O) as (A & B & F). split; [split; auto|]. exact (flow_trans _ _ _ Fa F).
    - destruct (close_on_error_done (add s OFailed) P O) as (A & B & T & Cc). split; [split; auto|].
      exists []. unfold qv. rewrite Cc, T, C. cbn [taken o_log add]. split; [reflexivity|discriminate]. }
  destruct c; try (apply Hf; discriminate). clear Hf.
  destruct (o_state s) eqn:E; try discriminate; try (exists s; split; [reflexivity|]; split; [exact I|apply flow_refl]).
  - destruct K as [P O]. destruct (process_input_ok (change s outReady)) as (s1 & b & E1 & I1 & F1).
    { apply change_inv; auto. discriminate. }
    exists s1. rewrite E1. split; [reflexivity|]. split; [exact I1|]. exact (flow_trans _ _ _ (change_flow _ _) F1).
  - destruct K as [P O]. destruct (process_recv_ok (change s outFinishWriting)) as (s1 & b & E1 & K1 & S1 & F1).
    + unfold okst. chs. auto.
    + chs. exact O.
    + right. apply change_state.
    + rewrite change_state. discriminate.
    + rewrite E1. cbn [bind]. pose proof (flow_trans _ _ _ (change_flow _ _) F1) as F.
      destruct b; [|exists s1; unfold inv; auto].
      destruct (process_input_ok s1) as (s2 & b2 & E2 & I2 & F2); [split; auto|].
      exists s2. rewrite E2. split; [reflexivity|]. split; [exact I2|]. exact (flow_trans _ _ _ F F2).
Qed.

(* everything that arrived is taken, waiting, or behind the end *)
Definition account (a : list buf) (s : ot) : Prop :=
  exists lost, a = taken (o_log s) ++ qv s ++ lost /\ (o_conn s = true -> lost = []).

Lemma account_flow a s s1 : account a s -> flow s s1 -> account a s1.
Proof.
  intros (l & -> & A) (l1 & B & C). exists (l1 ++ l). split.
  - rewrite app_assoc, <- B. rewrite <- !app_assoc. reflexivity.
  - intro H. destruct (C H) as [-> H1]. rewrite (A H1). reflexivity.
Qed.

Lemma stop_same s : o_log (stop_transport s) = o_log s /\ o_state (stop_transport s) = o_state s /\ o_out (stop_transport s) = o_out s /\
  o_conn (stop_transport s) = o_conn s /\ o_q (stop_transport s) = o_q s.
Proof. unfold stop_transport, base_stop. destruct (suitable _); cbn; [destruct (o_run s)|]; repeat split. Qed.

Lemma step_ok s e a : inv s -> account a s ->
  exists s1, step ora orab retry lim s e = Ok s1 /\ inv s1 /\ account (a ++ arrived [e]) s1.
Proof.
  intros I A. destruct e; cbn [step arrived]; rewrite ?app_nil_r.
  - eexists. split; [reflexivity|]. destruct (o_conn s) eqn:C.
    + split; [apply (inv_same s); auto|]. destruct A as (l & -> & A). rewrite (A C). exists []. unfold qv. cbn [o_log o_conn o_q set_q]. rewrite C, !app_nil_r, app_assoc. auto.
    + split; [exact I|]. destruct A as (l & -> & A). exists (l ++ [b]). unfold qv. rewrite C, <- !app_assoc. split; [reflexivity|discriminate].
  - destruct (process_input_ok s I) as (s1 & b & E & I1 & F). exists s1. rewrite E. split; [reflexivity|]. split; [exact I1|eapply account_flow; eauto].
  - destruct (o_timer s); [|exists s; auto]. cbv zeta.
    assert (I0 : inv (set_timer s false)) by (apply (inv_same s); auto).
    assert (A0 : account a (set_timer s false)) by exact A.
    destruct (o_run _); [|eauto].
    destruct (process_timer_ok _ I0) as (s1 & E & I1 & F). exists s1. split; [exact E|]. split; [exact I1|exact (account_flow _ _ _ A0 F)].
  - destruct (process_callback_ok s c I) as (s1 & E & I1 & F). exists s1. split; [exact E|]. split; [exact I1|eapply account_flow; eauto].
  - eexists. split; [reflexivity|]. unfold start_transport. destruct (o_tr s); (split; [apply (inv_same s); auto|exact A]).
  - eexists. split; [reflexivity|]. destruct (o_tr s); auto. destruct (stop_same s) as (B1 & B2 & B3 & B4 & B5). split.
    + apply (inv_same s); auto.
    + unfold account, qv in *. cbn [o_log o_conn o_q set_tr]. rewrite B1, B4, B5. exact A.
  - eexists. split; [reflexivity|]. split; [apply (inv_same s); auto|exact A].
Qed.

Lemma run_ok l : forall s a, inv s -> account a s ->
  exists s1, run ora orab retry lim s l = Ok s1 /\ inv s1 /\ account (a ++ arrived l) s1.
Proof.
  induction l as [|e l IH]; intros s a I A; cbn [run].
  - exists s. cbn [arrived]. rewrite app_nil_r. auto.
  - destruct (step_ok s e a I A) as (s1 & E & I1 & A1). rewrite E. cbn [bind].
    destruct (IH s1 _ I1 A1) as (s2 & E2 & I2 & A2). exists s2. split; [exact E2|]. split; [exact I2|].
    replace (a ++ arrived (e :: l)) with ((a ++ arrived [e]) ++ arrived l); [exact A2|].
    rewrite <- app_assoc. f_equal. destruct e; reflexivity.
Qed.
End R.

Lemma inv_new : inv ot_new.
Proof. repeat split. Qed.
Lemma account_new : account [] ot_new.
Proof. exists []. auto. Qed.

Lemma inv_phase s : inv s ->
  match phase (o_log s) with Idle | Started | Waiting | Done => True | _ => False end.
Proof. intros [K S]. unfold okst in K. destruct (o_state s); try discriminate; destruct K as [K|K] || idtac; intuition;
  repeat match goal with H : phase _ = _ |- _ => rewrite H end; auto. Qed.

(* consequences of keeping the rules *)
Lemma phase_tail l1 l2 : phase (l1 ++ l2) <> Broken -> phase l2 <> Broken.
Proof.
  induction l1 as [|o l1 IH]; [auto|]. cbn [app phase]. intro H. apply IH. intro E. apply H. rewrite E. destruct o; reflexivity.
Qed.

Lemma phase_checked l : phase l = Checked -> exists r, l = OCheck COk :: r.
Proof.
  destruct l as [|o r]; [discriminate|]. cbn [phase].
  destruct (phase r), o as [[]| |[[] ?]|? []|[]|[]|[]| |?| |]; cbn [delta after_end]; try discriminate; eauto;
    destruct (buf_eqb _ _); discriminate.
Qed.

Lemma phase_hand l b : phase l = Hand b -> exists r, l = OTake b :: OCheck COk :: r.
Proof.
  destruct l as [|o r]; [discriminate|]. cbn [phase]. intro H.
  assert (E : phase r = Checked /\ o = OTake b).
  { destruct (phase r), o as [[]| |[[] ?]|? []|[]|[]|[]| |?| |]; cbn [delta after_end] in H; try discriminate; try (injection H as <-; auto);
    destruct (buf_eqb _ _); discriminate. }
  destruct E as [E ->]. apply phase_checked in E as [r1 ->]. eauto.
Qed.

Lemma phase_started l : phase l = Started -> exists b c r, l = OWrite b c :: r /\ (c = COk \/ c = CCallBack).
Proof.
  destruct l as [|o r]; [discriminate|]. cbn [phase].
  destruct (phase r), o as [[]| |[[] ?]|? []|[]|[]|[]| |?| |]; cbn [delta after_end]; try discriminate; eauto 8;
    destruct (buf_eqb _ _); try discriminate; eauto 8.
Qed.

Lemma write_shape b c r : phase (OWrite b c :: r) <> Broken -> exists r1, r = OTake b :: OCheck COk :: r1.
Proof.
  cbn [phase]. intro H. assert (E : phase r = Hand b).
  { destruct (phase r); cbn [delta] in H; try congruence. destruct (buf_eqb b0 b) eqn:B; [|congruence]. apply buf_eqb_true in B. congruence. }
  apply phase_hand; exact E.
Qed.
Lemma complete_shape c r : phase (OComplete c :: r) <> Broken -> exists b c1 r1, r = OWrite b c1 :: r1 /\ (c1 = COk \/ c1 = CCallBack).
Proof.
  cbn [phase]. intro H. apply phase_started. destruct (phase r); cbn [delta] in H; congruence.
Qed.

(* once given up, nothing but closing *)
Lemma gone_shape l1 : forall l2, phase (l1 ++ ODelete :: l2) <> Broken ->
  (phase (l1 ++ ODelete :: l2) = Gone \/ phase (l1 ++ ODelete :: l2) = Done) /\
  (forall o, In o l1 -> o = OFailed \/ exists e, o = OClose e).
Proof.
  induction l1 as [|o l1 IH]; intros l2 H.
  - cbn [app phase] in *. split; [|intros ? []]. destruct (phase l2); cbn [delta] in *; auto; congruence.
  - cbn [app phase] in *. assert (H0 : phase (l1 ++ ODelete :: l2) <> Broken) by (intro E; rewrite E in H; apply H; destruct o; reflexivity).
    destruct (IH l2 H0) as [A B]. split.
    + destruct A as [A|A]; rewrite A in *; destruct o; cbn [delta] in *; auto; congruence.
    + intros x [<-|X]; [|auto]. destruct A as [A|A]; rewrite A in *; destruct o; cbn [delta] in *; eauto; congruence.
Qed.

Lemma written_order l : phase l <> Broken ->
  to_write l = written l ++ match phase l with Hand b => [b] | _ => [] end.
Proof.
  induction l as [|o l IH]; [reflexivity|]. intro H.
  assert (H0 : phase l <> Broken) by (apply (phase_tail [o]); exact H).
  specialize (IH H0).
  destruct o as [c| |b|b c|c|r|r| |e| |].
  3:{ cbn [to_write written]. destruct (phase l) eqn:P.
      2:{ destruct (phase_checked l P) as [r ->]. rewrite IH, app_nil_r. f_equal. cbn [phase] in *. rewrite P in *.
          destruct b as [[] n]; cbn [delta] in *; congruence. }
      all: assert (N : (match l with OCheck COk :: _ => [b] | _ => [] end) = []);
        [destruct l as [|[[]| |?|? ?|?|?|?| |?| |] r]; try reflexivity; cbn [phase] in P, H0; destruct (phase r); cbn [delta] in P, H0; congruence|].
      all: rewrite N, app_nil_r, IH; f_equal; cbn [phase] in *; rewrite P in *; destruct b as [[] n]; cbn [delta] in *; congruence. }
  3:{ cbn [to_write written]. destruct (write_shape _ _ _ H) as [r ->]. cbn [phase] in *.
      rewrite IH. destruct (delta (delta (phase r) (OCheck COk)) (OTake b)) eqn:P; cbn [delta] in *; try congruence.
      destruct (buf_eqb b0 b) eqn:B; [|congruence]. apply buf_eqb_true in B; subst b0. destruct c; rewrite ?app_nil_r; reflexivity. }
  all: cbn [to_write written]; rewrite IH; f_equal; cbn [phase] in *; destruct (phase l) eqn:P;
    repeat match goal with x : code |- _ => destruct x | x : bool |- _ => destruct x end; cbn [delta after_end] in *; congruence.
Qed.

(* an obliging object and a queue of data and end-of-list buffers *)
Definition eager (s : ot) : Prop :=
  o_state s = outReady /\ o_out s = true /\ o_run s = true /\ o_conn s = true /\ o_dead s = false /\ o_stop s = false.
Definition plain (b : buf) : Prop := fst b <> KEof.
Definition datas (l : list buf) : list buf := filter (fun b => kind_eqb (fst b) KData) l.

Lemma change_nostop s x : o_stop s = false -> change s x = set_state s x.
Proof. intro H. unfold change. change (o_stop (set_state s x)) with (o_stop s). rewrite H. reflexivity. Qed.

Section P.
Variable ora : list obs -> code.
Variable orab : list obs -> bool.
Variable retry : bool.
Hypothesis A : forall l, ora l = COk.

Lemma eager_recv s b r : eager s -> o_q s = b :: r -> plain b ->
  exists s1, process_recv ora orab retry s = Ok (s1, true) /\ eager s1 /\ o_q s1 = r /\
    written (o_log s1) = written (o_log s) ++ datas [b] /\ taken (o_log s1) = taken (o_log s) ++ [b].
Proof.
  intros (E1 & E2 & E3 & E4 & E5 & E6) Q Pb. unfold process_recv. rewrite E2. cbv zeta. rewrite E5. cbn [seq_parts].
  destruct b as [[] n]; [| unfold plain in Pb; cbn in Pb; congruence |].
  - set (s1 := set_state (add s (OCheck COk)) outStartWriting).
    assert (R1 : p_ready ora s = Ok (s1, None)).
    { unfold p_ready. rewrite E1, Q. cbn [fst]. rewrite E2. cbv zeta. rewrite A. cbn [after_check].
      rewrite change_nostop by exact E6. reflexivity. }
    set (s2 := set_state (add (set_cur (take s1 (KData, n) r) (Some (KData, n))) (OWrite (KData, n) COk)) outFinishWriting).
    assert (R2 : p_start ora s1 = Ok (s2, None)).
    { unfold p_start. change (o_state s1) with outStartWriting. cbv iota. change (o_q s1) with (o_q s). rewrite Q. cbv zeta.
      change (o_out (set_cur (take s1 (KData, n) r) (Some (KData, n)))) with (o_out s). rewrite E2, A.
      rewrite change_nostop by exact E6. reflexivity. }
    set (s3 := set_state (add (set_cur s2 None) (OComplete COk)) outReady).
    assert (R3 : p_finish ora s2 = Ok (s3, None)).
    { unfold p_finish. change (o_state s2) with outFinishWriting. cbv iota zeta. change (o_out (set_cur s2 None)) with (o_out s).
      rewrite E2, A. rewrite change_nostop by exact E6. reflexivity. }
    rewrite R1. cbn [bind]. change (p_wait s1) with (Ok (s1, @None bool)). cbn [bind]. rewrite R2. cbn [bind].
    change (p_wait2 s2) with (Ok (s2, @None bool)). cbn [bind]. rewrite R3. cbn [bind].
    exists s3. split; [reflexivity|]. repeat split; auto.
  - set (s1 := take (add s OFlush) (KEol, n) r).
    assert (R1 : p_ready ora s = Ok (s1, Some true)).
    { unfold p_ready. rewrite E1, Q. cbn [fst]. rewrite E2. reflexivity. }
    rewrite R1. cbn [bind]. exists s1. split; [reflexivity|]. repeat split; auto. cbn. rewrite app_nil_r. reflexivity.
Qed.

Lemma datas_app a b : datas (a ++ b) = datas a ++ datas b.
Proof. apply filter_app. Qed.

Lemma eager_loop n : forall s, eager s -> Forall plain (o_q s) ->
  exists s1 k, in_loop ora orab retry n s = Ok (s1, Nat.leb (S n) (length (o_q s))) /\ eager s1 /\
    k = Nat.min (S n) (length (o_q s)) /\ o_q s1 = skipn k (o_q s) /\
    written (o_log s1) = written (o_log s) ++ datas (firstn k (o_q s)) /\ taken (o_log s1) = taken (o_log s) ++ firstn k (o_q s).
Proof.
  induction n as [|n IH]; intros s E F; cbn [in_loop]; pose proof E as (_ & _ & E3 & E4 & _); rewrite E3, E4; cbn [andb];
    destruct (o_q s) as [|b r] eqn:Q.
  1,3: exists s, 0%nat; rewrite Q; cbn; rewrite !app_nil_r; auto 8.
  all: inversion F as [|? ? F1 F2]; subst; destruct (eager_recv s b r E Q F1) as (s1 & R & I1 & Q1 & W & T); rewrite R; cbn [bind].
  - exists s1, 1%nat. cbn [length firstn skipn Nat.leb Nat.min]. repeat (split; auto); cbn [length Nat.min]. 
  - rewrite <- Q1 in F2. destruct (IH s1 I1 F2) as (s2 & k & R2 & I2 & K & Q2 & W2 & T2). rewrite Q1 in *.
    exists s2, (S k). split; [exact R2|]. split; [exact I2|]. split; [cbn [length]; lia|]. cbn [skipn firstn]. split; [exact Q2|].
    rewrite W2, T2, W, T, <- !app_assoc. change (b :: firstn k r) with ([b] ++ firstn k r). rewrite datas_app. auto.
Qed.

Lemma eager_drain n k : forall s, eager s -> Forall plain (o_q s) -> (length (o_q s) < k)%nat ->
  exists s1, drain ora orab retry (Some n) k s = Ok s1 /\ eager s1 /\ o_q s1 = [] /\
    written (o_log s1) = written (o_log s) ++ datas (o_q s) /\ taken (o_log s1) = taken (o_log s) ++ o_q s.
Proof.
  induction k as [|k IH]; intros s E F L; [lia|]. cbn [drain process_input].
  destruct (eager_loop n s E F) as (s1 & j & R & I1 & J & Q1 & W & T). rewrite R. cbn [bind].
  destruct (Nat.leb (S n) (length (o_q s))) eqn:C.
  - apply Nat.leb_le in C. destruct (IH s1) as (s2 & R2 & I2 & Q2 & W2 & T2); auto.
    + rewrite Q1. rewrite <- (firstn_skipn j (o_q s)) in F. apply Forall_app in F. apply F.
    + rewrite Q1, skipn_length. lia.
    + exists s2. split; [exact R2|]. split; [exact I2|]. split; [exact Q2|].
      rewrite W2, T2, W, T, Q1, <- !app_assoc, <- datas_app, firstn_skipn. auto.
  - apply Nat.leb_gt in C. exists s1. split; [reflexivity|]. split; [exact I1|].
    assert (j = length (o_q s)) by lia. subst j. rewrite H in *. rewrite skipn_all in Q1. rewrite firstn_all in W, T. auto.
Qed.
End P.

(* waiting for a retry with no timeout armed *)
Definition stuck (s : ot) : Prop :=
  o_state s = outRetry /\ o_out s = true /\ o_timer s = false /\ o_dead s = false.

Lemma stuck_recv ora orab retry s : stuck s -> process_recv ora orab retry s = Ok (s, true).
Proof.
  intros (A & B & C & D). unfold process_recv. rewrite B. cbv zeta. rewrite D. cbn [seq_parts].
  unfold p_ready, p_wait, p_start, p_wait2, p_finish, p_end. repeat (rewrite A; cbn [bind]). reflexivity.
Qed.

Lemma stuck_input ora orab retry lim s : stuck s -> exists b, process_input ora orab retry lim s = Ok (s, b).
Proof.
  intro H. unfold process_input. destruct lim as [n|].
  - induction n as [|n IH]; cbn [in_loop]; (destruct (o_run s && _); [|eauto]); rewrite (stuck_recv ora orab retry s H); cbn [bind]; eauto.
  - destruct (o_run s && _); [|eauto]. rewrite (stuck_recv ora orab retry s H). cbn [bind]. eauto.
Qed.

Lemma stuck_step ora orab retry lim s e : stuck s -> calm e ->
  exists s1, step ora orab retry lim s e = Ok s1 /\ stuck s1 /\ o_log s1 = o_log s.
Proof.
  intros H C. pose proof H as (A & B & D & F). destruct e as [b| | |c| | |]; cbn [step].
  - eexists. split; [reflexivity|]. destruct (o_conn s); auto.
  - destruct (stuck_input ora orab retry lim s H) as [b E]. rewrite E. cbn [bind]. eauto.
  - rewrite D. eauto.
  - destruct c; try destruct C. unfold process_callback. rewrite A. eauto.
  - eexists. split; [reflexivity|]. unfold start_transport. destruct (o_tr s); auto.
  - eexists. split; [reflexivity|]. destruct (o_tr s); auto. unfold stop_transport. rewrite A. auto.
  - destruct C.
Qed.

Lemma stuck_run ora orab retry lim l : forall s, stuck s -> Forall calm l ->
  exists s1, run ora orab retry lim s l = Ok s1 /\ o_log s1 = o_log s.
Proof.
  induction l as [|e l IH]; intros s H F; cbn [run]; [eauto|].
  inversion F; subst. destruct (stuck_step ora orab retry lim s e H) as (s1 & E & H1 & L); auto.
  rewrite E. cbn [bind]. destruct (IH s1 H1) as (s2 & E2 & L2); auto. exists s2. split; [exact E2|congruence].
Qed.

(* no object, timeout armed: it is armed again and again *)
Lemma timer_forever ora orab lim n : forall s, o_state s = outRetry -> o_out s = false -> o_run s = true -> o_timer s = true ->
  exists s1, run ora orab true lim s (repeat EvTimer n) = Ok s1 /\ o_timer s1 = true.
Proof.
  induction n as [|n IH]; intros s A B C D; cbn [repeat run]; [eauto|].
  cbn [step]. rewrite D. cbv zeta. change (o_run (set_timer s false)) with (o_run s). rewrite C.
  unfold process_timer. change (o_state (set_timer s false)) with (o_state s). rewrite A. cbv zeta.
  change (o_state (set_timer s false)) with (o_state s). rewrite A.
  change (o_out (set_timer s false)) with (o_out s). rewrite B. cbn [bind]. apply IH; auto.
Qed.
