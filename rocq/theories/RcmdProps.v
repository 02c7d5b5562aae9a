(* C83: commands for other nodes are executed there once, in their order, and each is answered
   once, with the result of its own execution. *)
From Coq Require Import Sorting.Sorted.
From Verif Require Import Common ListFacts Bytes RcmdSpec RcmdModel RcmdProofs RcmdLive.
Local Open Scope N_scope.

(* answers: one at most for each command, from its own execution, or for a passed deadline;
   for the connecting node also over breaks of the connection *)
Theorem C83_answers_partial l e :
  Forall tame l -> e = Client \/ Forall kept l -> lenN (submitted e l) < 2 ^ 32 ->
  let x := at_end e (run l start) in let y := at_end (other e) (run l start) in
  NoDup (map fst (s_done x)) /\
  forall t a, In (t, a) (s_done x) ->
    (t < length (submitted e l))%nat /\ (a = Timedout /\ In (At e (Late t)) l \/ exists r, a = Result r /\ In (t, r) (s_fin y)).
Proof.
  intros T K L. destruct (end_inv l e T K L) as ((y & xy & yx & Ey & I) & Es). cbn zeta. rewrite <- Ey. pose proof (i_once _ _ _ _ I) as O. pose proof (i_known _ _ _ _ I) as Kn. split.
  - apply NoDup_app_iff in O as (_ & O & _). apply NoDup_app_iff in O as (_ & O & _). exact O.
  - intros t a H. split.
    + rewrite <- Es. rewrite Forall_forall in Kn. apply Kn. rewrite !in_app_iff. right. right. change t with (fst (t, a)). apply in_map. exact H.
    + destruct (i_done _ _ _ _ I t a H) as [(E & F)|F]; [left; split; [exact E|apply late_events; exact F]|right; exact F].
Qed.
Print Assumptions C83_answers_partial.

(* execution: at most once, in the order of submission, with the arguments given; what is
   finished was accepted and is finished once *)
Theorem C83_executed_partial l e :
  Forall tame l -> e = Client \/ Forall kept l -> lenN (submitted e l) < 2 ^ 32 ->
  let y := at_end (other e) (run l start) in
  StronglySorted lt (map fst (s_exec y)) /\ (forall t arg, In (t, arg) (s_exec y) -> nth_error (submitted e l) t = Some arg) /\
  NoDup (map fst (s_fin y)) /\ incl (map fst (s_fin y)) (map fst (s_exec y)).
Proof.
  intros T K L. destruct (end_inv l e T K L) as ((y & xy & yx & Ey & I) & Es). cbn zeta. rewrite <- Ey. repeat split.
  - eapply sub_sorted; [|exact (i_sorted _ _ _ _ I)]. apply sub_map. rewrite <- (app_nil_r (s_exec y)) at 1. apply sub_app; [apply sub_refl|apply sub_nothing].
  - intros t arg H. pose proof (i_args _ _ _ _ I) as A. rewrite Forall_forall in A. rewrite <- Es. apply (A (t, arg)). apply in_or_app. left. exact H.
  - pose proof (i_jobs _ _ _ _ I) as J. apply NoDup_app_iff in J. apply J.
  - intros t H. apply (i_done_by _ _ _ _ I). apply in_or_app. right. exact H.
Qed.
Print Assumptions C83_executed_partial.

(* at rest every command has its answer; without passed deadlines it is the result *)
Theorem C83_complete_partial l e :
  Forall tame l -> Forall kept l -> Forall calm_far l -> lenN (submitted Client l) < 2 ^ 32 -> lenN (submitted Server l) < 2 ^ 32 ->
  rest (run l start) ->
  forall t, (t < length (submitted e l))%nat ->
  (exists a, In (t, a) (s_done (at_end e (run l start)))) /\
  (~ In (At e (Late t)) l -> exists r, In (t, Result r) (s_done (at_end e (run l start))) /\ In (t, r) (s_fin (at_end (other e) (run l start)))).
Proof.
  intros T K F L1 L2 (R1 & R2 & R3 & R4 & R5 & R6) t Ht. destruct (both_comp l T K F L1 L2) as (C1 & C2 & B1 & B2). cbn zeta in *. rewrite R1, R2 in C1, C2.
  assert (G : exists a, In (t, a) (s_done (at_end e (run l start)))).
  { destruct e; cbn [at_end].
    - apply (at_rest _ _ C1 B1 B2 R4 R5 R6). rewrite client_sub. exact Ht.
    - apply (at_rest _ _ C2 B2 B1 R3 R6 R5). destruct (server_up l K) as (_ & _ & ->). exact Ht. }
  split; [exact G|]. intros Nl. destruct G as (a & Ha). assert (L : lenN (submitted e l) < 2 ^ 32) by (destruct e; assumption).
  destruct (C83_answers_partial l e T (or_intror K) L) as (_ & A). destruct (A t a Ha) as (_ & [(_ & E)|(r & -> & E)]); [contradiction|]. exists r. split; assumption.
Qed.
Print Assumptions C83_complete_partial.

(* rest can be reached from everywhere by sending, receiving and executing,
   whatever the results are *)
Theorem C83_delivered_partial l (res : nat -> bytes) :
  Forall kept l -> exists l', Forall (onward_res res) l' /\ rest (run (l ++ l') start).
Proof.
  intros K. destruct (server_up l K) as (U & V & _). destruct (drain res (S (measure (run l start))) (run l start)) as (l' & F & R); auto.
  exists l'. split; [exact F|]. unfold run in *. rewrite fold_left_app. exact R.
Qed.
Print Assumptions C83_delivered_partial.

(* ---- concrete cases ---- *)
Definition case_events : list event :=
  [At Client (Submit [1]); At Client (Submit [2]); At Server (Submit [9]); At Client (Submit [3]); At Server Recv; At Client SendDone; At Client Recv; At Server Recv;
   At Server (Finish 1 [20]); At Server SendDone; At Server SendDone; At Client Recv; At Client (Late 2); At Client SendDone; At Server (Finish 0 [10]);
   At Client (Finish 0 [90]); At Client Recv; At Server Recv; At Client Timer; At Client SendDone; At Server SendDone; At Server Recv].
Example case_ok : Forall tame case_events /\ Forall kept case_events /\ Forall calm_far case_events /\ rest (run case_events start) /\
  s_done (w_c (run case_events start)) = [(1%nat, Result [20]); (2%nat, Timedout); (0%nat, Result [10])] /\ s_done (w_s (run case_events start)) = [(0%nat, Result [90])] /\
  s_exec (w_s (run case_events start)) = [(0%nat, [1]); (1%nat, [2])].
Proof.
  split; [repeat constructor|]. split; [repeat constructor|]. split; [repeat constructor|]. vm_compute. repeat split.
Qed.

Lemma rest_stays w v : rest w -> onward v -> step w v = w.
Proof.
  intros (R1 & R2 & R3 & R4 & R5 & R6) O. destruct w as [c s cs sc]. cbn [w_c w_s w_cs w_sc] in *. subst. destruct v as [[|] o| |]; try contradiction; destruct o; try contradiction; cbn [step local w_c w_s w_cs w_sc].
  - rewrite R5, andb_false_r. reflexivity.
  - reflexivity.
  - rewrite R3. reflexivity.
  - rewrite R6, andb_false_r. destruct (s_up s); reflexivity.
  - destruct (s_up s); reflexivity.
  - rewrite R4. destruct (s_up s); reflexivity.
Qed.

(* a command submitted while the connection is built up again is taken from the queue, never
   sent and never answered *)
Theorem C83_reconnect_refuted : exists l, Forall tame l /\ submitted Client l = [[5]] /\ s_up (w_c (run l start)) = true /\ rest (run l start) /\
  forall l', Forall onward l' -> s_done (w_c (run (l ++ l') start)) = [] /\ s_exec (w_s (run (l ++ l') start)) = [] /\ s_q (w_c (run (l ++ l') start)) = [].
Proof.
  exists [Lost; At Client (Submit [5]); Again]. set (l0 := [Lost; At Client (Submit [5]); Again]).
  assert (R : rest (run l0 start)) by (vm_compute; repeat split).
  split; [repeat constructor|]. split; [reflexivity|]. split; [vm_compute; reflexivity|]. split; [exact R|].
  intros l' H. assert (E : run (l0 ++ l') start = run l0 start).
  { unfold run at 1. rewrite fold_left_app. fold (run l0 start). induction H as [|v l' Hv Hl IH]; [reflexivity|]. cbn [fold_left]. rewrite rest_stays; auto. }
  rewrite E. vm_compute. repeat split.
Qed.
Print Assumptions C83_reconnect_refuted.

(* a command received before a break of the connection and executed after it answers another
   command of the other node *)
Theorem C83_stale_refuted : exists l, Forall tame l /\ submitted Server l = [[7]; [8]] /\
  In (1%nat, Result [70]) (s_done (w_s (run l start))) /\ s_fin (w_c (run l start)) = [(0%nat, [70])].
Proof.
  exists [At Server (Submit [7]); At Client Recv; Lost; Again; At Server (Submit [8]); At Client Recv; At Client (Finish 0 [70]); At Server Recv].
  split; [repeat constructor|]. split; [reflexivity|]. vm_compute. split; [left; reflexivity|reflexivity].
Qed.
Print Assumptions C83_stale_refuted.

(* a break of the connection: commands of the accepting node which wait for their answer vanish *)
Theorem C83_close_refuted : exists l, Forall tame l /\ submitted Server l = [[7]] /\
  s_done (w_s (run l start)) = [] /\ s_wait (w_s (run l start)) = [] /\ s_q (w_s (run l start)) = [].
Proof. exists [At Server (Submit [7]); Lost]. split; [repeat constructor|]. split; [reflexivity|]. vm_compute. repeat split. Qed.
Print Assumptions C83_close_refuted.

(* a command cancelled before it is sent lets a command of the other node time out *)
Theorem C83_cancel_refuted : exists l, Forall kept l /\ (forall e t, ~ In (At e (Late t)) l) /\
  In (1%nat, Timedout) (s_done (w_s (run l start))) /\ In (At Client (Cancel 1)) l /\ ~ In (At Server (Cancel 1)) l.
Proof.
  exists [At Client (Submit [1]); At Client (Submit [2]); At Client (Cancel 1); At Server (Submit [8]); At Server (Submit [9]); At Server SendDone; At Client SendDone; At Server Recv; At Server Recv].
  split; [repeat constructor|]. split; [intros e t H; cbn in H; intuition discriminate|]. split; [vm_compute; left; reflexivity|]. split; [cbn; auto 10|intros H; cbn in H; intuition discriminate].
Qed.
Print Assumptions C83_cancel_refuted.

(* the deadline told to the executing node is less than a second early; below one second there
   is none *)
Theorem C83_deadline_partial ms : wire_timeout ms <= ms < wire_timeout ms + 1000.
Proof. unfold wire_timeout. pose proof (N.div_mod ms 1000 ltac:(lia)). pose proof (N.mod_lt ms 1000 ltac:(lia)). lia. Qed.
Print Assumptions C83_deadline_partial.
Theorem C83_deadline_refuted : exists ms, 0 < ms /\ wire_timeout ms = 0.
Proof. exists 999. split; [lia|reflexivity]. Qed.
Print Assumptions C83_deadline_refuted.
