(* Theorems about dabc::OutputTransport (property C71). *)
From Verif Require Import Common OutTrSpec OutTrModel OutTrProofs OutTrStop.
Local Open Scope N_scope.

(* Whatever the DataOutput object answers and whatever happens to the
   transport: it never uses a missing object or takes from an empty port, the
   buffers come out of the port in the order they arrived, and exactly those
   taken after Write_Check has agreed are given to Write_Buffer, once each and
   in that order.  As long as the port is connected, all others are still
   waiting in it. *)
Theorem C71_order_partial ora orab retry lim evs :
  exists s, run ora orab retry lim ot_new evs = Ok s /\
    written (o_log s) = to_write (o_log s) /\
    exists rest, arrived evs = taken (o_log s) ++ rest /\ (o_conn s = true -> rest = o_q s).
Proof.
  destruct (run_ok ora orab retry lim evs ot_new [] inv_new account_new) as (s & R & I & lost & A & C).
  exists s. split; [exact R|]. pose proof (inv_phase s I) as P. split.
  - rewrite written_order by (destruct (phase (o_log s)); try contradiction; discriminate).
    destruct (phase (o_log s)); try contradiction; rewrite app_nil_r; reflexivity.
  - cbn [app] in A. exists (qv s ++ lost). split; [exact A|]. intro H. rewrite (C H), app_nil_r. unfold qv. rewrite H. reflexivity.
Qed.
Print Assumptions C71_order_partial.

(* The order of calls: the rules of [delta] are kept. *)
Theorem C71_rules_partial ora orab retry lim evs :
  exists s, run ora orab retry lim ot_new evs = Ok s /\ phase (o_log s) <> Broken.
Proof.
  destruct (run_ok ora orab retry lim evs ot_new [] inv_new account_new) as (s & R & I & _).
  exists s. split; [exact R|]. pose proof (inv_phase s I) as P. intro E. rewrite E in P. exact P.
Qed.
Print Assumptions C71_rules_partial.

(* In particular (newest first): Write_Buffer gets the buffer taken just
   before, after a positive Write_Check; Write_Complete follows directly on a
   begun write; after the object is given up nothing but closing follows. *)
Theorem C71_calls_partial ora orab retry lim evs s l1 o l2 :
  run ora orab retry lim ot_new evs = Ok s -> o_log s = l1 ++ o :: l2 ->
  match o with
  | OWrite b _ => exists r, l2 = OTake b :: OCheck COk :: r
  | OComplete _ => exists b c r, l2 = OWrite b c :: r /\ (c = COk \/ c = CCallBack)
  | ODelete => forall x, In x l1 -> x = OFailed \/ exists e, x = OClose e
  | _ => True
  end.
Proof.
  intros R L. destruct (C71_rules_partial ora orab retry lim evs) as (s0 & R0 & P).
  rewrite R in R0. injection R0 as <-. rewrite L in P. pose proof (phase_tail _ _ P) as P2. destruct o; auto.
  - exact (write_shape _ _ _ P2).
  - exact (complete_shape _ _ P2).
  - apply (gone_shape l1 l2 P).
Qed.
Print Assumptions C71_calls_partial.

(* An object that agrees to everything gets everything that waits in the port,
   whatever the loop length of the port is. *)
Theorem C71_progress_partial ora orab retry n k s :
  (forall l, ora l = COk) ->
  o_state s = outReady -> o_out s = true -> o_run s = true -> o_conn s = true -> o_dead s = false -> o_stop s = false ->
  (forall b, In b (o_q s) -> fst b <> KEof) -> (length (o_q s) < k)%nat ->
  exists s1, drain ora orab retry (Some n) k s = Ok s1 /\ o_q s1 = [] /\ o_state s1 = outReady /\
    written (o_log s1) = written (o_log s) ++ filter (fun b => match fst b with KData => true | _ => false end) (o_q s).
Proof.
  intros A B C D E F G H K. destruct (eager_drain ora orab retry A n k s) as (s1 & R & (I & _) & Q & W & _); auto.
  - repeat split; auto.
  - apply Forall_forall. exact H.
  - exists s1. split; [exact R|]. split; [exact Q|]. split; [exact I|]. exact W.
Qed.
Print Assumptions C71_progress_partial.

(* Stopping: a transport that is told to stop finishes the write under way, so
   its module never stops between Write_Buffer and Write_Complete; it has
   stopped at the latest when it is ready for the next buffer or closed; and a
   transport that was started again is not stopped by the old request. *)
Theorem C71_stop_partial ora orab retry lim evs s :
  run ora orab retry lim ot_new evs = Ok s ->
  (o_run s = false -> phase (o_log s) <> Started /\ o_state s <> outInitTimeout /\ o_state s <> outWaitCallback) /\
  (o_tr s = stStopped -> o_state s = outReady \/ o_state s = outClosed -> o_run s = false) /\
  (o_tr s = stRunning -> o_run s = true).
Proof.
  intro R. pose proof (t_run ora orab retry lim evs _ _ t_new R) as [(A & B & C & D) _].
  destruct (run_ok ora orab retry lim evs ot_new [] inv_new account_new) as (s0 & R0 & [K _] & _). rewrite R in R0. injection R0 as <-.
  split; [|split; [|exact B]].
  - intro Z. specialize (D Z). unfold okst in K. split; [|split; intro X; rewrite X in D; discriminate].
    destruct (o_state s); try discriminate D; destruct K as [K|K] || idtac; intuition congruence.
  - intros Z S. destruct (o_run s) eqn:Y; [|reflexivity]. destruct (A (C Z eq_refl)) as (_ & _ & U). destruct S as [S|S]; rewrite S in U; discriminate.
Qed.
Print Assumptions C71_stop_partial.

(* Waking up: a transport that waits for a timeout has armed it.  For the
   repeated check that is always so; for the retry time as long as the
   transport is not stopped (C71_restart_stuck_refuted).  While it waits for a
   timeout of Write_Check or for a call-back, events of the port change nothing
   and are not repeated (unlike C71_retry_spins_refuted). *)
Theorem C71_wake_partial ora orab retry lim evs s :
  run ora orab retry lim ot_new evs = Ok s ->
  (o_state s = outInitTimeout -> o_timer s = true) /\
  (forall l, evs = EvStart :: l -> ~ In EvStop l -> retry = true -> o_state s = outRetry -> o_timer s = true) /\
  (o_state s = outInitTimeout \/ o_state s = outWaitCallback \/ o_state s = outWaitFinishCallback ->
    o_dead s = false -> process_input ora orab retry lim s = Ok (s, false)).
Proof.
  intro R. pose proof (t_run ora orab retry lim evs _ _ t_new R) as [_ B].
  destruct (run_ok ora orab retry lim evs ot_new [] inv_new account_new) as (s0 & R0 & [K _] & _). rewrite R in R0. injection R0 as <-.
  split; [exact B|]. split.
  - intros l -> N T. cbn [run step bind] in R. pose proof (u_run ora orab retry lim l _ _ (u_start_new retry) N R) as (_ & _ & U). exact (U T).
  - intros S D. apply wait_input; auto. unfold okst in K. destruct S as [S|[S|S]]; rewrite S in K; apply K.
Qed.
Print Assumptions C71_wake_partial.

(* Non-trivial runs *)
Definition yes (l : list obs) : code := COk.
Definition ok (l : list obs) : bool := true.
Example C71_run_example :
  match run yes ok false (Some 1%nat) ot_new [EvStart; EvArrive (KData, 1); EvArrive (KEol, 2); EvArrive (KData, 3); EvInput; EvInput; EvArrive (KEof, 4); EvInput] with
  | Ok s => written (o_log s) = [(KData, 1); (KData, 3)] /\ taken (o_log s) = [(KData, 1); (KEol, 2); (KData, 3); (KEof, 4)] /\ o_state s = outClosed
  | _ => False
  end.
Proof. vm_compute. auto. Qed.

Example C71_progress_example :
  exists s, run yes ok false (Some 1%nat) ot_new [EvStart; EvArrive (KData, 1); EvArrive (KEol, 2); EvArrive (KData, 3)] = Ok s /\
    o_state s = outReady /\ o_out s = true /\ o_run s = true /\ o_conn s = true /\ o_dead s = false /\ o_stop s = false /\ length (o_q s) = 3%nat.
Proof. eexists. split; [vm_compute; reflexivity|]. repeat split. Qed.

(* a stop during a write that waits for its call-back: the module goes on until
   Write_Complete; and waits of both kinds *)
Definition fail_first (l : list obs) : code := match length l with 2%nat => CError | _ => COk end.
Definition slow (l : list obs) : code := match length l with 0%nat => CRepeatTimeOut | 3%nat => CCallBack | _ => COk end.
Example C71_stop_example :
  exists s1 s2, run slow ok true (Some 1%nat) ot_new [EvStart; EvArrive (KData, 1); EvInput; EvTimer; EvStop] = Ok s1 /\
    o_tr s1 = stStopped /\ o_run s1 = true /\ phase (o_log s1) = Started /\ o_state s1 = outWaitFinishCallback /\
    step slow ok true (Some 1%nat) s1 (EvCall COk) = Ok s2 /\ o_state s2 = outReady /\ o_run s2 = false /\ completed (o_log s2) = 1%nat.
Proof. eexists _, _. split; [vm_compute; reflexivity|]. do 4 (split; [reflexivity|]). split; [vm_compute; reflexivity|]. repeat split. Qed.
Example C71_wake_example :
  (exists s, run slow ok true (Some 1%nat) ot_new [EvStart; EvArrive (KData, 1); EvInput] = Ok s /\ o_state s = outInitTimeout /\ o_dead s = false) /\
  (exists s, run fail_first ok true (Some 1%nat) ot_new [EvStart; EvArrive (KData, 1); EvInput] = Ok s /\ o_state s = outRetry).
Proof. split; eexists; (split; [vm_compute; reflexivity|]); repeat split. Qed.

(* "With the retry option a buffer is written as soon as the output works
   again": no.  The buffer of a failed Write_Buffer is gone, also when the
   object is initialised again and takes all later buffers. *)
Theorem C71_retry_loses_refuted :
  exists evs s, run fail_first ok true (Some 1%nat) ot_new evs = Ok s /\
    arrived evs = [(KData, 1); (KData, 2); (KData, 3)] /\ taken (o_log s) = arrived evs /\
    (forall c, In (OWrite (KData, 1) c) (o_log s) -> c = CError) /\
    In (OWrite (KData, 2) COk) (o_log s) /\ In (OWrite (KData, 3) COk) (o_log s) /\ o_state s = outReady.
Proof.
  exists [EvStart; EvArrive (KData, 1); EvArrive (KData, 2); EvArrive (KData, 3); EvInput; EvTimer; EvInput].
  eexists. split; [vm_compute; reflexivity|]. cbn [o_log o_state arrived taken app]. split; [reflexivity|]. split; [reflexivity|].
  split; [|split; [cbn; tauto|split; [cbn; tauto|reflexivity]]].
  intros c H. cbn in H. repeat (destruct H as [H|H]; [try discriminate H; injection H; intros; subst; reflexivity|]). destruct H.
Qed.
Print Assumptions C71_retry_loses_refuted.

(* "A transport that is stopped and started again goes on": no.  When the stop
   request comes during a write and that write then fails with the retry option
   on, ChangeState(outError) stops the module, CloseOnError goes to outRetry
   and arms the timeout of a stopped module, which is lost.  After the start the
   transport is running with a willing object, but for ever idle. *)
Definition fail_late (l : list obs) : code := match length l with 2%nat => CCallBack | 3%nat => CError | _ => COk end.
Theorem C71_restart_stuck_refuted :
  exists evs s, run fail_late ok true (Some 1%nat) ot_new evs = Ok s /\
    o_run s = true /\ o_tr s = stRunning /\ o_out s = true /\ o_q s = [(KData, 2)] /\
    forall l, Forall calm l -> exists s1, run fail_late ok true (Some 1%nat) s l = Ok s1 /\ o_log s1 = o_log s.
Proof.
  exists [EvStart; EvArrive (KData, 1); EvArrive (KData, 2); EvInput; EvStop; EvCall COk; EvTimer; EvStart].
  eexists. split; [vm_compute; reflexivity|]. do 4 (split; [reflexivity|]).
  intros l F. apply stuck_run; [repeat split|exact F].
Qed.
Print Assumptions C71_restart_stuck_refuted.

(* "A transport that has to wait leaves the thread alone": no.  While it waits
   for the retry time with a buffer in the port, processing the input event
   changes nothing and fires the same event again. *)
Theorem C71_retry_spins_refuted :
  exists evs s, run fail_first ok true (Some 1%nat) ot_new evs = Ok s /\
    process_input fail_first ok true (Some 1%nat) s = Ok (s, true).
Proof.
  exists [EvStart; EvArrive (KData, 1); EvArrive (KData, 2); EvInput].
  eexists. split; [vm_compute; reflexivity|]. vm_compute. reflexivity.
Qed.
Print Assumptions C71_retry_spins_refuted.

(* "A closed transport arms no timeout and is in state outClosed": no.
   CloseOnError goes on to outRetry after closing everything. *)
Theorem C71_closed_state_refuted :
  exists evs s, run fail_first (fun _ => false) true (Some 1%nat) ot_new evs = Ok s /\
    o_log s = OClose true :: ODelete :: ORetry false :: OWrite (KData, 1) CError :: OTake (KData, 1) :: [OCheck COk] /\
    o_state s = outRetry /\
    forall n, exists s1, run fail_first (fun _ => false) true (Some 1%nat) s (repeat EvTimer n) = Ok s1 /\ o_timer s1 = true.
Proof.
  exists [EvStart; EvArrive (KData, 1); EvInput].
  eexists. split; [vm_compute; reflexivity|]. do 2 (split; [reflexivity|]).
  intro n. apply timer_forever; reflexivity.
Qed.
Print Assumptions C71_closed_state_refuted.
