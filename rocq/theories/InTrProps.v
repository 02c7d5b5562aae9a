(* Input transports: everything the input object delivers goes out, in order
   (C72).  Statements over [run] (InTrModel.v), which returns UB when a
   function of a missing object would be called, and over the observations of
   InTrSpec.v (newest first). *)
From Verif Require Import Common InTrSpec InTrModel InTrProofs InTrRules InTrProgress InTrStop InTrCalls InTrRoom.
From Coq Require Import Lia.

Lemma okeof_split a b : okeof (a ++ OEof :: b) -> forallb (fun o => negb (sends o)) a = true.
Proof.
  induction a as [|o a IH]; intros H; [reflexivity|]. cbn in H |- *. destruct H as [H1 H2].
  rewrite IH by exact H2. destruct (sends o); [|reflexivity]. exfalso. apply (H1 eq_refl). apply in_or_app. right. left. reflexivity.
Qed.
Lemma okl_start a c b : okl (a ++ OStart c :: b) -> may_start b.
Proof. induction a as [|o a IH]; cbn [app okl]; tauto. Qed.
Lemma okl_complete a c d b : okl (a ++ OComplete c d :: b) -> (0 < working b)%nat.
Proof. induction a as [|o a IH]; cbn [app okl]; tauto. Qed.

(* For every object, pool, receiver and sequence of events: no function of a
   missing object is called, and the buffers sent are those the object has
   finished, in that order; none is missing unless the process ended in
   between. *)
Theorem C72_order_partial : forall osize ostart ocomp ocb opool ocreate env auto recon lim cap bc bu events,
  exists s rest,
    run osize ostart ocomp ocb opool ocreate env auto recon lim (it_new cap bc bu) events = Ok s /\
    ready (i_log s) = sent (i_log s) ++ rest /\ (length rest <= 1)%nat /\ (i_exit s = false -> rest = []).
Proof.
  intros osize ostart ocomp ocb opool ocreate env auto recon lim cap bc bu events.
  destruct (run_ok osize ostart ocomp ocb opool ocreate env auto recon lim bc bu false ltac:(discriminate) events
              (it_new cap bc bu) (J_new recon bc bu false cap)) as (s & E & (rest & A & B & C) & D & _).
  exists s, rest. repeat split; auto. intro X. rewrite (C X). unfold pend. specialize (D X). destruct (i_state s); congruence.
Qed.
Print Assumptions C72_order_partial.

(* If nothing the receiver does while the object works can block the port, the
   process is ended only by a call-back that was not expected. *)
Theorem C72_exit_partial : forall osize ostart ocomp ocb opool ocreate env auto recon lim cap bc bu events s,
  (forall l, forallb (harmless bc bu) (env l) = true) ->
  run osize ostart ocomp ocb opool ocreate env auto recon lim (it_new cap bc bu) events = Ok s ->
  i_exit s = true -> exists c r, i_log s = OExit :: OCall c :: r.
Proof.
  intros osize ostart ocomp ocb opool ocreate env auto recon lim cap bc bu events s H R X.
  destruct (run_ok osize ostart ocomp ocb opool ocreate env auto recon lim bc bu true (fun _ => H) events
              (it_new cap bc bu) (J_new recon bc bu true cap)) as (s1 & E & _ & _ & C & _).
  rewrite R in E. injection E as <-. auto.
Qed.
Print Assumptions C72_exit_partial.

(* Without the reconnect option nothing is sent after the end-of-file buffer *)
Theorem C72_eof_partial : forall osize ostart ocomp ocb opool ocreate env auto lim cap bc bu events s a b,
  run osize ostart ocomp ocb opool ocreate env auto false lim (it_new cap bc bu) events = Ok s ->
  i_log s = a ++ OEof :: b -> forallb (fun o => negb (sends o)) a = true.
Proof.
  intros osize ostart ocomp ocb opool ocreate env auto lim cap bc bu events s a b R L.
  destruct (run_ok osize ostart ocomp ocb opool ocreate env auto false lim bc bu false ltac:(discriminate) events
              (it_new cap bc bu) (J_new false bc bu false cap)) as (s1 & E & _ & _ & _ & _ & F).
  rewrite R in E. injection E as <-. destruct (F eq_refl) as [_ F2]. rewrite L in F2. exact (okeof_split a b F2).
Qed.
Print Assumptions C72_eof_partial.

(* Read_Start gets a buffer that was taken for it and is as large as the object
   asked for; Read_Complete is called only while a buffer begun with Read_Start
   is not given back. *)
Theorem C72_rules_partial : forall osize ostart ocomp ocb opool ocreate env auto recon lim cap bc bu events s,
  run osize ostart ocomp ocb opool ocreate env auto recon lim (it_new cap bc bu) events = Ok s ->
  (forall a c b, i_log s = a ++ OStart c :: b -> may_start b) /\
  (forall a c d b, i_log s = a ++ OComplete c d :: b -> (0 < working b)%nat).
Proof.
  intros osize ostart ocomp ocb opool ocreate env auto recon lim cap bc bu events s R.
  destruct (k_run osize ostart ocomp ocb opool ocreate env auto recon lim events (it_new cap bc bu) s (k_new cap bc bu) R) as [L _].
  split; [intros a c b E|intros a c d b E]; rewrite E in L; [exact (okl_start _ _ _ L)|exact (okl_complete _ _ _ _ L)].
Qed.
Print Assumptions C72_rules_partial.

(* An object that always has data for buffers of n bytes, and a pool with
   buffers of at least n bytes: processing the events the transport fires for
   itself fills the queue, with the data the object delivered. *)
Theorem C72_progress_partial : forall n z data ocreate auto recon lim cap bu,
  (n <= z)%N ->
  exists s,
    drain (fun _ => SSize n) (fun _ => (StOk, false)) (fun l => (CpOk, Some (data l))) (fun _ => None) (fun _ => Some z) ocreate
      (fun _ => []) auto recon (Some lim) (S cap) (start_transport (it_new cap true bu)) = Ok s /\
    q_size (i_port s) = cap /\ length (sent (i_log s)) = cap /\ i_exit s = false.
Proof.
  intros n z data ocreate auto recon lim cap bu H.
  destruct (drain_ok n z data ocreate auto recon H cap lim (S cap) _ (started_idle cap bu)) as (s & E & I & Q); [cbn; lia|].
  exists s. repeat split; auto; [rewrite (id_sent _ _ I); exact Q|exact (id_exit _ _ I)].
Qed.
Print Assumptions C72_progress_partial.

(* Stopping: the module stops only between two buffers or at the end, never
   while the object has been asked for a size, a buffer is looked for or the
   object fills one (a call-back may come later for extra buffers, inpCompleting);
   it has stopped at the latest when the next buffer would begin; and a
   transport that was started again is not stopped by the old request. *)
Theorem C72_stop_partial : forall osize ostart ocomp ocb opool ocreate env auto recon lim cap bc bu events s,
  run osize ostart ocomp ocb opool ocreate env auto recon lim (it_new cap bc bu) events = Ok s ->
  (i_run s = false -> In (i_state s) [inpInit; inpReady; inpError; inpClosed; inpReconnect; inpCompleting]) /\
  (i_tr s = stStopped -> In (i_state s) [inpInit; inpReady; inpClosed] -> i_run s = false) /\
  (i_tr s = stRunning -> i_run s = true).
Proof.
  intros osize ostart ocomp ocb opool ocreate env auto recon lim cap bc bu events s R.
  pose proof (t_run osize ostart ocomp ocb opool ocreate env auto recon lim events _ _ (t_new cap bc bu) R) as [(A & B & C & D) _].
  split; [|split; [|exact B]].
  - intro Z. specialize (D Z). cbn [In]. destruct (i_state s); try discriminate; tauto.
  - intros Z S. destruct (i_run s) eqn:Y; [|reflexivity]. destruct (A (C Z eq_refl)) as (_ & _ & U). cbn [In] in S.
    destruct S as [S|[S|[S|[]]]]; rewrite <- S in U; destruct U; discriminate.
Qed.
Print Assumptions C72_stop_partial.

(* Waking up: a transport that waits for a timeout has armed it; while it waits
   for a timeout of the object or for a call-back, events of the port change
   nothing and are not repeated (unlike C72_wait_spins_refuted). *)
Theorem C72_wake_partial : forall osize ostart ocomp ocb opool ocreate env auto recon lim cap bc bu events s,
  run osize ostart ocomp ocb opool ocreate env auto recon lim (it_new cap bc bu) events = Ok s ->
  (In (i_state s) [inpInitTimeout; inpComplitTimeout] -> i_timer s = true) /\
  (In (i_state s) [inpInitTimeout; inpComplitTimeout; inpSizeCallBack; inpCallBack] -> i_inp s = true -> i_dead s = false ->
    process_output osize ostart ocomp ocb opool ocreate env auto recon lim s = Ok (s, false)).
Proof.
  intros osize ostart ocomp ocb opool ocreate env auto recon lim cap bc bu events s R.
  pose proof (t_run osize ostart ocomp ocb opool ocreate env auto recon lim events _ _ (t_new cap bc bu) R) as [_ B].
  split; cbn [In].
  - intro S. apply B. destruct S as [S|[S|[]]]; rewrite <- S; reflexivity.
  - intros S I D. apply wait_output; auto. destruct S as [S|[S|[S|[S|[]]]]]; rewrite <- S; reflexivity.
Qed.
Print Assumptions C72_wake_partial.


(* The object is called in order: after the end of the stream or an error it is
   not called again, and Read_Size begins a buffer - it is called only where the
   last call of this object was none, a Read_Size that asked to be repeated, a
   Read_Start that wanted another buffer, or a Read_Complete that finished or
   skipped its buffer. *)
Theorem C72_calls_partial : forall osize ostart ocomp ocb opool ocreate env auto recon lim cap bc bu events s a o b,
  run osize ostart ocomp ocb opool ocreate env auto recon lim (it_new cap bc bu) events = Ok s ->
  i_log s = a ++ o :: b -> calls o = true ->
  (forall e, last_call b = Some e -> ended e = false) /\ (forall c, o = OSize c -> may_size (last_call b) = true).
Proof.
  intros osize ostart ocomp ocb opool ocreate env auto recon lim cap bc bu events s a o b R L C.
  destruct (w_run' osize ostart ocomp ocb opool ocreate env auto recon lim events _ _ (w_new cap bc bu) R) as [(K & _) _].
  rewrite L in K. destruct (okw_at _ _ _ K) as [H _]. destruct (H C) as [H1 H2]. split.
  - intros e E. rewrite E in H1. cbn in H1. destruct (ended e); [discriminate|reflexivity].
  - intros c ->. apply H2. reflexivity.
Qed.
Print Assumptions C72_calls_partial.

(* Every end of a stream and every error of the object is answered at once: the
   object is given up, the end-of-file buffer is sent and the port is closed.
   Only an end of the process can come in between, and not when nothing the
   receiver does meanwhile blocks the port. *)
Theorem C72_end_partial : forall osize ostart ocomp ocb opool ocreate env auto recon lim cap bc bu events s a o b,
  run osize ostart ocomp ocb opool ocreate env auto recon lim (it_new cap bc bu) events = Ok s ->
  i_log s = a ++ o :: b -> ended o = true ->
  ((exists a', a = a' ++ [OClose false; OEof; OGone]) \/ a = [OExit; OGone]) /\
  ((forall l, forallb (harmless bc bu) (env l) = true) -> exists a', a = a' ++ [OClose false; OEof; OGone]).
Proof.
  intros osize ostart ocomp ocb opool ocreate env auto recon lim cap bc bu events s a o b R L C.
  destruct (w_run' osize ostart ocomp ocb opool ocreate env auto recon lim events _ _ (w_new cap bc bu) R) as [(K & X & _) M].
  assert (E : (exists a', a = a' ++ [OClose false; OEof; OGone]) \/ a = [OExit; OGone]).
  { apply (end_shape a o b); auto; [rewrite <- L; exact K|]. rewrite <- L. destruct (i_exit s); auto. }
  split; [exact E|]. intro H. destruct E as [E|E]; [exact E|]. exfalso. subst a. cbn [app] in L.
  destruct (i_exit s) eqn:Z.
  - destruct (C72_exit_partial _ _ _ _ _ _ _ _ _ _ _ _ _ _ _ H R Z) as (c & r & Q). congruence.
  - specialize (M eq_refl). rewrite L in M. discriminate.
Qed.
Print Assumptions C72_end_partial.

(* While the transport waits for a call-back, none has come since the call that
   announced it.  Excepted: a call-back from inside a Read_Start that asks for
   more buffers, see C72_callback_lost_refuted. *)
Theorem C72_waits_partial : forall osize ostart ocomp ocb opool ocreate env auto recon lim cap bc bu events s,
  run osize ostart ocomp ocb opool ocreate env auto recon lim (it_new cap bc bu) events = Ok s ->
  i_exit s = false -> i_inp s = true ->
  (i_state s = inpSizeCallBack -> exists r, i_log s = OSize SCallBack :: r /\ forall c r', r <> OCall c :: r') /\
  (i_state s = inpCallBack -> (forall c r, i_log s <> OCall c :: r) /\ (forall k c r, i_log s = OStart k :: OCall c :: r -> k = StMore)).
Proof.
  intros osize ostart ocomp ocb opool ocreate env auto recon lim cap bc bu events s R X I.
  destruct (w_run' osize ostart ocomp ocb opool ocreate env auto recon lim events _ _ (w_new cap bc bu) R) as [(_ & _ & M) _].
  destruct (M X) as [_ M2]. specialize (M2 I). split; intro S; rewrite S in M2; cbn [cst] in M2.
  - destruct M2 as (r & L & N). exists r. split; [exact L|]. intros c r' ->. discriminate N.
  - destruct M2 as [_ N]. split; [intros c r L; rewrite L in N; discriminate N|]. intros k c r L. rewrite L in N. destruct k; try discriminate N; reflexivity.
Qed.
Print Assumptions C72_waits_partial.

(* A module that does not run leaves the object alone: no event makes the
   transport call it. *)
Theorem C72_idle_partial : forall osize ostart ocomp ocb opool ocreate env auto recon lim cap bc bu events s e s1,
  run osize ostart ocomp ocb opool ocreate env auto recon lim (it_new cap bc bu) events = Ok s -> i_run s = false ->
  step osize ostart ocomp ocb opool ocreate env auto recon lim s e = Ok s1 ->
  exists n, i_log s1 = n ++ i_log s /\ existsb calls n = false.
Proof. intros osize ostart ocomp ocb opool ocreate env auto recon lim cap bc bu events s e s1 _. apply idle_step. Qed.
Print Assumptions C72_idle_partial.

(* A transport that got no buffer from the pool, and is not told by the pool when
   there is one, has armed its timer. *)
Theorem C72_retry_partial : forall osize ostart ocomp ocb opool ocreate env auto recon lim cap bc bu events s s1 again,
  run osize ostart ocomp ocb opool ocreate env auto recon lim (it_new cap bc bu) events = Ok s -> active s = true ->
  process_output osize ostart ocomp ocb opool ocreate env auto recon lim s = Ok (s1, again) ->
  i_state s1 = inpNeedBuffer -> i_timer s1 = true.
Proof.
  intros osize ostart ocomp ocb opool ocreate env auto recon lim cap bc bu events s s1 again R A E S.
  eapply d_output; eauto. eapply k_run; [|exact R]. apply k_new.
Qed.
Print Assumptions C72_retry_partial.


(* Never is a buffer put into a queue that is full and does not drop buffers (the
   real queue ends the process then), whatever the object and the receiver do. *)
Theorem C72_room_partial : forall osize ostart ocomp ocb opool ocreate env auto recon lim cap bc bu events s,
  run osize ostart ocomp ocb opool ocreate env auto recon lim (it_new cap bc bu) events = Ok s ->
  q_over (i_port s) = false /\ (q_size (i_port s) <= q_cap (i_port s))%nat.
Proof.
  intros osize ostart ocomp ocb opool ocreate env auto recon lim cap bc bu events s R.
  eapply (r_run osize ostart ocomp ocb opool ocreate env auto recon lim events _ _ _ R).
  Unshelve. split; cbn; auto. apply Nat.le_0_l.
Qed.
Print Assumptions C72_room_partial.

(* Extra buffers.  For an object that keeps exactly the buffers it asks for and
   does not answer Read_Complete with a repetition, without reconnection: in a
   queue that blocks there is a place for every buffer the object works on, and
   no call-back ends the process while the object works on a buffer. *)
Theorem C72_places_partial : forall osize ostart ocomp ocb opool ocreate env auto lim cap bc bu events s,
  (forall l, keeps_ok (ostart l) = true) -> (forall l, no_repeat (ocomp l) = true) ->
  run osize ostart ocomp ocb opool ocreate env auto false lim (it_new cap bc bu) events = Ok s -> i_exit s = false ->
  (q_own (i_port s) = true -> q_bc (i_port s) = true -> q_bu (i_port s) = true ->
     (working (i_log s) + q_size (i_port s) <= q_cap (i_port s))%nat) /\
  (forall c s1, (0 < working (i_log s))%nat ->
     step osize ostart ocomp ocb opool ocreate env auto false lim s (EvCall c) = Ok s1 -> i_exit s1 = false).
Proof.
  intros osize ostart ocomp ocb opool ocreate env auto lim cap bc bu events s H1 H2 R X.
  pose proof (e_run osize ostart ocomp ocb opool ocreate env auto lim H1 H2 events _ _ (k_new cap bc bu) (e_new cap bc bu) R) as HE.
  split.
  - intros A B C. specialize (HE X). destruct (i_inp s); [|destruct HE; congruence]. destruct HE as [_ HE].
    specialize (HE (conj A (conj B C))). lia.
  - intros c s1 W P. cbn [step] in P. unfold step in P. rewrite X in P. injection P as <-.
    destruct (e_callback s c HE X) as [_ Q]. destruct (i_exit (read_callback s c)); [|reflexivity]. rewrite (Q eq_refl) in W. lia.
Qed.
Print Assumptions C72_places_partial.

(* ---- runs ---- *)
Definition obj_size (l : list iobs) : scode := if Nat.leb 24 (length l) then SEnd else if Nat.leb 14 (length l) then SDflt else SSize 100.
Definition obj_data (l : list iobs) : cpcode * option N := (CpOk, Some (N.of_nat (length l))).
(* a file of several buffers, read into a queue of four: all buffers and the
   end of file go out *)
Example C72_run_example :
  exists s, run obj_size (fun _ => (StOk, false)) obj_data (fun _ => None) (fun _ => Some 128%N) (fun _ => true) (fun _ => []) false false (Some 10%nat)
    (it_new 4 true true) [EvStart; EvOutput; EvPort PRecv; EvPort PRecv; EvOutput; EvOutput] = Ok s /\
  length (sent (i_log s)) = 5%nat /\ ready (i_log s) = sent (i_log s) /\ hd_error (i_log s) = Some (OClose false) /\ nth_error (i_log s) 1 = Some OEof.
Proof. eexists. split; [vm_compute; reflexivity|]. vm_compute. auto. Qed.

(* an object with call-backs and extra buffers: two buffers are handed out
   before the first comes back *)
Definition cb_start (l : list iobs) : stcode * bool := (if Nat.eqb (working l) 0 then StMore else StEnough, true).
Example C72_callback_example :
  exists s, run (fun _ => SDflt) cb_start obj_data (fun _ => None) (fun _ => Some 128%N) (fun _ => true) (fun _ => []) false false (Some 10%nat)
    (it_new 4 true true) [EvStart; EvOutput; EvCall SQueue; EvOutput] = Ok s /\
  length (sent (i_log s)) = 1%nat /\ i_exit s = false /\ working (i_log s) = 2%nat /\
  exists a b, i_log s = a ++ OComplete CpOk (Some 7%N) :: b /\ working b = 2%nat.
Proof.
  eexists. split; [vm_compute; reflexivity|]. split; [reflexivity|]. split; [reflexivity|]. split; [reflexivity|].
  eexists [_; _; _; _], _. split; reflexivity.
Qed.
Example C72_progress_example : exists s,
  drain (fun _ => SSize 64) (fun _ => (StOk, false)) (fun l => (CpOk, Some (N.of_nat (length l)))) (fun _ => None) (fun _ => Some 128%N) (fun _ => false)
    (fun _ => []) false false (Some 1%nat) 6 (start_transport (it_new 5 true true)) = Ok s /\ length (sent (i_log s)) = 5%nat.
Proof. eexists. split; [vm_compute; reflexivity|]. reflexivity. Qed.

(* stopped while the object fills a buffer: the module goes on until the buffer
   is sent; and waits for a timeout *)
Example C72_stop_example :
  let f := run (fun _ => SSize 10) (fun _ => (StCallBack, false)) obj_data (fun _ => None) (fun _ => Some 128%N) (fun _ => true) (fun _ => []) false false (Some 10%nat) in
  exists s1 s2, f (it_new 4 true true) [EvStart; EvOutput; EvStop] = Ok s1 /\
    i_tr s1 = stStopped /\ i_run s1 = true /\ i_state s1 = inpCallBack /\ working (i_log s1) = 1%nat /\
    f s1 [EvCall (SSize 0); EvOutput] = Ok s2 /\ i_state s2 = inpInit /\ i_run s2 = false /\ length (sent (i_log s2)) = 1%nat.
Proof. cbv zeta. eexists _, _. split; [vm_compute; reflexivity|]. do 4 (split; [reflexivity|]). split; [vm_compute; reflexivity|]. repeat split. Qed.
Example C72_wake_example :
  exists s, run (fun _ => SRepeatTO) (fun _ => (StOk, false)) obj_data (fun _ => None) (fun _ => Some 128%N) (fun _ => true) (fun _ => []) false false (Some 10%nat)
    (it_new 4 true true) [EvStart; EvOutput] = Ok s /\ i_state s = inpInitTimeout /\ i_timer s = true /\ i_inp s = true /\ i_dead s = false.
Proof. eexists. split; [vm_compute; reflexivity|]. repeat split. Qed.


(* the file of C72_run_example: Read_Size reports its end *)
Example C72_end_example :
  exists s a b, run obj_size (fun _ => (StOk, false)) obj_data (fun _ => None) (fun _ => Some 128%N) (fun _ => true) (fun _ => []) false false (Some 10%nat)
    (it_new 4 true true) [EvStart; EvOutput; EvPort PRecv; EvPort PRecv; EvOutput; EvOutput] = Ok s /\
  i_log s = a ++ OSize SEnd :: b /\ length (sent b) = 5%nat /\ may_size (last_call b) = true.
Proof. eexists. eexists [_; _; _], _. split; [vm_compute; reflexivity|]. split; [reflexivity|]. split; reflexivity. Qed.
Example C72_waits_example :
  exists s, run (fun _ => SSize 10) (fun _ => (StCallBack, false)) obj_data (fun _ => None) (fun _ => Some 128%N) (fun _ => true) (fun _ => []) false false (Some 10%nat)
    (it_new 4 true true) [EvStart; EvOutput] = Ok s /\ i_state s = inpCallBack /\ i_inp s = true /\ i_exit s = false /\ i_log s = [OStart StCallBack; OTake 128; OSize (SSize 10)].
Proof. eexists. split; [vm_compute; reflexivity|]. repeat split. Qed.
Example C72_idle_example :
  exists s s1, let f := run (fun _ => SCallBack) (fun _ => (StCallBack, false)) obj_data (fun _ => None) (fun _ => Some 128%N) (fun _ => true) (fun _ => []) false false (Some 10%nat) in
    f (it_new 4 true true) [EvStart; EvStop] = Ok s /\ i_run s = false /\ i_inp s = true /\ f s [EvOutput; EvTimer; EvPool] = Ok s1 /\ i_log s1 = [] /\
    exists s2, f s [EvStart; EvOutput] = Ok s2 /\ i_log s2 = [OSize SCallBack].
Proof.
  eexists _, _. cbv zeta. split; [vm_compute; reflexivity|]. split; [reflexivity|]. split; [reflexivity|]. split; [vm_compute; reflexivity|]. split; [reflexivity|].
  eexists. split; [vm_compute; reflexivity|]. reflexivity.
Qed.
Example C72_retry_example :
  exists s s1, run (fun _ => SSize 10) (fun _ => (StCallBack, false)) obj_data (fun _ => None) (fun _ => None) (fun _ => true) (fun _ => []) false false (Some 10%nat)
    (it_new 4 true true) [EvStart] = Ok s /\ active s = true /\
    process_output (fun _ => SSize 10) (fun _ => (StCallBack, false)) obj_data (fun _ => None) (fun _ => None) (fun _ => true) (fun _ => []) false false (Some 10%nat) s = Ok (s1, false) /\
    i_state s1 = inpNeedBuffer /\ i_timer s1 = true.
Proof. eexists _, _. split; [vm_compute; reflexivity|]. split; [reflexivity|]. split; [vm_compute; reflexivity|]. split; reflexivity. Qed.


(* two extra buffers in a queue of three that already holds one: all places are
   taken, the transport waits, the call-back brings the next buffer *)
Definition two_start (l : list iobs) : stcode * bool := (if Nat.eqb (working l) 0 then StMore else StEnough, true).
Example C72_places_example :
  let f := run (fun l => if Nat.leb 24 (length l) then SCallBack else SDflt) two_start (fun l => (CpOk, Some (N.of_nat (length l)))) (fun _ => None) (fun _ => Some 128%N) (fun _ => true) (fun _ => []) false false (Some 10%nat) in
  (forall l, keeps_ok (two_start l) = true) /\
  exists s s1, f (it_new 3 true true) [EvStart; EvOutput; EvCall SQueue; EvOutput; EvOutput] = Ok s /\
    i_exit s = false /\ working (i_log s) = 2%nat /\ q_size (i_port s) = 1%nat /\ q_cap (i_port s) = 3%nat /\ q_own (i_port s) = true /\
    f s [EvCall SQueue; EvOutput] = Ok s1 /\ i_exit s1 = false /\ working (i_log s1) = 1%nat /\ q_size (i_port s1) = 2%nat.
Proof.
  cbv zeta. split; [intro l; unfold two_start; destruct (Nat.eqb _ 0); reflexivity|].
  eexists _, _. split; [vm_compute; reflexivity|]. do 5 (split; [reflexivity|]). split; [vm_compute; reflexivity|]. repeat split.
Qed.

(* ---- what is not true ---- *)
(* A queue that blocks only while the receiver is away (blocking =
   "disconnected") and is full: the receiver disconnects while the object fills
   the buffer, and the process is ended.  No call-back is involved. *)
Theorem C72_exit_refuted :
  exists osize ostart ocomp opool env events s,
    run osize ostart ocomp (fun _ => None) opool (fun _ => true) env false false (Some 10%nat) (it_new 1 false true) events = Ok s /\
    i_exit s = true /\ (forall c, ~ In (OCall c) (i_log s)) /\ ready (i_log s) <> sent (i_log s).
Proof.
  exists (fun _ => SSize 10), (fun _ => (StOk, false)), obj_data, (fun _ => Some 128%N),
    (fun l => match l with OStart _ :: _ => if Nat.leb 6 (length l) then [PDisc] else [] | _ => [] end), [EvStart; EvOutput].
  eexists. split; [vm_compute; reflexivity|]. repeat split.
  - intros c H. cbn in H. repeat (destruct H as [H|H]; [discriminate|]). exact H.
  - vm_compute. discriminate.
Qed.
Print Assumptions C72_exit_refuted.

(* A call-back while the transport has not asked for one, and no extra buffers
   are out, ends the process. *)
Theorem C72_callback_exit_refuted :
  exists osize ostart ocomp opool s,
    run osize ostart ocomp (fun _ => None) opool (fun _ => true) (fun _ => []) false false (Some 10%nat) (it_new 4 true true) [EvStart; EvCall (SSize 10)] = Ok s /\
    i_exit s = true.
Proof. exists (fun _ => SSize 10), (fun _ => (StOk, false)), obj_data, (fun _ => Some 128%N). eexists. split; [vm_compute; reflexivity|]. reflexivity. Qed.
Print Assumptions C72_callback_exit_refuted.

(* Read_Complete of an object with extra buffers answers "not ready, call again
   as soon as possible": fExtraBufs is reduced all the same, and when it was
   the last one Read_Complete is never called again - whatever the object
   would answer. *)
Definition once (l : list iobs) : cpcode * option N :=
  if existsb (fun o => match o with OComplete _ _ => true | _ => false end) l then (CpOk, Some 1%N) else (CpRepeat, None).
Theorem C72_repeat_stuck_refuted :
  exists osize ostart ocomp opool events s,
    run osize ostart ocomp (fun _ => None) opool (fun _ => true) (fun _ => []) false false (Some 10%nat) (it_new 4 true true) events = Ok s /\
    working (i_log s) = 1%nat /\ ocomp (i_log s) = (CpOk, Some 1%N) /\
    forall more, forallb own_event more = true -> exists s1,
      run osize ostart ocomp (fun _ => None) opool (fun _ => true) (fun _ => []) false false (Some 10%nat) s more = Ok s1 /\ i_log s1 = i_log s.
Proof.
  exists (fun _ => SDflt), (fun _ => (StEnough, true)), once, (fun _ => Some 128%N), [EvStart; EvOutput; EvCall SQueue; EvOutput].
  eexists. split; [vm_compute; reflexivity|]. split; [reflexivity|]. split; [reflexivity|].
  intros more W. apply stuck_run; [|exact W]. repeat split.
Qed.
Print Assumptions C72_repeat_stuck_refuted.

(* After a reconnection fExtraBufs still counts the buffers of the old object:
   the new one is asked to complete a buffer although it was never given one. *)
Theorem C72_reconnect_refuted :
  exists osize ostart ocomp opool events s a c d b,
    run osize ostart ocomp (fun _ => None) opool (fun _ => true) (fun _ => []) false true (Some 10%nat) (it_new 4 true true) events = Ok s /\
    i_log s = a ++ OComplete c d :: b ++ [OCreate true; OGone; OStart StEnough; OTake 128; OSize SDflt] /\
    forallb (fun o => match o with OStart _ => false | _ => true end) b = true.
Proof.
  exists (fun l => if Nat.leb 5 (length l) then SCallBack else SDflt), (fun _ => (StEnough, true)), obj_data, (fun _ => Some 128%N),
    [EvStart; EvOutput; EvClosed false; EvTimer; EvCall SQueue; EvOutput].
  eexists. eexists [_; _], _, _, [_; _]. split; [vm_compute; reflexivity|]. split; reflexivity.
Qed.
Print Assumptions C72_reconnect_refuted.

(* While the transport waits for a buffer of the memory pool, an event of the
   port makes it fire the next such event without end. *)
Theorem C72_wait_spins_refuted :
  exists osize ostart ocomp opool events s,
    run osize ostart ocomp (fun _ => None) opool (fun _ => true) (fun _ => []) true false (Some 10%nat) (it_new 4 true true) events = Ok s /\
    forall lim, process_output osize ostart ocomp (fun _ => None) opool (fun _ => true) (fun _ => []) true false (Some lim) s = Ok (s, true).
Proof.
  exists (fun _ => SSize 10), (fun _ => (StOk, false)), obj_data, (fun _ => None), [EvStart; EvOutput].
  eexists. split; [vm_compute; reflexivity|]. intro lim. cbn [process_output]. apply wait_loop; reflexivity.
Qed.
Print Assumptions C72_wait_spins_refuted.

(* A transport waiting for its reconnection is stopped and started again, as
   with the module behind it: it ends in the state stError, in which the real
   transport deletes itself (Transport.cxx:154-155), although the object could
   be created again. *)
Theorem C72_restart_reconnect_refuted :
  exists osize ostart ocomp opool events s,
    run osize ostart ocomp (fun _ => None) opool (fun _ => true) (fun _ => []) false true (Some 10%nat) (it_new 4 true true) events = Ok s /\
    events = [EvStart; EvOutput; EvClosed true; EvStop; EvStart] /\ i_state s = inpReconnect /\ i_tr s = stError.
Proof.
  exists (fun _ => SCallBack), (fun _ => (StOk, false)), obj_data, (fun _ => Some 128%N). eexists. eexists.
  split; [|split; [reflexivity|]]; [vm_compute; reflexivity|]. split; reflexivity.
Qed.
Print Assumptions C72_restart_reconnect_refuted.

(* An object that finishes its buffer inside Read_Start, calls back, and asks for
   more buffers: ProcessSend overwrites the state the call-back has set
   (DataTransport.cxx:452-458).  With a queue of one buffer the transport then
   waits for a call-back that has already come, and none of its own events
   changes that. *)
Theorem C72_callback_lost_refuted :
  exists osize ostart ocomp ocb opool events s,
    run osize ostart ocomp ocb opool (fun _ => true) (fun _ => []) false false (Some 10%nat) (it_new 1 true true) events = Ok s /\
    i_state s = inpCallBack /\ i_log s = [OStart StMore; OCall SDflt; OTake 128; OSize SDflt] /\ working (i_log s) = 1%nat /\
    forall more, forallb own_event more = true -> exists s1,
      run osize ostart ocomp ocb opool (fun _ => true) (fun _ => []) false false (Some 10%nat) s more = Ok s1 /\ i_log s1 = i_log s.
Proof.
  exists (fun _ => SDflt), (fun _ => (StMore, true)), obj_data, (fun l => match l with OTake _ :: _ => Some SDflt | _ => None end), (fun _ => Some 128%N), [EvStart; EvOutput].
  eexists. split; [vm_compute; reflexivity|]. split; [reflexivity|]. split; [reflexivity|]. split; [reflexivity|].
  intros more W. apply lost_run; [|exact W]. repeat split.
Qed.
Print Assumptions C72_callback_lost_refuted.
