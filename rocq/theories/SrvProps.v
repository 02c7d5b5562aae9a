(* C81: what an MBS server sends to a client arrives complete, in order and packet by packet. *)
From Verif Require Import Common ListFacts Bytes MbsSpec SrvSpec SrvModel SrvProofs SrvLive.
Local Open Scope N_scope.

(* states in which a side has given up the connection *)
Definition failed (w : sys) : Prop := v_st (w_v w) = oError \/ v_ot (w_v w) = OErr \/ c_st (w_c w) = ioError \/ c_it (w_c w) = IErr.

(* for all orders of the events of both sides, kinds of server and contents: no side fails, and
   the client has got the packets of the buffers given to the server so far, in their order and
   unchanged, up to some point *)
Theorem C81_order_partial k ops :
  Forall (fits (k_iter k)) (puts ops) ->
  ~ failed (run k ops start) /\
  exists rest, arrives (k_iter k) (k_id k) 0 (puts ops) = c_got (w_c (run k ops start)) ++ rest.
Proof.
  intros F. destruct (inv_reach k ops F) as (fs & x & [H1 H2 H3 H4 H5 H5' H6 H7 H8]). split.
  - destruct (run k ops start) as [[st ex ev td ot cb q bz] [cst pd hd mx bf it cc gt] up dn ask snt]. unfold failed. simp.
    unfold sok, idle in H1. unfold cok in H2. simp. intros [-> |[-> |[-> | ->]]].
    + exact (proj1 H1).
    + destruct H1 as (H1 & _). destruct st; intuition discriminate.
    + exact H2.
    + destruct cst; intuition discriminate.
  - eexists. rewrite <- H5. reflexivity.
Qed.
Print Assumptions C81_order_partial.

(* when no event is left which changes something, everything has arrived *)
Theorem C81_complete_partial k ops :
  Forall (fits (k_iter k)) (puts ops) ->
  (forall o, internal o -> step k (run k ops start) o = run k ops start) ->
  c_got (w_c (run k ops start)) = arrives (k_iter k) (k_id k) 0 (puts ops).
Proof. intros F Q. destruct (inv_reach k ops F) as (fs & x & H). apply (quiet _ _ _ _ _ H Q). Qed.
Print Assumptions C81_complete_partial.

(* from each point that can be reached the data can be delivered without further input, and no
   order of events goes on for ever: there is a limit for the number of events which change
   something *)
Theorem C81_delivered_partial k ops :
  Forall (fits (k_iter k)) (puts ops) ->
  (exists l, Forall internal l /\ c_got (w_c (run k (ops ++ l) start)) = arrives (k_iter k) (k_id k) 0 (puts ops)) /\
  (exists limit, forall l, changing k (run k ops start) l -> (length l <= limit)%nat).
Proof.
  intros F. destruct (inv_reach k ops F) as (fs & x & H). split.
  - destruct (leads _ _ _ _ _ H) as (l & Hl & E). exists l. split; auto. unfold run in *. rewrite fold_left_app. exact E.
  - exists (N.to_nat (measure (run k ops start))). intros l Ch. pose proof (bounded _ _ _ _ _ _ H Ch). lia.
Qed.
Print Assumptions C81_delivered_partial.

(* a stream server sends one packet for each request and no packet without; the client asks for
   the next packet only after the one before has been delivered *)
Theorem C81_requests_partial k ops :
  Forall (fits (k_iter k)) (puts ops) -> k_stream k = true ->
  let w := run k ops start in
  (w_sent w <= w_asked w <= w_sent w + 1)%nat /\ (length (c_got (w_c w)) <= w_asked w <= length (c_got (w_c w)) + 1)%nat.
Proof.
  intros F S0. cbn zeta. destruct (inv_reach k ops F) as (fs & x & [H1 H2 H3 H4 H5 H5' H6 H7 H8]). rewrite S0 in H8. destruct H8 as (H8 & H9).
  assert (awaits (w_c (run k ops start)) <= 1)%nat by (unfold awaits; destruct (c_st _); lia). lia.
Qed.
Print Assumptions C81_requests_partial.

(* ---- concrete runs ---- *)
Definition round : list op := [SSend; STry; SSend; SRecv; SCall; CRecv; CRead; CCall; CRecv; CCall].
Fixpoint rounds (n : nat) : list op := match n with O => [] | S m => round ++ rounds m end.
Definition b1 : buf := mkB [1; 2; 3; 4] [([1; 2; 3], 9); ([4; 5], 7)].
Definition b2 : buf := mkB [5; 6] [([6; 7], 0)].
Definition b0 : buf := mkB [0; 0] [([], 0)].
Definition b4 : buf := mkB [] [].
Definition some_run : list op := [Put b1; STry; Put b0; CRead; Put b4] ++ rounds 3 ++ [Put b2] ++ rounds 20.

Example fits_case : Forall (fits true) (puts some_run) /\ Forall (fits false) (puts some_run).
Proof. split; repeat constructor; vm_compute; congruence. Qed.
(* all four kinds *)
Example arrive_case :
  c_got (w_c (run (mkCfg true false 5 77) some_run start)) = [[1; 2; 3; 4]; [0; 0]; [5; 6]] /\
  c_got (w_c (run (mkCfg false false 5 77) some_run start)) = [[1; 2; 3; 4]; [0; 0]; [5; 6]] /\
  map lenN (c_got (w_c (run (mkCfg true true 5 77) some_run start))) = [28 + 4 + 28 + 2; 28 + 2] /\
  c_got (w_c (run (mkCfg true true 5 77) some_run start)) = arrives true 5 0 [b1; b0; b4; b2] /\
  c_got (w_c (run (mkCfg false true 5 77) some_run start)) = arrives true 5 0 [b1; b0; b4; b2].
Proof. vm_compute. repeat split; reflexivity. Qed.
Example quiet_case : forall o, internal o -> step (mkCfg true true 5 77) (run (mkCfg true true 5 77) some_run start) o = run (mkCfg true true 5 77) some_run start.
Proof. intros o Io. destruct o; [contradiction|..]; vm_compute; reflexivity. Qed.
(* in the middle: the second event of the first packet is still to be sent, the client waits for
   the rest of the packet *)
Example middle_case :
  let w := run (mkCfg true true 5 77) ([Put b1; Put b2] ++ rounds 3) start in
  length (c_got (w_c w)) = 0%nat /\ lenN (w_down w) = 32 /\ w_asked w = 1%nat /\ w_sent w = 1%nat /\
  v_st (w_v w) = oSendingEvents /\ c_st (w_c w) = ioRecvBuffer.
Proof. vm_compute. repeat split; reflexivity. Qed.
Example changing_case : changing (mkCfg true true 5 77) start [CRead; SSend; CRecv; SRecv].
Proof. cbn. repeat split; discriminate. Qed.

(* The size in the header counts words of 16 bits: without iterator the last byte of a buffer of
   odd size stays in the stream, where the client takes it as begin of the next header.  The
   buffer arrives without its last byte and the next one not at all; no side notices. *)
Theorem C81_odd_refuted : exists k ops,
  let w := run k ops start in
  k_iter k = false /\ puts ops = [mkB [1; 2; 3] []; mkB [4; 5] []] /\
  arrives (k_iter k) (k_id k) 0 (puts ops) = [[1; 2; 3]; [4; 5]] /\
  c_got (w_c w) = [[1; 2]] /\
  v_st (w_v w) = oWaitingBuffer /\ v_ot (w_v w) = OReady /\ c_st (w_c w) = ioRecvHeader /\ c_it (w_c w) = IWaitSize /\
  (step k w SSend = w /\ step k w SRecv = w /\ step k w SCall = w /\ step k w STry = w /\ step k w CRecv = w /\ step k w CRead = w /\ step k w CCall = w).
Proof.
  exists (mkCfg false false 5 77), ([Put (mkB [1; 2; 3] []); Put (mkB [4; 5] [])] ++ rounds 9). vm_compute. repeat split; reflexivity.
Qed.
Print Assumptions C81_odd_refuted.
