(* C52: flow control of network transports.  Two nodes, connected by a network which keeps
   the order of the packets; the events (NetSpec.v) at the two nodes come in any order. *)
From Verif Require Import Common ListFacts NetSpec NetModel NetProofs.

(* the queues between port and transport have the capacity of the port; who sends has
   somebody who receives *)
Definition matching (ca cb : config) : Prop :=
  c_iqueue ca = c_icap ca /\ c_oqueue ca = c_ocap ca /\ c_iqueue cb = c_icap cb /\ c_oqueue cb = c_ocap cb
  /\ (c_out ca = true -> c_inp cb = true) /\ (c_out cb = true -> c_inp ca = true).
Lemma matching_start ca cb : matching ca cb -> sgood (start ca cb).
Proof. intros (A & B & C & D & E & F). apply start_ok; [split; assumption|split; assumption|exact E|exact F]. Qed.
Lemma matching_run ca cb evs : matching ca cb -> exists s, run (start ca cb) evs = Ok s /\ sgood s /\ n_cfg (s_a s) = ca /\ n_cfg (s_b s) = cb.
Proof. intros M. exact (run_ok evs (start ca cb) (matching_start ca cb M)). Qed.

(* a record for every operation: no event leads to a wrong record number or to exit *)
Theorem C52_records : forall ca cb evs, matching ca cb -> exists s, run (start ca cb) evs = Ok s.
Proof. intros ca cb evs M. destruct (matching_run ca cb evs M) as (s & E & _). exists s. exact E. Qed.
Print Assumptions C52_records.

(* whoever waits for acknowledges has sent at most as many buffers as it was allowed to,
   and it was allowed at most as many as the other side had posted receive operations *)
Theorem C52_credits : forall ca cb evs s, matching ca cb -> c_inp ca = true -> c_ack ca = true -> run (start ca cb) evs = Ok s ->
  length (sent (t_a s)) <= credits (t_b s) /\ credits (t_b s) <= posts (t_b s).
Proof.
  intros ca cb evs s M Ci Ca R. destruct (matching_run ca cb evs M) as (s' & E & G & Ea & Eb). rewrite R in E. injection E as <-. destruct G as (Ga & _ & D & _). split.
  - destruct (Nat.eq_dec (ackq_capacity (n_cfg (s_a s))) 0) as [Z|Z]; [|assert (H := d_cred _ _ _ _ D ltac:(lia)); lia].
    unfold ackq_capacity in Z. rewrite Ea, Ci, Ca in Z. cbn [andb] in Z. assert (P := d_out _ _ _ _ D). rewrite Ea in P. specialize (P Z). rewrite (d_push _ _ _ _ D), app_assoc, <- (d_sent _ _ _ _ D) in P. apply app_eq_nil in P. destruct P as (P & _). rewrite P. cbn. lia.
  - assert (H := d_post _ _ _ _ D). destruct (_ && _); lia.
Qed.
Print Assumptions C52_credits.

(* buffers are delivered in the order in which they were given, each once *)
Theorem C52_order : forall ca cb evs s, matching ca cb -> run (start ca cb) evs = Ok s ->
  exists rest, pushed (t_a s) = delivered (t_b s) ++ rest.
Proof.
  intros ca cb evs s M R. destruct (matching_run ca cb evs M) as (s' & E & G & _). rewrite R in E. injection E as <-. destruct G as (_ & _ & D & _). eexists. exact (d_push _ _ _ _ D).
Qed.
Print Assumptions C52_order.

(* when no event but a new buffer changes anything, all buffers have been delivered *)
Definition is_push (e : event) : Prop := exists d, e = EPush d.
Definition stuck (s : sys) : Prop := forall first e, ~ is_push e -> step s (first, e) = Ok s.
Theorem C52_no_stall : forall ca cb evs s, matching ca cb -> run (start ca cb) evs = Ok s -> stuck s ->
  c_out ca = true -> 1 <= c_icap cb -> (c_inp ca = true -> c_ack ca = true -> c_ack cb = true /\ 2 <= c_icap cb /\ 1 <= c_icap ca) ->
  delivered (t_b s) = pushed (t_a s).
Proof.
  intros ca cb evs s M R St Co Ic Cond. destruct (matching_run ca cb evs M) as (s' & E & G & Ea & Eb). rewrite R in E. injection E as <-. apply (stuck_done s ca cb G Ea Eb); auto.
  - intros f e He. apply St. intros (d & ->). discriminate.
  - intros H. apply andb_true_iff in H. destruct H. auto.
Qed.
Print Assumptions C52_no_stall.

(* an example: both nodes send and receive, with acknowledges *)
Definition at_a (e : event) : bool * event := (true, e).
Definition at_b (e : event) : bool * event := (false, e).
Definition both (k : nat) : config := mkCfg true true true k k k k.
Definition traffic : list (bool * event) :=
  [at_a (EFill 4); at_b (EFill 4); at_a ESent; at_b ESent; at_a (EPush 7); at_a EInput; at_a (ERecv 0); at_b (ERecv 0); at_a (EPush 8); at_a (EPush 9); at_a EInput;
   at_a ESent; at_a ESent; at_a ESent; at_b (ERecv 4); at_b (ERecv 4); at_b ETake; at_b ETake; at_b (EFill 4); at_b ESent; at_b (ERecv 4); at_b ETake; at_b (EFill 4); at_b ESent; at_a (ERecv 4); at_a ESent; at_a (ERecv 4); at_b (EFill 4); at_a (EFill 4); at_a ESent; at_b (ERecv 4); at_b ESent; at_a (ERecv 4); at_a ESent; at_b (ERecv 4)].
Definition after (ca cb : config) (evs : list (bool * event)) : sys := match run (start ca cb) evs with Ok s => s | _ => start ca cb end.
Example C52_example : matching (both 4) (both 4) /\ run (start (both 4) (both 4)) traffic = Ok (after (both 4) (both 4) traffic) /\ stuck (after (both 4) (both 4) traffic)
  /\ pushed (t_a (after (both 4) (both 4) traffic)) = [7; 8; 9]%N /\ delivered (t_b (after (both 4) (both 4) traffic)) = [7; 8; 9]%N.
Proof.
  split; [repeat split|]. split; [vm_compute; reflexivity|]. split; [|split; vm_compute; reflexivity]. intros f e H. destruct f, e; try (exfalso; apply H; eexists; reflexivity); vm_compute; reflexivity.
Qed.

(* A transport which only sends does not wait for acknowledges, though both sides use them
   (fAcknSendQueue is allocated for input transports only): it sends more buffers than the
   other side has posted receive operations *)
Definition sender : config := mkCfg false true true 0 4 0 4.
Definition receiver : config := mkCfg true false true 4 0 4 0.
Theorem C52_sender_refuted : exists evs s, matching sender receiver /\ c_ack sender = true /\ c_ack receiver = true /\ run (start sender receiver) evs = Ok s
  /\ posts (t_b s) < length (sent (t_a s)).
Proof. exists [at_a (EPush 1); at_a EInput]. eexists. split; [repeat split; intros C; discriminate|]. split; [reflexivity|]. split; [reflexivity|]. split; [vm_compute; reflexivity|]. vm_compute. lia. Qed.
Print Assumptions C52_sender_refuted.

(* In both directions: an acknowledge is received into a posted buffer as well, which is
   posted again and counted as a new one.  With queues of two buffers every acknowledge leads
   to another one, for ever and without any data *)
Fixpoint repeated (k : nat) (l : list (bool * event)) : list (bool * event) := match k with O => [] | S k => l ++ repeated k l end.
Definition first_acks : list (bool * event) := [at_b (EFill 2); at_a (EFill 2); at_b ESent; at_a ESent].
Definition ping_pong : list (bool * event) := [at_a (ERecv 0); at_a ESent; at_b (ERecv 0); at_b ESent].
Definition ping5 : list (bool * event) := ping_pong ++ ping_pong ++ ping_pong ++ ping_pong ++ ping_pong.
Definition base : sys := after (both 2) (both 2) (first_acks ++ ping5).
Definition with_credit (s : sys) (x y : nat) (ta tb : list act) : sys :=
  mkSys (set_send (s_a s) 0 x [] []) (set_send (s_b s) 0 y [] []) ta tb.
Lemma run_app a b s : run s (a ++ b) = do s <- run s a; run s b.
Proof. revert s. induction a as [|e a IH]; intros s; [reflexivity|]. cbn [run app]. destruct (step s e) as [s1| |]; [|reflexivity|reflexivity]. apply IH. Qed.
Lemma cycle x y ta tb : exists x' y' a b, run (with_credit base x y ta tb) ping5 = Ok (with_credit base x' y' (ta ++ a) (tb ++ b)) /\ x' = x + 5 /\ acks a = 5 /\ acks b = 5 /\ pushed a = [] /\ pushed b = [] /\ delivered a = [] /\ delivered b = [] /\ sent a = [].
Proof.
  eexists _, _, [_; _; _; _; _; _; _; _; _; _], [_; _; _; _; _; _; _; _; _; _]. split; [|split; [|split; [|split; [|split; [|split; [|split; [|split]]]]]]].
  - unfold ping5, ping_pong, at_a, at_b. cbn [app].
    assert (T : forall (t : list act) a b l, (t ++ a :: b :: nil) ++ l = t ++ a :: b :: l) by (intros; rewrite <- app_assoc; reflexivity).
    vm_compute (run _ _). repeat rewrite T. cbn [app]. reflexivity.
  - change (x + 1 + 1 + 1 + 1 + 1 = x + 5). lia.
  - reflexivity.
  - reflexivity.
  - reflexivity.
  - reflexivity.
  - reflexivity.
  - reflexivity.
  - reflexivity.
Qed.
Lemma base_ok : exists x y ta tb, run (start (both 2) (both 2)) (first_acks ++ ping5) = Ok (with_credit base x y ta tb) /\ pushed ta = [] /\ pushed tb = [] /\ delivered ta = [] /\ delivered tb = [] /\ sent ta = [].
Proof. eexists _, _, _, _. split; [vm_compute; reflexivity|]. repeat split; reflexivity. Qed.
Lemma cycles k : exists x y ta tb, run (start (both 2) (both 2)) ((first_acks ++ ping5) ++ repeated k ping5) = Ok (with_credit base x y ta tb) /\ 5 * k <= x /\ 5 * k <= acks ta /\ pushed ta = [] /\ pushed tb = [] /\ delivered ta = [] /\ delivered tb = [] /\ sent ta = [].
Proof.
  assert (L : forall k x y ta tb, exists x' y' a b, run (with_credit base x y ta tb) (repeated k ping5) = Ok (with_credit base x' y' (ta ++ a) (tb ++ b)) /\ x' = x + 5 * k /\ acks a = 5 * k /\ pushed a = [] /\ pushed b = [] /\ delivered a = [] /\ delivered b = [] /\ sent a = []).
  { clear k. induction k as [|k IH]; intros x y ta tb.
    - exists x, y, [], []. rewrite !app_nil_r. cbn [repeated run]. split; [reflexivity|]. split; [lia|]. repeat split.
    - cbn [repeated]. rewrite run_app. destruct (cycle x y ta tb) as (x1 & y1 & a1 & b1 & E & Ex & A1 & _ & P1 & P2 & P3 & P4 & P5). rewrite E. cbn [bind]. destruct (IH x1 y1 (ta ++ a1) (tb ++ b1)) as (x2 & y2 & a2 & b2 & E2 & Ex2 & A2 & Q1 & Q2 & Q3 & Q4 & Q5). exists x2, y2, (a1 ++ a2), (b1 ++ b2). rewrite E2, !app_assoc. split; [reflexivity|]. split; [lia|]. rewrite acks_app, !pushed_app, !delivered_app, sent_app, P1, P2, P3, P4, P5, Q1, Q2, Q3, Q4, Q5. split; [lia|]. repeat split. }
  destruct base_ok as (x & y & ta & tb & E & P1 & P2 & P3 & P4 & P5). destruct (L k x y ta tb) as (x' & y' & a & b & E2 & Ex & A & Q1 & Q2 & Q3 & Q4 & Q5). exists x', y', (ta ++ a), (tb ++ b). rewrite run_app, E. cbn [bind]. rewrite E2. split; [reflexivity|]. rewrite acks_app, !pushed_app, !delivered_app, sent_app, P1, P2, P3, P4, P5, Q1, Q2, Q3, Q4, Q5. split; [lia|]. split; [lia|]. repeat split.
Qed.
Theorem C52_ping_pong_refuted : forall k, exists evs s, matching (both 2) (both 2) /\ run (start (both 2) (both 2)) evs = Ok s
  /\ pushed (t_a s) = [] /\ pushed (t_b s) = [] /\ k <= acks (t_a s).
Proof.
  intros k. destruct (cycles k) as (x & y & ta & tb & E & _ & A & P1 & P2 & _). eexists. eexists. split; [repeat split|]. split; [exact E|]. unfold with_credit. cbn [t_a t_b]. split; [exact P1|]. split; [exact P2|lia].
Qed.
Print Assumptions C52_ping_pong_refuted.

(* so the credit grows without limit: a node can have any number of buffers on the way while
   the other side has two receive operations posted and the user there takes nothing *)
Definition push1 : list (bool * event) := [at_a (EPush 0); at_a EInput; at_a ESent].
Definition push3 : list (bool * event) := push1 ++ push1 ++ push1.
Definition base2 : sys := match run (with_credit base 3 0 [] []) push3 with Ok s => s | _ => base end.
Definition with_wire (s : sys) (x y : nat) (w : list packet) (ta tb : list act) : sys :=
  mkSys (set_net (set_send (s_a s) 0 x [] []) [] w) (set_send (s_b s) 0 y [] []) ta tb.
Lemma run_trace evs : forall a b ta tb a' b' x y, run (mkSys a b [] []) evs = Ok (mkSys a' b' x y) -> run (mkSys a b ta tb) evs = Ok (mkSys a' b' (ta ++ x) (tb ++ y)).
Proof.
  assert (L : forall evs a b t1 t2 u1 u2 a' b' x y, run (mkSys a b t1 t2) evs = Ok (mkSys a' b' x y) -> run (mkSys a b (u1 ++ t1) (u2 ++ t2)) evs = Ok (mkSys a' b' (u1 ++ x) (u2 ++ y))).
  { clear. induction evs as [|[f e] evs IH]; intros a b t1 t2 u1 u2 a' b' x y H; [injection H as <- <- <- <-; reflexivity|]. cbn [run] in *. unfold step in *. cbn [fst snd s_a s_b t_a t_b] in *. destruct f.
    - destruct (node_step a (n_wire b) e) as [r| |]; try discriminate. cbn [bind] in *. rewrite <- app_assoc. apply IH. exact H.
    - destruct (node_step b (n_wire a) e) as [r| |]; try discriminate. cbn [bind] in *. rewrite <- app_assoc. apply IH. exact H. }
  intros a b ta tb a' b' x y H. apply (L evs a b [] [] ta tb) in H. rewrite !app_nil_r in H. exact H.
Qed.
Lemma push_first x y ta tb : exists w a, run (with_credit base (3 + x) y ta tb) push3 = Ok (with_wire base2 (x - 0) y w (ta ++ a) tb) /\ length (sent a) = 3.
Proof.
  eexists _, _. split.
  - unfold with_credit, with_wire. rewrite <- (app_nil_r tb) at 2. apply run_trace. vm_compute. reflexivity.
  - reflexivity.
Qed.
Lemma push_cycle x y w ta tb : exists w' a, run (with_wire base2 (3 + x) y w ta tb) push3 = Ok (with_wire base2 (x - 0) y w' (ta ++ a) tb) /\ length (sent a) = 3.
Proof.
  eexists _, _. split.
  - unfold with_wire. rewrite <- (app_nil_r tb) at 2. apply run_trace. vm_compute. reflexivity.
  - reflexivity.
Qed.
Lemma pushes k : forall x y w ta tb, exists w' a, run (with_wire base2 (3 * k + x) y w ta tb) (repeated k push3) = Ok (with_wire base2 x y w' (ta ++ a) tb) /\ length (sent a) = 3 * k.
Proof.
  induction k as [|k IH]; intros x y w ta tb.
  - exists w, []. rewrite app_nil_r. split; reflexivity.
  - cbn [repeated]. rewrite run_app. destruct (push_cycle (3 * k + x) y w ta tb) as (w1 & a1 & E & A). replace (3 * S k + x) with (3 + (3 * k + x)) by lia. rewrite E. cbn [bind]. rewrite Nat.sub_0_r. destruct (IH x y w1 (ta ++ a1) tb) as (w2 & a2 & E2 & A2). exists w2, (a1 ++ a2). rewrite E2, app_assoc. split; [reflexivity|]. rewrite sent_app, app_length. lia.
Qed.
Theorem C52_in_flight_refuted : forall k, exists evs s, matching (both 2) (both 2) /\ run (start (both 2) (both 2)) evs = Ok s
  /\ k <= length (sent (t_a s)) /\ delivered (t_b s) = [] /\ length (n_posted (s_b s)) = 2.
Proof.
  intros k. destruct (cycles (S k)) as (x & y & ta & tb & E & Ex & _ & _ & _ & _ & D & _). assert (X : exists z, x = 3 + (3 * k + z)) by (exists (x - (3 + 3 * k)); lia). destruct X as (z & ->).
  destruct (push_first (3 * k + z) y ta tb) as (w & a & E2 & A). rewrite Nat.sub_0_r in E2. destruct (pushes k z y w (ta ++ a) tb) as (w2 & a2 & E3 & A2).
  exists (((first_acks ++ ping5) ++ repeated (S k) ping5) ++ (push3 ++ repeated k push3)). eexists. split; [repeat split|]. split; [rewrite run_app, E; cbn [bind]; rewrite run_app, E2; cbn [bind]; exact E3|]. unfold with_wire. cbn [t_a t_b s_b]. split; [rewrite !sent_app, !app_length; lia|]. split; [exact D|reflexivity].
Qed.
Print Assumptions C52_in_flight_refuted.

(* With queues of one buffer the first acknowledge waits for two receive operations, which
   are never posted: nothing is ever sent *)
Definition idle : list (bool * event) := [at_a (EPush 5); at_a (EFill 1); at_b (EFill 1); at_a EInput].
Theorem C52_one_buffer_refuted : exists s, matching (both 1) (both 1) /\ run (start (both 1) (both 1)) idle = Ok s /\ stuck s /\ pushed (t_a s) = [5%N] /\ delivered (t_b s) = [].
Proof.
  exists (after (both 1) (both 1) idle). split; [repeat split|]. split; [vm_compute; reflexivity|]. split; [|split; vm_compute; reflexivity]. intros f e H. destruct f, e; try (exfalso; apply H; eexists; reflexivity); vm_compute; reflexivity.
Qed.
Print Assumptions C52_one_buffer_refuted.

(* With a queue which is larger than the capacity of the port (TransportQueue) the records do
   not suffice: a record is used whose number is behind the end of the array *)
Theorem C52_queue_refuted : exists ca cb evs, c_icap ca < c_iqueue ca /\ run (start ca cb) evs = UB.
Proof. exists (mkCfg true false false 2 0 6 0), (mkCfg false true false 0 2 0 2), [at_a (EFill 6)]. split; [cbn; lia|vm_compute; reflexivity]. Qed.
Print Assumptions C52_queue_refuted.
