(* C70: buffers sent over a stream socket.  The full claim - every sequence of buffers and
   acknowledges comes out unchanged and in order - is false for buffers of at most 32 bytes,
   null and empty buffers, and buffers ending with an empty segment (refuted below); it is
   proved for everything else.  Datagram sockets and socket errors are not covered. *)
From Verif Require Import Common Bytes ListFacts SockSpec SockModel SockProofs.
Local Open Scope nat_scope.

(* What is sent and posted: buffers longer than 32 bytes without empty segments, receive
   buffers at least as long as every buffer sent. *)
Definition good (M : nat) (e : event) : Prop :=
  match e with
  | ESend (MBuf t segs) stale => (t < 2^32)%N /\ Forall (fun s => s <> []) segs /\ 32 < length (concat segs) <= M /\ length stale = 32
  | ESend MNull _ => False
  | ESend (MAck n) stale => (n < 2^32)%N /\ length stale = 32
  | EPost b => Forall (fun x => 0 < x) b /\ M <= list_sum b
  | _ => True
  end.
Lemma good_ok M l : Forall (good M) l -> Forall (okevent M) l.
Proof. apply Forall_impl. intros [[t segs| |n] st|b|k|k]; unfold good, okevent, okmsg, okpost; tauto. Qed.

(* However sockets split the stream, in whatever order operations are posted: the connection
   stays open and what is delivered is a prefix of what was sent. *)
Theorem C70_delivery_partial M l : (N.of_nat M < 2^32)%N -> Forall (good M) l ->
  closed (run l) = false /\ exists rest, out (run l) ++ rest = map item_of (messages l).
Proof.
  intros HM F. destruct (run_inv M l HM (good_ok M l F)) as (todo & I). split; [apply (i_open _ _ _ _ _ I)|]. exists (map (fun x => item_of (fst x)) todo). apply (i_items _ _ _ _ _ I).
Qed.
Print Assumptions C70_delivery_partial.

(* Each delivered packet uses one posted receive, and none is lost. *)
Theorem C70_posts_partial M l : (N.of_nat M < 2^32)%N -> Forall (good M) l ->
  length (out (run l)) + length (r_queue (run l)) <= length (posts l) <= length (out (run l)) + length (r_queue (run l)) + 1.
Proof.
  intros HM F. destruct (run_inv M l HM (good_ok M l F)) as (todo & I). assert (C := i_count _ _ _ _ _ I). destruct (r_status (run l) =? 0); lia.
Qed.
Print Assumptions C70_posts_partial.

(* When neither a write nor a read changes anything any more, and enough receive operations
   were posted, everything sent was delivered, unchanged and in order. *)
Theorem C70_all_partial M l : (N.of_nat M < 2^32)%N -> Forall (good M) l -> length (messages l) <= length (posts l) ->
  (forall k, step (run l) (EWrite k) = run l) -> (forall k, step (run l) (ERead k) = run l) ->
  out (run l) = map item_of (messages l).
Proof.
  intros HM F L W R. destruct (run_inv M l HM (good_ok M l F)) as (todo & I). unfold step in W, R. rewrite (i_open _ _ _ _ _ I) in W, R.
  assert (T := stuck_done M (run l) todo (messages l) (length (posts l)) I W R L). subst todo. rewrite <- (i_items _ _ _ _ _ I). apply eq_sym, app_nil_r.
Qed.
Print Assumptions C70_all_partial.

(* ---- examples ---- *)
Definition st0 : bytes := repeat 170%N 32.
Definition long : bytes := map N.of_nat (seq 1 40).
Definition demo : list event :=
  [EPost [64]; ESend (MBuf 7 [firstn 11 long; skipn 11 long]) st0; ESend (MAck 5) st0; EPost [10; 20; 40]; ESend (MBuf 9 [rev long]) st0;
   EWrite 30; ERead 7; EWrite 25; ERead 60; EPost [33; 40]; EWrite 1; ERead 1; EWrite 500; EWrite 20; EWrite 500; EWrite 500; ERead 3; ERead 500; ERead 500; ERead 9; ERead 500; ERead 500; ERead 500; ERead 500].
Example demo_good : Forall (good 40) demo.
Proof. repeat constructor; cbn; try lia; discriminate. Qed.
Theorem C70_example :
  out (run demo) = [IBuf 7 long; ICredit 5; IBuf 9 (rev long)] /\ length (messages demo) <= length (posts demo) /\
  (forall k, step (run demo) (EWrite k) = run demo) /\ (forall k, step (run demo) (ERead k) = run demo).
Proof. split; [vm_compute; reflexivity|]. split; [vm_compute; lia|]. split; intros k; vm_compute; reflexivity. Qed.
Print Assumptions C70_example.

(* ---- what is false ---- *)
(* A buffer of 1 to 32 bytes travels inside the header only, but the receiver waits for that
   many further bytes: nothing is delivered although all was sent ... *)
Theorem C70_short_buffer_refuted :
  let l := [EPost [64]; ESend (MBuf 7 [[1; 2; 3; 4]%N]) st0; EWrite 100; ERead 100; ERead 100] in
  messages l = [MBuf 7 [[1; 2; 3; 4]%N]] /\ out (run l) = [] /\ closed (run l) = false /\ wire (run l) = [] /\
  (forall k, step (run l) (EWrite k) = run l) /\ (forall k, step (run l) (ERead k) = run l).
Proof. cbv zeta. split; [reflexivity|]. split; [vm_compute; reflexivity|]. split; [vm_compute; reflexivity|]. split; [vm_compute; reflexivity|]. split; intros k; [vm_compute; reflexivity|]. unfold step. replace (closed (run _)) with false by (vm_compute; reflexivity). unfold read.
  replace (wire (run _)) with (@nil N) by (vm_compute; reflexivity). replace (r_iov (run _)) with [4] by (vm_compute; reflexivity). cbn [length]. rewrite Nat.min_0_l, Nat.min_0_r. vm_compute. reflexivity. Qed.
Print Assumptions C70_short_buffer_refuted.
(* ... and the beginning of the following packet is taken for it: the connection is closed. *)
Theorem C70_short_buffer_next_refuted :
  let l := [EPost [64]; EPost [64]; ESend (MBuf 7 [[1; 2; 3; 4]%N]) st0; ESend (MBuf 8 [long]) st0; EWrite 48; EWrite 88; ERead 48; ERead 4; ERead 48; ERead 100] in
  closed (run l) = true /\ out (run l) = [IBuf 7 [1; 2; 3; 4]%N].
Proof. vm_compute. split; reflexivity. Qed.
Print Assumptions C70_short_buffer_next_refuted.
(* After a null buffer, or one without data, nothing is ever received again. *)
Theorem C70_empty_buffer_refuted m : m = MNull \/ m = MBuf 7 [] ->
  let l := [EPost [64]; EPost [64]; ESend m st0; ESend (MBuf 8 [long]) st0; EWrite 48; EWrite 88; ERead 48] in
  closed (run l) = false /\ out (run l) = [] /\ length (wire (run l)) = 88 /\ (forall k, step (run l) (EWrite k) = run l) /\ (forall k, step (run l) (ERead k) = run l).
Proof. intros [-> | ->]; cbv zeta; (split; [vm_compute; reflexivity|]; split; [vm_compute; reflexivity|]; split; [vm_compute; reflexivity|]; split; intros k; vm_compute; reflexivity). Qed.
Print Assumptions C70_empty_buffer_refuted.
(* A last segment of no bytes: nothing remains to be written, the sender closes. *)
Theorem C70_empty_segment_refuted :
  let l := [EPost [64]; ESend (MBuf 7 [long; []]) st0; EWrite 88; EWrite 1] in
  closed (run l) = true /\ out (run l) = [] /\ (forall k, run (l ++ [ERead k]) = run l).
Proof. cbv zeta. split; [vm_compute; reflexivity|]. split; [vm_compute; reflexivity|]. intros k. vm_compute. reflexivity. Qed.
Print Assumptions C70_empty_segment_refuted.
