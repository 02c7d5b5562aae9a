(* Properties C05 - C08, C57, C58: buffer queues and port-to-port transport. *)
From Verif Require Import Common TransportSpec TransportModel TransportProofs WakeProofs WakeRestartProofs.

(* C05.  Any calls accepted by the bounded list give the same answers on the
   ring buffer; the number of stored buffers stays within the capacity. *)
Theorem C05_buffers_queue_refines_list :
  forall (X : Type) (cap : nat) (ops : list (bop X)) outs l,
    bs_run cap ops [] = Some (outs, l) ->
    exists b : bq X, b_run ops (bq_new cap) = Ok (outs, b) /\ b_size b = length l /\ b_size b <= cap.
Proof. exact @bq_refines. Qed.
Print Assumptions C05_buffers_queue_refines_list.

Example C05_case :
  bs_run 2 [BPush (Some 1); BPush (Some 2); BPush (Some 3); BPop; BPush (Some 4); BItem 0; BItem 1; BFull;
            BCleanup; BEmpty] []
  = Some ([OPush true None None; OPush true None None; OPush false (Some 3) None; OPop true (Some 1);
           OPush true None None; OItem (Some 2); OItem (Some 4); OBool true;
           OReleased [Some 2; Some 4]; OBool true], []).
Proof. reflexivity. Qed.

(* C06.  Blocking transport, any interleaving of CanSend/Send, Recv and changes
   of the connection: the process is not ended, what was received is a prefix
   of what was sent, the rest is in the queue, nothing was thrown away. *)
Theorem C06_blocking_in_order :
  forall (X : Type) (cap : nat) (ko ki : sigkind) (acts : list (pact X)),
    0 < cap ->
    exists s l, p_run (p_init cap ko ki true true) acts = PRun s /\
      p_sent s = p_recv s ++ l /\ p_flight s = map Some l /\ length l <= cap /\ p_skip s = [].
Proof. exact @pair_blocking. Qed.
Print Assumptions C06_blocking_in_order.

Example C06_case :
  match p_run (p_init 2 SignalConfirm SignalEvery true true)
     [PCheck; PSend 1; PCheck; PSend 2; PCheck; PSend 3; PRecv; PCheck; PSend 4; PRecv] with
  | PRun s => p_sent s = [1; 2; 4] /\ p_recv s = [1; 2] /\ p_flight s = [Some 4]
  | PExit => False
  end.
Proof. vm_compute. repeat split. Qed.

(* C07.  Never-blocking transport: same in-flight, received and skipped buffers
   as the specification that keeps the newest [cap] ones. *)
Theorem C07_nonblocking_keeps_newest :
  forall (X : Type) (cap : nat) (ko ki : sigkind) (acts : list (pact X)),
    0 < cap ->
    exists s, p_run (p_init cap ko ki false false) acts = PRun s /\
      let n := fold_left (ns_step cap) acts n_init in
      p_flight s = map Some (n_flight n) /\ p_recv s = n_recv n /\ p_skip s = n_skip n /\ p_sent s = n_sent n.
Proof. exact @pair_nonblocking. Qed.
Print Assumptions C07_nonblocking_keeps_newest.

(* ... and that specification keeps a suffix of what was sent, every other
   buffer having been received or skipped *)
Theorem C07_accounting :
  forall (X : Type) (cap : nat) (acts : list (pact X)),
    0 < cap ->
    let n := fold_left (ns_step cap) acts n_init in
    length (n_flight n) <= cap /\
    exists gone, n_sent n = gone ++ n_flight n /\ length gone = length (n_recv n) + length (n_skip n).
Proof. exact @n_accounting. Qed.
Print Assumptions C07_accounting.

Example C07_case :
  match p_run (p_init 2 SignalConfirm SignalConfirm false false)
     [PCheck; PSend 1; PCheck; PSend 2; PCheck; PSend 3; PRecv; PCheck; PSend 4; PCheck; PSend 5] with
  | PRun s => p_sent s = [1; 2; 3; 4; 5] /\ p_recv s = [2] /\ p_skip s = [1; 3] /\ p_flight s = [Some 4; Some 5]
  | PExit => False
  end.
Proof. vm_compute. repeat split. Qed.

(* C08.  Both modules running, any schedule of the two threads.  When the input
   queue is not empty, the receiver is processing the port, or has an event for
   it in its queue, or the sender is about to put one there. *)
Theorem C08_no_lost_input :
  forall cap ko ki bu bc lr ls l,
    0 < cap -> ki <> SignalNone -> Forall nostop l ->
    let s := w_run (w_init cap ko ki bu bc lr ls) l in
    can_recv (w_t s) = true ->
    m_pc (w_rcv s) <> Idle \/ 0 < m_ev (w_rcv s) \/ 0 < m_re (w_rcv s) \/ (exists c, m_pc (w_snd s) = Fire true c).
Proof. exact no_lost_input. Qed.
Print Assumptions C08_no_lost_input.

Theorem C08_no_lost_output :
  forall cap ko ki bu bc lr ls l,
    0 < cap -> ko <> SignalNone -> Forall nostop l ->
    let s := w_run (w_init cap ko ki bu bc lr ls) l in
    b_full (t_q (w_t s)) = false ->
    m_pc (w_snd s) <> Idle \/ 0 < m_ev (w_snd s) \/ 0 < m_re (w_snd s) \/ (exists c, m_pc (w_rcv s) = Fire true c).
Proof. exact no_lost_output. Qed.
Print Assumptions C08_no_lost_output.

(* some thread can always make a step: no dead-lock *)
Theorem C08_never_stuck :
  forall cap ko ki bu bc lr ls l,
    0 < cap -> ko <> SignalNone -> ki <> SignalNone -> Forall nostop l ->
    let s := w_run (w_init cap ko ki bu bc lr ls) l in
    exists a, is_thread_step a = 1 /\ w_step s a <> None.
Proof. exact never_stuck. Qed.
Print Assumptions C08_never_stuck.

(* and steps cannot be spent on anything but transferring buffers: no
   live-lock.  [n] executed thread steps deliver at least (n - 12*cap)/18. *)
Theorem C08_progress :
  forall cap ko ki lr ls l n sent recv,
    0 < cap -> ko <> SignalNone -> ki <> SignalNone -> Forall nostop l ->
    w_count (w_init cap ko ki true true lr ls) l = (n, sent, recv) ->
    n <= 12 * cap + 18 * recv /\ recv <= sent <= recv + cap.
Proof. exact progress. Qed.
Print Assumptions C08_progress.

Definition demo : list wact :=
  [TakeEv Snd] ++ repeat (Go Snd) 5 ++ [TakeEv Rcv] ++ repeat (Go Rcv) 3 ++ repeat (Go Snd) 4 ++ repeat (Go Rcv) 10.

Example C08_case :
  Forall nostop demo /\
  (let s := w_run (w_init 2 SignalConfirm SignalConfirm true true 0 0) (firstn 6 demo) in
   can_recv (w_t s) = true /\ m_pc (w_rcv s) = Idle /\ m_ev (w_rcv s) = 1) /\
  w_count (w_init 2 SignalConfirm SignalConfirm true true 0 0) demo = (21, 2, 2).
Proof. split; [repeat constructor|]. vm_compute. repeat split. Qed.

(* C57.  With one blocking mode for connected and unconnected state (or no
   connection change) CanSend() guarantees that Send() does not end the process:
   this is part of C06/C07.  In the default configuration (block only when
   connected) a connection made between the two calls ends the process. *)
Theorem C57_send_after_can_send_partial :
  forall (X : Type) (cap : nat) (ko ki : sigkind) (b : bool) (acts : list (pact X)),
    0 < cap -> p_run (p_init cap ko ki b b) acts <> PExit.
Proof. exact @pair_no_exit. Qed.
Print Assumptions C57_send_after_can_send_partial.

Theorem C57_connect_between_refuted :
  exists acts : list (pact nat),
    (* last two actions before the fatal Send: CanSend() = true, input connects *)
    (exists s, p_run (p_init 1 SignalConfirm SignalConfirm false true) (acts ++ [PCheck; PConn true]) = PRun s /\ p_ok s = true) /\
    p_run (p_init 1 SignalConfirm SignalConfirm false true) (acts ++ [PCheck; PConn true; PSend 9]) = PExit.
Proof. exists [PConn false; PCheck; PSend 5]. split; [eexists|]; vm_compute; repeat split. Qed.
Print Assumptions C57_connect_between_refuted.

Example C57_case :
  match p_run (p_init 1 SignalConfirm SignalConfirm false false)
     [PConn false; PCheck; PSend 5; PCheck; PConn true; PSend 9] with
  | PRun s => p_flight s = [Some 9] /\ p_skip s = [5]
  | PExit => False
  end.
Proof. vm_compute. repeat split. Qed.

(* C58.  Modules may be stopped and started again at any moment, provided the
   port of a stopped module does not use the SignalConfirm mode: a running
   module still never misses a wake-up. *)
Theorem C58_restart_input_partial :
  forall cap ko ki bu bc lr ls l,
    0 < cap -> ki <> SignalNone -> Forall (okstop ko ki) l ->
    let s := w_run (w_init cap ko ki bu bc lr ls) l in
    can_recv (w_t s) = true -> m_run (w_rcv s) = true ->
    m_pc (w_rcv s) <> Idle \/ 0 < m_ev (w_rcv s) \/ 0 < m_re (w_rcv s) \/ (exists c, m_pc (w_snd s) = Fire true c).
Proof. exact no_lost_input_restart. Qed.
Print Assumptions C58_restart_input_partial.

Theorem C58_restart_output_partial :
  forall cap ko ki bu bc lr ls l,
    0 < cap -> ko <> SignalNone -> Forall (okstop ko ki) l ->
    let s := w_run (w_init cap ko ki bu bc lr ls) l in
    b_full (t_q (w_t s)) = false -> m_run (w_snd s) = true ->
    m_pc (w_snd s) <> Idle \/ 0 < m_ev (w_snd s) \/ 0 < m_re (w_snd s) \/ (exists c, m_pc (w_rcv s) = Fire true c).
Proof. exact no_lost_output_restart. Qed.
Print Assumptions C58_restart_output_partial.

(* With the default mode SignalConfirm a stop and start of the receiver can
   leave both modules running and asleep for ever, with buffers in the queue:
   no thread can make a step any more. *)
Definition restart_schedule : list wact :=
  demo ++ [Stop Rcv; TakeEv Rcv; Start Rcv] ++
  repeat (Go Snd) 30 ++ [TakeEv Snd] ++ repeat (Go Snd) 30 ++ [TakeRe Snd] ++ repeat (Go Snd) 30.

Theorem C58_restart_confirm_refuted :
  exists l,
    let s := w_run (w_init 2 SignalConfirm SignalConfirm true true 0 0) l in
    m_run (w_rcv s) = true /\ m_run (w_snd s) = true /\ can_recv (w_t s) = true /\ can_send (w_t s) = false /\
    (forall w, w_step s (TakeEv w) = None /\ w_step s (TakeRe w) = None /\ w_step s (Go w) = None).
Proof.
  exists restart_schedule. cbn zeta. repeat split; try (vm_compute; reflexivity);
  destruct w; vm_compute; reflexivity.
Qed.
Print Assumptions C58_restart_confirm_refuted.

Example C58_case :
  let l := demo ++ [Stop Rcv; TakeEv Rcv; Start Rcv] ++ repeat (Go Snd) 4 in
  Forall (okstop SignalConfirm SignalOperation) l /\
  (let s := w_run (w_init 2 SignalConfirm SignalOperation true true 0 0) l in
   can_recv (w_t s) = true /\ m_run (w_rcv s) = true).
Proof. split; [repeat constructor; discriminate|]. vm_compute. repeat split. Qed.
