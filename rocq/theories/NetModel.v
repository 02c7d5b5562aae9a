(* NetworkTransport.cxx: flow control with acknowledges.  Two transports and a network which
   keeps the order of packets and loses none; a packet is received when a receive operation
   is posted, otherwise it waits.  Send operations are completed in order, before or after
   the packet has arrived.  Contents of buffers are numbers; the headers of packets and the
   inline data (PackHeader 185-217) are not modelled.  Ports are connected and block when
   full (NumCanSend, LocalTransport.h:86-93).  Counters are not limited.  Input transports
   have a pool.  TransportCleanup and errors of the network are not modelled. *)
From Verif Require Import Common NetSpec.

Record config : Type := mkCfg {
  c_inp : bool;                (* IsInputTransport: delivers to an input port *)
  c_out : bool;                (* IsOutputTransport *)
  c_ack : bool;                (* fUseAckn *)
  c_icap : nat;                (* inpport.QueueCapacity() *)
  c_ocap : nat;                (* outport.QueueCapacity() *)
  c_iqueue : nat;              (* capacity of the queues between ports and transport, *)
  c_oqueue : nat               (* which can be enlarged with TransportQueue, Transport.cxx:54-59, 72-77 *)
}.
(* constructor, NetworkTransport.cxx:51-64, AcknoledgeQueueLength = 2, Transport.cxx:23 *)
Definition icapacity (c : config) : nat :=
  let n := if c_inp c then c_icap c else 0 in if c_ack c then Nat.max n 2 else n.
Definition ocapacity (c : config) : nat := if c_out c then c_ocap c else 0.
(* NetworkTransport.cxx:85 *)
Definition numrecs (c : config) : nat := icapacity c + ocapacity c + 1.
(* NetworkTransport.cxx:100-101 *)
Definition ackq_capacity (c : config) : nat := if c_inp c && c_ack c then ocapacity c else 0.

Inductive rkind : Type := KNone | KSend | KRecv | KHdr.
Record rec : Type := mkRec { r_used : bool; r_kind : rkind; r_data : N; r_extras : nat }.
Record node : Type := mkNode {
  n_cfg : config;
  n_recs : list rec;           (* fRecs *)
  n_ctr : nat;                 (* fRecsCounter *)
  n_osize : nat;               (* fOutputQueueSize *)
  n_allowed : nat;             (* fAcknAllowedOper *)
  n_ackq : list nat;           (* fAcknSendQueue *)
  n_busy : bool;               (* fAcknSendBufBusy *)
  n_isize : nat;               (* fInputQueueSize *)
  n_first : bool;              (* fFirstAckn *)
  n_ready : nat;               (* fAcknReadyCounter *)
  n_inq : list N;              (* queue of the input of the transport: buffers to be sent *)
  n_outq : list N;             (* queue of the output of the transport: received buffers *)
  n_posted : list nat;         (* network: posted receive operations, oldest first *)
  n_sending : list nat;        (* network: send operations not completed, oldest first *)
  n_wire : list packet         (* network: packets on the way to the other node *)
}.
Definition init (c : config) : node :=
  mkNode c (repeat (mkRec false KNone 0%N 0) (numrecs c)) 0 0 0 [] false 0 true 0 [] [] [] [] [].

Definition set_recs (n : node) (r : list rec) (ctr : nat) : node :=
  mkNode (n_cfg n) r ctr (n_osize n) (n_allowed n) (n_ackq n) (n_busy n) (n_isize n) (n_first n) (n_ready n) (n_inq n) (n_outq n) (n_posted n) (n_sending n) (n_wire n).
Definition set_send (n : node) (osize allowed : nat) (ackq : list nat) (inq : list N) : node :=
  mkNode (n_cfg n) (n_recs n) (n_ctr n) osize allowed ackq (n_busy n) (n_isize n) (n_first n) (n_ready n) inq (n_outq n) (n_posted n) (n_sending n) (n_wire n).
Definition set_ack (n : node) (busy first : bool) (ready : nat) : node :=
  mkNode (n_cfg n) (n_recs n) (n_ctr n) (n_osize n) (n_allowed n) (n_ackq n) busy (n_isize n) first ready (n_inq n) (n_outq n) (n_posted n) (n_sending n) (n_wire n).
Definition set_recv (n : node) (isize : nat) (outq : list N) (posted : list nat) : node :=
  mkNode (n_cfg n) (n_recs n) (n_ctr n) (n_osize n) (n_allowed n) (n_ackq n) (n_busy n) isize (n_first n) (n_ready n) (n_inq n) outq posted (n_sending n) (n_wire n).
Definition set_net (n : node) (sending : list nat) (wire : list packet) : node :=
  mkNode (n_cfg n) (n_recs n) (n_ctr n) (n_osize n) (n_allowed n) (n_ackq n) (n_busy n) (n_isize n) (n_first n) (n_ready n) (n_inq n) (n_outq n) (n_posted n) sending wire.

Definition is_used (r : list rec) (i : nat) : bool := match nth_error r i with Some x => r_used x | None => false end.
(* the loop of TakeRec, NetworkTransport.cxx:153-166; second component: fRecsCounter *)
Fixpoint find_rec (cnt : nat) (r : list rec) (ctr : nat) : option nat * nat :=
  match cnt with
  | O => (None, ctr)
  | S k => let next := (ctr + 1) mod length r in if is_used r ctr then find_rec k r next else (Some ctr, next)
  end.
(* TakeRec, NetworkTransport.cxx:149-171; the number of records when there is no free one *)
Definition take_rec (n : node) (kind : rkind) (d : N) (extras : nat) : node * nat :=
  match find_rec (length (n_recs n)) (n_recs n) (n_ctr n) with
  | (Some i, ctr) => (set_recs n (upd (n_recs n) i (mkRec true kind d extras)) ctr, i)
  | (None, ctr) => (set_recs n (n_recs n) ctr, length (n_recs n))
  end.
(* ReleaseRec, NetworkTransport.cxx:173-182 *)
Definition release_rec (n : node) (i : nat) : node :=
  match nth_error (n_recs n) i with
  | Some x => set_recs n (upd (n_recs n) i (mkRec false (r_kind x) 0%N (r_extras x))) (n_ctr n)
  | None => n
  end.

(* SubmitSend of the network, with PackHeader: kind and extras of the record.  A wrong
   number: fRecs is read behind its end (line 189) *)
Definition submit_send (n : node) (i : nat) : res (node * list act) :=
  match nth_error (n_recs n) i with
  | None => UB
  | Some x =>
    let p := match r_kind x with KHdr => PAck (r_extras x) | _ => PData (r_data x) end in
    Ok (set_net n (n_sending n ++ [i]) (n_wire n ++ [p]), [ASend p])
  end.
(* SubmitRecv of the network; a wrong number: exit, SocketTransport.cxx:207-212 *)
Definition submit_recv (n : node) (i : nat) : res (node * list act) :=
  if i <? length (n_recs n) then Ok (set_recv n (n_isize n) (n_outq n) (n_posted n ++ [i]), [APost]) else UB.

(* CheckAcknReadyCounter, NetworkTransport.cxx:282-316 *)
Definition ack_limit (n : node) : nat :=
  Nat.max 1 (if n_first n then icapacity (n_cfg n) else icapacity (n_cfg n) / 2).
Definition check_ackn (n : node) (newitems : nat) : res (node * list act) :=
  if negb (c_ack (n_cfg n) && c_inp (n_cfg n)) then Ok (n, [])
  else
    let n := set_ack n (n_busy n) (n_first n) (n_ready n + newitems) in
    if n_busy n then Ok (n, [])
    else if n_ready n <? ack_limit n then Ok (n, [])
    else
      let limit := ack_limit n in
      let n := set_ack n true false (n_ready n - limit) in
      let '(n, i) := take_rec n KHdr 0%N limit in
      submit_send n i.

(* FillRecvQueue, NetworkTransport.cxx:219-280; [avail]: buffers which can be had, counting
   the free one *)
Definition num_can_submit (n : node) : nat :=
  if c_inp (n_cfg n) then c_iqueue (n_cfg n) - length (n_outq n) else icapacity (n_cfg n).
Fixpoint fill_loop (fuel : nat) (n : node) (limit avail newitems : nat) (out : list act) : res (node * nat * list act) :=
  match fuel with
  | O => Loop
  | S f =>
    if n_isize n <? limit then
      if c_inp (n_cfg n) && (avail =? 0) then Ok (n, newitems, out)
      else
        let '(n, i) := take_rec n KRecv 0%N 0 in
        do r <- submit_recv (set_recv n (n_isize n + 1) (n_outq n) (n_posted n)) i;
        fill_loop f (fst r) limit (avail - 1) (newitems + 1) (out ++ snd r)
    else Ok (n, newitems, out)
  end.
Definition fill_recv (n : node) (avail : nat) : res (node * list act) :=
  let limit := num_can_submit n in
  do r <- fill_loop (S limit) n limit avail 0 [];
  do r2 <- check_ackn (fst (fst r)) (snd (fst r));
  Ok (fst r2, snd r ++ snd r2).

(* SubmitAllowedSendOperations, NetworkTransport.cxx:318-325 *)
Fixpoint submit_allowed (fuel : nat) (n : node) (out : list act) : res (node * list act) :=
  match fuel with
  | O => Loop
  | S f =>
    match n_ackq n with
    | [] => Ok (n, out)
    | i :: q =>
      if 0 <? n_allowed n then
        do r <- submit_send (set_send n (n_osize n) (n_allowed n - 1) q (n_inq n)) i;
        submit_allowed f (fst r) (out ++ snd r)
      else Ok (n, out)
    end
  end.
Definition submit_all (n : node) : res (node * list act) := submit_allowed (S (length (n_ackq n))) n [].

(* ProcessSendCompl, NetworkTransport.cxx:327-360; exit(333) when there is nothing in the
   queue *)
Definition process_sent (n : node) : res (node * list act) :=
  match n_sending n with
  | [] => Ok (n, [])
  | i :: s =>
    let n := set_net n s (n_wire n) in
    match nth_error (n_recs n) i with
    | None => UB
    | Some x =>
      match r_kind x with
      | KSend =>
        match n_inq n with
        | [] => UB
        | _ :: q => Ok (release_rec (set_send n (n_osize n - 1) (n_allowed n) (n_ackq n) q) i, [])
        end
      | KHdr => check_ackn (release_rec (set_ack n false (n_first n) (n_ready n)) i) 0
      | _ => Ok (release_rec n i, [])
      end
    end
  end.

(* ProcessRecvCompl, NetworkTransport.cxx:362-420.  Data arriving at a transport without
   output: the buffer is null.  Send to a full queue: the buffer is lost. *)
Definition process_recv (n : node) (p : packet) (k : nat) : res (node * list act) :=
  match n_posted n with
  | [] => Ok (n, [])
  | i :: ps =>
    match p with
    | PAck credit =>
      do r <- submit_all (set_send n (n_osize n) (n_allowed n + credit) (n_ackq n) (n_inq n));
      let n := fst r in
      do r2 <- fill_recv (release_rec (set_recv n (n_isize n - 1) (n_outq n) ps) i) (1 + k);
      Ok (fst r2, snd r ++ snd r2)
    | PData d =>
      if negb (c_inp (n_cfg n)) then UB
      else if length (n_outq n) <? c_iqueue (n_cfg n)
      then Ok (release_rec (set_recv n (n_isize n - 1) (n_outq n ++ [d]) ps) i, [ADeliver d])
      else Ok (release_rec (set_recv n (n_isize n - 1) (n_outq n) ps) i, [])
    end
  end.

(* the loop of ProcessInputEvent, NetworkTransport.cxx:431-455; exit(543) without record.
   A full fAcknSendQueue takes no more (Queue.h:215-224): not modelled further *)
Fixpoint input_loop (fuel : nat) (n : node) (out : list act) : res (node * list act) :=
  match fuel with
  | O => Loop
  | S f =>
    match nth_error (n_inq n) (n_osize n) with
    | None => Ok (n, out)
    | Some d =>
      let '(n, i) := take_rec n KSend d 0 in
      if i =? length (n_recs n) then UB
      else
        let n := set_send n (n_osize n + 1) (n_allowed n) (n_ackq n) (n_inq n) in
        if 0 <? ackq_capacity (n_cfg n) then
          if length (n_ackq n) <? ackq_capacity (n_cfg n)
          then input_loop f (set_send n (n_osize n) (n_allowed n) (n_ackq n ++ [i]) (n_inq n)) out
          else UB
        else do r <- submit_send n i; input_loop f (fst r) (out ++ snd r)
    end
  end.
(* ProcessInputEvent, NetworkTransport.cxx:431-457 *)
Definition process_input (n : node) : res (node * list act) :=
  do r <- input_loop (S (length (n_inq n) - n_osize n)) n [];
  do r2 <- submit_all (fst r);
  Ok (fst r2, snd r ++ snd r2).

(* one event at a node; [from]: the packets on the way to it *)
Definition node_step (n : node) (from : list packet) (e : event) : res (node * list packet * list act) :=
  match e with
  | EPush d =>
    if c_out (n_cfg n) && (length (n_inq n) <? c_oqueue (n_cfg n))
    then Ok (set_send n (n_osize n) (n_allowed n) (n_ackq n) (n_inq n ++ [d]), from, [APush d])
    else Ok (n, from, [])
  | EInput => if c_out (n_cfg n) then do r <- process_input n; Ok (fst r, from, snd r) else Ok (n, from, [])
  | ETake => Ok (set_recv n (n_isize n) (tl (n_outq n)) (n_posted n), from, [])
  | EFill k => do r <- fill_recv n k; Ok (fst r, from, snd r)
  | ESent => do r <- process_sent n; Ok (fst r, from, snd r)
  | ERecv k =>
    match from, n_posted n with
    | p :: w, _ :: _ => do r <- process_recv n p k; Ok (fst r, w, snd r)
    | _, _ => Ok (n, from, [])
    end
  end.

(* two nodes *)
Definition set_wire (n : node) (w : list packet) : node := set_net n (n_sending n) w.
Record sys : Type := mkSys { s_a : node; s_b : node; t_a : list act; t_b : list act }.
Definition start (ca cb : config) : sys := mkSys (init ca) (init cb) [] [].
(* [true]: the event happens at the first node *)
Definition step (s : sys) (ev : bool * event) : res sys :=
  if fst ev then
    do r <- node_step (s_a s) (n_wire (s_b s)) (snd ev);
    Ok (mkSys (fst (fst r)) (set_wire (s_b s) (snd (fst r))) (t_a s ++ snd r) (t_b s))
  else
    do r <- node_step (s_b s) (n_wire (s_a s)) (snd ev);
    Ok (mkSys (set_wire (s_a s) (snd (fst r))) (fst (fst r)) (t_a s) (t_b s ++ snd r)).
Fixpoint run (s : sys) (l : list (bool * event)) : res sys :=
  match l with [] => Ok s | e :: r => do s <- step s e; run s r end.
