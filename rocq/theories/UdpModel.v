(* Model of the HADAQ UDP receiver: plugins/hadaq/src/UdpTransport.cxx
   (hadaq::NewAddon, hadaq::NewTransport).

   Simplifications: one thread; a pool buffer is one memory segment; fSendCnt,
   fSkipCnt and the statistic counters are not bounded; fReduce is any test on the
   filled and the full size; which datagrams are dropped artificially is chosen from
   outside instead of by fLostCnt and rand(); the result of ReadUdp, which no caller
   uses, is left out; CloseTransport, the debug output and the commands are left
   out. *)
From Verif Require Import Common ListFacts Bytes WordMem HadModel UdpSpec.
Open Scope N_scope.

(* what the user configures: fMTU, fMaxLoopCnt, the test consumed_size() > fReduce
   on filled and full size, whether artificial losses were asked for (fLostRate > 0);
   UdpTransport.cxx:35-52, Pointer.cxx:155-159 *)
Record cfg : Type := mkCfg { c_mtu : N; c_loop : nat; c_full : N -> N -> bool; c_lost : bool }.

(* The queue of the pool handle: [b_ready] filled buffers (fNumReadyBufs), then, when
   [b_asg] (fBufAssigned), the buffer being filled, then free ones.  [b_tgt]: fTgtPtr
   as offset into the buffer being filled, None for a released pointer.  [b_room]:
   number of places in the output queue, [b_out]: what was sent.  UdpTransport.h:100-143 *)
Record bufs : Type := mkB { b_queue : list bytes; b_ready : nat; b_asg : bool; b_tgt : option N;
  b_send : N; b_room : nat; b_out : list bytes }.

(* statistic counters UdpTransport.h:45-52, without fTotalProducedBuffers *)
Record stat : Type := mkSt { n_recv : N; n_recvb : N; n_disc : N; n_discb : N; n_disc32 : N;
  n_lost : N; n_skip : N }.

(* what recv finds in the socket: a datagram (with the choice to drop it artificially)
   or an error other than EAGAIN *)
Inductive sitem := SData (p : bytes) (drop : bool) | SErr.

(* [u_spare]: memory of fMtuBuffer; [u_log] is not part of the code: the datagrams
   taken from the socket and where they went *)
Record ust : Type := mkU { u_b : bufs; u_spare : bytes; u_run : bool; u_skip : N; u_last : N;
  u_sock : list sitem; u_log : list (fate * bytes); u_stat : stat }.

(* constructors UdpTransport.cxx:35-52, 288-314; malloc'ed memory has any content *)
Definition init (spare : bytes) : ust :=
  mkU (mkB [] 0 false None 0 0 []) spare false 0 0 [] [] (mkSt 0 0 0 0 0 0 0).

(* the buffer fTgtPtr points into *)
Definition cur (b : bufs) : res bytes :=
  match nth_error (b_queue b) (b_ready b) with Some m => Ok m | None => UB end.

(* fTgtPtr.null() Pointer.h:147 and rawsize() 148 *)
Definition tgt_null (b : bufs) : res bool :=
  match b_tgt b with None => Ok true | Some o => do m <- cur b; Ok (lenN m - o =? 0) end.
Definition rawsize (b : bufs) : res N :=
  match b_tgt b with None => Ok 0 | Some o => do m <- cur b; Ok (lenN m - o) end.

(* NewAddon::CloseBuffer UdpTransport.cxx:92-105 *)
Definition close_buffer (b : bufs) : res (bufs * bool) :=
  do z <- tgt_null b;
  if z then Ok (b, false)
  else match b_tgt b with
       | None => UB
       | Some o =>
         if o =? 0 then Ok (b, false)
         else do m <- cur b;
           Ok (mkB (upd (b_queue b) (b_ready b) (takeN o m)) (b_ready b) (b_asg b) None
                 (b_send b + 1) (b_room b) (b_out b), true)
       end.

(* NewTransport::AssignNewBuffer UdpTransport.cxx:415-448 *)
Definition assign (c : cfg) (b : bufs) : res (bufs * bool) :=
  if b_asg b || (length (b_queue b) <=? b_ready b)%nat then Ok (b, false)
  else
    do z <- tgt_null b;
    if negb z then Ok (b, false)
    else
      do m <- cur b;
      Ok (mkB (b_queue b) (b_ready b) true (Some 0) (b_send b) (b_room b) (b_out b),
          negb (lenN m <? c_mtu c)).

(* NewTransport::ProcessSend UdpTransport.cxx:390-399.  It is called only when the
   port can send (ModuleAsync, BufferReady). *)
Definition process_send (b : bufs) : res (bufs * bool) :=
  match b_ready b with
  | O => Ok (b, false)
  | S r =>
    match b_queue b with
    | [] => UB
    | m :: q => Ok (mkB q r (b_asg b) (b_tgt b) (b_send b) (b_room b - 1) (b_out b ++ [m]), (0 <? r)%nat)
    end
  end.

(* while (CanSend(0)) if (!ProcessSend(0)) break; UdpTransport.cxx:455-456 *)
Fixpoint send_loop (fuel : nat) (b : bufs) : res bufs :=
  match fuel with
  | O => Loop
  | S k =>
    if (b_room b =? 0)%nat then Ok b
    else do (b1, more) <- process_send b; if more : bool then send_loop k b1 else Ok b1
  end.

(* NewTransport::BufferReady UdpTransport.cxx:450-457 *)
Definition buffer_ready (b : bufs) : res bufs :=
  send_loop (S (b_room b)) (mkB (b_queue b) (S (b_ready b)) false (b_tgt b) (b_send b) (b_room b) (b_out b)).

(* NewTransport::FlushBuffer UdpTransport.cxx:459-471 *)
Definition flush (c : cfg) (onclose : bool) (s : ust) : res ust :=
  do b2 <- (if onclose || (u_last s =? b_send (u_b s)) then
              do (b1, closed) <- close_buffer (u_b s);
              if closed : bool then
                do b2 <- buffer_ready b1;
                if onclose then Ok b2 else do (b3, _) <- assign c b2; Ok b3
              else Ok b1
            else Ok (u_b s));
  Ok (mkU b2 (u_spare s) (u_run s) (u_skip s) (b_send b2) (u_sock s) (u_log s) (u_stat s)).

(* the message size in the variable of type int: uint32_t sum, UdpTransport.cxx:171 *)
Definition msgsize (n : N) : Z :=
  let w := Z.of_N ((n + 32) mod 2^32) in if (w <? 2^31)%Z then w else (w - 2^32)%Z.

(* lines 170-181: is the datagram of [len] bytes at [o] in order, and if not, was it
   the trailer; memcmp reads both blocks *)
Definition judge (m : bytes) (o len : N) : res (bool * bool) :=
  do n <- padded m o;
  if negb (Z.of_N len =? msgsize n)%Z then Ok (false, false)
  else
    do t <- getb m (o + n) 32;
    do h <- getb m o 32;
    if list_eq_dec N.eq_dec t h then Ok (true, false) else Ok (false, true).

Definition add_log (s : ust) (f : fate) (p : bytes) (st : stat) : ust :=
  mkU (u_b s) (u_spare s) (u_run s) (u_skip s) (u_last s) (u_sock s) (u_log s ++ [(f, p)]) st.
Definition set_sock (s : ust) (l : list sitem) : ust :=
  mkU (u_b s) (u_spare s) (u_run s) (u_skip s) (u_last s) l (u_log s) (u_stat s).
Definition set_bufs (s : ust) (b : bufs) : ust :=
  mkU b (u_spare s) (u_run s) (u_skip s) (u_last s) (u_sock s) (u_log s) (u_stat s).
Definition set_spare (s : ust) (m : bytes) : ust :=
  mkU (u_b s) m (u_run s) (u_skip s) (u_last s) (u_sock s) (u_log s) (u_stat s).
Definition set_skip (s : ust) (k : N) (st : stat) : ust :=
  mkU (u_b s) (u_spare s) (u_run s) k (u_last s) (u_sock s) (u_log s) st.

Definition st_recv (t : stat) (len : N) : stat :=
  mkSt (n_recv t + 1) (n_recvb t + len) (n_disc t) (n_discb t) (n_disc32 t) (n_lost t) (n_skip t).
Definition st_disc (t : stat) (len : N) (trailer : bool) : stat :=
  mkSt (n_recv t) (n_recvb t) (n_disc t + 1) (n_discb t + len) (n_disc32 t + if trailer then 1 else 0) (n_lost t) (n_skip t).
Definition st_lost (t : stat) : stat :=
  mkSt (n_recv t) (n_recvb t) (n_disc t) (n_discb t) (n_disc32 t) (n_lost t + 1) (n_skip t).
Definition st_skip (t : stat) : stat :=
  mkSt (n_recv t) (n_recvb t) (n_disc t) (n_discb t) (n_disc32 t) (n_lost t) (n_skip t + 1).

(* the memory behind tgt and the place in it, lines 141-147 *)
Definition target (spare : bool) (s : ust) : res (bytes * N) :=
  if spare then Ok (u_spare s, 0)
  else match b_tgt (u_b s) with
       | None => UB
       | Some o => do m <- cur (u_b s); Ok (m, o)
       end.
Definition set_target (spare : bool) (s : ust) (m : bytes) : ust :=
  if spare then set_spare s m
  else let b := u_b s in
       set_bufs s (mkB (upd (b_queue b) (b_ready b) m) (b_ready b) (b_asg b) (b_tgt b) (b_send b) (b_room b) (b_out b)).

(* lines 214-221: shift over the accepted unit, close the buffer when it is full.
   The flag tells whether reading goes on.  The pointer stays inside the buffer as
   the unit and 32 more bytes were just compared there. *)
Definition accept (c : cfg) (b : bufs) (o n : N) : res (bufs * bool) :=
  let b1 := mkB (b_queue b) (b_ready b) (b_asg b) (Some (o + n)) (b_send b) (b_room b) (b_out b) in
  do raw <- rawsize b1;
  do m <- cur b1;
  if (raw <? c_mtu c) || c_full c (o + n) (lenN m) then
    do (b2, _) <- close_buffer b1;
    do b3 <- buffer_ready b2;
    assign c b3
  else Ok (b1, true).

(* the loop of NewAddon::ReadUdp UdpTransport.cxx:139-222 *)
Fixpoint read_loop (c : cfg) (cnt : nat) (spare : bool) (s : ust) : res ust :=
  match cnt with
  | O => Ok s
  | S k =>
    match u_sock s with
    | [] => Ok s
    | SErr :: r => Ok (set_sock s r)
    | SData p drop :: r =>
      let s := set_sock s r in
      let d := takeN (c_mtu c) p in
      if lenN d =? 0 then Ok (add_log s FEmpty p (u_stat s))
      else
        do (m, o) <- target spare s;
        do m1 <- setb m o d;
        let s := set_target spare s m1 in
        if drop && c_lost c then read_loop c k spare (add_log s FLost p (st_lost (u_stat s)))
        else
          let f := if spare then FSpare else FPool in
          do (good, trailer) <- judge m1 o (lenN d);
          if negb good then read_loop c k spare (add_log s f p (st_disc (u_stat s) (lenN d) trailer))
          else if spare then Ok (add_log s f p (st_disc (u_stat s) (lenN d) false))
          else
            do n <- padded m1 o;
            let s := add_log s f p (st_recv (u_stat s) (lenN d)) in
            do (b, more) <- accept c (u_b s) o n;
            if more : bool then read_loop c k spare (set_bufs s b) else Ok (set_bufs s b)
    end
  end.

(* NewAddon::ReadUdp UdpTransport.cxx:108-225 *)
Definition read_udp (c : cfg) (s : ust) : res ust :=
  if negb (u_run s) then Ok s
  else
    do z <- tgt_null (u_b s);
    do (s1, go) <- (if z then
                      do (b1, ok) <- assign c (u_b s);
                      let s1 := set_bufs s b1 in
                      if ok : bool then Ok (s1, Some false)
                      else if u_skip s1 <? 10 then Ok (set_skip s1 (u_skip s1 + 1) (st_skip (u_stat s1)), None)
                      else Ok (set_skip s1 (u_skip s1 + 1) (u_stat s1), Some true)
                    else Ok (s, Some false));
    match go with
    | None => Ok s1
    | Some true => read_loop c (c_loop c) true s1
    | Some false =>
      do raw <- rawsize (u_b s1);
      if raw <? c_mtu c then Ok s1
      else read_loop c (c_loop c) false (set_skip s1 0 (u_stat s1))
    end.

(* Events.  AArrive: something reaches the socket; APool: the memory pool puts a
   buffer into the queue; ARoom: the receiver of the output takes a buffer. *)
Inductive action :=
| AStart | AStop | ARead | AFlush | ABuffer | ASend
| AArrive (x : sitem) | APool (m : bytes) | ARoom.

Definition step (c : cfg) (s : ust) (a : action) : res ust :=
  match a with
  (* StartTransport 343-352, Notify 74-80 *)
  | AStart =>
    do (b, _) <- assign c (u_b s);
    Ok (mkU b (u_spare s) true (u_skip s) (u_last s) (u_sock s) (u_log s) (u_stat s))
  (* StopTransport 354-361, Notify 82-86 *)
  | AStop =>
    do s <- flush c true s;
    Ok (mkU (u_b s) (u_spare s) false (u_skip s) (u_last s) (u_sock s) (u_log s) (u_stat s))
  (* ProcessEvent 59-70, heartbeat timer 366-372 *)
  | ARead => read_udp c s
  (* flush timer 374-375 *)
  | AFlush => flush c false s
  (* ProcessBuffer 401-413 *)
  | ABuffer => do (b, ok) <- assign c (u_b s); if ok : bool then read_udp c (set_bufs s b) else Ok (set_bufs s b)
  | ASend =>
    if (b_room (u_b s) =? 0)%nat then Ok s
    else do (b, _) <- process_send (u_b s); Ok (set_bufs s b)
  | AArrive x => Ok (set_sock s (u_sock s ++ [x]))
  | APool m =>
    let b := u_b s in
    Ok (set_bufs s (mkB (b_queue b ++ [m]) (b_ready b) (b_asg b) (b_tgt b) (b_send b) (b_room b) (b_out b)))
  | ARoom =>
    let b := u_b s in
    Ok (set_bufs s (mkB (b_queue b) (b_ready b) (b_asg b) (b_tgt b) (b_send b) (S (b_room b)) (b_out b)))
  end.

Fixpoint run (c : cfg) (s : ust) (l : list action) : res ust :=
  match l with [] => Ok s | a :: l => do s1 <- step c s a; run c s1 l end.
