(* Model of one connection of an MBS server and its client: mbs::ServerOutputAddon
   (plugins/mbs/src/ServerTransport.cxx:23-285) with the dabc::OutputTransport which calls it
   (base/src/DataTransport.cxx:704-889, modelled in full in OutTrModel.v), and
   mbs::ClientTransport (plugins/mbs/src/ClientTransport.cxx:22-400) with the
   dabc::InputTransport which calls it (in full in InTrModel.v), over a socket connection
   which keeps order.  Each operation below is one event processed on one side.

   A started send puts its bytes into the connection at once; its completion is processed at
   any later time.  Both sides run on little endian hosts with the format of FillServInfo
   (new format, one buffer per stream), so there is neither swapping nor spanning.
   Not modelled: CLOSE and socket errors, EOF and EOL buffers, stopping, lost or late events
   of the threads, buffers whose pointer calls fail. *)
From Verif Require Import Common Bytes SrvSpec.
Local Open Scope N_scope.

(* OutputState, plugins/mbs/mbs/ServerTransport.h:47-58; oDoingClose is not reached here *)
Inductive ostate := oInit | oInitReq | oWaitingReq | oWaitingReqBack | oWaitingBuffer | oSendingEvents | oSendingLastEvent | oSendingBuffer | oError.
(* states of the OutputTransport between its events, DataTransport.h:150-161 *)
Inductive otstate := OReady | OTimeout | OWaitCall | OWaitFinish | OErr.

(* kind is StreamServer; an iterator is given; subevent id; what is left in iUsed of fHeader,
   which Init does not set *)
Record cfg := mkCfg { k_stream : bool; k_iter : bool; k_id : N; k_junk : N }.

(* fState; fHasExtraRequest; fEvCounter; events of the iterator from the current one on;
   transport: state, call-backs fired, its queue; a send is going on *)
Record srv := mkV { v_st : ostate; v_extra : bool; v_evc : N; v_todo : list (bytes * N); v_ot : otstate; v_cb : nat; v_q : list buf; v_busy : bool }.

(* Header::SetFullSize, LmdTypeDefs.h:56: uint32_t arithmetic *)
Definition words (sz : N) : N := (sz mod 2^32 + 2^32 - 8) mod 2^32 / 2.
(* MBS_TYPE, LmdTypeDefs.h:30 *)
Definition mtype (t : N) : N := t + 2^16.

(* TransportInfo filled by FillServInfo(0x400000, true), ServerTransport.cxx:45-53, 400 *)
Definition info : bytes := le 4 1 ++ le 4 4194304 ++ le 4 1 ++ le 4 0.
(* BufferHeader as filled by Write_Buffer, ServerTransport.cxx:259-263; MbsTypeDefs.cxx:122-136, 168-175 *)
Definition header (k : cfg) (sendsize : N) : bytes :=
  le 4 (words (sendsize + 2^32 - 48)) ++ le 4 (mtype 100) ++ le 4 (k_junk k) ++ le 4 0 ++ le 4 0 ++ le 4 0 ++ le 4 0 ++ le 4 0 ++
  le 4 1 ++ le 4 0 ++ le 4 (sendsize / 2) ++ le 4 0.
(* evsize, rounded up; lines 95-96 and 245-246 *)
Definition evsize (e : bytes * N) : N := lenN (fst e) + lenN (fst e) mod 2.
(* the three parts sent for one event, lines 98-104; one byte behind an odd event is read *)
Definition event_bytes (k : cfg) (n : N) (e : bytes * N) : bytes :=
  (le 4 (words (evsize e + 16 + 12)) ++ le 4 (mtype 10) ++ le 2 0 ++ le 2 1 ++ le 4 n) ++
  (le 4 (words (evsize e + 12)) ++ le 4 (mtype 10) ++ le 4 (k_id k)) ++
  takeN (evsize e) (fst e ++ [snd e]).

(* OnSendCompleted, lines 75-135 *)
Definition on_send (k : cfg) (v : srv) : srv * bytes :=
  match v_st v with
  | oInit => (mkV (if k_stream k then oWaitingReq else oWaitingBuffer) (v_extra v) (v_evc v) (v_todo v) (v_ot v) (v_cb v) (v_q v) false, [])
  | oInitReq => (mkV oWaitingBuffer (v_extra v) (v_evc v) (v_todo v) (v_ot v) (v_cb v) (v_q v) false, [])
  | oSendingEvents =>
      match v_todo v with
      | e :: r => (mkV (match r with [] => oSendingLastEvent | _ => oSendingEvents end) (v_extra v) (v_evc v + 1) r (v_ot v) (v_cb v) (v_q v) true,
                   event_bytes k (v_evc v) e)
      | [] => (v, [])
      end
  | oSendingLastEvent | oSendingBuffer =>
      (mkV (if k_stream k then (if v_extra v then oWaitingBuffer else oWaitingReq) else oWaitingBuffer) false (v_evc v) (v_todo v) (v_ot v) (S (v_cb v)) (v_q v) false, [])
  | _ => (v, [])
  end.

(* OnRecvCompleted with GETEVT, lines 137-180 *)
Definition on_recv (v : srv) : srv :=
  match v_st v with
  | oInit => mkV oInitReq false (v_evc v) (v_todo v) (v_ot v) (v_cb v) (v_q v) (v_busy v)
  | oWaitingBuffer => mkV oWaitingBuffer false (v_evc v) (v_todo v) (v_ot v) (v_cb v) (v_q v) (v_busy v)
  | oWaitingReq => mkV oWaitingBuffer false (v_evc v) (v_todo v) (v_ot v) (v_cb v) (v_q v) (v_busy v)
  | oWaitingReqBack => mkV oWaitingBuffer false (v_evc v) (v_todo v) (v_ot v) (S (v_cb v)) (v_q v) (v_busy v)
  | oSendingEvents | oSendingLastEvent | oSendingBuffer => mkV (v_st v) true (v_evc v) (v_todo v) (v_ot v) (v_cb v) (v_q v) (v_busy v)
  | _ => mkV oError false (v_evc v) (v_todo v) (v_ot v) (v_cb v) (v_q v) (v_busy v)
  end.

(* event evCallBack with do_Ok, DataTransport.cxx:704-736; a call-back at a wrong state, where
   the code only gives a message, is an error here *)
Definition on_call (v : srv) : srv :=
  match v_cb v with
  | O => v
  | S n =>
      let ot := match v_ot v with OWaitCall | OWaitFinish => OReady | _ => OErr end in
      mkV (v_st v) (v_extra v) (v_evc v) (v_todo v) ot n (v_q v) (v_busy v)
  end.

(* Write_Buffer, lines 227-274: nothing to send, or the size and what is sent first *)
Definition sizes (l : list (bytes * N)) : N := fold_right (fun e n => 16 + 12 + evsize e + n) 0 l.
Definition raws (l : list (bytes * N)) : N := fold_right (fun e n => evsize e + n) 0 l.
Definition write (k : cfg) (b : buf) (v : srv) (q : list buf) : srv * bytes :=
  let skip := (mkV (v_st v) (v_extra v) (v_evc v) (v_todo v) OReady (v_cb v) q (v_busy v), []) in
  if lenN (b_data b) =? 0 then skip
  else if k_iter k then
    if raws (b_events b) =? 0 then skip
    else (mkV oSendingEvents (v_extra v) (v_evc v) (b_events b) OWaitFinish (v_cb v) q true, header k (sizes (b_events b)))
  else (mkV oSendingBuffer (v_extra v) (v_evc v) (v_todo v) OWaitFinish (v_cb v) q true, header k (lenN (b_data b)) ++ b_data b).

(* the transport tries to write the next buffer, after an input event or the timer:
   DataTransport.cxx:738-842, 891-906 with Write_Check, ServerTransport.cxx:197-225 *)
Definition with_ot (st : ostate) (ot : otstate) (v : srv) : srv := mkV st (v_extra v) (v_evc v) (v_todo v) ot (v_cb v) (v_q v) (v_busy v).
Definition try_write (k : cfg) (v : srv) : srv * bytes :=
  match v_ot v with
  | OReady | OTimeout =>
      match v_q v with
      | [] => (with_ot (v_st v) OReady v, [])
      | b :: q =>
          match v_st v with
          | oInit | oInitReq => (with_ot (v_st v) OTimeout v, [])
          | oWaitingReq => (with_ot oWaitingReqBack OWaitCall v, [])
          | oWaitingBuffer => write k b v q
          | _ => (with_ot oError OErr v, [])
          end
      end
  | _ => (v, [])
  end.

(* ---- client ---- *)

(* EIOState, plugins/mbs/mbs/ClientTransport.h:40-51; ioInit and the closed states are not reached *)
Inductive cstate := ioRecvInfo | ioReady | ioRecvHeader | ioWaitBuffer | ioRecvBuffer | ioComplBuffer | ioError.
(* the InputTransport: about to call Read_Size; waiting for the size; for the data *)
Inductive itstate := IReady | IWaitSize | IWaitData | IErr.
Inductive ccall := CSize (n : N) | COk | CSkip | CErr.
(* fState; fPendingStart; fHeader; iMaxBytes of fServInfo; bytes received; transport: state,
   call-backs fired, buffers delivered *)
Record cli := mkC { c_st : cstate; c_pend : bool; c_hdr : bytes; c_max : N; c_buf : bytes; c_it : itstate; c_cb : list ccall; c_got : list bytes }.

(* word number [i] of a header *)
Definition word_at (i : N) (h : bytes) : N := unle (takeN 4 (dropN (4 * i) h)).
(* BufferLength and UsedBufferSize, MbsTypeDefs.cxx:138-166; ReadBufferSize, ClientTransport.cxx:61-70;
   the fields iUsedWords and i_used are signed in the code, negative values do not come from this server *)
Definition read_size (h : bytes) : N :=
  let n := if word_at 1 h =? mtype 100 then (48 + word_at 10 h * 2) mod 2^32 else if word_at 1 h =? mtype 10 then (48 + word_at 0 h * 2) mod 2^32 else 0 in
  if n <? 48 then 0 else n - 48.
Definition used_size (h : bytes) : N :=
  if word_at 1 h =? mtype 100 then word_at 10 h * 2 mod 2^32 else if word_at 1 h =? mtype 10 then unle (takeN 2 (dropN 8 h)) * 2 else 0.

(* SubmitRequest, lines 222-231: true when a request is sent *)
Definition submit (k : cfg) (c : cli) : cli * bool := (mkC ioRecvHeader (c_pend c) (c_hdr c) (c_max c) (c_buf c) (c_it c) (c_cb c) (c_got c), k_stream k).

(* OnRecvCompleted, lines 82-173; nothing happens before all bytes are there; other byte order
   and several streams are an error here *)
Definition c_recv (k : cfg) (c : cli) (down : bytes) : cli * bytes * bool :=
  match c_st c with
  | ioRecvInfo =>
      if lenN down <? 16 then (c, down, false)
      else
        let h := takeN 16 down in let r := dropN 16 down in
        let st := if (word_at 0 h =? 1) && (word_at 3 h =? 0) then ioReady else ioError in
        let c' := mkC st false (c_hdr c) (word_at 1 h) (c_buf c) (c_it c) (c_cb c) (c_got c) in
        if c_pend c then let '(c', b) := submit k c' in (c', r, b) else (c', r, false)
  | ioRecvHeader =>
      if lenN down <? 48 then (c, down, false)
      else
        let h := takeN 48 down in let r := dropN 48 down in
        if c_max c <? read_size h then (mkC ioError (c_pend c) h (c_max c) (c_buf c) (c_it c) (c_cb c ++ [CErr]) (c_got c), r, false)
        else if read_size h =? 0 then (mkC ioReady (c_pend c) h (c_max c) (c_buf c) (c_it c) (c_cb c ++ [CSkip]) (c_got c), r, false)
        else (mkC ioWaitBuffer (c_pend c) h (c_max c) (c_buf c) (c_it c) (c_cb c ++ [CSize (read_size h)]) (c_got c), r, false)
  | ioRecvBuffer =>
      if lenN down <? read_size (c_hdr c) then (c, down, false)
      else
        let d := takeN (read_size (c_hdr c)) down in let r := dropN (read_size (c_hdr c)) down in
        if used_size (c_hdr c) =? 0 then (mkC ioError (c_pend c) (c_hdr c) (c_max c) d (c_it c) (c_cb c ++ [CErr]) (c_got c), r, false)
        else (mkC ioComplBuffer (c_pend c) (c_hdr c) (c_max c) d (c_it c) (c_cb c ++ [COk]) (c_got c), r, false)
  | _ => (c, down, false)
  end.

(* the transport calls Read_Size, lines 248-263 *)
Definition c_read (k : cfg) (c : cli) : cli * bool :=
  match c_it c with
  | IReady =>
      match c_st c with
      | ioRecvInfo => (mkC (c_st c) true (c_hdr c) (c_max c) (c_buf c) IWaitSize (c_cb c) (c_got c), false)
      | ioReady => submit k (mkC (c_st c) (c_pend c) (c_hdr c) (c_max c) (c_buf c) IWaitSize (c_cb c) (c_got c))
      | _ => (mkC (c_st c) (c_pend c) (c_hdr c) (c_max c) (c_buf c) IErr (c_cb c) (c_got c), false)
      end
  | _ => (c, false)
  end.
(* the transport processes a call-back: a buffer of the size asked for and Read_Start (lines
   265-312), Read_Complete (lines 314-400) and delivery, or the next try *)
Definition with_it (st : cstate) (it : itstate) (cb : list ccall) (got : list bytes) (c : cli) : cli := mkC st (c_pend c) (c_hdr c) (c_max c) (c_buf c) it cb got.
Definition c_call (c : cli) : cli :=
  match c_cb c with
  | [] => c
  | x :: r =>
      match c_it c, x with
      | IWaitSize, CSize n =>
          match c_st c with
          | ioWaitBuffer => if n <? read_size (c_hdr c) then with_it (c_st c) IErr r (c_got c) c else with_it ioRecvBuffer IWaitData r (c_got c) c
          | _ => with_it (c_st c) IErr r (c_got c) c
          end
      | IWaitSize, CSkip | IWaitData, CSkip => with_it (c_st c) IReady r (c_got c) c
      | IWaitData, COk =>
          match c_st c with
          | ioComplBuffer => with_it ioReady IReady r (c_got c ++ [takeN (used_size (c_hdr c)) (c_buf c)]) c
          | _ => with_it (c_st c) IErr r (c_got c) c
          end
      | _, _ => with_it (c_st c) IErr r (c_got c) c
      end
  end.

(* ---- both ---- *)

(* server, client, requests and bytes on their way; counters of requests and packets, for the
   theorems only *)
Record sys := mkW { w_v : srv; w_c : cli; w_up : nat; w_down : bytes; w_asked : nat; w_sent : nat }.
(* OnThreadAssigned of both, ServerTransport.cxx:55-66, ClientTransport.cxx:194-210 *)
Definition start : sys :=
  mkW (mkV oInit false 0 [] OReady 0 [] true) (mkC ioRecvInfo false [] 0 [] IReady [] []) 0 info 0 0.

Inductive op := Put (b : buf) | SSend | SRecv | SCall | STry | CRecv | CRead | CCall.
Definition one (b : bool) : nat := if b then 1%nat else 0%nat.
Definition step (k : cfg) (w : sys) (o : op) : sys :=
  let v := w_v w in let c := w_c w in
  match o with
  | Put b => mkW (mkV (v_st v) (v_extra v) (v_evc v) (v_todo v) (v_ot v) (v_cb v) (v_q v ++ [b]) (v_busy v)) c (w_up w) (w_down w) (w_asked w) (w_sent w)
  | SSend => if v_busy v then let '(v', d) := on_send k v in mkW v' c (w_up w) (w_down w ++ d) (w_asked w) (w_sent w) else w
  | SRecv => match w_up w with S n => mkW (on_recv v) c n (w_down w) (w_asked w) (w_sent w) | O => w end
  | SCall => mkW (on_call v) c (w_up w) (w_down w) (w_asked w) (w_sent w)
  | STry => let '(v', d) := try_write k v in mkW v' c (w_up w) (w_down w ++ d) (w_asked w) (w_sent w + one (match d with [] => false | _ => true end))
  | CRecv => let '(c', r, b) := c_recv k c (w_down w) in mkW v c' (w_up w + one b) r (w_asked w + one b) (w_sent w)
  | CRead => let '(c', b) := c_read k c in mkW v c' (w_up w + one b) (w_down w) (w_asked w + one b) (w_sent w)
  | CCall => mkW v (c_call c) (w_up w) (w_down w) (w_asked w) (w_sent w)
  end.
Definition run (k : cfg) (l : list op) (w : sys) : sys := fold_left (step k) l w.
Definition puts (l : list op) : list buf := flat_map (fun o => match o with Put b => [b] | _ => [] end) l.
Definition internal (o : op) : Prop := match o with Put _ => False | _ => True end.
