(* Model of dabc::OutputTransport (/repo/base/dabc/DataTransport.h:146-225,
   /repo/base/src/DataTransport.cxx:577-921) with the parts of dabc::Transport,
   dabc::ModuleAsync and dabc::Timer it relies on.

   The DataOutput object is arbitrary: its answers are given by two functions
   of everything observed so far ([ora] for the codes, [orab] for Write_Retry
   and Write_Init).  The input port is the list of buffers waiting in it (the
   queue itself is modelled in TransportModel.v).  All functions run in the
   thread of the transport; a step is one event processed by that thread.

   Not modelled: ProvideInfo (no effect on data), Read/Write statistics,
   RestartTransport, construction without DataOutput, what happens after the
   object is destroyed (DeleteThis), the time values. *)
From Verif Require Import Common OutTrSpec.

(* EOutputStates, DataTransport.h:150-161 *)
Inductive ostate :=
| outReady | outInitTimeout | outWaitCallback | outStartWriting | outWaitFinishCallback
| outFinishWriting | outError | outClosing | outClosed | outRetry.

(* ETransportState, Transport.h:42-47 *)
Inductive tstate := stInit | stRunning | stStopped | stError.

Record ot := mkOT {
  o_state : ostate;        (* fOutState *)
  o_out : bool;            (* fOutput is not null *)
  o_cur : option buf;      (* fCurrentBuf *)
  o_stop : bool;           (* fStopRequested *)
  o_tr : tstate;           (* fTransportState *)
  o_run : bool;            (* fRunState of the module; Timer::fActive is the same *)
  o_timer : bool;          (* timeout of the module armed *)
  o_conn : bool;           (* the port has a queue *)
  o_q : list buf;          (* what is in it *)
  o_dead : bool;           (* fTransportDevice.DeviceDestroyed() *)
  o_log : list obs         (* newest first *)
}.

Definition set_state s x := mkOT x (o_out s) (o_cur s) (o_stop s) (o_tr s) (o_run s) (o_timer s) (o_conn s) (o_q s) (o_dead s) (o_log s).
Definition set_stop s x := mkOT (o_state s) (o_out s) (o_cur s) x (o_tr s) (o_run s) (o_timer s) (o_conn s) (o_q s) (o_dead s) (o_log s).
Definition set_tr s x := mkOT (o_state s) (o_out s) (o_cur s) (o_stop s) x (o_run s) (o_timer s) (o_conn s) (o_q s) (o_dead s) (o_log s).
Definition set_run s x := mkOT (o_state s) (o_out s) (o_cur s) (o_stop s) (o_tr s) x (o_timer s) (o_conn s) (o_q s) (o_dead s) (o_log s).
Definition set_timer s x := mkOT (o_state s) (o_out s) (o_cur s) (o_stop s) (o_tr s) (o_run s) x (o_conn s) (o_q s) (o_dead s) (o_log s).
Definition set_cur s x := mkOT (o_state s) (o_out s) x (o_stop s) (o_tr s) (o_run s) (o_timer s) (o_conn s) (o_q s) (o_dead s) (o_log s).
Definition set_q s x := mkOT (o_state s) (o_out s) (o_cur s) (o_stop s) (o_tr s) (o_run s) (o_timer s) (o_conn s) x (o_dead s) (o_log s).
Definition set_dead s := mkOT (o_state s) (o_out s) (o_cur s) (o_stop s) (o_tr s) (o_run s) (o_timer s) (o_conn s) (o_q s) true (o_log s).
Definition add s o := mkOT (o_state s) (o_out s) (o_cur s) (o_stop s) (o_tr s) (o_run s) (o_timer s) (o_conn s) (o_q s) (o_dead s) (o :: o_log s).

(* constructor, DataTransport.cxx:577-596, with a DataOutput, port connected *)
Definition ot_new : ot := mkOT outReady true None false stInit false false true [] false [].

(* SuitableStateForStartStop, DataTransport.h:178-183 *)
Definition suitable (x : ostate) : bool :=
  match x with outReady | outError | outClosed => true | _ => false end.

(* Transport::StopTransport, Transport.cxx:231-240; DoStop, Module.cxx:586-605,
   disables the timeout of the module *)
Definition base_stop (s : ot) : ot := if o_run s then set_timer (set_run s false) false else s.

(* StopTransport, DataTransport.cxx:666-681 *)
Definition stop_transport (s : ot) : ot :=
  if suitable (o_state s) then base_stop (set_stop s false) else set_stop s true.

(* ChangeState, DataTransport.cxx:636-643 *)
Definition change (s : ot) (x : ostate) : ot :=
  let s1 := set_state s x in
  if o_stop s1 && suitable x then stop_transport s1 else s1.

(* CloseOutput, DataTransport.cxx:625-634 *)
Definition close_output (s : ot) : ot :=
  let s1 := if o_out s then add s ODelete else s in
  mkOT (o_state s1) false None (o_stop s1) (o_tr s1) (o_run s1) (o_timer s1) (o_conn s1) (o_q s1) (o_dead s1) (o_log s1).

(* CloseTransport, Transport.cxx:196-200: the port loses its queue
   (LocalTransportRef::Disconnect, LocalTransport.h:154) *)
Definition close_transport (s : ot) (err : bool) : ot :=
  let s1 := add s (OClose err) in
  mkOT (o_state s1) (o_out s1) (o_cur s1) (o_stop s1) (o_tr s1) (o_run s1) (o_timer s1) false [] (o_dead s1) (o_log s1).

(* Recv(port): takes the first buffer of the queue *)
Definition take (s : ot) (b : buf) (r : list buf) : ot := set_q (add s (OTake b)) r.

Section Run.
Variable ora : list obs -> code.
Variable orab : list obs -> bool.
Variable retry : bool.            (* fRetryPeriod >= 0 *)
Variable lim : option nat.        (* GetMaxLoopLength() of the port; None: negative *)

(* CloseOnError, DataTransport.cxx:691-701; ShootTimer with a negative delay
   disarms the timeout *)
Definition close_on_error (s : ot) : ot :=
  let '(s1, keep) :=
    if negb retry || negb (o_out s) then (s, false)
    else let r := orab (o_log s) in (add s (ORetry r), r) in
  let s2 := if keep then s1 else close_transport (close_output (change s1 outClosed)) true in
  set_timer (change s2 outRetry) retry.

(* parts of ProcessRecv: new state and, when the function returns, its result *)
Definition part : Type := ot -> res (ot * option bool).

(* switch over the answer of Write_Check, DataTransport.cxx:779-804 *)
Definition after_check (s : ot) (c : code) : res (ot * option bool) :=
  match c with
  | COk => Ok (change s outStartWriting, None)
  | CRepeat => Ok (s, Some true)
  | CRepeatTimeOut => Ok (set_timer (change s outInitTimeout) true, Some false)
  | CCallBack => Ok (change s outWaitCallback, Some false)
  | CSkip => match o_q s with
             | b :: r => Ok (take s b r, Some true)
             | [] => UB
             end
  | CClose => Ok (change s outClosing, None)
  | CError | COther => Ok (change s outError, None)
  end.

(* lines 755-805 *)
Definition p_ready : part := fun s =>
  match o_state s with
  | outReady =>
    match o_q s with
    | [] => UB                                   (* no buffer to look at *)
    | b :: r =>
      match fst b with
      | KEof => after_check (take s b r) CClose
      | KEol => if o_out s then Ok (take (add s OFlush) b r, Some true) else UB
      | KData =>
        if o_out s then
          let c := ora (o_log s) in after_check (add s (OCheck c)) c
        else UB
      end
    end
  | _ => Ok (s, None)
  end.

(* lines 807-813 *)
Definition p_wait : part := fun s =>
  match o_state s with
  | outInitTimeout | outWaitCallback => Ok (s, Some false)
  | _ => Ok (s, None)
  end.

(* lines 815-842 *)
Definition p_start : part := fun s =>
  match o_state s with
  | outStartWriting =>
    match o_q s with
    | [] => UB
    | b :: r =>
      let s1 := set_cur (take s b r) (Some b) in
      if o_out s1 then
        let c := ora (o_log s1) in
        let s2 := add s1 (OWrite b c) in
        match c with
        | COk => Ok (change s2 outFinishWriting, None)
        | CCallBack => Ok (change s2 outWaitFinishCallback, Some false)
        | CSkip => Ok (change s2 outReady, Some true)
        | CClose => Ok (change s2 outClosing, None)
        | _ => Ok (change s2 outError, None)
        end
      else UB
    end
  | _ => Ok (s, None)
  end.

(* lines 844-847 *)
Definition p_wait2 : part := fun s =>
  match o_state s with
  | outWaitFinishCallback => Ok (s, Some false)
  | _ => Ok (s, None)
  end.

(* lines 849-869 *)
Definition p_finish : part := fun s =>
  match o_state s with
  | outFinishWriting =>
    let s1 := set_cur s None in
    if o_out s1 then
      let c := ora (o_log s1) in
      let s2 := add s1 (OComplete c) in
      Ok (change s2 (match c with COk => outReady | CClose => outClosing | _ => outError end), None)
    else UB
  | _ => Ok (s, None)
  end.

(* lines 871-888 *)
Definition p_end : part := fun s =>
  match o_state s with
  | outClosing => Ok (close_transport (close_output (change s outClosed)) false, Some false)
  | outError => Ok (close_on_error s, Some false)
  | _ => Ok (s, Some true)
  end.

Fixpoint seq_parts (l : list part) (s : ot) : res (ot * bool) :=
  match l with
  | [] => Ok (s, true)
  | p :: r => do (s1, ret) <- p s;
              match ret with Some b => Ok (s1, b) | None => seq_parts r s1 end
  end.

(* ProcessRecv, DataTransport.cxx:738-889; lines 743-753 first *)
Definition process_recv (s : ot) : res (ot * bool) :=
  let s0 := if o_out s then s else change s outError in
  if o_dead s0 then
    Ok (close_transport (close_output (change (add s0 ODevice) outClosed)) false, false)
  else seq_parts [p_ready; p_wait; p_start; p_wait2; p_finish; p_end] s0.

(* ProcessInputEvent, ModuleAsync.cxx:110-125; second result: the event is
   fired once more *)
Fixpoint in_loop (n : nat) (s : ot) : res (ot * bool) :=
  if o_run s && (o_conn s && match o_q s with [] => false | _ => true end) then
    do (s1, go) <- process_recv s;
    if go then match n with O => Ok (s1, true) | S m => in_loop m s1 end
    else Ok (s1, false)
  else Ok (s, false).

Definition process_input (s : ot) : res (ot * bool) :=
  match lim with
  | Some n => in_loop n s
  | None =>
    if o_run s && (o_conn s && match o_q s with [] => false | _ => true end) then
      do (s1, _) <- process_recv s; Ok (s1, false)
    else Ok (s, false)
  end.

(* ProcessTimerEvent, DataTransport.cxx:891-906 *)
Definition process_timer (s : ot) : res ot :=
  let s1 := match o_state s with outInitTimeout => change s outReady | _ => s end in
  match o_state s1 with
  | outRetry =>
    if o_out s1 then
      let r := orab (o_log s1) in
      let s2 := add s1 (OInit r) in
      if r then do (s3, _) <- process_input (change s2 outReady); Ok s3
      else Ok (set_timer s2 retry)
    else Ok (set_timer s1 retry)
  | _ => do (s2, _) <- process_input s1; Ok s2
  end.

(* ProcessEvent for evCallBack, DataTransport.cxx:704-736 *)
Definition process_callback (s : ot) (c : code) : res ot :=
  match c with
  | COk =>
    match o_state s with
    | outWaitCallback => do (s1, _) <- process_input (change s outReady); Ok s1
    | outWaitFinishCallback =>
      do (s1, go) <- process_recv (change s outFinishWriting);
      if go then do (s2, _) <- process_input s1; Ok s2 else Ok s1
    | _ => Ok s
    end
  | _ => Ok (close_on_error (add s OFailed))
  end.

(* StartTransport, DataTransport.cxx:646-664, called by
   Transport::ProcessConnectionActivated, Transport.cxx:141-173 *)
Definition start_transport (s : ot) : ot :=
  match o_tr s with
  | stInit | stStopped =>
    let s1 := set_stop (set_run s true) false in
    set_tr s1 (if o_out s1 then stRunning else stError)
  | _ => s
  end.

Definition step (s : ot) (e : oev) : res ot :=
  match e with
  | EvArrive b => Ok (if o_conn s then set_q s (o_q s ++ [b]) else s)
  | EvInput => do (s1, _) <- process_input s; Ok s1
  | EvTimer =>
    (* Timer::ProcessTimeout, ModuleItem.cxx:122-144: nothing is called for a
       timer that is not active; the period of the timer is negative *)
    if o_timer s then
      let s1 := set_timer s false in if o_run s1 then process_timer s1 else Ok s1
    else Ok s
  | EvCall c => process_callback s c
  | EvStart => Ok (start_transport s)
  | EvStop => Ok (match o_tr s with stRunning => set_tr (stop_transport s) stStopped | _ => s end)
  | EvDevice => Ok (set_dead s)
  end.

Fixpoint run (s : ot) (l : list oev) : res ot :=
  match l with [] => Ok s | e :: r => do s1 <- step s e; run s1 r end.

(* the events the transport fires for itself, processed one after another *)
Fixpoint drain (n : nat) (s : ot) : res ot :=
  match n with
  | O => Ok s
  | S m => do (s1, again) <- process_input s; if again then drain m s1 else Ok s1
  end.
End Run.
