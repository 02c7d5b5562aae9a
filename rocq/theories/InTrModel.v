(* Model of dabc::InputTransport (/repo/base/dabc/DataTransport.h:50-135,
   /repo/base/src/DataTransport.cxx:21-573) with the parts of dabc::Transport,
   dabc::ModuleAsync, dabc::Timer and dabc::LocalTransport it relies on.

   The DataInput object is arbitrary: its answers are functions of everything
   observed so far.  It may make its call-back while Read_Size or Read_Start
   runs ([ocb]).  While any of its functions runs the receiver, in another
   thread, may take buffers, connect or disconnect ([env]).  All functions run
   in the thread of the transport; a step is one event processed by it.

   Not modelled: the content of the pool buffers (only the size matters),
   fPoolRef and ProcessPoolChanged, fActivateWorkaround (call-back that
   processes the event itself), a transport without memory pool, commands for
   statistics, what happens after the object is destroyed (DeleteThis), the
   time values. *)
From Verif Require Import Common InTrSpec.

(* EInputStates, DataTransport.h:54-72; inpBegin is never used *)
Inductive istate :=
| inpInit | inpInitTimeout | inpSizeCallBack | inpCheckSize | inpNeedBuffer | inpWaitBuffer
| inpCheckBuffer | inpHasBuffer | inpCallBack | inpCompleting | inpComplitTimeout | inpReady
| inpError | inpEnd | inpReconnect | inpClosed.

(* ETransportState, Transport.h:42-47 *)
Inductive tstate := stInit | stRunning | stStopped | stError.

(* The queue behind the port, LocalTransport.h:38-63.  [q_own]: our port is
   connected to it; [q_in]: the receiver is; [q_over]: a buffer was sent to a
   full queue that does not drop buffers - LocalTransport.cxx:95-101 ends the
   process then, here it is only recorded *)
Record port := mkPort { q_own : bool; q_cap : nat; q_size : nat; q_in : bool; q_bc : bool; q_bu : bool; q_over : bool }.

(* NumCanSend, LocalTransport.h:86-92, and for a port without queue LocalTransport.h:142 *)
Definition num_can_send (p : port) : nat :=
  if q_own p then
    if Nat.ltb (q_size p) (q_cap p) then q_cap p - q_size p
    else if (if q_in p then q_bc p else q_bu p) then 0 else 1
  else 1.
Definition can_send (p : port) : bool := Nat.ltb 0 (num_can_send p).

(* LocalTransport::Send, LocalTransport.cxx:56-139: in a full queue the oldest
   buffer is dropped *)
Definition p_send (p : port) : port :=
  mkPort (q_own p) (q_cap p) (if q_own p then Nat.min (q_cap p) (S (q_size p)) else q_size p) (q_in p) (q_bc p) (q_bu p)
    (q_over p || (q_own p && Nat.leb (q_cap p) (q_size p) && (if q_in p then q_bc p else q_bu p))).

Definition p_ev (p : port) (e : pev) : port :=
  match e with
  | PRecv => mkPort (q_own p) (q_cap p) (if q_in p then Nat.pred (q_size p) else q_size p) (q_in p) (q_bc p) (q_bu p) (q_over p)
  | PConn => mkPort (q_own p) (q_cap p) (q_size p) true (q_bc p) (q_bu p) (q_over p)
  | PDisc => mkPort (q_own p) (q_cap p) (q_size p) false (q_bc p) (q_bu p) (q_over p)
  end.

Record it := mkIT {
  i_state : istate;         (* fInpState *)
  i_inp : bool;             (* fInput is not null *)
  i_cur : option N;         (* fCurrentBuf: None is null *)
  i_csz : N;                (* ... its size, when it comes from the pool *)
  i_size : scode;           (* fNextDataSize *)
  i_ext : nat;              (* fExtraBufs *)
  i_stop : bool;            (* fStopRequested *)
  i_tr : tstate;            (* fTransportState *)
  i_run : bool;             (* fRunState of the module *)
  i_timer : bool;           (* timeout of the module armed *)
  i_port : port;
  i_dead : bool;            (* fTransportDevice.DeviceDestroyed() *)
  i_exit : bool;            (* the process has ended *)
  i_log : list iobs         (* newest first *)
}.

Definition w_state s x := mkIT x (i_inp s) (i_cur s) (i_csz s) (i_size s) (i_ext s) (i_stop s) (i_tr s) (i_run s) (i_timer s) (i_port s) (i_dead s) (i_exit s) (i_log s).
Definition w_inp s x := mkIT (i_state s) x (i_cur s) (i_csz s) (i_size s) (i_ext s) (i_stop s) (i_tr s) (i_run s) (i_timer s) (i_port s) (i_dead s) (i_exit s) (i_log s).
Definition w_cur s x z := mkIT (i_state s) (i_inp s) x z (i_size s) (i_ext s) (i_stop s) (i_tr s) (i_run s) (i_timer s) (i_port s) (i_dead s) (i_exit s) (i_log s).
Definition w_size s x := mkIT (i_state s) (i_inp s) (i_cur s) (i_csz s) x (i_ext s) (i_stop s) (i_tr s) (i_run s) (i_timer s) (i_port s) (i_dead s) (i_exit s) (i_log s).
Definition w_ext s x := mkIT (i_state s) (i_inp s) (i_cur s) (i_csz s) (i_size s) x (i_stop s) (i_tr s) (i_run s) (i_timer s) (i_port s) (i_dead s) (i_exit s) (i_log s).
Definition w_stop s x := mkIT (i_state s) (i_inp s) (i_cur s) (i_csz s) (i_size s) (i_ext s) x (i_tr s) (i_run s) (i_timer s) (i_port s) (i_dead s) (i_exit s) (i_log s).
Definition w_tr s x := mkIT (i_state s) (i_inp s) (i_cur s) (i_csz s) (i_size s) (i_ext s) (i_stop s) x (i_run s) (i_timer s) (i_port s) (i_dead s) (i_exit s) (i_log s).
Definition w_run s x := mkIT (i_state s) (i_inp s) (i_cur s) (i_csz s) (i_size s) (i_ext s) (i_stop s) (i_tr s) x (i_timer s) (i_port s) (i_dead s) (i_exit s) (i_log s).
Definition w_timer s x := mkIT (i_state s) (i_inp s) (i_cur s) (i_csz s) (i_size s) (i_ext s) (i_stop s) (i_tr s) (i_run s) x (i_port s) (i_dead s) (i_exit s) (i_log s).
Definition w_port s x := mkIT (i_state s) (i_inp s) (i_cur s) (i_csz s) (i_size s) (i_ext s) (i_stop s) (i_tr s) (i_run s) (i_timer s) x (i_dead s) (i_exit s) (i_log s).
Definition w_dead s := mkIT (i_state s) (i_inp s) (i_cur s) (i_csz s) (i_size s) (i_ext s) (i_stop s) (i_tr s) (i_run s) (i_timer s) (i_port s) true (i_exit s) (i_log s).
Definition w_exit s := mkIT (i_state s) (i_inp s) (i_cur s) (i_csz s) (i_size s) (i_ext s) (i_stop s) (i_tr s) (i_run s) (i_timer s) (i_port s) (i_dead s) true (OExit :: i_log s).
Definition note s o := mkIT (i_state s) (i_inp s) (i_cur s) (i_csz s) (i_size s) (i_ext s) (i_stop s) (i_tr s) (i_run s) (i_timer s) (i_port s) (i_dead s) (i_exit s) (o :: i_log s).

(* constructor, DataTransport.cxx:21-39, with a DataInput, port connected to an
   empty queue of the given size *)
Definition it_new (cap : nat) (bc bu : bool) : it :=
  mkIT inpInit true None 0%N (SSize 0) 0 false stInit false false (mkPort true cap 0 true bc bu false) false false [].

(* SuitableStateForStartStop, DataTransport.h:98-104 *)
Definition suitable (x : istate) : bool :=
  match x with inpInit | inpReady | inpError | inpClosed => true | _ => false end.

(* Transport::StopTransport, Transport.cxx:231-240; DoStop, Module.cxx:586-605,
   disables the timeout of the module *)
Definition base_stop (s : it) : it := if i_run s then w_timer (w_run s false) false else s.

(* StopTransport, DataTransport.cxx:105-121 *)
Definition stop_transport (s : it) : it :=
  if suitable (i_state s) then base_stop (w_stop s false) else w_stop s true.

(* ChangeState, DataTransport.cxx:260-269 *)
Definition change (s : it) (x : istate) : it :=
  let s1 := w_state s x in
  if i_stop s1 && suitable x then base_stop (w_stop s1 false) else s1.

(* CloseInput, DataTransport.cxx:141-150 *)
Definition close_input (s : it) : it := w_inp (if i_inp s then note s OGone else s) false.

(* CloseTransport, Transport.cxx:196-200: the port loses its queue
   (LocalTransportRef::Disconnect, LocalTransport.h:154) *)
Definition close_transport (s : it) (err : bool) : it :=
  let p := i_port s in
  w_port (note s (OClose err)) (mkPort false (q_cap p) 0 (q_in p) (q_bc p) (q_bu p) (q_over p)).

(* Send(fCurrentBuf): the buffer is null afterwards (Port.cxx:347-362,
   LocalTransport.cxx:63,95-101) *)
Definition send_cur (s : it) : it :=
  let s1 := note s (OSend (i_cur s)) in
  w_cur (match i_cur s with Some _ => w_port s1 (p_send (i_port s1)) | None => s1 end) None 0%N.

(* Read_CallBack, DataTransport.cxx:220-257, without the event fired at its end *)
Definition read_callback (s : it) (c : scode) : it :=
  let s0 := note s (OCall c) in
  let s1 := match c with SQueue => if Nat.eqb (i_ext s0) 0 then s0 else w_state s0 inpCallBack | _ => s0 end in
  match i_state s1 with
  | inpInit => if Nat.eqb (i_ext s1) 0 then w_exit s1 else w_state s1 inpCompleting
  | inpSizeCallBack => w_size (w_state s1 inpCheckSize) c
  | inpCallBack => w_state s1 inpCompleting
  | _ => w_state s1 inpError
  end.

Section Run.
Variable osize : list iobs -> scode.
Variable ostart : list iobs -> stcode * bool.      (* true: the object keeps the buffer *)
Variable ocomp : list iobs -> cpcode * option N.
Variable ocb : list iobs -> option scode.          (* call-back from inside Read_Size / Read_Start *)
Variable opool : list iobs -> option N.            (* pool buffer and its size *)
Variable ocreate : list iobs -> bool.              (* CreateDataInput *)
Variable env : list iobs -> list pev.              (* receiver, during a call of the object *)
Variable auto : bool.                              (* IsAutoPool() *)
Variable recon : bool.                             (* fReconnect is not empty *)
Variable lim : option nat.                         (* GetMaxLoopLength() of the port; None: negative *)

(* the receiver acts while the object works *)
Definition meanwhile (s : it) : it := w_port s (fold_left p_ev (env (i_log s)) (i_port s)).
Definition inside (s : it) : it :=
  match ocb (i_log s) with Some c => read_callback s c | None => s end.

Definition part : Type := it -> res (it * option bool).

(* lines 277, 286-293 *)
Definition p_closed : part := fun s =>
  match i_state s with inpClosed => Ok (s, Some false) | _ =>
    if i_dead s then Ok (close_transport (change (close_input s) inpClosed) false, Some false)
    else Ok (s, None)
  end.

(* lines 295-319 *)
Definition p_recon : part := fun s =>
  match i_state s with
  | inpReconnect =>
    if i_inp s then Ok (close_transport s true, Some false)
    else if negb recon then Ok (close_transport s true, Some false)
    else let ok := ocreate (i_log s) in
         let s1 := note s (OCreate ok) in
         if ok then Ok (change (w_inp s1 true) inpInit, None)
         else Ok (w_timer s1 true, Some false)
  | _ => Ok (s, None)
  end.

(* lines 321-330 *)
Definition p_noinp : part := fun s =>
  if i_inp s then
    match i_state s with
    | inpSizeCallBack | inpInitTimeout | inpComplitTimeout => Ok (s, Some false)
    | _ => Ok (s, None)
    end
  else Ok (close_transport s true, Some false).

(* lines 338-377 *)
Definition p_init : part := fun s =>
  match i_state s with
  | inpInit =>
    if negb (match i_tr s with stRunning => true | _ => false end) then Ok (s, Some false)
    else if Nat.ltb 0 (i_ext s) && Nat.leb (num_can_send (i_port s)) (i_ext s) then
      Ok (change s inpCallBack, Some false)
    else if Nat.eqb (num_can_send (i_port s)) 0 then Ok (w_exit s, Some false)
    else if i_inp s then
      let s1 := inside (meanwhile (w_size (w_state s inpSizeCallBack) (SSize 0))) in
      if i_exit s1 then Ok (s1, Some false) else
      let c := osize (i_log s1) in
      let s2 := note s1 (OSize c) in
      match c with
      | SCallBack => Ok (s2, Some (match i_state s2 with inpSizeCallBack => false | _ => true end))
      | SRepeat => Ok (w_state s2 inpInit, Some true)
      | SRepeatTO => Ok (w_timer (change (w_state s2 inpInit) inpInitTimeout) true, Some false)
      | _ => Ok (change (w_size (w_state s2 inpInit) c) inpCheckSize, None)
      end
    else UB
  | _ => Ok (s, None)
  end.

(* lines 379-407 *)
Definition p_size : part := fun s =>
  match i_state s with
  | inpCheckSize =>
    match i_size s with
    | SEnd => Ok (change s inpEnd, None)
    | SDflt => Ok (w_size (change s inpNeedBuffer) (SSize 0), None)
    | SSize _ => Ok (change s inpNeedBuffer, None)
    | _ => Ok (change s inpError, None)
    end
  | _ => Ok (s, None)
  end.

(* lines 411-428 *)
Definition p_need : part := fun s =>
  match i_state s with
  | inpNeedBuffer =>
    match opool (i_log s) with
    | Some z => Ok (change (note (w_cur s (Some 0%N) z) (OTake z)) inpCheckBuffer, None)
    | None => let s1 := w_cur s None 0%N in
              if auto then Ok (change s1 inpWaitBuffer, Some false)
              else Ok (w_timer s1 true, Some false)
    end
  | _ => Ok (s, None)
  end.

(* lines 430-441; GetTotalSize of a null buffer is 0 *)
Definition p_check : part := fun s =>
  match i_state s with
  | inpCheckBuffer =>
    let n := match i_size s with SSize n => n | _ => 0%N end in
    let z := match i_cur s with Some _ => i_csz s | None => 0%N end in
    if (z <? n)%N then Ok (change s inpError, None)
    else Ok (change s inpHasBuffer, None)
  | _ => Ok (s, None)
  end.

(* lines 443-479 *)
Definition p_has : part := fun s =>
  match i_state s with
  | inpHasBuffer =>
    if i_inp s then
      let s1 := inside (meanwhile (w_state s inpCallBack)) in
      if i_exit s1 then Ok (s1, Some false) else
      let (c, keep) := ostart (i_log s1) in
      let s2 := note (if keep then w_cur s1 None 0%N else s1) (OStart c) in
      let again := match i_state s2 with inpCallBack => false | _ => true end in
      match c with
      | StOk => Ok (change s2 inpCompleting, None)
      | StMore => Ok (change (w_ext s2 (S (i_ext s2))) inpInit, Some true)
      | StEnough => Ok (w_ext s2 (S (i_ext s2)), Some again)
      | StCallBack => Ok (s2, Some again)
      | StBad => Ok (change s2 inpError, None)
      end
    else UB
  | _ => Ok (s, None)
  end.

(* lines 482-485 *)
Definition p_cb : part := fun s =>
  match i_state s with inpCallBack => Ok (s, Some false) | _ => Ok (s, None) end.

(* lines 487-535 *)
Definition p_compl : part := fun s =>
  match i_state s with
  | inpCompleting =>
    let isnull := match i_cur s with None => true | Some _ => false end in
    if Bool.eqb (Nat.eqb (i_ext s) 0) isnull then Ok (s, Some false)      (* lines 489-497 *)
    else if i_inp s then
      let s1 := meanwhile s in
      let (c, d) := ocomp (i_log s1) in
      let s2 := note (w_cur s1 d (i_csz s1)) (OComplete c d) in
      let s3 := w_ext s2 (Nat.pred (i_ext s2)) in
      match c with
      | CpOk => Ok (change s3 inpReady, None)
      | CpMore => if Nat.eqb (num_can_send (i_port s3)) 0 then Ok (w_exit s3, Some false)
                  else Ok (send_cur s3, Some true)
      | CpSkip => Ok (change (w_cur s3 None 0%N) inpInit, None)
      | CpEnd => Ok (change (w_cur s3 None 0%N) inpEnd, None)
      | CpRepeat => Ok (s3, Some true)
      | CpRepeatTO => Ok (w_timer (change s3 inpComplitTimeout) true, Some false)
      | CpBad => Ok (change s3 inpError, None)
      end
    else UB
  | _ => Ok (s, None)
  end.

(* lines 537-545 *)
Definition p_ready : part := fun s =>
  match i_state s with
  | inpReady =>
    if Nat.eqb (num_can_send (i_port s)) 0 then Ok (w_exit s, Some false)
    else Ok (change (w_cur (send_cur s) None 0%N) inpInit, None)
  | _ => Ok (s, None)
  end.

(* lines 547-570; MakeEmpty (Buffer.h:216) always gives a buffer *)
Definition p_end : part := fun s =>
  match i_state s with
  | inpError | inpEnd =>
    let s1 := w_size (close_input s) (SSize 0) in
    if Nat.eqb (num_can_send (i_port s1)) 0 then Ok (w_exit s1, Some false)
    else let s2 := w_cur (w_port (note s1 OEof) (p_send (i_port s1))) None 0%N in
         Ok (close_transport (change s2 inpClosed) false, Some false)
  | inpClosed => Ok (close_transport s false, Some false)
  | _ => Ok (s, Some true)
  end.

Fixpoint seq_parts (l : list part) (s : it) : res (it * bool) :=
  match l with
  | [] => Ok (s, true)
  | p :: r => do (s1, ret) <- p s;
              match ret with Some b => Ok (s1, b) | None => seq_parts r s1 end
  end.

(* ProcessSend, DataTransport.cxx:272-573 *)
Definition process_send (s : it) : res (it * bool) :=
  seq_parts [p_closed; p_recon; p_noinp; p_init; p_size; p_need; p_check; p_has; p_cb; p_compl; p_ready; p_end] s.

Definition active (s : it) : bool := negb (i_exit s) && (i_run s && can_send (i_port s)).

(* ProcessOutputEvent, ModuleAsync.cxx:135-150; second result: the event is
   fired once more *)
Fixpoint out_loop (n : nat) (s : it) : res (it * bool) :=
  if active s then
    do (s1, go) <- process_send s;
    if go then match n with O => Ok (s1, true) | S m => out_loop m s1 end
    else Ok (s1, false)
  else Ok (s, false).

Definition process_output (s : it) : res (it * bool) :=
  match lim with
  | Some n => out_loop n s
  | None => if active s then do (s1, _) <- process_send s; Ok (s1, false) else Ok (s, false)
  end.

(* ProcessTimerEvent, DataTransport.cxx:167-176 *)
Definition process_timer (s : it) : res it :=
  let s1 := match i_state s with inpInitTimeout => change s inpInit | _ => s end in
  let s2 := match i_state s1 with inpComplitTimeout => change s1 inpCompleting | _ => s1 end in
  do (s3, _) <- process_output s2; Ok s3.

(* ProcessBuffer, DataTransport.cxx:123-139, called by ProcessPoolEvent,
   ModuleAsync.cxx:161-179, while the pool has a buffer for the module; the
   loop is shortened to one round *)
Definition process_buffer (s : it) : res it :=
  match i_state s with
  | inpWaitBuffer =>
    match opool (i_log s) with
    | Some z => do (s1, _) <- process_output (change (note (w_cur s (Some 0%N) z) (OTake z)) inpCheckBuffer); Ok s1
    | None => Ok s
    end
  | _ => Ok s
  end.

(* ExecuteCommand, DataTransport.cxx:178-199 *)
Definition process_closed (s : it) (err : bool) : it :=
  let s1 := match i_state s with inpClosed => s | _ => change (close_input s) inpClosed end in
  if negb recon then close_transport s1 err
  else w_timer (change s1 inpReconnect) true.

(* StartTransport, DataTransport.cxx:77-103, called by
   Transport::ProcessConnectionActivated, Transport.cxx:141-173 *)
Definition start_transport (s : it) : it :=
  match i_tr s with
  | stInit | stStopped =>
    let s1 := w_run s true in
    if i_inp s1 then w_tr (w_stop s1 false) stRunning else w_tr s1 stError
  | _ => s
  end.

Definition step (s : it) (e : iev) : res it :=
  if i_exit s then Ok s else
  match e with
  | EvOutput => do (s1, _) <- process_output s; Ok s1
  | EvTimer =>
    (* Timer::ProcessTimeout, ModuleItem.cxx:122-144 *)
    if i_timer s then
      let s1 := w_timer s false in if i_run s1 then process_timer s1 else Ok s1
    else Ok s
  | EvPool => if i_run s then process_buffer s else Ok s
  | EvCall c => Ok (read_callback s c)
  | EvClosed err => Ok (process_closed s err)
  | EvStart => Ok (start_transport s)
  | EvStop => Ok (match i_tr s with stRunning => w_tr (stop_transport s) stStopped | _ => s end)
  | EvPort e => Ok (w_port s (p_ev (i_port s) e))
  | EvDevice => Ok (w_dead s)
  end.

Fixpoint run (s : it) (l : list iev) : res it :=
  match l with [] => Ok s | e :: r => do s1 <- step s e; run s1 r end.

(* the events the transport fires for itself, processed one after another *)
Fixpoint drain (n : nat) (s : it) : res it :=
  match n with
  | O => Ok s
  | S m => do (s1, again) <- process_output s; if again then drain m s1 else Ok s1
  end.
End Run.
