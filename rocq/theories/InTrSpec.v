(* What a DataInput object (base/dabc/DataIO.h:61-136) and the output port of
   an InputTransport get to see. *)
From Verif Require Import Common.

(* DataInputCodes, DataIO.h:32-47, as far as the callers distinguish them.
   Answers of Read_Size, also the argument of the call-back *)
Inductive scode :=
| SSize (n : N)       (* 0..di_ValidSize *)
| SDflt               (* di_DfltBufSize *)
| SEnd                (* di_EndOfStream *)
| SRepeat             (* di_Repeat *)
| SRepeatTO           (* di_RepeatTimeOut *)
| SCallBack           (* di_CallBack *)
| SQueue              (* di_QueueBufReady *)
| SBad.               (* anything else *)
(* answers of Read_Start: di_Ok, di_NeedMoreBuf, di_HasEnoughBuf, di_CallBack, any other *)
Inductive stcode := StOk | StMore | StEnough | StCallBack | StBad.
(* answers of Read_Complete: di_Ok, di_MoreBufReady, di_SkipBuffer,
   di_EndOfStream, di_Repeat, di_RepeatTimeOut, any other *)
Inductive cpcode := CpOk | CpMore | CpSkip | CpEnd | CpRepeat | CpRepeatTO | CpBad.

Inductive iobs :=
| OSize (c : scode)                     (* Read_Size() returned c *)
| OTake (z : N)                         (* buffer of z bytes taken from the memory pool *)
| OStart (c : stcode)                   (* Read_Start(buf) returned c *)
| OComplete (c : cpcode) (d : option N) (* Read_Complete(buf) returned c, leaving data d in buf; None: null buffer *)
| OSend (d : option N)                  (* buffer sent through the port; None: null buffer, nothing is sent *)
| OEof                                  (* end-of-file buffer sent *)
| OCall (c : scode)                     (* Read_CallBack(c) *)
| OGone                                 (* input object given up *)
| OClose (err : bool)                   (* CloseTransport(err) *)
| OCreate (ok : bool)                   (* CreateDataInput for a reconnection *)
| OExit.                                (* exit(333) *)

(* data of the buffers the object has finished, oldest first (log newest first) *)
Fixpoint ready (l : list iobs) : list N :=
  match l with
  | [] => []
  | OComplete (CpOk | CpMore) (Some d) :: r => ready r ++ [d]
  | _ :: r => ready r
  end.
(* data sent *)
Fixpoint sent (l : list iobs) : list N :=
  match l with
  | [] => []
  | OSend (Some d) :: r => sent r ++ [d]
  | _ :: r => sent r
  end.
(* something that reaches the port *)
Definition sends (o : iobs) : bool := match o with OSend (Some _) | OEof => true | _ => false end.
(* a call of the object *)
Definition calls (o : iobs) : bool := match o with OSize _ | OStart _ | OComplete _ _ => true | _ => false end.

(* the receiving side of the port: takes a buffer, gets connected, gets disconnected *)
Inductive pev := PRecv | PConn | PDisc.

(* The two flags say whether a full queue blocks while the receiver is / is not
   connected (LocalTransport.h:62-63).  Events of the receiver that cannot turn
   a port ready for sending into a blocked one *)
Definition harmless (bc bu : bool) (e : pev) : bool :=
  match e with
  | PRecv => true
  | PConn => negb bc || bu
  | PDisc => bc || negb bu
  end.

(* what happens to the transport *)
Inductive iev :=
| EvOutput                (* evntOutput / evntOutputReinj *)
| EvTimer                 (* the timeout of the module expires *)
| EvPool                  (* the memory pool delivers a requested buffer *)
| EvCall (c : scode)      (* Read_CallBack(c) *)
| EvClosed (err : bool)   (* CmdDataInputClosed / CmdDataInputFailed *)
| EvStart | EvStop        (* module on the other side started / stopped *)
| EvPort (e : pev)        (* something happens on the other side of the port *)
| EvDevice.               (* the device gets destroyed *)

(* The size of buffer that was asked for, as it follows from the last
   observations: the answer of Read_Size, or the argument of the call-back that
   came after - or while - Read_Size answered di_CallBack *)
Definition size_of (c : scode) : option N := match c with SSize n => Some n | SDflt => Some 0%N | _ => None end.
Definition asked (l : list iobs) : option N :=
  match l with
  | OCall c :: OSize SCallBack :: _ => size_of c
  | OSize SCallBack :: OCall c :: _ => size_of c
  | OSize c :: _ => size_of c
  | _ => None
  end.
(* Read_Start may be called: a buffer has just been taken - the object may have
   called back since - and it is as large as asked for *)
Definition may_start (l : list iobs) : Prop :=
  exists z n r, (l = OTake z :: r \/ exists c, l = OCall c :: OTake z :: r) /\ asked r = Some n /\ (n <= z)%N.

(* Buffers the object works on: begun with Read_Start, not yet given back by
   Read_Complete *)
Fixpoint working (l : list iobs) : nat :=
  match l with
  | [] => 0
  | OStart StBad :: r => working r
  | OStart _ :: r => S (working r)
  | OComplete (CpRepeat | CpRepeatTO) _ :: r => working r
  | OComplete _ _ :: r => Nat.pred (working r)
  | _ :: r => working r
  end.

(* Answers after which the object is not used any more: end of stream, errors *)
Definition ended (o : iobs) : bool :=
  match o with OSize (SEnd | SQueue | SBad) | OStart StBad | OComplete (CpEnd | CpBad) _ => true | _ => false end.
(* Last call of the present object *)
Fixpoint last_call (l : list iobs) : option iobs :=
  match l with [] => None | OCreate true :: _ => None | o :: r => if calls o then Some o else last_call r end.
(* Read_Size may be called: at the beginning, after it asked for a repetition,
   after Read_Start wanted more buffers, after a buffer was finished or skipped *)
Definition may_size (o : option iobs) : bool :=
  match o with
  | None | Some (OSize (SRepeat | SRepeatTO)) | Some (OStart StMore) | Some (OComplete (CpOk | CpSkip) _) => true
  | _ => false
  end.

(* The object keeps exactly the buffers it announces as extra buffers, and
   Read_Complete does not ask to be repeated *)
Definition keeps_ok (a : stcode * bool) : bool :=
  let (c, k) := a in match c with StMore | StEnough => k | StOk | StCallBack => negb k | StBad => true end.
Definition no_repeat (a : cpcode * option N) : bool := match fst a with CpRepeat | CpRepeatTO => false | _ => true end.
