(* A sending module closes its connection: dabc::LocalTransport::Disconnect
   (/repo/base/src/LocalTransport.cxx:277-321), dabc::Module::ProcessEvent
   (/repo/base/src/Module.cxx:822-930), dabc::Port::TryNextReconnect
   (/repo/base/src/Port.cxx:194-218) and the loop of
   dabc::ModuleAsync::ProcessInputEvent
   (/repo/base/src/ModuleAsync.cxx:49-83, 110-125).  The queue itself is the
   one of TransportModel.v.

   Two threads.  Every mutex-protected section, every FireEvent and every event
   extraction is one step.  The sender sends and closes whenever it likes.  The
   receiver's ProcessRecv takes one buffer; a function of the buffers received
   so far says what it returns.  Events fired to the sender by Recv are left
   out, since the sender acts at any moment anyway.  All events of this port
   have the priority of the receiving worker (Worker.h:347-353, 508), so they
   wait in one queue, oldest first (property C09). *)
From Verif Require Import Common TransportSpec TransportModel CloseSpec.

(* events of the receiving port *)
Inductive cev := EvIn (* evntInput *) | EvRe (* evntInputReinj *) | EvDisc (* evntPortDisconnect *).

(* the receiver's thread *)
Inductive cpc :=
| CIdle                   (* waiting for an event *)
| CConfirm                (* evntInput taken, at ConfirmEvent() *)
| CCheck (c : Z)          (* at the loop condition *)
| CWork (c : Z)           (* condition was true: in ProcessRecv *)
| CNext (c : Z)           (* ProcessRecv returned true *)
| CReinj                  (* at FireEvent(evntInputReinj) *)
| CDisc                   (* evntPortDisconnect taken *)
| CClean                  (* Disconnect() of the input port: at CleanupQueue() *)
| CAfter                  (* evntPortDisconnect: after TryNextReconnect *).

(* the sender's thread *)
Inductive spc :=
| SReady (ok : bool)      (* result of the last CanSend(), if not used yet *)
| SFire (b : bool)        (* Send(): mutex released, fire an event or not *)
| SClose                  (* Disconnect(): mutex released, at FireEvent *)
| SGone                   (* Disconnect() returned *).

Section Close.
Context {X : Type}.

Record csys := mkC {
  c_t : lt X;
  c_ev : list cev;        (* events waiting for the receiver, oldest first *)
  c_pc : cpc;
  c_run : bool;           (* IsRunning() of the receiver *)
  c_dead : bool;          (* abort() was called *)
  c_snd : spc;
  c_sent : list X;        (* buffers for which Send() was called *)
  c_recv : list X;        (* buffers returned by Recv() *)
  c_lost : list X         (* buffers released by CleanupQueue() *)
}.

Definition up_t (s : csys) (t : lt X) : csys :=
  mkC t (c_ev s) (c_pc s) (c_run s) (c_dead s) (c_snd s) (c_sent s) (c_recv s) (c_lost s).
Definition up_pc (s : csys) (p : cpc) : csys :=
  mkC (c_t s) (c_ev s) p (c_run s) (c_dead s) (c_snd s) (c_sent s) (c_recv s) (c_lost s).
Definition up_ev (s : csys) (l : list cev) : csys :=
  mkC (c_t s) l (c_pc s) (c_run s) (c_dead s) (c_snd s) (c_sent s) (c_recv s) (c_lost s).
Definition up_snd (s : csys) (p : spc) : csys :=
  mkC (c_t s) (c_ev s) (c_pc s) (c_run s) (c_dead s) p (c_sent s) (c_recv s) (c_lost s).
Definition up_run (s : csys) (b : bool) : csys :=
  mkC (c_t s) (c_ev s) (c_pc s) b (c_dead s) (c_snd s) (c_sent s) (c_recv s) (c_lost s).
Definition up_dead (s : csys) : csys :=
  mkC (c_t s) (c_ev s) (c_pc s) (c_run s) true (c_snd s) (c_sent s) (c_recv s) (c_lost s).
Definition up_sent (s : csys) (l : list X) : csys :=
  mkC (c_t s) (c_ev s) (c_pc s) (c_run s) (c_dead s) (c_snd s) l (c_recv s) (c_lost s).
Definition up_recv (s : csys) (l : list X) : csys :=
  mkC (c_t s) (c_ev s) (c_pc s) (c_run s) (c_dead s) (c_snd s) (c_sent s) l (c_lost s).
Definition up_lost (s : csys) (l : list X) : csys :=
  mkC (c_t s) (c_ev s) (c_pc s) (c_run s) (c_dead s) (c_snd s) (c_sent s) (c_recv s) l.

Fixpoint somes (l : list (option X)) : list X :=
  match l with
  | [] => []
  | Some x :: r => x :: somes r
  | None :: r => somes r
  end.

Section Conf.
(* [ls]: fMaxLoopLength of the receiving port; [ans]: what ProcessRecv returns *)
Context (pol : policy) (ls : nat) (ans : list X -> bool).

(* GetMaxLoopLength of the input port, Port.cxx:173-185 *)
Definition c_loop (s : csys) : Z := max_loop (t_inpkind (c_t s)) ls (b_cap (t_q (c_t s))).

(* what one step of the sender does: OutputPort::CanSend / Send
   (LocalTransport.h:97, LocalTransport.cxx:56-139) and Disconnect(false)
   (LocalTransport.cxx:277-309) *)
Definition snd_step (s : csys) (a : cact X) : option csys :=
  match a, c_snd s with
  | Ask, SReady _ => Some (up_snd s (SReady (can_send (c_t s))))
  | Put x, SReady true =>
    match lt_send (c_t s) x with
    | None => None                               (* exit(3) *)
    | Some (t1, skip, f) =>
      Some (up_snd (up_sent (up_lost (up_t s t1) (c_lost s ++ opt_list skip)) (c_sent s ++ [x])) (SFire f))
    end
  | Fire, SFire b => Some (up_snd (if b then up_ev s (c_ev s ++ [EvIn]) else s) (SReady false))
  | Close, SReady _ =>
    (* "fConnected = fConnected & ~MaskOut" *)
    Some (up_snd (up_t s (set_conn (c_t s) (t_inpconn (c_t s)) false)) SClose)
  | Fire, SClose => Some (up_snd (up_ev s (c_ev s ++ [EvDisc])) SGone)
  | _, _ => None
  end.

(* TryNextReconnect, Port.cxx:194-218, called as in Module.cxx:879 only when
   the port has no connection request; next point of the receiver and whether
   the module was stopped (206) or the process aborted (212) *)
Definition try_next : cpc * bool * bool :=
  match po_req pol with
  | NoReq =>
    if po_period pol && ((po_limit pol <? 0)%Z || (0 <? po_limit pol)%Z)
    then (CIdle, false, false)         (* timer started, Module.cxx:879-897 *)
    else match po_onerr pol with
         | OnNone => (CAfter, false, false)
         | OnStop => (CAfter, true, false)
         | OnExit => (CAfter, false, false)
         | OnAbort => (CAfter, false, true)
         | OnOther => (if po_auto pol then CClean else CAfter, false, false)
         end
  | _ => (CAfter, false, false)
  end.

(* Module.cxx:900-913: no port connected any more, or the disconnected port
   was a required one (858-867); the port itself is not connected, since
   IsConnected() wants both sides (LocalTransport.h:79-83) *)
Definition auto_stop : bool :=
  po_auto pol && (match po_req pol with Required => true | _ => negb (po_others pol) end).

Definition rcv_step (s : csys) : option csys :=
  match c_pc s with
  | CIdle => None
  | CConfirm => Some (up_pc (up_t s (lt_confirm (c_t s) false)) (CCheck (c_loop s)))
  | CCheck c => Some (up_pc s (if c_run s && can_recv (c_t s) then CWork c else CIdle))
  | CWork c =>
    let '(t1, x, _) := lt_recv (c_t s) in
    let r := c_recv s ++ opt_list x in
    Some (up_pc (up_recv (up_t s t1) r) (if ans r then CNext c else CIdle))
  | CNext c =>
    Some (up_pc s (if (c <? 0)%Z then CIdle else if (c =? 0)%Z then CReinj else CCheck (c - 1)%Z))
  | CReinj => Some (up_pc (up_ev s (c_ev s ++ [EvRe])) CIdle)
  | CDisc =>
    let '(p, stop, dead) := try_next in
    let s1 := if stop then up_run s false else s in
    let s2 := if dead then up_dead s1 else s1 in
    Some (match p with
          | CClean => up_pc (up_t s2 (set_conn (c_t s2) false (t_outconn (c_t s2)))) CClean
          | _ => up_pc s2 p
          end)
  | CClean =>
    (* "if (fConnected == 0) cleanup = true", LocalTransport.cxx:303-304, 317-320 *)
    if t_outconn (c_t s) then Some (up_pc s CAfter)
    else match bq_cleanup_m (S (S (b_size (t_q (c_t s))))) (t_q (c_t s)) with
         | Ok (l, q) => Some (up_pc (up_lost (up_t s (set_q (c_t s) q)) (c_lost s ++ somes l)) CAfter)
         | _ => None
         end
  | CAfter => Some (up_pc (if auto_stop then up_run s false else s) CIdle)
  end.

(* Module::ProcessEvent, Module.cxx:822-833 and 847-858 *)
Definition take_step (s : csys) : option csys :=
  match c_pc s, c_ev s with
  | CIdle, e :: r =>
    Some (up_pc (up_ev s r)
      match e with
      | EvIn => if c_run s then CConfirm else CIdle
      | EvRe => if c_run s then CCheck (c_loop s) else CIdle
      | EvDisc => CDisc
      end)
  | _, _ => None
  end.

(* [None]: the step is not possible in this state *)
Definition c_step (s : csys) (a : cact X) : option csys :=
  if c_dead s then None
  else match a with
       | Take => take_step s
       | Step => rcv_step s
       | _ => snd_step s a
       end.

(* a schedule; impossible steps are skipped *)
Fixpoint c_exec (s : csys) (l : list (cact X)) : csys :=
  match l with
  | [] => s
  | a :: r => c_exec (match c_step s a with Some s1 => s1 | None => s end) r
  end.

(* number of steps made, not counting CanSend() *)
Fixpoint c_steps (s : csys) (l : list (cact X)) : nat :=
  match l with
  | [] => 0
  | a :: r =>
    match c_step s a with
    | Some s1 => (match a with Ask => 0 | _ => 1 end) + c_steps s1 r
    | None => c_steps s r
    end
  end.

(* nothing left to do for the two threads, apart from further sending *)
Definition c_quiet (s : csys) : Prop :=
  c_step s Take = None /\ c_step s Step = None /\ c_step s Fire = None.

End Conf.

(* a connection just made, both modules running (LocalTransport.cxx:20-34);
   ko, ki: signalling of the two ports; blocking queue *)
Definition c_init (cap : nat) (ko ki : sigkind) (bu : bool) : csys :=
  mkC (lt_new cap ko ki bu true) [] CIdle true false (SReady false) [] [] [].

(* what is still in the queue, oldest first *)
Definition c_queue (s : csys) : list (option X) :=
  map (fun n => nth ((n + b_front (t_q (c_t s))) mod b_cap (t_q (c_t s))) (b_vect (t_q (c_t s))) None)
      (seq 0 (b_size (t_q (c_t s)))).

End Close.
Arguments csys : clear implicits.
