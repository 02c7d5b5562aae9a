(* Model of the event queues of dabc::Thread (/repo/base/dabc/Thread.h,
   /repo/base/src/Thread.cxx), of dabc::Condition (/repo/base/dabc/threads.h,
   /repo/base/src/threads.cxx) and of dabc::EventId. *)
From Verif Require Import Common ThreadSpec.
Local Open Scope Z_scope.

(* ---- EventId, Thread.h:70-99; all values are uint64_t ---- *)
Definition ev_make3 (code item arg : N) : N :=
  N.lor (N.lor (N.shiftl item 48) (N.shiftl arg 16)) code.             (* 81-82 *)
Definition ev_make2 (code item : N) : N := N.lor (N.shiftl item 48) code. (* 79 *)
Definition ev_make1 (code : N) : N := code.                            (* 77 *)
(* the results are converted to uint16_t, uint16_t, uint32_t: 92-94 *)
Definition ev_code (v : N) : N := N.modulo (N.land v 0xffff) 65536.
Definition ev_item (v : N) : N := N.modulo (N.shiftr v 48) 65536.
Definition ev_arg (v : N) : N := N.modulo (N.land (N.shiftr v 16) 0xffffffff) 4294967296.

Section Thr.
Context {E : Type}.

(* EventsQueue, Thread.h:256-265: Queue<EventId,true> with a scaler.  The queue
   is represented by the list of its content (see C01). *)
Record equeue := mkEQ { e_items : list E; e_scaler : Z }.

(* how a wait ends: returns immediately, times out, or never does *)
Record thr := mkT {
  t_queues : list equeue;     (* fQueues *)
  t_fired : Z;                (* fWorkCond.fFiredCounter *)
  t_wait : option waitmode;   (* the loop thread is inside pthread_cond_(timed)wait: fWaiting *)
  t_sig : bool                (* pthread_cond_signal was called since the wait began *)
}.

(* Thread::Thread, Thread.cxx:219-256: three queues, scaler 8 *)
Definition thr_new : thr := mkT (repeat (mkEQ [] 8) 3) 0 None false.

Definition shift_idx (x : option (nat * E)) : option (nat * E) :=
  match x with Some (n, e) => Some (S n, e) | None => None end.

(* first loop of _GetNextEvent, Thread.cxx:407-414 *)
Fixpoint pass1 (qs : list equeue) : option (nat * E) * list equeue :=
  match qs with
  | [] => (None, [])
  | q :: r =>
    match e_items q with
    | [] => let '(x, r1) := pass1 r in (shift_idx x, q :: r1)
    | e :: l =>
      if 0 <? e_scaler q - 1 then (Some (O, e), mkEQ l (e_scaler q - 1) :: r)
      else let '(x, r1) := pass1 r in (shift_idx x, mkEQ (e :: l) 8 :: r1)
    end
  end.

(* second loop, Thread.cxx:418-422 *)
Fixpoint pass2 (qs : list equeue) : option (nat * E) * list equeue :=
  match qs with
  | [] => (None, [])
  | q :: r =>
    match e_items q with
    | [] => let '(x, r1) := pass2 r in (shift_idx x, q :: r1)
    | e :: l => (Some (O, e), mkEQ l (e_scaler q) :: r)
    end
  end.

(* _GetNextEvent, Thread.cxx:396-425 *)
Definition get_next (qs : list equeue) : option (nat * E) * list equeue :=
  match pass1 qs with
  | (Some x, qs1) => (Some x, qs1)
  | (None, qs1) => pass2 qs1
  end.

(* _PushEvent, Thread.h:404-423: "fQueues[nq<0 ? fNumQueues - 1 : nq].Push(arg)",
   no check of the index *)
Definition push_event (qs : list equeue) (nq : Z) (e : E) : res (list equeue) :=
  let i := if nq <? 0 then Z.of_nat (length qs) - 1 else nq in
  match nth_error qs (Z.to_nat i) with
  | None => UB
  | Some q => Ok (upd qs (Z.to_nat i) (mkEQ (e_items q ++ [e]) (e_scaler q)))
  end.

(* _Fire, Thread.cxx:1023-1042, with Condition::_DoFire, threads.h:293-299 *)
Definition fire (t : thr) (nq : Z) (e : E) : res thr :=
  do qs <- push_event (t_queues t) nq e;
  Ok (mkT qs (t_fired t + 1) (t_wait t) (match t_wait t with Some _ => true | None => t_sig t end)).

(* end of _DoWait (threads.cxx:138-143) and WaitEvent (Thread.cxx:1044-1053):
   what WaitEvent returns *)
Definition wait_end (t : thr) : thr * option (nat * E) :=
  if 0 <? t_fired t then
    let '(x, qs) := get_next (t_queues t) in
    (mkT qs (t_fired t - 1) None false, x)
  else (mkT (t_queues t) (t_fired t) None false, None).

(* One step.  The loop thread is the only one that waits; all steps are done
   under the thread mutex, which pthread_cond_wait releases while waiting.
   Impossible steps leave the state as it is. *)
Definition t_step (t : thr) (a : tact E) : res (thr * tout E) :=
  match a with
  | TFire nq e => do t1 <- fire t nq e; Ok (t1, TNothing)
  | TWait m =>
    match t_wait t with
    | Some _ => Ok (t, TNothing)
    | None =>
      if t_fired t =? 0 then
        match m with
        | WNow => let '(t1, x) := wait_end t in Ok (t1, TReturn x)
        | _ => Ok (mkT (t_queues t) (t_fired t) (Some m) false, TNothing)
        end
      else let '(t1, x) := wait_end t in Ok (t1, TReturn x)
    end
  | TWake r =>
    match t_wait t with
    | None => Ok (t, TNothing)
    | Some m =>
      let possible := match r with
                      | WSignal => t_sig t
                      | WTimeout => match m with WTimed => true | _ => false end
                      | WSpurious => true
                      end in
      if possible then let '(t1, x) := wait_end t in Ok (t1, TReturn x) else Ok (t, TNothing)
    end
  end.

Fixpoint t_run (t : thr) (l : list (tact E)) : res (list (tout E) * thr) :=
  match l with
  | [] => Ok ([], t)
  | a :: r => do (t1, o) <- t_step t a; do (os, t2) <- t_run t1 r; Ok (o :: os, t2)
  end.

(* events waiting in queue number [q] *)
Definition queued (t : thr) (q : nat) : list E :=
  match nth_error (t_queues t) q with Some x => e_items x | None => [] end.
Definition total (t : thr) : nat := length (queued t 0) + length (queued t 1) + length (queued t 2).

End Thr.
Arguments equeue : clear implicits.
Arguments thr : clear implicits.
