(* Model of worker time-outs: Thread::TimeoutRec (/repo/base/dabc/Thread.h:134-227),
   Thread::CheckTimeouts (/repo/base/src/Thread.cxx:1284-1327), the events
   evntCheckTmoutWorker / evntCheckTmoutAddon (1114-1151) and
   ThreadRef::_ActivateWorkerTimeout (1416-1448).

   Simplifications: times are integers instead of double (TimeStamp::null() is
   "value <= 0", timing.h:131); the two records tmout_worker and tmout_addon of a
   WorkerRec are two consecutive slots of one list, looked at in that order; a
   reaction does not add or remove workers. *)
From Verif Require Import Common TimeoutSpec.
Local Open Scope Z_scope.

(* TimeoutRec members, Thread.h:135-140 *)
Record trec := mkR { r_mark : Z; r_interv : Z; r_active : bool; r_prev : Z; r_next : Z }.
Definition trec_new := mkR 0 0 false 0 0.                       (* 142 *)
Definition is_null (t : Z) : bool := t <=? 0.

(* Activate, 152-159; the flag tells that an event must be fired *)
Definition r_activate (r : trec) (now tm : Z) : bool * trec :=
  (negb (r_active r), mkR now tm true (r_prev r) (r_next r)).

(* CheckEvent, 163-195 *)
Definition r_check_event (r : trec) : bool * trec :=
  if r_active r then
    if r_interv r <? 0 then (false, mkR (r_mark r) (r_interv r) false 0 0)
    else
      let prev := if is_null (r_prev r) && (0 <? r_interv r) then r_mark r else r_prev r in
      (true, mkR (r_mark r) (r_interv r) false prev (r_mark r + r_interv r))
  else (false, r).

(* CheckNextProcess, 197-211: new minimum and, when due, last_diff *)
Definition r_check_next (r : trec) (now min : Z) : Z * option Z :=
  if is_null (r_next r) then (min, None)
  else
    let dist := r_next r - now in
    if 0 <=? dist then (if (min <? 0) || (dist <? min) then dist else min, None)
    else (min, Some (if is_null (r_prev r) then 0 else now - r_prev r)).

(* SetNextFire, 213-223 *)
Definition r_set_next (r : trec) (now dist min : Z) : trec * Z :=
  if 0 <=? dist then
    (mkR (r_mark r) (r_interv r) (r_active r) now (now + dist),
     if (min <? 0) || (dist <? min) then dist else min)
  else (mkR (r_mark r) (r_interv r) (r_active r) 0 0, min).

(* slots: "work != 0" flag and record *)
Record tthr := mkTT { tt_slots : list (bool * trec); tt_next : Z (* fNextTimeout *) }.
Definition slot_dead : bool * trec := (false, trec_new).
Definition tt_get (l : list (bool * trec)) (i : nat) := nth i l slot_dead.

(* _ActivateWorkerTimeout, Thread.cxx:1416-1431 (the fired event is the caller's KEvent) *)
Definition tt_act (l : list (bool * trec)) (i : nat) (now tm : Z) : list (bool * trec) :=
  let '(al, r) := tt_get l i in upd l i (al, snd (r_activate r now tm)).

(* actions inside ProcessTimeout; a nested CheckTimeouts(true) returns at once
   because fProcessingTimeouts > 0 (Thread.cxx:1286) *)
Definition tt_cb (l : list (bool * trec)) (o : cbop) : list (bool * trec) :=
  match o with
  | CAct i now tm => tt_act l i now tm
  | CEvent i => let '(al, r) := tt_get l i in
                if al then upd l i (al, snd (r_check_event r)) else l
  end.

(* body of the loop of CheckTimeouts for one record, Thread.cxx:1305-1316 *)
Definition tt_check1 (l : list (bool * trec)) (i : nat) (now : Z) (cb : reaction) (min : Z)
  : list (bool * trec) * Z * list deliv :=
  let '(al, r) := tt_get l i in
  if al then
    match r_check_next r now min with
    | (min1, None) => (l, min1, [])
    | (min1, Some last) =>
      let '(ops, dist) := cb i last in
      let l1 := fold_left tt_cb ops l in
      let '(al1, r1) := tt_get l1 i in
      let '(r2, min2) := r_set_next r1 now dist min1 in
      (upd l1 i (al1, r2), min2, [mkD i now last])
    end
  else (l, min, []).

Fixpoint tt_checks (idx : list nat) (l : list (bool * trec)) (now : Z) (cb : reaction) (min : Z)
  : list (bool * trec) * Z * list deliv :=
  match idx with
  | [] => (l, min, [])
  | i :: r => let '(l1, min1, o1) := tt_check1 l i now cb min in
              let '(l2, min2, o2) := tt_checks r l1 now cb min1 in (l2, min2, o1 ++ o2)
  end.

(* CheckTimeouts, 1284-1327: new state, deliveries, returned wait time *)
Definition tt_check (t : tthr) (force : bool) (now : Z) (cb : reaction) : tthr * list deliv * Z :=
  if negb force && is_null (tt_next t) then (t, [], -1)
  else if negb force && (0 <? tt_next t - now) then (t, [], tt_next t - now)
  else
    let '(l, min, o) := tt_checks (seq 0 (length (tt_slots t))) (tt_slots t) now cb (-1) in
    (mkTT l (if 0 <=? min then now + min else 0), o, min).

(* one step; the last component is the wait time when CheckTimeouts was called
   for the main loop *)
Definition tt_step (t : tthr) (a : kact) : tthr * list deliv * option Z :=
  match a with
  | KAct i now tm => (mkTT (tt_act (tt_slots t) i now tm) (tt_next t), [], None)
  | KCheck now cb => let '(t1, o, w) := tt_check t false now cb in (t1, o, Some w)
  | KRemove i => (mkTT (upd (tt_slots t) i slot_dead) (tt_next t), [], None)     (* 974-978 *)
  | KAdd => (mkTT (tt_slots t ++ [(true, trec_new)]) (tt_next t), [], None)      (* 870 *)
  | KEvent i now cb =>
    let '(al, r) := tt_get (tt_slots t) i in
    if al then
      let '(b, r1) := r_check_event r in
      let t1 := mkTT (upd (tt_slots t) i (al, r1)) (tt_next t) in
      if b then let '(t2, o, _) := tt_check t1 true now cb in (t2, o, None) else (t1, [], None)
    else (t, [], None)
  end.

Fixpoint tt_run (t : tthr) (acts : list kact) : tthr * list deliv :=
  match acts with
  | [] => (t, [])
  | a :: r => let '(t1, o1, _) := tt_step t a in let '(t2, o2) := tt_run t1 r in (t2, o1 ++ o2)
  end.

Definition tt_new (n : nat) : tthr := mkTT (repeat (true, trec_new) n) 0.
