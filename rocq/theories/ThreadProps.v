(* Properties C09 - C12: events and time-outs of a thread. *)
From Verif Require Import Common ThreadSpec ThreadModel ThreadProofs TimeoutSpec TimeoutModel TimeoutProofs.

(* C09.  Any schedule of firing and waiting steps with valid priorities: per
   queue, what was fired is what was returned followed by what is queued; the
   wake-up counter is the number of queued events; a loop that sleeps while
   something is queued has been signalled. *)
Theorem C09_exactly_once_in_order :
  forall (E : Type) (acts : list (tact E)),
    Forall valid_prio acts ->
    exists outs t, t_run thr_new acts = Ok (outs, t) /\
      (forall q, q < 3 -> fired_into q acts = returned_from q outs ++ queued t q) /\
      t_fired t = Z.of_nat (total t) /\
      (t_wait t <> None -> 0 < total t -> t_sig t = true).
Proof. exact @exactly_once. Qed.
Print Assumptions C09_exactly_once_in_order.

(* WaitEvent comes back empty only when nothing is queued; with something
   queued it returns an event at once, or on the signal when it was asleep *)
Theorem C09_wait_finds_event :
  forall (E : Type) (acts : list (tact E)),
    Forall valid_prio acts ->
    exists outs t, t_run thr_new acts = Ok (outs, t) /\
      (forall a t' o, valid_prio a -> t_step t a = Ok (t', o) -> o = TReturn None -> total t = 0) /\
      (forall m, t_wait t = None -> 0 < total t -> exists t' x, t_step t (TWait m) = Ok (t', TReturn (Some x))) /\
      (t_wait t <> None -> 0 < total t -> exists t' x, t_step t (TWake WSignal) = Ok (t', TReturn (Some x))).
Proof. exact @wait_result. Qed.
Print Assumptions C09_wait_finds_event.

Example C09_case :
  let acts := [TWait WForever; TFire (-1) 1; TFire 0 2; TWake WSignal; TFire 0 3; TFire 1 4; TWait WNow;
               TWake WSpurious; TWait WNow; TWait WNow; TWait WTimed; TWake WTimeout] in
  Forall valid_prio acts /\
  match t_run thr_new acts with
  | Ok (outs, t) => outs = [TNothing; TNothing; TNothing; TReturn (Some (0, 2)); TNothing; TNothing;
                            TReturn (Some (0, 3)); TNothing; TReturn (Some (1, 4)); TReturn (Some (2, 1));
                            TNothing; TReturn None] /\ total t = 0
  | _ => False
  end.
Proof. split; [repeat constructor; lia|]. vm_compute. auto. Qed.

(* the restriction to valid priorities is needed: nothing checks the queue
   number, an event of priority 3 is written behind the array of queues *)
Theorem C09_any_priority_refuted :
  exists acts : list (tact nat), t_run thr_new acts = UB.
Proof. exists [TFire 3 7]. reflexivity. Qed.
Print Assumptions C09_any_priority_refuted.

(* C10.  From any reachable state, whatever is fired afterwards: the event at
   position k of queue q is among the returned ones as soon as
   8^q * (k + 1 + (k+7)/7) events were returned. *)
Theorem C10_no_starvation :
  forall (E : Type) (pre acts : list (tact E)) (q k : nat) (e : E),
    Forall valid_prio pre -> Forall valid_prio acts -> q < 3 ->
    exists outs0 t outs t',
      t_run thr_new pre = Ok (outs0, t) /\ t_run t acts = Ok (outs, t') /\
      (nth_error (queued t q) k = Some e -> wait_bound q k <= num_returned outs ->
       nth_error (returned_from q outs) k = Some e).
Proof. exact @no_starvation. Qed.
Print Assumptions C10_no_starvation.

(* one event of lowest priority against a flood of the two other priorities *)
Example C10_case :
  let flood := flat_map (fun _ => [TFire 0 0; TFire 1 1; TWait WNow]) (seq 0 64) in
  wait_bound 2 0 = 128 /\
  match t_run thr_new (TFire 2 9 :: flood) with
  | Ok (outs, t) => num_returned outs = 64 /\ returned_from 2 outs = [9] /\ length (queued t 0) = 8
  | _ => False
  end.
Proof. vm_compute. auto. Qed.

(* C11 *)
Theorem C11_event_roundtrip :
  forall code item arg : N,
    (code < 65536)%N -> (item < 65536)%N -> (arg < 4294967296)%N ->
    (ev_make3 code item arg < 2 ^ 64)%N /\
    ev_code (ev_make3 code item arg) = code /\ ev_item (ev_make3 code item arg) = item /\
    ev_arg (ev_make3 code item arg) = arg.
Proof. exact event_roundtrip. Qed.
Print Assumptions C11_event_roundtrip.

(* every 64-bit value is the id of its own parts; ids built without argument
   or without item have zeros there *)
Theorem C11_event_all_values :
  (forall v : N, (v < 2 ^ 64)%N -> ev_make3 (ev_code v) (ev_item v) (ev_arg v) = v) /\
  (forall code item, ev_make2 code item = ev_make3 code item 0 /\ ev_make1 code = ev_make3 code 0 0).
Proof. exact (conj event_roundtrip_back event_short). Qed.
Print Assumptions C11_event_all_values.

Example C11_case : ev_make3 0xffff 0xfffe 0xffffffff = 0xfffeffffffffffff%N /\ ev_arg 0x0001800000020003 = 0x80000002%N.
Proof. vm_compute. auto. Qed.

Local Open Scope Z_scope.

(* C12.  Forward-running clock, reactions that do not nest event loops: the
   calls of ProcessTimeout, with time and last_diff, are those of the
   specification that looks at every deadline at every check. *)
Theorem C12_timeouts_exact_partial :
  forall (n : nat) (acts : list kact),
    clock_ok 1 acts ->
    snd (tt_run (tt_new n) acts) = snd (ss_run (repeat ss_new n) acts).
Proof. exact timeouts_exact. Qed.
Print Assumptions C12_timeouts_exact_partial.

(* One activation with delay v >= 0 at time t in any reachable state, its event
   processed at t1: the slot hears nothing up to time t + v and is called
   exactly once by the first check after it. *)
Theorem C12_due_exactly_once_partial :
  forall n pre i t v t1 cb1 mid t2 cb2,
    let acts := pre ++ [KAct i t v; KEvent i t1 cb1] ++ mid in
    clock_ok 1 (acts ++ [KCheck t2 cb2]) ->
    fst (tt_get (tt_slots (fst (tt_run (tt_new n) pre))) i) = true ->
    0 <= v -> t1 <= t + v -> cb_leaves i cb1 ->
    Forall (leaves i) mid -> Forall (not_after (t + v)) mid ->
    t + v < t2 -> cb_leaves i cb2 ->
    exists o0 o1 o2 last,
      snd (tt_run (tt_new n) pre) = o0 /\
      snd (tt_run (tt_new n) acts) = o0 ++ o1 /\
      snd (tt_run (tt_new n) (acts ++ [KCheck t2 cb2])) = o0 ++ o1 ++ o2 /\
      delivered i o1 = [] /\ delivered i o2 = [mkD i t2 last].
Proof. exact due_once. Qed.
Print Assumptions C12_due_exactly_once_partial.

(* the wait time returned to the loop never reaches beyond a deadline *)
Theorem C12_sleep_bounded_partial :
  forall n acts now cb,
    clock_ok 1 (acts ++ [KCheck now cb]) ->
    exists w t' o, tt_step (fst (tt_run (tt_new n) acts)) (KCheck now cb) = (t', o, Some w) /\
      let l := fst (ss_run (repeat ss_new n) (acts ++ [KCheck now cb])) in
      (w = -1 /\ (forall j, ss_alive (ss_get l j) = true -> ss_dl (ss_get l j) = None)) \/
      (0 <= w /\ forall j d, ss_alive (ss_get l j) = true -> ss_dl (ss_get l j) = Some d -> now + w <= d).
Proof. exact sleep_bounded. Qed.
Print Assumptions C12_sleep_bounded_partial.

(* periodic slot 0, one-shot slot 1, cancelled slot 2 *)
Definition C12_cb : reaction := fun i _ => match i with O => ([], 10) | _ => ([], -1) end.
Example C12_case :
  let acts := [KAct 0 1 10; KAct 1 1 5; KAct 2 2 6; KEvent 0 2 C12_cb; KEvent 1 3 C12_cb; KEvent 2 3 C12_cb;
               KCheck 6 C12_cb; KCheck 7 C12_cb; KAct 2 7 (-1); KEvent 2 8 C12_cb; KCheck 12 C12_cb;
               KCheck 22 C12_cb; KCheck 23 C12_cb] in
  clock_ok 1 acts /\
  snd (tt_run (tt_new 3) acts) = [mkD 1 7 6; mkD 0 12 11; mkD 0 23 11].
Proof.
  assert (C : forall t, cb_ok t C12_cb). { intros t [|i] ld; constructor. }
  split; [|reflexivity]. cbn. repeat (split; [lia || exact I || apply C|]). exact I.
Qed.

(* Without the restriction: a reaction that runs an event loop in which the
   activation of an already visited slot is processed.  CheckTimeouts does not
   re-enter, the outer call forgets the new deadline (16) and no number of later
   checks delivers it. *)
Theorem C12_nested_loop_refuted :
  exists acts : list kact,
    r_next (snd (tt_get (tt_slots (fst (tt_run (tt_new 2) acts))) 0)) = 16 /\
    forall checks : list Z,
      snd (tt_run (fst (tt_run (tt_new 2) acts)) (map (fun t => KCheck t C12_cb) checks)) = [].
Proof.
  exists [KAct 1 1 9; KEvent 1 1 C12_cb; KCheck 11 (fun _ _ => ([CAct 0 11 5; CEvent 0], -1))].
  split; [reflexivity|].
  match goal with |- context [fst ?x] => let y := eval vm_compute in (fst x) in change (fst x) with y end.
  induction checks as [|t checks IH]; [reflexivity|].
  cbn [map tt_run tt_step tt_check]. unfold tt_check. cbn. destruct (tt_run _ _). exact IH.
Qed.
Print Assumptions C12_nested_loop_refuted.
