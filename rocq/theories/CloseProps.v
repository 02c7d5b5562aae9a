(* Property C73: what was sent before the sender closed its port. *)
From Verif Require Import Common TransportSpec TransportModel CloseSpec CloseModel CloseProofs.

(* Any receiver, any interleaving: the receiver has a beginning of what was
   sent, in order; the rest is in the queue or was thrown away by the receiver
   when it gave up its port, which it does only after the sender has gone. *)
Theorem C73_order_partial :
  forall (X : Type) cap ko ki bu pol ls (ans : list X -> bool) acts,
    0 < cap ->
    let s := c_exec pol ls ans (c_init cap ko ki bu) acts in
    exists q, c_queue s = map Some q /\ length q <= cap /\
      c_sent s = c_recv s ++ q ++ c_lost s /\
      (c_lost s = [] \/ q = [] /\ c_snd s = SGone).
Proof.
  intros X cap ko ki bu pol ls ans acts Hc s.
  destruct (gi_exec pol ls ans cap acts _ _ (gi_init cap ko ki bu Hc)) as (q & G).
  exists q. split; [apply queue_v; apply G|]. split; [eapply len_cap; eauto|]. split; apply G.
Qed.
Print Assumptions C73_order_partial.

(* A receiver whose ProcessRecv always returns true, whose port uses one of the
   signalling kinds and has no loop length below the size of the queue: nothing
   is thrown away, whatever the configuration of the port, and when the two
   threads have nothing more to do everything sent was received. *)
Theorem C73_all_received_partial :
  forall (X : Type) cap ko ki bu pol ls (ans : list X -> bool) acts,
    0 < cap -> ki <> SignalNone -> ki = SignalEvery \/ ls = 0 \/ cap <= ls ->
    (forall l, ans l = true) ->
    let s := c_exec pol ls ans (c_init cap ko ki bu) acts in
    c_lost s = [] /\ (c_quiet pol ls ans s -> c_recv s = c_sent s).
Proof.
  intros X cap ko ki bu pol ls ans acts Hc Hk Hl Ha s.
  destruct (e_exec pol ls ans cap acts Ha _ _ (gi_init cap ko ki bu Hc) (e_init ls cap ko ki bu Hc (conj Hk Hl))) as (q & G & E).
  split.
  - destruct E as [E|E]; apply E.
  - intros Q. eapply quiet_all; eauto.
Qed.
Print Assumptions C73_all_received_partial.

(* The threads come to an end: after so many steps there is nothing to do,
   whatever the receiver does. *)
Theorem C73_steps_partial :
  forall (X : Type) cap ko ki bu pol ls (ans : list X -> bool) acts,
    0 < cap ->
    let s0 := c_init cap ko ki bu in
    c_steps pol ls ans s0 acts <= 11 * length (c_sent (c_exec pol ls ans s0 acts)) + 6.
Proof.
  intros X cap ko ki bu pol ls ans acts Hc s0.
  destruct (mu_exec pol ls ans cap acts s0 [] (gi_init cap ko ki bu Hc) I) as (q & G & M).
  unfold mu, bound in M. cbn in M. destruct (out_up (c_snd (c_exec pol ls ans s0 acts))); lia.
Qed.
Print Assumptions C73_steps_partial.

(* A port that waits for a reconnection, has a request object, an "onerror"
   option or belongs to a module without automatic stop throws nothing away. *)
Theorem C73_kept_partial :
  forall (X : Type) cap ko ki bu pol ls (ans : list X -> bool) acts,
    0 < cap -> keeps pol = true ->
    let s := c_exec pol ls ans (c_init cap ko ki bu) acts in
    c_lost s = [] /\ exists q, c_queue s = map Some q /\ c_sent s = c_recv s ++ q.
Proof.
  intros X cap ko ki bu pol ls ans acts Hc Hk s.
  assert (L : c_lost s = []).
  { refine (keep_exec pol ls ans cap acts Hk _ _ (gi_init cap ko ki bu Hc) _ _); cbn; [discriminate|reflexivity]. }
  split; [exact L|].
  destruct (gi_exec pol ls ans cap acts _ _ (gi_init cap ko ki bu Hc)) as (q & G).
  exists q. split; [apply queue_v; apply G|]. pose proof (g_log _ _ _ G) as H.
  change (c_exec pol ls ans (c_init cap ko ki bu) acts) with s in H. rewrite L, app_nil_r in H. exact H.
Qed.
Print Assumptions C73_kept_partial.

(* port of a module with all defaults *)
Definition dflt : policy := mkPol NoReq false (-1) OnOther true true.
Definition send_all (l : list nat) : list (cact nat) :=
  flat_map (fun x => [Ask; Put x; Fire]) l ++ [Close; Fire].
Definition receive (n : nat) : list (cact nat) := flat_map (fun _ => [Take; Step]) (seq 0 n).

(* The receiver's ProcessRecv returns false once (a module does so when its own
   output has no place): the buffers behind, sent before the sender closed, are
   thrown away. *)
Theorem C73_declined_refuted :
  exists acts,
    let ans := fun l : list nat => negb (length l =? 1) in
    let s := c_exec dflt 0 ans (c_init 4 SignalConfirm SignalConfirm true) acts in
    c_snd s = SGone /\ c_quiet dflt 0 ans s /\ c_sent s = [1; 2; 3] /\ c_recv s = [1] /\ c_lost s = [2; 3].
Proof. exists (send_all [1; 2; 3] ++ receive 20). vm_compute. repeat split. Qed.
Print Assumptions C73_declined_refuted.

(* the same when the loop length of the port is below the size of the queue *)
Theorem C73_short_loop_refuted :
  exists acts,
    let ans := fun _ : list nat => true in
    let s := c_exec dflt 1 ans (c_init 4 SignalConfirm SignalConfirm true) acts in
    c_snd s = SGone /\ c_quiet dflt 1 ans s /\ c_sent s = [1; 2; 3; 4] /\ c_recv s = [1; 2] /\ c_lost s = [3; 4].
Proof. exists (send_all [1; 2; 3; 4] ++ receive 20). vm_compute. repeat split. Qed.
Print Assumptions C73_short_loop_refuted.

(* and when the port asked for no events *)
Theorem C73_no_events_refuted :
  exists acts,
    let ans := fun _ : list nat => true in
    let s := c_exec dflt 0 ans (c_init 4 SignalConfirm SignalNone true) acts in
    c_snd s = SGone /\ c_quiet dflt 0 ans s /\ c_sent s = [1; 2] /\ c_recv s = [] /\ c_lost s = [1; 2].
Proof. exists (send_all [1; 2] ++ receive 20). vm_compute. repeat split. Qed.
Print Assumptions C73_no_events_refuted.

(* cases meeting the hypotheses: sending goes on while the receiver is busy,
   the sender closes while two buffers are waiting *)
Example C73_case_received :
  let ans := fun _ : list nat => true in
  let acts := [Ask; Put 1; Fire; Take; Step; Ask; Put 2; Step; Fire; Step; Ask; Put 3; Fire; Close; Fire; Step; Step] in
  let s1 := c_exec dflt 0 ans (c_init 2 SignalConfirm SignalConfirm true) acts in
  let s2 := c_exec dflt 0 ans (c_init 2 SignalConfirm SignalConfirm true) (acts ++ receive 20) in
  c_snd s1 = SGone /\ c_recv s1 = [1] /\ c_queue s1 = [Some 2; Some 3] /\ c_ev s1 = [EvIn; EvDisc] /\
  c_quiet dflt 0 ans s2 /\ c_recv s2 = [1; 2; 3] /\ t_inpconn (c_t s2) = false /\
  c_steps dflt 0 ans (c_init 2 SignalConfirm SignalConfirm true) (acts ++ receive 20) = 29.
Proof. vm_compute. repeat split. Qed.

Example C73_case_kept :
  let pol := mkPol NoReq false (-1) OnNone true true in
  let ans := fun l : list nat => negb (length l =? 1) in
  keeps pol = true /\
  let s := c_exec pol 0 ans (c_init 4 SignalConfirm SignalConfirm true) (send_all [1; 2; 3] ++ receive 20) in
  c_recv s = [1] /\ c_queue s = [Some 2; Some 3] /\ c_quiet pol 0 ans s.
Proof. vm_compute. repeat split. Qed.
