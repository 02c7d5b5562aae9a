(* C53: the multiplexer.  All ports connected, blocking transports, the module not stopped.
   Missing for the full claim: order of buffers around a stop and start (refuted below). *)
From Verif Require Import Common ListFacts TransportSpec TransportModel TransportProofs MuxSpec MuxModel MuxProofs.
Local Open Scope nat_scope.

Section P.
Context {X : Type}.
Definition running (a : xact X) : Prop := match a with AStop | AStart => False | _ => True end.
(* the module with inputs of capacity [icaps] and outputs of given capacity and kind of
   signalling, just started *)
Definition started (icaps : list nat) (outs : list (nat * sigkind)) : mux X := start (mux_new icaps outs SignalEvery).
Definition ports_ok (icaps : list nat) (outs : list (nat * sigkind)) : Prop :=
  Forall (fun c => 0 < c) icaps /\ Forall (fun c => 0 < fst c /\ snd c <> SignalNone) outs.
End P.

(* At every moment, with [fwd] the buffers forwarded so far: each receiver got a beginning of
   [fwd], what it did not get waits in its transport, except that the last buffer may still be
   under way to some outputs; of each input, [fwd] and the buffers waiting there are what
   arrived on it, in order; inputs were served in the order of their events; exit is never
   called. *)
Theorem C53_forward_partial : forall (X : Type) icaps outs (l : list (xact X)), ports_ok icaps outs -> Forall running l ->
  let s := run (started icaps outs) l in
  exists fwd holding,
    length holding <= 1 /\
    (forall o t, nth_error (x_out s) o = Some t -> exists waiting missing, content t = map Some waiting /\ length missing <= 1 /\
       nth o (x_taken s) [] ++ waiting ++ missing = map snd fwd) /\
    (forall i t, nth_error (x_inp s) i = Some t -> exists waiting, content t = map Some waiting /\
       of_input i (x_arrived s) = of_input i (fwd ++ holding) ++ waiting) /\
    prefix (map fst (fwd ++ holding)) (x_fired s) /\
    x_exit s = false.
Proof.
  intros X icaps outs l (Fi & Fo) F s. destruct (run_ok l _ _ _ (init_ok icaps outs Fi Fo) F) as (li & lo & V). fold s in V. change (MuxProofs.fresh icaps outs) with (started (X:=X) icaps outs) in V. fold s in V. destruct V as [V1 V2 V3 V4 V5 V6 V7 V8 V9 V10 V11 V12].
  exists (x_done s), (held s). split; [unfold held; destruct (x_pc s); cbn; lia|]. split; [|split; [|split; [|exact V4]]].
  - intros o t E. destruct (forall2_nth _ _ _ _ _ V2 E) as (w & Ew & K). destruct (nth_error_nth0 _ _ _ [] Ew) as (Nw & Lw). exists w, (unsent s o). split; [apply content_ok; exact K|]. split; [unfold unsent; destruct (x_pc s); cbn; try lia; destruct (_ <=? o); cbn; lia|]. rewrite <- (V10 o Lw), Nw. reflexivity.
  - intros i t E. destruct (forall2_nth _ _ _ _ _ V1 E) as (w & Ew & K & _). destruct (nth_error_nth0 _ _ _ [] Ew) as (Nw & Lw). exists w. split; [apply content_ok; exact K|]. rewrite of_input_app, <- app_assoc, V8, Nw. reflexivity.
  - rewrite V7, map_app. unfold doing, held. destruct (x_pc s); unfold prefix; cbn [map app]; rewrite ?app_nil_r; eauto. eexists. rewrite <- app_assoc. reflexivity.
Qed.
Print Assumptions C53_forward_partial.

(* Arrival order: when the events were fired in the order of arrival, every receiver gets a
   beginning of what arrived on all inputs together. *)
Theorem C53_order_partial : forall (X : Type) icaps outs (l : list (xact X)) o, ports_ok icaps outs -> Forall running l -> o < length outs ->
  let s := run (started icaps outs) l in
  prefix (x_fired s) (map fst (x_arrived s)) -> prefix (nth o (x_taken s) []) (map snd (x_arrived s)).
Proof.
  intros X icaps outs l o (Fi & Fo) F Lo s Pf. destruct (run_ok l _ _ _ (init_ok icaps outs Fi Fo) F) as (li & lo & V). change (MuxProofs.fresh icaps outs) with (started (X:=X) icaps outs) in V. fold s in V. destruct V as [V1 V2 V3 V4 V5 V6 V7 V8 V9 V10 V11 V12].
  assert (Ll : o < length lo). { rewrite <- (forall2_len _ _ _ V2). assert (B := proj2 (inp_len _ _ l (started (X:=X) icaps outs) eq_refl eq_refl)). fold s in B. rewrite B. cbn. rewrite map_length. exact Lo. }
  assert (Pd : prefix (x_done s) (x_arrived s)). { apply merge_prefix. - destruct Pf as (r & Pf). rewrite V7 in Pf. rewrite <- app_assoc in Pf. eexists. exact Pf. - intros i. eexists. apply V8. }
  destruct Pd as (r & E). rewrite E, map_app, <- (V10 o Ll), <- !app_assoc. eexists. reflexivity.
Qed.
Print Assumptions C53_order_partial.

(* Nothing is left behind: when no event is on its way, the thread is idle and the receivers
   have taken everything, all buffers which arrived were received by every receiver. *)
Theorem C53_all_partial : forall (X : Type) icaps outs (l : list (xact X)), ports_ok icaps outs -> Forall running l ->
  let s := run (started icaps outs) l in
  x_pc s = XIdle -> x_ev s = [] -> x_win s = [] -> x_wout s = [] -> (forall o t, nth_error (x_out s) o = Some t -> content t = []) ->
  exists fwd, (forall o, o < length outs -> nth o (x_taken s) [] = map snd fwd) /\ (forall i, of_input i fwd = of_input i (x_arrived s)).
Proof.
  intros X icaps outs l (Fi & Fo) F s Hp He Hw Hwo Hc. destruct (run_ok l _ _ _ (init_ok icaps outs Fi Fo) F) as (li & lo & V). change (MuxProofs.fresh icaps outs) with (started (X:=X) icaps outs) in V. fold s in V. destruct V as [V1 V2 V3 V4 V5 V6 V7 V8 V9 V10 V11 V12].
  assert (Lx : length lo = length outs). { rewrite <- (forall2_len _ _ _ V2). assert (B := proj2 (inp_len _ _ l (started (X:=X) icaps outs) eq_refl eq_refl)). fold s in B. rewrite B. cbn. apply map_length. }
  assert (Em : forall o, nth o lo [] = []). { intros o. destruct (nth_error (x_out s) o) as [t|] eqn:E. - destruct (forall2_nth _ _ _ _ _ V2 E) as (w & Ew & K). destruct (nth_error_nth0 _ _ _ [] Ew) as (Nw & _). rewrite Nw. assert (C := Hc o t E). rewrite (content_ok t w K) in C. destruct w; [reflexivity|discriminate]. - apply nth_error_None in E. apply nth_overflow. rewrite <- (forall2_len _ _ _ V2). exact E. }
  unfold pcok in V5. rewrite Hp in V5. destruct (x_q s) as [|i q] eqn:Eq.
  - exists (x_done s). unfold unsent, held in *. rewrite Hp in *. split.
    + intros o Ho. specialize (V10 o ltac:(lia)). rewrite Em, !app_nil_r in V10. exact V10.
    + intros i. specialize (V6 i). rewrite He, Hw in V6. cbn in V6. specialize (V8 i). destruct (nth i li []); [|discriminate]. rewrite V8. cbn. rewrite app_nil_r. reflexivity.
  - exfalso. destruct (V5 ltac:(discriminate)) as (o & Lo & [R|P]).
    + apply R. unfold room. rewrite Em. destruct (nth_error (x_out s) o) as [t|] eqn:E; [|exact I]. destruct (forall2_nth _ _ _ _ _ V2 E) as (w & _ & K). apply (k_cap _ _ K).
    + unfold pend in P. rewrite Hp, He, Hwo in P. destruct P as [[]|[[]|P]]. discriminate.
Qed.
Print Assumptions C53_all_partial.

(* ---- an example: two inputs, two outputs of capacity 1 and 2; the second buffer waits for
   the first receiver ---- *)
Definition demo : list (xact nat) :=
  [AArrive 1 10; AFireIn 0; AArrive 0 20; AFireIn 0] ++
  concat (repeat (AEvent :: repeat AGo 12) 4) ++ [ATake 1; ATake 0; AFireOut 0; AFireOut 0] ++ concat (repeat (AEvent :: repeat AGo 12) 4) ++
  [ATake 0; ATake 1; AFireOut 0; AFireOut 0] ++ concat (repeat (AEvent :: repeat AGo 12) 4).
Definition demo_state := run (started [2; 2] [(1, SignalConfirm); (2, SignalOperation)]) demo.
Theorem C53_example :
  ports_ok [2; 2] [(1, SignalConfirm); (2, SignalOperation)] /\ Forall running demo /\
  x_taken demo_state = [[10; 20]; [10; 20]] /\ x_fired demo_state = map fst (x_arrived demo_state) /\
  x_pc demo_state = XIdle /\ x_ev demo_state = [] /\ x_win demo_state = [] /\ x_wout demo_state = [] /\
  (forall o t, nth_error (x_out demo_state) o = Some t -> content t = []).
Proof.
  split; [split; repeat constructor; discriminate|]. split; [repeat constructor|]. split; [vm_compute; reflexivity|]. split; [vm_compute; reflexivity|]. split; [vm_compute; reflexivity|]. split; [vm_compute; reflexivity|]. split; [vm_compute; reflexivity|]. split; [vm_compute; reflexivity|].
  intros [|[|o]] t E; vm_compute in E; try (injection E as <-; vm_compute; reflexivity). destruct o; discriminate.
Qed.
Print Assumptions C53_example.

(* ---- what is false ---- *)
Definition work : list (xact nat) := concat (repeat (AEvent :: repeat AGo 12) 6).
(* Buffers which arrive before the module is started, or while it is stopped, are not
   forwarded in arrival order: input 0 is always served first. *)
Theorem C53_start_order_refuted :
  let s := run (mux_new [2; 2] [(4, SignalConfirm)] SignalEvery) ([AArrive 1 10; AFireIn 0; AEvent; AArrive 0 20; AFireIn 0; AEvent; AStart] ++ work ++ [ATake 0; ATake 0]) in
  x_arrived s = [(1, 10); (0, 20)] /\ x_taken s = [[20; 10]].
Proof. vm_compute. split; reflexivity. Qed.
Print Assumptions C53_start_order_refuted.
(* An event fired before the start but taken after it counts twice; from then on a later
   buffer of this input overtakes the others. *)
Theorem C53_double_event_refuted :
  let s := run (mux_new [2; 2] [(1, SignalConfirm)] SignalEvery)
    ([AArrive 0 10; AFireIn 0; AStart] ++ firstn 13 work ++ [AArrive 1 20; AFireIn 0; AArrive 0 30; AFireIn 0] ++ work ++ [ATake 0; AFireOut 0] ++ work ++ [ATake 0; AFireOut 0] ++ work ++ [ATake 0]) in
  x_arrived s = [(0, 10); (1, 20); (0, 30)] /\ x_taken s = [[10; 30; 20]].
Proof. vm_compute. split; reflexivity. Qed.
Print Assumptions C53_double_event_refuted.
(* An output event dropped while the module is stopped is never confirmed: after the start the
   buffers of this input wait for ever, though the receiver has taken everything. *)
Theorem C53_restart_stall_refuted :
  let l := [AArrive 0 10; AFireIn 0; AArrive 0 20; AFireIn 0] ++ work ++ [AArrive 0 30; AFireIn 0; ATake 0; AFireOut 0] ++ firstn 13 work ++ [AStop; AEvent; AStart; AArrive 0 40; AFireIn 0] ++ work ++ [ATake 0; ATake 0; ATake 0] ++ work in
  let s := run (started [2] [(2, SignalConfirm)]) l in
  x_arrived s = [(0, 10); (0, 20); (0, 30); (0, 40)] /\ x_taken s = [[10; 20; 30]] /\ x_pc s = XIdle /\ x_ev s = [] /\ x_win s = [] /\ x_wout s = [] /\
  map content (x_out s) = [[]] /\ map content (x_inp s) = [[Some 40]].
Proof. vm_compute. repeat split; reflexivity. Qed.
Print Assumptions C53_restart_stall_refuted.
