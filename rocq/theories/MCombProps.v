(* C74: the MBS event builder puts together the events with the same number and loses none.
   The specification is MCombSpec.v.  [run c (init cfgs) ops] is a run of the module with the inputs
   [cfgs]; [received i ops] are the events which have arrived at input [i], [pending p] those which
   wait there, [produced s] the events written to the output. *)
From Verif Require Import Common ListFacts Bytes MbsSpec MbsRead MCombSpec MCombModel MCombProofs MCombGroups MCombJoin MCombRun MCombKept MCombSend MCombProgress.
Local Open Scope N_scope.

(* the pool gives buffers with room for an event of every input, each with subevents of at most [Z] bytes *)
Definition big_buffers (n : nat) (Z : N) (e : env) : Prop := forall cap, e_take e = Some cap -> 16 + N.of_nat n * Z <= cap.

(* In every run, for every configuration and every input: no invalid access; each event written is
   made from a legal group of events; every event is used at most once, in the order of arrival. *)
Theorem C74_groups_partial c cfgs ops :
  exists s gs, run c (init cfgs) ops = Ok s /\ Forall2 (makes (map fst cfgs)) gs (produced s) /\
    Forall (legal (f_full c) (f_mask c) (f_lim c) (map fst cfgs)) gs /\
    map p_cfg (s_ins s) = map fst cfgs /\
    forall i p, nth_error (s_ins s) i = Some p ->
      exists gone, received i ops = gone ++ pending p /\ sublist (from_input i gs) gone.
Proof.
  destruct (inv_run c cfgs ops) as (s & R & I1 & I2 & I3 & I4 & I5). exists s, (s_made s). repeat split; auto.
  intros i p E. destruct (I3 _ _ E) as [A B]. eauto.
Qed.
Print Assumptions C74_groups_partial.

Section SteadyRuns.
Context (c : conf) (cfgs : list (icfg * nat)) (ops : list op) (L : mevent -> N) (G base k Z : N).
Context (Htol : f_tol c = 0) (Hk : 0 < k) (Hmask : f_mask c = 2^k - 1) (HG : 6 * G <= 2^k).
Context (Hplain : Forall (fun x => plain (fst x)) cfgs).
Context (Hsteady : forall i, (i < length cfgs)%nat -> steady L G base (received i ops)).
Context (Hev : forall i cf e, nth_error (map fst cfgs) i = Some cf -> In e (received i ops) ->
  ~ special (f_lim c) cf e /\ me_num e mod 2^k = L e mod 2^k /\ lenN (enc_msubs (me_subs e)) <= Z).
Context (Hids : f_chk c = true -> forall g, (forall i e, member g i e -> In e (received i ops)) -> ids_differ g).
Context (Hbuf : Forall (op_env (big_buffers (length cfgs) Z)) ops).

Lemma steady_hyps : settings c G k /\ steady_inputs c (map fst cfgs) L G base k Z (fun i => received i ops) /\ Forall (op_env (room (map fst cfgs) Z)) ops.
Proof.
  split; [repeat split; auto|]. split.
  - split; auto. intros i cf E. assert (Hi : (i < length cfgs)%nat) by (rewrite <- (map_length fst); apply nth_error_Some; congruence).
    split; [|split; auto].
    + rewrite nth_error_map in E. destruct (nth_error cfgs i) as [x|] eqn:Ex; [|discriminate]. injection E as <-. rewrite Forall_forall in Hplain. apply Hplain. eapply nth_error_In; eauto.
    + apply Forall_forall. intros e Ie. apply (Hev i); auto.
  - assert (Im : forall e, big_buffers (length cfgs) Z e -> room (map fst cfgs) Z e).
    { intros e H cap E. specialize (H _ E). unfold bound, lenN. rewrite map_length. exact H. }
    clear - Hbuf Im. eapply Forall_impl; [|exact Hbuf]. intros [| |e|es can] H; cbn in *; auto. eapply Forall_impl; [|exact H]. auto.
Qed.

Lemma J_facts s : J c (map fst cfgs) L G base k Z ops s ->
  forall i, (i < length cfgs)%nat -> exists p, nth_error (s_ins s) i = Some p /\ received i ops = p_done p ++ pending p /\
    (forall T, (exists e, In e (received i ops) /\ L e = T) -> ~ gone L p T) /\
    forall g e e', In g (s_made s) -> member g i e' -> In e (received i ops) -> L e' = L e -> member g i e.
Proof.
  intros (I & _) i Hi. pose proof I as (_ & I2 & I3 & _).
  assert (Ln : length (s_ins s) = length cfgs) by (rewrite <- (map_length p_cfg), I2, map_length; auto).
  destruct (nth_error (s_ins s) i) as [p|] eqn:E; [|apply nth_error_None in E; lia]. exists p. destruct (I3 _ _ E) as [A B]. split; auto. split; auto. split.
  - intros T X. eapply gone_not; eauto. eapply cfg_at; eauto.
  - intros g e e' Ig Me Ie Le. assert (e' = e); [|subst; auto]. apply (steady_inj L G _ base _ _ (Hsteady i Hi)); auto.
    rewrite <- A. apply in_or_app. left. eapply inv_group_done; eauto.
Qed.
Lemma not_pending (e : mevent) (a b l : list mevent) : l = a ++ b -> In e l -> ~ In e b -> In e a.
Proof. intros -> I N. apply in_app_or in I. tauto. Qed.

(* Only complete events are built: when the number [T] has arrived at every input and its event has
   left one of them, then the event made of all the events with this number was written, also when
   the numbers in the headers overflow. *)
Theorem C74_complete_partial : f_full c = true -> Forall stays ops ->
  exists s gs, run c (init cfgs) ops = Ok s /\ Forall2 (makes (map fst cfgs)) gs (produced s) /\
    Forall (fun g => exists T, forall i e, member g i e -> L e = T) gs /\
    forall T, (forall i, (i < length cfgs)%nat -> exists e, In e (received i ops) /\ L e = T) ->
      (exists j p e, nth_error (s_ins s) j = Some p /\ In e (received j ops) /\ L e = T /\ ~ In e (pending p)) ->
      exists g, In g gs /\ forall i e, (i < length cfgs)%nat -> In e (received i ops) -> L e = T -> member g i e.
Proof.
  intros Hf Hst. destruct steady_hyps as (Hs & SI & Ro).
  destruct (J_run c cfgs L G base k Z ops Hs SI) as (s & R & Js); auto; [congruence| |].
  { intros pre post s E Rn. unfold easy. rewrite Hf. rewrite E in Hst. apply Forall_app in Hst. destruct Hst as [Hst _].
    destruct (kept_run c cfgs 0 []) as (s0 & R0 & K0); [constructor|split; [intros i e []|auto]|]. cbn in R0. injection R0 as <-.
    assert (W0 : wired c (init cfgs)) by apply K0. specialize (W0 Hf). clear - Hf Hst Rn W0.
    destruct (run_total c (fun _ => True) (fun pr x => Inv c (map fst cfgs) pr x /\ (Forall stays pr -> Forall (fun p => p_conn p = true) (s_ins x)))) with (ops := pre) (pre := @nil op) (s := init cfgs) as (s1 & R1 & I1 & F1).
    - intros p x [A _]. apply A.
    - intros p i b x [A B]. split; [apply inv_push; auto|]. intros St. apply Forall_app in St. cbn. apply at_input_Forall; [auto|apply B; apply St].
    - intros p i b x [A B]. split; [apply inv_conn; auto|]. intros St. apply Forall_app in St. destruct St as [St Sb]. inversion Sb as [|? ? Sb1 _]; subst. cbn. destruct b; [|destruct Sb1].
      apply at_input_Forall; auto.
    - intros p e x x' ok _ [A B] Cs. split; [eapply inv_case; eauto|]. intros St. eapply conn_shrunk; [eapply case_shrunk; eauto|auto].
    - intros p can x x' ok [A B] F. split; [eapply inv_flush; eauto|]. apply flush_spec in F. destruct F as [-> _]. auto.
    - intros p x [A B]. split; [exact A|exact B].
    - intros p e x [A B]. split; [apply inv_other; auto|]. intros St. apply Forall_app in St. apply B; apply St.
    - intros p es can x [A B]. split; [apply inv_other; auto|]. intros St. apply Forall_app in St. apply B; apply St.
    - apply Forall_forall. intros [| | |] _; cbn; auto. apply Forall_forall. auto.
    - split; [apply inv_init|]. auto.
    - rewrite R1 in Rn. injection Rn as <-. auto. }
  pose proof (J_facts s Js) as Fa. destruct Js as (I & _ & _ & Cl & Sn). exists s, (s_made s). split; auto. split; [apply I|]. split; [exact Sn|].
  intros T All (j & p & e & Ej & Ie & Le & Np).
  assert (Ln : length (s_ins s) = length cfgs) by (destruct I as (_ & I2 & _); rewrite <- (map_length p_cfg), I2, map_length; auto).
  assert (Hj : (j < length cfgs)%nat) by (rewrite <- Ln; apply nth_error_Some; congruence).
  destruct (Fa j Hj) as (p' & Ej' & Rj & _). assert (p' = p) by congruence. subst p'.
  specialize (Cl _ _ _ Ej (not_pending _ _ _ _ Rj Ie Np)). rewrite Hf, Le in Cl. destruct Cl as [(g & Ig & Ag)|(i & q & Ei & Go)].
  - exists g. split; auto. intros i ei Hi Iei Lei. destruct (Fa i Hi) as (q & Ei & _ & _ & U). destruct (Ag _ _ Ei) as (e' & M' & L'). apply (U g ei e'); auto. congruence.
  - exfalso. assert (Hi : (i < length cfgs)%nat) by (rewrite <- Ln; apply nth_error_Some; congruence).
    destruct (Fa i Hi) as (q' & Ei' & _ & U & _). assert (q' = q) by congruence. subst q'. apply (U T); auto.
Qed.

(* Also incomplete events are built: as long as no queue gets full, every event which has left its
   input was written, together with all the events with this number.  With more than two inputs
   this is shown for numbers without overflow. *)
Theorem C74_join_partial : f_full c = false ->
  (forall pre post s, ops = pre ++ post -> run c (init cfgs) pre = Ok s -> Forall (fun p => (length (p_queue p) < p_cap p)%nat) (s_ins s)) ->
  (length cfgs <= 2)%nat \/ (forall i e, In e (received i ops) -> L e < 2^k) ->
  exists s gs, run c (init cfgs) ops = Ok s /\ Forall2 (makes (map fst cfgs)) gs (produced s) /\
    Forall (fun g => exists T, forall i e, member g i e -> L e = T) gs /\
    forall j p e, nth_error (s_ins s) j = Some p -> In e (received j ops) -> ~ In e (pending p) ->
      exists g, In g gs /\ member g j e /\ forall i e', (i < length cfgs)%nat -> In e' (received i ops) -> L e' = L e -> member g i e'.
Proof.
  intros Hf Hq Hw. destruct steady_hyps as (Hs & SI & Ro).
  destruct (J_run c cfgs L G base k Z ops Hs SI) as (s & R & Js); auto.
  { intros _. unfold no_overflow. rewrite map_length. exact Hw. }
  { intros pre post s E Rn. unfold easy. rewrite Hf. exact (Hq pre post s E Rn). }
  pose proof (J_facts s Js) as Fa. destruct Js as (I & _ & _ & Cl & Sn). exists s, (s_made s). split; auto. split; [apply I|]. split; [exact Sn|].
  intros j p e Ej Ie Np.
  assert (Ln : length (s_ins s) = length cfgs) by (destruct I as (_ & I2 & _); rewrite <- (map_length p_cfg), I2, map_length; auto).
  assert (Hj : (j < length cfgs)%nat) by (rewrite <- Ln; apply nth_error_Some; congruence).
  destruct (Fa j Hj) as (p' & Ej' & Rj & _). assert (p' = p) by congruence. subst p'.
  specialize (Cl _ _ _ Ej (not_pending _ _ _ _ Rj Ie Np)). rewrite Hf in Cl. destruct Cl as (g & Ig & Mg & Ag).
  exists g. split; auto. split; auto. intros i ei Hi Iei Lei. destruct (Fa i Hi) as (q & Ei & _ & V & U). destruct (Ag _ _ Ei) as [(e' & M' & L')|Go].
  - apply (U g ei e'); auto. congruence.
  - exfalso. apply (V (L e)); auto. exists ei. auto.
Qed.
End SteadyRuns.
Print Assumptions C74_complete_partial.
Print Assumptions C74_join_partial.

(* Events of inputs without numbers and special events (start and stop of a spill or of the data
   taking) are never dropped: what has left the input was written, once and in order.  Without the
   size limit they are lost with the event they belong to; with an input disconnected buffers are
   dropped on purpose. *)
Theorem C74_kept_partial c cfgs ops Z :
  Forall (op_env (big_buffers (length cfgs) Z)) ops -> (forall i e, In e (received i ops) -> lenN (enc_msubs (me_subs e)) <= Z) ->
  (f_full c = true -> Forall stays ops) ->
  exists s gs, run c (init cfgs) ops = Ok s /\ Forall2 (makes (map fst cfgs)) gs (produced s) /\
    forall i p, nth_error (s_ins s) i = Some p ->
      (g_nonum (p_cfg p) = true -> received i ops = from_input i gs ++ pending p) /\
      let sp := filter (is_special (f_lim c) (p_cfg p)) in sp (received i ops) = sp (from_input i gs) ++ sp (pending p).
Proof.
  intros Hb Hz Hst. destruct (kept_run c cfgs Z ops) as (s & R & I & Og & Ke & _).
  { assert (Im : forall e, big_buffers (length cfgs) Z e -> room (map fst cfgs) Z e).
    { intros e H cap E. specialize (H _ E). unfold bound, lenN. rewrite map_length. exact H. }
    eapply Forall_impl; [|exact Hb]. intros [| |e|es can] H; cbn in *; auto. eapply Forall_impl; [|exact H]. auto. }
  { split; auto. }
  exists s, (s_made s). split; auto. split; [apply I|]. intros i p E. specialize (Ke _ _ E). destruct I as (_ & _ & I3 & _). destruct (I3 _ _ E) as [A _]. split.
  - intros Nn. rewrite <- A. f_equal. unfold kept in Ke. rewrite Nn in Ke. cbn in Ke. assert (Tr : forall l : list mevent, filter (fun _ => true) l = l) by (induction l; cbn; congruence).
    rewrite !Tr in Ke. exact Ke.
  - cbn. rewrite <- A, filter_app. f_equal.
    assert (Tr : forall l, filter (is_special (f_lim c) (p_cfg p)) l = filter (is_special (f_lim c) (p_cfg p)) (filter (kept c (p_cfg p)) l)).
    { induction l as [|x l IH]; cbn; auto. unfold kept at 1. destruct (is_special (f_lim c) (p_cfg p) x) eqn:Sp.
      - rewrite orb_true_r. cbn. rewrite Sp, IH. reflexivity.
      - destruct (_ || _); cbn; rewrite ?Sp; auto. }
    rewrite Tr, Ke, <- Tr. reflexivity.
Qed.
Print Assumptions C74_kept_partial.

(* What was written when a timer event is handled has been sent after a later timer event with
   which sending is possible. *)
Theorem C74_sent_partial c cfgs before es can s mid es' s' :
  run c (init cfgs) (before ++ [Timer es can]) = Ok s -> run c s (mid ++ [Timer es' true]) = Ok s' ->
  exists more, concat (s_sent s') = produced s ++ more.
Proof. apply two_timers. Qed.
Print Assumptions C74_sent_partial.

(* No buffer sent is empty, and its events fit into the buffers of the pool. *)
Theorem C74_fits_partial c cfgs ops C :
  Forall (op_env (fun e => forall cap, e_take e = Some cap -> cap <= C)) ops ->
  exists s, run c (init cfgs) ops = Ok s /\ Forall (fun l => l <> [] /\ lenN (enc_mevents l) <= C) (s_sent s).
Proof.
  intros H. destruct (fits_run c cfgs C ops H) as (s & R & F & _). exists s. split; auto.
  assert (X : forall l, lenN (enc_mevents l) = used_size l).
  { induction l as [|e l IH]; auto. rewrite enc_mevents_cons, lenN_app, lenN_enc_mevent, IH. reflexivity. }
  eapply Forall_impl; [|exact F]. cbn. intros l [A B]. rewrite X. auto.
Qed.
Print Assumptions C74_fits_partial.

(* With an event waiting at every input, a call of BuildEvent takes at least one, if buffers are
   big enough and sending is possible. *)
Theorem C74_progress_partial c cfgs ops Z s e cap :
  f_tol c = 0 -> Forall (op_env (big_buffers (length cfgs) Z)) ops -> (forall i e, In e (received i ops) -> lenN (enc_msubs (me_subs e)) <= Z) ->
  (f_full c = true -> Forall stays ops) ->
  run c (init cfgs) ops = Ok s -> e_send1 e = true -> e_take e = Some cap -> 28 <= cap ->
  (forall p, In p (s_ins s) -> exists ev, In ev (pending p) /\ usable (f_mask c) (f_lim c) (p_cfg p) ev) ->
  (exists p, In p (s_ins s) /\ g_nonum (p_cfg p) = false) ->
  exists s', build c e s = Ok (s', true) /\
    exists i p p', nth_error (s_ins s) i = Some p /\ nth_error (s_ins s') i = Some p' /\ (length (pending p') < length (pending p))%nat.
Proof.
  intros Tol Hb Hz Hst R Hs Ht Hc Us Nn. destruct (kept_run c cfgs Z ops) as (s0 & R0 & I & Og & _ & W).
  { assert (Im : forall e, big_buffers (length cfgs) Z e -> room (map fst cfgs) Z e).
    { intros e0 H cp E. specialize (H _ E). unfold bound, lenN. rewrite map_length. exact H. }
    eapply Forall_impl; [|exact Hb]. intros [| |e0|es can] H; cbn in *; auto. eapply Forall_impl; [|exact H]. auto. }
  { split; auto. }
  rewrite R in R0. injection R0 as <-. eapply (build_goes c (map fst cfgs) Z ops s e cap); eauto.
Qed.
Print Assumptions C74_progress_partial.

(* ---- where it fails ---- *)
Definition ev (n id : N) : mevent := mkME mbs_type (2^16) n [mkMS mbs_type id [0; 0]].
Definition inp_plain (q : nat) : icfg * nat := (mkC true true false false 0 0, q).
Definition inp_option (q : nat) : icfg * nat := (mkC true true false true 0 0, q).
Definition go (t : N) : op := Build (mkE t true true (Some 4096)).
Definition gos : list op := [go 1; go 1; go 1; go 1; go 1; go 1; go 1; go 1].

(* Two events in a row which do not fit into a buffer stop the builder for good: the buffer taken
   for the first one stays empty, FlushBuffer refuses to send it, and BuildEvent gives up before it
   gets to skipping the second (CombinerModule.cxx:142, 481-501).  The small event behind them is never
   written, whatever happens later. *)
Definition big (n : N) : mevent := mkME mbs_type (2^16) n [mkMS mbs_type 7 (repeat 0 100)].
Definition cfg_stuck : conf := mkF false false (2^32 - 1) 0 12 5.
Definition ops_stuck : list op := [Push 0 (Some [big 1; big 2; ev 3 7]); Build (mkE 1 true true (Some 100)); Build (mkE 1 true true (Some 100))].
Definition stuck (s : st) : Prop :=
  exists cap conn q sel last done flag stop, s = mkS [mkI (fst (inp_plain 4)) cap conn (Some [big 1; big 2; ev 3 7] :: q) (Some (big 2, [ev 3 7])) 2 false true sel last done] (Some (100, [])) [] flag stop [].
Lemma stuck_build e s : stuck s -> exists s', build cfg_stuck e s = Ok (s', false) /\ stuck s'.
Proof.
  intros (cap & conn & q & sel & last & done & flag & stop & ->). unfold build. cbn [f_full cfg_stuck]. rewrite andb_false_r. cbn [s_ins].
  unfold prep_all, prep. cbn [p_it set_last set_sel]. cbn [nums map filter counted p_cfg p_it fst inp_plain g_nonum negb andb p_num find_special p_special pick fold_left f_mask f_tol].
  replace ((2^32 - 1) / 2 <? 2 - 2) with false by reflexivity. cbn [N.ltb N.compare andb].
  unfold write. cbn. eexists. split; [reflexivity|]. repeat eexists.
Qed.
Theorem C74_too_big_refuted : forall more, exists s, run cfg_stuck (init [inp_plain 4]) (ops_stuck ++ more) = Ok s /\
  produced s = [] /\ exists p, s_ins s = [p] /\ In (ev 3 7) (pending p) /\ 16 + lenN (enc_msubs (me_subs (ev 3 7))) <= 100.
Proof.
  intros more. assert (S0 : exists s, run cfg_stuck (init [inp_plain 4]) ops_stuck = Ok s /\ stuck s).
  { eexists. split; [vm_compute; reflexivity|]. repeat eexists. }
  destruct S0 as (s0 & R0 & S0).
  assert (Fl : forall can s, stuck s -> fst (flush can s) = s). { intros can s (cap & conn & q & sel & last & done & flag & stop & ->). reflexivity. }
  assert (Fg : forall s, stuck s -> stuck (set_flag s)). { intros s (cap & conn & q & sel & last & done & flag & stop & ->). repeat eexists. }
  assert (Bs : forall es s, stuck s -> exists s', builds cfg_stuck es s = Ok s' /\ stuck s').
  { intros [|e es] s S; cbn; eauto. destruct (stuck_build e s S) as (s' & B & S'). rewrite B. cbn. eauto. }
  assert (St : forall o s, stuck s -> exists s', step cfg_stuck s o = Ok s' /\ stuck s').
  { intros [i b|i b|e|es can] s S.
    - eexists. split; [reflexivity|]. destruct S as (cap & conn & q & sel & last & done & flag & stop & ->). destruct i as [|[|i]]; cbn; repeat eexists.
    - eexists. split; [reflexivity|]. destruct S as (cap & conn & q & sel & last & done & flag & stop & ->). destruct i as [|[|i]]; cbn; repeat eexists.
    - destruct (stuck_build e s S) as (s' & B & S'). cbn [step]. rewrite B. cbn. eauto.
    - cbn [step]. unfold timer. destruct (s_flag s); eauto. destruct (Bs (firstn 100 es) s S) as (s' & B & S'). rewrite B. cbn [bind]. rewrite Fl; eauto. }
  assert (Rn : forall l s, stuck s -> exists s', run cfg_stuck s l = Ok s' /\ stuck s').
  { induction l as [|o l IH]; intros s S; cbn [run]; eauto. destruct (St o s S) as (s' & E & S'). rewrite E. cbn [bind]. auto. }
  destruct (Rn more s0 S0) as (s & R & (cap & conn & q & sel & last & done & flag & stop & ->)). eexists. split; [rewrite run_app, R0; exact R|].
  split; [reflexivity|]. eexists. split; [reflexivity|]. split; [cbn; auto|]. vm_compute. discriminate.
Qed.
Print Assumptions C74_too_big_refuted.

(* Three inputs around an overflow of the numbers (here 8 bits): with the numbers 250, 254 and 257
   (in the header 1) at the inputs the largest of the headers, 254, is taken although 250 is still
   waiting.  So one number is built twice, each time incomplete (CombinerModule.cxx:377-380). *)
Definition cfg_over (full : bool) : conf := mkF full false 255 0 12 5.
Theorem C74_overflow_split_refuted :
  exists ops s, run (cfg_over false) (init [inp_plain 10; inp_plain 10; inp_plain 10]) ops = Ok s /\
    received 0 ops = [ev 250 1; ev 254 1; ev 256 1] /\ received 1 ops = [ev 254 2; ev 256 2; ev 258 2] /\ received 2 ops = [ev 257 3; ev 258 3; ev 259 3] /\
    filter (fun e => me_num e =? 254) (produced s) = [ev 254 2; ev 254 1].
Proof.
  exists ([Push 0 (Some [ev 250 1; ev 254 1; ev 256 1]); Push 1 (Some [ev 254 2; ev 256 2; ev 258 2]); Push 2 (Some [ev 257 3; ev 258 3; ev 259 3])] ++ gos).
  eexists. split; [vm_compute; reflexivity|]. vm_compute. repeat split.
Qed.
Print Assumptions C74_overflow_split_refuted.

(* The same when only complete events are built and the third input is optional: the event with
   number 254, complete at both mandatory inputs, is not built. *)
Theorem C74_overflow_lost_refuted :
  exists ops s, run (cfg_over true) (init [inp_plain 10; inp_plain 10; inp_option 10]) ops = Ok s /\
    received 0 ops = [ev 250 1; ev 254 1; ev 256 1] /\ received 1 ops = [ev 254 2; ev 256 2; ev 258 2] /\ received 2 ops = [ev 257 3; ev 258 3; ev 259 3] /\
    Forall (fun p => ~ In 254 (map me_num (pending p))) (s_ins s) /\ filter (fun e => me_num e =? 254) (produced s) = [] /\ produced s <> [].
Proof.
  exists ([Push 0 (Some [ev 250 1; ev 254 1; ev 256 1]); Push 1 (Some [ev 254 2; ev 256 2; ev 258 2]); Push 2 (Some [ev 257 3; ev 258 3; ev 259 3])] ++ gos).
  eexists. split; [vm_compute; reflexivity|]. vm_compute. repeat split; try discriminate. repeat constructor; cbn; intuition discriminate.
Qed.
Print Assumptions C74_overflow_lost_refuted.

(* ---- cases meeting the hypotheses ---- *)
Definition ops_case : list op :=
  [Push 0 (Some [ev 254 1; ev 255 1]); Push 1 (Some [ev 254 2; ev 256 2]); go 1; Push 0 (Some [ev 256 1; ev 257 1]); go 2; Timer [] true; go 3; Push 1 (Some [ev 257 2]); go 4; go 5; Timer [] true].
(* complete events only: 254, 256 (in the header 0) and 257 are built, 255 is not *)
Example C74_case_complete :
  let c := cfg_over true in
  f_full c = true /\ f_tol c = 0 /\ f_mask c = 2^8 - 1 /\ 6 * 40 <= 2^8 /\ Forall stays ops_case /\
  Forall (op_env (big_buffers 2 14)) ops_case /\
  Forall (fun i => steady me_num 40 253 (received i ops_case)) [0%nat; 1%nat] /\
  exists s, run c (init [inp_plain 10; inp_plain 10]) ops_case = Ok s /\
    map (fun e => (me_num e, map ms_id (me_subs e))) (produced s) = [(254, [1; 2]); (256, [1; 2]); (257, [1; 2])] /\ concat (s_sent s) = produced s.
Proof.
  cbn [f_full f_tol f_mask cfg_over]. split; auto. split; auto. split; auto. split; [lia|]. split; [repeat constructor|]. split.
  - repeat constructor; cbn; intros cap [= <-]; lia.
  - split; [repeat constructor; cbn; lia|]. eexists. split; [vm_compute; reflexivity|]. vm_compute. auto.
Qed.
(* the same inputs, incomplete events as well *)
Example C74_case_join :
  let c := cfg_over false in
  (forall pre post s, ops_case = pre ++ post -> run c (init [inp_plain 10; inp_plain 10]) pre = Ok s -> Forall (fun p => (length (p_queue p) < p_cap p)%nat) (s_ins s)) /\
  exists s, run c (init [inp_plain 10; inp_plain 10]) ops_case = Ok s /\
    map (fun e => (me_num e, map ms_id (me_subs e))) (produced s) = [(254, [1; 2]); (255, [1]); (256, [1; 2]); (257, [1; 2])].
Proof.
  split.
  - intros pre post s E R. assert (A : pre = firstn (length pre) ops_case) by (rewrite E, firstn_app, Nat.sub_diag, firstn_all, app_nil_r; reflexivity).
    assert (B : (length pre <= 11)%nat) by (change 11%nat with (length ops_case); rewrite E, app_length; lia).
    rewrite A in R. revert B R. generalize (length pre) as n. intros n B.
    do 12 (destruct n as [|n]; [intros R; vm_compute in R; injection R as <-; repeat constructor; cbn; lia|]). lia.
  - eexists. split; [vm_compute; reflexivity|]. vm_compute. auto.
Qed.
(* an input without numbers, and special events (trigger 14) *)
Example C74_case_kept :
  let cfgs := [inp_plain 10; (mkC true false true false 0 0, 10%nat)] in
  let sp := mkME mbs_type (14 * 2^16) 77 [mkMS mbs_type 1 [0; 0]] in
  let ops := [Push 0 (Some [ev 1 1; sp; ev 2 1]); Push 1 (Some [ev 0 9; ev 0 8]); go 1; go 1; go 1; go 1] in
  Forall (op_env (big_buffers 2 14)) ops /\
  exists s, run (cfg_over true) (init cfgs) ops = Ok s /\ map (fun e => (me_num e, map ms_id (me_subs e))) (produced s) = [(1, [1; 9]); (77, [1]); (2, [1; 8])] /\
    map pending (s_ins s) = [[]; []].
Proof.
  cbn [fst]. split.
  - repeat constructor; cbn; intros cap [= <-]; lia.
  - eexists. split; [vm_compute; reflexivity|]. vm_compute. auto.
Qed.
(* an event waits at every input, as C74_progress_partial asks; C74_case_complete has the two timer
   events of C74_sent_partial *)
Example C74_case_progress :
  let ops := [Push 0 (Some [ev 254 1; ev 255 1]); Push 1 (Some [ev 255 2])] in
  exists s, run (cfg_over true) (init [inp_plain 10; inp_plain 10]) ops = Ok s /\
    (forall p, In p (s_ins s) -> exists e, In e (pending p) /\ usable 255 12 (p_cfg p) e) /\
    exists s', build (cfg_over true) (mkE 1 true true (Some 4096)) s = Ok (s', true) /\ map (fun p => length (pending p)) (s_ins s) = [2%nat; 1%nat] /\
      map (fun p => length (pending p)) (s_ins s') = [1%nat; 1%nat].
Proof.
  eexists. split; [vm_compute; reflexivity|]. split.
  - intros p [<-|[<-|[]]]; eexists; (split; [left; reflexivity|]); right; right; eexists; cbv; auto.
  - eexists. split; [vm_compute; reflexivity|]. vm_compute. auto.
Qed.
