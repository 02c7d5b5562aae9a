(* Proofs about the room in the queue of an InputTransport. *)
From Verif Require Import Common InTrSpec InTrModel InTrProofs InTrRules.
From Coq Require Import Lia.

#[local] Hint Rewrite k_w_state_i_csz k_w_inp_i_csz k_w_cur_i_csz k_w_size_i_csz k_w_ext_i_csz k_w_stop_i_csz k_w_tr_i_csz k_w_run_i_csz k_w_timer_i_csz k_w_port_i_csz
  k_w_dead_i_csz k_w_exit_i_csz k_note_i_csz k_close_transport_i_csz k_close_input_i_csz k_change_i_csz k_w_state_i_size k_w_inp_i_size k_w_cur_i_size k_w_size_i_size k_w_ext_i_size k_w_stop_i_size k_w_tr_i_size k_w_run_i_size k_w_timer_i_size k_w_port_i_size
  k_w_dead_i_size k_w_exit_i_size k_note_i_size k_close_transport_i_size k_close_input_i_size k_change_i_size : itf.

(* never a buffer too many *)
Definition room (p : port) : Prop := q_over p = false /\ (q_size p <= q_cap p)%nat.
Lemma room_send p : room p -> num_can_send p <> 0%nat -> room (p_send p).
Proof.
  intros [A B] N. unfold room, p_send, num_can_send in *. cbn [q_over q_size q_cap]. rewrite A. destruct (q_own p); [|auto].
  split; [|lia]. cbn [orb andb]. destruct (Nat.ltb_spec (q_size p) (q_cap p)).
  - replace (Nat.leb (q_cap p) (q_size p)) with false by (symmetry; apply Nat.leb_gt; lia). reflexivity.
  - destruct (if q_in p then q_bc p else q_bu p); [contradiction|]. apply andb_false_r.
Qed.
Lemma room_ev p e : room p -> room (p_ev p e).
Proof. intros [A B]. destruct e; split; cbn; auto. destruct (q_in p); lia. Qed.
Lemma room_evs l : forall p, room p -> room (fold_left p_ev l p).
Proof. induction l; cbn; auto using room_ev. Qed.
Lemma room_close s e : room (i_port s) -> room (i_port (close_transport s e)).
Proof. intros [A B]. flds. split; cbn; auto. lia. Qed.
Lemma port_call s c : i_port (read_callback s c) = i_port s /\ i_inp (read_callback s c) = i_inp s /\ i_ext (read_callback s c) = i_ext s /\ i_cur (read_callback s c) = i_cur s.
Proof.
  unfold read_callback. cbv zeta. set (s1 := match c with SQueue => _ | _ => _ end).
  assert (Q : i_port s1 = i_port s /\ i_inp s1 = i_inp s /\ i_ext s1 = i_ext s /\ i_cur s1 = i_cur s).
  { unfold s1. destruct c; flds; auto. destruct (Nat.eqb (i_ext s) 0); flds; auto. }
  clearbody s1. destruct (i_state s1); try (flds; exact Q). destruct (Nat.eqb (i_ext s1) 0); flds; exact Q.
Qed.

Section R.
Variable osize : list iobs -> scode.
Variable ostart : list iobs -> stcode * bool.
Variable ocomp : list iobs -> cpcode * option N.
Variable ocb : list iobs -> option scode.
Variable opool : list iobs -> option N.
Variable ocreate : list iobs -> bool.
Variable env : list iobs -> list pev.
Variable auto recon : bool.
Variable lim : option nat.
Notation process_send := (process_send osize ostart ocomp ocb opool ocreate env auto recon).
Notation out_loop := (out_loop osize ostart ocomp ocb opool ocreate env auto recon).
Notation process_output := (process_output osize ostart ocomp ocb opool ocreate env auto recon lim).
Notation step := (step osize ostart ocomp ocb opool ocreate env auto recon lim).
Notation run := (run osize ostart ocomp ocb opool ocreate env auto recon lim).
Ltac got E := injection E as <- <-.

Lemma port_inside s : i_port (inside ocb s) = i_port s.
Proof. unfold inside. destruct (ocb (i_log s)); [apply port_call|reflexivity]. Qed.
Lemma port_mean s : room (i_port s) -> room (i_port (meanwhile env s)).
Proof. intro H. unfold meanwhile. flds. apply room_evs. exact H. Qed.

Definition rkeeps (p : part) : Prop := forall s s1 o, room (i_port s) -> p s = Ok (s1, o) -> room (i_port s1).
Ltac split_all E := repeat match type of E with context [match ?x with _ => _ end] => destruct x eqn:?; try discriminate E end.
Lemma r_closed : rkeeps p_closed.
Proof. intros s s1 o H E. unfold p_closed in E. split_all E; got E; auto; apply room_close; flds; auto. Qed.
Lemma r_recon : rkeeps (p_recon ocreate recon).
Proof. intros s s1 o H E. unfold p_recon in E. cbv zeta in E. split_all E; got E; auto; try (apply room_close); flds; auto. Qed.
Lemma r_noinp : rkeeps p_noinp.
Proof. intros s s1 o H E. unfold p_noinp in E. split_all E; got E; auto; apply room_close; flds; auto. Qed.
Lemma r_size : rkeeps p_size.
Proof. intros s s1 o H E. unfold p_size in E. split_all E; got E; flds; auto. Qed.
Lemma r_need : rkeeps (p_need opool auto).
Proof. intros s s1 o H E. unfold p_need in E. cbv zeta in E. split_all E; got E; flds; auto. Qed.
Lemma r_check : rkeeps p_check.
Proof. intros s s1 o H E. unfold p_check in E. cbv zeta in E. destruct (i_state s); try (got E; exact H). destruct (_ <? _)%N; got E; flds; auto. Qed.
Lemma r_cb : rkeeps p_cb.
Proof. intros s s1 o H E. unfold p_cb in E. split_all E; got E; flds; auto. Qed.
Lemma r_init : rkeeps (p_init osize ocb env).
Proof.
  intros s s1 o H E. unfold p_init in E. cbv zeta in E.
  set (s0 := meanwhile env (w_size (w_state s inpSizeCallBack) (SSize 0))) in E. assert (F : room (i_port s0)) by (apply port_mean; flds; exact H).
  clearbody s0. set (s2 := inside ocb s0) in E. assert (G : room (i_port s2)) by (unfold s2; rewrite port_inside; exact F). clearbody s2.
  destruct (i_state s); try (got E; exact H). destruct (negb _); [got E; exact H|]. destruct (_ && _); [got E; flds; exact H|].
  destruct (Nat.eqb _ 0); [got E; flds; exact H|]. destruct (i_inp s); [|discriminate]. destruct (i_exit s2); [got E; exact G|].
  destruct (osize (i_log s2)); got E; flds; exact G.
Qed.
Lemma r_has : rkeeps (p_has ostart ocb env).
Proof.
  intros s s1 o H E. unfold p_has in E. cbv zeta in E.
  set (s0 := meanwhile env (w_state s inpCallBack)) in E. assert (F : room (i_port s0)) by (apply port_mean; flds; exact H).
  clearbody s0. set (s2 := inside ocb s0) in E. assert (G : room (i_port s2)) by (unfold s2; rewrite port_inside; exact F). clearbody s2.
  destruct (i_state s); try (got E; exact H).
  destruct (i_inp s); [|discriminate]. destruct (i_exit s2); [got E; exact G|].
  destruct (ostart (i_log s2)) as [c k]. destruct k, c; got E; flds; exact G.
Qed.
Lemma r_compl : rkeeps (p_compl ocomp env).
Proof.
  intros s s1 o H E. unfold p_compl in E. cbv zeta in E.
  set (s0 := meanwhile env s) in E. assert (F : room (i_port s0)) by (apply port_mean; flds; exact H). clearbody s0.
  destruct (i_state s); try (got E; exact H). destruct (Bool.eqb _ _); [got E; exact H|]. destruct (i_inp s); [|discriminate].
  destruct (ocomp (i_log s0)) as [c d]. destruct c; try (got E; flds; exact F).
  destruct (Nat.eqb _ 0) eqn:Z; got E; flds; [exact F|]. revert Z. flds. intro Z. apply Nat.eqb_neq in Z. destruct d; [apply room_send|]; auto.
Qed.
Lemma r_ready : rkeeps p_ready.
Proof.
  intros s s1 o H E. unfold p_ready in E. destruct (i_state s); try (got E; exact H). destruct (Nat.eqb _ 0) eqn:Z; got E; flds; [exact H|].
  apply Nat.eqb_neq in Z. destruct (i_cur s); [apply room_send|]; auto.
Qed.
Lemma r_end : rkeeps p_end.
Proof.
  intros s s1 o H E. unfold p_end in E. cbv zeta in E. destruct (i_state s); try (got E; exact H); try (got E; apply room_close; exact H);
    (destruct (Nat.eqb _ 0) eqn:Z; got E; [flds; exact H|]); apply room_close; revert Z; flds; intro Z; apply Nat.eqb_neq in Z; apply room_send; destruct (i_inp s); auto.
Qed.
Lemma r_seq l : (forall p, In p l -> rkeeps p) -> forall s s1 b, room (i_port s) -> seq_parts l s = Ok (s1, b) -> room (i_port s1).
Proof.
  induction l as [|p l IH]; intros A s s1 b H E; cbn [seq_parts] in E; [got E; exact H|].
  destruct (p s) as [[s2 o]| |] eqn:P; cbn [bind] in E; try discriminate.
  pose proof (A p (or_introl eq_refl) s s2 o H P) as H2. destruct o; [got E; exact H2|].
  eapply IH; eauto. intros q Q. apply A. right; exact Q.
Qed.
Lemma r_send s s1 b : room (i_port s) -> process_send s = Ok (s1, b) -> room (i_port s1).
Proof.
  apply r_seq. intros p. cbn [In]. intros P.
  repeat (destruct P as [<-|P]; [auto using r_closed, r_recon, r_noinp, r_init, r_size, r_need, r_check, r_has, r_cb, r_compl, r_ready, r_end|]). destruct P.
Qed.
Lemma r_loop n : forall s s1 b, room (i_port s) -> out_loop n s = Ok (s1, b) -> room (i_port s1).
Proof.
  induction n as [|n IH]; intros s s1 b H E; cbn [out_loop] in E; (destruct (active s); [|got E; exact H]);
    (destruct (process_send s) as [[s2 go]| |] eqn:P; cbn [bind] in E; try discriminate);
    pose proof (r_send _ _ _ H P) as H2; destruct go; try (got E; exact H2). eapply IH; eauto.
Qed.
Lemma r_output s s1 b : room (i_port s) -> process_output s = Ok (s1, b) -> room (i_port s1).
Proof.
  intros H E. unfold process_output in E. destruct lim; [eapply r_loop; eauto|]. destruct (active s); [|got E; exact H].
  destruct (process_send s) as [[s2 go]| |] eqn:P; cbn [bind] in E; try discriminate. got E. eapply r_send; eauto.
Qed.
Lemma r_step s e s1 : room (i_port s) -> step s e = Ok s1 -> room (i_port s1).
Proof.
  intros H E. unfold step in E. destruct (i_exit s); [injection E as <-; exact H|].
  assert (Po : forall s0, room (i_port s0) -> (do (s2, _) <- process_output s0; Ok s2) = Ok s1 -> room (i_port s1)).
  { intros s0 H0 R. destruct (process_output s0) as [[s2 b]| |] eqn:P; cbn [bind] in R; try discriminate. injection R as <-. eapply r_output; eauto. }
  destruct e.
  - eauto.
  - destruct (i_timer s); [|injection E as <-; exact H]. cbv zeta in E. destruct (i_run (w_timer s false)); [|injection E as <-; exact H].
    unfold process_timer in E. cbv zeta in E. revert E. apply Po. flds. destruct (i_state s) eqn:S; flds; rewrite ?S; flds; exact H.
  - destruct (i_run s); [|injection E as <-; exact H]. unfold process_buffer in E. destruct (i_state s) eqn:S; try (injection E as <-; exact H).
    destruct (opool (i_log s)) as [z|]; [|injection E as <-; exact H]. revert E. apply Po. flds. exact H.
  - injection E as <-. destruct (port_call s c) as (-> & _). exact H.
  - injection E as <-. unfold process_closed. cbv zeta. set (s0 := match i_state s with inpClosed => s | _ => _ end).
    assert (H1 : room (i_port s0)) by (unfold s0; destruct (i_state s); flds; exact H). clearbody s0. destruct (negb recon); [apply room_close; exact H1|flds; exact H1].
  - injection E as <-. unfold start_transport. destruct (i_tr s); cbv zeta; try exact H; flds; destruct (i_inp s); flds; exact H.
  - injection E as <-. destruct (i_tr s); try exact H. unfold stop_transport, base_stop. destruct (suitable _); flds; [|exact H]. destruct (i_run (w_stop s false)); flds; exact H.
  - injection E as <-. flds. apply room_ev. exact H.
  - injection E as <-. flds. exact H.
Qed.
Lemma r_run l : forall s s1, room (i_port s) -> run s l = Ok s1 -> room (i_port s1).
Proof.
  induction l as [|e l IH]; intros s s1 H E; cbn [run] in E; [injection E as <-; exact H|].
  destruct (step s e) as [s2| |] eqn:P; cbn [bind] in E; try discriminate. eapply IH; [|exact E]. eapply r_step; eauto.
Qed.
End R.

(* ---- room for every buffer the object works on ---- *)
Definition stage (x : istate) : bool :=
  match x with inpSizeCallBack | inpInitTimeout | inpCheckSize | inpNeedBuffer | inpWaitBuffer | inpCheckBuffer | inpHasBuffer => true | _ => false end.
(* one more place is needed *)
Definition extra (x : istate) : nat :=
  match x with inpSizeCallBack | inpCheckSize | inpNeedBuffer | inpWaitBuffer | inpCheckBuffer | inpHasBuffer | inpReady => 1 | _ => 0 end.
Definition fine (x : istate) (r : nat) (cur : option N) : Prop :=
  match x with
  | inpCallBack | inpCompleting | inpComplitTimeout | inpError | inpEnd => r = 1%nat -> cur <> None
  | inpClosed | inpReconnect => False
  | inpCheckBuffer | inpHasBuffer => r = 0%nat /\ cur <> None
  | _ => r = 0%nat
  end.
Definition blocks (p : port) : Prop := q_own p = true /\ q_bc p = true /\ q_bu p = true.
Definition Ev (x : istate) (cur : option N) (ext w : nat) (p : port) : Prop :=
  (exists r, (r <= 1)%nat /\ (ext + r = w)%nat /\ fine x r cur) /\ (blocks p -> (w + extra x + q_size p <= q_cap p)%nat).
Definition E0 (s : it) : Prop := Ev (i_state s) (i_cur s) (i_ext s) (working (i_log s)) (i_port s).
Definition E (s : it) : Prop := i_exit s = false ->
  if i_inp s then E0 s else q_own (i_port s) = false /\ In (i_state s) [inpClosed; inpCompleting; inpError].

(* the port only gets emptier *)
Definition emptier (p p1 : port) : Prop :=
  q_own p1 = q_own p /\ q_cap p1 = q_cap p /\ q_bc p1 = q_bc p /\ q_bu p1 = q_bu p /\ (q_size p1 <= q_size p)%nat.
Lemma emptier_ev p e : emptier p (p_ev p e).
Proof. destruct e; repeat split; cbn; auto. destruct (q_in p); lia. Qed.
Lemma emptier_evs l : forall p, emptier p (fold_left p_ev l p).
Proof.
  induction l as [|e l IH]; intro p; cbn [fold_left]; [repeat split; auto|].
  destruct (emptier_ev p e) as (A & B & C & D & F), (IH (p_ev p e)) as (A1 & B1 & C1 & D1 & F1). repeat split; congruence || lia.
Qed.
Lemma place_emptier p p1 n : emptier p p1 -> (blocks p -> (n + q_size p <= q_cap p)%nat) -> blocks p1 -> (n + q_size p1 <= q_cap p1)%nat.
Proof. intros (A & B & C & D & F) H (G1 & G2 & G3). rewrite A in G1. rewrite C in G2. rewrite D in G3. specialize (H (conj G1 (conj G2 G3))). rewrite B. lia. Qed.
Lemma can_place p : num_can_send p <> 0%nat -> blocks p -> num_can_send p = (q_cap p - q_size p)%nat /\ (q_size p < q_cap p)%nat.
Proof.
  intros N (A & B & C). unfold num_can_send in *. rewrite A, B, C in *. destruct (Nat.ltb_spec (q_size p) (q_cap p)); [auto|].
  destruct (q_in p); contradiction.
Qed.
Lemma send_place p n : (blocks p -> (n + 1 + q_size p <= q_cap p)%nat) -> blocks (p_send p) -> (n + q_size (p_send p) <= q_cap (p_send p))%nat.
Proof. intros H B. unfold blocks, p_send in *. cbn [q_own q_bc q_bu q_size q_cap] in *. specialize (H B). destruct B as (B & _). rewrite B. lia. Qed.

Section E.
Variable osize : list iobs -> scode.
Variable ostart : list iobs -> stcode * bool.
Variable ocomp : list iobs -> cpcode * option N.
Variable ocb : list iobs -> option scode.
Variable opool : list iobs -> option N.
Variable ocreate : list iobs -> bool.
Variable env : list iobs -> list pev.
Variable auto : bool.
Variable lim : option nat.
Notation process_send := (process_send osize ostart ocomp ocb opool ocreate env auto false).
Notation out_loop := (out_loop osize ostart ocomp ocb opool ocreate env auto false).
Notation process_output := (process_output osize ostart ocomp ocb opool ocreate env auto false lim).
Notation step := (step osize ostart ocomp ocb opool ocreate env auto false lim).
Notation run := (run osize ostart ocomp ocb opool ocreate env auto false lim).
Hypothesis keep_ok : forall l, keeps_ok (ostart l) = true.
Hypothesis comp_ok : forall l, no_repeat (ocomp l) = true.
Ltac got E := injection E as <- <-.

Definition ekeeps (p : part) : Prop := forall s s1 o, K s -> E s -> i_exit s = false -> i_inp s = true -> p s = Ok (s1, o) ->
  E s1 /\ (o = None -> i_inp s1 = true).

Lemma e_closed s s1 o : E s -> i_exit s = false -> p_closed s = Ok (s1, o) -> E s1 /\ (o = None -> s1 = s).
Proof.
  intros H X P. unfold p_closed in P.
  assert (G : (if i_dead s then Ok (close_transport (change (close_input s) inpClosed) false, Some false) else Ok (s, None)) = Ok (s1, o) -> E s1 /\ (o = None -> s1 = s)).
  { intro Q. destruct (i_dead s); got Q; [|auto]. split; [|discriminate]. intros _. flds. cbn. auto. }
  destruct (i_state s); auto. got P. split; [exact H|discriminate].
Qed.
Lemma e_recon s s1 o : E s -> i_exit s = false -> p_recon ocreate false s = Ok (s1, o) -> E s1 /\ (o = None -> s1 = s).
Proof.
  intros H X P. unfold p_recon in P. cbv zeta in P. destruct (i_state s) eqn:S; try (got P; auto; fail). exfalso. specialize (H X). unfold E0, Ev in H. rewrite S in H.
  destruct (i_inp s); [destruct H as [(r & _ & _ & []) _]|]. destruct H as [_ H]. cbn in H. intuition discriminate.
Qed.
Lemma e_noinp s s1 o : E s -> i_exit s = false -> p_noinp s = Ok (s1, o) -> E s1 /\ (o = None -> s1 = s /\ i_inp s = true).
Proof.
  intros H X P. unfold p_noinp in P. destruct (i_inp s) eqn:I; [destruct (i_state s); got P; split; auto; discriminate|].
  got P. split; [|discriminate]. intros _. specialize (H X). rewrite I in H. flds. rewrite I. cbn [q_own]. tauto.
Qed.

Ltac none H P I := got P; split; [exact H|auto].
Lemma E_of s : (i_exit s = false -> i_inp s = true -> E0 s) -> i_inp s = true -> E s.
Proof. intros H I X. rewrite I. auto. Qed.

Lemma e_init : ekeeps (p_init osize ocb env).
Proof.
  intros s s1 o KK H X I P. unfold p_init in P. destruct (i_state s) eqn:S; try (none H P I; fail).
  pose proof (H X) as H0. rewrite I in H0. unfold E0 in H0. rewrite S in H0. destruct H0 as [(r & R1 & R2 & R3) Pl]. cbn [fine extra] in R3, Pl. subst r.
  destruct (negb _); [none H P I|].
  destruct (Nat.ltb 0 (i_ext s) && _) eqn:Q.
  { got P. split; [|discriminate]. apply E_of; [|flds; exact I]. intros _ _. unfold E0. flds. split; [exists 0%nat; repeat split; auto; discriminate|exact Pl]. }
  destruct (Nat.eqb _ 0) eqn:Z. { got P. split; [|discriminate]. intro Y. revert Y. flds. discriminate. }
  apply Nat.eqb_neq in Z. rewrite I in P. cbv zeta in P.
  assert (Pl1 : blocks (i_port s) -> (working (i_log s) + 1 + q_size (i_port s) <= q_cap (i_port s))%nat).
  { intro B. destruct (can_place _ Z B) as [C1 C2]. rewrite C1 in Q. apply andb_false_iff in Q as [Q|Q]; [apply Nat.ltb_ge in Q; lia|apply Nat.leb_gt in Q; lia]. }
  set (s0 := meanwhile env (w_size (w_state s inpSizeCallBack) (SSize 0))) in P.
  assert (F0 : i_exit s0 = false /\ i_inp s0 = true /\ i_log s0 = i_log s /\ i_state s0 = inpSizeCallBack /\ i_ext s0 = i_ext s /\ emptier (i_port s) (i_port s0))
    by (unfold s0, meanwhile; flds; repeat split; auto; apply emptier_evs).
  destruct F0 as (F1 & F2 & F3 & F4 & F5 & F6). clearbody s0.
  destruct (inside_cases ocb s0) as (A1 & A2 & A3 & _ & _ & A6); [auto|]. pose proof (port_inside ocb s0) as A7. set (s2 := inside ocb s0) in *. clearbody s2.
  rewrite A1, F1 in P. rewrite F1 in A1. rewrite F2 in A2. rewrite F5 in A3. rewrite <- A7 in F6. pose proof (place_emptier _ _ _ F6 Pl1) as Pl2.
  assert (W2 : working (i_log s2) = working (i_log s)) by (destruct A6 as [(A6 & _)|(c & A6 & _)]; rewrite A6, F3; reflexivity).
  assert (G : forall x, extra x = 1%nat \/ extra x = 0%nat -> (extra x = 1%nat -> fine x 0 (i_cur s2)) -> (extra x = 0%nat -> fine x 0 (i_cur s2)) -> Ev x (i_cur s2) (i_ext s2) (working (i_log s2)) (i_port s2)).
  { intros x Y Y1 Y2. split; [exists 0%nat; split; [auto|]; split; [rewrite A3, W2; exact R2|destruct Y; auto]|]. intro B. specialize (Pl2 B). rewrite W2. destruct Y as [Y|Y]; rewrite Y; lia. }
  destruct (osize (i_log s2)) eqn:OS; got P; (split; [|try discriminate; intros _; flds; exact A2]); (apply E_of; [|flds; exact A2]); intros _ _; unfold E0; flds; cbn [working];
    try (apply G; cbn; auto; fail).
  destruct A6 as [(A6 & A8 & A9)|(c & A6 & [(A8 & A9 & A10)|(A9 & A10 & A8)])].
  - rewrite A8, F4. apply G; cbn; auto.
  - rewrite A9. apply G; cbn; auto.
  - rewrite A9. apply G; cbn; auto; discriminate.
Qed.

Lemma e_state s x cur : i_exit s = false -> E s -> i_inp s = true -> stage (i_state s) = true -> extra (i_state s) = 1%nat -> (extra x = 1 \/ extra x = 0)%nat -> fine x 0 cur ->
  Ev x cur (i_ext s) (working (i_log s)) (i_port s).
Proof.
  intros X H I S Q Y F. specialize (H X). rewrite I in H. destruct H as [(r & R1 & R2 & R3) Pl]. rewrite Q in Pl. split.
  - assert (r = 0%nat) by (destruct (i_state s); try discriminate; first [exact R3|apply R3]). subst r. exists 0%nat. auto.
  - intro B. specialize (Pl B). destruct Y as [Y|Y]; rewrite Y; lia.
Qed.
Lemma e_size : ekeeps p_size.
Proof.
  intros s s1 o KK H X I P. unfold p_size in P. destruct (i_state s) eqn:S; try (none H P I; fail).
  destruct (i_size s); got P; (split; [|intros _; flds; exact I]); (apply E_of; [|flds; exact I]); intros _ _; unfold E0; flds; (apply e_state; auto; rewrite ?S; cbn; auto; discriminate).
Qed.
Lemma e_need : ekeeps (p_need opool auto).
Proof.
  intros s s1 o KK H X I P. unfold p_need in P. cbv zeta in P. destruct (i_state s) eqn:S; try (none H P I; fail).
  destruct (opool (i_log s)) as [z|]; [|destruct auto]; got P; (split; [|try discriminate; intros _; flds; exact I]); (apply E_of; [|flds; exact I]); intros _ _; unfold E0; flds; rewrite ?S; cbn [working];
    (apply e_state; auto; rewrite ?S; cbn; auto; try (split; [reflexivity|discriminate])).
Qed.
Lemma e_check : ekeeps p_check.
Proof.
  intros s s1 o KK H X I P. unfold p_check in P. cbv zeta in P. destruct (i_state s) eqn:S; try (none H P I; fail).
  assert (CU : i_cur s <> None) by (pose proof (H X) as H0; rewrite I in H0; unfold E0 in H0; rewrite S in H0; destruct H0 as [(r & _ & _ & _ & H0) _]; exact H0).
  destruct (_ <? _)%N; got P; (split; [|intros _; flds; exact I]); (apply E_of; [|flds; exact I]); intros _ _; unfold E0; flds; (apply e_state; auto; rewrite ?S; cbn; auto; discriminate).
Qed.
Lemma e_cb : ekeeps p_cb.
Proof. intros s s1 o KK H X I P. unfold p_cb in P. destruct (i_state s); none H P I. Qed.

Lemma e_has : ekeeps (p_has ostart ocb env).
Proof.
  intros s s1 o KK H X I P. unfold p_has in P. destruct (i_state s) eqn:S; try (none H P I; fail).
  pose proof (H X) as H0. rewrite I in H0. unfold E0 in H0. rewrite S in H0. destruct H0 as [(r & R1 & R2 & R3) Pl]. cbn [fine extra] in R3, Pl. destruct R3 as [-> CU].
  rewrite I in P. cbv zeta in P.
  set (s0 := meanwhile env (w_state s inpCallBack)) in P.
  assert (F0 : i_exit s0 = false /\ i_inp s0 = true /\ i_log s0 = i_log s /\ i_state s0 = inpCallBack /\ i_ext s0 = i_ext s /\ emptier (i_port s) (i_port s0) /\ i_cur s0 = i_cur s)
    by (unfold s0, meanwhile; flds; repeat split; auto; apply emptier_evs).
  destruct F0 as (F1 & F2 & F3 & F4 & F5 & F6 & F7). clearbody s0.
  destruct (inside_cases ocb s0) as (A1 & A2 & A3 & A4 & _ & A6); [auto|]. pose proof (port_inside ocb s0) as A7. set (s2 := inside ocb s0) in *. clearbody s2.
  rewrite A1, F1 in P. rewrite F1 in A1. rewrite F2 in A2. rewrite F5 in A3. rewrite F7 in A4. rewrite <- A7 in F6. pose proof (place_emptier _ _ _ F6 Pl) as Pl2.
  assert (W2 : working (i_log s2) = working (i_log s)) by (destruct A6 as [(A6 & _)|(c & A6 & _)]; rewrite A6, F3; reflexivity).
  assert (S2 : i_state s2 = inpCallBack \/ i_state s2 = inpCompleting).
  { destruct A6 as [(_ & A6 & _)|(c & _ & [(A6 & _)|(A6 & _)])]; [left; congruence|congruence|auto]. }
  pose proof (keep_ok (i_log s2)) as KO. destruct (ostart (i_log s2)) as [c k]. cbn [keeps_ok] in KO.
  assert (CU2 : forall x : it, i_cur s2 <> None) by (rewrite A4; auto).
  destruct c; try (destruct k; [|discriminate KO]); try (destruct k; [discriminate KO|]); try destruct k; got P; (split; [|try discriminate; intros _; flds; exact A2]);
    (apply E_of; [|flds; exact A2]); intros _ _; unfold E0; flds; cbn [working]; rewrite ?W2, ?A3;
    try (split; [exists 0%nat; repeat split; try lia; cbn; auto; try discriminate; destruct S2 as [-> | ->]; cbn; auto; discriminate|intro B; specialize (Pl2 B); rewrite ?W2; try (destruct S2 as [-> | ->]); cbn; lia]; fail);
    (split; [exists 1%nat; repeat split; try lia; cbn; auto; try (destruct S2 as [-> | ->]; cbn); intros _; apply CU2; exact s|intro B; specialize (Pl2 B); rewrite ?W2; try (destruct S2 as [-> | ->]); cbn; lia]).
Qed.

Lemma e_compl : ekeeps (p_compl ocomp env).
Proof.
  intros s s1 o KK H X I P. unfold p_compl in P. destruct (i_state s) eqn:S; try (none H P I; fail).
  pose proof (H X) as H0. rewrite I in H0. unfold E0 in H0. rewrite S in H0. destruct H0 as [(r & R1 & R2 & R3) Pl]. cbn [fine extra] in R3, Pl.
  destruct KK as [_ M]. destruct (M X) as (_ & _ & M3). rewrite S in M3. cbn [kst] in M3. clear M.
  cbv zeta in P. destruct (Bool.eqb _ _) eqn:Q; [none H P I|]. rewrite I in P.
  set (s0 := meanwhile env s) in P.
  assert (F0 : i_exit s0 = false /\ i_inp s0 = true /\ i_log s0 = i_log s /\ i_state s0 = inpCompleting /\ i_ext s0 = i_ext s /\ emptier (i_port s) (i_port s0))
    by (unfold s0, meanwhile; flds; repeat split; auto; apply emptier_evs).
  destruct F0 as (F1 & F2 & F3 & F4 & F5 & F6). clearbody s0. pose proof (place_emptier _ _ _ F6 Pl) as Pl2.
  (* either an extra buffer and no other one, or the other one only *)
  assert (C : (Nat.pred (i_ext s) = Nat.pred (working (i_log s)) /\ 0 < working (i_log s))%nat).
  { destruct (Nat.eqb_spec (i_ext s) 0) as [Z|Z]; destruct (i_cur s) eqn:C; try discriminate Q.
    - specialize (M3 ltac:(discriminate) Z). lia.
    - assert (r <> 1%nat) by (intros ->; apply R3; reflexivity). lia. }
  destruct C as [C1 C2]. clear Q.
  pose proof (comp_ok (i_log s0)) as CO. destruct (ocomp (i_log s0)) as [c d]. 
  assert (G : forall x cur, fine x 0 cur -> Ev x cur (Nat.pred (i_ext s)) (Nat.pred (working (i_log s))) (i_port s0)).
  { intros x cur Y. split; [exists 0%nat; split; [lia|]; split; [lia|exact Y]|]. intro B. specialize (Pl2 B). assert (extra x <= 1)%nat by (destruct x; cbn; lia). lia. }
  destruct c; try discriminate CO; [|destruct (Nat.eqb _ 0) eqn:Z|..]; got P; (split; [|try discriminate; intros _; flds; exact F2]);
    try (apply E_of; [|flds; exact F2]; intros _ _; unfold E0; flds; cbn [working]; rewrite F3, F5; apply G; cbn; auto; discriminate).
  - intro Y. revert Y. flds. discriminate.
  - apply E_of; [|flds; exact F2]. intros _ _. unfold E0. flds. cbn [working]. rewrite F3, F4, F5. split; [exists 0%nat; repeat split; try lia; discriminate|].
    cbn [extra]. destruct d; [|intro B; specialize (Pl2 B); lia]. rewrite Nat.add_0_r. apply send_place. intro B. specialize (Pl2 B). lia.
Qed.
Lemma e_ready : ekeeps p_ready.
Proof.
  intros s s1 o KK H X I P. unfold p_ready in P. destruct (i_state s) eqn:S; try (none H P I; fail).
  pose proof (H X) as H0. rewrite I in H0. unfold E0 in H0. rewrite S in H0. destruct H0 as [(r & R1 & R2 & R3) Pl]. cbn [fine extra] in R3, Pl. subst r.
  destruct (Nat.eqb _ 0); got P; (split; [|try discriminate; intros _; flds; exact I]).
  - intro Y. revert Y. flds. discriminate.
  - apply E_of; [|flds; exact I]. intros _ _. unfold E0. flds. cbn [working]. split; [exists 0%nat; repeat split; auto|].
    cbn [extra]. rewrite Nat.add_0_r. destruct (i_cur s); [apply send_place; exact Pl|intro B; specialize (Pl B); lia].
Qed.
Lemma e_end : ekeeps p_end.
Proof.
  intros s s1 o KK H X I P. unfold p_end in P. cbv zeta in P. destruct (i_state s) eqn:S; try (none H P I; fail).
  1,2: destruct (Nat.eqb _ 0); got P; (split; [|discriminate]); intro Y; revert Y; flds; [discriminate|]; intros _; cbn; auto.
  exfalso. specialize (H X). rewrite I in H. unfold E0 in H. rewrite S in H. destruct H as [(r & _ & _ & []) _].
Qed.

Lemma e_seq l : (forall p, In p l -> keeps p /\ ekeeps p) -> forall s s1 b, K s -> E s -> i_exit s = false -> i_inp s = true -> seq_parts l s = Ok (s1, b) -> E s1.
Proof.
  induction l as [|p l IH]; intros A s s1 b KK H X I P; cbn [seq_parts] in P; [got P; exact H|].
  destruct (p s) as [[s2 o]| |] eqn:Q; cbn [bind] in P; try discriminate.
  destruct (A p (or_introl eq_refl)) as [A1 A2]. destruct (A1 s s2 o KK X Q) as [K2 X2]. destruct (A2 s s2 o KK H X I Q) as [H2 I2].
  destruct o; [got P; exact H2|]. eapply IH; eauto. intros q Q2. apply A. right; exact Q2.
Qed.
Lemma e_send s s1 b : K s -> E s -> i_exit s = false -> process_send s = Ok (s1, b) -> E s1.
Proof.
  intros KK H X P. unfold process_send in P.
  assert (A : forall p, In p [p_init osize ocb env; p_size; p_need opool auto; p_check; p_has ostart ocb env; p_cb; p_compl ocomp env; p_ready; p_end] -> keeps p /\ ekeeps p).
  { intros p. cbn [In]. intros Q.
    repeat (destruct Q as [<-|Q]; [split; auto using k_init, k_size, k_need, k_check, k_has, k_cb, k_compl, k_ready, k_end, e_init, e_size, e_need, e_check, e_has, e_cb, e_compl, e_ready, e_end|]). destruct Q. }
  pose proof (e_seq _ A) as Q. clear A. set (l := [p_init osize ocb env; _; _; _; _; _; _; _; _]) in *. cbn [seq_parts] in P.
  destruct (p_closed s) as [[s2 o]| |] eqn:P1; cbn [bind] in P; try discriminate. destruct (e_closed _ _ _ H X P1) as [H1 Y]. destruct o; [got P; exact H1|]. rewrite (Y eq_refl) in *. clear Y H1 P1 s2.
  destruct (p_recon ocreate false s) as [[s2 o]| |] eqn:P1; cbn [bind] in P; try discriminate. destruct (e_recon _ _ _ H X P1) as [H1 Y]. destruct o; [got P; exact H1|]. rewrite (Y eq_refl) in *. clear Y H1 P1 s2.
  destruct (p_noinp s) as [[s2 o]| |] eqn:P1; cbn [bind] in P; try discriminate. destruct (e_noinp _ _ _ H X P1) as [H1 Y]. destruct o; [got P; exact H1|]. destruct (Y eq_refl) as [-> I].
  eapply Q; eauto.
Qed.
Lemma e_loop n : forall s s1 b, K s -> E s -> out_loop n s = Ok (s1, b) -> E s1.
Proof.
  induction n as [|n IH]; intros s s1 b KK H P; cbn [out_loop] in P; (destruct (active s) eqn:A; [|got P; exact H]); apply active_exit in A;
    (destruct (process_send s) as [[s2 go]| |] eqn:Q; cbn [bind] in P; try discriminate);
    pose proof (e_send _ _ _ KK H A Q) as H2; destruct go; try (got P; exact H2).
  apply (IH s2 s1 b); auto. eapply (k_send osize ostart ocomp ocb opool ocreate env auto false); [exact KK|exact A|exact Q].
Qed.
Lemma e_output s s1 b : K s -> E s -> process_output s = Ok (s1, b) -> E s1.
Proof.
  intros KK H P. unfold process_output in P. destruct lim; [eapply e_loop; eauto|]. destruct (active s) eqn:A; [|got P; exact H]. apply active_exit in A.
  destruct (process_send s) as [[s2 go]| |] eqn:Q; cbn [bind] in P; try discriminate. got P. eapply e_send; eauto.
Qed.
Lemma e_same s s1 : E s -> i_exit s1 = i_exit s -> i_inp s1 = i_inp s -> i_state s1 = i_state s -> i_cur s1 = i_cur s -> i_ext s1 = i_ext s -> i_log s1 = i_log s ->
  emptier (i_port s) (i_port s1) -> E s1.
Proof.
  intros H A B C D F G L X. rewrite A in X. specialize (H X). rewrite B, C. destruct (i_inp s).
  - unfold E0. rewrite C, D, F, G. destruct H as [H1 H2]. split; [exact H1|]. eapply place_emptier; eauto.
  - destruct L as (L & _). rewrite L. exact H.
Qed.
Lemma e_callback s c : E s -> i_exit s = false -> E (read_callback s c) /\ (i_exit (read_callback s c) = true -> working (i_log s) = 0%nat).
Proof.
  intros H X. specialize (H X). unfold read_callback. cbv zeta. set (s1 := match c with SQueue => _ | _ => _ end).
  assert (Q : (i_state s1 = i_state s \/ i_state s1 = inpCallBack /\ i_ext s <> 0%nat) /\ working (i_log s1) = working (i_log s) /\ i_exit s1 = false /\ i_ext s1 = i_ext s /\ i_inp s1 = i_inp s /\ i_cur s1 = i_cur s /\ i_port s1 = i_port s).
  { unfold s1. destruct c; flds; auto 12. destruct (Nat.eqb (i_ext s) 0) eqn:Z; flds; auto 12. apply Nat.eqb_neq in Z. auto 12. }
  clearbody s1. destruct Q as (A & B & C & D & F & G & L).
  (* whatever happens the places suffice *)
  assert (V : i_inp s = true -> forall x, extra x = 0%nat -> (fine (i_state s) 1 (i_cur s) -> fine x 1 (i_cur s)) -> fine x 0 (i_cur s) -> Ev x (i_cur s) (i_ext s) (working (i_log s)) (i_port s)).
  { intros I x Y Y1 Y2. rewrite I in H. destruct H as [(r & R1 & R2 & R3) Pl]. split; [exists r; split; [auto|]; split; [auto|]|].
    - destruct r as [|[|r]]; [exact Y2|apply Y1; exact R3|lia].
    - intro W. specialize (Pl W). lia. }
  assert (U : forall x, extra x = 0%nat -> In x [inpCompleting; inpError] -> (i_inp s = true -> fine (i_state s) 1 (i_cur s) -> fine x 1 (i_cur s)) -> fine x 0 (i_cur s) ->
    E (w_state s1 x) /\ (i_exit (w_state s1 x) = true -> working (i_log s) = 0%nat)).
  { intros x Y Y0 Y1 Y2. split; [|flds; congruence]. intros _. flds. unfold E0. flds. rewrite F, G, D, B, L. destruct (i_inp s); [apply V; auto|]. split; [apply H|]. cbn in Y0 |- *. tauto. }
  assert (U1 : E (w_state s1 inpError) /\ (i_exit (w_state s1 inpError) = true -> working (i_log s) = 0%nat)).
  { apply U; cbn; auto; try discriminate. intros _ Y. destruct (i_state s); cbn in Y; try discriminate Y; try (destruct Y as [Y _]; discriminate Y); try contradiction; exact Y. }
  destruct (i_state s1) eqn:S1; try exact U1.
  - (* inpInit *) destruct A as [A|[A _]]; [|discriminate]. destruct (Nat.eqb (i_ext s1) 0) eqn:Z.
    + apply Nat.eqb_eq in Z. split; [intro Y; revert Y; flds; discriminate|]. intros _. rewrite <- A in H. destruct (i_inp s); [|destruct H as [_ H]; cbn in H; intuition discriminate].
      unfold E0 in H. rewrite <- A in H. destruct H as [(r & _ & R2 & R3) _]. cbn in R3. lia.
    + apply U; cbn; auto; try discriminate. rewrite <- A. intros _ Y. cbn in Y. discriminate Y.
  - (* inpSizeCallBack *) destruct A as [A|[A _]]; [|discriminate]. split; [|flds; congruence]. intros _. flds. unfold E0. flds. rewrite F, G, D, B, L.
    destruct (i_inp s) eqn:I; [|destruct H as [_ H]; rewrite <- A in H; cbn in H; intuition discriminate].
    unfold E0 in H. rewrite <- A in H. exact H.
  - (* inpCallBack *) apply U; cbn; auto; try discriminate. intros _ Y.
    destruct (i_state s); cbn in Y; try discriminate Y; try (destruct Y as [Y _]; discriminate Y); try contradiction; exact Y.
Qed.

Lemma e_step s e s1 : K s -> E s -> step s e = Ok s1 -> E s1.
Proof.
  intros KK H P. unfold step in P. destruct (i_exit s) eqn:X; [injection P as <-; exact H|].
  assert (Po : forall s0, K s0 -> E s0 -> (do (s2, _) <- process_output s0; Ok s2) = Ok s1 -> E s1).
  { intros s0 K0 H0 R. destruct (process_output s0) as [[s2 b]| |] eqn:Q; cbn [bind] in R; try discriminate. injection R as <-. eapply e_output; eauto. }
  assert (RR : forall p, emptier p p) by (intro p; repeat split; auto).
  pose proof KK as [L M]. destruct (M X) as (M1 & M2 & M3).
  destruct e.
  - eauto.
  - destruct (i_timer s); [|injection P as <-; exact H]. cbv zeta in P.
    assert (H0 : E (w_timer s false)) by (eapply (e_same s); flds; auto).
    assert (K0 : K (w_timer s false)) by (eapply k_same; [exact KK|..]; reflexivity).
    destruct (i_run (w_timer s false)); [|injection P as <-; exact H0]. unfold process_timer in P. cbv zeta in P.
    assert (Y : forall x, needs x = false -> i_inp (w_timer s false) = i_inp s) by (intros; flds; auto).
    revert P. apply Po; clear Po.
    + flds. destruct (i_state s) eqn:S; flds; rewrite ?S; try exact K0; (split; [flds; auto|]); intros _; flds; repeat split; auto; discriminate.
    + flds. destruct (i_state s) eqn:S; flds; rewrite ?S; try exact H0; intros _; flds; specialize (H X); unfold E0 in *; rewrite S in H; flds;
        (destruct (i_inp s); [exact H|destruct H as [_ H]; cbn in H; intuition discriminate]).
  - destruct (i_run s); [|injection P as <-; exact H]. unfold process_buffer in P. destruct (i_state s) eqn:S; try (injection P as <-; exact H).
    destruct (opool (i_log s)) as [z|]; [|injection P as <-; exact H]. revert P. apply Po.
    + split; flds; [apply okl_quiet; auto|]. intros _.
      cbn [kst needs] in M2, M3. destruct M3 as (n & Q & A). repeat split; auto. cbn [kst]. exists n, (i_log s). repeat split; auto; discriminate.
    + intros _. flds. unfold E0. flds. cbn [working]. specialize (M2 eq_refl). rewrite M2. apply e_state; auto; rewrite ?S; cbn; auto. split; [reflexivity|discriminate].
  - injection P as <-. apply e_callback; auto.
  - injection P as <-. unfold process_closed. cbv zeta. cbn [negb]. set (s0 := match i_state s with inpClosed => s | _ => _ end).
    assert (H1 : i_inp s0 = false /\ i_state s0 = inpClosed).
    { unfold s0. specialize (H X). destruct (i_state s) eqn:S; flds; auto. split; [|exact S]. destruct (i_inp s); [|reflexivity]. unfold E0 in H. rewrite S in H. destruct H as [(r & _ & _ & []) _]. }
    destruct H1 as [I1 S1]. intros _. flds. rewrite I1, S1. cbn. auto.
  - injection P as <-. unfold start_transport. destruct (i_tr s); cbv zeta; try exact H; flds; (destruct (i_inp s) eqn:I; eapply (e_same s); flds; auto).
  - injection P as <-. destruct (i_tr s); auto. unfold stop_transport, base_stop. destruct (suitable _); [|eapply (e_same s); flds; auto].
    flds. destruct (i_run (w_stop s false)); eapply (e_same s); flds; auto.
  - injection P as <-. eapply (e_same s); flds; auto. apply emptier_ev.
  - injection P as <-. eapply (e_same s); flds; auto.
Qed.
Lemma e_run l : forall s s1, K s -> E s -> run s l = Ok s1 -> E s1.
Proof.
  induction l as [|e l IH]; intros s s1 KK H P; cbn [run] in P; [injection P as <-; exact H|].
  destruct (step s e) as [s2| |] eqn:Q; cbn [bind] in P; try discriminate. eapply IH; [| |exact P].
  - eapply k_step; eauto.
  - eapply e_step; eauto.
Qed.
Lemma e_new cap bc bu : E (it_new cap bc bu).
Proof. intros _. cbn. split; [exists 0%nat; repeat split; auto|]. cbn. lia. Qed.
End E.
