(* Proofs about an input that always has data, and about an input that got stuck. *)
From Verif Require Import Common InTrSpec InTrModel.
From Coq Require Import Lia.

Section R.
Variables (n z : N) (data : list iobs -> N).
Variable ocreate : list iobs -> bool.
Variable auto recon : bool.
Hypothesis Hz : (n <= z)%N.

Definition send1 := process_send (fun _ => SSize n) (fun _ => (StOk, false)) (fun l => (CpOk, Some (data l))) (fun _ => None) (fun _ => Some z) ocreate (fun _ => []) auto recon.

Record idle (cap : nat) (s : it) : Prop := mkIdle {
  id_state : i_state s = inpInit; id_inp : i_inp s = true; id_ext : i_ext s = 0%nat; id_stop : i_stop s = false;
  id_tr : i_tr s = stRunning; id_run : i_run s = true; id_dead : i_dead s = false; id_exit : i_exit s = false;
  id_own : q_own (i_port s) = true; id_in : q_in (i_port s) = true; id_bc : q_bc (i_port s) = true; id_cap : q_cap (i_port s) = cap;
  id_le : (q_size (i_port s) <= cap)%nat; id_sent : length (sent (i_log s)) = q_size (i_port s)
}.

Definition st (timer : bool) (p : port) (x : istate) (cur : option N) (csz : N) (sz : scode) (log : list iobs) : it :=
  mkIT x true cur csz sz 0 false stRunning true timer p false false log.

Lemma init_st t p cur csz sz log : Nat.eqb (num_can_send p) 0 = false ->
  p_init (fun _ => SSize n) (fun _ => None) (fun _ => []) (st t p inpInit cur csz sz log) = Ok (st t p inpCheckSize cur csz (SSize n) (OSize (SSize n) :: log), None).
Proof.
  intro H. unfold p_init. change (i_state (st t p inpInit cur csz sz log)) with inpInit. cbv iota.
  change (i_tr _) with stRunning. change (i_ext _) with 0%nat. cbn [negb Nat.ltb Nat.leb andb]. cbv iota.
  change (i_port _) with p. rewrite H. reflexivity.
Qed.
Lemma check_st t p cur log : (exists d, cur = Some d) ->
  p_check (st t p inpCheckBuffer cur z (SSize n) log) = Ok (st t p inpHasBuffer cur z (SSize n) log, None).
Proof.
  intros (d & ->). unfold p_check. change (i_state _) with inpCheckBuffer. cbv iota. change (i_size _) with (SSize n). change (i_cur _) with (Some d).
  change (i_csz _) with z. cbv beta iota zeta. assert (E : (z <? n)%N = false) by (apply N.ltb_ge; exact Hz). rewrite E. reflexivity.
Qed.
Lemma ready_st t p d csz sz log : Nat.eqb (num_can_send p) 0 = false ->
  p_ready (st t p inpReady (Some d) csz sz log) = Ok (st t (p_send p) inpInit None 0%N sz (OSend (Some d) :: log), None).
Proof.
  intro H. unfold p_ready. change (i_state _) with inpReady. cbv iota. change (i_port _) with p. rewrite H. reflexivity.
Qed.

Lemma send_st t p cur csz sz log : Nat.eqb (num_can_send p) 0 = false ->
  exists d l1 sz1, send1 (st t p inpInit cur csz sz log) = Ok (st t (p_send p) inpInit None 0%N sz1 (OSend (Some d) :: l1), true) /\ sent l1 = sent log.
Proof.
  intro H. unfold send1, process_send. cbn [seq_parts].
  change (p_closed _) with (Ok (st t p inpInit cur csz sz log, @None bool)). cbn [bind].
  change (p_recon _ _ _) with (Ok (st t p inpInit cur csz sz log, @None bool)). cbn [bind].
  change (p_noinp _) with (Ok (st t p inpInit cur csz sz log, @None bool)). cbn [bind].
  rewrite init_st by exact H. cbn [bind]. set (l1 := OSize (SSize n) :: log).
  change (p_size _) with (Ok (st t p inpNeedBuffer cur csz (SSize n) l1, @None bool)). cbn [bind].
  change (p_need _ _ _) with (Ok (st t p inpCheckBuffer (Some 0%N) z (SSize n) (OTake z :: l1), @None bool)). cbn [bind].
  rewrite check_st by eauto. cbn [bind].
  change (p_has _ _ _ _) with (Ok (st t p inpCompleting (Some 0%N) z (SSize n) (OStart StOk :: OTake z :: l1), @None bool)). cbn [bind].
  set (l2 := OStart StOk :: OTake z :: l1).
  change (p_cb _) with (Ok (st t p inpCompleting (Some 0%N) z (SSize n) l2, @None bool)). cbn [bind].
  change (p_compl _ _ _) with (Ok (st t p inpReady (Some (data l2)) z (SSize n) (OComplete CpOk (Some (data l2)) :: l2), @None bool)). cbn [bind].
  rewrite ready_st by exact H. cbn [bind].
  eexists _, _, _. split; [reflexivity|]. reflexivity.
Qed.

Lemma send1_ok cap s : idle cap s -> (q_size (i_port s) < cap)%nat ->
  exists s1, send1 s = Ok (s1, true) /\ idle cap s1 /\ q_size (i_port s1) = S (q_size (i_port s)).
Proof.
  intros [H1 H2 H3 H4 H5 H6 H7 H8 H9 H10 H11 H12 H13 H14] F.
  destruct s as [stt inp cur csz sz ext stop tr run timer p dead ex log].
  cbn [i_state i_inp i_cur i_csz i_size i_ext i_stop i_tr i_run i_timer i_port i_dead i_exit i_log] in *. subst.
  destruct (send_st timer p cur csz sz log) as (d & l1 & sz1 & E & L).
  { apply Nat.eqb_neq. unfold num_can_send. rewrite H9. apply Nat.ltb_lt in F. rewrite F. apply Nat.ltb_lt in F. lia. }
  unfold st in E at 1. rewrite E. eexists. split; [reflexivity|].
  assert (Q : q_size (p_send p) = S (q_size p)) by (unfold p_send; cbn [q_size]; rewrite H9; lia).
  split; [|exact Q]. constructor; try reflexivity; cbn [st i_port i_log]; auto.
  - rewrite Q. cbn [p_send q_cap]. lia.
  - rewrite Q. cbn [sent]. rewrite L, app_length, H14. cbn. lia.
Qed.

Definition loop1 := out_loop (fun _ => SSize n) (fun _ => (StOk, false)) (fun l => (CpOk, Some (data l))) (fun _ => None) (fun _ => Some z) ocreate (fun _ => []) auto recon.

Lemma idle_active cap s : idle cap s -> active s = Nat.ltb (q_size (i_port s)) cap.
Proof.
  intros [H1 H2 H3 H4 H5 H6 H7 H8 H9 H10 H11 H12 H13 H14]. unfold active, can_send, num_can_send.
  rewrite H6, H8, H9, H10, H11, H12. cbn [negb andb].
  destruct (Nat.ltb (q_size (i_port s)) cap) eqn:E; [|reflexivity]. apply Nat.ltb_lt in E. apply Nat.ltb_lt. lia.
Qed.

Lemma loop1_ok cap m : forall s, idle cap s ->
  exists s1 b, loop1 m s = Ok (s1, b) /\ idle cap s1 /\ if b then (q_size (i_port s) < q_size (i_port s1))%nat else q_size (i_port s1) = cap.
Proof.
  induction m as [|m IH]; intros s H; unfold loop1; cbn [out_loop]; rewrite (idle_active cap s H);
    (destruct (Nat.ltb (q_size (i_port s)) cap) eqn:E;
     [apply Nat.ltb_lt in E|apply Nat.ltb_ge in E; exists s, false; split; [reflexivity|]; split; [exact H|]; cbv iota; pose proof (id_le _ _ H); lia]);
    destruct (send1_ok cap s H E) as (s1 & P & H1 & Q); unfold send1 in P; rewrite P; cbn [bind].
  - exists s1, true. split; [reflexivity|]. split; [exact H1|]. cbv iota. lia.
  - destruct (IH s1 H1) as (s2 & b & P2 & H2 & Q2). unfold loop1 in P2. rewrite P2. exists s2, b. split; [reflexivity|]. split; [exact H2|]. destruct b; lia.
Qed.

Lemma drain_ok cap lim k : forall s, idle cap s -> (cap - q_size (i_port s) < k)%nat ->
  exists s1, drain (fun _ => SSize n) (fun _ => (StOk, false)) (fun l => (CpOk, Some (data l))) (fun _ => None) (fun _ => Some z) ocreate (fun _ => []) auto recon (Some lim) k s = Ok s1
    /\ idle cap s1 /\ q_size (i_port s1) = cap.
Proof.
  induction k as [|k IH]; intros s H F; [lia|]. cbn [drain process_output].
  destruct (loop1_ok cap lim s H) as (s1 & b & P & H1 & Q). unfold loop1 in P. rewrite P. cbn [bind]. destruct b; [|eauto].
  apply IH; auto. pose proof (id_le _ _ H1). cbv iota in Q. lia.
Qed.
Lemma started_idle cap bu : idle cap (start_transport (it_new cap true bu)).
Proof. constructor; try reflexivity. apply Nat.le_0_l. Qed.
End R.

(* completing without a buffer and without extra buffers *)
Definition stuck (s : it) : Prop :=
  i_state s = inpCompleting /\ i_ext s = 0%nat /\ i_cur s = None /\ i_dead s = false /\ i_inp s = true /\ i_exit s = false.
Section S.
Variable osize : list iobs -> scode.
Variable ostart : list iobs -> stcode * bool.
Variable ocomp : list iobs -> cpcode * option N.
Variable ocb : list iobs -> option scode.
Variable opool : list iobs -> option N.
Variable ocreate : list iobs -> bool.
Variable env : list iobs -> list pev.
Variable auto recon : bool.
Variable lim : option nat.

Lemma stuck_send s : stuck s -> process_send osize ostart ocomp ocb opool ocreate env auto recon s = Ok (s, false).
Proof.
  intros (A & B & C & D & E & F). unfold process_send, seq_parts, p_closed, p_recon, p_noinp, p_init, p_size, p_need, p_check, p_has, p_cb, p_compl.
  rewrite A, D. cbn [bind]. rewrite A. cbn [bind]. rewrite E. cbn [bind]. repeat (rewrite A; cbn [bind]). rewrite B, C. reflexivity.
Qed.
Lemma stuck_output s : stuck s -> process_output osize ostart ocomp ocb opool ocreate env auto recon lim s = Ok (s, false).
Proof.
  intro H. unfold process_output. destruct lim as [[|m]|]; cbn [out_loop]; (destruct (active s); [|reflexivity]); rewrite (stuck_send s H); reflexivity.
Qed.
(* events that come by themselves *)
Definition own_event (e : iev) : bool := match e with EvOutput | EvTimer | EvPool | EvPort _ => true | _ => false end.
Lemma stuck_step s e : stuck s -> own_event e = true ->
  exists s1, step osize ostart ocomp ocb opool ocreate env auto recon lim s e = Ok s1 /\ stuck s1 /\ i_log s1 = i_log s.
Proof.
  intros H W. pose proof H as (A & B & C & D & E & F). unfold step. rewrite F. destruct e; try discriminate.
  - rewrite stuck_output by exact H. cbn [bind]. eauto.
  - destruct (i_timer s); [|eauto]. cbv zeta. destruct (i_run (w_timer s false)).
    + unfold process_timer. cbv zeta. change (i_state (w_timer s false)) with (i_state s). rewrite A. change (i_state (w_timer s false)) with (i_state s). rewrite A.
      rewrite stuck_output; [cbn [bind]; eexists; split; [reflexivity|]; split; auto|]; repeat split; auto.
    + eexists. split; [reflexivity|]. split; auto; repeat split; auto.
  - destruct (i_run s); [|eauto]. unfold process_buffer. rewrite A. eauto.
  - eexists. split; [reflexivity|]. split; auto; repeat split; auto.
Qed.
Lemma stuck_run l : forall s, stuck s -> forallb own_event l = true ->
  exists s1, run osize ostart ocomp ocb opool ocreate env auto recon lim s l = Ok s1 /\ i_log s1 = i_log s.
Proof.
  induction l as [|e l IH]; intros s H W; cbn [run]; [eauto|]. cbn [forallb] in W. apply andb_prop in W as [W1 W2].
  destruct (stuck_step s e H W1) as (s1 & P & H1 & L). rewrite P. cbn [bind]. destruct (IH s1 H1 W2) as (s2 & P2 & L2). exists s2. split; [exact P2|congruence].
Qed.

(* waiting for a pool buffer *)
Lemma wait_send s : i_state s = inpWaitBuffer -> i_dead s = false -> i_inp s = true ->
  process_send osize ostart ocomp ocb opool ocreate env auto recon s = Ok (s, true).
Proof.
  intros A D E. unfold process_send, seq_parts, p_closed, p_recon, p_noinp, p_init, p_size, p_need, p_check, p_has, p_cb, p_compl, p_ready, p_end.
  rewrite A, D. cbn [bind]. rewrite A. cbn [bind]. rewrite E. cbn [bind]. repeat (rewrite A; cbn [bind]). reflexivity.
Qed.
Lemma wait_loop m s : i_state s = inpWaitBuffer -> i_dead s = false -> i_inp s = true -> active s = true ->
  out_loop osize ostart ocomp ocb opool ocreate env auto recon m s = Ok (s, true).
Proof.
  intros A B C D. induction m as [|m IH]; cbn [out_loop]; rewrite D, wait_send by auto; cbn [bind]; [reflexivity|exact IH].
Qed.
End S.
