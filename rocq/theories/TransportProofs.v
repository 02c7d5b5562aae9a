(* Lemmas for BuffersQueue, LocalTransport and the module event loops. *)
From Verif Require Import Common TransportSpec TransportModel QueueProofs.

Lemma mod_idx cap t k : t < cap -> k <= cap -> (t + k) mod cap = idx cap t k.
Proof.
  intros Ht Hk. unfold idx. destruct (Nat.leb_spec cap (t + k)).
  - symmetry. apply (Nat.mod_unique _ _ 1); lia.
  - apply Nat.mod_small; lia.
Qed.

Lemma nth_upd {A} (l : list A) i j v d : i < length l -> nth j (upd l i v) d = if i =? j then v else nth j l d.
Proof.
  intros H. destruct (Nat.eqb_spec i j) as [->|Hn].
  - apply nth_error_nth, nth_error_upd_same; auto.
  - destruct (nth_error l j) as [x|] eqn:E.
    + rewrite (nth_error_nth l j d E). apply nth_error_nth. rewrite nth_error_upd_other; auto.
    + rewrite (nth_overflow l) by (apply nth_error_None; auto).
      apply nth_overflow. rewrite upd_length. apply nth_error_None; auto.
Qed.

Arguments can_send : simpl never.
Arguments num_can_send : simpl never.
Arguments newest : simpl never.
Arguments lt_send : simpl never.
Arguments lt_recv : simpl never.

Section B.
Context {X : Type}.

Record BRep (b : bq X) (l : list (option X)) : Prop := {
  br_size : b_size b = length l;
  br_le : b_size b <= b_cap b;
  br_front : b_front b < b_cap b \/ b_cap b = 0 /\ b_front b = 0;
  br_tail : b_tail b = idx (b_cap b) (b_front b) (b_size b);
  br_cells : forall k, k < b_cap b -> nth (idx (b_cap b) (b_front b) k) (b_vect b) None = nth k l None }.

Lemma brep_new cap : BRep (bq_new cap) [].
Proof.
  constructor; unfold b_cap, bq_new; cbn; rewrite ?repeat_length; auto; try lia.
  - unfold idx. destruct (Nat.leb_spec cap (0 + 0)); lia.
  - intros k Hk. destruct k; apply nth_repeat.
Qed.

Lemma idx_inj2 cap t j k : t < cap -> j < cap -> k < cap -> (idx cap t j =? idx cap t k) = (j =? k).
Proof.
  intros. destruct (Nat.eqb_spec j k) as [->|Hn]; [apply Nat.eqb_refl|].
  apply Nat.eqb_neq. intro E. apply Hn. apply (idx_inj cap t); auto.
Qed.

Lemma bq_push_ok b l x : BRep b l ->
  exists b', bq_push b x = (length l <? b_cap b, b', if length l <? b_cap b then None else x, None) /\
     BRep b' (if length l <? b_cap b then l ++ [x] else l) /\ b_cap b' = b_cap b.
Proof.
  intros R. pose proof (br_size _ _ R) as Rs. pose proof (br_le _ _ R) as Rl. unfold bq_push.
  fold (b_cap b). destruct (Nat.eqb_spec (b_size b) (b_cap b)) as [E|E].
  - replace (length l <? b_cap b) with false by (symmetry; apply Nat.ltb_ge; lia). eauto.
  - replace (length l <? b_cap b) with true by (symmetry; apply Nat.ltb_lt; lia).
    destruct (br_front _ _ R) as [Rf|?]; [|lia].
    assert (Et : nth (b_tail b) (b_vect b) None = None).
    { rewrite (br_tail _ _ R). rewrite (br_cells _ _ R) by lia. apply nth_overflow. lia. }
    rewrite Et. eexists; split; [reflexivity|].
    assert (Lt : b_tail b < length (b_vect b)).
    { rewrite (br_tail _ _ R). fold (b_cap b). apply idx_lt; lia. }
    split; [|unfold b_cap; cbn; apply upd_length].
    constructor; unfold b_cap; cbn [b_vect b_front b_tail b_size]; rewrite ?upd_length; fold (b_cap b).
    + rewrite app_length; simpl; lia.
    + lia.
    + auto.
    + rewrite (br_tail _ _ R). rewrite <- wrap_idx by lia.
      pose proof (idx_lt (b_cap b) (b_front b) (b_size b) Rf Rl) as Hi.
      set (i := idx (b_cap b) (b_front b) (b_size b)) in *.
      unfold QueueModel.wrap. replace (i + 1) with (S i) by lia.
      destruct (Nat.eqb_spec (S i) (b_cap b)) as [E2|E2].
      * rewrite E2. apply Nat.mod_same. lia.
      * apply Nat.mod_small. lia.
    + intros k Hk. rewrite nth_upd by auto. rewrite (br_tail _ _ R).
      rewrite idx_inj2 by lia. destruct (Nat.eqb_spec (b_size b) k) as [<-|Hn].
      * rewrite app_nth2 by lia. rewrite Rs, Nat.sub_diag. reflexivity.
      * rewrite (br_cells _ _ R) by lia. destruct (Nat.lt_ge_cases k (length l)).
        -- rewrite app_nth1; auto.
        -- rewrite !nth_overflow; auto; rewrite app_length; simpl; lia.
Qed.

Lemma bq_pop_ok b l : BRep b l ->
  exists b', bq_pop b = (negb (length l =? 0), b', nth 0 l None) /\ BRep b' (tl l) /\ b_cap b' = b_cap b.
Proof.
  intros R. pose proof (br_size _ _ R) as Rs. pose proof (br_le _ _ R) as Rl. unfold bq_pop.
  fold (b_cap b). destruct l as [|x l].
  - simpl in *. rewrite Rs. simpl. eauto.
  - simpl in Rs. rewrite Rs. cbn [Nat.eqb negb length].
    destruct (br_front _ _ R) as [Rf|?]; [|lia].
    pose proof (br_cells _ _ R 0 ltac:(lia)) as H0. rewrite idx_0 in H0 by auto. rewrite H0.
    eexists; split; [reflexivity|].
    split; [|unfold b_cap; cbn; apply upd_length].
    assert (Em : (b_front b + 1) mod b_cap b = idx (b_cap b) (b_front b) 1) by (apply mod_idx; lia).
    constructor; unfold b_cap; cbn [b_vect b_front b_tail b_size tl]; rewrite ?upd_length; fold (b_cap b); rewrite ?Em.
    + simpl; lia.
    + lia.
    + left. apply idx_lt; lia.
    + rewrite (br_tail _ _ R), idx_shift by lia. f_equal. simpl. lia.
    + intros k Hk. rewrite nth_upd by auto.
      destruct (Nat.eq_dec (S k) (b_cap b)) as [E|E].
      * (* the cell just emptied *)
        rewrite idx_shift by lia. rewrite E.
        replace (idx (b_cap b) (b_front b) (b_cap b)) with (b_front b) by (unfold idx; destruct (Nat.leb_spec (b_cap b) (b_front b + b_cap b)); lia).
        rewrite Nat.eqb_refl. symmetry; apply nth_overflow. lia.
      * rewrite idx_shift by lia. rewrite <- (idx_0 (b_cap b) (b_front b)) at 1 by auto.
        rewrite idx_inj2 by lia. cbn [Nat.eqb]. rewrite (br_cells _ _ R) by lia. reflexivity.
Qed.

Lemma bq_cleanup_ok : forall l fuel b, BRep b l -> length l <= fuel ->
  exists b', bq_cleanup fuel b = Ok (l, b') /\ BRep b' [] /\ b_cap b' = b_cap b.
Proof.
  induction l as [|x l IH]; intros fuel b R Hf.
  - pose proof (br_size _ _ R) as Rs. simpl in Rs. destruct fuel; simpl; rewrite Rs; simpl; eauto.
  - destruct fuel as [|fuel]; [simpl in Hf; lia|]. cbn [bq_cleanup].
    pose proof (br_size _ _ R) as Rs. simpl in Rs. rewrite Rs. cbn [Nat.eqb].
    destruct (bq_pop_ok _ _ R) as (b1 & E1 & R1 & C1). rewrite E1.
    simpl in R1, Hf. destruct (IH fuel b1 R1) as (b2 & E2 & R2 & C2); [lia|]. rewrite E2. simpl.
    exists b2. split; [auto|split; [auto|congruence]].
Qed.

Lemma bq_cleanup_m_ok : forall l fuel b, BRep b l -> length l < fuel ->
  forallb (fun x : option X => match x with Some _ => true | None => false end) l = true ->
  exists b', bq_cleanup_m fuel b = Ok (l, b') /\ BRep b' [] /\ b_cap b' = b_cap b.
Proof.
  induction l as [|x l IH]; intros fuel b R Hf Ha; (destruct fuel as [|fuel]; [simpl in Hf; lia|]);
    cbn [bq_cleanup_m]; destruct (bq_pop_ok _ _ R) as (b1 & E1 & R1 & C1); rewrite E1; simpl in *.
  - eauto.
  - destruct x; [|discriminate]. destruct (IH fuel b1 R1) as (b2 & E2 & R2 & C2); [lia|auto|].
    rewrite E2. simpl. exists b2. split; [auto|split; [auto|congruence]].
Qed.

Lemma b_step_ok b l o x l' : BRep b l -> bs_step (b_cap b) o l = Some (x, l') ->
  exists b', b_step o b = Ok (x, b') /\ BRep b' l' /\ b_cap b' = b_cap b.
Proof.
  intros R H. destruct o; cbn [b_step bs_step] in *.
  - destruct (bq_push_ok _ _ x0 R) as (b' & E & R' & C). rewrite E.
    destruct (length l <? b_cap b); inversion H; subst; eauto.
  - destruct (bq_pop_ok _ _ R) as (b' & E & R' & C). rewrite E.
    destruct l; inversion H; subst; simpl in *; eauto.
  - destruct (nth_error l n) as [y|] eqn:E; [|discriminate]. inversion H; subst.
    pose proof (br_size _ _ R) as Rs. pose proof (br_le _ _ R) as Rl.
    assert (n < length l') by (apply nth_error_Some; congruence).
    unfold bq_item. fold (b_cap b). destruct (Nat.eqb_spec (b_cap b) 0); [lia|].
    destruct (br_front _ _ R) as [Rf|?]; [|lia].
    rewrite Nat.add_comm, mod_idx by lia. cbn [bind]. rewrite (br_cells _ _ R) by lia.
    rewrite (nth_error_nth _ _ _ E). eauto.
  - inversion H; subst. rewrite (br_size _ _ R). eauto.
  - inversion H; subst. unfold b_full. rewrite (br_size _ _ R). eauto.
  - inversion H; subst. unfold b_empty. rewrite (br_size _ _ R). eauto.
  - inversion H; subst. destruct (bq_cleanup_ok l (S (b_size b)) b R) as (b' & E & R' & C).
    { rewrite (br_size _ _ R); lia. } rewrite E. simpl. eauto.
  - destruct (forallb _ l) eqn:Ef; [|discriminate]. inversion H; subst.
    destruct (bq_cleanup_m_ok l (S (S (b_size b))) b R) as (b' & E & R' & C); auto.
    { rewrite (br_size _ _ R); lia. } rewrite E. simpl. eauto.
Qed.

Lemma b_run_ok ops : forall b l outs l', BRep b l -> bs_run (b_cap b) ops l = Some (outs, l') ->
  exists b', b_run ops b = Ok (outs, b') /\ BRep b' l' /\ b_cap b' = b_cap b.
Proof.
  induction ops as [|o ops IH]; intros b l outs l' R H; cbn in H |- *.
  - inversion H; subst; eauto.
  - destruct (bs_step (b_cap b) o l) as [[x l1]|] eqn:E; [|discriminate].
    destruct (bs_run (b_cap b) ops l1) as [[xs l2]|] eqn:E2; [|discriminate].
    inversion H; subst. destruct (b_step_ok _ _ _ _ _ R E) as (b1 & H1 & R1 & C1).
    rewrite <- C1 in E2. destruct (IH _ _ _ _ R1 E2) as (b2 & H2 & R2 & C2).
    rewrite H1. cbn. rewrite H2. cbn. eexists; split; [reflexivity|]. split; auto; congruence.
Qed.

Lemma bq_refines cap (ops : list (bop X)) outs l : bs_run cap ops [] = Some (outs, l) ->
  exists b : bq X, b_run ops (bq_new cap) = Ok (outs, b) /\ b_size b = length l /\ b_size b <= cap.
Proof.
  intros H. pose proof (brep_new cap) as R.
  assert (C : b_cap (bq_new (X:=X) cap) = cap) by (unfold b_cap; cbn; apply repeat_length).
  rewrite <- C in H. destruct (b_run_ok _ _ _ _ _ R H) as (b & E & R' & C').
  exists b. split; auto. split; [apply (br_size _ _ R')|]. pose proof (br_le _ _ R'). lia.
Qed.

(* ---- the pair of threads ---- *)

(* transport holding the non-null buffers [l] *)
Definition TRep (t : lt X) (l : list X) : Prop := BRep (t_q t) (map Some l).

Lemma signal_inp_q t t' f : signal_inp (X:=X) t = (t', f) ->
  t_q t' = t_q t /\ t_inpconn t' = t_inpconn t /\ t_outconn t' = t_outconn t /\
  t_block_unconn t' = t_block_unconn t /\ t_block_conn t' = t_block_conn t.
Proof.
  unfold signal_inp. intro H. destruct (t_inpconn t) eqn:E; [destruct (t_inpkind t)|];
  try destruct (t_siginp t =? 3); inversion H; subst; cbn; auto.
Qed.

Lemma signal_out_q t t' f : signal_out (X:=X) t = (t', f) ->
  t_q t' = t_q t /\ t_inpconn t' = t_inpconn t /\ t_outconn t' = t_outconn t /\
  t_block_unconn t' = t_block_unconn t /\ t_block_conn t' = t_block_conn t.
Proof.
  unfold signal_out. intro H. destruct (t_outkind t);
  try destruct (t_sigout t =? 3); inversion H; subst; cbn; auto.
Qed.

Definition same_conf (t t' : lt X) : Prop :=
  b_cap (t_q t') = b_cap (t_q t) /\ t_inpconn t' = t_inpconn t /\ t_outconn t' = t_outconn t /\
  t_block_unconn t' = t_block_unconn t /\ t_block_conn t' = t_block_conn t.

Lemma lt_send_spec t l x : TRep t l -> 0 < b_cap (t_q t) ->
  if (length l =? b_cap (t_q t)) && t_blocking t then lt_send t x = None
  else exists t' f, lt_send t x = Some (t', if length l =? b_cap (t_q t) then hd_error l else None, f) /\
         TRep t' (newest (b_cap (t_q t)) (l ++ [x])) /\ same_conf t t'.
Proof.
  intros R Hc. unfold lt_send, b_full. pose proof (br_size _ _ R) as Rs. rewrite map_length in Rs.
  pose proof (br_le _ _ R) as Rl. rewrite Rs in *.
  unfold newest. rewrite app_length. cbn [length].
  destruct (Nat.eqb_spec (length l) (b_cap (t_q t))) as [E|E]; cbn [andb].
  - destruct (t_blocking t) eqn:Eb; cbn [negb].
    + destruct (bq_push_ok _ _ (Some x) R) as (b' & E1 & _ & _). rewrite map_length in E1.
      replace (length l <? b_cap (t_q t)) with false in E1 by (symmetry; apply Nat.ltb_ge; lia).
      rewrite E1. reflexivity.
    + destruct (bq_pop_ok _ _ R) as (b1 & E1 & R1 & C1). rewrite E1.
      destruct l as [|y l]; [simpl in E; lia|]. cbn [map tl hd_error nth] in *.
      destruct (bq_push_ok _ _ (Some x) R1) as (b2 & E2 & R2 & C2). rewrite map_length in E2, R2.
      simpl in E. assert (Lt1 : (length l <? b_cap b1) = true) by (apply Nat.ltb_lt; lia). rewrite Lt1 in E2, R2.
      rewrite E2.
      set (t1 := if t_sigout (set_q t b2) =? 2 then set_sigout (set_q t b2) 3 else set_q t b2).
      destruct (signal_inp t1) as [t3 f] eqn:E3. exists t3, f. split; [reflexivity|].
      apply signal_inp_q in E3 as (Q1 & Q2 & Q3 & Q4 & Q5).
      assert (P : t_q t1 = b2 /\ t_inpconn t1 = t_inpconn t /\ t_outconn t1 = t_outconn t /\
        t_block_unconn t1 = t_block_unconn t /\ t_block_conn t1 = t_block_conn t)
        by (unfold t1; destruct (t_sigout (set_q t b2) =? 2); cbn; auto).
      destruct P as (P1 & P2 & P3 & P4 & P5). split.
      * unfold TRep. rewrite Q1, P1. replace (length (y :: l) + 1 - b_cap (t_q t)) with 1 by (cbn [length]; lia).
        cbn [app skipn]. rewrite map_app. exact R2.
      * unfold same_conf. rewrite Q1, P1. repeat split; congruence.
  - destruct (bq_push_ok _ _ (Some x) R) as (b2 & E2 & R2 & C2). rewrite map_length in E2, R2.
    assert (Lt1 : (length l <? b_cap (t_q t)) = true) by (apply Nat.ltb_lt; lia). rewrite Lt1 in E2, R2.
    rewrite E2.
    set (t1 := if t_sigout (set_q t b2) =? 2 then set_sigout (set_q t b2) 3 else set_q t b2).
    destruct (signal_inp t1) as [t3 f] eqn:E3. exists t3, f. split; [reflexivity|].
    apply signal_inp_q in E3 as (Q1 & Q2 & Q3 & Q4 & Q5).
    assert (P : t_q t1 = b2 /\ t_inpconn t1 = t_inpconn t /\ t_outconn t1 = t_outconn t /\
      t_block_unconn t1 = t_block_unconn t /\ t_block_conn t1 = t_block_conn t)
      by (unfold t1; destruct (t_sigout (set_q t b2) =? 2); cbn; auto).
    destruct P as (P1 & P2 & P3 & P4 & P5). split.
    + unfold TRep. rewrite Q1, P1. replace (length l + 1 - b_cap (t_q t)) with 0 by lia.
      cbn [skipn]. rewrite map_app. exact R2.
    + unfold same_conf. rewrite Q1, P1. repeat split; congruence.
Qed.

Lemma lt_recv_spec t l : TRep t l ->
  exists t' f, lt_recv t = (t', hd_error l, f) /\ TRep t' (tl l) /\ same_conf t t'.
Proof.
  intros R. unfold lt_recv. destruct (bq_pop_ok _ _ R) as (b1 & E1 & R1 & C1). rewrite E1.
  set (t1 := if t_siginp (set_q t b1) =? 2 then set_siginp (set_q t b1) 3 else set_q t b1).
  destruct (signal_out t1) as [t3 f] eqn:E3. exists t3, f.
  apply signal_out_q in E3 as (Q1 & Q2 & Q3 & Q4 & Q5).
  assert (P : t_q t1 = b1 /\ t_inpconn t1 = t_inpconn t /\ t_outconn t1 = t_outconn t /\
    t_block_unconn t1 = t_block_unconn t /\ t_block_conn t1 = t_block_conn t)
    by (unfold t1; destruct (t_siginp (set_q t b1) =? 2); cbn; auto).
  destruct P as (P1 & P2 & P3 & P4 & P5).
  split; [f_equal; f_equal; destruct l; reflexivity|]. split.
  - unfold TRep. rewrite Q1, P1. destruct l; exact R1.
  - unfold same_conf. rewrite Q1, P1. repeat split; congruence.
Qed.

Lemma flight_ok (s : pstate X) l : TRep (p_t s) l -> p_flight s = map Some l.
Proof.
  intros R. unfold p_flight. pose proof (br_size _ _ R) as Rs. rewrite map_length in Rs.
  pose proof (br_le _ _ R) as Rl.
  apply list_eq_nth_error. intro i. destruct (Nat.lt_ge_cases i (b_size (t_q (p_t s)))) as [Hi|Hi].
  - rewrite nth_error_seq_map by auto. destruct (br_front _ _ R) as [Rf|?]; [|lia].
    rewrite Nat.add_comm, mod_idx by lia. rewrite (br_cells _ _ R) by lia.
    symmetry. rewrite (nth_error_nth' _ None) by (rewrite map_length; lia). reflexivity.
  - rewrite !(proj2 (nth_error_None _ _)); auto; rewrite map_length, ?seq_length; lia.
Qed.

Lemma can_send_spec t l : TRep t l -> 0 < b_cap (t_q t) ->
  can_send t = negb ((length l =? b_cap (t_q t)) && t_blocking t).
Proof.
  intros R Hc. unfold can_send, num_can_send, b_full. pose proof (br_size _ _ R) as Rs. rewrite map_length in Rs.
  pose proof (br_le _ _ R) as Rl. rewrite Rs in *.
  destruct (Nat.eqb_spec (length l) (b_cap (t_q t))); cbn [negb andb].
  - destruct (t_blocking t); reflexivity.
  - apply Nat.ltb_lt; lia.
Qed.

(* blocking configuration *)
Record PInv (cap : nat) (s : pstate X) (l : list X) : Prop := {
  pi_rep : TRep (p_t s) l;
  pi_cap : b_cap (t_q (p_t s)) = cap;
  pi_pos : 0 < cap;
  pi_bu : t_block_unconn (p_t s) = true;
  pi_bc : t_block_conn (p_t s) = true;
  pi_ok : p_ok s = true -> length l < cap;
  pi_skip : p_skip s = [];
  pi_log : p_sent s = p_recv s ++ l }.

Lemma blocking_true t : t_block_unconn (X:=X) t = true -> t_block_conn t = true -> t_blocking t = true.
Proof. unfold t_blocking. intros -> ->. destruct (t_inpconn t && t_outconn t); auto. Qed.

Lemma p_step_inv cap s l a : PInv cap s l -> exists s' l', p_step s a = PRun s' /\ PInv cap s' l'.
Proof.
  intros I. destruct I as [R C P Bu Bc Ok Sk Lg].
  pose proof (blocking_true _ Bu Bc) as Hb.
  pose proof (br_size _ _ R) as Rs. rewrite map_length in Rs. pose proof (br_le _ _ R) as Rl.
  destruct a; cbn [p_step].
  - eexists _, l; split; [reflexivity|]. constructor; cbn; auto.
    rewrite (can_send_spec _ _ R) by lia. rewrite Hb, andb_true_r.
    intro H. apply negb_true_iff, Nat.eqb_neq in H. lia.
  - destruct (p_ok s) eqn:Eo.
    2: { exists s, l; split; [reflexivity|]. constructor; auto. intro; congruence. }
    pose proof (lt_send_spec _ _ x R ltac:(lia)) as H. rewrite Hb, andb_true_r in H.
    destruct (Nat.eqb_spec (length l) (b_cap (t_q (p_t s)))) as [E|E]; [specialize (Ok eq_refl); lia|].
    destruct H as (t' & f & E1 & R1 & S1). rewrite E1.
    eexists _, (l ++ [x]); split; [reflexivity|]. destruct S1 as (S1 & S2 & S3 & S4 & S5).
    constructor; cbn; try congruence.
    + unfold newest in R1. rewrite app_length in R1. simpl in R1.
      replace (length l + 1 - b_cap (t_q (p_t s))) with 0 in R1 by lia. exact R1.
    + rewrite Sk. reflexivity.
    + rewrite Lg, app_assoc. reflexivity.
  - destruct (lt_recv_spec _ _ R) as (t' & f & E1 & R1 & S1). rewrite E1.
    eexists _, (tl l); split; [reflexivity|]. destruct S1 as (S1 & S2 & S3 & S4 & S5).
    constructor; cbn; try congruence.
    + intro H. specialize (Ok H). destruct l; simpl in *; lia.
    + rewrite Lg. destruct l; simpl; rewrite ?app_nil_r, <- ?app_assoc; reflexivity.
  - eexists _, l; split; [reflexivity|]. constructor; cbn; auto.
Qed.

Lemma p_run_inv cap acts : forall s l, PInv cap s l -> exists s' l', p_run s acts = PRun s' /\ PInv cap s' l'.
Proof.
  induction acts as [|a acts IH]; intros s l I; cbn.
  - eauto.
  - destruct (p_step_inv _ _ _ a I) as (s1 & l1 & E & I1). rewrite E. eauto.
Qed.

Lemma pair_blocking cap ko ki (acts : list (pact X)) : 0 < cap ->
  exists s l, p_run (p_init cap ko ki true true) acts = PRun s /\
    p_sent s = p_recv s ++ l /\ p_flight s = map Some l /\ length l <= cap /\ p_skip s = [].
Proof.
  intros Hc.
  assert (C : b_cap (bq_new (X:=X) cap) = cap) by (unfold b_cap; cbn; apply repeat_length).
  destruct (p_run_inv cap acts (p_init cap ko ki true true) []) as (s & l & E & I).
  - constructor; cbn; auto; try lia; try discriminate. apply brep_new.
  - exists s, l. destruct I as [R C' P Bu Bc Ok Sk Lg].
    pose proof (br_size _ _ R) as Rs. rewrite map_length in Rs. pose proof (br_le _ _ R) as Rl.
    repeat split; auto. apply flight_ok; auto. lia.
Qed.

(* non-blocking configuration *)
Record NInv (cap : nat) (s : pstate X) (l : list X) : Prop := {
  ni_rep : TRep (p_t s) l;
  ni_cap : b_cap (t_q (p_t s)) = cap;
  ni_pos : 0 < cap;
  ni_bu : t_block_unconn (p_t s) = false;
  ni_bc : t_block_conn (p_t s) = false }.

Lemma blocking_false t : t_block_unconn (X:=X) t = false -> t_block_conn t = false -> t_blocking t = false.
Proof. unfold t_blocking. intros -> ->. destruct (t_inpconn t && t_outconn t); auto. Qed.

Lemma n_step_inv cap s n a : NInv cap s (n_flight n) -> n_ok n = p_ok s -> n_recv n = p_recv s ->
  n_skip n = p_skip s -> n_sent n = p_sent s ->
  exists s', p_step s a = PRun s' /\ NInv cap s' (n_flight (ns_step cap n a)) /\
    n_ok (ns_step cap n a) = p_ok s' /\ n_recv (ns_step cap n a) = p_recv s' /\
    n_skip (ns_step cap n a) = p_skip s' /\ n_sent (ns_step cap n a) = p_sent s'.
Proof.
  intros I Ho Hr Hk Hs. destruct I as [R C P Bu Bc].
  pose proof (blocking_false _ Bu Bc) as Hb.
  destruct a; cbn [p_step ns_step].
  - eexists; split; [reflexivity|]. cbn. split; [constructor; cbn; auto|].
    rewrite (can_send_spec _ _ R) by lia. rewrite Hb, andb_false_r. auto.
  - rewrite Ho. destruct (p_ok s) eqn:Eo.
    2: { exists s. split; [reflexivity|]. split; [constructor; auto|]. rewrite Ho, Eo. auto. }
    pose proof (lt_send_spec _ _ x R ltac:(lia)) as H. rewrite Hb, andb_false_r in H.
    destruct H as (t' & f & E1 & R1 & S1). rewrite E1.
    eexists; split; [reflexivity|]. destruct S1 as (S1 & S2 & S3 & S4 & S5). rewrite C in *.
    cbn. split; [constructor; cbn; try congruence; auto|]. repeat split; try congruence.
    rewrite Hk. f_equal. destruct (length (n_flight n) =? cap); auto. destruct (n_flight n); reflexivity.
  - destruct (lt_recv_spec _ _ R) as (t' & f & E1 & R1 & S1). rewrite E1.
    eexists; split; [reflexivity|]. destruct S1 as (S1 & S2 & S3 & S4 & S5).
    cbn. split; [constructor; cbn; try congruence; auto|]. repeat split; try congruence.
    rewrite Hr. f_equal. destruct (n_flight n); reflexivity.
  - eexists; split; [reflexivity|]. cbn. split; [constructor; cbn; auto|]. auto.
Qed.

Lemma n_run_inv cap acts : forall s n, NInv cap s (n_flight n) -> n_ok n = p_ok s -> n_recv n = p_recv s ->
  n_skip n = p_skip s -> n_sent n = p_sent s ->
  exists s', p_run s acts = PRun s' /\ NInv cap s' (n_flight (fold_left (ns_step cap) acts n)) /\
    n_recv (fold_left (ns_step cap) acts n) = p_recv s' /\
    n_skip (fold_left (ns_step cap) acts n) = p_skip s' /\ n_sent (fold_left (ns_step cap) acts n) = p_sent s'.
Proof.
  induction acts as [|a acts IH]; intros s n I Ho Hr Hk Hs; cbn.
  - eauto 10.
  - destruct (n_step_inv cap s n a I Ho Hr Hk Hs) as (s1 & E & I1 & H1 & H2 & H3 & H4). rewrite E. eauto.
Qed.

Lemma pair_nonblocking cap ko ki (acts : list (pact X)) : 0 < cap ->
  exists s, p_run (p_init cap ko ki false false) acts = PRun s /\
    let n := fold_left (ns_step cap) acts n_init in
    p_flight s = map Some (n_flight n) /\ p_recv s = n_recv n /\ p_skip s = n_skip n /\ p_sent s = n_sent n.
Proof.
  intros Hc.
  assert (C : b_cap (bq_new (X:=X) cap) = cap) by (unfold b_cap; cbn; apply repeat_length).
  destruct (n_run_inv cap acts (p_init cap ko ki false false) n_init) as (s & E & I & H1 & H2 & H3); auto.
  - constructor; cbn; auto. apply brep_new.
  - exists s. split; auto. cbn. repeat split; auto. apply flight_ok. apply I.
Qed.

(* consequence: what is in flight are the last sent buffers, what is gone was
   received or skipped *)
Lemma n_accounting cap acts : 0 < cap -> 
  let n := fold_left (ns_step cap) acts (n_init (X:=X)) in
  length (n_flight n) <= cap /\
  exists gone, n_sent n = gone ++ n_flight n /\ length gone = length (n_recv n) + length (n_skip n).
Proof.
  intros Hc. cbn zeta.
  assert (G : forall n : nstate X, length (n_flight n) <= cap ->
    (exists gone, n_sent n = gone ++ n_flight n /\ length gone = length (n_recv n) + length (n_skip n)) ->
    let n' := fold_left (ns_step cap) acts n in
    length (n_flight n') <= cap /\
    exists gone, n_sent n' = gone ++ n_flight n' /\ length gone = length (n_recv n') + length (n_skip n')).
  { induction acts as [|a acts IH]; intros n Hl (g & Hg & Lg); cbn [fold_left].
    - split; eauto.
    - apply IH.
      + destruct a; cbn; auto.
        * destruct (n_ok n); cbn; auto. unfold newest. rewrite skipn_length, app_length; simpl. lia.
        * destruct (n_flight n); simpl in *; lia.
      + destruct a; cbn.
        * eauto.
        * destruct (n_ok n); cbn; [|eauto]. unfold newest. rewrite app_length. cbn [length].
          destruct (Nat.eqb_spec (length (n_flight n)) cap) as [E|E].
          -- replace (length (n_flight n) + 1 - cap) with 1 by lia.
             destruct (n_flight n) as [|y f] eqn:Ef; [simpl in E; lia|].
             exists (g ++ [y]). cbn. rewrite Hg. rewrite <- !app_assoc. split; [reflexivity|].
             rewrite !app_length; simpl; lia.
          -- replace (length (n_flight n) + 1 - cap) with 0 by lia. cbn [skipn].
             exists g. rewrite Hg, <- app_assoc, app_nil_r. auto.
        * destruct (n_flight n) as [|y f] eqn:Ef; cbn.
          -- exists g. rewrite !app_nil_r in *. auto.
          -- exists (g ++ [y]). rewrite Hg, <- app_assoc. split; [reflexivity|].
             rewrite !app_length; simpl; lia.
        * eauto. }
  apply G; cbn; [lia|]. exists []. auto.
Qed.
End B.

Lemma pair_no_exit {X : Type} (cap : nat) (ko ki : sigkind) (b : bool) (acts : list (pact X)) :
  0 < cap -> p_run (p_init cap ko ki b b) acts <> PExit.
Proof.
  intros Hc. destruct b.
  - destruct (pair_blocking cap ko ki acts Hc) as (s & l & -> & _). discriminate.
  - destruct (pair_nonblocking cap ko ki acts Hc) as (s & -> & _). discriminate.
Qed.
