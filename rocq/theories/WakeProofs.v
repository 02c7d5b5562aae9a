(* No lost wake-up between two asynchronous modules. *)
From Verif Require Import Common TransportSpec TransportModel TransportProofs.

Definition sz (t : lt unit) := b_size (t_q t).
Definition cp (t : lt unit) := b_cap (t_q t).

(* switch over the signalling kind *)
Definition sigswitch (k : sigkind) (sig : nat) : nat * bool :=
  match k with
  | SignalNone => (sig, false)
  | SignalConfirm => if sig =? 3 then (1, true) else (sig, false)
  | SignalOperation => if sig =? 3 then (2, true) else (sig, false)
  | SignalEvery => (sig, true)
  end.

Definition conf_same (t t' : lt unit) : Prop :=
  t_inpkind t' = t_inpkind t /\ t_outkind t' = t_outkind t /\ t_inpconn t' = t_inpconn t /\
  t_outconn t' = t_outconn t /\ t_block_unconn t' = t_block_unconn t /\ t_block_conn t' = t_block_conn t /\
  cp t' = cp t.

Lemma send_view t : sz t <= cp t -> 0 < cp t -> t_inpconn t = true ->
  sz t < cp t \/ t_blocking t = false ->
  exists t' sk, lt_send t tt = Some (t', sk, snd (sigswitch (t_inpkind t) (t_siginp t))) /\
    sz t' = (if sz t <? cp t then S (sz t) else sz t) /\
    t_siginp t' = fst (sigswitch (t_inpkind t) (t_siginp t)) /\
    t_sigout t' = (if t_sigout t =? 2 then 3 else t_sigout t) /\ conf_same t t'.
Proof.
  unfold sz, cp. intros H1 H2 H3 H4. unfold lt_send.
  assert (E : exists q1 skip, (if b_full (t_q t) && negb (t_blocking t)
     then let '(_, q, s) := bq_pop (t_q t) in (q, s) else (t_q t, None)) = (q1, skip) /\
     b_cap q1 = b_cap (t_q t) /\ b_size q1 = (if b_size (t_q t) <? b_cap (t_q t) then b_size (t_q t) else b_size (t_q t) - 1)).
  { unfold b_full. destruct (Nat.eqb_spec (b_size (t_q t)) (b_cap (t_q t))) as [E|E].
    - destruct H4 as [H4|H4]; [lia|]. rewrite H4. cbn [negb andb]. unfold bq_pop.
      destruct (Nat.eqb_spec (b_size (t_q t)) 0); [lia|].
      replace (b_size (t_q t) <? b_cap (t_q t)) with false by (symmetry; apply Nat.ltb_ge; lia).
      do 2 eexists; split; [reflexivity|]. unfold b_cap; cbn. rewrite upd_length. auto.
    - cbn [andb]. replace (b_size (t_q t) <? b_cap (t_q t)) with true by (symmetry; apply Nat.ltb_lt; lia). eauto. }
  destruct E as (q1 & skip & -> & C1 & S1).
  unfold bq_push. fold (b_cap q1).
  assert (b_size q1 < b_cap q1).
  { rewrite S1, C1. destruct (Nat.ltb_spec (b_size (t_q t)) (b_cap (t_q t))); lia. }
  destruct (Nat.eqb_spec (b_size q1) (b_cap q1)); [lia|].
  match goal with |- context [set_q t ?q] => set (q2 := q) end.
  assert (C2 : b_cap q2 = b_cap (t_q t)) by (unfold q2, b_cap; cbn; rewrite upd_length; exact C1).
  assert (S2 : b_size q2 = S (b_size q1)) by reflexivity.
  destruct (signal_inp (if t_sigout (set_q t q2) =? 2 then set_sigout (set_q t q2) 3 else set_q t q2)) as [t3 f] eqn:E3.
  exists t3, skip.
  assert (P : f = snd (sigswitch (t_inpkind t) (t_siginp t)) /\ t_q t3 = q2 /\
    t_siginp t3 = fst (sigswitch (t_inpkind t) (t_siginp t)) /\
    t_sigout t3 = (if t_sigout t =? 2 then 3 else t_sigout t) /\
    t_inpkind t3 = t_inpkind t /\ t_outkind t3 = t_outkind t /\ t_inpconn t3 = t_inpconn t /\
    t_outconn t3 = t_outconn t /\ t_block_unconn t3 = t_block_unconn t /\ t_block_conn t3 = t_block_conn t).
  { revert E3. unfold signal_inp, sigswitch. destruct t as [a b c d e g h i j]. simpl in *. subst.
    destruct (c =? 2); cbn; destruct d; cbn; try destruct (e =? 3); cbn; intro E3; inversion E3; subst; cbn; auto 15. }
  destruct P as (-> & Q & P1 & P2 & P3). unfold conf_same, cp. rewrite Q, C2, S2, S1.
  split; [reflexivity|]. split.
  - destruct (Nat.ltb_spec (b_size (t_q t)) (b_cap (t_q t))); lia.
  - tauto.
Qed.

Lemma recv_view t : 0 < sz t ->
  exists t' x, lt_recv t = (t', x, snd (sigswitch (t_outkind t) (t_sigout t))) /\
    sz t' = sz t - 1 /\
    t_sigout t' = fst (sigswitch (t_outkind t) (t_sigout t)) /\
    t_siginp t' = (if t_siginp t =? 2 then 3 else t_siginp t) /\ conf_same t t'.
Proof.
  unfold sz, cp. intros H1. unfold lt_recv, bq_pop.
  destruct (Nat.eqb_spec (b_size (t_q t)) 0); [lia|].
  match goal with |- context [set_q t ?q] => set (q2 := q) end.
  assert (C2 : b_cap q2 = b_cap (t_q t)) by (unfold q2, b_cap; cbn; rewrite upd_length; reflexivity).
  assert (S2 : b_size q2 = b_size (t_q t) - 1) by reflexivity.
  destruct (signal_out (if t_siginp (set_q t q2) =? 2 then set_siginp (set_q t q2) 3 else set_q t q2)) as [t3 f] eqn:E3.
  eexists t3, _.
  assert (P : f = snd (sigswitch (t_outkind t) (t_sigout t)) /\ t_q t3 = q2 /\
    t_sigout t3 = fst (sigswitch (t_outkind t) (t_sigout t)) /\
    t_siginp t3 = (if t_siginp t =? 2 then 3 else t_siginp t) /\
    t_inpkind t3 = t_inpkind t /\ t_outkind t3 = t_outkind t /\ t_inpconn t3 = t_inpconn t /\
    t_outconn t3 = t_outconn t /\ t_block_unconn t3 = t_block_unconn t /\ t_block_conn t3 = t_block_conn t).
  { revert E3. unfold signal_out, sigswitch. destruct t as [a b c d e g h i j]. simpl in *.
    destruct (e =? 2); cbn; destruct b; cbn; try destruct (c =? 3); cbn; intro E3; inversion E3; subst; cbn; auto 15. }
  destruct P as (-> & Q & P1 & P2 & P3). unfold conf_same, cp. rewrite Q, C2, S2.
  split; [reflexivity|]. tauto.
Qed.

(* ---- one side ---- *)
Definition idle (p : pc) : bool := match p with Idle => true | _ => false end.
Definition isconf (p : pc) : nat := match p with Confirm => 1 | _ => 0 end.
Definition pre (p : pc) : bool := match p with Check _ | Work _ => true | _ => false end.
Definition active (p : pc) : nat := match p with Confirm | Check _ | Work _ => 1 | _ => 0 end.
Definition firing (p : pc) : nat := match p with Fire true _ => 1 | _ => 0 end.
Definition cnt_of (p : pc) : option Z :=
  match p with Check c | Work c | Fire _ c | Next c => Some c | _ => None end.
Definition cnt_nonneg (p : pc) : Prop := match cnt_of p with Some c => (0 <= c)%Z | None => True end.
Definition cnt_neg (p : pc) : Prop := match p with Reinj => False | _ => match cnt_of p with Some c => (c < 0)%Z | None => True end end.

Definition SideOK (k : sigkind) (sig : nat) (p : pc) (n re avail : nat) : Prop :=
  match k with
  | SignalNone => True
  | SignalConfirm =>
      1 <= sig <= 3 /\ (sig = 1 -> 1 <= n + isconf p) /\ (sig = 2 -> pre p = true /\ 1 <= avail) /\
      (idle p = true -> 1 <= avail -> 1 <= n + re) /\ cnt_nonneg p
  | SignalOperation =>
      2 <= sig <= 3 /\ (sig = 2 -> 1 <= avail) /\ (idle p = true -> 1 <= avail -> 1 <= n + re) /\ cnt_nonneg p
  | SignalEvery => avail <= n + active p /\ cnt_neg p
  end.

Ltac side := unfold SideOK in *;
  match goal with |- context [match ?k with SignalNone => _ | _ => _ end] => destruct k end;
  cbn [idle isconf pre active cnt_of cnt_nonneg cnt_neg] in *;
  unfold cnt_nonneg, cnt_neg in *; cbn [cnt_of] in *; try tauto; intuition (try lia; try congruence).

Lemma side_take k sig n re avail : SideOK k sig Idle (S n) re avail -> SideOK k sig Confirm n re avail.
Proof. intros H. side. Qed.

Lemma side_takere k sig n re avail c : SideOK k sig Idle n (S re) avail ->
  (match k with SignalEvery => (c < 0)%Z | SignalNone => True | _ => (0 <= c)%Z end) ->
  (k = SignalConfirm -> sig <> 2) ->
  SideOK k sig (Check c) n re avail.
Proof. intros H Hc Hs. side. Qed.

Lemma side_confirm k sig n re avail c :
  SideOK k sig Confirm n re avail ->
  (match k with SignalEvery => (c < 0)%Z | SignalNone => True | _ => (0 <= c)%Z end) ->
  SideOK k (match k with SignalConfirm => if avail =? 0 then 3 else 2 | _ => sig end) (Check c) n re avail.
Proof.
  intros H Hc. unfold SideOK in *. destruct k; auto; cbn [idle isconf pre active] in *;
  unfold cnt_nonneg, cnt_neg in *; cbn [cnt_of] in *; destruct (Nat.eqb_spec avail 0); intuition (try lia; try congruence).
Qed.

Lemma side_check_t k sig n re avail c : SideOK k sig (Check c) n re avail -> SideOK k sig (Work c) n re avail.
Proof. intros H. side. Qed.

Lemma side_check_f k sig n re avail c : SideOK k sig (Check c) n re avail -> avail = 0 -> SideOK k sig Idle n re avail.
Proof. intros H E. side. Qed.

Lemma side_work k sig n re avail c f : SideOK k sig (Work c) n re avail ->
  SideOK k (if sig =? 2 then 3 else sig) (Fire f c) n re (avail - 1).
Proof.
  intros H. unfold SideOK in *. destruct k; auto; cbn [idle isconf pre active] in *;
  unfold cnt_nonneg, cnt_neg in *; cbn [cnt_of] in *; destruct (Nat.eqb_spec sig 2); intuition (try lia; try congruence).
Qed.

Lemma side_fire k sig n re avail c f : SideOK k sig (Fire f c) n re avail -> SideOK k sig (Next c) n re avail.
Proof. intros H. side. Qed.

Lemma side_next k sig n re avail c : SideOK k sig (Next c) n re avail ->
  SideOK k sig (if (c <? 0)%Z then Idle else if (c =? 0)%Z then Reinj else Check (c - 1)%Z) n re avail.
Proof.
  intros H. destruct (Z.ltb_spec c 0); [|destruct (Z.eqb_spec c 0)]; side.
Qed.

Lemma side_reinj k sig n re avail : SideOK k sig Reinj n re avail -> SideOK k sig Idle n (S re) avail.
Proof. intros H. side. Qed.

Lemma side_other k sig p n re avail avail' : SideOK k sig p n re avail ->
  avail <= avail' <= S avail -> 1 <= avail' ->
  SideOK k (fst (sigswitch k sig)) p (n + (if snd (sigswitch k sig) then 1 else 0)) re avail'.
Proof.
  intros H H1 H2. unfold SideOK, sigswitch in *. destruct k; auto; cbn [fst snd];
  try (destruct (Nat.eqb_spec sig 3); cbn [fst snd]);
  destruct p; cbn [idle isconf pre active] in *;
  unfold cnt_nonneg, cnt_neg in *; cbn [cnt_of] in *; intuition (try lia; try congruence).
Qed.

Lemma side_idle k sig n re avail : k <> SignalNone -> SideOK k sig Idle n re avail -> 1 <= avail -> 1 <= n + re.
Proof. intros Hk H Ha. unfold SideOK in *. destruct k; try congruence; cbn [idle isconf pre active] in *; intuition lia. Qed.

(* ---- the system ---- *)
Definition nobl (t : lt unit) := negb (t_blocking t).

Record Inv (ko ki : sigkind) (cap : nat) (s : wsys) : Prop := {
  iv_ko : t_outkind (w_t s) = ko;
  iv_ki : t_inpkind (w_t s) = ki;
  iv_cap : cp (w_t s) = cap;
  iv_le : sz (w_t s) <= cp (w_t s);
  iv_pos : 0 < cp (w_t s);
  iv_inp : t_inpconn (w_t s) = true;
  iv_rr : m_run (w_rcv s) = true;
  iv_rs : m_run (w_snd s) = true;
  iv_wr : forall c, m_pc (w_rcv s) = Work c -> 0 < sz (w_t s);
  iv_ws : forall c, m_pc (w_snd s) = Work c -> sz (w_t s) < cp (w_t s) \/ t_blocking (w_t s) = false;
  iv_r : SideOK (t_inpkind (w_t s)) (t_siginp (w_t s)) (m_pc (w_rcv s))
           (m_ev (w_rcv s) + firing (m_pc (w_snd s))) (m_re (w_rcv s)) (sz (w_t s));
  iv_s : SideOK (t_outkind (w_t s)) (t_sigout (w_t s)) (m_pc (w_snd s))
           (m_ev (w_snd s) + firing (m_pc (w_rcv s))) (m_re (w_snd s)) (cp (w_t s) - sz (w_t s)) }.

Lemma loop_sign k len cap : match k with SignalEvery => (max_loop k len cap < 0)%Z | SignalNone => True
   | _ => (0 <= max_loop k len cap)%Z end.
Proof. destruct k; cbn; auto; try lia; destruct (len =? 0); lia. Qed.

Lemma can_recv_iff t : can_recv t = true <-> 0 < sz t.
Proof. unfold can_recv, b_empty, sz. destruct (Nat.eqb_spec (b_size (t_q t)) 0); cbn; split; intros; try discriminate; auto; lia. Qed.

Lemma can_send_iff t : sz t <= cp t -> can_send t = true <-> (sz t < cp t \/ t_blocking t = false).
Proof.
  intro H. unfold can_send, num_can_send, b_full, sz, cp in *.
  destruct (Nat.eqb_spec (b_size (t_q t)) (b_cap (t_q t))); cbn [negb].
  - destruct (t_blocking t); cbn; split; intros; auto; try discriminate. destruct H0; [lia|discriminate].
  - split; intros; [left; lia|]. apply Nat.ltb_lt. lia.
Qed.

Lemma confirm_view t b : conf_same t (lt_confirm t b) /\ sz (lt_confirm t b) = sz t /\
  t_siginp (lt_confirm t b) = (if b then t_siginp t else
     match t_inpkind t with SignalConfirm => if sz t =? 0 then 3 else 2 | _ => t_siginp t end) /\
  t_sigout (lt_confirm t b) = (if b then
     match t_outkind t with SignalConfirm => if sz t =? cp t then 3 else 2 | _ => t_sigout t end else t_sigout t).
Proof.
  unfold lt_confirm, conf_same, cp, sz, b_full, b_empty.
  destruct b; [destruct (t_outkind t) eqn:E|destruct (t_inpkind t) eqn:E]; cbn; rewrite ?E; auto 15.
Qed.

Lemma conf_blocking t t' : conf_same t t' -> t_blocking t' = t_blocking t.
Proof. unfold conf_same, t_blocking. intros (_ & _ & -> & -> & -> & -> & _). reflexivity. Qed.

Definition nostop (a : wact) : Prop := match a with Stop _ => False | _ => True end.

Lemma sig2_idle k sig n re avail : SideOK k sig Idle n re avail -> k = SignalConfirm -> sig <> 2.
Proof. intros H -> ->. cbn in H. destruct H as (_ & _ & H & _). destruct (H eq_refl). discriminate. Qed.

Lemma some_inj {A} (x y : A) : Some x = Some y -> y = x.
Proof. congruence. Qed.
Ltac inv_some := match goal with H : Some _ = Some ?s |- _ => apply some_inj in H; subst s end.

Lemma step_inv ko ki cap s a s' : Inv ko ki cap s -> nostop a -> w_step s a = Some s' -> Inv ko ki cap s'.
Proof.
  intros I Ha H. destruct I as [Iko Iki Icap Il Ip Ic Irr Irs Iwr Iws Ir Is].
  destruct s as [t [pr er rr runr] [ps es rs runs] lr ls]. cbn [w_t w_rcv w_snd w_loopr w_loops m_pc m_ev m_re m_run] in *.
  subst runr runs.
  destruct a as [w|w|w|w|w]; cbn [nostop] in Ha; try contradiction; clear Ha; destruct w;
    cbn [w_step get_mdl upd_mdl upd_t w_t w_rcv w_snd w_loopr w_loops m_pc m_ev m_re m_run other] in H.
  - (* TakeEv Rcv *)
    destruct pr; try discriminate. destruct er as [|er]; try discriminate. inv_some.
    constructor; cbn [w_t w_rcv w_snd w_loopr w_loops m_pc m_ev m_re m_run]; auto; try discriminate.
    apply side_take. exact Ir.
  - destruct ps; try discriminate. destruct es as [|es]; try discriminate. inv_some.
    constructor; cbn [w_t w_rcv w_snd w_loopr w_loops m_pc m_ev m_re m_run]; auto; try discriminate.
    apply side_take. exact Is.
  - destruct pr; try discriminate. destruct rr as [|rr]; try discriminate. inv_some.
    constructor; cbn [w_t w_rcv w_snd w_loopr w_loops m_pc m_ev m_re m_run]; auto; try discriminate.
    apply side_takere; auto. { apply loop_sign. } { eapply sig2_idle; eauto. }
  - destruct ps; try discriminate. destruct rs as [|rs]; try discriminate. inv_some.
    constructor; cbn [w_t w_rcv w_snd w_loopr w_loops m_pc m_ev m_re m_run]; auto; try discriminate.
    apply side_takere; auto. { apply loop_sign. } { eapply sig2_idle; eauto. }
  - (* Go Rcv *)
    destruct pr as [| |c|c|f c|c|]; try discriminate.
    + (* Confirm *)
      inv_some. destruct (confirm_view t false) as (Cs & Sz & Si & So).
      pose proof (conf_blocking _ _ Cs) as Hb.
      destruct Cs as (C1 & C2 & C3 & C4 & C5 & C6 & C7).
      constructor; cbn [w_t w_rcv w_snd w_loopr w_loops m_pc m_ev m_re m_run set_pc]; try congruence; try discriminate.
      * rewrite Sz, C7, Hb; exact Iws.
      * rewrite C1, Sz, Si. apply (side_confirm _ (t_siginp t)); auto. apply loop_sign.
      * rewrite C2, Sz, So, C7. exact Is.
    + (* Check *)
      inv_some. cbn [loop_cond w_t].
      destruct (can_recv t) eqn:E; constructor;
        cbn [w_t w_rcv w_snd w_loopr w_loops m_pc m_ev m_re m_run set_pc]; auto; try discriminate.
      * intros _ _. apply can_recv_iff; auto.
      * apply (side_check_f _ _ _ _ _ c); auto.
        destruct (Nat.eq_dec (sz t) 0); auto. exfalso.
        assert (0 < sz t) by lia. apply can_recv_iff in H. congruence.
    + (* Work *)
      cbn [w_t] in H. destruct (recv_view t (Iwr _ eq_refl)) as (t' & x & E & Sz & So & Si & Cs).
      rewrite E in H. inv_some. pose proof (conf_blocking _ _ Cs) as Hb.
      destruct Cs as (C1 & C2 & C3 & C4 & C5 & C6 & C7). specialize (Iwr _ eq_refl).
      constructor; cbn [w_t w_rcv w_snd w_loopr w_loops m_pc m_ev m_re m_run set_pc]; try congruence; try discriminate; try lia.
      * rewrite C1, Sz, Si. apply side_work. exact Ir.
      * rewrite C2, So, C7, Sz. cbn [firing] in Is |- *.
        replace (es + match snd (sigswitch (t_outkind t) (t_sigout t)) with true => 1 | false => 0 end)
          with (es + 0 + (if snd (sigswitch (t_outkind t) (t_sigout t)) then 1 else 0)) by lia.
        apply (side_other _ _ _ _ _ _ _ Is); lia.
    + (* Fire *)
      destruct f; inv_some;
      constructor; cbn [w_t w_rcv w_snd w_loopr w_loops m_pc m_ev m_re m_run set_pc add_ev get_mdl upd_mdl]; auto; try discriminate;
      try (eapply side_fire; eauto; fail).
      * cbn [firing] in *. replace (1 + es + 0) with (es + 1) by lia. exact Is.
    + (* Next *)
      inv_some. constructor; cbn [w_t w_rcv w_snd w_loopr w_loops m_pc m_ev m_re m_run set_pc]; auto.
      * intros c'. destruct (c <? 0)%Z; [|destruct (c =? 0)%Z]; discriminate.
      * apply side_next; auto.
      * destruct (c <? 0)%Z; [|destruct (c =? 0)%Z]; exact Is.
    + inv_some. constructor; cbn [w_t w_rcv w_snd w_loopr w_loops m_pc m_ev m_re m_run set_pc]; auto; try discriminate.
      apply side_reinj; auto.
  - (* Go Snd *)
    destruct ps as [| |c|c|f c|c|]; try discriminate.
    + (* Confirm *)
      inv_some. destruct (confirm_view t true) as (Cs & Sz & Si & So).
      pose proof (conf_blocking _ _ Cs) as Hb.
      destruct Cs as (C1 & C2 & C3 & C4 & C5 & C6 & C7).
      constructor; cbn [w_t w_rcv w_snd w_loopr w_loops m_pc m_ev m_re m_run set_pc]; try congruence; try discriminate.
      * rewrite Sz; exact Iwr.
      * rewrite C1, Sz, Si. exact Ir.
      * rewrite C2, Sz, So, C7.
        replace (match t_outkind t with SignalConfirm => if sz t =? cp t then 3 else 2 | _ => t_sigout t end)
          with (match t_outkind t with SignalConfirm => if cp t - sz t =? 0 then 3 else 2 | _ => t_sigout t end).
        { apply (side_confirm _ (t_sigout t)); auto. apply loop_sign. }
        { destruct (t_outkind t); auto. destruct (Nat.eqb_spec (cp t - sz t) 0), (Nat.eqb_spec (sz t) (cp t)); auto; lia. }
    + (* Check *)
      inv_some. cbn [loop_cond w_t].
      destruct (can_send t) eqn:E; constructor;
        cbn [w_t w_rcv w_snd w_loopr w_loops m_pc m_ev m_re m_run set_pc]; auto; try discriminate.
      * intros _ _. apply can_send_iff; auto.
      * apply (side_check_f _ _ _ _ _ c); auto.
        destruct (Nat.eq_dec (cp t - sz t) 0); auto. exfalso.
        assert (sz t < cp t) by lia.
        assert (can_send t = true) by (apply can_send_iff; auto). congruence.
    + (* Work *)
      cbn [w_t] in H. destruct (send_view t Il Ip Ic (Iws _ eq_refl)) as (t' & x & E & Sz & Si & So & Cs).
      rewrite E in H. inv_some. pose proof (conf_blocking _ _ Cs) as Hb.
      destruct Cs as (C1 & C2 & C3 & C4 & C5 & C6 & C7). specialize (Iws _ eq_refl).
      assert (Sz2 : sz t <= sz t' <= S (sz t) /\ sz t' <= cp t /\ 1 <= sz t' /\ cp t - sz t' = cp t - sz t - 1).
      { rewrite Sz. destruct (Nat.ltb_spec (sz t) (cp t)); lia. }
      constructor; cbn [w_t w_rcv w_snd w_loopr w_loops m_pc m_ev m_re m_run set_pc]; try congruence; try discriminate; try lia.
      * rewrite C1, Si. cbn [firing] in Ir |- *.
        replace (er + match snd (sigswitch (t_inpkind t) (t_siginp t)) with true => 1 | false => 0 end)
          with (er + 0 + (if snd (sigswitch (t_inpkind t) (t_siginp t)) then 1 else 0)) by lia.
        apply (side_other _ _ _ _ _ _ _ Ir); lia.
      * rewrite C2, So, C7. destruct Sz2 as (_ & _ & _ & ->). apply side_work. exact Is.
    + (* Fire *)
      destruct f; inv_some;
      constructor; cbn [w_t w_rcv w_snd w_loopr w_loops m_pc m_ev m_re m_run set_pc add_ev get_mdl upd_mdl]; auto; try discriminate;
      try (eapply side_fire; eauto; fail).
      * cbn [firing] in *. replace (1 + er + 0) with (er + 1) by lia. exact Ir.
    + (* Next *)
      inv_some. constructor; cbn [w_t w_rcv w_snd w_loopr w_loops m_pc m_ev m_re m_run set_pc]; auto.
      * intros c'. destruct (c <? 0)%Z; [|destruct (c =? 0)%Z]; discriminate.
      * destruct (c <? 0)%Z; [|destruct (c =? 0)%Z]; exact Ir.
      * apply side_next; auto.
    + inv_some. constructor; cbn [w_t w_rcv w_snd w_loopr w_loops m_pc m_ev m_re m_run set_pc]; auto; try discriminate.
      apply side_reinj; auto.
  - destruct pr; try discriminate. inv_some. constructor; cbn; auto.
  - destruct ps; try discriminate. inv_some. constructor; cbn; auto.
Qed.

Lemma run_inv ko ki cap l : forall s, Inv ko ki cap s -> Forall nostop l -> Inv ko ki cap (w_run s l).
Proof.
  induction l as [|a l IH]; intros s I F; cbn; auto.
  inversion F; subst. apply IH; auto. destruct (w_step s a) eqn:E; auto. eapply step_inv; eauto.
Qed.

Lemma init_inv cap ko ki bu bc lr ls : 0 < cap -> Inv ko ki cap (w_init cap ko ki bu bc lr ls).
Proof.
  intro Hc. assert (C : b_cap (bq_new (X:=unit) cap) = cap) by (unfold b_cap; cbn; apply repeat_length).
  unfold w_init. constructor; cbn [w_t w_rcv w_snd w_loopr w_loops m_pc m_ev m_re m_run]; auto; try discriminate;
   unfold sz, cp; cbn [t_q lt_new t_inpkind t_outkind t_siginp t_sigout t_inpconn]; rewrite ?C; cbn [bq_new b_size]; auto; try lia.
  - destruct ki; cbn; unfold cnt_nonneg, cnt_neg; cbn; intuition lia.
  - rewrite Nat.sub_0_r. unfold start_events. cbn [w_t t_outkind lt_new].
    assert (E : num_can_send (lt_new (X:=unit) cap ko ki bu bc) = cap).
    { unfold num_can_send, b_full. cbn [t_q lt_new b_size bq_new]. rewrite C.
      destruct cap; [lia|]. cbn. lia. }
    unfold can_send. rewrite E. replace (0 <? cap) with true by (symmetry; apply Nat.ltb_lt; lia).
    destruct ko; cbn; unfold cnt_nonneg, cnt_neg; cbn; intuition lia.
Qed.


(* the statements used in the property file *)
Lemma no_lost_input cap ko ki bu bc lr ls l :
  0 < cap -> ki <> SignalNone -> Forall nostop l ->
  let s := w_run (w_init cap ko ki bu bc lr ls) l in
  can_recv (w_t s) = true ->
  m_pc (w_rcv s) <> Idle \/ 0 < m_ev (w_rcv s) \/ 0 < m_re (w_rcv s) \/ (exists c, m_pc (w_snd s) = Fire true c).
Proof.
  intros Hc Hk Hl s Hr. pose proof (run_inv _ _ _ l _ (init_inv cap ko ki bu bc lr ls Hc) Hl) as I. fold s in I.
  destruct I as [Iko Iki Icap Il Ip Ic Irr Irs Iwr Iws Ir Is]. apply can_recv_iff in Hr.
  destruct (m_pc (w_rcv s)) eqn:E; try (left; discriminate).
  right. apply side_idle in Ir; [|congruence|lia].
  destruct (m_pc (w_snd s)) eqn:E2; cbn [firing] in Ir; try lia.
  destruct b; [eauto|lia].
Qed.

Lemma no_lost_output cap ko ki bu bc lr ls l :
  0 < cap -> ko <> SignalNone -> Forall nostop l ->
  let s := w_run (w_init cap ko ki bu bc lr ls) l in
  b_full (t_q (w_t s)) = false ->
  m_pc (w_snd s) <> Idle \/ 0 < m_ev (w_snd s) \/ 0 < m_re (w_snd s) \/ (exists c, m_pc (w_rcv s) = Fire true c).
Proof.
  intros Hc Hk Hl s Hr. pose proof (run_inv _ _ _ l _ (init_inv cap ko ki bu bc lr ls Hc) Hl) as I. fold s in I.
  destruct I as [Iko Iki Icap Il Ip Ic Irr Irs Iwr Iws Ir Is].
  unfold b_full in Hr. apply Nat.eqb_neq in Hr. fold (sz (w_t s)) (cp (w_t s)) in Hr.
  destruct (m_pc (w_snd s)) eqn:E; try (left; discriminate).
  right. apply side_idle in Is; [|congruence|lia].
  destruct (m_pc (w_rcv s)) eqn:E2; cbn [firing] in Is; try lia.
  destruct b; [eauto|lia].
Qed.

Lemma go_enabled ko ki cap s w : Inv ko ki cap s -> m_pc (get_mdl s w) <> Idle -> w_step s (Go w) <> None.
Proof.
  intros I Hp. cbn [w_step].
  destruct (m_pc (get_mdl s w)) eqn:E; try congruence.
  - destruct w.
    + destruct (lt_recv (w_t s)) as [[? ?] ?]. discriminate.
    + destruct I as [Iko Iki Icap Il Ip Ic Irr Irs Iwr Iws Ir Is].
      destruct (send_view (w_t s) Il Ip Ic (Iws _ E)) as (t' & x & -> & _). discriminate.
  - destruct b; discriminate.
Qed.

Lemma never_stuck cap ko ki bu bc lr ls l :
  0 < cap -> ko <> SignalNone -> ki <> SignalNone -> Forall nostop l ->
  let s := w_run (w_init cap ko ki bu bc lr ls) l in
  exists a, is_thread_step a = 1 /\ w_step s a <> None.
Proof.
  intros Hc Hko Hki Hl s. pose proof (run_inv _ _ _ l _ (init_inv cap ko ki bu bc lr ls Hc) Hl) as I. fold s in I.
  destruct (m_pc (w_rcv s)) eqn:E1;
    try (exists (Go Rcv); split; [reflexivity|]; eapply go_enabled; [exact I|]; cbn [get_mdl]; rewrite E1; discriminate).
  destruct (m_pc (w_snd s)) eqn:E2;
    try (exists (Go Snd); split; [reflexivity|]; eapply go_enabled; [exact I|]; cbn [get_mdl]; rewrite E2; discriminate).
  assert (T : forall w, 1 <= m_ev (get_mdl s w) + m_re (get_mdl s w) -> m_pc (get_mdl s w) = Idle ->
     exists a, is_thread_step a = 1 /\ w_step s a <> None).
  { intros w H1 H2. destruct (m_ev (get_mdl s w)) eqn:H3.
    - exists (TakeRe w). split; [reflexivity|]. cbn [w_step]. rewrite H2.
      destruct (m_re (get_mdl s w)); [lia|discriminate].
    - exists (TakeEv w). split; [reflexivity|]. cbn [w_step]. rewrite H2, H3. discriminate. }
  destruct I as [Iko Iki Icap Il Ip Ic Irr Irs Iwr Iws Ir Is].
  rewrite E1, E2 in Ir, Is. cbn [firing] in Ir, Is.
  destruct (Nat.eq_dec (sz (w_t s)) 0).
  - apply (T Snd); cbn [get_mdl]; auto. apply side_idle in Is; [|congruence|lia]. lia.
  - apply (T Rcv); cbn [get_mdl]; auto. apply side_idle in Ir; [|congruence|lia]. lia.
Qed.

(* a potential that every step of a thread consumes, except sending and receiving *)
Definition wgt (p : pc) : nat :=
  match p with Idle | Work _ => 0 | Confirm => 2 | Check _ => 1 | Reinj => 3 | Next _ => 4 | Fire _ _ => 8 end.
Definition pot1 (m : mdl) : nat := wgt (m_pc m) + 3 * m_ev m + 2 * m_re m.
Definition pot (s : wsys) : nat := pot1 (w_rcv s) + pot1 (w_snd s).

Lemma step_pot s a s' : m_run (w_rcv s) = true -> m_run (w_snd s) = true -> nostop a -> w_step s a = Some s' ->
  pot s' + is_thread_step a <= pot s + 9 * (is_work s Snd a + is_work s Rcv a).
Proof.
  intros R1 R2 N H.
  destruct s as [t [pr er rr runr] [ps es rs runs] lr ls]. cbn [w_rcv w_snd m_run] in *. subst.
  unfold pot, pot1.
  destruct a as [w|w|w|w|w]; cbn [nostop] in N; try contradiction; clear N; destruct w;
    cbn [w_step get_mdl upd_mdl upd_t w_t w_rcv w_snd w_loopr w_loops m_pc m_ev m_re m_run other is_thread_step is_work] in *.
  - destruct pr; try discriminate. destruct er as [|er]; try discriminate. inv_some. cbn. lia.
  - destruct ps; try discriminate. destruct es as [|es]; try discriminate. inv_some. cbn. lia.
  - destruct pr; try discriminate. destruct rr as [|rr]; try discriminate. inv_some. cbn. lia.
  - destruct ps; try discriminate. destruct rs as [|rs]; try discriminate. inv_some. cbn. lia.
  - destruct pr as [| |c|c|f c|c|]; try discriminate.
    + inv_some. cbn. lia.
    + inv_some. destruct (loop_cond _ _); cbn; lia.
    + cbn [w_t] in H. destruct (lt_recv t) as [[t' x] f]. inv_some. cbn. lia.
    + destruct f; inv_some; cbn; lia.
    + inv_some. destruct (c <? 0)%Z; [|destruct (c =? 0)%Z]; cbn; lia.
    + inv_some. cbn. lia.
  - destruct ps as [| |c|c|f c|c|]; try discriminate.
    + inv_some. cbn. lia.
    + inv_some. destruct (loop_cond _ _); cbn; lia.
    + cbn [w_t] in H. destruct (lt_send t tt) as [[[t' x] f]|]; try discriminate. inv_some. cbn. lia.
    + destruct f; inv_some; cbn; lia.
    + inv_some. destruct (c <? 0)%Z; [|destruct (c =? 0)%Z]; cbn; lia.
    + inv_some. cbn. lia.
  - destruct pr; try discriminate. inv_some. cbn. lia.
  - destruct ps; try discriminate. inv_some. cbn. lia.
Qed.

Lemma count_pot ko ki cap l : forall s n sn rc, Inv ko ki cap s -> Forall nostop l ->
  w_count s l = (n, sn, rc) -> n <= pot s + 9 * (sn + rc).
Proof.
  induction l as [|a l IH]; intros s n sn rc I F E; cbn [w_count] in E.
  - inversion E; subst; lia.
  - inversion F; subst. destruct (w_step s a) as [s1|] eqn:Es.
    + destruct (w_count s1 l) as [[n1 sn1] rc1] eqn:E1. inversion E; subst.
      assert (I1 : Inv ko ki cap s1) by (eapply step_inv; eauto).
      specialize (IH _ _ _ _ I1 H2 E1).
      pose proof (step_pot _ _ _ (iv_rr _ _ _ _ I) (iv_rs _ _ _ _ I) H1 Es). lia.
    + eauto.
Qed.

(* buffers are conserved while both sides block *)
Definition inflight (s : wsys) : nat := sz (w_t s).
Definition alwaysblock (t : lt unit) : Prop := t_block_unconn t = true /\ t_block_conn t = true.

Lemma step_cons ko ki cap s a s' : Inv ko ki cap s -> alwaysblock (w_t s) -> nostop a -> w_step s a = Some s' ->
  inflight s + is_work s Snd a = inflight s' + is_work s Rcv a /\ alwaysblock (w_t s').
Proof.
  intros I B N H. pose proof (step_inv _ _ _ _ _ _ I N H) as I'.
  destruct I as [Iko Iki Icap Il Ip Ic Irr Irs Iwr Iws Ir Is].
  destruct s as [t [pr er rr runr] [ps es rs runs] lr ls]. unfold inflight. cbn [w_t w_rcv w_snd w_loopr w_loops m_pc m_ev m_re m_run] in *. subst runr runs.
  assert (Bl : t_blocking t = true). { destruct B as [B1 B2]. unfold t_blocking. rewrite B1, B2. destruct (_ && _); auto. }
  destruct a as [w|w|w|w|w]; cbn [nostop] in N; try contradiction; clear N; destruct w;
    cbn [w_step get_mdl upd_mdl upd_t w_t w_rcv w_snd w_loopr w_loops m_pc m_ev m_re m_run other is_thread_step is_work] in *.
  - destruct pr; try discriminate. destruct er as [|er]; try discriminate. inv_some. cbn. auto.
  - destruct ps; try discriminate. destruct es as [|es]; try discriminate. inv_some. cbn. auto.
  - destruct pr; try discriminate. destruct rr as [|rr]; try discriminate. inv_some. cbn. auto.
  - destruct ps; try discriminate. destruct rs as [|rs]; try discriminate. inv_some. cbn. auto.
  - destruct pr as [| |c|c|f c|c|]; try discriminate.
    + inv_some. cbn [w_t]. destruct (confirm_view t false) as (Cs & Sz & Si & So). unfold alwaysblock in *.
      destruct Cs as (C1 & C2 & C3 & C4 & C5 & C6 & C7). rewrite C5, C6, Sz. auto.
    + inv_some. cbn. auto.
    + cbn [w_t] in H. destruct (recv_view t (Iwr _ eq_refl)) as (t' & x & E & Sz & So & Si & Cs).
      rewrite E in H. inv_some. cbn [w_t]. specialize (Iwr _ eq_refl). unfold alwaysblock in *.
      destruct Cs as (C1 & C2 & C3 & C4 & C5 & C6 & C7). rewrite C5, C6. split; auto. lia.
    + destruct f; inv_some; cbn; auto.
    + inv_some. cbn. auto.
    + inv_some. cbn. auto.
  - destruct ps as [| |c|c|f c|c|]; try discriminate.
    + inv_some. cbn [w_t]. destruct (confirm_view t true) as (Cs & Sz & Si & So). unfold alwaysblock in *.
      destruct Cs as (C1 & C2 & C3 & C4 & C5 & C6 & C7). rewrite C5, C6, Sz. auto.
    + inv_some. cbn. auto.
    + cbn [w_t] in H. destruct (send_view t Il Ip Ic (Iws _ eq_refl)) as (t' & x & E & Sz & Si & So & Cs).
      rewrite E in H. inv_some. cbn [w_t]. unfold alwaysblock in *.
      destruct Cs as (C1 & C2 & C3 & C4 & C5 & C6 & C7). rewrite C5, C6. split; auto.
      destruct (Iws _ eq_refl); [|congruence]. rewrite Sz. destruct (Nat.ltb_spec (sz t) (cp t)); lia.
    + destruct f; inv_some; cbn; auto.
    + inv_some. cbn. auto.
    + inv_some. cbn. auto.
  - destruct pr; try discriminate. inv_some. cbn. auto.
  - destruct ps; try discriminate. inv_some. cbn. auto.
Qed.

Lemma count_cons ko ki cap l : forall s n sn rc, Inv ko ki cap s -> alwaysblock (w_t s) -> Forall nostop l ->
  w_count s l = (n, sn, rc) -> inflight s + sn = inflight (w_run s l) + rc /\ inflight (w_run s l) <= cap.
Proof.
  induction l as [|a l IH]; intros s n sn rc I B F E; cbn [w_count w_run] in *.
  - inversion E; subst. split; auto. destruct I. unfold inflight. lia.
  - inversion F; subst. destruct (w_step s a) as [s1|] eqn:Es.
    + destruct (w_count s1 l) as [[n1 sn1] rc1] eqn:E1. inversion E; subst.
      assert (I1 : Inv ko ki cap s1) by (eapply step_inv; eauto).
      destruct (step_cons _ _ _ _ _ _ I B H1 Es) as (C1 & C2).
      destruct (IH _ _ _ _ I1 C2 H2 E1). lia.
    + eauto.
Qed.

Lemma progress cap ko ki lr ls l n sent recv :
  0 < cap -> ko <> SignalNone -> ki <> SignalNone -> Forall nostop l ->
  w_count (w_init cap ko ki true true lr ls) l = (n, sent, recv) ->
  n <= 12 * cap + 18 * recv /\ recv <= sent <= recv + cap.
Proof.
  intros Hc Hko Hki Hl E.
  pose proof (init_inv cap ko ki true true lr ls Hc) as I.
  pose proof (count_pot _ _ _ _ _ _ _ _ I Hl E) as P.
  assert (B : alwaysblock (w_t (w_init cap ko ki true true lr ls))) by (split; reflexivity).
  destruct (count_cons _ _ _ _ _ _ _ _ I B Hl E) as [C D].
  assert (Z0 : inflight (w_init cap ko ki true true lr ls) = 0) by reflexivity.
  assert (P0 : pot (w_init cap ko ki true true lr ls) <= 3 * cap).
  { unfold pot, pot1, w_init. cbn [w_rcv w_snd m_pc m_ev m_re wgt].
    assert (C1 : b_cap (bq_new (X:=unit) cap) = cap) by (unfold b_cap; cbn; apply repeat_length).
    assert (E0 : num_can_send (lt_new (X:=unit) cap ko ki true true) = cap).
    { unfold num_can_send, b_full. cbn [t_q lt_new b_size bq_new]. rewrite C1. destruct cap; [lia|]. cbn. lia. }
    unfold start_events. cbn [w_t t_inpkind t_outkind lt_new]. unfold can_send. rewrite E0.
    destruct (0 <? cap); destruct ko, ki; cbn; try lia; try congruence. }
  lia.
Qed.
