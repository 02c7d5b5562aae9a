(* Stopping and restarting the modules: ports that do not use SignalConfirm. *)
From Verif Require Import Common TransportSpec TransportModel TransportProofs WakeProofs.

Definition weak (k : sigkind) (sig avail : nat) : Prop :=
  match k with
  | SignalNone | SignalEvery => True
  | SignalConfirm => False
  | SignalOperation => 2 <= sig <= 3 /\ (sig = 2 -> 1 <= avail)
  end.

Definition SideR (run : bool) (k : sigkind) (sig : nat) (p : pc) (n re avail : nat) : Prop :=
  if run then SideOK k sig p n re avail else p = Idle /\ weak k sig avail.

Lemma sider_run run k sig p n re avail : SideR run k sig p n re avail -> p <> Idle -> run = true.
Proof. destruct run; auto. intros [H _] ?. congruence. Qed.

Lemma sider_ev run k sig p n n' re avail : n <= n' -> SideR run k sig p n re avail -> SideR run k sig p n' re avail.
Proof.
  intros Hn. destruct run; cbn; auto. unfold SideOK. destruct k; auto; intuition lia.
Qed.

Lemma sider_other run k sig p n re avail avail' : SideR run k sig p n re avail ->
  avail <= avail' <= S avail -> 1 <= avail' ->
  SideR run k (fst (sigswitch k sig)) p (n + (if snd (sigswitch k sig) then 1 else 0)) re avail'.
Proof.
  intros H H1 H2. destruct run; cbn [SideR] in *.
  - eapply side_other; eauto.
  - destruct H as [H3 H4]. split; auto. destruct k; cbn in *; auto.
    destruct (Nat.eqb_spec sig 3); cbn; intuition lia.
Qed.

Lemma sider_stop run k sig n re avail : SideR run k sig Idle n re avail -> k <> SignalConfirm -> SideR false k sig Idle n re avail.
Proof.
  intros H Hk. destruct run; auto. cbn [SideR] in *. split; auto. destruct k; cbn in *; intuition congruence.
Qed.

Lemma sider_start k sig n re avail st : SideR false k sig Idle n re avail ->
  (k = SignalOperation -> 1 <= avail -> 1 <= st) -> (k = SignalEvery -> avail <= st) ->
  SideR true k sig Idle (st + n) re avail.
Proof.
  intros [_ H] H1 H2. cbn [SideR]. destruct k; cbn in *; unfold cnt_nonneg, cnt_neg; cbn; auto; try contradiction.
  - intuition lia.
  - specialize (H2 eq_refl). intuition lia.
Qed.

Record InvR (ko ki : sigkind) (cap : nat) (s : wsys) : Prop := {
  ir_ko : t_outkind (w_t s) = ko;
  ir_ki : t_inpkind (w_t s) = ki;
  ir_cap : cp (w_t s) = cap;
  ir_le : sz (w_t s) <= cp (w_t s);
  ir_pos : 0 < cp (w_t s);
  ir_inp : t_inpconn (w_t s) = true;
  ir_wr : forall c, m_pc (w_rcv s) = Work c -> 0 < sz (w_t s);
  ir_ws : forall c, m_pc (w_snd s) = Work c -> sz (w_t s) < cp (w_t s) \/ t_blocking (w_t s) = false;
  ir_r : SideR (m_run (w_rcv s)) (t_inpkind (w_t s)) (t_siginp (w_t s)) (m_pc (w_rcv s))
           (m_ev (w_rcv s) + firing (m_pc (w_snd s))) (m_re (w_rcv s)) (sz (w_t s));
  ir_s : SideR (m_run (w_snd s)) (t_outkind (w_t s)) (t_sigout (w_t s)) (m_pc (w_snd s))
           (m_ev (w_snd s) + firing (m_pc (w_rcv s))) (m_re (w_snd s)) (cp (w_t s) - sz (w_t s)) }.


(* a module may be stopped when its port does not use SignalConfirm *)
Definition okstop (ko ki : sigkind) (a : wact) : Prop :=
  match a with Stop Rcv => ki <> SignalConfirm | Stop Snd => ko <> SignalConfirm | _ => True end.

Lemma start_rcv (t : lt unit) : can_recv t = (0 <? sz t).
Proof. unfold can_recv, b_empty, sz. destruct (b_size (t_q t)); reflexivity. Qed.

Lemma step_invr ko ki cap s a s' : InvR ko ki cap s -> okstop ko ki a -> w_step s a = Some s' -> InvR ko ki cap s'.
Proof.
  intros I Ha H. destruct I as [Iko Iki Icap Il Ip Ic Iwr Iws Ir Is].
  destruct s as [t [pr er rr runr] [ps es rs runs] lr ls]. cbn [w_t w_rcv w_snd w_loopr w_loops m_pc m_ev m_re m_run] in *.
  destruct a as [w|w|w|w|w]; destruct w;
    cbn [w_step get_mdl upd_mdl upd_t w_t w_rcv w_snd w_loopr w_loops m_pc m_ev m_re m_run other] in H.
  - (* TakeEv Rcv *)
    destruct pr; try discriminate. destruct er as [|er]; try discriminate. inv_some. destruct runr;
    constructor; cbn [w_t w_rcv w_snd w_loopr w_loops m_pc m_ev m_re m_run]; auto; try discriminate.
    apply side_take. exact Ir.
  - destruct ps; try discriminate. destruct es as [|es]; try discriminate. inv_some. destruct runs;
    constructor; cbn [w_t w_rcv w_snd w_loopr w_loops m_pc m_ev m_re m_run]; auto; try discriminate.
    apply side_take. exact Is.
  - destruct pr; try discriminate. destruct rr as [|rr]; try discriminate. inv_some. destruct runr;
    constructor; cbn [w_t w_rcv w_snd w_loopr w_loops m_pc m_ev m_re m_run]; auto; try discriminate.
    apply side_takere; auto. { apply loop_sign. } { eapply sig2_idle; eauto. }
  - destruct ps; try discriminate. destruct rs as [|rs]; try discriminate. inv_some. destruct runs;
    constructor; cbn [w_t w_rcv w_snd w_loopr w_loops m_pc m_ev m_re m_run]; auto; try discriminate.
    apply side_takere; auto. { apply loop_sign. } { eapply sig2_idle; eauto. }
  - (* Go Rcv *)
    destruct pr as [| |c|c|f c|c|]; try discriminate;
      pose proof (sider_run _ _ _ _ _ _ _ Ir ltac:(discriminate)); subst runr.
    + (* Confirm *)
      inv_some. destruct (confirm_view t false) as (Cs & Sz & Si & So).
      pose proof (conf_blocking _ _ Cs) as Hb.
      destruct Cs as (C1 & C2 & C3 & C4 & C5 & C6 & C7).
      constructor; cbn [w_t w_rcv w_snd w_loopr w_loops m_pc m_ev m_re m_run set_pc]; try congruence; try discriminate.
      * rewrite Sz, C7, Hb; exact Iws.
      * rewrite C1, Sz, Si. apply (side_confirm _ (t_siginp t)); auto. apply loop_sign.
      * rewrite C2, Sz, So, C7. exact Is.
    + (* Check *)
      inv_some. cbn [loop_cond w_t].
      destruct (can_recv t) eqn:E; constructor;
        cbn [w_t w_rcv w_snd w_loopr w_loops m_pc m_ev m_re m_run set_pc]; auto; try discriminate.
      * intros _ _. apply can_recv_iff; auto.
      * apply (side_check_f _ _ _ _ _ c); auto.
        destruct (Nat.eq_dec (sz t) 0); auto. exfalso.
        assert (0 < sz t) by lia. apply can_recv_iff in H. congruence.
    + (* Work *)
      cbn [w_t] in H. destruct (recv_view t (Iwr _ eq_refl)) as (t' & x & E & Sz & So & Si & Cs).
      rewrite E in H. inv_some. pose proof (conf_blocking _ _ Cs) as Hb.
      destruct Cs as (C1 & C2 & C3 & C4 & C5 & C6 & C7). specialize (Iwr _ eq_refl).
      constructor; cbn [w_t w_rcv w_snd w_loopr w_loops m_pc m_ev m_re m_run set_pc]; try congruence; try discriminate; try lia.
      * rewrite C1, Sz, Si. apply side_work. exact Ir.
      * rewrite C2, So, C7, Sz. cbn [firing] in Is |- *.
        replace (es + match snd (sigswitch (t_outkind t) (t_sigout t)) with true => 1 | false => 0 end)
          with (es + 0 + (if snd (sigswitch (t_outkind t) (t_sigout t)) then 1 else 0)) by lia.
        apply (sider_other _ _ _ _ _ _ _ _ Is); lia.
    + (* Fire *)
      destruct f; inv_some;
      constructor; cbn [w_t w_rcv w_snd w_loopr w_loops m_pc m_ev m_re m_run set_pc add_ev get_mdl upd_mdl]; auto; try discriminate;
      try (eapply side_fire; eauto; fail).
      * cbn [firing] in *. replace (1 + es + 0) with (es + 1) by lia. exact Is.
    + (* Next *)
      inv_some. constructor; cbn [w_t w_rcv w_snd w_loopr w_loops m_pc m_ev m_re m_run set_pc]; auto.
      * intros c'. destruct (c <? 0)%Z; [|destruct (c =? 0)%Z]; discriminate.
      * apply side_next; auto.
      * destruct (c <? 0)%Z; [|destruct (c =? 0)%Z]; exact Is.
    + inv_some. constructor; cbn [w_t w_rcv w_snd w_loopr w_loops m_pc m_ev m_re m_run set_pc]; auto; try discriminate.
      apply side_reinj; auto.
  - (* Go Snd *)
    destruct ps as [| |c|c|f c|c|]; try discriminate;
      pose proof (sider_run _ _ _ _ _ _ _ Is ltac:(discriminate)); subst runs.
    + (* Confirm *)
      inv_some. destruct (confirm_view t true) as (Cs & Sz & Si & So).
      pose proof (conf_blocking _ _ Cs) as Hb.
      destruct Cs as (C1 & C2 & C3 & C4 & C5 & C6 & C7).
      constructor; cbn [w_t w_rcv w_snd w_loopr w_loops m_pc m_ev m_re m_run set_pc]; try congruence; try discriminate.
      * rewrite Sz; exact Iwr.
      * rewrite C1, Sz, Si. exact Ir.
      * rewrite C2, Sz, So, C7.
        replace (match t_outkind t with SignalConfirm => if sz t =? cp t then 3 else 2 | _ => t_sigout t end)
          with (match t_outkind t with SignalConfirm => if cp t - sz t =? 0 then 3 else 2 | _ => t_sigout t end).
        { apply (side_confirm _ (t_sigout t)); auto. apply loop_sign. }
        { destruct (t_outkind t); auto. destruct (Nat.eqb_spec (cp t - sz t) 0), (Nat.eqb_spec (sz t) (cp t)); auto; lia. }
    + (* Check *)
      inv_some. cbn [loop_cond w_t].
      destruct (can_send t) eqn:E; constructor;
        cbn [w_t w_rcv w_snd w_loopr w_loops m_pc m_ev m_re m_run set_pc]; auto; try discriminate.
      * intros _ _. apply can_send_iff; auto.
      * apply (side_check_f _ _ _ _ _ c); auto.
        destruct (Nat.eq_dec (cp t - sz t) 0); auto. exfalso.
        assert (sz t < cp t) by lia.
        assert (can_send t = true) by (apply can_send_iff; auto). congruence.
    + (* Work *)
      cbn [w_t] in H. destruct (send_view t Il Ip Ic (Iws _ eq_refl)) as (t' & x & E & Sz & Si & So & Cs).
      rewrite E in H. inv_some. pose proof (conf_blocking _ _ Cs) as Hb.
      destruct Cs as (C1 & C2 & C3 & C4 & C5 & C6 & C7). specialize (Iws _ eq_refl).
      assert (Sz2 : sz t <= sz t' <= S (sz t) /\ sz t' <= cp t /\ 1 <= sz t' /\ cp t - sz t' = cp t - sz t - 1).
      { rewrite Sz. destruct (Nat.ltb_spec (sz t) (cp t)); lia. }
      constructor; cbn [w_t w_rcv w_snd w_loopr w_loops m_pc m_ev m_re m_run set_pc]; try congruence; try discriminate; try lia.
      * rewrite C1, Si. cbn [firing] in Ir |- *.
        replace (er + match snd (sigswitch (t_inpkind t) (t_siginp t)) with true => 1 | false => 0 end)
          with (er + 0 + (if snd (sigswitch (t_inpkind t) (t_siginp t)) then 1 else 0)) by lia.
        apply (sider_other _ _ _ _ _ _ _ _ Ir); lia.
      * rewrite C2, So, C7. destruct Sz2 as (_ & _ & _ & ->). apply side_work. exact Is.
    + (* Fire *)
      destruct f; inv_some;
      constructor; cbn [w_t w_rcv w_snd w_loopr w_loops m_pc m_ev m_re m_run set_pc add_ev get_mdl upd_mdl]; auto; try discriminate;
      try (eapply side_fire; eauto; fail).
      * cbn [firing] in *. replace (1 + er + 0) with (er + 1) by lia. exact Ir.
    + (* Next *)
      inv_some. constructor; cbn [w_t w_rcv w_snd w_loopr w_loops m_pc m_ev m_re m_run set_pc]; auto.
      * intros c'. destruct (c <? 0)%Z; [|destruct (c =? 0)%Z]; discriminate.
      * destruct (c <? 0)%Z; [|destruct (c =? 0)%Z]; exact Ir.
      * apply side_next; auto.
    + inv_some. constructor; cbn [w_t w_rcv w_snd w_loopr w_loops m_pc m_ev m_re m_run set_pc]; auto; try discriminate.
      apply side_reinj; auto.
  - destruct pr; try discriminate. inv_some. constructor; cbn [w_t w_rcv w_snd w_loopr w_loops m_pc m_ev m_re m_run]; auto; try discriminate.
    eapply sider_stop; eauto. cbn in Ha. congruence.
  - destruct ps; try discriminate. inv_some. constructor; cbn [w_t w_rcv w_snd w_loopr w_loops m_pc m_ev m_re m_run]; auto; try discriminate.
    eapply sider_stop; eauto. cbn in Ha. congruence.
  - destruct pr; try discriminate. destruct runr; inv_some; [constructor; auto|].
    constructor; cbn [w_t w_rcv w_snd w_loopr w_loops m_pc m_ev m_re m_run]; auto; try discriminate.
    rewrite <- Nat.add_assoc. apply sider_start; auto; unfold start_events; cbn [w_t].
    + intros E1 E2. rewrite E1. rewrite start_rcv. cbn [w_t]. destruct (Nat.ltb_spec 0 (sz t)); lia.
    + intros E1. rewrite E1. fold (sz t). lia.
  - destruct ps; try discriminate. destruct runs; inv_some; [constructor; auto|].
    constructor; cbn [w_t w_rcv w_snd w_loopr w_loops m_pc m_ev m_re m_run]; auto; try discriminate.
    rewrite <- Nat.add_assoc. apply sider_start; auto; unfold start_events; cbn [w_t].
    + intros E1 E2. rewrite E1. replace (can_send t) with true; [lia|]. symmetry. apply can_send_iff; auto. left; lia.
    + intros E1. rewrite E1. unfold num_can_send, b_full. fold (sz t) (cp t).
      destruct (Nat.eqb_spec (sz t) (cp t)); cbn [negb]; lia.
Qed.

Lemma run_invr ko ki cap l : forall s, InvR ko ki cap s -> Forall (okstop ko ki) l -> InvR ko ki cap (w_run s l).
Proof.
  induction l as [|a l IH]; intros s I F; cbn; auto.
  inversion F; subst. apply IH; auto. destruct (w_step s a) eqn:E; auto. eapply step_invr; eauto.
Qed.

Lemma init_invr cap ko ki bu bc lr ls : 0 < cap -> InvR ko ki cap (w_init cap ko ki bu bc lr ls).
Proof.
  intro Hc. destruct (init_inv cap ko ki bu bc lr ls Hc) as [Iko Iki Icap Il Ip Ic Irr Irs Iwr Iws Ir Is].
  constructor; auto.
Qed.

Lemma no_lost_input_restart cap ko ki bu bc lr ls l :
  0 < cap -> ki <> SignalNone -> Forall (okstop ko ki) l ->
  let s := w_run (w_init cap ko ki bu bc lr ls) l in
  can_recv (w_t s) = true -> m_run (w_rcv s) = true ->
  m_pc (w_rcv s) <> Idle \/ 0 < m_ev (w_rcv s) \/ 0 < m_re (w_rcv s) \/ (exists c, m_pc (w_snd s) = Fire true c).
Proof.
  intros Hc Hk Hl s Hr Hn. pose proof (run_invr _ _ _ l _ (init_invr cap ko ki bu bc lr ls Hc) Hl) as I. fold s in I.
  destruct I as [Iko Iki Icap Il Ip Ic Iwr Iws Ir Is]. apply can_recv_iff in Hr. rewrite Hn in Ir. cbn [SideR] in Ir.
  destruct (m_pc (w_rcv s)) eqn:E; try (left; discriminate).
  right. apply side_idle in Ir; [|congruence|lia].
  destruct (m_pc (w_snd s)) eqn:E2; cbn [firing] in Ir; try lia.
  destruct b; [eauto|lia].
Qed.

Lemma no_lost_output_restart cap ko ki bu bc lr ls l :
  0 < cap -> ko <> SignalNone -> Forall (okstop ko ki) l ->
  let s := w_run (w_init cap ko ki bu bc lr ls) l in
  b_full (t_q (w_t s)) = false -> m_run (w_snd s) = true ->
  m_pc (w_snd s) <> Idle \/ 0 < m_ev (w_snd s) \/ 0 < m_re (w_snd s) \/ (exists c, m_pc (w_rcv s) = Fire true c).
Proof.
  intros Hc Hk Hl s Hr Hn. pose proof (run_invr _ _ _ l _ (init_invr cap ko ki bu bc lr ls Hc) Hl) as I. fold s in I.
  destruct I as [Iko Iki Icap Il Ip Ic Iwr Iws Ir Is]. rewrite Hn in Is. cbn [SideR] in Is.
  unfold b_full in Hr. apply Nat.eqb_neq in Hr. fold (sz (w_t s)) (cp (w_t s)) in Hr.
  destruct (m_pc (w_snd s)) eqn:E; try (left; discriminate).
  right. apply side_idle in Is; [|congruence|lia].
  destruct (m_pc (w_rcv s)) eqn:E2; cbn [firing] in Is; try lia.
  destruct b; [eauto|lia].
Qed.
