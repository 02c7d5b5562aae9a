(* Proofs about the closing of a connection (property C73). *)
From Verif Require Import Common TransportSpec TransportModel TransportProofs WakeProofs CloseSpec CloseModel.

Arguments lt_confirm : simpl never.

Section P.
Context {X : Type}.
Implicit Types (t : lt X) (l : list X) (s : csys X).

(* ---- views of the queue operations ---- *)
Lemma send_sig t x t' sk f : t_inpconn t = true -> lt_send t x = Some (t', sk, f) ->
  t_siginp t' = fst (sigswitch (t_inpkind t) (t_siginp t)) /\ f = snd (sigswitch (t_inpkind t) (t_siginp t)) /\
  t_inpkind t' = t_inpkind t.
Proof.
  intros Hi. unfold lt_send.
  destruct (if b_full (t_q t) && negb (t_blocking t)
     then let '(_, q, s) := bq_pop (t_q t) in (q, s) else (t_q t, None)) as [q1 skip].
  destruct (bq_push q1 (Some x)) as [[[ok q2] mine] lost]. destruct mine; [discriminate|].
  destruct (signal_inp (if t_sigout (set_q t q2) =? 2 then set_sigout (set_q t q2) 3 else set_q t q2)) as [t3 g] eqn:E3.
  intro H; inversion H; subst. revert E3. unfold signal_inp, sigswitch. destruct t as [a b c d e g1 h i j]. simpl in *. subst.
  destruct (c =? 2); cbn; destruct d; cbn; try destruct (e =? 3); cbn; intro E3; inversion E3; subst; cbn; auto.
Qed.

Lemma recv_sig t t' x f : lt_recv t = (t', x, f) ->
  t_siginp t' = (if t_siginp t =? 2 then 3 else t_siginp t) /\ t_inpkind t' = t_inpkind t.
Proof.
  unfold lt_recv. destruct (bq_pop (t_q t)) as [[ok q2] y].
  destruct (signal_out (if t_siginp (set_q t q2) =? 2 then set_siginp (set_q t q2) 3 else set_q t q2)) as [t3 g] eqn:E3.
  intro H; inversion H; subst. revert E3. unfold signal_out. destruct t as [a b c d e g1 h i j]. simpl in *.
  destruct (e =? 2); cbn; destruct b; cbn; try destruct (c =? 3); cbn; intro E3; inversion E3; subst; cbn; auto.
Qed.

(* what stays *)
Definition stat t t' : Prop := t_inpkind t' = t_inpkind t /\ same_conf t t'.

Lemma send_v t l x : TRep t l -> t_inpconn t = true -> length l < b_cap (t_q t) ->
  exists t' f, lt_send t x = Some (t', None, f) /\ TRep t' (l ++ [x]) /\ stat t t' /\
    t_siginp t' = fst (sigswitch (t_inpkind t) (t_siginp t)) /\ f = snd (sigswitch (t_inpkind t) (t_siginp t)).
Proof.
  intros R Hi Hl. pose proof (lt_send_spec t l x R ltac:(lia)) as H.
  assert (El : (length l =? b_cap (t_q t)) = false) by (apply Nat.eqb_neq; lia). rewrite El in H. cbn [andb] in H.
  destruct H as (t' & f & E & R' & C). exists t', f.
  destruct (send_sig _ _ _ _ _ Hi E) as (S1 & S2 & S3).
  split; [auto|]. split; [|unfold stat; auto].
  unfold newest in R'. rewrite app_length in R'. cbn [length] in R'.
  replace (length l + 1 - b_cap (t_q t)) with 0 in R' by lia. exact R'.
Qed.

Lemma recv_v t l : TRep t l ->
  exists t' f, lt_recv t = (t', hd_error l, f) /\ TRep t' (tl l) /\ stat t t' /\
    t_siginp t' = (if t_siginp t =? 2 then 3 else t_siginp t).
Proof.
  intros R. destruct (lt_recv_spec t l R) as (t' & f & E & R' & C). exists t', f.
  destruct (recv_sig _ _ _ _ E) as (S1 & S2). unfold stat. auto.
Qed.

Lemma confirm_v t l : TRep t l ->
  TRep (lt_confirm t false) l /\ stat t (lt_confirm t false) /\
  t_siginp (lt_confirm t false) =
    match t_inpkind t with SignalConfirm => if length l =? 0 then 3 else 2 | _ => t_siginp t end.
Proof.
  intros R. pose proof (br_size _ _ R) as Rs. rewrite map_length in Rs.
  unfold lt_confirm, b_empty. rewrite Rs. destruct (t_inpkind t) eqn:E; unfold stat, same_conf; cbn; auto 10.
Qed.

Lemma can_recv_v t l : TRep t l -> can_recv t = negb (length l =? 0).
Proof.
  intros R. pose proof (br_size _ _ R) as Rs. rewrite map_length in Rs.
  unfold can_recv, b_empty. rewrite Rs. reflexivity.
Qed.

Lemma somes_map l : somes (map Some l) = l.
Proof. induction l; simpl; congruence. Qed.

Lemma clean_v t l : TRep t l ->
  exists q, bq_cleanup_m (S (S (b_size (t_q t)))) (t_q t) = Ok (map Some l, q) /\ BRep q [] /\ b_cap q = b_cap (t_q t).
Proof.
  intros R. pose proof (br_size _ _ R) as Rs. rewrite map_length in Rs.
  apply bq_cleanup_m_ok; auto.
  - rewrite map_length. lia.
  - clear. induction l; simpl; auto.
Qed.

Lemma queue_v s l : TRep (c_t s) l -> c_queue s = map Some l.
Proof.
  intros R. unfold c_queue.
  exact (flight_ok (mkP (c_t s) false [] [] []) l R).
Qed.

(* ---- any receiver ---- *)
Definition closing (p : cpc) : bool := match p with CDisc | CClean | CAfter => true | _ => false end.
Definition gone (p : spc) : bool := match p with SGone => true | _ => false end.
Definition out_up (p : spc) : bool := match p with SReady _ | SFire _ => true | _ => false end.

(* queue contents, capacity, connection flags, events, threads, logs *)
Record GI (cap : nat) (s : csys X) (l : list X) : Prop := {
  g_rep : TRep (c_t s) l;
  g_cap : b_cap (t_q (c_t s)) = cap;
  g_pos : 0 < cap;
  g_blk : t_block_conn (c_t s) = true;
  g_ok : c_snd s = SReady true -> length l < cap;
  g_out : t_outconn (c_t s) = out_up (c_snd s);
  g_inp : t_inpconn (c_t s) = false -> c_snd s = SGone;
  g_evd : In EvDisc (c_ev s) -> c_snd s = SGone;
  g_pcd : closing (c_pc s) = true -> c_snd s = SGone;
  g_log : c_sent s = c_recv s ++ l ++ c_lost s;
  g_los : c_lost s = [] \/ l = [] /\ c_snd s = SGone }.

Lemma gi_init cap ko ki bu : 0 < cap -> GI cap (c_init cap ko ki bu) [].
Proof.
  intros H. constructor; cbn; auto; try discriminate; try tauto.
  - apply brep_new.
  - unfold b_cap, bq_new. cbn. apply repeat_length.
Qed.

Context (pol : policy) (ls : nat) (ans : list X -> bool).
Notation step := (c_step pol ls ans).
Notation exec := (c_exec pol ls ans).

Lemma blk t : t_inpconn t = true -> t_outconn t = true -> t_block_conn t = true -> t_blocking t = true.
Proof. unfold t_blocking. intros -> -> ->. reflexivity. Qed.

Lemma gi_snd cap s l a s' : GI cap s l -> snd_step s a = Some s' -> exists l', GI cap s' l'.
Proof.
  intros [R C P B K O I E D L Z] H. unfold snd_step in H.
  destruct a; try discriminate; destruct (c_snd s) as [ok|b| |] eqn:Es; try discriminate.
  - (* Ask *) injection H as <-. destruct Z as [Z|[_ Z]]; [|discriminate].
    exists l. constructor; cbn; auto;
      try (intros HH; first [discriminate (I HH) | discriminate (E HH) | discriminate (D HH)]).
    intros E2. injection E2 as E2. rewrite (can_send_spec _ _ R) in E2 by lia.
    assert (Hi : t_inpconn (c_t s) = true) by (destruct (t_inpconn (c_t s)); [reflexivity|discriminate (I eq_refl)]).
    rewrite (blk _ Hi O B), andb_true_r in E2. apply negb_true_iff, Nat.eqb_neq in E2.
    pose proof (br_size _ _ R) as Rs. rewrite map_length in Rs. pose proof (br_le _ _ R). lia.
  - (* Put *) destruct ok; [|discriminate].
    assert (Hi : t_inpconn (c_t s) = true) by (destruct (t_inpconn (c_t s)); [reflexivity|discriminate (I eq_refl)]).
    destruct (send_v (c_t s) l x R Hi) as (t' & f & E1 & R' & (S1 & S2 & S3 & S4 & S5 & S6) & S7 & S8); [rewrite C; auto|].
    rewrite E1 in H. injection H as <-. destruct Z as [Z|[_ Z]]; [|discriminate].
    exists (l ++ [x]). constructor; cbn; rewrite ?app_nil_r; auto; try congruence;
      try (intros HH; first [discriminate (E HH) | discriminate (D HH)]).
    + rewrite S4. exact O.
    + rewrite L, Z, !app_nil_r, <- !app_assoc. reflexivity.
  - (* Fire, after Send *) injection H as <-. destruct Z as [Z|[_ Z]]; [|discriminate].
    exists l. destruct b; constructor; cbn; auto; try discriminate;
      try (intros HH; specialize (I HH); discriminate);
      try (intros HH; specialize (D HH); discriminate).
    + intros HH. apply in_app_or in HH as [HH|[HH|[]]]; [specialize (E HH)|]; discriminate.
    + intros HH; specialize (E HH); discriminate.
  - (* Fire, after Disconnect *) injection H as <-. destruct Z as [Z|[_ Z]]; [|discriminate].
    exists l. constructor; cbn; auto; try discriminate.
  - (* Close *) injection H as <-. destruct Z as [Z|[_ Z]]; [|discriminate].
    exists l. constructor; cbn; auto; try discriminate;
      intros HH; first [discriminate (I HH) | discriminate (E HH) | discriminate (D HH)].
Qed.

Lemma gi_take cap s l s' : GI cap s l -> take_step ls s = Some s' -> GI cap s' l.
Proof.
  intros [R C P B K O I E D L Z] H. unfold take_step in H.
  destruct (c_pc s); try discriminate. destruct (c_ev s) as [|e r]; [discriminate|].
  injection H as <-. constructor; cbn; auto.
  - intros HH. apply E. now right.
  - destruct e; try (destruct (c_run s); discriminate). intros _. apply E. now left.
Qed.

Lemma gi_rcv cap s l s' : GI cap s l -> rcv_step pol ls ans s = Some s' -> exists l', GI cap s' l'.
Proof.
  intros [R C P B K O I E D L Z] H. unfold rcv_step in H. destruct (c_pc s) eqn:Ep; try discriminate; cbn [closing] in D.
  - (* CConfirm *) injection H as <-. destruct (confirm_v _ _ R) as (R' & (S1 & S2 & S3 & S4 & S5 & S6) & _).
    set (u := lt_confirm (c_t s) false) in *. clearbody u.
    exists l. constructor; cbn; rewrite ?S2, ?S3, ?S4, ?S6; auto; try discriminate.
  - (* CCheck *) injection H as <-. exists l. constructor; cbn; auto. destruct (c_run s && can_recv (c_t s)); discriminate.
  - (* CWork *) destruct (recv_v _ _ R) as (t' & f & E1 & R' & (S1 & S2 & S3 & S4 & S5 & S6) & S7).
    rewrite E1 in H. injection H as <-. exists (tl l). constructor; cbn; auto; try congruence.
    + intros HH. specialize (K HH). destruct l; simpl in *; lia.
    + rewrite S3. auto.
    + destruct (ans _); discriminate.
    + rewrite L. destruct l; cbn; rewrite ?app_nil_r, <- ?app_assoc; reflexivity.
    + destruct Z as [Z|[Z1 Z2]]; [auto|right]. subst l. auto.
  - (* CNext *) injection H as <-. exists l. constructor; cbn; auto. destruct (c <? 0)%Z; [discriminate|]. destruct (c =? 0)%Z; discriminate.
  - (* CReinj *) injection H as <-. exists l. constructor; cbn; auto; try discriminate.
    intros HH. apply in_app_or in HH as [HH|[HH|[]]]; [auto|discriminate].
  - (* CDisc *) specialize (D eq_refl). destruct (try_next pol) as [[p st] de]. 
    destruct p; destruct st; destruct de; injection H as <-; exists l; constructor; cbn; auto.
  - (* CClean *) specialize (D eq_refl). rewrite O, D in H. cbn [out_up] in H.
    destruct (clean_v _ _ R) as (q & E1 & R' & C'). rewrite E1 in H. injection H as <-.
    exists []. constructor; cbn; auto; try congruence.
    rewrite L, somes_map. destruct Z as [Z|[Z1 Z2]]; [rewrite Z, app_nil_r; reflexivity|].
    subst l. rewrite app_nil_r. reflexivity.
  - (* CAfter *) specialize (D eq_refl). injection H as <-. exists l. destruct (auto_stop pol); constructor; cbn; auto; discriminate.
Qed.

Lemma gi_step cap s l a s' : GI cap s l -> step s a = Some s' -> exists l', GI cap s' l'.
Proof.
  intros G H. unfold c_step in H. destruct (c_dead s); [discriminate|].
  destruct a; try (eapply gi_snd; eauto; fail).
  - exists l. eapply gi_take; eauto.
  - eapply gi_rcv; eauto.
Qed.

Lemma gi_exec cap acts : forall s l, GI cap s l -> exists l', GI cap (exec s acts) l'.
Proof.
  induction acts as [|a r IH]; intros s l G; cbn [c_exec]; [eauto|].
  destruct (step s a) as [s1|] eqn:E; [|eauto].
  destruct (gi_step _ _ _ _ _ G E) as (l1 & G1). eauto.
Qed.


(* ---- a receiver that takes what it finds ---- *)
Fixpoint nin (l : list cev) : nat := match l with [] => 0 | EvIn :: r => S (nin r) | _ :: r => nin r end.
Definition fires (p : spc) : nat := match p with SFire true => 1 | _ => 0 end.

(* no input event behind the disconnect event *)
Fixpoint ordered (l : list cev) : Prop :=
  match l with [] => True | EvDisc :: r => nin r = 0 | _ :: r => ordered r end.

Lemma nin_app a b : nin (a ++ b) = nin a + nin b.
Proof. induction a as [|[]]; simpl; lia. Qed.

Lemma ordered_in (l : list cev) : ~ In EvDisc l -> ordered l.
Proof. induction l as [|[] l IH]; simpl; intuition. Qed.

Lemma ordered_re (l : list cev) e : e <> EvIn -> ordered l -> ordered (l ++ [e]).
Proof.
  intros He. induction l as [|[] l IH]; simpl; auto.
  - destruct e; simpl; congruence.
  - rewrite nin_app. intros ->. destruct e; simpl; congruence.
Qed.

(* [pend] input events fired or about to be, [n] buffers in the queue; [L] loop
   length *)
Definition Side (cap : nat) (L : Z) (k : sigkind) (sig : nat) (p : cpc) (pend n : nat) : Prop :=
  match k with
  | SignalNone => False
  | SignalEvery =>
    n <= pend + match p with CConfirm | CCheck _ | CWork _ => 1 | _ => 0 end /\
    match p with CCheck c | CNext c => (c < 0)%Z | CWork c => (c < 0)%Z /\ 1 <= n | CReinj => False | _ => True end
  | _ =>
    1 <= sig <= 3 /\ (sig = 1 -> 1 <= pend + match p with CConfirm => 1 | _ => 0 end) /\
    (sig = 2 -> 1 <= n) /\ (k = SignalOperation -> 2 <= sig) /\
    match p with
    | CIdle => pend = 0 -> n = 0
    | CConfirm => True
    | CWork c => 1 <= n /\ (0 <= c <= L)%Z /\ (pend = 0 -> (Z.of_nat n + (L - c) <= Z.of_nat cap)%Z /\ (sig = 3 \/ c = L))
    | CCheck c => (0 <= c <= L)%Z /\ (pend = 0 -> (Z.of_nat n + (L - c) <= Z.of_nat cap)%Z /\ (sig = 3 \/ c = L))
    | CNext c => (0 <= c <= L)%Z /\ (pend = 0 -> (Z.of_nat n + (L - c) + 1 <= Z.of_nat cap)%Z /\ sig = 3)
    | CReinj => 1 <= pend
    | _ => False
    end
  end.

Ltac sd := unfold Side, sigswitch in *;
  match goal with |- context [match ?k with SignalNone => _ | _ => _ end] => destruct k end;
  cbn [fst snd] in *; try tauto; intuition (try lia; try congruence).

Lemma sd_take cap L k sig pend n : Side cap L k sig CIdle (S pend) n -> Side cap L k sig CConfirm pend n.
Proof. sd. Qed.

Lemma sd_takere cap L k sig pend n : match k with SignalEvery => (L < 0)%Z | _ => (0 <= L)%Z end ->
  n <= cap -> Side cap L k sig CIdle pend n -> Side cap L k sig (CCheck L) pend n.
Proof. intros. sd. Qed.

Lemma sd_confirm cap L k sig pend n : match k with SignalEvery => (L < 0)%Z | _ => (0 <= L)%Z end -> n <= cap ->
  Side cap L k sig CConfirm pend n ->
  Side cap L k (match k with SignalConfirm => if n =? 0 then 3 else 2 | _ => sig end) (CCheck L) pend n.
Proof. intros. destruct (Nat.eqb_spec n 0); sd. Qed.

Lemma sd_check_t cap L k sig c pend n : n <> 0 -> Side cap L k sig (CCheck c) pend n -> Side cap L k sig (CWork c) pend n.
Proof. intros. sd. Qed.

Lemma sd_check_f cap L k sig c pend : Side cap L k sig (CCheck c) pend 0 -> Side cap L k sig CIdle pend 0.
Proof. sd. Qed.

Lemma sd_work cap L k sig c pend n : Side cap L k sig (CWork c) pend (S n) ->
  Side cap L k (if sig =? 2 then 3 else sig) (CNext c) pend n.
Proof. intros. destruct (Nat.eqb_spec sig 2); sd. Qed.

Lemma sd_next cap L k sig c pend n : match k with SignalEvery => True | _ => (Z.of_nat cap <= L)%Z end ->
  Side cap L k sig (CNext c) pend n ->
  Side cap L k sig (if (c <? 0)%Z then CIdle else if (c =? 0)%Z then CReinj else CCheck (c - 1)%Z) pend n.
Proof.
  intros. destruct (Z.ltb_spec c 0); [sd|]. destruct (Z.eqb_spec c 0).
  - sd.
  - sd.
Qed.

Lemma sd_reinj cap L k sig pend n : Side cap L k sig CReinj pend n -> Side cap L k sig CIdle pend n.
Proof. sd. Qed.

Lemma sd_send cap L k sig p pend n : n < cap -> Side cap L k sig p pend n ->
  Side cap L k (fst (sigswitch k sig)) p (pend + (if snd (sigswitch k sig) then 1 else 0)) (S n).
Proof.
  intros. destruct k; unfold sigswitch in *; try destruct (Nat.eqb_spec sig 3); cbn [fst snd] in *;
  unfold Side in *; destruct p; intuition (try lia; try congruence).
Qed.

Definition pend s : nat := nin (c_ev s) + fires (c_snd s).

Definition big (cap : nat) (k : sigkind) : Prop :=
  k <> SignalNone /\ (k = SignalEvery \/ ls = 0 \/ cap <= ls).

Lemma big_loop cap k : big cap k ->
  match k with SignalEvery => (max_loop k ls cap < 0)%Z | _ => (0 <= max_loop k ls cap)%Z end /\
  match k with SignalEvery => True | _ => (Z.of_nat cap <= max_loop k ls cap)%Z end.
Proof.
  intros [H1 H2]. destruct k; try congruence; unfold max_loop; try (split; [lia|auto]);
  destruct (Nat.eqb_spec ls 0); split; try lia; intuition (try discriminate; try lia).
Qed.

(* before and after the disconnect event was taken *)
Definition EA (cap : nat) (s : csys X) (l : list X) : Prop :=
  c_run s = true /\ t_inpconn (c_t s) = true /\ c_dead s = false /\ c_lost s = [] /\ ordered (c_ev s) /\
  big cap (t_inpkind (c_t s)) /\
  Side cap (max_loop (t_inpkind (c_t s)) ls cap) (t_inpkind (c_t s)) (t_siginp (c_t s)) (c_pc s) (pend s) (length l) /\
  closing (c_pc s) = false.

Definition EB (s : csys X) (l : list X) : Prop :=
  c_snd s = SGone /\ nin (c_ev s) = 0 /\ l = [] /\ c_lost s = [].

Definition EI cap s l : Prop := EA cap s l \/ EB s l.

Lemma len_cap cap s l : GI cap s l -> length l <= cap.
Proof.
  intros [R C P _ _ _ _ _ _ _ _]. pose proof (br_size _ _ R) as Rs. rewrite map_length in Rs.
  pose proof (br_le _ _ R). lia.
Qed.

Lemma trep_uniq t l l' : TRep t l -> TRep t l' -> l = l'.
Proof.
  intros R R'. pose proof (queue_v (mkC t [] CIdle true false SGone [] [] []) l R) as A.
  pose proof (queue_v (mkC t [] CIdle true false SGone [] [] []) l' R') as B. rewrite A in B.
  rewrite <- (somes_map l), <- (somes_map l'). congruence.
Qed.

Lemma ea_snd cap s l a s' l' : GI cap s l -> EA cap s l -> snd_step s a = Some s' -> GI cap s' l' -> EA cap s' l'.
Proof.
  intros G (A1 & A2 & A3 & A4 & A5 & A6 & A7 & A8) H G'. pose proof (g_rep _ _ _ G) as R. pose proof (g_rep _ _ _ G') as R'.
  unfold snd_step in H. unfold EA, pend in *.
  destruct a; try discriminate; destruct (c_snd s) as [ok|b| |] eqn:Es; try discriminate.
  - injection H as <-. cbn in *. rewrite <- (trep_uniq _ _ _ R R'). auto 10.
  - destruct ok; [|discriminate].
    destruct (send_v (c_t s) l x R A2) as (t' & f & E1 & R1 & (S1 & S2 & S3 & S4 & S5 & S6) & S7 & S8).
    { rewrite (g_cap _ _ _ G). apply (g_ok _ _ _ G). auto. }
    rewrite E1 in H. injection H as <-. cbn in *. rewrite (trep_uniq _ _ _ R' R1), S1, S3, S7, app_length, A4.
    cbn [length opt_list app]. split; [auto|]. split; [auto|]. split; [auto|]. split; [auto|]. split; [auto|]. split; [auto|].
    split; [|auto]. replace (length l + 1) with (S (length l)) by lia.
    replace (nin (c_ev s) + match f with true => 1 | false => 0 end)
      with ((nin (c_ev s) + 0) + if snd (sigswitch (t_inpkind (c_t s)) (t_siginp (c_t s))) then 1 else 0) by (rewrite <- S8; destruct f; lia).
    apply sd_send; auto. apply (g_ok _ _ _ G). auto.
  - injection H as <-. rewrite (trep_uniq _ _ _ R' (ltac:(destruct b; exact R))).
    destruct b; cbn in *; [|auto 10]. rewrite nin_app. cbn [nin].
    split; [auto|]. split; [auto|]. split; [auto|]. split; [auto|]. split.
    { apply ordered_in. intros HH. apply in_app_or in HH as [HH|[HH|[]]]; [|discriminate].
      pose proof (g_evd _ _ _ G HH). congruence. }
    split; [auto|]. split; [|auto]. replace (nin (c_ev s) + 1 + 0) with (nin (c_ev s) + 1) by lia. auto.
  - injection H as <-. cbn in *. rewrite <- (trep_uniq _ _ _ R R'). rewrite nin_app. cbn [nin].
    replace (nin (c_ev s) + 0 + 0) with (nin (c_ev s) + 0) by lia.
    split; [auto|]. split; [auto|]. split; [auto|]. split; [auto|]. split; [|auto].
    apply ordered_re; [discriminate|auto].
  - injection H as <-. cbn in *. rewrite <- (trep_uniq (c_t s) l l' R R'). auto 10.
Qed.

Lemma e_take cap s l s' : GI cap s l -> EI cap s l -> take_step ls s = Some s' -> EI cap s' l.
Proof.
  intros G H H1. unfold take_step in H1. destruct (c_pc s) eqn:Ep; try discriminate.
  destruct (c_ev s) as [|e r] eqn:Ee; [discriminate|]. injection H1 as <-. destruct H as [H|H].
  - destruct H as (A1 & A2 & A3 & A4 & A5 & A6 & A7 & A8). rewrite Ep, Ee in *. rewrite A1.
    unfold pend in A7. rewrite Ee in A7. destruct (big_loop _ _ A6) as (B1 & B2).
    pose proof (len_cap _ _ _ G) as Hl. unfold c_loop. rewrite (g_cap _ _ _ G).
    destruct e; cbn [nin ordered] in *.
    + left. unfold EA, pend. cbn. auto 10 using sd_take.
    + left. unfold EA, pend. cbn. auto 10 using sd_takere.
    + right. pose proof (g_evd _ _ _ G) as HE. rewrite Ee in HE. specialize (HE (or_introl eq_refl)).
      unfold EB. cbn. repeat split; auto. rewrite HE, A5 in A7. cbn in A7.
      destruct l; auto. exfalso. unfold Side in A7. destruct A6 as [A6 _].
      destruct (t_inpkind (c_t s)); cbn in A7; intuition (try lia; try discriminate).
  - right. destruct H as (A1 & A2 & A3 & A4). unfold EB. cbn. rewrite Ee in A2.
    destruct e; cbn in A2; try discriminate; auto.
Qed.

Lemma e_rcv cap s l s' l' : (forall r, ans r = true) -> GI cap s l -> EI cap s l -> rcv_step pol ls ans s = Some s' -> GI cap s' l' -> EI cap s' l'.
Proof.
  intros Hans G H H1 G'. pose proof (g_rep _ _ _ G) as R. pose proof (g_rep _ _ _ G') as R'.
  pose proof (len_cap _ _ _ G) as Hl. unfold rcv_step in H1. destruct H as [H|H].
  - left. destruct H as (A1 & A2 & A3 & A4 & A5 & A6 & A7 & A8). destruct (big_loop _ _ A6) as (B1 & B2).
    unfold EA, pend in *. destruct (c_pc s) eqn:Ep; try discriminate.
    + (* CConfirm *) destruct (confirm_v _ _ R) as (R1 & (S1 & S2 & S3 & S4 & S5 & S6) & S7). 
      injection H1 as <-. cbn in *. rewrite (trep_uniq _ _ _ R' R1), S1, S3, S7. unfold c_loop. rewrite (g_cap _ _ _ G).
      auto 12 using sd_confirm.
    + (* CCheck *) injection H1 as <-. cbn in *. rewrite <- (trep_uniq _ _ _ R R'), A1, (can_recv_v _ _ R). cbn [andb].
      destruct (Nat.eqb_spec (length l) 0) as [E0|E0]; cbn [negb].
      * rewrite E0 in *. eauto 12 using sd_check_f.
      * auto 12 using sd_check_t.
    + (* CWork *) destruct (recv_v _ _ R) as (t' & f & E1 & R1 & (S1 & S2 & S3 & S4 & S5 & S6) & S7).
      rewrite E1, Hans in H1. injection H1 as <-. cbn in *. rewrite (trep_uniq _ _ _ R' R1), S1, S3, S7.
      destruct l as [|x l].
      * exfalso. revert A7. clear. unfold Side. cbn [length]. destruct (t_inpkind (c_t s)); intuition lia.
      * cbn [tl length] in *. auto 12 using sd_work.
    + (* CNext *) injection H1 as <-. cbn in *. rewrite <- (trep_uniq _ _ _ R R').
      split; [auto|]. split; [auto|]. split; [auto|]. split; [auto|]. split; [auto|]. split; [auto|].
      split; [apply sd_next; auto|]. destruct (c <? 0)%Z; [reflexivity|]. destruct (c =? 0)%Z; reflexivity.
    + (* CReinj *) injection H1 as <-. cbn in *. rewrite <- (trep_uniq _ _ _ R R'), nin_app. cbn [nin].
      replace (nin (c_ev s) + 0) with (nin (c_ev s)) by lia.
      split; [auto|]. split; [auto|]. split; [auto|]. split; [auto|]. split; [|eauto using sd_reinj].
      apply ordered_re; [discriminate|auto].
  - right. destruct H as (A1 & A2 & A3 & A4). subst l. unfold EB.
    destruct (c_pc s) eqn:Ep; try discriminate.
    + destruct (confirm_v _ _ R) as (R1 & _). injection H1 as <-. cbn in *. rewrite (trep_uniq _ _ _ R' R1). auto.
    + injection H1 as <-. cbn in *. rewrite <- (trep_uniq _ _ _ R R'). auto.
    + destruct (recv_v _ _ R) as (t' & f & E1 & R1 & _). rewrite E1 in H1. injection H1 as <-. cbn in *.
      rewrite (trep_uniq _ _ _ R' R1). auto.
    + injection H1 as <-. cbn in *. rewrite <- (trep_uniq _ _ _ R R'). auto.
    + injection H1 as <-. cbn in *. rewrite <- (trep_uniq _ _ _ R R'), nin_app, A2. auto.
    + assert (R1 : TRep (c_t s') []).
      { revert H1. destruct (try_next pol) as [[p st] de]. destruct p, st, de; intro H1; injection H1 as <-; exact R. }
      rewrite <- (trep_uniq _ _ _ R1 R').
      revert H1. destruct (try_next pol) as [[p st] de]. destruct p, st, de; intro H1; injection H1 as <-; cbn; auto.
    + destruct (t_outconn (c_t s)).
      * injection H1 as <-. cbn in *. rewrite <- (trep_uniq _ _ _ R R'). auto.
      * destruct (clean_v _ _ R) as (q & E1 & R1 & C1). rewrite E1 in H1. injection H1 as <-. cbn in *.
        rewrite (trep_uniq (set_q (c_t s) q) l' [] R' R1), A4. auto.
    + injection H1 as <-. assert (l' = []) as -> by (destruct (auto_stop pol); exact (trep_uniq _ _ _ R' R)).
      destruct (auto_stop pol); cbn; auto.
Qed.

Lemma e_step cap s l a s' : (forall r, ans r = true) -> GI cap s l -> EI cap s l -> step s a = Some s' -> exists l', GI cap s' l' /\ EI cap s' l'.
Proof.
  intros Hans G E H. destruct (gi_step _ _ _ _ _ G H) as (l' & G'). unfold c_step in H.
  destruct (c_dead s); [discriminate|].
  assert (SN : snd_step s a = Some s' -> exists l', GI cap s' l' /\ EI cap s' l').
  { intro H1. exists l'. split; [exact G'|]. destruct E as [E|E]; [left; exact (ea_snd _ _ _ _ _ _ G E H1 G')|].
    destruct E as (E & _). unfold snd_step in H1. rewrite E in H1. destruct a; discriminate. }
  destruct a; try exact (SN H).
  - exists l. split; [eapply gi_take|eapply e_take]; eauto.
  - exists l'. split; [auto|exact (e_rcv _ _ _ _ _ Hans G E H G')].
Qed.

Lemma e_exec cap acts : (forall r, ans r = true) -> forall s l, GI cap s l -> EI cap s l -> exists l', GI cap (exec s acts) l' /\ EI cap (exec s acts) l'.
Proof.
  intro Hans. induction acts as [|a r IH]; intros s l G E; cbn [c_exec]; [eauto|].
  destruct (step s a) as [s1|] eqn:H; [|eauto].
  destruct (e_step _ _ _ _ _ Hans G E H) as (l1 & G1 & E1). eauto.
Qed.

Lemma e_init cap ko ki bu : 0 < cap -> big cap ki -> EI cap (c_init cap ko ki bu) [].
Proof.
  intros Hc Hb. left. unfold EA, pend, Side. cbn. repeat split; auto; try apply Hb.
  destruct Hb as [Hb _]. destruct ki; try congruence; intuition (try lia; try congruence).
Qed.

Lemma rcv_some cap s l : GI cap s l -> rcv_step pol ls ans s = None -> c_pc s = CIdle.
Proof.
  intros G H. unfold rcv_step in H. destruct (c_pc s); auto; try discriminate.
  - destruct (lt_recv (c_t s)) as [[t1 x] f]. discriminate.
  - destruct (try_next pol) as [[p st] de]. discriminate.
  - destruct (t_outconn (c_t s)); [discriminate|].
    destruct (clean_v _ _ (g_rep _ _ _ G)) as (q & E & _). rewrite E in H. discriminate.
Qed.

Lemma quiet_all cap s l : GI cap s l -> EI cap s l -> c_quiet pol ls ans s -> c_recv s = c_sent s.
Proof.
  intros G E (Q1 & Q2 & Q3). rewrite (g_log _ _ _ G). destruct E as [E|(_ & _ & E1 & E2)].
  - destruct E as (A1 & A2 & A3 & A4 & A5 & A6 & A7 & A8). unfold c_step in *. rewrite A3 in *.
    pose proof (rcv_some _ _ _ G Q2) as Ep. unfold take_step in Q1. rewrite Ep in *.
    destruct (c_ev s) eqn:Ee; [|discriminate]. unfold pend in A7. rewrite Ee in A7.
    assert (F : fires (c_snd s) = 0) by (unfold snd_step in Q3; destruct (c_snd s) as [|[]| |]; auto; discriminate).
    rewrite F in A7. assert (N : length l = 0).
    { unfold Side in A7. cbn in A7. destruct (t_inpkind (c_t s)); intuition lia. }
    destruct l; [|discriminate]. rewrite A4, !app_nil_r. reflexivity.
  - rewrite E1, E2, !app_nil_r. reflexivity.
Qed.

(* ---- the threads come to an end, any receiver ---- *)
Definition wpc (p : cpc) : nat :=
  match p with CIdle => 0 | CConfirm => 3 | CCheck _ => 2 | CWork _ => 1 | CNext _ => 5 | CReinj => 4
  | CDisc => 3 | CClean => 2 | CAfter => 1 end.
Fixpoint wev (l : list cev) : nat :=
  match l with [] => 0 | EvIn :: r => 4 + wev r | EvRe :: r => 3 + wev r | EvDisc :: r => 4 + wev r end.
Definition wsnd (p : spc) : nat := match p with SFire _ | SClose => 5 | _ => 0 end.
Definition mu s (l : list X) : nat := 5 * length l + wpc (c_pc s) + wev (c_ev s) + wsnd (c_snd s).
Definition bound s : nat := 11 * length (c_sent s) + (if out_up (c_snd s) then 0 else 6).

Lemma wev_app a b : wev (a ++ b) = wev a + wev b.
Proof. induction a as [|[]]; simpl; lia. Qed.

Definition wk s (l : list X) : Prop := match c_pc s with CWork _ => l <> [] | _ => True end.

Lemma mu_step cap s l a s' l' : GI cap s l -> wk s l -> step s a = Some s' -> GI cap s' l' ->
  wk s' l' /\ (match a with Ask => 0 | _ => 1 end) + mu s' l' + bound s <= mu s l + bound s'.
Proof.
  intros G W H G'. pose proof (g_rep _ _ _ G) as R. pose proof (g_rep _ _ _ G') as R'.
  unfold c_step in H. destruct (c_dead s); [discriminate|]. unfold mu, bound, wk in *.
  assert (SN : forall d, snd_step s a = Some s' -> d <= 1 -> (a = Ask -> d = 0) ->
    match c_pc s' with CWork _ => l' <> [] | _ => True end /\
    d + (5 * length l' + wpc (c_pc s') + wev (c_ev s') + wsnd (c_snd s')) + (11 * length (c_sent s) + (if out_up (c_snd s) then 0 else 6))
     <= 5 * length l + wpc (c_pc s) + wev (c_ev s) + wsnd (c_snd s) + (11 * length (c_sent s') + (if out_up (c_snd s') then 0 else 6))).
  { intros d H1 Hd Ha. unfold snd_step in H1.
    destruct a; try discriminate; destruct (c_snd s) as [ok|b| |] eqn:Es; try discriminate.
    - injection H1 as <-. cbn [c_t up_snd] in R'. rewrite <- (trep_uniq _ _ _ R R'). cbn. rewrite Ha by auto. split; [auto|lia].
    - destruct ok; [|discriminate].
      assert (Hi : t_inpconn (c_t s) = true).
      { destruct (t_inpconn (c_t s)) eqn:Ei; [reflexivity|]. pose proof (g_inp _ _ _ G Ei). congruence. }
      destruct (send_v (c_t s) l x R Hi) as (t' & f & E1 & R1 & _).
      { rewrite (g_cap _ _ _ G). apply (g_ok _ _ _ G). auto. }
      rewrite E1 in H1. injection H1 as <-. cbn [c_t up_snd up_sent up_lost up_t] in R'. rewrite (trep_uniq _ _ _ R' R1). cbn.
      rewrite !app_length. cbn [length]. split; [|lia]. destruct (c_pc s); auto. destruct l; discriminate.
    - injection H1 as <-. assert (l' = l) as -> by (destruct b; exact (trep_uniq _ _ _ R' R)).
      destruct b; cbn; rewrite ?wev_app; cbn; split; auto; lia.
    - injection H1 as <-. cbn [c_t up_snd up_ev] in R'. rewrite <- (trep_uniq _ _ _ R R'). cbn. rewrite wev_app. cbn. split; [auto|lia].
    - injection H1 as <-. rewrite <- (trep_uniq (c_t s) l l' R R'). cbn. split; [auto|lia]. }
  destruct a; try (apply SN; [exact H|auto|discriminate || auto]; fail); clear SN.
  - (* Take *) unfold take_step in H. destruct (c_pc s); try discriminate. destruct (c_ev s) as [|e r]; [discriminate|].
    injection H as <-. cbn [c_t up_pc up_ev] in R'. rewrite <- (trep_uniq _ _ _ R R').
    destruct e; cbn; try destruct (c_run s); cbn; split; auto; lia.
  - (* Step *) unfold rcv_step in H. destruct (c_pc s) eqn:Ep; try discriminate.
    + injection H as <-. destruct (confirm_v _ _ R) as (R1 & _). cbn [c_t up_pc up_t] in R'. rewrite (trep_uniq _ _ _ R' R1).
      cbn. split; [auto|lia].
    + injection H as <-. cbn [c_t up_pc] in R'. rewrite <- (trep_uniq _ _ _ R R'), (can_recv_v _ _ R). cbn.
      destruct (c_run s); cbn; [|split; [auto|lia]]. destruct l; cbn; split; auto; try lia; discriminate.
    + destruct (recv_v _ _ R) as (t' & f & E1 & R1 & _). rewrite E1 in H. injection H as <-.
      cbn [c_t up_pc up_recv up_t] in R'. rewrite (trep_uniq _ _ _ R' R1). destruct l as [|x l]; [congruence|]. cbn.
      destruct (ans _); cbn; split; auto; lia.
    + injection H as <-. cbn [c_t up_pc] in R'. rewrite <- (trep_uniq _ _ _ R R'). cbn.
      destruct (c <? 0)%Z; cbn; [split; [auto|lia]|]. destruct (c =? 0)%Z; cbn; split; auto; lia.
    + injection H as <-. cbn [c_t up_pc up_ev] in R'. rewrite <- (trep_uniq _ _ _ R R'). cbn. rewrite wev_app. cbn. split; [auto|lia].
    + assert (R1 : TRep (c_t s') l).
      { revert H. destruct (try_next pol) as [[p st] de]. destruct p, st, de; intro H; injection H as <-; exact R. }
      rewrite <- (trep_uniq _ _ _ R1 R'). assert (T : fst (fst (try_next pol)) = CIdle \/ fst (fst (try_next pol)) = CAfter \/ fst (fst (try_next pol)) = CClean).
      { unfold try_next. destruct (po_req pol); auto. destruct (po_period pol && _); auto. destruct (po_onerr pol); auto. destruct (po_auto pol); auto. }
      destruct (try_next pol) as [[p st] de]. cbn [fst] in T.
      destruct T as [ -> | [ -> | -> ] ]; destruct st, de; injection H as <-; cbn; split; auto; lia.
    + destruct (t_outconn (c_t s)).
      * injection H as <-. cbn [c_t up_pc] in R'. rewrite <- (trep_uniq _ _ _ R R'). cbn. split; [auto|lia].
      * destruct (clean_v _ _ R) as (q & E1 & R1 & C1). rewrite E1 in H. injection H as <-. cbn [c_t up_pc up_lost up_t] in R'.
        rewrite (trep_uniq (set_q (c_t s) q) l' [] R' R1). cbn. split; [auto|lia].
    + injection H as <-. assert (l' = l) as -> by (destruct (auto_stop pol); exact (trep_uniq _ _ _ R' R)).
      destruct (auto_stop pol); cbn; split; auto; lia.
Qed.

Lemma mu_exec cap acts : forall s l, GI cap s l -> wk s l ->
  exists l', GI cap (exec s acts) l' /\ c_steps pol ls ans s acts + mu (exec s acts) l' + bound s <= mu s l + bound (exec s acts).
Proof.
  induction acts as [|a r IH]; intros s l G W; cbn [c_exec c_steps]; [exists l; split; [auto|lia]|].
  destruct (step s a) as [s1|] eqn:H; [|eauto].
  destruct (gi_step _ _ _ _ _ G H) as (l1 & G1). destruct (mu_step _ _ _ _ _ _ G W H G1) as (W1 & M1).
  destruct (IH _ _ G1 W1) as (l2 & G2 & M2). exists l2. split; [auto|lia].
Qed.

(* ---- a receiver that keeps its queue ---- *)
Lemma keep_step cap s l a s' : keeps pol = true -> GI cap s l -> c_pc s <> CClean -> c_lost s = [] -> step s a = Some s' ->
  c_pc s' <> CClean /\ c_lost s' = [].
Proof.
  intros Hk G Hp Hl H. unfold c_step in H. destruct (c_dead s); [discriminate|].
  assert (SN : snd_step s a = Some s' -> c_pc s' <> CClean /\ c_lost s' = []).
  { unfold snd_step. destruct a; try discriminate; destruct (c_snd s) as [ok|b| |] eqn:Es; try discriminate; intro H1;
      try (injection H1 as <-; try destruct b; cbn; auto; fail).
    destruct ok; [|discriminate].
    assert (Hi : t_inpconn (c_t s) = true).
    { destruct (t_inpconn (c_t s)) eqn:Ei; [reflexivity|]. pose proof (g_inp _ _ _ G Ei). congruence. }
    destruct (send_v (c_t s) l x (g_rep _ _ _ G) Hi) as (t' & f & E1 & _).
    { rewrite (g_cap _ _ _ G). apply (g_ok _ _ _ G). auto. }
    rewrite E1 in H1. injection H1 as <-. cbn. rewrite Hl. auto. }
  destruct a; try exact (SN H); clear SN.
  - unfold take_step in H. destruct (c_pc s); try discriminate. destruct (c_ev s) as [|e r]; [discriminate|].
    injection H as <-. cbn. split; [|auto]. destruct e; try destruct (c_run s); discriminate.
  - unfold rcv_step in H. destruct (c_pc s) eqn:Ep; try discriminate; try (injection H as <-; cbn; split; [discriminate|auto]; fail).
    + injection H as <-. cbn. destruct (c_run s && can_recv (c_t s)); split; auto; discriminate.
    + destruct (lt_recv (c_t s)) as [[t1 x] f]. injection H as <-. cbn. destruct (ans _); split; auto; discriminate.
    + injection H as <-. cbn. destruct (c <? 0)%Z; [split; auto; discriminate|]. destruct (c =? 0)%Z; split; auto; discriminate.
    + assert (T : fst (fst (try_next pol)) <> CClean).
      { revert Hk. unfold try_next, keeps. destruct (po_req pol); try discriminate.
        destruct (po_period pol && _); cbn; [discriminate|]. destruct (po_onerr pol); try discriminate. destruct (po_auto pol); discriminate. }
      destruct (try_next pol) as [[p st] de]. cbn [fst] in T.
      destruct p, st, de; injection H as <-; cbn; split; auto; try discriminate; congruence.
    + congruence.
    + injection H as <-. destruct (auto_stop pol); cbn; split; auto; discriminate.
Qed.

Lemma keep_exec cap acts : keeps pol = true -> forall s l, GI cap s l -> c_pc s <> CClean -> c_lost s = [] ->
  c_lost (exec s acts) = [].
Proof.
  intro Hk. induction acts as [|a r IH]; intros s l G Hp Hl; cbn [c_exec]; [auto|].
  destruct (step s a) as [s1|] eqn:H; [|eauto].
  destruct (keep_step _ _ _ _ _ Hk G Hp Hl H) as (Q1 & Q2). destruct (gi_step _ _ _ _ _ G H) as (l1 & G1). eauto.
Qed.

End P.
