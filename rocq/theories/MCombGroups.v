(* Proofs about the MBS event builder: invariants of runs, groups. *)
From Verif Require Import Common ListFacts Bytes MbsSpec MCombSpec MCombModel MCombProofs.
Local Open Scope N_scope.

(* ---- runs ---- *)

Definition op_env (Q : env -> Prop) (o : op) : Prop :=
  match o with Build e => Q e | Timer es _ => Forall Q es | _ => True end.

Section Run.
Context (c : conf) (Q : env -> Prop) (P : list op -> st -> Prop).
Context (Hok : forall pre s, P pre s -> Forall (in_ok c) (s_ins s)).
Context (Hpush : forall pre i b s, P pre s -> P (pre ++ [Push i b]) (set_ins (at_input i (add_buf b) (s_ins s)) s)).
Context (Hconn : forall pre i b s, P pre s -> P (pre ++ [Conn i b]) (set_ins (at_input i (set_conn b) (s_ins s)) s)).
Context (Hbuild : forall pre e s s' ok, Q e -> P pre s -> case c e s s' ok -> P pre s').
Context (Hflush : forall pre can s s' ok, P pre s -> flush can s = (s', ok) -> P pre s').
Context (Hflag : forall pre s, P pre s -> P pre (set_flag s)).
Context (Hb : forall pre e s, P pre s -> P (pre ++ [Build e]) s).
Context (Ht : forall pre es can s, P pre s -> P (pre ++ [Timer es can]) s).

Lemma build_total pre e s : Q e -> P pre s -> exists s' ok, build c e s = Ok (s', ok) /\ P pre s'.
Proof.
  intros q p. destruct (build_cases c e s (Hok _ _ p)) as (s' & ok & B & C). exists s', ok. split; auto. eapply Hbuild; eauto.
Qed.
Lemma builds_total pre es : forall s, Forall Q es -> P pre s -> exists s', builds c es s = Ok s' /\ P pre s'.
Proof.
  induction es as [|e es IH]; intros s q p; cbn [builds].
  - eauto.
  - inversion q as [|? ? q1 q2]; subst. destruct (build_total pre e s q1 p) as (s' & ok & B & p'). rewrite B. cbn.
    destruct ok; auto. eauto.
Qed.
Lemma timer_total pre es can s : Forall Q es -> P pre s -> exists s', timer c es can s = Ok s' /\ P pre s'.
Proof.
  intros q p. unfold timer. destruct (s_flag s); eauto.
  destruct (builds_total pre (firstn 100 es) s) as (s1 & B & p1); auto.
  { apply Forall_forall. intros x I. rewrite Forall_forall in q. apply q. eapply in_firstn; eauto. }
  rewrite B. cbn [bind]. destruct (flush can s1) as [s2 b] eqn:F. eexists. split; [reflexivity|]. apply Hflag. eapply Hflush; eauto.
Qed.
Lemma step_total pre o s : op_env Q o -> P pre s -> exists s', step c s o = Ok s' /\ P (pre ++ [o]) s'.
Proof.
  destruct o as [i b|i b|e|es can]; cbn [op_env step]; intros q p; eauto.
  - destruct (build_total pre e s q p) as (s' & ok & B & p'). rewrite B. cbn. eauto.
  - destruct (timer_total pre es can s q p) as (s' & B & p'). eauto.
Qed.
Lemma run_total ops : forall pre s, Forall (op_env Q) ops -> P pre s -> exists s', run c s ops = Ok s' /\ P (pre ++ ops) s'.
Proof.
  induction ops as [|o ops IH]; intros pre s q p; cbn [run].
  - rewrite app_nil_r. eauto.
  - inversion q as [|? ? q1 q2]; subst. destruct (step_total pre o s q1 p) as (s1 & S & p1). rewrite S. cbn [bind].
    destruct (IH _ _ q2 p1) as (s2 & R & p2). exists s2. split; auto. rewrite <- app_assoc in p2. exact p2.
Qed.
End Run.

(* ---- lists of inputs ---- *)

Lemma Forall2_nth {A B} (R : A -> B -> Prop) l m : Forall2 R l m -> forall i x, nth_error l i = Some x -> exists y, nth_error m i = Some y /\ R x y.
Proof. induction 1; intros [|i] z E; cbn in *; try discriminate; [injection E as <-; eauto|eauto]. Qed.
Lemma Forall2_nth' {A B} (R : A -> B -> Prop) l m : Forall2 R l m -> forall i y, nth_error m i = Some y -> exists x, nth_error l i = Some x /\ R x y.
Proof. induction 1; intros [|i] z E; cbn in *; try discriminate; [injection E as <-; eauto|eauto]. Qed.
Lemma Forall2_trans {A B C} (R : A -> B -> Prop) (S : B -> C -> Prop) l m n :
  Forall2 R l m -> Forall2 S m n -> Forall2 (fun x z => exists y, R x y /\ S y z) l n.
Proof. intros H. revert n. induction H; intros n K; inversion K; subst; constructor; eauto. Qed.
Lemma Forall2_weaken {A B} (R S : A -> B -> Prop) l m : (forall x y, R x y -> S x y) -> Forall2 R l m -> Forall2 S l m.
Proof. intros H. induction 1; constructor; auto. Qed.
Lemma Forall2_length {A B} (R : A -> B -> Prop) l m : Forall2 R l m -> length l = length m.
Proof. induction 1; cbn; congruence. Qed.
Lemma Forall2_map {A B C} (f : A -> C) (g : B -> C) l m : Forall2 (fun x y => g y = f x) l m -> map g m = map f l.
Proof. induction 1; cbn; congruence. Qed.

Lemma at_input_nth f l : forall i j, nth_error (at_input i f l) j = if Nat.eqb i j then option_map f (nth_error l j) else nth_error l j.
Proof.
  induction l as [|p l IH]; intros [|i] [|j]; cbn; auto. all: try (destruct (Nat.eqb i j); reflexivity). all: destruct j; reflexivity.
Qed.
Lemma at_input_Forall (P : inp -> Prop) f l i : (forall p, P p -> P (f p)) -> Forall P l -> Forall P (at_input i f l).
Proof. intros H. intros K. revert i. induction K; intros [|i]; cbn; constructor; auto. Qed.
Lemma at_input_map {A} (g : inp -> A) f l i : (forall p, g (f p) = g p) -> map g (at_input i f l) = map g l.
Proof. intros H. revert i. induction l; intros [|i]; cbn; auto; congruence. Qed.

(* ---- received ---- *)

Lemma received_app i a b : received i (a ++ b) = received i a ++ received i b.
Proof.
  induction a as [|o a IH]; cbn; auto. destruct o as [j [l|]|j on|e|es can]; auto.
  destruct (Nat.eqb j i); auto. rewrite IH, app_assoc. reflexivity.
Qed.
Lemma received_push i j b : received i [Push j b] = if Nat.eqb j i then events_of b else [].
Proof. destruct b; cbn; destruct (Nat.eqb j i); auto. rewrite app_nil_r. auto. Qed.

Lemma add_buf_pending b p : (p_it p <> None -> p_queue p <> []) -> pending (add_buf b p) = pending p ++ events_of b.
Proof.
  unfold pending, add_buf. cbn. destruct (p_it p) as [[e r]|]; intros H.
  - destruct (p_queue p) as [|x q]; [exfalso; apply H; auto; discriminate|]. cbn. rewrite map_app, concat_app. cbn. rewrite app_nil_r, <- app_assoc. reflexivity.
  - rewrite map_app, concat_app. cbn. rewrite app_nil_r. reflexivity.
Qed.

(* ---- one call, all inputs ---- *)

Section G.
Context (c : conf).

(* progress of one input *)
Definition moved (p p' : inp) (sk : list mevent) : Prop :=
  in_ok c p' /\ p_cfg p' = p_cfg p /\ p_conn p' = p_conn p /\ p_done p' ++ pending p' = p_done p ++ pending p /\ p_done p' = p_done p ++ sk.

Lemma looked_moved p p' : looked c p p' -> exists sk, moved p p' sk /\ unnumbered c (p_cfg p) sk.
Proof. intros (A & B & C & D & (sk & E & F) & G). exists sk. repeat split; auto. Qed.
Lemma same_moved p p' : in_ok c p -> same_in p p' -> moved p p' [].
Proof.
  intros K S. repeat split; try apply S.
  - eapply same_ok; eauto.
  - rewrite (same_pending _ _ S), (same_done _ _ S). auto.
  - rewrite app_nil_r. apply S.
Qed.
Lemma moved_trans p q r a b : moved p q a -> moved q r b -> moved p r (a ++ b).
Proof.
  intros (_ & A1 & A2 & A3 & A4) (B0 & B1 & B2 & B3 & B4). repeat split; auto; try congruence. rewrite B4, A4, app_assoc. reflexivity.
Qed.

(* the inputs before the selection, with it, and after *)
Lemma selected_inputs s l l2 now mf : Forall2 (looked c) (s_ins s) l -> entry c now mf l -> chosen c l l2 ->
  Forall2 (fun p p2 => exists p1, looked c p p1 /\ same_in p1 p2) (s_ins s) l2 /\ Forall (in_ok c) l2 /\ Forall sel_ok l2 /\
  exists p, In p l2 /\ p_sel p = true /\ g_nonum (p_cfg p) = false.
Proof.
  intros L (K & Z) C.
  destruct (chosen_facts c l l2 K ltac:(eapply Forall_impl; [|exact Z]; cbn; tauto) C) as (S & O & X).
  split; [|split; [|split; auto]].
  - eapply Forall2_weaken; [|eapply Forall2_trans; [exact L|exact S]]. cbn. auto.
  - clear - K S. induction S; inversion K; subst; constructor; auto. eapply same_ok; eauto.
Qed.

Definition took (g : group) (p : inp) (i : nat) (sk : list mevent) : Prop :=
  match nth_error g i with Some (Some e) => exists a b, sk = a ++ e :: b | _ => True end.

Lemma group_nth l g : Forall2 (fun p o => match o with Some e => p_sel p = true /\ head p = [e] | None => p_sel p = false end) l g ->
  forall i p, nth_error l i = Some p -> nth_error g i = Some (if p_sel p then nth_error (head p) 0 else None).
Proof.
  intros H i p E. destruct (Forall2_nth _ _ _ H _ _ E) as (o & -> & K). destruct o as [e|].
  - destruct K as [-> ->]. reflexivity.
  - rewrite K. reflexivity.
Qed.
Lemma group_nth' l g : Forall sel_ok l -> group_of l = Ok g ->
  forall i p, nth_error l i = Some p -> nth_error g i = Some (if p_sel p then nth_error (head p) 0 else None).
Proof. intros So G. destruct (group_ok l So) as (g' & E & F). rewrite G in E. injection E as <-. apply group_nth. exact F. Qed.
Lemma group_len l g : Forall sel_ok l -> group_of l = Ok g -> length g = length l.
Proof. intros So G. destruct (group_ok l So) as (g' & E & F). rewrite G in E. injection E as <-. symmetry. eapply Forall2_length; eauto. Qed.

Lemma case_inputs e s s' ok : Forall (in_ok c) (s_ins s) -> case c e s s' ok ->
  length (s_ins s') = length (s_ins s) /\
  ((s_made s' = s_made s /\ produced s' = produced s /\
    forall i p, nth_error (s_ins s) i = Some p -> exists p' sk, nth_error (s_ins s') i = Some p' /\ moved p p' sk) \/
   (exists l l2 g x, Forall2 (looked c) (s_ins s) l /\ entry c (e_now e) (anyfull s) l /\ chosen c l l2 /\ group_of l2 = Ok g /\ ~ must_skip c (e_now e) l l2 g /\
      s_made s' = s_made s ++ [g] /\ made_event l2 g x /\ produced s' = produced s ++ [x] /\
      forall i p, nth_error (s_ins s) i = Some p -> exists p' sk, nth_error (s_ins s') i = Some p' /\ moved p p' sk /\ took g p i sk)).
Proof.
  intros K H. destruct H as [F D ->|l ok P L T E1 E2 E3 E4 E5|l l2 g s1 P L En Ch G W ->|l l2 g P L En Ch G Ms ->|l l2 g s1 P L En Ch G Ms W ->].
  - split; [cbn; apply map_length|]. left. repeat split; auto. intros i p Hp. cbn. rewrite nth_error_map, Hp. cbn.
    rewrite Forall_forall in K. destruct (clean_spec c p (K _ (nth_error_In _ _ Hp))) as (A & B & C & D' & (sk & E)).
    exists (clean p), sk. repeat split; auto.
  - rewrite E1. split; [symmetry; eapply Forall2_length; eauto|]. left. split; auto.
    split; [unfold produced, in_out; rewrite E2, E3; auto|]. intros i p Hp.
    destruct (Forall2_nth _ _ _ L _ _ Hp) as (p' & Hp' & Lp). destruct (looked_moved _ _ Lp) as (sk & M & _). eauto.
  - destruct (selected_inputs s l l2 _ _ L En Ch) as (S2 & K2 & So & _). apply write_spec in W.
    destruct W as (W1 & [[W2 W3]|[W2 _]]); [|discriminate]. cbn in *. rewrite W1. split; [symmetry; eapply Forall2_length; eauto|].
    left. rewrite W2, W3. repeat split; auto. intros i p Hp. destruct (Forall2_nth _ _ _ S2 _ _ Hp) as (p2 & Hp2 & p1 & Lp & Sp).
    destruct (looked_moved _ _ Lp) as (sk & M & _). exists p2, (sk ++ []). split; auto. eapply moved_trans; eauto. apply same_moved; auto. apply M.
  - destruct (selected_inputs s l l2 _ _ L En Ch) as (S2 & K2 & So & _). cbn.
    pose proof (finish_spec c (e_now e) true l2 K2) as Fi.
    split; [rewrite <- (Forall2_length _ _ _ Fi), <- (Forall2_length _ _ _ S2); auto|]. left. repeat split; auto.
    intros i p Hp. destruct (Forall2_nth _ _ _ S2 _ _ Hp) as (p2 & Hp2 & p1 & Lp & Sp).
    destruct (Forall2_nth _ _ _ Fi _ _ Hp2) as (p3 & Hp3 & Ap). exists p3. destruct (looked_moved _ _ Lp) as (sk & M & _).
    assert (M2 : moved p p2 (sk ++ [])) by (eapply moved_trans; eauto; apply same_moved; auto; apply M).
    unfold advanced in Ap. destruct (_ && _).
    + destruct Ap as (A1 & A2 & A3 & A4 & (sk' & A5 & _)). eexists. split; [eauto|]. eapply moved_trans; [exact M2|]. repeat split; eauto.
    + subst p3. eauto.
  - destruct (selected_inputs s l l2 _ _ L En Ch) as (S2 & K2 & So & _). cbn.
    pose proof (finish_spec c (e_now e) false l2 K2) as Fi.
    split; [rewrite <- (Forall2_length _ _ _ Fi), <- (Forall2_length _ _ _ S2); auto|].
    assert (X : forall i p, nth_error (s_ins s) i = Some p -> exists p' sk, nth_error (finish c (e_now e) false l2) i = Some p' /\ moved p p' sk /\ took g p i sk).
    { intros i p Hp. destruct (Forall2_nth _ _ _ S2 _ _ Hp) as (p2 & Hp2 & p1 & Lp & Sp).
      destruct (Forall2_nth _ _ _ Fi _ _ Hp2) as (p3 & Hp3 & Ap). exists p3. destruct (looked_moved _ _ Lp) as (sk & M & _).
      assert (M2 : moved p p2 (sk ++ [])) by (eapply moved_trans; eauto; apply same_moved; auto; apply M).
      unfold took. rewrite (group_nth' _ _ So G _ _ Hp2). unfold advanced in Ap. rewrite andb_true_r in Ap. destruct (p_sel p2).
      + destruct Ap as (A1 & A2 & A3 & A4 & (sk' & A5 & _)). eexists. split; [eauto|].
        split; [eapply moved_trans; [exact M2|]; repeat split; eauto|]. destruct (head p2) as [|x [|]] eqn:Hd; cbn; eauto.
      + subst p3. eauto. }
    apply write_spec in W. destruct W as (W1 & [[W2 W3]|(W2 & W3 & x & W4 & W5)]).
    + left. split; [exact W2|]. split; [exact W3|]. intros i p Hp. destruct (X i p Hp) as (p' & sk & A & B & _). eauto.
    + right. exists l, l2, g, x. repeat split; auto; apply En.
Qed.

(* ---- groups ---- *)

Lemma find_first {A} (f : A -> bool) l x : find f l = Some x ->
  exists i, nth_error l i = Some x /\ f x = true /\ forall j y, (j < i)%nat -> nth_error l j = Some y -> f y = false.
Proof.
  induction l as [|a l IH]; cbn; [discriminate|]. destruct (f a) eqn:E.
  - intros [= <-]. exists 0%nat. repeat split; auto. lia.
  - intros H. destruct (IH H) as (i & I1 & I2 & I3). exists (S i). repeat split; auto.
    intros [|j] y J N; cbn in N; [congruence|]. eapply I3; eauto. lia.
Qed.

Lemma member_sel l g : Forall sel_ok l -> group_of l = Ok g -> forall i e, member g i e ->
  exists p, nth_error l i = Some p /\ p_sel p = true /\ head p = [e].
Proof.
  intros So G i e M. unfold member in M. assert (i < length l)%nat. { rewrite <- (group_len _ _ So G). apply nth_error_Some. congruence. }
  destruct (nth_error l i) as [p|] eqn:E; [|apply nth_error_None in E; lia]. exists p. rewrite (group_nth' _ _ So G _ _ E) in M.
  destruct (p_sel p); [|discriminate]. repeat split; auto. unfold head in *. destruct (p_it p) as [[x r]|]; cbn in *; congruence.
Qed.
Lemma sel_member l g : Forall sel_ok l -> group_of l = Ok g -> forall i p, nth_error l i = Some p -> p_sel p = true ->
  exists e r, p_it p = Some (e, r) /\ member g i e.
Proof.
  intros So G i p E S. rewrite Forall_forall in So. pose proof (So _ (nth_error_In _ _ E) S) as N. destruct (p_it p) as [[e r]|] eqn:I; [|congruence].
  exists e, r. split; auto. unfold member. rewrite (group_nth' l g) with (p := p); auto; [|apply Forall_forall; auto]. unfold head. rewrite S, I. reflexivity.
Qed.

Lemma header_from l g h : Forall sel_ok l -> group_of l = Ok g -> header l = Ok h -> head_from (map p_cfg l) g h.
Proof.
  intros So G H. unfold header in H.
  destruct (find (fun p => p_sel p && mandatory (p_cfg p) && g_mbs (p_cfg p)) l) as [p|] eqn:F.
  - apply find_first in F. destruct F as (i & F1 & F2 & F3). left. exists i, (p_cfg p).
    apply andb_prop in F2. destruct F2 as [F2 F4]. apply andb_prop in F2. destruct F2 as [F2 F5].
    destruct (sel_member _ _ So G _ _ F1 F2) as (e & r & I & M). rewrite I in H. injection H as <-.
    rewrite nth_error_map, F1, F4, F5. repeat split; auto. intros j cf e' Hj N M'. rewrite nth_error_map in N.
    destruct (nth_error l j) as [q|] eqn:Q; [|discriminate]. injection N as <-. specialize (F3 _ _ Hj Q).
    destruct (member_sel _ _ So G _ _ M') as (q' & Q1 & Q2 & _). assert (q' = q) by congruence. subst. rewrite Q2 in F3. exact F3.
  - right. split.
    + intros j cf e' N M'. destruct (member_sel _ _ So G _ _ M') as (q & Q1 & Q2 & _). rewrite nth_error_map, Q1 in N. injection N as <-.
      eapply find_none in F; [|eapply nth_error_In; exact Q1]. cbn in F. rewrite Q2 in F. exact F.
    + destruct (find p_sel l) as [p|] eqn:F'; [|discriminate]. clear F. destruct (group_ok l So) as (g' & E & F2). rewrite G in E. injection E as <-.
      clear G So. revert F' H. induction F2 as [|q o l g Hq F2 IH]; cbn; [discriminate|]. intros F H. destruct o as [e|].
      * destruct Hq as [S Hd]. rewrite S in F. injection F as ->. unfold head in Hd. destruct (p_it p) as [[x r]|]; [|discriminate].
        injection Hd as ->. injection H as ->. eexists. reflexivity.
      * rewrite Hq in F. apply IH; auto.
Qed.

Lemma sub_number_carries g e w : sub_number g e = Some w -> exists before x after a d b,
    me_subs e = before ++ x :: after /\ Forall (fun y => ms_id y <> g_src g) before /\ ms_id x = g_src g /\
    ms_raw x = a ++ d ++ b /\ lenN a = g_shift g /\ length d = 4%nat /\ w = unle d.
Proof.
  unfold sub_number. destruct (find _ (me_subs e)) as [x|] eqn:F; [|discriminate].
  destruct (g_shift g + 4 <=? lenN (ms_raw x)) eqn:Sz; [|discriminate]. intros [= <-].
  apply find_first in F. destruct F as (i & F1 & F2 & F3). exists (firstn i (me_subs e)), x, (skipn (S i) (me_subs e)).
  set (k := N.to_nat (g_shift g)). exists (firstn k (ms_raw x)), (firstn 4 (skipn k (ms_raw x))), (skipn 4 (skipn k (ms_raw x))).
  unfold lenN in *. repeat split.
  - apply nth_error_split_list; auto.
  - apply Forall_forall. intros y Y. apply In_nth_error in Y. destruct Y as [j Y].
    destruct (Nat.lt_ge_cases j i) as [L|L]; [|rewrite nth_error_firstn_ge in Y; [discriminate|auto]].
    rewrite nth_error_firstn_lt in Y; auto. specialize (F3 _ _ L Y). lia.
  - lia.
  - rewrite !firstn_skipn. reflexivity.
  - rewrite firstn_length. lia.
  - rewrite firstn_length, skipn_length. lia.
Qed.

Lemma event_number_carries g e n : event_number c g e = Some (n, false) -> g_nonum g = true \/ carries (f_mask c) g e n.
Proof.
  unfold event_number, carries. destruct (_ && _); [discriminate|]. destruct (g_real g); [intros [= <-]; auto|].
  destruct (g_nonum g); auto. destruct (sub_number g e) as [w|] eqn:S; [|discriminate]. intros [= <-]. right.
  apply sub_number_carries in S. destruct S as (b & x & a & p & d & q & A1 & A2 & A3 & A4 & A5 & A6 & ->). exists b, x, a, p, d, q. auto 10.
Qed.
Lemma event_number_special g e n : event_number c g e = Some (n, true) -> special (f_lim c) g e.
Proof.
  unfold event_number, special. destruct (g_mbs g) eqn:M; cbn.
  - destruct (f_lim c <=? trig_no e)%Z eqn:L; [intros _; split; auto; lia|].
    destruct (g_real g); [discriminate|]. destruct (g_nonum g); [discriminate|]. destruct (sub_number g e); discriminate.
  - destruct (g_real g); [discriminate|]. destruct (g_nonum g); [discriminate|]. destruct (sub_number g e); discriminate.
Qed.

Lemma in_ok_head p e r : in_ok c p -> p_it p = Some (e, r) -> event_number c (p_cfg p) e = Some (p_num p, p_special p) /\ p_valid p = true.
Proof. unfold in_ok. intros H I. rewrite I in H. tauto. Qed.

Lemma only_members l : forall k, Forall (fun p => p_sel p = false) l -> forall p e r g, nth_error l k = Some p -> p_it p = Some (e, r) -> group_of (mark k l) = Ok g -> members g = [e].
Proof.
  assert (Z : forall l g, Forall (fun p => p_sel p = false) l -> group_of l = Ok g -> members g = []).
  { clear. induction l as [|p l IH]; cbn; intros g H G.
    - injection G as <-. reflexivity.
    - inversion H as [|? ? H1 H2]; subst. destruct (group_of l) as [g'| |]; cbn in G; try discriminate. rewrite H1 in G. injection G as <-.
      cbn. apply IH; auto. }
  induction l as [|q l IH]; intros [|k] H p e r g N I G; cbn in *; try discriminate; inversion H as [|? ? H1 H2]; subst.
  - injection N as ->. destruct (group_of l) as [g'| |] eqn:E; cbn in G; try discriminate. rewrite I in G. injection G as <-.
    unfold members in *. cbn. f_equal. eapply Z; eauto.
  - destruct (group_of (mark k l)) as [g'| |] eqn:E; cbn in G; try discriminate. rewrite H1 in G. injection G as <-.
    cbn. eapply IH; eauto.
Qed.

Lemma group_legal now mf l l2 g : entry c now mf l -> chosen c l l2 -> group_of l2 = Ok g -> ~ must_skip c now l l2 g ->
  legal (f_full c) (f_mask c) (f_lim c) (map p_cfg l) g.
Proof.
  intros (K & Z) Ch G M.
  assert (Z' : Forall (fun p => p_sel p = false) l) by (eapply Forall_impl; [|exact Z]; cbn; tauto).
  destruct (chosen_facts c l l2 K Z' Ch) as (Sm & So & X).
  assert (Cf : map p_cfg l2 = map p_cfg l) by (apply Forall2_map; eapply Forall2_weaken; [|exact Sm]; intros; apply same_cfg; auto).
  split; [rewrite <- Cf, map_length; eapply group_len; eauto|].
  destruct Ch as [(k & Fk & ->)|(Fk & n & ns & b & d & E & P & ->)].
  - left. apply find_special_spec in Fk. destruct Fk as (q & _ & F1 & F2 & F3). rewrite Nat.sub_0_r in F1.
    apply counted_it in F2. destruct F2 as [F2 _]. destruct (p_it q) as [[e r]|] eqn:I; [|congruence].
    pose proof (only_members l k Z' q e r g F1 I G) as On.
    exists k, (p_cfg q), e. rewrite nth_error_map, F1. repeat split; auto.
    + assert (nth_error (mark k l) k = Some (set_sel true q)).
      { clear - F1. revert k F1. induction l as [|p l IH]; intros [|k] F; cbn in *; try discriminate; try congruence. apply IH; auto. }
      destruct (sel_member _ _ So G _ _ H eq_refl) as (e' & r' & I' & M'). cbn in I'. rewrite I in I'. injection I' as <- <-. exact M'.
    + rewrite Forall_forall in K. destruct (in_ok_head _ _ _ (K _ (nth_error_In _ _ F1)) I) as [V _]. rewrite F3 in V. eapply event_number_special; eauto.
    + rewrite Forall_forall in K. destruct (in_ok_head _ _ _ (K _ (nth_error_In _ _ F1)) I) as [V _]. rewrite F3 in V. eapply event_number_special; eauto.
  - right. split.
    + exists b. split.
      * destruct X as (p & X1 & X2 & X3). apply In_nth_error in X1. destruct X1 as [i X1].
        destruct (sel_member _ _ So G _ _ X1 X2) as (e & r & I & Me). exists i, (p_cfg p), e. rewrite <- Cf, nth_error_map, X1. auto.
      * intros i cf e N Me. destruct (member_sel _ _ So G _ _ Me) as (p & P1 & P2 & P3). rewrite <- Cf, nth_error_map, P1 in N. injection N as <-.
        apply select_nth in P1. destruct P1 as (p0 & P1 & ->). rewrite Forall_forall in K, Z'. pose proof (nth_error_In _ _ P1) as In0.
        specialize (K _ In0). specialize (Z' _ In0).
        destruct (p_valid p0 && ((p_num p0 =? b) || g_nonum (p_cfg p0))) eqn:Sl; [|congruence]. cbn in P3 |- *.
        destruct (g_nonum (p_cfg p0)) eqn:Nn; auto. apply andb_prop in Sl. destruct Sl as [Sl1 Sl2]. rewrite orb_false_r in Sl2. apply N.eqb_eq in Sl2.
        unfold head in P3. cbn in P3. destruct (p_it p0) as [[x r]|] eqn:I; [|discriminate]. injection P3 as ->.
        destruct (in_ok_head _ _ _ K I) as [V _]. apply find_special_none in Fk. rewrite Forall_forall in Fk. specialize (Fk _ In0).
        unfold counted in Fk. rewrite Nn, I in Fk. cbn in Fk. rewrite Fk, Sl2 in V. destruct (event_number_carries _ _ _ V); auto. congruence.
    + intros Fu i cf N Ma. rewrite <- Cf, nth_error_map in N. destruct (nth_error (select b l) i) as [p|] eqn:P1; [|discriminate]. injection N as <-.
      destruct (p_sel p) eqn:S. { destruct (sel_member _ _ So G _ _ P1 S) as (e & r & _ & Me). eauto. }
      exfalso. apply M. split; auto. left. split; auto. exists p. split; [eapply nth_error_In; eauto|].
      unfold missed. rewrite S. unfold mandatory in Ma. apply andb_prop in Ma. destruct Ma as [M1 M2]. apply negb_true_iff in M1. rewrite M1. rewrite M2. reflexivity.
Qed.

(* ---- the invariant ---- *)

Lemma sublist_nil {A} (l : list A) : sublist [] l.
Proof. induction l; constructor; auto. Qed.
Lemma sublist_app_l {A} (l m k : list A) : sublist l m -> sublist l (m ++ k).
Proof. induction 1; cbn; [apply sublist_nil|apply sl_skip; auto|apply sl_keep; auto]. Qed.
Lemma sublist_skips {A} (k l m : list A) : sublist l m -> sublist l (k ++ m).
Proof. intros. induction k; cbn; auto. apply sl_skip. auto. Qed.
Lemma sublist_snoc {A} (l m a b : list A) x : sublist l m -> sublist (l ++ [x]) (m ++ a ++ x :: b).
Proof.
  induction 1; cbn; [|apply sl_skip; auto|apply sl_keep; auto]. apply sublist_skips. apply sl_keep. apply sublist_nil.
Qed.
Lemma from_input_app i a b : from_input i (a ++ b) = from_input i a ++ from_input i b.
Proof. unfold from_input. rewrite map_app, concat_app. reflexivity. Qed.

Definition Inv (cfgs : list icfg) (ops : list op) (s : st) : Prop :=
  Forall (in_ok c) (s_ins s) /\ map p_cfg (s_ins s) = cfgs /\
  (forall i p, nth_error (s_ins s) i = Some p -> p_done p ++ pending p = received i ops /\ sublist (from_input i (s_made s)) (p_done p)) /\
  Forall2 (makes cfgs) (s_made s) (produced s) /\ Forall (legal (f_full c) (f_mask c) (f_lim c) cfgs) (s_made s).

Lemma inv_case cfgs pre e s s' ok : Inv cfgs pre s -> case c e s s' ok -> Inv cfgs pre s'.
Proof.
  intros (I1 & I2 & I3 & I4 & I5) H. destruct (case_inputs e s s' ok I1 H) as (L & Cs).
  assert (X : forall i p', nth_error (s_ins s') i = Some p' -> exists p, nth_error (s_ins s) i = Some p).
  { intros i p' E. destruct (nth_error (s_ins s) i) eqn:E'; eauto. apply nth_error_None in E'. assert (i < length (s_ins s'))%nat; [apply nth_error_Some; congruence|lia]. }
  assert (Y : forall i p, nth_error (s_ins s) i = Some p -> exists p' sk, nth_error (s_ins s') i = Some p' /\ moved p p' sk).
  { destruct Cs as [(_ & _ & Y)|(l & l2 & g & x & _ & _ & _ & _ & _ & _ & _ & _ & Y)]; auto. intros i p E. destruct (Y i p E) as (p' & sk & A & B & _). eauto. }
  assert (C' : map p_cfg (s_ins s') = cfgs).
  { rewrite <- I2. apply list_eq_nth_error. intros i. rewrite !nth_error_map. destruct (nth_error (s_ins s) i) as [p|] eqn:E.
    - destruct (Y _ _ E) as (p' & sk & -> & M). cbn. f_equal. apply M.
    - apply nth_error_None in E. rewrite (proj2 (nth_error_None _ _)); auto. lia. }
  split; [|split; [auto|]].
  { apply Forall_forall. intros p' Hp. apply In_nth_error in Hp. destruct Hp as [i Hp]. destruct (X _ _ Hp) as (p & E).
    destruct (Y _ _ E) as (p2 & sk & E2 & M). assert (p2 = p') by congruence. subst. apply M. }
  destruct Cs as [(M & P & Y')|(l & l2 & g & x & Lk & En & Ch & G & Ns & M & Me & P & Y')].
  - rewrite M, P. split; auto. intros i p' E'. destruct (X _ _ E') as (p & E). destruct (Y' _ _ E) as (p2 & sk & E2 & Mv).
    assert (p2 = p') by congruence. subst. destruct (I3 _ _ E) as [R S]. destruct Mv as (_ & _ & _ & Mv1 & Mv2). split; [congruence|].
    rewrite Mv2. apply sublist_app_l. auto.
  - rewrite M, P. destruct (selected_inputs s l l2 _ _ Lk En Ch) as (S2 & K2 & So & _).
    assert (Cl : map p_cfg l2 = cfgs).
    { rewrite <- I2. apply Forall2_map. eapply Forall2_weaken; [|exact S2]. cbn. intros p p2 (p1 & A & B). rewrite (same_cfg _ _ B). apply A. }
    assert (Cl1 : map p_cfg l = cfgs).
    { rewrite <- I2. apply Forall2_map. eapply Forall2_weaken; [|exact Lk]. cbn. intros p p2 A. apply A. }
    split; [|split].
    + intros i p' E'. destruct (X _ _ E') as (p & E). destruct (Y' _ _ E) as (p2 & sk & E2 & Mv & Tk).
      assert (p2 = p') by congruence. subst p2. destruct (I3 _ _ E) as [R S]. destruct Mv as (_ & _ & _ & Mv1 & Mv2). split; [congruence|].
      rewrite Mv2, from_input_app. unfold took in Tk. unfold from_input at 2. cbn. rewrite app_nil_r. destruct (nth_error g i) as [[ev|]|].
      * destruct Tk as (a & b & ->). apply sublist_snoc. auto.
      * rewrite app_nil_r. apply sublist_app_l. auto.
      * rewrite app_nil_r. apply sublist_app_l. auto.
    + apply Forall2_app; auto. constructor; auto. destruct Me as (h & Hh & ->). exists h. split; auto.
      rewrite <- Cl. eapply header_from; eauto.
    + apply Forall_app. split; auto. constructor; auto. rewrite <- Cl1. eapply group_legal; eauto.
Qed.

Lemma inv_upd cfgs pre o s i f : Inv cfgs pre s -> (forall p, p_cfg (f p) = p_cfg p /\ p_done (f p) = p_done p /\ (in_ok c p -> in_ok c (f p))) ->
  (forall j p, nth_error (s_ins s) j = Some p -> in_ok c p -> pending (if Nat.eqb i j then f p else p) = pending p ++ received j [o]) ->
  Inv cfgs (pre ++ [o]) (set_ins (at_input i f (s_ins s)) s).
Proof.
  intros (I1 & I2 & I3 & I4 & I5) F R. split; [|split; [|split; [|split]]]; cbn; auto.
  - apply at_input_Forall; auto. intros p. apply F.
  - rewrite at_input_map; auto. intros p. apply F.
  - intros j p' E. rewrite at_input_nth in E. destruct (nth_error (s_ins s) j) as [p|] eqn:Ej; [|destruct (Nat.eqb i j); discriminate].
    destruct (I3 _ _ Ej) as [A B]. rewrite Forall_forall in I1. specialize (R _ _ Ej (I1 _ (nth_error_In _ _ Ej))).
    assert (E' : p' = if Nat.eqb i j then f p else p) by (destruct (Nat.eqb i j); cbn in E; congruence). rewrite <- E' in R.
    assert (D : p_done p' = p_done p) by (rewrite E'; destruct (Nat.eqb i j); auto; apply F).
    rewrite received_app, <- A, R, D, app_assoc. auto.
Qed.

Lemma inv_run cfgs ops : exists s, run c (init cfgs) ops = Ok s /\ Inv (map fst cfgs) ops s.
Proof.
  apply (run_total c (fun _ => True) (Inv (map fst cfgs))) with (pre := []).
  - intros pre s I. apply I.
  - intros pre i b s I. apply inv_upd; auto.
    + intros p. repeat split; auto. unfold in_ok, add_buf. cbn. destruct (p_it p) as [[]|]; intuition. destruct (p_queue p); discriminate.
    + intros j p E K. rewrite received_push. destruct (Nat.eqb i j); [|rewrite app_nil_r; auto]. apply add_buf_pending.
      unfold in_ok in K. destruct (p_it p) as [[]|]; [tauto|congruence].
  - intros pre i b s I. apply inv_upd; auto.
    intros j p E K. cbn. rewrite app_nil_r. destruct (Nat.eqb i j); auto.
  - intros. eapply inv_case; eauto.
  - intros pre can s s' ok (I1 & I2 & I3 & I4 & I5) F. apply flush_spec in F. destruct F as (F1 & F2 & F3 & F4 & _).
    unfold Inv. rewrite F1, F2, F4. auto.
  - intros pre s I. exact I.
  - intros pre e s (I1 & I2 & I3 & I4). split; [|split; [|split]]; auto. intros i p E. rewrite received_app, app_nil_r. auto.
  - intros pre es can s (I1 & I2 & I3 & I4). split; [|split; [|split]]; auto. intros i p E. rewrite received_app, app_nil_r. auto.
  - apply Forall_forall. intros [| | |] _; cbn; auto. apply Forall_forall. auto.
  - unfold init, Inv. cbn. repeat split.
    + apply Forall_forall. intros p Hp. apply in_map_iff in Hp. destruct Hp as (x & <- & _). unfold in_ok. cbn. auto.
    + rewrite map_map. cbn. auto.
    + rewrite nth_error_map in H. destruct (nth_error cfgs i); [|discriminate]. injection H as <-. reflexivity.
    + rewrite nth_error_map in H. destruct (nth_error cfgs i); [|discriminate]. injection H as <-. constructor.
    + constructor.
    + constructor.
Qed.
End G.
