(* Proofs about the MBS event builder: runs with steady numbers. *)
From Verif Require Import Common ListFacts Bytes MbsSpec MCombSpec MCombModel MCombProofs MCombGroups MCombJoin.
Local Open Scope N_scope.

(* ---- queues only get shorter ---- *)
Definition shrunk (p p' : inp) : Prop :=
  p_cfg p' = p_cfg p /\ p_conn p' = p_conn p /\ p_cap p' = p_cap p /\ (length (p_queue p') <= length (p_queue p))%nat.
Lemma shrunk_refl p : shrunk p p. Proof. repeat split; auto. Qed.
Lemma shrunk_trans p q r : shrunk p q -> shrunk q r -> shrunk p r.
Proof. intros (A & B & C & D) (A' & B' & C' & D'). repeat split; try congruence; try lia. Qed.
Lemma find_buf_length c g q : (length (snd (find_buf c g q)) <= length q)%nat.
Proof.
  induction q as [|[es|] q IH]; cbn; auto.
  - destruct (find_ev c g es) as [sk [r|]]; cbn; auto. destruct (find_buf c g q) as [[sk' r] q']. cbn in *. lia.
Qed.
Lemma shift_shrunk c p p' ok : shift_ev c p = (p', ok) -> shrunk p p'.
Proof.
  unfold shift_ev.
  set (x := match p_it p with Some _ => _ | None => _ end).
  assert (H : (length (snd x) <= length (p_queue p))%nat).
  { subst x. destruct (p_it p) as [[e rest]|].
    - destruct (find_ev c (p_cfg p) rest) as [sk [r|]]; cbn; auto. pose proof (find_buf_length c (p_cfg p) (tl (p_queue p))) as H.
      destruct (find_buf c (p_cfg p) (tl (p_queue p))) as [[sk' r] q]. cbn in *. destruct (p_queue p); cbn in *; lia.
    - apply find_buf_length. }
  destruct x as [[sk r] q]. cbn in H. destruct r as [[[[e rest] n] b]|]; intros [= <- <-]; repeat split; auto.
Qed.
Lemma prep_shrunk c now mf p p' ok : prep c now mf p = (p', ok) -> shrunk p p'.
Proof.
  unfold prep. set (p0 := set_last _ _). assert (S0 : shrunk p p0) by (repeat split; auto).
  destruct (p_it p0); [intros [= <- <-]; auto|]. destruct (shift_ev c p0) as [p1 b] eqn:E. apply shift_shrunk in E.
  assert (S1 : shrunk p p1) by exact (shrunk_trans _ _ _ S0 E). destruct b; intros [= <- <-]; auto.
Qed.
Lemma shrunk_all l : Forall2 shrunk l l. Proof. induction l; constructor; auto using shrunk_refl. Qed.
Lemma shrunk_all_trans l m n : Forall2 shrunk l m -> Forall2 shrunk m n -> Forall2 shrunk l n.
Proof. intros H. revert n. induction H; intros n K; inversion K; subst; constructor; eauto using shrunk_trans. Qed.
Lemma prep_all_shrunk c now mf l : forall l' ok, prep_all c now mf l = (l', ok) -> Forall2 shrunk l l'.
Proof.
  induction l as [|p l IH]; intros l' ok; cbn; [intros [= <- <-]; constructor|].
  destruct (prep c now mf p) as [p' b] eqn:E. apply prep_shrunk in E. destruct b.
  - destruct (prep_all c now mf l) as [r' b'] eqn:R. intros [= <- <-]. constructor; eauto.
  - intros [= <- <-]. constructor; auto using shrunk_all.
Qed.
Lemma chosen_shrunk c l l2 : chosen c l l2 -> Forall2 shrunk l l2.
Proof.
  intros [(k & _ & ->)|(_ & n & ns & b & d & _ & _ & ->)].
  - revert k. induction l as [|p l IH]; intros [|k]; cbn; constructor; auto using shrunk_all, shrunk_refl. all: repeat split; apply Nat.le_refl.
  - induction l as [|p l IH]; cbn; constructor; auto. destruct (_ && _); auto using shrunk_refl. all: repeat split; try apply Nat.le_refl.
Qed.
Lemma finish_shrunk c now skip l : Forall2 shrunk l (finish c now skip l).
Proof.
  induction l as [|p l IH]; cbn; constructor; auto. destruct (_ && _); auto using shrunk_refl.
  destruct (shift_ev c p) as [p' ok] eqn:E. apply shift_shrunk in E. destruct ok; auto.
Qed.
Lemma clean_shrunk l : Forall2 shrunk l (map clean l).
Proof.
  induction l as [|p l IH]; cbn; constructor; auto. unfold clean. destruct (_ || _); auto using shrunk_refl.
  unfold shift_buf. repeat split; auto. cbn. destruct (p_queue p); cbn; lia.
Qed.
Lemma case_shrunk c e s s' ok : case c e s s' ok -> Forall2 shrunk (s_ins s) (s_ins s').
Proof.
  intros [F D ->|l ok' P Lk T E1 E2 E3 E4 E5|l l2 g s1 P Lk En Ch Gr W ->|l l2 g P Lk En Ch Gr Ms ->|l l2 g s1 P Lk En Ch Gr Ms W ->]; cbn.
  - apply clean_shrunk.
  - rewrite E1. eapply prep_all_shrunk; eauto.
  - apply write_spec in W. destruct W as [-> _]. cbn. eapply shrunk_all_trans; [eapply prep_all_shrunk; eauto|eapply chosen_shrunk; eauto].
  - eapply shrunk_all_trans; [eapply prep_all_shrunk; eauto|]. eapply shrunk_all_trans; [eapply chosen_shrunk; eauto|apply finish_shrunk].
  - eapply shrunk_all_trans; [eapply prep_all_shrunk; eauto|]. eapply shrunk_all_trans; [eapply chosen_shrunk; eauto|apply finish_shrunk].
Qed.

(* ---- inputs are connected, queues have room ---- *)
Definition spacious (p : inp) : Prop := (length (p_queue p) < p_cap p)%nat.
Lemma spacious_shrunk l l' : Forall2 shrunk l l' -> Forall spacious l -> Forall spacious l'.
Proof. induction 1 as [|p p' l l' (A & B & C & D) F IH]; intros K; inversion K; subst; constructor; auto. unfold spacious in *. lia. Qed.
Lemma conn_shrunk l l' : Forall2 shrunk l l' -> Forall (fun p => p_conn p = true) l -> Forall (fun p => p_conn p = true) l'.
Proof. induction 1 as [|p p' l l' (A & B & C & D) F IH]; intros K; inversion K; subst; constructor; auto. congruence. Qed.
Lemma spacious_anyfull s : Forall spacious (s_ins s) -> anyfull s = false.
Proof.
  unfold anyfull. induction 1 as [|p l S F IH]; cbn; auto. rewrite IH, orb_false_r. unfold qfull. unfold spacious in S.
  destruct (p_cap p <=? length (p_queue p))%nat eqn:E; [apply Nat.leb_le in E; lia|]. apply andb_false_r.
Qed.

(* ---- the groups as a statement about runs ---- *)
Section Runs.
Context (c : conf) (cfgs : list (icfg * nat)) (L : mevent -> N) (G base k Z : N).
Notation cfs := (map fst cfgs).
Definition easy (s : st) : Prop := if f_full c then Forall (fun p => p_conn p = true) (s_ins s) else Forall spacious (s_ins s).

Lemma easy_calm pre s : easy s -> (f_full c = false -> no_overflow cfs L k (fun i => received i pre)) -> calm c cfs L k pre s.
Proof. unfold easy, calm. destruct (f_full c); auto. intros A B. split; auto. apply spacious_anyfull; auto. Qed.
Lemma easy_case e s s' ok : easy s -> case c e s s' ok -> easy s'.
Proof. unfold easy. intros E C. apply case_shrunk in C. destruct (f_full c); [eapply conn_shrunk|eapply spacious_shrunk]; eauto. Qed.
Lemma easy_ins s s' : s_ins s' = s_ins s -> easy s -> easy s'.
Proof. unfold easy. intros ->. auto. Qed.

Lemma steady_prefix a b : steady_inputs c cfs L G base k Z (fun i => received i (a ++ b)) -> steady_inputs c cfs L G base k Z (fun i => received i a).
Proof.
  intros [A B]. split.
  - intros i cf E. destruct (A _ _ E) as (P & S & F). rewrite received_app in S, F. apply steady_app in S. apply Forall_app in F. tauto.
  - intros H g M. apply B; auto. intros i e Me. rewrite received_app. apply in_or_app. left. auto.
Qed.
Lemma overflow_prefix a b : no_overflow cfs L k (fun i => received i (a ++ b)) -> no_overflow cfs L k (fun i => received i a).
Proof. intros [A|A]; [left; auto|right]. intros i e I. apply (A i). rewrite received_app. apply in_or_app. auto. Qed.

Lemma J_flush pre can s s' ok : J c cfs L G base k Z pre s -> flush can s = (s', ok) -> J c cfs L G base k Z pre s'.
Proof.
  intros ((I1 & I2 & I3 & I4) & Og & Ba & Cl & Sn) F. pose proof (flush_out _ _ _ _ _ F Og) as Og'. apply flush_spec in F. destruct F as (F1 & F2 & F3 & F4 & _).
  split; [unfold Inv; rewrite F1, F2, F4; auto|]. split; auto. split; [unfold balanced; rewrite F1; auto|]. split; [unfold claim, all_in; rewrite F1, F2; exact Cl|]. unfold same_num. rewrite F2. exact Sn.
Qed.

Lemma J_run ops : settings c G k -> steady_inputs c cfs L G base k Z (fun i => received i ops) ->
  (f_full c = false -> no_overflow cfs L k (fun i => received i ops)) -> Forall (op_env (room cfs Z)) ops ->
  (forall pre post s, ops = pre ++ post -> run c (init cfgs) pre = Ok s -> easy s) ->
  exists s, run c (init cfgs) ops = Ok s /\ J c cfs L G base k Z ops s.
Proof.
  intros Hs. induction ops as [|o ops IH] using rev_ind; intros SI NO Ro Ea.
  - exists (init cfgs). split; auto. split; [|split; [|split; [|split]]].
    + destruct (inv_run c cfgs []) as (s & R & I). cbn in R. injection R as <-. exact I.
    + exact I.
    + intros i j pi pj Ei Ej. cbn in Ei, Ej. rewrite nth_error_map in Ei, Ej. destruct (nth_error cfgs i), (nth_error cfgs j); try discriminate.
      injection Ei as <-. injection Ej as <-. left. cbn. lia.
    + intros j pj e Ej Ie. cbn in Ej. rewrite nth_error_map in Ej. destruct (nth_error cfgs j); [|discriminate]. injection Ej as <-. destruct Ie.
    + constructor.
  - apply Forall_app in Ro. destruct Ro as [Ro Ro1]. inversion Ro1 as [|? ? Ro2 _]; subst.
    destruct IH as (s & R & Js); auto.
    { eapply steady_prefix; eauto. } { intros Hf. eapply overflow_prefix; eauto. } { intros pre post s E Rn. apply (Ea pre (post ++ [o])); auto. rewrite E, <- app_assoc. auto. }
    assert (Es : easy s) by (apply (Ea ops [o]); auto).
    pose proof (steady_prefix _ _ SI) as SI0.
    assert (NO0 : f_full c = false -> no_overflow cfs L k (fun i => received i ops)) by (intros Hf; eapply overflow_prefix; eauto).
    assert (Stp : forall s', step c s o = Ok s' -> run c (init cfgs) (ops ++ [o]) = Ok s').
    { intros s' S. clear - R S. revert R. generalize (init cfgs). induction ops as [|x ops IH]; cbn [app run]; intros s0 R.
      - injection R as ->. rewrite S. reflexivity.
      - destruct (step c s0 x) as [s1| |]; cbn in *; try discriminate. auto. }
    destruct o as [i b|i b|e|es can]; cbn [step op_env] in *.
    + destruct (inv_run c cfgs (ops ++ [Push i b])) as (s1 & R1 & I1). rewrite (Stp _ eq_refl) in R1. injection R1 as <-.
      eexists. split; [apply Stp; reflexivity|]. apply J_push; auto. intros p K. exists (events_of b). apply add_buf_pending.
      unfold in_ok in K. destruct (p_it p) as [[]|]; [tauto|congruence].
    + destruct (inv_run c cfgs (ops ++ [Conn i b])) as (s1 & R1 & I1). rewrite (Stp _ eq_refl) in R1. injection R1 as <-.
      eexists. split; [apply Stp; reflexivity|]. apply J_push; auto. intros p K. exists []. rewrite app_nil_r. reflexivity.
    + destruct (build_cases c e s) as (s' & ok & B & C). { apply Js. }
      exists s'. split; [apply Stp; rewrite B; reflexivity|]. apply J_other; [|reflexivity]. eapply J_case; eauto. apply easy_calm; auto.
    + destruct (timer_total c (room cfs Z) (fun _ s => J c cfs L G base k Z ops s /\ easy s)) with (pre := @nil op) (es := es) (can := can) (s := s) as (s' & T & J' & _); auto.
      * intros _ s0 [J0 _]. apply J0.
      * intros _ e s0 s1 ok Q [J0 E0] C. split; [|eapply easy_case; eauto]. eapply J_case; eauto. apply easy_calm; auto.
      * intros _ cn s0 s1 ok [J0 E0] F. split; [eapply J_flush; eauto|]. apply flush_spec in F. eapply easy_ins; [apply F|auto].
      * exists s'. split; [apply Stp; auto|]. apply J_other; auto.
Qed.

Lemma gone_not p T ops i : (forall cf, nth_error cfs i = Some cf -> steady L G base (received i ops)) -> nth_error cfs i = Some (p_cfg p) ->
  p_done p ++ pending p = received i ops -> (exists e, In e (received i ops) /\ L e = T) -> ~ gone L p T.
Proof.
  intros St E R (e & Ie & Le) (u & x & v & U1 & U2 & U3). specialize (St _ E). rewrite <- R, U1 in St, Ie.
  apply U3. rewrite <- Le. apply in_map. eapply steady_before; eauto. lia.
Qed.
Lemma steady_inj l : forall b e e', steady L G b l -> In e l -> In e' l -> L e = L e' -> e = e'.
Proof.
  induction l as [|x l IH]; cbn; intros b e e' S I I' E; [tauto|]. destruct S as (A & B & C).
  destruct I as [<-|I], I' as [<-|I']; auto.
  - pose proof (steady_lower _ _ _ _ _ C I'). lia.
  - pose proof (steady_lower _ _ _ _ _ C I). lia.
  - eauto.
Qed.
End Runs.
