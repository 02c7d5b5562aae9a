(* Commands between two nodes: invariants of one direction. *)
From Coq Require Import Sorting.Sorted Sorting.Permutation.
From Verif Require Import Common ListFacts Bytes RcmdSpec RcmdModel.

Ltac simp := cbn [s_up s_act s_q s_wait s_cnt s_late s_canc s_jobs s_jlate s_sub s_done s_exec s_fin s_ids with_q with_act with_wait p_kind p_id p_tag p_data j_id j_tag j_arg] in *.

(* ---- lists ---- *)
Inductive sub {A} : list A -> list A -> Prop :=
| sub_nil : sub [] []
| sub_keep x a b : sub a b -> sub (x :: a) (x :: b)
| sub_drop x a b : sub a b -> sub a (x :: b).
Lemma sub_refl {A} (l : list A) : sub l l.
Proof. induction l; constructor; auto. Qed.
Lemma sub_in {A} (a b : list A) x : sub a b -> In x a -> In x b.
Proof. induction 1; cbn; intuition. Qed.
Lemma sub_app {A} (a b c d : list A) : sub a b -> sub c d -> sub (a ++ c) (b ++ d).
Proof. intros H K. induction H; cbn; [exact K| |]; constructor; auto. Qed.
Lemma sub_map {A B} (f : A -> B) a b : sub a b -> sub (map f a) (map f b).
Proof. induction 1; cbn; constructor; auto. Qed.
Lemma sub_nothing {A} (l : list A) : sub [] l.
Proof. induction l; constructor; auto. Qed.
Lemma sub_forall {A} (P : A -> Prop) a b : sub a b -> Forall P b -> Forall P a.
Proof. rewrite !Forall_forall. intros H K x Hx. apply K. exact (sub_in _ _ _ H Hx). Qed.
Lemma sub_length {A} (a b : list A) : sub a b -> (length a <= length b)%nat.
Proof. induction 1; cbn; lia. Qed.
Lemma sub_sorted {A} (R : A -> A -> Prop) a b : sub a b -> StronglySorted R b -> StronglySorted R a.
Proof.
  induction 1 as [|x a b H IH|x a b H IH]; intros S0; auto; inversion S0; subst; [|auto]. constructor; auto. eapply sub_forall; eauto.
Qed.
Lemma sub_nodup {A} (a b : list A) : sub a b -> NoDup b -> NoDup a.
Proof.
  induction 1 as [|x a b H IH|x a b H IH]; intros S0; auto; inversion S0; subst; [|auto]. constructor; auto. intros Hx. apply (sub_in _ _ _ H) in Hx. contradiction.
Qed.
Lemma sorted_nodup l : StronglySorted lt l -> NoDup l.
Proof. induction 1 as [|x l H IH F]; constructor; auto. rewrite Forall_forall in F. intros Hx. specialize (F x Hx). lia. Qed.
Lemma sorted_end l n : StronglySorted lt l -> Forall (fun x => (x < n)%nat) l -> StronglySorted lt (l ++ [n]).
Proof.
  induction 1 as [|x l H IH F]; intros B; cbn; [repeat constructor|]. inversion B; subst. constructor; [auto|]. apply Forall_app. split; [exact F|]. repeat constructor. exact H2.
Qed.
Lemma nth_lt {A} (l : list A) i x : nth_error l i = Some x -> (i < length l)%nat.
Proof. intros H. apply nth_error_Some. congruence. Qed.
Lemma nth_more {A} (l r : list A) i x : nth_error l i = Some x -> nth_error (l ++ r) i = Some x.
Proof. intros H. rewrite nth_error_app1; [exact H|]. apply (nth_lt _ _ _ H). Qed.

(* ---- what is where ---- *)
Definition owns (q : list item) : list (nat * bytes) := flat_map (fun i => match i with Own t a => [(t, a)] | _ => [] end) q.
Definition reps (q : list item) : list (N * nat * bytes) := flat_map (fun i => match i with Rep i t r => [(i, t, r)] | _ => [] end) q.
Definition cmds (w : list packet) : list (N * nat * bytes) := flat_map (fun p => match p_kind p with KCommand => [(p_id p, p_tag p, p_data p)] | _ => [] end) w.
Definition rpls (w : list packet) : list (N * nat * bytes) := flat_map (fun p => match p_kind p with KReply => [(p_id p, p_tag p, p_data p)] | _ => [] end) w.
Definition jbs (l : list job) : list (N * nat * bytes) := map (fun j => (j_id j, j_tag j, j_arg j)) l.
Definition idt (e : N * nat * bytes) : N * nat := fst e.
Definition val (e : N * nat * bytes) : nat * bytes := (snd (fst e), snd e).
Definition no_cancel (w : list packet) : Prop := Forall (fun p => p_kind p <> KCancel) w.

Lemma owns_app a b : owns (a ++ b) = owns a ++ owns b. Proof. apply flat_map_app. Qed.
Lemma reps_app a b : reps (a ++ b) = reps a ++ reps b. Proof. apply flat_map_app. Qed.
Lemma cmds_app a b : cmds (a ++ b) = cmds a ++ cmds b. Proof. apply flat_map_app. Qed.
Lemma rpls_app a b : rpls (a ++ b) = rpls a ++ rpls b. Proof. apply flat_map_app. Qed.
Lemma owns_filter f q : sub (owns (filter f q)) (owns q).
Proof.
  induction q as [|i q IH]; [constructor|]. cbn [filter]. destruct (f i); destruct i as [t a|i t r]; cbn; auto; constructor; auto.
Qed.
Lemma reps_filter f q : sub (reps (filter f q)) (reps q).
Proof.
  induction q as [|i q IH]; [constructor|]. cbn [filter]. destruct (f i); destruct i as [t a|i t r]; cbn; auto; constructor; auto.
Qed.
Lemma sub_filter {A} (f : A -> bool) l : sub (filter f l) l.
Proof. induction l as [|x l IH]; [constructor|]. cbn. destruct (f x); constructor; auto. Qed.

Definition lim : N := 2 ^ 32.
(* commands of [x] executed by [y]; [xy], [yx]: packets on the way *)
Record inv (x y : side) (xy yx : list packet) : Prop := mkInv {
  i_sorted : StronglySorted lt (map fst (s_exec y ++ map val (cmds xy) ++ owns (s_q x)));
  i_args : Forall (fun p => nth_error (s_sub x) (fst p) = Some (snd p)) (s_exec y ++ map val (cmds xy) ++ owns (s_q x));
  i_once : NoDup (map fst (owns (s_q x)) ++ map snd (s_wait x) ++ map fst (s_done x));
  i_known : Forall (fun t => (t < length (s_sub x))%nat) (map fst (owns (s_q x)) ++ map snd (s_wait x) ++ map fst (s_done x));
  i_cnt : s_cnt x = lenN (s_ids x);
  i_few : (length (s_ids x) + length (owns (s_q x)) <= length (s_sub x))%nat;
  i_nodup : NoDup (map fst (s_ids x));
  i_range : Forall (fun e => (fst e <= s_cnt x)%N) (s_ids x);
  i_wait : incl (s_wait x) (s_ids x);
  i_fly : incl (map idt (cmds xy ++ jbs (s_jobs y) ++ reps (s_q y) ++ rpls yx)) (s_ids x);
  i_fin : incl (map val (reps (s_q y) ++ rpls yx)) (s_fin y);
  i_jobs : NoDup (map j_tag (s_jobs y) ++ map fst (s_fin y));
  i_done_by : incl (map j_tag (s_jobs y) ++ map fst (s_fin y)) (map fst (s_exec y));
  i_done : forall t a, In (t, a) (s_done x) -> a = Timedout /\ In t (s_late x) \/ exists r, a = Result r /\ In (t, r) (s_fin y);
  i_canc : s_canc x = [] /\ s_canc y = [] /\ no_cancel xy /\ no_cancel yx }.

Lemma next_ok c : (c + 1 < lim)%N -> next_id c = (c + 1)%N.
Proof. unfold lim, next_id. intros H. rewrite N.mod_small by exact H. destruct (N.eqb_spec (c + 1) 0); [lia|reflexivity]. Qed.
Lemma member_in t l : member t l = true -> In t l.
Proof. unfold member. intros H. apply existsb_exists in H as (u & Hu & E). apply Nat.eqb_eq in E. subst. exact Hu. Qed.

Lemma tails3 {A} (a b c : list A) x : a ++ b ++ x :: c = a ++ (b ++ [x]) ++ c.
Proof. rewrite <- app_assoc. reflexivity. Qed.

Ltac easy_incl := intros ? ?; repeat rewrite ?map_app, ?in_app_iff in *; intuition.

(* one item sent by the node of the commands *)
Lemma own_sent i q x y xy yx s' o :
  inv (with_q (i :: q) x) y xy yx -> (lenN (s_sub x) < lim)%N -> send_one i x = (s', o) -> inv (with_q q s') y (xy ++ o) yx /\ s_sub s' = s_sub x.
Proof.
  intros I L H. unfold send_one in H. destruct i as [t a|id t r].
  - destruct (member t (s_late x)) eqn:Lt.
    + injection H as <- <-. rewrite app_nil_r. apply member_in in Lt. split; [|reflexivity]. destruct I. simp. cbn [owns flat_map app] in *. fold (owns q) in *. constructor; simp; auto.
      * eapply sub_sorted; [|exact i_sorted0]. apply sub_map, sub_app; [apply sub_refl|]. apply sub_app; [apply sub_refl|]. apply sub_drop, sub_refl.
      * eapply sub_forall; [|exact i_args0]. apply sub_app; [apply sub_refl|]. apply sub_app; [apply sub_refl|]. apply sub_drop, sub_refl.
      * rewrite map_app. cbn [map fst app] in *. rewrite !app_assoc in *. apply NoDup_app_iff. inversion i_once0; subst. split; [assumption|]. split; [repeat constructor; intros []|].
        intros u Hu [E|[]]. subst u. contradiction.
      * rewrite map_app. cbn [map fst app] in *. inversion i_known0; subst. rewrite !app_assoc in *. apply Forall_app. split; [assumption|]. repeat constructor. assumption.
      * cbn [length] in i_few0. lia.
      * intros u b Hu. apply in_app_or in Hu as [Hu|[Hu|[]]]; [apply i_done0; exact Hu|]. injection Hu as <- <-. left. split; [reflexivity|exact Lt].
    + injection H as <- <-. split; [|reflexivity]. destruct I. simp. destruct i_canc0 as (Cx & Cy & N1 & N2). cbn [owns flat_map app] in *. fold (owns q) in *.
      assert (En : next_id (s_cnt x) = (s_cnt x + 1)%N).
      { apply next_ok. rewrite i_cnt0. unfold lenN in *. cbn [length] in i_few0. lia. }
      rewrite En in *. rewrite Cx. cbn [member existsb].
      assert (Ec : cmds (xy ++ (if s_up x then [mkP KCommand (s_cnt x + 1) t a] else [])) = cmds xy ++ (if s_up x then [(s_cnt x + 1, t, a)%N] else [])).
      { rewrite cmds_app. destruct (s_up x); reflexivity. }
      constructor; simp; rewrite ?Ec; auto.
      * eapply sub_sorted; [|exact i_sorted0]. apply sub_map, sub_app; [apply sub_refl|]. rewrite map_app, <- app_assoc. apply sub_app; [apply sub_refl|].
        destruct (s_up x); cbn; [apply sub_refl|apply sub_drop, sub_refl].
      * eapply sub_forall; [|exact i_args0]. apply sub_app; [apply sub_refl|]. rewrite map_app, <- app_assoc. apply sub_app; [apply sub_refl|].
        destruct (s_up x); cbn; [apply sub_refl|apply sub_drop, sub_refl].
      * rewrite map_app. cbn [map snd app] in *. eapply Permutation_NoDup; [|exact i_once0]. cbn [fst]. rewrite <- !app_assoc. cbn [app]. rewrite !app_assoc. apply Permutation_middle.
      * rewrite map_app. cbn [map snd fst app] in *. inversion i_known0 as [|? ? K1 K2]; subst. rewrite !Forall_app in *. intuition.
      * rewrite i_cnt0. unfold lenN. rewrite app_length. cbn. lia.
      * rewrite app_length. cbn [length] in *. lia.
      * rewrite map_app. cbn [map fst]. apply NoDup_app_iff. split; [exact i_nodup0|]. split; [repeat constructor; intros []|]. intros u Hu [E|[]]. subst u.
        apply in_map_iff in Hu as (e & E & He). rewrite Forall_forall in i_range0. specialize (i_range0 e He). lia.
      * apply Forall_app. split; [|repeat constructor; cbn; lia]. eapply Forall_impl; [|exact i_range0]. intros e He. cbn in He. lia.
      * apply incl_app; [apply incl_appl; exact i_wait0|apply incl_appr, incl_refl].
      * intros u Hu. rewrite <- app_assoc in Hu. rewrite !map_app, !in_app_iff in Hu. destruct Hu as [Hu|[Hu|Hu]].
        -- apply in_or_app. left. apply i_fly0. rewrite !map_app, !in_app_iff. tauto.
        -- apply in_or_app. right. destruct (s_up x); [|destruct Hu]. cbn in Hu. destruct Hu as [<-|[]]. left. reflexivity.
        -- apply in_or_app. left. apply i_fly0. rewrite !map_app, !in_app_iff. tauto.
      * repeat split; auto. apply Forall_app. split; [exact N1|]. destruct (s_up x); repeat constructor. discriminate.
  - injection H as <- <-. split; [|reflexivity]. destruct I. simp. destruct i_canc0 as (Cx & Cy & N1 & N2). cbn [owns flat_map app] in *. fold (owns q) in *.
    assert (Ec : cmds (xy ++ (if s_up x then [mkP KReply id t r] else [])) = cmds xy).
    { rewrite cmds_app. destruct (s_up x); apply app_nil_r. }
    constructor; simp; rewrite ?Ec; auto. repeat split; auto. apply Forall_app. split; [exact N1|]. destruct (s_up x); repeat constructor. discriminate.
Qed.
(* one item sent by the executing node *)
Lemma rep_sent i q x y xy yx s' o :
  inv x (with_q (i :: q) y) xy yx -> send_one i y = (s', o) -> inv x (with_q q s') xy (yx ++ o).
Proof.
  intros I H. unfold send_one in H. destruct i as [t a|id t r].
  - destruct (member t (s_late y)).
    + injection H as <- <-. rewrite app_nil_r. destruct I. constructor; simp; auto.
    + injection H as <- <-. destruct I. simp. destruct i_canc0 as (Cx & Cy & N1 & N2). rewrite Cy. cbn [member existsb].
      assert (Ec : rpls (yx ++ (if s_up y then [mkP KCommand (next_id (s_cnt y)) t a] else [])) = rpls yx).
      { rewrite rpls_app. destruct (s_up y); apply app_nil_r. }
      constructor; simp; rewrite ?Ec; auto. repeat split; auto. apply Forall_app. split; [exact N2|]. destruct (s_up y); repeat constructor. discriminate.
  - injection H as <- <-. destruct I. simp. destruct i_canc0 as (Cx & Cy & N1 & N2). cbn [reps flat_map app] in *. fold (reps q) in *.
    assert (Ec : rpls (yx ++ (if s_up y then [mkP KReply id t r] else [])) = rpls yx ++ (if s_up y then [(id, t, r)] else [])).
    { rewrite rpls_app. destruct (s_up y); reflexivity. }
    constructor; simp; rewrite ?Ec; auto.
    + intros u Hu. apply i_fly0. clear - Hu. destruct (s_up y); do 3 (rewrite ?map_app, ?in_app_iff in *; cbn [map In] in *); tauto.
    + intros u Hu. apply i_fin0. clear - Hu. destruct (s_up y); do 3 (rewrite ?map_app, ?in_app_iff in *; cbn [map In] in *); tauto.
    + repeat split; auto. apply Forall_app. split; [exact N2|]. destruct (s_up y); repeat constructor. discriminate.
Qed.
Lemma own_send q : forall x y xy yx s' o,
  inv (with_q q x) y xy yx -> (lenN (s_sub x) < lim)%N -> send_all q x = (s', o) -> inv s' y (xy ++ o) yx.
Proof.
  induction q as [|i q IH]; intros x y xy yx s' o I L H; cbn [send_all] in H.
  - injection H as <- <-. rewrite app_nil_r. exact I.
  - destruct (s_act x); [injection H as <- <-; rewrite app_nil_r; exact I|]. destruct (send_one i x) as (s1 & p1) eqn:E. destruct (send_all q s1) as (s2 & p2) eqn:F. injection H as <- <-.
    destruct (own_sent _ _ _ _ _ _ _ _ I L E) as (I1 & Es). rewrite app_assoc. eapply IH; eauto. rewrite Es. exact L.
Qed.
Lemma rep_send q : forall x y xy yx s' o,
  inv x (with_q q y) xy yx -> send_all q y = (s', o) -> inv x s' xy (yx ++ o).
Proof.
  induction q as [|i q IH]; intros x y xy yx s' o I H; cbn [send_all] in H.
  - injection H as <- <-. rewrite app_nil_r. exact I.
  - destruct (s_act y); [injection H as <- <-; rewrite app_nil_r; exact I|]. destruct (send_one i y) as (s1 & p1) eqn:E. destruct (send_all q s1) as (s2 & p2) eqn:F. injection H as <- <-.
    rewrite app_assoc. eapply IH; eauto. eapply rep_sent; eauto.
Qed.

Lemma pop_id_at id w : forall t w', pop_id id w = Some (t, w') -> exists a b, w = a ++ (id, t) :: b /\ w' = a ++ b.
Proof.
  induction w as [|(i & u) w IH]; intros t w' H; [discriminate|]. cbn in H. destruct (N.eqb_spec i id) as [->|].
  - injection H as <- <-. exists [], w. split; reflexivity.
  - destruct (pop_id id w) as [(v & r)|]; [|discriminate]. injection H as <- <-. destruct (IH _ _ eq_refl) as (a & b & -> & ->). exists ((i, u) :: a), b. split; reflexivity.
Qed.
Lemma pop_id_none id w : pop_id id w = None -> forall t, ~ In (id, t) w.
Proof.
  induction w as [|(i & u) w IH]; intros H t Hin; [exact Hin|]. cbn in H. destruct (N.eqb_spec i id) as [->|Ne]; [discriminate|].
  destruct (pop_id id w) as [(v & r)|]; [discriminate|]. destruct Hin as [E|Hin]; [congruence|]. exact (IH eq_refl t Hin).
Qed.
Lemma pop_job_at t l : forall j l', pop_job t l = Some (j, l') -> exists a b, l = a ++ j :: b /\ l' = a ++ b /\ j_tag j = t.
Proof.
  induction l as [|k l IH]; intros j l' H; [discriminate|]. cbn in H. destruct (Nat.eqb_spec (j_tag k) t).
  - injection H as <- <-. exists [], l. repeat split; auto.
  - destruct (pop_job t l) as [(v & r)|]; [|discriminate]. injection H as <- <-. destruct (IH _ _ eq_refl) as (a & b & -> & -> & E). exists (k :: a), b. repeat split; auto.
Qed.
Lemma same_tag (l : list (N * nat)) i t u : NoDup (map fst l) -> In (i, t) l -> In (i, u) l -> t = u.
Proof.
  induction l as [|(j & v) l IH]; intros D H K; [destruct H|]. cbn in D. inversion D as [|? ? D1 D2]; subst. destruct H as [H|H], K as [K|K].
  - congruence.
  - injection H as -> ->. exfalso. apply D1. change i with (fst (i, u)). apply in_map. exact K.
  - injection K as -> ->. exfalso. apply D1. change i with (fst (i, t)). apply in_map. exact H.
  - apply IH; auto.
Qed.

Lemma send_sub q : forall s s' p, send_all q s = (s', p) -> s_sub s' = s_sub s.
Proof.
  induction q as [|i q IH]; intros s s' p F; cbn in F; [injection F as <- <-; reflexivity|]. destruct (s_act s); [injection F as <- <-; reflexivity|].
  destruct (send_one i s) as (s1 & p1) eqn:F1. destruct (send_all q s1) as (s3 & p3) eqn:F2. injection F as <- <-. rewrite (IH _ _ _ F2).
  unfold send_one in F1. destruct i; [destruct (member _ _)|]; injection F1 as <- <-; reflexivity.
Qed.

Lemma own_local o x y xy yx x' yx' out :
  inv x y xy yx -> plain o -> (lenN (s_sub x') < lim)%N -> local o x yx = (x', yx', out) -> inv x' y (xy ++ out) yx'.
Proof.
  intros I Hp L H. destruct o as [arg| | |t r|t|t| |t]; cbn [local] in H; [| | | | | | |destruct Hp].
  - destruct (add _ _) as (s2 & o2) eqn:E. injection H as <- <- <-. unfold add in E. simp.
    assert (Es : s_sub s2 = s_sub x ++ [arg]).
    { apply send_sub in E. exact E. }
    rewrite Es in L. eapply own_send; [| |exact E]; [|exact L]. destruct I. constructor; simp; rewrite ?owns_app, ?map_app, ?app_length; cbn [owns flat_map app map fst snd length] in *; auto.
    + rewrite !app_assoc. apply sorted_end.
      * rewrite !map_app, !app_assoc in i_sorted0. exact i_sorted0.
      * apply Forall_forall. intros u Hu. rewrite <- !app_assoc, <- !map_app in Hu. apply in_map_iff in Hu as (e & <- & He). rewrite Forall_forall in i_args0. specialize (i_args0 e He). exact (nth_lt _ _ _ i_args0).
    + rewrite !app_assoc. apply Forall_app. split.
      * rewrite <- app_assoc. eapply Forall_impl; [|exact i_args0]. intros e He. apply nth_more. exact He.
      * repeat constructor. cbn [fst snd]. rewrite nth_error_app2, Nat.sub_diag by lia. reflexivity.
    + eapply Permutation_NoDup; [rewrite <- app_assoc; apply Permutation_middle|]. constructor; [|exact i_once0]. intros Hu. rewrite Forall_forall in i_known0. specialize (i_known0 _ Hu). lia.
    + rewrite !Forall_app in *. destruct i_known0 as (K1 & K2 & K3). split; [split|split].
      * eapply Forall_impl; [|exact K1]. cbn. intros; lia.
      * repeat constructor. lia.
      * eapply Forall_impl; [|exact K2]. cbn. intros; lia.
      * eapply Forall_impl; [|exact K3]. cbn. intros; lia.
    + lia.
    + rewrite !map_app in i_fly0. exact i_fly0.
    + rewrite !map_app in i_fin0. exact i_fin0.
  - destruct (s_up x && s_act x).
    + destruct (send_all _ _) as (s2 & o2) eqn:E. injection H as <- <- <-. 
      rewrite (send_sub _ _ _ _ E) in L. eapply own_send; [| |exact E]; [|exact L]. destruct I. constructor; simp; auto.
    + injection H as <- <- <-. rewrite app_nil_r. exact I.
  - destruct yx as [|p yx]; injection H as <- <- <-; rewrite app_nil_r; [exact I|]. unfold process in *. destruct (p_kind p) eqn:K.
    + assert (Er : rpls (p :: yx) = rpls yx) by (cbn; rewrite K; reflexivity). destruct I. rewrite Er in *. destruct i_canc0 as (C1 & C2 & N1 & N2). inversion N2; subst. constructor; simp; auto.
    + assert (Er : rpls (p :: yx) = (p_id p, p_tag p, p_data p) :: rpls yx) by (cbn; rewrite K; reflexivity). destruct I. rewrite Er in *. destruct i_canc0 as (C1 & C2 & N1 & N2). inversion N2; subst.
      assert (F1 : In (p_id p, p_tag p) (s_ids x)) by (apply i_fly0; rewrite !map_app, !in_app_iff; right; right; right; left; reflexivity).
      assert (F2 : In (p_tag p, p_data p) (s_fin y)) by (apply i_fin0; rewrite !map_app, !in_app_iff; right; left; reflexivity).
      assert (F3 : incl (map idt (cmds xy ++ jbs (s_jobs y) ++ reps (s_q y) ++ rpls yx)) (s_ids x)).
      { intros u Hu. apply i_fly0. clear - Hu. do 3 (rewrite ?map_app, ?in_app_iff in *; cbn [map In] in *). tauto. }
      assert (F4 : incl (map val (reps (s_q y) ++ rpls yx)) (s_fin y)).
      { intros u Hu. apply i_fin0. clear - Hu. do 3 (rewrite ?map_app, ?in_app_iff in *; cbn [map In] in *). tauto. }
      destruct (pop_id (p_id p) (s_wait x)) as [(t & w)|] eqn:P.
      * destruct (pop_id_at _ _ _ _ P) as (a & b & Ew & ->). assert (t = p_tag p).
        { apply (same_tag (s_ids x) (p_id p)); auto. apply i_wait0. rewrite Ew. apply in_or_app. right. left. reflexivity. }
        subst t. constructor; simp; auto.
        -- rewrite Ew, !map_app in i_once0. cbn [map snd] in i_once0. rewrite !map_app. cbn [map fst]. eapply Permutation_NoDup; [|exact i_once0]. apply Permutation_app_head.
           rewrite <- !app_assoc. apply Permutation_app_head. cbn [app]. rewrite !app_assoc. apply Permutation_cons_append.
        -- rewrite Ew, !map_app in i_known0. cbn [map snd] in i_known0. rewrite !map_app. cbn [map fst]. rewrite !Forall_app in *. destruct i_known0 as (? & (? & Q) & ?). inversion Q; subst. intuition.
        -- intros u Hu. apply i_wait0. rewrite Ew. apply in_or_app. apply in_app_or in Hu as [Hu|Hu]; [left; exact Hu|right; right; exact Hu].
        -- intros u c Hu. apply in_app_or in Hu as [Hu|[Hu|[]]]; [auto|]. injection Hu as <- <-. right. eauto.
      * constructor; auto.
    + exfalso. destruct I. destruct i_canc0 as (C1 & C2 & N1 & N2). inversion N2; subst. contradiction.
  - destruct (pop_job t (s_jobs x)) as [(j & l)|] eqn:P.
    + destruct (add _ _) as (s2 & o2) eqn:E. injection H as <- <- <-. unfold add in E. simp.
      rewrite (send_sub _ _ _ _ E) in L. eapply own_send; [| |exact E]; [|exact L].
      assert (Eo : owns (s_q x ++ [Rep (j_id j) t r]) = owns (s_q x)) by (rewrite owns_app; apply app_nil_r).
      destruct I. constructor; simp; rewrite ?Eo; auto.
    + injection H as <- <- <-. rewrite app_nil_r. exact I.
  - injection H as <- <- <-. rewrite app_nil_r. destruct I. constructor; simp; auto. intros u a Hu. destruct (i_done0 u a Hu) as [(E & F)|F]; [left; split; [exact E|right; exact F]|right; exact F].
  - injection H as <- <- <-. rewrite app_nil_r. destruct I. constructor; simp; auto.
  - injection H as <- <- <-. rewrite app_nil_r. unfold timer. destruct I. constructor; simp; auto.
    + eapply sub_sorted; [|exact i_sorted0]. apply sub_map, sub_app; [apply sub_refl|]. apply sub_app; [apply sub_refl|]. apply owns_filter.
    + eapply sub_forall; [|exact i_args0]. apply sub_app; [apply sub_refl|]. apply sub_app; [apply sub_refl|]. apply owns_filter.
    + eapply Permutation_NoDup; [|exact i_once0]. clear.
      assert (P1 : Permutation (map fst (owns (s_q x))) (map fst (owns (filter (fun i => negb (expired x i)) (s_q x))) ++ map fst (flat_map (fun i => match i with Own t _ => [(t, Timedout)] | Rep _ _ _ => [] end) (filter (expired x) (s_q x))))).
      { induction (s_q x) as [|i q IH]; [constructor|]. cbn [filter]. destruct (expired x i); cbn [negb]; destruct i as [t a|i t r]; cbn; auto. apply Permutation_cons_app. exact IH. }
      assert (P2 : Permutation (map snd (s_wait x)) (map snd (filter (fun e => negb (member (snd e) (s_late x))) (s_wait x)) ++ map fst (map (fun e : N * nat => (snd e, Timedout)) (filter (fun e => member (snd e) (s_late x)) (s_wait x))))).
      { induction (s_wait x) as [|e w IH]; [constructor|]. cbn [filter]. destruct (member (snd e) (s_late x)); cbn; auto. apply Permutation_cons_app. exact IH. }
      rewrite P1 at 1. rewrite P2 at 1. rewrite !map_app.
      set (A := map fst (owns _)). set (B := map fst (flat_map _ _)). set (C := map snd _). set (D := map fst (map _ _)). set (E := map fst (s_done x)).
      rewrite <- !app_assoc. apply Permutation_app_head. transitivity (C ++ D ++ E ++ B).
      * rewrite !app_assoc. rewrite <- !app_assoc. rewrite Permutation_app_comm. rewrite <- !app_assoc. reflexivity.
      * apply Permutation_app_head. transitivity (E ++ B ++ D); [rewrite Permutation_app_comm; rewrite <- app_assoc; reflexivity|]. apply Permutation_app_head. apply Permutation_app_comm.
    + apply Forall_forall. rewrite Forall_forall in i_known0. intros u Hu. apply i_known0. clear - Hu. rewrite ?map_app, ?in_app_iff in *. destruct Hu as [Hu|[Hu|[Hu|[Hu|Hu]]]].
      * left. eapply sub_in; [|exact Hu]. apply sub_map, owns_filter.
      * right. left. eapply sub_in; [|exact Hu]. apply sub_map, sub_filter.
      * tauto.
      * right. left. rewrite map_map in Hu. cbn [fst] in Hu. eapply sub_in; [|exact Hu]. apply (sub_map (fun e : N * nat => snd e)), sub_filter.
      * left. apply in_map_iff in Hu as (e & <- & He). apply in_flat_map in He as (i & Hi & He). apply filter_In in Hi as (Hi & _). destruct i as [t a|]; [|destruct He]. destruct He as [<-|[]].
        apply in_map_iff. exists (t, a). split; [reflexivity|]. apply in_flat_map. exists (Own t a). split; [exact Hi|left; reflexivity].
    + pose proof (sub_length _ _ (owns_filter (fun i => negb (expired x i)) (s_q x))) as Lq. lia.
    + intros u Hu. apply filter_In in Hu as (Hu & _). auto.
    + intros u a Hu. rewrite !in_app_iff in Hu. destruct Hu as [Hu|[Hu|Hu]]; [auto| |].
      * apply in_map_iff in Hu as (e & E & He). injection E as <- <-. apply filter_In in He as (_ & He). left. split; [reflexivity|]. apply member_in. exact He.
      * apply in_flat_map in Hu as (i & Hi & He). apply filter_In in Hi as (Hi & Hl). destruct i as [t b|]; [|destruct He]. destruct He as [E|[]]. injection E as <- <-. left. split; [reflexivity|]. apply member_in. exact Hl.
Qed.

Lemma rep_local o x y xy yx y' xy' out :
  inv x y xy yx -> plain o -> local o y xy = (y', xy', out) -> inv x y' xy' (yx ++ out).
Proof.
  intros I Hp H. destruct o as [arg| | |t r|t|t| |t]; cbn [local] in H; [| | | | | | |destruct Hp].
  - destruct (add _ _) as (s2 & o2) eqn:E. injection H as <- <- <-. unfold add in E. simp. eapply rep_send; [|exact E].
    assert (Eo : reps (s_q y ++ [Own (length (s_sub y)) arg]) = reps (s_q y)) by (rewrite reps_app; apply app_nil_r).
    destruct I. constructor; simp; rewrite ?Eo; auto.
  - destruct (s_up y && s_act y).
    + destruct (send_all _ _) as (s2 & o2) eqn:E. injection H as <- <- <-. eapply rep_send; [|exact E]. destruct I. constructor; simp; auto.
    + injection H as <- <- <-. rewrite app_nil_r. exact I.
  - destruct xy as [|p xy]; injection H as <- <- <-; rewrite app_nil_r; [exact I|]. unfold process. destruct (p_kind p) eqn:K.
    + assert (Er : cmds (p :: xy) = (p_id p, p_tag p, p_data p) :: cmds xy) by (cbn; rewrite K; reflexivity). destruct I. rewrite Er in *. destruct i_canc0 as (C1 & C2 & N1 & N2). inversion N1; subst.
      assert (Nw : ~ In (p_tag p) (map fst (s_exec y))).
      { apply sorted_nodup in i_sorted0. rewrite map_app in i_sorted0. cbn [map app] in i_sorted0. apply NoDup_remove_2 in i_sorted0. intros Hu. apply i_sorted0. apply in_or_app. left. exact Hu. }
      constructor; simp; auto.
      * rewrite <- app_assoc. exact i_sorted0.
      * rewrite <- app_assoc. exact i_args0.
      * intros u Hu. apply i_fly0. clear - Hu. unfold jbs in *. do 3 (rewrite ?map_app, ?in_app_iff in *; cbn [map In] in *). cbn in *. tauto.
      * rewrite map_app. cbn [map]. simp. eapply Permutation_NoDup; [rewrite <- app_assoc; apply Permutation_middle|]. constructor; [|exact i_jobs0]. intros Hu. apply Nw. apply i_done_by0. exact Hu.
      * intros u Hu. rewrite !map_app, !in_app_iff in *. cbn [map In fst] in *. simp. destruct Hu as [[Hu|[Hu|[]]]|Hu]; [left; apply i_done_by0, in_or_app; left; exact Hu|right; left; exact Hu|left; apply i_done_by0, in_or_app; right; exact Hu].
    + assert (Er : cmds (p :: xy) = cmds xy) by (cbn; rewrite K; reflexivity). destruct I. rewrite Er in *. destruct i_canc0 as (C1 & C2 & N1 & N2). inversion N1; subst.
      destruct (pop_id (p_id p) (s_wait y)) as [(t & w)|]; constructor; simp; auto.
    + exfalso. destruct I. destruct i_canc0 as (C1 & C2 & N1 & N2). inversion N1; subst. contradiction.
  - destruct (pop_job t (s_jobs y)) as [(j & l)|] eqn:P.
    + destruct (add _ _) as (s2 & o2) eqn:E. injection H as <- <- <-. unfold add in E. simp. eapply rep_send; [|exact E]. destruct (pop_job_at _ _ _ _ P) as (a & b & Ej & -> & Et).
      assert (Eo : reps (s_q y ++ [Rep (j_id j) t r]) = reps (s_q y) ++ [(j_id j, t, r)]) by (rewrite reps_app; reflexivity).
      destruct I. rewrite Ej in *. constructor; simp; rewrite ?Eo; auto.
      * intros u Hu. apply i_fly0. clear - Hu Et. unfold jbs in *. do 3 (rewrite ?map_app, ?in_app_iff in *; cbn [map In] in *). cbn [idt fst] in *. rewrite Et. tauto.
      * intros u Hu. apply in_or_app. do 3 (rewrite ?map_app, ?in_app_iff in *; cbn [map In] in *). cbn [val fst snd] in Hu. destruct Hu as [[Hu|[Hu|[]]]|Hu].
        -- left. apply i_fin0. apply in_or_app. left. exact Hu.
        -- right. left. exact Hu.
        -- left. apply i_fin0. apply in_or_app. right. exact Hu.
      * rewrite !map_app in *. cbn [map fst] in *. rewrite Et in i_jobs0. eapply Permutation_NoDup; [|exact i_jobs0]. rewrite <- !app_assoc. apply Permutation_app_head. cbn [app]. rewrite app_assoc. apply Permutation_cons_append.
      * intros u Hu. apply i_done_by0. clear - Hu Et. rewrite ?map_app, ?in_app_iff in *. cbn [map In fst] in *. rewrite Et. tauto.
      * intros u c Hu. destruct (i_done0 u c Hu) as [F|(v & E1 & F)]; [left; exact F|]. right. exists v. split; [exact E1|]. apply in_or_app. left. exact F.
    + injection H as <- <- <-. rewrite app_nil_r. exact I.
  - injection H as <- <- <-. rewrite app_nil_r. destruct I. constructor; simp; auto.
  - injection H as <- <- <-. rewrite app_nil_r. destruct I. constructor; simp; auto.
  - injection H as <- <- <-. rewrite app_nil_r. unfold timer. destruct I. constructor; simp; auto.
    + intros u Hu. apply i_fly0. rewrite ?map_app, ?in_app_iff in *. destruct Hu as [Hu|[Hu|[Hu|Hu]]]; [tauto|tauto| |tauto]. right. right. left. eapply sub_in; [|exact Hu]. apply sub_map, reps_filter.
    + intros u Hu. apply i_fin0. rewrite ?map_app, ?in_app_iff in *. destruct Hu as [Hu|Hu]; [|tauto]. left. eapply sub_in; [|exact Hu]. apply sub_map, reps_filter.
Qed.
