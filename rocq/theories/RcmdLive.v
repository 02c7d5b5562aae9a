(* Commands between two nodes: nothing is lost, and everything comes to rest. *)
From Coq Require Import Sorting.Sorted Sorting.Permutation.
From Verif Require Import Common ListFacts Bytes RcmdSpec RcmdModel RcmdProofs.

(* ---- both directions ---- *)

Lemma again_inv c s cs sc out :
  inv c s [] [] -> (lenN (s_sub c) < lim)%N -> send_all (s_q c) (with_act false (open_server c)) = (cs, out) -> s_jobs s = [] -> s_q s = [] -> sc = open_server s -> inv cs sc out [].
Proof.
  intros I L E _ _ ->. change out with ([] ++ out). eapply own_send; [| |exact E]; [|exact L]. destruct I as [i_sorted0 i_args0 i_once0 i_known0 i_cnt0 i_few0 i_nodup0 i_range0 i_wait0 i_fly0 i_fin0 i_jobs0 i_done_by0 i_done0 i_canc0]. constructor; simp; auto.
Qed.
Definition down (w : world) : Prop := s_up (w_c w) = false -> w_cs w = [] /\ w_sc w = [] /\ s_jobs (w_s w) = [] /\ s_q (w_s w) = [] /\ s_up (w_s w) = false.

Lemma send_up q : forall s s' p, send_all q s = (s', p) -> s_up s' = s_up s.
Proof.
  induction q as [|i q IH]; intros s s' p F; cbn in F; [injection F as <- <-; reflexivity|]. destruct (s_act s); [injection F as <- <-; reflexivity|].
  destruct (send_one i s) as (s1 & p1) eqn:F1. destruct (send_all q s1) as (s3 & p3) eqn:F2. injection F as <- <-. rewrite (IH _ _ _ F2).
  unfold send_one in F1. destruct i; [destruct (member _ _)|]; injection F1 as <- <-; reflexivity.
Qed.
Lemma send_down q : forall s s' p, s_up s = false -> send_all q s = (s', p) -> p = [].
Proof.
  induction q as [|i q IH]; intros s s' p U F; cbn in F; [injection F as <- <-; reflexivity|]. destruct (s_act s); [injection F as <- <-; reflexivity|].
  destruct (send_one i s) as (s1 & p1) eqn:F1. destruct (send_all q s1) as (s3 & p3) eqn:F2. injection F as <- <-.
  assert (p1 = [] /\ s_up s1 = false) as (-> & U1) by (unfold send_one in F1; rewrite U in F1; destruct i; [destruct (member _ _)|]; injection F1 as <- <-; auto).
  exact (IH _ _ _ U1 F2).
Qed.
Lemma local_up o s inn s' inn' out : local o s inn = (s', inn', out) -> s_up s' = s_up s.
Proof.
  intros H. destruct o; cbn [local] in H; try (injection H as <- <- <-; reflexivity).
  - destruct (add _ _) eqn:E. injection H as <- <- <-. apply send_up in E. exact E.
  - destruct (s_up s && s_act s); [|injection H as <- <- <-; reflexivity]. destruct (send_all _ _) eqn:E. injection H as <- <- <-. apply send_up in E. exact E.
  - destruct inn as [|p r]; injection H as <- <- <-; [reflexivity|]. unfold process. destruct (p_kind p); [reflexivity| |]; destruct (pop_id _ _) as [(? & ?)|]; reflexivity.
  - destruct (pop_job _ _) as [(j & l)|]; [|injection H as <- <- <-; reflexivity]. destruct (add _ _) eqn:E. injection H as <- <- <-. apply send_up in E. exact E.
Qed.
Lemma local_down o s s' inn' out : s_up s = false -> local o s [] = (s', inn', out) -> inn' = [] /\ out = [].
Proof.
  intros U H. destruct o; cbn [local] in H; try (injection H as <- <- <-; auto).
  - destruct (add _ _) eqn:E. injection H as <- <- <-. split; [reflexivity|]. eapply send_down; [|exact E]. exact U.
  - rewrite U in H. injection H as <- <- <-. auto.
  - destruct (pop_job _ _) as [(j & l)|]; [|injection H as <- <- <-; auto]. destruct (add _ _) eqn:E. injection H as <- <- <-. split; [reflexivity|]. eapply send_down; [|exact E]. exact U.
Qed.
Lemma down_step w v : down w -> down (step w v).
Proof.
  intros D. destruct v as [[|] o| |]; cbn [step].
  - destruct (local o (w_c w) (w_sc w)) as ((c & inn) & out) eqn:E. intros U. cbn [w_c w_s w_cs w_sc] in *. assert (U0 : s_up (w_c w) = false) by (rewrite <- (local_up _ _ _ _ _ _ E); exact U).
    destruct (D U0) as (D1 & D2 & D3). rewrite D2 in E. destruct (local_down _ _ _ _ _ U0 E) as (-> & ->). rewrite D1. auto.
  - destruct (s_up (w_s w)) eqn:Us; [|exact D]. destruct (local o (w_s w) (w_cs w)) as ((s & inn) & out) eqn:E. intros U. cbn [w_c w_s w_cs w_sc] in *. destruct (D U) as (_ & _ & _ & _ & D5). congruence.
  - destruct (s_up (w_c w)) eqn:U; [|exact D]. intros _. cbn. auto.
  - destruct (s_up (w_c w)) eqn:U; [exact D|]. destruct (send_all _ _) as (c & out) eqn:E. intros Uc. cbn [w_c] in *. apply send_up in E. cbn in E. congruence.
Qed.

Lemma sub_grows o s inn s' inn' out : local o s inn = (s', inn', out) -> s_sub s' = s_sub s ++ match o with Submit a => [a] | _ => [] end.
Proof.
  intros H. destruct o; cbn [local] in H; rewrite ?app_nil_r; try (injection H as <- <- <-; reflexivity).
  - destruct (add _ _) eqn:E. injection H as <- <- <-. apply send_sub in E. exact E.
  - destruct (s_up s && s_act s); [|injection H as <- <- <-; reflexivity]. destruct (send_all _ _) eqn:E. injection H as <- <- <-. apply send_sub in E. exact E.
  - destruct inn as [|p r]; injection H as <- <- <-; [reflexivity|]. unfold process. destruct (p_kind p); [reflexivity| |]; destruct (pop_id _ _) as [(? & ?)|]; reflexivity.
  - destruct (pop_job _ _) as [(j & l)|]; [|injection H as <- <- <-; reflexivity]. destruct (add _ _) eqn:E. injection H as <- <- <-. apply send_sub in E. exact E.
Qed.

Lemma client_step w v : inv (w_c w) (w_s w) (w_cs w) (w_sc w) -> down w -> tame v -> (lenN (s_sub (w_c (step w v))) < lim)%N ->
  inv (w_c (step w v)) (w_s (step w v)) (w_cs (step w v)) (w_sc (step w v)).
Proof.
  intros I D T L. destruct v as [[|] o| |]; cbn [step] in *.
  - destruct (local o (w_c w) (w_sc w)) as ((c & inn) & out) eqn:E. cbn [w_c w_s w_cs w_sc] in *. eapply own_local; eauto.
  - destruct (s_up (w_s w)); [|exact I]. destruct (local o (w_s w) (w_cs w)) as ((s & inn) & out) eqn:E. cbn [w_c w_s w_cs w_sc] in *. eapply rep_local; eauto.
  - destruct (s_up (w_c w)); [|exact I]. cbn [w_c w_s w_cs w_sc] in *. destruct I as [i_sorted0 i_args0 i_once0 i_known0 i_cnt0 i_few0 i_nodup0 i_range0 i_wait0 i_fly0 i_fin0 i_jobs0 i_done_by0 i_done0 i_canc0]. destruct i_canc0 as (C1 & C2 & _). constructor; cbn [close_client close_server s_up s_act s_q s_wait s_cnt s_late s_canc s_jobs s_sub s_done s_exec s_fin s_ids] in *; auto.
    + eapply sub_sorted; [|exact i_sorted0]. apply sub_map, sub_app; [apply sub_refl|]. apply (sub_app [] _); [apply sub_nothing|apply sub_refl].
    + eapply sub_forall; [|exact i_args0]. apply sub_app; [apply sub_refl|]. apply (sub_app [] _); [apply sub_nothing|apply sub_refl].
    + intros u [].
    + intros u [].
    + eapply sub_nodup; [|exact i_jobs0]. apply (sub_app [] _); [apply sub_nothing|apply sub_refl].
    + intros u Hu. apply i_done_by0. apply in_or_app. right. exact Hu.
    + repeat split; auto; constructor.
  - destruct (s_up (w_c w)) eqn:U; [exact I|]. destruct (D U) as (D1 & D2 & D3 & D4 & D5). destruct (send_all _ _) as (c & out) eqn:E. cbn [w_c w_s w_cs w_sc] in *. rewrite D1, D2 in I.
    eapply again_inv; eauto. apply send_sub in E. rewrite E in L. exact L.
Qed.
Lemma server_step w v : inv (w_s w) (w_c w) (w_sc w) (w_cs w) -> s_up (w_c w) = true -> tame v -> kept v -> (lenN (s_sub (w_s (step w v))) < lim)%N ->
  inv (w_s (step w v)) (w_c (step w v)) (w_sc (step w v)) (w_cs (step w v)) /\ s_up (w_c (step w v)) = true.
Proof.
  intros I U T K L. destruct v as [[|] o| |]; cbn [step] in *; [| |destruct K|rewrite U; auto].
  - destruct (local o (w_c w) (w_sc w)) as ((c & inn) & out) eqn:E. cbn [w_c w_s w_cs w_sc] in *. split; [eapply rep_local; eauto|]. rewrite (local_up _ _ _ _ _ _ E). exact U.
  - destruct (s_up (w_s w)); [|auto]. destruct (local o (w_s w) (w_cs w)) as ((s & inn) & out) eqn:E. cbn [w_c w_s w_cs w_sc] in *. split; [eapply own_local; eauto|exact U].
Qed.
Lemma fresh_inv : inv fresh fresh [] [].
Proof. constructor; cbn; auto; try (constructor; fail); try (intros ? []; fail); try (intros ? ? []; fail). repeat split; constructor. Qed.

Lemma run_end l v w : run (l ++ [v]) w = step (run l w) v.
Proof. unfold run. rewrite fold_left_app. reflexivity. Qed.
Lemma client_sub l : s_sub (w_c (run l start)) = submitted Client l.
Proof.
  induction l as [|v l IH] using rev_ind; [reflexivity|]. rewrite run_end. unfold submitted in *. rewrite flat_map_app, <- IH. cbn [flat_map]. rewrite app_nil_r. destruct v as [[|] o| |]; cbn [step submits].
  - destruct (local o _ _) as ((c & inn) & out) eqn:E. cbn [w_c]. rewrite (sub_grows _ _ _ _ _ _ E). destruct o; reflexivity.
  - destruct (s_up (w_s _)); [destruct (local o _ _) as ((c & inn) & out) eqn:E|]; destruct o; cbn [w_c]; rewrite app_nil_r; reflexivity.
  - destruct (s_up (w_c _)); rewrite app_nil_r; reflexivity.
  - destruct (s_up (w_c _)); [rewrite app_nil_r; reflexivity|]. destruct (send_all _ _) as (c & out) eqn:E. cbn [w_c]. rewrite app_nil_r. apply send_sub in E. exact E.
Qed.
Lemma client_inv l : Forall tame l -> (lenN (submitted Client l) < lim)%N -> let w := run l start in inv (w_c w) (w_s w) (w_cs w) (w_sc w) /\ down w.
Proof.
  induction l as [|v l IH] using rev_ind; intros T L; cbn zeta in *.
  - split; [exact fresh_inv|]. intros U. discriminate.
  - apply Forall_app in T as (T & Tv). inversion Tv; subst. rewrite <- client_sub in L. rewrite run_end in *.
    assert (L0 : (lenN (submitted Client l) < lim)%N).
    { rewrite <- run_end, client_sub in L. unfold submitted in *. rewrite flat_map_app in L. unfold lenN in *. rewrite app_length in L. lia. }
    destruct (IH T L0) as (I & D). split; [apply client_step; auto|apply down_step; exact D].
Qed.
Lemma server_up l : Forall kept l -> s_up (w_c (run l start)) = true /\ s_up (w_s (run l start)) = true /\ s_sub (w_s (run l start)) = submitted Server l.
Proof.
  induction l as [|v l IH] using rev_ind; intros K; [auto|]. apply Forall_app in K as (K & Kv). inversion Kv; subst. destruct (IH K) as (U & V & S0). rewrite run_end. unfold submitted in *. rewrite flat_map_app, <- S0.
  cbn [flat_map]. rewrite app_nil_r. destruct v as [[|] o| |]; cbn [step submits]; [| |contradiction|rewrite U, app_nil_r; auto].
  - destruct (local o _ _) as ((c & inn) & out) eqn:E. cbn [w_c w_s]. rewrite (local_up _ _ _ _ _ _ E). destruct o; rewrite app_nil_r; auto.
  - rewrite V. destruct (local o _ _) as ((c & inn) & out) eqn:E. cbn [w_c w_s]. rewrite (local_up _ _ _ _ _ _ E), (sub_grows _ _ _ _ _ _ E). destruct o; auto.
Qed.
Lemma server_inv l : Forall tame l -> Forall kept l -> (lenN (submitted Server l) < lim)%N -> let w := run l start in inv (w_s w) (w_c w) (w_sc w) (w_cs w).
Proof.
  induction l as [|v l IH] using rev_ind; intros T K L; cbn zeta in *; [exact fresh_inv|].
  apply Forall_app in T as (T & Tv). inversion Tv; subst. pose proof (server_up _ K) as (_ & _ & S0). apply Forall_app in K as (K & Kv). inversion Kv; subst.
  assert (L0 : (lenN (submitted Server l) < lim)%N).
  { unfold submitted in *. rewrite flat_map_app in L. unfold lenN in *. rewrite app_length in L. lia. }
  rewrite run_end in *. apply server_step; auto; [apply server_up; exact K|]. rewrite S0. exact L.
Qed.
Lemma end_inv l e : Forall tame l -> e = Client \/ Forall kept l -> (lenN (submitted e l) < lim)%N ->
  (let x := at_end e (run l start) in exists y xy yx, y = at_end (other e) (run l start) /\ inv x y xy yx) /\ s_sub (at_end e (run l start)) = submitted e l.
Proof.
  intros T K L. destruct e; cbn [at_end other].
  - split; [|apply client_sub]. do 3 eexists. split; [reflexivity|]. apply client_inv; auto.
  - destruct K as [K|K]; [discriminate|]. split; [|apply server_up; exact K]. do 3 eexists. split; [reflexivity|]. apply server_inv; auto.
Qed.

(* ---- nothing is lost on a connection which stays ---- *)
Record comp (x y : side) (xy yx : list packet) : Prop := mkC {
  k_up : s_up x = true;
  k_upy : s_up y = true;
  k_all : forall t, (t < length (s_sub x))%nat -> In t (map fst (owns (s_q x)) ++ map snd (s_wait x) ++ map fst (s_done x));
  k_wait : incl (s_wait x) (map idt (cmds xy ++ jbs (s_jobs y) ++ reps (s_q y) ++ rpls yx));
  k_jl : s_jlate y = [] }.

Ltac ins := do 4 (rewrite ?map_app, ?in_app_iff in *; cbn [map In fst snd] in *).

Lemma own_sent_c i q x y xy yx s' o :
  s_canc x = [] -> comp (with_q (i :: q) x) y xy yx -> send_one i x = (s', o) -> comp (with_q q s') y (xy ++ o) yx /\ s_canc s' = [].
Proof.
  intros C [U V A W J] H. unfold send_one in H. simp. rewrite U, C in H. destruct i as [t a|id t r].
  - destruct (member t (s_late x)).
    + injection H as <- <-. rewrite app_nil_r. split; [|exact C]. constructor; simp; auto. intros u Hu. specialize (A u Hu). change (owns (Own t a :: q)) with ((t, a) :: owns q) in A. clear - A. ins. tauto.
    + injection H as <- <-. split; [|reflexivity]. cbn [member existsb]. constructor; simp; auto.
      * intros u Hu. specialize (A u Hu). change (owns (Own t a :: q)) with ((t, a) :: owns q) in A. clear - A. ins. tauto.
      * rewrite cmds_app. change (cmds [mkP KCommand (next_id (s_cnt x)) t a]) with [(next_id (s_cnt x), t, a)]. intros u Hu. apply in_app_or in Hu as [Hu|[Hu|[]]].
        -- specialize (W u Hu). clear - W. ins. tauto.
        -- clear - Hu. ins. cbn [idt fst]. tauto.
  - injection H as <- <-. split; [|exact C]. constructor; simp; auto. rewrite cmds_app. change (cmds [mkP KReply id t r]) with (@nil (N * nat * bytes)). rewrite app_nil_r. exact W.
Qed.
Lemma rep_sent_c i q x y xy yx s' o :
  s_canc y = [] -> comp x (with_q (i :: q) y) xy yx -> send_one i y = (s', o) -> comp x (with_q q s') xy (yx ++ o) /\ s_canc s' = [].
Proof.
  intros C [U V A W J] H. unfold send_one in H. simp. rewrite V, C in H. destruct i as [t a|id t r].
  - destruct (member t (s_late y)).
    + injection H as <- <-. rewrite app_nil_r. split; [|exact C]. constructor; simp; auto.
    + injection H as <- <-. split; [|reflexivity]. cbn [member existsb]. constructor; simp; auto. rewrite rpls_app. change (rpls [mkP KCommand (next_id (s_cnt y)) t a]) with (@nil (N * nat * bytes)). rewrite app_nil_r. exact W.
  - injection H as <- <-. split; [|exact C]. constructor; simp; auto. rewrite rpls_app. change (rpls [mkP KReply id t r]) with [(id, t, r)].
    change (reps (Rep id t r :: q)) with ((id, t, r) :: reps q) in W. intros u Hu. specialize (W u Hu). clear - W. ins. tauto.
Qed.
Lemma own_send_c q : forall x y xy yx s' o, s_canc x = [] -> comp (with_q q x) y xy yx -> send_all q x = (s', o) -> comp s' y (xy ++ o) yx.
Proof.
  induction q as [|i q IH]; intros x y xy yx s' o C I H; cbn [send_all] in H.
  - injection H as <- <-. rewrite app_nil_r. exact I.
  - destruct (s_act x); [injection H as <- <-; rewrite app_nil_r; exact I|]. destruct (send_one i x) as (s1 & p1) eqn:E. destruct (send_all q s1) as (s2 & p2) eqn:F. injection H as <- <-.
    destruct (own_sent_c _ _ _ _ _ _ _ _ C I E) as (I1 & C1). rewrite app_assoc. eapply IH; eauto.
Qed.
Lemma rep_send_c q : forall x y xy yx s' o, s_canc y = [] -> comp x (with_q q y) xy yx -> send_all q y = (s', o) -> comp x s' xy (yx ++ o).
Proof.
  induction q as [|i q IH]; intros x y xy yx s' o C I H; cbn [send_all] in H.
  - injection H as <- <-. rewrite app_nil_r. exact I.
  - destruct (s_act y); [injection H as <- <-; rewrite app_nil_r; exact I|]. destruct (send_one i y) as (s1 & p1) eqn:E. destruct (send_all q s1) as (s2 & p2) eqn:F. injection H as <- <-.
    destruct (rep_sent_c _ _ _ _ _ _ _ _ C I E) as (I1 & C1). rewrite app_assoc. eapply IH; eauto.
Qed.


Lemma own_local_c o x y xy yx x' yx' out :
  inv x y xy yx -> comp x y xy yx -> plain o -> local o x yx = (x', yx', out) -> comp x' y (xy ++ out) yx'.
Proof.
  intros I K Hp H. pose proof (i_canc _ _ _ _ I) as (Cx & Cy & N1 & N2). pose proof K as [U V A W J]. destruct o as [arg| | |t r|t|t| |t]; cbn [local] in H; [| | | | | | |destruct Hp].
  - destruct (add _ _) as (s2 & o2) eqn:E. injection H as <- <- <-. unfold add in E. simp. eapply own_send_c; [| |exact E]; [exact Cx|]. constructor; simp; auto.
    intros u Hu. rewrite app_length in Hu. cbn [length] in Hu. rewrite owns_app. change (owns [Own (length (s_sub x)) arg]) with [(length (s_sub x), arg)]. destruct (Nat.eq_dec u (length (s_sub x))) as [->|Ne].
    + ins. tauto.
    + assert (Hl : (u < length (s_sub x))%nat) by lia. specialize (A u Hl). clear - A. ins. tauto.
  - destruct (s_up x && s_act x).
    + destruct (send_all _ _) as (s2 & o2) eqn:E. injection H as <- <- <-. eapply own_send_c; [| |exact E]; [exact Cx|]. constructor; simp; auto.
    + injection H as <- <- <-. rewrite app_nil_r. exact K.
  - destruct yx as [|p yx]; injection H as <- <- <-; rewrite app_nil_r; [exact K|]. unfold process. destruct (p_kind p) eqn:Kp.
    + assert (Er : rpls (p :: yx) = rpls yx) by (cbn; rewrite Kp; reflexivity). rewrite Er in *. constructor; simp; auto.
    + assert (Er : rpls (p :: yx) = (p_id p, p_tag p, p_data p) :: rpls yx) by (cbn; rewrite Kp; reflexivity). pose proof (i_fly _ _ _ _ I) as Fl. rewrite Er in *.
      assert (F1 : In (p_id p, p_tag p) (s_ids x)) by (apply Fl; rewrite !map_app, !in_app_iff; right; right; right; left; reflexivity).
      destruct (pop_id (p_id p) (s_wait x)) as [(t & w)|] eqn:P.
      * destruct (pop_id_at _ _ _ _ P) as (a & b & Ew & ->).
        assert (t = p_tag p).
        { apply (same_tag (s_ids x) (p_id p)); auto; [apply (i_nodup _ _ _ _ I)|]. apply (i_wait _ _ _ _ I). rewrite Ew. apply in_or_app. right. left. reflexivity. }
        subst t. pose proof (i_once _ _ _ _ I) as On. rewrite Ew in *. constructor; simp; auto.
        -- intros u Hu. specialize (A u Hu). clear - A. ins. tauto.
        -- intros u Hu. assert (Hw : In u (a ++ (p_id p, p_tag p) :: b)) by (apply in_app_or in Hu as [Hu|Hu]; apply in_or_app; [left|right; right]; exact Hu).
           assert (Ne : u <> (p_id p, p_tag p)).
           { intros ->. rewrite map_app in On. cbn [map] in On. apply NoDup_app_iff in On as (_ & On & _). apply NoDup_app_iff in On as (On & _). apply NoDup_remove_2 in On. apply On.
             rewrite <- map_app. change (snd (p_id p, p_tag p)) with (snd (p_id p, p_tag p)). apply in_map. exact Hu. }
           specialize (W u Hw). clear - W Ne. ins. cbn [idt fst] in W. destruct W as [W|[W|[W|[W|W]]]]; try tauto. exfalso. apply Ne. symmetry. exact W.
      * constructor; simp; auto. intros u Hu. specialize (W u Hu). assert (Ne : u <> (p_id p, p_tag p)) by (intros ->; exact (pop_id_none _ _ P _ Hu)).
        clear - W Ne. ins. cbn [idt fst] in W. destruct W as [W|[W|[W|[W|W]]]]; try tauto. exfalso. apply Ne. symmetry. exact W.
    + exfalso. inversion N2; subst. contradiction.
  - destruct (pop_job t (s_jobs x)) as [(j & l)|] eqn:P.
    + destruct (add _ _) as (s2 & o2) eqn:E. injection H as <- <- <-. unfold add in E. simp. eapply own_send_c; [| |exact E]; [exact Cx|].
      assert (Eo : owns (s_q x ++ [Rep (j_id j) t r]) = owns (s_q x)) by (rewrite owns_app; apply app_nil_r). constructor; simp; rewrite ?Eo; auto.
    + injection H as <- <- <-. rewrite app_nil_r. exact K.
  - injection H as <- <- <-. rewrite app_nil_r. constructor; simp; auto.
  - injection H as <- <- <-. rewrite app_nil_r. constructor; simp; auto.
  - injection H as <- <- <-. rewrite app_nil_r. unfold timer. constructor; simp; auto.
    + intros u Hu. specialize (A u Hu). rewrite !in_app_iff in A. rewrite !map_app, !in_app_iff. destruct A as [A|[A|A]]; [| |tauto].
      * apply in_map_iff in A as ((u' & a) & <- & A). cbn [fst]. apply in_flat_map in A as (i & Hi & A). destruct i as [v b|]; [|destruct A]. destruct A as [A|[]]. injection A as -> ->.
        destruct (member u' (s_late x)) eqn:M.
        -- right. right. right. right. apply in_map_iff. exists (u', Timedout). split; [reflexivity|]. apply in_flat_map. exists (Own u' a). split; [|left; reflexivity]. apply filter_In. split; [exact Hi|exact M].
        -- left. apply in_map_iff. exists (u', a). split; [reflexivity|]. apply in_flat_map. exists (Own u' a). split; [|left; reflexivity]. apply filter_In. split; [exact Hi|]. cbn [expired]. rewrite M. reflexivity.
      * apply in_map_iff in A as ((i & u') & <- & A). cbn [snd]. destruct (member u' (s_late x)) eqn:M.
        -- right. right. right. left. rewrite map_map. cbn [fst]. apply in_map_iff. exists (i, u'). split; [reflexivity|]. apply filter_In. split; [exact A|exact M].
        -- right. left. apply in_map_iff. exists (i, u'). split; [reflexivity|]. apply filter_In. split; [exact A|]. cbn [snd]. rewrite M. reflexivity.
    + intros u Hu. apply filter_In in Hu as (Hu & _). auto.
Qed.

Lemma rep_local_c o x y xy yx y' xy' out :
  inv x y xy yx -> comp x y xy yx -> plain o -> unhurried o -> local o y xy = (y', xy', out) -> comp x y' xy' (yx ++ out).
Proof.
  intros I K Hp Hu H. pose proof (i_canc _ _ _ _ I) as (Cx & Cy & N1 & N2). pose proof K as [U V A W J]. destruct o as [arg| | |t r|t|t| |t]; cbn [local] in H; [| | | | |destruct Hu| |destruct Hp].
  - destruct (add _ _) as (s2 & o2) eqn:E. injection H as <- <- <-. unfold add in E. simp. eapply rep_send_c; [| |exact E]; [exact Cy|].
    assert (Eo : reps (s_q y ++ [Own (length (s_sub y)) arg]) = reps (s_q y)) by (rewrite reps_app; apply app_nil_r). constructor; simp; rewrite ?Eo; auto.
  - destruct (s_up y && s_act y).
    + destruct (send_all _ _) as (s2 & o2) eqn:E. injection H as <- <- <-. eapply rep_send_c; [| |exact E]; [exact Cy|]. constructor; simp; auto.
    + injection H as <- <- <-. rewrite app_nil_r. exact K.
  - destruct xy as [|p xy]; injection H as <- <- <-; rewrite app_nil_r; [exact K|]. unfold process. destruct (p_kind p) eqn:Kp.
    + assert (Er : cmds (p :: xy) = (p_id p, p_tag p, p_data p) :: cmds xy) by (cbn; rewrite Kp; reflexivity). rewrite Er in *. constructor; simp; auto.
      intros u Hw. specialize (W u Hw). clear - W. unfold jbs in *. ins. simp. tauto.
    + assert (Er : cmds (p :: xy) = cmds xy) by (cbn; rewrite Kp; reflexivity). rewrite Er in *. destruct (pop_id (p_id p) (s_wait y)) as [(t & w)|]; constructor; simp; auto.
    + exfalso. inversion N1; subst. contradiction.
  - destruct (pop_job t (s_jobs y)) as [(j & l)|] eqn:P.
    + destruct (add _ _) as (s2 & o2) eqn:E. injection H as <- <- <-. unfold add in E. simp. eapply rep_send_c; [| |exact E]; [exact Cy|]. destruct (pop_job_at _ _ _ _ P) as (a & b & Ej & -> & Et).
      assert (Eo : reps (s_q y ++ [Rep (j_id j) t r]) = reps (s_q y) ++ [(j_id j, t, r)]) by (rewrite reps_app; reflexivity). rewrite Ej in *. constructor; simp; rewrite ?Eo; auto.
      intros u Hw. specialize (W u Hw). clear - W Et. unfold jbs in *. ins. cbn [idt fst] in *. rewrite Et in W. tauto.
    + injection H as <- <- <-. rewrite app_nil_r. exact K.
  - injection H as <- <- <-. rewrite app_nil_r. constructor; simp; auto.
  - injection H as <- <- <-. rewrite app_nil_r. unfold timer. constructor; simp; auto.
    assert (Er : reps (filter (fun i => negb (expired y i)) (s_q y)) = reps (s_q y)); [|rewrite Er; exact W].
    clear - J. induction (s_q y) as [|i q IH]; [reflexivity|]. cbn [filter]. destruct i as [t a|i t r].
    + destruct (negb _); [|exact IH]. exact IH.
    + cbn [expired]. rewrite J. cbn [member existsb negb]. change (reps (Rep i t r :: ?z)) with ((i, t, r) :: reps z). cbn [reps flat_map app]. f_equal. exact IH.
Qed.

(* ---- rest ---- *)
Definition busy (s : side) : Prop := s_q s = [] \/ s_act s = true.
Lemma send_busy q : forall s s' p, send_all q s = (s', p) -> busy s'.
Proof.
  induction q as [|i q IH]; intros s s' p F; cbn in F; [injection F as <- <-; left; reflexivity|]. destruct (s_act s) eqn:A; [injection F as <- <-; right; exact A|].
  destruct (send_one i s) as (s1 & p1). destruct (send_all q s1) as (s3 & p3) eqn:F2. injection F as <- <-. exact (IH _ _ _ F2).
Qed.
Lemma local_busy o s inn s' inn' out : busy s -> local o s inn = (s', inn', out) -> busy s'.
Proof.
  intros B H. destruct o; cbn [local] in H; try (injection H as <- <- <-; exact B).
  - destruct (add _ _) eqn:E. injection H as <- <- <-. exact (send_busy _ _ _ _ E).
  - destruct (s_up s && s_act s); [|injection H as <- <- <-; exact B]. destruct (send_all _ _) eqn:E. injection H as <- <- <-. exact (send_busy _ _ _ _ E).
  - destruct inn as [|p r]; injection H as <- <- <-; [exact B|]. unfold process. destruct (p_kind p); [exact B| |]; destruct (pop_id _ _) as [(? & ?)|]; exact B.
  - destruct (pop_job _ _) as [(j & l)|]; [|injection H as <- <- <-; exact B]. destruct (add _ _) eqn:E. injection H as <- <- <-. exact (send_busy _ _ _ _ E).
  - injection H as <- <- <-. unfold timer, busy in *. simp. destruct B as [->|B]; [left; reflexivity|right; exact B].
Qed.

Lemma at_rest x y : comp x y [] [] -> busy x -> busy y -> s_jobs y = [] -> s_act x = false -> s_act y = false ->
  forall t, (t < length (s_sub x))%nat -> exists a, In (t, a) (s_done x).
Proof.
  intros [U V A W J] Bx By Jb Ax Ay t Ht. destruct Bx as [Qx|B]; [|congruence]. destruct By as [Qy|B]; [|congruence]. rewrite Qy, Jb in W. cbn in W. apply incl_l_nil in W.
  specialize (A t Ht). rewrite Qx, W in A. cbn in A. apply in_map_iff in A as ((u & a) & <- & A). eauto.
Qed.

Definition wi (i : item) : nat := match i with Own _ _ => 10 | Rep _ _ _ => 4 end.
Definition wp (p : packet) : nat := match p_kind p with KCommand => 8 | _ => 2 end.
Definition sum {A} (f : A -> nat) (l : list A) : nat := fold_right (fun x n => f x + n)%nat 0%nat l.
Definition ms (s : side) : nat := (sum wi (s_q s) + 6 * length (s_jobs s) + if s_act s then 1 else 0)%nat.
Definition measure (w : world) : nat := (ms (w_c w) + ms (w_s w) + sum wp (w_cs w) + sum wp (w_sc w))%nat.
Lemma sum_app {A} (f : A -> nat) a b : sum f (a ++ b) = (sum f a + sum f b)%nat.
Proof. induction a; cbn; [reflexivity|]. unfold sum in IHa |- *. lia. Qed.
Lemma send_less q : forall s s' p, send_all q s = (s', p) -> (ms s' + sum wp p <= sum wi q + 6 * length (s_jobs s) + if s_act s then 1 else 0)%nat.
Proof.
  induction q as [|i q IH]; intros s s' p F; cbn [send_all] in F.
  - injection F as <- <-. unfold ms. simp. cbn. lia.
  - destruct (s_act s) eqn:A; [injection F as <- <-; unfold ms; simp; rewrite A; cbn; lia|]. destruct (send_one i s) as (s1 & p1) eqn:E. destruct (send_all q s1) as (s3 & p3) eqn:F2. injection F as <- <-.
    specialize (IH _ _ _ F2). rewrite sum_app. change (sum wi (i :: q)) with (wi i + sum wi q)%nat.
    assert (G : (sum wp p1 + (6 * length (s_jobs s1) + if s_act s1 then 1 else 0) <= wi i + 6 * length (s_jobs s))%nat); [|destruct (s_act s1); lia].
    unfold send_one in E. destruct i as [t a|i t r]; [destruct (member t (s_late s))|]; injection E as <- <-; simp; cbn [wi]; rewrite ?A.
    + cbn. lia.
    + destruct (s_up s); cbn; [|lia]. destruct (member t (s_canc s)); cbn; lia.
    + destruct (s_up s); cbn; lia.
Qed.

Definition movable (s : side) (inn : list packet) : Prop := s_act s = true \/ inn <> [] \/ s_jobs s <> [].
Lemma moves s inn (res : nat -> bytes) : s_up s = true -> movable s inn -> exists o s' inn' out, (o = SendDone \/ o = Recv \/ exists t, o = Finish t (res t)) /\
  local o s inn = (s', inn', out) /\ (ms s' + sum wp inn' + sum wp out < ms s + sum wp inn)%nat.
Proof.
  intros U [A|[A|A]].
  - exists SendDone. cbn [local]. rewrite U, A. cbn [andb]. destruct (send_all (s_q s) (with_act false s)) as (s2 & o2) eqn:E. exists s2, inn, o2. split; [tauto|]. split; [reflexivity|].
    apply send_less in E. simp. unfold ms at 2. rewrite A. lia.
  - exists Recv. destruct inn as [|p r]; [congruence|]. exists (process p s), r, []. split; [tauto|]. split; [reflexivity|]. change (sum wp (p :: r)) with (wp p + sum wp r)%nat. cbn [sum fold_right].
    unfold process, wp, ms. destruct (p_kind p); simp; [rewrite app_length; cbn [length]; lia| |]; destruct (pop_id (p_id p) (s_wait s)) as [(t & w)|]; simp; lia.
  - destruct (s_jobs s) as [|j l] eqn:Ej; [congruence|]. exists (Finish (j_tag j) (res (j_tag j))). cbn [local]. rewrite Ej. cbn [pop_job]. rewrite Nat.eqb_refl.
    match goal with |- context [add ?a ?b] => destruct (add a b) as (s2 & o2) eqn:E end. exists s2, inn, o2. split; [right; right; eauto|]. split; [reflexivity|]. unfold add in E. apply send_less in E. simp.
    rewrite sum_app in E. cbn [sum fold_right wi] in E. unfold ms at 2. rewrite Ej. cbn [length]. unfold sum in *. lia.
Qed.
Lemma drain (res : nat -> bytes) n : forall w, (measure w < n)%nat -> s_up (w_c w) = true -> s_up (w_s w) = true ->
  exists l, Forall (onward_res res) l /\ rest (run l w).
Proof.
  induction n as [|n IH]; intros w M U V; [lia|].
  assert (Hc : movable (w_c w) (w_sc w) \/ movable (w_s w) (w_cs w) \/ rest w).
  { unfold movable, rest. destruct (s_act (w_c w)), (s_act (w_s w)), (w_cs w), (w_sc w), (s_jobs (w_c w)), (s_jobs (w_s w)); try (left; left; reflexivity); try (right; left; left; reflexivity);
    try (left; right; left; discriminate); try (left; right; right; discriminate); try (right; left; right; left; discriminate); try (right; left; right; right; discriminate). right. right. auto 10. }
  destruct Hc as [Hc|[Hc|Hc]].
  - destruct (moves _ _ res U Hc) as (o & s' & inn' & out & Ho & E & Hl).
    destruct (IH (step w (At Client o))) as (l & Fl & Rl).
    + cbn [step]. rewrite E. unfold measure in *. cbn [w_c w_s w_cs w_sc]. rewrite sum_app. lia.
    + cbn [step]. rewrite E. cbn. rewrite (local_up _ _ _ _ _ _ E). exact U.
    + cbn [step]. rewrite E. exact V.
    + exists (At Client o :: l). split; [|exact Rl]. constructor; [|exact Fl]. destruct Ho as [->|[->|(t & ->)]]; [exact Logic.I|exact Logic.I|reflexivity].
  - destruct (moves _ _ res V Hc) as (o & s' & inn' & out & Ho & E & Hl).
    destruct (IH (step w (At Server o))) as (l & Fl & Rl).
    + cbn [step]. rewrite V, E. unfold measure in *. cbn [w_c w_s w_cs w_sc]. rewrite sum_app. lia.
    + cbn [step]. rewrite V, E. exact U.
    + cbn [step]. rewrite V, E. cbn. rewrite (local_up _ _ _ _ _ _ E). exact V.
    + exists (At Server o :: l). split; [|exact Rl]. constructor; [|exact Fl]. destruct Ho as [->|[->|(t & ->)]]; [exact Logic.I|exact Logic.I|reflexivity].
  - exists []. split; [constructor|exact Hc].
Qed.

Lemma both_comp l : Forall tame l -> Forall kept l -> Forall calm_far l -> (lenN (submitted Client l) < lim)%N -> (lenN (submitted Server l) < lim)%N ->
  let w := run l start in comp (w_c w) (w_s w) (w_cs w) (w_sc w) /\ comp (w_s w) (w_c w) (w_sc w) (w_cs w) /\ busy (w_c w) /\ busy (w_s w).
Proof.
  induction l as [|v l IH] using rev_ind; intros T K F L1 L2; cbn zeta in *.
  - repeat split; try reflexivity; try (intros ? H; cbn in H; lia); try (intros ? []); left; reflexivity.
  - apply Forall_app in T as (T & Tv). apply Forall_app in K as (K & Kv). apply Forall_app in F as (F & Fv). inversion Tv; subst. inversion Kv; subst. inversion Fv; subst.
    assert (L1' : (lenN (submitted Client l) < lim)%N) by (unfold submitted in *; rewrite flat_map_app in L1; unfold lenN in *; rewrite app_length in L1; lia).
    assert (L2' : (lenN (submitted Server l) < lim)%N) by (unfold submitted in *; rewrite flat_map_app in L2; unfold lenN in *; rewrite app_length in L2; lia).
    destruct (IH T K F L1' L2') as (C1 & C2 & B1 & B2). destruct (client_inv l T L1') as (I1 & _). pose proof (server_inv l T K L2') as I2. cbn zeta in *. pose proof (server_up l K) as (U & V & _).
    rewrite run_end. destruct v as [[|] o| |]; cbn [step]; [| |contradiction|rewrite U; auto].
    + destruct (local o _ _) as ((c & inn) & out) eqn:E. cbn [w_c w_s w_cs w_sc]. repeat apply conj; [eapply own_local_c; eauto|eapply rep_local_c; eauto|exact (local_busy _ _ _ _ _ _ B1 E)|exact B2].
    + rewrite V. destruct (local o _ _) as ((c & inn) & out) eqn:E. cbn [w_c w_s w_cs w_sc]. repeat apply conj; [eapply rep_local_c; eauto|eapply own_local_c; eauto|exact B1|exact (local_busy _ _ _ _ _ _ B2 E)].
Qed.
Lemma late_events l e t : In t (s_late (at_end e (run l start))) -> In (At e (Late t)) l.
Proof.
  assert (G : forall o s inn s' inn' out, local o s inn = (s', inn', out) -> In t (s_late s') -> In t (s_late s) \/ o = Late t).
  { assert (G0 : forall q s s' p, send_all q s = (s', p) -> s_late s' = s_late s).
    { induction q as [|i q IH]; intros s s' p F; cbn in F; [injection F as <- <-; reflexivity|]. destruct (s_act s); [injection F as <- <-; reflexivity|].
      destruct (send_one i s) as (s1 & p1) eqn:F1. destruct (send_all q s1) as (s3 & p3) eqn:F2. injection F as <- <-. rewrite (IH _ _ _ F2).
      unfold send_one in F1. destruct i; [destruct (member _ _)|]; injection F1 as <- <-; reflexivity. }
    intros o s inn s' inn' out H Hl. destruct o; cbn [local] in H; try (injection H as <- <- <-; left; exact Hl).
    - destruct (add _ _) eqn:E. injection H as <- <- <-. apply G0 in E. rewrite E in Hl. left. exact Hl.
    - destruct (s_up s && s_act s); [|injection H as <- <- <-; left; exact Hl]. destruct (send_all _ _) eqn:E. injection H as <- <- <-. apply G0 in E. rewrite E in Hl. left. exact Hl.
    - destruct inn as [|p r]; injection H as <- <- <-; [left; exact Hl|]. unfold process in Hl. destruct (p_kind p); [left; exact Hl| |]; destruct (pop_id _ _) as [(? & ?)|]; left; exact Hl.
    - destruct (pop_job _ _) as [(j & m)|]; [|injection H as <- <- <-; left; exact Hl]. destruct (add _ _) eqn:E. injection H as <- <- <-. apply G0 in E. rewrite E in Hl. left. exact Hl.
    - injection H as <- <- <-. simp. destruct Hl as [->|Hl]; auto. }
  induction l as [|v l IH] using rev_ind; [destruct e; intros []|]. rewrite run_end. intros H. apply in_or_app. destruct v as [[|] o| |]; cbn [step] in H.
  - destruct (local o _ _) as ((c & inn) & out) eqn:E. destruct e; cbn [at_end w_c w_s] in *; [|left; apply IH; exact H]. destruct (G _ _ _ _ _ _ E H) as [H1|H1]; [left; apply IH; exact H1|right; left; congruence].
  - destruct (s_up (w_s _)); [|left; apply IH; exact H]. destruct (local o _ _) as ((c & inn) & out) eqn:E. destruct e; cbn [at_end w_c w_s] in *; [left; apply IH; exact H|].
    destruct (G _ _ _ _ _ _ E H) as [H1|H1]; [left; apply IH; exact H1|right; left; congruence].
  - left. apply IH. destruct (s_up (w_c _)); [|exact H]. destruct e; exact H.
  - left. apply IH. destruct (s_up (w_c _)); [exact H|]. destruct (send_all _ _) as (c & out) eqn:E. destruct e; cbn [at_end w_c w_s] in *; [|exact H].
    assert (G0 : forall q s s' p, send_all q s = (s', p) -> s_late s' = s_late s).
    { induction q as [|i q IHq]; intros s s' p F; cbn in F; [injection F as <- <-; reflexivity|]. destruct (s_act s); [injection F as <- <-; reflexivity|].
      destruct (send_one i s) as (s1 & p1) eqn:F1. destruct (send_all q s1) as (s3 & p3) eqn:F2. injection F as <- <-. rewrite (IHq _ _ _ F2).
      unfold send_one in F1. destruct i; [destruct (member _ _)|]; injection F1 as <- <-; reflexivity. }
    rewrite (G0 _ _ _ _ E) in H. exact H.
Qed.
