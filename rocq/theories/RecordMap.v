(* Facts about name order and sorted association lists. *)
From Verif Require Import Common ListFacts Bytes RecordSpec RecordModel.
Open Scope N_scope.

Lemma bcmp_refl a : bcmp a a = Eq.
Proof. induction a as [|x a IH]; cbn [bcmp]; auto. rewrite N.compare_refl. auto. Qed.

Lemma bcmp_eq a : forall b, bcmp a b = Eq -> a = b.
Proof.
  induction a as [|x a IH]; intros [|y b] H; cbn [bcmp] in H; try discriminate; auto.
  destruct (N.compare_spec x y); try discriminate. subst. f_equal. auto.
Qed.

Lemma bcmp_antisym a : forall b, bcmp b a = CompOpp (bcmp a b).
Proof.
  induction a as [|x a IH]; intros [|y b]; cbn [bcmp]; auto.
  rewrite N.compare_antisym. destruct (x ?= y); cbn [CompOpp]; auto.
Qed.

Lemma blt_trans a : forall b c, blt a b -> blt b c -> blt a c.
Proof.
  unfold blt. induction a as [|x a IH]; intros [|y b] [|z c] H1 H2; cbn [bcmp] in *; try discriminate; auto.
  destruct (N.compare_spec x y); try discriminate; destruct (N.compare_spec y z); try discriminate; subst.
  - rewrite N.compare_refl. eapply IH; eauto.
  - rewrite (proj2 (N.compare_lt_iff _ _)); auto.
  - rewrite (proj2 (N.compare_lt_iff _ _)); auto.
  - rewrite (proj2 (N.compare_lt_iff _ _)); auto. lia.
Qed.

Lemma blt_irrefl a : ~ blt a a.
Proof. unfold blt. rewrite bcmp_refl. discriminate. Qed.

Lemma beqb_spec a b : reflect (a = b) (beqb a b).
Proof.
  unfold beqb. destruct (bcmp a b) eqn:E; constructor.
  - apply bcmp_eq; auto.
  - intros ->. rewrite bcmp_refl in E. discriminate.
  - intros ->. rewrite bcmp_refl in E. discriminate.
Qed.

Lemma beqb_refl a : beqb a a = true.
Proof. destruct (beqb_spec a a); auto. Qed.

Section M.
Context {V : Type}.
Implicit Types m : fmap V.

Definition keys (m : fmap V) : list bytes := map fst m.

Lemma msorted_tail e m : msorted (e :: m) -> msorted m.
Proof. destruct e. cbn [msorted]. tauto. Qed.

Lemma msorted_lt k v m : msorted ((k, v) :: m) -> forall k', In k' (keys m) -> blt k k'.
Proof.
  revert k v. induction m as [|(k1, v1) m IH]; intros k v H k' Hk; [destruct Hk|].
  cbn [keys map fst] in Hk. destruct H as (H1 & H2). destruct Hk as [<-|Hk]; auto.
  eapply blt_trans; [exact H1|]. eapply IH; eauto.
Qed.

Lemma msorted_nodup m : msorted m -> NoDup (keys m).
Proof.
  induction m as [|(k, v) m IH]; intros H; cbn [keys map]; constructor.
  - intros Hk. eapply blt_irrefl. eapply (msorted_lt _ _ _ H). exact Hk.
  - apply IH. eapply msorted_tail; eauto.
Qed.

Lemma mget_none_keys k m : ~ In k (keys m) -> mget k m = None.
Proof.
  induction m as [|(k', v) m IH]; intros H; cbn [mget]; auto. cbn [keys map fst In] in H.
  destruct (beqb_spec k k'); [subst; tauto|]. apply IH. tauto.
Qed.

Lemma mget_in k v m : mget k m = Some v -> In (k, v) m.
Proof.
  induction m as [|(k', v') m IH]; cbn [mget]; [discriminate|].
  destruct (beqb_spec k k') as [->|N]; intros H; [injection H as ->; left; auto|right; auto].
Qed.

Lemma in_mget k v m : NoDup (keys m) -> In (k, v) m -> mget k m = Some v.
Proof.
  induction m as [|(k', v') m IH]; intros ND H; [destruct H|]. cbn [keys map fst] in ND. inversion ND; subst.
  cbn [mget]. destruct H as [H|H].
  - injection H as -> ->. rewrite beqb_refl. auto.
  - destruct (beqb_spec k k') as [->|N]; [|apply IH; auto]. exfalso. apply H2. apply in_map_iff. exists (k', v). auto.
Qed.

Lemma mget_some_keys k v m : mget k m = Some v -> In k (keys m).
Proof. intros H. apply mget_in in H. apply in_map_iff. exists (k, v). auto. Qed.

Lemma keys_mget k m : In k (keys m) -> exists v, mget k m = Some v.
Proof.
  induction m as [|(k', v') m IH]; intros H; [destruct H|]. cbn [mget keys map fst] in *.
  destruct (beqb_spec k k'); [eauto|]. destruct H as [H|H]; [congruence|auto].
Qed.

Lemma mset_keys k v m : forall k', In k' (keys (mset k v m)) <-> k' = k \/ In k' (keys m).
Proof.
  induction m as [|(k1, v1) m IH]; intros k'; cbn [mset keys map fst In].
  - intuition.
  - destruct (bcmp k k1) eqn:E; cbn [keys map fst In].
    + apply bcmp_eq in E. subst. intuition.
    + intuition.
    + fold (keys (mset k v m)). rewrite IH. unfold keys. intuition.
Qed.

Lemma mset_sorted k v m : msorted m -> msorted (mset k v m).
Proof.
  induction m as [|(k1, v1) m IH]; intros H; cbn [mset]; [cbn; auto|].
  destruct (bcmp k k1) eqn:E.
  - apply bcmp_eq in E. subst. destruct H as (H1 & H2). split; auto.
  - split; auto.
  - pose proof (msorted_lt _ _ _ H) as HL. specialize (IH (msorted_tail _ _ H)).
    cbn [msorted]. split; auto. pose proof (mset_keys k v m) as HK.
    destruct (mset k v m) as [|(k2, v2) r]; auto.
    destruct (proj1 (HK k2)) as [-> |HI]; [cbn; auto| |].
    + unfold blt. rewrite bcmp_antisym, E. reflexivity.
    + apply HL. auto.
Qed.

Lemma mget_mset k v m : msorted m -> forall k', mget k' (mset k v m) = if beqb k' k then Some v else mget k' m.
Proof.
  induction m as [|(k1, v1) m IH]; intros H k'; cbn [mset mget]; auto.
  destruct (bcmp k k1) eqn:E; cbn [mget].
  - apply bcmp_eq in E. subst. destruct (beqb_spec k' k1); auto.
  - auto.
  - rewrite IH by (eapply msorted_tail; eauto). destruct (beqb_spec k' k1) as [->|N1]; auto.
    destruct (beqb_spec k1 k) as [->|N2]; auto. rewrite bcmp_refl in E. discriminate.
Qed.

Lemma filter_sorted f m : msorted m -> msorted (filter f m).
Proof.
  induction m as [|(k, v) m IH]; intros H; [exact I|].
  cbn [filter]. specialize (IH (msorted_tail _ _ H)). destruct (f (k, v)); auto.
  cbn [msorted]. split; auto. destruct (filter f m) as [|(k2, v2) r] eqn:E; auto.
  apply (msorted_lt _ _ _ H). assert (I2 : In (k2, v2) (filter f m)) by (rewrite E; left; auto).
  apply filter_In in I2. apply in_map_iff. exists (k2, v2). tauto.
Qed.

Lemma mget_filter f m k : NoDup (keys m) ->
  mget k (filter f m) = match mget k m with Some v => if f (k, v) then Some v else None | None => None end.
Proof.
  induction m as [|(k', v') m IH]; intros ND; auto. cbn [keys map fst] in ND. inversion ND; subst.
  cbn [mget filter]. destruct (f (k', v')) eqn:F; cbn [mget]; destruct (beqb_spec k k') as [->|N]; auto.
  - rewrite F. auto.
  - rewrite F. rewrite IH by auto. rewrite mget_none_keys; auto.
Qed.

Lemma mdel_sorted k m : msorted m -> msorted (mdel k m).
Proof. apply filter_sorted. Qed.

Lemma mget_mdel k m k' : NoDup (keys m) -> mget k' (mdel k m) = if beqb k' k then None else mget k' m.
Proof.
  intros ND. unfold mdel. rewrite mget_filter by auto. cbn [fst].
  destruct (beqb_spec k' k) as [->|N].
  - rewrite beqb_refl. cbn [negb]. destruct (mget k m); auto.
  - destruct (mget k' m); auto. destruct (beqb_spec k k'); [congruence|]. auto.
Qed.

(* two sorted maps with the same content are the same list *)
Lemma msorted_ext m : forall m', msorted m -> msorted m' -> (forall k, mget k m = mget k m') -> m = m'.
Proof.
  induction m as [|(k, v) m IH]; intros [|(k', v') m'] H H' E; auto.
  - specialize (E k'). cbn [mget] in E. rewrite beqb_refl in E. discriminate.
  - specialize (E k). cbn [mget] in E. rewrite beqb_refl in E. discriminate.
  - assert (k = k').
    { destruct (bcmp k k') eqn:C; [apply bcmp_eq; auto| |].
      - exfalso. pose proof (E k) as Ek. cbn [mget] in Ek. rewrite beqb_refl in Ek.
        destruct (beqb_spec k k') as [->|N]; [rewrite bcmp_refl in C; discriminate|].
        symmetry in Ek. apply mget_some_keys in Ek. apply (msorted_lt _ _ _ H') in Ek.
        eapply blt_irrefl. eapply blt_trans; [exact C|exact Ek].
      - exfalso. pose proof (E k') as Ek. cbn [mget] in Ek. rewrite beqb_refl in Ek.
        destruct (beqb_spec k' k) as [->|N]; [rewrite bcmp_refl in C; discriminate|].
        apply mget_some_keys in Ek. apply (msorted_lt _ _ _ H) in Ek.
        eapply blt_irrefl. eapply blt_trans; [|exact Ek]. unfold blt. rewrite bcmp_antisym, C. reflexivity. }
    subst k'. assert (v = v').
    { specialize (E k). cbn [mget] in E. rewrite beqb_refl in E. congruence. }
    subst v'. f_equal. apply IH; [eapply msorted_tail; eauto|eapply msorted_tail; eauto|].
    intros k'. specialize (E k'). cbn [mget] in E. destruct (beqb_spec k' k) as [Ek|N]; [|exact E].
    rewrite Ek. rewrite !mget_none_keys; auto.
    + intros HI. apply (msorted_lt _ _ _ H') in HI. eapply blt_irrefl; eauto.
    + intros HI. apply (msorted_lt _ _ _ H) in HI. eapply blt_irrefl; eauto.
Qed.

(* setting a list of fields with distinct names *)
Lemma fold_mset_sorted (l : fmap V) : forall m, msorted m -> msorted (fold_left (fun m e => mset (fst e) (snd e) m) l m).
Proof. induction l as [|e l IH]; intros m H; cbn [fold_left]; auto. apply IH. apply mset_sorted. auto. Qed.

Lemma mget_fold_mset (l : fmap V) : forall m, NoDup (keys l) -> msorted m -> forall k,
  mget k (fold_left (fun m e => mset (fst e) (snd e) m) l m) = match mget k l with Some v => Some v | None => mget k m end.
Proof.
  induction l as [|(k1, v1) l IH]; intros m ND H k; cbn [fold_left]; auto.
  cbn [keys map fst] in ND. inversion ND; subst. cbn [fst snd].
  rewrite IH; auto using mset_sorted. cbn [mget]. rewrite mget_mset by auto.
  destruct (beqb_spec k k1) as [->|N]; auto. rewrite mget_none_keys; auto.
Qed.
End M.
