(* Lemmas about the numbering of module items. *)
From Verif Require Import Common ListFacts ItemsSpec ItemsModel.

Lemma kind_eqb_spec a b : reflect (a = b) (kind_eqb a b).
Proof. destruct a, b; constructor; congruence. Qed.
Definition get (h : list (option item)) (x : nat) : option item := match nth_error h x with Some o => o | None => None end.
Lemma deref_get m x : deref m x = match get (m_heap m) x with Some i => Ok i | None => UB end.
Proof. unfold deref, get. destruct (nth_error (m_heap m) x) as [[i|]|]; reflexivity. Qed.
Lemma get_upd h x y o : get (upd h x o) y = if x =? y then (if x <? length h then o else None) else get h y.
Proof.
  unfold get. destruct (Nat.eqb_spec x y) as [E|E].
  - subst y. destruct (Nat.ltb_spec x (length h)) as [L|L]; [rewrite nth_error_upd_same by exact L; reflexivity|]. assert (nth_error (upd h x o) x = None) as -> by (apply nth_error_None; rewrite upd_length; exact L). reflexivity.
  - rewrite nth_error_upd_other by exact E. reflexivity.
Qed.
Lemma get_lt h x i : get h x = Some i -> x < length h.
Proof. unfold get. destruct (nth_error h x) eqn:E; [|discriminate]. intros _. apply nth_error_Some. congruence. Qed.
Definition with_sub (i : item) (n : nat) : item := mkItem (i_kind i) (i_name i) (i_id i) n.

(* numbering [l] from [n] on *)
Fixpoint renumber (h : list (option item)) (n : nat) (l : list nat) : list (option item) :=
  match l with
  | [] => h
  | y :: r => renumber (match get h y with Some i => upd h y (Some (with_sub i n)) | None => h end) (S n) r
  end.
Lemma renumber_other h n l y : ~ In y l -> get (renumber h n l) y = get h y.
Proof.
  revert h n. induction l as [|x l IH]; intros h n H; [reflexivity|]. cbn [renumber]. rewrite IH by (intros Hi; apply H; right; exact Hi).
  destruct (get h x) eqn:E; [|reflexivity]. rewrite get_upd. destruct (Nat.eqb_spec x y); [exfalso; apply H; left; assumption|reflexivity].
Qed.
Lemma renumber_at h n l : NoDup l -> forall p y, nth_error l p = Some y -> get (renumber h n l) y = option_map (fun i => with_sub i (n + p)) (get h y).
Proof.
  revert h n. induction l as [|x l IH]; intros h n D p y H; [destruct p; discriminate|]. inversion D as [|? ? Hx D']; subst. cbn [renumber]. destruct p as [|p].
  - cbn in H. injection H as <-. rewrite renumber_other by exact Hx. destruct (get h x) eqn:E; [|rewrite E; reflexivity]. rewrite get_upd, Nat.eqb_refl. apply get_lt in E. apply Nat.ltb_lt in E. rewrite E. rewrite Nat.add_0_r. reflexivity.
  - cbn in H. rewrite (IH _ (S n) D' p y H). assert (Ne : x <> y) by (intros ->; apply Hx; eapply nth_error_In; exact H).
    assert (G : get (match get h x with Some i => upd h x (Some (with_sub i n)) | None => h end) y = get h y). { destruct (get h x); [|reflexivity]. rewrite get_upd. destruct (Nat.eqb_spec x y); [contradiction|reflexivity]. }
    rewrite G. replace (S n + p) with (n + S p) by lia. reflexivity.
Qed.
Lemma renumber_length h n l : length (renumber h n l) = length h.
Proof. revert h n. induction l as [|x l IH]; intros h n; [reflexivity|]. cbn [renumber]. rewrite IH. destruct (get h x); [apply upd_length|reflexivity]. Qed.

Lemma loop_tail k x : forall rest done m fuel, m_vec m k = done ++ rest -> ~ In x rest -> Forall (fun y => exists i, get (m_heap m) y = Some i) rest -> length rest < fuel ->
  remove_loop fuel m k x (length done) = Ok (set_heap m (renumber (m_heap m) (length done) rest)).
Proof.
  induction rest as [|y rest IH]; intros done m fuel E Nx Al L; (destruct fuel as [|f]; [cbn in L; lia|]); cbn [remove_loop].
  - assert (nth_error (m_vec m k) (length done) = None) as -> by (apply nth_error_None; rewrite E, app_nil_r; lia). destruct m; reflexivity.
  - rewrite E, nth_error_app2, Nat.sub_diag by lia. cbn [nth_error]. destruct (Nat.eqb_spec y x) as [->|Ne]; [exfalso; apply Nx; left; reflexivity|].
    inversion Al as [|? ? (i & Hi) Al']; subst. unfold set_sub. rewrite deref_get, Hi. cbn [bind renumber]. rewrite Hi.
    set (m1 := set_heap m _). assert (L1 : S (length done) = length (done ++ [y])) by (rewrite app_length; cbn; lia). rewrite L1.
    rewrite (IH (done ++ [y]) m1 f).
    + subst m1. unfold set_heap. cbn [m_heap m_items m_vec m_queue]. reflexivity.
    + subst m1. cbn [set_heap m_vec]. rewrite E, <- app_assoc. reflexivity.
    + intros H. apply Nx. right. exact H.
    + subst m1. cbn [set_heap m_heap]. eapply Forall_impl; [|exact Al']. intros z (j & Hj). rewrite get_upd. destruct (Nat.eqb_spec y z); [|eauto]. apply get_lt in Hi. apply Nat.ltb_lt in Hi. rewrite Hi. eauto.
    + cbn in L. lia.
Qed.
(* up to the item itself *)
Lemma loop_head k x b : forall a done m fuel, m_vec m k = done ++ a ++ x :: b -> ~ In x a -> ~ In x b -> Forall (fun y => exists i, get (m_heap m) y = Some i) (a ++ b) -> length (a ++ x :: b) < fuel ->
  exists m', remove_loop fuel m k x (length done) = Ok m' /\ m_heap m' = renumber (renumber (m_heap m) (length done) a) (S (length done + length a)) (tl b) /\ m_items m' = m_items m /\ m_queue m' = m_queue m /\
  (forall k', m_vec m' k' = if kind_eqb k k' then done ++ a ++ b else m_vec m k').
Proof.
  induction a as [|y a IH]; intros done m fuel E Na Nb Al L; (destruct fuel as [|f]; [cbn in L; lia|]); cbn [remove_loop].
  - rewrite E, nth_error_app2, Nat.sub_diag by lia. cbn [app nth_error]. rewrite Nat.eqb_refl. cbn [app renumber length].
    assert (Er : erase (done ++ x :: b) (length done) = done ++ b). { unfold erase. rewrite firstn_app, firstn_all, Nat.sub_diag. cbn [firstn]. rewrite app_nil_r. f_equal. replace (S (length done)) with (length (done ++ [x])) by (rewrite app_length; cbn; lia). change (done ++ x :: b) with (done ++ [x] ++ b). rewrite app_assoc, skipn_app, skipn_all, Nat.sub_diag. reflexivity. }
    rewrite Er. set (m1 := set_vec m k (done ++ b)). destruct b as [|z b].
    + destruct f as [|f]; [cbn in L; lia|]. cbn [remove_loop]. assert (nth_error (m_vec m1 k) (S (length done)) = None) as ->. { apply nth_error_None. subst m1. cbn [set_vec m_vec]. destruct (kind_eqb_spec k k); [|congruence]. rewrite app_nil_r. lia. }
      exists m1. split; [reflexivity|]. split; [reflexivity|]. split; [reflexivity|]. split; [reflexivity|]. intros k'. reflexivity.
    + assert (L1 : S (length done) = length (done ++ [z])) by (rewrite app_length; cbn; lia). rewrite L1. cbn [app] in Al. rewrite (loop_tail k x b (done ++ [z]) m1 f).
      * eexists. split; [reflexivity|]. subst m1. cbn [set_heap set_vec m_heap m_items m_queue m_vec tl]. rewrite Nat.add_0_r, <- L1. split; [reflexivity|]. split; [reflexivity|]. split; [reflexivity|]. intros k'. reflexivity.
      * subst m1. cbn [set_vec m_vec]. destruct (kind_eqb_spec k k); [|congruence]. rewrite <- app_assoc. reflexivity.
      * intros H. apply Nb. right. exact H.
      * inversion Al; subst. assumption.
      * cbn in L. lia.
  - rewrite E. cbn [app]. rewrite nth_error_app2, Nat.sub_diag by lia. cbn [nth_error]. destruct (Nat.eqb_spec y x) as [->|Ne]; [exfalso; apply Na; left; reflexivity|].
    cbn [app] in Al. inversion Al as [|? ? (i & Hi) Al']; subst. unfold set_sub. rewrite deref_get, Hi. cbn [bind renumber]. rewrite Hi.
    set (m1 := set_heap m _). assert (L1 : S (length done) = length (done ++ [y])) by (rewrite app_length; cbn; lia). rewrite L1.
    destruct (IH (done ++ [y]) m1 f) as (m' & R & H1 & H2 & H3 & H4).
    + subst m1. cbn [set_heap m_vec]. rewrite E, <- app_assoc. reflexivity.
    + intros H. apply Na. right. exact H.
    + exact Nb.
    + subst m1. cbn [set_heap m_heap]. eapply Forall_impl; [|exact Al']. intros z (j & Hj). rewrite get_upd. destruct (Nat.eqb_spec y z); [|eauto]. apply get_lt in Hi. apply Nat.ltb_lt in Hi. rewrite Hi. eauto.
    + cbn in L. lia.
    + exists m'. split; [exact R|]. split; [rewrite H1; subst m1; cbn [set_heap m_heap]; rewrite <- L1; cbn [length]; replace (S (length done) + length a) with (length done + S (length a)) by lia; reflexivity|].
      split; [exact H2|]. split; [exact H3|]. intros k'. rewrite H4. destruct (kind_eqb k k'); [|reflexivity]. rewrite <- app_assoc. reflexivity.
Qed.

Lemma nodup_l {A} (a b : list A) : NoDup (a ++ b) -> NoDup a.
Proof. induction a as [|x a IH]; intros H; [constructor|]. inversion H; subst. constructor; [|auto]. intros Hi. apply H2. apply in_or_app. left. exact Hi. Qed.
Lemma nodup_r {A} (a b : list A) : NoDup (a ++ b) -> NoDup b.
Proof. induction a as [|x a IH]; intros H; [exact H|]. inversion H; subst. auto. Qed.

(* a consistent module, apart from the numbers *)
Record good (m : module) : Prop := {
  g_live : forall k x, In x (m_vec m k) -> exists i, get (m_heap m) x = Some i /\ i_kind i = k /\ i_id i = x /\ nth_error (m_items m) x = Some (Some x);
  g_nodup : forall k, NoDup (m_vec m k);
  g_len : length (m_items m) = length (m_heap m)
}.
(* the numbers of a list *)
Definition right_at (h : list (option item)) (l : list nat) (n : nat) : Prop := forall y i, nth_error l n = Some y -> get h y = Some i -> i_sub i = n.
Definition numbered (h : list (option item)) (l : list nat) : Prop := forall n, right_at h l n.
Definition one_wrong (h : list (option item)) (l : list nat) : Prop :=
  exists j, (forall n, n <> j -> right_at h l n) /\ forall y i, nth_error l j = Some y -> get h y = Some i -> j <= i_sub i.
Lemma numbered_one h l : numbered h l -> one_wrong h l.
Proof. intros H. exists 0. split; [intros; apply H|intros; lia]. Qed.

Definition same_item (i i' : item) : Prop := i_kind i' = i_kind i /\ i_name i' = i_name i /\ i_id i' = i_id i.
Definition same_heap (h h' : list (option item)) : Prop :=
  length h' = length h /\ forall y, match get h y with Some i => exists i', get h' y = Some i' /\ same_item i i' | None => get h' y = None end.
Lemma same_refl h : same_heap h h.
Proof. split; [reflexivity|]. intros y. destruct (get h y) as [i|]; [|reflexivity]. exists i. split; [reflexivity|]. unfold same_item; auto. Qed.
Lemma same_trans a b c : same_heap a b -> same_heap b c -> same_heap a c.
Proof.
  intros (L1 & H1) (L2 & H2). split; [congruence|]. intros y. specialize (H1 y). specialize (H2 y). destruct (get a y) as [i|].
  - destruct H1 as (i' & G & S1). rewrite G in H2. destruct H2 as (i2 & G2 & S2). exists i2. split; [exact G2|]. unfold same_item in *. intuition congruence.
  - rewrite H1 in H2. exact H2.
Qed.
Lemma renumber_same h n l : same_heap h (renumber h n l).
Proof.
  revert h n. induction l as [|x l IH]; intros h n; [apply same_refl|]. cbn [renumber]. eapply same_trans; [|apply IH]. destruct (get h x) as [i|] eqn:E; [|apply same_refl].
  split; [apply upd_length|]. intros y. rewrite get_upd. destruct (Nat.eqb_spec x y) as [->|Ne].
  - rewrite E. apply get_lt in E. apply Nat.ltb_lt in E. rewrite E. eexists. split; [reflexivity|]. unfold same_item, with_sub; auto.
  - destruct (get h y); [|reflexivity]. eexists. split; [reflexivity|]. unfold same_item; auto.
Qed.
Lemma same_get h h' y i' : same_heap h h' -> get h' y = Some i' -> exists i, get h y = Some i /\ same_item i i'.
Proof. intros (_ & H) G. specialize (H y). destruct (get h y) as [i|]; [|congruence]. destruct H as (i2 & G2 & S2). exists i. split; [reflexivity|]. congruence. Qed.

Definition minus (x : nat) (l : list nat) : list nat := filter (fun y => negb (y =? x)) l.
Lemma minus_in x y l : In y (minus x l) <-> In y l /\ y <> x.
Proof. unfold minus. rewrite filter_In, negb_true_iff, Nat.eqb_neq. reflexivity. Qed.
Lemma minus_none x l : ~ In x l -> minus x l = l.
Proof. induction l as [|y l IH]; intros H; [reflexivity|]. unfold minus in *. cbn [filter]. destruct (Nat.eqb_spec y x) as [->|Ne]; cbn [negb]; [exfalso; apply H; left; reflexivity|]. rewrite IH; [reflexivity|]. intros Hi. apply H. right. exact Hi. Qed.
Lemma minus_at x a b : ~ In x a -> ~ In x b -> minus x (a ++ x :: b) = a ++ b.
Proof. intros Ha Hb. unfold minus. rewrite filter_app. cbn [filter]. rewrite Nat.eqb_refl. cbn [negb]. change (minus x a ++ minus x b = a ++ b). rewrite !minus_none by assumption. reflexivity. Qed.

(* one of the five loops *)
Record kind_done (m m' : module) (k : kind) (x : nat) : Prop := {
  kd_heap : same_heap (m_heap m) (m_heap m');
  kd_items : m_items m' = m_items m;
  kd_queue : m_queue m' = m_queue m;
  kd_vec : forall k', m_vec m' k' = if kind_eqb k k' then minus x (m_vec m k) else m_vec m k';
  kd_others : forall y i, get (m_heap m) y = Some i -> i_kind i <> k -> get (m_heap m') y = Some i;
  kd_absent : ~ In x (m_vec m k) -> numbered (m_heap m') (m_vec m' k);
  kd_last : forall a, m_vec m k = a ++ [x] -> numbered (m_heap m') (m_vec m' k);
  kd_one : one_wrong (m_heap m) (m_vec m k) -> one_wrong (m_heap m') (m_vec m' k)
}.
Lemma renumbered h l : NoDup l -> numbered (renumber h 0 l) l.
Proof. intros D n y i E G. rewrite (renumber_at h 0 l D n y E) in G. destruct (get h y); [|discriminate]. cbn in G. injection G as <-. reflexivity. Qed.
Lemma remove_kind_ok m k x : good m -> exists m', remove_kind m k x = Ok m' /\ kind_done m m' k x.
Proof.
  intros G. unfold remove_kind. assert (Al : forall y, In y (m_vec m k) -> exists i, get (m_heap m) y = Some i) by (intros y Hy; destruct (g_live m G k y Hy) as (i & Hi & _); eauto).
  assert (D := g_nodup m G k). destruct (in_dec Nat.eq_dec x (m_vec m k)) as [Hx|Hx].
  - apply in_split in Hx. destruct Hx as (a & b & E). rewrite E in D. assert (D2 := D). apply NoDup_remove in D2. destruct D2 as (Dab & Nx). assert (Na : ~ In x a) by (intros H; apply Nx, in_or_app; left; exact H). assert (Nb : ~ In x b) by (intros H; apply Nx, in_or_app; right; exact H).
    destruct (loop_head k x b a [] m (S (length (m_vec m k))) E Na Nb) as (m' & R & H1 & H2 & H3 & H4).
    { apply Forall_forall. intros y Hy. apply Al. rewrite E. apply in_app_or in Hy. apply in_or_app. destruct Hy; [left|right; right]; assumption. }
    { rewrite E. lia. }
    exists m'. split; [exact R|]. cbn [length] in H1. rewrite Nat.add_0_l in H1. cbn [app] in H4.
    assert (V : m_vec m' k = a ++ b) by (rewrite H4; destruct (kind_eqb_spec k k); [reflexivity|congruence]).
    assert (Da : NoDup a) by (apply nodup_l in Dab; exact Dab).
    assert (Db : NoDup (tl b)) by (apply nodup_r in Dab; destruct b; [constructor|inversion Dab; assumption]).
    assert (Rt : forall n, n <> length a -> right_at (m_heap m') (a ++ b) n).
    { intros n Nn y i Ey Gy. rewrite H1 in Gy. destruct (lt_dec n (length a)) as [Ln|Ln].
      - rewrite nth_error_app1 in Ey by exact Ln. rewrite renumber_other in Gy.
        + rewrite (renumber_at _ 0 a Da n y Ey) in Gy. destruct (get (m_heap m) y); [|discriminate]. cbn in Gy. injection Gy as <-. reflexivity.
        + intros Hi. apply nth_error_In in Ey. clear - Dab Ey Hi. induction a as [|z a IH]; [destruct Ey|]. inversion Dab; subst. destruct Ey as [->|Ey]; [|apply IH; assumption]. apply H1. apply in_or_app. right. destruct b; [destruct Hi|right; exact Hi].
      - rewrite nth_error_app2 in Ey by lia. destruct b as [|z b]; [destruct (n - length a); discriminate|]. remember (n - length a) as p. destruct p as [|p]; [lia|]. cbn [nth_error tl] in *.
        rewrite (renumber_at _ (S (length a)) b Db p y Ey) in Gy. destruct (get _ y); [|discriminate]. cbn in Gy. injection Gy as <-. cbn [with_sub i_sub]. lia. }
    split.
    + rewrite H1. eapply same_trans; apply renumber_same.
    + exact H2.
    + exact H3.
    + intros k'. rewrite H4, E, minus_at by assumption. reflexivity.
    + intros y i Gy Ne. rewrite H1. assert (Ny : ~ In y (m_vec m k)). { intros Hy. destruct (g_live m G k y Hy) as (i' & Gi & Ki & _). congruence. }
      rewrite E in Ny. rewrite !renumber_other; [exact Gy| |]; intros Hi; apply Ny; apply in_or_app; [left; exact Hi|right; right; destruct b; [destruct Hi|right; exact Hi]].
    + intros Nx'. exfalso. apply Nx'. rewrite E. apply in_or_app. right. left. reflexivity.
    + intros a' E'. rewrite V. rewrite E in E'. assert (b = [] /\ a = a') as (-> & ->).
      { destruct b as [|z b] using rev_ind; [apply app_inj_tail in E'; destruct E'; auto|]. exfalso. change (a ++ x :: b ++ [z]) with (a ++ (x :: b) ++ [z]) in E'. rewrite app_assoc in E'. apply app_inj_tail in E'. destruct E' as (_ & <-). apply Nb. apply in_or_app. right. left. reflexivity. }
      intros n. destruct (Nat.eq_dec n (length a')) as [->|Nn]; [|apply Rt; exact Nn]. intros y i Ey. rewrite app_nil_r in Ey. assert (nth_error a' (length a') = None) by (apply nth_error_None; lia). congruence.
    + intros (j & J1 & J2). rewrite V. exists (length a). split; [exact Rt|]. intros y i Ey Gy. rewrite nth_error_app2, Nat.sub_diag in Ey by lia. destruct b as [|z b]; [discriminate|]. cbn in Ey. injection Ey as <-.
      rewrite H1 in Gy. cbn [tl] in *. rewrite renumber_other in Gy.
      2:{ intros Hi. apply NoDup_remove_2 in Dab. apply Dab. apply in_or_app. right. exact Hi. }
      rewrite renumber_other in Gy.
      2:{ intros Hi. apply NoDup_remove_2 in Dab. apply Dab. apply in_or_app. left. exact Hi. }
      assert (Ez : nth_error (m_vec m k) (S (length a)) = Some z). { rewrite E, nth_error_app2 by lia. replace (S (length a) - length a) with 1 by lia. reflexivity. }
      destruct (Nat.eq_dec (S (length a)) j) as [Ej|Ej].
      * subst j. specialize (J2 z i Ez Gy). lia.
      * specialize (J1 _ Ej z i Ez Gy). lia.
  - assert (T := loop_tail k x (m_vec m k) [] m (S (length (m_vec m k))) eq_refl Hx). cbn [length] in T. rewrite T; [|apply Forall_forall; exact Al|lia]. eexists. split; [reflexivity|].
    assert (Nb : numbered (renumber (m_heap m) 0 (m_vec m k)) (m_vec m k)) by (apply renumbered; exact D).
    split; cbn [set_heap m_heap m_items m_vec m_queue]; auto.
    + apply renumber_same.
    + intros k'. destruct (kind_eqb_spec k k') as [->|]; [rewrite minus_none by exact Hx; reflexivity|reflexivity].
    + intros y i Gy Ne. rewrite renumber_other; [exact Gy|]. intros Hy. destruct (g_live m G k y Hy) as (i' & Gi & Ki & _). congruence.
    + intros _. apply numbered_one. exact Nb.
Qed.
Lemma minus_sub x l y : In y (minus x l) -> In y l.
Proof. intros H. apply minus_in in H. tauto. Qed.
Lemma kind_done_good m m' k x : good m -> kind_done m m' k x -> good m'.
Proof.
  intros G K. split.
  - intros k' y Hy. rewrite (kd_vec _ _ _ _ K) in Hy. assert (Hy' : In y (m_vec m k')). { destruct (kind_eqb_spec k k') as [<-|]; [apply minus_sub in Hy; exact Hy|exact Hy]. }
    destruct (g_live m G k' y Hy') as (i & G1 & G2 & G3 & G4). destruct (kd_heap _ _ _ _ K) as (_ & S1). specialize (S1 y). rewrite G1 in S1. destruct S1 as (i' & Gi & S2 & S3 & S4). exists i'. rewrite (kd_items _ _ _ _ K). repeat split; auto; congruence.
  - intros k'. rewrite (kd_vec _ _ _ _ K). destruct (kind_eqb k k'); [apply NoDup_filter|]; apply (g_nodup m G).
  - rewrite (kd_items _ _ _ _ K). rewrite (g_len m G). destruct (kd_heap _ _ _ _ K) as (L & _). congruence.
Qed.

(* all five *)
Fixpoint remove_kinds (m : module) (ks : list kind) (x : nat) : res module :=
  match ks with [] => Ok m | k :: r => do m <- remove_kind m k x; remove_kinds m r x end.
Definition all_kinds : list kind := [KInput; KOutput; KPool; KTimer; KUser].
Record kinds_done (m m' : module) (ks : list kind) (x : nat) : Prop := {
  ks_heap : same_heap (m_heap m) (m_heap m');
  ks_items : m_items m' = m_items m;
  ks_queue : m_queue m' = m_queue m;
  ks_vec : forall k, m_vec m' k = if in_dec (fun a b => match kind_eqb_spec a b with ReflectT _ e => left e | ReflectF _ n => right n end) k ks then minus x (m_vec m k) else m_vec m k;
  ks_others : forall y i, get (m_heap m) y = Some i -> ~ In (i_kind i) ks -> get (m_heap m') y = Some i;
  ks_absent : forall k, In k ks -> ~ In x (m_vec m k) -> numbered (m_heap m') (m_vec m' k);
  ks_last : forall k a, In k ks -> m_vec m k = a ++ [x] -> numbered (m_heap m') (m_vec m' k);
  ks_one : forall k, In k ks -> one_wrong (m_heap m) (m_vec m k) -> one_wrong (m_heap m') (m_vec m' k)
}.
Lemma right_others h h' l n : (forall y i', In y l -> get h' y = Some i' -> get h y = Some i') -> right_at h l n -> right_at h' l n.
Proof. intros H R y i E G. apply (R y i E). apply H; [eapply nth_error_In; exact E|exact G]. Qed.
Lemma numbered_others h h' l : (forall y i', In y l -> get h' y = Some i' -> get h y = Some i') -> numbered h l -> numbered h' l.
Proof. intros H R n. eapply right_others; eauto. Qed.
Lemma one_others h h' l : (forall y i', In y l -> get h' y = Some i' -> get h y = Some i') -> one_wrong h l -> one_wrong h' l.
Proof. intros H (j & R1 & R2). exists j. split; [intros n Nn; eapply right_others; eauto|]. intros y i E G. apply (R2 y i E). apply H; [eapply nth_error_In; exact E|exact G]. Qed.
Lemma remove_kinds_ok x : forall ks m, NoDup ks -> good m -> exists m', remove_kinds m ks x = Ok m' /\ good m' /\ kinds_done m m' ks x.
Proof.
  induction ks as [|k ks IH]; intros m D G.
  - exists m. split; [reflexivity|]. split; [exact G|]. split; auto using same_refl; intros ? []; intros; destruct H.
  - inversion D as [|? ? Nk D']; subst. destruct (remove_kind_ok m k x G) as (m1 & R1 & K1). assert (G1 := kind_done_good _ _ _ _ G K1). destruct (IH m1 D' G1) as (m2 & R2 & G2 & K2).
    exists m2. split; [cbn [remove_kinds]; rewrite R1; exact R2|]. split; [exact G2|].
    (* what the rest does to the list [k] *)
    assert (V2 : m_vec m2 k = m_vec m1 k). { rewrite (ks_vec _ _ _ _ K2). destruct (in_dec _ k ks); [contradiction|reflexivity]. }
    assert (O2 : forall y i', In y (m_vec m1 k) -> get (m_heap m2) y = Some i' -> get (m_heap m1) y = Some i').
    { intros y i' Hy Gy. destruct (g_live m1 G1 k y Hy) as (i & Gi & Ki & _). rewrite (ks_others _ _ _ _ K2 y i Gi) in Gy by (rewrite Ki; exact Nk). congruence. }
    assert (V1 : forall k', k' <> k -> m_vec m1 k' = m_vec m k'). { intros k' Ne. rewrite (kd_vec _ _ _ _ K1). destruct (kind_eqb_spec k k'); [congruence|reflexivity]. }
    split.
    + eapply same_trans; [apply (kd_heap _ _ _ _ K1)|apply (ks_heap _ _ _ _ K2)].
    + rewrite (ks_items _ _ _ _ K2). apply (kd_items _ _ _ _ K1).
    + rewrite (ks_queue _ _ _ _ K2). apply (kd_queue _ _ _ _ K1).
    + intros k'. rewrite (ks_vec _ _ _ _ K2). rewrite (kd_vec _ _ _ _ K1). destruct (kind_eqb_spec k k') as [<-|Ne].
      * destruct (in_dec _ k ks); [contradiction|]. destruct (in_dec _ k (k :: ks)) as [|N]; [reflexivity|exfalso; apply N; left; reflexivity].
      * destruct (in_dec _ k' ks) as [I|I]; destruct (in_dec _ k' (k :: ks)) as [I2|I2]; try reflexivity; [exfalso; apply I2; right; exact I|exfalso; destruct I2; contradiction].
    + intros y i Gy Ni. apply (ks_others _ _ _ _ K2); [|intros H; apply Ni; right; exact H]. apply (kd_others _ _ _ _ K1); [exact Gy|]. intros E. apply Ni. left. congruence.
    + intros k' [<-|Hk] Nx.
      * rewrite V2. eapply numbered_others; [exact O2|]. apply (kd_absent _ _ _ _ K1). exact Nx.
      * assert (Ne : k' <> k) by (intros ->; contradiction). apply (ks_absent _ _ _ _ K2 k' Hk). rewrite V1 by exact Ne. exact Nx.
    + intros k' a [<-|Hk] E.
      * rewrite V2. eapply numbered_others; [exact O2|]. apply (kd_last _ _ _ _ K1 a E).
      * assert (Ne : k' <> k) by (intros ->; contradiction). apply (ks_last _ _ _ _ K2 k' a Hk). rewrite V1 by exact Ne. exact E.
    + intros k' [<-|Hk] W.
      * rewrite V2. eapply one_others; [exact O2|]. apply (kd_one _ _ _ _ K1 W).
      * assert (Ne : k' <> k) by (intros ->; contradiction). apply (ks_one _ _ _ _ K2 k' Hk). rewrite V1 by exact Ne. eapply one_others; [|exact W].
        intros y i' Hy Gy. destruct (g_live m G k' y Hy) as (i & Gi & Ki & _). rewrite (kd_others _ _ _ _ K1 y i Gi) in Gy by congruence. congruence.
Qed.
Lemma all_in k : In k all_kinds.
Proof. destruct k; cbn; tauto. Qed.
Lemma all_nodup : NoDup all_kinds.
Proof. repeat constructor; cbn; intuition congruence. Qed.

(* deleting a child *)
Record deleted (m m' : module) (x : nat) : Prop := {
  de_good : good m';
  de_vec : forall k, m_vec m' k = minus x (m_vec m k);
  de_queue : m_queue m' = m_queue m;
  de_len : length (m_heap m') = length (m_heap m);
  de_items : forall y, y <> x -> nth_error (m_items m') y = nth_error (m_items m) y;
  de_same : forall y i, y <> x -> get (m_heap m) y = Some i -> exists i', get (m_heap m') y = Some i' /\ same_item i i';
  de_absent : forall k, ~ In x (m_vec m k) -> numbered (m_heap m') (m_vec m' k);
  de_last : forall k a, m_vec m k = a ++ [x] -> numbered (m_heap m') (m_vec m' k);
  de_one : forall k, one_wrong (m_heap m) (m_vec m k) -> one_wrong (m_heap m') (m_vec m' k)
}.
Lemma delete_ok m x i : good m -> get (m_heap m) x = Some i -> i_id i = x -> exists m', destructor m x true = Ok m' /\ deleted m m' x.
Proof.
  intros G Gx Ix. destruct (remove_kinds_ok x all_kinds m all_nodup G) as (m1 & R & G1 & K).
  assert (RI : remove_item m x = Ok (mkM (m_heap m1) (upd (m_items m1) x None) (m_vec m1) (m_queue m1))).
  { unfold remove_item. rewrite deref_get, Gx. cbn [bind]. unfold all_kinds in R. cbn [remove_kinds] in R.
    destruct (remove_kind m KInput x) as [a| |]; cbn [bind] in R |- *; try discriminate. destruct (remove_kind a KOutput x) as [b| |]; cbn [bind] in R |- *; try discriminate.
    destruct (remove_kind b KPool x) as [c| |]; cbn [bind] in R |- *; try discriminate. destruct (remove_kind c KTimer x) as [d| |]; cbn [bind] in R |- *; try discriminate.
    destruct (remove_kind d KUser x) as [e| |]; cbn [bind] in R |- *; try discriminate. injection R as <-. rewrite Ix. reflexivity. }
  unfold destructor. rewrite RI. cbn [bind]. rewrite deref_get. cbn [m_heap]. destruct (ks_heap _ _ _ _ K) as (SL & SH). assert (SX := SH x). rewrite Gx in SX. destruct SX as (i' & Gx' & _). rewrite Gx'. cbn [bind].
  eexists. split; [reflexivity|]. assert (V : forall k, m_vec m1 k = minus x (m_vec m k)). { intros k. rewrite (ks_vec _ _ _ _ K). destruct (in_dec _ k all_kinds) as [|N]; [reflexivity|destruct (N (all_in k))]. }
  assert (O : forall k y i', In y (m_vec m1 k) -> get (upd (m_heap m1) x None) y = Some i' -> get (m_heap m1) y = Some i').
  { intros k y j _ Gy. rewrite get_upd in Gy. destruct (Nat.eqb x y); [destruct (x <? _); discriminate|exact Gy]. }
  assert (Nx : forall k, ~ In x (m_vec m1 k)) by (intros k H; rewrite V in H; apply minus_in in H; tauto).
  assert (Gd : good (set_heap (mkM (m_heap m1) (upd (m_items m1) x None) (m_vec m1) (m_queue m1)) (upd (m_heap m1) x None))).
  { split; cbn [set_heap m_heap m_items m_vec].
    - intros k y Hy. destruct (g_live m1 G1 k y Hy) as (j & A & B & C & D). assert (y <> x) by (intros ->; apply (Nx k Hy)). exists j. rewrite get_upd. destruct (Nat.eqb_spec x y); [congruence|]. rewrite nth_error_upd_other by congruence. auto.
    - intros k. apply (g_nodup m1 G1).
    - rewrite !upd_length. apply (g_len m1 G1). }
  split; cbn [set_heap m_heap m_items m_vec m_queue]; auto.
  - apply (ks_queue _ _ _ _ K).
  - rewrite upd_length. exact SL.
  - intros y Ny. rewrite nth_error_upd_other by congruence. rewrite (ks_items _ _ _ _ K). reflexivity.
  - intros y j Ny Gy. assert (SY := SH y). rewrite Gy in SY. destruct SY as (j' & Gj & S1). exists j'. split; [|exact S1]. rewrite get_upd. destruct (Nat.eqb_spec x y); [congruence|exact Gj].
  - intros k Hk. eapply numbered_others; [apply (O k)|]. apply (ks_absent _ _ _ _ K k (all_in k) Hk).
  - intros k a Hk. eapply numbered_others; [apply (O k)|]. apply (ks_last _ _ _ _ K k a (all_in k) Hk).
  - intros k Hk. eapply one_others; [apply (O k)|]. apply (ks_one _ _ _ _ K k (all_in k) Hk).
Qed.
