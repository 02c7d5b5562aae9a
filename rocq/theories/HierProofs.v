(* Version marks and change flags of a hierarchy over arbitrary edits. *)
From Verif Require Import Common ListFacts Bytes RecordSpec RecordModel RecordMap HierSpec HierModel.
Local Open Scope N_scope.

Lemma hnode_ind2 (P : hnode -> Prop) : (forall k d l, Forall P l -> P (HN k d l)) -> forall n, P n.
Proof.
  intros H. fix IH 1. intros [k d l]. apply H. induction l as [|c l IHl]; constructor; [apply IH|exact IHl].
Qed.

(* ---- lists ---- *)
Inductive subseq {A} : list A -> list A -> Prop :=
| sub_nil : subseq [] []
| sub_skip x a b : subseq a b -> subseq a (x :: b)
| sub_take x a b : subseq a b -> subseq (x :: a) (x :: b).

Lemma subseq_refl {A} (l : list A) : subseq l l.
Proof. induction l; [constructor|apply sub_take; auto]. Qed.
Lemma subseq_nil {A} (l : list A) : subseq [] l.
Proof. induction l; constructor; auto. Qed.
Lemma subseq_in {A} (a b : list A) : subseq a b -> forall x, In x a -> In x b.
Proof. induction 1; intros y H1; auto. - right; auto. - destruct H1 as [->|H1]; [left; auto|right; auto]. Qed.
Lemma subseq_trans {A} (b c : list A) : subseq b c -> forall a, subseq a b -> subseq a c.
Proof.
  induction 1 as [|x b c S IH|x b c S IH]; intros a H1; auto.
  - apply sub_skip. auto.
  - inversion H1; subst; [apply sub_skip|apply sub_take]; auto.
Qed.
Lemma subseq_remove {A} (a b c : list A) : subseq (a ++ b) (a ++ c ++ b).
Proof.
  induction a as [|x a IH]; cbn [app]; [|apply sub_take; auto].
  induction c as [|x c IH]; cbn [app]; [apply subseq_refl|apply sub_skip; auto].
Qed.
Lemma subseq_filter {A} (f : A -> bool) (a b : list A) : subseq a b -> subseq (filter f a) (filter f b).
Proof. induction 1; cbn [filter]; [constructor| |]; destruct (f x); auto using @sub_skip, @sub_take. Qed.
Lemma subseq_cons {A} (x : A) (K : list A) : forall l, NoDup l -> subseq (x :: K) l ->
  exists a b, l = a ++ x :: b /\ ~ In x a /\ subseq K b.
Proof.
  induction l as [|y l IH]; intros ND H; [inversion H|]. inversion ND as [|? ? NI ND2]; subst. inversion H as [|? ? ? S1|? ? ? S1]; subst.
  - destruct (IH ND2 S1) as (a & b & -> & N1 & S2). exists (y :: a), b. split; auto. split; auto.
    intros [->|I1]; [|auto]. apply NI. apply in_or_app. right. left. auto.
  - exists [], l. auto.
Qed.

Lemma find_kid_split k l : match find_kid k l with
  | Some (a, x, b) => l = a ++ x :: b /\ nm x = k /\ ~ In k (map nm a)
  | None => ~ In k (map nm l)
  end.
Proof.
  induction l as [|c l IH]; cbn [find_kid map]; [intros []|]. destruct (beqb_spec k (nm c)) as [->|N1].
  - split; [reflexivity|]. split; auto.
  - destruct (find_kid k l) as [((a, x), b)|].
    + destruct IH as (-> & E & H). split; [reflexivity|]. split; auto. cbn [map In]. intros [E1|E1]; [congruence|auto].
    + cbn [In]. intros [E1|E1]; [congruence|auto].
Qed.

Lemma find_kid_app k a x b : nm x = k -> ~ In k (map nm a) -> find_kid k (a ++ x :: b) = Some (a, x, b).
Proof.
  intros E H. induction a as [|c a IH]; cbn [app find_kid].
  - rewrite E, beqb_refl. auto.
  - cbn [map In] in H. destruct (beqb_spec k (nm c)) as [->|N1]; [tauto|]. rewrite IH by tauto. auto.
Qed.

Lemma tfind_none k l : ~ In k (map fst l) -> tfind k l = None.
Proof.
  induction l as [|(k1, t) l IH]; cbn [map fst In tfind]; auto. intros H. destruct (beqb_spec k k1); [subst; tauto|]. apply IH. tauto.
Qed.
Lemma tfind_in k l : NoDup (map fst l) -> forall t, In (k, t) l -> tfind k l = Some t.
Proof.
  induction l as [|(k1, t1) l IH]; cbn [map fst In tfind]; intros ND t H; [destruct H|]. inversion ND; subst.
  destruct (beqb_spec k k1) as [->|N1].
  - destruct H as [H|H]; [congruence|]. exfalso. apply H2. apply in_map_iff. exists (k1, t). auto.
  - destruct H as [H|H]; [congruence|]. auto.
Qed.
Lemma tfind_some k l t : tfind k l = Some t -> In (k, t) l.
Proof.
  induction l as [|(k1, t1) l IH]; cbn [tfind]; [discriminate|].
  destruct (beqb_spec k k1) as [->|N1]; intros H; [left; congruence|right; auto].
Qed.

(* ---- the list of childs in a mark ---- *)
Fixpoint mark_kids (ver now : N) (inh : option N) (tm : N) (l : list hnode) : list hnode * mask * N :=
  match l with
  | [] => ([], no_mask, tm)
  | c :: r =>
    let '(c', mc, tm1) := mark_tree ver now inh tm c in
    let '(r', mr, tm2) := mark_kids ver now inh tm1 r in
    (c' :: r', mor mc mr, tm2)
  end.
Lemma mark_tree_eq ver now inh tm k d l : mark_tree ver now inh tm (HN k d l) =
  let '(l', m, tm1) := mark_kids ver now (inherit d inh) tm l in
  let '(d', m', tm2) := mark_own ver now inh m tm1 d in
  (HN k d' l', m', tm2).
Proof.
  assert (E : forall i tm, (fix go (tm : N) (l : list hnode) : list hnode * mask * N :=
         match l with
         | [] => ([], no_mask, tm)
         | c :: r =>
           let '(c', mc, tm1) := mark_tree ver now i tm c in
           let '(r', mr, tm2) := go tm1 r in
           (c' :: r', mor mc mr, tm2)
         end) tm l = mark_kids ver now i tm l).
  { intros i. induction l as [|c l IH]; intros t; cbn [mark_kids]; auto.
    destruct (mark_tree ver now i t c) as ((c', mc), tm1). rewrite IH. reflexivity. }
  cbn [mark_tree]. rewrite E. reflexivity.
Qed.

(* ---- field maps ---- *)
Lemma vals_sorted m : msorted m -> msorted (vals m).
Proof.
  induction m as [|(k, f) m IH]; intros H; [exact I|]. cbn [vals map]. destruct H as (H1 & H2).
  split; [|apply IH; auto]. destruct m as [|(k1, f1) m1]; cbn [map]; auto.
Qed.
Lemma mget_vals k m : mget k (vals m) = match mget k m with Some f => Some (f_val f) | None => None end.
Proof. induction m as [|(k1, f) m IH]; cbn [vals map mget fst snd]; auto. destruct (beqb k k1); auto. Qed.

Lemma map_keys {V W} (g : bytes * V -> W) (m : fmap V) : msorted m -> msorted (map (fun e => (fst e, g e)) m).
Proof.
  induction m as [|(k, f) m IH]; intros H; [exact I|]. cbn [map fst]. destruct H as (H1 & H2).
  split; [|apply IH; auto]. destruct m as [|(k1, f1) m1]; cbn [map]; auto.
Qed.
Lemma vals_clear m : vals (clear_map m) = vals m.
Proof. unfold vals, clear_map. rewrite map_map. reflexivity. Qed.
Lemma existsb_clear m g : existsb (fun e => f_mod (snd e) && g e) (clear_map m) = false.
Proof. induction m as [|e m IH]; auto. Qed.

Lemma filter_mset_other {V} (P : bytes -> bool) k (v : V) m : P k = false ->
  filter (fun e => P (fst e)) (mset k v m) = filter (fun e => P (fst e)) m.
Proof.
  intros H. induction m as [|(k1, v1) m IH]; cbn [mset filter fst]; [rewrite H; auto|].
  destruct (bcmp k k1) eqn:E; cbn [filter fst].
  - apply bcmp_eq in E. subst. rewrite H. auto.
  - rewrite H. auto.
  - rewrite IH. auto.
Qed.
Lemma vals_mset k f m : vals (mset k f m) = mset k (f_val f) (vals m).
Proof.
  induction m as [|(k1, f1) m IH]; cbn [mset vals map fst snd]; auto.
  destruct (bcmp k k1) eqn:E; cbn [vals map fst snd]; auto. f_equal. exact IH.
Qed.
Lemma mset_same {V} k (v : V) m : msorted m -> mget k m = Some v -> mset k v m = m.
Proof.
  intros S1 H. apply msorted_ext; auto using mset_sorted. intros k'. rewrite mget_mset by auto.
  destruct (beqb_spec k' k) as [->|]; congruence.
Qed.
Lemma filter_mdel_other {V} (P : bytes -> bool) k (m : fmap V) : P k = false ->
  filter (fun e => P (fst e)) (mdel k m) = filter (fun e => P (fst e)) m.
Proof.
  intros H. unfold mdel. induction m as [|(k1, v1) m IH]; cbn [filter fst]; auto.
  destruct (beqb_spec k k1) as [<-|N1]; cbn [negb filter fst].
  - rewrite H. auto.
  - rewrite IH. auto.
Qed.
Lemma vals_mdel k m : vals (mdel k m) = mdel k (vals m).
Proof.
  unfold mdel, vals. induction m as [|(k1, f1) m IH]; cbn [filter map fst snd]; auto.
  destruct (beqb k k1); cbn [negb map fst snd]; [auto|f_equal; auto].
Qed.

Lemma set_value_mod f v : set_value f v = f \/ f_mod (set_value f v) = true.
Proof.
  unfold set_value.
  repeat match goal with
  | |- context [match ?x with _ => _ end] => destruct x
  end; auto.
Qed.
(* assigned values that count: something is stored *)
Definition storable (v : value) : Prop := settable v /\ v <> VNone.
Lemma set_value_new v : storable v -> f_mod (set_value (mkF VNone false) v) = true.
Proof.
  intros ((P1 & P2) & N1). destruct v; cbn [set_value f_val f_mod] in *; try reflexivity; try (exfalso; tauto).
  - destruct ws; [exfalso; auto|reflexivity].
  - destruct ws; [exfalso; auto|reflexivity].
  - destruct ws; [exfalso; auto|reflexivity].
Qed.
Lemma map_set_cases m k v : msorted m -> storable v ->
  map_set m k v = m \/ exists f, f_mod f = true /\ map_set m k v = mset k f m.
Proof.
  intros S1 S2. unfold map_set. destruct (mget k m) as [f|] eqn:E.
  - destruct (set_value_mod f v) as [E1|E1]; [left; rewrite E1; apply mset_same; auto|right; eauto].
  - right. exists (set_value (mkF VNone false) v). split; auto. apply set_value_new. auto.
Qed.
Lemma map_set_sorted m k v : msorted m -> msorted (map_set m k v).
Proof. intros. unfold map_set. apply mset_sorted. auto. Qed.
Lemma mset_in {V} k (v : V) m : In (k, v) (mset k v m).
Proof.
  induction m as [|(k1, v1) m IH]; cbn [mset]; [left; auto|].
  destruct (bcmp k k1); [left; auto|left; auto|right; auto].
Qed.
Lemma mset_keep {V} k (v : V) m e : In e m -> fst e <> k -> In e (mset k v m).
Proof.
  intros H1 H2. induction m as [|(k1, v1) m IH]; [destruct H1|]. cbn [mset].
  destruct (bcmp k k1) eqn:E.
  - apply bcmp_eq in E. subst. destruct H1 as [<-|H1]; [exfalso; auto|right; auto].
  - right. exact H1.
  - destruct H1 as [<-|H1]; [left; auto|right; auto].
Qed.
