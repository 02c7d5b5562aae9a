(* C26: life of an object. *)
From Verif Require Import Common Sums LifeModel LifeProofs.

(* what is in the hands of the threads: references; childs whose parent this object is *)
Definition refs (s : st) : nat := list_sum (map t_h (thrs s)).
Definition childs (s : st) : nat := length (filter k_slot (kids s)).
(* nobody is in the middle of a release, cleanup or deletion, nothing is waiting for the own thread *)
Definition quiet (s : st) : Prop := (forall t, In t (thrs s) -> t_ph t = Idle /\ t_rd t = None) /\ duty s = false.
(* extra references given out to the own thread (until it takes over the destruction) and to the manager (until it got its own one) *)
Definition granted (s : st) : nat :=
  (if duty s then 1 else 0) + length (filter (fun t => match t_ph t with Via | Hand => true | _ => false end) (thrs s)).
(* steps which finish something begun: all but those where a caller starts a new operation *)
Definition finishing (o : op) : bool :=
  match o with ByThread _ _ | FromThread _ | Steal _ | Skip _ | KRead _ _ | KDec _ | Done _ | ToManager _ _ | Delete _ => true | _ => false end.

Lemma refs_Sh s : refs s = Sh s.
Proof. unfold refs, Sh. induction (thrs s) as [|t l IH]; cbn [map list_sum fold_right sumf]; [reflexivity|]. cbn [list_sum] in IH. unfold list_sum in IH. lia. Qed.
Lemma childs_slots s : childs s = slots (kids s).
Proof. unfold childs, slots. induction (kids s) as [|k l IH]; cbn [filter sumf]; [reflexivity|]. destruct (k_slot k); cbn [length b2n]; lia. Qed.
Lemma granted_ph s : granted s = b2n (duty s) + Ph via s + Ph hnd s.
Proof.
  unfold granted, Ph. assert (E : forall l, length (filter (fun t => match t_ph t with Via | Hand => true | _ => false end) l) = sumf (fun t => via (t_ph t)) l + sumf (fun t => hnd (t_ph t)) l).
  { induction l as [|t l IH]; cbn [filter sumf]; [reflexivity|]. destruct (t_ph t); cbn [via hnd length]; lia. }
  rewrite E. unfold b2n. lia.
Qed.
Lemma step_auto s o s' : step s o = Ok s' -> auto s' = auto s.
Proof.
  assert (D : forall s a d f s' o, dec s a d f = Ok (s', o) -> auto s' = auto s).
  { intros s0 a d f s1 o1 H. unfold dec in H. destruct d; [destruct (cnt s0); [discriminate|]|]; destruct (ost s0); repeat match type of H with context [if ?c then _ else _] => destruct c end; injection H as <- <-; reflexivity. }
  assert (C : forall s i o s', continue s i o = Ok s' -> auto s' = auto s).
  { intros s0 i o1 s1 H. unfold continue in H. destruct o1; [injection H as <-; reflexivity|..]; destruct (t_ph (thread s0 i)); try discriminate; injection H as <-; reflexivity. }
  unfold step, inc. intros H. destruct (deleted s); [discriminate|]. destruct o;
    try (destruct (t_rd (thread s i)) as [k|]; [|discriminate]);
    try (destruct (dec _ _ _ _) as [[s1 o1]| |] eqn:E; try discriminate; cbn [bind] in H; apply C in H; apply D in E; rewrite H; exact E);
    cbv zeta in H; try (destruct (ost s); discriminate || (injection H as <-; reflexivity)); repeat match type of H with context [match ?x with _ => _ end] => destruct x; try discriminate end; injection H as <-; reflexivity.
Qed.
Lemma run_auto l : forall s s', run true s l = Ok s' -> auto s' = auto s.
Proof.
  induction l as [|o l IH]; intros s s' H; cbn [run] in H; [injection H as <-; reflexivity|]. destruct (enabled true s o); [|eauto].
  destruct (step s o) as [s1| |] eqn:E; try discriminate. cbn [bind] in H. rewrite (IH _ _ H). eapply step_auto; eauto.
Qed.
Lemma reach au n l s : run true (init au n) l = Ok s -> good s /\ auto s = au.
Proof.
  intros H. destruct (run_good l _ (init_good au n)) as (s1 & M & G). rewrite H in M. injection M as <-. split; [exact G|]. exact (run_auto _ _ _ H).
Qed.

(* C26.  Any number of threads copy, pass on, release and destroy references, add and
   remove childs, in any interleaving; the object has an own thread or not, is to be
   cleaned by the manager or not.  Nothing is undefined - an access to the deleted object
   and a counter below zero would be - and at every moment: as long as the object exists
   its counter is the number of references held, plus childs, plus references granted to
   the own thread and to the manager; when it is deleted no reference and no child is
   left, nobody is inside, and it was under automatic destruction or somebody asked for it.
   Assumed (the [true]): no two threads release the parent reference of one child at the
   same time.  Without it the claim is false, see C26_parent_reference_race_refuted. *)
Theorem C26_counted_until_deleted_partial au n l : exists s, run true (init au n) l = Ok s /\
  (deleted s = false -> cnt s = refs s + childs s + granted s) /\
  (deleted s = true -> refs s = 0 /\ childs s = 0 /\ quiet s /\ (au = true \/ asked s = true)).
Proof.
  destruct (run_good l _ (init_good au n)) as (s & M & G). exists s. split; [exact M|]. assert (A := run_auto _ _ _ M). cbn [init auto] in A.
  unfold good in G. rewrite refs_Sh, childs_slots, granted_ph. destruct (deleted s); split; intros E; try discriminate; clear E.
  - destruct G as [G1 G2 G3 G4 G5 G6]. split; [exact G1|]. split; [exact G2|]. split.
    + split; [|exact G3]. intros t Ht. rewrite Forall_forall in G4. split; [auto|]. destruct (t_rd t) as [k|] eqn:E; [|reflexivity]. specialize (G5 k). apply sumf_zero in G5. rewrite Forall_forall in G5. specialize (G5 t Ht). cbn beta in G5. rewrite E in G5. cbn [is_rd] in G5. rewrite Nat.eqb_refl in G5. discriminate.
    + apply orb_true_iff in G6. rewrite A in G6. exact G6.
  - destruct G. lia.
Qed.
Print Assumptions C26_counted_until_deleted_partial.

(* The deletion is the last thing that happens: in particular there is no second one. *)
Theorem C26_deleted_once_partial au n l1 l2 s : run true (init au n) l1 = Ok s -> deleted s = true ->
  run true (init au n) (l1 ++ l2) = Ok s.
Proof.
  intros H D. destruct (reach _ _ _ _ H) as (G & _). unfold good in G. rewrite D in G.
  assert (X : run true s l2 = Ok s) by (induction l2 as [|o l2 IH]; cbn [run]; [reflexivity|]; rewrite (gone_blocks s o true G D); exact IH).
  revert H. generalize (init au n). induction l1 as [|o l1 IH]; intros s0 H; cbn [app run] in *; [injection H as ->; exact X|].
  destruct (enabled true s0 o); [|auto]. destruct (step s0 o) as [s1| |]; try discriminate. cbn [bind] in *. auto.
Qed.
Print Assumptions C26_deleted_once_partial.

(* When the last reference and the last child are gone and all threads have finished what
   they began, the object is deleted - if it is under automatic destruction or somebody
   asked for it, and no child was added after the destruction had begun. *)
Theorem C26_unused_deleted_partial au n l s : run true (init au n) l = Ok s ->
  quiet s -> refs s = 0 -> childs s = 0 -> late s = false -> (au = true \/ asked s = true) -> deleted s = true.
Proof.
  intros H (Q1 & Q2) R0 C0 La A. destruct (reach _ _ _ _ H) as (G & Au). unfold good in G. destruct (deleted s); [reflexivity|exfalso]. rewrite refs_Sh in R0. rewrite childs_slots in C0.
  assert (P : forall f, f Idle = 0 -> Ph f s = 0) by (intros f F0; apply sumf_zero; apply Forall_forall; intros t Ht; rewrite (proj1 (Q1 t Ht)); exact F0).
  destruct G as [C Cl Wt Dl Hd Dc Li No Ex A1 A2 Rr Lt Wd]. rewrite Q2 in *. rewrite (P via eq_refl), (P hnd eq_refl), ?(P cln eq_refl), ?(P del eq_refl) in *. cbn [b2n] in *.
  destruct (ost s) eqn:Eo; try discriminate.
  - destruct A as [A|A]; [|apply (A2 A); reflexivity]. assert (X : 0 < Sh s) by (apply Ex; congruence). lia.
  - specialize (Wd La eq_refl). lia.
Qed.
Print Assumptions C26_unused_deleted_partial.

(* Nobody is left hanging: as long as something is unfinished, a step which finishes
   something can be done. *)
Theorem C26_progress_partial au n l s : run true (init au n) l = Ok s -> ~ quiet s -> exists o, finishing o = true /\ enabled true s o = true.
Proof.
  intros H NQ. destruct (reach _ _ _ _ H) as (G & _). assert (T := tidy_run l _ _ (tidy_init au n) H). unfold good in G. destruct (deleted s) eqn:D.
  { exfalso. apply NQ. destruct G as [G1 G2 G3 G4 G5 G6]. split; [|exact G3]. intros t Ht. rewrite Forall_forall in G4. split; [auto|]. destruct (t_rd t) as [k|] eqn:E; [|reflexivity]. specialize (G5 k). apply sumf_zero in G5. rewrite Forall_forall in G5. specialize (G5 t Ht). cbn beta in G5. rewrite E in G5. cbn [is_rd] in G5. rewrite Nat.eqb_refl in G5. discriminate. }
  assert (Nth : forall t, In t (thrs s) -> exists i, i < length (thrs s) /\ thread s i = t) by (intros t Ht; destruct (In_nth _ _ (mkT 0 Idle None) Ht) as (i & L & E); exists i; split; [exact L|exact E]).
  (* a thread between two sections *)
  destruct (Exists_dec (fun t => match t_ph t with Via | Clean0 | Hand | Del => True | _ => False end) (thrs s)) as [Hx|Hx]; [intros t; destruct (t_ph t); auto| |].
  { apply Exists_exists in Hx. destruct Hx as (t & Ht & Hp). destruct (Nth t Ht) as (i & L & Et). destruct (t_ph t) eqn:Ep; try contradiction;
      [exists (ByThread i true)|exists (Steal i)|exists (ToManager i i)|exists (Delete i)]; (split; [reflexivity|]); cbn [enabled]; rewrite Et, Ep; destruct (Nat.ltb_spec i (length (thrs s))); try lia; reflexivity. }
  (* a thread inside Release of a parent reference *)
  destruct (Exists_dec (fun t => t_rd t <> None) (thrs s)) as [Hr|Hr]; [intros t; destruct (t_rd t); [left; discriminate|right; intros X; apply X; reflexivity]| |].
  { apply Exists_exists in Hr. destruct Hr as (t & Ht & Hp). destruct (Nth t Ht) as (i & L & Et). exists (KDec i). split; [reflexivity|]. cbn [enabled]. rewrite Et. destruct (Nat.ltb_spec i (length (thrs s))); [|lia]. destruct (t_rd t); [|exfalso; apply Hp; reflexivity]. cbn [andb].
    destruct (t_ph t) eqn:Ep; try reflexivity; exfalso; apply Hx; apply Exists_exists; exists t; rewrite Ep; auto. }
  assert (R0 : forall t, In t (thrs s) -> t_rd t = None) by (intros t Ht; destruct (t_rd t) eqn:E; [|reflexivity]; exfalso; apply Hr; apply Exists_exists; exists t; split; [exact Ht|congruence]).
  (* a thread inside the cleanup *)
  destruct (Exists_dec (fun t => t_ph t <> Idle) (thrs s)) as [Hc|Hc]; [intros t; destruct (t_ph t); try (left; discriminate); right; intros X; apply X; reflexivity| |].
  { apply Exists_exists in Hc. destruct Hc as (t & Ht & Hp). destruct (Nth t Ht) as (i & L & Et). destruct (t_ph t) as [| | |[|k td]| |] eqn:Ep; try contradiction;
      try (exfalso; apply Hx; apply Exists_exists; exists t; rewrite Ep; split; [exact Ht|exact I]).
    - exists (Done i). split; [reflexivity|]. cbn [enabled]. rewrite Et, Ep, (R0 t Ht). destruct (Nat.ltb_spec i (length (thrs s))); [reflexivity|lia].
    - unfold tidy in T. rewrite Forall_forall in T. specialize (T t Ht). rewrite Ep in T. cbn [todo] in T. apply Forall_cons_iff in T. destruct T as ((T1 & T2) & _). destruct (k_slot (kid_at s k)) eqn:Ek.
      + exists (KRead i k). split; [reflexivity|]. cbn [enabled]. rewrite Et, Ep, (R0 t Ht), Ek, T2. destruct (Nat.ltb_spec i (length (thrs s))); [|lia]. destruct (Nat.ltb_spec k (length (kids s))); [|lia]. cbn [andb negb is_idle in_clean orb].
        assert (X : reading s k = false); [|rewrite X; reflexivity]. unfold reading. apply not_true_iff_false. intros X. apply existsb_exists in X. destruct X as (t2 & I2 & X). rewrite (R0 t2 I2) in X. discriminate.
      + exists (Skip i). split; [reflexivity|]. cbn [enabled]. rewrite Et, Ep, Ek. destruct (Nat.ltb_spec i (length (thrs s))); [reflexivity|lia]. }
  assert (I0 : forall t, In t (thrs s) -> t_ph t = Idle) by (intros t Ht; destruct (t_ph t) eqn:E; [reflexivity|..]; exfalso; apply Hc; apply Exists_exists; exists t; rewrite E; (split; [exact Ht|discriminate])).
  destruct (duty s) eqn:Ed; [|exfalso; apply NQ; split; auto].
  assert (Ln : length (thrs s) = S n).
  { assert (X : forall ll s0 s1, run true s0 ll = Ok s1 -> length (thrs s1) = length (thrs s0)).
    { assert (Dl : forall s a d f s' o, dec s a d f = Ok (s', o) -> length (thrs s') = length (thrs s)) by (intros s0 a d f s1 o1 E; apply dec_frame in E; destruct E as (_ & ->); reflexivity).
      assert (Cl : forall s i o s', continue s i o = Ok s' -> length (thrs s') = length (thrs s)).
      { intros s0 i o1 s1 E. unfold continue in E. destruct o1; [injection E as <-; reflexivity|..]; destruct (t_ph (thread s0 i)); try discriminate; injection E as <-; apply upd_length. }
      induction ll as [|o ll IH]; intros s0 s1 E; cbn [run] in E; [injection E as <-; reflexivity|]. destruct (enabled true s0 o); [|eauto]. destruct (step s0 o) as [s2| |] eqn:Es; try discriminate. cbn [bind] in E. rewrite (IH _ _ E). clear E IH.
      unfold step, inc in Es. destruct (deleted s0); [discriminate|]. destruct o;
        try (destruct (t_rd (thread s0 i)) as [k|]; [|discriminate]);
        try (destruct (dec _ _ _ _) as [[s3 o3]| |] eqn:E; try discriminate; cbn [bind] in Es; apply Cl in Es; apply Dl in E; rewrite Es, ?len_sub, ?len_rd; cbn [w_kids w_asked w_duty thrs] in *; exact E);
        cbv zeta in Es; try (destruct (ost s0); discriminate || (injection Es as <-; cbn [w_kids w_obj w_late thrs]; rewrite ?len_ph, ?len_add; reflexivity)); repeat match type of Es with context [match ?x with _ => _ end] => destruct x; try discriminate end; injection Es as <-; cbn [w_kids w_obj w_duty w_late w_deleted w_flags thrs]; rewrite ?len_ph, ?len_add, ?len_sub, ?len_rd; cbn [w_obj w_kids thrs]; rewrite ?len_add; reflexivity. }
    rewrite (X _ _ _ H). cbn [init thrs length]. rewrite repeat_length. reflexivity. }
  exists (FromThread 0). split; [reflexivity|]. cbn [enabled]. rewrite Ed, Ln. cbn [Nat.ltb Nat.leb andb]. rewrite (I0 (thread s 0)); [reflexivity|]. apply nth_In. lia.
Qed.
Print Assumptions C26_progress_partial.

(* Two threads; a child; an own thread which takes over the destruction; cleanup by the
   manager (thread 2); the object exists until the last reference is released. *)
Definition life26 : list op :=
  [Copy 0 1; AddKid 0; SetThread true; SetCleanup 0; Release 0 true; ByThread 0 true; FromThread 1; Steal 1; KRead 1 0; KDec 1; Skip 1;
   Done 1; ToManager 1 2; Release 2 false; Release 1 false; Release 1 false; Delete 1].
Example C26_case :
  (exists s, run true (init true 2) (firstn 15 life26) = Ok s /\ deleted s = false /\ refs s = 1 /\ cnt s = 1 /\ ost s = WaitDestr) /\
  (exists s, run true (init true 2) life26 = Ok s /\ deleted s = true /\ quiet s /\ refs s = 0 /\ childs s = 0 /\ late s = false).
Proof.
  split; (eexists; split; [vm_compute; reflexivity|]); repeat (split; [reflexivity|]); [reflexivity|]. split; [|repeat split; reflexivity]. split; [|reflexivity]. intros t Ht. cbn in Ht. repeat (destruct Ht as [<-|Ht]; [split; reflexivity|]). destruct Ht.
Qed.
Example C26_unfinished : exists s, run true (init false 1) [Copy 0 1; AddKid 1; Release 0 true] = Ok s /\ ~ quiet s /\ cnt s = 2.
Proof. eexists. split; [vm_compute; reflexivity|]. split; [|reflexivity]. intros (Q & _). specialize (Q _ (or_introl eq_refl)). destruct Q. discriminate. Qed.

(* Without the assumption: the cleanup of the parent (thread 0, RemoveChilds) and the
   cleanup of the child itself (thread 1) release the same parent reference.  The counter
   is decremented twice, the object is deleted although thread 1 still holds a reference,
   and the release of that one is an access to the deleted object. *)
Definition race26 : list op := [Copy 0 1; AddKid 0; Release 0 true; Steal 0; KRead 0 0; KRead 1 0; KDec 0; KDec 1; Skip 0; Done 0; Delete 0].
Theorem C26_parent_reference_race_refuted :
  (exists s, run false (init true 1) race26 = Ok s /\ deleted s = true /\ refs s = 1) /\
  (exists s, run false (init true 1) race26 = Ok s /\ enabled false s (Release 1 false) = true /\ step s (Release 1 false) = UB).
Proof. split; (eexists; split; [vm_compute; reflexivity|]); split; reflexivity. Qed.
Print Assumptions C26_parent_reference_race_refuted.

(* A child added after the destruction began and removed later takes the last count away
   without a deletion: the object is never destroyed. *)
Definition late26 : list op := [Copy 0 1; Release 0 true; Steal 0; AddKid 1; Done 0; Release 1 false; KRemove 0].
Theorem C26_late_child_leak_refuted : exists s, run true (init true 1) late26 = Ok s /\
  quiet s /\ refs s = 0 /\ childs s = 0 /\ asked s = true /\ deleted s = false /\ (forall o, enabled true s o = true -> exists b, o = SetThread b).
Proof.
  eexists. split; [vm_compute; reflexivity|]. split.
  { split; [|reflexivity]. intros t Ht. cbn in Ht. repeat (destruct Ht as [<-|Ht]; [split; reflexivity|]). destruct Ht. }
  repeat (split; [reflexivity|]). intros o. destruct o; cbn [enabled]; intros E; try (eexists; reflexivity); exfalso;
    try (destruct i as [|[|i]]; cbn in E; rewrite ?andb_false_r in E; discriminate).
  all: destruct k as [|[|k]]; try destruct i as [|[|i]]; cbn in E; rewrite ?andb_false_r in E; discriminate.
Qed.
Print Assumptions C26_late_child_leak_refuted.

(* A reference obtained while destruction is running is not refused: from a held one it can
   be had at any moment before the deletion. *)
Theorem C26_reference_not_refused_refuted : exists s s', run true (init true 1) [Copy 0 1; Release 0 true] = Ok s /\ ost s = DoingDestroy /\
  enabled true s (Copy 1 0) = true /\ step s (Copy 1 0) = Ok s' /\ cnt s' = S (cnt s).
Proof. eexists. eexists. split; [vm_compute; reflexivity|]. repeat split; reflexivity. Qed.
Print Assumptions C26_reference_not_refused_refuted.
(* It is refused only in the destructor, where nobody holds a reference it could be copied from. *)
Theorem C26_refused_only_without_references_partial au n l s : run true (init au n) l = Ok s -> deleted s = false -> inc s = None -> refs s = 0 /\ childs s = 0.
Proof.
  intros H D I. destruct (reach _ _ _ _ H) as (G & _). unfold good in G. rewrite D in G. rewrite refs_Sh, childs_slots. unfold inc in I. destruct (ost s) eqn:E; try discriminate.
  destruct G as [C Cl Wt Dl Hd Dc Li No Ex A1 A2 Rr Lt Wd]. specialize (Dc E). lia.
Qed.
Print Assumptions C26_refused_only_without_references_partial.
