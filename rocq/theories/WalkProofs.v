(* Proofs about the walk of WalkModel.v. *)
From Verif Require Import Common WalkSpec WalkModel.

Lemma object_at_app kids o p q : object_at kids o (p ++ q) = match object_at kids o p with Some c => object_at kids c q | None => None end.
Proof. revert o; induction p as [|i p IH]; intros o; cbn; [reflexivity|]. destruct (nth_error (kids o) i); auto. Qed.

Lemma object_at_grows k k' o p c : grows k k' -> object_at k o p = Some c -> object_at k' o p = Some c.
Proof.
  intros G. revert o; induction p as [|i p IH]; intros o; cbn; [auto|]. destruct (nth_error (k o) i) as [x|] eqn:E; [|discriminate].
  destruct (G o) as (l & ->). rewrite nth_error_app1; [rewrite E; auto|]. apply nth_error_Some. congruence.
Qed.

Lemma before_app p q r : before q r -> before (p ++ q) (p ++ r).
Proof. induction p as [|i p IH]; cbn; auto. Qed.
Lemma before_below p i r : before p (p ++ i :: r).
Proof. rewrite <- (app_nil_r p) at 1. apply before_app. exact I. Qed.
Lemma before_irrefl p : ~ before p p.
Proof. induction p as [|i p IH]; cbn; [auto|]. intros [H|[_ H]]; [lia|auto]. Qed.
Lemma before_trans p q r : before p q -> before q r -> before p r.
Proof.
  revert q r; induction p as [|i p IH]; intros [|j q] [|k r]; cbn; try tauto. intros [A|[-> A]] [B|[-> B]]; try (left; lia); auto.
  right. split; [reflexivity|eauto].
Qed.
Lemma before_total p q : p = q \/ before p q \/ before q p.
Proof.
  revert q; induction p as [|i p IH]; intros [|j q]; cbn; auto. destruct (Nat.lt_trichotomy i j) as [H|[->|H]]; auto.
  destruct (IH q) as [->|[H|H]]; auto.
Qed.
(* a place behind p and not below it is behind everything below p *)
Lemma before_out p q s : before p q -> ~ below p q -> before (p ++ s) q.
Proof.
  revert q; induction p as [|i p IH]; intros [|j q] H B; cbn in *; try tauto.
  - exfalso. apply B. exists j, q. reflexivity.
  - destruct H as [H|[-> H]]; [auto|]. right. split; [reflexivity|]. apply IH; [exact H|]. intros (a & b & ->). apply B. exists a, b. reflexivity.
Qed.
Lemma below_dec p q : below p q \/ ~ below p q.
Proof.
  revert q; induction p as [|i p IH]; intros [|j q].
  - right. intros (a & b & H). discriminate.
  - left. exists j, q. reflexivity.
  - right. intros (a & b & H). discriminate.
  - destruct (Nat.eq_dec i j) as [->|N]; [|right; intros (a & b & H); cbn in H; congruence].
    destruct (IH q) as [(a & b & ->)|H]; [left; exists a, b; reflexivity|right; intros (a & b & E); cbn in E; injection E as E; apply H; exists a, b; exact E].
Qed.
Lemma below_snoc p i r : below (p ++ [i]) r -> below p r.
Proof. intros (a & b & ->). exists i, (a :: b). rewrite <- app_assoc. reflexivity. Qed.

(* the iterator stands at p *)
Definition folders_ok kids top (p : place) (fold : list N) :=
  length fold = length p /\ forall i, i < length p -> nth_error fold i = object_at kids top (firstn i p).
Definition stands kids top p (it : iter) :=
  exists o, it_cur it = Some o /\ object_at kids top p = Some o /\ it_idx it = p /\ folders_ok kids top p (it_fold it).

Lemma stands_grows k k' top p it : grows k k' -> stands k top p it -> stands k' top p it.
Proof.
  intros G (o & A & B & C & D & E). exists o. split; [exact A|]. split; [exact (object_at_grows _ _ _ _ _ G B)|]. split; [exact C|]. split; [exact D|].
  intros i Hi. rewrite (E i Hi). destruct (object_at k top (firstn i p)) as [x|] eqn:F; [symmetry; exact (object_at_grows _ _ _ _ _ G F)|].
  exfalso. rewrite <- (firstn_skipn i p), object_at_app, F in B. discriminate.
Qed.

Lemma nth_firstn {A} (l : list A) i n : i < n -> nth_error (firstn n l) i = nth_error l i.
Proof. revert l n; induction i as [|i IH]; intros [|x l] [|n] H; cbn; try lia; auto. apply IH. lia. Qed.

Lemma folders_snoc kids top p i fold : folders_ok kids top (p ++ [i]) fold ->
  nth_error fold (length p) = object_at kids top p /\ folders_ok kids top p (remove_at fold (length p)).
Proof.
  intros (A & B). rewrite app_length in A, B. cbn in A, B. split.
  - rewrite (B (length p)) by lia. rewrite firstn_app, Nat.sub_diag, firstn_all, app_nil_r. reflexivity.
  - unfold remove_at. rewrite (skipn_all2 fold) by lia. rewrite app_nil_r. split; [rewrite firstn_length; lia|].
    intros j Hj. rewrite nth_firstn by lia. rewrite (B j) by lia. f_equal. rewrite firstn_app.
    replace (j - length p) with 0 by lia. apply app_nil_r.
Qed.
Lemma folders_same kids top p i j fold : folders_ok kids top (p ++ [i]) fold -> folders_ok kids top (p ++ [j]) fold.
Proof.
  intros (A & B). rewrite app_length in *. cbn in *. split; [rewrite app_length; exact A|]. rewrite app_length. cbn. intros k Hk. rewrite (B k Hk). f_equal.
  rewrite !firstn_app. replace (k - length p) with 0 by lia. reflexivity.
Qed.

Lemma upd_snoc {A} (p : list A) x y : upd (p ++ [x]) (length p) y = p ++ [y].
Proof. induction p as [|a p IH]; cbn; [reflexivity|]. now rewrite IH. Qed.

(* the loop finds the first place which is behind p and not below it *)
Lemma climb_spec kids top p : forall fold, exists_at kids top p -> folders_ok kids top p fold ->
  exists it, climb kids (length p) p fold = Ok it /\
  ((it_cur it = None /\ forall r, exists_at kids top r -> before p r -> below p r) \/
   exists q, stands kids top q it /\ length q <= length p /\ before p q /\ ~ below p q /\
     forall r, exists_at kids top r -> before p r -> ~ below p r -> r = q \/ before q r).
Proof.
  induction p as [|i p IH] using rev_ind; intros fold X F.
  - cbn. eexists. split; [reflexivity|]. left. split; [reflexivity|]. intros [|a r] _ B; [destruct B|]. exists a, r. reflexivity.
  - rewrite app_length. cbn [length]. rewrite Nat.add_1_r. cbn [climb]. rewrite app_nth2, Nat.sub_diag by lia. cbn [nth]. rewrite upd_snoc.
    destruct (folders_snoc _ _ _ _ _ F) as (F1 & F2). rewrite F1.
    unfold exists_at in X. rewrite object_at_app in X. destruct (object_at kids top p) as [f|] eqn:Ef; [|congruence].
    unfold child_ref. destruct (nth_error (kids f) (S i)) as [c|] eqn:Ec.
    + eexists. split; [reflexivity|]. right. exists (p ++ [S i]).
      assert (B : before (p ++ [i]) (p ++ [S i])) by (apply before_app; cbn; lia).
      assert (NB : ~ below (p ++ [i]) (p ++ [S i])). { intros (a & b & E). apply (f_equal (@length nat)) in E. rewrite !app_length in E. cbn in E. lia. }
      repeat split; auto.
      * exists c. cbn. split; [reflexivity|]. split; [rewrite object_at_app, Ef; cbn [object_at]; rewrite Ec; reflexivity|]. split; [reflexivity|]. exact (folders_same _ _ _ _ _ _ F).
      * rewrite !app_length. cbn. lia.
      * intros r Xr Br Nr. destruct (below_dec p r) as [(j & s & ->)|Np].
        -- assert (j > i). { destruct (Nat.lt_trichotomy j i) as [H|[->|H]]; [| |lia].
             - exfalso. apply (before_irrefl (p ++ [i])). eapply before_trans; [exact Br|]. apply before_app. cbn. auto.
             - exfalso. destruct s as [|a s]; [exact (before_irrefl _ Br)|]. apply Nr. exists a, s. rewrite <- app_assoc. reflexivity. }
           destruct (Nat.eq_dec j (S i)) as [->|].
           ++ destruct s as [|a s]; [left; reflexivity|right]. apply before_app. cbn. auto.
           ++ right. apply before_app. cbn. lia.
        -- right. apply before_out; [|exact Np]. destruct (before_total p r) as [->|[H|H]]; [exfalso|exact H|exfalso].
           ++ apply (before_irrefl r). eapply before_trans; [|exact Br]. apply before_below.
           ++ apply (before_irrefl r). eapply before_trans; [exact H|]. eapply before_trans; [|exact Br]. apply before_below.
    + rewrite firstn_app, Nat.sub_diag, firstn_all, app_nil_r.
      assert (In1 : forall r, exists_at kids top r -> before (p ++ [i]) r -> ~ below (p ++ [i]) r -> before p r /\ ~ below p r).
      { intros r Xr Br Nr. assert (Bp : before p r) by (eapply before_trans; [apply before_below|exact Br]). split; [exact Bp|]. intros (j & s & ->).
        unfold exists_at in Xr. rewrite object_at_app, Ef in Xr. cbn in Xr. destruct (nth_error (kids f) j) eqn:Ej; [|congruence].
        assert (j < S i). { apply nth_error_None in Ec. assert (j < length (kids f)) by (apply nth_error_Some; congruence). lia. }
        destruct (Nat.eq_dec j i) as [->|].
        - destruct s as [|a s]; [exact (before_irrefl _ Br)|]. apply Nr. exists a, s. rewrite <- app_assoc. reflexivity.
        - apply (before_irrefl (p ++ [i])). eapply before_trans; [exact Br|]. apply before_app. cbn. lia. }
      destruct (IH (remove_at fold (length p))) as (it & E & [(A & B)|(q & S & L & B & N & M)]); [unfold exists_at; congruence|exact F2| |].
      * exists it. split; [exact E|]. left. split; [exact A|]. intros r Xr Br. destruct (below_dec (p ++ [i]) r) as [|N]; [assumption|].
        destruct (In1 r Xr Br N) as (C & D). elim D. exact (B r Xr C).
      * exists it. split; [exact E|]. right. exists q. split; [exact S|]. split; [lia|]. split; [apply before_out; assumption|].
        split; [intro H; apply N; exact (below_snoc _ _ _ H)|]. intros r Xr Br Nr. destruct (In1 r Xr Br Nr). apply M; assumption.
Qed.

Lemma next_spec kids top limit g p it : within limit p -> stands kids top p it ->
  exists it', next top limit kids g it = Ok it' /\
  ((it_cur it' = None /\ none_open kids top limit p g) \/
   exists q, first_open kids top limit p g q /\ stands kids top q it').
Proof.
  intros W (o & Ec & Eo & Ei & Ef). unfold next. rewrite Ec, Ei.
  assert (X : exists_at kids top p) by (unfold exists_at; congruence).
  assert (Out : (forall r, exists_at kids top r -> open limit p g r -> ~ below p r) ->
    exists it', climb kids (length p) p (it_fold it) = Ok it' /\ ((it_cur it' = None /\ none_open kids top limit p g) \/
      exists q, first_open kids top limit p g q /\ stands kids top q it')).
  { intros H. destruct (climb_spec kids top p (it_fold it) X Ef) as (it' & E & [(A & B)|(q & S & L & B & N & M)]); exists it'; (split; [exact E|]).
    - left. split; [exact A|]. intros r Xr O. apply (H r Xr O), B; [exact Xr|apply O].
    - right. exists q. split; [|exact S]. split; [destruct S as (y & _ & Y & _); unfold exists_at; congruence|].
      split. { split; [exact B|]. split; [unfold within in *; lia|auto]. } intros r Xr O. apply M; [exact Xr|apply O|exact (H r Xr O)]. }
  destruct (g && ((limit <? 0)%Z || (Z.of_nat (length p) <? limit)%Z)) eqn:Eg.
  - unfold child_ref. destruct (nth_error (kids o) 0) as [c|] eqn:E0.
    + eexists. split; [reflexivity|]. right. exists (p ++ [0]).
      assert (Ox : object_at kids top (p ++ [0]) = Some c) by (rewrite object_at_app, Eo; cbn [object_at]; rewrite E0; reflexivity). split.
      * split; [unfold exists_at; congruence|]. split.
        { split; [apply before_below|]. split; [unfold within in *; rewrite app_length; cbn; lia|]. intros ->. discriminate. }
        intros r Xr (B & _ & _). destruct (below_dec p r) as [(j & s & ->)|N]; [|right; apply before_out; assumption].
        destruct j; [destruct s as [|a s]; [left; reflexivity|right; apply before_app; cbn; auto]|right; apply before_app; cbn; lia].
      * exists c. split; [reflexivity|]. split; [exact Ox|]. split; [reflexivity|]. destruct Ef as (A & B). cbn. split; [rewrite !app_length; cbn; lia|].
        rewrite app_length. cbn. intros i Hi. rewrite firstn_app. destruct (Nat.eq_dec i (length p)) as [->|].
        -- rewrite nth_error_app2, A, Nat.sub_diag, firstn_all, app_nil_r by lia. cbn. symmetry. exact Eo.
        -- rewrite nth_error_app1 by lia. replace (i - length p) with 0 by lia. cbn. rewrite app_nil_r. apply B. lia.
    + apply Out. intros r Xr _ (j & s & ->). unfold exists_at in Xr. rewrite object_at_app, Eo in Xr. cbn in Xr.
      destruct (kids o) as [|a l]; [|discriminate]. destruct j; cbn in Xr; congruence.
  - apply Out. intros r Xr (B & Wr & Ng) Bl. destruct g; [|exact (Ng eq_refl Bl)]. destruct Bl as (j & s & ->).
    unfold within in *. rewrite app_length in Wr. cbn in Wr, Eg. lia.
Qed.

Lemma stands_report kids top p it : stands kids top p it -> report_at kids top p (seen it).
Proof. intros (o & A & B & C & D & E). exists o, (it_fold it). unfold seen, level. rewrite A, C. auto. Qed.

(* the state in front of the calls: at w, the children as they were at some earlier time *)
Definition state_ok top limit (w : option place) (it : iter) (cs : list call) :=
  match w with
  | None => it_cur it = None
  | Some p => within limit p /\ exists k, (match cs with c :: _ => grows k (fst c) | [] => True end) /\ stands k top p it
  end.

Lemma grows_refl k : grows k k.
Proof. intros o. exists []. symmetry. apply app_nil_r. Qed.

Lemma growing_tail c cs : growing (c :: cs) -> growing cs /\ match cs with c' :: _ => grows (fst c) (fst c') | [] => True end.
Proof. intros H. inversion H; subst; [split; [constructor|exact I]|]. split; [assumption|assumption]. Qed.

Lemma run_walks top limit cs : forall w it, growing cs -> state_ok top limit w it cs ->
  exists it' rs, run top limit it cs = Ok (it', rs) /\ walks top limit w cs rs.
Proof.
  induction cs as [|(k, g) cs IH]; intros w it G S; [exists it, []; split; [reflexivity|constructor]|].
  destruct (growing_tail _ _ G) as (G' & Gk). cbn [fst] in Gk. cbn [run]. destruct w as [p|].
  - destruct S as (Wp & k0 & Hk & St). cbn in Hk. apply (stands_grows _ _ _ _ _ Hk) in St.
    destruct (next_spec k top limit g p it Wp St) as (it' & E & [(A & B)|(q & Q & Sq)]); rewrite E; cbn [bind].
    + destruct (IH None it' G' A) as (it2 & rs & E2 & R). rewrite E2. cbn. exists it2, (seen it' :: rs). split; [reflexivity|].
      unfold seen. rewrite A. exact (W_stop top limit p k g cs rs B R).
    + destruct (IH (Some q) it' G') as (it2 & rs & E2 & R). { split; [apply Q|]. exists k. split; [|exact Sq]. exact Gk. }
      rewrite E2. cbn. exists it2, (seen it' :: rs). split; [reflexivity|]. exact (W_next top limit p k g cs q _ rs Q (stands_report _ _ _ _ Sq) R).
  - cbn in S. unfold next. rewrite S. cbn [bind]. set (it' := mkIt (Some top) [] []).
    assert (Sq : stands k top [] it'). { exists top. repeat split. intros i Hi. cbn in Hi. lia. }
    destruct (IH (Some []) it' G') as (it2 & rs & E2 & R). { split; [unfold within; cbn; lia|]. exists k. split; [exact Gk|exact Sq]. }
    rewrite E2. cbn. exists it2, (seen it' :: rs). split; [reflexivity|]. exact (W_top top limit k g cs _ rs (stands_report _ _ _ _ Sq) R).
Qed.

(* --- whole walks --- *)
From Coq Require Import Sorting.Sorted.

Lemma growing_first c cs c' : growing (c :: cs) -> In c' (c :: cs) -> grows (fst c) (fst c').
Proof.
  revert c. induction cs as [|d cs IH]; intros c G [<-|H]; try apply grows_refl; [destruct H|].
  destruct (growing_tail _ _ G) as (G' & Gk). specialize (IH d G' H). intros o. destruct (Gk o) as (l & E). destruct (IH o) as (l' & E').
  exists (l ++ l'). rewrite E', E, app_assoc. reflexivity.
Qed.

Lemma growing_last (cs : list call) d c : growing cs -> In c cs -> grows (fst c) (fst (last cs d)).
Proof.
  intros G Hc. apply in_split in Hc. destruct Hc as (a & b & ->).
  assert (Gb : growing (c :: b)). { revert G. generalize (c :: b). intros m. induction a as [|e a IH]; cbn; [auto|]. intros H. apply IH. exact (proj1 (growing_tail _ _ H)). }
  apply (growing_first c b _ Gb). clear. induction a as [|e a IH]; cbn [app].
  - destruct (@exists_last _ (c :: b)) as (u & v & ->); [discriminate|]. rewrite last_last. apply in_or_app. right. left. reflexivity.
  - destruct (a ++ c :: b) eqn:E; [destruct a; discriminate|exact IH].
Qed.

Lemma walks_at top limit p k g cs rs : walks top limit (Some p) ((k, g) :: cs) rs ->
  (exists q r rs', rs = r :: rs' /\ first_open k top limit p g q /\ report_at k top q r /\ walks top limit (Some q) cs rs') \/
  (exists rs', rs = None :: rs' /\ none_open k top limit p g /\ walks top limit None cs rs').
Proof. intros W. inversion W; subst; [left; eauto 10|right; eauto]. Qed.
Lemma walks_nil top limit w rs : walks top limit w [] rs -> rs = [].
Proof. intros W. inversion W. reflexivity. Qed.

(* a piece of a walk without end *)
Lemma walk_places top limit cs rs p0 : walks top limit (Some p0) cs rs -> Forall (fun r => r <> None) rs ->
  exists ps, length ps = length rs /\ StronglySorted before (p0 :: ps) /\
    forall i c r, nth_error cs i = Some c -> nth_error rs i = Some r -> exists p, nth_error ps i = Some p /\ report_at (fst c) top p r.
Proof.
  revert rs p0. induction cs as [|(k, g) cs IH]; intros rs p0 W F.
  - rewrite (walks_nil _ _ _ _ W). exists []. split; [reflexivity|]. split; [repeat constructor|]. intros [|i] c r H; discriminate.
  - destruct (walks_at _ _ _ _ _ _ _ W) as [(q & r1 & rs1 & -> & Q & Rq & W')|(rs1 & -> & _)]; [|inversion F; congruence].
    inversion F as [|x y _ F']; subst. destruct (IH _ _ W' F') as (ps & L & S & R). exists (q :: ps). split; [cbn; lia|]. split.
    + constructor; [exact S|]. assert (B : before p0 q) by apply Q. constructor; [exact B|]. inversion S as [|a b _ Fa]; subst.
      eapply Forall_impl; [|exact Fa]. intros a Ha. cbn in Ha. exact (before_trans _ _ _ B Ha).
    + intros [|i] c r' A B; cbn in *; [|exact (R i c r' A B)]. injection A as <-. injection B as <-. exists q. auto.
Qed.

(* a walk up to its end *)
Lemma walk_pass top limit cs : forall rs p0, growing cs -> walks top limit (Some p0) cs (rs ++ [None]) -> Forall (fun r => r <> None) rs ->
  exists ps, length ps = length rs /\ StronglySorted before (p0 :: ps) /\
    (forall i c r, nth_error cs i = Some c -> nth_error rs i = Some r -> exists p, nth_error ps i = Some p /\ report_at (fst c) top p r) /\
    (forall r, In r ps -> within limit r) /\
    (forall i q c r, nth_error (p0 :: ps) i = Some q -> nth_error cs i = Some c -> In r ps -> below q r -> snd c = true) /\
    (forall c0 r, hd_error cs = Some c0 -> exists_at (fst c0) top r -> within limit r -> before p0 r ->
      (forall i q c, nth_error (p0 :: ps) i = Some q -> nth_error cs i = Some c -> below q r -> snd c = true) -> In r ps).
Proof.
  induction cs as [|(k, g) cs IH]; intros rs p0 G W F; [apply walks_nil in W; destruct rs; discriminate|].
  destruct rs as [|r0 rs].
  - exists []. split; [reflexivity|]. split; [repeat constructor|]. split; [intros [|i] c r _ X; discriminate|]. split; [intros r []|]. split; [intros i q c r _ _ []|].
    intros c0 r [= <-] X Wi B H. destruct (walks_at _ _ _ _ _ _ _ W) as [(q & r1 & rs1 & E1 & _ & (o & l & E & _) & _)|(rs1 & _ & No & _)]; [cbn in E1; congruence|].
    exfalso. apply (No r X). split; [exact B|]. split; [exact Wi|]. intros -> Bl. pose proof (H 0 p0 (k, false) eq_refl eq_refl Bl). discriminate.
  - inversion F as [|x y Fr F']; subst. destruct (walks_at _ _ _ _ _ _ _ W) as [(q & r1 & rs1 & E1 & Q & Rq & W')|(rs1 & E1 & _)]; [|injection E1; congruence].
    cbn in E1. injection E1 as <- <-. destruct (growing_tail _ _ G) as (G' & Gk).
    destruct (IH rs q G' W' F') as (ps & L & S & R & Wi & Pr & C). destruct Q as (Xq & (Bq & Wq & Nq) & Mq). exists (q :: ps).
    inversion S as [|a b _ Fa]; subst. split; [cbn; lia|]. split.
    { constructor; [exact S|]. constructor; [exact Bq|]. eapply Forall_impl; [|exact Fa]. intros a Ha. cbn in Ha. exact (before_trans _ _ _ Bq Ha). }
    split. { intros [|i] c r' A B; cbn in *; [|exact (R i c r' A B)]. injection A as <-. injection B as <-. exists q. auto. }
    split. { intros r [<-|Hr]; auto. }
    split.
    { intros [|i] z c r A B Hr Bl; cbn [nth_error] in A, B.
      - injection A as <-. injection B as <-. cbn. destruct g; [reflexivity|exfalso]. destruct Hr as [<-|Hr]; [exact (Nq eq_refl Bl)|].
        destruct Bl as (j & s & ->). pose proof (before_out _ _ (j :: s) Bq (Nq eq_refl)) as X.
        rewrite Forall_forall in Fa. exact (before_irrefl _ (before_trans _ _ _ X (Fa _ Hr))).
      - destruct Hr as [<-|Hr]; [|exact (Pr i z c r A B Hr Bl)]. exfalso. destruct Bl as (j & s & Ez). assert (Bz : before z q) by (rewrite Ez; apply before_below).
        destruct i as [|i]; cbn in A; [injection A as ->; exact (before_irrefl _ Bz)|]. apply nth_error_In in A. rewrite Forall_forall in Fa.
        exact (before_irrefl _ (before_trans _ _ _ Bz (Fa _ A))). }
    intros c0 r [= <-] X Wr Br H. cbn [fst] in X.
    assert (O : open limit p0 g r). { split; [exact Br|]. split; [exact Wr|]. intros -> Bl. pose proof (H 0 p0 (k, false) eq_refl eq_refl Bl). discriminate. }
    destruct (Mq r X O) as [->|Bqr]; [left; reflexivity|right]. destruct cs as [|c1 cs]; [apply walks_nil in W'; destruct rs; discriminate|].
    apply (C c1 r eq_refl); [|exact Wr|exact Bqr|].
    + unfold exists_at in *. destruct (object_at k top r) as [o|] eqn:Eo; [|congruence]. rewrite (object_at_grows _ _ _ _ _ Gk Eo). discriminate.
    + intros i z c A B Bl. exact (H (Datatypes.S i) z c A B Bl).
Qed.

Lemma sorted_nodup ps : StronglySorted before ps -> NoDup ps.
Proof.
  induction 1 as [|p ps S IH F]; constructor; [|exact IH]. intros X. rewrite Forall_forall in F. exact (before_irrefl _ (F _ X)).
Qed.

(* --- next_cast --- *)
Fixpoint beforeb (p q : place) : bool :=
  match p, q with
  | [], _ :: _ => true
  | i :: p, j :: q => (i <? j) || ((i =? j) && beforeb p q)
  | _, [] => false
  end.
Lemma beforeb_spec p q : beforeb p q = true <-> before p q.
Proof.
  revert q; induction p as [|i p IH]; intros [|j q]; cbn [beforeb before]; try (split; congruence || tauto).
  rewrite orb_true_iff, andb_true_iff, IH, Nat.ltb_lt, Nat.eqb_eq. tauto.
Qed.
Definition ahead (l : list place) (p : place) := length (filter (beforeb p) l).
Lemma filter_le {A} (f g : A -> bool) l : (forall x, g x = true -> f x = true) -> length (filter g l) <= length (filter f l).
Proof. intros H. induction l as [|a l IH]; cbn; [lia|]. destruct (g a) eqn:E; [rewrite (H a E); cbn; lia|]. destruct (f a); cbn; lia. Qed.
Lemma filter_lt {A} (f g : A -> bool) l x : (forall x, g x = true -> f x = true) -> In x l -> f x = true -> g x = false ->
  length (filter g l) < length (filter f l).
Proof.
  intros H. induction l as [|a l IH]; intros Hx F G; [destruct Hx|]. cbn. destruct Hx as [->|Hx].
  - rewrite F, G. cbn. pose proof (filter_le f g l H). lia.
  - specialize (IH Hx F G). destruct (g a) eqn:E; [rewrite (H a E); cbn; lia|]. destruct (f a); cbn; lia.
Qed.
Lemma ahead_lt kids top l p q : all_places kids top l -> exists_at kids top q -> before p q -> ahead l q < ahead l p.
Proof.
  intros (_ & A) X B. apply filter_lt with q; [|apply A; exact X|apply beforeb_spec; exact B|].
  - intros x Hx. apply beforeb_spec. apply beforeb_spec in Hx. exact (before_trans _ _ _ B Hx).
  - destruct (beforeb q q) eqn:E; [|reflexivity]. apply beforeb_spec in E. elim (before_irrefl _ E).
Qed.

Definition cls_at kids top (cls : N -> bool) (p : place) := exists o, object_at kids top p = Some o /\ cls o = true.

(* from p on, going inside: the next object of the class *)
Lemma cast_inside kids top l cls n : all_places kids top l -> forall p it, stands kids top p it -> ahead l p < n ->
  exists m it', next_cast n top (-1) kids cls true it = Ok (m, it') /\
  ((m = None /\ it_cur it' = None /\ forall r, before p r -> ~ cls_at kids top cls r) \/
   exists q, stands kids top q it' /\ m = it_cur it' /\ cls_at kids top cls q /\ before p q /\ forall r, before p r -> cls_at kids top cls r -> r = q \/ before q r).
Proof.
  intros A. induction n as [|n IH]; intros p it S Hn; [lia|]. cbn [next_cast].
  destruct (next_spec kids top (-1) true p it) as (it' & E & [(C & N)|(q & Q & Sq)]); [left; lia|exact S| |]; rewrite E; cbn [bind].
  - rewrite C. exists None, it'. split; [reflexivity|]. left. repeat split; auto. intros r B (o & Eo & _). apply (N r); [unfold exists_at; congruence|].
    split; [exact B|]. split; [left; lia|discriminate].
  - pose proof Sq as (o & Ec & Eo & _). rewrite Ec. destruct Q as (Xq & (Bq & _) & Mq).
    assert (M : forall r, before p r -> cls_at kids top cls r -> r = q \/ before q r).
    { intros r Br (x & Ex & _). apply Mq; [unfold exists_at; congruence|]. split; [exact Br|]. split; [left; lia|discriminate]. }
    destruct (cls o) eqn:Co.
    + exists (Some o), it'. split; [reflexivity|]. right. exists q. repeat split; auto. exists o. auto.
    + assert (Nq : ~ cls_at kids top cls q) by (intros (x & Ex & Cx); congruence).
      destruct (IH q it' Sq) as (m & it2 & E2 & D); [pose proof (ahead_lt _ _ _ _ _ A Xq Bq); lia|]. exists m, it2. split; [exact E2|].
      destruct D as [(-> & C2 & D)|(q2 & S2 & Em & C2 & B2 & M2)].
      * left. repeat split; auto. intros r Br Cr. destruct (M r Br Cr) as [->|H]; [auto|]. exact (D r H Cr).
      * right. exists q2. repeat split; auto; [exact (before_trans _ _ _ Bq B2)|]. intros r Br Cr. destruct (M r Br Cr) as [->|H]; [contradiction|]. auto.
Qed.

(* from a child of the top object on, not going inside *)
Lemma cast_beside kids top l cls n : all_places kids top l -> forall i it, stands kids top [i] it -> ahead l [i] < n ->
  exists m it', next_cast n top (-1) kids cls false it = Ok (m, it') /\
  ((m = None /\ it_cur it' = None /\ forall j, i < j -> ~ cls_at kids top cls [j]) \/
   exists j, stands kids top [j] it' /\ m = it_cur it' /\ cls_at kids top cls [j] /\ i < j /\ forall r, i < r -> cls_at kids top cls [r] -> j <= r).
Proof.
  intros A. induction n as [|n IH]; intros i it S Hn; [lia|]. cbn [next_cast].
  assert (Op : forall j, i < j -> open (-1) [i] false [j]). { intros j Hj. split; [cbn; auto|]. split; [left; lia|]. intros _ (a & b & X). cbn in X. congruence. }
  destruct (next_spec kids top (-1) false [i] it) as (it' & E & [(C & N)|(q & Q & Sq)]); [left; lia|exact S| |]; rewrite E; cbn [bind].
  - rewrite C. exists None, it'. split; [reflexivity|]. left. repeat split; auto. intros j Hj (o & Eo & _). apply (N [j]); [unfold exists_at; congruence|]. auto.
  - destruct Q as (Xq & (Bq & Wq & Nq) & Mq).
    assert (exists j, q = [j]) as (j & ->).
    { destruct q as [|j [|a s]]; [destruct Bq|exists j; reflexivity|exfalso]. cbn in Bq. assert (Hj : i < j).
      { destruct Bq as [H|[-> _]]; [exact H|]. exfalso. apply Nq; [reflexivity|]. exists a, s. reflexivity. }
      destruct (Mq [j]) as [X|X]; [|apply Op; exact Hj|discriminate|].
      - unfold exists_at in *. cbn in Xq |- *. destruct (nth_error (kids top) j); congruence.
      - cbn in X. destruct X as [X|[_ []]]. lia. }
    assert (Hj : i < j) by (cbn in Bq; tauto).
    assert (M : forall r, i < r -> cls_at kids top cls [r] -> j <= r).
    { intros r Hr (x & Ex & _). destruct (Mq [r]) as [X|X]; [unfold exists_at; congruence|apply Op; exact Hr|injection X; lia|cbn in X; lia]. }
    pose proof Sq as (o & Ec & Eo & _). rewrite Ec. destruct (cls o) eqn:Co.
    + exists (Some o), it'. split; [reflexivity|]. right. exists j. repeat split; auto. exists o. auto.
    + assert (Nj : ~ cls_at kids top cls [j]) by (intros (x & Ex & Cx); congruence).
      destruct (IH j it' Sq) as (m & it2 & E2 & D); [pose proof (ahead_lt _ _ _ _ _ A Xq Bq); lia|]. exists m, it2. split; [exact E2|].
      destruct D as [(-> & C2 & D)|(q2 & S2 & Em & C2 & B2 & M2)].
      * left. repeat split; auto. intros r Hr Cr. destruct (Nat.eq_dec r j) as [->|]; [auto|]. apply (D r); [|exact Cr]. specialize (M r Hr Cr). lia.
      * right. exists q2. repeat split; auto; [lia|]. intros r Hr Cr. destruct (Nat.eq_dec r j) as [->|]; [contradiction|]. apply M2; [|exact Cr]. specialize (M r Hr Cr). lia.
Qed.

(* every module found by next_cast is one of the tree *)
Lemma cast_sound kids top cls g n : forall p it m it', stands kids top p it \/ it_cur it = None -> next_cast n top (-1) kids cls g it = Ok (m, it') ->
  match m with None => True | Some o => exists q, stands kids top q it' /\ object_at kids top q = Some o /\ cls o = true end.
Proof.
  induction n as [|n IH]; intros p it m it' S E; [discriminate|]. cbn [next_cast] in E.
  assert (D : exists it1, next top (-1) kids g it = Ok it1 /\ (it_cur it1 = None \/ exists q, stands kids top q it1)).
  { destruct S as [S|S].
    - destruct (next_spec kids top (-1) g p it) as (it1 & E1 & [(C & _)|(q & _ & Sq)]); [left; lia|exact S| |]; exists it1; split; eauto.
    - unfold next. rewrite S. eexists. split; [reflexivity|]. right. exists [], top. repeat split. intros i Hi. cbn in Hi. lia. }
  destruct D as (it1 & E1 & D). rewrite E1 in E. cbn [bind] in E. destruct D as [D|(q & Sq)].
  - rewrite D in E. injection E as <- <-. exact I.
  - pose proof Sq as (o & Ec & Eo & _). rewrite Ec in E. destruct (cls o) eqn:Co.
    + injection E as <- <-. exists q. auto.
    + apply (IH q it1 m it'); auto.
Qed.
