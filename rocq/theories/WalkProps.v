(* C76: the walk over the objects below a folder.
   WalkSpec.v gives the order of a document and what a right walk is.  [run top limit it_new cs] are
   the calls [cs] of next() on a new iterator. *)
From Coq Require Import Sorting.Sorted.
From Verif Require Import Common WalkSpec WalkModel WalkProofs.

(* Objects may be added behind their siblings while the walk runs: every call goes to the first open
   place behind the last one, with its level and the objects above it; at the end it reports
   nothing, and the call behind it starts again at the top. *)
Theorem C76_walk_partial : forall top limit cs, growing cs ->
  exists it rs, run top limit it_new cs = Ok (it, rs) /\ walks top limit None cs rs.
Proof. intros top limit cs G. apply run_walks; [exact G|reflexivity]. Qed.
Print Assumptions C76_walk_partial.

(* the reports of a walk from the start to its first end *)
Definition one_pass (rs : list report) (l : list (N * nat * list N)) := rs = map Some l ++ [None].

(* A whole walk without limit, always going inside: every object there at the beginning is reported,
   and none twice, if at the end every object has one place. *)
Theorem C76_once_partial : forall top limit cs it rs l k0 kl, (limit < 0)%Z -> growing cs -> Forall (fun c => snd c = true) cs ->
  run top limit it_new cs = Ok (it, rs) -> one_pass rs l ->
  fst (hd (k0, true) cs) = k0 -> fst (last cs (kl, true)) = kl ->
  (forall p q o, object_at kl top p = Some o -> object_at kl top q = Some o -> p = q) ->
  NoDup (map (fun x => fst (fst x)) l) /\ forall p o, object_at k0 top p = Some o -> In o (map (fun x => fst (fst x)) l).
Proof.
  intros top limit cs it rs l k0 kl Hl G T E P H0 Hkl U.
  destruct (C76_walk_partial top limit cs G) as (it2 & rs2 & E2 & W). rewrite E in E2. injection E2 as <- <-. rewrite P in W.
  destruct cs as [|(k, g) cs]; [apply walks_nil in W; destruct l; discriminate|]. cbn in H0. subst k.
  destruct l as [|x l]; [inversion W; subst; match goal with H : report_at _ _ _ None |- _ => destruct H as (? & ? & ? & _); discriminate end|].
  assert (Wt : report_at k0 top [] (Some x) /\ walks top limit (Some []) cs (map Some l ++ [None])) by (inversion W; subst; auto).
  destruct Wt as (R0 & Wt). destruct (growing_tail _ _ G) as (G' & Gk).
  assert (F : Forall (fun r : report => r <> None) (map Some l)). { apply Forall_map, Forall_forall. intros y _. discriminate. }
  destruct (walk_pass top limit cs _ _ G' Wt F) as (ps & L & S & R & Wi & Pr & C). rewrite map_length in L.
  assert (Lc : forall c, In c ((k0, g) :: cs) -> grows (fst c) kl).
  { intros c Hc. rewrite <- Hkl. exact (growing_last _ (kl, true) c G Hc). }
  (* object of every place *)
  assert (At : forall i y, nth_error (x :: l) i = Some y -> exists p, nth_error ([] :: ps) i = Some p /\ object_at kl top p = Some (fst (fst y))).
  { intros [|i] y Hy; cbn [nth_error] in *.
    - injection Hy as <-. exists []. split; [reflexivity|]. destruct R0 as (o & m & [= ->] & Eo & _). cbn [fst]. apply (object_at_grows k0 kl); [apply (Lc (k0, g)); left; reflexivity|exact Eo].
    - assert (Hc : i < length cs). { assert (i < length l) by (apply nth_error_Some; congruence). clear - Wt H. enough (length cs = length (map Some l ++ [@None (N * nat * list N)])) by (rewrite app_length, map_length in H0; cbn in H0; lia).
        clear H. revert Wt. generalize (Some (@nil nat)) (map Some l ++ [@None (N * nat * list N)]). intros w rs W. induction W; cbn; lia. }
      destruct (nth_error cs i) as [c|] eqn:Ec; [|apply nth_error_None in Ec; lia].
      assert (Er : nth_error (map Some l) i = Some (Some y)) by (rewrite nth_error_map, Hy; reflexivity).
      destruct (R i c _ Ec Er) as (p & Ep & (o & m & [= ->] & Eo & _)). exists p. split; [exact Ep|]. cbn [fst].
      apply (object_at_grows (fst c) kl); [|exact Eo]. apply Lc. right. exact (nth_error_In _ _ Ec). }
  pose proof (sorted_nodup _ S) as Nd. split.
  - apply NoDup_nth_error. intros i j Hi Hij. rewrite map_length in Hi. rewrite !nth_error_map in Hij.
    destruct (nth_error (x :: l) i) as [y|] eqn:Ey; [|apply nth_error_None in Ey; lia].
    destruct (nth_error (x :: l) j) as [z|] eqn:Ez; [|discriminate]. cbn in Hij. injection Hij as Hij.
    destruct (At i y Ey) as (p & Ep & Op). destruct (At j z Ez) as (q & Eq & Oq). rewrite Hij in Op. pose proof (U _ _ _ Op Oq) as ->.
    apply (proj1 (NoDup_nth_error ([] :: ps)) Nd); [apply nth_error_Some; congruence|congruence].
  - intros p o Eo. assert (Hp : In p ([] :: ps)).
    { destruct p as [|i p]; [left; reflexivity|right]. destruct cs as [|c1 cs]; [apply walks_nil in Wt; destruct l; discriminate|].
      apply (C c1 (i :: p) eq_refl); [|left; exact Hl|exact I|].
      - cbn in Gk. unfold exists_at. rewrite (object_at_grows _ _ _ _ _ Gk Eo). discriminate.
      - intros j q c _ Hc _. apply nth_error_In in Hc. inversion T as [|? ? _ T']; subst. rewrite Forall_forall in T'. exact (T' c Hc). }
    apply In_nth_error in Hp. destruct Hp as (i & Ei). assert (Hi : i < length (x :: l)). { cbn. rewrite <- L. change (Datatypes.S (length ps)) with (@length place ([] :: ps)). apply nth_error_Some. congruence. }
    destruct (nth_error (x :: l) i) as [y|] eqn:Ey; [|apply nth_error_None in Ey; lia]. destruct (At i y Ey) as (p' & Ep & Op).
    assert (Ok0 : object_at kl top p = Some o) by (apply (object_at_grows k0 kl); [apply (Lc (k0, g)); left; reflexivity|exact Eo]).
    pose proof (eq_trans (eq_sym Ei) Ep) as Epp. injection Epp as <-. replace o with (fst (fst y)) by congruence. exact (in_map (fun z : N * nat * list N => fst (fst z)) _ _ (nth_error_In _ _ Ey)).
Qed.
Print Assumptions C76_once_partial.

(* A whole walk in a tree which does not change: [gs] are the arguments of the calls.  The places
   visited are in the order of the document, and are those within the limit for which the caller
   has not refused to go inside at an object above them. *)
Theorem C76_pruned_partial : forall kids top limit gs it rs l,
  run top limit it_new (map (fun g => (kids, g)) gs) = Ok (it, rs) -> one_pass rs l ->
  exists ps, StronglySorted before ps /\ Forall2 (fun p x => report_at kids top p (Some x)) ps l /\
    forall p, In p ps <-> exists_at kids top p /\ within limit p /\
      forall i q g, nth_error ps i = Some q -> nth_error gs (S i) = Some g -> below q p -> g = true.
Proof.
  intros kids top limit gs it rs l E P.
  assert (G : forall gs, growing (map (fun g => (kids, g)) gs)). { intros l0. induction l0 as [|a [|b l0] IH]; cbn; [constructor|constructor|]. constructor; [apply grows_refl|exact IH]. }
  destruct (C76_walk_partial top limit _ (G gs)) as (it2 & rs2 & E2 & W). rewrite E in E2. injection E2 as <- <-. rewrite P in W.
  destruct gs as [|g gs]; [apply walks_nil in W; destruct l; discriminate|]. cbn [map] in W.
  destruct l as [|x l]; [inversion W; subst; match goal with H : report_at _ _ _ None |- _ => destruct H as (? & ? & ? & _); discriminate end|].
  assert (Wt : report_at kids top [] (Some x) /\ walks top limit (Some []) (map (fun g => (kids, g)) gs) (map Some l ++ [None])) by (inversion W; subst; auto).
  destruct Wt as (R0 & Wt).
  assert (F : Forall (fun r : report => r <> None) (map Some l)). { apply Forall_map, Forall_forall. intros y _. discriminate. }
  destruct (walk_pass top limit _ _ _ (G gs) Wt F) as (ps & L & S & R & Wi & Pr & C). rewrite map_length in L.
  assert (Len : length gs = Datatypes.S (length l)).
  { assert (K : forall w cs rs, walks top limit w cs rs -> length cs = length rs) by (intros w cs rs0 X; induction X; cbn; lia).
    apply K in Wt. rewrite app_length, !map_length in Wt. cbn in Wt. lia. }
  assert (At : forall i y, nth_error l i = Some y -> exists p, nth_error ps i = Some p /\ report_at kids top p (Some y)).
  { intros i y Hy. assert (Hi : i < length l) by (apply nth_error_Some; congruence). destruct (nth_error gs i) as [c|] eqn:Ec; [|apply nth_error_None in Ec; lia].
    destruct (R i (kids, c) (Some y)) as (p & Ep & Rp); [rewrite nth_error_map, Ec; reflexivity|rewrite nth_error_map, Hy; reflexivity|]. exists p. auto. }
  exists ([] :: ps). split; [exact S|]. split.
  { constructor; [exact R0|]. clear - L At. revert ps L At. induction l as [|y l IH]; intros [|p ps] L At; cbn in L; try lia; constructor.
    - destruct (At 0 y eq_refl) as (p' & [= <-] & X). exact X.
    - apply IH; [lia|]. intros i z Hz. exact (At (Datatypes.S i) z Hz). }
  intros p. split.
  - intros Hp. assert (Xp : exists_at kids top p).
    { destruct Hp as [<-|Hp]; [unfold exists_at; cbn; discriminate|]. apply In_nth_error in Hp. destruct Hp as (i & Ei).
      assert (Hi : i < length l) by (rewrite <- L; apply nth_error_Some; congruence). destruct (nth_error l i) as [y|] eqn:Ey; [|apply nth_error_None in Ey; lia].
      destruct (At i y Ey) as (p' & Ep & (o & m & _ & Eo & _)). unfold exists_at. congruence. }
    split; [exact Xp|]. split; [destruct Hp as [<-|Hp]; [unfold within; cbn; lia|auto]|].
    intros i q c Eq Ec Bl. destruct Hp as [<-|Hp]; [destruct Bl as (a & b & X); destruct q; discriminate|].
    apply (Pr i q (kids, c) p Eq); [|exact Hp|exact Bl]. rewrite nth_error_map. cbn [nth_error] in Ec. rewrite Ec. reflexivity.
  - intros (Xp & Wp & H). destruct p as [|i p]; [left; reflexivity|right]. destruct gs as [|g1 gs]; [cbn in Len; lia|].
    apply (C (kids, g1) (i :: p) eq_refl); [exact Xp|exact Wp|exact I|]. intros j q c Eq Ec Bl.
    rewrite nth_error_map in Ec. destruct (nth_error (g1 :: gs) j) as [b|] eqn:Eb; [|discriminate]. injection Ec as <-. exact (H j q b Eq Eb Bl).
Qed.
Print Assumptions C76_pruned_partial.

(* In a finite tree which does not change the walk ends: at most one call per object and one more. *)
Theorem C76_ends_partial : forall kids top limit all gs it rs, all_places kids top all -> length all < length gs ->
  run top limit it_new (map (fun g => (kids, g)) gs) = Ok (it, rs) -> In None rs.
Proof.
  intros kids top limit all gs it rs (Nd & A) Hg E.
  assert (G : growing (map (fun g => (kids, g)) gs)). { clear. induction gs as [|a [|b l0] IH]; cbn; [constructor|constructor|]. constructor; [apply grows_refl|exact IH]. }
  destruct (C76_walk_partial top limit _ G) as (it2 & rs2 & E2 & W). rewrite E in E2. injection E2 as <- <-.
  destruct (in_dec (fun a b : report => ltac:(repeat decide equality)) None rs) as [H|H]; [exact H|exfalso].
  assert (F : Forall (fun r : report => r <> None) rs) by (apply Forall_forall; intros r Hr ->; contradiction).
  destruct gs as [|g gs]; [cbn in Hg; lia|]. cbn [map] in W. inversion W; subst. inversion F as [|? ? _ F']; subst.
  match goal with H : walks _ _ (Some []) _ _ |- _ => pose proof H as W'; destruct (walk_places _ _ _ _ _ H F') as (ps & L & S & R) end.
  assert (K : forall w cs rs, walks top limit w cs rs -> length cs = length rs) by (intros w cs' rs' X; induction X; cbn; lia).
  apply K in W'. rewrite map_length in W'.
  assert (I : incl ([] :: ps) all).
  { intros p Hp. apply A. destruct Hp as [<-|Hp]; [unfold exists_at; cbn; discriminate|]. apply In_nth_error in Hp. destruct Hp as (i & Ei).
    assert (Hi : i < length rs0). { rewrite <- L. apply (proj1 (nth_error_Some (A := place) ps i)). intros X. pose proof (eq_trans (eq_sym X) Ei) as Y. discriminate Y. } destruct (nth_error rs0 i) as [y|] eqn:Ey; [|apply nth_error_None in Ey; lia].
    destruct (nth_error gs i) as [c|] eqn:Ec; [|apply nth_error_None in Ec; lia].
    destruct (R i (kids, c) y) as (p' & Ep & (o & m & _ & Eo & _)); [rewrite nth_error_map, Ec; reflexivity|exact Ey|]. pose proof (eq_trans (eq_sym Ei) Ep) as Y. injection Y as ->. unfold exists_at. cbn [fst] in Eo. rewrite Eo. discriminate. }
  pose proof (NoDup_incl_length (sorted_nodup _ S) I) as X. cbn in X, Hg. lia.
Qed.
Print Assumptions C76_ends_partial.

(* A tree:  1 [2 [4; 5]; 3 [6 [7]]]. *)
Definition tree (o : N) : list N := match o with 1 => [2; 3] | 2 => [4; 5] | 3 => [6] | 6 => [7] | _ => [] end%N.
Definition tree_places : list place := [[]; [0]; [0; 0]; [0; 1]; [1]; [1; 0]; [1; 0; 0]].
Definition in_tree : forall p, In p tree_places <-> exists_at tree 1%N p.
Proof.
  assert (L : forall i, @nth_error N [] i = None) by (intros []; reflexivity).
  intros p. split; [intros H; cbn in H; repeat destruct H as [<-|H]; try (unfold exists_at; cbn; discriminate); destruct H|].
  unfold exists_at. cbn [tree_places]. destruct p as [|[|[|i]] p]; cbn [object_at tree nth_error]; intros H; [cbn; tauto| | |exfalso; rewrite ?L in H; congruence].
  - destruct p as [|[|[|i]] p]; cbn [object_at tree nth_error] in H; [cbn; tauto| | |exfalso; rewrite ?L in H; congruence]; (destruct p as [|i p]; [cbn; tauto|cbn [object_at tree] in H; rewrite L in H; congruence]).
  - destruct p as [|[|i] p]; cbn [object_at tree nth_error] in H; [cbn; tauto| |exfalso; rewrite ?L in H; congruence].
    destruct p as [|[|i] p]; cbn [object_at tree nth_error] in H; [cbn; tauto| |exfalso; rewrite ?L in H; congruence]. destruct p as [|i p]; [cbn; tauto|cbn [object_at tree] in H; rewrite L in H; congruence].
Qed.
Example C76_case : all_places tree 1%N tree_places /\
  (exists it, run 1%N (-1) it_new (map (fun g => (tree, g)) (repeat true 9)) =
     Ok (it, [Some (1%N, 0, []); Some (2%N, 1, [1%N]); Some (4%N, 2, [1%N; 2%N]); Some (5%N, 2, [1%N; 2%N]); Some (3%N, 1, [1%N]);
       Some (6%N, 2, [1%N; 3%N]); Some (7%N, 3, [1%N; 3%N; 6%N]); None; Some (1%N, 0, [])])) /\
  (* level 1 only; nothing below object 2 *)
  (exists it, run 1%N 1 it_new (map (fun g => (tree, g)) (repeat true 4)) = Ok (it, [Some (1%N, 0, []); Some (2%N, 1, [1%N]); Some (3%N, 1, [1%N]); None])) /\
  (exists it, run 1%N (-1) it_new (map (fun g => (tree, g)) [true; true; false; true; true; true]) =
     Ok (it, [Some (1%N, 0, []); Some (2%N, 1, [1%N]); Some (3%N, 1, [1%N]); Some (6%N, 2, [1%N; 3%N]); Some (7%N, 3, [1%N; 3%N; 6%N]); None])).
Proof.
  split; [split; [repeat (constructor; [cbn; intuition discriminate|]); constructor|exact in_tree]|].
  split; [|split]; eexists; vm_compute; reflexivity.
Qed.
(* an object added during the walk *)
Definition tree' (o : N) : list N := match o with 3 => [6; 8] | _ => tree o end%N.
Definition grow_calls : list call := [(tree, true); (tree, true); (tree, true); (tree', true); (tree', true); (tree', true); (tree', true); (tree', true); (tree', true)].
Example C76_case_growing : growing grow_calls /\
  (exists it l, run 1%N (-1) it_new grow_calls = Ok (it, map Some l ++ [None]) /\ map (fun x => fst (fst x)) l = [1; 2; 4; 5; 3; 6; 7; 8]%N).
Proof.
  assert (E : grows tree tree'). { intros o. destruct (N.eq_dec o 3) as [->|N]; [exists [8%N]; reflexivity|]. exists []. rewrite app_nil_r. unfold tree'. destruct o as [|[[p|p|]|p|]]; try reflexivity. congruence. }
  split; [repeat first [apply G_one | apply G_cons; [first [apply grows_refl|exact E]|]]|].
  eexists _, [_; _; _; _; _; _; _; _]. split; vm_compute; reflexivity.
Qed.

(* Children may be removed as well during a walk (Object::RemoveChild): an object which is there in
   all calls is then not reported, as the walk keeps the index of the child. *)
Theorem C76_removed_refuted : exists k1 k2 top o it l, object_at k1 top [1] = Some o /\ object_at k2 top [0] = Some o /\
  run top (-1) it_new [(k1, true); (k1, true); (k2, true); (k2, true)] = Ok (it, map Some l ++ [None]) /\ ~ In o (map (fun x => fst (fst x)) l).
Proof.
  exists (fun o => if N.eqb o 1 then [2; 3; 4]%N else []), (fun o => if N.eqb o 1 then [3; 4]%N else []), 1%N, 3%N, (mkIt None [] []), [(1%N, 0, []); (2%N, 1, [1%N]); (4%N, 1, [1%N])].
  vm_compute. repeat split. intuition discriminate.
Qed.
Print Assumptions C76_removed_refuted.
(* ... and one added in front of others (Object::AddChildAt) makes the walk report an object twice. *)
Theorem C76_inserted_refuted : exists k1 k2 top it l, (forall o, exists a b c, k1 o = a ++ b /\ k2 o = a ++ c ++ b) /\
  run top (-1) it_new [(k1, true); (k1, true); (k2, true); (k2, true); (k2, true)] = Ok (it, map Some l ++ [None]) /\ ~ NoDup (map (fun x => fst (fst x)) l).
Proof.
  exists (fun o => if N.eqb o 1 then [2; 3]%N else []), (fun o => if N.eqb o 1 then [5; 2; 3]%N else []), 1%N, (mkIt None [] []), [(1%N, 0, []); (2%N, 1, [1%N]); (2%N, 1, [1%N]); (3%N, 1, [1%N])].
  split; [|split; [vm_compute; reflexivity|]].
  - intros o. destruct (N.eqb o 1); [exists [], [2; 3]%N, [5%N]|exists [], [], []]; auto.
  - cbn. intros H. inversion H as [|? ? _ H1]; subst. inversion H1 as [|? ? X _]; subst. apply X. left. reflexivity.
Qed.
Print Assumptions C76_inserted_refuted.

(* IsAnyModuleRunning: when the modules are children of the manager, the answer is right. *)
Theorem C76_running_partial : forall kids top all is_module running n, all_places kids top all -> length all < n ->
  (forall p o, object_at kids top p = Some o -> is_module o = true -> length p = 1) ->
  exists b, any_running n top kids is_module running None it_new = Ok b /\
    (b = true <-> exists p o, object_at kids top p = Some o /\ is_module o = true /\ running o = true).
Proof.
  intros kids top all md ru n A Hn One.
  assert (St : stands kids top [] (mkIt (Some top) [] [])). { exists top. repeat split. intros i Hi. cbn in Hi. lia. }
  assert (Nt : md top = false). { destruct (md top) eqn:X; [|reflexivity]. specialize (One [] top eq_refl X). discriminate. }
  assert (Ha : forall p, exists_at kids top p -> ahead all p < length all).
  { intros p Xp. pose proof (fun q => ahead_lt _ _ _ q p A Xp) as H. unfold ahead in *. destruct p as [|i p].
    - enough (length (filter (beforeb []) all) < length (filter (fun _ => true) all)). { assert (K : forall l : list place, filter (fun _ => true) l = l) by (intros l; induction l as [|a l IH]; cbn; congruence). rewrite K in H0. exact H0. }
      apply (filter_lt (fun _ => true) (beforeb []) all []); auto. apply A. exact Xp.
    - specialize (H [] I). pose proof (filter_le (fun _ => true) (beforeb []) all (fun _ _ => eq_refl)) as K0.
      assert (K : forall l : list place, filter (fun _ => true) l = l) by (intros l; induction l as [|a l IH]; cbn; congruence). rewrite K in K0. lia. }
  (* the modules behind child i *)
  assert (Rest : forall m i it o, stands kids top [i] it -> ahead all [i] < m -> exists b, any_running m top kids md ru (Some o) it = Ok b /\
     (b = true <-> exists j x, i < j /\ object_at kids top [j] = Some x /\ md x = true /\ ru x = true)).
  { induction m as [|m IH]; intros i it o S Hm; [lia|]. cbn [any_running].
    destruct (cast_beside kids top all md (Datatypes.S m) A i it S Hm) as (r & it' & E & D). rewrite E. cbn [bind].
    destruct D as [(-> & _ & D)|(j & Sj & Er & (x & Ex & Mx) & Hj & Mj)].
    - exists false. split; [reflexivity|]. split; [discriminate|]. intros (j & x & Hj & Ex & Mx & _). exfalso. apply (D j Hj). exists x. auto.
    - pose proof Sj as (y & Ey & Oy & _). rewrite Er, Ey. replace y with x by congruence. destruct (ru x) eqn:Rx.
      + exists true. split; [reflexivity|]. split; [|reflexivity]. intros _. exists j, x. auto.
      + destruct (IH j it' x Sj) as (b & Eb & Hb). { assert (Xj : exists_at kids top [j]) by (unfold exists_at; congruence). pose proof (ahead_lt _ _ _ [i] [j] A Xj (or_introl Hj)). lia. }
        exists b. split; [exact Eb|]. rewrite Hb. split; [intros (r0 & z & Hr & H); exists r0, z; split; [lia|exact H]|].
        intros (r0 & z & Hr & Ez & Mz & Rz). exists r0, z. assert (j <= r0) by (apply Mj; [exact Hr|exists z; auto]).
        assert (r0 <> j) by (intros ->; congruence). split; [lia|auto]. }
  destruct n as [|n]; [lia|]. cbn [any_running next_cast]. unfold next at 1. cbn [it_cur it_new bind]. rewrite Nt.
  assert (H0 : ahead all [] < n). { assert (X : exists_at kids top []) by (unfold exists_at; cbn; discriminate). specialize (Ha [] X). lia. }
  destruct (cast_inside kids top all md n A [] _ St H0) as (r & it' & E & D). rewrite E. cbn [bind].
  destruct D as [(-> & _ & D)|(q & Sq & Er & (x & Ex & Mx) & Bq & Mq)].
  - exists false. split; [reflexivity|]. split; [discriminate|]. intros (p & x & Ep & Mx & _). exfalso. apply (D p); [|exists x; auto].
    specialize (One p x Ep Mx). destruct p; [discriminate|exact I].
  - pose proof (One q x Ex Mx) as Lq. destruct q as [|i [|]]; try discriminate. pose proof Sq as (y & Ey & Oy & _). rewrite Er, Ey. replace y with x by congruence.
    destruct (ru x) eqn:Rx; [exists true; split; [reflexivity|]; split; [|reflexivity]; intros _; exists [i], x; auto|].
    destruct (Rest n i it' x Sq) as (b & Eb & Hb). { assert (Xi : exists_at kids top [i]) by (unfold exists_at; congruence). specialize (Ha [i] Xi). lia. }
    exists b. split; [exact Eb|]. rewrite Hb. split; [intros (j & z & Hj & Ez & Mz & Rz); exists [j], z; auto|].
    intros (p & z & Ep & Mz & Rz). pose proof (One p z Ep Mz) as Lp. destruct p as [|j [|]]; try discriminate. exists j, z.
    destruct (Mq [j]) as [X|X]; [exact I|exists z; auto|injection X as ->; congruence|]. cbn in X. split; [lia|auto].
Qed.
Print Assumptions C76_running_partial.
(* Wherever the modules are: the answer yes is right. *)
Theorem C76_running_yes_partial : forall kids top is_module running n, any_running n top kids is_module running None it_new = Ok true ->
  exists p o, object_at kids top p = Some o /\ is_module o = true /\ running o = true.
Proof.
  intros kids top md ru n. assert (Snd : forall n p m it, stands kids top p it \/ it_cur it = None -> any_running n top kids md ru m it = Ok true ->
    exists p o, object_at kids top p = Some o /\ md o = true /\ ru o = true).
  { clear n. induction n as [|n IH]; intros p m it St E; [discriminate|]. cbn [any_running] in E.
    destruct (next_cast (Datatypes.S n) top (-1) kids md _ it) as [(m', it')| |] eqn:Ec; cbn [bind] in E; try discriminate.
    pose proof (cast_sound _ _ _ _ _ p _ _ _ St Ec) as H. destruct m' as [o|]; [|discriminate]. destruct H as (q & Sq & Eo & Mo).
    destruct (ru o) eqn:Ro; [exists q, o; auto|]. exact (IH q _ it' (or_introl Sq) E). }
  intros E. exact (Snd n [] None it_new (or_intror eq_refl) E).
Qed.
Print Assumptions C76_running_yes_partial.
Example C76_case_running : any_running 8 1 tree (fun o => (o =? 2) || (o =? 3))%N (fun o => o =? 3)%N None it_new = Ok true /\
  any_running 8 1 tree (fun o => (o =? 2) || (o =? 3))%N (fun o => o =? 7)%N None it_new = Ok false /\
  (forall p o, object_at tree 1 p = Some o -> ((o =? 2) || (o =? 3))%N = true -> length p = 1).
Proof.
  split; [reflexivity|]. split; [reflexivity|]. intros p o E H. assert (X : In p tree_places) by (apply in_tree; unfold exists_at; congruence).
  cbn in X. repeat destruct X as [<-|X]; cbn in E; try injection E as <-; try discriminate; try reflexivity; destruct X.
Qed.

(* A running module inside a folder is not found when a module which does not run stands in front of
   the folder: behind the first module the walk does not go inside any more. *)
Theorem C76_running_refuted : exists kids top all is_module running p o, all_places kids top all /\
  object_at kids top p = Some o /\ is_module o = true /\ running o = true /\
  forall n, length all < n -> any_running n top kids is_module running None it_new = Ok false.
Proof.
  exists tree, 1%N, tree_places, (fun o => (o =? 2) || (o =? 6))%N, (fun o => o =? 6)%N, [1; 0], 6%N.
  split; [exact (proj1 C76_case)|]. repeat split. intros n Hn. cbn in Hn. do 8 (destruct n as [|n]; [lia|]). reflexivity.
Qed.
Print Assumptions C76_running_refuted.
(* The command Print lists no thread and no module: it never goes inside the folder. *)
Theorem C76_print_refuted : forall kids top cls n, cls top = false -> listed (S (S n)) top kids cls it_new = Ok [].
Proof. intros kids top cls n H. cbn. rewrite H. reflexivity. Qed.
Print Assumptions C76_print_refuted.
