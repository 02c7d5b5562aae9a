(* Connections between two nodes: facts and invariants. *)
From Coq Require Import Sorting.Permutation.
From Verif Require Import Common ListFacts Bytes SdevSpec SdevModel.
Local Open Scope N_scope.

Lemma run_app l l' d : run (l ++ l') d = do e <- run l d; run l' e.
Proof. revert d. induction l as [|v l IH]; intros d; cbn [app run bind]; [reflexivity|]. destruct (step d v); cbn [bind]; auto. Qed.
Lemma run_snoc l v d e : run (l ++ [v]) d = Ok e -> exists f, run l d = Ok f /\ step f v = Ok e.
Proof.
  rewrite run_app. destruct (run l d) as [f| |]; cbn [bind]; try discriminate. intros H. exists f. split; [reflexivity|]. cbn [run] in H. destruct (step f v); cbn [bind] in H; [exact H|discriminate..].
Qed.

Lemma same_eq a b : same a b = true <-> a = b.
Proof. unfold same. destruct (list_eq_dec N.eq_dec a b); split; congruence. Qed.
Lemma alive_in r d : alive r d = true <-> In r (map fst (d_recs d)).
Proof.
  unfold alive. rewrite existsb_exists, in_map_iff. split.
  - intros (e & H & E). exists e. apply Nat.eqb_eq in E. auto.
  - intros (e & E & H). exists e. split; [exact H|]. apply Nat.eqb_eq. exact E.
Qed.
Lemma find_rec_in id d r : find_rec id d = Some r -> In (r, id) (d_recs d).
Proof.
  unfold find_rec. destruct (find _ (d_recs d)) as [[u i]|] eqn:E; [|discriminate]. intros [= <-]. apply find_some in E as (H & S). apply same_eq in S. cbn [snd fst] in *. subst. exact H.
Qed.
Lemma find_proc_in p d x : find_proc p d = Some x -> In x (d_procs d) /\ p_no x = p.
Proof. unfold find_proc. intros E. apply find_some in E as (H & S). apply Nat.eqb_eq in S. auto. Qed.

Lemma filter_id {A} (f : A -> bool) l : (forall x, In x l -> f x = true) -> filter f l = l.
Proof. induction l as [|x l IH]; intros H; cbn [filter]; [reflexivity|]. rewrite (H x (or_introl eq_refl)), IH; [reflexivity|]. intros y Hy. apply H. right. exact Hy. Qed.
Lemma nodup_filter {A B} (f : A -> B) g l : NoDup (map f l) -> NoDup (map f (filter g l)).
Proof.
  induction l as [|x l IH]; cbn [map filter]; intros N; [constructor|]. apply NoDup_cons_iff in N as (N1 & N2). destruct (g x); [|auto]. cbn [map]. constructor; [|auto].
  intros H. apply N1. apply in_map_iff in H as (y & <- & H). apply filter_In in H as (H & _). apply in_map. exact H.
Qed.
Lemma nodup_inj {A B} (f : A -> B) l x y : NoDup (map f l) -> In x l -> In y l -> f x = f y -> x = y.
Proof.
  induction l as [|z l IH]; cbn [map In]; [contradiction|]. intros N Hx Hy E. apply NoDup_cons_iff in N as (N1 & N2). destruct Hx as [->|Hx], Hy as [->|Hy]; auto.
  - exfalso. apply N1. rewrite E. apply in_map. exact Hy.
  - exfalso. apply N1. rewrite <- E. apply in_map. exact Hx.
Qed.
Lemma perm_filter {B} r (l : list (nat * B)) : NoDup (map fst l) -> In r (map fst l) ->
  Permutation (map fst l) (r :: map fst (filter (fun e => negb (fst e =? r)%nat) l)).
Proof.
  induction l as [|[u b] l IH]; cbn [map fst In filter]; [contradiction|]. intros N H. apply NoDup_cons_iff in N as (N1 & N2).
  destruct (Nat.eqb_spec u r) as [->|D]; cbn [negb].
  - apply perm_skip. clear IH H N2. rewrite filter_id; [reflexivity|]. intros [v c] Hv. cbn [fst]. destruct (Nat.eqb_spec v r) as [->|]; [|reflexivity].
    exfalso. apply N1. change r with (fst (r, c)). apply in_map. exact Hv.
  - destruct H as [H|H]; [contradiction|]. cbn [map fst]. rewrite perm_swap. apply perm_skip. auto.
Qed.

(* ---- origin and answers ---- *)
Definition linked (l : list event) (r p : nat) (server : bool) : Prop :=
  exists id, nth_error (ordered l) r = Some id /\
    if server then exists m, In (Request p m) l /\ names m = Ok (Some id) else In (Connected id) l.
Definition origin (l : list event) (r p : nat) : Prop :=
  linked l r p true \/ linked l r p false /\ exists mk, In (Reply p true mk) l.

Record inv (l : list event) (d : dev) : Prop := {
  v_n : d_nrec d = length (ordered l);
  v_perm : Permutation (seq 0 (d_nrec d)) (map fst (d_recs d) ++ map fst (d_ans d));
  v_ids : forall r id, In (r, id) (d_recs d) -> nth_error (ordered l) r = Some id;
  v_nos : NoDup (map p_no (d_procs d)) /\ forall x, In x (d_procs d) -> (p_no x < d_nproc d)%nat;
  v_procs : forall x r, In x (d_procs d) -> p_rec x = Some r -> linked l r (p_no x) (p_server x);
  v_made : forall r p, In (r, p) (d_made d) -> origin l r p;
  v_once : NoDup (map fst (d_made d)) /\ incl (map fst (d_made d)) (map fst (d_ans d));
  v_true : forall r, In (r, true) (d_ans d) <-> In r (map fst (d_made d)) }.

Lemma ordered_snoc l v : ordered (l ++ [v]) = ordered l ++ order_of v.
Proof. unfold ordered. rewrite flat_map_app. cbn [flat_map]. rewrite app_nil_r. reflexivity. Qed.
Lemma nth_more {A} (l m : list A) n x : nth_error l n = Some x -> nth_error (l ++ m) n = Some x.
Proof. intros H. rewrite nth_error_app1; [exact H|]. apply nth_error_Some. congruence. Qed.
Lemma linked_more l v r p s : linked l r p s -> linked (l ++ [v]) r p s.
Proof.
  intros (id & E & H). exists id. split; [rewrite ordered_snoc; apply nth_more; exact E|]. destruct s; [destruct H as (m & H & F); exists m; split; [apply in_or_app; auto|exact F]|apply in_or_app; auto].
Qed.
Lemma origin_more l v r p : origin l r p -> origin (l ++ [v]) r p.
Proof. intros [H|(H & mk & F)]; [left|right]; [|split]; eauto using linked_more. exists mk. apply in_or_app. auto. Qed.
Lemma inv_more l v d : order_of v = [] -> inv l d -> inv (l ++ [v]) d.
Proof.
  intros O [H1 H2 H3 (K1 & K2) H4 H5 H6 H7]. constructor; auto.
  - rewrite ordered_snoc, O, app_nil_r. exact H1.
  - intros r id H. rewrite ordered_snoc. apply nth_more. auto.
  - intros x r H E. apply linked_more. eauto.
  - intros r p H. apply origin_more. auto.
Qed.
Lemma inv_drop l d p : inv l d -> inv l (drop p d).
Proof.
  intros [H1 H2 H3 (K1 & K2) H4 H5 H6 H7]. constructor; cbn [drop d_recs d_procs d_nproc d_nrec d_ans d_made]; auto; [|intros x r H; apply filter_In in H as (H & _); auto].
  split; [apply nodup_filter; exact K1|]. intros x H. apply filter_In in H as (H & _). auto.
Qed.
Lemma inv_nodup l d : inv l d -> NoDup (map fst (d_recs d) ++ map fst (d_ans d)).
Proof. intros I. eapply Permutation_NoDup; [apply (v_perm _ _ I)|apply seq_NoDup]. Qed.
Lemma inv_destroy l d r ok more : inv l d -> In r (map fst (d_recs d)) ->
  (ok = false /\ more = [] \/ ok = true /\ exists p, more = [(r, p)] /\ origin l r p) ->
  inv l (mkD (filter (fun e => negb (fst e =? r)%nat) (d_recs d)) (d_procs d) (d_nproc d) (d_nrec d) (d_ans d ++ [(r, ok)]) (d_made d ++ more)).
Proof.
  intros I Hr M. pose proof (inv_nodup _ _ I) as N. apply NoDup_app_iff in N as (N1 & N2 & N3). destruct I as [H1 H2 H3 (K1 & K2) H4 H5 (H6 & H6') H7].
  constructor; cbn [d_recs d_procs d_nproc d_nrec d_ans d_made]; auto.
  - rewrite H2, (perm_filter r (d_recs d) N1 Hr), map_app. cbn [map fst app]. rewrite app_assoc. apply Permutation_cons_append.
  - intros u id H. apply filter_In in H as (H & _). auto.
  - intros u p H. apply in_app_or in H as [H|H]; [auto|]. destruct M as [(_ & ->)|(_ & q & -> & O)]; [contradiction|]. destruct H as [[= <- <-]|[]]. exact O.
  - rewrite !map_app. assert (Nr : ~ In r (map fst (d_made d))) by (intros H; apply (N3 r Hr), H6'; exact H).
    destruct M as [(_ & ->)|(_ & q & -> & O)]; cbn [map fst]; [rewrite app_nil_r; split; [exact H6|apply incl_appl; exact H6']|]. split; [|apply incl_app_app; [exact H6'|apply incl_refl]].
    apply NoDup_app_iff. split; [exact H6|]. split; [repeat constructor; intros []|]. intros y Hy [<-|[]]. contradiction.
  - intros u. rewrite map_app, !in_app_iff, H7. destruct M as [(-> & ->)|(-> & q & -> & O)]; cbn [map fst In]; split; intros [H|H]; auto.
    + destruct H as [[=]|[]].
    + destruct H as [[= ->]|[]]. auto.
    + destruct H as [->|[]]. auto.
Qed.

Lemma destroy_inv l d r e : inv l d -> destroy r false d = Ok e -> inv l e.
Proof.
  intros I. unfold destroy. destruct (alive r d) eqn:A; [|discriminate]. intros [= <-]. apply alive_in in A. rewrite <- (app_nil_r (d_made d)). apply inv_destroy; auto.
Qed.
Lemma completed_inv l d x ok mk e : inv l d -> In x (d_procs d) -> (p_server x = false -> ok = true -> exists mk, In (Reply (p_no x) true mk) l) ->
  completed x ok mk d = Ok e -> inv l e.
Proof.
  intros I Hx O. unfold completed. destruct (p_rec x) as [r|] eqn:Er; [|intros [= <-]; apply inv_drop; exact I].
  destruct (alive r d) eqn:A; cbn [negb]; [|intros [= <-]; apply inv_drop; exact I]. unfold remove_protocol. rewrite Er.
  assert (Or : ok = true -> origin l r (p_no x)).
  { intros T. pose proof (v_procs _ _ I x r Hx Er) as L. unfold origin. destruct (p_server x) eqn:S; [left; exact L|right]. split; [exact L|]. auto. }
  destruct (ok && mk) eqn:B; unfold destroy, drop, alive; cbn [d_recs d_procs d_nproc d_nrec d_ans d_made]; fold (alive r d); rewrite A; intros [= <-].
  - apply andb_true_iff in B as (-> & ->). apply (inv_destroy l (drop (p_no x) d) r true [(r, p_no x)]); [apply inv_drop; exact I|apply alive_in; exact A|]. right. split; [reflexivity|]. exists (p_no x). auto.
  - rewrite <- (app_nil_r (d_made d)). apply (inv_destroy l (drop (p_no x) d) r false []); [apply inv_drop; exact I|apply alive_in; exact A|]. left. auto.
Qed.

Lemma nos_new (l : list proc) n s a r : NoDup (map p_no l) -> (forall x, In x l -> (p_no x < n)%nat) ->
  NoDup (map p_no (l ++ [mkP n s a r])) /\ forall x, In x (l ++ [mkP n s a r]) -> (p_no x < S n)%nat.
Proof.
  intros N L. split.
  - rewrite map_app. apply NoDup_app_iff. split; [exact N|]. split; [repeat constructor; intros []|]. cbn [map p_no]. intros y Hy [<-|[]]. apply in_map_iff in Hy as (x & E & Hx). apply L in Hx. lia.
  - intros x H. apply in_app_or in H as [H|[<-|[]]]; [apply L in H; lia|cbn [p_no]; lia].
Qed.
Lemma step_inv l d v e : inv l d -> step d v = Ok e -> inv (l ++ [v]) e.
Proof.
  intros I H. destruct v as [id|id|id| |p|p m|p mk|p ok mk|p|r]; cbn [step] in H.
  - injection H as <-. pose proof I as [H1 H2 H3 (K1 & K2) H4 H5 H6 H7]. constructor; cbn [d_recs d_procs d_nproc d_nrec d_ans d_made]; auto.
    + rewrite ordered_snoc, app_length, H1. cbn [order_of length]. lia.
    + rewrite seq_S, map_app. cbn [map fst Nat.add]. rewrite H2, <- !app_assoc. apply Permutation_app_head, Permutation_app_comm.
    + intros r i H. apply in_app_or in H as [H|[[= <- <-]|[]]]; rewrite ordered_snoc; [apply nth_more; auto|]. rewrite H1, nth_error_app2, Nat.sub_diag by lia. reflexivity.
    + intros x r H E. apply linked_more. eauto.
    + intros r p H. apply origin_more. auto.
  - destruct (find_rec id d) as [r|] eqn:F; injection H as <-; [|apply inv_more; auto]. pose proof (inv_more l (Connected id) d eq_refl I) as J. apply find_rec_in in F. apply (v_ids _ _ J) in F.
    destruct J as [H1 H2 H3 (K1 & K2) H4 H5 H6 H7]. constructor; cbn [new_proc d_recs d_procs d_nproc d_nrec d_ans d_made]; auto.
    { apply nos_new; auto. }
    intros x u Hx E. apply in_app_or in Hx as [Hx|[<-|[]]]; [auto|]. cbn [p_rec p_no p_server] in *. injection E as <-. exists id. split; [exact F|]. apply in_or_app. right. left. reflexivity.
  - destruct (find_rec id d) as [r|]; [|injection H as <-; apply inv_more; auto]. eapply destroy_inv; [|exact H]. apply inv_more; auto.
  - injection H as <-. pose proof (inv_more l Accepted d eq_refl I) as [H1 H2 H3 (K1 & K2) H4 H5 H6 H7]. constructor; cbn [new_proc d_recs d_procs d_nproc d_nrec d_ans d_made]; auto.
    { apply nos_new; auto. }
    intros x u Hx E. apply in_app_or in Hx as [Hx|[<-|[]]]; [auto|discriminate].
  - apply inv_more; [reflexivity|]. destruct (find_proc p d) as [[? [] ? [r|]]|]; try (injection H as <-; exact I). destruct (alive r d); [|discriminate]. injection H as <-. exact I.
  - destruct (find_proc p d) as [[no [] [] rc]|] eqn:F; try (injection H as <-; apply inv_more; auto; fail). destruct (names m) as [i| |] eqn:Nm; cbn [bind] in H; try discriminate. injection H as <-.
    pose proof (inv_more l (Request p m) d eq_refl I) as [H1 H2 H3 (K1 & K2) H4 H5 H6 H7]. constructor; cbn [asked d_recs d_procs d_nproc d_nrec d_ans d_made]; auto.
    { split.
      - replace (map p_no (map _ (d_procs d))) with (map p_no (d_procs d)); [exact K1|]. rewrite map_map. apply map_ext. intros y. destruct (p_no y =? p)%nat; reflexivity.
      - intros x Hx. apply in_map_iff in Hx as (y & <- & Hy). destruct (p_no y =? p)%nat; apply K2 in Hy; exact Hy. }
    intros x u Hx E. apply in_map_iff in Hx as (y & <- & Hy). destruct (Nat.eqb_spec (p_no y) p) as [Ep|]; cbn [p_rec p_no p_server] in *; [|auto].
    destruct i as [id|]; [|discriminate]. apply find_rec_in in E. apply H3 in E. exists id. split; [exact E|].
    apply find_proc_in in F as (F & Ef). cbn [p_no] in Ef. assert (y = mkP no true false rc) by (eapply nodup_inj; [exact K1|exact Hy|exact F|cbn [p_no]; congruence]). subst y. cbn [p_server p_no].
    exists m. split; [apply in_or_app; right; left; congruence|exact Nm].
  - apply inv_more with (v := Sent p mk) in I; [|reflexivity]. destruct (find_proc p d) as [x|] eqn:F; [|injection H as <-; exact I]. apply find_proc_in in F as (F & <-).
    destruct (p_server x) eqn:S; cbn [andb] in H; [|injection H as <-; exact I]. destruct (p_asked x); [|injection H as <-; exact I]. eapply completed_inv; [exact I|exact F| |exact H]. congruence.
  - apply inv_more with (v := Reply p ok mk) in I; [|reflexivity]. destruct (find_proc p d) as [x|] eqn:F; [|injection H as <-; exact I]. apply find_proc_in in F as (F & <-).
    destruct (p_server x) eqn:S; [injection H as <-; exact I|]. eapply completed_inv; [exact I|exact F| |exact H]. intros _ ->. exists mk. apply in_or_app. right. left. reflexivity.
  - apply inv_more with (v := Broken p) in I; [|reflexivity]. destruct (find_proc p d) as [x|] eqn:F; [|injection H as <-; exact I]. unfold remove_protocol in H. destruct (p_rec x) as [r|]; [|injection H as <-; apply inv_drop; exact I]. eapply destroy_inv; [|exact H]. apply inv_drop. exact I.
  - apply inv_more with (v := Expire r) in I; [|reflexivity]. destruct (alive r d); [|injection H as <-; exact I]. eapply destroy_inv; eauto.
Qed.
Lemma run_inv l : forall d, run l start = Ok d -> inv l d.
Proof.
  induction l as [|v l IH] using rev_ind; intros d H.
  - injection H as <-. constructor; cbn; auto; try (split; [constructor|intros ? []]); try contradiction. intros r. split; intros [].
  - apply run_snoc in H as (f & H & S). eapply step_inv; [apply IH; exact H|exact S].
Qed.

(* ---- no deleted record is used ---- *)
(* id for which the event lets a protocol work on a record *)
Definition attaches (v : event) : list bytes :=
  match v with Connected id => [id] | Request _ m => match names m with Ok (Some id) => [id] | _ => [] end | _ => [] end.
Definition attached (l : list event) : list bytes := flat_map attaches l.
Definition careful (l : list event) : Prop :=
  NoDup (attached l) /\ (forall p m, In (Request p m) l -> exists i, names m = Ok i) /\
  (forall id, In (Failed id) l -> ~ In id (attached l)) /\ (forall r id, In (Expire r) l -> nth_error (ordered l) r = Some id -> ~ In id (attached l)).
Lemma attached_snoc l v : attached (l ++ [v]) = attached l ++ attaches v.
Proof. unfold attached. rewrite flat_map_app. cbn [flat_map]. rewrite app_nil_r. reflexivity. Qed.
Lemma careful_less l v : careful (l ++ [v]) -> careful l.
Proof.
  intros (H1 & H2 & H3 & H4). rewrite attached_snoc in *. apply NoDup_app_iff in H1 as (H1 & _). split; [exact H1|].
  split; [intros p m H; apply (H2 p); apply in_or_app; auto|]. split.
  - intros id H N. apply (H3 id); apply in_or_app; auto.
  - intros r id H E N. apply (H4 r id); [apply in_or_app; auto|rewrite ordered_snoc; apply nth_more; exact E|apply in_or_app; auto].
Qed.

Record safe (l : list event) (d : dev) : Prop := {
  s_alive : forall x r, In x (d_procs d) -> p_rec x = Some r -> exists id, In (r, id) (d_recs d) /\ In id (attached l);
  s_one : forall x y r, In x (d_procs d) -> In y (d_procs d) -> p_rec x = Some r -> p_rec y = Some r -> p_no x = p_no y }.

Lemma safe_more l v d : safe l d -> safe (l ++ [v]) d.
Proof. intros [A B]. constructor; [|exact B]. intros x r H E. destruct (A x r H E) as (id & F & G). exists id. split; [exact F|]. rewrite attached_snoc. apply in_or_app. auto. Qed.
Lemma safe_drop l d p : safe l d -> safe l (drop p d).
Proof.
  intros [A B]. constructor; cbn [drop d_procs d_recs].
  - intros x r H. apply filter_In in H as (H & _). exact (A x r H).
  - intros x y r Hx Hy. apply filter_In in Hx as (Hx & _). apply filter_In in Hy as (Hy & _). eauto.
Qed.
(* a record without protocol can be destroyed *)
Lemma safe_destroy l d r ok : safe l d -> In r (map fst (d_recs d)) -> (forall x, In x (d_procs d) -> p_rec x <> Some r) -> exists e, destroy r ok d = Ok e /\ safe l e.
Proof.
  intros [A B] H N. unfold destroy. apply alive_in in H as ->. eexists. split; [reflexivity|]. constructor; cbn [d_procs d_recs]; [|exact B].
  intros x u Hx E. destruct (A x u Hx E) as (id & F & G). exists id. split; [|exact G]. apply filter_In. split; [exact F|]. cbn [fst]. destruct (Nat.eqb_spec u r) as [->|]; [|reflexivity]. exfalso. exact (N x Hx E).
Qed.
Lemma safe_remove l d x ok : safe l d -> In x (d_procs d) -> exists e, remove_protocol x ok d = Ok e /\ safe l e.
Proof.
  intros S Hx. unfold remove_protocol. destruct (p_rec x) as [r|] eqn:E; [|eexists; split; [reflexivity|apply safe_drop; exact S]].
  apply safe_destroy; [apply safe_drop; exact S| |].
  - destruct (s_alive _ _ S x r Hx E) as (id & F & _). cbn [drop d_recs]. change r with (fst (r, id)). apply in_map. exact F.
  - cbn [drop d_procs]. intros y Hy Ey. apply filter_In in Hy as (Hy & D). rewrite (s_one _ _ S y x r Hy Hx Ey E), Nat.eqb_refl in D. discriminate.
Qed.
Lemma safe_completed l d x ok mk : safe l d -> In x (d_procs d) -> exists e, completed x ok mk d = Ok e /\ safe l e.
Proof.
  intros S Hx. unfold completed. destruct (p_rec x) as [r|] eqn:E; [|eexists; split; [reflexivity|apply safe_drop; exact S]].
  destruct (negb (alive r d)); [eexists; split; [reflexivity|apply safe_drop; exact S]|]. apply safe_remove.
  - destruct (ok && mk); [|exact S]. destruct S as [A B]. constructor; [exact A|exact B].
  - destruct (ok && mk); exact Hx.
Qed.
(* a record of an id which was not used yet has no protocol *)
Lemma unused l d r id : inv l d -> safe l d -> In (r, id) (d_recs d) -> ~ In id (attached l) -> forall x, In x (d_procs d) -> p_rec x <> Some r.
Proof.
  intros I S H N x Hx E. destruct (s_alive _ _ S x r Hx E) as (i & F & G). pose proof (v_ids _ _ I _ _ H) as E1. pose proof (v_ids _ _ I _ _ F) as E2. congruence.
Qed.

Lemma step_safe l d v : inv l d -> safe l d -> careful (l ++ [v]) -> exists e, step d v = Ok e /\ safe (l ++ [v]) e.
Proof.
  intros I S (C1 & C2 & C3 & C4). rewrite attached_snoc in C1. apply NoDup_app_iff in C1 as (_ & _ & C1).
  assert (Lst : In v (l ++ [v])) by (apply in_or_app; right; left; reflexivity).
  pose proof (safe_more l v d S) as T. destruct v as [id|id|id| |p|p m|p mk|p ok mk|p|r]; cbn [step].
  - eexists. split; [reflexivity|]. destruct T as [A B]. constructor; cbn [d_procs d_recs]; [|exact B]. intros x r H E. destruct (A x r H E) as (i & F & G). exists i. split; [apply in_or_app; auto|exact G].
  - destruct (find_rec id d) as [r|] eqn:F; [|eauto]. eexists. split; [reflexivity|]. apply find_rec_in in F.
    assert (U : forall x, In x (d_procs d) -> p_rec x <> Some r) by (eapply unused; [exact I|exact S|exact F|]; intros H; apply (C1 id H); left; reflexivity).
    destruct T as [A B]. constructor; cbn [new_proc d_procs d_recs].
    + intros x u Hx E. apply in_app_or in Hx as [Hx|[<-|[]]]; [exact (A x u Hx E)|]. cbn [p_rec] in E. injection E as <-. exists id. split; [exact F|]. rewrite attached_snoc. apply in_or_app. right. left. reflexivity.
    + intros x y u Hx Hy Ex Ey. apply in_app_or in Hx as [Hx|[<-|[]]]; apply in_app_or in Hy as [Hy|[<-|[]]]; cbn [p_rec] in *; [eauto| | |reflexivity].
      * injection Ey as <-. exfalso. exact (U x Hx Ex).
      * injection Ex as <-. exfalso. exact (U y Hy Ey).
  - destruct (find_rec id d) as [r|] eqn:F; [|eauto]. apply find_rec_in in F. apply safe_destroy; [exact T|change r with (fst (r, id)); apply in_map; exact F|].
    eapply unused; [exact I|exact S|exact F|]. intros H. apply (C3 id Lst). rewrite attached_snoc. apply in_or_app. auto.
  - eexists. split; [reflexivity|]. destruct T as [A B]. constructor; cbn [new_proc d_procs d_recs].
    + intros x u Hx E. apply in_app_or in Hx as [Hx|[<-|[]]]; [exact (A x u Hx E)|discriminate].
    + intros x y u Hx Hy Ex Ey. apply in_app_or in Hx as [Hx|[<-|[]]]; [|discriminate]. apply in_app_or in Hy as [Hy|[<-|[]]]; [eauto|discriminate].
  - destruct (find_proc p d) as [[no [] a [r|]]|] eqn:F; eauto. apply find_proc_in in F as (F & _). destruct (s_alive _ _ S _ r F eq_refl) as (id & G & _).
    assert (A : alive r d = true) by (apply alive_in; change r with (fst (r, id)); apply in_map; exact G). rewrite A. eauto.
  - destruct (find_proc p d) as [[no [] [] rc]|] eqn:F; eauto. destruct (C2 p m Lst) as (i & Ei). rewrite Ei. cbn [bind]. eexists. split; [reflexivity|].
    assert (U : forall u, match i with Some id => find_rec id d | None => None end = Some u -> (exists id, In (u, id) (d_recs d) /\ In id (attached (l ++ [Request p m]))) /\ forall x, In x (d_procs d) -> p_rec x <> Some u).
    { destruct i as [id|]; [|discriminate]. intros u E. apply find_rec_in in E. split.
      - exists id. split; [exact E|]. rewrite attached_snoc. apply in_or_app. right. cbn [attaches]. rewrite Ei. left. reflexivity.
      - eapply unused; [exact I|exact S|exact E|]. intros H. apply (C1 id H). cbn [attaches]. rewrite Ei. left. reflexivity. }
    destruct T as [A B]. constructor; cbn [asked d_procs d_recs].
    + intros x u Hx E. apply in_map_iff in Hx as (y & <- & Hy). destruct (p_no y =? p)%nat; cbn [p_rec] in E; [apply (U u E)|exact (A y u Hy E)].
    + intros x y u Hx Hy Ex Ey. apply in_map_iff in Hx as (x' & <- & Hx). apply in_map_iff in Hy as (y' & <- & Hy).
      destruct (Nat.eqb_spec (p_no x') p) as [E1|E1], (Nat.eqb_spec (p_no y') p) as [E2|E2]; cbn [p_rec p_no] in *; [congruence| | |eauto].
      * exfalso. exact (proj2 (U u Ex) y' Hy Ey).
      * exfalso. exact (proj2 (U u Ey) x' Hx Ex).
  - destruct (find_proc p d) as [x|] eqn:F; [|eauto]. apply find_proc_in in F as (F & _). destruct (p_server x && p_asked x); [|eauto]. apply safe_completed; auto.
  - destruct (find_proc p d) as [x|] eqn:F; [|eauto]. apply find_proc_in in F as (F & _). destruct (p_server x); [eauto|]. apply safe_completed; auto.
  - destruct (find_proc p d) as [x|] eqn:F; [|eauto]. apply find_proc_in in F as (F & _). apply safe_remove; auto.
  - destruct (alive r d) eqn:A; [|eauto]. apply alive_in in A. apply safe_destroy; auto. pose proof A as A2. apply in_map_iff in A2 as ([u id] & E & H). cbn [fst] in E. subst u.
    eapply unused; [exact I|exact S|exact H|]. intros N. apply (C4 r id Lst); [rewrite ordered_snoc; apply nth_more, (v_ids _ _ I); exact H|rewrite attached_snoc; apply in_or_app; auto].
Qed.
Lemma run_safe l : careful l -> exists d, run l start = Ok d /\ safe l d.
Proof.
  induction l as [|v l IH] using rev_ind; intros C.
  - exists start. split; [reflexivity|]. constructor; intros ? ? []; contradiction.
  - destruct (IH (careful_less _ _ C)) as (d & R & S). destruct (step_safe l d v (run_inv l d R) S C) as (e & E & T). exists e. split; [|exact T]. rewrite run_app, R. cbn [bind run]. rewrite E. reflexivity.
Qed.

(* ---- request ---- *)
Lemma cstr_full s m : ~ In 0 s -> cstr (map Some s ++ m) = do t <- cstr m; Ok (s ++ t).
Proof.
  induction s as [|b s IH]; intros N; cbn [map app cstr].
  - destruct (cstr m); reflexivity.
  - destruct (N.eqb_spec b 0) as [->|]; [exfalso; apply N; left; reflexivity|]. rewrite IH by (intros H; apply N; right; exact H). destruct (cstr m); reflexivity.
Qed.
Lemma names_request id : names (request id) = do s <- cstr (map Some (firstn 95 id ++ repeat 0 (95 - length id)) ++ [None]); Ok (Some s).
Proof. unfold names, request. rewrite map_app, <- app_assoc. reflexivity. Qed.
