(* C56: numbering of module items and delivery of their events. *)
From Verif Require Import Common ListFacts ItemsSpec ItemsModel ItemsProofs.

Record R (m : module) (s : sstate) : Prop := {
  r_good : good m;
  r_vec : forall k, m_vec m k = map fst (s_vec s k);
  r_num : forall k, numbered (m_heap m) (m_vec m k);
  r_name : forall k x name, In (x, name) (s_vec s k) -> exists i, get (m_heap m) x = Some i /\ i_name i = name;
  r_next : s_next s = length (m_heap m);
  r_queue : m_queue m = map (fun e => (code_of (fst e), snd e)) (s_queue s);
  r_wait : forall k x, In (k, x) (s_queue s) -> In x (m_vec m k)
}.
Lemma R_empty : R empty_module s_empty.
Proof.
  split; cbn; auto; try contradiction.
  - split; cbn; try contradiction; auto. intros; constructor.
  - intros k n y i E. destruct n; discriminate.
Qed.

Lemma find_known m name : forall v l n, v = map fst l -> (forall x nm, In (x, nm) l -> exists i, get (m_heap m) x = Some i /\ i_name i = nm) ->
  exists o, find_from m name n v = Ok o /\ (existsb (fun e => (snd e =? name)%N) l = match o with Some _ => true | None => false end).
Proof.
  induction v as [|x v IH]; intros l n E H; (destruct l as [|(y, nm) l]; [try discriminate|]).
  - exists None. split; reflexivity.
  - discriminate.
  - cbn [map fst] in E. injection E as E1 E2. subst y. cbn [find_from existsb snd]. destruct (H x nm (or_introl eq_refl)) as (i & Gi & Ni). rewrite deref_get, Gi. cbn [bind]. rewrite Ni.
    destruct (nm =? name)%N; [eexists; split; reflexivity|]. cbn [orb]. apply (IH l (S n) E2). intros; apply H; right; assumption.
Qed.
Lemma position_nth l : NoDup (map fst l) -> forall n x name, nth_error l n = Some (x, name) -> position x l = Some n.
Proof.
  induction l as [|(y, nm) l IH]; intros D n x name H; [destruct n; discriminate|]. cbn [map fst] in D. inversion D as [|? ? Ny D']; subst. destruct n as [|n]; cbn in H.
  - injection H as <- <-. cbn [position fst]. rewrite Nat.eqb_refl. reflexivity.
  - cbn [position fst]. destruct (Nat.eqb_spec y x) as [->|]; [exfalso; apply Ny; apply (in_map fst _ (x, name)); eapply nth_error_In; exact H|]. rewrite (IH D' n x name H). reflexivity.
Qed.
Lemma map_without x l : map fst (without x l) = minus x (map fst l).
Proof. unfold without, minus. induction l as [|e l IH]; [reflexivity|]. cbn [filter map]. destruct (negb (fst e =? x)); cbn [map]; rewrite IH; reflexivity. Qed.
Lemma get_app h o x : get (h ++ [o]) x = if x =? length h then o else get h x.
Proof.
  unfold get. destruct (Nat.eqb_spec x (length h)) as [->|Ne]; [rewrite nth_error_app2, Nat.sub_diag by lia; reflexivity|]. destruct (lt_dec x (length h)); [rewrite nth_error_app1 by assumption; reflexivity|].
  assert (nth_error h x = None) as -> by (apply nth_error_None; lia). assert (nth_error (h ++ [o]) x = None) as -> by (apply nth_error_None; rewrite app_length; cbn; lia). reflexivity.
Qed.
Lemma create_R m s k name : R m s -> exists m', step m (OCreate k name) = Ok (m', snd (s_step s (OCreate k name))) /\ R m' (fst (s_step s (OCreate k name))).
Proof.
  intros HR. cbn [s_step]. unfold step, create, find_item, known. destruct (find_known m name (m_vec m k) (s_vec s k) 0 (r_vec m s HR k) (r_name m s HR k)) as (o & F & E).
  destruct (N.eqb_spec name 0) as [Z|Z]; cbn [negb andb]; [clear F E|rewrite F, E; destruct o as [n|]].
  2:{ cbn [bind fst snd]. exists m. split; [reflexivity|exact HR]. }
  all: cbn [bind fst snd]; eexists; (split; [reflexivity|]); destruct (r_good m s HR) as [GL GN GE].
  all: assert (Fr : forall k' x, In x (m_vec m k') -> x < length (m_heap m)) by (intros k' x Hx; destruct (GL k' x Hx) as (i & Gi & _); eapply get_lt; exact Gi).
  all: assert (Vk : forall k', (if kind_eqb k k' then m_vec m k ++ [length (m_heap m)] else m_vec m k') = map fst (s_set s k (s_vec s k ++ [(s_next s, name)]) k')) by (intros k'; unfold s_set; destruct (kind_eqb k k'); [rewrite map_app; cbn [map fst]; rewrite (r_vec m s HR), (r_next m s HR); reflexivity|apply (r_vec m s HR)]).
  all: split; cbn [set_vec m_heap m_items m_vec m_queue s_next s_vec s_queue fst]; auto.
  all: try (rewrite app_length, (r_next m s HR); cbn; lia).
  all: try (apply (r_queue m s HR)).
  all: try (intros k' x Hx; apply (r_wait m s HR) in Hx; destruct (kind_eqb_spec k k') as [->|]; [apply in_or_app; left|]; assumption).
  all: try (intros k' x nm Hx; unfold s_set in Hx; destruct (kind_eqb_spec k k') as [<-|]; [apply in_app_or in Hx; destruct Hx as [Hx|[Hx|[]]]; [|injection Hx as <- <-; rewrite (r_next m s HR), get_app, Nat.eqb_refl; eexists; split; reflexivity]|];
    (destruct (r_name m s HR _ _ _ Hx) as (i & Gi & Ni); exists i; split; [|exact Ni]; rewrite get_app; assert (Lx := get_lt _ _ _ Gi); destruct (Nat.eqb_spec x (length (m_heap m))); [lia|exact Gi])).
  all: try (intros k' n y i Ey Gy; rewrite get_app in Gy; destruct (kind_eqb_spec k k') as [<-|Ne];
    [destruct (lt_dec n (length (m_vec m k))) as [L|L];
      [rewrite nth_error_app1 in Ey by exact L; assert (Ly := Fr k y (nth_error_In _ _ Ey)); destruct (Nat.eqb_spec y (length (m_heap m))); [lia|]; exact (r_num m s HR k n y i Ey Gy)
      |rewrite nth_error_app2 in Ey by lia; remember (n - length (m_vec m k)) as p; destruct p as [|p]; [|destruct p; discriminate]; cbn in Ey; injection Ey as <-; rewrite Nat.eqb_refl in Gy; injection Gy as <-; cbn [i_sub]; lia]
    |assert (Ly := Fr k' y (nth_error_In _ _ Ey)); destruct (Nat.eqb_spec y (length (m_heap m))); [lia|]; exact (r_num m s HR k' n y i Ey Gy)]).
  all: split; cbn [set_vec m_heap m_items m_vec].
  all: try (rewrite !app_length, GE; reflexivity).
  all: try (intros k'; destruct (kind_eqb k k'); [|apply GN]; apply NoDup_app_iff; split; [apply GN|]; split; [repeat constructor; intros []|]; intros x Hx [<-|[]]; apply Fr in Hx; lia).
  all: intros k' x Hx; destruct (kind_eqb_spec k k') as [<-|Ne]; [apply in_app_or in Hx; destruct Hx as [Hx|[<-|[]]]|].
  all: try (exists (mkItem k name (length (m_items m)) (length (m_vec m k))); rewrite get_app, Nat.eqb_refl, nth_error_app2, <- GE, Nat.sub_diag by lia; cbn [i_kind i_id nth_error]; auto).
  all: destruct (GL _ x Hx) as (i & G1 & G2 & G3 & G4); exists i; assert (Lx := get_lt _ _ _ G1); rewrite get_app; (destruct (Nat.eqb_spec x (length (m_heap m))); [lia|]); rewrite nth_error_app1 by lia; auto.
Qed.
Lemma delete_R m s x : R m s -> safe s (ODelete x) -> exists m', step m (ODelete x) = Ok (m', snd (s_step s (ODelete x))) /\ R m' (fst (s_step s (ODelete x))).
Proof.
  intros HR ((k0 & l & name & Ek) & Nq). assert (HG := r_good m s HR). assert (Vk := r_vec m s HR k0). rewrite Ek, map_app in Vk. cbn [map fst] in Vk.
  assert (Hx : In x (m_vec m k0)) by (rewrite Vk; apply in_or_app; right; left; reflexivity). destruct (g_live m HG k0 x Hx) as (i & Gi & Ki & Ii & _).
  destruct (delete_ok m x i HG Gi Ii) as (m' & D & De). unfold step. rewrite D. cbn [bind s_step snd fst]. exists m'. split; [reflexivity|].
  assert (Qs : filter (fun e => negb (snd e =? x)) (s_queue s) = s_queue s).
  { clear - Nq. induction (s_queue s) as [|e q IH]; [reflexivity|]. cbn [filter map] in *. destruct (Nat.eqb_spec (snd e) x) as [E|E]; [exfalso; apply Nq; left; exact E|]. cbn [negb]. rewrite IH; [reflexivity|]. intros H. apply Nq. right. exact H. }
  split; cbn [s_vec s_next s_queue].
  - apply (de_good _ _ _ De).
  - intros k. rewrite map_without, <- (r_vec m s HR). apply (de_vec _ _ _ De).
  - intros k. destruct (kind_eqb_spec k k0) as [->|Ne]; [apply (de_last _ _ _ De k0 (map fst l) Vk)|]. apply (de_absent _ _ _ De). intros H. destruct (g_live m HG k x H) as (i' & Gi' & Ki' & _). congruence.
  - intros k y nm Hy. unfold without in Hy. apply filter_In in Hy. destruct Hy as (Hy & Ny). cbn [fst] in Ny. apply negb_true_iff, Nat.eqb_neq in Ny. destruct (r_name m s HR k y nm Hy) as (j & Gj & Nj). destruct (de_same _ _ _ De y j Ny Gj) as (j' & Gj' & _ & S2 & _). exists j'. split; [exact Gj'|congruence].
  - rewrite (de_len _ _ _ De). apply (r_next m s HR).
  - rewrite (de_queue _ _ _ De), Qs. apply (r_queue m s HR).
  - intros k y Hy. rewrite Qs in Hy. rewrite (de_vec _ _ _ De). apply minus_in. split; [apply (r_wait m s HR); exact Hy|]. intros ->. apply Nq. apply (in_map snd _ (k, x)). exact Hy.
Qed.
Lemma produce_R m s k n : R m s -> exists m', step m (OProduce k n) = Ok (m', snd (s_step s (OProduce k n))) /\ R m' (fst (s_step s (OProduce k n))).
Proof.
  intros HR. unfold step, produce. cbn [s_step]. rewrite (r_vec m s HR k), nth_error_map. destruct (nth_error (s_vec s k) n) as [(x, name)|] eqn:E; cbn [option_map fst snd].
  - assert (Hx : In x (m_vec m k)) by (rewrite (r_vec m s HR k); apply (in_map fst _ (x, name)); eapply nth_error_In; exact E). destruct (g_live m (r_good m s HR) k x Hx) as (i & Gi & Ki & Ii & _). rewrite deref_get, Gi. cbn [bind]. eexists. split; [reflexivity|].
    destruct HR as [H1 H2 H3 H4 H5 H6 H7]. split; cbn [fire m_heap m_items m_vec m_queue s_next s_vec s_queue fst]; auto.
    + destruct H1. split; assumption.
    + rewrite H6, map_app, Ii. reflexivity.
    + intros k' y Hy. apply in_app_or in Hy. destruct Hy as [Hy|[Hy|[]]]; [apply H7; exact Hy|]. injection Hy as <- <-. exact Hx.
  - cbn [bind]. exists m. split; [reflexivity|exact HR].
Qed.
Lemma process_R m s : R m s -> exists m', step m OProcess = Ok (m', snd (s_step s OProcess)) /\ R m' (fst (s_step s OProcess)).
Proof.
  intros HR. unfold step, process. cbn [s_step]. rewrite (r_queue m s HR). assert (W := r_wait m s HR). destruct (s_queue s) as [|(k, x) q] eqn:Q; cbn [map fst snd]; [exists m; split; [reflexivity|exact HR]|].
  assert (Hx := W k x (or_introl eq_refl)). destruct (g_live m (r_good m s HR) k x Hx) as (i & Gi & Ki & Ii & Ni). rewrite Ni. rewrite deref_get, Gi. cbn [bind].
  destruct (In_nth_error _ _ Hx) as (n & En). assert (Sub := r_num m s HR k n x i En Gi). assert (Es : exists name, nth_error (s_vec s k) n = Some (x, name)).
  { rewrite (r_vec m s HR k), nth_error_map in En. destruct (nth_error (s_vec s k) n) as [(y, nm)|]; [|discriminate]. cbn in En. injection En as <-. eauto. }
  destruct Es as (name & Es). assert (Dm := g_nodup m (r_good m s HR) k). rewrite (r_vec m s HR k) in Dm. rewrite (position_nth _ Dm n x name Es).
  assert (Di : dispatch m (code_of k) i = Ok (k, n)). { unfold dispatch, handler. rewrite Sub, Ki. destruct k; cbn [code_of]; try reflexivity; rewrite En, deref_get, Gi; reflexivity. }
  rewrite Di. cbn [bind]. eexists. split; [reflexivity|]. destruct HR as [H1 H2 H3 H4 H5 H6 H7]. split; cbn [m_heap m_items m_vec m_queue s_next s_vec s_queue fst]; auto.
  + destruct H1. split; assumption.
  + intros k' y Hy. apply W. right. exact Hy.
Qed.
Lemma step_R m s o : R m s -> safe s o -> exists m', step m o = Ok (m', snd (s_step s o)) /\ R m' (fst (s_step s o)).
Proof.
  intros HR Sf. destruct o; try destruct Sf as [].
  - apply create_R; exact HR.
  - apply delete_R; [exact HR|]. split; [exact H|exact H0].
  - apply produce_R; exact HR.
  - apply process_R; exact HR.
Qed.
Lemma run_R l : forall m s, R m s -> all_safe s l -> exists m', run m l = Ok (m', snd (s_run s l)) /\ R m' (fst (s_run s l)).
Proof.
  induction l as [|o l IH]; intros m s HR Sf; [exists m; split; [reflexivity|exact HR]|]. destruct Sf as (S1 & S2). destruct (step_R m s o HR S1) as (m1 & E1 & R1).
  cbn [run s_run]. rewrite E1. cbn [bind fst]. destruct (s_step s o) as (s1, c1). cbn [fst snd] in *. destruct (IH m1 s1 R1 S2) as (m2 & E2 & R2). rewrite E2. cbn [bind fst snd]. destruct (s_run s1 l) as (s2, c2). exists m2. split; [reflexivity|exact R2].
Qed.

(* As long as items are only deleted from the end of their list, and when none of their
   events is waiting, every event reaches the handler with the present number of its item,
   in order, and nothing undefined happens.  What is missing: other deletions, destruction
   by reference, and the activation of pools; all refuted below. *)
Theorem C56_numbers_partial : forall l, all_safe s_empty l -> exists m, run empty_module l = Ok (m, snd (s_run s_empty l)).
Proof. intros l H. destruct (run_R l _ _ R_empty H) as (m & E & _). exists m. exact E. Qed.
Print Assumptions C56_numbers_partial.

Example C56_case :
  let l := [OCreate KInput 5; OCreate KInput 6; OCreate KOutput 5; OCreate KInput 6; OCreate KPool 1; OProduce KInput 1; OProduce KInput 0; OProduce KPool 0; OProcess; ODelete 1; OCreate KInput 8; OProduce KInput 1; OProcess; OProcess; OProcess] in
  all_safe s_empty l /\ snd (s_run s_empty l) = [(KInput, 1); (KInput, 0); (KPool, 0); (KInput, 1)].
Proof.
  cbv zeta. split; [|vm_compute; reflexivity]. cbn. repeat apply conj; try exact I; [exists KInput, [(0, 5%N)], 6%N; reflexivity|]. intros [H|[H|[]]]; discriminate.
Qed.

(* ---- what can be said when items are deleted anywhere ---- *)
Definition inv (m : module) : Prop := good m /\ forall k, one_wrong (m_heap m) (m_vec m k).
(* the item is alive and in one of the lists *)
Definition listed (m : module) (x : nat) : Prop := exists k, In x (m_vec m k).
Lemma inv_create m k name : inv m -> forall mn, create m k name = Ok mn -> inv (fst mn).
Proof.
  intros (G & W) mn E. unfold create in E. destruct (find_item m k name) as [[n|]| |]; cbn [bind] in E; try discriminate; injection E as <-; [split; assumption|]. cbn [fst].
  destruct G as [GL GN GE]. assert (Fr : forall k' x, In x (m_vec m k') -> x < length (m_heap m)) by (intros k' x Hx; destruct (GL k' x Hx) as (i & Gi & _); eapply get_lt; exact Gi). split; [split|]; cbn [set_vec m_heap m_items m_vec].
  - intros k' x Hx. destruct (kind_eqb_spec k k') as [<-|Ne]; [apply in_app_or in Hx; destruct Hx as [Hx|[<-|[]]]|].
    2:{ exists (mkItem k name (length (m_items m)) (length (m_vec m k))). rewrite get_app, Nat.eqb_refl, nth_error_app2, <- GE, Nat.sub_diag by lia. cbn [i_kind i_id nth_error]. auto. }
    all: destruct (GL _ x Hx) as (i & G1 & G2 & G3 & G4); exists i; assert (Lx := get_lt _ _ _ G1); rewrite get_app; (destruct (Nat.eqb_spec x (length (m_heap m))); [lia|]); rewrite nth_error_app1 by lia; auto.
  - intros k'; destruct (kind_eqb k k'); [|apply GN]; apply NoDup_app_iff; split; [apply GN|]; split; [repeat constructor; intros []|]; intros x Hx [<-|[]]; apply Fr in Hx; lia.
  - rewrite !app_length, GE. reflexivity.
  - intros k'. assert (O : forall y i', In y (m_vec m k') -> get (m_heap m ++ [Some (mkItem k name (length (m_items m)) (length (m_vec m k)))]) y = Some i' -> get (m_heap m) y = Some i').
    { intros y i' Hy Gy. rewrite get_app in Gy. apply Fr in Hy. destruct (Nat.eqb_spec y (length (m_heap m))); [lia|exact Gy]. }
    assert (W' := one_others _ _ _ O (W k')). destruct (kind_eqb_spec k k') as [<-|Ne]; [|exact W']. destruct W' as (j & J1 & J2).
    assert (Rn : forall n, n <> j \/ n = length (m_vec m k) -> right_at (m_heap m ++ [Some (mkItem k name (length (m_items m)) (length (m_vec m k)))]) (m_vec m k ++ [length (m_heap m)]) n).
    { intros n Hn y i Ey Gy. destruct (lt_dec n (length (m_vec m k))) as [L|L].
      - rewrite nth_error_app1 in Ey by exact L. destruct Hn as [Hn|Hn]; [|lia]. exact (J1 n Hn y i Ey Gy).
      - rewrite nth_error_app2 in Ey by lia. remember (n - length (m_vec m k)) as p. destruct p as [|p]; [|destruct p; discriminate]. cbn in Ey. injection Ey as <-. rewrite get_app, Nat.eqb_refl in Gy. injection Gy as <-. cbn [i_sub]. lia. }
    exists j. split; [intros n Hn; apply Rn; left; exact Hn|]. intros y i Ey Gy. destruct (lt_dec j (length (m_vec m k))) as [L|L].
    + rewrite nth_error_app1 in Ey by exact L. exact (J2 y i Ey Gy).
    + assert (Lj : j < length (m_vec m k ++ [length (m_heap m)])) by (apply nth_error_Some; congruence). rewrite app_length in Lj. cbn in Lj. rewrite (Rn j) with (y := y) (i := i); auto. right. lia.
Qed.
Lemma inv_empty : inv empty_module.
Proof. split; [apply (r_good _ _ R_empty)|]. intros k. apply numbered_one. intros n y i E. destruct n; discriminate. Qed.

(* histories of creating items and deleting listed ones *)
Inductive reached : module -> Prop :=
| R_start : reached empty_module
| R_create m k name mn : reached m -> create m k name = Ok mn -> reached (fst mn)
| R_delete m x m' : reached m -> listed m x -> destructor m x true = Ok m' -> reached m'.
Lemma listed_get m x : good m -> listed m x -> exists i, get (m_heap m) x = Some i /\ i_id i = x.
Proof. intros G (k & Hx). destruct (g_live m G k x Hx) as (i & A & _ & B & _). eauto. Qed.
Lemma reached_inv m : reached m -> inv m.
Proof.
  induction 1 as [|m k name mn H IH E|m x m' H IH L E]; [apply inv_empty|eapply inv_create; eassumption|]. destruct IH as (G & W). destruct (listed_get m x G L) as (i & Gi & Ii). destruct (delete_ok m x i G Gi Ii) as (m2 & E2 & De). rewrite E in E2. injection E2 as <-.
  split; [apply (de_good _ _ _ De)|]. intros k. apply (de_one _ _ _ De). apply W.
Qed.

(* Deleting a listed item always works, and takes exactly this item out of the lists ... *)
Theorem C56_delete : forall m x, reached m -> listed m x -> exists m', destructor m x true = Ok m' /\ forall k, m_vec m' k = filter (fun y => negb (y =? x)) (m_vec m k).
Proof.
  intros m x H L. destruct (reached_inv m H) as (G & _). destruct (listed_get m x G L) as (i & Gi & Ii). destruct (delete_ok m x i G Gi Ii) as (m' & E & De). exists m'. split; [exact E|]. apply (de_vec _ _ _ De).
Qed.
Print Assumptions C56_delete.

(* ... and in every list at most one item has a wrong number, which is then too large ... *)
Theorem C56_one_wrong : forall m k, reached m -> exists j, forall n x i, nth_error (m_vec m k) n = Some x -> deref m x = Ok i ->
  n <= i_sub i /\ (n <> j -> i_sub i = n).
Proof.
  intros m k H. destruct (reached_inv m H) as (G & W). destruct (W k) as (j & J1 & J2). exists j. intros n x i En D. rewrite deref_get in D. destruct (get (m_heap m) x) as [i'|] eqn:Gi; [|discriminate]. injection D as <-.
  destruct (Nat.eq_dec n j) as [->|Ne]; [split; [apply (J2 x i' En Gi)|congruence]|]. rewrite (J1 n Ne x i' En Gi). auto.
Qed.
Print Assumptions C56_one_wrong.

(* ... the next deletion, of an item of another list or of the last one, puts all numbers
   of the list right. *)
Theorem C56_renumber : forall m x m' k, reached m -> listed m x -> destructor m x true = Ok m' ->
  (~ In x (m_vec m k) \/ exists a, m_vec m k = a ++ [x]) ->
  forall n y i, nth_error (m_vec m' k) n = Some y -> deref m' y = Ok i -> i_sub i = n.
Proof.
  intros m x m' k H L E C n y i En D. destruct (reached_inv m H) as (G & _). destruct (listed_get m x G L) as (j & Gj & Ij). destruct (delete_ok m x j G Gj Ij) as (m2 & E2 & De). rewrite E in E2. injection E2 as <-.
  rewrite deref_get in D. destruct (get (m_heap m') y) as [i'|] eqn:Gi; [|discriminate]. injection D as <-. destruct C as [C|(a & C)]; [exact (de_absent _ _ _ De k C n y i' En Gi)|exact (de_last _ _ _ De k a C n y i' En Gi)].
Qed.
Print Assumptions C56_renumber.

Example C56_reached : exists m, reached m /\ m_vec m KInput = [1; 2; 3] /\ map (fun x => match deref m x with Ok i => i_sub i | _ => 9 end) (m_vec m KInput) = [1; 1; 2].
Proof.
  pose (c := fun m => match create m KInput (N.of_nat (S (length (m_vec m KInput)))) with Ok mn => fst mn | _ => m end).
  assert (C : forall m, reached m -> match create m KInput (N.of_nat (S (length (m_vec m KInput)))) with Ok _ => True | _ => False end -> reached (c m)).
  { intros m H E. unfold c. destruct (create m KInput _) as [mn| |] eqn:E2; try contradiction. eapply R_create; [exact H|exact E2]. }
  pose (m4 := c (c (c (c empty_module)))). assert (H4 : reached m4) by (unfold m4; repeat apply C; try exact R_start; exact I).
  destruct (destructor m4 0 true) as [m5| |] eqn:E; [|vm_compute in E; discriminate|vm_compute in E; discriminate].
  exists m5. split; [eapply R_delete; [exact H4| |exact E]; exists KInput; left; reflexivity|]. vm_compute in E. injection E as <-. split; vm_compute; reflexivity.
Qed.

(* The first of three inputs is deleted: the event made for the new first one is handled as
   one of the second. *)
Theorem C56_wrong_number_refuted : exists l m c, run empty_module l = Ok (m, c) /\ c = [(KInput, 1)] /\ snd (s_run s_empty l) = [(KInput, 0)].
Proof.
  exists [OCreate KInput 1; OCreate KInput 2; OCreate KInput 3; ODelete 0; OProduce KInput 0; OProcess]. eexists. eexists. split; [vm_compute; reflexivity|]. split; vm_compute; reflexivity.
Qed.
Print Assumptions C56_wrong_number_refuted.
(* With two inputs only, a null pointer is used. *)
Theorem C56_null_refuted : run empty_module [OCreate KInput 1; OCreate KInput 2; ODelete 0; OProduce KInput 0; OProcess] = UB.
Proof. vm_compute. reflexivity. Qed.
Print Assumptions C56_null_refuted.
(* The same when an event of the deleted item is waiting. *)
Theorem C56_pending_refuted : run empty_module [OCreate KInput 1; OProduce KInput 0; ODelete 0; OProcess] = UB.
Proof. vm_compute. reflexivity. Qed.
Print Assumptions C56_pending_refuted.

(* Destroying an item by reference leaves its pointer in the list: whatever item of the
   kind is looked for next by another name, freed memory is read. *)
Theorem C56_destroy_refuted : forall k n1 n2, (n1 <> 0)%N -> (n2 <> 0)%N -> run empty_module [OCreate k n1; ODestroy 0; OCreate k n2] = UB.
Proof.
  intros k n1 n2 H1 H2. unfold run, step, create, find_item. destruct (N.eqb_spec n1 0); [contradiction|]. cbn [empty_module m_vec find_from bind fst snd set_vec m_heap m_items app length destroy destructor deref nth_error set_heap upd].
  destruct (N.eqb_spec n2 0); [contradiction|]. destruct (kind_eqb_spec k k); [|congruence]. reflexivity.
Qed.
Print Assumptions C56_destroy_refuted.

(* ActivatePool: the event is handled as one of an output with the number of the pool ... *)
Theorem C56_pool_refuted : exists l m c, run empty_module l = Ok (m, c) /\ c = [(KOutput, 0)] /\ snd (s_run s_empty l) = [(KPool, 0)].
Proof. exists [OCreate KPool 1; OCreate KOutput 2; OActivatePool 0; OProcess]. eexists. eexists. split; [vm_compute; reflexivity|]. split; vm_compute; reflexivity. Qed.
Print Assumptions C56_pool_refuted.
(* ... and a null pointer is used when there is no such output. *)
Theorem C56_pool_null_refuted : run empty_module [OCreate KPool 1; OActivatePool 0; OProcess] = UB.
Proof. vm_compute. reflexivity. Qed.
Print Assumptions C56_pool_null_refuted.
