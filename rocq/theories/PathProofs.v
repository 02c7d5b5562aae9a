(* Proofs about PathModel.v. *)
From Verif Require Import Common Bytes DecStr PathSpec PathModel.
Local Open Scope N_scope.

Lemma beq_refl a : bytes_eqb a a = true.
Proof. destruct (bytes_eqb_spec a a); congruence. Qed.
Lemma beq_neq a b : a <> b -> bytes_eqb a b = false.
Proof. destruct (bytes_eqb_spec a b); congruence. Qed.

(* --- texts --- *)
Lemma token_app l : l = fst (token l) ++ snd (token l).
Proof. induction l as [|x l IH]; cbn; [reflexivity|]. destruct (x =? 47); [reflexivity|]. destruct (token l) as (a, b). cbn in *. congruence. Qed.
Lemma token_free l : ~ In 47 (fst (token l)).
Proof. induction l as [|x l IH]; cbn; [auto|]. destruct (N.eqb_spec x 47); [auto|]. destruct (token l) as (a, b). cbn in *. intros [H|H]; auto. Qed.
Lemma token_rest l : match snd (token l) with [] => True | x :: _ => x = 47 end.
Proof. induction l as [|x l IH]; cbn; [auto|]. destruct (N.eqb_spec x 47); [exact e|]. destruct (token l) as (a, b). cbn in *. exact IH. Qed.
Lemma split_token l : split_slash l = fst (token l) :: match snd (token l) with [] => [] | _ :: r => split_slash r end.
Proof.
  induction l as [|x l IH]; cbn; [reflexivity|]. destruct (x =? 47); [reflexivity|]. rewrite IH. destruct (token l) as (a, b). reflexivity.
Qed.
Lemma parts_token l : parts l = (if is_empty (fst (token l)) then [] else [fst (token l)]) ++ match snd (token l) with [] => [] | _ :: r => parts r end.
Proof.
  unfold parts. rewrite split_token. cbn [filter]. destruct (is_empty (fst (token l))); cbn [negb app]; destruct (snd (token l)); reflexivity.
Qed.
Lemma parts_slash l : parts (47 :: l) = parts l.
Proof. reflexivity. Qed.
Lemma parts_skip l : parts (skip_slashes l) = parts l.
Proof. induction l as [|x l IH]; [reflexivity|]. cbn [skip_slashes]. destruct (N.eqb_spec x 47) as [->|]; [rewrite parts_slash; exact IH|reflexivity]. Qed.
Lemma skip_hd l : hd 0 (skip_slashes l) <> 47.
Proof. induction l as [|x l IH]; cbn; [discriminate|]. destruct (N.eqb_spec x 47); [exact IH|cbn; assumption]. Qed.
Lemma skip_length l : (length (skip_slashes l) <= length l)%nat.
Proof. induction l as [|x l IH]; cbn; [lia|]. destruct (x =? 47); cbn; lia. Qed.

(* --- one step of the search --- *)
Definition go_on k d w (ref : option N) (rest : bytes) force : res (world * option N) :=
  match rest with [] => Ok (w, ref) | _ :: r => search k d w ref r false force end.

Lemma search_step k d w o name first force : name <> [] -> hd 0 name <> 47 ->
  search (S k) d w (Some o) name first force =
    let '(tok, rest) := token name in
    if bytes_eqb tok [46; 46] then go_on k d w (w_up w o) rest force
    else if bytes_eqb tok [46] then go_on k d w (Some o) rest force
    else let '(w', r) := find_or_create w o tok force in go_on k d w' r rest force.
Proof.
  intros Hn Hh. destruct name as [|x name]; [congruence|]. cbn [hd] in Hh. cbn [search].
  replace (x =? 47) with false by (symmetry; apply N.eqb_neq; exact Hh). cbn [andb].
  assert (Sk : skip_slashes (x :: name) = x :: name) by (cbn; destruct (N.eqb_spec x 47); congruence). rewrite Sk.
  cbn [token]. replace (x =? 47) with false by (symmetry; apply N.eqb_neq; exact Hh). cbn [length Nat.eqb nth skipn].
  destruct (N.eqb_spec x 46) as [->|Nx]; cbn [andb].
  2:{ rewrite !andb_false_r. cbn [andb]. destruct (token name) as (a, b). cbn [bytes_eqb]. replace (x =? 46) with false by (symmetry; apply N.eqb_neq; exact Nx). cbn [andb].
      destruct (find_or_create w o (x :: a) force) as (w', r). destruct b; reflexivity. }
  destruct name as [|y name]; [reflexivity|]. cbn [length Nat.leb nth token skipn Nat.eqb].
  destruct (N.eqb_spec y 47) as [->|Ny].
  { cbn [N.eqb Pos.eqb andb bytes_eqb]. reflexivity. }
  cbn [andb]. destruct (N.eqb_spec y 46) as [->|Ny2]; cbn [andb].
  2:{ destruct (token name) as (a, b). cbn [bytes_eqb N.eqb Pos.eqb andb]. replace (y =? 46) with false by (symmetry; apply N.eqb_neq; exact Ny2). cbn [andb].
      destruct (find_or_create w o _ force) as (w', r). destruct b; reflexivity. }
  destruct name as [|z name]; [reflexivity|]. cbn [length Nat.eqb nth token skipn].
  destruct (N.eqb_spec z 47) as [->|Nz]; [reflexivity|]. cbn [N.eqb Pos.eqb andb]. destruct (token name) as (a, b). cbn [bytes_eqb N.eqb Pos.eqb andb].
  destruct (find_or_create w o _ force) as (w', r). destruct b; reflexivity.
Qed.
Lemma search_slashes k d w o name force : search (S k) d w (Some o) name false force = search (S k) d w (Some o) (skip_slashes name) false force.
Proof.
  destruct name as [|x name]; [reflexivity|]. pose proof (skip_hd (x :: name)) as Hh. destruct (skip_slashes (x :: name)) as [|y l] eqn:E.
  - cbn [search]. rewrite andb_false_r, E. reflexivity.
  - cbn [search]. rewrite !andb_false_r, E. assert (Sk : skip_slashes (y :: l) = y :: l) by (cbn in Hh |- *; destruct (N.eqb_spec y 47); congruence). rewrite Sk. reflexivity.
Qed.

Lemma find_object_find w l s : s <> [] -> find_object w l s = find (fun k => bytes_eqb (w_name w k) s) l.
Proof. intros H. induction l as [|o l IH]; cbn; [reflexivity|]. rewrite IH. destruct s; [congruence|reflexivity]. Qed.
Lemma child_found w o s : s <> [] -> find_object w (w_kids w o) s = child w o s.
Proof. apply find_object_find. Qed.

(* --- plain search --- *)
Lemma search_none k d w name first force : search (S k) d w None name first force = Ok (w, None).
Proof. reflexivity. Qed.

Lemma search_follow d w : forall k o name, (length name < k)%nat -> search k d w (Some o) name false false = Ok (w, follow w o (parts name)).
Proof.
  induction k as [|k IH]; intros o name Hk; [lia|]. rewrite search_slashes, <- parts_skip. pose proof (skip_hd name) as Hh. pose proof (skip_length name) as Hl.
  destruct (skip_slashes name) as [|x l] eqn:E; [reflexivity|]. rewrite search_step by (try discriminate; exact Hh). rewrite (parts_token (x :: l)).
  pose proof (token_app (x :: l)) as Ta. pose proof (token_rest (x :: l)) as Tr. destruct (token (x :: l)) as (tok, rest). cbn [fst snd] in *.
  assert (Ht : tok <> []). { intros ->. destruct rest; [discriminate|]. cbn in Ta. injection Ta as -> _. cbn in Hh. congruence. }
  destruct tok as [|a tok]; [congruence|]. cbn [is_empty app follow]. unfold step.
  assert (G : forall r, go_on k d w r rest false = Ok (w, match r with Some o' => follow w o' (match rest with [] => [] | _ :: r => parts r end) | None => None end)).
  { intros r. destruct rest as [|y rest]; cbn; [destruct r; reflexivity|]. destruct r as [o'|].
    - apply IH. apply (f_equal (@length N)) in Ta. rewrite app_length in Ta. cbn in Ta, Hl. lia.
    - destruct k; [cbn in Hl; lia|reflexivity]. }
  destruct (bytes_eqb (a :: tok) [46; 46]); [apply G|]. destruct (bytes_eqb (a :: tok) [46]); [apply (G (Some o))|].
  unfold find_or_create. rewrite child_found by discriminate. destruct (child w o (a :: tok)); apply G.
Qed.

Lemma to_top_spec w depth o d : proper w depth -> (depth o < d)%nat -> exists t, to_top d w o = Ok t /\ top_of w o t.
Proof.
  intros (_ & P). revert o. induction d as [|d IH]; intros o H; [lia|]. cbn. destruct (w_up w o) as [p|] eqn:E.
  - destruct (P _ _ E) as (_ & Q & _). destruct (IH p) as (t & A & B); [lia|]. exists t. split; [exact A|]. eapply Top_up; eassumption.
  - exists o. split; [reflexivity|]. constructor. exact E.
Qed.
Lemma top_unique w o t t' : top_of w o t -> top_of w o t' -> t = t'.
Proof. intros H. induction H as [o E|o p t E H IH]; intros H'; inversion H'; subst; try congruence; auto. apply IH. congruence. Qed.

(* --- growing worlds --- *)
Lemma extends_refl w : extends w w.
Proof. split; [lia|]. split; [intros o; exists []; split; [symmetry; apply app_nil_r|intros c []]|auto]. Qed.
Lemma extends_trans a b c : extends a b -> extends b c -> extends a c.
Proof.
  intros (A1 & A2 & A3) (B1 & B2 & B3). split; [lia|]. split.
  - intros o. destruct (A2 o) as (l & E & F). destruct (B2 o) as (l' & E' & F'). exists (l ++ l'). rewrite E', E, app_assoc. split; [reflexivity|].
    intros x Hx. apply in_app_or in Hx. destruct Hx as [Hx|Hx]; [auto|]. specialize (F' x Hx). lia.
  - intros o Ho. destruct (A3 o Ho) as (E & F). destruct (B3 o) as (E' & F'); [lia|]. split; congruence.
Qed.
Lemma kid_live w depth o c : proper w depth -> In c (w_kids w o) -> c < w_next w.
Proof. intros (P1 & P2) H. apply P1 in H. apply P2 in H. tauto. Qed.
Lemma child_in w o s c : child w o s = Some c -> In c (w_kids w o) /\ w_name w c = s.
Proof. unfold child. intros H. apply find_some in H. destruct H as (A & B). split; [exact A|]. destruct (bytes_eqb_spec (w_name w c) s); congruence. Qed.
Lemma step_live w depth o s c : proper w depth -> o < w_next w -> step w o s = Some c -> c < w_next w.
Proof.
  intros P Ho. unfold step. destruct (bytes_eqb s [46; 46]); [intros E; apply P in E; tauto|]. destruct (bytes_eqb s [46]); [congruence|].
  intros E. apply child_in in E. exact (kid_live _ _ _ _ P (proj1 E)).
Qed.
Lemma child_extends w w' depth o s c : proper w depth -> extends w w' -> child w o s = Some c -> child w' o s = Some c.
Proof.
  intros P (_ & K & Nm) E. unfold child in *. destruct (K o) as (l & -> & _).
  assert (H : forall m, (forall x, In x m -> In x (w_kids w o)) -> find (fun k => bytes_eqb (w_name w k) s) m = Some c -> find (fun k => bytes_eqb (w_name w' k) s) (m ++ l) = Some c).
  { induction m as [|x m IH]; cbn; [discriminate|]. intros Hm. destruct (Nm x) as (-> & _); [apply (kid_live _ _ o _ P), Hm; auto|].
    destruct (bytes_eqb (w_name w x) s); [auto|]. apply IH. auto. }
  apply H; auto.
Qed.
Lemma follow_extends w w' depth l : proper w depth -> extends w w' -> forall o r, o < w_next w -> follow w o l = Some r -> follow w' o l = Some r.
Proof.
  intros P X. induction l as [|c l IH]; intros o r Ho; [auto|]. cbn. destruct (step w o c) as [o'|] eqn:E; [|discriminate].
  assert (E' : step w' o c = Some o').
  { unfold step in *. destruct (bytes_eqb c [46; 46]); [destruct X as (_ & _ & X); rewrite (proj2 (X o Ho)); exact E|].
    destruct (bytes_eqb c [46]); [exact E|]. exact (child_extends _ _ _ _ _ _ P X E). }
  rewrite E'. apply IH. exact (step_live _ _ _ _ _ P Ho E).
Qed.
Lemma follow_live w depth l : proper w depth -> forall o r, o < w_next w -> follow w o l = Some r -> r < w_next w.
Proof.
  intros P. induction l as [|c l IH]; intros o r Ho; cbn; [congruence|]. destruct (step w o c) as [o'|] eqn:E; [|discriminate].
  apply IH. exact (step_live _ _ _ _ _ P Ho E).
Qed.
Lemma top_extends w w' depth o t : proper w depth -> extends w w' -> o < w_next w -> top_of w o t -> top_of w' o t.
Proof.
  intros P (_ & _ & X) Ho T. induction T as [o E|o p t E T IH]; [constructor|eapply Top_up].
  - rewrite (proj2 (X o Ho)). exact E.
  - rewrite (proj2 (X o Ho)). exact E.
  - apply IH. apply P in E. tauto.
Qed.
Lemma top_live w depth o t : proper w depth -> o < w_next w -> top_of w o t -> t < w_next w.
Proof. intros P Ho T. induction T as [o E|o p t E T IH]; [exact Ho|]. apply IH. apply P in E. tauto. Qed.

Lemma no_kids w depth o : proper w depth -> w_next w <= o -> w_kids w o = [].
Proof. intros (P1 & P2) H. destruct (w_kids w o) as [|c l] eqn:E; [reflexivity|]. assert (X : w_up w c = Some o) by (apply P1; rewrite E; left; reflexivity). apply P2 in X. lia. Qed.

Lemma new_proper w depth p name w' o : proper w depth -> match p with Some x => x < w_next w | None => True end -> new_object w p name = (w', o) ->
  extends w w' /\ (exists depth', proper w' depth') /\ o = w_next w /\ w_kids w' o = [] /\ w_name w' o = name /\ w_up w' o = p /\ o < w_next w' /\
  match p with Some x => w_kids w' x = w_kids w x ++ [o] | None => True end.
Proof.
  intros P Hp [= <- <-]. pose proof P as (P1 & P2). assert (Kx : forall x, w_next w <= x -> w_kids w x = []) by (intros x; apply (no_kids _ _ _ P)).
  assert (Up : forall x, w_next w <= x -> w_up w x = None). { intros x Hx. destruct (w_up w x) eqn:E; [|reflexivity]. apply P2 in E. lia. }
  assert (KL : forall x c, In c (w_kids w x) -> c < w_next w) by (intros x c H; exact (kid_live _ _ _ _ P H)).
  unfold set. repeat split; cbn [w_kids w_name w_up w_next]; try lia.
  - intros x. destruct p as [q|]; [|exists []; rewrite app_nil_r; split; [reflexivity|intros c []]].
    destruct (N.eqb_spec x q) as [->|]; [exists [w_next w]; split; [reflexivity|intros c [<-|[]]; lia]|exists []; rewrite app_nil_r; split; [reflexivity|intros c []]].
  - replace (o =? w_next w) with false by lia. reflexivity.
  - replace (o =? w_next w) with false by lia. reflexivity.
  - exists (fun x => if x =? w_next w then match p with Some q => S (depth q) | None => O end else depth x). split; cbn [w_kids w_name w_up w_next].
    + intros x c H. destruct p as [q|].
      * destruct (N.eqb_spec x q) as [->|].
        -- apply in_app_or in H. destruct H as [H|[<-|[]]]; [|rewrite N.eqb_refl; reflexivity]. pose proof (KL _ _ H). replace (c =? w_next w) with false by lia. auto.
        -- pose proof (KL _ _ H). replace (c =? w_next w) with false by lia. auto.
      * pose proof (KL _ _ H). replace (c =? w_next w) with false by lia. auto.
    + intros x c H. destruct (c =? w_next w) eqn:Ec.
      * apply N.eqb_eq in Ec. rewrite Ec. subst p. rewrite N.eqb_refl. replace (x =? w_next w) with false by lia. repeat split; try lia. apply in_or_app. right. left. reflexivity.
      * apply P2 in H. destruct H as (H1 & H2 & H3 & H4). replace (x =? w_next w) with false by lia. repeat split; try lia.
        destruct p as [q|]; [|exact H1]. destruct (N.eqb_spec x q) as [->|]; [apply in_or_app; left; exact H1|exact H1].
  - destruct p as [q|]; [replace (w_next w =? q) with false by lia|]; apply Kx; lia.
  - rewrite N.eqb_refl. reflexivity.
  - rewrite N.eqb_refl. reflexivity.
  - destruct p as [q|]; [rewrite N.eqb_refl; reflexivity|exact I].
Qed.

(* --- search which creates what is missing --- *)
Definition forced (w : world) (o : N) (l : list bytes) (w' : world) (r : option N) :=
  extends w w' /\ (exists depth, proper w' depth) /\ follow w' o l = r /\
  (forall x, follow w o l = Some x -> w' = w) /\ (~ In [46; 46] l -> r <> None) /\
  (Forall plain l -> follow w o l = None -> exists q, r = Some q /\ w_kids w' q = []).

Lemma follow_no_kids w q c l : w_kids w q = [] -> plain c -> follow w q (c :: l) = None.
Proof. intros K (A & B & C & D). cbn. unfold step. rewrite !beq_neq by assumption. unfold child. rewrite K. reflexivity. Qed.

Lemma search_force d : forall k w depth o name, proper w depth -> o < w_next w -> (length name < k)%nat ->
  exists w' r, search k d w (Some o) name false true = Ok (w', r) /\ forced w o (parts name) w' r.
Proof.
  induction k as [|k IH]; intros w depth o name P Ho Hk; [lia|]. rewrite search_slashes, <- parts_skip. pose proof (skip_hd name) as Hh. pose proof (skip_length name) as Hl.
  destruct (skip_slashes name) as [|x l] eqn:E.
  { exists w, (Some o). split; [reflexivity|]. split; [apply extends_refl|]. split; [eauto|]. repeat split; auto; discriminate. }
  rewrite search_step by (try discriminate; exact Hh). rewrite (parts_token (x :: l)).
  pose proof (token_app (x :: l)) as Ta. pose proof (token_rest (x :: l)) as Tr. pose proof (token_free (x :: l)) as Tf. destruct (token (x :: l)) as (tok, rest). cbn [fst snd] in *.
  assert (Ht : tok <> []). { intros ->. destruct rest; [discriminate|]. cbn in Ta. injection Ta as -> _. cbn in Hh. congruence. }
  destruct tok as [|a tok]; [congruence|]. cbn [is_empty app]. set (c := a :: tok) in *.
  (* after the first part *)
  assert (G : forall w1 r1, extends w w1 -> (exists depth1, proper w1 depth1) -> step w1 o c = r1 -> (match r1 with Some q => q < w_next w1 | None => True end) ->
     (match step w o c with Some _ => w1 = w | None => True end) ->
     (r1 = None -> c = [46; 46]) -> (step w o c = None -> c <> [46; 46] -> exists q, r1 = Some q /\ w_kids w1 q = []) ->
     exists w' r, go_on k d w1 r1 rest true = Ok (w', r) /\ forced w o (c :: match rest with [] => [] | _ :: r => parts r end) w' r).
  { intros w1 r1 X1 (depth1 & P1) S1 L1 Same D1 N1. unfold forced. cbn [follow]. destruct rest as [|y rest]; cbn [go_on].
    - exists w1, r1. split; [reflexivity|]. cbn [follow]. split; [exact X1|]. split; [eauto|]. split; [rewrite S1; destruct r1; reflexivity|]. split; [intros z Hz; destruct (step w o c); congruence|].
      split; [intros Hd Er; apply Hd; left; exact (D1 Er)|]. intros Pl Hn. destruct (step w o c) eqn:Es; [discriminate|]. apply N1; [reflexivity|]. inversion Pl as [|? ? (_ & _ & _ & Q)]; assumption.
    - destruct r1 as [q|].
      + destruct (IH w1 depth1 q rest P1 L1) as (w' & r & E2 & X2 & P2 & F2 & Sm & Dd & Nw). { apply (f_equal (@length N)) in Ta. rewrite app_length in Ta. cbn in Ta, Hl. lia. }
        exists w', r. split; [exact E2|]. split; [exact (extends_trans _ _ _ X1 X2)|]. split; [exact P2|].
        assert (S' : step w' o c = Some q).
        { unfold step in S1 |- *. destruct (bytes_eqb c [46; 46]); [destruct X2 as (_ & _ & X2); rewrite (proj2 (X2 o ltac:(destruct X1; lia))); exact S1|].
          destruct (bytes_eqb c [46]); [exact S1|]. exact (child_extends _ _ _ _ _ _ P1 X2 S1). }
        split; [rewrite S'; exact F2|]. split.
        { intros z Hz. destruct (step w o c) as [q'|] eqn:Es; [|discriminate]. subst w1. rewrite Es in S1. injection S1 as ->. exact (Sm z Hz). }
        split; [intros Hd; apply Dd; intros H; apply Hd; right; exact H|].
        intros Pl Hn. pose proof (Forall_inv Pl) as Pc; pose proof (Forall_inv_tail Pl) as Pr. destruct (step w o c) as [q'|] eqn:Es.
        * subst w1. rewrite Es in S1. injection S1 as ->. exact (Nw Pr Hn).
        * destruct (N1 eq_refl) as (q2 & [= <-] & K2); [apply Pc|]. destruct (parts rest) as [|c2 l2] eqn:Ep.
          -- cbn in F2. exists q. split; [congruence|]. rewrite <- K2. f_equal. apply (Sm q). reflexivity.
          -- apply Nw; [exact Pr|]. apply follow_no_kids; [exact K2|exact (Forall_inv Pr)].
      + destruct k as [|k]; [cbn in Hl; lia|]. cbn. exists w1, None. split; [reflexivity|]. split; [exact X1|]. split; [eauto|]. rewrite S1. split; [reflexivity|].
        split; [intros z Hz; destruct (step w o c); congruence|]. split; [intros Hd; exfalso; apply Hd; left; exact (D1 eq_refl)|].
        intros Pl Hn. exfalso. inversion Pl as [|? ? (_ & _ & _ & Q)]. exact (Q (D1 eq_refl)). }
  destruct (bytes_eqb_spec c [46; 46]) as [Ec|Nc].
  { apply G; [apply extends_refl|eauto| | | | |].
    - unfold step. rewrite Ec. cbn. reflexivity.
    - destruct (w_up w o) eqn:Eu; [|exact I]. apply P in Eu. tauto.
    - destruct (step w o c); auto.
    - auto.
    - intros _ H. contradiction. }
  destruct (bytes_eqb_spec c [46]) as [Ec|Nc2].
  { apply G; [apply extends_refl|eauto| |exact Ho| |discriminate|].
    - unfold step. rewrite Ec. cbn. reflexivity.
    - destruct (step w o c); auto.
    - unfold step. rewrite Ec. cbn. discriminate. }
  unfold find_or_create. rewrite child_found by discriminate. fold c.
  assert (Sc : step w o c = child w o c) by (unfold step; rewrite !beq_neq by assumption; reflexivity).
  destruct (child w o c) as [q|] eqn:Eq.
  - apply G; [apply extends_refl|eauto|exact Sc| | |discriminate|congruence].
    + apply child_in in Eq. exact (kid_live _ _ _ _ P (proj1 Eq)).
    + rewrite Sc. reflexivity.
  - destruct (new_object w (Some o) c) as (w1, q) eqn:En. destruct (new_proper w depth (Some o) c w1 q P Ho En) as (X1 & P1 & Eq1 & K1 & N1 & U1 & L1 & O1).
    apply G; [exact X1|exact P1| |exact L1| |discriminate|].
    + unfold step. rewrite !beq_neq by assumption. unfold child. rewrite O1.
      assert (H : forall m, (forall z, In z m -> In z (w_kids w o)) -> find (fun k => bytes_eqb (w_name w k) c) m = None -> find (fun k => bytes_eqb (w_name w1 k) c) (m ++ [q]) = Some q).
      { induction m as [|z m IHm]; cbn; [intros _ _; rewrite N1, beq_refl; reflexivity|]. intros Hm. destruct X1 as (_ & _ & X1). rewrite (proj1 (X1 z (kid_live _ _ o _ P (Hm z (or_introl eq_refl))))).
        destruct (bytes_eqb (w_name w z) c); [discriminate|]. apply IHm. auto. }
      apply H; [auto|exact Eq].
    + rewrite Sc. exact I.
    + intros _ _. exists q. auto.
Qed.

(* --- calls from outside --- *)
Lemma ref_slash d w o rest force : find_child_ref d w o (47 :: rest) force = (do t <- to_top d w o; search (S (length rest)) d w (Some t) rest false force).
Proof. reflexivity. Qed.
Lemma ref_other d w o path force : hd 0 path <> 47 -> find_child_ref d w o path force = search (S (length path)) d w (Some o) path false force.
Proof.
  intros H. unfold find_child_ref. destruct path as [|x l]; [reflexivity|]. rewrite !search_step by (try discriminate; exact H). reflexivity.
Qed.

(* --- names of objects --- *)
Lemma way_snoc w o l r c k : way w o l r -> child w r c = Some k -> plain c -> way w o (l ++ [c]) k.
Proof. intros W Hc Pc. induction W as [o|o c' k' l r E Pl W IH]; cbn; econstructor; eauto. constructor. Qed.
Lemma way_last w o l r : way w o l r -> l <> [] -> exists l' c p, l = l' ++ [c] /\ way w o l' p /\ child w p c = Some r /\ plain c.
Proof.
  intros W. induction W as [o|o c k l r E Pl W IH]; [congruence|]. intros _. destruct l as [|c2 l].
  - inversion W; subst. exists [], c, o. repeat split; auto; try apply Pl. constructor.
  - destruct IH as (l' & c' & p & El & W' & C' & P'); [discriminate|]. exists (c :: l'), c', p. rewrite El. split; [reflexivity|]. split; [econstructor; eassumption|auto].
Qed.
Lemma way_follow w o l r : way w o l r -> follow w o l = Some r.
Proof.
  intros W. induction W as [o|o c k l r E (P1 & P2 & P3 & P4) W IH]; [reflexivity|]. cbn. unfold step. rewrite !beq_neq by assumption. rewrite E. exact IH.
Qed.
Lemma way_plain w o l r : way w o l r -> Forall plain l.
Proof. intros W. induction W; constructor; auto. Qed.
Lemma way_depth w depth o l r : proper w depth -> way w o l r -> depth r = (depth o + length l)%nat.
Proof.
  intros P W. induction W as [o|o c k l r E Pl W IH]; cbn; [lia|]. apply child_in in E. destruct E as (E & _). apply P in E. apply P in E. lia.
Qed.
Lemma child_up w depth o c k : proper w depth -> child w o c = Some k -> w_up w k = Some o /\ w_name w k = c.
Proof. intros P E. apply child_in in E. destruct E as (A & B). apply P in A. auto. Qed.

Lemma join_snoc l c : l <> [] -> join (l ++ [c]) = join l ++ [47] ++ c.
Proof. destruct l as [|a l]; [congruence|]. intros _. cbn. rewrite map_app, concat_app. cbn. rewrite app_nil_r, <- !app_assoc. reflexivity. Qed.

Lemma token_plain c r : ~ In 47 c -> match r with [] => True | x :: _ => x = 47 end -> token (c ++ r) = (c, r).
Proof.
  intros H Hr. induction c as [|x c IH]; cbn.
  - destruct r as [|y r]; [reflexivity|]. subst y. reflexivity.
  - destruct (N.eqb_spec x 47) as [->|]; [exfalso; apply H; left; reflexivity|]. rewrite IH; [reflexivity|]. intros X. apply H. right. exact X.
Qed.
Lemma parts_join l : Forall plain l -> parts (join l) = l.
Proof.
  assert (T : forall l, Forall plain l -> parts (concat (map (fun d => 47 :: d) l)) = l).
  { induction 1 as [|c l0 (P1 & P2 & _) F IH]; [reflexivity|]. cbn [map concat app]. rewrite parts_slash, parts_token, token_plain; [|exact P2|destruct l0; cbn; auto].
    cbn [fst snd]. destruct c as [|x c]; [congruence|]. cbn [is_empty app]. destruct l0 as [|c2 l0]; [reflexivity|]. cbn [map concat app] in IH |- *. rewrite parts_slash in IH. rewrite IH. reflexivity. }
  intros F. destruct l as [|c l]; [reflexivity|]. cbn [join]. pose proof (T _ F) as H. cbn [map concat app] in H. rewrite parts_slash in H. exact H.
Qed.
Lemma join_hd l : Forall plain l -> hd 0 (join l) <> 47.
Proof.
  intros F. destruct F as [|c l (P1 & P2 & _) F]; cbn; [discriminate|]. destruct c as [|x c]; [congruence|]. cbn. intros ->. apply P2. left. reflexivity.
Qed.

Lemma full_name_way w depth m : proper w depth -> forall d l o, way w m l o -> l <> [] -> (length l <= d)%nat -> full_name d w o (Some m) false = Ok (join l).
Proof.
  intros P. induction d as [|d IH]; intros l o W Hl Hd; [destruct l; [congruence|cbn in Hd; lia]|].
  destruct (way_last _ _ _ _ W Hl) as (l' & c & p & -> & W' & C & Pc). destruct (child_up _ _ _ _ _ P C) as (U & Nm). cbn [full_name]. rewrite U.
  destruct (N.eqb_spec p m) as [->|Np].
  - rewrite Nm. pose proof (way_depth _ _ _ _ _ P W') as D. destruct l'; [cbn; rewrite app_nil_r; reflexivity|cbn in D; lia].
  - assert (Hl' : l' <> []) by (intros ->; inversion W'; subst; congruence). rewrite (IH l' p W' Hl'); [|rewrite app_length in Hd; cbn in Hd; lia]. cbn [bind].
    rewrite Nm, join_snoc by exact Hl'. reflexivity.
Qed.
Lemma is_parent_way w depth m : proper w depth -> forall d l o, way w m l o -> l <> [] -> (length l <= d)%nat -> is_parent d w o m = Ok true.
Proof.
  intros P. induction d as [|d IH]; intros l o W Hl Hd; [destruct l; [congruence|cbn in Hd; lia]|].
  destruct (way_last _ _ _ _ W Hl) as (l' & c & p & -> & W' & C & Pc). destruct (child_up _ _ _ _ _ P C) as (U & Nm). cbn [is_parent]. rewrite U.
  destruct (N.eqb_spec p m) as [->|Np]; [reflexivity|]. assert (Hl' : l' <> []) by (intros ->; inversion W'; subst; congruence). apply (IH l' p W' Hl'). rewrite app_length in Hd; cbn in Hd; lia.
Qed.

Lemma last_slash_none c : ~ In 47 c -> last_slash c = None.
Proof. induction c as [|x c IH]; cbn; [auto|]. intros H. rewrite IH by tauto. destruct (N.eqb_spec x 47); [exfalso; auto|reflexivity]. Qed.
Lemma last_slash_app a c : ~ In 47 c -> last_slash (a ++ 47 :: c) = Some (a, c).
Proof. intros H. induction a as [|x a IH]; cbn; [rewrite last_slash_none by exact H; reflexivity|]. rewrite IH. reflexivity. Qed.
