(* References: the counter of every object is the number of references to it. *)
From Verif Require Import Common ListFacts RefSpec RefModel.

Notation cv := (count_occ option_eq_dec).
Notation cn := (count_occ Nat.eq_dec).
Definition refs (s : st) : list (option nat) := vars s ++ concat (vecs s).
(* references to an object, including the temporary ones of [t] *)
Definition total (t : list nat) (s : st) (o : nat) : nat := cv (refs s) (Some o) + cn t o.
Definition shows (n : nat) (f : bool * bool) : option obj :=
  if (n =? 0) && (fst f || snd f) then None else Some (mkO n (if snd f then WaitDestr else Normal) (fst f)).
Definition inv (t : list nat) (ob : list (bool * bool)) (s : st) : Prop :=
  length (heap s) = length ob /\
  forall o, match nth_error ob o with
            | None => total t s o = 0
            | Some f => nth_error (heap s) o = Some (shows (total t s o) f)
            end.

Definition one (x : option nat) (o : nat) : nat := if option_eq_dec x (Some o) then 1 else 0.
Lemma count_upd l : forall i x y o, nth_error l i = Some x -> cv (upd l i y) (Some o) + one x o = cv l (Some o) + one y o.
Proof.
  induction l as [|z l IH]; intros [|i] x y o H; try discriminate; cbn [nth_error upd] in *.
  - injection H as ->. cbn [count_occ]. unfold one. destruct (option_eq_dec x (Some o)), (option_eq_dec y (Some o)); lia.
  - cbn [count_occ]. specialize (IH i x y o H). destruct (option_eq_dec z (Some o)); lia.
Qed.
Lemma count_concat_upd ll : forall k r r' o, nth_error ll k = Some r -> cv (concat (upd ll k r')) (Some o) + cv r (Some o) = cv (concat ll) (Some o) + cv r' (Some o).
Proof.
  induction ll as [|z ll IH]; intros [|k] r r' o H; try discriminate; cbn [nth_error upd concat] in *; rewrite !count_occ_app.
  - injection H as ->. lia.
  - specialize (IH k r r' o H). lia.
Qed.
Lemma nth_error_nth_row (ll : list (list (option nat))) k r : nth_error ll k = Some r -> nth k ll [] = r.
Proof. apply nth_error_nth. Qed.
Lemma count_set s l x y o : get s l = Ok x -> cv (refs (set s l y)) (Some o) + one x o = cv (refs s) (Some o) + one y o.
Proof.
  unfold get, refs. destruct l as [v|k i]; cbn [set vars vecs]; rewrite !count_occ_app.
  - destruct (nth_error (vars s) v) as [z|] eqn:E; [|discriminate]. intros H. injection H as ->. assert (C := count_upd _ _ _ y o E). lia.
  - destruct (nth_error (vecs s) k) as [r|] eqn:E; [|discriminate]. destruct (nth_error r i) as [z|] eqn:E2; [|discriminate]. intros H. injection H as ->.
    rewrite (nth_error_nth_row _ _ _ E). assert (C := count_upd _ _ _ y o E2). assert (D := count_concat_upd _ _ _ (upd r i y) o E). lia.
Qed.
Lemma heap_set s l x : heap (set s l x) = heap s.
Proof. destruct l; reflexivity. Qed.

(* taking a reference out of its place, putting one into an empty place *)
Lemma take_out t ob s l o : inv t ob s -> get s l = Ok (Some o) -> inv (o :: t) ob (set s l None).
Proof.
  intros (L & H) G. split; [rewrite heap_set; exact L|]. intros p. specialize (H p). rewrite heap_set.
  assert (T : total (o :: t) (set s l None) p = total t s p).
  { unfold total. assert (C := count_set s l (Some o) None p G). unfold one in C. cbn [count_occ]. destruct (option_eq_dec (Some o) (Some p)), (option_eq_dec None (Some p)), (Nat.eq_dec o p); try discriminate; subst; try congruence; lia. }
  rewrite T. exact H.
Qed.
Lemma put_in t ob s l o : inv (o :: t) ob s -> get s l = Ok None -> inv t ob (set s l (Some o)).
Proof.
  intros (L & H) G. split; [rewrite heap_set; exact L|]. intros p. specialize (H p). rewrite heap_set.
  assert (T : total (o :: t) s p = total t (set s l (Some o)) p).
  { unfold total. assert (C := count_set s l None (Some o) p G). unfold one in C. cbn [count_occ]. destruct (option_eq_dec (Some o) (Some p)), (option_eq_dec None (Some p)), (Nat.eq_dec o p); try discriminate; subst; try congruence; lia. }
  rewrite <- T. exact H.
Qed.
Lemma set_none t ob s l : inv t ob s -> get s l = Ok None -> inv t ob (set s l None).
Proof.
  intros (L & H) G. split; [rewrite heap_set; exact L|]. intros p. specialize (H p). rewrite heap_set.
  assert (T : total t (set s l None) p = total t s p). { unfold total. assert (C := count_set s l None None p G). lia. }
  rewrite T. exact H.
Qed.
Lemma total_obj t s o x p : total t (set_obj s o x) p = total t s p.
Proof. reflexivity. Qed.

Definition asked (ask : bool) (ob : list (bool * bool)) (o : nat) : list (bool * bool) :=
  if ask then upd ob o (fst (nth o ob (false, false)), true) else ob.
Lemma drop t ob s ask o : inv (o :: t) ob s -> exists h, dec s ask o = Ok (mkSt h (vars s) (vecs s)) /\ inv t (asked ask ob o) (mkSt h (vars s) (vecs s)).
Proof.
  intros (L & H). assert (Ho := H o). unfold total in Ho. cbn [count_occ] in Ho. destruct (Nat.eq_dec o o) as [_|X]; [|congruence].
  destruct (nth_error ob o) as [f|] eqn:Eo; [|lia]. unfold shows in Ho.
  replace (cv (refs s) (Some o) + S (cn t o) =? 0) with false in Ho by (symmetry; apply Nat.eqb_neq; lia). cbn [andb] in Ho.
  replace (cv (refs s) (Some o) + S (cn t o)) with (S (total t s o)) in Ho by (unfold total; lia).
  assert (Lo : o < length (heap s)) by (apply nth_error_Some; congruence).
  assert (G : exists y, dec s ask o = Ok (set_obj s o y) /\ y = shows (total t s o) (nth o (asked ask ob o) (false, false))).
  { unfold dec. rewrite Ho. cbn [o_cnt o_st o_auto]. unfold asked, shows. rewrite (nth_error_nth _ _ (false, false) Eo). destruct f as (a, r).
    assert (Nu : forall q, nth o (upd ob o q) (false, false) = q) by (intros q; apply nth_error_nth; apply nth_error_upd_same; lia).
    destruct ask; rewrite ?Nu, ?(nth_error_nth _ _ (false, false) Eo); cbn [fst snd]; destruct a, r; destruct (Nat.eqb_spec (total t s o) 0) as [Z|Z]; try rewrite Z; cbn [andb orb fst snd]; eexists; split; reflexivity. }
  destruct G as (y & -> & ->). eexists. split; [reflexivity|]. split.
  { cbn [heap set_obj]. rewrite upd_length, L. unfold asked. destruct ask; [rewrite upd_length|]; reflexivity. }
  intros p. unfold set_obj. cbn [heap]. change (total t (mkSt _ (vars s) (vecs s)) p) with (total t s p). assert (Hp := H p). destruct (Nat.eq_dec o p) as [<-|Np].
  - assert (Ea : nth_error (asked ask ob o) o = Some (nth o (asked ask ob o) (false, false))).
    { apply nth_error_nth'. unfold asked. destruct ask; rewrite ?upd_length; lia. }
    rewrite Ea. rewrite nth_error_upd_same by lia. reflexivity.
  - assert (Ea : nth_error (asked ask ob o) p = nth_error ob p). { unfold asked. destruct ask; [apply nth_error_upd_other; exact Np|reflexivity]. }
    rewrite Ea. rewrite nth_error_upd_other by exact Np. unfold total in *. cbn [count_occ] in Hp. destruct (Nat.eq_dec o p); [congruence|]. exact Hp.
Qed.
Lemma asked_false ob o : asked false ob o = ob. Proof. reflexivity. Qed.
Lemma grab t ob s o : inv t ob s -> (exists x, nth_error (heap s) o = Some (Some x)) ->
  exists h, inc s o = Ok (mkSt h (vars s) (vecs s)) /\ inv (o :: t) ob (mkSt h (vars s) (vecs s)).
Proof.
  intros (L & H) (x & Ex). unfold inc. rewrite Ex. eexists. split; [reflexivity|]. assert (Lo : o < length (heap s)) by (apply nth_error_Some; congruence).
  split; [cbn [heap set_obj]; rewrite upd_length; exact L|]. intros p. unfold set_obj. cbn [heap]. assert (Hp := H p). unfold total in *. cbn [count_occ].
  change (refs (mkSt _ (vars s) (vecs s))) with (refs s). destruct (Nat.eq_dec o p) as [<-|Np].
  - destruct (nth_error ob o) as [f|] eqn:Eo; [|apply nth_error_None in Eo; lia]. rewrite nth_error_upd_same by exact Lo. rewrite Ex in Hp.
    unfold shows in *. destruct ((cv (refs s) (Some o) + cn t o =? 0) && (fst f || snd f)); [discriminate|]. injection Hp as ->. cbn [o_cnt o_st o_auto].
    replace (cv (refs s) (Some o) + S (cn t o) =? 0) with false by (symmetry; apply Nat.eqb_neq; lia). cbn [andb]. f_equal. f_equal. f_equal. lia.
  - destruct (nth_error ob p); [|exact Hp]. rewrite nth_error_upd_other by exact Np. exact Hp.
Qed.
Lemma used_alive t ob s o : inv t ob s -> 0 < total t s o -> exists x, nth_error (heap s) o = Some (Some x).
Proof.
  intros (L & H) U. specialize (H o). destruct (nth_error ob o) as [f|]; [|lia]. rewrite H. unfold shows.
  replace (total t s o =? 0) with false by (symmetry; apply Nat.eqb_neq; lia). cbn [andb]. eexists. reflexivity.
Qed.
Lemma get_used t s l o : get s l = Ok (Some o) -> 0 < total t s o.
Proof.
  intros G. unfold total. assert (C := count_set s l (Some o) None o G). unfold one in C. destruct (option_eq_dec (Some o) (Some o)); [|congruence]. destruct (option_eq_dec None (Some o)); [discriminate|]. lia.
Qed.

(* reading and writing places *)
Definition valid (s : st) (l : loc) : Prop := match l with V v => v < length (vars s) | E k i => k < length (vecs s) /\ i < size s k end.
Lemma get_valid s l : valid s l -> exists x, get s l = Ok x.
Proof.
  destruct l as [v|k i]; cbn [valid get].
  - intros H. destruct (nth_error (vars s) v) eqn:Q; [eauto|]. apply nth_error_None in Q. lia.
  - intros (H1 & H2). destruct (nth_error (vecs s) k) as [r|] eqn:Q; [|apply nth_error_None in Q; lia]. unfold size in H2. rewrite (nth_error_nth _ _ [] Q) in H2.
    destruct (nth_error r i) eqn:Q2; [eauto|]. apply nth_error_None in Q2. lia.
Qed.
Lemma get_set_same s l x y : get s l = Ok x -> get (set s l y) l = Ok y.
Proof.
  destruct l as [v|k i]; cbn [get set vars vecs].
  - destruct (nth_error (vars s) v) eqn:Q; [|discriminate]. intros _. rewrite nth_error_upd_same; [reflexivity|]. apply nth_error_Some. congruence.
  - destruct (nth_error (vecs s) k) as [r|] eqn:Q; [|discriminate]. destruct (nth_error r i) eqn:Q2; [|discriminate]. intros _.
    assert (Lk : k < length (vecs s)) by (apply nth_error_Some; congruence). rewrite nth_error_upd_same by exact Lk. rewrite (nth_error_nth _ _ [] Q).
    rewrite nth_error_upd_same; [reflexivity|]. apply nth_error_Some. congruence.
Qed.
Lemma get_set_other s l l' y : l <> l' -> get (set s l y) l' = get s l'.
Proof.
  intros N. destruct l as [v|k i], l' as [w|j n]; cbn [get set vars vecs]; try reflexivity.
  - rewrite nth_error_upd_other by congruence. reflexivity.
  - destruct (Nat.eq_dec k j) as [<-|Nk]; [|rewrite nth_error_upd_other by exact Nk; reflexivity].
    destruct (nth_error (vecs s) k) as [r|] eqn:Q.
    + assert (Lk : k < length (vecs s)) by (apply nth_error_Some; congruence). rewrite nth_error_upd_same by exact Lk. rewrite (nth_error_nth _ _ [] Q).
      rewrite nth_error_upd_other by congruence. reflexivity.
    + replace (nth_error (upd (vecs s) k (upd (nth k (vecs s) []) i y)) k) with (@None (list (option nat))); [reflexivity|].
      symmetry. apply nth_error_None. rewrite upd_length. apply nth_error_None. exact Q.
Qed.
Lemma upd_upd {A} (q : list A) : forall i a b, upd (upd q i a) i b = upd q i b.
Proof. induction q as [|z q IH]; intros [|i] a b; cbn [upd]; auto. rewrite IH. reflexivity. Qed.
Lemma upd_comm {A} (q : list A) : forall i j a b, i <> j -> upd (upd q i a) j b = upd (upd q j b) i a.
Proof. induction q as [|z q IH]; intros [|i] [|j] a b N; cbn [upd]; try congruence; try reflexivity. rewrite IH by congruence. reflexivity. Qed.
Lemma upd_same {A} (q : list A) : forall i a, nth_error q i = Some a -> upd q i a = q.
Proof. induction q as [|z q IH]; intros [|i] a; cbn [upd nth_error]; try congruence. intros H. rewrite IH by exact H. reflexivity. Qed.
Lemma nth_upd_same {A} (q : list A) i a d : i < length q -> nth i (upd q i a) d = a.
Proof. intros H. apply nth_error_nth. apply nth_error_upd_same. exact H. Qed.
Lemma nth_upd_other {A} (q : list A) i j a d : i <> j -> nth j (upd q i a) d = nth j q d.
Proof. intros H. rewrite nth_upd_eq. destruct (Nat.eqb_spec j i); [congruence|]. reflexivity. Qed.
Lemma set_set s l x y : set (set s l x) l y = set s l y.
Proof.
  destruct l as [v|k i]; unfold set; cbn [vars vecs heap]; rewrite upd_upd; [reflexivity|].
  f_equal. destruct (Nat.lt_ge_cases k (length (vecs s))) as [Lk|Lk].
  - rewrite nth_upd_same by exact Lk. rewrite upd_upd. reflexivity.
  - rewrite !upd_beyond by (rewrite ?upd_length; lia). reflexivity.
Qed.
Lemma set_same s l x : get s l = Ok x -> set s l x = s.
Proof.
  destruct s as [hp vs ws], l as [v|k i]; unfold set, get; cbn [vars vecs heap].
  - destruct (nth_error vs v) as [z|] eqn:Q; [|discriminate]. intros G. injection G as ->. rewrite upd_same by exact Q. reflexivity.
  - destruct (nth_error ws k) as [r|] eqn:Q; [|discriminate]. destruct (nth_error r i) as [z|] eqn:Q2; [|discriminate]. intros G. injection G as ->.
    rewrite (nth_error_nth _ _ [] Q), (upd_same r i x Q2), (upd_same ws k r Q). reflexivity.
Qed.
Lemma set_comm s a b x y : a <> b -> set (set s a x) b y = set (set s b y) a x.
Proof.
  intros N. destruct a as [v|k i], b as [w|j n]; unfold set; cbn [vars vecs heap]; try reflexivity.
  - rewrite upd_comm by congruence. reflexivity.
  - f_equal. destruct (Nat.eq_dec k j) as [<-|Nk].
    + destruct (Nat.lt_ge_cases k (length (vecs s))) as [Lk|Lk].
      * rewrite !nth_upd_same by exact Lk. rewrite !upd_upd. rewrite upd_comm by congruence. reflexivity.
      * rewrite !upd_beyond by (rewrite ?upd_length; lia). reflexivity.
    + rewrite !nth_upd_other by congruence. apply upd_comm. exact Nk.
Qed.
Definition hset (s : st) (h : list (option obj)) : st := mkSt h (vars s) (vecs s).
Lemma get_hset s h l : get (hset s h) l = get s l. Proof. destruct l; reflexivity. Qed.
Lemma set_hset s h l x : set (hset s h) l x = hset (set s l x) h. Proof. destruct l; reflexivity. Qed.
Lemma hset_hset s h h' : hset (hset s h) h' = hset s h'. Proof. reflexivity. Qed.
Lemma inv_hset_set s h l x : set (hset s h) l x = hset (set s l x) h. Proof. apply set_hset. Qed.

(* objects asked to be destroyed by a release of a place *)
Definition rel_asked (ask : bool) (ob : list (bool * bool)) (x : option nat) : list (bool * bool) :=
  match x with Some o => asked ask ob o | None => ob end.
Lemma rel_ok t ob s ask l x : inv t ob s -> get s l = Ok x ->
  exists h, rel ask s l = Ok (hset (set s l None) h) /\ inv t (rel_asked ask ob x) (hset (set s l None) h).
Proof.
  intros I G. unfold rel. rewrite G. cbn [bind]. destruct x as [o|]; cbn [rel_asked].
  - assert (I1 := take_out t ob s l o I G). destruct (drop t ob _ ask o I1) as (h & D & I2). 
    (* dec does not look at the places *)
    assert (D' : dec s ask o = Ok (mkSt h (vars s) (vecs s))).
    { unfold dec in *. rewrite heap_set in D. destruct (nth_error (heap s) o) as [[x|]|]; try discriminate. destruct (o_cnt x); try discriminate.
      unfold set_obj in *. rewrite heap_set in D.
      assert (K : forall q, Ok (mkSt q (vars (set s l None)) (vecs (set s l None))) = Ok (mkSt h (vars (set s l None)) (vecs (set s l None))) -> Ok (mkSt q (vars s) (vecs s)) = Ok (mkSt h (vars s) (vecs s))) by (intros q Q; injection Q as ->; reflexivity).
      destruct (o_st x); [destruct (_ || ask)|]; apply K; exact D. }
    rewrite D'. cbn [bind]. change (mkSt h (vars s) (vecs s)) with (hset s h). rewrite set_hset. exists h. split; [reflexivity|exact I2].
  - exists (heap s). assert (E0 : hset (set s l None) (heap s) = s) by (rewrite (set_same s l None G); destruct s; reflexivity).
    rewrite E0. split; [reflexivity|exact I].
Qed.
Lemma move_temp_ok t ob s l x y : match y with Some o => inv (o :: t) ob s | None => inv t ob s end -> get s l = Ok x ->
  exists h, move_temp s l y = Ok (hset (set s l y) h) /\ inv t ob (hset (set s l y) h).
Proof.
  intros I G. unfold move_temp. destruct y as [o|].
  - destruct (rel_ok (o :: t) ob s false l x I G) as (h & -> & I1). cbn [bind]. exists h. rewrite set_hset, set_set. split; [reflexivity|].
    assert (Q : rel_asked false ob x = ob) by (destruct x; reflexivity). rewrite Q in I1.
    replace (hset (set s l (Some o)) h) with (set (hset (set s l None) h) l (Some o)) by (rewrite set_hset, set_set; reflexivity).
    apply put_in; [exact I1|]. rewrite get_hset. apply (get_set_same _ _ _ _ G).
  - destruct (rel_ok t ob s false l x I G) as (h & -> & I1). cbn [bind]. exists h. rewrite set_hset, set_set. split; [reflexivity|].
    assert (Q : rel_asked false ob x = ob) by (destruct x; reflexivity). rewrite Q in I1. exact I1.
Qed.
(* moving between two different places *)
Lemma move_ok t ob s d r x y : d <> r -> inv t ob s -> get s d = Ok x -> get s r = Ok y ->
  exists h, move s d r = Ok (hset (set (set s r None) d y) h) /\ inv t ob (hset (set (set s r None) d y) h).
Proof.
  intros N I G1 G2. unfold move. destruct (rel_ok t ob s false d x I G1) as (h & -> & I1). cbn [bind]. rewrite get_hset, get_set_other by exact N. rewrite G2. cbn [bind].
  assert (Q : rel_asked false ob x = ob) by (destruct x; reflexivity). rewrite Q in I1.
  assert (Sw : set (set (set s d None) r None) d y = set (set s r None) d y) by (rewrite (set_comm s d r) by exact N; apply set_set).
  exists h. rewrite !set_hset, Sw. split; [reflexivity|]. rewrite <- Sw.
  assert (Gr : get (hset (set s d None) h) r = Ok y) by (rewrite get_hset, get_set_other by exact N; exact G2).
  assert (Gd : get (hset (set s d None) h) d = Ok None) by (rewrite get_hset; apply (get_set_same _ _ _ _ G1)).
  replace (hset (set (set (set s d None) r None) d y) h) with (set (set (hset (set s d None) h) r None) d y) by (rewrite !set_hset; reflexivity).
  destruct y as [o|].
  - apply put_in; [apply take_out; assumption|]. rewrite get_set_other by congruence. exact Gd.
  - apply set_none; [apply set_none; assumption|]. rewrite get_set_other by congruence. exact Gd.
Qed.

(* assigning from another place *)
Lemma assign_ok t ob s d r x y : d <> r -> inv t ob s -> get s d = Ok x -> get s r = Ok y ->
  exists h, assign s d r = Ok (hset (set s d y) h) /\ inv t ob (hset (set s d y) h).
Proof.
  intros N I G1 G2. unfold assign. destruct (rel_ok t ob s false d x I G1) as (h & -> & I1). cbn [bind]. rewrite get_hset, get_set_other by exact N. rewrite G2. cbn [bind].
  assert (Q : rel_asked false ob x = ob) by (destruct x; reflexivity). rewrite Q in I1. destruct y as [o|].
  - destruct (grab t ob _ o I1) as (h2 & -> & I2).
    { apply (used_alive t ob _ o I1). apply (get_used t _ r). rewrite get_hset, get_set_other by exact N. exact G2. }
    cbn [bind]. change (mkSt h2 (vars (hset (set s d None) h)) (vecs (hset (set s d None) h))) with (hset (set s d None) h2) in *. exists h2. rewrite set_hset, set_set. split; [reflexivity|].
    replace (hset (set s d (Some o)) h2) with (set (hset (set s d None) h2) d (Some o)) by (rewrite set_hset, set_set; reflexivity).
    apply put_in; [exact I2|]. rewrite get_hset. apply (get_set_same _ _ _ _ G1).
  - exists h. split; [reflexivity|exact I1].
Qed.
(* giving a pointer on another existing object *)
Lemma point_ok t ob s d o x : inv t ob s -> get s d = Ok x -> x <> Some o -> (exists y, nth_error (heap s) o = Some (Some y)) ->
  exists h, point s d o = Ok (hset (set s d (Some o)) h) /\ inv t ob (hset (set s d (Some o)) h) /\ set_object s d o = Ok (hset (set s d (Some o)) h).
Proof.
  intros I G N A. unfold point, set_object. destruct (rel_ok t ob s false d x I G) as (h & -> & I1). cbn [bind].
  assert (Q : rel_asked false ob x = ob) by (destruct x; reflexivity). rewrite Q in I1.
  destruct (grab t ob _ o I1) as (h2 & -> & I2).
  { destruct A as (y & Ay). cbn [heap hset]. destruct I as (L & I), I1 as (L1 & I1). specialize (I o). specialize (I1 o). cbn [heap hset] in I1.
    assert (Lo : o < length ob) by (rewrite <- L; apply nth_error_Some; congruence).
    destruct (nth_error ob o) as [f|] eqn:Eo; [|apply nth_error_None in Eo; lia]. rewrite Ay in I.
    assert (T : total t (hset (set s d None) h) o = total t s o).
    { unfold total. change (refs (hset (set s d None) h)) with (refs (set s d None)). assert (C := count_set s d x None o G). unfold one in C.
      destruct (option_eq_dec x (Some o)); [congruence|]. destruct (option_eq_dec None (Some o)); [discriminate|]. lia. }
    rewrite T in I1. exists y. congruence. }
  cbn [bind]. change (mkSt h2 (vars (hset (set s d None) h)) (vecs (hset (set s d None) h))) with (hset (set s d None) h2) in *.
  assert (Gd : get (hset (set s d None) h2) d = Ok None) by (rewrite get_hset; apply (get_set_same _ _ _ _ G)).
  assert (Eq : set (hset (set s d None) h2) d (Some o) = hset (set s d (Some o)) h2) by (rewrite set_hset, set_set; reflexivity).
  exists h2. unfold move_temp, rel. rewrite Gd. cbn [bind]. rewrite Eq. split; [reflexivity|]. split; [|reflexivity]. rewrite <- Eq. apply put_in; assumption.
Qed.

(* rows of the vectors *)
Definition row (s : st) (k : nat) (r : list (option nat)) : Prop := nth_error (vecs s) k = Some r.
Definition wrow (s : st) (k : nat) (r : list (option nat)) : st := mkSt (heap s) (vars s) (upd (vecs s) k r).
Lemma row_lt s k r : row s k r -> k < length (vecs s). Proof. intros H. apply nth_error_Some. unfold row in H. congruence. Qed.
Lemma row_nth s k r : row s k r -> nth k (vecs s) [] = r. Proof. apply nth_error_nth. Qed.
Lemma row_size s k r : row s k r -> size s k = length r. Proof. intros H. unfold size. rewrite (row_nth _ _ _ H). reflexivity. Qed.
Lemma row_wrow s k r r' : row s k r -> row (wrow s k r') k r'. Proof. intros H. apply nth_error_upd_same. apply (row_lt _ _ _ H). Qed.
Lemma wrow_wrow s k r r' : wrow (wrow s k r) k r' = wrow s k r'. Proof. unfold wrow. cbn [vecs heap vars]. rewrite upd_upd. reflexivity. Qed.
Lemma wrow_same s k r : row s k r -> wrow s k r = s. Proof. intros H. unfold wrow. rewrite upd_same by exact H. destruct s. reflexivity. Qed.
Lemma row_hset s h k r : row (hset s h) k r <-> row s k r. Proof. reflexivity. Qed.
Lemma wrow_hset s h k r : wrow (hset s h) k r = hset (wrow s k r) h. Proof. reflexivity. Qed.
Lemma get_row s k r i x : row s k r -> nth_error r i = Some x -> get s (E k i) = Ok x.
Proof. intros H N. cbn [get]. unfold row in H. rewrite H, N. reflexivity. Qed.
Lemma set_row s k r i x : row s k r -> set s (E k i) x = wrow s k (upd r i x).
Proof. intros H. cbn [set]. rewrite (row_nth _ _ _ H). reflexivity. Qed.
Lemma inv_row t ob s k r r' : row s k r -> (forall o, cv r' (Some o) = cv r (Some o)) -> inv t ob s -> inv t ob (wrow s k r').
Proof.
  intros R C (L & H). split; [exact L|]. intros o. specialize (H o). assert (T : total t (wrow s k r') o = total t s o).
  { unfold total, refs, wrow. cbn [vars vecs]. rewrite !count_occ_app. assert (D := count_concat_upd _ _ _ r' o R). specialize (C o). lia. }
  rewrite T. exact H.
Qed.
Lemma count_none (l : list (option nat)) o : cv (l ++ [None]) (Some o) = cv l (Some o).
Proof. rewrite count_occ_app. cbn [count_occ]. destruct (option_eq_dec None (Some o)); [discriminate|]. lia. Qed.
Lemma move_row t ob s k r i j x y : i <> j -> inv t ob s -> row s k r -> nth_error r i = Some x -> nth_error r j = Some y ->
  exists h, move s (E k i) (E k j) = Ok (hset (wrow s k (upd (upd r j None) i y)) h) /\ inv t ob (hset (wrow s k (upd (upd r j None) i y)) h).
Proof.
  intros N I R Gi Gj. destruct (move_ok t ob s (E k i) (E k j) x y) as (h & M & I2); auto; [congruence|eapply get_row; eauto|eapply get_row; eauto|].
  exists h. rewrite (set_row s k r) in M, I2 by exact R. rewrite (set_row _ k (upd r j None)) in M, I2 by (eapply row_wrow; eauto). rewrite wrow_wrow in M, I2. auto.
Qed.
Lemma upd_mid {A} (a : list A) x b y n : n = length a -> upd (a ++ x :: b) n y = a ++ y :: b.
Proof. intros ->. rewrite upd_app_r by lia. rewrite Nat.sub_diag. reflexivity. Qed.
Lemma nth_mid {A} (a : list A) x b n : n = length a -> nth_error (a ++ x :: b) n = Some x.
Proof. intros ->. rewrite nth_error_app2 by lia. rewrite Nat.sub_diag. reflexivity. Qed.
Lemma shift_down_ok t ob k : forall b a s, inv t ob s -> row s k (a ++ None :: b) ->
  exists h, shift_down s k (length a) (length b) = Ok (hset (wrow s k (a ++ b ++ [None])) h) /\ inv t ob (hset (wrow s k (a ++ b ++ [None])) h).
Proof.
  induction b as [|y b IH]; intros a s I R; cbn [length shift_down].
  - exists (heap s). cbn [app]. rewrite (wrow_same _ _ _ R). assert (Q : hset s (heap s) = s) by (destruct s; reflexivity). rewrite Q. auto.
  - destruct (move_row t ob s k _ (length a) (S (length a)) None y ltac:(lia) I R) as (h & M & I2).
    + apply nth_mid. reflexivity.
    + replace (a ++ None :: y :: b) with ((a ++ [None]) ++ y :: b) by (rewrite <- app_assoc; reflexivity). apply nth_mid. rewrite app_length. cbn [length]. lia.
    + assert (Q : upd (upd (a ++ None :: y :: b) (S (length a)) None) (length a) y = (a ++ [y]) ++ None :: b).
      { replace (a ++ None :: y :: b) with ((a ++ [None]) ++ y :: b) by (rewrite <- app_assoc; reflexivity). rewrite upd_mid by (rewrite app_length; cbn [length]; lia).
        rewrite <- !app_assoc. cbn [app]. rewrite upd_mid by reflexivity. reflexivity. }
      rewrite Q in M, I2. rewrite M. cbn [bind].
      destruct (IH (a ++ [y]) _ I2) as (h2 & M2 & I3); [apply row_hset; eapply row_wrow; eauto|].
      replace (S (length a)) with (length (a ++ [y])) by (rewrite app_length; cbn [length]; lia). rewrite M2. rewrite wrow_hset, hset_hset, wrow_wrow in *.
      exists h2. rewrite <- !app_assoc in *. cbn [app] in *. auto.
Qed.
Lemma shift_up_ok t ob k a : forall b c s, inv t ob s -> row s k (a ++ b ++ None :: c) ->
  exists h, shift_up s k (length a + length b) (length a) = Ok (hset (wrow s k (a ++ None :: b ++ c)) h) /\ inv t ob (hset (wrow s k (a ++ None :: b ++ c)) h).
Proof.
  intros b. induction b as [|y b IH] using rev_ind; intros c s I R.
  - exists (heap s). cbn [app length] in *. rewrite (wrow_same _ _ _ R). assert (Q : hset s (heap s) = s) by (destruct s; reflexivity). rewrite Q. split; [|exact I].
    rewrite Nat.add_0_r. destruct (length a); cbn [shift_up]; [reflexivity|]. rewrite Nat.ltb_irrefl. reflexivity.
  - rewrite app_length. cbn [length]. replace (length a + (length b + 1)) with (S (length a + length b)) by lia. cbn [shift_up].
    replace (length a <? S (length a + length b)) with true by (symmetry; apply Nat.ltb_lt; lia).
    rewrite <- (app_assoc b) in R. cbn [app] in R.
    destruct (move_row t ob s k _ (S (length a + length b)) (length a + length b) None y ltac:(lia) I R) as (h & M & I2).
    + replace (a ++ b ++ y :: None :: c) with ((a ++ b ++ [y]) ++ None :: c) by (rewrite <- !app_assoc; reflexivity). apply nth_mid. rewrite !app_length. cbn [length]. lia.
    + rewrite app_assoc. apply nth_mid. rewrite app_length. lia.
    + assert (Q : upd (upd (a ++ b ++ y :: None :: c) (length a + length b) None) (S (length a + length b)) y = a ++ b ++ None :: y :: c).
      { rewrite app_assoc. rewrite upd_mid by (rewrite app_length; lia). replace ((a ++ b) ++ None :: None :: c) with ((a ++ b ++ [None]) ++ None :: c) by (rewrite <- !app_assoc; reflexivity).
        rewrite upd_mid by (rewrite !app_length; cbn [length]; lia). rewrite <- !app_assoc. reflexivity. }
      rewrite Q in M, I2. rewrite M. cbn [bind]. destruct (IH (y :: c) _ I2) as (h2 & M2 & I3); [apply row_hset; eapply row_wrow; eauto|].
      rewrite M2. rewrite wrow_hset, hset_hset, wrow_wrow in *. exists h2. rewrite <- !app_assoc. cbn [app]. auto.
Qed.
Lemma hset_self s : hset s (heap s) = s. Proof. destruct s; reflexivity. Qed.
Lemma remove_at_ok t ob k a x b s : inv t ob s -> row s k (a ++ x :: b) ->
  exists h, remove_at_m s k (length a) = Ok (hset (wrow s k (a ++ b)) h) /\ inv t ob (hset (wrow s k (a ++ b)) h).
Proof.
  intros I R. unfold remove_at_m. rewrite (row_size _ _ _ R). rewrite app_length. cbn [length].
  replace (length a + S (length b) <=? length a) with false by (symmetry; apply Nat.leb_gt; lia).
  assert (G := get_row _ _ _ (length a) x R (nth_mid a x b _ eq_refl)). rewrite G. cbn [bind]. cbv zeta.
  assert (S1 : exists h, match x with Some o => dec (set s (E k (length a)) None) false o | None => Ok (set s (E k (length a)) None) end = Ok (hset (set s (E k (length a)) None) h) /\ inv t ob (hset (set s (E k (length a)) None) h)).
  { destruct x as [o|].
    - destruct (drop t ob _ false o (take_out t ob s _ o I G)) as (h & D & I2). exists h. auto.
    - exists (heap s). assert (Q := set_same _ _ _ G). rewrite Q, hset_self. auto. }
  destruct S1 as (h & -> & I1). cbn [bind]. rewrite (set_row s k _ _ _ R) in *. rewrite upd_mid in * by reflexivity.
  assert (R1 : row (hset (wrow s k (a ++ None :: b)) h) k (a ++ None :: b)) by (apply row_hset; eapply row_wrow; eauto).
  rewrite (row_size _ _ _ R1), app_length. cbn [length]. replace (length a + S (length b) - 1 - length a) with (length b) by lia.
  destruct (shift_down_ok t ob k b a _ I1 R1) as (h2 & -> & I2). cbn [bind]. rewrite wrow_hset, hset_hset, wrow_wrow in *.
  assert (R2 : row (hset (wrow s k (a ++ b ++ [None])) h2) k (a ++ b ++ [None])) by (apply row_hset; eapply row_wrow; eauto).
  exists h2. unfold pop_back. rewrite (row_nth _ _ _ R2). rewrite app_assoc, removelast_last.
  change (mkSt (heap (hset (wrow s k ((a ++ b) ++ [None])) h2)) (vars (hset (wrow s k ((a ++ b) ++ [None])) h2)) (upd (vecs (hset (wrow s k ((a ++ b) ++ [None])) h2)) k (a ++ b))) with (wrow (hset (wrow s k ((a ++ b) ++ [None])) h2) k (a ++ b)).
  rewrite wrow_hset, wrow_wrow. split; [reflexivity|].
  replace (hset (wrow s k (a ++ b)) h2) with (wrow (hset (wrow s k (a ++ b ++ [None])) h2) k (a ++ b)) by (rewrite wrow_hset, wrow_wrow; reflexivity).
  eapply inv_row; [exact R2| |exact I2]. intros o. rewrite app_assoc, count_none. reflexivity.
Qed.
Lemma split_at {A} (l : list A) n : n < length l -> exists x, nth_error l n = Some x /\ l = firstn n l ++ x :: skipn (S n) l /\ length (firstn n l) = n.
Proof.
  intros H. destruct (nth_error l n) as [x|] eqn:Q; [|apply nth_error_None in Q; lia]. exists x. split; [reflexivity|]. split; [|rewrite firstn_length; lia].
  rewrite <- (firstn_skipn n l) at 1. f_equal. revert n H Q. induction l as [|y l IH]; intros [|n] H Q; cbn in *; try lia; [congruence|]. apply IH; [lia|exact Q].
Qed.
Lemma remove_at_list t ob k l n s : inv t ob s -> row s k (map Some l) ->
  exists h, remove_at_m s k n = Ok (hset (wrow s k (map Some (remove_at n l))) h) /\ inv t ob (hset (wrow s k (map Some (remove_at n l))) h).
Proof.
  intros I R. unfold remove_at. destruct (Nat.lt_ge_cases n (length l)) as [Ln|Ln].
  - destruct (split_at l n Ln) as (x & Q & Sp & Lf). rewrite Sp in R. rewrite map_app in R. cbn [map] in R.
    destruct (remove_at_ok t ob k _ _ _ s I R) as (h & M & I2). rewrite map_length, Lf in M. exists h. rewrite map_app. auto.
  - exists (heap s). rewrite firstn_all2 by lia. rewrite skipn_all2 by lia. rewrite app_nil_r. rewrite (wrow_same _ _ _ R), hset_self. split; [|exact I].
    unfold remove_at_m. rewrite (row_size _ _ _ R), map_length. replace (length l <=? n) with true by (symmetry; apply Nat.leb_le; lia). reflexivity.
Qed.
Lemma firstn_S_nth {A} (l : list A) n x : nth_error l n = Some x -> firstn (S n) l = firstn n l ++ [x] /\ skipn n l = x :: skipn (S n) l.
Proof.
  revert n. induction l as [|y l IH]; intros [|n] Q; cbn in Q; try discriminate.
  - injection Q as ->. auto.
  - destruct (IH n Q) as (A1 & A2). cbn [firstn skipn app]. cbn [firstn] in A1. rewrite A1. split; [reflexivity|exact A2].
Qed.
Lemma remove_loop_ok t ob k o : forall n l s, inv t ob s -> row s k (map Some l) -> n <= length l ->
  let l' := filter (fun x => negb (x =? o)) (firstn n l) ++ skipn n l in
  exists h, remove_loop s k o n = Ok (hset (wrow s k (map Some l')) h) /\ inv t ob (hset (wrow s k (map Some l')) h).
Proof.
  induction n as [|n IH]; intros l s I R Ln.
  - exists (heap s). cbn [firstn filter skipn app]. rewrite (wrow_same _ _ _ R), hset_self. auto.
  - cbn [remove_loop]. destruct (nth_error l n) as [x|] eqn:Q; [|apply nth_error_None in Q; lia].
    rewrite (get_row _ _ _ n (Some x) R) by (rewrite nth_error_map, Q; reflexivity). cbn [bind].
    destruct (firstn_S_nth _ _ _ Q) as (F & K). rewrite F, filter_app. cbn [filter]. destruct (Nat.eqb_spec x o) as [->|Nx]; cbn [negb].
    + destruct (remove_at_list t ob k l n s I R) as (h & -> & I1). cbn [bind].
      destruct (IH (remove_at n l) (hset (wrow s k (map Some (remove_at n l))) h) I1) as (h2 & M & I2).
      { apply row_hset. eapply row_wrow; eauto. }
      { unfold remove_at. rewrite app_length, firstn_length, skipn_length. lia. }
      rewrite M, wrow_hset, wrow_wrow, hset_hset in *. exists h2.
      assert (E1 : firstn n (remove_at n l) = firstn n l). { unfold remove_at. rewrite firstn_app, firstn_firstn, Nat.min_id, firstn_length. replace (n - Nat.min n (length l)) with 0 by lia. cbn [firstn]. apply app_nil_r. }
      assert (E2 : skipn n (remove_at n l) = skipn (S n) l). { unfold remove_at. rewrite skipn_app, skipn_all2 by (rewrite firstn_length; lia). rewrite firstn_length. replace (n - Nat.min n (length l)) with 0 by lia. reflexivity. }
      rewrite E1, E2 in *. rewrite app_nil_r. auto.
    + cbn [bind]. destruct (IH l s I R ltac:(lia)) as (h & M & I2). exists h. rewrite <- app_assoc. cbn [app]. rewrite <- K. auto.
Qed.
Lemma clear_ok t own k : forall b a ob s, inv t ob s -> row s k (a ++ map Some b) ->
  let ob' := if own : bool then fold_left (fun q o => asked true q o) b ob else ob in
  exists h, clear_loop s k (length a) (length b) own = Ok (hset (wrow s k (a ++ map (fun _ => None) b)) h) /\ inv t ob' (hset (wrow s k (a ++ map (fun _ => None) b)) h).
Proof.
  induction b as [|o b IH]; intros a ob s I R.
  - exists (heap s). cbn [map] in *. cbn [length clear_loop]. rewrite (wrow_same _ _ _ R), hset_self. destruct own; auto.
  - cbn [length clear_loop map] in *. assert (G := get_row _ _ _ (length a) (Some o) R (nth_mid a _ _ _ eq_refl)). rewrite G. cbn [bind]. cbv zeta.
    destruct (drop t ob _ own o (take_out t ob s _ o I G)) as (h & D & I2). rewrite D. cbn [bind].
    change (mkSt h (vars (set s (E k (length a)) None)) (vecs (set s (E k (length a)) None))) with (hset (set s (E k (length a)) None) h) in *.
    rewrite (set_row s k _ _ _ R) in *. rewrite upd_mid in * by reflexivity.
    destruct (IH (a ++ [None]) _ _ I2) as (h2 & M & I3).
    { apply row_hset. rewrite <- app_assoc. cbn [app]. eapply row_wrow; eauto. }
    replace (S (length a)) with (length (a ++ [@None nat])) by (rewrite app_length; cbn [length]; lia). rewrite M, wrow_hset, wrow_wrow, hset_hset in *.
    exists h2. rewrite <- app_assoc in *. cbn [app] in *. split; [reflexivity|]. destruct own; exact I3.
Qed.

(* the model follows the specification *)
Definition R (sp : spec) (s : st) : Prop := inv [] (sp_objs sp) s /\ vars s = sp_vars sp /\ vecs s = map (map Some) (sp_vecs sp).
Lemma map_upd {A B} (f : A -> B) l : forall i x, map f (upd l i x) = upd (map f l) i (f x).
Proof. induction l as [|y l IH]; intros [|i] x; cbn [upd map]; auto. rewrite IH. reflexivity. Qed.
Lemma R_row sp s k : R sp s -> k < length (sp_vecs sp) -> row s k (map Some (vec sp k)).
Proof. intros (_ & _ & Q) L. unfold row, vec. rewrite Q, nth_error_map. rewrite (nth_error_nth' _ [] L). reflexivity. Qed.
Lemma R_get sp s v : R sp s -> v < length (sp_vars sp) -> get s (V v) = Ok (var sp v).
Proof. intros (_ & Q & _) L. cbn [get]. rewrite Q. unfold var. rewrite (nth_error_nth' _ None L). reflexivity. Qed.
Lemma R_intro ob sp s h : inv [] ob (hset s h) -> ob = sp_objs sp -> vars s = sp_vars sp -> vecs s = map (map Some) (sp_vecs sp) -> R sp (hset s h).
Proof. intros I -> Q1 Q2. split; [exact I|]. auto. Qed.
Lemma vecs_set_v s v x : vecs (set s (V v) x) = vecs s. Proof. reflexivity. Qed.
Lemma count_map_some l o : cv (map Some l) (Some o) = cn l o.
Proof. induction l as [|x l IH]; cbn [map count_occ]; [reflexivity|]. destruct (option_eq_dec (Some x) (Some o)), (Nat.eq_dec x o); try congruence; lia. Qed.
Lemma R_uses sp s o : R sp s -> total [] s o = uses sp o.
Proof.
  intros (_ & Q1 & Q2). unfold total, refs, uses. rewrite Q1, Q2, count_occ_app. cbn [count_occ]. 
  assert (X : cv (concat (map (map Some) (sp_vecs sp))) (Some o) = cn (concat (sp_vecs sp)) o); [|lia].
  clear Q2. induction (sp_vecs sp) as [|l ll IH]; cbn [map concat]; [reflexivity|]. rewrite !count_occ_app, count_map_some, IH. reflexivity.
Qed.
Lemma R_alive sp s o : R sp s -> (alive sp o <-> exists x, nth_error (heap s) o = Some (Some x)).
Proof.
  intros Rr. assert (U := R_uses _ _ o Rr). destruct Rr as ((L & I) & _). specialize (I o). unfold alive. rewrite <- U. split.
  - intros (Lo & H). rewrite (nth_error_nth' _ (false, false) Lo) in I. rewrite I. unfold shows. destruct H as [H|H].
    + replace (total [] s o =? 0) with false by (symmetry; apply Nat.eqb_neq; lia). cbn [andb]. eauto.
    + rewrite H. cbn [fst snd orb]. rewrite andb_false_r. eauto.
  - intros (x & Ex). assert (Lo : o < length (sp_objs sp)) by (rewrite <- L; apply nth_error_Some; congruence). split; [exact Lo|].
    rewrite (nth_error_nth' _ (false, false) Lo), Ex in I. unfold shows in I. destruct (nth o (sp_objs sp) (false, false)) as (a, r); cbn [fst snd] in I.
    destruct (Nat.eqb_spec (total [] s o) 0); [|left; lia]. destruct a, r; cbn in I; try discriminate. auto.
Qed.
Lemma count_fresh sp s : R sp s -> cv (refs s) (Some (length (heap s))) = 0.
Proof.
  intros ((L & I) & _). specialize (I (length (heap s))). destruct (nth_error (sp_objs sp) (length (heap s))) eqn:Q.
  - assert (length (heap s) < length (sp_objs sp)) by (apply nth_error_Some; congruence). lia.
  - unfold total in I. cbn [count_occ] in I. lia.
Qed.

Lemma step_new sp s v a : R sp s -> v < length (sp_vars sp) -> exists s', step s (New v a) = Ok s' /\ R (spec_step sp (New v a)) s'.
Proof.
  intros Rr L. assert (Fr := count_fresh _ _ Rr). assert (G := R_get _ _ _ Rr L). destruct Rr as ((Lh & I) & Q1 & Q2). cbn [step spec_step]. unfold new_obj. cbv zeta. unfold inc. cbn [heap].
  assert (Ne : nth_error (heap s ++ [Some (mkO 0 Normal a)]) (length (heap s)) = Some (Some (mkO 0 Normal a))) by (apply nth_mid; reflexivity).
  rewrite Ne. cbn [bind]. unfold set_obj. cbn [heap vars vecs o_cnt o_st o_auto]. rewrite upd_mid by reflexivity.
  set (s1 := mkSt (heap s ++ [Some (mkO 1 Normal a)]) (vars s) (vecs s)).
  assert (I1 : inv [length (heap s)] (sp_objs sp ++ [(a, false)]) s1).
  { split; [cbn [heap s1]; rewrite !app_length, Lh; reflexivity|]. intros o. specialize (I o). unfold total in *. change (refs s1) with (refs s). cbn [count_occ] in *. cbn [heap s1].
    destruct (Nat.lt_trichotomy o (length (heap s))) as [Lo|[->|Lo]].
    - rewrite !nth_error_app1 by lia. destruct (Nat.eq_dec (length (heap s)) o); [lia|]. exact I.
    - rewrite (nth_mid (heap s)) by reflexivity. rewrite Lh, (nth_mid (sp_objs sp)) by reflexivity. rewrite <- Lh. destruct (Nat.eq_dec (length (heap s)) (length (heap s))); [|congruence]. rewrite Fr. reflexivity.
    - rewrite (proj2 (nth_error_None (sp_objs sp ++ [(a, false)]) o)) by (rewrite app_length; cbn [length]; lia).
      rewrite (proj2 (nth_error_None (sp_objs sp) o)) in I by lia. destruct (Nat.eq_dec (length (heap s)) o); [lia|]. exact I. }
  destruct (move_temp_ok [] _ s1 (V v) (var sp v) (Some (length (heap s))) I1) as (h & M & I2); [exact G|].
  rewrite M. eexists. split; [reflexivity|]. apply (R_intro _ _ _ _ I2); [reflexivity| |exact Q2]. cbn [set vars s1 sp_vars]. rewrite Q1, Lh. reflexivity.
Qed.

Lemma var_upd sp v x : sp_vars (set_var sp v x) = upd (sp_vars sp) v x. Proof. reflexivity. Qed.
Lemma spec_release_null sp v : v < length (sp_vars sp) -> var sp v = None -> set_var sp v None = sp.
Proof.
  intros L Q. destruct sp as [a b c]. unfold set_var, var in *. cbn [sp_vars sp_objs sp_vecs] in *. rewrite upd_same; [reflexivity|]. rewrite (nth_error_nth' _ None L), Q. reflexivity.
Qed.
Lemma step_rel sp s v : R sp s -> v < length (sp_vars sp) -> exists s', rel false s (V v) = Ok s' /\ R (set_var sp v None) s'.
Proof.
  intros Rr L. assert (G := R_get _ _ _ Rr L). destruct Rr as (I & Q1 & Q2). destruct (rel_ok [] _ s false (V v) _ I G) as (h & M & I2). rewrite M. eexists. split; [reflexivity|].
  assert (Q : rel_asked false (sp_objs sp) (var sp v) = sp_objs sp) by (destruct (var sp v); reflexivity). rewrite Q in I2.
  apply (R_intro _ _ _ _ I2); [reflexivity| |exact Q2]. cbn [set vars set_var sp_vars]. rewrite Q1. reflexivity.
Qed.
Lemma R_move_temp t sp s v x : match x with Some o => inv (o :: t) (sp_objs sp) s | None => inv t (sp_objs sp) s end -> t = [] -> vars s = sp_vars sp -> vecs s = map (map Some) (sp_vecs sp) -> v < length (sp_vars sp) ->
  exists s', move_temp s (V v) x = Ok s' /\ R (set_var sp v x) s'.
Proof.
  intros I -> Q1 Q2 L. destruct (get_valid s (V v)) as (y & G); [cbn [valid]; rewrite Q1; exact L|]. destruct (move_temp_ok [] _ s (V v) y x I G) as (h & M & I2).
  rewrite M. eexists. split; [reflexivity|]. apply (R_intro _ _ _ _ I2); [reflexivity| |exact Q2]. cbn [set vars set_var sp_vars]. rewrite Q1. reflexivity.
Qed.
Lemma push_ok t ob s k r : inv t ob s -> row s k r -> push_null s k = wrow s k (r ++ [None]) /\ inv t ob (wrow s k (r ++ [None])).
Proof.
  intros I Q. split; [unfold push_null; rewrite (row_nth _ _ _ Q); reflexivity|]. eapply inv_row; [exact Q| |exact I]. intros o. apply count_none.
Qed.
Lemma step_add sp s k v o (a b : list nat) (s0 : st) (h0 : list (option obj)) : R sp s -> k < length (sp_vecs sp) -> v < length (sp_vars sp) -> var sp v = Some o ->
  s0 = hset (wrow s k (map Some a ++ None :: map Some b)) h0 -> inv [] (sp_objs sp) s0 ->
  exists s', move s0 (E k (length a)) (V v) = Ok s' /\ R (set_var (set_vec sp k (a ++ o :: b)) v None) s'.
Proof.
  intros Rr Lk Lv Q -> I. assert (G := R_get _ _ _ Rr Lv). assert (Rw := R_row _ _ _ Rr Lk). rewrite Q in G.
  set (s0 := hset (wrow s k (map Some a ++ None :: map Some b)) h0) in *.
  assert (Rs : row s0 k (map Some a ++ None :: map Some b)) by (apply row_hset; eapply row_wrow; eauto).
  destruct (move_ok [] (sp_objs sp) s0 (E k (length a)) (V v) None (Some o)) as (h & M & I2); auto; [congruence| |].
  { eapply get_row; [exact Rs|]. apply nth_mid. rewrite map_length. reflexivity. }
  rewrite M. eexists. split; [reflexivity|]. apply (R_intro _ _ _ _ I2); [reflexivity| |].
  - destruct Rr as (_ & Q1 & _). cbn [set vars s0 hset wrow set_var set_vec sp_vars]. rewrite Q1. reflexivity.
  - destruct Rr as (_ & _ & Q2). rewrite (set_row _ k (map Some a ++ None :: map Some b)) by exact Rs. rewrite upd_mid by (rewrite map_length; reflexivity).
    cbn [wrow vecs set s0 hset set_var set_vec sp_vecs]. rewrite upd_upd, map_upd, map_app, Q2. reflexivity.
Qed.
Lemma add_ok sp s k v : R sp s -> k < length (sp_vecs sp) -> v < length (sp_vars sp) -> exists s', step s (Add k v) = Ok s' /\ R (spec_step sp (Add k v)) s'.
Proof.
  intros Rr Lk Lv. cbn [step spec_step]. unfold add. rewrite (R_get _ _ _ Rr Lv). cbn [bind]. destruct (var sp v) as [o|] eqn:Q; [|eauto].
  assert (Rw := R_row _ _ _ Rr Lk). assert (I := proj1 Rr). destruct (push_ok _ _ _ _ _ I Rw) as (P & I1). cbv zeta. rewrite P.
  assert (Sz : size (wrow s k (map Some (vec sp k) ++ [None])) k - 1 = length (vec sp k)).
  { rewrite (row_size _ _ (map Some (vec sp k) ++ [None])) by (eapply row_wrow; eauto). rewrite app_length, map_length. cbn [length]. lia. }
  rewrite Sz. apply (step_add sp s k v o (vec sp k) [] _ (heap s)); auto.
Qed.
Lemma add_at_ok sp s k v pos : R sp s -> k < length (sp_vecs sp) -> v < length (sp_vars sp) -> exists s', step s (AddAt k v pos) = Ok s' /\ R (spec_step sp (AddAt k v pos)) s'.
Proof.
  intros Rr Lk Lv. cbn [step spec_step]. unfold add_at. rewrite (R_get _ _ _ Rr Lv). cbn [bind]. destruct (var sp v) as [o|] eqn:Q; [|eauto].
  assert (Rw := R_row _ _ _ Rr Lk). assert (I := proj1 Rr). destruct (push_ok _ _ _ _ _ I Rw) as (P & I1). cbv zeta. rewrite P.
  assert (Sz : size (wrow s k (map Some (vec sp k) ++ [None])) k = S (length (vec sp k))).
  { rewrite (row_size _ _ (map Some (vec sp k) ++ [None])) by (eapply row_wrow; eauto). rewrite app_length, map_length. cbn [length]. lia. }
  rewrite Sz. cbn [Nat.sub]. rewrite Nat.sub_0_r. destruct (Nat.leb_spec (S (length (vec sp k))) pos) as [Lp|Lp].
  - unfold insert_at. rewrite firstn_all2 by lia. rewrite skipn_all2 by lia. apply (step_add sp s k v o (vec sp k) [] _ (heap s)); auto.
  - unfold insert_at. set (a := firstn pos (vec sp k)). set (b := skipn pos (vec sp k)).
    assert (La : length a = pos) by (unfold a; rewrite firstn_length; lia). assert (Lab : length (vec sp k) = length a + length b) by (unfold a, b; rewrite firstn_length, skipn_length; lia).
    assert (Sp : vec sp k = a ++ b) by (symmetry; apply firstn_skipn). rewrite Lab. rewrite Sp, map_app in I1. rewrite Sp, map_app.
    assert (Rs : row (wrow s k ((map Some a ++ map Some b) ++ [None])) k (map Some a ++ map Some b ++ None :: [])) by (rewrite <- app_assoc; eapply row_wrow; eauto).
    destruct (shift_up_ok [] _ k (map Some a) (map Some b) [] _ I1 Rs) as (h & M & I2). rewrite !map_length, La in M. rewrite La, M. cbn [bind]. rewrite wrow_wrow, app_nil_r in *.
    rewrite <- La. eapply (step_add sp s k v o a b); eauto.
Qed.
Lemma set_vec_R sp s k l h : R sp s -> k < length (sp_vecs sp) -> inv [] (sp_objs sp) (hset (wrow s k (map Some l)) h) -> R (set_vec sp k l) (hset (wrow s k (map Some l)) h).
Proof.
  intros (_ & Q1 & Q2) L I. apply (R_intro _ _ _ _ I); [reflexivity|exact Q1|]. cbn [wrow vecs set_vec sp_vecs]. rewrite map_upd, Q2. reflexivity.
Qed.
Lemma extract_ok sp s k n v o : R sp s -> k < length (sp_vecs sp) -> v < length (sp_vars sp) -> nth_error (vec sp k) n = Some o ->
  exists s', extract s k n (V v) = Ok s' /\ R (set_var (set_vec sp k (remove_at n (vec sp k))) v (Some o)) s'.
Proof.
  intros Rr Lk Lv Q. assert (Ln : n < length (vec sp k)) by (apply nth_error_Some; congruence). assert (Rw := R_row _ _ _ Rr Lk). assert (G := R_get _ _ _ Rr Lv).
  unfold extract. rewrite (row_size _ _ _ Rw), map_length. replace (length (vec sp k) <=? n) with false by (symmetry; apply Nat.leb_gt; lia).
  destruct (split_at _ _ Ln) as (x & Q' & Sp & Lf). assert (x = o) by congruence. subst x.
  destruct (move_ok [] (sp_objs sp) s (V v) (E k n) (var sp v) (Some o)) as (h & M & I2); [congruence|apply Rr|exact G|eapply get_row; [exact Rw|]; rewrite nth_error_map, Q; reflexivity|].
  rewrite M. cbn [bind]. rewrite (set_row s k _ _ _ Rw) in *. set (a := firstn n (vec sp k)) in *. set (b := skipn (S n) (vec sp k)) in *.
  assert (U : upd (map Some (vec sp k)) n None = map Some a ++ None :: map Some b).
  { rewrite Sp, map_app. cbn [map]. apply upd_mid. rewrite map_length. auto. }
  rewrite U in *.
  destruct (remove_at_ok [] _ k (map Some a) None (map Some b) _ I2) as (h2 & M2 & I3).
  { apply row_hset. change (row (wrow s k (map Some a ++ None :: map Some b)) k (map Some a ++ None :: map Some b)). eapply row_wrow; eauto. }
  rewrite map_length, Lf in M2. rewrite M2. eexists. split; [reflexivity|]. apply (R_intro _ _ _ _ I3); [reflexivity| |]; destruct Rr as (_ & Q1 & Q2).
  - cbn. rewrite Q1. reflexivity.
  - cbn [wrow vecs set hset set_var set_vec sp_vecs]. rewrite upd_upd, map_upd, Q2. unfold remove_at. fold a b. rewrite map_app. reflexivity.
Qed.
Lemma extract_loop_ok sp s k v o : R sp s -> k < length (sp_vecs sp) -> v < length (sp_vars sp) -> forall b a, vec sp k = a ++ b -> 
  exists s', extract_loop s k o (length a) (length b) (V v) = Ok s' /\
    R (match index_of o b with Some m => set_var (set_vec sp k (remove_at (length a + m) (vec sp k))) v (Some o) | None => sp end) s'.
Proof.
  intros Rr Lk Lv. assert (Rw := R_row _ _ _ Rr Lk). induction b as [|x b IH]; intros a Sp; cbn [length extract_loop index_of]; [eauto|].
  assert (Q : nth_error (vec sp k) (length a) = Some x) by (rewrite Sp; apply nth_mid; reflexivity).
  rewrite (get_row _ _ _ _ (Some x) Rw) by (rewrite nth_error_map, Q; reflexivity). cbn [bind]. destruct (Nat.eqb_spec x o) as [->|Nx].
  - rewrite Nat.add_0_r. apply extract_ok; assumption.
  - destruct (IH (a ++ [x])) as (s' & M & I); [rewrite <- app_assoc; exact Sp|]. rewrite app_length in M, I. cbn [length] in M, I. replace (length a + 1) with (S (length a)) in M by lia.
    exists s'. split; [exact M|]. destruct (index_of o b) as [m|]; cbn [option_map]; [|exact I]. replace (length a + S m) with (length a + 1 + m) by lia. exact I.
Qed.
Lemma index_of_nth o l n : index_of o l = Some n -> nth_error l n = Some o.
Proof.
  revert n. induction l as [|x l IH]; intros n; cbn [index_of]; [discriminate|]. destruct (Nat.eqb_spec x o) as [->|N]; [intros H; injection H as <-; reflexivity|].
  destruct (index_of o l); cbn [option_map]; [|discriminate]. intros H. injection H as <-. apply IH. reflexivity.
Qed.
Lemma fold_request l : forall sp, fold_left request l sp = mkSp (fold_left (fun q o => asked true q o) l (sp_objs sp)) (sp_vars sp) (sp_vecs sp).
Proof. induction l as [|o l IH]; intros sp; cbn [fold_left]; [destruct sp; reflexivity|]. rewrite IH. reflexivity. Qed.
Lemma count_nones (b : list nat) o : cv (map (fun _ => None) b) (Some o) = 0.
Proof. induction b as [|x b IH]; cbn [map count_occ]; [reflexivity|]. destruct (option_eq_dec None (Some o)); [discriminate|exact IH]. Qed.

Theorem step_ok sp s c : R sp s -> op_ok sp c -> exists s', step s c = Ok s' /\ R (spec_step sp c) s'.
Proof.
  intros Rr H. destruct c as [v a|v w|v o|v o|v w|v w|v|v|k v|k v pos|k o|k n|k n v|k o v|k v|k n v|k own]; cbn [op_ok] in H.
  - apply step_new; assumption.
  - destruct H as (Lv & Lw & N). assert (Rr' := Rr). destruct Rr' as (I & Q1 & Q2). cbn [step spec_step].
    destruct (assign_ok [] _ s (V v) (V w) _ _ ltac:(congruence) I (R_get _ _ _ Rr Lv) (R_get _ _ _ Rr Lw)) as (h & M & I2). rewrite M. eexists. split; [reflexivity|].
    apply (R_intro _ _ _ _ I2); [reflexivity| |exact Q2]. cbn [set vars set_var sp_vars]. rewrite Q1. reflexivity.
  - destruct H as (Lv & A & N). assert (Rr' := Rr). destruct Rr' as (I & Q1 & Q2). cbn [step spec_step].
    destruct (point_ok [] _ s (V v) o _ I (R_get _ _ _ Rr Lv) N (proj1 (R_alive _ _ _ Rr) A)) as (h & M & I2 & _). rewrite M. eexists. split; [reflexivity|].
    apply (R_intro _ _ _ _ I2); [reflexivity| |exact Q2]. cbn [set vars set_var sp_vars]. rewrite Q1. reflexivity.
  - destruct H as (Lv & A & N). assert (Rr' := Rr). destruct Rr' as (I & Q1 & Q2). cbn [step spec_step].
    destruct (point_ok [] _ s (V v) o _ I (R_get _ _ _ Rr Lv) N (proj1 (R_alive _ _ _ Rr) A)) as (h & _ & I2 & M). rewrite M. eexists. split; [reflexivity|].
    apply (R_intro _ _ _ _ I2); [reflexivity| |exact Q2]. cbn [set vars set_var sp_vars]. rewrite Q1. reflexivity.
  - destruct H as (Lv & Lw & N). assert (Rr' := Rr). destruct Rr' as (I & Q1 & Q2). cbn [step spec_step].
    destruct (move_ok [] _ s (V v) (V w) _ _ ltac:(congruence) I (R_get _ _ _ Rr Lv) (R_get _ _ _ Rr Lw)) as (h & M & I2). rewrite M. eexists. split; [reflexivity|].
    apply (R_intro _ _ _ _ I2); [reflexivity| |exact Q2]. cbn [set vars set_var sp_vars]. rewrite Q1. reflexivity.
  - destruct H as (Lv & Lw). assert (G := R_get _ _ _ Rr Lw). destruct Rr as (I & Q1 & Q2). cbn [step spec_step]. unfold take_to. rewrite G. cbn [bind].
    apply (R_move_temp [] (set_var sp w None)); [|reflexivity| |exact Q2|cbn [set_var sp_vars]; rewrite upd_length; exact Lv].
    + cbn [set_var sp_objs]. destruct (var sp w); [apply take_out|apply set_none]; assumption.
    + cbn [set vars set_var sp_vars]. rewrite Q1. reflexivity.
  - cbn [step spec_step]. apply step_rel; assumption.
  - cbn [step spec_step]. assert (G := R_get _ _ _ Rr H). destruct Rr as (I & Q1 & Q2). destruct (rel_ok [] _ s true (V v) _ I G) as (h & M & I2). rewrite M. eexists. split; [reflexivity|].
    destruct (var sp v) as [o|] eqn:Q; cbn [rel_asked] in I2.
    + apply (R_intro _ _ _ _ I2); [reflexivity| |exact Q2]. cbn [set vars set_var sp_vars request]. rewrite Q1. reflexivity.
    + rewrite <- (spec_release_null sp v H Q). apply (R_intro _ _ _ _ I2); [reflexivity| |exact Q2]. cbn [set vars set_var sp_vars request]. rewrite Q1. reflexivity.
  - apply add_ok; tauto.
  - apply add_at_ok; tauto.
  - assert (Rw := R_row _ _ _ Rr H). cbn [step spec_step]. rewrite (row_size _ _ _ Rw), map_length.
    destruct (remove_loop_ok [] _ k o (length (vec sp k)) _ s (proj1 Rr) Rw (le_n _)) as (h & M & I). rewrite firstn_all, skipn_all, app_nil_r in *.
    rewrite M. eexists. split; [reflexivity|]. apply set_vec_R; assumption.
  - assert (Rw := R_row _ _ _ Rr H). cbn [step spec_step]. destruct (remove_at_list [] _ k _ n s (proj1 Rr) Rw) as (h & M & I).
    rewrite M. eexists. split; [reflexivity|]. apply set_vec_R; assumption.
  - destruct H as (Lk & Lv). cbn [step spec_step]. destruct (nth_error (vec sp k) n) as [o|] eqn:Q; [apply extract_ok; assumption|].
    apply nth_error_None in Q. unfold extract. rewrite (row_size _ _ _ (R_row _ _ _ Rr Lk)), map_length. replace (length (vec sp k) <=? n) with true by (symmetry; apply Nat.leb_le; lia). eauto.
  - destruct H as (Lk & Lv). cbn [step spec_step]. rewrite (row_size _ _ _ (R_row _ _ _ Rr Lk)), map_length. apply (extract_loop_ok sp s k v o Rr Lk Lv (vec sp k) [] eq_refl).
  - destruct H as (Lk & Lv). cbn [step spec_step]. assert (Rw := R_row _ _ _ Rr Lk). unfold take_last. rewrite (row_size _ _ _ Rw), map_length.
    destruct (Nat.ltb_spec 0 (length (vec sp k))) as [L0|L0].
    + destruct (nth_error (vec sp k) (length (vec sp k) - 1)) as [o|] eqn:Q; [|apply nth_error_None in Q; lia].
      assert (G : get s (E k (length (vec sp k) - 1)) = Ok (Some o)) by (eapply get_row; [exact Rw|]; rewrite nth_error_map, Q; reflexivity). rewrite G. cbn [bind].
      assert (Sp : exists a, vec sp k = a ++ [o] /\ length a = length (vec sp k) - 1).
      { destruct (split_at (vec sp k) (length (vec sp k) - 1) ltac:(lia)) as (x & Q' & Sp & Lf). exists (firstn (length (vec sp k) - 1) (vec sp k)). split; [|exact Lf].
        rewrite skipn_all2 in Sp by lia. congruence. }
      destruct Sp as (a & Sp & La). assert (I1 := take_out [] _ _ _ _ (proj1 Rr) G). rewrite (set_row s k _ _ _ Rw) in *. rewrite Sp, map_app in I1 |- *. cbn [map] in I1 |- *.
      rewrite app_length in *. cbn [length] in *. replace (length a + 1 - 1) with (length a) in * by lia. rewrite upd_mid in * by (rewrite map_length; reflexivity).
      assert (R1 : row (wrow s k (map Some a ++ [None])) k (map Some a ++ [None])) by (eapply row_wrow; eauto).
      assert (P : pop_back (wrow s k (map Some a ++ [None])) k = wrow s k (map Some a)).
      { unfold pop_back. rewrite (row_nth _ _ _ R1), removelast_last. apply (wrow_wrow s k). }
      rewrite P. rewrite removelast_last. apply (R_move_temp [] (set_vec sp k a)); [|reflexivity|apply Rr| |exact Lv].
      * rewrite <- P. unfold pop_back. rewrite (row_nth _ _ _ R1), removelast_last. eapply inv_row; [exact R1| |exact I1]. intros p. rewrite count_none. reflexivity.
      * destruct Rr as (_ & _ & Q2). cbn [wrow vecs set_vec sp_vecs]. rewrite map_upd, Q2. reflexivity.
    + assert (Q : vec sp k = []) by (destruct (vec sp k); [reflexivity|cbn in L0; lia]). rewrite Q. cbn [length nth_error Nat.sub removelast]. 
      apply (R_move_temp [] (set_vec sp k [])); [apply Rr|reflexivity|apply Rr| |exact Lv]. destruct Rr as (_ & _ & Q2). cbn [set_vec sp_vecs]. rewrite map_upd, <- Q2. symmetry. apply upd_same.
      unfold row in Rw. rewrite Rw, Q. reflexivity.
  - destruct H as (Lk & Lv). cbn [step spec_step]. assert (Rw := R_row _ _ _ Rr Lk). unfold get_ref. rewrite (row_size _ _ _ Rw), map_length. destruct (Nat.ltb_spec n (length (vec sp k))) as [Ln|Ln].
    + destruct (nth_error (vec sp k) n) as [o|] eqn:Q; [|apply nth_error_None in Q; lia].
      assert (G : get s (E k n) = Ok (Some o)) by (eapply get_row; [exact Rw|]; rewrite nth_error_map, Q; reflexivity). rewrite G. cbn [bind].
      assert (I := proj1 Rr). destruct (grab [] _ s o I (used_alive _ _ _ _ I (get_used [] _ _ _ G))) as (h1 & -> & I1). cbn [bind]. change (mkSt h1 (vars s) (vecs s)) with (hset s h1) in *.
      assert (Gv : get (hset s h1) (V v) = Ok (var sp v)) by (rewrite get_hset; apply R_get; assumption).
      destruct (rel_ok [o] _ _ false (V v) _ I1 Gv) as (h2 & -> & I2). cbn [bind]. rewrite set_hset, hset_hset in *.
      assert (Q0 : rel_asked false (sp_objs sp) (var sp v) = sp_objs sp) by (destruct (var sp v); reflexivity). rewrite Q0 in I2.
      destruct (grab [o] _ _ o I2) as (h3 & -> & I3). { apply (used_alive _ _ _ _ I2). unfold total. cbn [count_occ]. destruct (Nat.eq_dec o o); [lia|congruence]. }
      cbn [bind]. change (mkSt h3 (vars (hset (set s (V v) None) h2)) (vecs (hset (set s (V v) None) h2))) with (hset (set s (V v) None) h3) in *.
      assert (I4 : inv [o] (sp_objs sp) (set (hset (set s (V v) None) h3) (V v) (Some o))).
      { apply put_in; [exact I3|]. rewrite get_hset. apply (get_set_same _ _ (var sp v)). rewrite get_hset in Gv. exact Gv. }
      rewrite set_hset, set_set in *. destruct (drop [] _ _ false o I4) as (h4 & -> & I5). eexists. split; [reflexivity|].
      change (mkSt h4 (vars (hset (set s (V v) (Some o)) h3)) (vecs (hset (set s (V v) (Some o)) h3))) with (hset (set s (V v) (Some o)) h4) in *.
      apply (R_intro _ _ _ _ I5); [reflexivity| |apply Rr]. destruct Rr as (_ & Q1 & _). cbn [set vars set_var sp_vars]. rewrite Q1. reflexivity.
    + rewrite (proj2 (nth_error_None (vec sp k) n)) by lia. apply step_rel; assumption.
  - cbn [step spec_step]. assert (Rw := R_row _ _ _ Rr H). unfold clear. rewrite (row_size _ _ _ Rw), map_length.
    destruct (clear_ok [] own k (vec sp k) [] _ s (proj1 Rr) Rw) as (h & M & I). cbn [length app] in M, I. rewrite M. cbn [bind]. eexists. split; [reflexivity|].
    set (s1 := hset (wrow s k (map (fun _ => None) (vec sp k))) h) in *.
    assert (I2 : inv [] (if own then fold_left (fun q o => asked true q o) (vec sp k) (sp_objs sp) else sp_objs sp) (wrow s1 k [])).
    { eapply inv_row; [apply row_hset; eapply row_wrow; exact Rw| |exact I]. intros o. rewrite count_nones. reflexivity. }
    split; [|split].
    + destruct own; [rewrite fold_request|]; exact I2.
    + destruct own; [rewrite fold_request|]; apply Rr.
    + destruct Rr as (_ & _ & Q2). cbn [vecs s1 hset wrow]. rewrite upd_upd, Q2. destruct own; [rewrite fold_request|]; cbn [set_vec sp_vecs]; rewrite map_upd; reflexivity.
Qed.
Theorem run_ok l : forall sp s, R sp s -> ops_ok sp l -> exists s', run s l = Ok s' /\ R (fold_left spec_step l sp) s'.
Proof.
  induction l as [|c l IH]; intros sp s Rr H; cbn [run fold_left]; [eauto|]. destruct H as (H & Hl). destruct (step_ok sp s c Rr H) as (s' & -> & R'). cbn [bind]. apply IH; assumption.
Qed.
Lemma R_init nv nk : R (mkSp [] (repeat None nv) (repeat [] nk)) (init nv nk).
Proof.
  split; [|split; [reflexivity|]].
  - split; [reflexivity|]. intros o. cbn [sp_objs]. replace (nth_error (@nil (bool * bool)) o) with (@None (bool * bool)) by (destruct o; reflexivity). unfold total, refs, init. cbn [vars vecs]. rewrite count_occ_app.
    assert (A : cv (repeat None nv) (Some o) = 0) by (induction nv; cbn [repeat count_occ]; [reflexivity|]; destruct (option_eq_dec None (Some o)); [discriminate|assumption]).
    assert (B : concat (repeat (@nil (option nat)) nk) = []) by (induction nk; auto). rewrite A, B. reflexivity.
  - cbn [vecs init sp_vecs]. induction nk; cbn [repeat map]; [reflexivity|]. f_equal. assumption.
Qed.
