(* Refinement of the ring buffer to the list specification. *)
From Verif Require Import Common QueueSpec QueueModel.

Definition idx (cap t k : nat) : nat := if cap <=? t + k then t + k - cap else t + k.

Ltac idxlia := unfold idx, wrap in *;
  repeat match goal with
         | |- context [?a <=? ?b] => destruct (Nat.leb_spec a b)
         | |- context [?a =? ?b] => destruct (Nat.eqb_spec a b)
         | H : context [?a <=? ?b] |- _ => destruct (Nat.leb_spec a b)
         | H : context [?a =? ?b] |- _ => destruct (Nat.eqb_spec a b)
         end; try lia.

Lemma idx_lt cap t k : t < cap -> k <= cap -> idx cap t k < cap.
Proof. idxlia. Qed.

Lemma idx_inj cap t j k : t < cap -> j < cap -> k < cap -> idx cap t j = idx cap t k -> j = k.
Proof. idxlia. Qed.

Lemma idx_inj' cap t j k : t < cap -> 0 < j <= cap -> 0 < k <= cap -> idx cap t j = idx cap t k -> j = k.
Proof. idxlia. Qed.

Lemma wrap_idx cap t k : t < cap -> k < cap -> wrap cap (S (idx cap t k)) = idx cap t (S k).
Proof. idxlia. Qed.

Lemma wrap_tail cap t : t < cap -> wrap cap (S t) = idx cap t 1.
Proof. idxlia. Qed.

Lemma idx_shift cap t k : t < cap -> S k <= cap -> idx cap (idx cap t 1) k = idx cap t (S k).
Proof. idxlia. Qed.

Lemma idx_0 cap t : t < cap -> idx cap t 0 = t.
Proof. idxlia. Qed.

Section P.
Context {T : Type}.
Variable eqb : T -> T -> bool.
Variable rst : T -> T.
Variable canexpand isrec : bool.

Notation queue := (@queue T).

Definition holds (a : list (option T)) (t : nat) (l : list T) : Prop :=
  forall k x, nth_error l k = Some x -> nth_error a (idx (length a) t k) = Some (Some x).

Record Rep (q : queue) (s : sq T) : Prop := {
  rep_cap : capacity q = s_cap s;
  rep_init : q_init q = s_init s;
  rep_size : q_size q = length (s_items s);
  rep_le : q_size q <= capacity q;
  rep_tail : q_tail q < capacity q \/ capacity q = 0 /\ q_tail q = 0;
  rep_head : q_head q = idx (capacity q) (q_tail q) (q_size q);
  rep_cells : holds (q_arr q) (q_tail q) (s_items s) }.

Lemma rep_new cap : Rep (qnew cap) (s_new cap).
Proof.
  unfold qnew, qinit, allocate, s_new, capacity. destruct (Nat.ltb_spec 0 cap) as [H|H].
  - constructor; unfold capacity; simpl; rewrite ?repeat_length; try reflexivity; try lia.
    + idxlia.
    + intros k x Hk; destruct k; discriminate.
  - replace cap with 0 by lia. constructor; unfold capacity; simpl; auto.
    intros k x Hk; destruct k; discriminate.
Qed.

Lemma rd_ok a i x : nth_error a i = Some (Some x) -> @rd T a i = Ok x.
Proof. unfold rd; intros ->; reflexivity. Qed.

Lemma wr_ok a i v : i < length a -> @wr T a i v = Ok (upd a i (Some v)).
Proof. unfold wr; intro H. destruct (Nat.ltb_spec i (length a)); [reflexivity|lia]. Qed.

Lemma nth_some_lt {A} (l : list A) k x : nth_error l k = Some x -> k < length l.
Proof. intro H; apply nth_error_Some; congruence. Qed.

Lemma item_ok q s i x : Rep q s -> nth_error (s_items s) i = Some x -> item q i = Ok x.
Proof.
  intros R H. apply rd_ok. apply (rep_cells _ _ R) in H. exact H.
Qed.

Lemma front_ok q s x r : Rep q s -> s_items s = x :: r -> front q = Ok x.
Proof.
  intros R H. apply rd_ok.
  assert (H0 : nth_error (s_items s) 0 = Some x) by (rewrite H; reflexivity).
  apply (rep_cells _ _ R) in H0.
  destruct (rep_tail _ _ R) as [?|[E _]].
  - unfold capacity in *. rewrite idx_0 in H0 by lia. exact H0.
  - pose proof (rep_le _ _ R). rewrite (rep_size _ _ R), H in H1. simpl in H1. lia.
Qed.

(* -- pushing -- *)

Lemma cells_ok (a : list (option T)) from n : from + n <= length a -> cells a from n = Ok (firstn n (skipn from a)).
Proof. unfold cells; intro H. destruct (Nat.leb_spec (from + n) (length a)); [reflexivity|lia]. Qed.

Lemma nth_error_firstn {A} n (l : list A) i : i < n -> nth_error (firstn n l) i = nth_error l i.
Proof. revert l i; induction n as [|n IH]; intros [|x l] [|i] H; simpl; auto; try lia. apply IH; lia. Qed.

Lemma nth_error_skipn {A} n (l : list A) i : nth_error (skipn n l) i = nth_error l (n + i).
Proof. revert l; induction n as [|n IH]; intros [|x l]; simpl; auto. destruct i; auto. Qed.

Lemma copy_items_ok q s : Rep q s -> forall n k, k + n = q_size q ->
  exists c, copy_items q k n = Ok c /\ length c = n /\
    forall j x, nth_error (s_items s) (k + j) = Some x -> nth_error c j = Some (Some x).
Proof.
  intros R. induction n as [|n IH]; intros k H; simpl.
  - exists []. repeat split; auto. intros j x Hj. apply nth_some_lt in Hj. rewrite <- (rep_size _ _ R) in Hj. lia.
  - destruct (nth_error (s_items s) k) as [v|] eqn:E.
    2: { apply nth_error_None in E. rewrite <- (rep_size _ _ R) in E. lia. }
    rewrite (item_ok _ _ _ _ R E). simpl.
    destruct (IH (S k)) as (c & Hc & Hl & Hn); [lia|].
    rewrite Hc. simpl. exists (Some v :: c). repeat split; simpl; auto.
    intros [|j] x Hj; simpl.
    + rewrite Nat.add_0_r in Hj. congruence.
    + apply Hn. rewrite <- Hj. f_equal. lia.
Qed.

Lemma copy_to_ok q s : Rep q s ->
  exists c, copy_to isrec q = Ok c /\ length c = q_size q /\
    forall k x, nth_error (s_items s) k = Some x -> nth_error c k = Some (Some x).
Proof.
  intros R. unfold copy_to. destruct isrec.
  - destruct (copy_items_ok _ _ R (q_size q) 0) as (c & H1 & H2 & H3); [lia|].
    exists c; repeat split; auto.
  - pose proof (rep_size _ _ R) as Rs. pose proof (rep_le _ _ R) as Rl.
    pose proof (rep_tail _ _ R) as Rt. pose proof (rep_head _ _ R) as Rh.
    pose proof (rep_cells _ _ R) as Rc. unfold holds, capacity in *.
    destruct (Nat.ltb_spec 0 (q_size q)) as [Hs|Hs].
    2: { exists []; repeat split; simpl; try lia. intros k x Hk; apply nth_some_lt in Hk; lia. }
    destruct (Nat.ltb_spec (q_tail q) (q_head q)) as [Hc|Hc].
    + assert (Hh : q_head q = q_tail q + q_size q) by (rewrite Rh in *; idxlia).
      rewrite cells_ok by (rewrite Rh in *; idxlia).
      eexists; split; [reflexivity|]. split.
      * rewrite firstn_length, skipn_length. rewrite Rh in *; idxlia.
      * intros k x Hk. pose proof (nth_some_lt _ _ _ Hk).
        rewrite nth_error_firstn by lia. rewrite nth_error_skipn.
        rewrite <- (Rc _ _ Hk). f_equal. rewrite Rh in *; idxlia.
    + assert (Hh : q_head q + length (q_arr q) = q_tail q + q_size q) by (rewrite Rh in *; idxlia).
      rewrite !cells_ok by (rewrite Rh in *; idxlia). simpl.
      eexists; split; [reflexivity|]. split.
      * rewrite app_length, !firstn_length, skipn_length. lia.
      * intros k x Hk. pose proof (nth_some_lt _ _ _ Hk).
        assert (L : length (firstn (length (q_arr q) - q_tail q) (skipn (q_tail q) (q_arr q)))
                    = length (q_arr q) - q_tail q) by (rewrite firstn_length, skipn_length; lia).
        destruct (Nat.lt_ge_cases k (length (q_arr q) - q_tail q)).
        -- rewrite nth_error_app1 by lia. rewrite nth_error_firstn by lia. rewrite nth_error_skipn.
           rewrite <- (Rc _ _ Hk). f_equal. idxlia.
        -- rewrite nth_error_app2 by lia. rewrite L. rewrite nth_error_firstn by lia.
           rewrite <- (Rc _ _ Hk). simpl. f_equal. idxlia.
Qed.

Lemma expand_ok q s n : Rep q s ->
  exists q', expand isrec q n = Ok q' /\ Rep q' (mkS (s_items s) (s_grow (s_cap s) n) (s_init s))
             /\ capacity q < capacity q'.
Proof.
  intros R. destruct (copy_to_ok _ _ R) as (c & Hc & Hl & Hn).
  unfold expand. rewrite Hc. simpl.
  pose proof (rep_le _ _ R) as Rl.
  set (n1 := if n <=? capacity q then capacity q * 2 else n).
  assert (E : (if n1 <? 16 then 16 else n1) = s_grow (s_cap s) n).
  { unfold s_grow. rewrite <- (rep_cap _ _ R). fold n1. destruct (Nat.ltb_spec n1 16); lia. }
  assert (G : capacity q <= s_grow (s_cap s) n /\ 0 < s_grow (s_cap s) n /\ capacity q < s_grow (s_cap s) n).
  { rewrite <- E. unfold n1. destruct (Nat.leb_spec n (capacity q));
    match goal with |- context [?a <? 16] => destruct (Nat.ltb_spec a 16) end; lia. }
  change (Nat.leb (length c)) with (Nat.leb (length c)).
  fold n1. rewrite E. destruct (Nat.leb_spec (length c) (s_grow (s_cap s) n)); [|lia].
  eexists; split; [reflexivity|].
  assert (L : length (c ++ repeat None (s_grow (s_cap s) n - length c)) = s_grow (s_cap s) n)
    by (rewrite app_length, repeat_length; lia).
  split; [constructor; unfold capacity; cbn [q_arr q_size q_head q_tail q_init s_items s_cap s_init]; rewrite ?L; try lia|].
  - apply (rep_init _ _ R).
  - apply (rep_size _ _ R).
  - idxlia.
  - intros k x Hk. rewrite L. pose proof (nth_some_lt _ _ _ Hk). rewrite <- (rep_size _ _ R) in H0.
    replace (idx _ 0 k) with k by idxlia. rewrite nth_error_app1 by lia. auto.
  - unfold capacity at 2; cbn [q_arr]. rewrite L. lia.
Qed.

Lemma make_place_ok q s : Rep q s ->
  exists b q', make_place canexpand isrec q = Ok (b, q') /\
    if b then q_size q' < capacity q' /\ Rep q' (mkS (s_items s)
             (if length (s_items s) <? s_cap s then s_cap s else s_grow (s_cap s) 0) (s_init s))
             /\ ((length (s_items s) <? s_cap s) = true \/ canexpand = true)
    else q' = q /\ (length (s_items s) <? s_cap s) = false /\ canexpand = false.
Proof.
  intros R. unfold make_place. rewrite (rep_size _ _ R), (rep_cap _ _ R).
  destruct (Nat.ltb_spec (length (s_items s)) (s_cap s)).
  - exists true, q. split; [reflexivity|]. split; [|split].
    + rewrite (rep_size _ _ R), (rep_cap _ _ R); auto.
    + destruct s; exact R.
    + auto.
  - destruct canexpand eqn:CE.
    + destruct (expand_ok _ _ 0 R) as (q' & He & Re & Hlt). rewrite He. simpl.
      exists true, q'. split; [reflexivity|]. split; [|split]; auto.
      rewrite (rep_size _ _ Re); cbn [s_items]. rewrite <- (rep_size _ _ R).
      pose proof (rep_le _ _ R). lia.
    + exists false, q. auto.
Qed.

Lemma rep_push_cell q s v : Rep q s -> q_size q < capacity q ->
  Rep (mkQ (upd (q_arr q) (q_head q) (Some v)) (S (q_size q)) (wrap (capacity q) (S (q_head q))) (q_tail q) (q_init q))
      (mkS (s_items s ++ [v]) (s_cap s) (s_init s)).
Proof.
  intros R Hs. destruct (rep_tail _ _ R) as [Ht|?]; [|lia].
  constructor; unfold capacity; cbn [q_arr q_size q_head q_tail q_init s_items s_cap s_init]; rewrite ?upd_length.
  - apply (rep_cap _ _ R).
  - apply (rep_init _ _ R).
  - rewrite app_length; simpl. rewrite (rep_size _ _ R); lia.
  - exact Hs.
  - left; exact Ht.
  - rewrite (rep_head _ _ R). apply wrap_idx; auto.
  - intros k x Hk. rewrite upd_length. fold (capacity q).
    pose proof (nth_some_lt _ _ _ Hk) as Hlt. rewrite app_length in Hlt; simpl in Hlt.
    rewrite <- (rep_size _ _ R) in Hlt. rewrite (rep_head _ _ R).
    destruct (Nat.eq_dec k (q_size q)) as [->|Hne].
    + rewrite nth_error_app2 in Hk by (rewrite (rep_size _ _ R); lia).
      rewrite (rep_size _ _ R), Nat.sub_diag in Hk. inversion Hk; subst.
      apply nth_error_upd_same. fold (capacity q). apply idx_lt; lia.
    + rewrite nth_error_app1 in Hk by (rewrite <- (rep_size _ _ R); lia).
      rewrite nth_error_upd_other.
      * apply (rep_cells _ _ R) in Hk. exact Hk.
      * intro E. apply idx_inj in E; lia.
Qed.

Lemma push_ok q s v : Rep q s ->
  exists b q', push canexpand isrec q v = Ok (b, q') /\
    exists s', s_push canexpand v s = (RBool b, s') /\ Rep q' s'.
Proof.
  intros R. unfold push, s_push.
  destruct (make_place_ok _ _ R) as (b & q1 & Hm & Hb). rewrite Hm. cbn [bind].
  destruct b.
  - destruct Hb as (Hs & R1 & HC).
    assert (q_head q1 < length (q_arr q1)).
    { rewrite (rep_head _ _ R1). destruct (rep_tail _ _ R1) as [Ht|?]; [|lia]. fold (capacity q1). apply idx_lt; lia. }
    rewrite wr_ok by auto. cbn [bind]. rewrite upd_length. do 2 eexists; split; [reflexivity|].
    pose proof (rep_push_cell _ _ v R1 Hs) as Rn. cbn [s_items s_cap s_init] in Rn.
    destruct (length (s_items s) <? s_cap s).
    + eexists; split; [reflexivity|exact Rn].
    + destruct HC as [?|HC]; [discriminate|]. rewrite HC. eexists; split; [reflexivity|exact Rn].
  - destruct Hb as (-> & Hc & Hx). rewrite Hc, Hx. do 2 eexists; split; [reflexivity|].
    eexists; split; [reflexivity|auto].
Qed.

Lemma push_empty_ok q s v : Rep q s ->
  exists b q', push_empty_fill canexpand isrec q v = Ok (b, q') /\
    exists s', s_push canexpand v s = (RBool b, s') /\ Rep q' s'.
Proof.
  intros R. unfold push_empty_fill, push_empty, s_push.
  destruct (make_place_ok _ _ R) as (b & q1 & Hm & Hb). rewrite Hm. cbn [bind].
  destruct b.
  - destruct Hb as (Hs & R1 & HC).
    assert (q_head q1 < length (q_arr q1)).
    { rewrite (rep_head _ _ R1). destruct (rep_tail _ _ R1) as [Ht|?]; [|lia]. fold (capacity q1). apply idx_lt; lia. }
    cbn [bind q_arr q_size q_head q_tail q_init]. rewrite wr_ok by auto. cbn [bind]. do 2 eexists; split; [reflexivity|].
    pose proof (rep_push_cell _ _ v R1 Hs) as Rn. cbn [s_items s_cap s_init] in Rn.
    destruct (length (s_items s) <? s_cap s).
    + eexists; split; [reflexivity|exact Rn].
    + destruct HC as [?|HC]; [discriminate|]. rewrite HC. eexists; split; [reflexivity|exact Rn].
  - destruct Hb as (-> & Hc & Hx). rewrite Hc, Hx. cbn [bind]. do 2 eexists; split; [reflexivity|].
    eexists; split; [reflexivity|auto].
Qed.

(* -- popping -- *)

Lemma rep_pop q s x r a : Rep q s -> s_items s = x :: r -> length a = capacity q -> 
  (forall j, j <> q_tail q -> nth_error a j = nth_error (q_arr q) j) ->
  Rep (mkQ a (q_size q - 1) (q_head q) (wrap (length a) (S (q_tail q))) (q_init q))
      (mkS r (s_cap s) (s_init s)).
Proof.
  intros R E La Ha.
  pose proof (rep_size _ _ R) as Rs. rewrite E in Rs. simpl in Rs. pose proof (rep_le _ _ R) as Rl.
  destruct (rep_tail _ _ R) as [Ht|?]; [|lia].
  constructor; unfold capacity; cbn [q_arr q_size q_head q_tail q_init s_items s_cap s_init]; rewrite ?La.
  - apply (rep_cap _ _ R).
  - apply (rep_init _ _ R).
  - lia.
  - lia.
  - left. idxlia.
  - rewrite (rep_head _ _ R). rewrite wrap_tail by auto. rewrite idx_shift by lia. f_equal; lia.
  - intros k y Hk. rewrite La, wrap_tail by auto. pose proof (nth_some_lt _ _ _ Hk).
    rewrite idx_shift by lia.
    assert (Hk' : nth_error (s_items s) (S k) = Some y) by (rewrite E; exact Hk).
    apply (rep_cells _ _ R) in Hk'. rewrite Ha; [exact Hk'|].
    intro Heq. rewrite <- (idx_0 (capacity q) (q_tail q)) in Heq at 2 by auto.
    apply idx_inj in Heq; lia.
Qed.

Lemma reset_cell_ok q i : i < capacity q ->
  exists q', reset_cell rst q i = Ok q' /\ capacity q' = capacity q /\ q_size q' = q_size q /\
    q_head q' = q_head q /\ q_tail q' = q_tail q /\ q_init q' = q_init q /\
    forall j, j <> i -> nth_error (q_arr q') j = nth_error (q_arr q) j.
Proof.
  intro H. unfold reset_cell. destruct (nth_error (q_arr q) i) eqn:E.
  - eexists; split; [reflexivity|]. unfold capacity; cbn. rewrite upd_length. repeat split.
    intros j Hj. apply nth_error_upd_other; auto.
  - apply nth_error_None in E. unfold capacity in H; lia.
Qed.

Lemma pop_only_ok q s s' : Rep q s -> s_step eqb canexpand isrec QPopOnly s = Some (RUnit, s') ->
  exists q', pop_only rst isrec q = Ok q' /\ Rep q' s'.
Proof.
  intros R H. unfold s_step in H. unfold pop_only.
  pose proof (rep_size _ _ R) as Rs. pose proof (rep_le _ _ R) as Rl. pose proof (rep_cap _ _ R) as Rcp.
  destruct (s_items s) as [|x r] eqn:E; simpl in Rs.
  - destruct isrec; simpl in H.
    + destruct (Nat.eqb_spec (s_cap s) 0) as [Hc|Hc]; [discriminate|]. inversion H; subst s'.
      destruct (rep_tail _ _ R) as [Ht|?]; [|lia].
      destruct (reset_cell_ok q (q_tail q) Ht) as (q1 & H1 & H2 & H3 & H4 & H5 & H6 & H7).
      rewrite H1; simpl. unfold pop_only_base. rewrite H3, Rs. simpl.
      eexists; split; [reflexivity|]. constructor.
      * rewrite H2; apply (rep_cap _ _ R).
      * rewrite H6; apply (rep_init _ _ R).
      * rewrite E; simpl; lia.
      * lia.
      * lia.
      * rewrite H4, H5, H2, H3. apply (rep_head _ _ R).
      * rewrite E. intros k y Hk. destruct k; discriminate.
    + inversion H; subst s'. unfold pop_only_base. rewrite Rs; simpl. eauto.
  - inversion H; subst s'. clear H.
    destruct (rep_tail _ _ R) as [Ht|?]; [|lia].
    destruct isrec.
    + destruct (reset_cell_ok q (q_tail q) Ht) as (q1 & H1 & H2 & H3 & H4 & H5 & H6 & H7).
      rewrite H1; simpl. unfold pop_only_base. rewrite H3, Rs. simpl.
      eexists; split; [reflexivity|].
      rewrite H4, H5, H6. unfold capacity in H2 |- *.
      replace (length r - 0) with (q_size q - 1) by lia.
      apply (rep_pop _ _ x); auto.
    + unfold pop_only_base. rewrite Rs. simpl.
      eexists; split; [reflexivity|]. replace (length r - 0) with (q_size q - 1) by lia.
      apply (rep_pop _ _ x); auto.
Qed.

Lemma pop_ok q s x r : Rep q s -> s_items s = x :: r ->
  exists q', pop q = Ok (x, q') /\ Rep q' (mkS r (s_cap s) (s_init s)).
Proof.
  intros R E. unfold pop. pose proof (rep_size _ _ R) as Rs. rewrite E in Rs; simpl in Rs.
  rewrite Rs. cbn [Nat.eqb]. pose proof (front_ok _ _ _ _ R E) as Hf. unfold front in Hf. rewrite Hf.
  cbn. eexists; split; [reflexivity|].
  replace (length r - 0) with (q_size q - 1) by lia.
  apply (rep_pop _ _ x); auto.
Qed.

(* -- Remove -- *)


Notation keep v := (fun x => negb (eqb x v)).

Lemma remove_loop_ok cap t v n : t < cap -> n <= cap ->
  forall rest fuel a size kept j,
  rest <> [] -> length rest <= fuel -> length a = cap -> j + length rest = n -> length kept <= j ->
  size + j = length kept + n ->
  holds a t kept ->
  (forall k x, nth_error rest k = Some x -> nth_error a (idx cap t (j + k)) = Some (Some x)) ->
  exists a' , remove_loop eqb fuel (idx cap t n) v a size (idx cap t (length kept)) (idx cap t j)
     = Ok (a', length (kept ++ filter (keep v) rest), idx cap t (length (kept ++ filter (keep v) rest))) /\
     length a' = cap /\ holds a' t (kept ++ filter (keep v) rest).
Proof.
  intros Ht Hn. induction rest as [|x rest IH]; [congruence|].
  intros fuel a size kept j _ Hf La Hj Hk Hs Hh Hr.
  destruct fuel as [|fuel]; [simpl in Hf; lia|].
  cbn [remove_loop]. simpl in Hj, Hf.
  pose proof (Hr 0 x eq_refl) as H0. rewrite Nat.add_0_r in H0.
  rewrite (rd_ok _ _ _ H0). cbn [bind].
  assert (Hstep : exists a1 kept1 , 
     (if eqb x v then Ok (a, size - 1, idx cap t (length kept))
      else do a' <- (if idx cap t (length kept) =? idx cap t j then Ok a else wr a (idx cap t (length kept)) x);
           Ok (a', size, wrap (length a) (S (idx cap t (length kept)))))
     = Ok (a1, length kept1 + n - S j, idx cap t (length kept1)) /\ length a1 = cap
     /\ kept1 = kept ++ filter (keep v) [x] /\ holds a1 t kept1 /\
     (forall k y, nth_error rest k = Some y -> nth_error a1 (idx cap t (S j + k)) = Some (Some y))).
  { cbn [filter]. destruct (eqb x v); cbn [negb].
    - exists a, kept. rewrite app_nil_r. repeat split; auto.
      + replace (size - 1) with (length kept + n - S j) by lia. reflexivity.
      + intros k y Hy. rewrite <- (Hr (S k) y Hy). do 2 f_equal. lia.
    - assert (Lk : length kept < cap) by lia.
      assert (exists a1, (if idx cap t (length kept) =? idx cap t j then Ok a else wr a (idx cap t (length kept)) x) = Ok a1
              /\ length a1 = cap /\ holds a1 t (kept ++ [x]) /\
              (forall k y, nth_error rest k = Some y -> nth_error a1 (idx cap t (S j + k)) = Some (Some y)))
        as (a1 & E1 & L1 & Hh1 & Hr1).
      { destruct (Nat.eqb_spec (idx cap t (length kept)) (idx cap t j)) as [E|E].
        - apply idx_inj in E; try lia. exists a. repeat split; auto.
          + intros k y Hy. destruct (Nat.lt_ge_cases k (length kept)).
            * rewrite nth_error_app1 in Hy by auto. auto.
            * rewrite nth_error_app2 in Hy by auto.
              destruct (k - length kept) as [|[|?]] eqn:Ek; simpl in Hy; try discriminate.
              injection Hy as <-. replace k with j by lia. rewrite La; auto.
          + intros k y Hy. rewrite <- (Hr (S k) y Hy). do 2 f_equal. lia.
        - rewrite wr_ok by (rewrite La; apply idx_lt; lia).
          eexists; split; [reflexivity|]. rewrite upd_length. repeat split; auto.
          + intros k y Hy. rewrite upd_length. destruct (Nat.lt_ge_cases k (length kept)).
            * rewrite nth_error_app1 in Hy by auto. rewrite nth_error_upd_other; auto.
              rewrite La. intro E2. apply idx_inj in E2; lia.
            * rewrite nth_error_app2 in Hy by auto.
              destruct (k - length kept) as [|[|?]] eqn:Ek; simpl in Hy; try discriminate.
              injection Hy as <-. replace k with (length kept) by lia. rewrite La.
              apply nth_error_upd_same. rewrite La; apply idx_lt; lia.
          + intros k y Hy. pose proof (nth_some_lt _ _ _ Hy).
            rewrite nth_error_upd_other.
            * rewrite <- (Hr (S k) y Hy). do 2 f_equal. lia.
            * intro E2. apply idx_inj in E2; lia. }
      rewrite E1. cbn [bind]. exists a1, (kept ++ [x]). repeat split; auto.
      rewrite app_length; cbn [length]. rewrite La, wrap_idx by lia.
      replace (length kept + 1) with (S (length kept)) by lia.
      replace (S (length kept) + n - S j) with size by lia. reflexivity. }
  destruct Hstep as (a1 & kept1 & E1 & L1 & K1 & Hh1 & Hr1). rewrite E1. cbn [bind].
  rewrite La, wrap_idx by lia.
  assert (Kf : kept ++ filter (keep v) (x :: rest) = kept1 ++ filter (keep v) rest).
  { rewrite K1, <- app_assoc. f_equal. simpl. destruct (eqb x v); reflexivity. }
  rewrite Kf.
  assert (Lk1 : length kept1 <= S j).
  { rewrite K1, app_length. cbn. destruct (eqb x v); cbn; lia. }
  destruct rest as [|y rest].
  - simpl in Hj. replace (S j) with n by lia. rewrite Nat.eqb_refl. cbn [filter]. rewrite app_nil_r.
    exists a1. repeat split; auto. replace (length kept1 + n - n) with (length kept1) by lia. reflexivity.
  - destruct (Nat.eqb_spec (idx cap t (S j)) (idx cap t n)) as [E|E].
    { apply idx_inj' in E; simpl in *; lia. }
    destruct (IH fuel a1 (length kept1 + n - S j) kept1 (S j)) as (a' & Ha' & L' & H'); auto.
    + discriminate.
    + simpl in *; lia.
    + simpl in *; lia.
    + simpl in *; lia.
    + exists a'. auto.
Qed.

Lemma filter_len {A} (f : A -> bool) l : length (filter f l) <= length l.
Proof. induction l; simpl; auto. destruct (f a); simpl; lia. Qed.

Lemma remove_ok q s v : Rep q s ->
  exists b q', remove eqb q v = Ok (b, q') /\
    Rep q' (mkS (filter (keep v) (s_items s)) (s_cap s) (s_init s)) /\
    b = negb (forallb (keep v) (s_items s)) && negb ((length (filter (keep v) (s_items s)) =? 0) && (length (s_items s) =? s_cap s)).
Proof.
  intros R. unfold remove. pose proof (rep_size _ _ R) as Rs. pose proof (rep_le _ _ R) as Rl.
  destruct (Nat.eqb_spec (q_size q) 0) as [H0|H0].
  - do 2 eexists; split; [reflexivity|].
    destruct (s_items s) eqn:E; [|simpl in Rs; lia]. split; [|reflexivity].
    destruct s; simpl in *; subst; exact R.
  - destruct (rep_tail _ _ R) as [Ht|?]; [|lia].
    assert (exists a', remove_loop eqb (S (capacity q)) (q_head q) v (q_arr q) (q_size q) (q_tail q) (q_tail q)
       = Ok (a', length (filter (keep v) (s_items s)), idx (capacity q) (q_tail q) (length (filter (keep v) (s_items s))))
        /\ length a' = capacity q /\ holds a' (q_tail q) (filter (keep v) (s_items s))) as (a' & E & L & Hh).
    { destruct (remove_loop_ok (capacity q) (q_tail q) v (q_size q) Ht Rl (s_items s) (S (capacity q))
        (q_arr q) (q_size q) [] 0) as (a' & Ha & La & Hh); auto; simpl.
      - intro E; rewrite E in Rs; simpl in Rs; lia.
      - lia.
      - intros k x Hk; destruct k; discriminate.
      - intros k x Hk. apply (rep_cells _ _ R) in Hk. exact Hk.
      - exists a'. simpl in Ha. rewrite (idx_0 _ _ Ht) in Ha. rewrite (rep_head _ _ R). auto. }
    rewrite E. cbn [bind]. do 2 eexists; split; [reflexivity|].
    pose proof (filter_len (keep v) (s_items s)) as Fl.
    split.
    + constructor; unfold capacity in *; cbn [q_arr q_size q_head q_tail q_init s_items s_cap s_init]; rewrite ?L; try lia.
      * apply (rep_cap _ _ R).
      * apply (rep_init _ _ R).
      * exact Hh.
    + rewrite (rep_head _ _ R), (rep_size _ _ R), <- (rep_cap _ _ R).
      rewrite (rep_size _ _ R) in H0, Rl.
      assert (F : forallb (keep v) (s_items s) = (length (filter (keep v) (s_items s)) =? length (s_items s))).
      { clear. induction (s_items s) as [|x l IH]; simpl; auto.
        pose proof (filter_len (keep v) l).
        destruct (negb (eqb x v)); simpl; auto.
        symmetry; apply Nat.eqb_neq; lia. }
      rewrite F.
      set (m := length (filter (keep v) (s_items s))) in *. set (n := length (s_items s)) in *.
      destruct (Nat.eqb_spec (idx (capacity q) (q_tail q) m) (idx (capacity q) (q_tail q) n)) as [E2|E2];
      destruct (Nat.eqb_spec m n); destruct (Nat.eqb_spec m 0); destruct (Nat.eqb_spec n (capacity q)); simpl; auto;
      try (exfalso; idxlia).
Qed.

(* -- RemoveItem -- *)

Lemma remove_item_loop_ok cap t n : t < cap -> n <= cap ->
  forall rest fuel a done j,
  length rest <= fuel -> length a = cap -> S j + length rest = n -> length done = j ->
  holds a t done ->
  (forall k x, nth_error rest k = Some x -> nth_error a (idx cap t (S j + k)) = Some (Some x)) ->
  exists a', remove_item_loop (S fuel) (idx cap t n) a (idx cap t j) = Ok (a', idx cap t (n - 1)) /\
    length a' = cap /\ holds a' t (done ++ rest).
Proof.
  intros Ht Hn. induction rest as [|x rest IH]; intros fuel a done j Hf La Hj Hd Hh Hr;
    cbn [remove_item_loop]; rewrite La, wrap_idx by lia.
  - simpl in Hj. replace (S j) with n by lia. rewrite Nat.eqb_refl. rewrite app_nil_r.
    exists a. repeat split; auto. do 3 f_equal. lia.
  - simpl in Hj, Hf. destruct (Nat.eqb_spec (idx cap t (S j)) (idx cap t n)) as [E|E].
    { apply idx_inj' in E; simpl in *; lia. }
    destruct fuel as [|fuel]; [lia|].
    pose proof (Hr 0 x eq_refl) as H0. rewrite Nat.add_0_r in H0.
    rewrite (rd_ok _ _ _ H0). cbn [bind]. rewrite wr_ok by (rewrite La; apply idx_lt; lia). cbn [bind].
    destruct (IH fuel (upd a (idx cap t j) (Some x)) (done ++ [x]) (S j)) as (a' & Ha & L' & H').
    + lia.
    + rewrite upd_length; auto.
    + lia.
    + rewrite app_length; simpl; lia.
    + intros k y Hy. rewrite upd_length. destruct (Nat.lt_ge_cases k (length done)).
      * rewrite nth_error_app1 in Hy by auto. rewrite nth_error_upd_other; auto.
        rewrite La. intro E2. apply idx_inj in E2; lia.
      * rewrite nth_error_app2 in Hy by auto.
        destruct (k - length done) as [|[|?]] eqn:Ek; simpl in Hy; try discriminate.
        injection Hy as <-. replace k with j by lia. rewrite La.
        apply nth_error_upd_same. rewrite La. apply idx_lt; lia.
    + intros k y Hy. pose proof (nth_some_lt _ _ _ Hy).
      rewrite nth_error_upd_other.
      * rewrite <- (Hr (S k) y Hy). do 2 f_equal. lia.
      * intro E2. apply idx_inj in E2; lia.
    + exists a'. rewrite <- app_assoc in H'. auto.
Qed.

Lemma remove_item_ok q s i : Rep q s ->
  exists q', remove_item q i = Ok (i <? length (s_items s), q') /\
    Rep q' (mkS (del i (s_items s)) (s_cap s) (s_init s)).
Proof.
  intros R. unfold remove_item. pose proof (rep_size _ _ R) as Rs. pose proof (rep_le _ _ R) as Rl.
  destruct (Nat.leb_spec (q_size q) i) as [H0|H0].
  - replace (i <? length (s_items s)) with false by (symmetry; apply Nat.ltb_ge; lia).
    eexists; split; [reflexivity|]. unfold del. rewrite firstn_all2, skipn_all2 by lia. rewrite app_nil_r.
    destruct s; exact R.
  - replace (i <? length (s_items s)) with true by (symmetry; apply Nat.ltb_lt; lia).
    destruct (rep_tail _ _ R) as [Ht|?]; [|lia].
    destruct (remove_item_loop_ok (capacity q) (q_tail q) (q_size q) Ht Rl (skipn (S i) (s_items s)) (capacity q)
        (q_arr q) (firstn i (s_items s)) i) as (a' & Ha & La & Hh); auto.
    + rewrite skipn_length; lia.
    + rewrite skipn_length; lia.
    + rewrite firstn_length; lia.
    + intros k x Hk. pose proof (nth_some_lt _ _ _ Hk) as Hl. rewrite firstn_length in Hl.
      rewrite nth_error_firstn in Hk by lia. apply (rep_cells _ _ R) in Hk. exact Hk.
    + intros k x Hk. rewrite nth_error_skipn in Hk. apply (rep_cells _ _ R) in Hk. exact Hk.
    + unfold item_idx. change (if capacity q <=? q_tail q + i then q_tail q + i - capacity q else q_tail q + i)
        with (idx (capacity q) (q_tail q) i). rewrite (rep_head _ _ R), Ha. cbn [bind].
      eexists; split; [reflexivity|].
      constructor; unfold capacity in *; cbn [q_arr q_size q_head q_tail q_init s_items s_cap s_init]; rewrite ?La; try lia.
      * apply (rep_cap _ _ R).
      * apply (rep_init _ _ R).
      * unfold del. rewrite app_length, firstn_length, skipn_length. lia.
      * exact Hh.
Qed.

(* -- Reset -- *)

Lemma reset_items_ok q s : Rep q s -> forall n k q0, k + n = q_size q -> capacity q0 = capacity q ->
  q_tail q0 = q_tail q -> q_init q0 = q_init q ->
  exists q', reset_items rst q0 k n = Ok q' /\ capacity q' = capacity q /\ q_init q' = q_init q.
Proof.
  intros R. pose proof (rep_le _ _ R). induction n as [|n IH]; intros k q0 Hk Hc Ht Hi; simpl.
  - eauto.
  - destruct (rep_tail _ _ R) as [Htl|?]; [|lia].
    destruct (reset_cell_ok q0 (item_idx q0 k)) as (q1 & H1 & H2 & H3 & H4 & H5 & H6 & H7).
    + unfold item_idx. rewrite Hc, Ht. apply idx_lt; lia.
    + rewrite H1. simpl. apply IH; try congruence. lia.
Qed.

Lemma reset_ok q s s' : Rep q s -> s_step eqb canexpand isrec QReset s = Some (RUnit, s') ->
  exists q', reset rst isrec q = Ok q' /\ Rep q' s'.
Proof.
  intros R H. unfold s_step in H. unfold reset.
  pose proof (rep_cap _ _ R) as Rc. pose proof (rep_init _ _ R) as Ri.
  assert (B : forall q1, capacity q1 = capacity q -> q_init q1 = q_init q ->
              Rep (reset_base q1) (mkS [] (s_cap s) (s_init s))).
  { intros q1 Hc Hi. constructor; unfold reset_base, capacity in *; cbn [q_arr q_size q_head q_tail q_init s_items s_cap s_init]; try lia.
    - simpl; lia.
    - idxlia.
    - intros k x Hk; destruct k; discriminate. }
  destruct isrec.
  - destruct (Nat.eqb_spec (s_cap s) (s_init s)) as [E|E]; simpl in H.
    + inversion H; subst s'. replace (capacity q =? q_init q) with true by (symmetry; apply Nat.eqb_eq; lia).
      destruct (reset_items_ok _ _ R (q_size q) 0 q) as (q1 & H1 & H2 & H3); auto.
      rewrite H1. simpl. eexists; split; [reflexivity|]. rewrite <- E at 1. apply B; auto.
    + destruct (Nat.ltb_spec 0 (s_init s)); [|discriminate]. inversion H; subst s'.
      replace (capacity q =? q_init q) with false by (symmetry; apply Nat.eqb_neq; lia).
      eexists; split; [reflexivity|]. unfold allocate.
      replace (0 <? q_init q) with true by (symmetry; apply Nat.ltb_lt; lia).
      constructor; unfold capacity; cbn [q_arr q_size q_head q_tail q_init s_items s_cap s_init]; rewrite ?repeat_length; try lia.
      * reflexivity.
      * idxlia.
      * intros k x Hk; destruct k; discriminate.
  - inversion H; subst s'. eexists; split; [reflexivity|]. apply B; auto.
Qed.

(* -- iteration -- *)

Lemma iter_loop_ok cap t n (a : list (option T)) : t < cap -> n <= cap -> length a = cap ->
  forall rest fuel j, 0 < j + length rest -> j + length rest = n -> length rest <= fuel ->
  (forall k x, nth_error rest k = Some x -> nth_error a (idx cap t (j + k)) = Some (Some x)) ->
  iter_loop fuel a (idx cap t j) (if cap <=? t + j then 1 else 0) (idx cap t n) (if cap <=? t + n then 1 else 0)
   = Ok rest.
Proof.
  intros Ht Hn La. induction rest as [|x rest IH]; intros fuel j Hp Hj Hf Hr.
  - simpl in Hj. replace j with n by lia. destruct fuel; simpl; rewrite !Nat.eqb_refl; reflexivity.
  - simpl in Hj, Hf. destruct fuel as [|fuel]; [lia|].
    assert (Hb : ((idx cap t j =? idx cap t n) && ((if cap <=? t + j then 1 else 0) =? (if cap <=? t + n then 1 else 0))) = false).
    { apply andb_false_iff.
      destruct (Nat.eqb_spec (idx cap t j) (idx cap t n)) as [E|E]; auto. right.
      apply Nat.eqb_neq. idxlia. }
    cbn [iter_loop]. rewrite Hb.
    pose proof (Hr 0 x eq_refl) as H0. rewrite Nat.add_0_r in H0. rewrite (rd_ok _ _ _ H0). cbn [bind].
    assert (HI := IH fuel (S j)).
    rewrite La. 
    assert (E : (if S (idx cap t j) =? cap
        then iter_loop fuel a 0 (S (if cap <=? t + j then 1 else 0)) (idx cap t n) (if cap <=? t + n then 1 else 0)
        else iter_loop fuel a (S (idx cap t j)) (if cap <=? t + j then 1 else 0) (idx cap t n) (if cap <=? t + n then 1 else 0))
        = iter_loop fuel a (idx cap t (S j)) (if cap <=? t + S j then 1 else 0) (idx cap t n) (if cap <=? t + n then 1 else 0)).
    { rewrite <- (wrap_idx cap t j) by lia. unfold wrap.
      destruct (Nat.eqb_spec (S (idx cap t j)) cap) as [E|E].
      - assert (t + S j = cap \/ t + j >= cap) by idxlia.
        destruct (Nat.leb_spec cap (t + j)); destruct (Nat.leb_spec cap (t + S j)); auto; exfalso; idxlia.
      - destruct (Nat.leb_spec cap (t + j)); destruct (Nat.leb_spec cap (t + S j)); auto; exfalso; idxlia. }
    rewrite E, HI; auto; try lia.
    intros k y Hy. rewrite <- (Hr (S k) y Hy). do 2 f_equal. lia.
Qed.

Lemma iterate_ok q s : Rep q s -> s_items s <> [] -> iterate q = Ok (s_items s).
Proof.
  intros R Hne. pose proof (rep_size _ _ R) as Rs. pose proof (rep_le _ _ R) as Rl.
  assert (0 < q_size q) by (rewrite Rs; destruct (s_items s); simpl; [congruence|lia]).
  destruct (rep_tail _ _ R) as [Ht|?]; [|lia].
  unfold iterate.
  pose proof (iter_loop_ok (capacity q) (q_tail q) (q_size q) (q_arr q) Ht Rl eq_refl (s_items s) (2 * capacity q) 0) as H1.
  rewrite idx_0 in H1 by auto.
  replace (capacity q <=? q_tail q + 0) with false in H1 by (symmetry; apply Nat.leb_gt; lia).
  rewrite <- (rep_head _ _ R) in H1.
  replace (if q_tail q <? q_head q then 0 else 1) with (if capacity q <=? q_tail q + q_size q then 1 else 0).
  - apply H1; try lia. intros k x Hk. apply (rep_cells _ _ R) in Hk. exact Hk.
  - rewrite (rep_head _ _ R). unfold idx.
    destruct (Nat.leb_spec (capacity q) (q_tail q + q_size q));
    match goal with |- context [?a <? ?b] => destruct (Nat.ltb_spec a b) end; lia.
Qed.

(* -- all operations -- *)

Lemma step_ok q s o x s' : Rep q s -> s_step eqb canexpand isrec o s = Some (x, s') ->
  exists q', m_step eqb rst canexpand isrec o q = Ok (x, q') /\ Rep q' s'.
Proof.
  intros R H.
  pose proof (rep_size _ _ R) as Rs. pose proof (rep_le _ _ R) as Rl. pose proof (rep_cap _ _ R) as Rc.
  destruct o; cbn [m_step].
  - destruct (push_ok _ _ v R) as (b & q' & H1 & s1 & H2 & H3). cbn in H. rewrite H2 in H. inversion H; subst.
    rewrite H1. cbn. eauto.
  - destruct (push_empty_ok _ _ v R) as (b & q' & H1 & s1 & H2 & H3). cbn in H. rewrite H2 in H. inversion H; subst.
    rewrite H1. cbn. eauto.
  - cbn in H. destruct (s_items s) as [|y r] eqn:E; [discriminate|]. inversion H; subst.
    destruct (pop_ok _ _ _ _ R E) as (q' & H1 & H2). rewrite H1. cbn. eauto.
  - assert (x = RUnit) by (cbn in H; destruct (s_items s); [destruct (isrec && (s_cap s =? 0))|]; inversion H; auto).
    subst x. destruct (pop_only_ok _ _ _ R H) as (q' & H1 & H2). rewrite H1; cbn; eauto.
  - cbn in H. destruct (s_items s) as [|y r] eqn:E; [discriminate|]. inversion H; subst.
    rewrite (front_ok _ _ _ _ R E). cbn; eauto.
  - cbn in H. destruct (rev (s_items s)) as [|y r] eqn:E; [discriminate|]. inversion H; subst.
    assert (E2 : s_items s' = rev r ++ [y]) by (rewrite <- (rev_involutive (s_items s')), E; reflexivity).
    assert (L : length (s_items s') = S (length r)).
    { rewrite E2, app_length, rev_length; simpl; lia. }
    unfold back. rewrite Rs, L. cbn [Nat.eqb Nat.sub].
    rewrite (item_ok _ _ (length r - 0) y R); [cbn; eauto|].
    rewrite E2, nth_error_app2 by (rewrite rev_length; lia). rewrite rev_length.
    replace (length r - 0 - length r) with 0 by lia. reflexivity.
  - cbn in H. destruct (nth_error (s_items s) i) eqn:E; [|discriminate]. inversion H; subst.
    rewrite (item_ok _ _ _ _ R E). cbn; eauto.
  - cbn in H; inversion H; subst. rewrite Rs. eauto.
  - cbn in H; inversion H; subst. rewrite Rs. eauto.
  - cbn in H; inversion H; subst. rewrite Rs, Rc. eauto.
  - cbn in H; inversion H; subst. rewrite Rc. eauto.
  - cbn in H; inversion H; subst. destruct (remove_ok _ _ v R) as (b & q' & H1 & H2 & _). rewrite H1; cbn; eauto.
  - cbn in H; inversion H; subst. destruct (remove_item_ok _ _ i R) as (q' & H1 & H2). rewrite H1; cbn; eauto.
  - cbn in H; inversion H; subst. destruct (expand_ok _ _ n R) as (q' & H1 & H2 & _). rewrite H1; cbn; eauto.
  - assert (x = RUnit) by (unfold s_step in H; destruct isrec; [destruct ((s_cap s =? s_init s) || (0 <? s_init s))|]; inversion H; auto).
    subst x. destruct (reset_ok _ _ _ R H) as (q' & H1 & H2). rewrite H1; cbn; eauto.
  - cbn in H. destruct (s_items s) as [|y r] eqn:E; [discriminate|]. inversion H; subst.
    rewrite (iterate_ok _ _ R) by (rewrite E; discriminate). cbn. rewrite E. eauto.
Qed.

Lemma run_ok ops : forall q s outs s', Rep q s -> s_run eqb canexpand isrec ops s = Some (outs, s') ->
  exists q', m_run eqb rst canexpand isrec ops q = Ok (outs, q') /\ Rep q' s'.
Proof.
  induction ops as [|o ops IH]; intros q s outs s' R H; cbn in H |- *.
  - inversion H; subst. eauto.
  - destruct (s_step eqb canexpand isrec o s) as [[x s1]|] eqn:E; [|discriminate].
    destruct (s_run eqb canexpand isrec ops s1) as [[xs s2]|] eqn:E2; [|discriminate].
    inversion H; subst. destruct (step_ok _ _ _ _ _ R E) as (q1 & H1 & R1).
    destruct (IH _ _ _ _ R1 E2) as (q2 & H2 & R2). rewrite H1. cbn. rewrite H2. cbn. eauto.
Qed.

Lemma new_run_ok cap ops outs s' : s_run eqb canexpand isrec ops (s_new cap) = Some (outs, s') ->
  exists q', m_run eqb rst canexpand isrec ops (qnew cap) = Ok (outs, q') /\ Rep q' s'.
Proof. apply run_ok, rep_new. Qed.

End P.

Section P2.
Context {T : Type}.
Variable eqb : T -> T -> bool.
Variable rst : T -> T.
Variable canexpand isrec : bool.

Lemma s_step_init o (s : sq T) x s' i : s_step eqb canexpand false o s = Some (x, s') ->
  s_step eqb canexpand false o (mkS (s_items s) (s_cap s) i) = Some (x, mkS (s_items s') (s_cap s') i).
Proof.
  intro H. destruct o; unfold s_step, s_push in *; cbn [s_items s_cap s_init] in *.
  all: repeat match goal with
       | |- context [match ?e with _ => _ end] => destruct e eqn:?
       end; try discriminate; inversion H; subst; cbn [s_items s_cap s_init]; auto;
       repeat match goal with E : _ = _ :> list _ |- _ => rewrite E end; auto.
Qed.

Lemma s_run_init ops : forall (s : sq T) outs s' i, s_run eqb canexpand false ops s = Some (outs, s') ->
  s_run eqb canexpand false ops (mkS (s_items s) (s_cap s) i) = Some (outs, mkS (s_items s') (s_cap s') i).
Proof.
  induction ops as [|o ops IH]; intros s outs s' i H; cbn [s_run] in *.
  - inversion H; subst; auto.
  - destruct (s_step eqb canexpand false o s) as [[x s1]|] eqn:E; [|discriminate].
    destruct (s_run eqb canexpand false ops s1) as [[xs s2]|] eqn:E2; [|discriminate].
    inversion H; subst. rewrite (s_step_init _ _ _ _ i E), (IH _ _ _ i E2). reflexivity.
Qed.

Lemma s_run_app ops1 : forall ops2 (s : sq T) o1 s1 o2 s2,
  s_run eqb canexpand isrec ops1 s = Some (o1, s1) -> s_run eqb canexpand isrec ops2 s1 = Some (o2, s2) ->
  s_run eqb canexpand isrec (ops1 ++ ops2) s = Some (o1 ++ o2, s2).
Proof.
  induction ops1 as [|o ops IH]; intros ops2 s o1 s1 o2 s2 H H2; cbn [s_run app] in *.
  - inversion H; subst; auto.
  - destruct (s_step eqb canexpand isrec o s) as [[x sx]|] eqn:E; [|discriminate].
    destruct (s_run eqb canexpand isrec ops sx) as [[xs sy]|] eqn:E2; [|discriminate].
    inversion H; subst. rewrite (IH _ _ _ _ _ _ E2 H2). reflexivity.
Qed.

Lemma s_init_const o (s : sq T) x s' : s_step eqb canexpand isrec o s = Some (x, s') -> s_init s' = s_init s.
Proof.
  intro H. destruct o; unfold s_step, s_push in *.
  all: repeat match goal with
       | H : context [match ?e with _ => _ end] |- _ => destruct e eqn:?
       end; try discriminate; inversion H; subst; auto.
Qed.

Lemma s_run_init_const ops : forall (s : sq T) x s', s_run eqb canexpand isrec ops s = Some (x, s') -> s_init s' = s_init s.
Proof.
  induction ops as [|o ops IH]; intros s x s' H; cbn [s_run] in *.
  - inversion H; subst; auto.
  - destruct (s_step eqb canexpand isrec o s) as [[y sx]|] eqn:E; [|discriminate].
    destruct (s_run eqb canexpand isrec ops sx) as [[xs sy]|] eqn:E2; [|discriminate].
    inversion H; subst. rewrite (IH _ _ _ E2). eapply s_init_const; eauto.
Qed.

Lemma reset_fresh cap ops1 outs1 s1 ops2 outs2 s2 :
  s_run eqb canexpand isrec ops1 (s_new cap) = Some (outs1, s1) ->
  isrec = false \/ 0 < cap \/ s_cap s1 = 0 ->
  s_run eqb canexpand isrec ops2 (s_new (if isrec then cap else s_cap s1)) = Some (outs2, s2) ->
  exists q, m_run eqb rst canexpand isrec (ops1 ++ QReset :: ops2) (qnew cap) = Ok (outs1 ++ RUnit :: outs2, q).
Proof.
  intros H1 Hc H2.
  assert (E : exists s', s_run eqb canexpand isrec (ops1 ++ QReset :: ops2) (s_new cap) = Some (outs1 ++ RUnit :: outs2, s')).
  { pose proof (s_run_init_const _ _ _ _ H1) as Hi. cbn in Hi.
    destruct isrec eqn:Er.
    - exists s2.
      rewrite <- Er in *. eapply s_run_app; [exact H1|].
      cbn [s_run s_step]. rewrite Er. unfold s_step. rewrite Hi.
      replace ((s_cap s1 =? cap) || (0 <? cap)) with true.
      2: { symmetry. apply orb_true_iff. rewrite Nat.eqb_eq, Nat.ltb_lt. destruct Hc as [?|[?|?]]; [congruence|lia|].
           destruct cap; lia. }
      rewrite Er in H2. unfold s_new in H2. rewrite H2. reflexivity.
    - exists (mkS (s_items s2) (s_cap s2) cap).
      rewrite <- Er. eapply s_run_app; [rewrite Er; exact H1|].
      rewrite Er. cbn [s_run s_step]. apply (s_run_init _ _ _ _ cap) in H2. cbn [s_new s_items s_cap] in H2.
      rewrite Hi, H2. reflexivity. }
  destruct E as (s' & E). destruct (new_run_ok eqb rst canexpand isrec _ _ _ _ E) as (q' & Hq & _). eauto.
Qed.

Lemma fifo_gen ops : forall q s outs q', Rep q s -> forallb pushpop ops = true ->
  m_run eqb rst canexpand isrec ops q = Ok (outs, q') ->
  exists s', Rep q' s' /\ s_items s ++ pushed ops outs = popped outs ++ s_items s'.
Proof.
  induction ops as [|o ops IH]; intros q s outs q' R F H; cbn [m_run] in H.
  - inversion H; subst. exists s. rewrite app_nil_r. auto.
  - cbn in F. apply andb_true_iff in F as (F1 & F2). destruct o; try discriminate; cbn [m_step] in H.
    + destruct (push_ok eqb rst canexpand isrec q s v R) as (b & q1 & E1 & s1 & E2 & R1).
      rewrite E1 in H. cbn [bind] in H.
      destruct (m_run eqb rst canexpand isrec ops q1) as [[xs q2]| |] eqn:E3; try discriminate.
      cbn [bind] in H. inversion H; subst.
      destruct (IH _ _ _ _ R1 F2 E3) as (s' & R' & E'). exists s'. split; auto.
      assert (Ei : s_items s1 = s_items s ++ if b then [v] else []).
      { unfold s_push in E2. destruct (length (s_items s) <? s_cap s); [|destruct canexpand];
        inversion E2; subst; cbn [s_items]; rewrite ?app_nil_r; auto. }
      cbn [popped]. rewrite <- E', Ei, <- app_assoc. destruct b; reflexivity.
    + destruct (s_items s) as [|y r] eqn:Es.
      * exfalso. unfold pop in H. rewrite (rep_size _ _ R), Es in H. cbn in H. discriminate.
      * destruct (pop_ok eqb rst q s y r R Es) as (q1 & E1 & R1). rewrite E1 in H. cbn [bind] in H.
        destruct (m_run eqb rst canexpand isrec ops q1) as [[xs q2]| |] eqn:E3; try discriminate.
        cbn [bind] in H. inversion H; subst.
        destruct (IH _ _ _ _ R1 F2 E3) as (s' & R' & E'). exists s'. split; auto.
        cbn [popped pushed app s_items] in *. f_equal. exact E'.
Qed.

Lemma fifo_order cap ops outs q : forallb pushpop ops = true ->
  m_run eqb rst canexpand isrec ops (qnew cap) = Ok (outs, q) ->
  exists rest, pushed ops outs = popped outs ++ rest /\ length rest = q_size q.
Proof.
  intros F H. destruct (fifo_gen ops _ _ _ _ (rep_new cap) F H) as (s' & R & E).
  exists (s_items s'). split; auto. symmetry; apply (rep_size _ _ R).
Qed.

Lemma remove_reach cap ops outs s v :
  s_run eqb canexpand isrec ops (s_new cap) = Some (outs, s) ->
  exists q b q', m_run eqb rst canexpand isrec ops (qnew cap) = Ok (outs, q) /\ remove eqb q v = Ok (b, q') /\
    q_size q' = length (filter (fun x => negb (eqb x v)) (s_items s)) /\
    (forall i x, nth_error (filter (fun x => negb (eqb x v)) (s_items s)) i = Some x -> item q' i = Ok x) /\
    (~ (length (s_items s) = s_cap s /\ forallb (fun x => eqb x v) (s_items s) = true) ->
     b = existsb (fun x => eqb x v) (s_items s)).
Proof.
  intros H. destruct (new_run_ok eqb rst canexpand isrec _ _ _ _ H) as (q & Hq & R).
  destruct (remove_ok eqb rst q s v R) as (b & q' & H1 & R' & Hb).
  exists q, b, q'. repeat split; auto.
  - apply (rep_size _ _ R').
  - intros i x Hx. eapply item_ok; eauto.
  - intros Hn. subst b.
    assert (Ex : negb (forallb (fun x => negb (eqb x v)) (s_items s)) = existsb (fun x => eqb x v) (s_items s)).
    { clear. induction (s_items s) as [|x l IH]; simpl; auto. destruct (eqb x v); simpl; auto. }
    rewrite Ex. destruct (existsb (fun x => eqb x v) (s_items s)); auto. cbn [andb].
    apply negb_true_iff, andb_false_iff.
    destruct (Nat.eqb_spec (length (s_items s)) (s_cap s)) as [E|E]; auto. left.
    apply Nat.eqb_neq. intro Hl. apply Hn. split; auto.
    clear - Hl. induction (s_items s) as [|x l IH]; simpl in *; auto.
    destruct (eqb x v); simpl in *; [auto|discriminate].
Qed.

Lemma remove_item_reach cap ops outs s i :
  s_run eqb canexpand isrec ops (s_new cap) = Some (outs, s) ->
  exists q q', m_run eqb rst canexpand isrec ops (qnew cap) = Ok (outs, q) /\
    remove_item q i = Ok (i <? length (s_items s), q') /\
    q_size q' = length (firstn i (s_items s) ++ skipn (S i) (s_items s)) /\
    (forall k x, nth_error (firstn i (s_items s) ++ skipn (S i) (s_items s)) k = Some x -> item q' k = Ok x).
Proof.
  intros H. destruct (new_run_ok eqb rst canexpand isrec _ _ _ _ H) as (q & Hq & R).
  destruct (remove_item_ok eqb rst q s i R) as (q' & H1 & R').
  exists q, q'. repeat split; auto.
  - apply (rep_size _ _ R').
  - intros k x Hx. eapply item_ok; eauto.
Qed.

Lemma iterate_reach cap ops outs s :
  s_run eqb canexpand isrec ops (s_new cap) = Some (outs, s) -> s_items s <> [] ->
  exists q, m_run eqb rst canexpand isrec ops (qnew cap) = Ok (outs, q) /\ iterate q = Ok (s_items s).
Proof.
  intros H Hne. destruct (new_run_ok eqb rst canexpand isrec _ _ _ _ H) as (q & Hq & R).
  exists q. split; auto. apply (iterate_ok eqb rst); auto.
Qed.

Lemma run_reach cap ops outs s :
  s_run eqb canexpand isrec ops (s_new cap) = Some (outs, s) ->
  exists q, m_run eqb rst canexpand isrec ops (qnew cap) = Ok (outs, q).
Proof.
  intros H. destruct (new_run_ok eqb rst canexpand isrec _ _ _ _ H) as (q & Hq & R). eauto.
Qed.
End P2.
