(* Reading arbitrary bytes; field-map differences. *)
From Verif Require Import Common ListFacts Bytes RecordSpec RecordModel RecordMap RecordOut RecordIn.
Open Scope N_scope.

(* ---- arbitrary input ---- *)
Definition tot (s : rs) : N := r_pos s + lenN (r_rest s).

Lemma rread_tot s n s' d : rread s n = (s', d) -> tot s' = tot s.
Proof.
  unfold rread. destruct (N.ltb_spec (lenN (r_rest s)) n); intros E; injection E as <- <-; auto.
  unfold tot. cbn [r_pos r_rest]. rewrite lenN_dropN. lia.
Qed.

Lemma rnum_tot s k d s' x : rnum s k d = (s', x) -> tot s' = tot s.
Proof.
  unfold rnum. destruct (rread s (N.of_nat k)) as (s1, [b|]) eqn:E; intros H; injection H as <- <-; eapply rread_tot; eauto.
Qed.

Lemma rshift_tot s n s' b : rshift s n = (s', b) -> tot s' = tot s.
Proof.
  unfold rshift. destruct (N.ltb_spec (lenN (r_rest s)) n); intros E; injection E as <- <-; auto.
  unfold tot. cbn [r_pos r_rest]. rewrite lenN_dropN. lia.
Qed.

Lemma verify_in_tot s pos sz s' b : verify_in s pos sz = (s', b) -> tot s' = tot s.
Proof.
  unfold verify_in. repeat match goal with |- context [if ?c then _ else _] => destruct c end;
    intros H; try (injection H as <- <-; reflexivity). eapply rshift_tot; eauto.
Qed.

(* outcome which did not leave the stream *)
Definition safe {A} (t : N) (o : out (rs * A)) : Prop :=
  match o with Done (s, _) => tot s = t | Throw => True | Oob => False end.

Lemma safe_bind {A B} t (x : out (rs * A)) (f : rs * A -> out (rs * B)) :
  safe t x -> (forall s a, tot s = t -> safe t (f (s, a))) -> safe t (obind x f).
Proof. destruct x as [(s, a)| |]; cbn [obind safe]; auto. Qed.

Lemma cstr_end b : exists t, cstr (b ++ [0]) = Some t.
Proof.
  induction b as [|c b (t & IH)]; [exists []; reflexivity|]. cbn [app cstr]. rewrite IH.
  destruct (c =? 0); eauto.
Qed.

Lemma read_str_safe s : safe (tot s) (read_str [0] s).
Proof.
  unfold read_str. destruct (rnum s 4 0) as (s1, z) eqn:E1. apply rnum_tot in E1.
  destruct (_ <? _); [exact E1|]. destruct (cstr_end (r_rest s1)) as (t & ->).
  destruct (verify_in s1 (r_pos s) (z * 8)) as (s2, ok) eqn:E2. apply verify_in_tot in E2. cbn [safe]. congruence.
Qed.

Lemma scalar_safe s f k : safe (tot s) (Done (scalar_in s f k)).
Proof. unfold scalar_in. destruct (rread s 8) as (s', [b|]) eqn:E; apply rread_tot in E; exact E. Qed.

Lemma array_safe s f k : safe (tot s) (array_in s f k).
Proof.
  unfold array_in. destruct (rread s 8) as (s', [b|]) eqn:E; apply rread_tot in E; [|exact E].
  destruct (_ <=? _); [exact I|]. destruct (rread s' _) as (s2, [d|]) eqn:E2; apply rread_tot in E2; cbn [safe]; congruence.
Qed.

Lemma field_in_safe s : safe (tot s) (field_in s).
Proof.
  unfold field_in. destruct (rnum s 4 0) as (s1, z) eqn:E1. apply rnum_tot in E1.
  destruct (rnum s1 4 0) as (s2, kk) eqn:E2. apply rnum_tot in E2. cbv zeta.
  assert (T : tot s2 = tot s) by congruence. rewrite <- T. clear E1 E2.
  apply safe_bind.
  2:{ intros s3 v T3. destruct (verify_in s3 _ _) as (s4, ok) eqn:E. apply verify_in_tot in E. cbn [safe]. congruence. }
  destruct (_ =? 0); [reflexivity|]. destruct (_ =? 1); [apply scalar_safe|]. destruct (_ =? 2); [apply scalar_safe|].
  destruct (_ =? 3); [apply scalar_safe|]. destruct (_ =? 4); [apply scalar_safe|]. destruct (_ =? 5); [apply scalar_safe|].
  destruct (_ =? 6); [apply array_safe|]. destruct (_ =? 7); [apply array_safe|]. destruct (_ =? 8); [apply array_safe|].
  destruct (_ =? 9).
  { destruct (rread s2 _) as (s', [b|]) eqn:E; apply rread_tot in E; exact E. }
  destruct (_ =? 10).
  { destruct (rread s2 8) as (s', [b|]) eqn:E; apply rread_tot in E; [|exact E].
    destruct (rread s' _) as (s'', [d|]) eqn:E2; apply rread_tot in E2; cbn [safe]; congruence. }
  destruct (_ =? 11).
  { destruct (rnum s2 8 0) as (s', bsz) eqn:E. apply rnum_tot in E.
    destruct (rread s' _) as (s'', d) eqn:E2. apply rread_tot in E2.
    assert (tot s'' = tot s2) by congruence.
    repeat match goal with |- safe _ (if ?c then _ else _) => destruct c end; cbn [safe]; auto. }
  destruct (_ =? 12); reflexivity.
Qed.

Lemma entries_in_safe n : forall s m t, safe (tot s) (entries_in [0] n s m t).
Proof.
  induction n as [|n IH]; intros s m t; cbn [entries_in]; [reflexivity|].
  apply safe_bind; [apply read_str_safe|]. intros s1 (name, ok) T1.
  rewrite <- T1. apply safe_bind; [apply field_in_safe|]. intros s2 (v, ok2) T2. rewrite <- T2. apply IH.
Qed.

Lemma map_in_safe s prefix m : safe (tot s) (map_in [0] s prefix m).
Proof.
  unfold map_in. destruct (rnum s 4 0) as (s1, z) eqn:E1. apply rnum_tot in E1.
  destruct (rnum s1 4 0) as (s2, kk) eqn:E2. apply rnum_tot in E2. cbv zeta.
  assert (T : tot s2 = tot s) by congruence. rewrite <- T.
  apply safe_bind; [apply entries_in_safe|]. intros s3 (m1, touched) T3.
  destruct (verify_in s3 _ _) as (s4, ok) eqn:E. apply verify_in_tot in E. cbn [safe]. congruence.
Qed.

Lemma record_in_safe s old : safe (tot s) (record_in [0] s old).
Proof.
  unfold record_in. destruct (rnum s 8 0) as (s1, z) eqn:E1. apply rnum_tot in E1. rewrite <- E1.
  apply safe_bind; [apply read_str_safe|]. intros s2 (name, ok) T2. rewrite <- T2.
  apply safe_bind; [apply map_in_safe|]. intros s3 (m, ok3) T3.
  destruct (verify_in s3 _ _) as (s4, ok4) eqn:E. apply verify_in_tot in E. cbn [safe]. congruence.
Qed.

(* ---- differences ---- *)
Implicit Types m this current diff : fmap field.

Definition del_step (acc : fmap field * list bytes) (e : bytes * field) : fmap field * list bytes :=
  let '(m, del) := acc in
  if negb (has (fst e) m) then (m, del ++ [fst e])
  else if negb (f_mod (snd e)) then (mdel (fst e) m, del)
  else (m, del).

Lemma del_step_spec (c : fmap field) : NoDup (keys c) -> forall m del, msorted m ->
  let '(m', del') := fold_left del_step c (m, del) in
  msorted m' /\
  (forall k, mget k m' = match mget k c with Some g => if f_mod g then mget k m else None | None => mget k m end) /\
  (forall k, In k del' <-> In k del \/ (In k (keys c) /\ mget k m = None)).
Proof.
  induction c as [|(k1, g) c IH]; intros ND m del MS.
  - cbn [fold_left]. split; auto. split; auto. intros k. cbn. tauto.
  - cbn [keys map fst] in ND. inversion ND as [|? ? NI ND2]; subst. cbn [fold_left].
    assert (MG : forall k, mget k ((k1, g) :: c) = if beqb k k1 then Some g else mget k c) by reflexivity.
    assert (KI : forall k, In k (keys ((k1, g) :: c)) <-> k = k1 \/ In k (keys c)).
    { intros k. cbn [keys map fst In]. intuition. }
    unfold del_step at 2. cbn [fst snd]. unfold has.
    destruct (mget k1 m) as [f1|] eqn:G1; cbn [negb].
    + destruct (f_mod g) eqn:FM; cbn [negb].
      * specialize (IH ND2 m del MS). destruct (fold_left del_step c (m, del)) as (m', del').
        destruct IH as (I1 & I2 & I3). split; auto. split.
        -- intros k. rewrite I2, MG. destruct (beqb_spec k k1) as [->|N]; auto.
           rewrite (mget_none_keys k1 c) by auto. rewrite FM. auto.
        -- intros k. rewrite I3, KI. intuition; subst; congruence.
      * specialize (IH ND2 (mdel k1 m) del (mdel_sorted _ _ MS)).
        destruct (fold_left del_step c (mdel k1 m, del)) as (m', del').
        destruct IH as (I1 & I2 & I3). split; auto.
        assert (MD : forall k, mget k (mdel k1 m) = if beqb k k1 then None else mget k m).
        { intros k. apply mget_mdel. apply msorted_nodup. auto. }
        split.
        -- intros k. rewrite I2, MG, MD. destruct (beqb_spec k k1) as [->|N]; auto.
           rewrite (mget_none_keys k1 c) by auto. rewrite FM. auto.
        -- intros k. rewrite I3, KI, MD. destruct (beqb_spec k k1) as [->|N]; intuition; subst; congruence.
    + specialize (IH ND2 m (del ++ [k1]) MS). destruct (fold_left del_step c (m, del ++ [k1])) as (m', del').
      destruct IH as (I1 & I2 & I3). split; auto. split.
      * intros k. rewrite I2, MG. destruct (beqb_spec k k1) as [->|N]; auto.
        rewrite (mget_none_keys k1 c) by auto. rewrite G1. destruct (f_mod g); auto.
      * intros k. rewrite I3, KI, in_app_iff. cbn [In]. intuition; subst; auto.
Qed.

Lemma deqb_same a b : deqb a b = true -> same_val (VDouble a) (VDouble b).
Proof.
  unfold deqb. rewrite !andb_true_iff, orb_true_iff. intros (_ & [E|E]).
  - apply N.eqb_eq in E. subst. left. reflexivity.
  - apply andb_true_iff in E. destruct E as (E1 & E2). apply N.eqb_eq in E1, E2.
    change 9223372036854775807 with (N.ones 63) in *. rewrite N.land_ones in *. right. eauto 10.
Qed.

Lemma set_value_same f v : settable v -> same_val (f_val (set_value f v)) v.
Proof.
  intros (P & S). unfold set_value. cbv zeta.
  destruct v as [|w|w|w|w|w|l|l|l|b|l|b| | |]; try contradiction; try (left; reflexivity);
    try (destruct l as [|x l]; [congruence|]);
    destruct (f_val f) as [|w'|w'|w'|w'|w'|l'|l'|l'|b'|l'|b'| | |] eqn:EV; try (left; reflexivity);
    try (left; exact EV).
  all: try (left; cbn [f_val]; destruct (N.eqb_spec w 0); [subst; reflexivity|replace w with 1 by lia; reflexivity]).
  all: try (destruct (N.eqb_spec w' w) as [->|]; left; [exact EV|reflexivity]).
  all: try (match goal with |- context [beqb ?a ?b] => destruct (beqb_spec a b) as [->|] end; left; [exact EV|reflexivity]).
  - left. destruct (N.eqb_spec w 0) as [->|].
    + destruct (N.eqb_spec w' 0) as [->|]; [exact EV|reflexivity].
    + replace w with 1 by lia. destruct (N.eqb_spec w' 1) as [->|]; [exact EV|reflexivity].
  - destruct (deqb w' w) eqn:D; [|left; reflexivity]. rewrite EV. apply deqb_same. auto.
Qed.

Definition apply_step (m : fmap field) (e : bytes * field) : fmap field :=
  if negb (beqb (fst e) del_name) then
    let old := match mget (fst e) m with Some f => f | None => mkF VNone false end in
    mset (fst e) (mkF (f_val (set_value old (f_val (snd e)))) true) m
  else fold_left (fun m k => mdel k m) (as_strvect (f_val (snd e))) m.

Lemma fold_mdel_sorted (l : list bytes) : forall m, msorted m -> msorted (fold_left (fun m k => mdel k m) l m).
Proof. induction l as [|k l IH]; intros m H; cbn [fold_left]; auto. apply IH. apply mdel_sorted. auto. Qed.

Lemma mget_fold_mdel (l : list bytes) : forall m, msorted m -> forall k,
  mget k (fold_left (fun m k => mdel k m) l m) = if memb k l then None else mget k m.
Proof.
  induction l as [|k1 l IH]; intros m H k; cbn [fold_left]; auto.
  rewrite IH by (apply mdel_sorted; auto). rewrite mget_mdel by (apply msorted_nodup; auto).
  unfold memb. cbn [existsb]. destruct (beqb k k1); cbn [orb]; auto. destruct (existsb (beqb k) l); auto.
Qed.

(* names deleted by a difference *)
Definition del_list (d : fmap field) : list bytes :=
  match mget del_name d with Some f => as_strvect (f_val f) | None => [] end.

Lemma apply_spec (d : fmap field) : NoDup (keys d) -> forall m, msorted m ->
  (forall k, In k (del_list d) -> ~ In k (keys d)) ->
  (forall k f, In (k, f) d -> k <> del_name -> settable (f_val f)) ->
  forall k, k <> del_name ->
  match mget k d with
  | Some f => exists g, mget k (fold_left apply_step d m) = Some g /\ same_val (f_val g) (f_val f) /\ f_mod g = true
  | None => mget k (fold_left apply_step d m) = if memb k (del_list d) then None else mget k m
  end.
Proof.
  induction d as [|(k1, f1) d IH]; intros ND m MS DJ PS k NK.
  - cbn [mget fold_left]. unfold del_list. reflexivity.
  - cbn [keys map fst] in ND. inversion ND as [|? ? NI ND2]; subst. cbn [fold_left].
    assert (MG : forall k, mget k ((k1, f1) :: d) = if beqb k k1 then Some f1 else mget k d) by reflexivity.
    unfold apply_step at 2 4. cbn [fst snd].
    destruct (beqb_spec k1 del_name) as [E1|N1]; cbn [negb].
    + (* the deletion entry *)
      subst k1. set (L := as_strvect (f_val f1)) in *.
      assert (DL : del_list ((del_name, f1) :: d) = L).
      { unfold del_list. rewrite MG, beqb_refl. reflexivity. }
      assert (DL0 : del_list d = []). { unfold del_list. rewrite mget_none_keys by auto. reflexivity. }
      rewrite DL in *.
      specialize (IH ND2 (fold_left (fun m k => mdel k m) L m) (fold_mdel_sorted L m MS)).
      rewrite DL0 in IH. specialize (IH (fun k H => match H with end)).
      specialize (IH (fun k f H => PS k f (or_intror H)) k NK).
      rewrite MG. destruct (beqb_spec k del_name) as [->|N]; [congruence|].
      destruct (mget k d); auto. rewrite IH. cbn [memb existsb]. apply mget_fold_mdel. auto.
    + set (old := match mget k1 m with Some f => f | None => mkF VNone false end).
      set (m1 := mset k1 (mkF (f_val (set_value old (f_val f1))) true) m).
      assert (S1 : msorted m1) by (apply mset_sorted; auto).
      assert (DL : del_list ((k1, f1) :: d) = del_list d).
      { unfold del_list. rewrite MG. destruct (beqb_spec del_name k1); [congruence|]. auto. }
      rewrite DL in *.
      specialize (IH ND2 m1 S1).
      specialize (IH (fun k H HI => DJ k H (or_intror HI))).
      specialize (IH (fun k f H => PS k f (or_intror H)) k NK).
      rewrite MG. destruct (beqb_spec k k1) as [->|N].
      * rewrite (mget_none_keys k1 d) in IH by auto. rewrite IH.
        destruct (memb_spec k1 (del_list d)) as [I|_].
        { exfalso. apply (DJ k1 I). left. reflexivity. }
        unfold m1. rewrite mget_mset by auto. rewrite beqb_refl. eexists. split; [reflexivity|]. cbn [f_val f_mod].
        split; auto. apply set_value_same. apply (PS k1 f1); auto. left. reflexivity.
      * destruct (mget k d); auto. rewrite IH. destruct (memb k (del_list d)); auto.
        unfold m1. rewrite mget_mset by auto. destruct (beqb_spec k k1); [congruence|]. auto.
Qed.

Lemma apply_sorted (d : fmap field) : forall m, msorted m -> msorted (fold_left apply_step d m).
Proof.
  induction d as [|(k1, f1) d IH]; intros m MS; cbn [fold_left]; auto. apply IH. unfold apply_step. cbn [fst snd].
  destruct (negb _); [apply mset_sorted; auto|apply fold_mdel_sorted; auto].
Qed.

Lemma make_diff_spec this current : msorted this -> msorted current ->
  mget del_name this = None -> mget del_name current = None ->
  let d := make_diff this current in
  msorted d /\
  (forall k, k <> del_name -> mget k d = match mget k current with
     | Some g => if f_mod g then mget k this else None | None => mget k this end) /\
  (forall k, In k (del_list d) <-> (In k (keys current) /\ mget k this = None)).
Proof.
  intros S1 S2 D1 D2. unfold make_diff. cbv zeta.
  change (fun (acc : fmap field * list bytes) e => _) with del_step.
  pose proof (del_step_spec current (msorted_nodup _ S2) this [] S1) as H.
  destruct (fold_left del_step current (this, [])) as (m', del'). destruct H as (H1 & H2 & H3).
  assert (DM : mget del_name m' = None). { rewrite H2, D2. auto. }
  destruct del' as [|x del'].
  - split; auto. split; auto. intros k. unfold del_list. rewrite DM. rewrite <- (H3 k) || (specialize (H3 k); cbn [In] in *; tauto).
  - rewrite DM. cbn [f_val]. split; [apply mset_sorted; auto|]. split.
    + intros k NK. rewrite mget_mset by auto. destruct (beqb_spec k del_name); [congruence|]. apply H2.
    + intros k. unfold del_list. rewrite mget_mset by auto. rewrite beqb_refl. cbn [f_val as_strvect].
      rewrite H3. cbn [In]. tauto.
Qed.

Lemma diff_apply this current : msorted this -> msorted current ->
  mget del_name this = None -> mget del_name current = None ->
  (forall k f, mget k this = Some f -> settable (f_val f)) ->
  (forall k f g, mget k this = Some f -> mget k current = Some g -> f_mod g = false -> f_val g = f_val f) ->
  let r := apply_diff current (make_diff this current) in
  msorted r /\
  forall k, k <> del_name ->
  match mget k this with
  | Some f => exists g, mget k r = Some g /\ same_val (f_val g) (f_val f)
  | None => mget k r = None
  end.
Proof.
  intros S1 S2 D1 D2 PS FL. cbv zeta. unfold apply_diff. change (fun (m : fmap field) e => _) with apply_step.
  destruct (make_diff_spec this current S1 S2 D1 D2) as (M1 & M2 & M3). cbv zeta in *.
  set (d := make_diff this current) in *. split; [apply apply_sorted; auto|].
  intros k NK.
  pose proof (apply_spec d (msorted_nodup _ M1) current S2) as HA.
  assert (DJ : forall k0, In k0 (del_list d) -> ~ In k0 (keys d)).
  { intros k0 I1 I2. apply M3 in I1. destruct I1 as (C1 & C2).
    destruct (beqb_spec k0 del_name) as [->|N].
    - apply keys_mget in C1. destruct C1 as (v & C1). congruence.
    - apply keys_mget in I2. destruct I2 as (v & I2). rewrite M2 in I2 by auto. rewrite C2 in I2.
      destruct (mget k0 current) as [g|]; [destruct (f_mod g)|]; congruence. }
  assert (PD : forall k0 f, In (k0, f) d -> k0 <> del_name -> settable (f_val f)).
  { intros k0 f I1 N. apply (in_mget _ _ _ (msorted_nodup _ M1)) in I1. rewrite M2 in I1 by auto.
    apply (PS k0). destruct (mget k0 current) as [g|]; [destruct (f_mod g)|]; congruence. }
  specialize (HA DJ PD k NK). rewrite M2 in HA by auto.
  destruct (mget k this) as [f|] eqn:GT.
  - destruct (mget k current) as [g|] eqn:GC.
    + destruct (f_mod g) eqn:FM.
      * destruct HA as (g' & E1 & E2 & _). eauto.
      * rewrite HA. destruct (memb_spec k (del_list d)) as [I|_].
        { apply M3 in I. destruct I. congruence. }
        exists g. split; auto. left. eapply FL; eauto.
    + destruct HA as (g' & E1 & E2 & _). eauto.
  - assert (NC : mget k (fold_left apply_step d current) = if memb k (del_list d) then None else mget k current).
    { destruct (mget k current) as [g|]; [destruct (f_mod g)|]; auto. }
    rewrite NC. destruct (memb_spec k (del_list d)) as [_|N]; auto.
    destruct (mget k current) as [g|] eqn:GC; auto. exfalso. apply N. apply M3. split; auto. eapply mget_some_keys; eauto.
Qed.
