From Verif Require Import Common ThreadSpec ThreadModel.

(* ---- EventId ---- *)
Lemma lor_add_shift (a b n : N) : (b < 2 ^ n)%N -> N.lor (N.shiftl a n) b = (a * 2 ^ n + b)%N.
Proof.
  intros H. rewrite N.shiftl_mul_pow2. symmetry.
  assert (D : N.land (a * 2 ^ n) b = 0%N).
  { apply N.bits_inj. intro i. rewrite N.land_spec, N.bits_0.
    destruct (N.lt_ge_cases i n) as [L|L].
    - rewrite N.mul_pow2_bits_low; auto.
    - replace (N.testbit b i) with false; [apply andb_false_r|].
      symmetry. destruct (N.eq_dec b 0) as [->|Hb]; [apply N.bits_0|].
      apply N.bits_above_log2. apply N.lt_le_trans with n; auto. apply N.log2_lt_pow2; lia. }
  rewrite <- N.lxor_lor by exact D. apply N.add_nocarry_lxor. exact D.
Qed.

Lemma ev_make3_val code item arg : (code < 65536 -> arg < 4294967296 ->
  ev_make3 code item arg = item * 281474976710656 + arg * 65536 + code)%N.
Proof.
  intros Hc Ha. unfold ev_make3.
  replace (N.shiftl item 48) with (N.shiftl (N.shiftl item 32) 16) by (rewrite N.shiftl_shiftl; reflexivity).
  rewrite <- N.shiftl_lor. rewrite !lor_add_shift.
  - change (2 ^ 32)%N with 4294967296%N. change (2 ^ 16)%N with 65536%N. lia.
  - exact Ha.
  - exact Hc.
Qed.

Lemma land_mod_small v n : N.land v (N.ones n) = N.modulo v (2 ^ n).
Proof. apply N.land_ones. Qed.

Lemma ev_parts v : (v < 2 ^ 64)%N -> ev_code v = N.modulo v 65536 /\ ev_item v = N.div v 281474976710656 /\
  ev_arg v = N.modulo (N.div v 65536) 4294967296.
Proof.
  intros Hv. unfold ev_code, ev_item, ev_arg.
  change 0xffff%N with (N.ones 16). change 0xffffffff%N with (N.ones 32).
  rewrite !N.land_ones, !N.shiftr_div_pow2.
  change (2 ^ 48)%N with 281474976710656%N. change (2 ^ 32)%N with 4294967296%N. change (2 ^ 16)%N with 65536%N.
  split; [|split].
  - apply N.mod_mod. lia.
  - apply N.mod_small. apply N.div_lt_upper_bound; [lia|]. exact Hv.
  - apply N.mod_mod. lia.
Qed.

Lemma event_roundtrip code item arg : (code < 65536 -> item < 65536 -> arg < 4294967296 ->
  ev_make3 code item arg < 2 ^ 64 /\
  ev_code (ev_make3 code item arg) = code /\ ev_item (ev_make3 code item arg) = item /\
  ev_arg (ev_make3 code item arg) = arg)%N.
Proof.
  intros Hc Hi Ha. rewrite ev_make3_val; auto.
  assert (B : (item * 281474976710656 + arg * 65536 + code < 2 ^ 64)%N).
  { change (2 ^ 64)%N with 18446744073709551616%N. lia. }
  split; auto. destruct (ev_parts _ B) as (-> & -> & ->).
  replace (item * 281474976710656 + arg * 65536 + code)%N with (code + (item * 4294967296 + arg) * 65536)%N by lia.
  split; [|split].
  - rewrite N.mod_add by lia. apply N.mod_small; auto.
  - replace (code + (item * 4294967296 + arg) * 65536)%N with (arg * 65536 + code + item * 281474976710656)%N by lia.
    rewrite N.div_add by lia. rewrite N.div_small by lia. lia.
  - rewrite N.div_add by lia. rewrite (N.div_small code) by lia.
    replace (0 + (item * 4294967296 + arg))%N with (arg + item * 4294967296)%N by lia.
    rewrite N.mod_add by lia. apply N.mod_small; auto.
Qed.

Lemma event_roundtrip_back v : (v < 2 ^ 64)%N -> ev_make3 (ev_code v) (ev_item v) (ev_arg v) = v.
Proof.
  intros Hv. destruct (ev_parts v Hv) as (E1 & E2 & E3).
  rewrite ev_make3_val.
  - rewrite E1, E2, E3.
    replace 281474976710656%N with (65536 * 4294967296)%N by reflexivity.
    rewrite <- N.div_div by lia.
    pose proof (N.div_mod v 65536). pose proof (N.div_mod (v / 65536) 4294967296). lia.
  - rewrite E1. apply N.mod_lt. lia.
  - rewrite E3. apply N.mod_lt. lia.
Qed.

Lemma event_short code item : ev_make2 code item = ev_make3 code item 0 /\ ev_make1 code = ev_make3 code 0 0.
Proof.
  unfold ev_make2, ev_make1, ev_make3. cbn [N.shiftl]. rewrite N.lor_0_r. split; auto.
Qed.

(* ---- queues ---- *)
Local Open Scope Z_scope.
Section P.
Context {E : Type}.
Implicit Types (l la lb lc : list E) (t : thr E).

Definition sc_ok (q : equeue E) := 1 <= e_scaler q <= 8.

Record TInv (t : thr E) : Prop := {
  ti_len : length (t_queues t) = 3%nat;
  ti_sc : Forall sc_ok (t_queues t);
  ti_cnt : t_fired t = Z.of_nat (total t);
  ti_sig : t_wait t <> None -> (0 < total t)%nat -> t_sig t = true }.

(* what must still be waited for until [n] events left queue [q] *)
Definition vis (n : nat) (s : Z) : Z := Z.of_nat n + (Z.of_nat n + 7 - s) / 7.
Definition scal (t : thr E) (q : nat) : Z := match nth_error (t_queues t) q with Some x => e_scaler x | None => 0 end.
Definition phi (q : nat) (t : thr E) (n : nat) : Z :=
  match n with
  | O => 0
  | _ => match q with
         | O => vis n (scal t 0)
         | S O => scal t 0 + 8 * (vis n (scal t 1) - 1)
         | _ => scal t 0 + 8 * (scal t 1 - 1) + 64 * (vis n (scal t 2) - 1)
         end
  end.

Lemma three t : length (t_queues t) = 3%nat -> exists a b c, t_queues t = [a; b; c].
Proof.
  destruct (t_queues t) as [|a [|b [|c [|d r]]]]; try discriminate. eauto.
Qed.

(* effect of _GetNextEvent on non-empty queues *)
Lemma get_next_ok (a b c : equeue E) fz w sg :
  sc_ok a -> sc_ok b -> sc_ok c ->
  (0 < total (mkT [a; b; c] fz w sg))%nat ->
  exists q e a' b' c', get_next [a; b; c] = (Some (q, e), [a'; b'; c']) /\ (q < 3)%nat /\
    sc_ok a' /\ sc_ok b' /\ sc_ok c' /\
    let t := mkT [a; b; c] fz w sg in let t' := mkT [a'; b'; c'] (fz - 1) None false in
    (forall j, queued t j = if (j =? q)%nat then e :: queued t' j else queued t' j) /\
    (forall j n, (j < 3)%nat -> (n <= length (queued t j))%nat ->
       (if (j =? q)%nat then phi j t' (n - 1) + 1 <= phi j t n \/ (n <= 1)%nat else (0 < n)%nat -> phi j t' n + 1 <= phi j t n)).
Proof.
  destruct a as [la sa], b as [lb sb], c as [lc sc]. unfold sc_ok. cbn [e_scaler e_items].
  intros Ha Hb Hc Ht. unfold total, queued in Ht. cbn [nth_error t_queues e_items] in Ht.
  unfold get_next. cbn [pass1 e_items e_scaler].
  assert (V : forall n s, (0 < n)%nat -> vis n s = Z.of_nat n + (Z.of_nat n + 7 - s) / 7) by reflexivity.
  destruct la as [|ea la]; destruct lb as [|eb lb]; destruct lc as [|ec lc]; cbn [length] in Ht; try (exfalso; cbn in Ht; lia);
  repeat match goal with
         | |- context [0 <? ?s - 1] => destruct (Z.ltb_spec 0 (s - 1)); cbn [shift_idx pass2 e_items e_scaler]
         end;
  do 5 eexists; (split; [reflexivity|]);
  (split; [lia|]); (split; [cbn [e_scaler]; lia|]); (split; [cbn [e_scaler]; lia|]); (split; [cbn [e_scaler]; lia|]);
  cbn zeta; (split; [intros [|[|[|j]]]; reflexivity|]).
  all: intros [|[|[|j]]] n Hj Hn; try (exfalso; lia); cbn [Nat.eqb]; unfold queued in Hn; cbn [t_queues nth_error e_items length] in Hn;
    unfold phi, scal; cbn [t_queues nth_error e_scaler]; unfold vis;
    try (intro Hn0); destruct n as [|n]; cbn [Nat.sub]; try (exfalso; lia); rewrite ?Nat.sub_0_r; try (right; lia).
  all: try (destruct n as [|n]; [right; lia|left]).
  all: try lia.
  all: Z.div_mod_to_equations; lia.
Qed.

Lemma queued_upd qs i q j fz w sg : (i < length qs)%nat ->
  queued (mkT (upd qs i q) fz w sg) j = if (j =? i)%nat then e_items q else @queued E (mkT qs fz w sg) j.
Proof.
  intros Hi. unfold queued. cbn [t_queues]. destruct (Nat.eqb_spec j i) as [->|Hn].
  - rewrite nth_error_upd_same; auto.
  - rewrite nth_error_upd_other; auto.
Qed.

Lemma wait_end_ok t : TInv t ->
  exists x t', wait_end t = (t', x) /\ TInv t' /\ t_wait t' = None /\
    (x = None -> (total t = 0)%nat) /\
    (forall j, (j < 3)%nat -> queued t j = match x with Some (q, e) => if (q =? j)%nat then [e] else [] | None => [] end ++ queued t' j) /\
    (forall j n, (j < 3)%nat -> (n <= length (queued t j))%nat ->
       match x with
       | None => True
       | Some (q, e) => if (q =? j)%nat then phi j t' (n - 1) + 1 <= phi j t n \/ (n <= 1)%nat
                        else (0 < n)%nat -> phi j t' n + 1 <= phi j t n
       end) /\
    match x with Some (q, e) => (q < 3)%nat | None => t' = mkT (t_queues t) (t_fired t) None false end.
Proof.
  intros I. unfold wait_end. pose proof (ti_cnt _ I) as C.
  destruct (Z.ltb_spec 0 (t_fired t)).
  - destruct (three t (ti_len _ I)) as (a & b & c & E0). rewrite E0.
    pose proof (ti_sc _ I) as SS. rewrite E0 in SS. inversion SS as [|? ? S1 S']; subst. inversion S' as [|? ? S2 S'']; subst. inversion S'' as [|? ? S3 _]; subst.
    destruct t as [qs fz w sg]. cbn [t_queues t_fired] in *. subst qs.
    assert (T0 : (0 < total (mkT [a; b; c] fz w sg))%nat) by lia.
    destruct (get_next_ok a b c fz w sg S1 S2 S3 T0) as (q & e & a' & b' & c' & -> & Hq & S1' & S2' & S3' & HQ & HP).
    eexists (Some (q, e)), _. split; [reflexivity|].
    assert (TT : total (mkT [a; b; c] fz w sg) = S (total (mkT [a'; b'; c'] (fz - 1) None false))).
    { unfold total. rewrite !HQ. destruct q as [|[|[|q]]]; try lia; cbn [Nat.eqb length]; lia. }
    split; [|split; [reflexivity|split; [discriminate|split; [|split]]]].
    + constructor; cbn [t_queues t_fired t_wait]; auto; try lia; try congruence.
    + intros j Hj. rewrite HQ. rewrite (Nat.eqb_sym q j). destruct (j =? q)%nat; reflexivity.
    + intros j n Hj Hn. specialize (HP j n Hj Hn). rewrite (Nat.eqb_sym q j). exact HP.
    + exact Hq.
  - eexists None, _. split; [reflexivity|]. split; [|split; [reflexivity|split; [|split; [|split]]]]; auto.
    all: try (intros _; lia).
    destruct I as [I1 I2 I3 I4]. constructor; cbn [t_queues t_fired t_wait]; auto; congruence.
Qed.

Lemma fire_ok t nq e : TInv t -> nq < 3 ->
  exists t', fire t nq e = Ok t' /\ TInv t' /\ t_wait t' = t_wait t /\
    (forall j, (j < 3)%nat -> queued t' j = queued t j ++ (if (prio_queue nq =? j)%nat then [e] else [])) /\
    (forall j n, phi j t' n = phi j t n).
Proof.
  intros I Hq. unfold fire, push_event. rewrite (ti_len _ I). cbn [Z.of_nat Pos.of_succ_nat Pos.succ].
  set (i := Z.to_nat (if nq <? 0 then 3 - 1 else nq)).
  assert (Ei : prio_queue nq = i).
  { unfold prio_queue, i. destruct (Z.ltb_spec nq 0); auto. }
  assert (Li : (i < 3)%nat) by (unfold i; destruct (Z.ltb_spec nq 0); lia).
  destruct (nth_error (t_queues t) i) as [q|] eqn:En; [|apply nth_error_None in En; rewrite (ti_len _ I) in En; lia].
  cbn [bind].
  eexists. split; [reflexivity|].
  assert (Lq : (i < length (t_queues t))%nat) by (rewrite (ti_len _ I); lia).
  assert (Qi : queued t i = e_items q) by (unfold queued; rewrite En; reflexivity).
  set (t' := mkT _ _ _ _).
  assert (HQ : forall j, queued t' j = if (j =? i)%nat then queued t i ++ [e] else queued t j).
  { intro j. unfold t'. rewrite queued_upd by exact Lq. cbn [e_items]. rewrite <- Qi.
    destruct (j =? i)%nat; reflexivity. }
  assert (HT : total t' = S (total t)).
  { unfold total. rewrite !HQ. destruct i as [|[|[|i]]]; try lia; cbn [Nat.eqb]; rewrite app_length; cbn [length]; lia. }
  split; [|split; [reflexivity|split]].
  - destruct I as [I1 I2 I3 I4]. constructor.
    + unfold t'; cbn [t_queues]. rewrite upd_length. exact I1.
    + unfold t'; cbn [t_queues]. apply Forall_forall. intros y Hy.
      apply In_nth_error in Hy. destruct Hy as [k Hk].
      rewrite Forall_forall in I2. destruct (Nat.eq_dec k i) as [->|Hn].
      * rewrite nth_error_upd_same in Hk by exact Lq. injection Hk as <-.
        apply (I2 q). eapply nth_error_In; eauto.
      * rewrite nth_error_upd_other in Hk by auto. apply I2. eapply nth_error_In; eauto.
    + rewrite HT. unfold t'; cbn [t_fired]. lia.
    + unfold t'; cbn [t_wait t_sig]. intros Hw _. destruct (t_wait t); congruence.
  - intros j Hj. rewrite HQ, Ei, (Nat.eqb_sym i j). destruct (Nat.eqb_spec j i) as [->|]; [reflexivity|]. rewrite app_nil_r. reflexivity.
  - intros j n. assert (HS : forall k, scal t' k = scal t k).
    { intro k. unfold scal, t'; cbn [t_queues]. destruct (Nat.eq_dec k i) as [->|Hn].
      - rewrite nth_error_upd_same by exact Lq. rewrite En. reflexivity.
      - rewrite nth_error_upd_other by auto. reflexivity. }
    unfold phi. rewrite !HS. reflexivity.
Qed.

Definition out1 (q : nat) (o : tout E) : list E := returned_from q [o].

Lemma step_ok t a : TInv t -> valid_prio a ->
  exists t' o, t_step t a = Ok (t', o) /\ TInv t' /\
    (forall j, (j < 3)%nat -> queued t j ++ fired_into j [a] = out1 j o ++ queued t' j) /\
    (o = TReturn None -> total t = 0)%nat /\
    (forall j n, (j < 3)%nat -> (n <= length (queued t j))%nat ->
      match o with
      | TReturn (Some (q, e)) => if (q =? j)%nat then phi j t' (n - 1) + 1 <= phi j t n \/ (n <= 1)%nat
                                 else (0 < n)%nat -> phi j t' n + 1 <= phi j t n
      | _ => phi j t' n = phi j t n
      end).
Proof.
  intros I V.
  assert (W : exists x t', wait_end t = (t', x) /\ TInv t' /\
     (forall j, (j < 3)%nat -> queued t j ++ [] = out1 j (TReturn x) ++ queued t' j) /\
     (TReturn x = TReturn None -> total t = 0)%nat /\
     (forall j n, (j < 3)%nat -> (n <= length (queued t j))%nat ->
      match x with
      | Some (q, e) => if (q =? j)%nat then phi j t' (n - 1) + 1 <= phi j t n \/ (n <= 1)%nat
                                 else (0 < n)%nat -> phi j t' n + 1 <= phi j t n
      | None => phi j t' n = phi j t n
      end)).
  { destruct (wait_end_ok t I) as (x & t' & E1 & I' & W' & N & HQ & HP & HX).
    exists x, t'. split; [exact E1|]. split; [exact I'|]. split; [|split].
    - intros j Hj. rewrite app_nil_r. rewrite (HQ j Hj). f_equal. unfold out1, returned_from. cbn [flat_map].
      destruct x as [[q e]|]; auto. rewrite app_nil_r. reflexivity.
    - intros Hx. injection Hx as ->. apply N; reflexivity.
    - intros j n Hj Hn. specialize (HP j n Hj Hn). destruct x as [[q e]|]; auto. rewrite HX. reflexivity. }
  assert (Same : forall w sg, (w <> None -> (0 < total t)%nat -> sg = true) ->
     let t' := mkT (t_queues t) (t_fired t) w sg in TInv t' /\
     (forall j, (j < 3)%nat -> queued t j ++ [] = out1 j TNothing ++ queued t' j) /\
     (TNothing (E:=E) = TReturn None -> total t = 0)%nat /\ (forall j n, (j < 3)%nat -> (n <= length (queued t j))%nat -> phi j t' n = phi j t n)).
  { intros w sg Hs t'. destruct I as [I1 I2 I3 I4]. split; [constructor; auto|]. split; [|split; [discriminate|auto]].
    intros; rewrite app_nil_r. reflexivity. }
  assert (Id : TInv t /\
     (forall j, (j < 3)%nat -> queued t j ++ [] = out1 j TNothing ++ queued t j) /\
     (TNothing (E:=E) = TReturn None -> total t = 0)%nat /\ (forall j n, (j < 3)%nat -> (n <= length (queued t j))%nat -> phi j t n = phi j t n)).
  { split; auto. split; [intros; rewrite app_nil_r; reflexivity|]. split; [discriminate|auto]. }
  destruct a as [p e|m|r]; cbn [valid_prio] in V.
  - destruct (fire_ok t p e I V) as (t' & E1 & I' & W' & HQ & HP).
    cbn [t_step]. rewrite E1. cbn [bind]. exists t', TNothing. split; [reflexivity|]. split; [exact I'|]. split; [|split].
    + intros j Hj. rewrite (HQ j Hj). unfold fired_into, out1, returned_from. cbn [flat_map app]. rewrite app_nil_r. reflexivity.
    + discriminate.
    + intros. apply HP.
  - cbn [t_step]. destruct W as (x & t' & E1 & W).
    destruct (t_wait t) eqn:Ew.
    + exists t, TNothing. split; auto.
    + destruct (Z.eqb_spec (t_fired t) 0) as [Ef|Ef].
      * destruct m.
        { rewrite E1. exists t', (TReturn x). split; auto. }
        { eexists _, TNothing. split; [reflexivity|]. apply Same. intros _ Ht. rewrite (ti_cnt _ I) in Ef. lia. }
        { eexists _, TNothing. split; [reflexivity|]. apply Same. intros _ Ht. rewrite (ti_cnt _ I) in Ef. lia. }
      * rewrite E1. exists t', (TReturn x). split; auto.
  - cbn [t_step]. destruct W as (x & t' & E1 & W).
    destruct (t_wait t) eqn:Ew.
    + destruct (match r with WSignal => _ | _ => _ end).
      * rewrite E1. exists t', (TReturn x). split; auto.
      * exists t, TNothing. split; auto.
    + exists t, TNothing. split; auto.
Qed.

Lemma fired_cons j a (l : list (tact E)) : fired_into j (a :: l) = fired_into j [a] ++ fired_into (E:=E) j l.
Proof. unfold fired_into. cbn [flat_map]. rewrite app_nil_r. reflexivity. Qed.
Lemma returned_cons j o (l : list (tout E)) : returned_from j (o :: l) = out1 j o ++ returned_from (E:=E) j l.
Proof. unfold out1, returned_from. cbn [flat_map]. rewrite app_nil_r. reflexivity. Qed.

Lemma run_ok (l : list (tact E)) : forall t, TInv t -> Forall valid_prio l ->
  exists outs t', t_run t l = Ok (outs, t') /\ TInv t' /\
    (forall j, (j < 3)%nat -> queued t j ++ fired_into j l = returned_from j outs ++ queued t' j) /\
    (forall j n, (j < 3)%nat -> (n <= length (queued t j))%nat -> phi j t n <= Z.of_nat (num_returned outs) ->
       (n <= length (returned_from j outs))%nat).
Proof.
  induction l as [|a l IH]; intros t I F; cbn [t_run].
  - exists [], t. split; auto. split; auto. split; [intros; apply app_nil_r|].
    intros j n Hj Hn Hp. cbn [returned_from flat_map length num_returned filter] in *.
    destruct n; auto. exfalso.
    destruct (three t (ti_len _ I)) as (qa & qb & qc & E0). destruct I as [I1 I2 I3 I4]. rewrite E0 in I2.
    inversion I2 as [|? ? S1 S']; subst. inversion S' as [|? ? S2 S'']; subst. inversion S'' as [|? ? S3 _]; subst.
    unfold sc_ok in *. unfold phi, scal in Hp. rewrite E0 in Hp. cbn [nth_error] in Hp. unfold vis in Hp. cbn [num_returned filter length] in Hp.
    change (num_returned []) with O in Hp.
    destruct j as [|[|[|j]]]; try lia; Z.div_mod_to_equations; lia.
  - inversion F as [|? ? V F']; subst.
    destruct (step_ok t a I V) as (t1 & o & E1 & I1 & Q1 & N1 & P1).
    destruct (IH t1 I1 F') as (outs & t2 & E2 & I2 & Q2 & P2).
    rewrite E1. cbn [bind]. rewrite E2. cbn [bind]. exists (o :: outs), t2. split; [reflexivity|]. split; [exact I2|]. split.
    + intros j Hj. rewrite fired_cons, returned_cons, app_assoc, (Q1 j Hj), <- !app_assoc, (Q2 j Hj). reflexivity.
    + intros j n Hj Hn Hp. rewrite returned_cons, app_length. specialize (P1 j n Hj Hn).
      assert (L1 : forall k, (k + length (out1 j o) <= n)%nat \/ (n <= length (out1 j o))%nat -> (n - length (out1 j o) <= length (queued t1 j))%nat).
      { intros _ _. pose proof (f_equal (@length E) (Q1 j Hj)) as L. rewrite !app_length in L. lia. }
      unfold num_returned in Hp, P2. cbn [filter] in Hp.
      destruct o as [|[[q e]|]]; cbn [length] in Hp.
      * assert (Lo : length (out1 j TNothing) = 0%nat) by reflexivity. rewrite Lo in *.
        specialize (P2 j n Hj). rewrite Nat.sub_0_r in L1. specialize (L1 0%nat). apply P2; [apply L1; lia|lia].
      * unfold out1, returned_from in L1 |- *. cbn [flat_map] in L1 |- *. rewrite app_nil_r in *.
        destruct (q =? j)%nat; cbn [length] in *.
        { destruct P1 as [P1|P1]; [|lia].
          specialize (P2 j (n - 1)%nat Hj). unfold returned_from in P2. specialize (L1 0%nat ltac:(lia)). specialize (P2 L1 ltac:(lia)). lia. }
        { destruct n; [lia|]. specialize (P1 ltac:(lia)). specialize (P2 j (S n) Hj). unfold returned_from in P2.
          rewrite Nat.sub_0_r in L1. specialize (L1 0%nat ltac:(lia)). specialize (P2 L1 ltac:(lia)). lia. }
      * assert (Lo : length (out1 j (TReturn None)) = 0%nat) by reflexivity. rewrite Lo in *.
        specialize (P2 j n Hj). rewrite Nat.sub_0_r in L1. specialize (L1 0%nat). apply P2; [apply L1; lia|lia].
Qed.

Lemma new_inv : TInv (thr_new (E:=E)).
Proof.
  constructor; cbn; auto. repeat constructor; cbn; lia.
Qed.

(* ---- statements ---- *)
Lemma exactly_once (acts : list (tact E)) : Forall valid_prio acts ->
  exists outs t, t_run thr_new acts = Ok (outs, t) /\
    (forall q, (q < 3)%nat -> fired_into q acts = returned_from q outs ++ queued t q) /\
    t_fired t = Z.of_nat (total t) /\
    (t_wait t <> None -> (0 < total t)%nat -> t_sig t = true).
Proof.
  intros F. destruct (run_ok acts thr_new new_inv F) as (outs & t & E1 & I & Q & _).
  exists outs, t. split; auto. split; [|split; apply I].
  intros q Hq. rewrite <- (Q q Hq). unfold queued, thr_new. cbn [t_queues].
  destruct (nth_error (repeat _ _) q) eqn:En; auto. apply nth_error_In, repeat_spec in En. subst e. reflexivity.
Qed.

Lemma wait_result (acts : list (tact E)) : Forall valid_prio acts ->
  exists outs t, t_run thr_new acts = Ok (outs, t) /\
   (forall a t' o, valid_prio a -> t_step t a = Ok (t', o) -> o = TReturn None -> total t = 0%nat) /\
   (forall m, t_wait t = None -> (0 < total t)%nat -> exists t' x, t_step t (TWait m) = Ok (t', TReturn (Some x))) /\
   (t_wait t <> None -> (0 < total t)%nat -> exists t' x, t_step t (TWake WSignal) = Ok (t', TReturn (Some x))).
Proof.
  intros F. destruct (run_ok acts thr_new new_inv F) as (outs & t & E1 & I & Q & _).
  exists outs, t. split; auto. split; [|split].
  - intros a t' o V S ->. destruct (step_ok t a I V) as (t1 & o1 & E2 & _ & _ & N & _).
    rewrite E2 in S. injection S as -> ->. apply N; auto.
  - intros m Hw Ht. cbn [t_step]. rewrite Hw. pose proof (ti_cnt _ I).
    destruct (Z.eqb_spec (t_fired t) 0); [lia|].
    destruct (wait_end_ok t I) as (x & t' & E2 & _ & _ & N & _). rewrite E2.
    destruct x as [x|]; [eauto|]. specialize (N eq_refl). lia.
  - intros Hw Ht. cbn [t_step]. rewrite (ti_sig _ I Hw Ht). destruct (t_wait t); [|congruence].
    destruct (wait_end_ok t I) as (x & t' & E2 & _ & _ & N & _). rewrite E2.
    destruct x as [x|]; [eauto|]. specialize (N eq_refl). lia.
Qed.

Lemma prefix_nth (A : Type) (l l1 l2 r : list A) k e : l ++ l1 = l2 ++ r -> nth_error l k = Some e -> (k < length l2)%nat ->
  nth_error l2 k = Some e.
Proof.
  intros H1 H2 H3. rewrite <- (nth_error_app1 l2 r) by exact H3. rewrite <- H1.
  rewrite nth_error_app1; auto. apply nth_error_Some. congruence.
Qed.

Lemma no_starvation (pre acts : list (tact E)) (q k : nat) (e : E) :
  Forall valid_prio pre -> Forall valid_prio acts -> (q < 3)%nat ->
  exists outs0 t outs t',
    t_run thr_new pre = Ok (outs0, t) /\ t_run t acts = Ok (outs, t') /\
    (nth_error (queued t q) k = Some e -> (wait_bound q k <= num_returned outs)%nat ->
     nth_error (returned_from q outs) k = Some e).
Proof.
  intros F1 F2 Hq. destruct (run_ok pre thr_new new_inv F1) as (outs0 & t & E1 & I & _ & _).
  destruct (run_ok acts t I F2) as (outs & t' & E2 & _ & Q & P).
  exists outs0, t, outs, t'. split; auto. split; auto. intros Hk Hb.
  apply (prefix_nth _ _ _ _ _ _ _ (Q q Hq)); auto.
  assert (Hl : (k < length (queued t q))%nat) by (apply nth_error_Some; congruence).
  specialize (P q (S k) Hq Hl). apply P.
  destruct (three t (ti_len _ I)) as (qa & qb & qc & E0). destruct I as [I1 I2 I3 I4]. rewrite E0 in I2.
  inversion I2 as [|? ? S1 S']; subst. inversion S' as [|? ? S2 S'']; subst. inversion S'' as [|? ? S3 _]; subst.
  unfold sc_ok in *. unfold phi, scal. rewrite E0. unfold wait_bound, visits in Hb.
  assert (V : forall s, 1 <= s <= 8 -> vis (S k) s <= Z.of_nat (k + 1 + (k + 7) / 7)).
  { intros s Hs. unfold vis. rewrite !Nat2Z.inj_add, Nat2Z.inj_div, Nat2Z.inj_add. change (Z.of_nat 7) with 7. change (Z.of_nat 1) with 1.
    assert ((Z.of_nat (S k) + 7 - s) / 7 <= (Z.of_nat k + 7) / 7) by (apply Z.div_le_mono; lia). lia. }
  destruct q as [|[|[|q]]]; try lia; cbn [nth_error]; cbn [Nat.pow Nat.mul Nat.add] in Hb.
  - specialize (V _ S1). lia.
  - specialize (V _ S2). lia.
  - specialize (V _ S3). lia.
Qed.
End P.
