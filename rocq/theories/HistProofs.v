(* Lemmas for C55. *)
From Coq Require Import SpecFloat Lqa Qround.
From Verif Require Import Common HistSpec HistModel.
Local Open Scope Z_scope.

(* ---- rounding ---- *)
Lemma rne_near p d k : 0 < d -> (2 * k - 1) * d < 2 * p < (2 * k + 1) * d -> rne p d = k.
Proof.
  intros Hd H. unfold rne. assert (E := Z.div_mod p d ltac:(lia)). assert (B := Z.mod_pos_bound p d Hd). set (q := p / d) in *. set (r := p mod d) in *. clearbody q r.
  assert (M : forall x y, x * d < y * d -> x < y) by (intros x y L; apply Z.mul_lt_mono_pos_r with (p := d); assumption). assert (E2 : 2 * p = 2 * q * d + 2 * r) by lia.
  destruct (Z.ltb_spec (2 * r) d).
  - assert (2 * q < 2 * k + 1) by (apply M; lia). assert (2 * k - 1 < 2 * q + 1) by (apply M; lia). lia.
  - destruct (Z.ltb_spec d (2 * r)).
    + assert (2 * q + 1 < 2 * k + 1) by (apply M; lia). assert (2 * k - 1 < 2 * q + 2) by (apply M; lia). lia.
    + assert (2 * q + 1 < 2 * k + 1) by (apply M; lia). assert (2 * k - 1 < 2 * q + 1) by (apply M; lia). lia.
Qed.
Lemma rne_tie p d k : 0 < d -> 2 * p = (2 * k - 1) * d -> rne p d = if Z.even k then k else k - 1.
Proof.
  intros Hd H. unfold rne. assert (E := Z.div_mod p d ltac:(lia)). assert (B := Z.mod_pos_bound p d Hd). set (q := p / d) in *. set (r := p mod d) in *. clearbody q r.
  assert (M : forall x y, x * d < y * d -> x < y) by (intros x y L; apply Z.mul_lt_mono_pos_r with (p := d); assumption). assert (E2 : 2 * p = 2 * q * d + 2 * r) by lia.
  assert (2 * q < 2 * k) by (apply M; lia). assert (2 * k - 1 < 2 * q + 2) by (apply M; lia). assert (Q : q = k - 1) by lia. assert (R : 2 * r = d) by (rewrite Q in E2; lia). destruct (Z.ltb_spec (2 * r) d); [lia|]. destruct (Z.ltb_spec d (2 * r)); [lia|].
  rewrite Q. replace (Z.even (k - 1)) with (negb (Z.even k)); [destruct (Z.even k); cbn [negb]; lia|]. rewrite Z.even_sub. cbn [Z.even]. destruct (Z.even k); reflexivity.
Qed.
Definition qrne (q : Q) : Z := rne (Qnum q) (Zpos (Qden q)).
Lemma qrne_near q k : (inject_Z k - 1 < q - (1 # 2) < inject_Z k)%Q -> qrne q = k.
Proof.
  intros (H1 & H2). unfold qrne. apply rne_near; [lia|]. destruct q as (p, d). unfold Qlt, Qminus, Qplus, Qopp, inject_Z in *. cbn [Qnum Qden] in *. lia.
Qed.
Lemma qrne_tie q k : (q - (1 # 2) == inject_Z k - 1)%Q -> qrne q = if Z.even k then k else k - 1.
Proof.
  intros H. unfold qrne. apply rne_tie; [lia|]. destruct q as (p, d). unfold Qeq, Qminus, Qplus, Qopp, inject_Z in *. cbn [Qnum Qden] in *. lia.
Qed.

(* ---- bins ---- *)
Section Bins.
Variables (lo hi : Q) (n : Z).
Hypothesis Hn : 0 < n.
Hypothesis Hlh : (lo < hi)%Q.
Let N0 : (0 < inject_Z n)%Q.
Proof. unfold Qlt, inject_Z. cbn. lia. Qed.
Definition tpos (z : Q) : Q := ((z - lo) / (hi - lo) * inject_Z n)%Q.
Lemma tpos_eq z : (z - lo == tpos z * (hi - lo) / inject_Z n)%Q.
Proof. unfold tpos. field. split; lra. Qed.
Let W0 : (0 < (hi - lo) / inject_Z n)%Q.
Proof. apply Qlt_shift_div_l; lra. Qed.
Lemma le_tpos z k : (inject_Z k * (hi - lo) / inject_Z n <= z - lo)%Q <-> (inject_Z k <= tpos z)%Q.
Proof.
  rewrite (tpos_eq z). unfold Qdiv. rewrite <- !Qmult_assoc. fold ((hi - lo) / inject_Z n)%Q. split; intros H; [apply Qmult_le_r in H; assumption|apply Qmult_le_r; assumption].
Qed.
Lemma lt_tpos z k : (z - lo < inject_Z k * (hi - lo) / inject_Z n)%Q <-> (tpos z < inject_Z k)%Q.
Proof.
  rewrite (tpos_eq z). unfold Qdiv. rewrite <- !Qmult_assoc. fold ((hi - lo) / inject_Z n)%Q. split; intros H; [apply Qmult_lt_r in H; assumption|apply Qmult_lt_r; assumption].
Qed.
Lemma eq_tpos z k : (z - lo == inject_Z k * (hi - lo) / inject_Z n)%Q <-> (tpos z == inject_Z k)%Q.
Proof.
  rewrite (tpos_eq z). unfold Qdiv. rewrite <- !Qmult_assoc. fold ((hi - lo) / inject_Z n)%Q. split; intros H; [apply Qmult_inj_r in H; [assumption|lra]|rewrite H; reflexivity].
Qed.
Lemma tpos_range z : (lo <= z -> z < hi -> 0 <= tpos z < inject_Z n)%Q.
Proof.
  intros H1 H2. split.
  - change 0%Q with (inject_Z 0). apply le_tpos. change (inject_Z 0) with 0%Q. unfold Qdiv. rewrite !Qmult_0_l. lra.
  - apply lt_tpos. apply Qlt_shift_div_l; [exact N0|]. rewrite (Qmult_comm (inject_Z n)). apply Qmult_lt_r; [exact N0|lra].
Qed.
Lemma floor_bin z : (lo <= z)%Q -> (z < hi)%Q -> exists k, 1 <= k <= n /\ (inject_Z (k - 1) <= tpos z < inject_Z k)%Q.
Proof.
  intros H1 H2. destruct (tpos_range z H1 H2) as (A & B). exists (Qfloor (tpos z) + 1)%Z. assert (F := Qfloor_le (tpos z)). assert (G := Qlt_floor (tpos z)).
  replace (Qfloor (tpos z) + 1 - 1)%Z with (Qfloor (tpos z)) by lia. split; [|split; assumption].
  assert (0 <= Qfloor (tpos z))%Z by (apply (Qfloor_resp_le 0); assumption). assert (Qfloor (tpos z) < n)%Z by (rewrite Zlt_Qlt; eapply Qle_lt_trans; eassumption). lia.
Qed.
(* what the code gives *)
Definition got (k : Z) (z : Q) : Prop :=
  (in_bin lo hi n k z /\ ~ (exists j, Z.even j = true /\ on_border lo hi n j z))
  \/ (0 < k /\ Z.even k = true /\ on_border lo hi n k z).
Lemma inj_lt a b : (inject_Z a < inject_Z b)%Q <-> a < b.
Proof. rewrite Zlt_Qlt. reflexivity. Qed.
Lemma inj_le a b : (inject_Z a <= inject_Z b)%Q <-> a <= b.
Proof. rewrite Zle_Qle. reflexivity. Qed.
Lemma inj_eq a b : (inject_Z a == inject_Z b)%Q <-> a = b.
Proof. unfold Qeq, inject_Z. cbn. lia. Qed.
Lemma in_bin_unique z k j : in_bin lo hi n k z -> in_bin lo hi n j z -> k = j.
Proof.
  unfold in_bin. rewrite !le_tpos, !lt_tpos. assert (T := tpos_range z).
  intros [(-> & A)|[(-> & A)|(Hk & A)]] [(-> & B)|[(-> & B)|(Hj & B)]]; try reflexivity; try (exfalso; lra).
  - exfalso. assert (tpos z < 0)%Q by (change 0%Q with (inject_Z 0); apply lt_tpos; change (inject_Z 0) with 0%Q; unfold Qdiv; rewrite !Qmult_0_l; lra).
    assert (inject_Z 0 <= inject_Z (j - 1))%Q by (apply inj_le; lia). change (inject_Z 0) with 0%Q in *. lra.
  - exfalso. assert (inject_Z n <= tpos z)%Q by (apply le_tpos; apply Qle_shift_div_r; [exact N0|]; rewrite (Qmult_comm (inject_Z n)); apply Qmult_le_r; [exact N0|lra]).
    assert (inject_Z j <= inject_Z n)%Q by (apply inj_le; lia). lra.
  - exfalso. assert (tpos z < 0)%Q by (change 0%Q with (inject_Z 0); apply lt_tpos; change (inject_Z 0) with 0%Q; unfold Qdiv; rewrite !Qmult_0_l; lra).
    assert (inject_Z 0 <= inject_Z (k - 1))%Q by (apply inj_le; lia). change (inject_Z 0) with 0%Q in *. lra.
  - exfalso. assert (inject_Z n <= tpos z)%Q by (apply le_tpos; apply Qle_shift_div_r; [exact N0|]; rewrite (Qmult_comm (inject_Z n)); apply Qmult_le_r; [exact N0|lra]).
    assert (inject_Z k <= inject_Z n)%Q by (apply inj_le; lia). lra.
  - destruct A as (A1 & A2). destruct B as (B1 & B2). assert (k - 1 < j) by (apply inj_lt; lra). assert (j - 1 < k) by (apply inj_lt; lra). lia.
Qed.
Lemma border_in z j : on_border lo hi n j z -> (lo <= z)%Q /\ (z < hi)%Q /\ in_bin lo hi n (j + 1) z.
Proof.
  intros (Hj & E). assert (E' := proj1 (eq_tpos z j) E). assert (L : (inject_Z 0 <= tpos z)%Q) by (rewrite E'; apply inj_le; lia). apply le_tpos in L. change (inject_Z 0) with 0%Q in L. unfold Qdiv in L. rewrite !Qmult_0_l in L.
  assert (U : (tpos z < inject_Z n)%Q) by (rewrite E'; apply inj_lt; lia). apply lt_tpos in U. assert (F : (inject_Z n * (hi - lo) / inject_Z n == hi - lo)%Q) by (field; lra). rewrite F in U.
  split; [lra|]. split; [lra|]. right; right. rewrite le_tpos, lt_tpos. split; [lia|]. rewrite E'. rewrite inj_le, inj_lt. lia.
Qed.
Lemma border_unique z j k : on_border lo hi n j z -> on_border lo hi n k z -> j = k.
Proof. intros (_ & A) (_ & B). apply eq_tpos in A, B. apply inj_eq. rewrite <- A, <- B. reflexivity. Qed.
Lemma got_unique z k j : got k z -> got j z -> k = j.
Proof.
  intros [(A & A')|(A0 & A1 & A)] [(B & B')|(B0 & B1 & B)].
  - eapply in_bin_unique; eassumption.
  - exfalso. apply A'. eauto.
  - exfalso. apply B'. eauto.
  - eapply border_unique; eassumption.
Qed.
(* the three branches *)
Lemma got_under z : (z < lo)%Q -> got 0 z.
Proof. intros H. left. split; [left; auto|]. intros (j & _ & B). apply border_in in B. destruct B as (B & _). lra. Qed.
Lemma got_over z : (hi <= z)%Q -> got (n + 1) z.
Proof. intros H. left. split; [right; left; auto|]. intros (j & _ & B). apply border_in in B. destruct B as (_ & B & _). lra. Qed.
Lemma got_in z : (lo <= z)%Q -> (z < hi)%Q -> let b := qrne (tpos z + (1 # 2))%Q in
  0 <= b <= n /\ (0 < b -> got b z) /\ (b = 0 -> on_border lo hi n 0 z /\ forall k, ~ got k z).
Proof.
  intros H1 H2. destruct (floor_bin z H1 H2) as (k & Hk & K1 & K2). cbv zeta. assert (Ib : in_bin lo hi n k z) by (right; right; rewrite le_tpos, lt_tpos; auto).
  assert (Ik : (inject_Z (k - 1) == inject_Z k - 1)%Q) by (unfold Qeq, Qminus, Qplus, Qopp, inject_Z; cbn; lia).
  destruct (Qlt_le_dec (inject_Z (k - 1)) (tpos z)) as [L|L].
  - rewrite (qrne_near (tpos z + (1 # 2)) k) by (rewrite <- Ik; split; lra). split; [lia|]. split; [|lia]. intros _. left. split; [exact Ib|]. intros (j & _ & (Hj & E)). apply eq_tpos in E. rewrite E in L, K2. apply (proj1 (inj_lt _ _)) in L, K2. lia.
  - assert (E : (tpos z == inject_Z (k - 1))%Q) by lra. rewrite (qrne_tie (tpos z + (1 # 2)) k) by (rewrite <- Ik; lra). assert (Bd : on_border lo hi n (k - 1) z) by (split; [lia|]; apply eq_tpos; exact E).
    destruct (Z.even k) eqn:Ev.
    + split; [lia|]. split; [|lia]. intros _. left. split; [exact Ib|]. intros (j & Ej & Bj). rewrite (border_unique _ _ _ Bj Bd) in Ej. rewrite Z.even_sub in Ej. rewrite Ev in Ej. discriminate.
    + assert (Ev' : Z.even (k - 1) = true) by (rewrite Z.even_sub, Ev; reflexivity). split; [lia|]. split.
      * intros P. right. auto.
      * intros Z0. rewrite Z0 in Bd. split; [exact Bd|]. intros j [(_ & G)|(G1 & _ & G2)]; [apply G; exists 0; auto|]. assert (j = 0) by (eapply border_unique; eassumption). lia.
Qed.
End Bins.

(* ---- filling ---- *)
Lemma incr_ok h i : 0 <= i < Z.of_nat (length h) -> exists h', incr h i = Ok h' /\ length h' = length h /\ forall k, 0 <= k -> nth (Z.to_nat k) h' 0 = if k =? i then nth (Z.to_nat k) h 0 + 1 else nth (Z.to_nat k) h 0.
Proof.
  intros H. unfold incr. destruct (Z.ltb_spec i 0); [lia|]. destruct (nth_error h (Z.to_nat i)) as [c|] eqn:E; [|apply nth_error_None in E; lia].
  eexists. split; [reflexivity|]. split; [apply upd_length|]. intros k Hk. destruct (Z.eqb_spec k i) as [->|Ne].
  - erewrite nth_error_nth by (apply nth_error_upd_same; lia). erewrite (nth_error_nth h) by exact E. reflexivity.
  - destruct (nth_error h (Z.to_nat k)) as [c'|] eqn:E'.
    + erewrite nth_error_nth by (rewrite nth_error_upd_other by lia; exact E'). erewrite (nth_error_nth h) by exact E'. reflexivity.
    + rewrite nth_overflow by (rewrite upd_length; apply nth_error_None; exact E'). rewrite nth_overflow by (apply nth_error_None; exact E'). reflexivity.
Qed.
Lemma Qlt_bool x y : negb (Qle_bool y x) = true <-> (x < y)%Q.
Proof. rewrite negb_true_iff. split; intros H; [apply Qnot_le_lt; intros L; apply Qle_bool_iff in L; congruence|]. destruct (Qle_bool y x) eqn:E; [|reflexivity]. apply Qle_bool_iff in E. lra. Qed.
Record counted (lo hi : Q) (n : Z) (a : average exact) (vs : list Q) : Prop := {
  c_len : length (hist a) = Z.to_nat (n + 2);
  c_n : nhist a = n;
  c_lo : hist_min a = lo;
  c_hi : hist_max a = hi;
  c_cnt : forall k, 0 <= k <= n + 1 -> count (got lo hi n k) vs (nth (Z.to_nat k) (hist a) 0)
}.
Lemma fill_counted lo hi n a vs z : 0 < n -> (lo < hi)%Q -> counted lo hi n a vs -> exists a', fill a z = Ok a' /\ counted lo hi n a' (vs ++ [z]).
Proof.
  intros Hn Hl [Cl Cn C1 C2 Cc]. unfold fill, fill_hist. rewrite Cl, Cn. destruct (Nat.eqb_spec (Z.to_nat (n + 2)) 0) as [E0|_]; [lia|]. destruct (Z.eqb_spec n 0); [lia|]. cbn [orb].
  assert (Up : forall i h', 0 <= i <= n + 1 -> got lo hi n i z -> (length h' = length (hist a) /\ forall k, 0 <= k -> nth (Z.to_nat k) h' 0 = if k =? i then nth (Z.to_nat k) (hist a) 0 + 1 else nth (Z.to_nat k) (hist a) 0) ->
     forall nm s1 s2 mn mx, counted lo hi n (mkAv (A:=exact) nm s1 s2 mn mx h' n lo hi) (vs ++ [z])).
  { intros i h' Hi G (L & U) nm s1 s2 mn mx. split; cbn [hist nhist hist_min hist_max]; auto; [congruence|]. intros k Hk. rewrite U by lia. destruct (Z.eqb_spec k i) as [->|Ne]; [apply Count_yes; [exact G|apply Cc; exact Hk]|apply Count_no; [|apply Cc; exact Hk]]. intros G'. apply Ne. eapply got_unique; eassumption. }
  assert (Len : Z.of_nat (length (hist a)) = n + 2) by lia. rewrite C1, C2. cbn [lt le exact].
  destruct (negb (Qle_bool lo z)) eqn:Eu.
  { apply Qlt_bool in Eu. destruct (incr_ok (hist a) 0 ltac:(lia)) as (h' & E & P). cbn [T exact] in *. rewrite E. cbn [bind]. eexists. split; [reflexivity|]. apply (Up 0); [lia|apply got_under; assumption|exact P]. }
  assert (Lz : (lo <= z)%Q) by (apply negb_false_iff in Eu; apply Qle_bool_iff; exact Eu).
  destruct (Qle_bool hi z) eqn:Eo.
  { apply Qle_bool_iff in Eo. destruct (incr_ok (hist a) (n + 1) ltac:(lia)) as (h' & E & P). cbn [T exact] in *. rewrite E. cbn [bind]. eexists. split; [reflexivity|]. apply (Up (n + 1)); [lia|apply got_over; assumption|exact P]. }
  assert (Hz : (z < hi)%Q) by (apply Qnot_le_lt; intros L; apply Qle_bool_iff in L; congruence).
  cbn [lrint exact]. fold (qrne (position a z)). assert (Ep : position a z = (tpos lo hi n z + (1 # 2))%Q) by (unfold position, tpos; rewrite C1, C2, Cn; reflexivity). rewrite Ep. destruct (got_in lo hi n Hn Hl z Lz Hz) as (B & G1 & G0). set (b := qrne (tpos lo hi n z + (1 # 2))) in *. clearbody b.
  destruct (Z.ltb_spec 0 b) as [P|P].
  - destruct (Z.leb_spec b n); [|lia]. cbn [andb]. destruct (incr_ok (hist a) b ltac:(lia)) as (h' & E & P'). cbn [T exact] in *. rewrite E. cbn [bind]. eexists. split; [reflexivity|]. apply (Up b); [lia|apply G1; exact P|exact P'].
  - cbn [andb bind]. eexists. split; [reflexivity|]. destruct (G0 ltac:(lia)) as (_ & G). split; cbn [hist nhist hist_min hist_max]; auto. intros k Hk. apply Count_no; [apply G|apply Cc; exact Hk].
Qed.
