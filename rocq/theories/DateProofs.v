(* The calendar, digits and rounding. *)
From Coq Require Import ZArith.
From Verif Require Import Common ListFacts Bytes DecStr DateSpec DateModel.
Open Scope Z_scope.

Ltac zdiv := Z.to_euclidean_division_equations; lia.
Lemma year_next y : year_start (y + 1) = year_start y + year_len y.
Proof.
  unfold year_start, year_len, leap. replace (y + 1 - 1) with y by lia.
  assert (A : y / 4 = (y - 1) / 4 + (if y mod 4 =? 0 then 1 else 0)) by (destruct (Z.eqb_spec (y mod 4) 0); zdiv).
  assert (B : y / 100 = (y - 1) / 100 + (if y mod 100 =? 0 then 1 else 0)) by (destruct (Z.eqb_spec (y mod 100) 0); zdiv).
  assert (C : y / 400 = (y - 1) / 400 + (if y mod 400 =? 0 then 1 else 0)) by (destruct (Z.eqb_spec (y mod 400) 0); zdiv).
  rewrite A, B, C. destruct (Z.eqb_spec (y mod 4) 0) as [H4|H4]; destruct (Z.eqb_spec (y mod 100) 0) as [H100|H100]; destruct (Z.eqb_spec (y mod 400) 0) as [H400|H400]; cbn [andb negb orb]; try lia; exfalso; clear - H4 H100 H400; zdiv.
Qed.
Lemma year_len_pos y : 365 <= year_len y <= 366.
Proof. unfold year_len. destruct (leap y); lia. Qed.
Lemma find_year_ok fuel : forall y days y' r, find_year fuel y days = (y', r) -> 0 <= days -> days / 365 < Z.of_nat fuel -> y <= y' /\ 0 <= r < year_len y' /\ year_start y' + r = year_start y + days.
Proof.
  induction fuel as [|k IH]; intros y days y' r H H0 Hf; cbn [find_year] in H.
  - exfalso. assert (0 <= days / 365) by (apply Z.div_pos; lia). lia.
  - destruct (Z.ltb_spec days (year_len y)) as [L|L]; [injection H as <- <-; lia|]. assert (Y := year_len_pos y).
    destruct (IH (y + 1) (days - year_len y) y' r H) as (A & B & C); [lia| |].
    + assert ((days - year_len y) / 365 <= (days - 365) / 365) by (apply Z.div_le_mono; lia). replace (days - 365) with (days + (-1) * 365) in H1 by lia. rewrite Z.div_add in H1 by lia. lia.
    + rewrite year_next in C. split; [lia|]. split; [exact B|lia].
Qed.
Lemma month_next y m : 1 <= m <= 11 -> month_start y (m + 1) = month_start y m + month_len y m.
Proof.
  intros H. assert (C : m = 1 \/ m = 2 \/ m = 3 \/ m = 4 \/ m = 5 \/ m = 6 \/ m = 7 \/ m = 8 \/ m = 9 \/ m = 10 \/ m = 11) by lia.
  unfold month_start, month_len. destruct (leap y); repeat (destruct C as [->|C]; [reflexivity|]); subst m; reflexivity.
Qed.
Lemma month_last y : month_start y 12 + month_len y 12 = year_len y.
Proof. unfold month_start, month_len, year_len. destruct (leap y); reflexivity. Qed.
Lemma month_len_pos y m : 28 <= month_len y m <= 31.
Proof. unfold month_len. destruct (m =? 2); [destruct (leap y); lia|]. destruct (_ || _); lia. Qed.
Lemma find_month_ok fuel : forall y m days m' r, find_month fuel y m days = (m', r) -> 0 <= days -> 1 <= m <= 12 -> m + Z.of_nat fuel = 13 -> month_start y m + days < year_len y ->
  1 <= m' <= 12 /\ 0 <= r < month_len y m' /\ month_start y m' + r = month_start y m + days.
Proof.
  induction fuel as [|k IH]; intros y m days m' r H H0 Hm Hf Hl; cbn [find_month] in H.
  - exfalso. lia.
  - destruct (Z.ltb_spec days (month_len y m)) as [L|L]; [injection H as <- <-; lia|]. assert (M := month_len_pos y m). assert (m <> 12) by (intros ->; assert (X := month_last y); lia).
    destruct (IH y (m + 1) (days - month_len y m) m' r H) as (A & B & C); [lia|lia|lia|rewrite month_next by lia; lia|]. rewrite month_next in C by lia. split; [exact A|]. split; [exact B|lia].
Qed.
Lemma civil_ok days : 0 <= days -> is_date (civil days) /\ day_number (d_year (civil days)) (d_mon (civil days)) (d_day (civil days)) = days /\ 1970 <= d_year (civil days) /\ 365 * (d_year (civil days) - 1970) <= days.
Proof.
  intros H. unfold civil. destruct (find_year _ 1970 days) as (y & r) eqn:E. destruct (find_month 12 y 1 r) as (m & r2) eqn:E2.
  destruct (find_year_ok _ _ _ _ _ E H) as (A & B & C). { assert (0 <= days / 365) by (apply Z.div_pos; lia). lia. }
  change (year_start 1970) with 0 in C. destruct (find_month_ok _ _ _ _ _ _ E2) as (A2 & B2 & C2); [lia|lia|reflexivity|change (month_start y 1) with (if (2 <? 1) && leap y then 1 else 0); cbn [Z.ltb Z.compare Pos.compare Pos.compare_cont andb]; lia|].
  assert (M1 : month_start y 1 = 0) by reflexivity. unfold is_date, day_number. cbn [d_year d_mon d_day].
  assert (Y0 : 365 * (y - 1970) <= year_start y) by (unfold year_start; clear - A; zdiv).
  repeat split; try lia.
Qed.

(* two and four digits *)
Definition two (n : N) : bytes := [(48 + n / 10)%N; (48 + n mod 10)%N].
Lemma all_below k (P : N -> bool) : forallb (fun i => P (N.of_nat i)) (seq 0 k) = true -> forall n, (n < N.of_nat k)%N -> P n = true.
Proof. intros H n Hn. rewrite forallb_forall in H. specialize (H (N.to_nat n)). rewrite N2Nat.id in H. apply H. apply in_seq. lia. Qed.
Lemma pad2 n : (n < 100)%N -> pad 2 n = two n.
Proof. intros H. assert (B := all_below 100 (fun n => bytes_eqb (pad 2 n) (two n)) ltac:(vm_compute; reflexivity) n H). cbn beta in B. destruct (bytes_eqb_spec (pad 2 n) (two n)); [assumption|discriminate]. Qed.
Definition four (n : N) : bytes := [(48 + n / 1000)%N; (48 + n / 100 mod 10)%N; (48 + n / 10 mod 10)%N; (48 + n mod 10)%N].
Lemma dec4 n : (1970 <= n < 2170)%N -> dec n = four n.
Proof. intros H. assert (B := all_below 200 (fun k => bytes_eqb (dec (1970 + k)) (four (1970 + k))) ltac:(vm_compute; reflexivity) (n - 1970)%N ltac:(lia)). cbn beta in B. replace (1970 + (n - 1970))%N with n in B by lia. destruct (bytes_eqb_spec (dec n) (four n)); [assumption|discriminate]. Qed.
Lemma digit_48 n : (n < 10)%N -> is_digit (48 + n) = true.
Proof. intros H. unfold is_digit. apply andb_true_intro. split; apply N.leb_le; lia. Qed.
Lemma scan_w_digits w l r v : l <> [] -> length l = w -> Forall (fun c => is_digit c = true) l -> fold_left (fun v c => 10 * v + (c - 48))%N l 0%N = v -> scan_w w (l ++ r) = Some (v, r).
Proof.
  intros Nl Lw D V. unfold scan_w. destruct l as [|c l]; [contradiction|]. assert (Dc := Forall_inv D). destruct (digit_not_space c Dc) as (S1 & S2 & S3 & _). cbn [app skip_space]. rewrite S1. destruct (N.eqb_spec c 45); [contradiction|]. destruct (N.eqb_spec c 43); [contradiction|].
  assert (K : forall l v b, Forall (fun c => is_digit c = true) l -> scan_n (length l) (l ++ r) v b = (fold_left (fun v c => 10 * v + (c - 48))%N l v, b || negb (match l with [] => true | _ => false end), r)).
  { clear. induction l as [|c l IH]; intros v b D; [cbn; rewrite orb_false_r; reflexivity|]. inversion D as [|? ? D1 D2]; subst. cbn [app length scan_n]. rewrite D1, IH by exact D2. cbn [fold_left negb]. rewrite orb_true_r. reflexivity. }
  change (c :: l ++ r) with ((c :: l) ++ r). rewrite <- Lw, (K (c :: l) 0%N false D), V. reflexivity.
Qed.
Lemma scan_two n r : (n < 100)%N -> scan_w 2 (pad 2 n ++ r) = Some (n, r).
Proof.
  intros H. rewrite pad2 by exact H. unfold two. apply scan_w_digits; [discriminate|reflexivity| |].
  - assert (n / 10 < 10)%N by (apply N.div_lt_upper_bound; lia). assert (n mod 10 < 10)%N by (apply N.mod_lt; lia). repeat constructor; apply digit_48; assumption.
  - cbn [fold_left]. assert (E := N.div_mod n 10 ltac:(lia)). lia.
Qed.
Lemma scan_four n r : (1970 <= n < 2170)%N -> scan_w 4 (dec n ++ r) = Some (n, r).
Proof.
  intros H. assert (E := dec4 n H). apply scan_w_digits; [apply dec_nonnil|rewrite E; reflexivity|apply dec_digit|apply dec_val].
Qed.
Lemma scan3_at w c a b d l : scan_w w (l ++ [c] ++ pad 2 b ++ [c] ++ pad 2 d) = Some (a, [c] ++ pad 2 b ++ [c] ++ pad 2 d) -> (b < 100)%N -> (d < 100)%N -> scan3 w c (l ++ [c] ++ pad 2 b ++ [c] ++ pad 2 d) = Some (a, b, d).
Proof.
  intros E Hb Hd. unfold scan3. rewrite E. cbn [app expect]. rewrite N.eqb_refl, scan_two by exact Hb. cbn [expect]. rewrite N.eqb_refl. rewrite <- (app_nil_r (pad 2 d)), scan_two by exact Hd. reflexivity.
Qed.

(* rounding *)
Lemma round_loop_ok k : forall f m n, 0 <= f -> m = 10 ^ Z.of_nat (n + k) -> f <= m ->
  forall f' m', round_loop k f m = (f', m') -> m' = 10 ^ Z.of_nat n /\ 0 <= f' <= m' /\ 9 * (f' * 10 ^ Z.of_nat k - f) <= 5 * (10 ^ Z.of_nat k - 1) /\ 9 * (f - f' * 10 ^ Z.of_nat k) <= 4 * (10 ^ Z.of_nat k - 1).
Proof.
  induction k as [|k IH]; intros f m n H0 Hm Hf f' m' H; cbn [round_loop] in H.
  - injection H as <- <-. rewrite Nat.add_0_r in Hm. split; [exact Hm|]. change (10 ^ Z.of_nat 0) with 1. lia.
  - set (g := f / 10 + (if 5 <=? f mod 10 then 1 else 0)) in *. assert (G : 10 * g - 5 <= f <= 10 * g + 4) by (unfold g; destruct (Z.leb_spec 5 (f mod 10)); clear - H1; zdiv).
    assert (M : m = 10 * 10 ^ Z.of_nat (n + k)) by (rewrite Hm; replace (n + S k)%nat with (S (n + k)) by lia; rewrite Nat2Z.inj_succ, Z.pow_succ_r by lia; reflexivity).
    assert (M2 : m / 10 = 10 ^ Z.of_nat (n + k)) by (rewrite M, Z.mul_comm, Z.div_mul by lia; reflexivity).
    assert (G2 : 0 <= g <= 10 ^ Z.of_nat (n + k)) by (clear IH H; remember (10 ^ Z.of_nat (n + k)) as p; lia).
    destruct (IH g (m / 10) n ltac:(lia) M2 ltac:(lia) f' m' H) as (A & B & C & D). split; [exact A|]. split; [exact B|].
    rewrite Nat2Z.inj_succ, Z.pow_succ_r by lia. remember (10 ^ Z.of_nat k) as q. assert (f' * (10 * q) = 10 * (f' * q)) by lia. remember (f' * q) as z. clear - C D G H1 Heqz. lia.
Qed.
