(* C49: conversions of times; C68: reading back dates and times. *)
From Coq Require Import ZArith.
From Verif Require Import Common ListFacts Bytes DecStr DateSpec DateModel DateProofs.
Open Scope Z_scope.

Definition valid (t : dt) : Prop := 0 <= t_sec t < 2^32 /\ 0 <= t_nsec t < 10^9.
Definition nanos (t : dt) : Z := t_sec t * 10^9 + t_nsec t.

(* milliseconds *)
Theorem C49_js_date t : valid t -> set_js (as_js t) = mkDT (t_sec t) (t_nsec t / 1000000 * 1000000).
Proof.
  intros (H1 & H2). unfold set_js, as_js. assert (Q : 0 <= t_nsec t / 1000000 < 1000) by zdiv. rewrite (Z.mod_small (_ + _) (2^64)) by lia.
  assert (E1 : (t_sec t * 1000 + t_nsec t / 1000000) / 1000 = t_sec t) by (remember (t_nsec t / 1000000) as q; clear - Q; zdiv).
  assert (E2 : (t_sec t * 1000 + t_nsec t / 1000000) mod 1000 = t_nsec t / 1000000) by (remember (t_nsec t / 1000000) as q; clear - Q; zdiv).
  rewrite E1, E2, !Z.mod_small by lia. reflexivity.
Qed.
Theorem C49_js_same j : 0 <= j < 2^32 * 1000 -> as_js (set_js j) = j /\ valid (set_js j).
Proof.
  intros H. unfold set_js, as_js, valid. cbn [t_sec t_nsec]. assert (Q : 0 <= j / 1000 < 2^32) by (split; [zdiv|apply Z.div_lt_upper_bound; lia]). assert (R : 0 <= j mod 1000 < 1000) by (apply Z.mod_pos_bound; lia).
  rewrite (Z.mod_small (j / 1000)), (Z.mod_small (j mod 1000 * 1000000)) by lia. rewrite Z.div_mul by lia. assert (D := Z.div_mod j 1000 ltac:(lia)). rewrite Z.mod_small by lia. lia.
Qed.

(* rounding to nd decimals *)
Lemma rounded_ok t nd src frac : valid t -> (1 <= nd <= 9)%nat -> rounded t nd = (src, frac) ->
  let U := 10 ^ Z.of_nat (9 - nd) in let r := src * 10 ^ Z.of_nat nd + frac in
  0 <= frac < 10 ^ Z.of_nat nd /\ t_sec t <= src <= t_sec t + 1 /\ 9 * (r * U - nanos t) <= 5 * (U - 1) /\ 9 * (nanos t - r * U) <= 4 * (U - 1).
Proof.
  intros (H1 & H2) Hn E U r. unfold rounded in E. assert (P : 0 < 10 ^ Z.of_nat nd) by (apply Z.pow_pos_nonneg; lia). assert (PU : 0 < U) by (apply Z.pow_pos_nonneg; lia).
  assert (PP : 10 ^ Z.of_nat nd * U = 10^9) by (unfold U; rewrite <- Z.pow_add_r by lia; f_equal; lia).
  replace (0 <? nd)%nat with true in E by (symmetry; apply Nat.ltb_lt; lia). cbn [andb] in E. destruct (Z.ltb_spec 0 (t_nsec t)) as [L|L].
  - destruct (round_loop (9 - nd) (t_nsec t) 1000000000) as (f & m) eqn:R.
    assert (M9 : 1000000000 = 10 ^ Z.of_nat (nd + (9 - nd))) by (replace (nd + (9 - nd))%nat with 9%nat by lia; reflexivity).
    destruct (round_loop_ok (9 - nd) (t_nsec t) 1000000000 nd ltac:(lia) M9 ltac:(lia) f m R) as (A & B & C & D). fold U in C, D. unfold nanos, r.
    destruct (Z.leb_spec m f) as [L2|L2]; injection E as <- <-.
    + assert (f = m) by lia. subst f. rewrite A in C, D. split; [lia|]. split; [lia|]. rewrite Z.add_0_r, <- Z.mul_assoc, PP. rewrite PP in C, D. lia.
    + split; [lia|]. split; [lia|]. rewrite Z.mul_add_distr_r, <- Z.mul_assoc, PP. lia.
  - injection E as <- <-. assert (t_nsec t = 0) by lia. split; [lia|]. split; [lia|]. unfold nanos, r. rewrite Z.add_0_r, <- Z.mul_assoc, PP. lia.
Qed.

Lemma fmt_len x : is_date x -> 1970 <= d_year x < 2170 -> length (date_text x) = 10%nat.
Proof.
  intros (H1 & H2) Hy. assert (M := month_len_pos (d_year x) (d_mon x)). unfold date_text. rewrite dec4 by lia. rewrite !pad2 by lia. reflexivity.
Qed.
Lemma time_len s : 0 <= s < 86400 -> length (time_text s) = 8%nat.
Proof.
  intros H. unfold time_text. assert (0 <= s / 3600 < 24) by zdiv. assert (0 <= s / 60 mod 60 < 60) by (apply Z.mod_pos_bound; lia). assert (0 <= s mod 60 < 60) by (apply Z.mod_pos_bound; lia). rewrite !pad2 by lia. reflexivity.
Qed.
Lemma gmtime_time src sep : fmt_time sep (gmtime src) = pad 2 (Z.to_N (src mod 86400 / 3600)) ++ sep ++ pad 2 (Z.to_N (src mod 86400 / 60 mod 60)) ++ sep ++ pad 2 (Z.to_N (src mod 86400 mod 60)).
Proof. unfold fmt_time, gmtime. cbn [m_hour m_min m_sec]. replace (src mod 86400 mod 60) with (src mod 60) by zdiv. reflexivity. Qed.
Lemma text_date src : fmt_date [45%N] (gmtime src) = date_text (civil (src / 86400)).
Proof. reflexivity. Qed.
Lemma text_time src : fmt_time [58%N] (gmtime src) = time_text (src mod 86400).
Proof. rewrite gmtime_time. reflexivity. Qed.
Lemma year_bound src : 0 <= src <= 2^32 -> 1970 <= d_year (civil (src / 86400)) < 2170.
Proof. intros H. destruct (civil_ok (src / 86400)) as (_ & _ & A & B); [zdiv|]. assert (src / 86400 <= 49710) by zdiv. lia. Qed.
Lemma src_frac src frac n : 0 <= frac < 10 ^ n -> 0 <= n -> (src * 10 ^ n + frac) / 10 ^ n = src /\ (src * 10 ^ n + frac) mod 10 ^ n = frac.
Proof.
  intros H Hn. assert (P : 0 < 10 ^ n) by (apply Z.pow_pos_nonneg; lia). split.
  - rewrite Z.div_add_l, Z.div_small by lia. lia.
  - rewrite Z.add_comm, Z.mod_add, Z.mod_small by lia. reflexivity.
Qed.
(* both texts for a rounded value *)
Lemma texts t nd src frac : valid t -> is_null t = false -> (nd <= 9)%nat -> rounded t nd = (src, frac) -> 0 <= frac < 10 ^ Z.of_nat nd -> t_sec t <= src <= t_sec t + 1 ->
  text_of [32%N] [] nd (src * 10 ^ Z.of_nat nd + frac) (as_string t nd) /\ text_of [84%N] [90%N] nd (src * 10 ^ Z.of_nat nd + frac) (as_js_string t nd).
Proof.
  intros (H1 & H2) Nl Hn E F S. destruct (src_frac src frac (Z.of_nat nd) F ltac:(lia)) as (Q1 & Q2).
  assert (Hs : 0 <= src <= 2^32) by lia. destruct (civil_ok (src / 86400)) as (D1 & D2 & D3 & _); [zdiv|]. assert (Y := year_bound src Hs). assert (R : 0 <= src mod 86400 < 86400) by (apply Z.mod_pos_bound; lia).
  assert (L1 := fmt_len (civil (src / 86400)) D1 Y). assert (L2 := time_len (src mod 86400) R).
  assert (Li : limit nd = nd) by (unfold limit; destruct (Nat.ltb_spec 9 nd); [lia|reflexivity]).
  assert (Fr : forall b, b = true -> (if (0 <? frac) && b then [46%N] ++ pad nd (Z.to_N frac) else []) = frac_text nd frac). { intros b ->. rewrite andb_true_r. unfold frac_text. destruct (Z.ltb_spec 0 frac); destruct (Z.eqb_spec frac 0); try lia; reflexivity. }
  assert (Lp : (length (frac_text nd frac) <= 10)%nat).
  { unfold frac_text. destruct (frac =? 0); [cbn; lia|]. cbn [app length]. unfold pad. rewrite app_length, repeat_length. assert (Ld : (length (dec (Z.to_N frac)) <= 9)%nat); [|lia].
    assert (Fb : (Z.to_N frac < 10 ^ 9)%N). { assert (10 ^ Z.of_nat nd <= 10 ^ 9) by (apply Z.pow_le_mono_r; lia). lia. }
    clear - Fb. unfold dec. rewrite rev_length. assert (K : forall k fuel n, (n < 10 ^ N.of_nat (S k))%N -> (length (digits fuel n) <= S k)%nat).
    { induction k as [|k IH]; intros fuel n H; destruct fuel as [|fuel]; cbn [digits length]; try lia.
      - destruct (N.eqb_spec (n / 10) 0); [cbn; lia|]. exfalso. apply n0. apply N.div_small. exact H.
      - destruct (N.eqb_spec (n / 10) 0); [cbn; lia|]. apply le_n_S. apply IH. apply N.div_lt_upper_bound; [lia|]. rewrite (Nat2N.inj_succ (S k)), N.pow_succ_r' in H. exact H. }
    apply (K 8%nat). exact Fb. }
  split; exists (civil (src / 86400)); rewrite Q1, Q2; (split; [exact D1|split; [exact D2|]]).
  - unfold as_string. rewrite Nl, Li, E, text_date, text_time. cbv zeta. rewrite Fr; [rewrite <- !app_assoc, app_nil_r; reflexivity|]. apply Nat.ltb_lt. rewrite !app_length, L1, L2. cbn [length]. lia.
  - unfold as_js_string. rewrite Nl, Li, E, text_date, text_time. cbv zeta. rewrite Fr by (apply Nat.ltb_lt; rewrite !app_length, L1, L2; cbn [length]; lia). match goal with |- context [(49 <=? ?x)%nat] => destruct (Nat.leb_spec 49 x) as [L|L] end; [exfalso; rewrite !app_length, L1, L2 in L; cbn [length] in L; lia|]. rewrite <- !app_assoc. reflexivity.
Qed.
(* The text with 1..9 decimals is the time within 5/9 of the last digit.  Missing for correct
   rounding: the error can exceed half of the last digit, see below. *)
Theorem C49_text_partial t nd : valid t -> is_null t = false -> (1 <= nd <= 9)%nat ->
  exists r, text_of [32%N] [] nd r (as_string t nd) /\ text_of [84%N] [90%N] nd r (as_js_string t nd) /\
            9 * Z.abs (r * 10 ^ Z.of_nat (9 - nd) - nanos t) < 5 * 10 ^ Z.of_nat (9 - nd).
Proof.
  intros V Nl Hn. destruct (rounded t nd) as (src & frac) eqn:E. destruct (rounded_ok t nd src frac V Hn E) as (A & B & C & D). exists (src * 10 ^ Z.of_nat nd + frac). destruct (texts t nd src frac V Nl ltac:(lia) E A B) as (T1 & T2). split; [exact T1|]. split; [exact T2|].
  assert (PU : 0 < 10 ^ Z.of_nat (9 - nd)) by (apply Z.pow_pos_nonneg; lia). remember (10 ^ Z.of_nat (9 - nd)) as U. remember ((src * 10 ^ Z.of_nat nd + frac) * U) as z. clear - C D PU. lia.
Qed.
(* A time which has no more than these decimals is printed exactly; in particular times in
   milliseconds with three decimals. *)
Theorem C49_text_exact t nd r : valid t -> is_null t = false -> (1 <= nd <= 9)%nat -> nanos t = r * 10 ^ Z.of_nat (9 - nd) ->
  text_of [32%N] [] nd r (as_string t nd) /\ text_of [84%N] [90%N] nd r (as_js_string t nd).
Proof.
  intros V Nl Hn E. destruct (C49_text_partial t nd V Nl Hn) as (r' & T1 & T2 & B). assert (PU : 0 < 10 ^ Z.of_nat (9 - nd)) by (apply Z.pow_pos_nonneg; lia). rewrite E in B.
  assert (r' = r); [|subst r'; split; assumption]. rewrite <- Z.mul_sub_distr_r, Z.abs_mul, (Z.abs_eq (10 ^ _)) in B by lia. remember (10 ^ Z.of_nat (9 - nd)) as U. assert (9 * Z.abs (r' - r) < 5) by (clear - B PU; apply (Z.mul_lt_mono_pos_r U); lia). lia.
Qed.
Theorem C49_js_text j : 0 < j < 2^32 * 1000 -> text_of [84%N] [90%N] 3 j (as_js_string (set_js j) 3).
Proof.
  intros H. destruct (C49_js_same j ltac:(lia)) as (E & V). apply (C49_text_exact (set_js j) 3 j V); [|lia|].
  - unfold is_null. destruct (Z.eqb_spec (t_sec (set_js j)) 0) as [E1|]; [|reflexivity]. destruct (Z.eqb_spec (t_nsec (set_js j)) 0) as [E2|]; [|reflexivity]. unfold as_js in E. rewrite E1, E2 in E. cbn in E. lia.
  - unfold set_js, nanos. cbn [t_sec t_nsec]. assert (Q : 0 <= j / 1000 < 2^32) by (split; [zdiv|apply Z.div_lt_upper_bound; lia]). assert (R : 0 <= j mod 1000 < 1000) by (apply Z.mod_pos_bound; lia). rewrite !Z.mod_small by lia. assert (D := Z.div_mod j 1000 ltac:(lia)). change (10 ^ Z.of_nat (9 - 3)) with 1000000. lia.
Qed.
(* without decimals the seconds are cut *)
Theorem C49_text_seconds t : valid t -> is_null t = false -> text_of [32%N] [] 0 (t_sec t) (as_string t 0) /\ text_of [84%N] [90%N] 0 (t_sec t) (as_js_string t 0).
Proof.
  intros V Nl. assert (T := texts t 0 (t_sec t) 0 V Nl ltac:(lia) eq_refl). change (10 ^ Z.of_nat 0) with 1 in T. replace (t_sec t * 1 + 0) with (t_sec t) in T by lia. apply T; lia.
Qed.
(* more than nine decimals are as nine *)
Theorem C49_text_many t nd : (9 <= nd)%nat -> as_string t nd = as_string t 9 /\ as_js_string t nd = as_js_string t 9.
Proof. intros H. unfold as_string, as_js_string. assert (E : limit nd = limit 9) by (unfold limit; destruct (Nat.ltb_spec 9 nd); [reflexivity|replace nd with 9%nat by lia; reflexivity]). rewrite E. split; reflexivity. Qed.
(* 0.445 s with one decimal is printed as 0.5, although 0.4 is nearer *)
Theorem C49_rounding_refuted : exists t, valid t /\ is_null t = false /\ rounded t 1 = (0, 5) /\ 2 * Z.abs (5 * 10 ^ 8 - nanos t) > 10 ^ 8 /\ as_string t 1 = as_string (mkDT 0 500000000) 1.
Proof. exists (mkDT 0 445000000). split; [unfold valid; cbn; lia|]. split; [reflexivity|]. split; [vm_compute; reflexivity|]. split; [vm_compute; reflexivity|]. vm_compute. reflexivity. Qed.
(* 2013-09-16T12:42:30.884Z *)
Example C49_case : as_js_string (set_js 1379335350884) 3 = [50;48;49;51;45;48;57;45;49;54;84;49;50;58;52;50;58;51;48;46;56;56;52;90]%N.
Proof. vm_compute. reflexivity. Qed.

(* C68: date and time of a time, read into another one, give its seconds. *)
Lemma date_back t x : is_date x -> 1970 <= d_year x <= 2100 -> set_only_date t (date_text x) = Some (mkDT ((day_number (d_year x) (d_mon x) (d_day x) * 86400 + t_sec t mod 86400) mod 2^32) (t_nsec t)).
Proof.
  intros H Hy. unfold set_only_date. rewrite fmt_len by (assumption || lia). cbn [Nat.eqb negb]. destruct H as (H1 & H2). assert (M := month_len_pos (d_year x) (d_mon x)). unfold date_text. rewrite (scan3_at 4 45 (Z.to_N (d_year x)) (Z.to_N (d_mon x)) (Z.to_N (d_day x))); [|apply scan_four; lia|lia|lia].
  rewrite !Z2N.id by lia. destruct (Z.ltb_spec (d_year x) 1970); [lia|]. destruct (Z.ltb_spec 2100 (d_year x)); [lia|]. destruct (Z.ltb_spec 12 (d_mon x)); [lia|]. destruct (Z.eqb_spec (d_mon x) 0); [lia|]. destruct (Z.ltb_spec 31 (d_day x)); [lia|]. destruct (Z.eqb_spec (d_day x) 0); [lia|]. cbn [orb]. cbv zeta. unfold timegm, gmtime. cbn [m_date m_hour m_min m_sec d_year d_mon d_day]. do 3 f_equal. clear. zdiv.
Qed.
Lemma time_back t s : is_null t = false -> 0 <= t_sec t -> 0 <= s < 86400 -> set_only_time t (time_text s) = Some (mkDT ((t_sec t / 86400 * 86400 + s) mod 2^32) (t_nsec t)).
Proof.
  intros Nl H0 H. unfold set_only_time. rewrite time_len by exact H. cbn [Nat.eqb negb]. unfold time_text. assert (A : 0 <= s / 3600 < 24) by zdiv. assert (B : 0 <= s / 60 mod 60 < 60) by (apply Z.mod_pos_bound; lia). assert (C : 0 <= s mod 60 < 60) by (apply Z.mod_pos_bound; lia).
  rewrite (scan3_at 2 58 (Z.to_N (s / 3600)) (Z.to_N (s / 60 mod 60)) (Z.to_N (s mod 60))); [|apply scan_two; lia|lia|lia]. rewrite !Z2N.id by lia. destruct (Z.ltb_spec 23 (s / 3600)); [lia|]. destruct (Z.ltb_spec 59 (s / 60 mod 60)); [lia|]. destruct (Z.ltb_spec 59 (s mod 60)); [lia|]. cbn [orb]. cbv zeta. rewrite Nl. unfold timegm, gmtime. cbn [m_date m_hour m_min m_sec].
  destruct (civil_ok (t_sec t / 86400)) as (_ & E & _); [zdiv|]. rewrite E. do 3 f_equal. clear. remember (t_sec t / 86400) as d. zdiv.
Qed.
Lemma year_ok t : 0 <= t_sec t < year_start 2101 * 86400 -> 1970 <= d_year (civil (t_sec t / 86400)) <= 2100.
Proof.
  intros H. destruct (civil_ok (t_sec t / 86400)) as (D & E & A & _); [zdiv|]. split; [exact A|]. change (year_start 2101) with 47847 in H. assert (L : t_sec t / 86400 < 47847) by zdiv. remember (civil (t_sec t / 86400)) as x. destruct D as (D1 & D2). unfold day_number in E.
  assert (0 <= month_start (d_year x) (d_mon x)) by (unfold month_start; repeat match goal with |- context [if ?b then _ else _] => destruct b end; lia). assert (Y : year_start (d_year x) < 47847) by lia. destruct (Z.le_gt_cases (d_year x) 2100) as [|G]; [assumption|exfalso]. unfold year_start in Y. clear - Y G. zdiv.
Qed.
(* As the files of a stored history are named: date first, into a fresh time, then the time
   of the day.  The date must not be 1970-01-01, and the year not after 2100. *)
Theorem C68_read_back_partial t d0 : valid t -> 86400 <= t_sec t < year_start 2101 * 86400 ->
  exists d1 d2, set_only_date d0 (only_date t) = Some d1 /\ set_only_time d1 (only_time t) = Some d2 /\ t_sec d2 = t_sec t /\ t_nsec d2 = t_nsec d0.
Proof.
  intros (V1 & V2) H. assert (Nl : is_null t = false) by (unfold is_null; destruct (Z.eqb_spec (t_sec t) 0); [lia|reflexivity]). unfold only_date, only_time. rewrite Nl, text_date, text_time.
  assert (Y := year_ok t ltac:(lia)). destruct (civil_ok (t_sec t / 86400)) as (D & E & _); [zdiv|]. rewrite (date_back d0 _ D Y), E. eexists. eexists. split; [reflexivity|].
  change (year_start 2101) with 47847 in H. assert (A : 1 <= t_sec t / 86400 < 47847) by (clear - H; zdiv). assert (R : 0 <= t_sec d0 mod 86400 < 86400) by (apply Z.mod_pos_bound; lia). rewrite (Z.mod_small (_ + _) (2^32)) by lia.
  rewrite time_back; [split; [reflexivity|]| |cbn [t_sec]; lia|apply Z.mod_pos_bound; lia].
  - cbn [t_sec t_nsec]. split; [|reflexivity]. assert (Q : (t_sec t / 86400 * 86400 + t_sec d0 mod 86400) / 86400 = t_sec t / 86400) by (rewrite Z.div_add_l, (Z.div_small (t_sec d0 mod 86400)) by lia; lia). rewrite Q. assert (M := Z.div_mod (t_sec t) 86400 ltac:(lia)). rewrite Z.mod_small; lia.
  - unfold is_null. cbn [t_sec]. destruct (Z.eqb_spec (t_sec t / 86400 * 86400 + t_sec d0 mod 86400) 0); [lia|reflexivity].
Qed.
(* in the other order, when there is already a time *)
Theorem C68_time_first t d0 : valid t -> 0 < t_sec t < year_start 2101 * 86400 -> is_null d0 = false -> 0 <= t_sec d0 < 49710 * 86400 ->
  exists d1 d2, set_only_time d0 (only_time t) = Some d1 /\ set_only_date d1 (only_date t) = Some d2 /\ t_sec d2 = t_sec t /\ t_nsec d2 = t_nsec d0.
Proof.
  intros (V1 & V2) H N0 H0. assert (Nl : is_null t = false) by (unfold is_null; destruct (Z.eqb_spec (t_sec t) 0); [lia|reflexivity]). unfold only_date, only_time. rewrite Nl, text_date, text_time.
  assert (Y := year_ok t ltac:(lia)). destruct (civil_ok (t_sec t / 86400)) as (D & E & _); [zdiv|]. assert (R : 0 <= t_sec t mod 86400 < 86400) by (apply Z.mod_pos_bound; lia). rewrite time_back by (assumption || lia). eexists. eexists. split; [reflexivity|]. rewrite (date_back _ _ D Y), E. split; [reflexivity|]. cbn [t_sec t_nsec]. split; [|reflexivity].
  change (year_start 2101) with 47847 in H. assert (Q0 : 0 <= t_sec d0 / 86400 < 49710) by (clear - H0; zdiv). rewrite (Z.mod_small (t_sec d0 / 86400 * 86400 + _)) by lia. assert (Q : (t_sec d0 / 86400 * 86400 + t_sec t mod 86400) mod 86400 = t_sec t mod 86400) by (rewrite Z.add_comm, Z.mod_add, Z.mod_mod by lia; reflexivity). rewrite Q.
  assert (M := Z.div_mod (t_sec t) 86400 ltac:(lia)). rewrite Z.mod_small; lia.
Qed.
Example C68_case : exists d1 d2, set_only_date (mkDT 0 0) (only_date (mkDT 1379335350 0)) = Some d1 /\ set_only_time d1 (only_time (mkDT 1379335350 0)) = Some d2 /\ t_sec d2 = 1379335350 /\ only_date (mkDT 1379335350 0) = [50;48;49;51;45;48;57;45;49;54]%N.
Proof. eexists. eexists. split; [vm_compute; reflexivity|]. split; [vm_compute; reflexivity|]. split; [vm_compute; reflexivity|]. vm_compute. reflexivity. Qed.
(* Into a fresh time first the time of the day and then the date: six hours too much ... *)
Theorem C68_time_first_refuted : exists t d1 d2, valid t /\ 86400 <= t_sec t < year_start 2101 * 86400 /\ set_only_time (mkDT 0 0) (only_time t) = Some d1 /\ set_only_date d1 (only_date t) = Some d2 /\ t_sec d2 = t_sec t + 23296.
Proof. exists (mkDT 1379335350 0). eexists. eexists. split; [unfold valid; cbn; lia|]. split; [vm_compute; split; [discriminate|reflexivity]|]. split; [vm_compute; reflexivity|]. split; [vm_compute; reflexivity|]. vm_compute. reflexivity. Qed.
(* ... on the first of January 1970 also in the usual order ... *)
Theorem C68_first_day_refuted : exists t d1 d2, valid t /\ 0 < t_sec t < 86400 /\ set_only_date (mkDT 0 0) (only_date t) = Some d1 /\ set_only_time d1 (only_time t) = Some d2 /\ t_sec d2 <> t_sec t.
Proof. exists (mkDT 3600 0). eexists. eexists. split; [unfold valid; cbn; lia|]. split; [cbn; lia|]. split; [vm_compute; reflexivity|]. split; [vm_compute; reflexivity|]. vm_compute. discriminate. Qed.
(* ... and after 2100 dates are refused *)
Theorem C68_after_2100_refuted : exists t, valid t /\ set_only_date (mkDT 0 0) (only_date t) = None.
Proof. exists (mkDT 4200000000 0). split; [unfold valid; cbn; lia|]. vm_compute. reflexivity. Qed.
(* A day which is not in the month is accepted: 2021-02-31 is the third of March. *)
Theorem C68_wrong_day_refuted : exists d, set_only_date (mkDT 0 0) [50;48;50;49;45;48;50;45;51;49]%N = Some d /\ only_date d = [50;48;50;49;45;48;51;45;48;51]%N.
Proof. eexists. split; [vm_compute; reflexivity|]. vm_compute. reflexivity. Qed.

Print Assumptions C49_js_date.
Print Assumptions C49_js_same.
Print Assumptions C49_text_partial.
Print Assumptions C49_text_exact.
Print Assumptions C49_js_text.
Print Assumptions C49_text_seconds.
Print Assumptions C49_text_many.
Print Assumptions C49_rounding_refuted.
Print Assumptions C68_read_back_partial.
Print Assumptions C68_time_first.
Print Assumptions C68_time_first_refuted.
Print Assumptions C68_first_day_refuted.
Print Assumptions C68_after_2100_refuted.
Print Assumptions C68_wrong_day_refuted.
