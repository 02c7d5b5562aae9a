(* C55: statistics of a sequence of values. *)
From Coq Require Import SpecFloat Lqa.
From Verif Require Import Common HistSpec HistModel HistProofs.
Local Open Scope Z_scope.

(* ---- number, minimum and maximum, for any arithmetic ---- *)
Definition ordered (A : arith) (ok : T A -> Prop) : Prop :=
  (forall x y, ok x -> ok y -> lt A x y = true -> lt A y x = false)
  /\ (forall x y z, ok x -> ok y -> ok z -> lt A x z = true -> lt A x y = true \/ lt A y z = true).
Definition extremes {A} (a : average A) (vs : list (T A)) : Prop :=
  num a = Z.of_nat (length vs) /\ (vs <> [] -> In (min a) vs /\ In (max a) vs /\ forall v, In v vs -> lt A v (min a) = false /\ lt A (max a) v = false).
Lemma irrefl A ok : ordered A ok -> forall x, ok x -> lt A x x = false.
Proof. intros (As & _) x H. destruct (lt A x x) eqn:E; [|reflexivity]. rewrite (As x x H H E) in E. discriminate. Qed.
Lemma fill_extremes A ok a vs z a' : ordered A ok -> Forall ok vs -> ok z -> extremes a vs -> fill a z = Ok a' -> extremes a' (vs ++ [z]).
Proof.
  intros HO Hok Hz (Nm & Ex) E. unfold fill in E. destruct (fill_hist a z) as [h| |]; cbn [bind] in E; try discriminate. injection E as <-. split; cbn [num min max].
  { rewrite app_length, Nm. cbn [length]. lia. }
  intros _. assert (Ir := irrefl A ok HO). destruct HO as (As & Nt). destruct (Z.eqb_spec (num a) 0) as [E0|E0].
  { destruct vs; [|cbn in Nm; lia]. cbn. repeat split; auto; destruct H as [<-|[]]; apply Ir; exact Hz. }
  destruct Ex as (I1 & I2 & Ex); [intros ->; apply E0; exact Nm|]. rewrite Forall_forall in Hok. assert (K1 := Hok _ I1). assert (K2 := Hok _ I2).
  assert (App : forall x, In x vs -> In x (vs ++ [z])) by (intros; apply in_or_app; left; assumption). assert (Last : In z (vs ++ [z])) by (apply in_or_app; right; left; reflexivity).
  destruct (lt A (max a) z) eqn:L1; [|destruct (lt A z (min a)) eqn:L2]; (split; [auto|]); (split; [auto|]); intros v Hv; apply in_app_or in Hv; (destruct Hv as [Hv|[<-|[]]]; [destruct (Ex v Hv) as (Lv & Uv); assert (Kv := Hok _ Hv)|]); split; auto.
  - destruct (lt A z v) eqn:C; [|reflexivity]. destruct (Nt z (max a) v Hz K2 Kv C) as [F|F]; [rewrite (As _ _ K2 Hz L1) in F|]; congruence.
  - destruct (lt A z (min a)) eqn:C; [|reflexivity]. destruct (Nt _ (min a) _ K2 K1 Hz L1) as [F|F]; [destruct (Ex _ I1); congruence|]. rewrite (As _ _ K1 Hz F) in C. discriminate.
  - destruct (lt A v z) eqn:C; [|reflexivity]. destruct (Nt v (min a) z Kv K1 Hz C) as [F|F]; [congruence|]. rewrite (As _ _ K1 Hz F) in L2. discriminate.
Qed.
Lemma run_extremes A ok l : ordered A ok -> forall a vs a', Forall ok vs -> (forall z, In (OFill z) l -> ok z) -> extremes a vs -> run a l = Ok a' -> extremes a' (values l vs).
Proof.
  intros HO. induction l as [|o l IH]; intros a vs a' Hok Hl Ex E; [injection E as <-; exact Ex|]. cbn [run] in E. destruct o as [n lo hi| |z]; cbn [step values] in *.
  - assert (X : forall b, allocate a n lo hi = Ok b -> extremes b vs).
    { unfold allocate. intros b Eb. destruct (length (hist a) =? 0)%nat, ((0 <? n) && lt A lo hi); try destruct (2 ^ 31 <=? n + 2); try discriminate; injection Eb as <-; exact Ex. }
    destruct (allocate a n lo hi) as [b| |]; cbn [bind] in E; try discriminate. eapply IH; [exact Hok| |apply X; reflexivity|exact E]. intros z Hz. apply Hl. right. exact Hz.
  - cbn [bind] in E. eapply IH; [constructor| | |exact E]; [intros z Hz; apply Hl; right; exact Hz|]. split; [reflexivity|]. intros C; contradiction C; reflexivity.
  - destruct (fill a z) as [b| |] eqn:Eb; cbn [bind] in E; try discriminate. assert (Hz : ok z) by (apply Hl; left; reflexivity). eapply IH; [|intros y Hy; apply Hl; right; exact Hy|eapply fill_extremes; eassumption|exact E]. apply Forall_app. split; [exact Hok|]. repeat constructor. exact Hz.
Qed.
Lemma exact_ordered : ordered exact (fun _ => True).
Proof.
  split; cbn [lt exact].
  - intros x y _ _ H. apply Qlt_bool in H. destruct (Qle_bool x y) eqn:E; [reflexivity|]. exfalso. assert (C : (x <= y)%Q) by lra. apply Qle_bool_iff in C. congruence.
  - intros x y z _ _ _ H. rewrite !Qlt_bool in *. destruct (Qlt_le_dec x y); [left; assumption|right; lra].
Qed.
(* order of doubles *)
Definition is_number (x : spec_float) : Prop := match x with S754_nan => False | _ => True end.
Definition key (x : spec_float) : Z * Z * Z :=
  match x with
  | S754_zero _ | S754_nan => (0, 0, 0)
  | S754_infinity s => (if s then -2 else 2, 0, 0)
  | S754_finite s m e => if s then (-1, - e, Zneg m) else (1, e, Zpos m)
  end.
Definition lex (a b : Z * Z * Z) : Prop :=
  match a, b with (a1, a2, a3), (b1, b2, b3) => a1 < b1 \/ (a1 = b1 /\ (a2 < b2 \/ (a2 = b2 /\ a3 < b3))) end.
Lemma SFltb_lex x y : is_number x -> is_number y -> SFltb x y = true <-> lex (key x) (key y).
Proof.
  intros Hx Hy. unfold SFltb. destruct x as [s|s| |s m e], y as [s'|s'| |s' m' e']; try contradiction; cbn [SFcompare key]; try (destruct s); try (destruct s'); cbn [lex]; try (split; [discriminate|lia]); try (split; [lia|reflexivity]).
  - destruct (Z.compare_spec e e'); subst; try (split; [discriminate || reflexivity|]; lia).
    + unfold CompOpp. fold (Pos.compare m m'). destruct (Pos.compare_spec m m'); subst; (split; [try discriminate|try reflexivity]; lia).
    + split; [lia|reflexivity].
  - destruct (Z.compare_spec e e'); subst; try (split; [discriminate || reflexivity|]; lia).
    + fold (Pos.compare m m'). destruct (Pos.compare_spec m m'); subst; (split; [try discriminate|try reflexivity]; lia).
    + split; [lia|reflexivity].
Qed.
Lemma double_ordered : ordered double is_number.
Proof.
  split; cbn [lt double].
  - intros x y Hx Hy H. apply SFltb_lex in H; try assumption. destruct (SFltb y x) eqn:E; [|reflexivity]. apply SFltb_lex in E; try assumption. destruct (key x) as ((a1, a2), a3), (key y) as ((b1, b2), b3). cbn [lex] in *. lia.
  - intros x y z Hx Hy Hz H. rewrite !SFltb_lex in *; try assumption. destruct (key x) as ((a1, a2), a3), (key y) as ((b1, b2), b3), (key z) as ((c1, c2), c3). cbn [lex] in *. lia.
Qed.

(* After any sequence of operations number, minimum and maximum are those of the values
   filled since the last reset: with doubles, none of them NaN ... *)
Theorem C55_numbers : forall l a, (forall z, In (OFill z) l -> is_number z) -> run (A:=double) init l = Ok a ->
  num a = Z.of_nat (length (values l []))
  /\ (values l [] <> [] -> In (min a) (values l []) /\ In (max a) (values l []) /\ forall v, In v (values l []) -> SFltb v (min a) = false /\ SFltb (max a) v = false).
Proof.
  intros l a Hl E. refine (run_extremes double is_number l double_ordered init [] a (Forall_nil _) Hl _ E). split; [reflexivity|]. intros C; contradiction C; reflexivity.
Qed.
Print Assumptions C55_numbers.

Lemma witness A l (P : average A -> bool) : match run init l with Ok a => P a | _ => false end = true -> exists a, run init l = Ok a /\ P a = true.
Proof. destruct (run init l) as [a| |]; try discriminate. intros H. exists a. auto. Qed.
Definition sf_eqb (x y : spec_float) : bool :=
  match x, y with
  | S754_zero s, S754_zero s' | S754_infinity s, S754_infinity s' => Bool.eqb s s'
  | S754_finite s m e, S754_finite s' m' e' => Bool.eqb s s' && (m =? m')%positive && (e =? e')
  | _, _ => false
  end.
Lemma sf_eqb_eq x y : sf_eqb x y = true -> x = y.
Proof. destruct x, y; cbn; try discriminate; rewrite ?andb_true_iff, ?Bool.eqb_true_iff, ?Pos.eqb_eq, ?Z.eqb_eq; intuition congruence. Qed.
Definition list_eqb (a b : list Z) : bool := if list_eq_dec Z.eq_dec a b then true else false.
Lemma list_eqb_eq a b : list_eqb a b = true -> a = b.
Proof. unfold list_eqb. destruct (list_eq_dec Z.eq_dec a b); [auto|discriminate]. Qed.
Example C55_numbers_case : let l := [OFill (S754_finite false 3 0); OReset; OFill (S754_finite false 5 (-1)); OAlloc 4 (S754_zero false) (S754_finite false 1 0); OFill (S754_finite true 7 2); OFill (S754_zero true)] in
  (forall z, In (OFill z) l -> is_number z) /\ exists a, run (A:=double) init l = Ok a /\ num a = 3 /\ min a = S754_finite true 7 2.
Proof.
  cbv zeta. split; [intros z H; cbn in H; decompose [or] H; try discriminate; try contradiction; match goal with E : OFill _ = _ |- _ => injection E as <-; exact I end|]. 
  edestruct (witness double) with (P := fun a : average double => (num a =? 3) && sf_eqb (min a) (S754_finite true 7 2)) as (a & E & P); [|exists a; split; [exact E|]; apply andb_true_iff in P; split; [apply Z.eqb_eq; apply P|apply sf_eqb_eq; apply P]]. vm_compute. reflexivity.
Qed.

(* ---- histogram with exact numbers ---- *)
Definition no_alloc {T} (l : list (op T)) : Prop := forall n lo hi, ~ In (OAlloc n lo hi) l.
Lemma reset_counted lo hi n a vs : counted lo hi n a vs -> counted lo hi n (reset a) [].
Proof.
  intros [C1 C2 C3 C4 _]. split; cbn [reset hist nhist hist_min hist_max]; auto; [rewrite map_length; exact C1|].
  intros k _. replace (nth (Z.to_nat k) (map (fun _ : Z => 0) (hist a)) 0) with 0; [constructor|]. clear. generalize (Z.to_nat k). induction (hist a) as [|c h IH]; intros [|j]; cbn; auto.
Qed.
Lemma run_counted lo hi n l : 0 < n -> (lo < hi)%Q -> no_alloc l -> forall a vs, counted lo hi n a vs -> exists a', run a l = Ok a' /\ counted lo hi n a' (values l vs).
Proof.
  intros Hn Hl. induction l as [|o l IH]; intros Na a vs C; [exists a; split; [reflexivity|exact C]|]. assert (Na' : no_alloc l) by (intros k x y H; apply (Na k x y); right; exact H). cbn [run]. destruct o as [k x y| |z]; cbn [step values].
  - exfalso. apply (Na k x y). left. reflexivity.
  - cbn [bind]. apply IH; [exact Na'|]. eapply reset_counted. exact C.
  - destruct (fill_counted lo hi n a vs z Hn Hl C) as (b & E & Cb). rewrite E. cbn [bind]. apply IH; assumption.
Qed.
Lemma alloc_counted lo hi n (a : average exact) : 0 < n -> n + 2 < 2 ^ 31 -> (lo < hi)%Q -> exists a', allocate a n lo hi = Ok a' /\ counted lo hi n a' [].
Proof.
  intros Hn Hb Hl. unfold allocate. cbn [lt exact]. assert (negb (Qle_bool hi lo) = true) as -> by (apply Qlt_bool; exact Hl). destruct (Z.ltb_spec 0 n); [|lia]. cbn [andb]. destruct (Z.leb_spec (2 ^ 31) (n + 2)); [lia|].
  eexists. split; [reflexivity|]. split; cbn [hist nhist hist_min hist_max]; auto; [apply repeat_length|]. intros k _. rewrite nth_repeat. constructor.
Qed.
(* The contents of all bins: a value is counted in its bin, except that the lower limits of
   the bins 3, 5, 7 ... are counted one bin lower, and the lower limit of bin 1 (of the
   whole range) is not counted at all. *)
Theorem C55_hist : forall lo hi n l (a : average exact), 0 < n -> n + 2 < 2 ^ 31 -> (lo < hi)%Q -> no_alloc l ->
  exists a', run a (OAlloc n lo hi :: l) = Ok a' /\ length (hist a') = Z.to_nat (n + 2)
    /\ forall k, 0 <= k <= n + 1 ->
       count (fun z => (in_bin lo hi n k z /\ ~ (exists j, Z.even j = true /\ on_border lo hi n j z))
                       \/ (0 < k /\ Z.even k = true /\ on_border lo hi n k z)) (values l []) (nth (Z.to_nat k) (hist a') 0).
Proof.
  intros lo hi n l a Hn Hb Hl Na. destruct (alloc_counted lo hi n a Hn Hb Hl) as (b & E & C). destruct (run_counted lo hi n l Hn Hl Na b [] C) as (a' & E' & [C1 _ _ _ C2]). exists a'. cbn [run step]. rewrite E. cbn [bind]. split; [exact E'|]. split; [exact C1|exact C2].
Qed.
Print Assumptions C55_hist.
(* So the bins are right when no value is one of these limits. *)
Lemma count_weaken {T} (P R : T -> Prop) vs c : (forall z, In z vs -> P z <-> R z) -> count P vs c -> count R vs c.
Proof.
  intros H C. induction C as [|z vs c Hz C IH|z vs c Hz C IH]; [constructor| |].
  - constructor; [apply H; [apply in_or_app; right; left; reflexivity|exact Hz]|]. apply IH. intros y Hy. apply H. apply in_or_app. left. exact Hy.
  - apply Count_no; [rewrite <- H; [exact Hz|apply in_or_app; right; left; reflexivity]|]. apply IH. intros y Hy. apply H. apply in_or_app. left. exact Hy.
Qed.
Theorem C55_hist_partial : forall lo hi n l (a : average exact), 0 < n -> n + 2 < 2 ^ 31 -> (lo < hi)%Q -> no_alloc l ->
  (forall z j, In z (values l []) -> Z.even j = true -> ~ on_border lo hi n j z) ->
  exists a', run a (OAlloc n lo hi :: l) = Ok a'
    /\ forall k, 0 <= k <= n + 1 -> count (in_bin lo hi n k) (values l []) (nth (Z.to_nat k) (hist a') 0).
Proof.
  intros lo hi n l a Hn Hb Hl Na Hz. destruct (C55_hist lo hi n l a Hn Hb Hl Na) as (a' & E & _ & C). exists a'. split; [exact E|]. intros k Hk. eapply count_weaken; [|exact (C k Hk)]. cbv beta. intros z Iz. split.
  - intros [(H & _)|(_ & H1 & H2)]; [exact H|]. exfalso. exact (Hz z k Iz H1 H2).
  - intros H. left. split; [exact H|]. intros (j & J1 & J2). exact (Hz z j Iz J1 J2).
Qed.
Print Assumptions C55_hist_partial.
Theorem C55_one_bin : forall lo hi n z, 0 < n -> (lo < hi)%Q -> exists! k, in_bin lo hi n k z.
Proof.
  intros lo hi n z Hn Hl. assert (U := fun k j => in_bin_unique lo hi n Hn Hl z k j). destruct (Qlt_le_dec z lo) as [L|L]; [exists 0; split; [left; auto|]; intros; apply U; [left; auto|assumption]|].
  destruct (Qlt_le_dec z hi) as [H|H]; [|exists (n + 1); split; [right; left; auto|]; intros; apply U; [right; left; auto|assumption]].
  destruct (floor_bin lo hi n Hn Hl z L H) as (k & Hk & B). assert (I : in_bin lo hi n k z) by (right; right; rewrite le_tpos, lt_tpos by assumption; auto). exists k. split; [exact I|]. intros j Hj. apply U; assumption.
Qed.
Print Assumptions C55_one_bin.
Example C55_hist_case : let l := [OFill (1 # 2); OReset; OFill (1 # 2); OFill (5 # 2); OFill (1 # 1); OFill (-1 # 1); OFill (7 # 1)] in
  no_alloc l /\ (forall z j, In z (values l []) -> Z.even j = true -> ~ on_border 0 4 4 j z)
  /\ exists a, run (A:=exact) init (OAlloc 4 0%Q 4%Q :: l) = Ok a /\ hist a = [1; 1; 1; 1; 0; 1].
Proof.
  cbv zeta. split; [intros n lo hi H; cbn in H; decompose [or] H; try discriminate; contradiction|]. split; [|eexists; split; [vm_compute; reflexivity|vm_compute; reflexivity]].
  intros z j H Ej (Hj & E). assert (C : j = 0 \/ j = 2) by (assert (J : j = 0 \/ j = 1 \/ j = 2 \/ j = 3) by lia; decompose [or] J; subst; auto; discriminate). cbn in H. decompose [or] H; try contradiction; subst z; destruct C as [-> | ->]; vm_compute in E; discriminate.
Qed.
(* The lower end of the range is never counted, whatever the range. *)
Theorem C55_lower_end_refuted : forall lo hi n, 0 < n -> n + 2 < 2 ^ 31 -> (lo < hi)%Q -> in_bin lo hi n 1 lo /\
  exists a, run (A:=exact) init [OAlloc n lo hi; OFill lo] = Ok a /\ num a = 1 /\ hist a = repeat 0 (Z.to_nat (n + 2)).
Proof.
  intros lo hi n Hn Hb Hl. assert (Bd : on_border lo hi n 0 lo) by (split; [lia|]; change (inject_Z 0) with 0%Q; unfold Qdiv; rewrite !Qmult_0_l; lra).
  split; [apply (proj2 (proj2 (border_in lo hi n Hn Hl lo 0 Bd)))|]. destruct (C55_hist lo hi n [OFill lo] init Hn Hb Hl) as (a & E & L & C); [intros k x y [H|[]]; discriminate|]. exists a. split; [exact E|]. split.
  - apply (run_extremes exact (fun _ => True) [OAlloc n lo hi; OFill lo] exact_ordered init [] a (Forall_nil _)); [auto| |exact E]. split; [reflexivity|]. intros F; contradiction F; reflexivity.
  - cbn [values app] in C. apply (nth_ext _ _ 0 0); [rewrite repeat_length; exact L|]. intros i Hi. rewrite nth_repeat. specialize (C (Z.of_nat i) ltac:(lia)). rewrite Nat2Z.id in C. remember [lo] as vs eqn:Ev. destruct C as [|z vs' c Hz C|z vs' c Hz C]; [reflexivity| |].
    + exfalso. destruct vs' as [|? [|]]; try discriminate. injection Ev as ->. destruct Hz as [(_ & F)|(F1 & _ & F2)]; [apply F; exists 0; auto|]. assert (Z.of_nat i = 0) by (exact (border_unique lo hi n Hn Hl lo _ _ F2 Bd)). lia.
    + destruct vs' as [|? [|]]; try discriminate. inversion C as [|? l' ? ? ? X|? l' ? ? ? X]; [reflexivity|destruct l'; discriminate|destruct l'; discriminate].
Qed.
Print Assumptions C55_lower_end_refuted.
(* Lower limits of bins are counted in the bin below. *)
Theorem C55_border_refuted : exists a, run (A:=exact) init [OAlloc 4 0%Q 4%Q; OFill 2%Q] = Ok a /\ hist a = [0; 0; 1; 0; 0; 0] /\ in_bin 0 4 4 3 2.
Proof. eexists. split; [vm_compute; reflexivity|]. split; [vm_compute; reflexivity|]. right; right. split; [lia|]. split; vm_compute; [discriminate|reflexivity]. Qed.
Print Assumptions C55_border_refuted.

(* ---- mean and deviation with exact numbers ---- *)
Definition sums (a : average exact) (vs : list Q) : Prop := (sum1 a == qsum vs)%Q /\ (sum2 a == qsum (map (fun v => v * v) vs))%Q /\ num a = Z.of_nat (length vs).
Lemma qsum_app u v : (qsum (u ++ v) == qsum u + qsum v)%Q.
Proof. unfold qsum. induction u as [|x u IH]; cbn [app fold_right]; [symmetry; apply Qplus_0_l|]. rewrite IH. apply Qplus_assoc. Qed.
Lemma run_sums l : forall a vs a', sums a vs -> run a l = Ok a' -> sums a' (values l vs).
Proof.
  induction l as [|o l IH]; intros a vs a' S0 E; [injection E as <-; exact S0|]. cbn [run] in E. destruct o as [n lo hi| |z]; cbn [step values] in *.
  - assert (X : forall b, allocate a n lo hi = Ok b -> sums b vs).
    { unfold allocate. intros b Eb. destruct (length (hist a) =? 0)%nat, ((0 <? n) && lt exact lo hi); try destruct (2 ^ 31 <=? n + 2); try discriminate; injection Eb as <-; exact S0. }
    destruct (allocate a n lo hi) as [b| |]; cbn [bind] in E; try discriminate. eapply IH; [apply X; reflexivity|exact E].
  - cbn [bind] in E. eapply IH; [|exact E]. split; [reflexivity|]. split; reflexivity.
  - unfold fill in E. destruct (fill_hist a z) as [h| |]; cbn [bind] in E; try discriminate. eapply IH; [|exact E]. destruct S0 as (S1 & S2 & S3). split; [|split]; cbn [sum1 sum2 num add mul exact].
    + rewrite qsum_app, S1. unfold qsum at 3. cbn [fold_right]. rewrite Qplus_0_r. reflexivity.
    + rewrite map_app, qsum_app, S2. unfold qsum at 3. cbn [fold_right map]. rewrite Qplus_0_r. reflexivity.
    + rewrite S3, app_length. cbn [length T exact]. lia.
Qed.
Lemma inj_pos n : 0 < n -> (0 < inject_Z n)%Q.
Proof. unfold Qlt, inject_Z. cbn. lia. Qed.
(* The mean is the sum divided by the number, and the number under the root of the deviation
   is the mean square distance from it, so not negative. *)
Lemma deviation_sum m vs : (qsum (map (fun v => (v - m) * (v - m)) vs) == qsum (map (fun v => v * v) vs) - 2 * m * qsum vs + inject_Z (Z.of_nat (length vs)) * m * m)%Q.
Proof.
  unfold qsum. induction vs as [|x vs IH]; [cbn [map fold_right length Z.of_nat]; change (inject_Z 0) with 0%Q; ring|]. cbn [map fold_right length] in *. rewrite IH. rewrite Nat2Z.inj_succ. unfold Z.succ. rewrite inject_Z_plus. ring.
Qed.
Lemma squares_pos m vs : (0 <= qsum (map (fun v => (v - m) * (v - m)) vs))%Q.
Proof. unfold qsum. induction vs as [|x vs IH]; [cbn; lra|]. cbn [map fold_right] in *. assert (P : forall y : Q, (0 <= y * y)%Q) by (intros (p, d); unfold Qle; cbn; nia). specialize (P (x - m)%Q). lra. Qed.
Theorem C55_mean : forall l a, run (A:=exact) init l = Ok a -> let vs := values l [] in vs <> [] ->
  (mean a == qsum vs / inject_Z (Z.of_nat (length vs)))%Q
  /\ forall d, dev_square a = Some d -> (d == qsum (map (fun v => (v - mean a) * (v - mean a)) vs) / inject_Z (Z.of_nat (length vs)) /\ 0 <= d)%Q.
Proof.
  intros l a E vs Hv. assert (S0 : sums a vs) by (eapply run_sums; [|exact E]; split; [reflexivity|split; reflexivity]). clearbody vs. destruct S0 as (S1 & S2 & S3).
  assert (Np : 0 < num a) by (rewrite S3; destruct vs; [contradiction Hv; reflexivity|cbn; lia]). assert (Ip := inj_pos _ Np). change (Z.of_nat (@length (HistModel.T exact) vs)) with (Z.of_nat (@length Q vs)). rewrite <- S3.
  assert (M : (mean a == qsum vs / inject_Z (num a))%Q) by (unfold mean; destruct (Z.ltb_spec 0 (num a)); [|lia]; cbn [div exact of_Z]; rewrite S1; reflexivity).
  split; [exact M|]. intros d Hd. unfold dev_square in Hd. destruct (num a <=? 1); [discriminate|]. cbn [sub div mul exact of_Z] in Hd. injection Hd as <-.
  assert (Eq : (sum2 a / inject_Z (num a) - mean a * mean a == qsum (map (fun v => (v - mean a) * (v - mean a)) vs) / inject_Z (num a))%Q).
  { rewrite deviation_sum, S2, <- S3. rewrite M. field. lra. }
  split; [exact Eq|]. rewrite Eq. apply Qle_shift_div_l; [exact Ip|]. rewrite Qmult_0_l. apply squares_pos.
Qed.
Print Assumptions C55_mean.

(* ---- doubles ---- *)
Definition total (h : list Z) : Z := fold_right Z.add 0 h.
Record roughly (A : arith) (lo hi : T A) (n : Z) (a : average A) (vs : list (T A)) : Prop := {
  g_len : length (hist a) = Z.to_nat (n + 2);
  g_n : nhist a = n;
  g_lo : hist_min a = lo;
  g_hi : hist_max a = hi;
  g_under : count (fun z => lt A z lo = true) vs (nth 0 (hist a) 0);
  g_over : count (fun z => lt A z lo = false /\ le A hi z = true) vs (nth (Z.to_nat (n + 1)) (hist a) 0);
  g_total : total (hist a) <= Z.of_nat (length vs)
}.
Lemma total_upd h : forall i c, nth_error h i = Some c -> total (upd h i (c + 1)) = total h + 1.
Proof. induction h as [|x h IH]; intros [|i] c E; try discriminate; cbn in *; [injection E as ->; unfold total; lia|]. specialize (IH i c E). unfold total in *. lia. Qed.
Lemma incr_total h i h' : incr h i = Ok h' -> total h' = total h + 1.
Proof. unfold incr. destruct (i <? 0); [discriminate|]. destruct (nth_error h (Z.to_nat i)) as [c|] eqn:E; [|discriminate]. intros H. injection H as <-. apply total_upd. exact E. Qed.
Lemma total_zeros {B} (h : list B) : total (map (fun _ => 0) h) = 0.
Proof. unfold total. induction h as [|x h IH]; [reflexivity|]. cbn [map fold_right]. rewrite IH. reflexivity. Qed.
Lemma total_repeat k : total (repeat 0 k) = 0.
Proof. unfold total. induction k as [|k IH]; [reflexivity|]. cbn [repeat fold_right]. rewrite IH. reflexivity. Qed.
Lemma fill_roughly A lo hi n a vs z a' : 0 < n -> roughly A lo hi n a vs -> fill a z = Ok a' -> roughly A lo hi n a' (vs ++ [z]).
Proof.
  intros Hn [Gl Gn G1 G2 Gu Go Gt] E. unfold fill, fill_hist in E. rewrite Gl, Gn, G1, G2 in E. destruct (Nat.eqb_spec (Z.to_nat (n + 2)) 0) as [E0|_]; [lia|]. destruct (Z.eqb_spec n 0); [lia|]. cbn [orb] in E.
  assert (Len : Z.of_nat (length (hist a)) = n + 2) by lia.
  assert (K : forall i h', 0 <= i <= n + 1 -> incr (hist a) i = Ok h' -> (i = 0 <-> lt A z lo = true) -> (i = n + 1 <-> lt A z lo = false /\ le A hi z = true) -> forall nm s1 s2 mn mx, roughly A lo hi n (mkAv (A:=A) nm s1 s2 mn mx h' n lo hi) (vs ++ [z])).
  { intros i h' Hi Ei I0 I1 nm s1 s2 mn mx. destruct (incr_ok (hist a) i ltac:(lia)) as (h2 & E2 & L2 & N2). rewrite Ei in E2. injection E2 as <-. split; cbn [hist nhist hist_min hist_max]; auto; [congruence| | |].
    - assert (X := N2 0 ltac:(lia)). cbn [Z.to_nat] in X. rewrite X. destruct (Z.eqb_spec 0 i) as [C|C]; [apply Count_yes; [apply I0; lia|exact Gu]|apply Count_no; [intros F; apply C; symmetry; apply I0; exact F|exact Gu]].
    - rewrite (N2 (n + 1) ltac:(lia)). destruct (Z.eqb_spec (n + 1) i) as [C|C]; [apply Count_yes; [apply I1; lia|exact Go]|apply Count_no; [intros F; apply C; symmetry; apply I1; exact F|exact Go]].
    - rewrite (incr_total _ _ _ Ei), app_length. cbn [length]. lia. }
  destruct (lt A z lo) eqn:Eu; [|destruct (le A hi z) eqn:Eo; [|destruct (lrint A (position a z)) as [b|]; [destruct ((0 <? b) && (b <=? n)) eqn:Eb|]]].
  - destruct (incr (hist a) 0) as [h'| |] eqn:Ei; cbn [bind] in E; try discriminate. injection E as <-. eapply K; [|exact Ei| |]; [lia| |]; split; try tauto; try lia.
  - destruct (incr (hist a) (n + 1)) as [h'| |] eqn:Ei; cbn [bind] in E; try discriminate. injection E as <-. eapply K; [|exact Ei| |]; [lia| |]; split; try tauto; try lia; discriminate.
  - apply andb_true_iff in Eb. destruct (incr (hist a) b) as [h'| |] eqn:Ei; cbn [bind] in E; try discriminate. injection E as <-. eapply K; [|exact Ei| |]; [lia| |]; split; try lia; try discriminate.
  - cbn [bind] in E. injection E as <-. split; cbn [hist nhist hist_min hist_max]; auto; [apply Count_no; [congruence|exact Gu]|apply Count_no; [intros (_ & F); congruence|exact Go]|]. rewrite app_length. cbn [length]. lia.
  - discriminate.
Qed.
Lemma run_roughly A lo hi n l : 0 < n -> no_alloc l -> forall a vs a', roughly A lo hi n a vs -> run a l = Ok a' -> roughly A lo hi n a' (values l vs).
Proof.
  intros Hn. induction l as [|o l IH]; intros Na a vs a' C E; [injection E as <-; exact C|]. assert (Na' : no_alloc l) by (intros k x y H; apply (Na k x y); right; exact H). cbn [run] in E. destruct o as [k x y| |z]; cbn [step values] in *.
  - exfalso. apply (Na k x y). left. reflexivity.
  - cbn [bind] in E. eapply IH; [exact Na'| |exact E]. destruct C as [C1 C2 C3 C4 _ _ _]. assert (Z0 : forall k (h : list Z), nth k (map (fun _ => 0) h) 0 = 0) by (intros k h; revert k; induction h as [|c h IHh]; intros [|j]; cbn; auto).
    split; cbn [reset hist nhist hist_min hist_max]; auto; [rewrite map_length; exact C1|rewrite Z0; constructor|rewrite Z0; constructor|]. rewrite total_zeros. cbn [length Z.of_nat]. lia.
  - destruct (fill a z) as [b| |] eqn:Eb; cbn [bind] in E; try discriminate. eapply IH; [exact Na'| |exact E]. eapply fill_roughly; eassumption.
Qed.
(* With doubles, and any values: the counts below and above the range are right, and no
   value is counted twice. *)
Theorem C55_outside : forall lo hi n l (a a' : average double), 0 < n -> SFltb lo hi = true -> no_alloc l -> run a (OAlloc n lo hi :: l) = Ok a' ->
  length (hist a') = Z.to_nat (n + 2)
  /\ count (fun z => SFltb z lo = true) (values l []) (nth 0 (hist a') 0)
  /\ count (fun z => SFltb z lo = false /\ SFleb hi z = true) (values l []) (nth (Z.to_nat (n + 1)) (hist a') 0)
  /\ fold_right Z.add 0 (hist a') <= Z.of_nat (length (values l [])).
Proof.
  intros lo hi n l a a' Hn Hl Na E. cbn [run step] in E. unfold allocate in E. cbn [lt double] in E. rewrite Hl in E. destruct (Z.ltb_spec 0 n); [|lia]. cbn [andb] in E. destruct (2 ^ 31 <=? n + 2); [discriminate|]. cbn [bind] in E.
  assert (R : roughly double lo hi n a' (values l [])).
  { eapply run_roughly; [exact Hn|exact Na| |exact E]. split; cbn [hist nhist hist_min hist_max]; auto; [apply repeat_length|rewrite nth_repeat; constructor|rewrite nth_repeat; constructor|]. rewrite total_repeat. cbn [length Z.of_nat]. lia. }
  destruct R. auto.
Qed.
Print Assumptions C55_outside.
Definition d_of (m : positive) (e : Z) : spec_float := S754_finite false m e.
Definition d0 : spec_float := S754_zero false.
Definition d1 : spec_float := d_of 4503599627370496 (-52).
Definition d_tenth : spec_float := d_of 7205759403792794 (-56).
(* Three times 0.1: the deviation is the root of a negative number. *)
Theorem C55_deviation_refuted : exists a d, run (A:=double) init [OFill d_tenth; OFill d_tenth; OFill d_tenth] = Ok a /\ dev_square a = Some d /\ SFltb d d0 = true.
Proof.
  edestruct (witness double) with (P := fun a : average double => match dev_square a with Some d => SFltb d d0 | None => false end) as (a & E & P); [|exists a; destruct (dev_square a) as [d|]; [exists d; split; [exact E|]; split; [reflexivity|exact P]|discriminate]]. vm_compute. reflexivity.
Qed.
Print Assumptions C55_deviation_refuted.
(* The largest double below 1 lies in the range from 0 to 1 with one bin, and is not counted. *)
Theorem C55_upper_end_refuted : let z := d_of 9007199254740991 (-53) in SFltb z d1 = true /\
  exists a, run (A:=double) init [OAlloc 1 d0 d1; OFill z] = Ok a /\ hist a = [0; 0; 0].
Proof. cbv zeta. split; [vm_compute; reflexivity|].
  edestruct (witness double) with (P := fun a : average double => list_eqb (hist a) [0; 0; 0]) as (a & E & P); [|exists a; split; [exact E|apply list_eqb_eq; exact P]]. vm_compute. reflexivity.
Qed.
Print Assumptions C55_upper_end_refuted.
(* In the widest range the argument of lrint is not a number for large values, and its
   result not specified. *)
Theorem C55_wide_refuted : let m := d_of 9007199254740991 971 in let z := d_of 9007199254740991 970 in
  run (A:=double) init [OAlloc 10 (SFopp m) m; OFill z] = UB /\ SFltb (SFopp m) z = true /\ SFltb z m = true.
Proof.
  cbv zeta. split; [|split; vm_compute; reflexivity].
  match goal with |- ?r = UB => assert (E : match r with UB => true | _ => false end = true) by (vm_compute; reflexivity); destruct r; [discriminate|reflexivity|discriminate] end.
Qed.
Print Assumptions C55_wide_refuted.
