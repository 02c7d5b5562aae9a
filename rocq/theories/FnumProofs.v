(* Numbers of files. *)
From Coq Require Import Sorting.Permutation Sorting.Sorted.
From Verif Require Import Common ListFacts Bytes DecStr UrlSpec NameSpec NameModel NameProps FnumSpec FnumModel.
Local Open Scope Z_scope.

(* ---- the name ---- *)
Lemma starts_app p s : starts p (p ++ s) = true.
Proof. induction p as [|x p IH]; [reflexivity|]. cbn. rewrite N.eqb_refl. exact IH. Qed.
Lemma starts_ok p : forall s, starts p s = true -> exists r, s = p ++ r.
Proof.
  induction p as [|x p IH]; intros s H; [exists s; reflexivity|]. destruct s as [|y s]; [discriminate|]. cbn in H. apply andb_prop in H as (E & H).
  apply N.eqb_eq in E. subst. destruct (IH s H) as (r & ->). exists r. reflexivity.
Qed.
Lemma rfind_at s p : forall i, rfind s p = Some i -> exists r, skipn i s = p ++ r.
Proof.
  induction s as [|c s IH]; intros i H.
  - cbn in H. destruct p; [|discriminate]. injection H as <-. exists []. reflexivity.
  - cbn [rfind] in H. destruct (rfind s p) as [j|].
    + injection H as <-. cbn. apply IH. reflexivity.
    + destruct (starts p (c :: s)) eqn:E; [|discriminate]. injection H as <-. cbn [skipn]. apply starts_ok. exact E.
Qed.
Lemma rfind_len s p i : rfind s p = Some i -> (i + length p <= length s)%nat \/ p = [] /\ (i <= length s)%nat.
Proof.
  intros H. destruct (rfind_at s p i H) as (r & E). pose proof (f_equal (@length N) E) as L. rewrite skipn_length, app_length in L.
  destruct p; [right|left; cbn in *; lia]. split; auto. clear E L. revert i H. induction s as [|c s IH]; intros i H; cbn in H.
  - injection H as <-. auto.
  - destruct (rfind s []) as [j|]; injection H as <-; cbn; [|lia]. specialize (IH j eq_refl). lia.
Qed.
Lemma rfind_self e : rfind e e = Some 0%nat.
Proof.
  destruct e as [|c e]; [reflexivity|]. cbn [rfind]. destruct (rfind e (c :: e)) as [i|] eqn:E.
  - destruct (rfind_len _ _ _ E) as [L|(L & _)]; [cbn in L; lia|discriminate].
  - cbn [starts]. rewrite N.eqb_refl. pose proof (starts_app e []) as S1. rewrite app_nil_r in S1. rewrite S1. reflexivity.
Qed.
Lemma rfind_end b e : rfind (b ++ e) e = Some (length b).
Proof. induction b as [|c b IH]; [apply rfind_self|]. cbn [app rfind length]. rewrite IH. reflexivity. Qed.
Lemma produce_ok name ext base suf : stem name ext base -> (length name + 1)%nat <> length ext -> produce name ext suf = Some (base ++ suf ++ ext).
Proof.
  intros [->|(-> & Ne)] L; unfold produce.
  - rewrite rfind_end, app_length, Nat.eqb_refl. rewrite firstn_app, Nat.sub_diag, firstn_all. cbn [firstn]. rewrite app_nil_r.
    rewrite skipn_app, Nat.sub_diag, skipn_all. reflexivity.
  - destruct (rfind base ext) as [i|] eqn:E.
    + destruct (Nat.eqb_spec (i + length ext) (length base)) as [El|El]; [|rewrite <- app_assoc; reflexivity].
      exfalso. destruct (rfind_at _ _ _ E) as (r & Er). pose proof (f_equal (@length N) Er) as Lr. rewrite skipn_length, app_length in Lr.
      assert (r = []) by (destruct r; [auto|cbn in Lr; lia]). subst r. rewrite app_nil_r in Er. apply (Ne (firstn i base)). rewrite <- Er. symmetry. apply firstn_skipn.
    + destruct (Nat.eqb_spec (length base + 1) (length ext)); [contradiction|]. rewrite <- app_assoc. reflexivity.
Qed.
Lemma produce_throws name ext suf : (length name + 1)%nat = length ext -> produce name ext suf = None.
Proof.
  intros L. unfold produce. destruct (rfind name ext) as [i|] eqn:E; [|rewrite L, Nat.eqb_refl; reflexivity].
  destruct (rfind_len _ _ _ E) as [H|(H & _)]; [lia|]. subst ext. cbn in L. lia.
Qed.

(* ---- the mask finds the names ---- *)
Lemma no_slash s : free 47 s -> existsb (N.eqb 47) s = false.
Proof.
  intros F. apply not_true_is_false. intros H. apply existsb_exists in H as (c & Hc & E). apply N.eqb_eq in E. subst. exact (F Hc).
Qed.
Lemma after_free s : free 47 s -> after_slash s = s.
Proof.
  intros F. destruct s as [|c r]; [reflexivity|]. cbn [after_slash]. rewrite no_slash by (intros H; apply F; right; exact H).
  destruct (N.eqb_spec c 47); [|reflexivity]. subst. exfalso. apply F. left. reflexivity.
Qed.
Lemma after_app b y : free 47 y -> after_slash (b ++ y) = after_slash b ++ y.
Proof.
  intros F. induction b as [|c b IH]; [apply after_free; exact F|]. cbn [app after_slash]. rewrite existsb_app, (no_slash y F), orb_false_r.
  destruct (existsb (N.eqb 47) b); [exact IH|]. destruct (c =? 47)%N; reflexivity.
Qed.
Lemma after_len b : (length (after_slash b) <= length b)%nat.
Proof. induction b as [|c b IH]; [auto|]. cbn [after_slash]. destruct (existsb (N.eqb 47) b); [cbn; lia|]. destruct (c =? 47)%N; cbn; lia. Qed.
Lemma folder_app b y : free 47 y -> folder (b ++ y) = folder b.
Proof.
  intros F. unfold folder. rewrite after_app by exact F. rewrite !app_length. pose proof (after_len b).
  replace (length b + length y - (length (after_slash b) + length y))%nat with (length b - length (after_slash b))%nat by lia.
  rewrite firstn_app. replace (length b - length (after_slash b) - length b)%nat with 0%nat by lia. cbn. apply app_nil_r.
Qed.
Lemma item_after s : item s = after_slash s.
Proof. induction s as [|c s IH]; [reflexivity|]. cbn. rewrite IH. reflexivity. Qed.
Lemma self_match p m s : matches m s -> matches (p ++ m) (p ++ s).
Proof.
  intros H. induction p as [|c p IH]; [exact H|]. cbn [app]. destruct (N.eq_dec c 42) as [->|N1]; [apply (M_star _ [42%N]); exact IH|].
  destruct (N.eq_dec c 63) as [->|N2]; [apply M_any; exact IH|]. apply M_char; auto.
Qed.
Lemma self_refl p : matches p p.
Proof. pose proof (self_match p [] [] M_end) as H. rewrite app_nil_r in H. exact H. Qed.

Lemma in_insert x y l : In x (insert y l) <-> x = y \/ In x l.
Proof.
  induction l as [|z l IH]; cbn; [firstorder|]. destruct (text_leb y z); cbn; [firstorder|]. rewrite IH. firstorder.
Qed.
Lemma in_sort x l : In x (sort l) <-> In x l.
Proof. induction l as [|y l IH]; cbn; [tauto|]. fold (sort l). rewrite in_insert, IH. firstorder. Qed.

Lemma found fs base x ext : free 47 x -> free 47 ext -> ~ hidden (base ++ x ++ ext) -> In (base ++ x ++ ext) fs -> In (base ++ x ++ ext) (fmatch fs (base ++ [42%N] ++ ext)).
Proof.
  intros Fx Fe H Hin. unfold fmatch. apply in_sort. apply filter_In. split; [exact Hin|].
  assert (F1 : free 47 (x ++ ext)) by (intros Hi; apply in_app_or in Hi as [Hi|Hi]; [exact (Fx Hi)|exact (Fe Hi)]).
  assert (F2 : free 47 ([42%N] ++ ext)) by (intros Hi; apply in_app_or in Hi as [Hi|Hi]; [cbn in Hi; destruct Hi as [Hi|[]]; discriminate|exact (Fe Hi)]).
  rewrite !folder_app, !after_app by assumption. destruct (bytes_eqb_spec (folder base) (folder base)); [|congruence]. cbn [andb].
  apply andb_true_intro. split.
  - apply negb_true_iff. apply not_true_is_false. intros S1. apply H. destruct (starts_ok _ _ S1) as (r & E). exists r. rewrite item_after, after_app by assumption. exact E.
  - apply fnmatch_ok. apply self_match. apply (M_star ext x ext). apply self_refl.
Qed.

(* ---- the number in the name ---- *)
Lemma tail_all d : forallb is_digit d = true -> tail_digits d = d.
Proof. destruct d as [|c d]; [reflexivity|]. intros H. cbn [tail_digits]. rewrite H. reflexivity. Qed.
Lemma tail_at a c d : is_digit c = false -> forallb is_digit d = true -> tail_digits (a ++ c :: d) = d.
Proof.
  intros C D. induction a as [|x a IH]; cbn [app tail_digits forallb].
  - rewrite C. cbn [andb]. apply tail_all. exact D.
  - rewrite forallb_app. cbn [forallb]. rewrite C. cbn [andb]. rewrite !andb_false_r. exact IH.
Qed.
Definition valz (d : bytes) (a : N) : N := fold_left (fun v c => 10 * v + (c - 48))%N d a.
Lemma strip_val d : valz (strip d) 0 = valz d 0.
Proof.
  induction d as [|c r IH]; [reflexivity|]. cbn [strip]. destruct r as [|c' r]; [reflexivity|]. destruct (N.eqb_spec c 48) as [->|E]; [|reflexivity].
  rewrite IH. reflexivity.
Qed.
Lemma strip_nil d : d <> [] -> strip d <> [].
Proof. induction d as [|c r IH]; [congruence|]. intros _. cbn [strip]. destruct r as [|c' r]; [discriminate|]. destruct (c =? 48)%N; [apply IH; discriminate|discriminate]. Qed.
Lemma zeros_val w n : 0 <= n -> valz (zeros w n) 0 = Z.to_N n.
Proof.
  intros H. unfold zeros, valz. rewrite fold_left_app. replace (fold_left _ (repeat 48%N _) 0%N) with 0%N.
  - apply dec_val.
  - induction (w - length (dec (Z.to_N n)))%nat as [|k IH]; [reflexivity|]. cbn. exact IH.
Qed.
Lemma zeros_digit w n : forallb is_digit (zeros w n) = true.
Proof.
  unfold zeros. rewrite forallb_app. apply andb_true_intro. split; apply forallb_forall; intros c Hc.
  - apply repeat_spec in Hc. subst. reflexivity.
  - pose proof (dec_digit (Z.to_N n)) as D. rewrite Forall_forall in D. apply D. exact Hc.
Qed.
Lemma zeros_nil w n : zeros w n <> [].
Proof. unfold zeros. intros H. apply app_eq_nil in H as (_ & H). exact (dec_nonnil _ H). Qed.
Lemma number_split n : exists a c d, 95%N :: number n = a ++ c :: d /\ is_digit c = false /\ forallb is_digit d = true /\ d <> [] /\ valz d 0 = Z.to_N (Z.abs n).
Proof.
  unfold number. destruct (Z.ltb_spec n 0).
  - exists [95%N], 45%N, (zeros 3 (- n)). repeat split; auto using zeros_digit, zeros_nil. rewrite zeros_val by lia. f_equal. lia.
  - exists [], 95%N, (zeros 4 n). repeat split; auto using zeros_digit, zeros_nil. rewrite zeros_val by lia. f_equal. lia.
Qed.
Lemma number_of base ext n : file_no ext (file_name base ext n) = if max_int <? Z.abs n then UB else Ok (Some (Z.abs n)).
Proof.
  destruct (number_split n) as (a & c & d & E & C & D & Nd & V). unfold file_no, file_name. change (95%N :: number n ++ ext) with ((95%N :: number n) ++ ext). rewrite E.
  rewrite app_assoc. set (s := base ++ a ++ c :: d). rewrite app_length. destruct (Nat.ltb_spec (length s + length ext) (length ext)); [lia|].
  replace (length s + length ext - length ext)%nat with (length s) by lia. rewrite firstn_app, Nat.sub_diag, firstn_all. cbn [firstn]. rewrite app_nil_r.
  replace (forallb is_digit s) with false by (unfold s; rewrite !forallb_app; cbn [forallb]; rewrite C; cbn [andb]; rewrite !andb_false_r; reflexivity).
  cbn [orb]. unfold s. rewrite app_assoc, tail_at by auto. pose proof (strip_val d) as SV. pose proof (strip_nil d Nd) as SN. destruct (strip d) as [|x r]; [congruence|].
  fold (valz (x :: r) 0). rewrite SV, V. unfold max_int. rewrite Z2N.id by lia. reflexivity.
Qed.
Lemma max_bound ext l : forall m M, max_no ext l m = Ok M -> m <= M /\ (forall f, In f l -> exists o, file_no ext f = Ok o /\ match o with Some v => v <= M | None => True end) /\
  (M = m \/ exists f, In f l /\ file_no ext f = Ok (Some M)).
Proof.
  induction l as [|f l IH]; intros m M H; cbn [max_no] in H.
  - injection H as <-. split; [lia|]. split; [intros f []|auto].
  - destruct (file_no ext f) as [o| |] eqn:E; cbn [bind] in H; try discriminate. destruct (IH _ _ H) as (A & B & C). split; [destruct o as [v|]; [destruct (Z.ltb_spec m v)|]; lia|]. split.
    + intros g [<-|Hg]; [|apply B; exact Hg]. exists o. split; [exact E|]. destruct o as [v|]; [|exact Logic.I]. destruct (Z.ltb_spec m v); lia.
    + destruct C as [C|(g & Hg & Eg)]; [|right; exists g; split; [right; exact Hg|exact Eg]]. destruct o as [v|]; [|left; exact C]. destruct (Z.ltb_spec m v); [|left; exact C].
      right. exists f. split; [left; reflexivity|]. rewrite E, C. reflexivity.
Qed.
Lemma max_total ext l : (forall f, In f l -> exists o, file_no ext f = Ok o) -> forall m, exists M, max_no ext l m = Ok M.
Proof.
  induction l as [|f l IH]; intros H m; cbn [max_no]; [eauto|]. destruct (H f (or_introl eq_refl)) as (o & ->). cbn [bind]. apply IH. intros g Hg. apply H. right. exact Hg.
Qed.

(* ---- names of different numbers ---- *)
Lemma number_inj a b : number a = number b -> a = b.
Proof.
  intros E. unfold number in E. destruct (Z.ltb_spec a 0), (Z.ltb_spec b 0).
  - injection E as E. pose proof (zeros_val 3 (- a) ltac:(lia)). pose proof (zeros_val 3 (- b) ltac:(lia)). rewrite E in *. lia.
  - exfalso. pose proof (zeros_digit 4 b) as D. rewrite <- E in D. discriminate.
  - exfalso. pose proof (zeros_digit 4 a) as D. rewrite E in D. discriminate.
  - pose proof (zeros_val 4 a ltac:(lia)). pose proof (zeros_val 4 b ltac:(lia)). rewrite E in *. lia.
Qed.
Lemma file_name_inj base ext a b : file_name base ext a = file_name base ext b -> a = b.
Proof.
  unfold file_name. intros E. apply app_inv_head in E. injection E as E. apply app_inv_tail in E. apply number_inj. exact E.
Qed.
Lemma fmt4_number n : fmt4 n = 95%N :: number n.
Proof.
  unfold fmt4, number, zeros. destruct (Z.ltb_spec n 0); [rewrite Z.abs_neq by lia|rewrite Z.abs_eq by lia]; reflexivity.
Qed.
Lemma number_noslash n : free 47 (95%N :: number n).
Proof.
  intros [H|H]; [discriminate|]. assert (D : forall w m, ~ In 47%N (zeros w m)).
  { intros w m Hi. pose proof (zeros_digit w m) as D. rewrite forallb_forall in D. specialize (D _ Hi). discriminate. }
  unfold number in H. destruct (n <? 0); [destruct H as [H|H]; [discriminate|]|]; exact (D _ _ H).
Qed.

(* ---- order of the names ---- *)
Lemma text_lt_leb a : forall b, text_lt a b -> text_leb a b = true /\ text_leb b a = false.
Proof.
  induction a as [|x a IH]; intros [|y b] H; try contradiction; [split; reflexivity|]. cbn in H |- *. destruct H as [H|(-> & H)].
  - destruct (N.ltb_spec x y); [|lia]. destruct (N.ltb_spec y x); [lia|]. destruct (N.eqb_spec y x); [lia|]. split; reflexivity.
  - rewrite N.ltb_irrefl, N.eqb_refl. cbn [orb andb]. apply IH. exact H.
Qed.
Lemma text_lt_app p a b : text_lt a b -> text_lt (p ++ a) (p ++ b).
Proof. intros H. induction p as [|c p IH]; [exact H|]. right. split; [reflexivity|exact IH]. Qed.
Lemma valz_acc d : forall a, valz d a = (a * 10 ^ N.of_nat (length d) + valz d 0)%N.
Proof.
  induction d as [|c d IH]; intros a; cbn [valz fold_left length]; [unfold valz; cbn; lia|]. fold (valz d (10 * a + (c - 48))). fold (valz d (10 * 0 + (c - 48))).
  rewrite (IH (10 * a + (c - 48))%N), (IH (10 * 0 + (c - 48))%N). rewrite Nat2N.inj_succ, N.pow_succ_r by lia. lia.
Qed.
Lemma valz_cons c d : valz (c :: d) 0 = ((c - 48) * 10 ^ N.of_nat (length d) + valz d 0)%N.
Proof. cbn [valz fold_left]. fold (valz d (10 * 0 + (c - 48))). rewrite valz_acc. f_equal. Qed.
Lemma valz_bound d : forallb is_digit d = true -> (valz d 0 < 10 ^ N.of_nat (length d))%N.
Proof.
  induction d as [|c d IH]; intros H; [cbn; lia|]. cbn [forallb] in H. apply andb_prop in H as (C & H). specialize (IH H). rewrite valz_cons. cbn [length].
  rewrite Nat2N.inj_succ, N.pow_succ_r by lia. unfold is_digit in C. apply andb_prop in C as (C1 & C2). apply N.leb_le in C1, C2. nia.
Qed.
Lemma digits_order a : forall b x y, length a = length b -> forallb is_digit a = true -> forallb is_digit b = true -> (valz a 0 < valz b 0)%N -> text_lt (a ++ x) (b ++ y).
Proof.
  induction a as [|c a IH]; intros [|d b] x y L A B V; try discriminate L; [exfalso; cbn in V; lia|]. cbn [forallb] in A, B. apply andb_prop in A as (C & A). apply andb_prop in B as (D & B).
  injection L as L. rewrite !valz_cons, L in V. cbn [app text_lt]. destruct (N.eq_dec c d) as [->|Ne].
  - right. split; [reflexivity|]. apply IH; auto. lia.
  - left. pose proof (valz_bound a A) as Ba. pose proof (valz_bound b B) as Bb. rewrite L in Ba. unfold is_digit in C, D. apply andb_prop in C as (C1 & C2). apply andb_prop in D as (D1 & D2).
    apply N.leb_le in C1, C2, D1, D2. nia.
Qed.
Lemma digits_length fuel : forall n k, (n < 10 ^ N.of_nat (S k))%N -> (length (digits fuel n) <= S k)%nat.
Proof.
  induction fuel as [|f IH]; intros n k H; [cbn; lia|]. cbn [digits length]. destruct (N.eqb_spec (n / 10) 0) as [E|E]; [cbn; lia|]. destruct k as [|k].
  - exfalso. change (10 ^ N.of_nat 1)%N with 10%N in H. apply E. apply N.div_small. exact H.
  - apply le_n_S. apply IH. rewrite Nat2N.inj_succ, N.pow_succ_r in H by lia. apply N.div_lt_upper_bound; [lia|exact H].
Qed.
Lemma zeros_length n : 0 <= n < 10000 -> length (zeros 4 n) = 4%nat.
Proof.
  intros H. unfold zeros. rewrite app_length, repeat_length. assert (length (dec (Z.to_N n)) <= 4)%nat; [|lia].
  unfold dec. rewrite rev_length. apply digits_length. change (10 ^ N.of_nat 4)%N with 10000%N. lia.
Qed.
Lemma name_order base ext a b : 0 <= a < b -> b < 10000 -> text_lt (file_name base ext a) (file_name base ext b).
Proof.
  intros H L. unfold file_name. apply text_lt_app. right. split; [reflexivity|]. unfold number. destruct (Z.ltb_spec a 0); [lia|]. destruct (Z.ltb_spec b 0); [lia|].
  apply digits_order; auto using zeros_digit.
  - rewrite !zeros_length by lia. reflexivity.
  - rewrite !zeros_val by lia. lia.
Qed.

(* ---- sorting ---- *)
Definition le_t (a b : bytes) : Prop := text_leb a b = true.
Lemma leb_total a : forall b, text_leb a b = false -> text_leb b a = true.
Proof.
  induction a as [|x a IH]; intros [|y b] H; try reflexivity; try discriminate. cbn in *. destruct (N.ltb_spec x y); [discriminate|]. destruct (N.ltb_spec y x); [reflexivity|].
  assert (x = y) by lia. subst. rewrite N.eqb_refl in *. cbn [orb andb] in *. apply IH. exact H.
Qed.
Lemma leb_anti a : forall b, text_leb a b = true -> text_leb b a = true -> a = b.
Proof.
  induction a as [|x a IH]; intros [|y b] H1 H2; try reflexivity; try discriminate. cbn in *. destruct (N.ltb_spec x y), (N.ltb_spec y x); try lia; cbn [orb] in *.
  destruct (N.eqb_spec x y); [|discriminate]. subst. rewrite N.eqb_refl in H2. f_equal. apply IH; auto.
Qed.
Lemma leb_trans a : forall b c, text_leb a b = true -> text_leb b c = true -> text_leb a c = true.
Proof.
  induction a as [|x a IH]; intros [|y b] [|z c] H1 H2; try reflexivity; try discriminate. cbn in *.
  destruct (N.ltb_spec x y), (N.ltb_spec y z), (N.ltb_spec x z); try reflexivity; cbn [orb] in *; try lia.
  destruct (N.eqb_spec x y); [|discriminate]. destruct (N.eqb_spec y z); [|discriminate]. subst. rewrite N.eqb_refl. cbn [andb] in *. apply (IH b); auto.
Qed.
Lemma insert_perm x l : Permutation (insert x l) (x :: l).
Proof.
  induction l as [|y l IH]; cbn; [apply Permutation_refl|]. destruct (text_leb x y); [apply Permutation_refl|].
  transitivity (y :: x :: l); [apply perm_skip; exact IH|apply perm_swap].
Qed.
Lemma sort_perm l : Permutation (sort l) l.
Proof. induction l as [|x l IH]; [constructor|]. cbn. fold (sort l). rewrite insert_perm. apply perm_skip. exact IH. Qed.
Lemma insert_sorted x l : StronglySorted le_t l -> StronglySorted le_t (insert x l).
Proof.
  induction 1 as [|y l Hs IH Hy]; cbn; [repeat constructor|]. destruct (text_leb x y) eqn:E.
  - constructor; [constructor; auto|]. constructor; [exact E|]. eapply Forall_impl; [|exact Hy]. intros z Hz. apply (leb_trans _ y); auto.
  - constructor; [exact IH|]. apply Forall_forall. intros z Hz. apply in_insert in Hz as [->|Hz]; [apply leb_total; exact E|]. rewrite Forall_forall in Hy. auto.
Qed.
Lemma sort_sorted l : StronglySorted le_t (sort l).
Proof. induction l as [|x l IH]; [constructor|]. cbn. apply insert_sorted. exact IH. Qed.
Lemma sorted_unique l : forall r, StronglySorted le_t l -> StronglySorted le_t r -> Permutation l r -> l = r.
Proof.
  induction l as [|x l IH]; intros r Sl Sr P.
  - apply Permutation_nil in P. auto.
  - destruct r as [|y r]; [apply Permutation_sym, Permutation_nil in P; discriminate|]. inversion Sl as [|? ? Sl' Fl]; subst. inversion Sr as [|? ? Sr' Fr]; subst.
    assert (x = y).
    { assert (Hx : In x (y :: r)) by (apply (Permutation_in _ P); left; reflexivity). assert (Hy : In y (x :: l)) by (apply (Permutation_in _ (Permutation_sym P)); left; reflexivity).
      destruct Hx as [Hx|Hx]; [auto|]. destruct Hy as [Hy|Hy]; [auto|]. rewrite Forall_forall in Fl, Fr. apply leb_anti; [apply Fl; exact Hy|apply Fr; exact Hx]. }
    subst y. f_equal. apply IH; auto. apply (Permutation_cons_inv P).
Qed.
Lemma names_sorted base ext l : Forall (fun n => 0 <= n < 10000) l -> StronglySorted Z.lt l -> StronglySorted le_t (map (file_name base ext) l).
Proof.
  intros F H. induction H as [|n l Hs IH Hn]; cbn [map]; [constructor|]. inversion F; subst. constructor; [apply IH; auto|].
  apply Forall_forall. intros f Hf. apply in_map_iff in Hf as (m & <- & Hm). rewrite Forall_forall in Hn, H2. specialize (Hn _ Hm). specialize (H2 _ Hm).
  apply (text_lt_leb _ _ (name_order base ext n m ltac:(lia) ltac:(lia))).
Qed.
Lemma filter_all {A} (P : A -> bool) l : (forall x, In x l -> P x = true) -> filter P l = l.
Proof. induction l as [|x l IH]; intros H; [reflexivity|]. cbn. rewrite (H x (or_introl eq_refl)). f_equal. apply IH. intros y Hy. apply H. right. exact Hy. Qed.
