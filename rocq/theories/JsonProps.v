(* C51: the JSON text of a field.  C69: arrays read back from their text. *)
From Coq Require Import ZArith.
From Verif Require Import Common ListFacts Bytes DecStr RecordSpec UrlSpec UrlModel UrlProofs DateProofs JsonSpec JsonModel.
Open Scope N_scope.

(* ---- strings ---- *)
Lemma reformat_char_ok c r : c < 128 -> str_body (reformat_char c ++ r) = prepend c (str_body r).
Proof.
  intros H. unfold reformat_char.
  destruct (N.eqb_spec c 10) as [->|_]; [reflexivity|]. destruct (N.eqb_spec c 9) as [->|_]; [reflexivity|]. destruct (N.eqb_spec c 34) as [->|N34]; [reflexivity|].
  destruct (N.eqb_spec c 92) as [->|N92]; [reflexivity|]. destruct (N.eqb_spec c 8) as [->|_]; [reflexivity|]. destruct (N.eqb_spec c 12) as [->|_]; [reflexivity|].
  destruct (N.eqb_spec c 13) as [->|_]; [reflexivity|]. destruct (N.eqb_spec c 47) as [->|_]; [reflexivity|].
  destruct (N.ltb_spec 31 c) as [G|G]; [destruct (N.ltb_spec c 127) as [L|L]|]; cbn [andb].
  - cbn [app str_body]. destruct (N.eqb_spec c 34); [contradiction|]. destruct (N.eqb_spec c 92); [contradiction|]. destruct (N.ltb_spec c 32); [lia|]. reflexivity.
  - assert (c = 127) as -> by lia. reflexivity.
  - assert (exists n, (n < 32)%nat /\ c = N.of_nat n) as (n & Hn & ->) by (exists (N.to_nat c); lia).
    do 32 (destruct n as [|n]; [reflexivity|]). lia.
Qed.
Lemma reformat_ok s r : Forall (fun c => c < 128) s -> str_body (reformat s ++ 34 :: r) = Some (s, r).
Proof.
  induction 1 as [|c s H _ IH]; [reflexivity|]. unfold reformat in *. cbn [flat_map]. rewrite <- app_assoc. rewrite reformat_char_ok by exact H. rewrite IH. reflexivity.
Qed.
Lemma need_char_simple c : need_char c = false -> simple_char c.
Proof. unfold need_char, simple_char. intros H. repeat (apply orb_false_elim in H; destruct H as (H & ?)). lia. Qed.
Lemma simple_need c : simple_char c -> need_char c = false.
Proof. unfold need_char, simple_char. intros (A & B & C & D). lia. Qed.
Lemma plain_ok s r : need_reformat s = false -> str_body (s ++ 34 :: r) = Some (s, r).
Proof.
  induction s as [|c s IH]; intros H; [reflexivity|]. unfold need_reformat in *. cbn [existsb] in H. apply orb_false_elim in H. destruct H as (H1 & H2).
  apply need_char_simple in H1. destruct H1 as (R & N1 & N2 & N3). cbn [app str_body]. destruct (N.eqb_spec c 34); [contradiction|]. destruct (N.eqb_spec c 92); [contradiction|].
  destruct (N.ltb_spec c 32); [lia|]. rewrite IH by exact H2. reflexivity.
Qed.
Lemma body_ok s r : Forall (fun c => c < 128) s -> str_body ((if need_reformat s then reformat s else s) ++ 34 :: r) = Some (s, r).
Proof. intros H. destruct (need_reformat s) eqn:E; [apply reformat_ok; exact H|apply plain_ok; exact E]. Qed.

(* ---- numbers ---- *)
Lemma digits_last fuel : forall n, 0 < n -> n < 2 ^ N.of_nat fuel -> exists d r, digits (S fuel) n = r ++ [d] /\ d <> 48.
Proof.
  induction fuel as [|k IH]; intros n P H; [change (2 ^ N.of_nat 0) with 1 in H; lia|].
  remember (S k) as k1. cbn [digits]. subst k1. destruct (N.eqb_spec (n / 10) 0) as [E|E].
  - exists (48 + n mod 10), []. split; [reflexivity|]. assert (n mod 10 = n) by (apply N.mod_small; lia). lia.
  - destruct (IH (n / 10)) as (d & r & E1 & E2); [lia| |].
    { rewrite Nat2N.inj_succ, N.pow_succ_r in H by lia. remember (2 ^ N.of_nat k) as p. clear - H. lia. }
    rewrite E1. exists d, (48 + n mod 10 :: r). split; [reflexivity|exact E2].
Qed.
Lemma dec_head n : n <> 0 -> exists d r, dec n = d :: r /\ d <> 48.
Proof.
  intros H. unfold dec. destruct (digits_last (N.to_nat (N.size n)) n) as (d & r & E & D); [lia|rewrite N2Nat.id; apply N.size_gt|].
  rewrite E. rewrite rev_app_distr. exists d, (rev r). split; [reflexivity|exact D].
Qed.
Lemma scan_digits_stop r v b : stops r -> scan_digits r v b = (v, b, r).
Proof. destruct r as [|x r]; [reflexivity|]. cbn [stops scan_digits]. intros ->. reflexivity. Qed.
Lemma nat_lit_ok n r : stops r -> nat_lit (dec n ++ r) = Some (n, r).
Proof.
  intros Hs. destruct (N.eq_dec n 0) as [->|Nz]; [reflexivity|]. destruct (dec_head n Nz) as (d & t & E & D). unfold nat_lit.
  assert (S1 := scan_digits_app (dec n) r 0 false (dec_digit n)). rewrite dec_val in S1. rewrite (scan_digits_stop r) in S1 by exact Hs. rewrite E in S1 |- *. cbn [app] in S1 |- *.
  destruct (N.eqb_spec d 48); [contradiction|]. rewrite S1. reflexivity.
Qed.
Lemma dec_first n : exists d t, dec n = d :: t /\ is_digit d = true.
Proof. assert (D := dec_digit n). assert (Nn := dec_nonnil n). destruct (dec n) as [|d t]; [congruence|]. exists d, t. split; [reflexivity|]. inversion D; assumption. Qed.
Lemma digit_range d : is_digit d = true -> 48 <= d <= 57.
Proof. unfold is_digit. lia. Qed.
Lemma num_value k n r : stops r -> value_of (S k) (dec n ++ r) = Some (JNum (Z.of_N n), r).
Proof.
  intros Hs. assert (L := nat_lit_ok n r Hs). destruct (dec_first n) as (d & t & E & D). apply digit_range in D. rewrite E in L |- *. cbn [app] in L |- *. cbn [value_of].
  destruct (N.eqb_spec d 34); [lia|]. destruct (N.eqb_spec d 91); [lia|]. destruct (N.eqb_spec d 110); [lia|]. destruct (N.eqb_spec d 116); [lia|]. destruct (N.eqb_spec d 102); [lia|].
  unfold num_lit. destruct (N.eqb_spec d 45); [lia|]. rewrite L. reflexivity.
Qed.
Lemma neg_value k n r : stops r -> value_of (S k) (45 :: dec n ++ r) = Some (JNum (- Z.of_N n), r).
Proof. intros Hs. cbn [value_of]. cbn [N.eqb Pos.eqb]. unfold num_lit. cbn [N.eqb Pos.eqb]. rewrite (nat_lit_ok n r Hs). reflexivity. Qed.
Lemma ld_value k w r : word w -> stops r -> value_of (S k) (print_ld w ++ r) = Some (JNum (signed w), r).
Proof.
  unfold word. intros Hw Hs. unfold print_ld, signed. destruct (N.ltb_spec w (2^63)) as [L|L]; [apply num_value; exact Hs|].
  cbn [app]. rewrite neg_value by exact Hs. repeat f_equal. rewrite N2Z.inj_sub by lia. change (Z.of_N (2^64)) with (2^64)%Z. lia.
Qed.
Lemma str_value k s r : Forall (fun c => c < 128) s -> value_of (S k) (quoted s ++ r) = Some (JStr s, r).
Proof. intros H. unfold quoted. cbn [app value_of]. cbn [N.eqb Pos.eqb]. rewrite <- app_assoc. cbn [app]. rewrite body_ok by exact H. reflexivity. Qed.

(* ---- arrays ---- *)
Lemma commas_cons x r : r <> [] -> commas (x :: r) = x ++ 44 :: commas r.
Proof. destruct r; [congruence|reflexivity]. Qed.
(* [t] is a text for [v], and does not start with a closing bracket *)
Definition text_of (t : bytes) (v : json) : Prop := hd 0 t <> 93 /\ t <> [] /\ forall k r, stops r -> value_of (S k) (t ++ r) = Some (v, r).
Lemma items_ok : forall ts vs, Forall2 text_of ts vs -> ts <> [] -> forall k r, (length ts < k)%nat -> items_of k (commas ts ++ 93 :: r) = Some (vs, r).
Proof.
  induction 1 as [|t v ts vs Hv F IH]; intros Nn k r L; [congruence|]. destruct Hv as (_ & _ & Hv). destruct k as [|k]; [cbn in L; lia|]. cbn [length] in L. destruct k as [|k]; [lia|].
  change (items_of (S (S k))) with (fun l => match value_of (S k) l with | Some (v, c :: t) => if c =? 93 then Some ([v], t) else if c =? 44 then match items_of (S k) t with Some (vs, t') => Some (v :: vs, t') | None => None end else None | _ => None end).
  cbv beta. destruct ts as [|t2 ts].
  - inversion F; subst. cbn [commas]. rewrite Hv by reflexivity. cbn [N.eqb Pos.eqb]. reflexivity.
  - rewrite commas_cons by discriminate. rewrite <- app_assoc. cbn [app]. rewrite Hv by reflexivity. cbn [N.eqb Pos.eqb]. rewrite IH; [reflexivity|discriminate|lia].
Qed.
Lemma commas_len ts : Forall (fun t => t <> []) ts -> (length ts <= length (commas ts))%nat.
Proof.
  induction 1 as [|t ts Ht F IH]; [cbn; lia|]. destruct t as [|c t]; [congruence|]. destruct ts as [|t2 ts]; [cbn; lia|]. rewrite commas_cons by discriminate. rewrite app_length. cbn [length] in IH |- *. lia.
Qed.
Lemma commas_strip t ts r : hd 0 t <> 93 -> t <> [] -> strip [93] (commas (t :: ts) ++ r) = None.
Proof.
  destruct t as [|c t]; [congruence|]. cbn [hd]. intros H _. destruct ts as [|t2 ts].
  - cbn [commas app strip]. destruct (N.eqb_spec 93 c); [congruence|reflexivity].
  - rewrite commas_cons by discriminate. cbn [app strip]. destruct (N.eqb_spec 93 c); [congruence|reflexivity].
Qed.
Lemma array_value ts vs : Forall2 text_of ts vs -> json_value (brackets ts) = Some (JArr vs).
Proof.
  intros F. unfold json_value, brackets. destruct ts as [|t ts].
  - inversion F; subst. reflexivity.
  - assert (Fn : Forall (fun t => t <> []) (t :: ts)). { clear - F. induction F as [|? ? ? ? (_ & H & _)]; constructor; auto. }
    assert (L := commas_len _ Fn). remember (t :: ts) as l. cbn [app length]. assert (Z : strip [93] (commas l ++ [93]) = None).
    { clear L Fn. subst l. inversion F as [|? ? ? ? (H1 & H2 & _)]; subst. apply commas_strip; assumption. }
    change (value_of (S (S (length (commas l ++ [93])))) (91 :: commas l ++ [93])) with (match strip [93] (commas l ++ [93]) with | Some t => Some (JArr [], t) | None => match items_of (S (length (commas l ++ [93]))) (commas l ++ [93]) with Some (vs, t) => Some (JArr vs, t) | None => None end end).
    rewrite Z. rewrite (items_ok l vs F); [reflexivity|subst l; discriminate|].
    rewrite app_length. change (length [93]) with 1%nat. apply Nat.le_lt_trans with (length (commas l)); [exact L|]. rewrite Nat.add_1_r. apply Nat.lt_lt_succ_r, Nat.lt_succ_diag_r.
Qed.
Lemma ld_text w : word w -> text_of (print_ld w) (JNum (signed w)).
Proof.
  intros H. split; [|split; [|intros; apply ld_value; assumption]]; unfold print_ld; destruct (w <? 2^63); try discriminate; destruct (dec_first w) as (d & t & E & D); rewrite E; cbn [hd]; [apply digit_range in D; lia|discriminate].
Qed.
Lemma lu_text w : text_of (print_lu w) (JNum (Z.of_N w)).
Proof.
  split; [|split; [|intros; apply num_value; assumption]]; unfold print_lu; destruct (dec_first w) as (d & t & E & D); rewrite E; cbn [hd]; [apply digit_range in D; lia|discriminate].
Qed.
Lemma str_text s : Forall (fun c => c < 128) s -> text_of (quoted s) (JStr s).
Proof. intros H. split; [discriminate|split; [discriminate|intros; apply str_value; exact H]]. Qed.
Lemma one_value t v : text_of t v -> json_value t = Some v.
Proof. intros (_ & _ & H). unfold json_value. specialize (H (length t) [] I). rewrite app_nil_r in H. rewrite H. reflexivity. Qed.
Lemma Forall2_texts {A} (f : A -> bytes) (g : A -> json) l (P : A -> Prop) : (forall a, P a -> text_of (f a) (g a)) -> Forall P l -> Forall2 text_of (map f l) (map g l).
Proof. intros H. induction 1; constructor; auto. Qed.

(* The text of a field of the kinds none, bool, int, uint, string and the arrays of these
   is JSON for its value, when strings consist of ASCII characters.  What is missing: the
   kinds double (printed with six digits), date and buffer, and other characters. *)
Theorem C51_json_partial : forall v m, proper v -> ascii_value v -> meaning v = Some m ->
  exists t, as_json v = Some t /\ json_value t = Some m.
Proof.
  intros v m P A M. destruct v; cbn [proper ascii_value meaning as_json] in *; try discriminate; try contradiction; injection M as <-; eexists; (split; [reflexivity|]).
  - reflexivity.
  - destruct (w =? 0); reflexivity.
  - apply one_value, ld_text, P.
  - apply one_value, lu_text.
  - apply array_value. apply (Forall2_texts _ _ _ word); auto using ld_text.
  - apply array_value. apply (Forall2_texts _ _ _ (fun _ => True)); auto using lu_text. clear. induction ws; constructor; auto.
  - apply one_value, str_text, A.
  - apply array_value. apply (Forall2_texts _ _ _ (Forall (fun c => c < 128))); auto using str_text.
Qed.
Print Assumptions C51_json_partial.

(* an array of texts with quotes, backslashes, slashes, line ends; and of numbers *)
Example C51_case :
  let v := VArrStr [[97; 34; 92]; []; [47; 10; 1; 127]] in
  proper v /\ ascii_value v /\ as_json v = Some ([91; 34;97;92;34;92;92;34; 44; 34;34; 44; 34;92;47;92;110] ++ [92;117;48;48;48;49] ++ [92;117;48;48;55;102] ++ [34; 93]) /\
  as_json (VArrInt [5; 2^64 - 12]) = Some [91; 53; 44; 45; 49; 50; 93] /\ meaning (VArrInt [5; 2^64 - 12]) = Some (JArr [JNum 5; JNum (-12)]).
Proof.
  cbv zeta. split; [repeat constructor; unfold cchar; lia|]. split; [repeat constructor; lia|]. split; [vm_compute; reflexivity|]. split; vm_compute; reflexivity.
Qed.

(* A byte from 128 on (here the first byte of a UTF-8 letter) is printed with eight
   hexadecimal digits, ffffffc3: the text denotes the character FFFF and the letters ffc3. *)
Theorem C51_utf8_refuted : exists v t, proper v /\ as_json v = Some t /\ json_value t = Some (JStr [65535; 102; 102; 99; 51]) /\ meaning v = Some (JStr [195]).
Proof. exists (VStr [195]), (quoted [195]). split; [repeat constructor; unfold cchar; lia|]. split; [reflexivity|]. split; vm_compute; reflexivity. Qed.
Print Assumptions C51_utf8_refuted.

(* The text of a buffer that is not empty is not JSON. *)
Theorem C51_buffer_refuted : forall b, Forall isbyte b -> b <> [] -> exists t, as_json (VBuf b) = Some t /\ json_value t = None.
Proof.
  intros b F Nn. eexists. split; [reflexivity|]. destruct b as [|c b]; [congruence|]. unfold json_value, brackets. cbn [map]. set (d := hex_digits 8 c). set (f := fun c : N => _).
  assert (exists q, commas ((48 :: 120 :: repeat 48 (2 - length d) ++ d) :: map f b) ++ [93] = 48 :: 120 :: q) as (q & E). { destruct (map f b); [cbn; eauto|]. rewrite commas_cons by discriminate. cbn. eauto. }
  cbn [app] in E |- *. rewrite E. cbn [length value_of N.eqb Pos.eqb strip items_of num_lit nat_lit]. reflexivity.
Qed.
Print Assumptions C51_buffer_refuted.

(* ---- C69: reading arrays ---- *)
(* [t] is read as the element [e], when a comma or bracket follows *)
Definition elt (t e : bytes) : Prop := t <> [] /\ forall c r, c = 44 \/ c = 93 -> one_element (skip_blank (t ++ c :: r)) = Ok (Some (e, c :: r)).
Lemma loop_ok : forall ts es, Forall2 elt ts es -> ts <> [] -> forall fuel acc, (length ts <= fuel)%nat -> vect_loop fuel (commas ts ++ [93]) acc = Ok (Some (acc ++ es)).
Proof.
  induction 1 as [|t e ts es (Ht & He) F IH]; intros Nn fuel acc L; [congruence|]. destruct fuel as [|k]; [cbn in L; lia|]. cbn [length] in L. cbn [vect_loop]. destruct ts as [|t2 ts].
  - inversion F; subst. cbn [commas]. rewrite (He 93 []) by auto. destruct t as [|x t]; [congruence|]. cbn [app bind skip_blank N.eqb Pos.eqb]. reflexivity.
  - rewrite commas_cons by discriminate. rewrite <- app_assoc. cbn [app]. rewrite He by auto. destruct t as [|x t]; [congruence|]. cbn [app bind skip_blank N.eqb Pos.eqb]. rewrite IH; [|discriminate|lia]. rewrite <- app_assoc. reflexivity.
Qed.
Lemma vect_ok ts es : Forall2 elt ts es -> ts <> [] -> str_to_vect (brackets ts) = Ok (Some es).
Proof.
  intros F Nn. assert (Fn : Forall (fun t => t <> []) ts). { clear - F. induction F as [|? ? ? ? (H & _)]; constructor; auto. }
  assert (L := commas_len ts Fn). unfold str_to_vect, brackets. assert (H1 : (length ([91%N] ++ commas ts ++ [93%N]) <? 2)%nat = false). { rewrite !app_length. apply Nat.ltb_ge. change (length [91]) with 1%nat. change (length [93]) with 1%nat. lia. }
  rewrite H1. rewrite app_assoc, last_last. rewrite <- app_assoc. cbn [app hd N.eqb Pos.eqb negb orb skipn]. rewrite (loop_ok ts es F Nn _ []); [reflexivity|].
  cbn [length]. rewrite app_length. eapply Nat.le_trans; [exact L|]. do 2 apply Nat.le_le_succ_r. apply Nat.le_add_r.
Qed.
Lemma find_char_at f a c r : forallb (fun x => negb (f x)) a = true -> f c = true -> find_char f (a ++ c :: r) = Some (length a).
Proof. induction a as [|x a IH]; intros H E; cbn [app find_char]; [rewrite E; reflexivity|]. cbn [forallb] in H. apply andb_prop in H. destruct H as (H1 & H2). apply negb_true_iff in H1. rewrite H1, IH by assumption. reflexivity. Qed.
Lemma simple_quoted s : Forall simple_char s -> quoted s = [34] ++ s ++ [34].
Proof. intros H. unfold quoted. assert (E : need_reformat s = false). { unfold need_reformat. induction H as [|c s Hc _ IH]; [reflexivity|]. cbn [existsb]. rewrite (simple_need c Hc), IH. reflexivity. } rewrite E. reflexivity. Qed.
Lemma quoted_elt s : Forall simple_char s -> elt (quoted s) s.
Proof.
  intros H. split; [discriminate|]. intros c r _. rewrite (simple_quoted s H). cbn [app skip_blank N.eqb Pos.eqb one_element orb]. rewrite <- app_assoc. cbn [app].
  rewrite (find_char_at (N.eqb 34) s 34) by (try reflexivity; apply forallb_forall; intros x Hx; rewrite Forall_forall in H; destruct (H x Hx) as (_ & H1 & _); apply negb_true_iff, N.eqb_neq; congruence).
  rewrite firstn_len, skipn_len1. reflexivity.
Qed.
Lemma quoted_elts l : Forall (Forall simple_char) l -> Forall2 elt (map quoted l) l.
Proof. induction 1; constructor; auto using quoted_elt. Qed.

(* characters of printed numbers *)
Definition num_char (c : N) : Prop := c = 45 \/ 48 <= c <= 57.
Lemma dec_num n : Forall num_char (dec n).
Proof. eapply Forall_impl; [|apply dec_digit]. intros c H. right. apply digit_range. exact H. Qed.
Lemma ld_num w : Forall num_char (print_ld w).
Proof. unfold print_ld. destruct (w <? 2^63); [apply dec_num|constructor; [left; reflexivity|apply dec_num]]. Qed.
Lemma ld_nonnil w : print_ld w <> [].
Proof. unfold print_ld. destruct (w <? 2^63); [apply dec_nonnil|discriminate]. Qed.
Lemma num_simple l : Forall num_char l -> Forall simple_char l.
Proof. intros H. eapply Forall_impl; [|exact H]. unfold num_char, simple_char. intros c Hc. lia. Qed.
Lemma rtrim_num l : Forall num_char l -> rtrim l = l.
Proof. induction 1 as [|c l H _ IH]; [reflexivity|]. cbn [rtrim]. rewrite IH. destruct l; [|reflexivity]. destruct (N.eqb_spec c 32); [unfold num_char in H; lia|reflexivity]. Qed.
(* a number without quotes *)
Lemma num_elt t : t <> [] -> Forall num_char t -> elt t t.
Proof.
  intros Ht F. split; [exact Ht|]. intros c r Hc. destruct t as [|x t]; [congruence|]. inversion F as [|? ? Hx F']; subst. cbn [app skip_blank]. assert (x <> 32 /\ x <> 39 /\ x <> 34) as (N1 & N2 & N3) by (unfold num_char in Hx; lia).
  destruct (N.eqb_spec x 32); [contradiction|]. cbn [one_element]. destruct (N.eqb_spec x 39); [contradiction|]. destruct (N.eqb_spec x 34); [contradiction|]. cbn [orb].
  rewrite (find_char_at _ t c r).
  - rewrite firstn_len, skipn_len. cbn [keep_first]. rewrite rtrim_num by exact F'. reflexivity.
  - apply forallb_forall. intros y Hy. rewrite Forall_forall in F'. specialize (F' y Hy). unfold num_char in F'. lia.
  - destruct Hc as [-> | ->]; reflexivity.
Qed.

(* reading numbers *)
Lemma no_float l : Forall num_char l -> existsb float_char l = false.
Proof. induction 1 as [|c l H _ IH]; [reflexivity|]. cbn [existsb]. rewrite IH. unfold float_char. unfold num_char in H. lia. Qed.
Lemma scan_dec_sign n : scan_sign (skip_space (dec n)) = (false, dec n).
Proof.
  destruct (dec_first n) as (d & t & E & D). rewrite E. destruct (digit_not_space d D) as (S1 & S2 & S3 & _). cbn [skip_space]. rewrite S1. unfold scan_sign.
  destruct (N.eqb_spec d 45); [contradiction|]. destruct (N.eqb_spec d 43); [contradiction|]. reflexivity.
Qed.
Lemma scan_dec_digits n : scan_digits (dec n) 0 false = (n, true, []).
Proof. assert (S1 := scan_digits_app (dec n) [] 0 false (dec_digit n)). rewrite dec_val, app_nil_r in S1. rewrite S1. cbn [scan_digits]. destruct (dec n) eqn:E; [destruct (dec_nonnil n E)|reflexivity]. Qed.
Lemma str_to_lint_print w : word w -> str_to_lint (print_ld w) = Ok (Some (signed w)).
Proof.
  unfold word. intros Hw. unfold str_to_lint. assert (Nf := no_float _ (ld_num w)). unfold print_ld, signed in *. destruct (N.ltb_spec w (2^63)) as [L|L].
  - assert (X := no_0x w [] I). assert (B := skip_blank_dec w []). rewrite app_nil_r in X, B. rewrite B, X, andb_false_r, Nf. unfold scan_ld. rewrite scan_dec_sign, scan_dec_digits. cbn [negb]. destruct (N.leb_spec (2^63) w); [lia|].
    destruct (dec w) eqn:E; [destruct (dec_nonnil w E)|reflexivity].
  - cbn [skip_blank]. change (45 =? 32) with false. cbv iota. rewrite Nf. assert (Z : is_0x (45 :: dec (2^64 - w)) = false) by (unfold is_0x; destruct (dec (2^64 - w)); reflexivity).
    rewrite Z, andb_false_r. unfold scan_ld. cbn [skip_space]. change (is_space 45) with false. cbv iota. unfold scan_sign. change (45 =? 45) with true. cbv iota. rewrite scan_dec_digits. cbn [negb].
    destruct (N.ltb_spec (2^63) (2^64 - w)); [lia|]. do 2 f_equal. rewrite N2Z.inj_sub by lia. change (Z.of_N (2^64)) with (2^64)%Z. lia.
Qed.
Lemma str_to_luint_print w : word w -> str_to_luint (print_lu w) = Ok (Some w).
Proof.
  unfold word. intros Hw. unfold str_to_luint, print_lu. assert (Nf := no_float _ (dec_num w)). assert (X := no_0x w [] I). assert (B := skip_blank_dec w []). rewrite app_nil_r in X, B. rewrite B, X, andb_false_r, Nf.
  unfold scan_lu. rewrite scan_dec_sign, scan_dec_digits. cbn [negb]. destruct (N.leb_spec (2^64) w); [lia|]. destruct (dec w) eqn:E; [destruct (dec_nonnil w E)|reflexivity].
Qed.
Lemma collect_ok {A} (f : bytes -> res (option A)) (p : N -> bytes) (g : N -> A) ws : (forall w, word w -> f (p w) = Ok (Some (g w))) -> Forall word ws -> collect f (map p ws) = Ok (map g ws).
Proof. intros H. induction 1 as [|w ws Hw _ IH]; [reflexivity|]. cbn [map collect]. rewrite H by exact Hw. cbn [bind]. rewrite IH. reflexivity. Qed.

(* An array of signed or unsigned integers, written as text and read again, is the same
   array: with AsStr, and as JSON text. *)
Theorem C69_ints : forall ws, Forall word ws ->
  as_num_vect str_to_lint (array_str [] (elements (VArrInt ws))) = Ok (map signed ws) /\
  exists t, as_json (VArrInt ws) = Some t /\ as_num_vect str_to_lint t = Ok (map signed ws).
Proof.
  intros ws F. assert (C := collect_ok str_to_lint print_ld signed ws str_to_lint_print F). split; [|eexists; split; [reflexivity|]]; cbn [elements]; unfold as_num_vect; (destruct ws as [|w ws]; [vm_compute; reflexivity|]).
  - unfold array_str. assert (Nn : map print_ld (w :: ws) <> []) by discriminate. destruct (map print_ld (w :: ws)) as [|x l] eqn:E; [congruence|]. rewrite (vect_ok _ (x :: l)); [cbn [bind]; exact C| |discriminate].
    apply quoted_elts. rewrite <- E. clear. induction (w :: ws) as [|v vs IH]; constructor; auto using num_simple, ld_num.
  - rewrite (vect_ok _ (map print_ld (w :: ws))); [cbn [bind]; exact C| |discriminate]. clear. induction (w :: ws) as [|v vs IH]; constructor; auto using num_elt, ld_num, ld_nonnil.
Qed.
Print Assumptions C69_ints.
Theorem C69_uints : forall ws, Forall word ws ->
  as_num_vect str_to_luint (array_str [] (elements (VArrUInt ws))) = Ok ws /\
  exists t, as_json (VArrUInt ws) = Some t /\ as_num_vect str_to_luint t = Ok ws.
Proof.
  intros ws F. assert (C := collect_ok str_to_luint print_lu (fun w => w) ws str_to_luint_print F). rewrite map_id in C. split; [|eexists; split; [reflexivity|]]; cbn [elements]; unfold as_num_vect; (destruct ws as [|w ws]; [vm_compute; reflexivity|]).
  - unfold array_str. assert (Nn : map print_lu (w :: ws) <> []) by discriminate. destruct (map print_lu (w :: ws)) as [|x l] eqn:E; [congruence|]. rewrite (vect_ok _ (x :: l)); [cbn [bind]; exact C| |discriminate].
    apply quoted_elts. rewrite <- E. clear. induction (w :: ws) as [|v vs IH]; constructor; auto using num_simple, dec_num.
  - rewrite (vect_ok _ (map print_lu (w :: ws))); [cbn [bind]; exact C| |discriminate]. clear. induction (w :: ws) as [|v vs IH]; constructor; auto. apply num_elt; [apply dec_nonnil|apply dec_num].
Qed.
Print Assumptions C69_uints.

(* An array of strings of simple characters is the same after reading its text.  What is
   missing: the empty array and strings with other characters; refuted below. *)
Theorem C69_strings_partial : forall d l, l <> [] -> Forall (Forall simple_char) l -> as_str_vect (array_str d (elements (VArrStr l))) = Ok l.
Proof.
  intros d l Nn F. cbn [elements]. unfold as_str_vect, array_str. destruct l as [|x l]; [congruence|]. rewrite (vect_ok _ (x :: l)); [reflexivity|apply quoted_elts; exact F|discriminate].
Qed.
Print Assumptions C69_strings_partial.

(* Texts with a slash, a double quote, a tab; and the empty array *)
Theorem C69_escape_refuted : exists l l', Forall cstring l /\ as_str_vect (array_str [] (elements (VArrStr l))) = Ok l' /\ l <> l' /\ length l = length l'.
Proof. exists [[97; 47; 98]], [[97; 92; 47; 98]]. split; [repeat constructor; unfold cchar; lia|]. split; [vm_compute; reflexivity|]. split; [discriminate|reflexivity]. Qed.
Print Assumptions C69_escape_refuted.
(* the rest of the array is lost after an element with a double quote *)
Theorem C69_quote_refuted : exists l l', Forall cstring l /\ as_str_vect (array_str [] (elements (VArrStr l))) = Ok l' /\ (length l' < length l)%nat.
Proof. exists [[97; 34; 98]; [99]; [100]], [[97; 92]]. split; [repeat constructor; unfold cchar; lia|]. split; [vm_compute; reflexivity|]. cbn; lia. Qed.
Print Assumptions C69_quote_refuted.
Theorem C69_empty_refuted : as_str_vect (array_str [] (elements (VArrStr []))) = Ok [[]].
Proof. vm_compute. reflexivity. Qed.
Print Assumptions C69_empty_refuted.

(* ---- reading any text ---- *)
Lemma skip_blank_last l : last l 0 = 93 -> exists c r, skip_blank l = c :: r /\ last (c :: r) 0 = 93 /\ (length (c :: r) <= length l)%nat.
Proof.
  induction l as [|x l IH]; intros H; [discriminate|]. cbn [skip_blank]. destruct (N.eqb_spec x 32) as [E|E]; [|eauto]. destruct l as [|y l]; [cbn in H; lia|].
  destruct IH as (c & r & E1 & E2 & L); [exact H|]. exists c, r. split; [exact E1|]. split; [exact E2|]. cbn [length] in *. lia.
Qed.
Lemma last_skipn {A} (l : list A) d n : (n < length l)%nat -> last (skipn n l) d = last l d.
Proof.
  revert l. induction n as [|n IH]; intros l H; [reflexivity|]. destruct l as [|x l]; [cbn in H; lia|]. cbn [skipn]. cbn [length] in H. rewrite IH by lia. destruct l; [cbn in H; lia|reflexivity].
Qed.
Lemma find_char_lt f l i : find_char f l = Some i -> (i < length l)%nat /\ f (nth i l 0) = true.
Proof.
  revert i. induction l as [|c l IH]; intros i H; cbn [find_char] in H; [discriminate|]. destruct (f c) eqn:E; [injection H as <-; split; [cbn; lia|exact E]|].
  destruct (find_char f l) as [j|] eqn:F; [|discriminate]. injection H as <-. destruct (IH j eq_refl) as (L & P). split; [cbn [length]; lia|exact P].
Qed.
Lemma one_element_ok c r : last (c :: r) 0 = 93 -> exists o, one_element (c :: r) = Ok o /\ forall e t, o = Some (e, t) -> last t 0 = 93 /\ (length t <= length r)%nat.
Proof.
  intros H. cbn [one_element]. destruct ((c =? 39) || (c =? 34)) eqn:Q.
  - eexists. split; [reflexivity|]. intros e t E. destruct (find_char (N.eqb c) r) as [i|] eqn:F; [|discriminate]. injection E as _ <-. apply find_char_lt in F. destruct F as (L & P). apply N.eqb_eq in P.
    assert (Hr : last r 0 = 93) by (destruct r; [cbn in L; lia|exact H]). destruct (Nat.eq_dec (i + 1) (length r)) as [E|E].
    + exfalso. assert (X : last r 0 = nth i r 0). { rewrite <- (firstn_skipn i r) at 1. assert (S1 : skipn i r = [nth i r 0]). { clear - E L. revert i E L. induction r as [|x r IH]; intros i E L; [cbn in L; lia|]. destruct i as [|i]; [destruct r; [reflexivity|cbn in E; lia]|]. cbn [skipn nth]. apply IH; cbn [length] in *; lia. } rewrite S1. apply last_last. }
      rewrite X, <- P in Hr. subst c. rewrite Hr in Q. discriminate.
    + split; [rewrite last_skipn by lia; exact Hr|rewrite skipn_length; lia].
  - eexists. split; [reflexivity|]. intros e t E. destruct (find_char _ r) as [i|] eqn:F; [|discriminate]. injection E as _ <-. apply find_char_lt in F. destruct F as (L & _).
    assert (Hr : last r 0 = 93) by (destruct r; [cbn in L; lia|exact H]). split; [rewrite last_skipn by lia; exact Hr|rewrite skipn_length; lia].
Qed.
Lemma vect_loop_ends : forall fuel l acc, (length l < fuel)%nat -> l = [] \/ last l 0 = 93 -> exists o, vect_loop fuel l acc = Ok o.
Proof.
  induction fuel as [|k IH]; intros l acc L H; [lia|]. cbn [vect_loop]. destruct l as [|x l]; [eauto|]. destruct H as [H|H]; [discriminate|].
  destruct (skip_blank_last _ H) as (c & r & E & Hl & Lr). rewrite E. destruct (one_element_ok c r Hl) as (o & Eo & Ho). rewrite Eo. cbn [bind]. destruct o as [(e, t)|]; [|eauto].
  destruct (Ho e t eq_refl) as (Ht & Lt). destruct (skip_blank_last _ Ht) as (c2 & r2 & E2 & Hl2 & Lr2). rewrite E2. destruct (N.eqb_spec c2 44); [|eauto]. apply IH; [cbn [length] in *; lia|].
  destruct r2 as [|y r2]; [left; reflexivity|right; exact Hl2].
Qed.
(* Reading an array from any text ends, without reading beyond the text. *)
Theorem C69_terminates : forall s, exists o, str_to_vect s = Ok o.
Proof.
  intros s. unfold str_to_vect. destruct (Nat.ltb_spec (length s) 2) as [L|L]; cbn [orb]; [eauto|]. destruct (negb (hd 0 s =? 91)); cbn [orb]; [eauto|]. destruct (N.eqb_spec (last s 0) 93) as [E|E]; cbn [negb]; [|eauto].
  apply vect_loop_ends; [rewrite skipn_length; lia|]. right. rewrite last_skipn by lia. exact E.
Qed.
Print Assumptions C69_terminates.

Example C69_case :
  array_str [] (elements (VArrInt [7; 2^64 - 1])) = [91; 34; 55; 34; 44; 34; 45; 49; 34; 93] /\ as_num_vect str_to_lint [91; 34; 55; 34; 44; 34; 45; 49; 34; 93] = Ok [7; -1]%Z /\
  as_str_vect (array_str [] (elements (VArrStr [[97; 44; 32]; []; [39; 93]]))) = Ok [[97; 44; 32]; []; [39; 93]] /\ Forall (Forall simple_char) [[97; 44; 32]; []; [39; 93]].
Proof. split; [vm_compute; reflexivity|]. split; [vm_compute; reflexivity|]. split; [vm_compute; reflexivity|]. repeat constructor; try lia. Qed.
