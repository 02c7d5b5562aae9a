(* Decimal numbers as text: printf("%u") and sscanf("%u"), C strings in memory. *)
From Verif Require Import Common ListFacts Bytes WordMem.
Open Scope N_scope.

(* equality of strings *)
Fixpoint bytes_eqb (a b : bytes) : bool :=
  match a, b with
  | [], [] => true
  | x :: a, y :: b => (x =? y) && bytes_eqb a b
  | _, _ => false
  end.
Lemma bytes_eqb_spec a : forall b, reflect (a = b) (bytes_eqb a b).
Proof.
  induction a as [|x a IH]; intros [|y b]; cbn [bytes_eqb]; try (constructor; congruence).
  destruct (N.eqb_spec x y) as [->|E]; cbn [andb]; [|constructor; congruence]. destruct (IH b) as [->|E]; constructor; congruence.
Qed.

(* the digits of a number, last one first *)
Fixpoint digits (fuel : nat) (n : N) : list N :=
  match fuel with
  | O => []
  | S k => (48 + n mod 10) :: (if n / 10 =? 0 then [] else digits k (n / 10))
  end.
Definition dec (n : N) : bytes := rev (digits (S (N.to_nat (N.size n))) n).

(* isspace and isdigit of the C locale *)
Definition is_space (c : N) : bool := (c =? 32) || ((9 <=? c) && (c <=? 13)).
Definition is_digit (c : N) : bool := (48 <=? c) && (c <=? 57).
Fixpoint skip_space (l : bytes) : bytes :=
  match l with c :: r => if is_space c then skip_space r else l | [] => [] end.
(* the digits at the start: value so far, whether there was one, and what follows *)
Fixpoint scan_digits (l : bytes) (v : N) (any : bool) : N * bool * bytes :=
  match l with
  | c :: r => if is_digit c then scan_digits r (10 * v + (c - 48)) true else (v, any, l)
  | [] => (v, any, [])
  end.
(* sscanf(l, "%u"): white space, a sign, digits.  A value that does not fit is undefined
   behaviour (C11 7.21.6.2/10). *)
Definition scan_u (l : bytes) : res (option N) :=
  let l := skip_space l in
  let '(neg, l) := match l with
                   | c :: r => if c =? 45 then (true, r) else if c =? 43 then (false, r) else (false, l)
                   | [] => (false, l) end in
  let '(v, any, _) := scan_digits l 0 false in
  if negb any then Ok None
  else if 2^32 <=? v then UB
  else Ok (Some (if neg then (2^32 - v) mod 2^32 else v)).

(* the C string at [o]: the bytes before the first zero; undefined behaviour when the
   memory ends before *)
Fixpoint until0 (l : bytes) : option bytes :=
  match l with
  | [] => None
  | c :: r => if c =? 0 then Some [] else match until0 r with Some s => Some (c :: s) | None => None end
  end.
Definition cstr (m : bytes) (o : N) : res bytes :=
  if o <=? lenN m then match until0 (dropN o m) with Some s => Ok s | None => UB end else UB.

Lemma digits_digit fuel : forall n, Forall (fun c => is_digit c = true) (digits fuel n).
Proof.
  induction fuel as [|k IH]; intros n; [constructor|]. cbn [digits]. constructor.
  - unfold is_digit. assert (n mod 10 < 10) by (apply N.mod_lt; lia). apply andb_true_intro. split; apply N.leb_le; lia.
  - destruct (n / 10 =? 0); [constructor|apply IH].
Qed.
Lemma dec_digit n : Forall (fun c => is_digit c = true) (dec n).
Proof. unfold dec. apply Forall_rev. apply digits_digit. Qed.
Lemma dec_nonnil n : dec n <> [].
Proof. unfold dec. cbn [digits]. cbn [rev]. intros H. apply app_eq_nil in H. destruct H as (_ & H). discriminate. Qed.

(* value of digits, last one first *)
Fixpoint val (l : list N) : N := match l with [] => 0 | c :: r => (c - 48) + 10 * val r end.
Lemma digits_val fuel : forall n, n < 2 ^ N.of_nat fuel -> val (digits (S fuel) n) = n.
Proof.
  induction fuel as [|k IH]; intros n H.
  - assert (n = 0) as -> by (change (2 ^ N.of_nat 0) with 1 in H; lia). reflexivity.
  - remember (S k) as k1. cbn [digits val]. subst k1. replace (48 + n mod 10 - 48) with (n mod 10) by lia. destruct (N.eqb_spec (n / 10) 0) as [E|E]; [cbn [val]; lia|].
    rewrite IH; [lia|]. rewrite Nat2N.inj_succ, N.pow_succ_r in H by lia. remember (2 ^ N.of_nat k) as p. clear - H. lia.
Qed.
Lemma scan_digits_app l : forall r v b, Forall (fun c => is_digit c = true) l ->
  scan_digits (l ++ r) v b = scan_digits r (fold_left (fun v c => 10 * v + (c - 48)) l v) (b || negb (match l with [] => true | _ => false end)).
Proof.
  induction l as [|c l IH]; intros r v b H; [cbn; rewrite orb_false_r; reflexivity|]. inversion H; subst. cbn [app scan_digits]. rewrite H2. rewrite IH by assumption.
  cbn [fold_left negb]. rewrite orb_true_r, orb_true_l. reflexivity.
Qed.
Lemma fold_val l : fold_left (fun v c => 10 * v + (c - 48)) (rev l) 0 = val l.
Proof. induction l as [|c l IH]; [reflexivity|]. cbn [rev val]. rewrite fold_left_app, IH. cbn [fold_left]. lia. Qed.
Lemma dec_val n : fold_left (fun v c => 10 * v + (c - 48)) (dec n) 0 = n.
Proof.
  unfold dec. rewrite fold_val. apply digits_val. rewrite N2Nat.id. apply N.size_gt.
Qed.
Lemma digit_not_space c : is_digit c = true -> is_space c = false /\ c <> 45 /\ c <> 43 /\ c <> 0.
Proof. unfold is_digit, is_space. intros H. apply andb_prop in H. destruct H as (A & B). apply N.leb_le in A, B. split; [|lia].
  destruct (N.eqb_spec c 32); [lia|]. destruct (N.leb_spec 9 c); destruct (N.leb_spec c 13); cbn; lia || reflexivity. Qed.
Definition stops (r : bytes) : Prop := match r with c :: _ => is_digit c = false | [] => True end.
Lemma scan_dec n r : n < 2^32 -> stops r -> scan_u (dec n ++ r) = Ok (Some n).
Proof.
  intros H Hs. unfold scan_u. assert (D := dec_digit n). assert (Nn := dec_nonnil n). assert (Vn := dec_val n). destruct (dec n) as [|c l]; [congruence|].
  assert (Dc := Forall_inv D). destruct (digit_not_space c Dc) as (S1 & S2 & S3 & _). cbn [app skip_space]. rewrite S1.
  destruct (N.eqb_spec c 45); [congruence|]. destruct (N.eqb_spec c 43); [congruence|].
  change (c :: l ++ r) with ((c :: l) ++ r). rewrite scan_digits_app by exact D. rewrite Vn. cbn [negb orb].
  assert (R : scan_digits r n true = (n, true, r)). { destruct r as [|x r]; [reflexivity|]. cbn in Hs. cbn [scan_digits]. rewrite Hs. reflexivity. }
  rewrite R. cbn [negb]. destruct (N.leb_spec (2^32) n); [lia|]. reflexivity.
Qed.
Lemma until0_at s r : Forall (fun c => c <> 0) s -> until0 (s ++ 0 :: r) = Some s.
Proof.
  induction 1 as [|c s Hc _ IH]; [reflexivity|]. cbn [app until0]. destruct (N.eqb_spec c 0); [congruence|]. rewrite IH. reflexivity.
Qed.
Lemma cstr_at a s r o : o = lenN a -> Forall (fun c => c <> 0) s -> cstr (a ++ s ++ 0 :: r) o = Ok s.
Proof.
  intros -> H. unfold cstr. rewrite lenN_app. destruct (N.leb_spec (lenN a) (lenN a + lenN (s ++ 0 :: r))); [|lia]. rewrite dropN_app by reflexivity. rewrite until0_at by exact H. reflexivity.
Qed.
