(* Lemmas about finding, numbers and options. *)
From Coq Require Import ZArith.
From Verif Require Import Common ListFacts Bytes DecStr UrlSpec UrlModel.
Open Scope N_scope.

Lemma firstn_len {A} (a b : list A) : firstn (length a) (a ++ b) = a.
Proof. rewrite firstn_app, firstn_all, Nat.sub_diag. apply app_nil_r. Qed.
Lemma skipn_len {A} (a b : list A) : skipn (length a) (a ++ b) = b.
Proof. rewrite skipn_app, skipn_all, Nat.sub_diag. reflexivity. Qed.
Lemma skipn_len1 {A} (a : list A) x b : skipn (length a + 1) (a ++ x :: b) = b.
Proof. replace (length a + 1)%nat with (length (a ++ [x])) by (rewrite app_length; reflexivity). change (a ++ x :: b) with (a ++ [x] ++ b). rewrite app_assoc. apply skipn_len. Qed.
Lemma free_cons x y l : free x (y :: l) -> y <> x /\ free x l.
Proof. intros H. split; [intros ->; apply H; left; reflexivity|intros Hi; apply H; right; exact Hi]. Qed.
Lemma free_app x a b : free x (a ++ b) <-> free x a /\ free x b.
Proof. unfold free. rewrite in_app_iff. tauto. Qed.
Lemma free_b x l : forallb (fun y => negb (N.eqb y x)) l = true -> free x l.
Proof. intros H Hi. rewrite forallb_forall in H. specialize (H x Hi). rewrite N.eqb_refl in H. discriminate. Qed.
Lemma find1_none c s : free c s -> find_sub [c] s = None.
Proof. induction s as [|x s IH]; intros H; [reflexivity|]. apply free_cons in H. destruct H as (H1 & H2). cbn [find_sub is_prefix]. destruct (N.eqb_spec c x); [congruence|]. cbn [andb]. rewrite IH by exact H2. reflexivity. Qed.
Lemma find1_at c a r : free c a -> find_sub [c] (a ++ c :: r) = Some (length a).
Proof. induction a as [|x a IH]; intros H; [cbn [app find_sub is_prefix length]; rewrite N.eqb_refl; reflexivity|]. apply free_cons in H. destruct H as (H1 & H2). cbn [app find_sub is_prefix length]. destruct (N.eqb_spec c x); [congruence|]. cbn [andb]. rewrite IH by exact H2. reflexivity. Qed.
(* a longer pattern, when its first character is not before *)
Lemma find_first c p a r : free c a -> find_sub (c :: p) (a ++ c :: p ++ r) = Some (length a).
Proof.
  induction a as [|x a IH]; intros H.
  - assert (P : is_prefix p (p ++ r) = true) by (induction p as [|y p IHp]; [reflexivity|cbn [app is_prefix]; rewrite N.eqb_refl; exact IHp]). cbn [app find_sub is_prefix length]. rewrite N.eqb_refl, P. reflexivity.
  - apply free_cons in H. destruct H as (H1 & H2). cbn [app find_sub is_prefix length]. destruct (N.eqb_spec c x); [congruence|]. cbn [andb]. rewrite IH by exact H2. reflexivity.
Qed.
Lemma find_absent c p s : free c s -> find_sub (c :: p) s = None.
Proof. induction s as [|x s IH]; intros H; [reflexivity|]. apply free_cons in H. destruct H as (H1 & H2). cbn [find_sub is_prefix]. destruct (N.eqb_spec c x); [congruence|]. cbn [andb]. rewrite IH by exact H2. reflexivity. Qed.
Lemma is_prefix_spec p s : is_prefix p s = true -> s = p ++ skipn (length p) s.
Proof. revert s. induction p as [|x p IH]; intros [|y s] H; try reflexivity; try discriminate. cbn [is_prefix] in H. apply andb_prop in H. destruct H as (H1 & H2). apply N.eqb_eq in H1. subst y. cbn [length skipn app]. f_equal. apply IH. exact H2. Qed.
Lemma is_prefix_app p s : is_prefix p (p ++ s) = true.
Proof. induction p as [|x p IH]; [destruct s; reflexivity|]. cbn [app is_prefix]. rewrite N.eqb_refl. exact IH. Qed.
Lemma find_sub_spec p : forall s i, find_sub p s = Some i -> s = firstn i s ++ p ++ skipn (i + length p) s.
Proof.
  induction s as [|x s IH]; intros i H; cbn [find_sub] in H.
  - destruct (is_prefix p []) eqn:E; [|discriminate]. injection H as <-. cbn [firstn app Nat.add]. apply is_prefix_spec. exact E.
  - destruct (is_prefix p (x :: s)) eqn:E; [injection H as <-; cbn [firstn app Nat.add]; apply is_prefix_spec; exact E|]. destruct (find_sub p s) as [j|] eqn:F; [|discriminate]. injection H as <-. cbn [firstn app Nat.add skipn]. f_equal. apply IH. reflexivity.
Qed.

(* numbers *)
Lemma c_str_free l : free 0 l -> c_str l = l.
Proof. induction l as [|x l IH]; intros H; [reflexivity|]. apply free_cons in H. destruct H as (H1 & H2). cbn [c_str]. destruct (N.eqb_spec x 0); [contradiction|]. rewrite IH by exact H2. reflexivity. Qed.
Lemma dec_free n c : is_digit c = false -> free c (dec n).
Proof. intros H Hi. assert (D := dec_digit n). rewrite Forall_forall in D. rewrite (D c Hi) in H. discriminate. Qed.
Lemma c_str_dec n r : c_str (dec n ++ r) = dec n ++ c_str r.
Proof. assert (D := dec_digit n). induction (dec n) as [|x l IH]; [reflexivity|]. inversion D as [|? ? D1 D2]; subst. cbn [app c_str]. destruct (digit_not_space x D1) as (_ & _ & _ & Z0). destruct (N.eqb_spec x 0); [contradiction|]. rewrite IH by exact D2. reflexivity. Qed.
Lemma stops_c_str r : stops r -> stops (c_str r).
Proof. destruct r as [|x r]; [exact (fun H => H)|]. cbn [stops c_str]. destruct (x =? 0); [intros; exact I|exact (fun H => H)]. Qed.
Lemma is_prefix_c_str r x : match r with c :: _ => c <> x | [] => True end -> match c_str r with c :: _ => c <> x | [] => True end.
Proof. destruct r as [|y r]; [exact (fun H => H)|]. cbn [c_str]. destruct (y =? 0); [intros; exact I|exact (fun H => H)]. Qed.
Lemma scan_d_dec n r : stops r -> scan_d (dec n ++ r) = (if 2^31 <=? n then UB else Ok (Some (Z.of_N n))).
Proof.
  intros Hs. unfold scan_d. assert (D := dec_digit n). assert (Nn := dec_nonnil n). assert (Vn := dec_val n). destruct (dec n) as [|c l]; [congruence|].
  assert (Dc := Forall_inv D). destruct (digit_not_space c Dc) as (S1 & S2 & S3 & _). cbn [app skip_space]. rewrite S1. unfold scan_sign.
  destruct (N.eqb_spec c 45); [congruence|]. destruct (N.eqb_spec c 43); [congruence|].
  change (c :: l ++ r) with ((c :: l) ++ r). rewrite scan_digits_app by exact D. rewrite Vn. cbn [negb orb].
  assert (R : scan_digits r n true = (n, true, r)). { destruct r as [|x r]; [reflexivity|]. cbn in Hs. cbn [scan_digits]. rewrite Hs. reflexivity. }
  rewrite R. reflexivity.
Qed.
(* a number followed by something which is neither a digit nor x: either that number or
   nothing at all *)
Definition no_x (r : bytes) : Prop := match r with c :: _ => c <> 120 /\ c <> 88 | [] => True end.
Lemma digit_no_x c : is_digit c = true -> c <> 120 /\ c <> 88 /\ c <> 32.
Proof. unfold is_digit. intros H. apply andb_prop in H. destruct H as (A & B). apply N.leb_le in A, B. lia. Qed.
Lemma no_0x n r : no_x r -> is_0x (dec n ++ r) = false.
Proof.
  intros H. assert (D := dec_digit n). assert (Nn := dec_nonnil n). destruct (dec n) as [|c l]; [congruence|]. unfold is_0x. cbn [app].
  assert (Q : match l ++ r with d :: _ => d <> 120 /\ d <> 88 | [] => True end). { destruct l as [|d l]; [exact H|]. cbn [app]. apply Forall_inv_tail, Forall_inv in D. destruct (digit_no_x d D) as (A & B & _). split; assumption. }
  destruct (l ++ r) as [|d t]; [reflexivity|]. destruct Q as (Q1 & Q2). destruct (N.eqb_spec d 120); [contradiction|]. destruct (N.eqb_spec d 88); [contradiction|]. apply andb_false_r.
Qed.
Lemma skip_blank_dec n r : skip_blank (dec n ++ r) = dec n ++ r.
Proof. assert (D := dec_digit n). assert (Nn := dec_nonnil n). destruct (dec n) as [|c l]; [congruence|]. cbn [app skip_blank]. assert (Dc := Forall_inv D). destruct (digit_no_x c Dc) as (_ & _ & N32). destruct (N.eqb_spec c 32); [contradiction|]. reflexivity. Qed.
Lemma str_to_int_dec n r : stops r -> no_x r ->
  str_to_int (dec n ++ r) = (if existsb (fun c => (c =? 46) || (c =? 44) || (c =? 101) || (c =? 69)) (dec n ++ c_str r) then Ok None else if 2^31 <=? n then UB else Ok (Some (Z.of_N n))).
Proof.
  intros H1 H2. unfold str_to_int. rewrite c_str_dec, skip_blank_dec. assert (Hx : no_x (c_str r)). { destruct r as [|y r]; [exact I|]. cbn [c_str no_x] in *. destruct (y =? 0); [exact I|exact H2]. }
  assert (X := no_0x n (c_str r) Hx). assert (Y := scan_d_dec n (c_str r) (stops_c_str r H1)). assert (Nn := dec_nonnil n). remember (dec n ++ c_str r) as l eqn:El. destruct l as [|c l]; [symmetry in El; apply app_eq_nil in El; destruct El; contradiction|]. rewrite X, andb_false_r, Y. reflexivity.
Qed.
Lemma str_to_int_exact n : n < 2^31 -> str_to_int (dec n) = Ok (Some (Z.of_N n)).
Proof.
  intros H. rewrite <- (app_nil_r (dec n)), str_to_int_dec by exact I. cbn [c_str]. rewrite app_nil_r.
  assert (E : existsb (fun c => (c =? 46) || (c =? 44) || (c =? 101) || (c =? 69)) (dec n) = false).
  { apply not_true_is_false. intros E. apply existsb_exists in E. destruct E as (c & Hi & E). assert (D := dec_digit n). rewrite Forall_forall in D. specialize (D c Hi). unfold is_digit in D. apply andb_prop in D. destruct D as (D1 & D2). apply N.leb_le in D1, D2. rewrite !orb_true_iff in E. rewrite !N.eqb_eq in E. lia. }
  rewrite E. destruct (N.leb_spec (2^31) n); [lia|reflexivity].
Qed.

(* special symbols *)
Lemma replace_none f p c s : free 37 s -> replace_loop (S f) (37 :: p) c s = Ok s.
Proof. intros H. cbn [replace_loop]. rewrite find_absent by exact H. reflexivity. Qed.
Lemma replace_plain s : free 37 s -> replace_special special_symbols s = Ok s.
Proof. intros H. unfold special_symbols. cbn [replace_special]. rewrite !(replace_none _ _ _ s H). cbn [bind]. rewrite !(replace_none _ _ _ s H). cbn [bind]. rewrite !(replace_none _ _ _ s H). cbn [bind]. rewrite !(replace_none _ _ _ s H). cbn [bind]. rewrite !(replace_none _ _ _ s H). cbn [bind]. rewrite !(replace_none _ _ _ s H). cbn [bind]. rewrite !(replace_none _ _ _ s H). reflexivity. Qed.
(* each replacement shortens the text *)
Lemma replace_ends p c : (2 <= length p)%nat -> length p = 3%nat -> forall f s, (length s < f)%nat -> exists r, replace_loop f p c s = Ok r /\ (length r <= length s)%nat.
Proof.
  intros _ Hp. induction f as [|f IH]; intros s H; [lia|]. cbn [replace_loop]. destruct (find_sub p s) as [i|] eqn:E; [|exists s; split; [reflexivity|lia]].
  assert (L := f_equal (@length N) (find_sub_spec p s i E)). rewrite !app_length, Hp, skipn_length in L.
  assert (L2 : (length (firstn i s ++ [c] ++ skipn (i + 3) s) + 2 <= length s)%nat). { rewrite !app_length, skipn_length. cbn [length]. assert (F := firstn_le_length i s). rewrite firstn_length in *. lia. }
  destruct (IH (firstn i s ++ [c] ++ skipn (i + 3) s)) as (r & E1 & E2); [lia|]. exists r. split; [exact E1|lia].
Qed.
Lemma replace_special_ends l : Forall (fun x => length (fst x) = 3%nat) l -> forall s, exists r, replace_special l s = Ok r.
Proof.
  induction 1 as [|[p c] l Hp _ IH]; intros s; [exists s; reflexivity|]. cbn [fst] in Hp. cbn [replace_special]. destruct (replace_ends p c ltac:(lia) Hp (S (length s)) s ltac:(lia)) as (r & E & _). rewrite E. cbn [bind]. apply IH.
Qed.

(* decoding of an encoded text: elements are either still encoded or done *)
Section Decode.
  Variable f : N -> bytes.
  Variables (c : N) (a b : N).
  Let p := [37; a; b].
  Hypothesis Fc : f c = p.
  Hypothesis Ff : forall x, x <> c -> x <> 37 -> f x = [x] \/ exists u v, f x = [37; u; v] /\ u <> 37 /\ v <> 37 /\ (u <> a \/ v <> b).
  Hypothesis Hc : c <> 37.
  Hypothesis Hab : a <> 37 /\ b <> 37.
  Definition g (x : N * bool) : bytes := if snd x then [fst x] else f (fst x).
  Definition pend (x : N * bool) : bool := (fst x =? c) && negb (snd x).
  Definition shift (n : nat) (o : option nat) : option nat := match o with Some i => Some (n + i)%nat | None => None end.
  Lemma find_g x r : fst x <> 37 -> pend x = false -> find_sub p (g x ++ r) = shift (length (g x)) (find_sub p r).
  Proof.
    destruct x as [x d]. unfold pend, g. cbn [fst snd]. intros Hx Hp. assert (One : forall y, y <> 37 -> find_sub p (y :: r) = shift 1 (find_sub p r)).
    { intros y Hy. cbn [find_sub p is_prefix]. destruct (N.eqb_spec 37 y); [congruence|]. cbn [andb]. destruct (find_sub p r); reflexivity. }
    destruct d; [apply One; exact Hx|]. cbn [negb] in Hp. rewrite andb_true_r in Hp. apply N.eqb_neq in Hp. destruct (Ff x Hp Hx) as [->|(u & v & -> & Hu & Hv & Huv)]; [apply One; exact Hx|].
    cbn [app length find_sub p is_prefix]. rewrite N.eqb_refl. cbn [andb].
    assert (E : (a =? u) && ((b =? v) && true) = false) by (destruct (N.eqb_spec a u); destruct (N.eqb_spec b v); cbn [andb]; try reflexivity; subst; destruct Huv; congruence).
    rewrite E. destruct (N.eqb_spec 37 u); [congruence|]. destruct (N.eqb_spec 37 v); [congruence|]. cbn [andb]. destruct (find_sub p r); reflexivity.
  Qed.
  Lemma find_gs l r : Forall (fun x => fst x <> 37 /\ pend x = false) l -> find_sub p (flat_map g l ++ r) = shift (length (flat_map g l)) (find_sub p r).
  Proof.
    induction 1 as [|x l (H1 & H2) _ IH]; [cbn; destruct (find_sub p r); reflexivity|]. cbn [flat_map]. rewrite <- app_assoc, find_g, IH by assumption. rewrite app_length. destruct (find_sub p r); cbn [shift]; [f_equal; lia|reflexivity].
  Qed.
  Definition done (x : N * bool) : N * bool := (fst x, (fst x =? c) || snd x).
  Lemma first_pend l : (Forall (fun x => pend x = false) l) \/ exists u v, l = u ++ (c, false) :: v /\ Forall (fun x => pend x = false) u.
  Proof.
    induction l as [|x l IH]; [left; constructor|]. destruct (pend x) eqn:E.
    - right. exists [], l. destruct x as [x d]. unfold pend in E. cbn [fst snd] in E. apply andb_prop in E. destruct E as (E1 & E2). apply N.eqb_eq in E1. destruct d; [discriminate|]. subst. split; [reflexivity|constructor].
    - destruct IH as [IH|(u & v & -> & IH)]; [left; constructor; assumption|]. right. exists (x :: u), v. split; [reflexivity|constructor; assumption].
  Qed.
  Lemma done_none l : Forall (fun x => pend x = false) l -> map done l = l.
  Proof. induction 1 as [|[x d] l H _ IH]; [reflexivity|]. cbn [map]. rewrite IH. unfold done. cbn [fst snd]. unfold pend in H. cbn [fst snd] in H. destruct (x =? c); [|reflexivity]. destruct d; [reflexivity|discriminate]. Qed.
  Lemma replace_g n : forall l fuel, length (filter pend l) = n -> (n < fuel)%nat -> Forall (fun x => fst x <> 37) l -> replace_loop fuel p c (flat_map g l) = Ok (flat_map g (map done l)).
  Proof.
    induction n as [n IH] using lt_wf_ind. intros l fuel Hn Hf H37. destruct fuel as [|fuel]; [lia|]. cbn [replace_loop]. destruct (first_pend l) as [H|(u & v & -> & H)].
    - rewrite <- (app_nil_r (flat_map g l)), find_gs; [cbn [find_sub p is_prefix shift]|rewrite Forall_forall in *; intros x Hx; split; [exact (H37 x Hx)|exact (H x Hx)]]. rewrite app_nil_r, done_none by exact H. reflexivity.
    - apply Forall_app in H37. destruct H37 as (H37u & H37v). inversion H37v as [|? ? _ H37w]; subst. rewrite flat_map_app. cbn [flat_map]. rewrite find_gs by (rewrite Forall_forall in *; intros x Hx; split; [exact (H37u x Hx)|exact (H x Hx)]).
      assert (E0 : find_sub p (g (c, false) ++ flat_map g v) = Some 0%nat). { unfold g at 1. cbn [fst snd]. rewrite Fc. cbn [p app find_sub is_prefix]. rewrite !N.eqb_refl. reflexivity. }
      rewrite E0. cbn [shift]. rewrite Nat.add_0_r, firstn_len.
      assert (E1 : skipn (length (flat_map g u) + 3) (flat_map g u ++ g (c, false) ++ flat_map g v) = flat_map g v). { unfold g at 3. cbn [fst snd]. rewrite Fc. rewrite app_assoc. replace (length (flat_map g u) + 3)%nat with (length (flat_map g u ++ p)) by (rewrite app_length; reflexivity). apply skipn_len. }
      rewrite E1. assert (E2 : flat_map g u ++ [c] ++ flat_map g v = flat_map g (u ++ (c, true) :: v)) by (rewrite flat_map_app; reflexivity). rewrite E2.
      assert (E3 : map done (u ++ (c, false) :: v) = map done (u ++ (c, true) :: v)). { rewrite !map_app. cbn [map]. unfold done at 2 5. cbn [fst snd]. rewrite N.eqb_refl. reflexivity. }
      assert (Pf : pend (c, false) = true) by (unfold pend; cbn [fst snd]; rewrite N.eqb_refl; reflexivity). assert (Pt : pend (c, true) = false) by (unfold pend; cbn [fst snd negb]; apply andb_false_r).
      rewrite E3. apply (IH (length (filter pend (u ++ (c, true) :: v)))); [|reflexivity| |].
      + rewrite !filter_app, !app_length. cbn [filter]. rewrite Pf, Pt. cbn [length]. lia.
      + rewrite filter_app, app_length in Hf. rewrite filter_app, app_length. cbn [filter] in Hf |- *. rewrite Pf in Hf. rewrite Pt. cbn [length] in Hf. lia.
      + apply Forall_app. split; [exact H37u|constructor; [exact Hc|exact H37w]].
  Qed.
End Decode.
(* one symbol of the table decoded *)
Lemma replace_step f f' c a b l : f c = [37; a; b] -> (forall x, x <> c -> x <> 37 -> f x = [x] \/ exists u v, f x = [37; u; v] /\ u <> 37 /\ v <> 37 /\ (u <> a \/ v <> b)) -> c <> 37 -> a <> 37 /\ b <> 37 ->
  (forall x, x <> c -> f' x = f x) -> f' c = [c] -> free 37 l -> replace_loop (S (length (flat_map f l))) [37; a; b] c (flat_map f l) = Ok (flat_map f' l).
Proof.
  intros Fc Ff Hc Hab E1 E2 H. assert (T : flat_map f l = flat_map (g f) (map (fun x => (x, false)) l)). { clear. induction l as [|x l IH]; [reflexivity|]. cbn [flat_map map]. rewrite IH. reflexivity. }
  assert (T' : flat_map f' l = flat_map (g f) (map (done c) (map (fun x => (x, false)) l))). { clear - E1 E2. induction l as [|x l IH]; [reflexivity|]. cbn [flat_map map]. rewrite IH. f_equal. unfold g, done. cbn [fst snd]. rewrite orb_false_r. destruct (N.eqb_spec x c) as [->|N]; [exact E2|apply E1; exact N]. }
  rewrite T'. rewrite T at 2. apply (replace_g f c a b Fc Ff Hc Hab (length (filter (pend c) (map (fun x => (x, false)) l)))); [reflexivity| |].
  - apply Nat.lt_succ_r. clear - Fc. induction l as [|x l IH]; [cbn; lia|]. cbn [map filter flat_map]. unfold pend at 1. cbn [fst snd negb]. rewrite andb_true_r, app_length. destruct (N.eqb_spec x c) as [->|]; [rewrite Fc; cbn [length]; lia|lia].
  - apply Forall_forall. intros y Hy. apply in_map_iff in Hy. destruct Hy as (x & <- & Hx). cbn [fst]. intros ->. exact (H Hx).
Qed.
Lemma decode_encode v : free 37 v -> replace_special special_symbols (encode v) = Ok v.
Proof.
  intros H. unfold encode, special_symbols.
  assert (Id : flat_map (escape []) v = v) by (clear; induction v as [|x v IH]; [reflexivity|cbn [flat_map]; rewrite IH; reflexivity]).
  assert (One : forall c p r, escape ((c, p) :: r) c = p) by (intros; cbn [escape]; rewrite N.eqb_refl; reflexivity).
  assert (Oth : forall c p r x, x <> c -> escape ((c, p) :: r) x = escape r x) by (intros c p r x Hx; cbn [escape]; destruct (N.eqb_spec x c); [contradiction|reflexivity]).
  assert (Step : forall c a b r s k, s = flat_map (escape ((c, [37; a; b]) :: r)) v -> c <> 37 -> a <> 37 /\ b <> 37 -> ~ In c (map fst r) ->
    (forall q, In q r -> exists u w, snd q = [37; u; w] /\ u <> 37 /\ w <> 37 /\ (u <> a \/ w <> b)) ->
    (do s <- replace_loop (S (length s)) [37; a; b] c s; replace_special k s) = replace_special k (flat_map (escape r) v)).
  { intros c a b r s k -> Hc Hab Hn Hr. rewrite (replace_step _ (escape r) c a b v); [reflexivity|apply One| |exact Hc|exact Hab|intros x Hx; symmetry; apply Oth; exact Hx| |exact H].
    - intros x Hx Hx37. rewrite Oth by exact Hx. clear - Hr. induction r as [|[d q] r IH]; [left; reflexivity|]. cbn [escape]. destruct (x =? d); [right; exact (Hr (d, q) (or_introl eq_refl))|]. apply IH. intros q' Hq. apply Hr. right. exact Hq.
    - clear - Hn. induction r as [|[d q] r IH]; [reflexivity|]. cbn [map fst] in Hn. cbn [escape]. destruct (N.eqb_spec c d) as [->|]; [exfalso; apply Hn; left; reflexivity|]. apply IH. intros Hi. apply Hn. right. exact Hi. }
  cbn [replace_special]. unfold escapes.
  assert (Q : forall c a b r s k, s = flat_map (escape ((c, [37; a; b]) :: r)) v -> forallb (fun q => match snd q with [x; u; w] => (x =? 37) && negb (u =? 37) && negb (w =? 37) && (negb (u =? a) || negb (w =? b)) | _ => false end) r = true -> negb (existsb (N.eqb c) (map fst r)) && negb (c =? 37) && negb (a =? 37) && negb (b =? 37) = true ->
    (do s <- replace_loop (S (length s)) [37; a; b] c s; replace_special k s) = replace_special k (flat_map (escape r) v)).
  { intros c a b r s k Es B1 B2. rewrite !andb_true_iff, !negb_true_iff, !N.eqb_neq in B2. destruct B2 as (((B2 & B3) & B4) & B5). apply (Step c a b r s k Es); [exact B3|split; assumption| |].
    - intros Hi. assert (X : existsb (N.eqb c) (map fst r) = true) by (apply existsb_exists; exists c; split; [exact Hi|apply N.eqb_refl]). congruence.
    - intros q Hq. rewrite forallb_forall in B1. specialize (B1 q Hq). destruct (snd q) as [|x [|u [|w [|? ?]]]]; try discriminate. rewrite !andb_true_iff, orb_true_iff, !negb_true_iff, !N.eqb_neq in B1. destruct B1 as (((B1 & B6) & B7) & B8). apply N.eqb_eq in B1. subst x. exists u, w. split; [reflexivity|]. split; [exact B6|]. split; [exact B7|]. exact B8. }
  etransitivity; [apply (Q _ _ _ _ _ [([37; 50; 50], 34); ([37; 50; 48], 32); ([37; 51; 69], 62); ([37; 51; 67], 60); ([37; 53; 66], 91); ([37; 53; 68], 93)] eq_refl); reflexivity|]. cbn [replace_special].
  etransitivity; [apply (Q _ _ _ _ _ [([37; 50; 48], 32); ([37; 51; 69], 62); ([37; 51; 67], 60); ([37; 53; 66], 91); ([37; 53; 68], 93)] eq_refl); reflexivity|]. cbn [replace_special].
  etransitivity; [apply (Q _ _ _ _ _ [([37; 51; 69], 62); ([37; 51; 67], 60); ([37; 53; 66], 91); ([37; 53; 68], 93)] eq_refl); reflexivity|]. cbn [replace_special].
  etransitivity; [apply (Q _ _ _ _ _ [([37; 51; 67], 60); ([37; 53; 66], 91); ([37; 53; 68], 93)] eq_refl); reflexivity|]. cbn [replace_special].
  etransitivity; [apply (Q _ _ _ _ _ [([37; 53; 66], 91); ([37; 53; 68], 93)] eq_refl); reflexivity|]. cbn [replace_special].
  etransitivity; [apply (Q _ _ _ _ _ [([37; 53; 68], 93)] eq_refl); reflexivity|]. cbn [replace_special].
  etransitivity; [apply (Q _ _ _ _ _ [] eq_refl); reflexivity|]. cbn [replace_special]. exact (f_equal Ok Id).
Qed.

(* options *)
Lemma sep_plain l : forall rest, free 38 l -> free 39 l -> free 34 l -> scan_sep false false false (l ++ rest) = (length l + scan_sep false false false rest)%nat.
Proof.
  induction l as [|x l IH]; intros rest H1 H2 H3; [reflexivity|]. apply free_cons in H1, H2, H3. destruct H1 as (A1 & B1). destruct H2 as (A2 & B2). destruct H3 as (A3 & B3). cbn [app scan_sep length orb andb negb]. destruct (N.eqb_spec x 39); [contradiction|]. destruct (N.eqb_spec x 34); [contradiction|]. destruct (N.eqb_spec x 38); [contradiction|]. cbn [andb]. rewrite IH by assumption. reflexivity.
Qed.
Lemma sep_single l : forall sp rest, free 39 l -> scan_sep true false sp (l ++ 39 :: rest) = (length l + 1 + scan_sep false false false rest)%nat.
Proof.
  induction l as [|x l IH]; intros sp rest H; [reflexivity|]. apply free_cons in H. destruct H as (A & B). cbn [app scan_sep length orb andb negb]. destruct (x =? 92); [rewrite IH by exact B; lia|]. cbv zeta. destruct (N.eqb_spec x 39); [contradiction|]. cbn [andb]. rewrite IH by exact B. lia.
Qed.
Lemma sep_double l : forall sp rest, free 34 l -> scan_sep false true sp (l ++ 34 :: rest) = (length l + 1 + scan_sep false false false rest)%nat.
Proof.
  induction l as [|x l IH]; intros sp rest H; [reflexivity|]. apply free_cons in H. destruct H as (A & B). cbn [app scan_sep length orb andb negb]. destruct (x =? 92); [rewrite IH by exact B; lia|]. cbv zeta. destruct (N.eqb_spec x 34); [contradiction|]. cbn [andb]. rewrite IH by exact B. lia.
Qed.
Lemma sep_opt o rest : wf_opt o -> scan_sep false false false (opt_text o ++ rest) = (length (opt_text o) + scan_sep false false false rest)%nat.
Proof.
  intros ((K1 & K2 & K3 & K4) & V). unfold opt_text. destruct (o_val o) as [[q v]|]; [|apply sep_plain; assumption].
  assert (P : forall r, scan_sep false false false ((o_key o ++ [61]) ++ r) = (length (o_key o ++ [61%N]) + scan_sep false false false r)%nat) by (intros r; apply sep_plain; apply free_app; split; try assumption; apply free_b; reflexivity).
  rewrite app_assoc, <- app_assoc, P, !app_length. destruct q; cbn [in_quotes].
  - destruct V as (V1 & V2 & V3). rewrite sep_plain by assumption. lia.
  - cbn [app scan_sep orb andb negb N.eqb Pos.eqb]. rewrite <- app_assoc. cbn [app]. rewrite sep_single by exact V. cbn [length]. rewrite app_length. cbn [length]. lia.
  - cbn [app scan_sep orb andb negb N.eqb Pos.eqb]. rewrite <- app_assoc. cbn [app]. rewrite sep_double by exact V. cbn [length]. rewrite app_length. cbn [length]. lia.
Qed.
Lemma strip_in q v : (match q with NoQuote => free 39 v /\ free 34 v | _ => True end) -> strip_quotes (in_quotes q v) = v.
Proof.
  intros H. unfold strip_quotes. assert (S : forall c, (c = 39 \/ c = 34) -> (if (1 <? length ([c] ++ v ++ [c]))%nat && ((nth 0 ([c] ++ v ++ [c]) 0 =? 39) || (nth 0 ([c] ++ v ++ [c]) 0 =? 34)) && (nth 0 ([c] ++ v ++ [c]) 0 =? nth (length ([c] ++ v ++ [c]) - 1) ([c] ++ v ++ [c]) 0) then firstn (length ([c] ++ v ++ [c]) - 2) (skipn 1 ([c] ++ v ++ [c])) else [c] ++ v ++ [c]) = v).
  { intros c Hc. cbn [app length]. rewrite app_length. cbn [length]. destruct (Nat.ltb_spec 1 (S (length v + 1))); [|lia]. cbn [nth]. replace (S (length v + 1) - 1)%nat with (S (length v)) by lia. cbn [nth]. rewrite app_nth2, Nat.sub_diag by lia. cbn [nth]. rewrite N.eqb_refl. assert (Q : (c =? 39) || (c =? 34) = true) by (destruct Hc as [->| ->]; reflexivity). rewrite Q. cbn [andb skipn]. replace (S (length v + 1) - 2)%nat with (length v) by lia. apply firstn_len. }
  destruct q; cbn [in_quotes]; [|apply S; auto|apply S; auto]. destruct H as (H1 & H2). destruct v as [|x v]; [reflexivity|]. apply free_cons in H1, H2. cbn [nth]. destruct (N.eqb_spec x 39); [destruct H1; contradiction|]. destruct (N.eqb_spec x 34); [destruct H2; contradiction|]. rewrite andb_false_r. reflexivity.
Qed.
(* the options with what follows, ending the text or separated by & *)
Lemma sep_end rest : (match rest with [] => True | x :: _ => x = 38 end) -> scan_sep false false false rest = 0%nat.
Proof. destruct rest as [|x r]; [reflexivity|]. intros ->. reflexivity. Qed.
Lemma prefix_key k name : bytes_eqb k name = true <-> k = name.
Proof. destruct (bytes_eqb_spec k name); split; congruence. Qed.
Lemma key_match name k t : wf_key name -> wf_key k -> (match t with [] => True | x :: _ => x = 61 end) ->
  is_prefix name (k ++ t) = true -> match skipn (length name) (k ++ t) with [] => True | x :: _ => x = 61 end -> k = name.
Proof.
  intros (_ & Hn & _) (_ & Hk & _) Ht. revert name Hn Hk. induction k as [|x k IH]; intros name Hn Hk P Q.
  - destruct name as [|y name]; [reflexivity|]. exfalso. destruct t as [|z t]; [discriminate|]. cbn [app is_prefix] in P. apply andb_prop in P. destruct P as (P & _). apply N.eqb_eq in P. subst. apply Hn. left. reflexivity.
  - destruct name as [|y name]; [cbn [length skipn app] in Q; subst x; exfalso; apply Hk; left; reflexivity|]. cbn [app is_prefix length skipn] in P, Q. apply andb_prop in P. destruct P as (P1 & P2). apply N.eqb_eq in P1. subst y. f_equal. apply IH; [intros Hi; apply Hn; right; exact Hi|intros Hi; apply Hk; right; exact Hi|exact P2|exact Q].
Qed.
Definition val_text (o : opt) : bytes := match o_val o with None => [] | Some (q, v) => [61] ++ in_quotes q v end.
Lemma opt_text_split o : opt_text o = o_key o ++ val_text o.
Proof. unfold opt_text, val_text. destruct (o_val o) as [[q v]|]; [reflexivity|symmetry; apply app_nil_r]. Qed.
Lemma opt_step f o rest name : wf_key name -> wf_opt o -> (match rest with [] => True | x :: _ => x = 38 end) -> opt_text o ++ rest <> [] ->
  opt_loop (S f) (opt_text o ++ rest) name = (if bytes_eqb (o_key o) name then Ok (Some (match o_val o with None => [] | Some (_, v) => v end)) else opt_loop f (tl rest) name).
Proof.
  intros Wn Wo Hr Hne. cbn [opt_loop]. assert (T := sep_opt o rest Wo). rewrite (sep_end rest Hr), Nat.add_0_r in T. destruct (opt_text o ++ rest) as [|x0 l0] eqn:E; [contradiction|]. rewrite <- E in *. cbv zeta. rewrite T, firstn_len.
  assert (Nx : skipn (length (opt_text o) + 1) (opt_text o ++ rest) = tl rest). { destruct rest as [|x r]; [rewrite app_nil_r; apply skipn_all2; lia|]. apply skipn_len1. }
  rewrite Nx. rewrite opt_text_split. destruct Wo as (Wk & Wv). assert (Hv : match val_text o with [] => True | x :: _ => x = 61 end) by (unfold val_text; destruct (o_val o) as [[q v]|]; [reflexivity|exact I]).
  destruct (bytes_eqb_spec (o_key o) name) as [->|Nk].
  - rewrite is_prefix_app, app_length. destruct (Nat.leb_spec (length name) (length name + length (val_text o))); [|lia]. cbn [andb]. rewrite skipn_len. unfold val_text. destruct (o_val o) as [[q v]|]; [|reflexivity]. cbn [app]. rewrite N.eqb_refl. rewrite strip_in; [reflexivity|]. destruct q; [|exact I|exact I]. destruct Wv as (_ & V1 & V2). split; assumption.
  - destruct (_ && is_prefix name _) eqn:P; [|reflexivity]. apply andb_prop in P. destruct P as (_ & P). assert (K := key_match name (o_key o) (val_text o) Wn Wk Hv P). destruct (skipn (length name) (o_key o ++ val_text o)) as [|y t]; [exfalso; apply Nk; apply K; exact I|]. destruct (N.eqb_spec y 61) as [->|]; [exfalso; apply Nk; apply K; reflexivity|reflexivity].
Qed.
Lemma opts_text_cons o o2 l : opts_text (o :: o2 :: l) = opt_text o ++ 38 :: opts_text (o2 :: l).
Proof. reflexivity. Qed.
Lemma opt_loop_spec name : wf_key name -> name <> [] -> forall l f, Forall wf_opt l -> (length (opts_text l) < f)%nat -> opt_loop f (opts_text l) name = Ok (first_value l name).
Proof.
  intros Wn Ne. induction l as [|o l IH]; intros f Wl Lf.
  - destruct f; [lia|]. reflexivity.
  - inversion Wl as [|? ? Wo Wl']; subst. destruct f as [|f]; [lia|]. cbn [first_value]. destruct l as [|o2 l].
    + cbn [opts_text] in *. destruct (opt_text o) as [|x t] eqn:E.
      * rewrite opt_text_split in E. apply app_eq_nil in E. destruct E as (E & _). rewrite E. cbn [opt_loop]. destruct name; [contradiction|reflexivity].
      * rewrite <- E, <- (app_nil_r (opt_text o)), (opt_step f o [] name Wn Wo I) by (rewrite E; discriminate). destruct (bytes_eqb (o_key o) name); [reflexivity|]. cbn [tl]. destruct f; [rewrite ?E in Lf; cbn [length] in Lf; lia|]. reflexivity.
    + rewrite opts_text_cons in *. rewrite (opt_step f o (38 :: opts_text (o2 :: l)) name Wn Wo eq_refl) by (destruct (opt_text o); discriminate). destruct (bytes_eqb (o_key o) name); [reflexivity|]. cbn [tl]. apply IH; [exact Wl'|]. rewrite app_length in Lf. cbn [length] in Lf. lia.
Qed.
Lemma part_loop_spec : forall l f n, Forall wf_opt l -> (length (opts_text l) < f)%nat ->
  part_loop f (opts_text l) n = Ok (match nth_error l n with Some o => if (length (opt_text o) =? 0)%nat && (S n =? length l)%nat then None else Some (opt_text o) | None => None end).
Proof.
  induction l as [|o l IH]; intros f n Wl Lf.
  - destruct f; [lia|]. cbn [opts_text part_loop]. destruct n; reflexivity.
  - inversion Wl as [|? ? Wo Wl']; subst. destruct f as [|f]; [lia|]. destruct l as [|o2 l].
    + cbn [opts_text] in *. cbn [part_loop]. destruct (opt_text o) as [|x t] eqn:E; [destruct n as [|[|n]]; cbn [nth_error length]; rewrite ?E; reflexivity|]. rewrite <- E. assert (T := sep_opt o [] Wo). rewrite app_nil_r in T. cbn [scan_sep] in T. rewrite Nat.add_0_r in T. cbv zeta. rewrite T. destruct n as [|n]; cbn [nth_error].
      * rewrite firstn_all, E. cbn [length Nat.eqb andb]. reflexivity.
      * rewrite skipn_all2 by lia. rewrite ?E in Lf. cbn [length] in Lf. destruct f; [lia|]. cbn [part_loop]. destruct n; reflexivity.
    + rewrite opts_text_cons in *. assert (T := sep_opt o (38 :: opts_text (o2 :: l)) Wo). rewrite (sep_end (38 :: opts_text (o2 :: l)) eq_refl), Nat.add_0_r in T. cbn [part_loop]. destruct (opt_text o ++ 38 :: opts_text (o2 :: l)) as [|x t] eqn:E; [destruct (opt_text o); discriminate|]. rewrite <- E in *. cbv zeta. rewrite T. destruct n as [|n].
      * rewrite firstn_len. cbn [nth_error length]. replace (1 =? S (S (length l)))%nat with false by reflexivity. rewrite andb_false_r. reflexivity.
      * rewrite skipn_len1, IH; [cbn [nth_error]; destruct (nth_error (o2 :: l) n); [cbn [length]; reflexivity|reflexivity]|exact Wl'|]. rewrite app_length in Lf. cbn [length] in Lf. lia.
Qed.
