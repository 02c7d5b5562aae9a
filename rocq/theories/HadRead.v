(* Proofs about the HADAQ read iterator. *)
From Verif Require Import Common ListFacts Bytes WordMem BufPtr HadSpec HadModel HadWords.
Open Scope N_scope.

Lemma get_hdrN big l a c o k x dec : o = lenN a -> Forall word l -> nth_error l 1 = Some dec -> dec_ok dec ->
  nth_error l (N.to_nat k) = Some x ->
  get_field (a ++ hdr_bytes big l ++ c) o k = Ok x.
Proof. intros -> W D K X. rewrite <- (N2Nat.id k). eapply get_hdr; eauto. Qed.

Lemma lenN_hdr_bytes big l : lenN (hdr_bytes big l) = 4 * lenN l.
Proof.
  induction l as [|v l IH]; [reflexivity|]. unfold hdr_bytes in *. cbn [map concat]. rewrite lenN_app, IH, lenN_cons.
  assert (lenN (word_bytes big v) = 4); [|lia].
  unfold word_bytes. destruct big; unfold lenN; rewrite ?rev_length, le_length; reflexivity.
Qed.
Lemma lenN_enc_sub x : lenN (enc_sub x) = 16 + lenN (s_raw x) + lenN (s_pad x).
Proof. unfold enc_sub. rewrite !lenN_app, lenN_hdr_bytes. unfold lenN at 1. cbn [length]. lia. Qed.
Lemma lenN_enc_unit u : lenN (enc_unit u) = unit_size u.
Proof. unfold enc_unit, unit_hdr. rewrite lenN_app, lenN_hdr_bytes, !lenN_cons. unfold unit_size. lia. Qed.

Lemma pad8_exact n p : p < 8 -> (n + p) mod 8 = 0 -> n + p < 2^32 -> pad8 n = n + p.
Proof.
  intros P M L. unfold pad8. cbv zeta. destruct (N.eqb_spec (n mod 8) 0) as [E|E]; [lia|].
  rewrite N.mod_small; [lia|]. assert (n + 8 - n mod 8 = n + p) by lia. lia.
Qed.
Lemma enc_subs_mod8 l : Forall sub_ok l -> lenN (enc_subs l) mod 8 = 0.
Proof.
  induction 1 as [|x l (_ & _ & _ & _ & M & _) Hl IH]; [reflexivity|]. unfold enc_subs in *. cbn [map concat].
  rewrite lenN_app, lenN_enc_sub. lia.
Qed.

(* words of a subevent header *)
Lemma sub_words x : sub_ok x -> Forall word [16 + lenN (s_raw x); s_dec x; s_id x; s_trig x].
Proof.
  intros (D & I & T & _ & _ & L). repeat constructor; auto.
  - unfold word. lia.
  - apply dec_word. exact D.
Qed.
Lemma sub_field a x c o k v : o = lenN a -> sub_ok x ->
  nth_error [16 + lenN (s_raw x); s_dec x; s_id x; s_trig x] (N.to_nat k) = Some v ->
  get_field (a ++ enc_sub x ++ c) o k = Ok v.
Proof.
  intros -> K N. unfold enc_sub. rewrite <- app_assoc.
  eapply get_hdrN; [reflexivity|apply sub_words; exact K|reflexivity|apply K|exact N].
Qed.
Lemma sub_padded a x c o : o = lenN a -> sub_ok x -> padded (a ++ enc_sub x ++ c) o = Ok (lenN (enc_sub x)).
Proof.
  intros E K. unfold padded, get_size. rewrite (sub_field a x c o 0 (16 + lenN (s_raw x))); auto.
  cbn [bind]. f_equal. destruct K as (_ & _ & _ & P & M & L). rewrite lenN_enc_sub. apply pad8_exact; lia.
Qed.

Definition at_sub (s : riter) (sub raw : ptr) : riter := mkR (r_first s) (r_ev s) sub raw (r_type s).

(* state with the subevent pointer at [o], [n] bytes to the end of the container *)
Lemma go_sub a x c s n o : o = lenN a -> sub_ok x -> lenN (enc_sub x) <= n ->
  let m := a ++ enc_sub x ++ c in
  let sub := mkP (Some o) n in
  (if p_full sub <? 16 then Ok (mkR (r_first s) (r_ev s) pnull (r_raw s) (r_type s), false)
   else do o <- addr sub; do sz <- get_size m o;
    if sz <? 16 then Ok (mkR (r_first s) (r_ev s) pnull (r_raw s) (r_type s), false)
    else Ok (mkR (r_first s) (r_ev s) sub (shift (limit_to sub (pad8 sz)) 16) (r_type s), true))
  = Ok (at_sub s sub (mkP (Some (o + 16)) (lenN (s_raw x) + lenN (s_pad x))), true).
Proof.
  intros E K L m sub. unfold sub, at_sub. cbn [p_full addr bind p_off].
  assert (Lx := lenN_enc_sub x).
  destruct (N.ltb_spec n 16); [lia|].
  unfold get_size, m. rewrite (sub_field a x c o 0 (16 + lenN (s_raw x))) by auto. cbn [bind].
  destruct (N.ltb_spec (16 + lenN (s_raw x)) 16); [lia|].
  destruct K as (_ & _ & _ & P & M & B).
  rewrite (pad8_exact _ (lenN (s_pad x))) by lia.
  rewrite limit_at by lia. rewrite shift_at by lia.
  do 4 f_equal. lia.
Qed.

Lemma see_sub_at a x c s o n : o = lenN a -> sub_ok x ->
  see_sub (a ++ enc_sub x ++ c) (at_sub s (mkP (Some o) n) (mkP (Some (o + 16)) (lenN (s_raw x) + lenN (s_pad x))))
  = Ok (sub_seen x).
Proof.
  intros E K. unfold see_sub, at_sub. cbn [r_sub r_raw addr p_off p_full bind].
  unfold get_size, get_dec, get_id, get_trig.
  rewrite (sub_field a x c o 0 (16 + lenN (s_raw x))) by auto. cbn [bind].
  rewrite (sub_field a x c o 1 (s_dec x)) by auto. cbn [bind].
  rewrite (sub_field a x c o 2 (s_id x)) by auto. cbn [bind].
  rewrite (sub_field a x c o 3 (s_trig x)) by auto. cbn [bind].
  replace (a ++ enc_sub x ++ c) with ((a ++ hdr_bytes (s_big x) [16 + lenN (s_raw x); s_dec x; s_id x; s_trig x]) ++ (s_raw x ++ s_pad x) ++ c)
    by (unfold enc_sub; rewrite <- !app_assoc; reflexivity).
  rewrite <- lenN_app. rewrite getb_at; [reflexivity|].
  rewrite lenN_app, lenN_hdr_bytes. unfold lenN at 2. cbn [length]. lia.
Qed.

(* the subevents of a container are seen one by one; the loop ends with the
   subevent pointer reset *)
Lemma sub_loop_at l : forall fuel a c s x raw n,
  (length l < fuel)%nat -> Forall sub_ok (x :: l) ->
  n = lenN (enc_subs (x :: l)) ->
  exists raw', sub_loop fuel (a ++ enc_subs (x :: l) ++ c) (at_sub s (mkP (Some (lenN a)) n) raw)
  = Ok (at_sub s pnull raw', map sub_seen l).
Proof.
  induction l as [|y l IH]; intros fuel a c s x raw n F K ->.
  - destruct fuel as [|fuel]; [lia|]. inversion K as [|? ? Kx _]; subst.
    unfold enc_subs. cbn [map concat]. rewrite app_nil_r.
    cbn [sub_loop]. unfold next_sub at 1. cbn [r_sub at_sub].
    assert (Lx := lenN_enc_sub x).
    rewrite is_null_at by lia. cbn [addr p_off bind]. rewrite sub_padded by auto. cbn [bind].
    rewrite shift_at by lia. cbn [p_full]. replace (lenN (enc_sub x) - lenN (enc_sub x)) with 0 by lia.
    cbn [bind r_first r_ev r_raw r_type at_sub]. change (0 <? 16) with true. cbn [bind]. eexists. reflexivity.
  - destruct fuel as [|fuel]; [cbn in F; lia|]. inversion K as [|? ? Kx K']; subst.
    assert (Lx := lenN_enc_sub x). assert (Ly := lenN_enc_sub y).
    set (n := lenN (enc_subs (x :: y :: l))).
    assert (En : n = lenN (enc_sub x) + lenN (enc_subs (y :: l))) by (unfold n, enc_subs; cbn [map concat]; rewrite lenN_app; reflexivity).
    assert (Ey : lenN (enc_sub y) <= lenN (enc_subs (y :: l))) by (unfold enc_subs; cbn [map concat]; rewrite lenN_app; lia).
    replace (a ++ enc_subs (x :: y :: l) ++ c) with (a ++ enc_sub x ++ (enc_subs (y :: l) ++ c))
      by (unfold enc_subs; cbn [map concat]; rewrite <- !app_assoc; reflexivity).
    cbn [sub_loop]. unfold next_sub at 1. cbn [r_sub at_sub].
    rewrite is_null_at by lia. cbn [addr p_off bind]. rewrite sub_padded by auto. cbn [bind].
    rewrite shift_at by lia.
    replace (a ++ enc_sub x ++ enc_subs (y :: l) ++ c) with ((a ++ enc_sub x) ++ enc_sub y ++ (enc_subs l ++ c))
      by (unfold enc_subs; cbn [map concat]; rewrite <- !app_assoc; reflexivity).
    inversion K' as [|? ? Ky K'']; subst.
    assert (G := go_sub (a ++ enc_sub x) y (enc_subs l ++ c) (at_sub s (mkP (Some (lenN a)) n) raw) (n - lenN (enc_sub x)) (lenN a + lenN (enc_sub x))
       ltac:(rewrite lenN_app; reflexivity) Ky ltac:(lia)). cbv zeta in G.
    cbn [r_first r_ev r_raw r_type at_sub] in G |- *. rewrite G. cbn [bind]. clear G.
    rewrite see_sub_at by (auto; rewrite lenN_app; reflexivity). cbn [bind].
    replace ((a ++ enc_sub x) ++ enc_sub y ++ enc_subs l ++ c) with ((a ++ enc_sub x) ++ enc_subs (y :: l) ++ c)
      by (unfold enc_subs; cbn [map concat]; rewrite <- !app_assoc; reflexivity).
    destruct (IH fuel (a ++ enc_sub x) c s y (mkP (Some (lenN a + lenN (enc_sub x) + 16)) (lenN (s_raw y) + lenN (s_pad y)))
      (n - lenN (enc_sub x)) ltac:(cbn in F; lia) K' ltac:(lia)) as (raw' & E).
    rewrite lenN_app in E. unfold at_sub in E |- *. cbn [r_first r_ev r_raw r_type] in E |- *. rewrite E. cbn [bind].
    eexists. reflexivity.
Qed.

Lemma lenN_len {A} (l : list A) n : lenN l = n -> length l = N.to_nat n.
Proof. unfold lenN. lia. Qed.
Lemma enc_subs_len l : N.of_nat (length l) <= lenN (enc_subs l).
Proof.
  induction l as [|x l IH]; [cbn; lia|]. unfold enc_subs in *. cbn [map concat]. rewrite lenN_app, lenN_enc_sub. cbn [length]. lia.
Qed.

(* the subevents between [a ++ h] and [c], the container pointer at [a] covering
   header [h] and subevents *)
Lemma cont_loop fuel a h l c s csz :
  (length l < fuel)%nat -> Forall sub_ok l -> r_sub s = pnull ->
  lenN h = head_size (r_type s) -> csz = lenN h + lenN (enc_subs l) -> 0 < csz ->
  p_off (r_ev s) = Some (lenN a) -> csz <= p_full (r_ev s) ->
  (match r_type s with TSubs => Ok (p_full (r_ev s)) | _ => padded (a ++ h ++ enc_subs l ++ c) (lenN a) end) = Ok csz ->
  exists raw', sub_loop fuel (a ++ h ++ enc_subs l ++ c) s = Ok (at_sub s pnull raw', map sub_seen l).
Proof.
  intros F K Sn Lh Ec P Eo Ef Ep. destruct fuel as [|fuel]; [lia|]. destruct s as [fst ev sub raw t].
  cbn [r_sub r_ev r_type] in *. subst sub. destruct ev as [eo en]. cbn [p_off p_full] in *. subst eo.
  cbn [sub_loop]. unfold next_sub at 1. cbn [r_sub r_ev r_type r_first r_raw]. change (is_null pnull) with true. cbv iota.
  rewrite is_null_at by lia. cbn [addr p_off bind p_full]. rewrite Ep. cbn [bind].
  destruct (N.eqb_spec csz 0); [lia|]. destruct (N.ltb_spec csz (head_size t)); [lia|].
  rewrite limit_at by lia. rewrite shift_at by lia.
  destruct l as [|x l].
  - cbn [map]. cbn [p_full]. unfold enc_subs in Ec. cbn [map concat] in Ec. rewrite lenN_nil in Ec.
    destruct (N.ltb_spec (csz - head_size t) 16); [|lia]. cbn [bind]. eexists. unfold at_sub. cbn. reflexivity.
  - inversion K as [|? ? Kx K']; subst x0 l0.
    assert (Ex : enc_subs (x :: l) = enc_sub x ++ enc_subs l) by reflexivity.
    replace (a ++ h ++ enc_subs (x :: l) ++ c) with ((a ++ h) ++ enc_sub x ++ (enc_subs l ++ c)) by (rewrite Ex, <- !app_assoc; reflexivity).
    assert (L2 := f_equal lenN Ex). rewrite lenN_app in L2.
    assert (G := go_sub (a ++ h) x (enc_subs l ++ c) (mkR fst (mkP (Some (lenN a)) en) pnull raw t) (csz - head_size t) (lenN a + head_size t)
       ltac:(rewrite lenN_app; lia) Kx ltac:(lia)). cbv zeta in G.
    cbn [r_first r_ev r_raw r_type] in G |- *. rewrite G. cbn [bind]. clear G.
    rewrite see_sub_at by (auto; rewrite lenN_app; lia). cbn [bind].
    replace ((a ++ h) ++ enc_sub x ++ enc_subs l ++ c) with ((a ++ h) ++ enc_subs (x :: l) ++ c)
      by (rewrite Ex, <- !app_assoc; reflexivity).
    destruct (sub_loop_at l fuel (a ++ h) c (mkR fst (mkP (Some (lenN a)) en) pnull raw t) x (mkP (Some (lenN a + head_size t + 16)) (lenN (s_raw x) + lenN (s_pad x)))
      (csz - head_size t) ltac:(cbn in F; lia) K ltac:(lia)) as (raw' & E).
    rewrite lenN_app, Lh in E. unfold at_sub in E |- *. cbn [r_first r_ev r_raw r_type] in E |- *. rewrite E. cbn [bind].
    eexists. reflexivity.
Qed.

(* ---- units ---- *)

Lemma unit_words u : unit_ok u -> Forall word (unit_hdr u).
Proof. intros (D & R & _ & L). repeat constructor; auto. apply dec_word. exact D. Qed.
Lemma unit_field a u c o k v : o = lenN a -> unit_ok u -> nth_error (unit_hdr u) (N.to_nat k) = Some v ->
  get_field (a ++ enc_unit u ++ c) o k = Ok v.
Proof.
  intros -> K X. unfold enc_unit. rewrite <- app_assoc.
  eapply get_hdrN; [reflexivity|apply unit_words; exact K|reflexivity|apply K|exact X].
Qed.
Lemma unit_padded a u c o : o = lenN a -> unit_ok u -> lenN (u_rest u) mod 2 = 0 -> padded (a ++ enc_unit u ++ c) o = Ok (unit_size u).
Proof.
  intros E K R. unfold padded, get_size. rewrite (unit_field a u c o 0 (unit_size u)); auto. cbn [bind]. f_equal.
  destruct K as (_ & _ & Ks & L). assert (M := enc_subs_mod8 _ Ks).
  rewrite <- (N.add_0_r (unit_size u)) at 2. apply pad8_exact; try lia. unfold unit_size in *. lia.
Qed.
Lemma see_fields_at a u c o k : o = lenN a -> unit_ok u -> (k <= length (unit_hdr u))%nat ->
  see_fields (a ++ enc_unit u ++ c) o k = Ok (firstn k (unit_hdr u)).
Proof.
  intros E K. induction k as [|k IH]; intros L; [reflexivity|]. cbn [see_fields]. rewrite IH by lia. cbn [bind].
  destruct (nth_error (unit_hdr u) k) as [v|] eqn:X. 2:{ apply nth_error_None in X. lia. }
  rewrite (unit_field a u c o (N.of_nat k) v); auto.
  2:{ rewrite Nat2N.id. exact X. }
  cbn [bind]. f_equal. symmetry. revert X. generalize (unit_hdr u). clear. induction k as [|k IH]; intros [|y l] X; try discriminate.
  - injection X as ->. reflexivity.
  - cbn [firstn app]. f_equal. apply IH. exact X.
Qed.

(* number of header words after size and decoding *)
Definition rest_words (t : btype) : N := match t with TEvents => 6 | _ => 0 end.

Lemma unit_here a u c t n : unit_ok u -> lenN (u_rest u) = rest_words t -> t <> TSubs -> unit_size u <= n ->
  let ev := mkP (Some (lenN a)) n in let m := a ++ enc_unit u ++ c in
  forall fst sub raw, 
  (if p_full ev <? head_size t then Ok (mkR false pnull sub raw t, false)
   else do o <- addr ev; do sz <- get_size m o;
    if p_full ev <? sz then Ok (mkR false pnull sub raw t, false)
    else Ok (mkR fst ev pnull pnull t, true)) = Ok (mkR fst ev pnull pnull t, true).
Proof.
  intros K R T L ev m fs sb rw. unfold ev, m. cbn [p_full addr p_off bind].
  assert (H : head_size t = 8 + 4 * rest_words t) by (destruct t; [reflexivity|reflexivity|congruence]).
  assert (unit_size u = head_size t + lenN (enc_subs (u_subs u))) by (unfold unit_size; lia).
  destruct (N.ltb_spec n (head_size t)); [lia|].
  unfold get_size. rewrite (unit_field a u c (lenN a) 0 (unit_size u)) by auto. cbn [bind].
  destruct (N.ltb_spec n (unit_size u)); [lia|]. reflexivity.
Qed.

Lemma next_block_first u c t : unit_ok u -> lenN (u_rest u) = rest_words t -> t <> TSubs ->
  next_block (enc_unit u ++ c) (r_reset (enc_unit u ++ c) t) =
  Ok (mkR false (mkP (Some 0) (lenN (enc_unit u ++ c))) pnull pnull t, true).
Proof.
  intros K R T. assert (L : 0 < lenN (enc_unit u ++ c)) by (rewrite lenN_app, lenN_enc_unit; unfold unit_size; lia).
  unfold next_block, r_reset. cbn [r_type]. destruct (N.eqb_spec (lenN (enc_unit u ++ c)) 0); [lia|].
  assert (U := unit_here [] u c t (lenN (enc_unit u ++ c)) K R T ltac:(rewrite lenN_app, lenN_enc_unit; lia)). cbv zeta in U.
  cbn [app] in U. change (lenN []) with 0 in U.
  destruct t; [| |congruence]; unfold next_unit; cbn [r_ev r_first r_sub r_raw r_type]; rewrite is_null_at by auto; cbn [bind]; apply U.
Qed.

Lemma next_block_next a u v c t n raw : unit_ok u -> unit_ok v -> lenN (u_rest u) = rest_words t -> lenN (u_rest v) = rest_words t -> t <> TSubs ->
  n = lenN (enc_unit u ++ enc_unit v ++ c) ->
  next_block (a ++ enc_unit u ++ enc_unit v ++ c) (mkR false (mkP (Some (lenN a)) n) pnull raw t) =
  Ok (mkR false (mkP (Some (lenN (a ++ enc_unit u))) (lenN (enc_unit v ++ c))) pnull pnull t, true).
Proof.
  intros K Kv R Rv T ->. assert (L : lenN (enc_unit u ++ enc_unit v ++ c) = unit_size u + lenN (enc_unit v ++ c)) by (rewrite lenN_app, lenN_enc_unit; reflexivity).
  assert (Pu : 0 < unit_size u) by (unfold unit_size; lia).
  assert (U := unit_here (a ++ enc_unit u) v c t (lenN (enc_unit v ++ c)) Kv Rv T ltac:(rewrite lenN_app, lenN_enc_unit; lia) false pnull raw). cbv zeta in U.
  assert (M2 : rest_words t mod 2 = 0) by (destruct t; reflexivity).
  assert (E : next_unit (a ++ enc_unit u ++ enc_unit v ++ c) (mkR false (mkP (Some (lenN a)) (lenN (enc_unit u ++ enc_unit v ++ c))) pnull raw t) =
    Ok (mkR false (mkP (Some (lenN (a ++ enc_unit u))) (lenN (enc_unit v ++ c))) pnull pnull t, true)).
  { unfold next_unit; cbn [r_ev r_first r_sub r_raw r_type]; rewrite is_null_at by lia; cbn [addr p_off bind].
    rewrite unit_padded by (auto; lia). cbn [bind]. rewrite shift_at by lia.
    replace (lenN a + unit_size u) with (lenN (a ++ enc_unit u)) by (rewrite lenN_app, lenN_enc_unit; reflexivity).
    replace (lenN (enc_unit u ++ enc_unit v ++ c) - unit_size u) with (lenN (enc_unit v ++ c)) by lia.
    rewrite <- app_assoc in U. exact U. }
  destruct t; [exact E|exact E|congruence].
Qed.

Lemma next_block_end a u t n raw : unit_ok u -> lenN (u_rest u) = rest_words t -> t <> TSubs -> n = unit_size u ->
  next_block (a ++ enc_unit u) (mkR false (mkP (Some (lenN a)) n) pnull raw t) = Ok (mkR false pnull pnull raw t, false).
Proof.
  intros K R T ->. assert (Pu : 0 < unit_size u) by (unfold unit_size; lia).
  assert (M2 : rest_words t mod 2 = 0) by (destruct t; reflexivity).
  assert (E : next_unit (a ++ enc_unit u) (mkR false (mkP (Some (lenN a)) (unit_size u)) pnull raw t) = Ok (mkR false pnull pnull raw t, false)).
  { unfold next_unit; cbn [r_ev r_first r_sub r_raw r_type]; rewrite is_null_at by lia; cbn [addr p_off bind].
    assert (P := unit_padded a u [] (lenN a) eq_refl K ltac:(lia)). rewrite app_nil_r in P. rewrite P. cbn [bind].
    rewrite shift_at by lia. cbn [p_full]. destruct (N.ltb_spec (unit_size u - unit_size u) (head_size t)); [reflexivity|].
    destruct t; [cbn in *; lia|cbn in *; lia|congruence]. }
  destruct t; [exact E|exact E|congruence].
Qed.

Definition unit_for (t : btype) (u : hunit) : Prop := unit_ok u /\ lenN (u_rest u) = rest_words t.

Lemma see_unit_at a u c t n : unit_for t u -> t <> TSubs ->
  see_unit (a ++ enc_unit u ++ c) (mkR false (mkP (Some (lenN a)) n) pnull pnull t) = Ok (unit_hdr u).
Proof.
  intros (K & R) T. unfold see_unit. cbn [r_ev r_type addr p_off bind].
  assert (L : length (unit_hdr u) = N.to_nat (head_size t / 4)).
  { apply lenN_len. unfold unit_hdr. rewrite !lenN_cons, R. destruct t; [reflexivity|reflexivity|congruence]. }
  rewrite see_fields_at; auto; [|lia]. rewrite <- L, firstn_all. reflexivity.
Qed.

Lemma unit_subs_at a u c t n fuel : unit_for t u -> t <> TSubs -> (length (a ++ enc_unit u ++ c) < fuel)%nat ->
  unit_size u <= n ->
  exists raw, sub_loop fuel (a ++ enc_unit u ++ c) (mkR false (mkP (Some (lenN a)) n) pnull pnull t)
   = Ok (mkR false (mkP (Some (lenN a)) n) pnull raw t, map sub_seen (u_subs u)).
Proof.
  intros (K & R) T F L.
  assert (H : lenN (hdr_bytes (u_big u) (unit_hdr u)) = head_size t).
  { rewrite lenN_hdr_bytes. unfold unit_hdr. rewrite !lenN_cons, R. destruct t; [reflexivity|reflexivity|congruence]. }
  assert (P := unit_padded a u c (lenN a) eq_refl K ltac:(rewrite R; destruct t; reflexivity)).
  assert (Eq : a ++ enc_unit u ++ c = a ++ hdr_bytes (u_big u) (unit_hdr u) ++ enc_subs (u_subs u) ++ c)
    by (unfold enc_unit; rewrite <- !app_assoc; reflexivity).
  rewrite Eq in P, F |- *.
  assert (Us : unit_size u = lenN (hdr_bytes (u_big u) (unit_hdr u)) + lenN (enc_subs (u_subs u))).
  { rewrite <- lenN_app. fold (enc_unit u). symmetry. apply lenN_enc_unit. }
  destruct (cont_loop fuel a (hdr_bytes (u_big u) (unit_hdr u)) (u_subs u) c (mkR false (mkP (Some (lenN a)) n) pnull pnull t) (unit_size u)) as (raw & E); auto.
  - assert (B := enc_subs_len (u_subs u)). rewrite !app_length in F. unfold lenN in B. lia.
  - apply K.
  - unfold unit_size. lia.
  - cbn [r_type]. destruct t; [exact P|exact P|congruence].
  - exists raw. exact E.
Qed.

Lemma enc_units_len t l : Forall (unit_for t) l -> N.of_nat (length l) <= lenN (enc_units l).
Proof.
  induction 1 as [|x l (K & R) Hl IH]; [cbn; lia|]. unfold enc_units in *. cbn [map concat]. rewrite lenN_app, lenN_enc_unit. cbn [length].
  unfold unit_size. lia.
Qed.

(* after unit [u] *)
Lemma block_loop_next t (T : t <> TSubs) l : forall fuel a u raw, Forall (unit_for t) (u :: l) -> (length l < fuel)%nat ->
  block_loop fuel (a ++ enc_unit u ++ enc_units l) (mkR false (mkP (Some (lenN a)) (lenN (enc_unit u ++ enc_units l))) pnull raw t)
  = Ok (map unit_seen l).
Proof.
  induction l as [|v l IH]; intros fuel a u raw K F; (destruct fuel as [|fuel]; [cbn in F; lia|]).
  - inversion K as [|? ? (Ku & Ru) _]; subst. unfold enc_units. cbn [map concat]. rewrite app_nil_r. cbn [block_loop].
    rewrite (next_block_end a u t _ raw Ku Ru T (lenN_enc_unit u)). reflexivity.
  - inversion K as [|? ? (Ku & Ru) K']; subst. inversion K' as [|? ? (Kv & Rv) K'']; subst.
    assert (E : enc_units (v :: l) = enc_unit v ++ enc_units l) by reflexivity. rewrite E. cbn [block_loop].
    rewrite next_block_next by auto. cbn [bind].
    rewrite (app_assoc a (enc_unit u)).
    rewrite see_unit_at by (auto; split; auto). cbn [bind].
    destruct (unit_subs_at (a ++ enc_unit u) v (enc_units l) t (lenN (enc_unit v ++ enc_units l)) (S (length ((a ++ enc_unit u) ++ enc_unit v ++ enc_units l)))) as (raw' & Es); auto.
    { split; auto. }
    { rewrite lenN_app, lenN_enc_unit. lia. }
    rewrite Es. cbn [bind]. rewrite IH; [|exact K'|cbn in F; lia]. reflexivity.
Qed.

Lemma read_units t l : t <> TSubs -> Forall (unit_for t) l -> read_all (enc_units l) t = Ok (map unit_seen l).
Proof.
  intros T K. unfold read_all. destruct l as [|u l].
  { destruct t; [reflexivity|reflexivity|congruence]. }
  assert (E : enc_units (u :: l) = enc_unit u ++ enc_units l) by reflexivity. 
  assert (B := enc_units_len _ _ K). inversion K as [|? ? (Ku & Ru) K']; subst. rewrite E in *.
  cbn [block_loop]. rewrite next_block_first by auto. cbn [bind].
  assert (Eu := see_unit_at [] u (enc_units l) t (lenN (enc_unit u ++ enc_units l)) (conj Ku Ru) T).
  cbn [app] in Eu. change (lenN []) with 0 in Eu. rewrite Eu. cbn [bind].
  destruct (unit_subs_at [] u (enc_units l) t (lenN (enc_unit u ++ enc_units l)) (S (length (enc_unit u ++ enc_units l))) (conj Ku Ru) T) as (raw' & Es); auto.
  { rewrite lenN_app, lenN_enc_unit. lia. }
  cbn [app] in Es. change (lenN []) with 0 in Es. rewrite Es. cbn [bind].
  assert (X := block_loop_next t T l (length (enc_unit u ++ enc_units l)) [] u raw' K). cbn [app] in X. change (lenN []) with 0 in X.
  rewrite X; [reflexivity|]. cbn [length] in B. unfold lenN in B. lia.
Qed.

Lemma read_subs l : Forall sub_ok l -> l <> [] -> read_all (enc_subs l) TSubs = Ok [([], map sub_seen l)].
Proof.
  intros K Ne. unfold read_all. assert (P : 0 < lenN (enc_subs l)).
  { destruct l as [|x l]; [congruence|]. unfold enc_subs. cbn [map concat]. rewrite lenN_app, lenN_enc_sub. lia. }
  cbn [block_loop]. unfold next_block at 1. unfold r_reset. cbn [r_type r_first r_ev].
  destruct (N.eqb_spec (lenN (enc_subs l)) 0); [lia|]. rewrite is_null_at by auto. cbn [bind].
  unfold see_unit. cbn [r_ev addr p_off bind r_type head_size]. change (N.to_nat (0 / 4)) with O. cbn [see_fields bind].
  destruct (cont_loop (S (length (enc_subs l))) [] [] l [] (mkR false (mkP (Some 0) (lenN (enc_subs l))) pnull pnull TSubs) (lenN (enc_subs l))) as (raw & E); auto.
  - assert (B := enc_subs_len l). unfold lenN in B. lia.
  - cbn. lia.
  - cbn [app] in E. rewrite app_nil_r in E. rewrite E. cbn [bind at_sub r_first r_ev r_type].
    destruct (length (enc_subs l)) eqn:Len; [unfold lenN in P; lia|]. reflexivity.
Qed.
