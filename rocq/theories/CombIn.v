(* The input side of the event builder. *)
From Verif Require Import Common ListFacts Bytes HadSpec HadWords TrigModel TrigProofs CombSpec CombModel.
Local Open Scope N_scope.

(* ---- what is left of an input ---- *)
Definition all (p : inp) : list item := match p_item p with Some x => [x] | None => [] end ++ left p.

Lemma next_in_some bs x c r : next_in bs = Some (x, c, r) -> concat bs = x :: c ++ concat r.
Proof. induction bs as [|[|y b] bs IH]; cbn; intros H; [discriminate|apply IH; exact H|]. injection H as <- <- <-. reflexivity. Qed.
Lemma next_in_none bs : next_in bs = None -> concat bs = [].
Proof. induction bs as [|[|y b] bs IH]; cbn; intros H; [reflexivity|apply IH; exact H|discriminate]. Qed.
Definition qitems (q : list buf) : list item := concat (map (fun b => match b with Some b => concat b | None => [] end) q).
Lemma next_buf_spec q : match next_buf q with
  | (Some (x, c, r), q') => qitems q = x :: c ++ concat r ++ qitems q'
  | (None, q') => qitems q = qitems q' end.
Proof.
  induction q as [|[b|] q IH]; [reflexivity| |reflexivity]. cbn [next_buf]. destruct (next_in b) as [((x & c) & r)|] eqn:E.
  - unfold qitems. cbn [map concat]. rewrite (next_in_some _ _ _ _ E). cbn [app]. rewrite <- app_assoc. reflexivity.
  - change (qitems (Some b :: q)) with (concat b ++ qitems q). rewrite (next_in_none _ E). exact IH.
Qed.

Lemma shift_spec c p : let '(p1, ok) := shift_next c p in
  if ok then exists x, p_item p1 = Some x /\ left p = x :: left p1 /\ p_trig p1 = trig_of c (p_last p) x /\ p_last p1 = p_trig p1
  else p_item p1 = None /\ left p1 = left p /\ p_last p1 = p_last p.
Proof.
  unfold shift_next, next_item. destruct (next_in (p_cur p :: p_blocks p)) as [((x & c1) & r)|] eqn:E.
  - exists x. cbn [p_item p_trig p_last]. repeat split; auto. unfold left. cbn [p_cur p_blocks p_queue].
    assert (H := next_in_some _ _ _ _ E). cbn [concat] in H. rewrite app_assoc, H. cbn [app]. rewrite <- app_assoc. reflexivity.
  - assert (H := next_buf_spec (p_queue p)). assert (H0 := next_in_none _ E). cbn [concat] in H0. apply app_eq_nil in H0. destruct H0 as (H0 & H1).
    destruct (next_buf (p_queue p)) as ([((x & c1) & r)|] & q).
    + exists x. cbn [p_item p_trig p_last]. repeat split; auto. unfold left. cbn [p_cur p_blocks p_queue]. rewrite H0, H1. cbn [app]. exact H.
    + cbn [p_item p_last]. repeat split; auto. unfold left. cbn [p_cur p_blocks p_queue]. rewrite H0, H1. cbn [concat app]. symmetry. exact H.
Qed.

(* ---- trigger numbers ---- *)
Definition opt (t : N) : option N := if t =? none then None else Some t.
Lemma land_hi16 t : t < 2^32 -> N.land t 0xffff0000 = t / 0x10000 * 0x10000.
Proof.
  intros H. change 0xffff0000 with (N.ones 16 * 2^16 + 0). rewrite (N.div_mod' t (2^16)) at 1. rewrite N.mul_comm.
  rewrite land_cat by (try (apply N.mod_lt; lia); reflexivity). rewrite N.land_0_r, N.add_0_r. change (2^16) with 0x10000. rewrite N.land_ones.
  rewrite N.mod_small; [reflexivity|]. change (2^16) with 0x10000. change (2^32) with 4294967296 in H. lia.
Qed.
Lemma trig_of_spec c k last x : c_max c = 2^k -> k < 31 -> last = none \/ last < 2^k -> i_word x < 2^32 ->
  trig_of c last x = next_number k (negb (c_brecv c)) (opt last) x.
Proof.
  intros M K Hl W. assert (P : 2^k <= 2^30) by (apply N.pow_le_mono_r; lia). assert (P0 : 0 < 2^k) by (apply N.neq_0_lt_0, N.pow_nonzero; lia). change (2^30) with 1073741824 in P.
  assert (Em : c_mask c = N.ones k). { unfold c_mask. rewrite M, N.ones_equiv. lia. }
  unfold trig_of, next_number. rewrite Em, N.land_ones, N.shiftr_div_pow2. change (i_word x / 2^8) with (i_raw x). set (t := i_raw x mod 2^k). cbv zeta.
  assert (Lt : t < 2^k) by (apply N.mod_lt; lia).
  unfold opt. destruct (N.eqb_spec last none) as [->|Hn].
  - change (none =? none) with true. cbn [negb]. rewrite !andb_false_r. reflexivity.
  - destruct Hl as [->|Hl]; [congruence|]. cbn [negb]. rewrite andb_true_r.
    change 0xffff with (N.ones 16). rewrite !N.land_ones. change (2^16) with 0x10000.
    assert (Q : (0x100000 <? N.ones k) = (20 <? k)).
    { rewrite N.ones_equiv. destruct (N.ltb_spec 20 k) as [C|C].
      - apply N.ltb_lt. assert (2^21 <= 2^k) by (apply N.pow_le_mono_r; lia). change (2^21) with 2097152 in *. lia.
      - apply N.ltb_ge. assert (2^k <= 2^20) by (apply N.pow_le_mono_r; lia). change (2^20) with 1048576 in *. lia. }
    rewrite Q. rewrite !land_hi16 by (change (2^32) with 4294967296; lia).
    assert (R : (t / 0x10000 * 0x10000 =? last / 0x10000 * 0x10000) = (t / 0x10000 =? last / 0x10000)).
    { destruct (N.eqb_spec (t / 0x10000) (last / 0x10000)) as [E|E]; [rewrite E; apply N.eqb_refl|]. apply N.eqb_neq. lia. }
    rewrite R. change (N.ones 16) with 0xffff.
    destruct (negb (c_brecv c)), (t mod 65536 =? 0), (20 <? k), (last mod 65536 =? 65535), (t / 65536 =? last / 65536); cbn [andb]; try reflexivity.
    f_equal. apply N.mod_small. change (2^32) with 4294967296. lia.
Qed.
Lemma next_number_lt k b l x : next_number k b l x < 2^k.
Proof.
  assert (P0 : 2^k <> 0) by (apply N.pow_nonzero; lia). unfold next_number. cbv zeta. destruct l as [l|]; [|apply N.mod_lt; exact P0].
  destruct (_ && _); apply N.mod_lt; exact P0.
Qed.
Lemma next_number_carries k b l x : (match l with Some l => l < 2^k | None => True end) -> carries k x (next_number k b l x).
Proof.
  intros Hl. unfold next_number, carries. cbv zeta. set (t := i_raw x mod 2^k). destruct l as [l|]; [|left; reflexivity].
  destruct (b && (20 <? k)); [|left; reflexivity]. cbn [andb].
  destruct (N.eqb_spec (t mod 65536) 0) as [E1|]; [|left; reflexivity]. destruct (N.eqb_spec (l mod 65536) 65535) as [E2|]; [|left; reflexivity].
  destruct (N.eqb_spec (t / 65536) (l / 65536)) as [E3|]; [|left; reflexivity]. cbn [andb]. right. split; [exact E1|]. f_equal. lia.
Qed.
