(* Proofs about the sorter: order, identity and sending of the subevents. *)
From Coq Require Import Permutation Sorting.Sorted.
From Verif Require Import Common ListFacts Bytes HadSpec TrigModel TrigProofs SortSpec SortModel.
Local Open Scope N_scope.

(* what std::sort guarantees for a strict weak ordering *)
Definition sorts (k : N) (f : list srec -> list srec) : Prop :=
  forall l, weak_order k l = true -> Permutation (f l) l /\ StronglySorted (fun a b => before k b a = false) (f l).

Lemma insides_app a b : insides (a ++ b) = insides a ++ insides b.
Proof. unfold insides. rewrite map_app, concat_app. reflexivity. Qed.
Lemma enc_sub_pos x : 0 < lenN (enc_sub x).
Proof. unfold enc_sub. rewrite !lenN_app. unfold hdr_bytes. cbn [map concat]. rewrite !lenN_app. unfold word_bytes. destruct (s_big x); [unfold lenN at 1; rewrite rev_length|unfold lenN at 1]; rewrite le_length; lia. Qed.
Lemma enc_subs_nil l : enc_subs l = [] -> l = [].
Proof. destruct l as [|x l]; [reflexivity|]. unfold enc_subs. cbn [map concat]. intros H. apply app_eq_nil in H. destruct H as (H & _). assert (P := enc_sub_pos x). rewrite H in P. cbn in P. lia. Qed.
Lemma chain_snoc {A} (R : A -> A -> Prop) l x d : chain R l -> (l <> [] -> R (last l d) x) -> chain R (l ++ [x]).
Proof.
  induction l as [|a l IH]; intros H1 H2; [exact I|]. destruct l as [|b l]; cbn [app chain] in *; [split; [apply (H2 ltac:(discriminate))|exact I]|].
  destruct H1 as (H1 & H3). split; [exact H1|]. apply IH; [exact H3|]. intros _. apply (H2 ltac:(discriminate)).
Qed.
Lemma last_snoc {A} (l : list A) x d : last (l ++ [x]) d = x.
Proof. apply last_last. Qed.

Section S.
Context (k : N) (HK : k < 31).

Lemma M_pos : (0 < Z.of_N (2^k) <= 2^30)%Z.
Proof. assert (P := N.pow_le_mono_r 2 k 30 ltac:(discriminate) ltac:(lia)). assert (Q : 2^k <> 0) by (apply N.pow_nonzero; discriminate). change (2^30) with 1073741824 in P. change (2^30)%Z with 1073741824%Z. lia. Qed.
Lemma number_lt x : number k x < 2^k.
Proof. apply N.mod_lt. apply N.pow_nonzero. discriminate. Qed.
Lemma number_none x : number k x <> none.
Proof. assert (H := number_lt x). assert (P := M_pos). change (2^30)%Z with 1073741824%Z in P. unfold none. lia. Qed.
Lemma rec_trig n x : r_trig (rec_of k n x) = number k (snd x).
Proof. unfold rec_of, number. cbn [r_trig]. rewrite N.shiftr_div_pow2. change (2^8) with 256. replace (2^k - 1) with (N.ones k) by (rewrite N.ones_equiv; lia). apply N.land_ones. Qed.
Lemma diff_follows a b : a < 2^k -> b < 2^k -> (0 <= diff k a b)%Z -> follows k a b.
Proof.
  intros Ha Hb H. assert (P := M_pos). unfold diff in H. change (2^30)%Z with 1073741824%Z in P.
  destruct (trig_diff_spec (Z.of_N (2^k)) (Z.of_N a) (Z.of_N b)) as ((j & E) & L); [change (2^31)%Z with 2147483648%Z; lia|lia|lia|].
  revert E L H. generalize (trig_diff (Z.of_N (2^k)) (Z.of_N a) (Z.of_N b)). intros z -> L H. unfold follows. revert Ha Hb P L H. generalize (2^k). clear. intros M Ha Hb P L H.
  assert (Q : (j = 0 \/ j = 1)%Z) by nia. assert (E : (b + M - a) mod M = Z.to_N (Z.of_N b - Z.of_N a + j * Z.of_N M)).
  { destruct Q as [-> | ->].
    - replace (b + M - a) with (b - a + 1 * M) by lia. rewrite N.mod_add by lia. rewrite N.mod_small by lia. lia.
    - rewrite N.mod_small by lia. lia. }
  rewrite E. apply N.div_le_lower_bound; lia.
Qed.

(* ---- the invariant ---- *)
Definition lastn (l : list item) : N := last (map (fun x => number k (snd x)) l) none.
Definition rok (n : nat) (r : srec) : Prop := r_trig r = number k (snd (r_item r)) /\ (r_buf r < n)%nat.
Lemma lastn_snoc l x : lastn (l ++ [x]) = number k (snd x).
Proof. unfold lastn. rewrite map_app. apply last_last. Qed.
Lemma lastn_none l : lastn l = none -> l = [].
Proof. destruct l as [|a l _] using rev_ind; [reflexivity|]. rewrite lastn_snoc. intros H. destruct (number_none _ H). Qed.
Definition ordered (l : list item) : Prop := chain (follows k) (map (fun x => number k (snd x)) l).
Lemma ordered_snoc l x : ordered l -> (l <> [] -> (0 <= diff k (lastn l) (number k (snd x)))%Z) -> ordered (l ++ [x]).
Proof.
  intros H1 H2. unfold ordered. rewrite map_app. apply (chain_snoc _ _ _ none H1). intros H. assert (Q : l <> []) by (intros ->; apply H; reflexivity).
  apply diff_follows; [|apply number_lt|exact (H2 Q)]. destruct l as [|a l _] using rev_ind; [destruct (Q eq_refl)|]. rewrite map_app; cbn [map]; rewrite last_last. apply number_lt.
Qed.

(* [A]: all that arrived; [st]: the output does not become ready during a call *)
Record inv (st : bool) (A : list item) (s : sorter) : Prop := mkInv {
  v_rec : Forall (rok (q_next s)) (q_subs s);
  v_next : (q_ready s <= q_next s <= length (q_in s))%nat;
  v_last : q_last s = lastn (q_emit s);
  v_order : ordered (q_emit s);
  v_perm : exists lost, Permutation (q_emit s ++ map r_item (q_subs s) ++ insides (skipn (q_next s) (q_in s)) ++ lost) A;
  v_sent : exists segs cur lost, Forall2 holds (q_sent s) segs /\
     match q_out s with Some (cap, b) => b = enc_subs (map snd cur) /\ lenN b <= cap | None => cur = [] end /\
     Permutation (concat segs ++ cur ++ insides (firstn (q_ready s) (q_in s)) ++ lost) (q_emit s) /\
     (st = true -> lost = []) /\
     (st = true -> q_over s = false -> q_emit s = concat segs ++ cur ++ insides (firstn (q_ready s) (q_in s)))
}.

(* consecutive numbers *)
Lemma consecutive_ok n l : forall E p t, p = lastn E -> consecutive k p (map (rec_of k n) l) = Some t -> t = lastn (E ++ l) /\ (ordered E -> ordered (E ++ l)).
Proof.
  induction l as [|x l IH]; intros E p t Hp H; cbn [map consecutive] in H.
  - injection H as <-. rewrite app_nil_r. auto.
  - destruct (negb (p =? none) && negb (diff k p (r_trig (rec_of k n x)) =? 1)%Z) eqn:C; [discriminate|]. rewrite rec_trig in *.
    destruct (IH (E ++ [x]) (number k (snd x)) t (eq_sym (lastn_snoc E x)) H) as (I1 & I2). rewrite <- app_assoc in I1, I2. split; [exact I1|]. intros O. apply I2. apply ordered_snoc; [exact O|].
    intros Q. rewrite <- Hp. destruct (N.eqb_spec p none) as [Ep|_]; [rewrite Hp in Ep; apply lastn_none in Ep; contradiction|]. cbn [negb andb] in C. apply negb_false_iff in C. lia.
Qed.

Definition with_sc (s : sorter) (a : scan_st) : sorter :=
  mkS (q_in s) (sc_next a) (sc_ready a) (sc_subs a) (sc_last a) (q_out s) (q_cnt s) (q_arr s) (sc_emit a) (q_sent s) (q_over s).
Lemma scan_one_inv st A s a l r : inv st A (with_sc s a) -> skipn (sc_next a) (q_in s) = SBuf l :: r -> inv st A (with_sc s (scan_one k l a)).
Proof.
  intros [H1 H2 H3 H4 (lo & H5) (segs & cur & lost & S1 & S2 & S3 & S4 & S5)] Hl. cbn [with_sc q_in q_next q_ready q_subs q_last q_out q_emit q_sent q_over] in *.
  assert (Hn : nth_error (q_in s) (sc_next a) = Some (SBuf l)). { rewrite <- (Nat.add_0_r (sc_next a)), <- nth_error_skipn, Hl. reflexivity. }
  assert (Hlen : (sc_next a < length (q_in s))%nat) by (apply nth_error_Some; congruence).
  assert (Hsk : skipn (S (sc_next a)) (q_in s) = r). { rewrite (skipn_cons_nth _ _ _ Hn) in Hl. congruence. }
  rewrite Hl in H5. change (insides (SBuf l :: r)) with (l ++ insides r) in H5.
  assert (Base : inv st A (with_sc s (mkSc (S (sc_next a)) (sc_ready a) (sc_subs a ++ map (rec_of k (sc_next a)) l) (sc_last a) (sc_emit a) (sc_new a || match l with [] => false | _ => true end)))).
  { split; cbn [with_sc sc_next sc_ready sc_subs sc_last sc_emit q_in q_next q_ready q_subs q_last q_out q_emit q_sent q_over].
    - apply Forall_app. split; [eapply Forall_impl; [|exact H1]; intros x (Q1 & Q2); split; [exact Q1|lia]|]. apply Forall_map, Forall_forall. intros x _. split; [rewrite rec_trig; reflexivity|cbn; lia].
    - lia.
    - exact H3.
    - exact H4.
    - exists lo. rewrite Hsk, map_app, map_map. cbn [r_item rec_of]. rewrite map_id. rewrite <- !app_assoc in *. exact H5.
    - exists segs, cur, lost. auto. }
  unfold scan_one. destruct ((sc_ready a =? sc_next a)%nat && match sc_subs a with [] => true | _ => false end) eqn:C; [|exact Base].
  apply andb_prop in C. destruct C as (C1 & C2). apply Nat.eqb_eq in C1. destruct (sc_subs a) as [|? ?] eqn:Es; [|discriminate]. cbn [app]. destruct (consecutive k (sc_last a) (map (rec_of k (sc_next a)) l)) as [t|] eqn:Ec; [|exact Base].
  destruct (consecutive_ok _ _ _ _ _ H3 Ec) as (Et & Eo). assert (F : insides (firstn (S (sc_ready a)) (q_in s)) = insides (firstn (sc_ready a) (q_in s)) ++ l).
  { rewrite C1, (firstn_S_nth _ _ _ Hn), insides_app. unfold insides at 2. cbn. rewrite app_nil_r. reflexivity. }
  split; cbn [with_sc sc_next sc_ready sc_subs sc_last sc_emit q_in q_next q_ready q_subs q_last q_out q_emit q_sent q_over].
  - constructor.
  - lia.
  - exact Et.
  - exact (Eo H4).
  - exists lo. rewrite Hsk. cbn [map app] in *. rewrite <- !app_assoc in *. exact H5.
  - exists segs, cur, lost. split; [exact S1|]. split; [exact S2|]. rewrite F. split; [|split; [exact S4|]].
    + rewrite <- S3. rewrite <- !app_assoc. do 3 apply Permutation_app_head. apply Permutation_app_comm.
    + intros T O. rewrite (S5 T O), <- !app_assoc. reflexivity.
Qed.
Lemma scan_inv st A s bufs : forall a a' stop, inv st A (with_sc s a) -> skipn (sc_next a) (q_in s) = bufs -> scan k bufs a = (a', stop) ->
  inv st A (with_sc s a') /\ (stop = ScanEof -> sc_next a' = O /\ exists r, q_in s = SEof :: r) /\ (sc_next a <= sc_next a')%nat /\
  (stop = ScanFlush -> nth_error (q_in s) (sc_next a') = Some SEof /\ sc_next a' <> O) /\ (stop = ScanDone -> sc_next a' = length (q_in s)).
Proof.
  induction bufs as [|b bufs IH]; intros a a' stop H Hb E; cbn [scan] in E.
  - injection E as <- <-. split; [exact H|]. split; [discriminate|]. split; [lia|]. split; [discriminate|]. intros _. destruct H as [_ Hn _ _ _ _]. cbn in Hn. assert (L := skipn_length (sc_next a) (q_in s)). rewrite Hb in L. cbn [length] in L. lia.
  - destruct b as [|l].
    + injection E as <- <-. split; [exact H|]. split; [|split; [lia|split]].
      * destruct (Nat.eqb_spec (sc_next a) 0) as [Z|Z]; [|discriminate]. intros _. split; [exact Z|]. rewrite Z in Hb. exists bufs. exact Hb.
      * destruct (Nat.eqb_spec (sc_next a) 0) as [Z|Z]; [discriminate|]. intros _. split; [|exact Z]. rewrite <- (Nat.add_0_r (sc_next a)), <- nth_error_skipn, Hb. reflexivity.
      * destruct (sc_next a =? 0)%nat; discriminate.
    + assert (Hn : nth_error (q_in s) (sc_next a) = Some (SBuf l)). { rewrite <- (Nat.add_0_r (sc_next a)), <- nth_error_skipn, Hb. reflexivity. }
      assert (Nx : sc_next (scan_one k l a) = S (sc_next a)). { unfold scan_one. destruct ((sc_ready a =? sc_next a)%nat && match sc_subs a with [] => true | _ => false end); [|reflexivity]; destruct (consecutive _ _ _); reflexivity. }
      destruct (IH (scan_one k l a) a' stop (scan_one_inv st A s a l bufs H Hb)) as (I1 & I2 & I3 & I4 & I5); [rewrite Nx; rewrite (skipn_cons_nth _ _ _ Hn) in Hb; congruence|exact E|].
      split; [exact I1|]. split; [exact I2|]. split; [lia|]. split; [exact I4|exact I5].
Qed.

(* fSubs in another order *)
Definition set_subs (s : sorter) (l : list srec) : sorter := mkS (q_in s) (q_next s) (q_ready s) l (q_last s) (q_out s) (q_cnt s) (q_arr s) (q_emit s) (q_sent s) (q_over s).
Lemma subs_inv st A s l : Permutation l (q_subs s) -> inv st A s -> inv st A (set_subs s l).
Proof.
  intros P [H1 H2 H3 H4 (lo & H5) H6]. split; auto; cbn [set_subs q_in q_next q_subs q_emit].
  - exact (Permutation_Forall (Permutation_sym P) H1).
  - exists lo. rewrite <- H5. apply Permutation_app_head, Permutation_app_tail, Permutation_map. exact P.
Qed.

(* removing buffers *)
Lemma dec_perm n l : exists lost, Permutation (map r_item (dec_subs n l) ++ lost) (map r_item l).
Proof.
  induction l as [|r l (lost & IH)]; [exists []; constructor|]. unfold dec_subs in *. cbn [filter]. destruct (n <=? r_buf r)%nat.
  - exists lost. cbn [map r_item app]. constructor. exact IH.
  - exists (r_item r :: lost). cbn [map]. rewrite <- IH. symmetry. apply Permutation_middle.
Qed.
Lemma dec_rok n m l : Forall (rok n) l -> Forall (rok (n - m)) (dec_subs m l).
Proof.
  intros F. unfold dec_subs. apply Forall_map, Forall_forall. intros r Hr. apply filter_In in Hr. destruct Hr as (Hr & Hm). apply Nat.leb_le in Hm. destruct (proj1 (Forall_forall _ _) F r Hr) as (Q1 & Q2). split; [exact Q1|]. cbn [r_buf]. lia.
Qed.
Lemma has_out_false s (cur : list item) : match q_out s with Some (cap, b) => b = enc_subs (map snd cur) /\ lenN b <= cap | None => cur = [] end -> has_out s = false -> cur = [].
Proof.
  unfold has_out. destruct (q_out s) as [(cap, b)|]; [|auto]. intros (-> & _). destruct (enc_subs (map snd cur)) eqn:E; [|discriminate]. intros _. apply enc_subs_nil in E. destruct cur; [reflexivity|discriminate].
Qed.
Lemma pass_inv st A s b r : inv st A s -> q_in s = b :: r -> (q_next s = O -> b = SEof) -> ((0 < q_next s)%nat -> (0 < q_ready s)%nat) -> inv st A (pass_on s b r).
Proof.
  intros [H1 H2 H3 H4 (lo & H5) (segs & cur & lost & S1 & S2 & S3 & S4 & S5)] Hq H0 Hr.
  assert (Hsk : insides (skipn (q_next s) (q_in s)) = insides (skipn (q_next s - 1) r)).
  { rewrite Hq. destruct (q_next s) as [|n] eqn:En; [rewrite (H0 eq_refl); reflexivity|]. cbn [skipn]. f_equal. f_equal. lia. }
  assert (Hfi : insides (firstn (q_ready s) (q_in s)) = inside b ++ insides (firstn (q_ready s - 1) r)).
  { rewrite Hq. destruct (q_ready s) as [|n] eqn:En.
    - destruct (q_next s) as [|m]; [rewrite (H0 eq_refl); reflexivity|]. specialize (Hr ltac:(lia)). lia.
    - cbn [firstn]. unfold insides at 1. cbn [map concat]. f_equal. unfold insides. do 3 f_equal. lia. }
  rewrite Hfi in *. rewrite Hsk in H5. rewrite Hq in H2. cbn [length] in H2.
  split; cbn [pass_on q_in q_next q_ready q_subs q_last q_out q_emit q_sent q_over].
  - apply dec_rok. exact H1.
  - lia.
  - exact H3.
  - exact H4.
  - destruct (dec_perm 1 (q_subs s)) as (l2 & P). exists (l2 ++ lo). rewrite <- H5, <- P, <- !app_assoc. do 2 apply Permutation_app_head. rewrite !app_assoc. apply Permutation_app_tail, Permutation_app_comm.
  - exists (segs ++ [inside b]), cur, lost. split; [|split; [exact S2|split; [|split; [exact S4|]]]].
    + apply Forall2_app; [exact S1|]. constructor; [|constructor]. destruct b; reflexivity.
    + rewrite <- S3, concat_app. cbn [concat]. rewrite app_nil_r, <- !app_assoc. apply Permutation_app_head. rewrite !app_assoc. do 2 apply Permutation_app_tail. apply Permutation_app_comm.
    + intros T O. apply orb_false_iff in O. destruct O as (O1 & O2). rewrite (S5 T O1), concat_app. cbn [concat]. rewrite (has_out_false s cur S2 O2). rewrite !app_nil_r, <- !app_assoc. reflexivity.
Qed.

(* filling the output buffer *)
Lemma copy_ok gaps l : forall room E n g t f nn, Forall (rok nn) l -> ordered E -> copy k gaps room (lastn E) l = (n, g, t, f) ->
  (n <= length l)%nat /\ (exists late, Permutation (g ++ late) (map r_item (firstn n l))) /\ t = lastn (E ++ g) /\ ordered (E ++ g) /\ lenN (enc_subs (map snd g)) <= room.
Proof.
  induction l as [|r l IH]; intros room E n g t f nn F O H; cbn [copy] in H.
  - injection H as <- <- <- <-. rewrite app_nil_r. split; [cbn; lia|]. split; [exists []; constructor|]. split; [reflexivity|]. split; [exact O|]. cbn. lia.
  - inversion F as [|? ? (R1 & R2) F2]; subst. cbv zeta in H. set (d := (if lastn E =? none then 1%Z else diff k (lastn E) (r_trig r))) in H.
    assert (Stop : forall b, (0%nat, [], lastn E, b) = (n, g, t, f) -> (n <= length (r :: l))%nat /\ (exists late, Permutation (g ++ late) (map r_item (firstn n (r :: l)))) /\ t = lastn (E ++ g) /\ ordered (E ++ g) /\ lenN (enc_subs (map snd g)) <= room).
    { intros b Q. injection Q as <- <- <- <-. rewrite app_nil_r. split; [cbn; lia|]. split; [exists []; constructor|]. split; [reflexivity|]. split; [exact O|]. cbn. lia. }
    destruct (negb (d =? 1)%Z && (d <? 0)%Z) eqn:C1.
    { destruct (copy k gaps room (lastn E) l) as [[[n1 g1] t1] f1] eqn:Ec. injection H as <- <- <- <-. destruct (IH _ _ _ _ _ _ _ F2 O Ec) as (I1 & (late & I2) & I3 & I4 & I5). split; [cbn; lia|]. split; [|auto].
      exists (r_item r :: late). cbn [firstn map]. rewrite <- I2. symmetry. apply Permutation_middle. }
    destruct (negb (d =? 1)%Z && negb (gaps r)) eqn:C2; [exact (Stop _ H)|].
    destruct (room <? r_sz r) eqn:C3; [exact (Stop _ H)|].
    assert (On : ordered (E ++ [r_item r])).
    { apply ordered_snoc; [exact O|]. intros Q. assert (Z : lastn E <> none) by (intros Z; apply lastn_none in Z; contradiction). rewrite <- R1. assert (Ed : d = diff k (lastn E) (r_trig r)) by (unfold d; apply N.eqb_neq in Z; rewrite Z; reflexivity). rewrite Ed in C1. clear - C1. destruct (Z.eqb_spec (diff k (lastn E) (r_trig r)) 1) as [->|_]; [lia|]. cbn [negb andb] in C1. lia. }
    destruct (copy k gaps (room - r_sz r) (r_trig r) l) as [[[n1 g1] t1] f1] eqn:Ec. injection H as <- <- <- <-.
    assert (Et : r_trig r = lastn (E ++ [r_item r])) by (rewrite lastn_snoc; exact R1). rewrite Et in Ec.
    destruct (IH _ _ _ _ _ _ _ F2 On Ec) as (I1 & (late & I2) & I3 & I4 & I5). rewrite <- app_assoc in I3, I4. cbn [app] in I3, I4. split; [cbn; lia|]. split; [exists late; cbn [firstn map app]; constructor; exact I2|]. split; [exact I3|]. split; [exact I4|].
    unfold enc_subs in *. cbn [map concat]. rewrite lenN_app. unfold r_sz in *. lia.
Qed.
Lemma fold_max_lt l n d : Forall (fun r => (r_buf r < n)%nat) l -> (d < n)%nat -> (fold_right (fun r m => Nat.max (r_buf r) m) d l < n)%nat.
Proof. induction 1; intros Hd; cbn [fold_right]; [exact Hd|]. specialize (IHForall Hd). lia. Qed.
Lemma fold_min_le l d : (fold_right (fun r m => Nat.min (r_buf r) m) d l <= d)%nat /\ Forall (fun r => (fold_right (fun r m => Nat.min (r_buf r) m) d l <= r_buf r)%nat) l.
Proof. induction l as [|r l (I1 & I2)]; cbn [fold_right]; [auto|]. split; [lia|]. constructor; [lia|]. eapply Forall_impl; [|exact I2]. cbn. intros x Hx. lia. Qed.
Lemma remove_ok n l nn om l' : Forall (rok nn) l -> (n <= length l)%nat -> remove_used n l = (om, l') ->
  match om with
  | None => l' = skipn n l
  | Some m => (1 <= m <= nn)%nat /\ l' = map (fun r => mkR (r_item r) (r_trig r) (r_buf r - m)) (skipn n l) /\ Forall (fun r => (m <= r_buf r)%nat) (skipn n l)
  end.
Proof.
  intros F Hn H. unfold remove_used in H. destruct n as [|n]; [injection H as <- <-; reflexivity|]. destruct (length l <=? S n)%nat eqn:C.
  - injection H as <- <-. apply Nat.leb_le in C. rewrite skipn_all2 by lia. split; [|auto]. destruct l as [|r l]; [cbn in Hn; lia|]. split; [lia|].
    assert (Q : (fold_right (fun r m => Nat.max (r_buf r) m) 0 (r :: l) < nn)%nat).
    { apply fold_max_lt; [eapply Forall_impl; [|exact F]; intros x (_ & Q); exact Q|]. destruct (Forall_inv F) as (_ & Q). lia. }
    lia.
  - apply Nat.leb_gt in C. assert (Fs : Forall (rok nn) (skipn (S n) l)) by (apply Forall_forall; intros x Hx; apply (proj1 (Forall_forall _ _) F); exact (in_skipn _ _ _ Hx)).
    set (rest := skipn (S n) l) in *. destruct rest as [|r t] eqn:Er; [assert (L := skipn_length (S n) l); fold rest in L; rewrite Er in L; cbn in L; lia|].
    destruct (fold_min_le t (r_buf r)) as (Q1 & Q2). destruct (fold_right _ _ _) as [|m] eqn:Em; injection H as <- <-; [reflexivity|].
    assert (Fm : Forall (fun r => (S m <= r_buf r)%nat) (r :: t)) by (constructor; [exact Q1|exact Q2]). destruct (Forall_inv Fs) as (_ & Q3). split; [lia|]. split; [|exact Fm].
    unfold dec_subs. f_equal. revert Fm. generalize (r :: t). clear. intros u Fm. induction Fm as [|x u Hx Fu IH]; [reflexivity|]. cbn [filter]. destruct (Nat.leb_spec (S m) (r_buf x)); [|lia]. f_equal. exact IH.
Qed.
Lemma send_out_inv st A s : inv st A s -> inv st A (send_out s).
Proof.
  intros I. unfold send_out. destruct (q_out s) as [(cap, [|b0 b])|] eqn:Eo; [exact I| |exact I]. destruct I as [H1 H2 H3 H4 H5 (segs & cur & lost & S1 & S2 & S3 & S4 & S5)]. rewrite Eo in S2. split; auto; cbn [q_in q_next q_ready q_subs q_last q_out q_emit q_sent q_over].
  exists (segs ++ [cur]), [], lost. split; [apply Forall2_app; [exact S1|]; constructor; [exact (proj1 S2)|constructor]|]. split; [reflexivity|]. rewrite concat_app. cbn [concat]. rewrite app_nil_r, <- !app_assoc. cbn [app]. auto.
Qed.
Lemma send_out_rest s : let t := send_out s in q_in t = q_in s /\ q_next t = q_next s /\ q_ready t = q_ready s /\ q_subs t = q_subs s /\ q_last t = q_last s /\ q_emit t = q_emit s /\ q_arr t = q_arr s /\ q_over t = q_over s.
Proof. cbv zeta. unfold send_out. destruct (q_out s) as [(cap, [|b0 b])|]; repeat split. Qed.
Lemma fill_inv st A e eof s : inv st A s -> (st = true -> q_ready s = O) -> inv st A (fst (fill_out k e eof s)).
Proof.
  intros I Hst. unfold fill_out. destruct (match q_out s with Some o => Some o | None => match e_buf e with Some c => Some (c, []) | None => None end end) as [(cap, b)|] eqn:Eb; [|exact I].
  destruct I as [H1 H2 H3 H4 (lo & H5) (segs & cur & lost & S1 & S2 & S3 & S4 & S5)].
  assert (Sb : b = enc_subs (map snd cur) /\ lenN b <= cap). { destruct (q_out s) as [o|]; [injection Eb as ->; exact S2|]. subst cur. destruct (e_buf e) as [c|]; [|discriminate]. injection Eb as <- <-. split; [reflexivity|cbn; lia]. }
  destruct Sb as (Sb & Sc). rewrite H3. destruct (copy _ _ _ _ _) as [[[n g] t] f] eqn:Ec. destruct (copy_ok _ _ _ _ _ _ _ _ _ H1 H4 Ec) as (C1 & (late & C2) & C3 & C4 & C5).
  cbv zeta. set (s1 := mkS _ _ _ _ _ _ _ _ _ _ _).
  assert (Q1 : Forall2 holds (q_sent s1) segs /\ match q_out s1 with Some (cap, b) => b = enc_subs (map snd (cur ++ g)) /\ lenN b <= cap | None => cur ++ g = [] end /\
     Permutation (concat segs ++ (cur ++ g) ++ insides (firstn (q_ready s1) (q_in s1)) ++ lost) (q_emit s1) /\ (st = true -> lost = []) /\ (st = true -> q_over s1 = false -> q_emit s1 = concat segs ++ (cur ++ g) ++ insides (firstn (q_ready s1) (q_in s1)))).
  { unfold s1. cbn [q_in q_ready q_out q_emit q_sent q_over]. split; [exact S1|]. split; [|split; [|split; [exact S4|]]].
    - split; [unfold enc_subs in *; rewrite !map_app, concat_app, Sb; reflexivity|]. rewrite lenN_app. lia.
    - rewrite <- S3, <- !app_assoc. do 2 apply Permutation_app_head. rewrite (app_assoc (insides _)). apply Permutation_app_comm.
    - intros T O. rewrite (S5 T O), (Hst T). cbn [firstn]. unfold insides. cbn. rewrite !app_nil_r, <- !app_assoc. reflexivity. }
  assert (Q2 : exists segs cur, Forall2 holds (q_sent (if eof || f || e_full e then send_out s1 else s1)) segs /\ match q_out (if eof || f || e_full e then send_out s1 else s1) with Some (cap, b) => b = enc_subs (map snd cur) /\ lenN b <= cap | None => cur = [] end /\
     Permutation (concat segs ++ cur ++ insides (firstn (q_ready s1) (q_in s1)) ++ lost) (q_emit s1) /\ (st = true -> lost = []) /\ (st = true -> q_over s1 = false -> q_emit s1 = concat segs ++ cur ++ insides (firstn (q_ready s1) (q_in s1)))).
  { destruct (eof || f || e_full e); [|exists segs, (cur ++ g); exact Q1]. unfold send_out. destruct (q_out s1) as [(cp, [|b0 bs])|] eqn:E1; [exists segs, (cur ++ g); rewrite E1; exact Q1| |exists segs, (cur ++ g); rewrite E1; exact Q1].
    destruct Q1 as (T1 & T2 & T3 & T4 & T5). exists (segs ++ [cur ++ g]), []. cbn [q_sent q_out]. split; [apply Forall2_app; [exact T1|]; constructor; [exact (proj1 T2)|constructor]|]. split; [reflexivity|]. rewrite concat_app. cbn [concat]. rewrite app_nil_r. rewrite <- !app_assoc in *. cbn [app]. auto. }
  assert (R := send_out_rest s1). cbv zeta in R.
  assert (R' : let t := if eof || f || e_full e then send_out s1 else s1 in q_in t = q_in s /\ q_next t = q_next s /\ q_ready t = q_ready s /\ q_subs t = q_subs s /\ q_last t = lastn (q_emit s ++ g) /\ q_emit t = q_emit s ++ g /\ q_over t = q_over s).
  { cbv zeta. destruct (eof || f || e_full e); [|unfold s1; cbn; repeat split; exact C3]. destruct R as (R1 & R2 & R3 & R4 & R5 & R6 & _ & R7). rewrite R1, R2, R3, R4, R5, R6, R7. unfold s1. cbn [q_in q_next q_ready q_subs q_last q_emit q_over]. repeat split. exact C3. }
  clear R. set (s2 := if eof || f || e_full e then send_out s1 else s1) in *. cbv zeta in R'. destruct R' as (R1 & R2 & R3 & R4 & R5 & R6 & R7). clearbody s2.
  change (q_ready s1) with (q_ready s) in Q2. change (q_in s1) with (q_in s) in Q2. change (q_emit s1) with (q_emit s ++ g) in Q2. change (q_over s1) with (q_over s) in Q2. destruct Q2 as (sg & cr & T1 & T2 & T3 & T4 & T5).
  rewrite R4. destruct (remove_used n (q_subs s)) as [om l'] eqn:Er. assert (Rm := remove_ok _ _ _ _ _ H1 C1 Er).
  assert (Fs : Forall (rok (q_next s)) (skipn n (q_subs s))) by (apply Forall_forall; intros x Hx; apply (proj1 (Forall_forall _ _) H1); exact (in_skipn _ _ _ Hx)).
  assert (Pm : forall X, map r_item X = map r_item (skipn n (q_subs s)) -> Permutation ((q_emit s ++ g) ++ map r_item X ++ insides (skipn (q_next s) (q_in s)) ++ late ++ lo) A).
  { intros X EX. rewrite <- H5, EX. rewrite <- (firstn_skipn n (q_subs s)) at 2. rewrite map_app, <- C2, <- !app_assoc. do 2 apply Permutation_app_head. rewrite !app_assoc. apply Permutation_app_tail. symmetry. rewrite <- !app_assoc. rewrite (app_assoc (map r_item (skipn n (q_subs s))) _ late). apply Permutation_app_comm with (l := late). }
  destruct om as [m|]; cbn [fst].
  - destruct Rm as (Hm & -> & Fm). split; cbn [q_in q_next q_ready q_subs q_last q_out q_emit q_sent q_over]; rewrite ?R1, ?R2, ?R3, ?R5, ?R6, ?R7.
    + apply Forall_map, Forall_forall. intros r Hr. destruct (proj1 (Forall_forall _ _) Fs r Hr) as (A1 & A2). assert (A3 := proj1 (Forall_forall _ _) Fm r Hr). cbn in A3. split; [exact A1|]. cbn [r_buf]. lia.
    + rewrite skipn_length. lia.
    + reflexivity.
    + exact C4.
    + exists (late ++ lo). rewrite skipn_skipn. replace (m + (q_next s - m))%nat with (q_next s) by lia. apply Pm. rewrite map_map. reflexivity.
    + assert (Fi : insides (firstn (q_ready s) (q_in s)) = insides (firstn (Nat.min m (q_ready s)) (q_in s)) ++ insides (firstn (q_ready s - m) (skipn m (q_in s)))).
      { rewrite <- insides_app. f_equal. destruct (Nat.le_gt_cases (q_ready s) m) as [L|L].
        - rewrite Nat.min_r by lia. replace (q_ready s - m)%nat with O by lia. cbn [firstn]. rewrite app_nil_r. reflexivity.
        - rewrite Nat.min_l by lia. replace (q_ready s) with (m + (q_ready s - m))%nat at 1 by lia. rewrite <- (firstn_skipn m (q_in s)) at 1. rewrite firstn_app. assert (Lm : length (firstn m (q_in s)) = m) by (rewrite firstn_length; lia). rewrite Lm. rewrite (firstn_all2 (firstn m (q_in s))) by lia. do 2 f_equal. lia. }
      rewrite Fi in T3, T5. exists sg, cr, (insides (firstn (Nat.min m (q_ready s)) (q_in s)) ++ lost). split; [exact T1|]. split; [exact T2|]. split; [|split].
      * rewrite <- T3. do 2 apply Permutation_app_head. rewrite !app_assoc. apply Permutation_app_tail, Permutation_app_comm.
      * intros T. rewrite (Hst T), Nat.min_0_r. rewrite (T4 T). reflexivity.
      * intros T O. rewrite (T5 T O). rewrite (Hst T), Nat.min_0_r. reflexivity.
  - split; cbn [q_in q_next q_ready q_subs q_last q_out q_emit q_sent q_over]; rewrite ?R1, ?R2, ?R3, ?R5, ?R6, ?R7.
    + rewrite Rm. exact Fs.
    + exact H2.
    + reflexivity.
    + exact C4.
    + exists (late ++ lo). apply Pm. rewrite Rm. reflexivity.
    + exists sg, cr, lost. auto.
Qed.

Definition env_ok (st : bool) (e : env) : Prop := sorts k (e_sort e) /\ (st = true -> e_can1 e = e_can2 e).
Lemma retransmit_inv st A e s s1 b : env_ok st e -> inv st A s -> retransmit k e s = Ok (s1, b) -> inv st A s1.
Proof.
  intros (He & Hst) I H. unfold retransmit in H. destruct (scan _ _ _) as [a stop] eqn:Es.
  assert (I0 : inv st A (with_sc s (mkSc (q_next s) (q_ready s) (q_subs s) (q_last s) (q_emit s) false))) by (destruct s; exact I).
  destruct (scan_inv st A s _ _ _ _ I0 eq_refl Es) as (J & J1 & J2 & J3 & J4). clear I0 Es.
  assert (Eof : stop = ScanEof -> forall b0, match q_in s with b :: r => pass_on (with_sc s a) b r | [] => with_sc s a end = b0 -> inv st A b0).
  { intros E b0 <-. destruct (J1 E) as (N0 & r & Er). rewrite Er. apply pass_inv; [exact J|exact Er|reflexivity|]. cbn. lia. }
  assert (Rest : stop <> ScanEof -> (do subs <- (if sc_new a then if weak_order k (sc_subs a) then Ok (e_sort e (sc_subs a)) else UB else Ok (sc_subs a));
      match q_in s with
      | b :: r => if (0 <? sc_ready a)%nat && e_can1 e then Ok (pass_on (set_subs (with_sc s a) subs) b r, true)
                  else if e_can2 e then Ok (fill_out k e (match stop with ScanFlush => true | _ => false end) (set_subs (with_sc s a) subs)) else Ok (set_subs (with_sc s a) subs, false)
      | [] => if e_can2 e then Ok (fill_out k e false (set_subs (with_sc s a) subs)) else Ok (set_subs (with_sc s a) subs, false)
      end) = Ok (s1, b) -> inv st A s1).
  { clear H. intros Hs H. destruct (if sc_new a then if weak_order k (sc_subs a) then Ok (e_sort e (sc_subs a)) else UB else Ok (sc_subs a)) as [subs| |] eqn:Eb; cbn [bind] in H; [|discriminate|discriminate].
    assert (P : Permutation subs (sc_subs a)). { destruct (sc_new a); [|injection Eb as <-; reflexivity]. destruct (weak_order k (sc_subs a)) eqn:Ew; [|discriminate]. injection Eb as <-. apply He. exact Ew. }
    assert (K := subs_inv st A (with_sc s a) subs P J). set (s2 := set_subs (with_sc s a) subs) in *.
    destruct (q_in s) as [|b0 r] eqn:Eq.
    - destruct (e_can2 e) eqn:Ec; injection H as H _ || (injection H as H); [|congruence]. subst s1 || idtac.
      assert (Q : inv st A (fst (fill_out k e false s2))). { apply fill_inv; [exact K|]. intros _. destruct K as [_ K2 _ _ _ _]. unfold s2 in *. cbn [set_subs with_sc q_in q_ready q_next] in *. rewrite Eq in K2. cbn in K2. lia. }
      rewrite H in Q. exact Q.
    - destruct ((0 <? sc_ready a)%nat && e_can1 e) eqn:C.
      + assert (s1 = pass_on s2 b0 r) by congruence. subst s1. apply andb_prop in C. destruct C as (C & _). apply Nat.ltb_lt in C. apply pass_inv; [exact K|unfold s2; cbn; exact Eq| |].
        * unfold s2. cbn. intros Z. destruct K as [_ K2 _ _ _ _]. unfold s2 in K2. cbn in K2. lia.
        * unfold s2. cbn. intros _. exact C.
      + destruct (e_can2 e) eqn:Ec; [|congruence]. injection H as H.
        assert (Q : inv st A (fst (fill_out k e (match stop with ScanFlush => true | _ => false end) s2))). { apply fill_inv; [exact K|]. intros T. rewrite (Hst T), andb_true_r in C. apply Nat.ltb_ge in C. unfold s2. cbn. lia. }
        rewrite H in Q. exact Q. }
  destruct stop; [apply Rest; [discriminate|exact H]|apply Rest; [discriminate|exact H]|]. destruct (e_can1 e).
  - injection H as H _. exact (Eof eq_refl s1 H).
  - injection H as <- _. exact J.
Qed.

Lemma push_inv st A s b n : inv st A s -> inv st (A ++ inside b) (mkS (q_in s ++ [b]) (q_next s) (q_ready s) (q_subs s) (q_last s) (q_out s) (q_cnt s) n (q_emit s) (q_sent s) (q_over s)).
Proof.
  intros [H1 H2 H3 H4 (lo & H5) (segs & cur & lost & S1 & S2 & S3 & S4 & S5)]. split; auto; cbn [q_in q_next q_ready q_subs q_last q_out q_emit q_sent q_over].
  - rewrite app_length. cbn. lia.
  - exists lo. rewrite skipn_app. replace (q_next s - length (q_in s))%nat with O by lia. cbn [skipn]. rewrite insides_app. unfold insides at 2. cbn [map concat]. rewrite app_nil_r. rewrite <- H5. rewrite <- !app_assoc. do 3 apply Permutation_app_head. apply Permutation_app_comm.
  - rewrite firstn_app. replace (q_ready s - length (q_in s))%nat with O by lia. cbn [firstn]. rewrite app_nil_r. exists segs, cur, lost. auto.
Qed.
Lemma timer_inv st A s can : inv st A s -> inv st A (timer can s).
Proof.
  intros I. unfold timer. destruct (negb can); [exact I|]. set (s1 := mkS _ _ _ _ _ _ _ _ _ _ _). assert (I1 : inv st A s1) by (destruct s, I; split; auto). clearbody s1. destruct (2 <? q_cnt s1)%Z; [exact I1|]. apply send_out_inv. exact I1.
Qed.
Definition act_ok (st : bool) (a : sact) : Prop := match a with ACall e => env_ok st e | _ => True end.
Lemma send_out_arr s : q_arr (send_out s) = q_arr s.
Proof. apply send_out_rest. Qed.
Lemma fill_arr e eof s : q_arr (fst (fill_out k e eof s)) = q_arr s.
Proof.
  unfold fill_out. destruct (match q_out s with Some o => Some o | None => match e_buf e with Some c => Some (c, []) | None => None end end) as [(cap, b)|]; [|reflexivity].
  destruct (copy _ _ _ _ _) as [[[n g] t] f]. cbv zeta. destruct (remove_used n _) as [[m|] l']; cbn [fst q_arr]; destruct (eof || f || e_full e); rewrite ?send_out_arr; reflexivity.
Qed.
Lemma retransmit_arr e s s1 b : retransmit k e s = Ok (s1, b) -> q_arr s1 = q_arr s.
Proof.
  intros H. unfold retransmit in H. destruct (scan _ _ _) as [a stop]. cbn zeta in H.
  assert (R : forall eof s0, q_arr s0 = q_arr s -> forall x, Ok (fill_out k e eof s0) = Ok x -> q_arr (fst x) = q_arr s) by (intros eof s0 E x Q; injection Q as <-; rewrite fill_arr; exact E).
  destruct stop.
  1, 2: destruct (if sc_new a then if weak_order k (sc_subs a) then Ok (e_sort e (sc_subs a)) else UB else Ok (sc_subs a)) as [subs| |]; cbn [bind] in H; [|discriminate|discriminate]; cbn [q_in q_ready] in H;
    destruct (q_in s); [|destruct ((0 <? sc_ready a)%nat && e_can1 e); [injection H as <- _; reflexivity|]]; (destruct (e_can2 e); [match type of H with Ok (fill_out _ _ ?eo ?ss) = _ => exact (R eo ss eq_refl (s1, b) H) end|injection H as <- _; reflexivity]).
  destruct (e_can1 e); injection H as <- _; [destruct (q_in s)|]; reflexivity.
Qed.
Lemma step_inv st A s a s1 : act_ok st a -> inv st A s -> step k s a = Ok s1 ->
  inv st (A ++ insides (arriving (q_arr s) [a])) s1 /\ forall l, arriving (q_arr s) (a :: l) = arriving (q_arr s) [a] ++ arriving (q_arr s1) l.
Proof.
  intros Ha I H. destruct a as [[x|]|e|can]; cbn [step] in H.
  - injection H as <-. cbn [arriving]. split; [|reflexivity]. unfold insides. cbn [map concat inside]. rewrite app_nil_r. apply (push_inv st A s (SBuf _)). exact I.
  - injection H as <-. cbn [arriving]. split; [|reflexivity]. apply (push_inv st A s SEof). exact I.
  - destruct (retransmit k e s) as [[s2 b]| |] eqn:E; cbn [bind] in H; [|discriminate|discriminate]. injection H as <-. cbn [fst]. split; [cbn; rewrite app_nil_r; exact (retransmit_inv _ _ _ _ _ _ Ha I E)|]. intros l. rewrite (retransmit_arr _ _ _ _ E). reflexivity.
  - injection H as <-. split; [cbn; rewrite app_nil_r; apply timer_inv; exact I|]. intros l. cbn [arriving app]. f_equal. unfold timer. destruct (negb can); [reflexivity|]. cbn [q_cnt]. destruct (2 <? q_cnt s - 1)%Z; [reflexivity|]. rewrite send_out_arr. reflexivity.
Qed.
Lemma run_inv st l : forall A s s1, Forall (act_ok st) l -> inv st A s -> run k s l = Ok s1 -> inv st (A ++ insides (arriving (q_arr s) l)) s1.
Proof.
  induction l as [|a l IH]; intros A s s1 F I H; cbn [run] in H; [injection H as <-; cbn; rewrite app_nil_r; exact I|]. inversion F as [|? ? Fa Fl]; subst.
  destruct (step k s a) as [s2| |] eqn:E; cbn [bind] in H; [|discriminate|discriminate]. destruct (step_inv _ _ _ _ _ Fa I E) as (I2 & Ar). rewrite Ar, insides_app, app_assoc. exact (IH _ _ _ Fl I2 H).
Qed.
Lemma new_inv st : inv st [] sorter_new.
Proof. split; [constructor|cbn; lia|reflexivity|exact I|exists []; reflexivity|]. exists [], [], []. split; [constructor|]. split; [reflexivity|]. split; [reflexivity|]. split; reflexivity. Qed.

(* the arrival numbers are different *)
Lemma arriving_ids l : forall n, map fst (insides (arriving n l)) = seq n (length (insides (arriving n l))).
Proof.
  induction l as [|[[x|]|e|can] l IH]; intros n; cbn [arriving]; [reflexivity| |exact (IH n)|exact (IH n)|exact (IH n)].
  unfold insides. cbn [map concat inside]. fold (insides (arriving (n + length x) l)). assert (Lc : @length item (combine (seq n (length x)) x) = length x) by (etransitivity; [apply combine_length|]; rewrite seq_length; apply Nat.min_id).
  rewrite map_app, app_length, seq_app, Lc, IH. f_equal.
  clear. revert n. induction x as [|a x IH]; intros n; [reflexivity|]. cbn. f_equal. apply IH.
Qed.
Lemma arriving_nodup l : NoDup (insides (arriving 0 l)).
Proof. apply (NoDup_map_inv fst). rewrite arriving_ids. apply seq_NoDup. Qed.
End S.
