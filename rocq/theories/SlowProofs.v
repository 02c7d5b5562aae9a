(* Slow control data: what is written is what is read. *)
From Verif Require Import Common ListFacts Bytes WordMem DecStr SlowSpec SlowModel.
Open Scope N_scope.

Definition vals (l : list N) : bytes := concat (map (le 8) l).
Definition names (l : list bytes) : bytes := concat (map (fun n => n ++ [0]) l).
Lemma lenN_vals l : lenN (vals l) = 8 * lenN l.
Proof. induction l as [|v l IH]; [reflexivity|]. unfold vals in *. cbn [map concat]. rewrite lenN_app, lenN_le, lenN_cons, IH. lia. Qed.
Lemma append_names_at l : append_names l = names l.
Proof.
  unfold append_names, names. assert (G : forall a, fold_left (fun d n => (d ++ n) ++ [0]) l a = a ++ concat (map (fun n => n ++ [0]) l)); [|apply G].
  induction l as [|n l IH]; intros a; [cbn; rewrite app_nil_r; reflexivity|]. cbn [fold_left map concat]. rewrite IH, <- !app_assoc. reflexivity.
Qed.
Lemma setb_over a r o d : lenN a = o -> lenN d <= lenN r -> setb (a ++ r) o d = Ok (a ++ d ++ dropN (lenN d) r).
Proof.
  intros E L. destruct (split_at r (lenN d) L) as (x & y & -> & Lx). rewrite (setb_at a x y o d E (eq_sym Lx)). rewrite dropN_app by (symmetry; exact Lx). reflexivity.
Qed.
Lemma put_vals_at l : forall a r o, lenN a = o -> 8 * lenN l <= lenN r -> put_vals (a ++ r) o l = Ok (a ++ vals l ++ dropN (8 * lenN l) r, o + 8 * lenN l).
Proof.
  induction l as [|v l IH]; intros a r o E L.
  - cbn [put_vals]. change (lenN (@nil N)) with 0. rewrite N.mul_0_r, dropN_0, N.add_0_r. reflexivity.
  - rewrite lenN_cons in *. cbn [put_vals]. rewrite setb_over by (rewrite ?lenN_le; lia). cbn [bind]. rewrite lenN_le. rewrite app_assoc. rewrite IH.
    + rewrite <- app_assoc. unfold vals. cbn [map concat]. rewrite <- !app_assoc. rewrite dropN_dropN. f_equal. f_equal; [|lia]. do 4 f_equal. lia.
    + rewrite lenN_app, lenN_le. lia.
    + rewrite lenN_dropN. lia.
Qed.

Definition counts (s : slow) : bytes :=
  ((dec (lenN (s_lnames s)) ++ [32; 0]) ++ names (s_lnames s)) ++ (dec (lenN (s_dnames s)) ++ [32; 0]) ++ names (s_dnames s).
Definition enc (s : slow) : bytes :=
  le 4 (s_id s) ++ le 4 (s_time s) ++ le 8 (lenN (s_lvals s)) ++ vals (s_lvals s) ++ le 8 (lenN (s_dvals s)) ++ vals (s_dvals s) ++ descriptor s.
Definition full (s : slow) : N := 24 + 8 * lenN (s_lvals s) + 8 * lenN (s_dvals s) + lenN (descriptor s).
Lemma lenN_enc s : lenN (enc s) = full s.
Proof. unfold enc, full. rewrite !lenN_app, !lenN_le, !lenN_vals. lia. Qed.
Lemma raw_size_at s : full s < 2^32 -> raw_size s = full s.
Proof. intros H. unfold raw_size. rewrite N.mod_small; unfold full in *; lia. Qed.

Lemma s_write_at s m : full s < 2^32 -> full s <= lenN m -> s_write s m = Ok (enc s ++ dropN (full s) m, full s).
Proof.
  intros H L. unfold s_write. rewrite raw_size_at by exact H. destruct (N.ltb_spec (lenN m) (full s)); [lia|].
  assert (F : full s = 24 + 8 * lenN (s_lvals s) + 8 * lenN (s_dvals s) + lenN (descriptor s)) by reflexivity.
  change m with ([] ++ m) at 1. rewrite setb_over by (rewrite ?lenN_le; cbn; lia). cbn [bind app]. rewrite lenN_le.
  rewrite setb_over by (rewrite ?lenN_le, ?lenN_dropN; lia). cbn [bind]. rewrite lenN_le, dropN_dropN. rewrite app_assoc.
  rewrite setb_over by (rewrite ?lenN_app, ?lenN_le, ?lenN_dropN; lia). cbn [bind]. rewrite lenN_le, dropN_dropN. rewrite app_assoc.
  rewrite put_vals_at by (rewrite ?lenN_app, ?lenN_le, ?lenN_dropN; lia). cbn [bind]. rewrite dropN_dropN. rewrite app_assoc.
  rewrite setb_over by (rewrite ?lenN_app, ?lenN_le, ?lenN_dropN, ?lenN_vals; lia). cbn [bind]. rewrite lenN_le, dropN_dropN. rewrite app_assoc.
  rewrite put_vals_at by (rewrite ?lenN_app, ?lenN_le, ?lenN_dropN, ?lenN_vals; lia). cbn [bind]. rewrite dropN_dropN. rewrite app_assoc.
  rewrite setb_over by (rewrite ?lenN_app, ?lenN_le, ?lenN_dropN, ?lenN_vals; lia). cbn [bind]. rewrite dropN_dropN.
  f_equal. f_equal. unfold enc. rewrite <- !app_assoc. do 8 f_equal. lia.
Qed.

Lemma get_vals_at l : forall fuel a c o, lenN a = o -> (length l < fuel)%nat -> Forall (fun v => v < 2^64) l ->
  get_vals fuel (a ++ vals l ++ c) o (lenN l) = Ok (l, o + 8 * lenN l).
Proof.
  induction l as [|v l IH]; intros fuel a c o E F H; (destruct fuel as [|fuel]; [cbn in F; lia|]).
  - cbn [get_vals]. change (lenN (@nil N)) with 0. cbn. rewrite N.add_0_r. reflexivity.
  - inversion H; subst. cbn [get_vals]. rewrite lenN_cons. destruct (N.eqb_spec (1 + lenN l) 0); [lia|].
    unfold vals. cbn [map concat]. rewrite <- app_assoc. change 8 with (lenN (le 8 v)) at 1. rewrite getb_at by reflexivity. cbn [bind].
    fold (vals l). rewrite app_assoc. replace (1 + lenN l - 1) with (lenN l) by lia. rewrite IH; [|rewrite lenN_app, lenN_le; lia|cbn in F; lia|assumption].
    cbn [bind]. rewrite unle_le8 by assumption. f_equal. f_equal. lia.
Qed.
Lemma get_names_at l : forall a c o, lenN a = o -> Forall (Forall (fun x => x <> 0)) l ->
  get_names (length l) (a ++ names l ++ c) o = Ok (l, o + lenN (names l), true).
Proof.
  induction l as [|n l IH]; intros a c o E H.
  - cbn [length get_names]. change (lenN (names [])) with 0. rewrite N.add_0_r. reflexivity.
  - inversion H; subst. cbn [length get_names]. unfold names. cbn [map concat]. fold (names l).
    destruct (N.leb_spec (lenN (a ++ ((n ++ [0]) ++ names l) ++ c)) (lenN a)) as [Q|Q].
    { rewrite !lenN_app in Q. change (lenN [0]) with 1 in Q. lia. }
    assert (C : cstr (a ++ ((n ++ [0]) ++ names l) ++ c) (lenN a) = Ok n).
    { rewrite <- !app_assoc. cbn [app]. apply cstr_at; auto. }
    rewrite C. cbn [bind]. replace (a ++ ((n ++ [0]) ++ names l) ++ c) with ((a ++ n ++ [0]) ++ names l ++ c) by (rewrite <- !app_assoc; reflexivity).
    rewrite IH; [|rewrite !lenN_app; change (lenN [0]) with 1; lia|assumption]. cbn [bind]. f_equal. f_equal. f_equal. rewrite !lenN_app. change (lenN [0]) with 1. lia.
Qed.

Definition no0 (l : list bytes) : Prop := Forall (Forall (fun x => x <> 0)) l.
Lemma lenN_names l : lenN l <= lenN (names l).
Proof. induction l as [|n l IH]; [cbn; lia|]. unfold names in *. cbn [map concat]. rewrite lenN_cons, !lenN_app. change (lenN [0]) with 1. lia. Qed.
Lemma descriptor_at s : full s < 2^32 -> exists k, descriptor s = counts s ++ repeat 0 k.
Proof.
  intros H. eexists. unfold descriptor. rewrite !append_names_at.
  assert (Q1 : lenN (s_lnames s) < 2^32 /\ lenN (s_dnames s) < 2^32).
  { unfold full in H. unfold descriptor in H. rewrite !append_names_at in H. assert (A := lenN_names (s_lnames s)). assert (B := lenN_names (s_dnames s)).
    rewrite !lenN_app in H. lia. }
  rewrite !N.mod_small by apply Q1. unfold counts. rewrite <- !app_assoc. reflexivity.
Qed.
Lemma names_ok_count n : n < 2^32 -> Forall (fun x => x <> 0) (dec n ++ [32]).
Proof.
  intros _. apply Forall_app. split; [|constructor; [discriminate|constructor]]. eapply Forall_impl; [|apply dec_digit]. cbn. intros c H. apply (digit_not_space c H).
Qed.
Lemma lenN_to_nat {A} (l : list A) : N.to_nat (lenN l) = length l.
Proof. unfold lenN. lia. Qed.

Lemma s_read_at s0 s : s_id s < 2^32 -> s_time s < 2^32 -> Forall (fun v => v < 2^64) (s_lvals s) -> Forall (fun v => v < 2^64) (s_dvals s) ->
  no0 (s_lnames s) -> no0 (s_dnames s) -> length (s_lnames s) = length (s_lvals s) -> length (s_dnames s) = length (s_dvals s) -> full s < 2^32 ->
  s_read s0 (enc s) = Ok (s, true).
Proof.
  intros Hi Ht Hl Hd Nl Nd El Ed Hf. unfold s_read. rewrite lenN_enc.
  assert (F : full s = 24 + 8 * lenN (s_lvals s) + 8 * lenN (s_dvals s) + lenN (descriptor s)) by reflexivity.
  destruct (N.ltb_spec (full s) 24); [lia|]. destruct (descriptor_at s Hf) as (k & Dk).
  assert (Fu : (S (length (enc s)) = S (N.to_nat (full s)))%nat) by (rewrite <- lenN_enc, lenN_to_nat; reflexivity). rewrite Fu.
  assert (G1 : getb (enc s) 0 4 = Ok (le 4 (s_id s))). { unfold enc. apply (getb_at []). reflexivity. }
  assert (G2 : getb (enc s) 4 4 = Ok (le 4 (s_time s))). { unfold enc. apply getb_at. reflexivity. }
  assert (G3 : getb (enc s) 8 8 = Ok (le 8 (lenN (s_lvals s)))). { unfold enc. rewrite app_assoc. apply getb_at. reflexivity. }
  rewrite G1, G2, G3. cbn [bind]. rewrite !unle_le4, unle_le8 by (assumption || (unfold full in Hf; lia)).
  set (a := le 4 (s_id s) ++ le 4 (s_time s) ++ le 8 (lenN (s_lvals s))).
  assert (La : lenN a = 16) by (unfold a; rewrite !lenN_app, !lenN_le; reflexivity).
  assert (E1 : enc s = a ++ vals (s_lvals s) ++ le 8 (lenN (s_dvals s)) ++ vals (s_dvals s) ++ descriptor s) by (unfold enc, a; rewrite <- !app_assoc; reflexivity).
  rewrite E1 at 1. rewrite get_vals_at by (assumption || (unfold lenN in *; lia)). cbn [bind].
  assert (G4 : getb (enc s) (16 + 8 * lenN (s_lvals s)) 8 = Ok (le 8 (lenN (s_dvals s)))).
  { rewrite E1, app_assoc. apply getb_at. rewrite lenN_app, lenN_vals. lia. }
  rewrite G4. cbn [bind]. rewrite unle_le8 by (unfold full in Hf; lia).
  set (b := a ++ vals (s_lvals s) ++ le 8 (lenN (s_dvals s))).
  assert (Lb : lenN b = 16 + 8 * lenN (s_lvals s) + 8) by (unfold b; rewrite !lenN_app, lenN_vals, lenN_le; lia).
  assert (E2 : enc s = b ++ vals (s_dvals s) ++ descriptor s) by (rewrite E1; unfold b; rewrite <- !app_assoc; reflexivity).
  rewrite E2 at 1. rewrite get_vals_at by (assumption || (unfold lenN in *; lia)). cbn [bind].
  set (c := b ++ vals (s_dvals s)).
  assert (Lc : lenN c = 16 + 8 * lenN (s_lvals s) + 8 + 8 * lenN (s_dvals s)) by (unfold c; rewrite !lenN_app, lenN_vals; lia).
  assert (Qn : lenN (s_lnames s) < 2^32 /\ lenN (s_dnames s) < 2^32) by (unfold lenN in *; lia).
  assert (E3 : enc s = c ++ (dec (lenN (s_lnames s)) ++ [32]) ++ 0 :: names (s_lnames s) ++ (dec (lenN (s_dnames s)) ++ [32; 0]) ++ names (s_dnames s) ++ repeat 0 k).
  { rewrite E2, Dk. unfold c, counts. rewrite <- !app_assoc. reflexivity. }
  assert (C1 : cstr (enc s) (lenN c) = Ok (dec (lenN (s_lnames s)) ++ [32])).
  { rewrite E3. apply cstr_at; [reflexivity|]. apply names_ok_count. apply Qn. }
  rewrite <- Lc, C1. cbn [bind]. rewrite scan_dec by (try apply Qn; reflexivity). cbn [bind].
  replace (lenN (s_lnames s) =? lenN (s_lvals s)) with true by (symmetry; apply N.eqb_eq; unfold lenN; lia). cbn [negb].
  set (d := c ++ (dec (lenN (s_lnames s)) ++ [32]) ++ [0]).
  assert (Ld : lenN d = lenN c + lenN (dec (lenN (s_lnames s)) ++ [32]) + 1) by (unfold d; rewrite (lenN_app c), (lenN_app _ [0]); change (lenN [0]) with 1; lia).
  assert (E4 : enc s = d ++ names (s_lnames s) ++ (dec (lenN (s_dnames s)) ++ [32; 0]) ++ names (s_dnames s) ++ repeat 0 k).
  { rewrite E3. unfold d. rewrite <- !app_assoc. reflexivity. }
  rewrite <- Ld, lenN_to_nat. rewrite E4 at 1. rewrite get_names_at by auto. cbn [bind negb].
  set (e := d ++ names (s_lnames s)).
  assert (Le : lenN e = lenN d + lenN (names (s_lnames s))) by (unfold e; rewrite lenN_app; reflexivity).
  assert (E5 : enc s = e ++ (dec (lenN (s_dnames s)) ++ [32]) ++ 0 :: names (s_dnames s) ++ repeat 0 k).
  { rewrite E4. unfold e. rewrite <- !app_assoc. reflexivity. }
  assert (C2 : cstr (enc s) (lenN e) = Ok (dec (lenN (s_dnames s)) ++ [32])).
  { rewrite E5. apply cstr_at; [reflexivity|]. apply names_ok_count. apply Qn. }
  rewrite <- Le, C2. cbn [bind]. rewrite scan_dec by (try apply Qn; reflexivity). cbn [bind].
  replace (lenN (s_dnames s) =? lenN (s_dvals s)) with true by (symmetry; apply N.eqb_eq; unfold lenN; lia). cbn [negb].
  set (f := e ++ (dec (lenN (s_dnames s)) ++ [32]) ++ [0]).
  assert (Lf : lenN f = lenN e + lenN (dec (lenN (s_dnames s)) ++ [32]) + 1) by (unfold f; rewrite (lenN_app e), (lenN_app _ [0]); change (lenN [0]) with 1; lia).
  assert (E6 : enc s = f ++ names (s_dnames s) ++ repeat 0 k).
  { rewrite E5. unfold f. rewrite <- !app_assoc. reflexivity. }
  rewrite <- Lf, lenN_to_nat. rewrite E6 at 1. rewrite get_names_at by auto. cbn [bind]. destruct s. reflexivity.
Qed.

(* the size of the descriptor is padded to words *)
Lemma full_aligned s : full s mod 4 = 0.
Proof.
  unfold full. assert (D : lenN (descriptor s) mod 4 = 0); [|lia]. unfold descriptor. cbv zeta. rewrite lenN_app, lenN_repeat.
  match goal with |- (lenN ?d + _) mod 4 = 0 => set (n := lenN d) end. lia.
Qed.

(* objects filled by the calls *)
Lemma replace_first_len name v : forall ns xs l, replace_first name v ns xs = Some l -> length l = length xs.
Proof.
  induction ns as [|n ns IH]; intros xs l H; [discriminate|]. destruct xs as [|x xs]; [discriminate|]. cbn [replace_first] in H.
  destruct (bytes_eqb n name); [injection H as <-; reflexivity|]. destruct (replace_first name v ns xs) as [q|] eqn:E; [|discriminate]. injection H as <-. cbn. f_equal. eauto.
Qed.
Lemma replace_first_vals P name v : forall ns xs l, replace_first name v ns xs = Some l -> Forall P xs -> P v -> Forall P l.
Proof.
  induction ns as [|n ns IH]; intros xs l H F Pv; [discriminate|]. destruct xs as [|x xs]; [discriminate|]. cbn [replace_first] in H. inversion F; subst.
  destruct (bytes_eqb n name); [injection H as <-; constructor; auto|]. destruct (replace_first name v ns xs) as [q|] eqn:E; [|discriminate]. injection H as <-. constructor; eauto.
Qed.

Fixpoint sum_len (l : list bytes) : N := match l with [] => 0 | n :: l => lenN n + 9 + sum_len l end.
Definition half (ns : list bytes) (xs : list N) : Prop :=
  length ns = length xs /\ no0 ns /\ Forall (fun v => v < 2^64) xs.
Lemma sum_len_app a b : sum_len (a ++ b) = sum_len a + sum_len b.
Proof. induction a as [|n a IH]; [reflexivity|]. cbn [app sum_len]. lia. Qed.
Lemma add_rec_ok ns xs n v b : half ns xs -> Forall (fun x => x <> 0) n -> v < 2^64 ->
  half (fst (add_rec ns xs n v b)) (snd (add_rec ns xs n v b)) /\ sum_len (fst (add_rec ns xs n v b)) <= sum_len ns + lenN n + 9.
Proof.
  intros (H1 & H2 & H3) Hn Hv. unfold add_rec. destruct b; [destruct (replace_first n v ns xs) as [l|] eqn:E|]; cbn [fst snd].
  - split; [|lia]. split; [rewrite (replace_first_len _ _ _ _ _ E); exact H1|]. split; [exact H2|]. eapply replace_first_vals; eauto.
  - split; [|rewrite sum_len_app; cbn [sum_len]; lia]. split; [rewrite !app_length; cbn; lia|]. split; apply Forall_app; auto.
  - split; [|rewrite sum_len_app; cbn [sum_len]; lia]. split; [rewrite !app_length; cbn; lia|]. split; apply Forall_app; auto.
Qed.
Definition sok (s : slow) : Prop := s_id s < 2^32 /\ s_time s < 2^32 /\ half (s_lnames s) (s_lvals s) /\ half (s_dnames s) (s_dvals s).
Lemma build_ok l : forall s, Forall call_ok l -> sok s ->
  sok (fold_left s_call l s) /\ s_id (fold_left s_call l s) = s_id s /\ s_time (fold_left s_call l s) = s_time s /\
  sum_len (s_lnames (fold_left s_call l s)) + sum_len (s_dnames (fold_left s_call l s)) + 128 <= sum_len (s_lnames s) + sum_len (s_dnames s) + calls_size l.
Proof.
  induction l as [|c l IH]; intros s H K; [cbn [fold_left calls_size]; auto 10 using N.le_refl|]. inversion H as [|? ? Hc Hl]; subst. cbn [fold_left calls_size].
  destruct Hc as (C1 & C2). destruct K as (K1 & K2 & K3 & K4).
  assert (X : sok (s_call s c) /\ s_id (s_call s c) = s_id s /\ s_time (s_call s c) = s_time s /\
    sum_len (s_lnames (s_call s c)) + sum_len (s_dnames (s_call s c)) <= sum_len (s_lnames s) + sum_len (s_dnames s) + lenN (call_name c) + 9).
  { destruct c as [n v b|n v b]; cbn [s_call call_name call_val] in *; unfold add_long, add_double.
    - destruct (add_rec_ok _ _ n v b K3 C1 C2) as (A & B). destruct (add_rec _ _ _ _ _) as (q & r). cbn [fst snd s_id s_time s_lnames s_dnames] in *. split; [split; [exact K1|split; [exact K2|split; assumption]]|]. repeat split; lia.
    - destruct (add_rec_ok _ _ n v b K4 C1 C2) as (A & B). destruct (add_rec _ _ _ _ _) as (q & r). cbn [fst snd s_id s_time s_lnames s_dnames] in *. split; [split; [exact K1|split; [exact K2|split; assumption]]|]. repeat split; lia. }
  destruct X as (X1 & X2 & X3 & X4). destruct (IH _ Hl X1) as (Y1 & Y2 & Y3 & Y4). split; [exact Y1|]. split; [congruence|]. split; [congruence|lia].
Qed.
Lemma digits_len fuel : forall n, (length (digits fuel n) <= fuel)%nat.
Proof. induction fuel as [|k IH]; intros n; [cbn; lia|]. cbn [digits length]. destruct (n / 10 =? 0); [cbn; lia|]. specialize (IH (n / 10)). lia. Qed.
Lemma dec_len n : n < 2^32 -> lenN (dec n) <= 33.
Proof.
  intros H. unfold dec, lenN. rewrite rev_length. assert (D := digits_len (S (N.to_nat (N.size n))) n).
  assert (S1 : N.size n <= 32). { destruct n as [|p]; [cbn; lia|]. rewrite N.size_log2 by discriminate. assert (N.log2 (N.pos p) < 32) by (apply N.log2_lt_pow2; lia). lia. }
  lia.
Qed.
Lemma names_sum l : lenN (names l) + 8 * lenN l = sum_len l.
Proof. induction l as [|n l IH]; [reflexivity|]. unfold names in *. cbn [map concat sum_len]. rewrite lenN_cons, !lenN_app. change (lenN [0]) with 1. lia. Qed.
Lemma full_bound s : sok s -> sum_len (s_lnames s) + sum_len (s_dnames s) + 128 < 2^32 -> full s < 2^32.
Proof.
  intros (_ & _ & (E1 & _) & (E2 & _)) H. assert (A := names_sum (s_lnames s)). assert (B := names_sum (s_dnames s)).
  assert (L1 : lenN (s_lnames s) = lenN (s_lvals s)) by (unfold lenN; lia). assert (L2 : lenN (s_dnames s) = lenN (s_dvals s)) by (unfold lenN; lia).
  assert (D1 := dec_len (lenN (s_lnames s)) ltac:(lia)). assert (D2 := dec_len (lenN (s_dnames s)) ltac:(lia)).
  unfold full, descriptor. cbv zeta. rewrite !append_names_at. rewrite !(N.mod_small (lenN (_ s))) by lia. rewrite lenN_app, lenN_repeat.
  match goal with |- context [lenN ?d + N.of_nat (N.to_nat ((4 - lenN ?d mod 4) mod 4))] => assert (Q : lenN d <= 33 + 2 + lenN (names (s_lnames s)) + 33 + 2 + lenN (names (s_dnames s))) by (rewrite !lenN_app; change (lenN [0]) with 1; change (lenN [32]) with 1; lia); set (n := lenN d) in * end.
  lia.
Qed.
Lemma build_full id tm l : id < 2^32 -> tm < 2^32 -> Forall call_ok l -> calls_size l < 2^32 ->
  sok (s_build id tm l) /\ full (s_build id tm l) < 2^32 /\ s_id (s_build id tm l) = id /\ s_time (s_build id tm l) = tm.
Proof.
  intros H1 H2 H3 H4. assert (K0 : sok (mkS id tm [] [] [] [])). { split; [exact H1|]. split; [exact H2|]. split; repeat split; constructor. }
  destruct (build_ok l _ H3 K0) as (K & I1 & I2 & Sz). split; [exact K|]. split; [|split; assumption].
  apply full_bound; [exact K|]. unfold s_build. cbn [s_lnames s_dnames sum_len] in Sz. lia.
Qed.
Lemma slow_roundtrip id tm l m s0 : id < 2^32 -> tm < 2^32 -> Forall call_ok l -> calls_size l < 2^32 -> calls_size l <= lenN m ->
  exists m' n, s_write (s_build id tm l) m = Ok (m', n) /\ n = raw_size (s_build id tm l) /\ n mod 4 = 0 /\ 24 <= n /\ n <= calls_size l /\
    lenN m' = lenN m /\ dropN n m' = dropN n m /\ s_read s0 (takeN n m') = Ok (s_build id tm l, true).
Proof.
  intros H1 H2 H3 H4 H5. destruct (build_full id tm l H1 H2 H3 H4) as (K & F & _ & _).
  assert (Le : full (s_build id tm l) <= calls_size l).
  { assert (K0 : sok (mkS id tm [] [] [] [])). { split; [exact H1|]. split; [exact H2|]. split; repeat split; constructor. }
    destruct (build_ok l _ H3 K0) as (_ & _ & _ & Sz). fold (s_build id tm l) in Sz. cbn [s_lnames s_dnames sum_len] in Sz.
    set (s := s_build id tm l) in *. destruct K as (_ & _ & (E1 & _) & (E2 & _)). assert (A := names_sum (s_lnames s)). assert (B := names_sum (s_dnames s)).
    assert (L1 : lenN (s_lnames s) = lenN (s_lvals s)) by (unfold lenN; lia). assert (L2 : lenN (s_dnames s) = lenN (s_dvals s)) by (unfold lenN; lia).
    assert (D1 := dec_len (lenN (s_lnames s)) ltac:(lia)). assert (D2 := dec_len (lenN (s_dnames s)) ltac:(lia)).
    unfold full, descriptor. cbv zeta. rewrite !append_names_at. rewrite !(N.mod_small (lenN (_ s))) by lia. rewrite lenN_app, lenN_repeat.
    match goal with |- context [lenN ?d + N.of_nat (N.to_nat ((4 - lenN ?d mod 4) mod 4))] => assert (Q : lenN d <= 33 + 2 + lenN (names (s_lnames s)) + 33 + 2 + lenN (names (s_dnames s))) by (rewrite !lenN_app; change (lenN [0]) with 1; change (lenN [32]) with 1; lia); set (n := lenN d) in * end.
    lia. }
  set (s := s_build id tm l) in *. exists (enc s ++ dropN (full s) m), (full s).
  split; [apply s_write_at; lia|]. split; [symmetry; apply raw_size_at; exact F|]. split; [apply full_aligned|]. split; [unfold full; lia|]. split; [exact Le|].
  split; [rewrite lenN_app, lenN_enc, lenN_dropN; lia|]. split; [apply dropN_app; rewrite lenN_enc; reflexivity|].
  rewrite takeN_app by (rewrite lenN_enc; reflexivity). destruct K as (K1 & K2 & (A1 & A2 & A3) & (B1 & B2 & B3)). apply s_read_at; assumption.
Qed.

(* ---- the values of the names ---- *)
Lemma replace_first_in name v : forall ns xs l, replace_first name v ns xs = Some l -> NoDup ns -> length ns = length xs ->
  forall n x, In (n, x) (combine ns l) <-> (n = name /\ x = v) \/ (n <> name /\ In (n, x) (combine ns xs)).
Proof.
  induction ns as [|m ns IH]; intros xs l H Nd E n x; [discriminate|]. destruct xs as [|y xs]; [discriminate|]. cbn [replace_first] in H. inversion Nd as [|? ? N1 N2]; subst.
  destruct (bytes_eqb_spec m name) as [->|Ne].
  - injection H as <-. cbn [combine In]. split.
    + intros [Q|Q]; [injection Q as <- <-; auto|]. right. split; [|right; exact Q]. intros ->. apply N1. eapply in_combine_l. exact Q.
    + intros [(-> & ->)|(Q1 & [Q2|Q2])]; [left; reflexivity|injection Q2 as <- <-; congruence|right; exact Q2].
  - destruct (replace_first name v ns xs) as [q|] eqn:Eq; [|discriminate]. injection H as <-. cbn in E. cbn [combine In]. rewrite (IH xs q Eq N2) by lia. split.
    + intros [Q|[Q|Q]]; [injection Q as <- <-; right; split; [exact Ne|left; reflexivity]|left; exact Q|right; split; [apply Q|right; apply Q]].
    + intros [Q|(Q1 & [Q2|Q2])]; [right; left; exact Q|left; exact Q2|right; right; split; assumption].
Qed.
Lemma replace_first_none name v : forall ns xs, replace_first name v ns xs = None -> length ns = length xs -> ~ In name ns.
Proof.
  induction ns as [|m ns IH]; intros xs H E [].
  - subst m. destruct xs as [|y xs]; [discriminate|]. cbn [replace_first] in H. destruct (bytes_eqb_spec name name); [discriminate|congruence].
  - destruct xs as [|y xs]; [discriminate|]. cbn [replace_first] in H. destruct (bytes_eqb m name); [discriminate|]. destruct (replace_first name v ns xs) eqn:Eq; [discriminate|]. cbn in E. apply (IH xs); auto.
Qed.
Lemma in_combine_snoc (ns : list bytes) (xs : list N) n v : length ns = length xs -> combine (ns ++ [n]) (xs ++ [v]) = combine ns xs ++ [(n, v)].
Proof. revert xs. induction ns as [|m ns IH]; intros [|x xs] E; try discriminate; [reflexivity|]. cbn in E. cbn [app combine]. rewrite IH by lia. reflexivity. Qed.
Definition table (ns : list bytes) (xs : list N) (f : bytes -> option N) : Prop :=
  length ns = length xs /\ NoDup ns /\ forall n x, In (n, x) (combine ns xs) <-> f n = Some x.
Lemma table_add ns xs f name v : table ns xs f ->
  table (fst (add_rec ns xs name v true)) (snd (add_rec ns xs name v true)) (fun n => if list_eq_dec N.eq_dec name n then Some v else f n).
Proof.
  intros (E & Nd & H). unfold add_rec. destruct (replace_first name v ns xs) as [l|] eqn:R; cbn [fst snd].
  - split; [rewrite (replace_first_len _ _ _ _ _ R); exact E|]. split; [exact Nd|]. intros n x. rewrite (replace_first_in _ _ _ _ _ R Nd E). rewrite H.
    destruct (list_eq_dec N.eq_dec name n) as [->|Q]; split.
    + intros [(_ & ->)|(Q & _)]; congruence.
    + intros Q. injection Q as ->. auto.
    + intros [(-> & _)|(_ & Z)]; [congruence|exact Z].
    + intros Z. right. split; congruence.
  - assert (Ni := replace_first_none _ _ _ _ R E). split; [rewrite !app_length; cbn; lia|]. split.
    { apply NoDup_app_iff. split; [exact Nd|]. split; [constructor; [intros []|constructor]|]. intros z Z [<-|[]]. contradiction. }
    intros n x. rewrite in_combine_snoc by exact E. rewrite in_app_iff, H. cbn [In]. destruct (list_eq_dec N.eq_dec name n) as [->|Q].
    + split; [intros [Z|[Z|[]]]; [|congruence]|intros Z; right; left; congruence]. apply H in Z. apply in_combine_l in Z. contradiction.
    + split; [intros [Z|[Z|[]]]; congruence|auto].
Qed.
Lemma build_tables l : forall s f g, Forall (fun c => call_check c = true) l -> table (s_lnames s) (s_lvals s) f -> table (s_dnames s) (s_dvals s) g ->
  table (s_lnames (fold_left s_call l s)) (s_lvals (fold_left s_call l s))
    (fun name => fold_left (fun r c => match c with AddLong n v _ => if list_eq_dec N.eq_dec n name then Some v else r | _ => r end) l (f name)) /\
  table (s_dnames (fold_left s_call l s)) (s_dvals (fold_left s_call l s))
    (fun name => fold_left (fun r c => match c with AddDouble n v _ => if list_eq_dec N.eq_dec n name then Some v else r | _ => r end) l (g name)).
Proof.
  induction l as [|c l IH]; intros s f g H Tf Tg; [split; assumption|]. inversion H as [|? ? Hc Hl]; subst. cbn [fold_left].
  destruct c as [n v b|n v b]; cbn [call_check] in Hc; subst b; cbn [s_call]; unfold add_long, add_double.
  - assert (T1 := table_add _ _ _ n v Tf). destruct (add_rec _ _ _ _ _) as (q & r). cbn [fst snd] in T1.
    exact (IH (mkS (s_id s) (s_time s) q r (s_dnames s) (s_dvals s)) _ g Hl T1 Tg).
  - assert (T1 := table_add _ _ _ n v Tg). destruct (add_rec _ _ _ _ _) as (q & r). cbn [fst snd] in T1.
    exact (IH (mkS (s_id s) (s_time s) (s_lnames s) (s_lvals s) q r) f _ Hl Tf T1).
Qed.
Lemma build_values id tm l : Forall (fun c => call_check c = true) l ->
  NoDup (s_lnames (s_build id tm l)) /\ NoDup (s_dnames (s_build id tm l)) /\
  (forall n x, In (n, x) (combine (s_lnames (s_build id tm l)) (s_lvals (s_build id tm l))) <-> last_long n l = Some x) /\
  (forall n x, In (n, x) (combine (s_dnames (s_build id tm l)) (s_dvals (s_build id tm l))) <-> last_double n l = Some x).
Proof.
  intros H. assert (T0 : table [] [] (fun _ => None)). { split; [reflexivity|]. split; [constructor|]. intros n x. split; [intros []|discriminate]. }
  destruct (build_tables l (mkS id tm [] [] [] []) _ _ H T0 T0) as ((_ & A & B) & (_ & C & D)). auto.
Qed.
