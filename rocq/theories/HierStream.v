(* The stream of a hierarchy: bytes written, and what reading them does to a copy. *)
From Verif Require Import Common ListFacts Bytes RecordSpec RecordModel RecordMap RecordOut RecordIn RecordProps HierSpec HierModel HierProofs HierInv.
Local Open Scope N_scope.

Lemma sumN_cons x l : sumN (x :: l) = x + sumN l.
Proof. reflexivity. Qed.
Lemma sumN_in x l : In x l -> x <= sumN l.
Proof. induction l as [|y l IH]; intros []; rewrite sumN_cons; [lia|]. specialize (IH H). lia. Qed.

Lemma prefix_carried k x : match_prefix x (prefix_of k) = carried k x.
Proof.
  unfold match_prefix. destruct k; cbn [prefix_of carried].
  - cbn [prefixb]. apply andb_true_r.
  - destruct x as [|c x]; auto. cbn [visible named prefixb under]. destruct (N.eqb_spec c 95) as [->|N1]; [reflexivity|].
    destruct (N.eqb_spec 95 c); [congruence|]. apply andb_false_r.
Qed.
Lemma selected_sel k m : selected (prefix_of k) (vals m) = sel (carried k) m.
Proof. unfold selected, sel. apply filter_ext. intros e. apply prefix_carried. Qed.

(* an item without recording of times and history *)
Inductive plain : hnode -> Prop :=
| plain_intro k d l : d_auto d = false -> d_hist d = None -> msorted (d_map d) -> Forall plain l -> plain (HN k d l).
Lemma plain_inv k d l : plain (HN k d l) -> d_auto d = false /\ d_hist d = None /\ msorted (d_map d) /\ Forall plain l.
Proof. intros H. inversion H; subst. auto. Qed.
Lemma plain_new k : plain (new_item k).
Proof. constructor; auto; constructor. Qed.

Section Stream.
Variable kd : skind.
Variable V : N.
Let pre := prefix_of kd.
Let sf (d : hdata) := store_fields kd V d.
Let sc (d : hdata) := store_childs kd V d.

Fixpoint hlen (n : hnode) : N :=
  match n with
  | HN _ d l => 16 + (if sf d then mlen pre (vals (d_map d)) else 0)
                   + (if sc d then sumN (map (fun c => str_storesize (nm c) + hlen c) l) else 0)
  end.
Fixpoint hbytes (n : hnode) : bytes :=
  match n with
  | HN k d l => le 4 (hlen n / 8) ++ le 4 (if sc d then lenN l else 0) ++ le 8 (out_mask kd V d) ++
      (if sf d then map_bytes pre (vals (d_map d)) else []) ++
      (if sc d then concat (map (fun c => str_bytes (nm c) ++ hbytes c) l) else [])
  end.

Lemma hlen_8 n : hlen n mod 8 = 0 /\ 16 <= hlen n.
Proof.
  induction n as [k d l IH] using hnode_ind2. cbn [hlen]. pose proof (mlen_8 pre (vals (d_map d))) as (M1 & M2).
  assert (S8 : sumN (map (fun c => str_storesize (nm c) + hlen c) l) mod 8 = 0).
  { induction IH as [|c l (I1 & I2) IHl IH2]; [reflexivity|]. cbn [map]. rewrite sumN_cons. pose proof (str_storesize_8 (nm c)). lia. }
  destruct (sf d), (sc d); lia.
Qed.

Lemma lenN_hbytes n : lenN (hbytes n) = hlen n.
Proof.
  induction n as [k d l IH] using hnode_ind2. cbn [hbytes]. rewrite !lenN_app, !lenN_le. cbn [hlen].
  assert (S8 : lenN (concat (map (fun c => str_bytes (nm c) ++ hbytes c) l)) = sumN (map (fun c => str_storesize (nm c) + hlen c) l)).
  { induction IH as [|c l I1 IHl IH2]; [reflexivity|]. cbn [map concat]. rewrite sumN_cons, !lenN_app, lenN_str_bytes, I1, IH2. reflexivity. }
  destruct (sf d), (sc d); rewrite ?lenN_map_bytes, ?S8; change (@lenN N []) with 0; lia.
Qed.

Inductive okn : hnode -> Prop :=
| okn_intro k d l : (sf d = true -> names_ok (selected pre (vals (d_map d)))) ->
    (sc d = true -> Forall (fun c => str_storesize (nm c) < 2^32) l) -> (sc d = true -> Forall okn l) -> okn (HN k d l).

Lemma okn_of_len n : hlen n < 2^32 -> okn n.
Proof.
  induction n as [k d l IH] using hnode_ind2. cbn [hlen]. intros L. pose proof (mlen_8 pre (vals (d_map d))) as (M1 & M2). constructor.
  - intros E. rewrite E in L. assert (B : mlen pre (vals (d_map d)) < 2^32) by lia. apply small_of_len in B.
    eapply Forall_impl; [|exact B]. intros e (X & _). exact X.
  - intros E. rewrite E in L. apply Forall_forall. intros c Hc.
    pose proof (sumN_in _ _ (in_map (fun c => str_storesize (nm c) + hlen c) l c Hc)). cbn beta in *. lia.
  - intros E. rewrite E in L. rewrite Forall_forall in *. intros c Hc. apply IH; auto.
    pose proof (sumN_in _ _ (in_map (fun c => str_storesize (nm c) + hlen c) l c Hc)). cbn beta in *. lia.
Qed.

(* ---- output ---- *)
Definition kids_out (szf : hnode -> N) := fix go (s : ws) (l : list hnode) : ws :=
  match l with
  | [] => s
  | c :: r => go (fst (hier_body szf kd V (fst (write_str s (nm c))) c)) r
  end.

Lemma fits_less s a b : fits s a -> b <= a -> fits s b.
Proof. unfold fits. intros H1 H2 R. specialize (H1 R). lia. Qed.
Lemma fits_rest s b n m : fits s m -> lenN b + n <= m -> fits (put s b) n.
Proof. intros H1 H2. apply fits_put. intros R. specialize (H1 R). lia. Qed.

Lemma body_put szf n : forall s, aligned s -> fits s (hlen n) -> okn n ->
  (w_real s = true -> forall x, okn x -> szf x = hlen x) ->
  exists b, hier_body szf kd V s n = (put s b, true) /\ lenN b = hlen n /\ (w_real s = true -> b = hbytes n).
Proof.
  induction n as [k d l IH] using hnode_ind2. intros s A F OK SZ. inversion OK as [k0 d0 l0 N1 N2 N3]; subst.
  cbn [hier_body]. fold (kids_out szf). fold (sf d) (sc d) pre. pose proof (hlen_8 (HN k d l)) as (H8 & H16).
  set (sz := if w_real s then szf (HN k d l) else 0).
  set (hd := concat [le 4 (sz / 8); le 4 (if sc d then lenN l else 0); le 8 (out_mask kd V d)]).
  assert (LH : lenN hd = 16) by (unfold hd; cbn [concat]; rewrite !lenN_app, !lenN_le, lenN_nil; reflexivity).
  rewrite wwrites_put by (fold hd; rewrite LH; eapply fits_less; eauto). fold hd.
  set (fb := if sf d then map_bytes pre (vals (d_map d)) else []).
  assert (LF : lenN fb = if sf d then mlen pre (vals (d_map d)) else 0) by (unfold fb; destruct (sf d); [apply lenN_map_bytes|reflexivity]).
  set (kl := if sc d then sumN (map (fun c => str_storesize (nm c) + hlen c) l) else 0).
  assert (LT : hlen (HN k d l) = 16 + lenN fb + kl) by (cbn [hlen]; rewrite LF; reflexivity).
  pose proof (mlen_8 pre (vals (d_map d))) as (M1 & M2).
  assert (F8 : lenN fb mod 8 = 0) by (rewrite LF; destruct (sf d); auto).
  assert (E2 : (if sf d then fst (map_out (put s hd) pre (vals (d_map d))) else put s hd) = put s (hd ++ fb)).
  { unfold fb. destruct (sf d) eqn:ES.
    - rewrite map_out_put; cbn [fst].
      + apply put_put.
      + apply aligned_put; auto.
      + eapply fits_rest; [exact F|]. rewrite LH. lia.
      + auto.
    - rewrite app_nil_r. reflexivity. }
  rewrite E2. clear E2.
  assert (E3 : exists kb, (if sc d then kids_out szf (put s (hd ++ fb)) l else put s (hd ++ fb)) = put s ((hd ++ fb) ++ kb) /\
     lenN kb = kl /\ (w_real s = true -> kb = if sc d then concat (map (fun c => str_bytes (nm c) ++ hbytes c) l) else [])).
  { unfold kl. destruct (sc d) eqn:ES; [|exists []; rewrite app_nil_r; auto].
    assert (G : forall s1, aligned s1 -> fits s1 (sumN (map (fun c => str_storesize (nm c) + hlen c) l)) ->
        (w_real s1 = true -> w_real s = true) ->
        exists kb, kids_out szf s1 l = put s1 kb /\ lenN kb = sumN (map (fun c => str_storesize (nm c) + hlen c) l) /\
          (w_real s1 = true -> kb = concat (map (fun c => str_bytes (nm c) ++ hbytes c) l))).
    { specialize (N2 eq_refl). specialize (N3 eq_refl). clear - IH N2 N3 SZ. induction l as [|c l IHl]; intros s1 A1 F1 R1; cbn [kids_out map].
      - exists []. rewrite put_nil. auto.
      - inversion IH as [|? ? I1 I2]; inversion N2 as [|? ? B1 B2]; inversion N3 as [|? ? O1 O2]; subst. cbn [map] in F1. rewrite sumN_cons in *.
        rewrite write_str_put; cbn [fst]; auto; [|eapply fits_less; [exact F1|lia]].
        pose proof (str_storesize_8 (nm c)) as (S1 & S2). pose proof (hlen_8 c) as (C1 & C2).
        assert (A2 : aligned (put s1 (str_bytes (nm c)))) by (apply aligned_put; auto; rewrite lenN_str_bytes; auto).
        destruct (I1 (put s1 (str_bytes (nm c)))) as (b & Eb & Lb & Rb); auto.
        { eapply fits_rest; [exact F1|]. rewrite lenN_str_bytes. lia. }
        { rewrite put_real. auto. }
        rewrite Eb. cbn [fst]. rewrite put_put. assert (LL : lenN (str_bytes (nm c) ++ b) = str_storesize (nm c) + hlen c) by (rewrite lenN_app, lenN_str_bytes, Lb; auto).
        destruct (IHl I2 B2 O2 (put s1 (str_bytes (nm c) ++ b))) as (kb & Ek & Lk & Rk).
        { apply aligned_put; auto. rewrite LL. lia. }
        { eapply fits_rest; [exact F1|]. rewrite LL. lia. }
        { rewrite put_real. auto. }
        fold (kids_out szf). rewrite Ek, put_put. eexists. split; [reflexivity|]. split.
        + rewrite lenN_app, LL, Lk. lia.
        + intros R. rewrite put_real in Rk, Rb. rewrite Rk, Rb by auto. cbn [concat]. rewrite <- app_assoc. reflexivity. }
    assert (LHF : lenN (hd ++ fb) = 16 + lenN fb) by (rewrite lenN_app, LH; auto).
    destruct (G (put s (hd ++ fb))) as (kb & Ek & Lk & Rk).
    { apply aligned_put; auto. rewrite LHF. lia. }
    { eapply fits_rest; [exact F|]. rewrite LHF. unfold kl in LT. lia. }
    { rewrite put_real. auto. }
    exists kb. rewrite Ek, put_put. rewrite put_real in Rk. auto. }
  destruct E3 as (kb & E3 & LK & RK). rewrite E3.
  assert (LB : lenN ((hd ++ fb) ++ kb) = hlen (HN k d l)) by (rewrite !lenN_app, LH, LK; lia).
  rewrite verify_put; auto.
  - exists ((hd ++ fb) ++ kb). rewrite padded_mult by (rewrite LB; auto). split; [reflexivity|]. split; [auto|].
    intros R. rewrite (RK R). unfold hd, sz. rewrite R, (SZ R _ OK). cbn [concat hbytes]. fold fb. rewrite app_nil_r, <- !app_assoc. reflexivity.
  - intros X. rewrite X, lenN_nil in LB. lia.
  - rewrite LB, round8_mult by auto. auto.
  - rewrite LB, round8_mult by auto. unfold sz. destruct (w_real s) eqn:R; auto.
Qed.

Lemma hier_size_eq n : okn n -> hier_size kd V n = hlen n.
Proof.
  intros OK. unfold hier_size. destruct (body_put (fun _ => 0) n size0) as (b & E & L & _); auto; try reflexivity.
  - intros R. discriminate.
  - intros R. discriminate.
  - rewrite E. cbn [fst]. rewrite put_pos, L. reflexivity.
Qed.

Lemma save_ok n : hlen n < 2^32 -> save_hier kd V n = Some (hbytes n).
Proof.
  intros L. pose proof (okn_of_len n L) as OK. unfold save_hier, hier_out. rewrite hier_size_eq, N.mod_small by auto.
  destruct (body_put (hier_size kd V) n (mem0 (hlen n))) as (b & E & LB & RB); auto.
  - reflexivity.
  - intros _. cbn. lia.
  - intros _ x OX. apply hier_size_eq. auto.
  - rewrite E. rewrite put_out by reflexivity. rewrite RB by reflexivity. reflexivity.
Qed.

(* ---- input ---- *)
Notation vw := (view (carried kd)).
Notation sl := (sel (carried kd)).

(* a copy which becomes equal to the item when the stream is read *)
Fixpoint rel (n c : hnode) {struct n} : Prop :=
  match n with
  | HN _ d l => (sf d = false -> sl (d_map d) = sl (d_map (dat c))) /\
    (if sc d then
       (fix go (l old : list hnode) : Prop :=
          match l with
          | [] => True
          | x :: r => match find_kid (nm x) old with
                      | Some (_, y, b) => rel x y /\ go r b
                      | None => rel x (new_item (nm x)) /\ go r old
                      end
          end) l (kids c)
     else map (fun x => (nm x, vw x)) l = map (fun x => (nm x, vw x)) (kids c))
  end.
Definition rel_kids := fix go (l old : list hnode) : Prop :=
  match l with
  | [] => True
  | x :: r => match find_kid (nm x) old with
              | Some (_, y, b) => rel x y /\ go r b
              | None => rel x (new_item (nm x)) /\ go r old
              end
  end.

Definition go_in (fu : nat) (tail : bytes) := fix go (cnt : nat) (s : rs) (d : hdata) (old : list hnode) : option (out (rs * (hdata * list hnode))) :=
  match cnt with
  | O => Some (Done (s, (match old with [] => d | _ :: _ => childs_changed d end, [])))
  | S c =>
    match read_str tail s with
    | Throw => Some Throw
    | Oob => Some Oob
    | Done (s1, (name, _)) =>
      let '(d', x, b) := match find_kid name old with
                         | None => (childs_changed d, new_item name, old)
                         | Some (a, x, b) => (match a with [] => d | _ :: _ => childs_changed d end, x, b)
                         end in
      match hier_in fu tail s1 x with
      | Some (Done (s2, (x', _))) =>
        match go c s2 d' b with
        | Some (Done (s3, (d'', r))) => Some (Done (s3, (d'', x' :: r)))
        | other => other
        end
      | Some Throw => Some Throw
      | Some Oob => Some Oob
      | None => None
      end
    end
  end.

(* settings of an item that reading keeps *)
Definition same_set (d d' : hdata) : Prop := d_auto d' = d_auto d /\ d_hist d' = d_hist d /\ d_map d' = d_map d.
Lemma same_set_cc d : same_set d (childs_changed d).
Proof. repeat split. Qed.
Lemma same_set_refl d : same_set d d.
Proof. repeat split. Qed.
Lemma same_set_trans a b c : same_set a b -> same_set b c -> same_set a c.
Proof. intros (A1 & A2 & A3) (B1 & B2 & B3). repeat split; congruence. Qed.

Lemma filter_merged m' old m : merged pre (selected pre (vals m)) old m' -> msorted m ->
  filter (fun e => carried kd (fst e)) m' = sl m.
Proof.
  intros (S1 & G) SM. unfold pre in G. rewrite selected_sel in G. apply msorted_ext.
  - apply filter_sorted. auto.
  - unfold sel. apply filter_sorted. apply vals_sorted. auto.
  - intros k. rewrite mget_filter by (apply msorted_nodup; auto). rewrite G, prefix_carried. cbn [fst].
    unfold sel. rewrite mget_filter by (apply msorted_nodup; apply vals_sorted; auto). cbn [fst].
    destruct (mget k (vals m)); destruct (carried kd k); auto. destruct (mget k old); auto. destruct (mget k old); auto.
Qed.

Lemma vals_keep old m : vals (keep_flags old m) = m.
Proof. unfold vals, keep_flags. rewrite map_map. cbn. rewrite <- (map_id m) at 2. apply map_ext. intros (a, b). reflexivity. Qed.

Lemma mask_bits d : N.testbit (out_mask kd V d) 0 = sf d /\ N.testbit (out_mask kd V d) 1 = sc d /\
  (sf d = true -> (if N.testbit (out_mask kd V d) 2 then under else []) = pre) /\ out_mask kd V d < 256.
Proof.
  unfold out_mask, pre, sf, sc. destruct kd; cbn [store_fields store_childs store_diff prefix_of].
  - destruct (V <=? d_nv d), (V <=? d_cv d); repeat split; auto; discriminate.
  - destruct (V <=? d_mv d); repeat split; auto; discriminate.
Qed.

Lemma hier_in_ok tail n : forall c fuel p rest, rel n c -> plain c -> wfn false n -> sendable (vw n) -> hlen n < 2^32 ->
  p mod 8 = 0 -> (length (hbytes n) < fuel)%nat ->
  exists c', hier_in fuel tail (mkR p (hbytes n ++ rest)) c = Some (Done (mkR (p + hlen n) rest, (c', true))) /\
    vw c' = vw n /\ nm c' = nm c /\ plain c'.
Proof.
  induction n as [k d l IH] using hnode_ind2. intros c fuel p rest RL PL W SD L A FU.
  destruct fuel as [|fu]; [lia|]. cbn [hier_in]. cbn [r_pos].
  pose proof (hlen_8 (HN k d l)) as (H8 & H16).
  destruct (mask_bits d) as (B0 & B1 & B2 & B3).
  destruct c as [ck cd cl]. destruct (plain_inv _ _ _ PL) as (P1 & P2 & P3 & P4).
  destruct (wfn_inv _ _ _ _ W) as (W1 & W2 & W3 & W4 & W5 & W6 & W7 & W8).
  cbn [rel dat kids nm] in *. fold rel_kids in RL. destruct RL as (RF & RK).
  cbn [view] in SD. inversion SD as [f0 l0 SD1 SD2 SD3 SD4 SD5]; subst.
  assert (SD4' : lenN l < 2^24) by (unfold lenN in *; rewrite map_length in SD4; exact SD4).
  cbn [hbytes]. rewrite <- !app_assoc.
  rewrite rnum_app by (change (256 ^ N.of_nat 4) with (2^32); lia).
  rewrite rnum_app by (change (256 ^ N.of_nat 4) with (2^32); destruct (sc d); lia).
  rewrite rnum_app by (change (256 ^ N.of_nat 8) with (2^64); lia).
  rewrite land_mask by (destruct (sc d); lia). rewrite B0, B1.
  replace (p + N.of_nat 4 + N.of_nat 4 + N.of_nat 8) with (p + 16) by lia.
  set (kb := (if sc d then concat (map (fun c => str_bytes (nm c) ++ hbytes c) l) else [])).
  set (fl := if sf d then mlen pre (vals (d_map d)) else 0).
  assert (LT : hlen (HN k d l) = 16 + fl + lenN kb).
  { pose proof (lenN_hbytes (HN k d l)) as Q. cbn [hbytes] in Q. rewrite !lenN_app, !lenN_le in Q. fold kb in Q. unfold fl.
    destruct (sf d); rewrite ?lenN_map_bytes, ?lenN_nil in Q; lia. }
  assert (E1 : exists d1, (if sf d then
       let diff := N.testbit (out_mask kd V d) 2 in
       od (s4, (m, _)) <- map_in tail (mkR (p + 16) ((if sf d then map_bytes pre (vals (d_map d)) else []) ++ kb ++ rest)) (if diff then under else []) (vals (d_map cd));
       Done (s4, with_flags (with_map cd (keep_flags (d_map cd) m) (d_fch cd)) true (d_mc cd || diff) (d_cc cd))
     else Done (mkR (p + 16) ((if sf d then map_bytes pre (vals (d_map d)) else []) ++ kb ++ rest), cd))
     = Done (mkR (p + 16 + fl) (kb ++ rest), d1) /\ d_auto d1 = false /\ d_hist d1 = None /\ msorted (d_map d1) /\ sl (d_map d1) = sl (d_map d)).
  { unfold fl. destruct (sf d) eqn:ES.
    - cbv zeta. rewrite (B2 eq_refl).
      assert (ML : mlen pre (vals (d_map d)) < 2^32) by (unfold fl in LT; lia).
      destruct (map_in_ok tail pre (vals (d_map d)) (vals (d_map cd)) (p + 16) (kb ++ rest)) as (m' & E & MG).
      + lia.
      + unfold pre. rewrite selected_sel. eapply Forall_impl; [|exact SD1]. intros e (X1 & X2 & X3). auto.
      + unfold pre. rewrite selected_sel. eapply Forall_impl; [|exact SD1]. intros e (X1 & X2 & X3). auto.
      + apply small_of_len. exact ML.
      + apply vals_sorted. auto.
      + apply vals_sorted. auto.
      + unfold pre. rewrite selected_sel. exact SD2.
      + lia.
      + rewrite E. cbn [obind]. eexists. split; [reflexivity|]. cbn [with_flags with_map d_auto d_hist d_map].
        split; [auto|]. split; [auto|]. split.
        * apply (map_keys (fun e => mkF (snd e) (match mget (fst e) (d_map cd) with Some f => f_mod f | None => false end))). apply MG.
        * unfold sel at 1. rewrite vals_keep. eapply filter_merged; eauto.
    - exists cd. cbn [app]. replace (p + 16 + 0) with (p + 16) by lia. split; [reflexivity|]. rewrite RF by auto. auto. }
  destruct E1 as (d1 & E1 & Q1 & Q2 & Q3 & Q4). cbv zeta in E1. rewrite E1. clear E1.
  fold (go_in fu tail).
  assert (E2 : exists d2 l', (if sc d then go_in fu tail (N.to_nat (if sc d then lenN l else 0)) (mkR (p + 16 + fl) (kb ++ rest)) (with_flags d1 (d_nc d1) (d_mc d1) true) cl
      else Some (Done (mkR (p + 16 + fl) (kb ++ rest), (d1, cl)))) = Some (Done (mkR (p + 16 + fl + lenN kb) rest, (d2, l'))) /\
      same_set d1 d2 /\ map (fun x => (nm x, vw x)) l' = map (fun x => (nm x, vw x)) l /\ Forall plain l').
  { assert (A2 : (p + 16 + fl) mod 8 = 0) by (unfold fl; pose proof (mlen_8 pre (vals (d_map d))); destruct (sf d); lia).
    assert (FU2 : (length kb < fu)%nat).
    { cbn [hbytes] in FU. rewrite !app_length, !le_length in FU. fold kb in FU. lia. }
    assert (LK : lenN kb < 2^32) by lia.
    unfold kb in *. destruct (sc d) eqn:ES.
    2:{ exists d1, cl. cbn [app]. rewrite lenN_nil, N.add_0_r. split; [reflexivity|]. split; [apply same_set_refl|]. split; auto. }
    replace (N.to_nat (lenN l)) with (length l) by (unfold lenN; lia).
    assert (SS : same_set d1 (with_flags d1 (d_nc d1) (d_mc d1) true)) by (repeat split).
    clear - SS IH RK P4 W8 SD3 SD5 A2 FU2 LK.
    generalize dependent (with_flags d1 (d_nc d1) (d_mc d1) true). generalize dependent (p + 16 + fl). clear p. intros p A2 dd SS.
    revert cl P4 RK p A2 dd SS. induction l as [|x l IHl]; intros cl P4 RK p A2 dd SS.
    - cbn [map concat app length go_in]. rewrite lenN_nil, N.add_0_r. do 2 eexists. split; [reflexivity|]. split; [|split; [reflexivity|constructor]].
      destruct cl; auto.
    - cbn [map concat length go_in] in *. inversion IH as [|? ? I1 I2]; inversion W8 as [|? ? X1 X2]; subst.
      inversion SD3 as [|? ? C1 C2]; inversion SD5 as [|? ? D1 D2]; subst. cbn [fst snd] in C1, D1.
      rewrite !lenN_app, lenN_str_bytes, lenN_hbytes in LK. rewrite !app_length in FU2.
      pose proof (hlen_8 x) as (Y1 & Y2). pose proof (str_storesize_8 (nm x)) as (Z1 & Z2).
      rewrite <- !app_assoc. rewrite read_str_ok; auto; try lia.
      2:{ rewrite lenN_app, lenN_hbytes. lia. }
      assert (ST : exists (d' : hdata) y b, (match find_kid (nm x) cl with
          | Some (a, x0, b) => (match a with [] => dd | _ :: _ => childs_changed dd end, x0, b)
          | None => (childs_changed dd, new_item (nm x), cl) end) = (d', y, b) /\ same_set d1 d' /\ nm y = nm x /\ rel x y /\ rel_kids l b /\ plain y /\ Forall plain b).
      { cbn [rel_kids] in RK. fold rel_kids in RK. pose proof (find_kid_split (nm x) cl) as FK. destruct (find_kid (nm x) cl) as [((a, y), b)|].
        - destruct FK as (-> & EN & _). apply Forall_app in P4. destruct P4 as (P5 & P6). inversion P6; subst.
          do 3 eexists. split; [reflexivity|]. split; [destruct a; auto|]. tauto.
        - do 3 eexists. split; [reflexivity|]. split; [eapply same_set_trans; [exact SS|apply same_set_cc]|]. split; [reflexivity|].
          split; [tauto|]. split; [tauto|]. split; [apply plain_new|auto]. }
      destruct ST as (d' & y & b & -> & SS2 & EN & RX & RR & PY & PB).
      destruct (I1 y fu (p + str_storesize (nm x)) (concat (map (fun c => str_bytes (nm c) ++ hbytes c) l) ++ rest)) as (y' & EY & VY & NY & PY'); auto; try lia.
      rewrite EY.
      destruct (IHl I2 X2 C2 D2 ltac:(lia) ltac:(lia) b PB RR (p + str_storesize (nm x) + hlen x) ltac:(lia) d' SS2) as (d2 & l' & EL & S3 & V3 & P3).
      fold (go_in fu tail). rewrite EL. exists d2, (y' :: l'). split; [|split; [auto|split; [cbn [map]; rewrite VY, NY, EN, V3; reflexivity|auto]]].
      do 4 f_equal. rewrite !lenN_app, lenN_str_bytes, lenN_hbytes. lia. }
  destruct E2 as (d2 & l' & E2 & (T1 & T2 & T3) & V2 & P5). rewrite E2.
  replace (hlen (HN k d l) / 8 * 8) with (hlen (HN k d l)) by lia.
  replace (p + 16 + fl + lenN kb) with (p + hlen (HN k d l)) by lia. rewrite verify_in_exact.
  exists (HN ck d2 l'). split; [reflexivity|]. split; [cbn [view]; rewrite V2, T3, Q4; reflexivity|]. split; [reflexivity|].
  constructor; auto; congruence.
Qed.
End Stream.
