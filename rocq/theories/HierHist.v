(* History of one item without sub-items. *)
From Verif Require Import Common ListFacts Bytes RecordSpec RecordModel RecordMap RecordOut RecordIn RecordProofs HierSpec HierModel HierProofs HierInv.
Local Open Scope N_scope.

Lemma same_refl v : same_val v v.
Proof. left. reflexivity. Qed.
Lemma same_sym a b : same_val a b -> same_val b a.
Proof. intros [->|(x & y & -> & -> & H1 & H2)]; [left; auto|right]. exists y, x. auto. Qed.
Lemma same_trans a b c : same_val a b -> same_val b c -> same_val a c.
Proof.
  intros [->|(x & y & -> & -> & H1 & H2)]; auto. intros [<-|(x2 & y2 & E & -> & H3 & H4)]; [right; exists x, y; auto|].
  right. exists x, y2. auto.
Qed.

(* a map of fields holds the values of a state, up to the sign of a zero *)
Definition like (r : fmap field) (s : fmap value) : Prop := forall k,
  match mget k s with
  | Some v => exists g, mget k r = Some g /\ same_val (f_val g) v
  | None => mget k r = None
  end.

Lemma mget_apply_del d : forall m, msorted m -> mget del_name m = None -> mget del_name (fold_left apply_step d m) = None.
Proof.
  induction d as [|(k, f) d IH]; intros m MS H; cbn [fold_left]; auto. unfold apply_step at 2. cbn [fst snd].
  destruct (beqb_spec k del_name) as [->|N1]; cbn [negb].
  - apply IH; [apply fold_mdel_sorted; auto|]. rewrite mget_fold_mdel by auto. destruct (memb _ _); auto.
  - apply IH; [apply mset_sorted; auto|]. rewrite mget_mset by auto. destruct (beqb_spec del_name k); [congruence|auto].
Qed.

Definition fine (m : fmap field) : Prop := msorted m /\ mget del_name m = None /\ forall k f, mget k m = Some f -> settable (f_val f).

Lemma diff_like p cur r : fine p -> fine cur -> msorted r -> like r (vals cur) ->
  (forall k f g, mget k p = Some f -> mget k cur = Some g -> f_mod g = false -> same_val (f_val g) (f_val f)) ->
  msorted (apply_diff r (make_diff p cur)) /\ like (apply_diff r (make_diff p cur)) (vals p).
Proof.
  intros (S1 & D1 & PS) (S2 & D2 & _) SR LK FL. unfold apply_diff. change (fun (m : fmap field) e => _) with apply_step.
  destruct (make_diff_spec p cur S1 S2 D1 D2) as (M1 & M2 & M3). cbv zeta in *.
  set (d := make_diff p cur) in *. split; [apply apply_sorted; auto|].
  assert (DR : mget del_name r = None). { specialize (LK del_name). rewrite mget_vals, D2 in LK. auto. }
  intros k. rewrite mget_vals. destruct (beqb_spec k del_name) as [->|NK].
  { rewrite D1. apply mget_apply_del; auto. }
  pose proof (apply_spec d (msorted_nodup _ M1) r SR) as HA.
  assert (DJ : forall k0, In k0 (del_list d) -> ~ In k0 (keys d)).
  { intros k0 I1 I2. apply M3 in I1. destruct I1 as (C1 & C2).
    destruct (beqb_spec k0 del_name) as [->|N].
    - apply keys_mget in C1. destruct C1 as (v & C1). congruence.
    - apply keys_mget in I2. destruct I2 as (v & I2). rewrite M2 in I2 by auto. rewrite C2 in I2.
      destruct (mget k0 cur) as [g|]; [destruct (f_mod g)|]; congruence. }
  assert (PD : forall k0 f, In (k0, f) d -> k0 <> del_name -> settable (f_val f)).
  { intros k0 f I1 N. apply (in_mget _ _ _ (msorted_nodup _ M1)) in I1. rewrite M2 in I1 by auto.
    apply (PS k0). destruct (mget k0 cur) as [g|]; [destruct (f_mod g)|]; congruence. }
  specialize (HA DJ PD k NK). rewrite M2 in HA by auto. specialize (LK k). rewrite mget_vals in LK.
  destruct (mget k p) as [f|] eqn:GT.
  - destruct (mget k cur) as [g|] eqn:GC.
    + destruct (f_mod g) eqn:FM.
      * destruct HA as (g' & E1 & E2 & _). eauto.
      * rewrite HA. destruct (memb_spec k (del_list d)) as [I|_].
        { apply M3 in I. destruct I. congruence. }
        destruct LK as (g' & L1 & L2). exists g'. split; auto. eapply same_trans; [exact L2|]. eapply FL; eauto.
    + destruct HA as (g' & E1 & E2 & _). eauto.
  - assert (NCK : mget k (fold_left apply_step d r) = if memb k (del_list d) then None else mget k r).
    { destruct (mget k cur) as [g|]; [destruct (f_mod g)|]; auto. }
    rewrite NCK. destruct (memb_spec k (del_list d)) as [_|N]; auto.
    destruct (mget k cur) as [g|] eqn:GC; auto. exfalso. apply N. apply M3. split; auto. eapply mget_some_keys; eauto.
Qed.

Lemma clone_like m : fine m -> fine (clone m) /\ like (clone m) (vals m).
Proof.
  intros (S1 & D1 & PS). unfold clone.
  assert (G : forall l r, NoDup (keys l) -> (forall k f, In (k, f) l -> settable (f_val f)) -> msorted r -> (forall k, In k (keys l) -> mget k r = None) ->
    let c := fold_left (fun r e => map_set r (fst e) (f_val (snd e))) l r in
    msorted c /\ forall k, match mget k l with Some f => exists g, mget k c = Some g /\ same_val (f_val g) (f_val f) /\ settable (f_val g) | None => mget k c = mget k r end).
  { induction l as [|(k1, f1) l IH]; intros r ND PL SR NR; cbn [fold_left].
    - split; auto. intros k. reflexivity.
    - cbn [keys map fst] in ND. inversion ND as [|? ? NI ND2]; subst. cbn [fst snd].
      assert (SM : msorted (map_set r k1 (f_val f1))) by (apply map_set_sorted; auto).
      assert (GM : forall k, mget k (map_set r k1 (f_val f1)) = if beqb k k1 then Some (set_value (mkF VNone false) (f_val f1)) else mget k r).
      { intros k. unfold map_set. rewrite (NR k1) by (left; auto). apply mget_mset. auto. }
      destruct (IH (map_set r k1 (f_val f1)) ND2 ltac:(intros; eapply PL; right; eauto) SM) as (A1 & A2).
      { intros k Hk. rewrite GM. destruct (beqb_spec k k1) as [->|N1]; [contradiction|]. apply NR. right. auto. }
      split; auto. intros k. specialize (A2 k). cbn [mget]. destruct (beqb_spec k k1) as [->|N1].
      + rewrite (mget_none_keys k1 l NI) in A2. rewrite A2, GM, beqb_refl. eexists. split; [reflexivity|].
        assert (SV : settable (f_val f1)) by (apply (PL k1); left; auto).
        assert (EV : f_val (set_value (mkF VNone false) (f_val f1)) = f_val f1).
        { clear - SV. destruct (f_val f1) as [|w| | | | |l|l|l| | | | | |]; cbn in *; auto.
          - destruct SV as (_ & SV). destruct (N.eqb_spec w 0); [subst; auto|]. f_equal. lia.
          - destruct l; auto. destruct SV as (_ & SV). congruence.
          - destruct l; auto. destruct SV as (_ & SV). congruence.
          - destruct l; auto. destruct SV as (_ & SV). congruence.
          - destruct SV as (SV & _). destruct SV. }
        rewrite EV. split; [apply same_refl|auto].
      + destruct (mget k l); auto. rewrite A2, GM. destruct (beqb_spec k k1); [congruence|auto]. }
  destruct (G m [] (msorted_nodup _ S1)) as (A1 & A2); auto.
  { intros k f H. eapply PS. apply in_mget; eauto. apply msorted_nodup. auto. }
  { exact I. }
  cbv zeta in *. split.
  - split; [auto|]. split.
    + specialize (A2 del_name). rewrite D1 in A2. auto.
    + intros k f H. specialize (A2 k). destruct (mget k m) as [f0|].
      * destruct A2 as (g & E1 & E2 & E3). congruence.
      * rewrite A2 in H. discriminate.
  - intros k. rewrite mget_vals. specialize (A2 k). destruct (mget k m) as [f0|]; auto. destruct A2 as (g & E1 & E2 & E3). eauto.
Qed.

(* differences and states, newest first: each difference leads to the state before *)
Fixpoint chain (ds : list (N * fmap field)) (ss : list (fmap value)) : Prop :=
  match ds with
  | [] => True
  | d :: ds' =>
    match ss with
    | s0 :: (s1 :: _) as r => (forall m, msorted m -> like m s0 -> msorted (apply_diff m (snd d)) /\ like (apply_diff m (snd d)) s1) /\ chain ds' r
    | _ => False
    end
  end.

Lemma chain_cut n : forall ds ss, chain ds ss -> chain (firstn n ds) ss.
Proof.
  induction n as [|n IH]; intros ds ss H; [exact I|]. destruct ds as [|d ds]; [exact I|]. cbn [firstn chain] in *.
  destruct ss as [|s0 [|s1 r]]; auto. destruct H as (H1 & H2). split; auto.
Qed.

(* fields compared with those of the last state *)
Definition since (p : fmap field) (d : hdata) : Prop := forall k,
  match mget k (d_map d), mget k p with
  | Some g, Some f => f_mod g = true \/ same_val (f_val g) (f_val f)
  | Some g, None => f_mod g = true
  | None, Some f => d_fch d = true
  | None, None => True
  end.

Record hinv (depth : N) (d : hdata) (st : list (fmap value)) : Prop := {
  hi_fine : fine (d_map d);
  hi_flags : d_nc d = false /\ d_mc d = false /\ d_cc d = false;
  hi_auto : d_auto d = true;
  hi_hist : exists h, d_hist d = Some h /\ hs_on h = true /\ hs_cap h = depth /\ hs_childs h = false /\
    lenN (hs_arr h) = N.min depth (lenN st - 1) /\ chain (rev (hs_arr h)) (rev st) /\
    match hs_prev h with
    | None => st = []
    | Some p => exists s0 l, st = l ++ [s0] /\ fine p /\ like p s0 /\ since p d
    end
}.

Lemma set_value_settable f v : settable v -> settable (f_val f) \/ f = mkF VNone false -> settable (f_val (set_value f v)).
Proof.
  intros S1 S2. assert (S3 : settable (f_val f)). { destruct S2 as [S2|S2]; [exact S2|subst f; split; exact I]. }
  clear S2. unfold set_value. cbv zeta.
  assert (BW : forall w, settable (VBool (if w =? 0 then 0 else 1))).
  { intros w. split; cbn; [unfold word|]; destruct (w =? 0); lia. }
  destruct v as [|w|w|w|w|w|l|l|l|b|l|b| | |]; auto;
    try (destruct l as [|x l]; auto);
    destruct (f_val f) as [|w'|w'|w'|w'|w'|l'|l'|l'|b'|l'|b'| | |] eqn:EV; cbn [f_val]; auto;
    try (match goal with |- context [if ?c then _ else mkF _ _] => destruct c end; cbn [f_val]; auto; rewrite EV; auto).
  all: try (rewrite EV; auto).
Qed.

Lemma fine_set m k v : fine m -> k <> del_name -> settable v -> fine (map_set m k v).
Proof.
  intros (S1 & D1 & PS) NK SV. unfold map_set. split; [apply mset_sorted; auto|]. split.
  - rewrite mget_mset by auto. destruct (beqb_spec del_name k); [congruence|auto].
  - intros k' f. rewrite mget_mset by auto. destruct (beqb_spec k' k) as [->|]; [|apply PS]. intros [= <-].
    apply set_value_settable; auto. destruct (mget k m) eqn:G; auto. left. eapply PS; eauto.
Qed.
Lemma fine_del m k : fine m -> fine (mdel k m).
Proof.
  intros (S1 & D1 & PS). split; [apply mdel_sorted; auto|]. split.
  - rewrite mget_mdel by (apply msorted_nodup; auto). destruct (beqb _ _); auto.
  - intros k' f. rewrite mget_mdel by (apply msorted_nodup; auto). destruct (beqb k' k); [discriminate|]. apply PS.
Qed.
Lemma mget_clear k m : mget k (clear_map m) = match mget k m with Some f => Some (mkF (f_val f) false) | None => None end.
Proof. induction m as [|(k1, f1) m IH]; cbn [clear_map map mget fst snd]; auto. destruct (beqb k k1); auto. Qed.
Lemma keys_clear m : keys (clear_map m) = keys m.
Proof. unfold keys, clear_map. rewrite map_map. reflexivity. Qed.
Lemma fine_clear m : fine m -> fine (clear_map m).
Proof.
  intros (S1 & D1 & PS). split; [|split].
  - unfold clear_map. apply (map_keys (fun e => mkF (f_val (snd e)) false)). auto.
  - rewrite mget_clear, D1. auto.
  - intros k f. rewrite mget_clear. destruct (mget k m) eqn:G; [|discriminate]. intros [= <-]. cbn. eapply PS; eauto.
Qed.

Lemma since_set p d k v : msorted (d_map d) -> storable v -> since p d -> since p (set_field d k v).
Proof.
  intros S1 SV H k'. specialize (H k'). unfold set_field, map_set. cbn [d_map with_map d_fch]. rewrite mget_mset by auto.
  destruct (beqb_spec k' k) as [->|]; auto. destruct (mget k (d_map d)) as [g|] eqn:G.
  - destruct (set_value_mod g v) as [->|E]; auto. destruct (mget k p); auto.
  - rewrite (set_value_new v SV). destruct (mget k p); auto.
Qed.
Lemma since_del p d k : msorted (d_map d) -> since p d -> since p (remove_field d k).
Proof.
  intros S1 H k'. specialize (H k'). unfold remove_field, has. destruct (mget k (d_map d)) as [g|] eqn:G; auto.
  cbn [d_map with_map d_fch]. rewrite mget_mdel by (apply msorted_nodup; auto).
  destruct (beqb_spec k' k) as [->|].
  - destruct (mget k p); auto.
  - destruct (mget k' (d_map d)) eqn:G', (mget k' p); auto.
Qed.

Lemma hinv_set depth d st k v : hinv depth d st -> k <> del_name -> storable v -> hinv depth (set_field d k v) st.
Proof.
  intros [F FL A (h & H1 & H2 & H3 & H4 & H5 & H6 & H7)] NK SV. constructor; auto.
  - apply fine_set; auto. apply SV.
  - exists h. repeat (split; [assumption|]). destruct (hs_prev h); auto. destruct H7 as (s0 & l & X1 & X2 & X3 & X4).
    exists s0, l. repeat (split; [assumption|]). apply since_set; auto. apply F.
Qed.
Lemma hinv_del depth d st k : hinv depth d st -> hinv depth (remove_field d k) st.
Proof.
  intros [F FL A (h & H1 & H2 & H3 & H4 & H5 & H6 & H7)].
  assert (FF : fine (d_map (remove_field d k))).
  { unfold remove_field. destruct (has k (d_map d)); auto. apply fine_del. auto. }
  constructor; auto.
  - unfold remove_field. destruct (has k (d_map d)); auto.
  - unfold remove_field. destruct (has k (d_map d)); auto.
  - exists h. split. { unfold remove_field. destruct (has k (d_map d)); auto. }
    repeat (split; [assumption|]). destruct (hs_prev h); auto. destruct H7 as (s0 & l & X1 & X2 & X3 & X4).
    exists s0, l. repeat (split; [assumption|]). apply since_del; auto. apply F.
Qed.

Lemma time_not_del : time_name <> del_name.
Proof. discriminate. Qed.

Lemma like_ext r s1 s2 : (forall k, mget k s1 = mget k s2) -> like r s1 -> like r s2.
Proof. intros E H k. rewrite <- E. apply H. Qed.

Lemma like_trans_state r s p : like r (vals p) -> like p s -> like r s.
Proof.
  intros A B k. specialize (A k). specialize (B k). rewrite mget_vals in A. destruct (mget k s) as [v|].
  - destruct B as (g & B1 & B2). rewrite B1 in A. destruct A as (g' & A1 & A2). exists g'. split; auto. eapply same_trans; eauto.
  - rewrite B in A. auto.
Qed.

Lemma rev_tl {A} (l : list A) : rev (tl l) = firstn (length l - 1) (rev l).
Proof.
  destruct l as [|x l]; auto. cbn [tl rev length]. rewrite firstn_app, rev_length, Nat.sub_succ, Nat.sub_0_r, Nat.sub_diag, firstn_O, app_nil_r.
  rewrite <- (rev_length l), firstn_all. reflexivity.
Qed.

Lemma hinv_mark depth ver now tm d st : hinv depth d st -> 0 < depth -> word now -> word tm ->
  (was_changed d = false /\ mark_own ver now None no_mask tm d = (d, no_mask, tm)) \/
  (was_changed d = true /\ let d' := fst (fst (mark_own ver now None no_mask tm d)) in
   d_nv d' = ver /\ hinv depth d' (st ++ [vals (d_map d')])).
Proof.
  intros HI HP WN WT. pose proof HI as [F (N1 & N2 & N3) A HH]. destruct (was_changed d) eqn:WC.
  - right. split; auto. unfold mark_own. rewrite WC, N1, N2, N3. cbn [any no_mask m_value m_names m_childs orb andb].
    set (d1 := mkD _ _ _ _ _ _ _ _ _ _). change (d_auto d1) with (d_auto d). rewrite A.
    set (tm1 := if tm =? 0 then now else tm). assert (WT1 : word tm1) by (unfold tm1; destruct (tm =? 0); auto).
    set (d2 := set_field d1 time_name (VDatime tm1)).
    assert (H2 : hinv depth d2 st \/ True) by auto. clear H2.
    destruct HH as (h & H1 & H2 & H3 & H4 & H5 & H6 & H7).
    assert (EH : d_hist d2 = Some h) by exact H1.
    assert (F2 : fine (d_map d2)).
    { unfold d2. apply fine_set; [exact F|discriminate|]. split; cbn; auto. }
    unfold check_history. rewrite EH. cbn [fst snd]. unfold do_history. rewrite H2, H3.
    replace (0 <? depth) with true by (symmetry; apply N.ltb_lt; auto). cbn [andb fst].
    unfold record_history. rewrite EH. cbn [d_nv with_flags with_map with_hist d_map].
    split; [reflexivity|]. rewrite vals_clear. change (d_auto d2) with (d_auto d). rewrite A.
    destruct (clone_like (d_map d2) F2) as (FC & LC).
    constructor.
    + cbn. apply fine_clear. auto.
    + cbn. auto.
    + reflexivity.
    + eexists. split; [reflexivity|]. cbn [hs_on hs_cap hs_childs hs_arr hs_prev].
      split; [auto|]. split; [auto|]. split; [auto|].
      assert (SI : exists s0 l, st ++ [vals (d_map d2)] = l ++ [s0] /\ fine (clone (d_map d2)) /\ like (clone (d_map d2)) s0 /\
        since (clone (d_map d2)) (with_flags (with_map (with_hist d2 true (Some (mkHist true (hs_childs h) depth (Some (clone (d_map d2)))
          match hs_prev h with Some p => add_history ver (make_diff p (d_map d2)) h | None => hs_arr h end))) (clear_map (d_map d2)) false) false false false)).
      { exists (vals (d_map d2)), st. split; auto. split; auto. split; auto. intros k. cbn [d_map with_flags with_map d_fch].
        specialize (LC k). rewrite mget_vals in LC. rewrite mget_clear. destruct (mget k (d_map d2)) as [g|].
        - destruct LC as (g' & C1 & C2). rewrite C1. right. cbn [f_val]. apply same_sym. auto.
        - rewrite LC. auto. }
      rewrite rev_app_distr. cbn [rev app].
      destruct (hs_prev h) as [p|] eqn:EP.
      * destruct H7 as (s0 & l & X1 & X2 & X3 & X4).
        assert (X5 : since p d2). { unfold d2. apply since_set; [apply F|split; [split; cbn; auto|discriminate]|]. exact X4. }
        assert (CH : chain ((ver, make_diff p (d_map d2)) :: rev (hs_arr h)) (vals (d_map d2) :: rev st)).
        { rewrite X1 in *. rewrite rev_app_distr in *. cbn [rev app chain] in *. split; [|exact H6].
          intros m Sm Lm. cbn [snd]. destruct (diff_like p (d_map d2) m X2 F2 Sm Lm) as (Q1 & Q2).
          - intros k f g G1 G2 FM. specialize (X5 k). rewrite G1, G2 in X5. destruct X5; [congruence|auto].
          - split; auto. eapply like_trans_state; eauto. }
        assert (LST : lenN st = lenN l + 1). { rewrite X1. unfold lenN. rewrite app_length. cbn. lia. }
        unfold add_history. rewrite H3. destruct (N.eqb_spec depth 0); [lia|].
        destruct (N.eqb_spec (lenN (hs_arr h)) depth) as [EL|NL].
        -- split; [|split].
           ++ unfold lenN in *. rewrite !app_length. cbn [length]. destruct (hs_arr h); cbn [tl length] in *; lia.
           ++ rewrite rev_app_distr, rev_tl. cbn [rev app].
              apply (chain_cut (S (length (hs_arr h) - 1))) in CH. exact CH.
           ++ exact SI.
        -- split; [|split].
           ++ unfold lenN in *. rewrite !app_length. cbn [length]. lia.
           ++ rewrite rev_app_distr. exact CH.
           ++ exact SI.
      * subst st. cbn [app rev]. change (lenN (@nil (fmap value)) - 1) with 0 in H5.
        assert (EA : hs_arr h = []). { destruct (hs_arr h); auto. unfold lenN in H5. cbn in H5. lia. }
        rewrite EA. split; [|split]; auto. cbn. lia. cbn. auto.
  - left. split; auto. apply mark_own_idle.
    + split; rewrite ?N2, ?N3; discriminate.
    + unfold NC. rewrite N1, WC. reflexivity.
Qed.

(* ---- reading ---- *)
(* HistoryIter::next called until it returns false: the fields seen, newest first *)
Fixpoint read_all (fuel : nat) (d : hdata) (cnt : N) (fields : fmap field) : res (list (fmap field)) :=
  match fuel with
  | O => Loop
  | S fu =>
    do o <- iter_next d cnt fields;
    match o with
    | (true, c, m) => do r <- read_all fu d c m; Ok (m :: r)
    | (false, _, _) => Ok []
    end
  end.

Lemma read_steps d h : d_hist d = Some h -> lenN (hs_arr h) = hs_cap h -> forall ds pre m s ss,
  rev (hs_arr h) = pre ++ ds -> msorted m -> like m s -> chain ds (s :: ss) ->
  exists l, read_all (S (length ds)) d (lenN pre + 1) m = Ok l /\ Forall2 like l (firstn (length ds) ss).
Proof.
  intros EH EL. induction ds as [|x ds IH]; intros pre m s ss ER SM LM CH.
  - exists []. cbn [length firstn]. split; [|constructor]. cbn [read_all]. unfold iter_next.
    destruct (N.eqb_spec (lenN pre + 1) 0); [lia|]. unfold extract_step. rewrite EH.
    assert (LE : hs_cap h <= lenN pre + 1 - 1).
    { rewrite <- EL. rewrite app_nil_r in ER. rewrite <- ER. unfold lenN. rewrite rev_length. lia. }
    apply N.leb_le in LE. rewrite LE. reflexivity.
  - cbn [length]. cbn [chain] in CH. destruct ss as [|s1 ss]; [destruct CH|]. destruct CH as (C1 & C2).
    destruct (C1 m SM LM) as (S1 & L1).
    assert (EA : hs_arr h = rev ds ++ x :: rev pre).
    { rewrite <- (rev_involutive (hs_arr h)), ER, rev_app_distr. cbn [rev]. rewrite <- app_assoc. reflexivity. }
    assert (LL : hs_cap h = lenN ds + lenN pre + 1).
    { rewrite <- EL, EA. unfold lenN. rewrite app_length. cbn [length]. rewrite !rev_length. lia. }
    destruct (IH (pre ++ [x]) (apply_diff m (snd x)) s1 ss) as (l & R1 & R2); auto.
    { rewrite <- app_assoc. exact ER. }
    exists (apply_diff m (snd x) :: l). split; [|cbn [firstn]; constructor; auto].
    remember (S (length ds)) as fu. cbn [read_all]. unfold iter_next at 1.
    destruct (N.eqb_spec (lenN pre + 1) 0); [lia|]. unfold extract_step. rewrite EH.
    destruct (N.leb_spec (hs_cap h) (lenN pre + 1 - 1)); [lia|].
    replace (nth_error (hs_arr h) (N.to_nat (hs_cap h - (lenN pre + 1 - 1) - 1))) with (Some x).
    2:{ rewrite EA, nth_error_app2; rewrite rev_length; unfold lenN in *; [|lia].
        replace (N.to_nat (hs_cap h - (N.of_nat (length pre) + 1 - 1) - 1) - length ds)%nat with O by lia. reflexivity. }
    destruct x as (vx, fx). cbn [snd] in *. cbn [bind fst snd]. cbv iota beta.
    replace (lenN pre + 1 + 1) with (lenN (pre ++ [(vx, fx)]) + 1) by (unfold lenN; rewrite app_length; cbn [length]; lia).
    rewrite R1. reflexivity.
Qed.

Lemma since_like p d s : since p d -> was_changed d = false -> like p s -> msorted (d_map d) -> like (d_map d) s.
Proof.
  intros SI WC LP SM k. unfold was_changed in WC. apply orb_false_iff in WC. destruct WC as (W1 & W2).
  assert (NM : forall g, mget k (d_map d) = Some g -> f_mod g = false).
  { intros g G. destruct (f_mod g) eqn:FM; auto. exfalso.
    assert (E : existsb (fun e => f_mod (snd e)) (d_map d) = true); [|congruence].
    apply existsb_exists. exists (k, g). split; auto. apply mget_in. auto. }
  specialize (SI k). specialize (LP k). destruct (mget k (d_map d)) as [g|] eqn:G.
  - specialize (NM g eq_refl). destruct (mget k p) as [f|] eqn:GP; [|congruence].
    destruct SI as [SI|SI]; [congruence|]. destruct (mget k s) as [v|].
    + destruct LP as (g' & [= <-] & L2). exists g. split; auto. eapply same_trans; eauto.
    + discriminate.
  - destruct (mget k p) as [f|] eqn:GP; [congruence|]. destruct (mget k s) as [v|]; auto.
Qed.

Lemma read_all_ok depth d st : hinv depth d st -> was_changed d = false -> depth < lenN st ->
  exists l, read_all (S (S (N.to_nat depth))) d 0 [] = Ok l /\ Forall2 like l (newest (depth + 1) st).
Proof.
  intros [F _ _ (h & H1 & H2 & H3 & H4 & H5 & H6 & H7)] WC LT.
  destruct (hs_prev h) as [p|]; [|subst; unfold lenN in LT; cbn in LT; lia].
  destruct H7 as (s0 & l & X1 & X2 & X3 & X4).
  destruct (clone_like _ F) as (FC & LC).
  assert (L0 : like (clone (d_map d)) s0).
  { eapply like_trans_state; [exact LC|]. eapply since_like; eauto. apply F. }
  assert (EL : lenN (hs_arr h) = hs_cap h) by lia.
  rewrite X1, rev_app_distr in H6. cbn [rev app] in H6.
  destruct (read_steps d h H1 EL (rev (hs_arr h)) [] (clone (d_map d)) s0 (rev l)) as (r & R1 & R2); auto.
  { apply FC. }
  exists (clone (d_map d) :: r).
  assert (LD : length (rev (hs_arr h)) = N.to_nat depth). { rewrite rev_length. unfold lenN in EL. lia. }
  rewrite LD in *. split.
  - remember (S (N.to_nat depth)) as fu. cbn [read_all]. change (iter_next d 0 []) with (@Ok (bool * N * fmap field) (true, 1, clone (d_map d))).
    cbn [bind]. change (lenN [] + 1) with 1 in R1. rewrite R1. reflexivity.
  - unfold newest, takeN. rewrite X1, rev_app_distr. cbn [rev app].
    replace (N.to_nat (depth + 1)) with (S (N.to_nat depth)) by lia. cbn [firstn]. constructor; auto.
Qed.

Lemma read_all_short d h fu : d_hist d = Some h -> lenN (hs_arr h) < hs_cap h -> read_all (S (S fu)) d 0 [] = UB.
Proof.
  intros E L. remember (S fu) as f1. cbn [read_all]. change (iter_next d 0 []) with (@Ok (bool * N * fmap field) (true, 1, clone (d_map d))).
  cbn [bind]. subst f1. cbn [read_all]. unfold iter_next. cbn [N.eqb]. unfold extract_step. rewrite E.
  destruct (N.leb_spec (hs_cap h) (1 - 1)); [lia|].
  replace (nth_error _ _) with (@None (N * fmap field)); [reflexivity|]. symmetry. apply nth_error_None. unfold lenN in L. lia.
Qed.

(* ---- runs ---- *)
(* fields of the item at each of its versions *)
Fixpoint states (n : hnode) (ops : list hop) : list (fmap value) :=
  match ops with
  | [] => []
  | o :: r => let n' := hstep n o in
    (if d_nv (dat n') =? d_nv (dat n) then [] else [vals (d_map (dat n'))]) ++ states n' r
  end.

Definition item_op (o : hop) : Prop :=
  match o with
  | OSet [] k v => k <> del_name /\ storable v
  | ODel [] k => True
  | OMark [] now tm => word now /\ word tm
  | _ => False
  end.

Lemma mark_single k d now tm : mark_changed now tm [] (HN k d []) =
  HN k (fst (fst (mark_own (d_nv d + 1) now None no_mask tm d))) [].
Proof.
  unfold mark_changed. cbn [mark_at]. rewrite mark_tree_eq. unfold next_version. cbn [dat mark_kids].
  destruct (mark_own (d_nv d + 1) now None no_mask tm d) as ((d', m'), tm'). reflexivity.
Qed.

Lemma hist_run depth k : 0 < depth -> forall ops d st, Forall item_op ops -> hinv depth d st ->
  exists d', hrun ops (HN k d []) = HN k d' [] /\ hinv depth d' (st ++ states (HN k d []) ops).
Proof.
  intros HP. induction ops as [|o ops IH]; intros d st HF HI.
  - exists d. cbn [states]. rewrite app_nil_r. auto.
  - pose proof (Forall_inv HF) as HO. apply Forall_inv_tail in HF. unfold hrun. cbn [fold_left states]. fold (hrun ops (hstep (HN k d []) o)).
    destruct o as [p k1 v|p k1| | |p now tm| |]; cbn [item_op] in HO; try contradiction; destruct p; try contradiction.
    + cbn [hstep update_at on_data nm dat kids]. change (d_nv (set_field d k1 v)) with (d_nv d). rewrite N.eqb_refl. cbn [app].
      apply IH; auto. apply hinv_set; tauto.
    + cbn [hstep update_at on_data nm dat kids].
      replace (d_nv (remove_field d k1) =? d_nv d) with true.
      2:{ symmetry. apply N.eqb_eq. unfold remove_field. destruct (has k1 (d_map d)); auto. }
      cbn [app]. apply IH; auto. apply hinv_del; auto.
    + cbn [hstep]. rewrite mark_single. cbn [dat]. destruct HO as (W1 & W2).
      destruct (hinv_mark depth (d_nv d + 1) now tm d st HI HP W1 W2) as [(WC & E)|(WC & E1 & E2)].
      * rewrite E. cbn [fst]. rewrite N.eqb_refl. cbn [app]. apply IH; auto.
      * cbv zeta in *. rewrite E1. destruct (N.eqb_spec (d_nv d + 1) (d_nv d)); [lia|]. rewrite app_assoc. apply IH; auto.
Qed.

Lemma hrun_app a b n : hrun (a ++ b) n = hrun b (hrun a n).
Proof. unfold hrun. apply fold_left_app. Qed.

(* before the history is enabled *)
Definition bare (d : hdata) : Prop :=
  fine (d_map d) /\ (d_nc d = false /\ d_mc d = false /\ d_cc d = false) /\ d_auto d = false /\ d_hist d = None.
Lemma bare_run k : forall ops d, Forall item_op ops -> bare d -> exists d', hrun ops (HN k d []) = HN k d' [] /\ bare d'.
Proof.
  induction ops as [|o ops IH]; intros d HF HB; [exists d; auto|].
  pose proof (Forall_inv HF) as HO. apply Forall_inv_tail in HF. unfold hrun. cbn [fold_left]. fold (hrun ops (hstep (HN k d []) o)).
  destruct o as [p k1 v|p k1| | |p now tm| |]; cbn [item_op] in HO; try contradiction; destruct p; try contradiction.
  + cbn [hstep update_at on_data nm dat kids]. apply IH; auto. destruct HB as (B1 & B2). split; auto. apply fine_set; tauto || apply HO.
  + cbn [hstep update_at on_data nm dat kids]. apply IH; auto. destruct HB as (B1 & B2). unfold remove_field. cbn [dat].
    destruct (has k1 (d_map d)); [|split; auto]. split; auto. apply fine_del. auto.
  + cbn [hstep]. rewrite mark_single. apply IH; auto. destruct HB as (B1 & (N1 & N2 & N3) & B3 & B4).
    unfold mark_own. rewrite N1, N2, N3, B3. cbn [any no_mask m_value m_names m_childs orb andb d_auto].
    unfold check_history. cbn [d_hist]. rewrite B4. destruct (was_changed d); cbn [fst andb].
    * split; [apply fine_clear; auto|]. split; [auto|]. split; cbn; auto.
    * unfold bare. cbn. rewrite ?B3, ?B4. auto.
Qed.

Lemma enable_hinv depth k d : 0 < depth -> word depth -> bare d ->
  exists d', hstep (HN k d []) (OHistory [] depth false) = HN k d' [] /\ hinv depth d' [].
Proof.
  intros HP WD (B1 & B2 & B3 & B4). cbn [hstep update_at]. unfold enable_history.
  replace (0 <? depth) with true by (symmetry; apply N.ltb_lt; auto). cbn [enable_time dat d_hist with_hist]. rewrite B4.
  destruct (N.eqb_spec 0 depth); [lia|]. unfold on_data. cbn [nm dat kids]. eexists. split; [reflexivity|].
  constructor; auto.
  - apply fine_set; auto; [discriminate|]. split; cbn; auto.
  - eexists. split; [reflexivity|]. cbn. repeat (split; [auto; lia|]). auto.
Qed.
