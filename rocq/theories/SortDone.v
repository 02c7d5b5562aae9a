(* Proofs about the sorter: when subevents arrive at most one buffer late, nothing is lost and
   the subevents leave in order. *)
From Coq Require Import Permutation Sorting.Sorted.
From Verif Require Import Common ListFacts Bytes HadSpec TrigModel TrigProofs SortSpec SortModel SortProofs.
Local Open Scope N_scope.

Lemma lastl_snoc {A} (l : list A) x : lastl (l ++ [x]) = [x].
Proof. unfold lastl. rewrite rev_app_distr. reflexivity. Qed.
Lemma lastl_in {A} (l : list A) x : In x (lastl l) -> In x l.
Proof. destruct l as [|a l _] using rev_ind; [intros []|]. rewrite lastl_snoc. intros [<-|[]]. apply in_app_iff. right. left. reflexivity. Qed.
Lemma first_at T : forall j b, nth_error T j = Some b -> inside b <> [] -> (forall i c, (i < j)%nat -> nth_error T i = Some c -> inside c = []) -> first T = inside b.
Proof.
  unfold first. induction T as [|c T IH]; intros [|j] b Hj Hb He; cbn in Hj; try discriminate.
  - injection Hj as ->. cbn [map filter]. destruct (inside b); [contradiction|reflexivity].
  - cbn [map filter]. rewrite (He O c ltac:(lia) eq_refl). cbn [filled]. apply (IH j b Hj Hb). intros i d Hi Hd. exact (He (S i) d ltac:(lia) Hd).
Qed.
Lemma first_before T : forall x, In x (first T) -> exists i b, nth_error T i = Some b /\ In x (inside b) /\ forall j c, nth_error T j = Some c -> inside c <> [] -> (i <= j)%nat.
Proof.
  unfold first. induction T as [|c T IH]; intros x Hx; [destruct Hx|]. cbn [map filter] in Hx. destruct (inside c) as [|y l] eqn:Ec; cbn [filled] in Hx.
  - destruct (IH x Hx) as (i & b & H1 & H2 & H3). exists (S i), b. split; [exact H1|]. split; [exact H2|]. intros [|j] d Hd Nd; cbn in Hd; [injection Hd as <-; congruence|]. specialize (H3 j d Hd Nd). lia.
  - cbn [hd] in Hx. exists O, c. split; [reflexivity|]. split; [rewrite Ec; exact Hx|]. intros. lia.
Qed.
Lemma insides_nth T x : In x (insides T) <-> exists j b, nth_error T j = Some b /\ In x (inside b).
Proof.
  unfold insides. rewrite in_concat. split.
  - intros (l & Hl & Hx). apply in_map_iff in Hl. destruct Hl as (b & <- & Hb). apply In_nth_error in Hb. destruct Hb as (j & Hj). exists j, b. auto.
  - intros (j & b & Hj & Hx). exists (inside b). split; [apply in_map; exact (nth_error_In _ _ Hj)|exact Hx].
Qed.

Section S.
Context (k : N) (HK : k < 31) (T : list sbuf) (lab : nat -> Z).
Definition lb (x : item) : Z := lab (fst x).
Definition near (x y : item) : Prop := (2 * Z.abs (lb x - lb y) < Z.of_N (2^k))%Z.
Context (HL : forall x, In x (insides T) -> number k (snd x) = Z.to_N (lb x mod Z.of_N (2^k)))
  (HI : forall x y, In x (insides T) -> In y (insides T) -> lb x = lb y -> x = y)
  (HD : forall i j a b x y, nth_error T i = Some a -> In x (inside a) -> nth_error T j = Some b -> In y (inside b) ->
     (i + 2 <= j)%nat \/ (exists m, (i < m < j)%nat /\ nth_error T m = Some SEof) -> (lb x < lb y)%Z)
  (H0 : forall y, In y (insides T) -> exists x, In x (first T) /\ (lb x <= lb y)%Z)
  (ND : NoDup (insides T)).

Lemma near_diff x y : In x (insides T) -> In y (insides T) -> near x y -> diff k (number k (snd x)) (number k (snd y)) = (lb y - lb x)%Z.
Proof.
  intros Hx Hy H. rewrite (HL x Hx), (HL y Hy). unfold near in H. unfold diff. assert (P := M_pos k HK). revert P H. generalize (Z.of_N (2^k)) (lb x) (lb y). clear. intros M a b P H.
  change (2^30)%Z with 1073741824%Z in P. assert (Qa := Z.mod_pos_bound a M (proj1 P)). assert (Qb := Z.mod_pos_bound b M (proj1 P)). rewrite !Z2N.id by lia.
  assert (R := trig_diff_spec M (a mod M) (b mod M)). change (2^31)%Z with 2147483648%Z in R. destruct R as ((j & E) & L); [lia|lia|lia|].
  assert (Ea := Z.div_mod a M ltac:(lia)). assert (Eb := Z.div_mod b M ltac:(lia)).
  assert (Q : exists i, (trig_diff M (a mod M) (b mod M) = b - a + i * M)%Z). { exists (j - (b / M) + (a / M))%Z. rewrite E. lia. }
  destruct Q as (i & Q). rewrite Q in *. assert (i = 0 \/ i <= -1 \/ 1 <= i)%Z as [->|[C|C]] by lia; [lia| |]; exfalso; nia.
Qed.

(* [E] holds the subevents with the lowest numbers, in order *)
Definition init (E : list item) : Prop := (forall x y, In x E -> In y (insides T) -> ~ In y E -> (lb x < lb y)%Z) /\ rising lab E /\ incl E (insides T).
Lemma init_snoc E x : init E -> In x (insides T) -> ~ In x E -> (forall y, In y (insides T) -> ~ In y E -> y <> x -> (lb x < lb y)%Z) -> init (E ++ [x]).
Proof.
  intros (I1 & I2 & I3) Hx Nx H. split; [|split].
  - intros a y Ha Hy Ny. rewrite in_app_iff in Ny. apply in_app_iff in Ha. destruct Ha as [Ha|[<-|[]]]; [apply I1; auto|]. apply H; auto. intros ->. apply Ny. right. left. reflexivity.
  - apply (chain_snoc _ _ _ x I2). intros Q. change (lb (last E x) < lb x)%Z. apply I1; auto. destruct E as [|e E _] using rev_ind; [contradiction|]. rewrite last_last. apply in_app_iff. right. left. reflexivity.
  - intros a Ha. apply in_app_iff in Ha. destruct Ha as [Ha|[<-|[]]]; auto.
Qed.
(* the next number *)
Lemma init_next E e x : init E -> lastl E = [e] -> In x (insides T) -> ~ In x E -> lb x = (lb e + 1)%Z -> init (E ++ [x]).
Proof.
  intros I He Hx Nx Hl. apply init_snoc; auto. intros y Hy Ny Nyx. assert (L := proj1 I e y (lastl_in E e ltac:(rewrite He; left; reflexivity)) Hy Ny). assert (lb y <> lb x) by (intros Q; apply Nyx; apply HI; auto). lia.
Qed.
Lemma lastn_lastl E e : lastl E = [e] -> lastn k E = number k (snd e).
Proof. destruct E as [|a E _] using rev_ind; [discriminate|]. rewrite lastl_snoc. intros H. injection H as ->. apply lastn_snoc. Qed.

Definition pair_near (l : list item) : Prop := forall x y, In x l -> In y l -> near x y.
Lemma consecutive_labs n l : forall x t, incl (x :: l) (insides T) -> pair_near (x :: l) -> consecutive k (number k (snd x)) (map (rec_of k n) l) = Some t -> forall y, In y l -> (lb x < lb y)%Z.
Proof.
  induction l as [|z l IH]; intros x t Hi Hn H y Hy; [destruct Hy|]. cbn [map consecutive] in H. rewrite (rec_trig k HK) in H.
  destruct (N.eqb_spec (number k (snd x)) none) as [Q|_]; [destruct (number_none k HK _ Q)|]. cbn [negb andb] in H.
  rewrite near_diff in H; [|apply Hi; left; reflexivity|apply Hi; right; left; reflexivity|apply Hn; [left; reflexivity|right; left; reflexivity]].
  destruct (Z.eqb_spec (lb z - lb x) 1) as [Q|Q]; [|discriminate]. cbn [negb] in H. destruct Hy as [->|Hy]; [lia|].
  assert (L := IH z t (fun a Ha => Hi a (or_intror Ha)) (fun a b Ha Hb => Hn a b (or_intror Ha) (or_intror Hb)) H y Hy). lia.
Qed.
Lemma consecutive_init n l : forall E t, init E -> incl l (insides T) -> NoDup (E ++ l) -> pair_near (lastl E ++ l) ->
  (E = [] -> forall x, hd_error l = Some x -> forall y, In y (insides T) -> y <> x -> (lb x < lb y)%Z) ->
  consecutive k (lastn k E) (map (rec_of k n) l) = Some t -> init (E ++ l).
Proof.
  induction l as [|x l IH]; intros E t I Hi Nd Hn H1 H; [rewrite app_nil_r; exact I|]. cbn [map consecutive] in H. rewrite (rec_trig k HK) in H.
  assert (Nx : ~ In x E). { intros Q. apply NoDup_app_iff in Nd. apply (proj2 (proj2 Nd) x Q). left. reflexivity. }
  assert (Hx : In x (insides T)) by (apply Hi; left; reflexivity).
  assert (Ix : init (E ++ [x])).
  { destruct (lastl E) as [|e q] eqn:El.
    - assert (E = []) by (destruct E as [|a E _] using rev_ind; [reflexivity|]; rewrite lastl_snoc in El; discriminate). subst E. apply init_snoc; auto; intros y Hy _ Q; exact (H1 eq_refl x eq_refl y Hy Q).
    - assert (q = []) by (destruct E as [|a E _] using rev_ind; [discriminate|]; rewrite lastl_snoc in El; congruence). subst q.
      assert (He : In e (insides T)). { apply I. apply lastl_in. rewrite El. left. reflexivity. }
      rewrite (lastn_lastl E e El) in H. destruct (N.eqb_spec (number k (snd e)) none) as [Q|_]; [destruct (number_none k HK _ Q)|]. cbn [negb andb] in H.
      rewrite near_diff in H; auto; [|apply Hn; [left; reflexivity|apply in_app_iff; right; left; reflexivity]]. destruct (Z.eqb_spec (lb x - lb e) 1) as [Q|Q]; [|discriminate]. apply (init_next E e x); auto. lia. }
  assert (H2 : consecutive k (lastn k (E ++ [x])) (map (rec_of k n) l) = Some t). { rewrite lastn_snoc. destruct (negb (lastn k E =? none) && negb (diff k (lastn k E) (number k (snd x)) =? 1)%Z); [discriminate|exact H]. }
  change (x :: l) with ([x] ++ l). rewrite app_assoc. apply (IH (E ++ [x]) t); auto.
  - intros a Ha. apply Hi. right. exact Ha.
  - rewrite <- app_assoc. exact Nd.
  - rewrite lastl_snoc. intros a b Ha Hb. apply Hn; apply in_app_iff; right; assumption.
  - intros Q. destruct E; discriminate.
Qed.

(* ---- the invariant ---- *)
Record done (fut pre : list sbuf) (s : sorter) : Prop := mkDone {
  x_T : T = pre ++ q_in s ++ fut;
  x_rec : Forall (fun r => exists b, nth_error T (length pre + r_buf r) = Some b /\ In (r_item r) (inside b)) (q_subs s);
  x_lo : Forall (fun r => (q_ready s <= r_buf r)%nat) (q_subs s);
  x_scan : forall j b y, nth_error T j = Some b -> In y (inside b) -> (j < length pre + q_next s)%nat -> In y (q_emit s) \/ In y (map r_item (q_subs s));
  x_init : init (q_emit s);
  x_near : pair_near (insides (q_in s) ++ lastl (q_emit s));
  x_eof : forall j, (j < q_next s)%nat -> nth_error (q_in s) j <> Some SEof
}.
Definition so_far (pre : list sbuf) (s : sorter) : list item := insides (pre ++ q_in s).
Lemma done_nodup st fut pre s : inv k st (so_far pre s) s -> T = pre ++ q_in s ++ fut -> NoDup (q_emit s ++ map r_item (q_subs s)) /\ NoDup (q_emit s ++ insides (skipn (q_next s) (q_in s))).
Proof.
  intros [_ _ _ _ (lo & P) _] E. assert (N1 : NoDup (so_far pre s)). { rewrite E, app_assoc, insides_app in ND. apply NoDup_app_iff in ND. apply ND. }
  assert (N2 := Permutation_NoDup (Permutation_sym P) N1). rewrite NoDup_app_iff in N2. destruct N2 as (A1 & A2 & A3). rewrite NoDup_app_iff in A2. destruct A2 as (B1 & B2 & B3). rewrite NoDup_app_iff in B2. destruct B2 as (C1 & C2 & C3).
  rewrite !NoDup_app_iff. split; (split; [exact A1|split; [assumption|]]); intros x Hx Q; apply (A3 x Hx); apply in_app_iff; [left; exact Q|right; apply in_app_iff; left; exact Q].
Qed.
Lemma in_T fut pre s j : T = pre ++ q_in s ++ fut -> (j < length (q_in s))%nat -> nth_error T (length pre + j) = nth_error (q_in s) j.
Proof. intros E L. rewrite E, nth_error_app2 by lia. replace (length pre + j - length pre)%nat with j by lia. apply nth_error_app1. exact L. Qed.
Lemma rec_in fut pre s r : T = pre ++ q_in s ++ fut -> (r_buf r < length (q_in s))%nat -> (exists b, nth_error T (length pre + r_buf r) = Some b /\ In (r_item r) (inside b)) -> In (r_item r) (insides (q_in s)).
Proof. intros E L (b & H1 & H2). rewrite (in_T _ _ _ _ E L) in H1. apply insides_nth. exists (r_buf r), b. auto. Qed.
Lemma in_all fut pre s x : T = pre ++ q_in s ++ fut -> In x (insides (q_in s)) -> In x (insides T).
Proof. intros E H. rewrite E, !insides_app, !in_app_iff. auto. Qed.

(* scanning *)
Lemma scan_one_done st fut pre s a l r : inv k st (so_far pre s) (with_sc s a) -> done fut pre (with_sc s a) -> skipn (sc_next a) (q_in s) = SBuf l :: r -> done fut pre (with_sc s (scan_one k l a)).
Proof.
  intros I D Hl. assert (Nd := done_nodup st fut pre (with_sc s a) I (x_T _ _ _ D)). destruct I as [H1 H2 H3 _ _ _]. destruct D as [D1 D2 D3 D4 D5 D6 D7]. cbn [with_sc q_in q_next q_ready q_subs q_last q_out q_emit q_sent q_over so_far] in *.
  assert (Hn : nth_error (q_in s) (sc_next a) = Some (SBuf l)). { rewrite <- (Nat.add_0_r (sc_next a)), <- nth_error_skipn, Hl. reflexivity. }
  assert (Hlen : (sc_next a < length (q_in s))%nat) by (apply nth_error_Some; congruence).
  assert (Hat : nth_error T (length pre + sc_next a) = Some (SBuf l)) by (rewrite (in_T fut pre s _ D1 Hlen); exact Hn).
  assert (Hin : incl l (insides (q_in s))) by (intros x Hx; apply insides_nth; exists (sc_next a), (SBuf l); auto).
  assert (Base : forall w, done fut pre (with_sc s (mkSc (S (sc_next a)) (sc_ready a) (sc_subs a ++ map (rec_of k (sc_next a)) l) (sc_last a) (sc_emit a) w))).
  { intros w. split; cbn [with_sc sc_next sc_ready sc_subs sc_last sc_emit q_in q_next q_ready q_subs q_last q_out q_emit q_sent q_over]; auto.
    - apply Forall_app. split; [exact D2|]. apply Forall_map, Forall_forall. intros x Hx. exists (SBuf l). split; [exact Hat|exact Hx].
    - apply Forall_app. split; [exact D3|]. apply Forall_map, Forall_forall. intros x _. cbn. lia.
    - intros j b y Hj Hy Lj. rewrite map_app, map_map. cbn [r_item rec_of]. rewrite map_id, in_app_iff. destruct (Nat.eq_dec j (length pre + sc_next a)) as [->|Q].
      + rewrite Hat in Hj. injection Hj as <-. right. right. exact Hy.
      + destruct (D4 j b y Hj Hy ltac:(lia)); auto.
    - intros j Lj. destruct (Nat.eq_dec j (sc_next a)) as [->|Q]; [congruence|]. apply D7. lia. }
  unfold scan_one. destruct ((sc_ready a =? sc_next a)%nat && match sc_subs a with [] => true | _ => false end) eqn:C; [|apply Base].
  apply andb_prop in C. destruct C as (C1 & C2). destruct (sc_subs a) as [|? ?] eqn:Es; [|discriminate]. cbn [app] in *. destruct (consecutive k (sc_last a) (map (rec_of k (sc_next a)) l)) as [t|] eqn:Ec; [|apply Base].
  assert (Ix : init (sc_emit a ++ l)).
  { rewrite H3 in Ec. apply (consecutive_init (sc_next a) l (sc_emit a) t); auto.
    - intros x Hx. exact (in_all _ _ _ _ D1 (Hin x Hx)).
    - destruct Nd as (_ & Nd). rewrite Hl in Nd. change (insides (SBuf l :: r)) with (l ++ insides r) in Nd. rewrite app_assoc in Nd. apply NoDup_app_iff in Nd. apply Nd.
    - intros x y Hx Hy. apply D6; rewrite in_app_iff in *; [destruct Hx as [Hx|Hx]|destruct Hy as [Hy|Hy]]; auto.
    - intros E x Hx y Hy Ny. destruct l as [|x' l]; [discriminate|]. injection Hx as ->. rewrite E in *.
      assert (Fi : first T = x :: l). { refine (first_at T (length pre + sc_next a) _ Hat _ _); [discriminate|]. intros i c Hi Hc. destruct (inside c) as [|z q] eqn:Q; [reflexivity|]. destruct (D4 i c z Hc ltac:(rewrite Q; left; reflexivity) ltac:(lia)) as [W|W]; destruct W. }
      destruct (H0 y Hy) as (m & Hm & Lm). rewrite Fi in Hm.
      assert (Hx : In x (insides T)) by (apply (in_all _ _ _ _ D1), Hin; left; reflexivity). assert (lb y <> lb x) by (intros Q; apply Ny, HI; auto). destruct Hm as [->|Hm]; [lia|].
      cbn [map consecutive] in Ec. rewrite (rec_trig k HK) in Ec. unfold lastn in Ec at 1. cbn [map last] in Ec. cbn [N.eqb negb andb] in Ec. rewrite N.eqb_refl in Ec. cbn [negb andb] in Ec.
      assert (L : (lb x < lb m)%Z); [|lia]. refine (consecutive_labs (sc_next a) l x t _ _ Ec m Hm).
      + intros z Hz. exact (in_all _ _ _ _ D1 (Hin z Hz)).
      + intros z w Hz Hw. apply D6; apply in_app_iff; left; apply Hin; assumption. }
  split; cbn [with_sc sc_next sc_ready sc_subs sc_last sc_emit q_in q_next q_ready q_subs q_last q_out q_emit q_sent q_over]; auto.
  - intros j b y Hj Hy Lj. left. apply in_app_iff. destruct (Nat.eq_dec j (length pre + sc_next a)) as [->|Q]; [rewrite Hat in Hj; injection Hj as <-; right; exact Hy|]. destruct (D4 j b y Hj Hy ltac:(lia)) as [W|W]; [left; exact W|destruct W].
  - intros x y Hx Hy. apply D6; apply in_app_iff; [apply in_app_iff in Hx; destruct Hx as [Hx|Hx]|apply in_app_iff in Hy; destruct Hy as [Hy|Hy]]; auto.
    + destruct l as [|z l _] using rev_ind; [rewrite app_nil_r in Hx; auto|]. rewrite app_assoc, lastl_snoc in Hx. destruct Hx as [<-|[]]. left. apply Hin. apply in_app_iff. right. left. reflexivity.
    + destruct l as [|z l _] using rev_ind; [rewrite app_nil_r in Hy; auto|]. rewrite app_assoc, lastl_snoc in Hy. destruct Hy as [<-|[]]. left. apply Hin. apply in_app_iff. right. left. reflexivity.
  - intros j Lj. destruct (Nat.eq_dec j (sc_next a)) as [->|Q]; [congruence|]. apply D7. lia.
Qed.
Definition sorted (l : list srec) : Prop := StronglySorted (fun a b => (lb (r_item a) < lb (r_item b))%Z) l.
Lemma scan_done st fut pre s bufs : forall a a' stop, inv k st (so_far pre s) (with_sc s a) -> done fut pre (with_sc s a) -> (sc_new a = true \/ sorted (sc_subs a)) -> skipn (sc_next a) (q_in s) = bufs -> scan k bufs a = (a', stop) ->
  done fut pre (with_sc s a') /\ (sc_new a' = true \/ sorted (sc_subs a')).
Proof.
  induction bufs as [|b bufs IH]; intros a a' stop I D P Hb E; cbn [scan] in E; [injection E as <- <-; auto|].
  destruct b as [|l]; [injection E as <- <-; auto|].
  assert (Hn : nth_error (q_in s) (sc_next a) = Some (SBuf l)). { rewrite <- (Nat.add_0_r (sc_next a)), <- nth_error_skipn, Hb. reflexivity. }
  assert (Nx : sc_next (scan_one k l a) = S (sc_next a)). { unfold scan_one. destruct ((sc_ready a =? sc_next a)%nat && match sc_subs a with [] => true | _ => false end); [|reflexivity]; destruct (consecutive _ _ _); reflexivity. }
  refine (IH (scan_one k l a) a' stop (scan_one_inv k HK st _ s a l bufs I Hb) (scan_one_done st fut pre s a l bufs I D Hb) _ _ E).
  - assert (B : (sc_new a || match l with [] => false | _ => true end = true \/ sorted (sc_subs a ++ map (rec_of k (sc_next a)) l))). { destruct l; [rewrite orb_false_r, app_nil_r; exact P|left; apply orb_true_r]. }
    unfold scan_one. destruct ((sc_ready a =? sc_next a)%nat && match sc_subs a with [] => true | _ => false end); [|exact B]. destruct (consecutive _ _ _); [right; constructor|exact B].
  - rewrite Nx. rewrite (skipn_cons_nth _ _ _ Hn) in Hb. congruence.
Qed.

(* sorting *)
Definition recs_ok (l : list srec) : Prop := Forall (fun r => r_trig r = number k (snd (r_item r)) /\ In (r_item r) (insides T)) l /\ pair_near (map r_item l) /\ NoDup (map r_item l).
Lemma before_lab l a b : recs_ok l -> In a l -> In b l -> before k a b = (lb (r_item a) <? lb (r_item b))%Z.
Proof.
  intros (F & N & _) Ha Hb. destruct (proj1 (Forall_forall _ _) F a Ha) as (A1 & A2). destruct (proj1 (Forall_forall _ _) F b Hb) as (B1 & B2). unfold before. rewrite A1, B1, near_diff; auto; [|apply N; apply in_map; assumption].
  destruct (Z.ltb_spec 0 (lb (r_item b) - lb (r_item a))), (Z.ltb_spec (lb (r_item a)) (lb (r_item b))); lia.
Qed.
Lemma recs_order l : recs_ok l -> weak_order k l = true.
Proof.
  intros H. unfold weak_order. apply forallb_forall. intros a Ha. apply forallb_forall. intros b Hb. apply forallb_forall. intros c Hc. rewrite !(before_lab l); auto.
  destruct (Z.ltb_spec (lb (r_item a)) (lb (r_item b))), (Z.ltb_spec (lb (r_item b)) (lb (r_item a))), (Z.ltb_spec (lb (r_item b)) (lb (r_item c))), (Z.ltb_spec (lb (r_item c)) (lb (r_item b))), (Z.ltb_spec (lb (r_item a)) (lb (r_item c))), (Z.ltb_spec (lb (r_item c)) (lb (r_item a))); cbn; try reflexivity; lia.
Qed.
Lemma recs_sorted l m : recs_ok l -> Permutation m l -> StronglySorted (fun a b => before k b a = false) m -> sorted m.
Proof.
  intros H P S. assert (Fm : forall x, In x m -> In x l) by (intros x; apply (Permutation_in _ P)). assert (Nm : NoDup (map r_item m)) by (apply (Permutation_NoDup (Permutation_map _ (Permutation_sym P))); apply H).
  clear P. induction S as [|a m S IH F]; [constructor|]. inversion Nm as [|? ? N1 N2]; subst. constructor; [apply IH; auto; intros x Hx; apply Fm; right; exact Hx|].
  apply Forall_forall. intros b Hb. assert (Q := proj1 (Forall_forall _ _) F b Hb). cbn beta in Q. rewrite (before_lab l) in Q; [|exact H|apply Fm; right; exact Hb|apply Fm; left; reflexivity]. apply Z.ltb_ge in Q.
  assert (lb (r_item a) <> lb (r_item b)); [|lia]. intros E. apply N1. rewrite (HI (r_item a) (r_item b)); [apply in_map; exact Hb| | |exact E]; [apply (proj1 (Forall_forall _ _) (proj1 H) a), Fm; left; reflexivity|apply (proj1 (Forall_forall _ _) (proj1 H) b), Fm; right; exact Hb].
Qed.

(* filling the output *)
Lemma copy_done gaps l : forall room E n g t f, init E -> recs_ok l -> sorted l -> NoDup (E ++ map r_item l) -> pair_near (lastl E ++ map r_item l) ->
  (forall r, In r l -> gaps r = true -> forall y, In y (insides T) -> ~ In y E -> ~ In y (map r_item l) -> (lb (r_item r) < lb y)%Z) ->
  (E = [] -> l <> [] -> forall y, In y (insides T) -> exists r, In r l /\ (lb (r_item r) <= lb y)%Z) ->
  copy k gaps room (lastn k E) l = (n, g, t, f) -> init (E ++ g) /\ g = map r_item (firstn n l).
Proof.
  induction l as [|r l IH]; intros room E n g t f I R S Nd Hn Hg Hm H; cbn [copy] in H; [injection H as <- <- <- <-; rewrite app_nil_r; split; [exact I|reflexivity]|].
  cbv zeta in H. set (d := (if lastn k E =? none then 1%Z else diff k (lastn k E) (r_trig r))) in H.
  assert (Stop : forall b : bool, (0%nat, [], lastn k E, b) = (n, g, t, f) -> init (E ++ g) /\ g = map r_item (firstn n (r :: l))). { intros b Q. injection Q as <- <- <- <-. rewrite app_nil_r. split; [exact I|reflexivity]. }
  destruct R as (R1 & R2 & R3). inversion R1 as [|? ? (T1 & T2) R1']; subst. inversion S as [|? ? S1 S2]; subst. cbn [map] in R3. inversion R3 as [|? ? R4 R5]; subst.
  assert (Nr : ~ In (r_item r) E). { intros Q. apply NoDup_app_iff in Nd. apply (proj2 (proj2 Nd) _ Q). left. reflexivity. }
  assert (Hd : match lastl E with e :: _ => d = (lb (r_item r) - lb e)%Z /\ (1 <= d)%Z | [] => d = 1%Z end).
  { destruct (lastl E) as [|e q] eqn:El.
    - assert (E = []) by (destruct E as [|a E _] using rev_ind; [reflexivity|]; rewrite lastl_snoc in El; discriminate). subst E. reflexivity.
    - assert (q = []) by (destruct E as [|a E _] using rev_ind; [discriminate|]; rewrite lastl_snoc in El; congruence). subst q. assert (He : In e E) by (apply lastl_in; rewrite El; left; reflexivity).
      assert (Q : d = (lb (r_item r) - lb e)%Z). { unfold d. rewrite (lastn_lastl E e El). destruct (N.eqb_spec (number k (snd e)) none) as [Q|_]; [destruct (number_none k HK _ Q)|]. rewrite T1. apply near_diff; auto; [apply I; exact He|]. apply Hn; [left; reflexivity|right; left; reflexivity]. }
      split; [exact Q|]. assert (L := proj1 I e (r_item r) He T2 Nr). lia. }
  assert (Dp : (1 <= d)%Z) by (destruct (lastl E); [lia|apply Hd]).
  destruct (negb (d =? 1)%Z && (d <? 0)%Z) eqn:C1; [lia|]. destruct (negb (d =? 1)%Z && negb (gaps r)) eqn:C2; [exact (Stop _ H)|]. destruct (room <? r_sz r) eqn:C3; [exact (Stop _ H)|].
  assert (Ir : init (E ++ [r_item r])).
  { destruct (gaps r) eqn:Gr.
    - apply init_snoc; auto. intros y Hy Ny Nyr. destruct (in_dec (fun a b : item => ltac:(repeat decide equality)) y (map r_item l)) as [Q|Q].
      + apply in_map_iff in Q. destruct Q as (r' & <- & Hr'). exact (proj1 (Forall_forall _ _) S2 r' Hr').
      + apply (Hg r (or_introl eq_refl) Gr y Hy Ny). cbn [map]. intros [W|W]; [congruence|contradiction].
    - assert (D1 : d = 1%Z). { destruct (Z.eqb_spec d 1) as [Q|Q]; [exact Q|discriminate]. } destruct (lastl E) as [|e q] eqn:El.
      + assert (E = []) by (destruct E as [|a E _] using rev_ind; [reflexivity|]; rewrite lastl_snoc in El; discriminate). subst E. apply init_snoc; auto. intros y Hy _ Nyr. destruct (Hm eq_refl ltac:(discriminate) y Hy) as (r' & Hr' & L).
        assert (lb y <> lb (r_item r)) by (intros Q; apply Nyr; apply HI; auto). destruct Hr' as [<-|Hr']; [lia|]. assert (L2 := proj1 (Forall_forall _ _) S2 r' Hr'). cbn beta in L2. lia.
      + assert (q = []) by (destruct E as [|a E _] using rev_ind; [discriminate|]; rewrite lastl_snoc in El; congruence). subst q. apply (init_next E e); auto. lia. }
  destruct (copy k gaps (room - r_sz r) (r_trig r) l) as [[[n1 g1] t1] f1] eqn:Ec. injection H as <- <- <- <-. replace (r_trig r) with (lastn k (E ++ [r_item r])) in Ec by (rewrite lastn_snoc; symmetry; exact T1).
  assert (Rl : recs_ok l) by (split; [exact R1'|split; [intros x y Hx Hy; apply R2; right; assumption|exact R5]]).
  assert (J : init ((E ++ [r_item r]) ++ g1) /\ g1 = map r_item (firstn n1 l)).
  { apply (IH (room - r_sz r) (E ++ [r_item r]) n1 g1 t1 f1); [exact Ir|exact Rl|exact S1| | | | |exact Ec].
  - rewrite <- app_assoc. exact Nd.
  - rewrite lastl_snoc. intros x y Hx Hy. apply R2; assumption.
  - intros r' Hr' Gr' y Hy Ny Nl. apply (Hg r' (or_intror Hr') Gr' y Hy); [intros Q; apply Ny; apply in_app_iff; auto|]. intros [Q|Q]; [apply Ny; apply in_app_iff; right; left; exact Q|exact (Nl Q)].
  - intros Q. destruct E; discriminate. }
  destruct J as (J1 & J2). rewrite <- app_assoc in J1. split; [exact J1|]. cbn [firstn map]. f_equal. exact J2.
Qed.

(* removing buffers at the front *)
Definition shift (m : nat) (l : list srec) : list srec := map (fun r => mkR (r_item r) (r_trig r) (r_buf r - m)) l.
Lemma shift_items m l : map r_item (shift m l) = map r_item l.
Proof. unfold shift. rewrite map_map. reflexivity. Qed.
Lemma sorted_map l : sorted l <-> StronglySorted (fun a b => (lb a < lb b)%Z) (map r_item l).
Proof.
  unfold sorted. induction l as [|r l IH]; cbn [map]; [split; constructor|]. split; intros H; inversion H as [|? ? H1 H2]; subst; constructor; try (apply IH; exact H1); [apply Forall_map; exact H2|apply (proj1 (Forall_map r_item (fun b => (lb (r_item r) < lb b)%Z) l)); exact H2].
Qed.
Lemma dec_shift m l : Forall (fun r => (m <= r_buf r)%nat) l -> dec_subs m l = shift m l.
Proof. intros F. unfold dec_subs, shift. f_equal. induction F as [|r l Hr F IH]; [reflexivity|]. cbn [filter]. destruct (Nat.leb_spec m (r_buf r)); [|lia]. f_equal. exact IH. Qed.
Lemma near_sub a b E g : incl a b -> incl g b -> pair_near (b ++ lastl E) -> pair_near (a ++ lastl (E ++ g)).
Proof.
  intros Ha Hg H. assert (Q : forall x, In x (a ++ lastl (E ++ g)) -> In x (b ++ lastl E)).
  { intros x Hx. rewrite in_app_iff in *. destruct Hx as [Hx|Hx]; [left; apply Ha; exact Hx|]. destruct g as [|z g _] using rev_ind; [rewrite app_nil_r in Hx; right; exact Hx|]. rewrite app_assoc, lastl_snoc in Hx. destruct Hx as [<-|[]]. left. apply Hg. apply in_app_iff. right. left. reflexivity. }
  intros x y Hx Hy. apply H; auto.
Qed.
(* [n] records are used and [m] buffers go *)
Lemma cut_done fut pre s n g m s1 : done fut pre s -> (q_ready s <= q_next s)%nat -> init (q_emit s ++ g) -> g = map r_item (firstn n (q_subs s)) -> incl g (insides (q_in s)) ->
  (m <= length (q_in s))%nat -> (forall j b, nth_error (q_in s) j = Some b -> (q_next s <= j < m)%nat -> inside b = []) -> Forall (fun r => (m <= r_buf r)%nat) (skipn n (q_subs s)) ->
  q_in s1 = skipn m (q_in s) -> q_next s1 = (q_next s - m)%nat -> q_ready s1 = (q_ready s - m)%nat -> q_subs s1 = shift m (skipn n (q_subs s)) -> q_emit s1 = q_emit s ++ g ->
  done fut (pre ++ firstn m (q_in s)) s1 /\ so_far (pre ++ firstn m (q_in s)) s1 = so_far pre s /\ (sorted (q_subs s) -> sorted (q_subs s1)).
Proof.
  intros [D1 D2 D3 D4 D5 D6 D7] Lr Ix Eg Ig Lm He Fm E1 E2 E3 E4 E5.
  assert (Lp : length (pre ++ firstn m (q_in s)) = (length pre + m)%nat) by (rewrite app_length, firstn_length; lia).
  split; [|split].
  - split; rewrite ?E1, ?E2, ?E3, ?E4, ?E5, ?Lp, ?shift_items.
    + rewrite D1 at 1. rewrite <- (firstn_skipn m (q_in s)) at 1. rewrite <- !app_assoc. reflexivity.
    + unfold shift. apply Forall_map, Forall_forall. intros r Hr. cbn [r_buf r_item]. assert (Q := proj1 (Forall_forall _ _) Fm r Hr). cbn in Q. replace (length pre + m + (r_buf r - m))%nat with (length pre + r_buf r)%nat by lia. apply (proj1 (Forall_forall _ _) D2). exact (in_skipn _ _ _ Hr).
    + unfold shift. apply Forall_map, Forall_forall. intros r Hr. cbn [r_buf]. assert (Q := proj1 (Forall_forall _ _) D3 r (in_skipn _ _ _ Hr)). cbn in Q. lia.
    + intros j b y Hj Hy Lj. rewrite in_app_iff. destruct (Nat.lt_ge_cases j (length pre + q_next s)) as [L|L].
      * destruct (D4 j b y Hj Hy L) as [Q|Q]; [auto|]. rewrite <- (firstn_skipn n (q_subs s)), map_app, in_app_iff in Q. rewrite Eg. destruct Q; auto.
      * exfalso. replace j with (length pre + (j - length pre))%nat in Hj by lia. rewrite (in_T fut pre s _ D1) in Hj by lia. rewrite (He _ _ Hj ltac:(lia)) in Hy. destruct Hy.
    + exact Ix.
    + apply (near_sub _ (insides (q_in s))); auto. intros x Hx. rewrite <- (firstn_skipn m (q_in s)), insides_app, in_app_iff. right. exact Hx.
    + intros j Lj. rewrite nth_error_skipn. apply D7. lia.
  - unfold so_far. rewrite E1, <- app_assoc, firstn_skipn. reflexivity.
  - rewrite E4. intros Hs. apply sorted_map. rewrite shift_items. apply sorted_map in Hs. rewrite <- (firstn_skipn n (q_subs s)), map_app in Hs. revert Hs. generalize (map r_item (firstn n (q_subs s))) (map r_item (skipn n (q_subs s))). clear. intros a b. induction a as [|x a IH]; [auto|]. cbn [app]. intros H. inversion H. auto.
Qed.
Lemma pass_done fut pre s b r : done fut pre s -> Forall (rok k (q_next s)) (q_subs s) -> (q_ready s <= q_next s)%nat -> q_in s = b :: r -> (q_next s = O -> b = SEof) -> ((0 < q_next s)%nat -> (0 < q_ready s)%nat) ->
  done fut (pre ++ [b]) (pass_on s b r) /\ so_far (pre ++ [b]) (pass_on s b r) = so_far pre s /\ (sorted (q_subs s) -> sorted (q_subs (pass_on s b r))).
Proof.
  intros D R Lr Hq Hb Hr. assert (F1 : Forall (fun r => (1 <= r_buf r)%nat) (q_subs s)). { apply Forall_forall. intros x Hx. assert (Q := proj1 (Forall_forall _ _) (x_lo _ _ _ D) x Hx). cbn in Q. destruct (proj1 (Forall_forall _ _) R x Hx) as (_ & Q2). lia. }
  replace [b] with (firstn 1 (q_in s)) by (rewrite Hq; reflexivity). apply (cut_done fut pre s 0 [] 1); auto.
  - rewrite app_nil_r. apply D.
  - intros x [].
  - rewrite Hq. cbn. lia.
  - intros [|j] c Hc Lj; [|lia]. rewrite Hq in Hc. injection Hc as <-. rewrite Hb by lia. reflexivity.
  - rewrite Hq. reflexivity.
  - cbn [pass_on q_subs skipn]. apply dec_shift. exact F1.
  - cbn [pass_on q_emit]. rewrite app_nil_r. reflexivity.
Qed.
Lemma done_recs st fut pre s : inv k st (so_far pre s) s -> done fut pre s -> recs_ok (q_subs s) /\ incl (map r_item (q_subs s)) (insides (q_in s)).
Proof.
  intros I D. assert (Nd := done_nodup st fut pre s I (x_T _ _ _ D)). destruct I as [H1 H2 _ _ _ _]. destruct D as [D1 D2 D3 D4 D5 D6 D7].
  assert (In1 : incl (map r_item (q_subs s)) (insides (q_in s))). { intros x Hx. apply in_map_iff in Hx. destruct Hx as (r & <- & Hr). destruct (proj1 (Forall_forall _ _) H1 r Hr) as (_ & L). apply (rec_in fut pre s r D1); [lia|]. exact (proj1 (Forall_forall _ _) D2 r Hr). }
  split; [|exact In1]. split; [|split].
  - apply Forall_forall. intros r Hr. split; [apply (proj1 (Forall_forall _ _) H1 r Hr)|]. apply (in_all fut pre s _ D1), In1, in_map. exact Hr.
  - intros x y Hx Hy. apply D6; apply in_app_iff; left; apply In1; assumption.
  - destruct Nd as (Nd & _). apply NoDup_app_iff in Nd. apply Nd.
Qed.
Lemma fill_done st fut pre e eof s : inv k st (so_far pre s) s -> done fut pre s -> sorted (q_subs s) -> e_full e = false -> (eof = true -> nth_error (q_in s) (q_next s) = Some SEof) ->
  exists pre', let s1 := fst (fill_out k e eof s) in done fut pre' s1 /\ so_far pre' s1 = so_far pre s /\ sorted (q_subs s1).
Proof.
  intros I D Hs Hf He. cbv zeta. unfold fill_out. destruct (match q_out s with Some o => Some o | None => match e_buf e with Some c => Some (c, []) | None => None end end) as [(cap, b)|]; [|exists pre; auto].
  destruct (done_recs _ _ _ _ I D) as (R & In1). assert (Nd := done_nodup st fut pre s I (x_T _ _ _ D)). assert (D' := D). destruct I as [H1 H2 H3 H4 _ _]. destruct D as [D1 D2 D3 D4 D5 D6 D7].
  rewrite H3. destruct (copy _ _ _ _ _) as [[[n g] t] f] eqn:Ec. destruct (copy_ok k HK _ _ _ _ _ _ _ _ _ H1 H4 Ec) as (C1 & _).
  assert (J : init (q_emit s ++ g) /\ g = map r_item (firstn n (q_subs s))).
  { apply (copy_done (fun r => (r_buf r + 2 <=? q_next s)%nat || e_full e || eof) (q_subs s) (cap - lenN b) (q_emit s) n g t f D5 R Hs (proj1 Nd)); [| | |exact Ec].
    - intros x y Hx Hy. apply D6; apply in_app_iff; [apply in_app_iff in Hx; destruct Hx as [Hx|Hx]|apply in_app_iff in Hy; destruct Hy as [Hy|Hy]]; auto.
    - intros r Hr Gr y Hy Ny Nl. rewrite Hf, orb_false_r in Gr. destruct (proj1 (Forall_forall _ _) D2 r Hr) as (bx & Hbx & Hx). destruct (proj1 (Forall_forall _ _) H1 r Hr) as (_ & L1).
      apply insides_nth in Hy. destruct Hy as (j & bj & Hj & Hy). assert (Lj : (length pre + q_next s <= j)%nat). { destruct (Nat.le_gt_cases (length pre + q_next s) j) as [L|L]; [exact L|]. destruct (D4 j bj y Hj Hy L); contradiction. }
      apply (HD _ _ _ _ _ _ Hbx Hx Hj Hy). apply orb_prop in Gr. destruct Gr as [Gr|Gr]; [left; apply Nat.leb_le in Gr; lia|]. right. specialize (He Gr). assert (L2 : (q_next s < length (q_in s))%nat) by (apply nth_error_Some; congruence).
      assert (Ht : nth_error T (length pre + q_next s) = Some SEof) by (rewrite (in_T fut pre s _ D1 L2); exact He). exists (length pre + q_next s)%nat. split; [|exact Ht]. assert (j <> length pre + q_next s)%nat; [|lia]. intros ->. rewrite Ht in Hj. injection Hj as <-. destruct Hy.
    - intros E0 Nl y Hy. destruct (H0 y Hy) as (x & Hx & Lx). destruct (first_before T x Hx) as (i & bi & Hi & Hxi & Fi). destruct (q_subs s) as [|r0 rs] eqn:Es; [contradiction|].
      destruct (Forall_inv D2) as (b0 & Hb0 & Hr0). destruct (Forall_inv H1) as (_ & L1). assert (L2 := Fi _ _ Hb0 ltac:(intros Q; rewrite Q in Hr0; destruct Hr0)).
      destruct (D4 i bi x Hi Hxi ltac:(lia)) as [Q|Q]; [rewrite E0 in Q; destruct Q|]. apply in_map_iff in Q. destruct Q as (r & <- & Hr). exists r. auto. }
  destruct J as (Ix & Eg). assert (Ig : incl g (insides (q_in s))). { rewrite Eg. intros x Hx. apply In1. rewrite <- (firstn_skipn n (q_subs s)), map_app, in_app_iff. left. exact Hx. }
  cbv zeta. set (s1 := mkS _ _ _ _ _ _ _ _ _ _ _). assert (Q := send_out_rest s1). cbv zeta in Q.
  assert (R' : let u := if eof || f || e_full e then send_out s1 else s1 in q_in u = q_in s /\ q_next u = q_next s /\ q_ready u = q_ready s /\ q_subs u = q_subs s /\ q_emit u = q_emit s ++ g).
  { cbv zeta. destruct (eof || f || e_full e); [|repeat split]. destruct Q as (Q1 & Q2 & Q3 & Q4 & _ & Q6 & _). rewrite Q1, Q2, Q3, Q4, Q6. repeat split. }
  clear Q. set (s2 := if eof || f || e_full e then send_out s1 else s1) in *. cbv zeta in R'. destruct R' as (R1 & R2 & R3 & R4 & R5). clearbody s2. rewrite R4.
  destruct (remove_used n (q_subs s)) as [om l'] eqn:Er. assert (Rm := remove_ok k HK _ _ _ _ _ H1 C1 Er). destruct om as [m|]; cbn [fst].
  - destruct Rm as (Hm & -> & Fm). exists (pre ++ firstn m (q_in s)). assert (X : forall s3, q_in s3 = skipn m (q_in s) -> q_next s3 = (q_next s - m)%nat -> q_ready s3 = (q_ready s - m)%nat -> q_subs s3 = shift m (skipn n (q_subs s)) -> q_emit s3 = q_emit s ++ g ->
       done fut (pre ++ firstn m (q_in s)) s3 /\ so_far (pre ++ firstn m (q_in s)) s3 = so_far pre s /\ sorted (q_subs s3)).
    { intros s3 E1 E2 E3 E4 E5. destruct (cut_done fut pre s n g m s3 D') as (X1 & X2 & X3); auto; try lia. }
    apply X; cbn [q_in q_next q_ready q_subs q_emit]; rewrite ?R1, ?R2, ?R3, ?R5; reflexivity.
  - exists pre. assert (X : forall s3, q_in s3 = skipn 0 (q_in s) -> q_next s3 = (q_next s - 0)%nat -> q_ready s3 = (q_ready s - 0)%nat -> q_subs s3 = shift 0 (skipn n (q_subs s)) -> q_emit s3 = q_emit s ++ g ->
       done fut pre s3 /\ so_far pre s3 = so_far pre s /\ sorted (q_subs s3)).
    { intros s3 E1 E2 E3 E4 E5. destruct (cut_done fut pre s n g 0 s3 D') as (X1 & X2 & X3); auto; try lia. { apply Forall_forall. intros; lia. } cbn [firstn] in *. rewrite app_nil_r in *. auto. }
    apply X; cbn [q_in q_next q_ready q_subs q_emit]; rewrite ?R1, ?R2, ?R3, ?R5; try reflexivity; try lia. rewrite Rm. unfold shift. rewrite <- (map_id (skipn n (q_subs s))) at 1. apply map_ext. intros [? ? ?]. cbn. f_equal. lia.
Qed.

Definition good (fut pre : list sbuf) (s : sorter) : Prop := done fut pre s /\ sorted (q_subs s).
Lemma set_done fut pre s l : done fut pre s -> Permutation l (q_subs s) -> done fut pre (set_subs s l).
Proof.
  intros [D1 D2 D3 D4 D5 D6 D7] P. split; cbn [set_subs q_in q_next q_ready q_subs q_emit]; auto; try (apply (Permutation_Forall (Permutation_sym P)); assumption).
  intros j b y Hj Hy L. destruct (D4 j b y Hj Hy L) as [Q|Q]; [auto|]. right. apply (Permutation_in _ (Permutation_map _ (Permutation_sym P))). exact Q.
Qed.
Lemma retransmit_done st fut pre e s : env_ok k st e -> e_full e = false -> inv k st (so_far pre s) s -> good fut pre s ->
  exists s1 b pre', retransmit k e s = Ok (s1, b) /\ good fut pre' s1 /\ so_far pre' s1 = so_far pre s.
Proof.
  intros (He & Hst) Hf I (D & So). unfold retransmit. destruct (scan _ _ _) as [a stop] eqn:Es.
  assert (I0 : inv k st (so_far pre s) (with_sc s (mkSc (q_next s) (q_ready s) (q_subs s) (q_last s) (q_emit s) false))) by (destruct s; exact I).
  assert (D0 : done fut pre (with_sc s (mkSc (q_next s) (q_ready s) (q_subs s) (q_last s) (q_emit s) false))) by (destruct s; exact D).
  destruct (scan_inv k HK st _ s _ _ _ _ I0 eq_refl Es) as (J & J1 & J2 & J3 & J4). destruct (scan_done st fut pre s _ _ _ _ I0 D0 (or_intror So) eq_refl Es) as (K & K1). clear I0 D0 Es.
  assert (Jv := v_next k _ _ _ J). assert (Jr := v_rec k _ _ _ J). cbn [with_sc q_in q_next q_ready q_subs] in Jv, Jr.
  assert (Rest : stop <> ScanEof -> exists s1 b pre', (do subs <- (if sc_new a then if weak_order k (sc_subs a) then Ok (e_sort e (sc_subs a)) else UB else Ok (sc_subs a));
      match q_in s with
      | b :: r => if (0 <? sc_ready a)%nat && e_can1 e then Ok (pass_on (set_subs (with_sc s a) subs) b r, true)
                  else if e_can2 e then Ok (fill_out k e (match stop with ScanFlush => true | _ => false end) (set_subs (with_sc s a) subs)) else Ok (set_subs (with_sc s a) subs, false)
      | [] => if e_can2 e then Ok (fill_out k e false (set_subs (with_sc s a) subs)) else Ok (set_subs (with_sc s a) subs, false)
      end) = Ok (s1, b) /\ good fut pre' s1 /\ so_far pre' s1 = so_far pre s).
  { intros Hs. destruct (done_recs st fut pre (with_sc s a) J K) as (R & _). cbn [with_sc q_subs] in R.
    assert (Su : exists subs, (if sc_new a then if weak_order k (sc_subs a) then Ok (e_sort e (sc_subs a)) else UB else Ok (sc_subs a)) = Ok subs /\ Permutation subs (sc_subs a) /\ sorted subs).
    { destruct (sc_new a) eqn:En; [|exists (sc_subs a); split; [reflexivity|]; split; [reflexivity|]; destruct K1 as [K1|K1]; [discriminate|exact K1]].
      rewrite (recs_order _ R). destruct (He _ (recs_order _ R)) as (P1 & P2). exists (e_sort e (sc_subs a)). split; [reflexivity|]. split; [exact P1|]. exact (recs_sorted _ _ R P1 P2). }
    destruct Su as (subs & -> & P & So2). cbn [bind]. assert (J' := subs_inv k st _ (with_sc s a) subs P J). assert (K' := set_done fut pre (with_sc s a) subs K P). set (s2 := set_subs (with_sc s a) subs) in *.
    assert (So3 : sorted (q_subs s2)) by exact So2.
    destruct (q_in s) as [|b0 r] eqn:Eq.
    - destruct (e_can2 e); [|exists s2, false, pre; split; [reflexivity|split; [split; assumption|unfold so_far; f_equal; f_equal; unfold s2; cbn; symmetry; exact Eq]]].
      destruct (fill_done st fut pre e false s2) as (pre' & F1 & F2 & F3); auto; [discriminate|]. destruct (fill_out k e false s2) as [s1 b]. exists s1, b, pre'. split; [reflexivity|]. split; [split; assumption|]. exact F2.
    - destruct ((0 <? sc_ready a)%nat && e_can1 e) eqn:C.
      + apply andb_prop in C. destruct C as (C & _). apply Nat.ltb_lt in C. destruct (pass_done fut pre s2 b0 r K') as (F1 & F2 & F3); [exact (v_rec k _ _ _ J')|exact (proj1 (v_next k _ _ _ J'))|exact Eq|unfold s2; cbn; lia|unfold s2; cbn; lia|].
        eexists _, _, (pre ++ [b0]). split; [reflexivity|]. split; [split; [exact F1|exact (F3 So3)]|exact F2].
      + destruct (e_can2 e); [|exists s2, false, pre; split; [reflexivity|split; [split; assumption|reflexivity]]].
        destruct (fill_done st fut pre e (match stop with ScanFlush => true | _ => false end) s2) as (pre' & F1 & F2 & F3); auto.
        { intros E. unfold s2. cbn [set_subs with_sc q_in q_next]. rewrite Eq. apply J3. destruct stop; [discriminate|reflexivity|discriminate]. }
        destruct (fill_out k e (match stop with ScanFlush => true | _ => false end) s2) as [s1 b]. exists s1, b, pre'. split; [reflexivity|]. split; [split; assumption|]. exact F2. }
  destruct stop; [apply Rest; discriminate|apply Rest; discriminate|]. clear Rest. destruct (J1 eq_refl) as (N0 & r & Er).
  assert (Sa : sorted (sc_subs a)). { destruct (sc_subs a) as [|x l]; [constructor|]. destruct (Forall_inv Jr) as (_ & Q). rewrite N0 in Q. cbn in Q. lia. }
  destruct (e_can1 e).
  - rewrite Er. destruct (pass_done fut pre (with_sc s a) SEof r K) as (F1 & F2 & F3); [exact Jr|exact (proj1 Jv)|exact Er|reflexivity|cbn; lia|]. eexists _, _, (pre ++ [SEof]). split; [cbv zeta; reflexivity|]. rewrite Er in *. split; [split; [exact F1|exact (F3 Sa)]|exact F2].
  - exists (with_sc s a), false, pre. split; [reflexivity|]. split; [split; [exact K|exact Sa]|reflexivity].
Qed.

(* a buffer arrives *)
Lemma push_done fut pre s b n : good (b :: fut) pre s -> (q_next s <= length (q_in s))%nat -> (forall x y, In x (inside b) -> In y (inside b ++ insides (q_in s) ++ lastl (q_emit s)) -> near x y) ->
  good fut pre (mkS (q_in s ++ [b]) (q_next s) (q_ready s) (q_subs s) (q_last s) (q_out s) (q_cnt s) n (q_emit s) (q_sent s) (q_over s)).
Proof.
  intros ([D1 D2 D3 D4 D5 D6 D7] & So) Ln Hn. split; [|exact So]. split; cbn [q_in q_next q_ready q_subs q_emit]; auto.
  - rewrite <- app_assoc. exact D1.
  - assert (Sym : forall x y, near x y -> near y x) by (unfold near; intros; lia). intros x y Hx Hy. rewrite insides_app in Hx, Hy. unfold insides at 2 in Hx. unfold insides at 2 in Hy. cbn [map concat] in Hx, Hy. rewrite app_nil_r in Hx, Hy. rewrite !in_app_iff in Hx, Hy.
    assert (Qx : In x (inside b) \/ In x (insides (q_in s) ++ lastl (q_emit s))) by (rewrite in_app_iff; tauto). assert (Qy : In y (inside b) \/ In y (insides (q_in s) ++ lastl (q_emit s))) by (rewrite in_app_iff; tauto).
    destruct Qx as [Qx|Qx]; [apply Hn; [exact Qx|]; rewrite in_app_iff; exact Qy|]. destruct Qy as [Qy|Qy]; [apply Sym, Hn; [exact Qy|]; rewrite in_app_iff; right; exact Qx|]. apply D6; assumption.
  - intros j Lj. rewrite nth_error_app1 by lia. apply D7. exact Lj.
Qed.
Lemma timer_done fut pre s can : good fut pre s -> good fut pre (timer can s) /\ so_far pre (timer can s) = so_far pre s.
Proof.
  intros G. unfold timer. destruct (negb can); [auto|]. set (s1 := mkS _ _ _ _ _ _ _ _ _ _ _). assert (G1 : good fut pre s1) by (destruct s, G as ([] & ?); split; [split; auto|]; auto). assert (E1 : so_far pre s1 = so_far pre s) by reflexivity. clearbody s1. destruct (2 <? q_cnt s1)%Z; [auto|].
  assert (Q := send_out_rest s1). cbv zeta in Q. destruct Q as (Q1 & Q2 & Q3 & Q4 & _ & Q6 & _). destruct G1 as ([D1 D2 D3 D4 D5 D6 D7] & So). split; [|unfold so_far in *; rewrite Q1; exact E1]. split; [split|]; rewrite ?Q1, ?Q2, ?Q3, ?Q4, ?Q6; auto.
Qed.

(* ---- progress: an end of file behind the data ---- *)
Definition roomy (B : N) (s : sorter) : Prop := match q_out s with Some (cap, _) => B <= cap | None => True end.
Lemma send_roomy B s : roomy B s -> roomy B (send_out s).
Proof. unfold roomy, send_out. destruct (q_out s) as [(c, [|? ?])|] eqn:E; rewrite ?E; auto. intros _. exact I. Qed.
Lemma fill_roomy B e eof s : (forall c, e_buf e = Some c -> B <= c) -> roomy B s -> roomy B (fst (fill_out k e eof s)).
Proof.
  intros He R. unfold fill_out. destruct (match q_out s with Some o => Some o | None => match e_buf e with Some c => Some (c, []) | None => None end end) as [(cap, b)|] eqn:Eb; [|exact R].
  assert (L : B <= cap). { unfold roomy in R. destruct (q_out s) as [(c, x)|]; [injection Eb as <- <-; exact R|]. destruct (e_buf e) as [c|]; [|discriminate]. injection Eb as <- <-. auto. }
  destruct (copy _ _ _ _ _) as [[[n g] t] f]. cbv zeta. set (s1 := mkS _ _ _ _ _ _ _ _ _ _ _). assert (R1 : roomy B s1) by exact L. assert (R2 : roomy B (if eof || f || e_full e then send_out s1 else s1)) by (destruct (eof || f || e_full e); [apply send_roomy|]; exact R1).
  destruct (remove_used n _) as [[m|] l']; exact R2.
Qed.
Lemma retransmit_roomy B e s s1 b : (forall c, e_buf e = Some c -> B <= c) -> roomy B s -> retransmit k e s = Ok (s1, b) -> roomy B s1.
Proof.
  intros He R H. unfold retransmit in H. destruct (scan _ _ _) as [a stop]. cbn zeta in H.
  assert (X : forall eof s0, roomy B s0 -> forall x, Ok (fill_out k e eof s0) = Ok x -> roomy B (fst x)) by (intros eof s0 E x Q; injection Q as <-; apply fill_roomy; assumption).
  destruct stop.
  1, 2: destruct (if sc_new a then if weak_order k (sc_subs a) then Ok (e_sort e (sc_subs a)) else UB else Ok (sc_subs a)) as [subs| |]; cbn [bind] in H; [|discriminate|discriminate]; cbn [q_in q_ready] in H;
    destruct (q_in s); [|destruct ((0 <? sc_ready a)%nat && e_can1 e); [injection H as <- _; exact R|]]; (destruct (e_can2 e); [match type of H with Ok (fill_out _ _ ?eo ?ss) = _ => exact (X eo ss R (s1, b) H) end|injection H as <- _; exact R]).
  destruct (e_can1 e); injection H as <- _; [destruct (q_in s)|]; exact R.
Qed.

Definition outn (s : sorter) : nat := if has_out s then 1 else 0.
Definition mu (s : sorter) : nat := 2 * (length (q_subs s) + length (insides (skipn (q_next s) (q_in s)))) + length (q_in s) + outn s.
Lemma scan_mu bufs : forall (q : list sbuf) a a' stop, skipn (sc_next a) q = bufs -> scan k bufs a = (a', stop) ->
  (length (sc_subs a') + length (insides (skipn (sc_next a') q)) <= length (sc_subs a) + length (insides (skipn (sc_next a) q)))%nat.
Proof.
  induction bufs as [|b bufs IH]; intros q a a' stop Hb E; cbn [scan] in E; [injection E as <- <-; lia|]. destruct b as [|l]; [injection E as <- <-; lia|].
  assert (Hn : nth_error q (sc_next a) = Some (SBuf l)). { rewrite <- (Nat.add_0_r (sc_next a)), <- nth_error_skipn, Hb. reflexivity. }
  assert (Nx : sc_next (scan_one k l a) = S (sc_next a)). { unfold scan_one. destruct ((sc_ready a =? sc_next a)%nat && match sc_subs a with [] => true | _ => false end); [|reflexivity]; destruct (consecutive _ _ _); reflexivity. }
  assert (Sk : skipn (S (sc_next a)) q = bufs) by (rewrite (skipn_cons_nth _ _ _ Hn) in Hb; congruence). assert (Q := IH q (scan_one k l a) a' stop ltac:(rewrite Nx; exact Sk) E). rewrite Nx, Sk in Q. rewrite Hb.
  change (insides (SBuf l :: bufs)) with (l ++ insides bufs). rewrite app_length.
  assert (Ls : (length (sc_subs (scan_one k l a)) <= length (sc_subs a) + length l)%nat). { unfold scan_one. assert (X : length (sc_subs a ++ map (rec_of k (sc_next a)) l) = (length (sc_subs a) + length l)%nat) by (rewrite app_length, map_length; reflexivity). destruct ((sc_ready a =? sc_next a)%nat && match sc_subs a with [] => true | _ => false end); [|cbn [sc_subs]; lia]. destruct (consecutive _ _ _); cbn [sc_subs length]; lia. }
  lia.
Qed.
(* where the scan stops *)
Lemma scan_stop bufs : forall (q : list sbuf) a a' stop e, skipn (sc_next a) q = bufs -> scan k bufs a = (a', stop) -> nth_error q e = Some SEof -> (forall j, (sc_next a <= j < e)%nat -> nth_error q j <> Some SEof) -> (sc_next a <= e)%nat -> sc_next a' = e /\ stop <> ScanDone.
Proof.
  induction bufs as [|b bufs IH]; intros q a a' stop e Hb E He Hj Le; cbn [scan] in E.
  - exfalso. assert (L1 : (e < length q)%nat) by (apply nth_error_Some; congruence). assert (L2 := skipn_length (sc_next a) q). rewrite Hb in L2. cbn in L2. lia.
  - destruct b as [|l].
    + injection E as <- <-. split; [|destruct (sc_next a =? 0)%nat; discriminate]. destruct (Nat.eq_dec (sc_next a) e) as [Q|Q]; [exact Q|]. exfalso. apply (Hj (sc_next a) ltac:(lia)). rewrite <- (Nat.add_0_r (sc_next a)), <- nth_error_skipn, Hb. reflexivity.
    + assert (Hn : nth_error q (sc_next a) = Some (SBuf l)). { rewrite <- (Nat.add_0_r (sc_next a)), <- nth_error_skipn, Hb. reflexivity. }
      assert (Nx : sc_next (scan_one k l a) = S (sc_next a)). { unfold scan_one. destruct ((sc_ready a =? sc_next a)%nat && match sc_subs a with [] => true | _ => false end); [|reflexivity]; destruct (consecutive _ _ _); reflexivity. }
      assert (sc_next a <> e) by (intros Q; rewrite Q in Hn; congruence). apply (IH q (scan_one k l a) a' stop e); auto; rewrite ?Nx; [rewrite (skipn_cons_nth _ _ _ Hn) in Hb; congruence|intros j Lj; apply Hj; lia|lia].
Qed.
(* an output which takes all *)
Definition open_env (B : N) (e : env) : Prop := sorts k (e_sort e) /\ e_can1 e = true /\ e_can2 e = true /\ e_full e = false /\ exists c, e_buf e = Some c /\ B <= c.
Definition eof_at (s : sorter) (e : nat) : Prop := nth_error (q_in s) e = Some SEof /\ (q_next s <= e)%nat /\ forall j, (j < e)%nat -> nth_error (q_in s) j <> Some SEof.
Lemma fill_mu st fut pre B e s : open_env B e -> (forall x, In x (insides T) -> lenN (enc_sub (snd x)) <= B) -> roomy B s -> inv k st (so_far pre s) s -> done fut pre s -> q_subs s <> [] ->
  let s1 := fst (fill_out k e true s) in (mu s1 < mu s)%nat /\ (q_next s <= length (q_in s))%nat /\ exists m, (m <= q_next s)%nat /\ q_in s1 = skipn m (q_in s) /\ q_next s1 = (q_next s - m)%nat.
Proof.
  intros (He & _ & _ & Hf & c & Hc & Lc) HB R I D Ns. cbv zeta. destruct (done_recs _ _ _ _ I D) as (Rk & In1). assert (Nd := done_nodup st fut pre s I (x_T _ _ _ D)). destruct D as [D1 D2 D3 D4 D5 D6 D7].
  assert (Hs6 := v_sent k _ _ _ I). destruct I as [H1 H2 H3 H4 _ _]. unfold fill_out.
  assert (Ob : exists cap b, match q_out s with Some o => Some o | None => match e_buf e with Some c => Some (c, []) | None => None end end = Some (cap, b) /\ B <= cap /\ lenN b <= cap /\ (has_out s = match b with [] => false | _ => true end)).
  { unfold roomy in R. unfold has_out. destruct Hs6 as (_ & cur & _ & _ & S2 & _). destruct (q_out s) as [(cap, b)|]; [exists cap, b; split; [reflexivity|]; split; [exact R|]; split; [apply S2|destruct b; reflexivity]|]. rewrite Hc. exists c, []. split; [reflexivity|]. split; [exact Lc|]. split; [cbn; lia|reflexivity]. }
  destruct Ob as (cap & b & -> & Lcap & Lb & Ho). rewrite H3. destruct (copy _ _ _ _ _) as [[[n g] t] f] eqn:Ec. destruct (copy_ok k HK _ _ _ _ _ _ _ _ _ H1 H4 Ec) as (C1 & _).
  assert (Prog : (1 <= n)%nat \/ has_out s = true).
  { destruct (q_subs s) as [|r l] eqn:Es; [contradiction|]. cbn [copy] in Ec. cbv zeta in Ec. rewrite Hf, orb_true_r in Ec. cbn [negb] in Ec. rewrite andb_false_r in Ec.
    set (d := (if lastn k (q_emit s) =? none then 1%Z else diff k (lastn k (q_emit s)) (r_trig r))) in Ec.
    destruct (negb (d =? 1)%Z && (d <? 0)%Z); [destruct (copy _ _ _ _ l) as [[[? ?] ?] ?]; injection Ec as <- _ _ _; left; lia|].
    destruct (cap - lenN b <? r_sz r) eqn:C; [|destruct (copy _ _ _ _ l) as [[[? ?] ?] ?]; injection Ec as <- _ _ _; left; lia].
    right. rewrite Ho. destruct b; [|reflexivity]. exfalso. apply N.ltb_lt in C. destruct (Forall_inv (proj1 Rk)) as (_ & Q). specialize (HB _ Q). unfold r_sz in C. rewrite lenN_nil in C. lia. }
  cbv zeta. cbn [orb]. set (s1 := mkS _ _ _ _ _ _ _ _ _ _ _). assert (Q := send_out_rest s1). cbv zeta in Q. destruct Q as (Q1 & Q2 & _ & Q4 & _).
  assert (Qo : has_out (send_out s1) = false). { unfold send_out. destruct (q_out s1) as [(c1, [|b0 b1])|] eqn:E1; unfold has_out; [rewrite E1; reflexivity|reflexivity|rewrite E1; reflexivity]. }
  change (q_in s1) with (q_in s) in Q1. change (q_next s1) with (q_next s) in Q2. change (q_subs s1) with (q_subs s) in Q4. set (s2 := send_out s1) in *. clearbody s2. rewrite Q4.
  destruct (remove_used n (q_subs s)) as [om l'] eqn:Er. assert (Rm := remove_ok k HK _ _ _ _ _ H1 C1 Er). unfold mu, outn. assert (Ln := skipn_length n (q_subs s)). destruct om as [m|]; cbn [fst q_in q_next q_subs].
  - destruct Rm as (Hm & -> & _). unfold has_out in Qo |- *. cbn [q_out]. rewrite Qo, Q1, Q2, map_length, skipn_skipn, Ln, skipn_length. replace (m + (q_next s - m))%nat with (q_next s) by lia. fold (has_out s). split; [|split; [lia|]].
    + destruct Prog as [P|P]; [|rewrite P]; destruct (has_out s); lia.
    + exists m. repeat split; lia.
  - subst l'. unfold has_out in Qo |- *. cbn [q_out]. rewrite Qo, Q1, Q2, Ln. fold (has_out s). split; [|split; [lia|]].
    + destruct Prog as [P|P]; [|rewrite P]; destruct (has_out s); lia.
    + exists O. repeat split; [lia|rewrite Nat.sub_0_r; reflexivity].
Qed.


Lemma scan_grow bufs : forall a a' stop, scan k bufs a = (a', stop) -> incl (sc_emit a) (sc_emit a').
Proof.
  induction bufs as [|b bufs IH]; intros a a' stop E; cbn [scan] in E; [injection E as <- <-; apply incl_refl|]. destruct b as [|l]; [injection E as <- <-; apply incl_refl|].
  apply (incl_tran (m := sc_emit (scan_one k l a))); [|exact (IH _ _ _ E)]. unfold scan_one. destruct ((sc_ready a =? sc_next a)%nat && match sc_subs a with [] => true | _ => false end); [|apply incl_refl]. destruct (consecutive _ _ _); [|apply incl_refl]. cbn. apply incl_appl, incl_refl.
Qed.
Lemma fill_grow e eof s : incl (q_emit s) (q_emit (fst (fill_out k e eof s))).
Proof.
  unfold fill_out. destruct (match q_out s with Some o => Some o | None => match e_buf e with Some c => Some (c, []) | None => None end end) as [(cap, b)|]; [|apply incl_refl].
  destruct (copy _ _ _ _ _) as [[[n g] t] f]. cbv zeta. set (s1 := mkS _ _ _ _ _ _ _ _ _ _ _). assert (Q : q_emit (if eof || f || e_full e then send_out s1 else s1) = q_emit s ++ g) by (destruct (eof || f || e_full e); [|reflexivity]; assert (X := send_out_rest s1); cbv zeta in X; destruct X as (_ & _ & _ & _ & _ & X & _); rewrite X; reflexivity).
  destruct (remove_used n _) as [[m|] l']; cbn [fst q_emit]; rewrite Q; apply incl_appl, incl_refl.
Qed.
Lemma retransmit_grow e s s1 b : retransmit k e s = Ok (s1, b) -> incl (q_emit s) (q_emit s1).
Proof.
  intros H. unfold retransmit in H. destruct (scan _ _ _) as [a stop] eqn:Es. apply scan_grow in Es. cbn [sc_emit] in Es. cbn zeta in H.
  assert (X : forall eof s0, q_emit s0 = sc_emit a -> forall x, Ok (fill_out k e eof s0) = Ok x -> incl (q_emit s) (q_emit (fst x))) by (intros eof s0 E x Q; injection Q as <-; apply (incl_tran Es); rewrite <- E; apply fill_grow).
  destruct stop.
  1, 2: destruct (if sc_new a then if weak_order k (sc_subs a) then Ok (e_sort e (sc_subs a)) else UB else Ok (sc_subs a)) as [subs| |]; cbn [bind] in H; [|discriminate|discriminate]; cbn [q_in q_ready] in H;
    destruct (q_in s); [|destruct ((0 <? sc_ready a)%nat && e_can1 e); [injection H as <- _; exact Es|]]; (destruct (e_can2 e); [match type of H with Ok (fill_out _ _ ?eo ?ss) = _ => exact (X eo ss eq_refl (s1, b) H) end|injection H as <- _; exact Es]).
  destruct (e_can1 e); injection H as <- _; [destruct (q_in s)|]; exact Es.
Qed.
Lemma dec_length m l : (length (dec_subs m l) <= length l)%nat.
Proof. unfold dec_subs. rewrite map_length. induction l as [|r l IH]; cbn [filter length]; [lia|]. destruct (m <=? r_buf r)%nat; cbn [length]; lia. Qed.
(* one call makes progress, or all up to the end of file is emitted *)
Lemma call_mu st fut pre B e s s1 b i : open_env B e -> (forall x, In x (insides T) -> lenN (enc_sub (snd x)) <= B) -> roomy B s -> inv k st (so_far pre s) s -> good fut pre s ->
  eof_at s i -> ~ (q_next s = i /\ q_subs s = []) -> retransmit k e s = Ok (s1, b) ->
  (q_in s1 = q_in s /\ q_next s1 = i /\ q_subs s1 = []) \/ ((mu s1 < mu s)%nat /\ exists m, (m <= i)%nat /\ q_in s1 = skipn m (q_in s) /\ q_next s1 = (i - m)%nat).
Proof.
  intros Ho HB R I (D & So) (Ei & Li & Ej) Nf H. assert (Ho' := Ho). destruct Ho' as (He & C1 & C2 & Hf & _). unfold retransmit in H. destruct (scan _ _ _) as [a stop] eqn:Es.
  assert (I0 : inv k st (so_far pre s) (with_sc s (mkSc (q_next s) (q_ready s) (q_subs s) (q_last s) (q_emit s) false))) by (destruct s; exact I).
  assert (D0 : done fut pre (with_sc s (mkSc (q_next s) (q_ready s) (q_subs s) (q_last s) (q_emit s) false))) by (destruct s; exact D).
  destruct (scan_inv k HK st _ s _ _ _ _ I0 eq_refl Es) as (J & J1 & J2 & J3 & J4). destruct (scan_done st fut pre s _ _ _ _ I0 D0 (or_intror So) eq_refl Es) as (K & K1).
  destruct (scan_stop _ (q_in s) _ _ _ i eq_refl Es Ei (fun j Lj => Ej j (proj2 Lj)) Li) as (Ni & Nd). assert (M := scan_mu _ (q_in s) _ _ _ eq_refl Es). cbn [sc_subs sc_next] in M. clear I0 D0 Es.
  assert (Jr := v_rec k _ _ _ I).
  destruct stop; [contradiction| |].
  - destruct (J3 eq_refl) as (_ & N0). clear J1 J3 J4. destruct (if sc_new a then if weak_order k (sc_subs a) then Ok (e_sort e (sc_subs a)) else UB else Ok (sc_subs a)) as [subs| |] eqn:Eb; cbn [bind] in H; [|discriminate|discriminate].
    assert (P : Permutation subs (sc_subs a)). { destruct (sc_new a); [|injection Eb as <-; reflexivity]. destruct (weak_order k (sc_subs a)) eqn:Ew; [|discriminate]. injection Eb as <-. apply He. exact Ew. }
    assert (Pl := Permutation_length P). set (s2 := mkS (q_in s) (sc_next a) (sc_ready a) subs (sc_last a) (q_out s) (q_cnt s) (q_arr s) (sc_emit a) (q_sent s) (q_over s)) in *. cbv zeta in H. cbn [q_in q_ready] in H.
    assert (I2 : inv k st (so_far pre s2) s2) by exact (subs_inv k st _ (with_sc s a) subs P J). assert (D2 : done fut pre s2) by exact (set_done fut pre (with_sc s a) subs K P).
    assert (M2 : (mu s2 <= mu s)%nat) by (unfold mu, outn, s2, has_out; cbn [q_in q_next q_subs q_out]; lia). assert (Hn := v_next k _ _ _ I2). change (q_ready s2) with (sc_ready a) in Hn. change (q_next s2) with (sc_next a) in Hn. change (q_in s2) with (q_in s) in Hn.
    change (q_in s2) with (q_in s) in H. change (q_ready s2) with (sc_ready a) in H. destruct (q_in s) as [|b0 r] eqn:Eq; [destruct i; discriminate|]. rewrite C1, andb_true_r in H. destruct (Nat.ltb_spec 0 (sc_ready a)) as [Lr|Lr].
    + right. assert (s1 = pass_on s2 b0 r) by congruence. subst s1. split.
      * eapply Nat.lt_le_trans; [|exact M2]. unfold mu, outn, has_out, pass_on. cbn [q_in q_next q_subs q_out]. change (q_in s2) with (b0 :: r). change (q_subs s2) with subs. change (q_next s2) with (sc_next a). assert (Dl := dec_length 1 subs). destruct (sc_next a) as [|n]; [lia|]. cbn [skipn]. replace (S n - 1)%nat with n by lia. cbn [length]. destruct (match q_out s2 with Some (_, _ :: _) => true | _ => false end); lia.
      * exists 1%nat. split; [lia|]. split; [cbn; reflexivity|]. cbn [pass_on q_next]. change (q_next s2) with (sc_next a). lia.
    + rewrite C2 in H. destruct (list_eq_dec (fun a b : srec => ltac:(repeat decide equality)) subs []) as [E0|E0].
      * left. clear - H E0 Ni Eq. subst subs. unfold fill_out in H.
        destruct (match q_out s2 with Some o => Some o | None => match e_buf e with Some c => Some (c, []) | None => None end end) as [(cap, bb)|] eqn:Eo; [|injection H as <- _; unfold s2; cbn; auto].
        change (q_subs s2) with (@nil srec) in H. cbn [copy] in H. cbv zeta in H. set (s3 := mkS _ _ _ _ _ _ _ _ _ _ _) in H. assert (X := send_out_rest s3). cbv zeta in X. destruct X as (X1 & X2 & _ & X4 & _). cbn [orb] in H. unfold remove_used in H. injection H as <- _. cbn [q_in q_next q_subs]. rewrite X1, X2, X4. unfold s3, s2. cbn. auto.
      * right. assert (R2 : roomy B s2) by exact R. destruct (fill_mu st fut pre B e s2 Ho HB R2 I2 D2 E0) as (F1 & _ & m & F2 & F3 & F4). assert (Es1 : s1 = fst (fill_out k e true s2)) by (destruct (fill_out k e true s2); cbn; congruence). subst s1. split; [lia|].
        exists m. change (q_next s2) with (sc_next a) in *. change (q_in s2) with (b0 :: r) in *. rewrite F3, F4, Ni. rewrite Ni in F2. auto.
  - exfalso. destruct (J1 eq_refl) as (N0 & _). apply Nf. split; [lia|]. destruct (q_subs s) as [|r0 l]; [reflexivity|]. destruct (Forall_inv Jr) as (_ & Q). lia.
Qed.
Definition emitted_to (E : nat) (s : sorter) : Prop := forall j b y, nth_error T j = Some b -> In y (inside b) -> (j < E)%nat -> In y (q_emit s).
Lemma done_to fut pre s : done fut pre s -> q_subs s = [] -> emitted_to (length pre + q_next s) s.
Proof. intros D Es j b y Hj Hy L. destruct (x_scan _ _ _ D j b y Hj Hy L) as [Q|Q]; [exact Q|]. rewrite Es in Q. destruct Q. Qed.
Lemma grow_to E e s s1 b : emitted_to E s -> retransmit k e s = Ok (s1, b) -> emitted_to E s1.
Proof. intros H R j c y Hj Hy L. apply (retransmit_grow _ _ _ _ R). exact (H j c y Hj Hy L). Qed.
Lemma calls_run st fut B l : forall pre s, Forall (open_env B) l -> inv k st (so_far pre s) s -> good fut pre s ->
  exists s1 pre', run k s (map ACall l) = Ok s1 /\ good fut pre' s1 /\ inv k st (so_far pre' s1) s1 /\ forall E, emitted_to E s -> emitted_to E s1.
Proof.
  induction l as [|e l IH]; intros pre s F I G; cbn [map run]; [exists s, pre; auto|]. inversion F as [|? ? (F1 & F2 & F3 & F4 & F5) Fl]; subst. assert (Hok : env_ok k st e) by (split; [exact F1|congruence]).
  destruct (retransmit_done st fut pre e s Hok F4 I G) as (s1 & b & pre1 & E1 & G1 & So1). assert (I1 := retransmit_inv k HK st _ e s s1 b Hok I E1). rewrite <- So1 in I1.
  cbn [step]. rewrite E1. cbn [bind fst]. destruct (IH pre1 s1 Fl I1 G1) as (s2 & pre2 & R2 & G2 & I2 & Q2). exists s2, pre2. split; [exact R2|]. split; [exact G2|]. split; [exact I2|]. intros E H. apply Q2. exact (grow_to E e s s1 b H E1).
Qed.
Lemma live st fut B l : forall pre s i, Forall (open_env B) l -> (forall x, In x (insides T) -> lenN (enc_sub (snd x)) <= B) -> roomy B s -> inv k st (so_far pre s) s -> good fut pre s -> eof_at s i ->
  (mu s < length l)%nat -> exists s1, run k s (map ACall l) = Ok s1 /\ emitted_to (length pre + i) s1.
Proof.
  induction l as [|e l IH]; intros pre s i F HB R I G Ei Lm; [cbn in Lm; lia|].
  assert (Now : emitted_to (length pre + i) s -> exists s1, run k s (map ACall (e :: l)) = Ok s1 /\ emitted_to (length pre + i) s1). { intros Q. destruct (calls_run st fut B _ pre s F I G) as (s1 & _ & R1 & _ & _ & Q1). exists s1. auto. }
  destruct (Nat.eq_dec (q_next s) i) as [N1|N1]; [destruct (q_subs s) as [|r0 rs] eqn:Es|].
  { apply Now. rewrite <- N1. apply (done_to fut). apply G. exact Es. }
  all: clear Now; inversion F as [|? ? Fe Fl]; subst; assert (Fe' := Fe); destruct Fe' as (F1 & F2 & F3 & F4 & c & F5 & F6); assert (Hok : env_ok k st e) by (split; [exact F1|congruence]);
    destruct (retransmit_done st fut pre e s Hok F4 I G) as (s1 & b & pre1 & E1 & G1 & So1); assert (I1 := retransmit_inv k HK st _ e s s1 b Hok I E1); rewrite <- So1 in I1;
    assert (R1 : roomy B s1) by (refine (retransmit_roomy B e s s1 b _ R E1); congruence); cbn [map run step]; rewrite E1; cbn [bind fst];
    (assert (Cm := call_mu st fut pre B e s s1 b _ Fe HB R I G Ei ltac:(intros (Q1 & Q2); congruence) E1)); assert (T1 := x_T _ _ _ (proj1 G)); assert (T2 := x_T _ _ _ (proj1 G1));
    (assert (Ls : (length pre1 + length (q_in s1) = length pre + length (q_in s))%nat) by (rewrite T1 in T2; apply (f_equal (@length sbuf)) in T2; rewrite !app_length in T2; lia)).
  - destruct Cm as [(A1 & A2 & A3)|(A1 & m & A2 & A3 & A4)].
    + rewrite A1 in Ls. destruct (calls_run st fut B l pre1 s1 Fl I1 G1) as (s2 & _ & X1 & _ & _ & X2). exists s2. split; [exact X1|]. apply X2. replace (length pre + q_next s)%nat with (length pre1 + q_next s1)%nat by lia. apply (done_to fut); [apply G1|exact A3].
    + destruct Ei as (E2 & E3 & E4). assert (L2 : (q_next s < length (q_in s))%nat) by (apply nth_error_Some; congruence). rewrite A3, skipn_length in Ls. replace (length pre + q_next s)%nat with (length pre1 + (q_next s - m))%nat by lia.
      apply (IH pre1 s1); auto; [|cbn [length] in Lm; lia]. split; [rewrite A3, nth_error_skipn; replace (m + (q_next s - m))%nat with (q_next s) by lia; exact E2|]. split; [lia|]. intros j Lj. rewrite A3, nth_error_skipn. apply E4. lia.
  - destruct Cm as [(A1 & A2 & A3)|(A1 & m & A2 & A3 & A4)].
    + rewrite A1 in Ls. destruct (calls_run st fut B l pre1 s1 Fl I1 G1) as (s2 & _ & X1 & _ & _ & X2). exists s2. split; [exact X1|]. apply X2. replace (length pre + i)%nat with (length pre1 + q_next s1)%nat by lia. apply (done_to fut); [apply G1|exact A3].
    + destruct Ei as (E2 & E3 & E4). assert (L2 : (i < length (q_in s))%nat) by (apply nth_error_Some; congruence). rewrite A3, skipn_length in Ls. replace (length pre + i)%nat with (length pre1 + (i - m))%nat by lia.
      apply (IH pre1 s1); auto; [|cbn [length] in Lm; lia]. split; [rewrite A3, nth_error_skipn; replace (m + (i - m))%nat with i by lia; exact E2|]. split; [lia|]. intros j Lj. rewrite A3, nth_error_skipn. apply E4. lia.
Qed.

(* ---- whole runs ---- *)
Definition call_ok (st : bool) (B : N) (a : sact) : Prop := match a with ACall e => env_ok k st e /\ e_full e = false /\ (forall c, e_buf e = Some c -> B <= c) | _ => True end.
Fixpoint near_run (s : sorter) (l : list sact) : Prop :=
  match l with
  | [] => True
  | a :: l => match a with APush (Some x) => let new := combine (seq (q_arr s) (length x)) x in forall x y, In x new -> In y (new ++ insides (q_in s) ++ lastl (q_emit s)) -> near x y | _ => True end /\
      forall s1, step k s a = Ok s1 -> near_run s1 l
  end.
Lemma near_prefix l : forall s, (forall l1 x l2 s1, l = l1 ++ APush (Some x) :: l2 -> run k s l1 = Ok s1 -> let new := combine (seq (q_arr s1) (length x)) x in forall x y, In x new -> In y (new ++ insides (q_in s1) ++ lastl (q_emit s1)) -> near x y) -> near_run s l.
Proof.
  induction l as [|a l IH]; intros s H; cbn [near_run]; [exact I|]. split.
  - destruct a as [[x|]| |]; try exact I. exact (H [] x l s eq_refl eq_refl).
  - intros s1 E. apply IH. intros l1 x l2 s2 El R. apply (H (a :: l1) x l2 s2); [rewrite El; reflexivity|]. cbn [run]. rewrite E. exact R.
Qed.
Lemma run_done st B l : forall pre s, Forall (call_ok st B) l -> inv k st (so_far pre s) s -> good (arriving (q_arr s) l) pre s -> roomy B s -> near_run s l ->
  exists s1 pre', run k s l = Ok s1 /\ good [] pre' s1 /\ inv k st (so_far pre' s1) s1 /\ roomy B s1.
Proof.
  induction l as [|a l IH]; intros pre s F I G R N; [exists s, pre; split; [reflexivity|auto]|]. inversion F as [|? ? Fa Fl]; subst. destruct N as (Na & N). cbn [run].
  assert (Hok : act_ok k st a) by (destruct a; try exact Logic.I; exact (proj1 Fa)).
  assert (X : exists s1 pre', step k s a = Ok s1 /\ good (arriving (q_arr s1) l) pre' s1 /\ inv k st (so_far pre' s1) s1 /\ roomy B s1).
  { assert (V := v_next k _ _ _ I). destruct a as [[x|]|e|can]; cbn [step arriving] in *.
    - eexists _, pre. split; [reflexivity|]. split; [|split; [|exact R]].
      + apply push_done; [exact G|lia|exact Na].
      + assert (Q := push_inv k HK st _ s (SBuf (combine (seq (q_arr s) (length x)) x)) (q_arr s + length x)%nat I). unfold so_far in *. cbn [q_in]. rewrite app_assoc, insides_app. unfold insides at 2. cbn [map concat]. rewrite app_nil_r. exact Q.
    - eexists _, pre. split; [reflexivity|]. split; [|split; [|exact R]].
      + apply push_done; [exact G|lia|]. intros ? ? [].
      + assert (Q := push_inv k HK st _ s SEof (q_arr s) I). unfold so_far in *. cbn [q_in]. rewrite app_assoc, insides_app. exact Q.
    - destruct Fa as (F1 & F2 & F3). destruct (retransmit_done st _ pre e s F1 F2 I G) as (s1 & b & pre1 & E1 & G1 & So1). assert (I1 := retransmit_inv k HK st _ e s s1 b F1 I E1). rewrite <- So1 in I1. exists s1, pre1. rewrite E1. cbn [bind fst]. split; [reflexivity|]. rewrite (retransmit_arr k _ _ _ _ E1). split; [exact G1|]. split; [exact I1|]. exact (retransmit_roomy B e s s1 b F3 R E1).
    - eexists _, pre. split; [reflexivity|]. destruct (timer_done _ pre s can G) as (G1 & So1). split; [|split].
      + destruct (step_inv k HK st _ s (ATimer can) _ Logic.I I eq_refl) as (_ & Ar). specialize (Ar l). cbn [arriving app] in Ar. rewrite <- Ar. exact G1.
      + rewrite So1. apply timer_inv. exact I.
      + unfold timer. destruct (negb can); [exact R|]. cbn [q_cnt]. destruct (2 <? q_cnt s - 1)%Z; [exact R|]. apply send_roomy. exact R. }
  destruct X as (s1 & pre1 & E1 & G1 & I1 & R1). rewrite E1. cbn [bind]. exact (IH pre1 s1 Fl I1 G1 R1 (N s1 E1)).
Qed.

End S.
