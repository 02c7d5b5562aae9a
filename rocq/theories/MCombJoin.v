(* Proofs about the MBS event builder: which events are built when the numbers of all inputs grow
   steadily. *)
From Verif Require Import Common ListFacts Bytes MbsSpec MCombSpec MCombModel MCombProofs MCombGroups.
Local Open Scope N_scope.

(* ---- the number to build ---- *)

(* [h]: numbers without overflow; all within half of the range of numbers *)
Section Pick.
Context (k : N).
Notation M := (2^k).
Notation H := (2^(k-1)).
Context (Hk : 0 < k).
Lemma two_half : M = 2 * H.
Proof. replace k with (N.succ (k - 1)) at 1 by lia. apply N.pow_succ_r'. Qed.
Lemma half_pos : 0 < H. Proof. pose proof (N.pow_nonzero 2 (k - 1)). lia. Qed.
Lemma half_eq : (M - 1) / 2 = H - 1.
Proof. rewrite two_half. pose proof half_pos as HP. generalize dependent H. intros h HP. symmetry. apply (N.div_unique _ _ _ 1); lia. Qed.

Lemma min_exists (l : list N) : l <> [] -> exists m, In m l /\ forall x, In x l -> m <= x.
Proof. destruct l as [|n l]; [congruence|]. intros _. exists (fold_left N.min l n). apply fold_min_spec. Qed.

Definition oldest (hs : list N) (a : N) : Prop := forall h, In h hs -> a <= h.
Definition before_wrap (hs : list N) (a : N) : Prop := exists w h, a < w * M /\ In h hs /\ w * M <= h /\ forall x, In x hs -> x < w * M -> x <= a.

Lemma pick_linear (Mv Hv A m : N) (md : N -> N) hs n ns b d :
  Mv = 2 * Hv -> 0 < Hv -> (Mv - 1) / 2 = Hv - 1 -> In m hs -> (forall x, In x hs -> m <= x) -> A <= m -> m < A + Mv ->
  (forall h, In h hs -> h < A + Mv -> md h = h - A) -> (forall h, In h hs -> A + Mv <= h -> md h = h - (A + Mv)) ->
  n :: ns = map md hs -> (forall x y, In x hs -> In y hs -> x < y + Hv) -> pick (Mv - 1) n ns = (b, d) ->
  exists a, In a hs /\ b = md a /\ (forall h, In h hs -> md h = b -> h = a) /\
    ((forall h, In h hs -> a <= h) \/ exists h, a < A + Mv /\ In h hs /\ A + Mv <= h /\ forall x, In x hs -> x < A + Mv -> x <= a).
Proof.
  intros TH HP half Im Mm Am mA Low High E Sp Pk.
  assert (Inj : forall x y, In x hs -> In y hs -> md x = md y -> x = y).
  { intros x y Ix Iy Ex. pose proof (Sp _ _ Ix Iy). pose proof (Sp _ _ Iy Ix). pose proof (Mm _ Ix). pose proof (Mm _ Iy).
    destruct (N.lt_ge_cases x (A + Mv)), (N.lt_ge_cases y (A + Mv));
    rewrite ?(Low x), ?(Low y), ?(High x), ?(High y) in Ex by auto; clear - Ex TH HP Am mA H H0 H1 H2 H3 H4; lia. }
  assert (Mi : forall x, In x (n :: ns) <-> exists h, In h hs /\ x = md h).
  { intros x. rewrite E, in_map_iff. split; intros (h & U & V); eauto. }
  unfold pick in Pk. rewrite half in Pk. destruct (fold_min_spec ns n) as [L1 L2]. destruct (fold_max_spec ns n) as [U1 U2].
  set (lo := fold_left N.min ns n) in *. clearbody lo. set (hi := fold_left N.max ns n) in *. clearbody hi.
  apply Mi in L1. destruct L1 as (hl & Il & El). apply Mi in U1. destruct U1 as (hu & Iu & Eu).
  assert (Lm : forall h, In h hs -> lo <= md h) by (intros h I; apply L2; apply Mi; eauto).
  assert (Um : forall h, In h hs -> md h <= hi) by (intros h I; apply U2; apply Mi; eauto).
  assert (Fin : forall a, In a hs -> b = md a -> forall X : Prop, X -> In a hs /\ b = md a /\ (forall h, In h hs -> md h = b -> h = a) /\ X).
  { intros a Ia Eb X x. repeat split; auto. intros h Ih Eh. apply Inj; auto. congruence. }
  clear L2 U2 E Mi Inj half.
  destruct (existsb (fun h => A + Mv <=? h) hs) eqn:Ex.
  - apply existsb_exists in Ex. destruct Ex as (z & Iz & Lz). apply N.leb_le in Lz.
    pose proof (High _ Iz Lz) as Ez. pose proof (Lm _ Iz) as Lz2. pose proof (Um _ Im) as Um2. rewrite (Low m) in Um2 by auto.
    pose proof (Sp _ _ Iz Im) as S1.
    assert (Hu : hu < A + Mv). { destruct (N.lt_ge_cases hu (A + Mv)) as [?|G]; auto. rewrite (High _ Iu G) in Eu. pose proof (Sp _ _ Iu Im) as S2. clear - Eu S2 G Um2 TH HP Am mA. lia. }
    rewrite (Low _ Iu Hu) in Eu. pose proof (Mm _ Iu) as M3.
    assert (Gd : Hv - 1 < hi - lo). { clear - Ez Lz2 Um2 S1 Lz TH HP Am mA. lia. }
    replace (Hv - 1 <? hi - lo) with true in Pk by (symmetry; apply N.ltb_lt; auto). injection Pk as <- <-.
    exists hu. apply (Fin hu); auto. { rewrite (Low _ Iu Hu). auto. } right. exists z. repeat split; auto.
    intros x Ix Lx. pose proof (Um _ Ix) as Ux. rewrite (Low _ Ix Lx) in Ux. pose proof (Mm _ Ix) as Mx. clear - Eu Ux M3 Mx Am. lia.
  - assert (All : forall h, In h hs -> h < A + Mv).
    { intros h I. destruct (N.lt_ge_cases h (A + Mv)) as [?|G]; auto. exfalso.
      assert (existsb (fun h => A + Mv <=? h) hs = true); [|congruence]. apply existsb_exists. exists h. split; auto. apply N.leb_le. auto. }
    rewrite (Low _ Iu (All _ Iu)) in Eu. pose proof (Lm _ Im) as Lm1. rewrite (Low _ Im (All _ Im)) in Lm1.
    rewrite (Low _ Il (All _ Il)) in El. pose proof (Mm _ Il) as A1. pose proof (Mm _ Iu) as A2. pose proof (Sp _ _ Iu Im) as A3.
    assert (hi - lo <= Hv - 1) by (clear - El Eu Lm1 A1 A2 A3 Am HP; lia).
    replace (Hv - 1 <? hi - lo) with false in Pk by (symmetry; apply N.ltb_ge; auto). injection Pk as <- <-.
    exists m. apply (Fin m); auto. rewrite (Low _ Im (All _ Im)). clear - El Lm1 A1 Am. lia.
Qed.

Lemma pick_logic hs n ns b d : n :: ns = map (fun h => h mod M) hs -> (forall x y, In x hs -> In y hs -> x < y + H) ->
  pick (M - 1) n ns = (b, d) ->
  exists a, In a hs /\ b = a mod M /\ (forall h, In h hs -> h mod M = b -> h = a) /\ (oldest hs a \/ before_wrap hs a).
Proof.
  intros E Sp Pk. pose proof two_half as TH. pose proof half_pos as HP.
  destruct (min_exists hs) as (m & Im & Mm). { destruct hs; discriminate. }
  assert (Mz : M <> 0) by (clear - TH HP; lia).
  pose proof (N.div_mod m M Mz) as Hm. pose proof (N.mod_lt m M Mz) as Bm. set (q := m / M) in *. set (r := m mod M) in *.
  assert (Eq : (q + 1) * M = M * q + M) by ring.
  destruct (pick_linear M H (M * q) m (fun h => h mod M) hs n ns b d) as (a & Ia & Eb & Un & Or); auto.
  - apply half_eq.
  - clear - Hm. lia.
  - clear - Hm Bm. lia.
  - intros h I Lt. specialize (Mm _ I). symmetry. assert (Ml : M * q <= h) by (clear - Mm Hm; lia). apply (N.mod_unique h M q).
    + clear - Lt Ml. lia. + clear - Ml. lia.
  - intros h I Lt. specialize (Sp _ _ I Im). symmetry. apply (N.mod_unique h M (q + 1)).
    + clear - Sp Lt Hm Bm TH. lia. + rewrite (N.mul_comm M (q + 1)), Eq. clear - Lt. lia.
  - exists a. split; auto. split; auto. split; auto. destruct Or as [O|(h & O1 & O2 & O3 & O4)]; [left; exact O|right]. exists (q + 1), h. rewrite Eq. auto.
Qed.

(* how far apart the inputs may be *)
Definition bal (G x y : N) : Prop := x <= y + G \/ exists w, x < w * M /\ w * M <= y + 2 * G.
End Pick.

(* ---- steady numbers ---- *)
Section Steady.
Context (L : mevent -> N) (G : N).
Definition lastL (base : N) (l : list mevent) : N := fold_left (fun _ e => L e) l base.
Lemma steady_app base a b : steady L G base (a ++ b) <-> steady L G base a /\ steady L G (lastL base a) b.
Proof. revert base. induction a as [|e a IH]; intros base; cbn; [tauto|]. rewrite IH. unfold lastL. cbn. tauto. Qed.
Lemma lastL_app base a b : lastL base (a ++ b) = lastL (lastL base a) b.
Proof. unfold lastL. apply fold_left_app. Qed.
Lemma steady_lower base l e : steady L G base l -> In e l -> base < L e.
Proof. revert base. induction l as [|x l IH]; cbn; intros base S I; [tauto|]. destruct S as (A & B & C), I as [ -> |I]; [lia|]. specialize (IH _ C I). lia. Qed.
Lemma steady_last base l : steady L G base l -> base <= lastL base l /\ forall e, In e l -> L e <= lastL base l.
Proof.
  revert base. induction l as [|x l IH]; cbn; intros base S; [split; [lia|tauto]|].
  destruct S as (A & B & C). destruct (IH _ C) as [D E]. unfold lastL in *. cbn. split; [lia|]. intros e [ <- |I]; auto.
Qed.
(* in a growing list a number before a larger one *)
Lemma steady_before base u x v e : steady L G base (u ++ x :: v) -> In e (u ++ x :: v) -> L e < L x -> In e u.
Proof.
  intros S I Lt. apply in_app_or in I. destruct I as [I|[ -> |I]]; auto; [lia|].
  apply steady_app in S. destruct S as [_ S]. cbn in S. destruct S as (_ & _ & S). pose proof (steady_lower _ _ _ S I). lia.
Qed.
End Steady.

(* ---- room in the output buffer ---- *)
Definition out_ge (bound : N) (s : st) : Prop := match s_out s with Some (cap, _) => bound <= cap | None => True end.

Lemma flush_out can s s' ok bound : flush can s = (s', ok) -> out_ge bound s -> out_ge bound s'.
Proof.
  unfold flush, out_ge. destruct (s_out s) as [[cap [|e l]]|] eqn:O; [|destruct can|]; intros [= <- <-]; cbn; rewrite ?O; auto.
Qed.

Lemma write_fit e l g s s' ok bound : (forall cap, e_take e = Some cap -> bound <= cap) -> lenN (enc_msubs (group_subs g)) + 16 <= bound ->
  out_ge bound s -> write e l g s = Ok (s', ok) -> out_ge bound s' /\ (ok = true -> s_made s' = s_made s ++ [g]).
Proof.
  intros Hc Hg Ho. unfold write. set (sz := lenN _) in *.
  set (r1 := match s_out s with Some o => if place o sz then (s, true) else flush (e_send1 e) s | None => (s, true) end).
  assert (H1 : out_ge bound (fst r1) /\ s_made (fst r1) = s_made s /\ (snd r1 = true -> match s_out (fst r1) with Some o => place o sz = true | None => True end)).
  { subst r1. unfold out_ge in *. destruct (s_out s) as [o|] eqn:O; cbn; rewrite ?O; auto. destruct (place o sz) eqn:Pl; cbn; rewrite ?O; auto.
    destruct (flush (e_send1 e) s) as [s1 b] eqn:F. pose proof (flush_out _ _ _ _ bound F) as F'. unfold out_ge in F'. rewrite O in F'. apply flush_spec in F. cbn.
    destruct F as (_ & F2 & _ & _ & F3). split; [exact (F' Ho)|]. split; auto. intros ->. destruct F3 as [-> _]. auto. }
  destruct r1 as [s1 b1]. cbn in H1. destruct H1 as (A1 & A2 & A3).
  destruct b1; cbn; [|intros [= <- <-]; split; auto; discriminate].
  set (r2 := match s_out s1 with Some _ => (s1, true) | None => _ end).
  assert (H2 : out_ge bound (fst r2) /\ s_made (fst r2) = s_made s /\ (snd r2 = true -> match s_out (fst r2) with Some o => place o sz = true | None => True end)).
  { subst r2. specialize (A3 eq_refl). unfold out_ge in *. destruct (s_out s1) as [o|] eqn:O; cbn; rewrite ?O; auto. destruct (e_take e) as [cap|] eqn:Tk; cbn; rewrite ?O; auto.
    specialize (Hc _ eq_refl). destruct (cap <? 28); cbn; rewrite ?O; auto. repeat split; auto. intros _. unfold place. cbn [snd fst used_size fold_right]. apply N.leb_le. lia. }
  destruct r2 as [s2 b2]. cbn in H2. destruct H2 as (B1 & B2 & B3).
  destruct b2; cbn; [|intros [= <- <-]; split; auto; discriminate]. specialize (B3 eq_refl).
  unfold out_ge in B1. destruct (s_out s2) as [[cap evs]|] eqn:O; [|discriminate]. rewrite B3. cbn [negb].
  destruct (header l) as [h| |] eqn:Hh; cbn [bind]; try discriminate.
  set (s3 := mkS _ _ _ _ _ _). assert (O3 : out_ge bound s3) by exact B1.
  assert (M3 : s_made s3 = s_made s ++ [g]) by (cbn; congruence).
  destruct (place _ 0); intros [= <- <-]; auto.
  destruct (flush (e_send2 e) s3) as [s4 b] eqn:F. pose proof (flush_out _ _ _ _ _ F O3). apply flush_spec in F. cbn [fst].
  split; auto. intros _. rewrite <- M3. apply F.
Qed.

Lemma has_dup_NoDup l : NoDup l -> has_dup l = false.
Proof.
  induction 1 as [|x l H N IH]; cbn; auto. rewrite IH, orb_false_r. destruct (existsb (N.eqb x) l) eqn:E; auto.
  apply existsb_exists in E. destruct E as (y & I & Ey). apply N.eqb_eq in Ey. subst. tauto.
Qed.

Lemma lenN_app {A} (a b : list A) : lenN (a ++ b) = lenN a + lenN b.
Proof. unfold lenN. rewrite app_length. lia. Qed.
Lemma group_size Z g : (forall i e, member g i e -> lenN (enc_msubs (me_subs e)) <= Z) -> lenN (enc_msubs (group_subs g)) <= lenN g * Z.
Proof.
  induction g as [|o g IH]; intros Hz.
  - cbn. lia.
  - assert (I : lenN (enc_msubs (group_subs g)) <= lenN g * Z) by (apply IH; intros i e Me; apply (Hz (S i)); exact Me).
    assert (El : lenN (o :: g) = 1 + lenN g) by (unfold lenN; cbn [length]; lia). rewrite El. destruct o as [e|].
    + change (group_subs (Some e :: g)) with (me_subs e ++ group_subs g). unfold enc_msubs in *. rewrite map_app, concat_app, lenN_app.
      specialize (Hz 0%nat e eq_refl). unfold enc_msubs in Hz. nia.
    + change (group_subs (None :: g)) with (group_subs g). nia.
Qed.

(* ---- steady inputs ---- *)

Section J.
Context (c : conf) (cfgs : list icfg) (L : mevent -> N) (G base k Z : N).
Notation M := (2^k).
Definition fine (cf : icfg) (e : mevent) : Prop :=
  ~ special (f_lim c) cf e /\ me_num e mod M = L e mod M /\ lenN (enc_msubs (me_subs e)) <= Z.
Definition bound : N := 16 + lenN cfgs * Z.
Definition room (e : env) : Prop := forall cap, e_take e = Some cap -> bound <= cap.

(* the events of input [i] are [r i] *)
Definition steady_inputs (r : nat -> list mevent) : Prop :=
  (forall i cf, nth_error cfgs i = Some cf -> plain cf /\ steady L G base (r i) /\ Forall (fine cf) (r i)) /\
  (f_chk c = true -> forall g, (forall i e, member g i e -> In e (r i)) -> ids_differ g).
Definition settings : Prop := 0 < k /\ 6 * G <= M /\ f_mask c = M - 1 /\ f_tol c = 0.

Definition gone (p : inp) (T : N) : Prop := exists u x v, p_done p ++ pending p = u ++ x :: v /\ T < L x /\ ~ In T (map L u).
Definition all_in (s : st) (g : group) (T : N) : Prop := forall i p, nth_error (s_ins s) i = Some p -> exists e, member g i e /\ L e = T.
Definition claim (s : st) : Prop := forall j pj e, nth_error (s_ins s) j = Some pj -> In e (p_done pj) ->
  if f_full c
  then (exists g, In g (s_made s) /\ all_in s g (L e)) \/ (exists i p, nth_error (s_ins s) i = Some p /\ gone p (L e))
  else exists g, In g (s_made s) /\ member g j e /\
       forall i p, nth_error (s_ins s) i = Some p -> (exists e', member g i e' /\ L e' = L e) \/ gone p (L e).
(* no group has events of different numbers *)
Definition same_num (s : st) : Prop := Forall (fun g => exists T, forall i e, member g i e -> L e = T) (s_made s).
Definition balanced (s : st) : Prop := forall i j pi pj, nth_error (s_ins s) i = Some pi -> nth_error (s_ins s) j = Some pj ->
  bal k G (lastL L base (p_done pi)) (lastL L base (p_done pj)).
Definition J (pre : list op) (s : st) : Prop := Inv c cfgs pre s /\ out_ge bound s /\ balanced s /\ claim s /\ same_num s.

Lemma plain_number cf e : plain cf -> fine cf e -> event_number c cf e = Some (N.land (me_num e) (f_mask c), false).
Proof.
  intros (P1 & P2 & P3) (F1 & F2 & F3). unfold event_number. rewrite P1.
  destruct (g_mbs cf && (f_lim c <=? trig_no e)%Z) eqn:E; auto. exfalso. apply F1. apply andb_prop in E. split; [tauto|]. lia.
Qed.
Lemma plain_unnumbered cf l : plain cf -> Forall (fine cf) l -> unnumbered c cf l -> l = [].
Proof.
  intros P F U. destruct l as [|e l]; auto. inversion U as [|? ? U1 _]; subst. inversion F as [|? ? F1 _]; subst. rewrite (plain_number cf e) in U1; auto. discriminate.
Qed.

(* inputs only look around *)
Definition still (s s' : st) : Prop :=
  length (s_ins s') = length (s_ins s) /\ s_made s' = s_made s /\
  forall i p, nth_error (s_ins s) i = Some p -> exists p', nth_error (s_ins s') i = Some p' /\ p_done p' = p_done p /\ pending p' = pending p.

Lemma still_back s s' : still s s' -> forall i p', nth_error (s_ins s') i = Some p' ->
  exists p, nth_error (s_ins s) i = Some p /\ p_done p' = p_done p /\ pending p' = pending p.
Proof.
  intros (A & _ & C) i p' E. destruct (nth_error (s_ins s) i) as [p|] eqn:E0.
  - destruct (C _ _ E0) as (q & Q & D). assert (q = p') by congruence. subst. eauto.
  - apply nth_error_None in E0. assert (i < length (s_ins s'))%nat; [apply nth_error_Some; congruence|lia].
Qed.
Lemma still_claim s s' : still s s' -> claim s -> claim s'.
Proof.
  intros St Cl j pj e Ej Ie. destruct (still_back _ _ St _ _ Ej) as (p & E & D & _). rewrite D in Ie. specialize (Cl _ _ _ E Ie).
  destruct (f_full c).
  - destruct Cl as [(g & Ig & Ag)|(i & q & Eq & u & x & v & U1 & U2)].
    + left. exists g. split; [destruct St as (_ & -> & _); auto|]. intros i p' E'. destruct (still_back _ _ St _ _ E') as (p0 & E0 & _). eauto.
    + right. destruct St as (_ & _ & St). destruct (St _ _ Eq) as (q' & Q1 & Q2 & Q3). exists i, q'. split; auto. exists u, x, v. rewrite Q2, Q3. auto.
  - destruct Cl as (g & Ig & Mg & Ag). exists g. split; [destruct St as (_ & -> & _); auto|]. split; auto.
    intros i p' E'. destruct (still_back _ _ St _ _ E') as (p0 & E0 & Q2 & Q3). destruct (Ag _ _ E0) as [?|(u & x & v & U1 & U2)]; auto.
    right. exists u, x, v. rewrite Q2, Q3. auto.
Qed.
Lemma still_balanced s s' : still s s' -> balanced s -> balanced s'.
Proof.
  intros St B i j pi pj Ei Ej. destruct (still_back _ _ St _ _ Ei) as (qi & Qi & Di & _). destruct (still_back _ _ St _ _ Ej) as (qj & Qj & Dj & _).
  rewrite Di, Dj. eapply B; eauto.
Qed.

Lemma cfg_at pre s i p : Inv c cfgs pre s -> nth_error (s_ins s) i = Some p -> nth_error cfgs i = Some (p_cfg p).
Proof. intros (_ & <- & _) E. rewrite nth_error_map, E. reflexivity. Qed.

Lemma looked_done pre s i p p' : steady_inputs (fun i => received i pre) -> Inv c cfgs pre s -> nth_error (s_ins s) i = Some p -> looked c p p' -> p_done p' = p_done p /\ pending p' = pending p.
Proof.
  intros SI I E (A1 & A2 & A3 & A4 & (sk & A5 & A6) & A7).
  destruct (proj1 SI _ _ (cfg_at _ _ _ _ I E)) as (Pl & _ & Fi). destruct I as (_ & _ & I & _). destruct (I _ _ E) as [R _].
  assert (sk = []). { apply (plain_unnumbered (p_cfg p)); auto. rewrite <- R, <- A4, A5 in Fi. apply Forall_app in Fi. destruct Fi as [Fi _]. apply Forall_app in Fi. tauto. }
  subst sk. rewrite app_nil_r in A5. split; auto. rewrite A5 in A4. apply app_inv_head in A4. auto.
Qed.

(* a call which selects: the heads of all inputs *)
Definition hd (p : inp) : N := match p_it p with Some (e, _) => L e | None => 0 end.
Lemma heads pre s l l2 now mf : settings -> steady_inputs (fun i => received i pre) -> Inv c cfgs pre s -> balanced s -> mf && negb (f_full c) = false ->
  Forall2 (looked c) (s_ins s) l -> entry c now mf l -> chosen c l l2 ->
  Forall2 (fun p p2 => p_done p2 = p_done p /\ pending p2 = pending p /\ exists e r, p_it p2 = Some (e, r)) (s_ins s) l2 /\
  find_special 0 l = None /\
  exists a, (forall p2, In p2 l2 -> (p_sel p2 = true <-> hd p2 = a)) /\ (exists p2, In p2 l2 /\ hd p2 = a) /\ (oldest (map hd l2) a \/ before_wrap k (map hd l2) a).
Proof.
  intros (Hk & H6 & Hm & Ht) SI I B Mf Lk En Ch.
  destruct (selected_inputs c s l l2 _ _ Lk En Ch) as (S2 & K2 & So & _).
  assert (Hl : forall i p, nth_error (s_ins s) i = Some p -> exists p1 e r, nth_error l i = Some p1 /\ p_cfg p1 = p_cfg p /\ p_it p1 = Some (e, r) /\
     p_done p1 = p_done p /\ pending p1 = pending p /\ in_ok c p1 /\ p_num p1 = L e mod M /\ p_special p1 = false /\ counted p1 = true /\
     lastL L base (p_done p) < L e /\ L e <= lastL L base (p_done p) + G /\ p_sel p1 = false).
  { intros i p E. destruct (Forall2_nth _ _ _ Lk _ _ E) as (p1 & E1 & Lp). destruct (looked_done _ _ _ _ _ SI I E Lp) as [D P].
    destruct En as (K & En). rewrite Forall_forall in K, En. pose proof (nth_error_In _ _ E1) as In1. specialize (K _ In1). destruct (En _ In1) as [Sl En1].
    destruct (proj1 SI _ _ (cfg_at _ _ _ _ I E)) as (Pl & St & Fi). pose proof I as (_ & _ & I3 & _). destruct (I3 _ _ E) as [R _]. clear I3.
    assert (Cf : p_cfg p1 = p_cfg p) by apply Lp. destruct Pl as (P1 & P2 & P3).
    destruct (p_it p1) as [[e r]|] eqn:It.
    2:{ exfalso. destruct (En1 eq_refl) as [_ X]. rewrite Cf, P2, P3, Mf in X. discriminate. }
    assert (Pe : pending p = e :: r ++ qevents (tl (p_queue p1))) by (rewrite <- P; apply pending_head; auto).
    rewrite <- R, Pe in St, Fi. apply steady_app in St. cbn in St. apply Forall_app in Fi. destruct Fi as [_ Fi]. inversion Fi as [|? ? Fe _]; subst.
    exists p1, e, r. pose proof (in_ok_head c _ _ _ K It) as [N V]. rewrite Cf, (plain_number (p_cfg p) e) in N by (repeat split; auto; apply Fe). injection N as N1 N2.
    repeat split; auto; try tauto.
    - rewrite <- N1, Hm. replace (M - 1) with (N.ones k) by (rewrite N.ones_equiv; lia). rewrite N.land_ones. apply Fe.
    - unfold counted. rewrite Cf, P2, It. reflexivity. }
  assert (Ln : length l = length (s_ins s)) by (symmetry; eapply Forall2_length; eauto).
  assert (Hl' : forall i p1, nth_error l i = Some p1 -> exists p, nth_error (s_ins s) i = Some p).
  { intros i p1 E. destruct (nth_error (s_ins s) i) eqn:E'; eauto. apply nth_error_None in E'. assert (i < length l)%nat; [apply nth_error_Some; congruence|lia]. }
  assert (All : forall p1, In p1 l -> counted p1 = true /\ p_special p1 = false /\ p_sel p1 = false /\ p_valid p1 = true /\ g_nonum (p_cfg p1) = false /\ p_num p1 = hd p1 mod M).
  { intros p1 Hp. apply In_nth_error in Hp. destruct Hp as [i E]. destruct (Hl' _ _ E) as (p & Ep). destruct (Hl _ _ Ep) as (q & e & r & Q1 & Q2 & Q3 & Q4 & Q5 & Q6 & Q7 & Q8 & Q9 & Q10 & Q11 & Q12).
    assert (q = p1) by congruence. subst q. repeat split; auto.
    - destruct (in_ok_head c _ _ _ Q6 Q3). auto.
    - apply counted_it in Q9. apply Q9.
    - unfold hd. rewrite Q3. auto. }
  assert (Ns : find_special 0 l = None).
  { destruct (find_special 0 l) as [j|] eqn:F; auto. apply find_special_spec in F. destruct F as (q & _ & F1 & _ & F2). destruct (All _ (nth_error_In _ _ F1)) as (_ & X & _). congruence. }
  assert (Sm : Forall2 same_in l l2).
  { destruct (chosen_facts c l l2 (proj1 En)) as (X & _); auto. apply Forall_forall. intros q Hq. apply All; auto. }
  split; [|split; auto].
  - assert (X : forall i p2, nth_error l2 i = Some p2 -> forall p, nth_error (s_ins s) i = Some p -> p_done p2 = p_done p /\ pending p2 = pending p /\ exists e r, p_it p2 = Some (e, r)).
    { intros i p2 E2 p E. destruct (Hl _ _ E) as (q & e & r & Q1 & Q2 & Q3 & Q4 & Q5 & _). destruct (Forall2_nth _ _ _ Sm _ _ Q1) as (q2 & E2' & Sq).
      assert (q2 = p2) by congruence. subst q2. rewrite (same_done _ _ Sq), (same_pending _ _ Sq). repeat split; auto. exists e, r. rewrite <- Q3. apply Sq. }
    clear - X S2. revert X. generalize (s_ins s) S2. clear S2. intros l0 S2. induction S2 as [|x y a b R S2 IH]; intros X; constructor.
    + apply (X 0%nat); reflexivity.
    + apply IH. intros i p2 E2 p E. apply (X (S i)); auto.
  - destruct Ch as [(j & Fj & _)|(_ & n & ns & b & d & E & Pk & ->)]; [congruence|].
    assert (Hd2 : map hd (select b l) = map hd l).
    { apply Forall2_map. eapply Forall2_weaken; [|exact Sm]. cbn. intros x y (_ & _ & _ & _ & Sxy & _). unfold hd. rewrite Sxy. auto. }
    assert (En2 : n :: ns = map (fun h => h mod M) (map hd l)).
    { rewrite <- E. unfold nums. rewrite map_map. clear - All. induction l as [|p l IH]; cbn; auto.
      destruct (All p (or_introl eq_refl)) as (X1 & _ & _ & _ & _ & X2). rewrite X1. cbn. rewrite X2. f_equal. apply IH. intros q Hq. apply All. right. auto. }
    rewrite Hm in Pk. assert (TH := two_half k Hk).
    assert (Sp : forall x y, In x (map hd l) -> In y (map hd l) -> x < y + 2^(k-1)).
    { intros x y Hx Hy. apply in_map_iff in Hx. destruct Hx as (px & <- & Hx). apply in_map_iff in Hy. destruct Hy as (py & <- & Hy).
      apply In_nth_error in Hx. destruct Hx as [i Ei]. apply In_nth_error in Hy. destruct Hy as [j Ej].
      destruct (Hl' _ _ Ei) as (qi & Qi). destruct (Hl' _ _ Ej) as (qj & Qj).
      destruct (Hl _ _ Qi) as (q & e & r & A1 & A2 & A3 & A4 & A5 & A6 & A7 & A8 & A9 & A10 & A11 & _). assert (q = px) by congruence. subst q.
      destruct (Hl _ _ Qj) as (q & e' & r' & B1 & B2 & B3 & B4 & B5 & B6 & B7 & B8 & B9 & B10 & B11 & _). assert (q = py) by congruence. subst q.
      unfold hd. rewrite A3, B3. pose proof (B _ _ _ _ Qi Qj) as Bij. unfold bal in Bij. revert A10 A11 B10 B11 H6 TH Bij. clear. generalize (2 ^ k). generalize (2 ^ (k - 1)).
      intros h m A10 A11 B10 B11 H6 TH [X|(w & X1 & X2)]; [lia|]. revert X1 X2. generalize (w * m). intros. lia. }
    destruct (pick_logic k Hk (map hd l) n ns b d En2 Sp Pk) as (a & Ia & Eb & Inj & Old). rewrite Hd2. exists a. split; [|split; auto].
    + intros p2 Hp2. apply In_nth_error in Hp2. destruct Hp2 as [i Hp2]. apply select_nth in Hp2. destruct Hp2 as (p1 & E1 & ->).
      destruct (All _ (nth_error_In _ _ E1)) as (X1 & X2 & X3 & X4 & X5 & X6). rewrite X4, X5, orb_false_r, X6. cbn [andb].
      assert (Ih : In (hd p1) (map hd l)) by (apply in_map; eapply nth_error_In; eauto).
      destruct (hd p1 mod M =? b) eqn:Q.
      * apply N.eqb_eq in Q. change (hd (set_sel true p1)) with (hd p1). specialize (Inj _ Ih Q). cbn. tauto.
      * apply N.eqb_neq in Q. rewrite X3. split; [discriminate|]. intros X. exfalso. apply Q. rewrite X. auto.
    + apply in_map_iff in Ia. destruct Ia as (p1 & H1 & H2). apply In_nth_error in H2. destruct H2 as [i H2]. destruct (Forall2_nth _ _ _ Sm _ _ H2) as (p2 & H3 & H4).
      exists p2. split; [eapply nth_error_In; eauto|]. unfold hd in *. destruct H4 as (_ & _ & _ & _ & -> & _). exact H1.
Qed.

(* the state after going on: [a] is the number of the selected events *)
Definition stepped (s s' : st) (l2 : list inp) (a : N) : Prop :=
  length (s_ins s') = length (s_ins s) /\
  forall i p, nth_error (s_ins s) i = Some p -> exists p2 p3 e r, nth_error l2 i = Some p2 /\ nth_error (s_ins s') i = Some p3 /\
    p_it p2 = Some (e, r) /\ hd p2 = L e /\ lastL L base (p_done p) < L e /\ L e <= lastL L base (p_done p) + G /\
    (exists q, pending p = e :: q) /\
    p_done p3 = (if p_sel p2 then p_done p ++ [e] else p_done p) /\ p_done p3 ++ pending p3 = p_done p ++ pending p /\
    (p_sel p2 = true <-> L e = a).

Lemma finish_stepped pre s s' l l2 now mf skip a : steady_inputs (fun i => received i pre) -> Inv c cfgs pre s ->
  Forall2 (looked c) (s_ins s) l -> entry c now mf l -> chosen c l l2 ->
  Forall2 (fun p p2 => p_done p2 = p_done p /\ pending p2 = pending p /\ exists e r, p_it p2 = Some (e, r)) (s_ins s) l2 ->
  (forall p2, In p2 l2 -> (p_sel p2 = true <-> hd p2 = a)) ->
  s_ins s' = finish c now skip l2 -> stepped s s' l2 a.
Proof.
  intros SI I Lk En Ch F2 Sel Es.
  destruct (selected_inputs c s l l2 _ _ Lk En Ch) as (S2 & K2 & So & _).
  pose proof (finish_spec c now skip l2 K2) as Fi. unfold stepped. rewrite Es. split.
  { rewrite <- (Forall2_length _ _ _ Fi), <- (Forall2_length _ _ _ S2). auto. }
  intros i p E. destruct (Forall2_nth _ _ _ F2 _ _ E) as (p2 & E2 & D2 & P2 & e & r & It). destruct (Forall2_nth _ _ _ Fi _ _ E2) as (p3 & E3 & Ad).
  destruct (Forall2_nth _ _ _ S2 _ _ E) as (p2' & E2' & p1 & Lp & Sp). assert (p2' = p2) by congruence. subst p2'.
  assert (Cf : p_cfg p2 = p_cfg p) by (rewrite (same_cfg _ _ Sp); apply Lp).
  destruct (proj1 SI _ _ (cfg_at _ _ _ _ I E)) as (Pl & St & Fn). pose proof I as (_ & _ & I3 & _). destruct (I3 _ _ E) as [R _]. clear I3.
  assert (Pe : pending p = e :: r ++ qevents (tl (p_queue p2))) by (rewrite <- P2; apply pending_head; auto).
  rewrite <- R, Pe in St. apply steady_app in St. cbn in St. destruct St as (_ & St1 & St2 & _).
  exists p2, p3, e, r. split; [auto|]. split; [auto|]. split; [auto|]. assert (Hd : hd p2 = L e) by (unfold hd; rewrite It; auto).
  split; [auto|]. split; [auto|]. split; [auto|]. split; [eauto|].
  specialize (Sel _ (nth_error_In _ _ E2)). rewrite Hd in Sel.
  unfold advanced in Ad. rewrite Cf in Ad. destruct Pl as (Pl1 & Pl2 & Pl3). rewrite Pl2, andb_false_r in Ad. cbn in Ad. rewrite andb_true_r in Ad.
  destruct (p_sel p2) eqn:Sl.
  - destruct Ad as (A1 & A2 & A3 & A4 & (sk & A5 & A6)). unfold head in A5. rewrite It in A5.
    rewrite D2, P2 in A4. assert (sk = []).
    { apply (plain_unnumbered (p_cfg p)); [repeat split; auto| |exact A6]. rewrite <- R, <- A4, A5 in Fn. rewrite !Forall_app in Fn. tauto. }
    subst sk. rewrite D2, app_nil_r in A5. auto.
  - subst p3. rewrite D2, P2. auto.
Qed.

Lemma stepped_back s s' l2 a : stepped s s' l2 a -> forall i p3, nth_error (s_ins s') i = Some p3 -> exists p, nth_error (s_ins s) i = Some p.
Proof.
  intros (A & _) i p3 E. destruct (nth_error (s_ins s) i) eqn:E'; eauto. apply nth_error_None in E'. assert (i < length (s_ins s'))%nat; [apply nth_error_Some; congruence|lia].
Qed.

Lemma stepped_gone s s' l2 a i p p3 T : stepped s s' l2 a -> nth_error (s_ins s) i = Some p -> nth_error (s_ins s') i = Some p3 -> gone p T -> gone p3 T.
Proof.
  intros (_ & St) E E3 (u & x & v & A & B). destruct (St _ _ E) as (p2 & q3 & e & r & _ & Q3 & _ & _ & _ & _ & _ & _ & R & _).
  assert (q3 = p3) by congruence. subst. exists u, x, v. rewrite R. auto.
Qed.

Lemma stepped_balanced s s' l2 a : settings -> balanced s -> stepped s s' l2 a -> length l2 = length (s_ins s) -> oldest (map hd l2) a \/ before_wrap k (map hd l2) a -> balanced s'.
Proof.
  intros (Hk & H6 & _) B St Ln Old i j pi3 pj3 Ei3 Ej3.
  destruct (stepped_back _ _ _ _ St _ _ Ei3) as (pi & Ei). destruct (stepped_back _ _ _ _ St _ _ Ej3) as (pj & Ej). destruct St as (_ & St).
  destruct (St _ _ Ei) as (pi2 & qi & ei & ri & A1 & A2 & A3 & A4 & A5 & A6 & _ & A7 & A8 & A9). assert (qi = pi3) by congruence. subst qi.
  destruct (St _ _ Ej) as (pj2 & qj & ej & rj & B1 & B2 & B3 & B4 & B5 & B6 & _ & B7 & B8 & B9). assert (qj = pj3) by congruence. subst qj.
  rewrite A7, B7. pose proof (B _ _ _ _ Ei Ej) as Bij.
  assert (Xi : lastL L base (if p_sel pi2 then p_done pi ++ [ei] else p_done pi) = if p_sel pi2 then a else lastL L base (p_done pi)).
  { destruct (p_sel pi2); auto. rewrite lastL_app. cbn. apply A9. auto. }
  assert (Xj : lastL L base (if p_sel pj2 then p_done pj ++ [ej] else p_done pj) = if p_sel pj2 then a else lastL L base (p_done pj)).
  { destruct (p_sel pj2); auto. rewrite lastL_app. cbn. apply B9. auto. }
  rewrite Xi, Xj. unfold bal in *. destruct (p_sel pi2) eqn:Si, (p_sel pj2) eqn:Sj.
  - left. lia.
  - destruct Old as [Old|(w & h & W1 & W2 & W3 & W4)].
    + left. assert (a <= hd pj2); [apply Old; apply in_map; eapply nth_error_In; eauto|]. rewrite B4 in *. lia.
    + right. exists w. split; auto. apply in_map_iff in W2. destruct W2 as (q & <- & Iq). apply In_nth_error in Iq. destruct Iq as [m Eq].
      assert (exists pm, nth_error (s_ins s) m = Some pm) as (pm & Em).
      { destruct (nth_error (s_ins s) m) eqn:E'; eauto. apply nth_error_None in E'. assert (m < length l2)%nat; [apply nth_error_Some; congruence|lia]. }
      destruct (St _ _ Em) as (pm2 & qm & em & rm & C1 & C2 & C3 & C4 & C5 & C6 & _). assert (pm2 = q) by congruence. subst pm2. rewrite C4 in *.
      destruct (B _ _ _ _ Em Ej) as [X|(w' & X1 & X2)]; [lia|].
      assert (Gd : G < M) by lia. assert (w <= w'). { destruct (N.le_gt_cases w w') as [?|Y]; auto. exfalso. assert ((w' + 1) * M <= w * M) by (apply N.mul_le_mono_r; lia). lia. }
      assert (w * M <= w' * M) by (apply N.mul_le_mono_r; lia). lia.
  - destruct Bij as [X|(w & X1 & X2)]; [left|right; exists w]; destruct B9 as [B9 _]; specialize (B9 eq_refl); lia.
  - exact Bij.
Qed.

Lemma inv_group_done pre s g i p e : Inv c cfgs pre s -> In g (s_made s) -> nth_error (s_ins s) i = Some p -> member g i e -> In e (p_done p).
Proof.
  intros (_ & _ & I3 & _) Ig E Me. destruct (I3 _ _ E) as [_ S]. assert (In e (from_input i (s_made s))).
  { unfold from_input. apply in_concat. exists [e]. split; [|left; auto]. apply in_map_iff. exists g. rewrite Me. auto. }
  clear - S H. induction S; cbn in *; auto. destruct H; auto.
Qed.

(* the claim: which of the two cases *)
Lemma stepped_claim pre s s' l2 a g : settings -> steady_inputs (fun i => received i pre) -> Inv c cfgs pre s -> claim s -> stepped s s' l2 a -> length l2 = length (s_ins s) ->
  group_of l2 = Ok g -> Forall sel_ok l2 -> (exists p2, In p2 l2 /\ hd p2 = a) ->
  (if f_full c then (s_made s' = s_made s /\ exists p2, In p2 l2 /\ p_sel p2 = false) \/ (s_made s' = s_made s ++ [g] /\ forall p2, In p2 l2 -> p_sel p2 = true)
   else s_made s' = s_made s ++ [g] /\ oldest (map hd l2) a) ->
  oldest (map hd l2) a \/ before_wrap k (map hd l2) a ->
  claim s'.
Proof.
  intros Hs SI I Cl St Ln Gr So Ex Md Old j pj3 e Ej3 Ie.
  destruct (stepped_back _ _ _ _ St _ _ Ej3) as (pj & Ej). pose proof St as (_ & St').
  assert (Mem : forall i p p2 p3 e r, nth_error (s_ins s) i = Some p -> nth_error l2 i = Some p2 -> p_it p2 = Some (e, r) -> p_sel p2 = true -> nth_error (s_ins s') i = Some p3 -> member g i e).
  { intros i p p2 p3 e0 r0 _ E2 It Sl _. unfold member. rewrite (group_nth' _ _ So Gr _ _ E2), Sl. unfold head. rewrite It. reflexivity. }
  assert (Sub : exists x, s_made s' = s_made s ++ x).
  { destruct (f_full c); [destruct Md as [[Md _]|[Md _]]|destruct Md as [Md _]]; rewrite Md; eauto. exists []. rewrite app_nil_r. auto. }
  assert (OldC : In e (p_done pj) -> if f_full c
    then (exists g, In g (s_made s') /\ all_in s' g (L e)) \/ (exists i p, nth_error (s_ins s') i = Some p /\ gone p (L e))
    else exists g, In g (s_made s') /\ member g j e /\
       forall i p, nth_error (s_ins s') i = Some p -> (exists e', member g i e' /\ L e' = L e) \/ gone p (L e)).
  { intros Id. specialize (Cl _ _ _ Ej Id). destruct Sub as (x & Sub). destruct (f_full c).
    - destruct Cl as [(g0 & Ig & Ag)|(i & p & E & Go)].
      + left. exists g0. split; [rewrite Sub; apply in_or_app; auto|]. intros i p3 E3. destruct (stepped_back _ _ _ _ St _ _ E3) as (p & E). eauto.
      + right. destruct (St' _ _ E) as (p2 & p3 & _ & _ & _ & E3 & _). exists i, p3. split; auto. exact (stepped_gone _ _ _ _ _ _ _ _ St E E3 Go).
    - destruct Cl as (g0 & Ig & Mg & Ag). exists g0. split; [rewrite Sub; apply in_or_app; auto|]. split; auto.
      intros i p3 E3. destruct (stepped_back _ _ _ _ St _ _ E3) as (p & E). destruct (Ag _ _ E) as [?|Go]; auto. right. exact (stepped_gone _ _ _ _ _ _ _ _ St E E3 Go). }
  destruct (St' _ _ Ej) as (pj2 & q & ej & rj & B1 & B2 & B3 & B4 & B5 & B6 & _ & B7 & B8 & B9). assert (q = pj3) by congruence. subst q.
  destruct (p_sel pj2) eqn:Sj; [|rewrite B7 in Ie; exact (OldC Ie)]. rewrite B7 in Ie. apply in_app_or in Ie. destruct Ie as [Ie|[<-|[]]]; [exact (OldC Ie)|].
  assert (Ea : L ej = a) by (apply B9; auto). rewrite Ea in *.
  (* an input which has passed [a] *)
  assert (Pass : forall i p p2 p3 e r, nth_error (s_ins s) i = Some p -> nth_error l2 i = Some p2 -> nth_error (s_ins s') i = Some p3 -> p_it p2 = Some (e, r) -> a < L e -> pending p = e :: r ++ qevents (tl (p_queue p2)) \/ (exists q, pending p = e :: q) -> ~ In a (map L (p_done p)) -> gone p3 a).
  { intros i p p2 p3 e0 r0 E E2 E3 It Lt Pe Na. destruct (St' _ _ E) as (q2 & q3 & _ & _ & _ & E3' & _ & _ & _ & _ & _ & _ & R & _). assert (q3 = p3) by congruence. subst q3.
    assert (exists q, pending p = e0 :: q) as (q & Pq) by (destruct Pe as [->|?]; eauto). exists (p_done p), e0, q. rewrite R, Pq. auto. }
  (* [a] was not consumed before on any input, or the claim holds for it already *)
  assert (NotJ : ~ In a (map L (p_done pj))).
  { intros X. apply in_map_iff in X. destruct X as (y & Y1 & Y2). destruct (proj1 SI _ _ (cfg_at _ _ _ _ I Ej)) as (_ & Sj' & _).
    pose proof I as (_ & _ & I3 & _). destruct (I3 _ _ Ej) as [R _]. rewrite <- R in Sj'. apply steady_app in Sj'. destruct Sj' as [Sj' _].
    destruct (steady_last _ _ _ _ Sj') as [_ Sl]. specialize (Sl _ Y2). lia. }
  destruct (f_full c) eqn:Fu.
  - destruct Md as [[Md (p2 & Ip2 & Np2)]|[Md All]].
    + (* some input has another number: it has passed [a] *)
      assert (exists i p p2 p3 e0 r0, nth_error (s_ins s) i = Some p /\ nth_error l2 i = Some p2 /\ nth_error (s_ins s') i = Some p3 /\ p_it p2 = Some (e0, r0) /\ a < L e0 /\ exists q, pending p = e0 :: q) as (i & p & p2' & p3 & e0 & r0 & E & E2 & E3 & It & Lt & Pq).
      { assert (At : forall q2, In q2 l2 -> a < hd q2 -> exists i p p2 p3 e0 r0, nth_error (s_ins s) i = Some p /\ nth_error l2 i = Some p2 /\ nth_error (s_ins s') i = Some p3 /\ p_it p2 = Some (e0, r0) /\ a < L e0 /\ exists q, pending p = e0 :: q).
        { intros q2 Iq Lt. apply In_nth_error in Iq. destruct Iq as [i Eq].
          assert (exists p, nth_error (s_ins s) i = Some p) as (p & E).
          { destruct (nth_error (s_ins s) i) eqn:E'; eauto. apply nth_error_None in E'. assert (i < length l2)%nat; [apply nth_error_Some; congruence|lia]. }
          destruct (St' _ _ E) as (x2 & x3 & e0 & r0 & C1 & C2 & C3 & C4 & C5 & C6 & C7 & _). assert (x2 = q2) by congruence. subst x2.
          exists i, p, q2, x3, e0, r0. repeat split; auto. rewrite <- C4. auto. }
        destruct Old as [Old|(w & h & W1 & W2 & W3 & W4)].
        - apply (At p2 Ip2). assert (a <= hd p2) by (apply Old; apply in_map; auto).
          apply In_nth_error in Ip2. destruct Ip2 as [i Eq].
          assert (exists p, nth_error (s_ins s) i = Some p) as (p & E).
          { destruct (nth_error (s_ins s) i) eqn:E'; eauto. apply nth_error_None in E'. assert (i < length l2)%nat; [apply nth_error_Some; congruence|lia]. }
          destruct (St' _ _ E) as (x2 & x3 & e0 & r0 & C1 & C2 & C3 & C4 & C5 & C6 & C7 & C8 & C9 & C10). assert (x2 = p2) by congruence. subst x2.
          assert (L e0 <> a) by (intros X; apply C10 in X; congruence). lia.
        - apply in_map_iff in W2. destruct W2 as (q2 & <- & Iq). apply (At q2 Iq). lia. }
      destruct (in_dec N.eq_dec a (map L (p_done p))) as [Ia|Na].
      * apply in_map_iff in Ia. destruct Ia as (y & Y1 & Y2). pose proof (Cl _ _ _ E Y2) as Cy. rewrite Fu, Y1 in Cy. destruct Cy as [(g0 & Ig & Ag)|(i' & p' & E' & Go)].
        -- exfalso. destruct (Ag _ _ Ej) as (z & Z1 & Z2). apply NotJ. rewrite <- Z2. apply in_map. eapply inv_group_done; eauto.
        -- right. destruct (St' _ _ E') as (_ & x3 & _ & _ & _ & E3' & _). exists i', x3. split; auto. exact (stepped_gone _ _ _ _ _ _ _ _ St E' E3' Go).
      * right. exists i, p3. split; auto. eapply Pass; eauto.
    + left. exists g. split; [rewrite Md; apply in_or_app; right; left; auto|]. intros i p3 E3. destruct (stepped_back _ _ _ _ St _ _ E3) as (p & E).
      destruct (St' _ _ E) as (x2 & x3 & e0 & r0 & C1 & C2 & C3 & C4 & C5 & C6 & C7 & C8 & C9 & C10). exists e0.
      assert (Sx : p_sel x2 = true) by (apply All; eapply nth_error_In; eauto). split; [eapply Mem; eauto|]. apply C10. auto.
  - destruct Md as [Md Od]. exists g. split; [rewrite Md; apply in_or_app; right; left; auto|]. split; [eapply Mem; eauto|].
    intros i p3 E3. destruct (stepped_back _ _ _ _ St _ _ E3) as (p & E).
    destruct (St' _ _ E) as (x2 & x3 & e0 & r0 & C1 & C2 & C3 & C4 & C5 & C6 & C7 & C8 & C9 & C10). assert (x3 = p3) by congruence. subst x3.
    destruct (p_sel x2) eqn:Sx. { left. exists e0. split; [eapply Mem; eauto|]. apply C10. auto. }
    right. assert (a <= hd x2) by (apply Od; apply in_map; eapply nth_error_In; eauto).
    assert (L e0 <> a) by (intros X; apply C10 in X; congruence). assert (a < L e0) by lia.
    destruct (in_dec N.eq_dec a (map L (p_done p))) as [Ia|Na]; [exfalso|eapply Pass; eauto].
    apply in_map_iff in Ia. destruct Ia as (y & Y1 & Y2). pose proof (Cl _ _ _ E Y2) as Cy. rewrite Fu, Y1 in Cy. destruct Cy as (g0 & Ig & Mg & Ag).
    destruct (Ag _ _ Ej) as [(z & Z1 & Z2)|(u & x & v & U1 & U2 & U3)].
    + apply NotJ. rewrite <- Z2. apply in_map. eapply inv_group_done; eauto.
    + destruct (proj1 SI _ _ (cfg_at _ _ _ _ I Ej)) as (_ & Sj' & _). pose proof I as (_ & _ & I3 & _). destruct (I3 _ _ Ej) as [R _]. rewrite <- R, U1 in Sj'.
      destruct (St' _ _ Ej) as (y2 & y3 & e1 & r1 & D1 & D2 & D3 & _ & _ & _ & (q & D7) & _). assert (y2 = pj2) by congruence. subst y2. rewrite B3 in D3. injection D3 as <- <-.
      apply U3. rewrite <- Ea. apply in_map. eapply (steady_before L G base u x v ej); eauto; [|lia]. rewrite <- U1, D7. apply in_or_app. right. left. auto.
Qed.

Definition no_overflow (r : nat -> list mevent) : Prop := (length cfgs <= 2)%nat \/ forall i e, In e (r i) -> L e < M.
Definition calm (pre : list op) (s : st) : Prop :=
  if f_full c then Forall (fun p => p_conn p = true) (s_ins s) else anyfull s = false /\ no_overflow (fun i => received i pre).

Lemma J_case pre e s s' ok : settings -> steady_inputs (fun i => received i pre) -> calm pre s -> room e -> J pre s -> case c e s s' ok -> J pre s'.
Proof.
  intros Hs SI Ca Ro (I & Og & Ba & Cl & Sn) Cs. pose proof (inv_case c cfgs pre e s s' ok I Cs) as I'. split; auto.
  assert (Tol : f_tol c = 0) by apply Hs.
  assert (StL : forall l, Forall2 (looked c) (s_ins s) l -> forall l2, Forall2 same_in l l2 -> forall s'', s_ins s'' = l2 -> s_made s'' = s_made s -> still s s'').
  { intros l Lk l2 Sm s'' E1 E2. split; [rewrite E1, <- (Forall2_length _ _ _ Sm), <- (Forall2_length _ _ _ Lk); auto|]. split; auto.
    intros i p E. destruct (Forall2_nth _ _ _ Lk _ _ E) as (p1 & H1 & H2). destruct (Forall2_nth _ _ _ Sm _ _ H1) as (p2 & H3 & H4). exists p2. rewrite E1. split; auto.
    rewrite (same_done _ _ H4), (same_pending _ _ H4). exact (looked_done _ _ _ _ _ SI I E H2). }
  assert (Mf : anyfull s && negb (f_full c) = false).
  { unfold calm in Ca. destruct (f_full c); [apply andb_false_r|]. destruct Ca as [-> _]. reflexivity. }
  (* the group fits *)
  assert (Gs : forall l l2 g, Forall2 (looked c) (s_ins s) l -> entry c (e_now e) (anyfull s) l -> chosen c l l2 -> group_of l2 = Ok g ->
     (forall i ev, member g i ev -> In ev (received i pre)) /\ lenN (enc_msubs (group_subs g)) + 16 <= bound).
  { intros l l2 g Lk En Ch Gr. destruct (heads pre s l l2 _ _ Hs SI I Ba Mf Lk En Ch) as (F2 & _ & _).
    destruct (selected_inputs c s l l2 _ _ Lk En Ch) as (S2 & K2 & So & _).
    assert (X : forall i ev, member g i ev -> exists cf, nth_error cfgs i = Some cf /\ In ev (received i pre)).
    { intros i ev Me. destruct (member_sel _ _ So Gr _ _ Me) as (p2 & E2 & _ & Hd). destruct (Forall2_nth' _ _ _ F2 _ _ E2) as (p & E & D & P & e1 & r1 & It).
      exists (p_cfg p). split; [exact (cfg_at _ _ _ _ I E)|]. unfold head in Hd. rewrite It in Hd. injection Hd as ->. pose proof I as (_ & _ & I3 & _). destruct (I3 _ _ E) as [R _]. rewrite <- R.
      apply in_or_app. right. rewrite <- P, (pending_head _ _ _ It). left. reflexivity. }
    split. { intros i ev Me. destruct (X _ _ Me) as (? & _ & ?). auto. }
    assert (lenN (enc_msubs (group_subs g)) <= lenN g * Z).
    { apply group_size. intros i ev Me. destruct (X _ _ Me) as (cf & Ec & Ir). destruct (proj1 SI _ _ Ec) as (_ & _ & Fn). rewrite Forall_forall in Fn. apply Fn; auto. }
    assert (Lg : lenN g = lenN cfgs).
    { unfold lenN. rewrite (group_len _ _ So Gr). destruct I as (_ & I2 & _). rewrite <- I2, map_length, (Forall2_length _ _ _ S2). auto. }
    unfold bound. rewrite Lg in *. lia. }
  (* going on *)
  assert (Go : forall l l2 g skip s1, Forall2 (looked c) (s_ins s) l -> entry c (e_now e) (anyfull s) l -> chosen c l l2 -> group_of l2 = Ok g ->
     s' = set_ins (finish c (e_now e) skip l2) s1 ->
     (if f_full c then (s_made s' = s_made s /\ exists p2, In p2 l2 /\ p_sel p2 = false) \/ (s_made s' = s_made s ++ [g] /\ forall p2, In p2 l2 -> p_sel p2 = true)
      else s_made s' = s_made s ++ [g]) -> balanced s' /\ claim s' /\ same_num s').
  { intros l l2 g skip s1 Lk En Ch Gr Es Md. destruct (heads pre s l l2 _ _ Hs SI I Ba Mf Lk En Ch) as (F2 & Ns & a & Sel & Ex & Old).
    destruct (selected_inputs c s l l2 _ _ Lk En Ch) as (S2 & K2 & So & _).
    assert (St : stepped s s' l2 a) by (apply (finish_stepped pre s s' l l2 (e_now e) (anyfull s) skip a); auto; subst s'; reflexivity).
    assert (Ln : length l2 = length (s_ins s)) by (symmetry; eapply Forall2_length; eauto).
    split; [exact (stepped_balanced s s' l2 a Hs Ba St Ln Old)|].
    assert (Sn' : same_num s').
    { assert (Ng : exists T, forall i e0, member g i e0 -> L e0 = T).
      { exists a. intros i e0 Me. destruct (member_sel _ _ So Gr _ _ Me) as (p2 & E2 & Sl & Hd). apply Sel in Sl; [|eapply nth_error_In; eauto].
        unfold head in Hd. unfold hd in Sl. destruct (p_it p2) as [[x r]|]; [|discriminate]. injection Hd as ->. exact Sl. }
      unfold same_num in *. destruct (f_full c); [destruct Md as [[Md _]|[Md _]]|]; rewrite Md; auto; apply Forall_app; auto. }
    split; [|exact Sn']. apply (stepped_claim pre s s' l2 a g); auto. revert Md. destruct (f_full c) eqn:Fu; intros Md; [exact Md|split; [exact Md|]].
    destruct Old as [?|(w & h & W1 & W2 & W3 & W4)]; auto. unfold calm, no_overflow in Ca. rewrite Fu in Ca. destruct Ca as [_ [Two|Nw]].
    - assert (Lc : length l2 = length cfgs). { rewrite Ln. destruct I as (_ & I2 & _). rewrite <- I2, map_length. auto. }
      destruct Ex as (p2 & Ip & Hp). intros x Ix. destruct (N.le_gt_cases a x) as [?|Lt]; auto. exfalso.
      assert (x < w * M) by lia. clear W4. assert (Three : (3 <= length (map hd l2))%nat).
      { apply (NoDup_incl_length (l := [x; a; h])); [repeat constructor; cbn; intuition lia|]. intros y [<-|[<-|[<-|[]]]]; auto. rewrite <- Hp. apply in_map. auto. }
      rewrite map_length in Three. lia.
    - exfalso. apply in_map_iff in W2. destruct W2 as (q2 & <- & Iq). apply In_nth_error in Iq. destruct Iq as [i Eq].
      destruct (Forall2_nth' _ _ _ F2 _ _ Eq) as (p & E & D & P & e1 & r1 & It). unfold hd in W3. rewrite It in W3.
      assert (L e1 < M). { apply (Nw i). pose proof I as (_ & _ & I3 & _). destruct (I3 _ _ E) as [R _]. rewrite <- R. apply in_or_app. right. rewrite <- P, (pending_head _ _ _ It). left. reflexivity. }
      assert (w <> 0) by (intros ->; lia). assert (1 * M <= w * M) by (apply N.mul_le_mono_r; lia). lia. }
  destruct Cs as [F D ->|l ok P Lk T E1 E2 E3 E4 E5|l l2 g s1 P Lk En Ch Gr W ->|l l2 g P Lk En Ch Gr Ms ->|l l2 g s1 P Lk En Ch Gr Ms W ->].
  - exfalso. unfold calm in Ca. rewrite F in Ca. destruct D as (p & D1 & D2 & D3). rewrite Forall_forall in Ca. specialize (Ca _ D1). congruence.
  - assert (St : still s s'). { apply (StL l Lk l); auto. clear. induction l; constructor; auto. apply same_refl. }
    split; [unfold out_ge; rewrite E2; auto|]. split; [eapply still_balanced; eauto|]. split; [eapply still_claim; eauto|]. unfold same_num. rewrite E5. exact Sn.
  - destruct (Gs _ _ _ Lk En Ch Gr) as [_ Sz]. destruct (write_fit e l2 g (set_ins l2 s) s1 false bound Ro Sz Og W) as [O1 _].
    apply write_spec in W. destruct W as (W1 & [[W2 W3]|[W2 _]]); [|discriminate].
    assert (Sm : Forall2 same_in l l2). { destruct (chosen_facts c l l2 (proj1 En)) as (X & _); auto. eapply Forall_impl; [|exact (proj2 En)]; cbn; tauto. }
    assert (St : still s s1) by (apply (StL l Lk l2); auto). split; auto. split; [eapply still_balanced; eauto|]. split; [eapply still_claim; eauto|]. unfold same_num. rewrite W2. exact Sn.
  - split; auto. destruct (Gs _ _ _ Lk En Ch Gr) as [Mem Sz]. eapply (Go l l2 g true s); eauto.
    destruct Ms as (M1 & [[M2 (p & M3 & M4)]|[M2 M3]]).
    + rewrite M2. left. split; auto. exists p. split; auto. unfold missed in M4. destruct (p_sel p); auto; discriminate.
    + exfalso. assert (Nd : ids_differ g) by (apply (proj2 SI); auto). apply has_dup_NoDup in Nd. unfold group_subs in M3. congruence.
  - destruct (Gs _ _ _ Lk En Ch Gr) as [Mem Sz]. destruct (write_fit e l2 g (set_ins l2 s) s1 true bound Ro Sz Og W) as [O1 Md]. specialize (Md eq_refl). cbn in Md.
    split; auto. eapply (Go l l2 g false s1); eauto. destruct (f_full c) eqn:Fu; auto. right. split; auto.
    intros p2 Ip. destruct (p_sel p2) eqn:Sl; auto. exfalso.
    destruct (heads pre s l l2 _ _ Hs SI I Ba ltac:(rewrite Fu; apply andb_false_r) Lk En Ch) as (F2 & Ns & _).
    apply Ms. split; auto. left. split; auto. exists p2. split; auto.
    destruct (selected_inputs c s l l2 _ _ Lk En Ch) as (S2 & _). apply In_nth_error in Ip. destruct Ip as [i Ei].
    destruct (Forall2_nth' _ _ _ S2 _ _ Ei) as (p & E & p1 & Lp & Sp). destruct (proj1 SI _ _ (cfg_at _ _ _ _ I E)) as ((_ & Pl2 & Pl3) & _).
    assert (Cf : p_cfg p2 = p_cfg p) by (rewrite (same_cfg _ _ Sp); apply Lp). unfold missed. rewrite Sl, Cf, Pl2, Pl3. reflexivity.
Qed.

Lemma J_push pre o s i f : J pre s -> Inv c cfgs (pre ++ [o]) (set_ins (at_input i f (s_ins s)) s) ->
  (forall p, p_done (f p) = p_done p) -> (forall p, in_ok c p -> exists x, pending (f p) = pending p ++ x) ->
  J (pre ++ [o]) (set_ins (at_input i f (s_ins s)) s).
Proof.
  intros (I & Og & Ba & Cl & Sn) I' Fd Fp. split; auto. split; [exact Og|]. pose proof I as (I1 & _). rewrite Forall_forall in I1.
  assert (Back : forall j p', nth_error (at_input i f (s_ins s)) j = Some p' -> exists p x, nth_error (s_ins s) j = Some p /\ p_done p' = p_done p /\ pending p' = pending p ++ x).
  { intros j p' E. rewrite at_input_nth in E. destruct (nth_error (s_ins s) j) as [p|] eqn:Ej; [|destruct (Nat.eqb i j); discriminate]. destruct (Nat.eqb i j); cbn in E; injection E as <-.
    - destruct (Fp p (I1 _ (nth_error_In _ _ Ej))) as (x & X). exists p, x. auto.
    - exists p, []. rewrite app_nil_r. auto. }
  assert (Forw : forall j p, nth_error (s_ins s) j = Some p -> exists p', nth_error (at_input i f (s_ins s)) j = Some p').
  { intros j p E. rewrite at_input_nth, E. destruct (Nat.eqb i j); cbn; eauto. }
  assert (Gn : forall j p' p T, nth_error (at_input i f (s_ins s)) j = Some p' -> nth_error (s_ins s) j = Some p -> gone p T -> gone p' T).
  { intros j p' p T E' E (u & x & v & U1 & U2). destruct (Back _ _ E') as (q & y & Q1 & Q2 & Q3). assert (q = p) by congruence. subst q.
    exists u, x, (v ++ y). rewrite Q2, Q3, app_assoc, U1, <- app_assoc. auto. }
  split.
  - intros a b pa pb Ea Eb. cbn in Ea, Eb. destruct (Back _ _ Ea) as (qa & xa & A1 & A2 & _). destruct (Back _ _ Eb) as (qb & xb & B1 & B2 & _). rewrite A2, B2. eapply Ba; eauto.
  - split; [|exact Sn]. intros j pj ev Ej Ie. cbn in Ej. destruct (Back _ _ Ej) as (q & x & Q1 & Q2 & _). rewrite Q2 in Ie. specialize (Cl _ _ _ Q1 Ie). cbn [s_made s_ins set_ins]. destruct (f_full c).
    + destruct Cl as [(g & Ig & Ag)|(m & p & Em & Gm)].
      * left. exists g. split; auto. intros m p' E'. cbn in E'. destruct (Back _ _ E') as (p0 & _ & E0 & _). eauto.
      * right. destruct (Forw _ _ Em) as (p' & E'). exists m, p'. split; auto. eapply Gn; eauto.
    + destruct Cl as (g & Ig & Mg & Ag). exists g. split; auto. split; auto. intros m p' E'. destruct (Back _ _ E') as (p0 & y & E0 & _). destruct (Ag _ _ E0) as [?|?]; auto. right. eapply Gn; eauto.
Qed.

Lemma J_other pre o s : J pre s -> (forall i, received i [o] = []) -> J (pre ++ [o]) s.
Proof.
  intros ((I1 & I2 & I3 & I4) & R) H. split; auto. split; [auto|]. split; [auto|]. split; [|auto]. intros i p E. rewrite received_app, H, app_nil_r. auto.
Qed.
End J.
