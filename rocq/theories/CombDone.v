(* With increasing trigger numbers the event builder builds exactly the events with a
   member on all inputs. *)
From Verif Require Import Common ListFacts Bytes WordMem BufPtr HadSpec HadModel HadWords HadRead TrigModel TrigProofs CombSpec CombModel CombWrite CombIn CombSafe CombBytes.
Local Open Scope N_scope.

(* ---- climbing lists ---- *)
Lemma climbs_tail G z l : climbs G (z :: l) -> climbs G l.
Proof. intros H. inversion H; [constructor|assumption]. Qed.
Lemma climbs_above G z l : climbs G (z :: l) -> Forall (fun y => (z < y)%Z) l.
Proof.
  revert z. induction l as [|y l IH]; intros z H; [constructor|]. inversion H as [| |? ? ? Hz H2]; subst. constructor; [lia|].
  eapply Forall_impl; [|exact (IH y H2)]. cbn. intros; lia.
Qed.
Lemma climbs_cross G l1 l2 : climbs G (l1 ++ l2) -> forall y z, In y l1 -> In z l2 -> (y < z)%Z.
Proof.
  induction l1 as [|x l1 IH]; intros H y z Hy Hz; [contradiction|]. cbn [app] in H. destruct Hy as [->|Hy].
  - exact (proj1 (Forall_forall _ _) (climbs_above _ _ _ H) z (in_or_app _ _ _ (or_intror Hz))).
  - exact (IH (climbs_tail _ _ _ H) y z Hy Hz).
Qed.
Lemma climbs_mid G l1 y z l2 : climbs G (l1 ++ y :: z :: l2) -> (y < z <= y + G)%Z.
Proof. induction l1 as [|x l1 IH]; intros H; cbn [app] in H; [inversion H; assumption|]. exact (IH (climbs_tail _ _ _ H)). Qed.
Lemma climbs_right G l1 l2 : climbs G (l1 ++ l2) -> climbs G l2.
Proof. induction l1 as [|x l1 IH]; intros H; [exact H|]. exact (IH (climbs_tail _ _ _ H)). Qed.

Section S.
Variable c : conf.
Variable k : N.
Hypothesis HM : c_max c = 2^k.
Hypothesis HK : k < 31.
Variable B : N.
Variable G : Z.
Hypothesis HG : (0 <= G)%Z.
Hypothesis HG4 : (4 * G < Z.of_N (2^k))%Z.
Variable F0 : list (Z * item).
Hypothesis C0 : climbs G (map fst F0).
Hypothesis HT : (c_tol c <= 0 \/ 2 * G <= c_tol c)%Z.

Definition md (z : Z) : N := Z.to_N (z mod Z.of_N (2^k)).
Lemma M_pos : (0 < Z.of_N (2^k) <= 2^30)%Z.
Proof.
  assert (2^k <> 0) by (apply N.pow_nonzero; discriminate). assert (2^k <= 2^30) by (apply N.pow_le_mono_r; lia). change (2^30) with 1073741824 in *. change (2^30)%Z with 1073741824%Z. lia.
Qed.
Lemma md_lt z : md z < 2^k.
Proof. unfold md. assert (P := M_pos). assert (Q := Z.mod_pos_bound z (Z.of_N (2^k)) (proj1 P)). lia. Qed.
Lemma md_eq a b : (Z.abs (a - b) < Z.of_N (2^k))%Z -> md a = md b -> a = b.
Proof.
  intros H E. unfold md in E. assert (P := M_pos). set (M := Z.of_N (2^k)) in *.
  assert (Qa := Z.mod_pos_bound a M (proj1 P)). assert (Qb := Z.mod_pos_bound b M (proj1 P)).
  assert (E2 : (a mod M = b mod M)%Z) by lia. rewrite (Z.div_mod a M), (Z.div_mod b M) in H |- * by lia. rewrite E2 in *.
  assert (a / M = b / M)%Z by nia. congruence.
Qed.
Lemma tdiff_md a b : (2 * Z.abs (b - a) < Z.of_N (2^k))%Z -> tdiff c (md a) (md b) = (b - a)%Z.
Proof.
  intros H. unfold tdiff. rewrite HM. assert (P := M_pos). unfold md. set (M := Z.of_N (2^k)) in *.
  assert (Qa := Z.mod_pos_bound a M (proj1 P)). assert (Qb := Z.mod_pos_bound b M (proj1 P)). rewrite !Z2N.id by lia.
  assert (R := trig_diff_spec M (a mod M) (b mod M)). change (2^31)%Z with 2147483648%Z in R. change (2^30)%Z with 1073741824%Z in P. destruct R as ((j & E) & L); [lia|lia|lia|].
  assert (Ea := Z.div_mod a M ltac:(lia)). assert (Eb := Z.div_mod b M ltac:(lia)).
  assert (T : exists i, (trig_diff M (a mod M) (b mod M) = b - a + i * M)%Z). { exists (j - (b / M) + (a / M))%Z. rewrite E. lia. }
  destruct T as (i & T). rewrite T in *. assert (i = 0 \/ i <= -1 \/ 1 <= i)%Z as [->|[C|C]] by lia; [lia| |]; exfalso; nia.
Qed.

(* ---- one input ---- *)
Record lane := mkL { l_p : inp; l_fut : list item; l_P : list (Z * item); l_R : list (Z * item) }.
Definition numok (last : option N) (R : list (Z * item)) : Prop := numbers k (negb (c_brecv c)) last (map snd R) = map (fun x => md (fst x)) R.
Definition l_F (q : lane) : list (Z * item) := l_P q ++ l_R q.
Definition heads (q : lane) : Prop := match p_item (l_p q) with
  | Some x => exists z R', l_R q = (z, x) :: R' /\ p_trig (l_p q) = md z /\ p_last (l_p q) = md z /\ numok (Some (md z)) R'
  | None => numok (opt (p_last (l_p q))) (l_R q)
  end.
Record lok (P0 R0 : list (Z * item)) (q : lane) : Prop := mkLok {
  lo_pok : pok k B (l_p q);
  lo_head : heads q;
  lo_rest : map snd (l_R q) = all (l_p q) ++ l_fut q;
  lo_climb : climbs G (map fst (l_F q));
  lo_first : match l_F q, F0 with f :: _, f0 :: _ => (Z.abs (fst f - fst f0) <= G)%Z | _, _ => True end;
  lo_J : forall y z, In y (l_P q) -> In z R0 -> (fst y < fst z)%Z;
  lo_K : forall y z, In y P0 -> In z (l_R q) -> (fst y < fst z)%Z
}.
Definition same_lane (q q1 : lane) : Prop := l_F q1 = l_F q /\ l_fut q1 = l_fut q.

Lemma opt_md z : opt (md z) = Some (md z).
Proof. unfold opt. assert (H := md_lt z). assert (P := M_pos). change (2^30)%Z with 1073741824%Z in P. destruct (N.eqb_spec (md z) none) as [E|_]; [|reflexivity]. unfold none in E. lia. Qed.

(* next item *)
Lemma shift_lane P0 R0 q p1 ok : lok P0 R0 q -> (forall x, p_item (l_p q) = Some x -> forall y z, In y (firstn 1 (l_R q)) -> In z R0 -> (fst y < fst z)%Z) ->
  shift_next c (l_p q) = (p1, ok) ->
  exists q1, l_p q1 = p1 /\ same_lane q q1 /\ lok P0 R0 q1 /\ (p_item p1 <> None <-> ok = true) /\
    l_R q1 = match p_item (l_p q) with Some _ => tl (l_R q) | None => l_R q end.
Proof.
  intros [H1 H2 H3 H4 H5 H6 H7] Hx Es. destruct q as [p fut P R]. unfold l_F in *. cbn [l_p l_fut l_P l_R] in *. unfold heads in H2. cbn [l_p l_R] in H2.
  destruct (shift_pok c k HM HK B _ _ _ H1 Es) as (K1 & A1 & I1 & _).
  assert (Q := shift_spec c p). rewrite Es in Q.
  assert (Main : forall P' R' (last : option N), P' ++ R' = P ++ R -> numok last R' -> last = opt (p_last p) -> map snd R' = left p ++ fut ->
     (forall y z, In y P' -> In z R0 -> (fst y < fst z)%Z) -> (forall y z, In y P0 -> In z R' -> (fst y < fst z)%Z) ->
     lok P0 R0 (mkL p1 fut P' R')).
  { intros P' R' last EF Nu El Er J K. split; cbn [l_p l_fut l_P l_R]; auto.
    - unfold heads. cbn [l_p l_R]. destruct ok.
      + destruct Q as (x & Ex & Ell & Et & Ela). rewrite Ex. rewrite Ell in Er. destruct R' as [|(z, x') R']; [discriminate|]. cbn [map snd app] in Er. injection Er as -> Er.
        assert (Tz : p_trig p1 = md z).
        { rewrite Et. assert (Kx : iok B x). { destruct H1 as [_ _ Ho]. unfold all in Ho. rewrite Ell in Ho. apply Forall_app in Ho. destruct Ho as (_ & Ho). inversion Ho; assumption. }
          rewrite (trig_of_spec c k (p_last p) x HM HK (pk_last _ _ _ H1) (iok_word B x Kx)). unfold numok in Nu. cbn [map numbers snd fst] in Nu. injection Nu as Nu _. rewrite <- El. exact Nu. }
        exists z, R'. split; [reflexivity|]. split; [exact Tz|]. split; [rewrite Ela; exact Tz|].
        unfold numok in *. cbn [map numbers snd fst] in Nu. injection Nu as Nu1 Nu2. rewrite Nu1 in Nu2. exact Nu2.
      + destruct Q as (Ex & _ & Ela). rewrite Ex. rewrite Ela, <- El. exact Nu.
    - rewrite A1. exact Er.
    - unfold l_F. cbn [l_P l_R]. rewrite EF. exact H4.
    - unfold l_F. cbn [l_P l_R]. rewrite EF. exact H5. }
  destruct (p_item p) as [x|] eqn:Ex.
  - destruct H2 as (z & R' & -> & Et & Ela & Nu). exists (mkL p1 fut (P ++ [(z, x)]) R'). split; [reflexivity|]. split; [split; [unfold l_F; cbn [l_P l_R]; apply app_assoc_reverse|reflexivity]|].
    split; [|split; [exact I1|reflexivity]]. apply (Main _ _ (Some (md z))); auto.
    + apply app_assoc_reverse.
    + rewrite Ela, opt_md. reflexivity.
    + cbn [map snd] in H3. unfold all in H3. rewrite Ex in H3. cbn [app] in H3. injection H3 as H3. exact H3.
    + intros y w Hy Hw. apply in_app_or in Hy. destruct Hy as [Hy|[<-|[]]]; [exact (H6 y w Hy Hw)|]. refine (Hx x eq_refl (z, x) w _ Hw). left. reflexivity.
    + intros y w Hy Hw. apply (H7 y w Hy). right. exact Hw.
  - exists (mkL p1 fut P R). split; [reflexivity|]. split; [split; reflexivity|]. split; [|split; [exact I1|reflexivity]]. apply (Main _ _ (opt (p_last p))); auto.
    unfold all in H3. rewrite Ex in H3. exact H3.
Qed.

(* distance to input 0 *)
Lemma first_of (P : list (Z * item)) z R : match P ++ z :: R with f :: _ => (fst f <= fst z)%Z -> exists f', P ++ z :: R = f' :: tl (P ++ z :: R) /\ (fst f' <= fst z)%Z | [] => False end.
Proof. destruct P as [|p P]; cbn [app]; intros; eexists; split; try reflexivity; auto. Qed.
Lemma near P0 R0 q b x0 z x R0' R' : lok P0 R0 q -> P0 ++ R0 = F0 -> R0 = (b, x0) :: R0' -> l_R q = (z, x) :: R' -> (Z.abs (z - b) <= G)%Z.
Proof.
  intros [H1 H2 H3 H4 H5 H6 H7] EF -> ER. assert (C0' := C0). rewrite <- EF in C0', H5. clear EF. rename C0' into C1. unfold l_F in *. destruct q as [p fut P R]. cbn [l_P l_R l_p l_fut] in *. subst R.
  assert (Up : (z <= b + G)%Z).
  { destruct P as [|y P] using rev_ind.
    - cbn [app] in H5. destruct P0 as [|f0 P0]; cbn [app fst] in H5; [lia|].
      assert (fst f0 < b)%Z; [|lia]. cbn [app map] in C1. refine (climbs_cross G [fst f0] _ C1 (fst f0) b (or_introl eq_refl) _). rewrite map_app. apply in_or_app. right. left. reflexivity.
    - clear IHP. rewrite !map_app, <- app_assoc in H4. cbn [map app fst] in H4. assert (Q := climbs_mid _ _ _ _ _ H4).
      assert (fst y < b)%Z; [|lia]. apply (H6 y (b, x0)); [apply in_or_app; right; left; reflexivity|left; reflexivity]. }
  assert (Dn : (b <= z + G)%Z).
  { destruct P0 as [|y P0] using rev_ind.
    - cbn [app] in H5. destruct P as [|f P]; cbn [app fst] in H5; [lia|].
      assert (fst f < z)%Z; [|lia]. cbn [app map] in H4. refine (climbs_cross G [fst f] _ H4 (fst f) z (or_introl eq_refl) _). rewrite map_app. apply in_or_app. right. left. reflexivity.
    - clear IHP0. rewrite !map_app, <- app_assoc in C1. cbn [map app fst] in C1. assert (Q := climbs_mid _ _ _ _ _ C1).
      assert (fst y < z)%Z; [|lia]. apply (H7 y (z, x)); [apply in_or_app; right; left; reflexivity|left; reflexivity]. }
  lia.
Qed.

(* second loop *)
Definition found (b : Z) (o : option bool) (q : lane) : Prop :=
  match o with
  | None => p_item (l_p q) = None
  | Some f => exists z x R', p_item (l_p q) = Some x /\ l_R q = (z, x) :: R' /\ if f then z = b else (b < z)%Z
  end.
Lemma align_lane fuel P0 R0 b x0 R0' : P0 ++ R0 = F0 -> R0 = (b, x0) :: R0' -> forall q p1 o, lok P0 R0 q -> p_item (l_p q) <> None ->
  align fuel c (md b) (l_p q) = Ok (p1, o) -> exists q1, l_p q1 = p1 /\ same_lane q q1 /\ lok P0 R0 q1 /\ found b o q1 /\ (p_trig (l_p q) = md b -> q1 = q).
Proof.
  intros EF E0. induction fuel as [|fuel IH]; intros q p1 o H Hi Ea; cbn [align] in Ea.
  all: destruct (p_item (l_p q)) as [x|] eqn:Ex; [|congruence].
  all: assert (Hh := lo_head _ _ _ H); unfold heads in Hh; rewrite Ex in Hh; destruct Hh as (z & R' & ER & Et & Ela & Nu).
  all: assert (Nz := near _ _ _ _ _ _ _ _ _ H EF E0 ER).
  all: destruct (N.eqb_spec (p_trig (l_p q)) (md b)) as [E|E].
  1,3: injection Ea as <- <-; exists q; split; [reflexivity|]; split; [split; reflexivity|]; split; [exact H|]; split; [|reflexivity]; exists z, x, R'; split; [exact Ex|]; split; [exact ER|]; rewrite Et in E; apply md_eq; [lia|exact E].
  all: assert (Nb : z <> b) by (intros ->; congruence).
  all: rewrite Et, tdiff_md in Ea by lia.
  all: destruct (Z.ltb_spec 0 (b - z)) as [L|L].
  - discriminate.
  - injection Ea as <- <-. exists q. split; [reflexivity|]. split; [split; reflexivity|]. split; [exact H|]. split; [|reflexivity]. exists z, x, R'. split; [exact Ex|]. split; [exact ER|]. lia.
  - destruct (shift_next c (l_p q)) as (p2, ok) eqn:Es.
    assert (Hb : forall z', In z' R0 -> (b <= fst z')%Z).
    { intros z' Hz. rewrite E0 in Hz. destruct Hz as [<-|Hz]; [cbn; lia|]. assert (C1 := climbs_right G (map fst P0) (map fst R0)). rewrite <- map_app, EF in C1. specialize (C1 C0). rewrite E0 in C1. cbn [map fst] in C1.
      assert (Q := proj1 (Forall_forall _ _) (climbs_above _ _ _ C1) (fst z') (in_map fst _ _ Hz)). cbn in Q. lia. }
    destruct (shift_lane P0 R0 q p2 ok H) as (q2 & Ep2 & S2 & K2 & I2 & _); [|exact Es|].
    { intros x' _ y w Hy Hw. rewrite ER in Hy. destruct Hy as [<-|[]]. cbn [fst]. specialize (Hb w Hw). lia. }
    destruct ok.
    + rewrite <- Ep2 in Ea, I2. destruct (IH q2 p1 o K2 (proj2 I2 eq_refl) Ea) as (q1 & E1 & S1 & K1 & F1 & _). exists q1. split; [exact E1|].
      split; [destruct S1, S2; split; congruence|]. split; [exact K1|]. split; [exact F1|congruence].
    + injection Ea as <- <-. exists q2. split; [exact Ep2|]. split; [exact S2|]. split; [exact K2|]. split; [|congruence]. cbn [found]. rewrite Ep2. destruct (p_item p2); [|reflexivity]. destruct I2 as (I2 & _). assert (false = true) by (apply I2; discriminate). discriminate.
  - injection Ea as <- <-. exists q. split; [reflexivity|]. split; [split; reflexivity|]. split; [exact H|]. split; [|reflexivity]. exists z, x, R'. split; [exact Ex|]. split; [exact ER|]. lia.
Qed.
Lemma align_lanes P0 R0 b x0 R0' : P0 ++ R0 = F0 -> R0 = (b, x0) :: R0' -> forall L l2 o, Forall (lok P0 R0) L -> Forall (fun q => p_item (l_p q) <> None) L ->
  align_all c (md b) (map l_p L) = Ok (l2, o) ->
  exists L2, map l_p L2 = l2 /\ Forall2 same_lane L L2 /\ Forall (lok P0 R0) L2 /\ (forall q r, L = q :: r -> p_trig (l_p q) = md b -> exists r2, L2 = q :: r2) /\
    match o with None => Exists (fun q => p_item (l_p q) = None) L2 | Some f => Forall (fun q => found b (Some true) q \/ found b (Some false) q) L2 /\ (f = true <-> Forall (found b (Some true)) L2) end.
Proof.
  intros EF E0. induction L as [|q L IH]; intros l2 o F I Ea; cbn [map align_all] in Ea.
  - injection Ea as <- <-. exists []. split; [reflexivity|]. split; [constructor|]. split; [constructor|]. split; [discriminate|]. split; [constructor|]. split; intros; [constructor|reflexivity].
  - inversion F as [|? ? Hq F']; subst. inversion I as [|? ? Iq I']; subst.
    destruct (align (S (length (left (l_p q)))) c (md b) (l_p q)) as [(p1 & o1)| |] eqn:E1; cbn [bind] in Ea; try discriminate.
    destruct (align_lane _ P0 _ b x0 R0' EF eq_refl q p1 o1 Hq Iq E1) as (q1 & Ep1 & S1 & K1 & F1 & U1).
    destruct o1 as [f1|].
    + destruct (align_all c (md b) (map l_p L)) as [(l3 & o3)| |] eqn:E3; cbn [bind] in Ea; try discriminate.
      destruct (IH l3 o3 F' I' eq_refl) as (L3 & M3 & S3 & K3 & _ & C3).
      destruct o3 as [f3|]; injection Ea as <- <-; exists (q1 :: L3); cbn [map]; (split; [congruence|]; split; [constructor; assumption|]; split; [constructor; assumption|]; split; [intros q' r Eq Et; injection Eq as <- _; exists L3; rewrite U1 by exact Et; reflexivity|]).
      * destruct C3 as (C3 & C4). split; [constructor; [destruct f1; auto|exact C3]|]. rewrite andb_true_iff. split.
        -- intros (-> & Ef). constructor; [exact F1|]. apply C4. exact Ef.
        -- intros Ff. inversion Ff as [|? ? Ff1 Ff2]; subst. split; [|apply C4; exact Ff2]. destruct f1; [reflexivity|]. destruct F1 as (z & x & R' & A1 & A2 & A3). destruct Ff1 as (z' & x' & R'' & B1 & B2 & B3). rewrite A2 in B2. injection B2 as -> _ _. lia.
      * apply Exists_cons_tl. exact C3.
    + injection Ea as <- <-. exists (q1 :: L). cbn [map]. split; [congruence|]. split; [constructor; [exact S1|]|].
      { clear. induction L; constructor; auto. split; reflexivity. }
      split; [constructor; assumption|]. split; [intros q' r Eq Et; injection Eq as <- <-; exists L; rewrite U1 by exact Et; reflexivity|]. apply Exists_cons_hd. exact F1.
Qed.

(* after input 0 gave [b] *)
Lemma advance_lane P0 b x0 R0' q : P0 ++ (b, x0) :: R0' = F0 -> lok P0 ((b, x0) :: R0') q -> found b (Some true) q \/ found b (Some false) q ->
  exists q1, l_p q1 = (if p_trig (l_p q) =? md b then fst (shift_next c (l_p q)) else l_p q) /\ same_lane q q1 /\ lok (P0 ++ [(b, x0)]) R0' q1 /\
    (found b (Some true) q -> l_R q1 = tl (l_R q)).
Proof.
  intros EF H Hf.
  assert (Cb : forall z, In z R0' -> (b < fst z)%Z).
  { intros z Hz. assert (C1 := climbs_right G (map fst P0) (map fst ((b, x0) :: R0'))). rewrite <- map_app, EF in C1. specialize (C1 C0). cbn [map fst] in C1.
    exact (proj1 (Forall_forall _ _) (climbs_above _ _ _ C1) (fst z) (in_map fst _ _ Hz)). }
  assert (Weak : lok P0 R0' q). { destruct H as [H1 H2 H3 H4 H5 H6 H7]. split; auto. intros y z Hy Hz. apply H6; [exact Hy|right; exact Hz]. }
  assert (Up : forall q1, lok P0 R0' q1 -> (forall z, In z (l_R q1) -> (b < fst z)%Z) -> lok (P0 ++ [(b, x0)]) R0' q1).
  { intros q1 [H1 H2 H3 H4 H5 H6 H7] Hb. split; auto. intros y z Hy Hz. apply in_app_or in Hy. destruct Hy as [Hy|[<-|[]]]; [exact (H7 y z Hy Hz)|exact (Hb z Hz)]. }
  assert (Above : forall z x R', l_R q = (z, x) :: R' -> forall w, In w R' -> (z < fst w)%Z).
  { intros z x R' ER w Hw. assert (C1 := lo_climb _ _ _ H). unfold l_F in C1. rewrite map_app in C1. apply climbs_right in C1. rewrite ER in C1. cbn [map fst] in C1.
    exact (proj1 (Forall_forall _ _) (climbs_above _ _ _ C1) (fst w) (in_map fst _ _ Hw)). }
  assert (Tr : forall z x R', p_item (l_p q) = Some x -> l_R q = (z, x) :: R' -> p_trig (l_p q) = md z).
  { intros z x R' Ex ER. assert (Hh := lo_head _ _ _ H). unfold heads in Hh. rewrite Ex in Hh. destruct Hh as (z' & R'' & ER' & Et & _). rewrite ER in ER'. injection ER' as <- _. exact Et. }
  destruct Hf as [(z & x & R' & Ex & ER & ->)|(z & x & R' & Ex & ER & Hz)].
  - rewrite (Tr _ _ _ Ex ER), N.eqb_refl. destruct (shift_next c (l_p q)) as (p1, ok) eqn:Es.
    destruct (shift_lane P0 R0' q p1 ok Weak) as (q1 & Ep & Sl & K1 & _ & Er); [|exact Es|].
    { intros x' _ y w Hy Hw. rewrite ER in Hy. destruct Hy as [<-|[]]. exact (Cb w Hw). }
    rewrite Ex, ER in Er. cbn [tl] in Er. exists q1. split; [exact Ep|]. split; [exact Sl|]. split; [apply Up; [exact K1|]|].
    + rewrite Er. exact (Above _ _ _ ER).
    + intros _. rewrite Er, ER. reflexivity.
  - assert (Nz := near _ _ _ _ _ _ _ _ _ H EF eq_refl ER). exists q. rewrite (Tr _ _ _ Ex ER). destruct (N.eqb_spec (md z) (md b)) as [E|_]; [apply md_eq in E; lia|].
    split; [reflexivity|]. split; [split; reflexivity|]. split.
    + apply Up; [exact Weak|]. intros w Hw. rewrite ER in Hw. destruct Hw as [<-|Hw]; [exact Hz|]. assert (Q := Above _ _ _ ER w Hw). lia.
    + intros (z' & x' & R'' & _ & ER' & ->). rewrite ER in ER'. injection ER' as -> _ _. lia.
Qed.

(* ---- the groups ---- *)
Lemma pick_app z (P R : list (Z * item)) : (forall y, In y P -> fst y <> z) -> pick z (P ++ R) = pick z R.
Proof.
  unfold pick. induction P as [|y P IH]; intros H; [reflexivity|]. cbn [app find]. destruct (Z.eqb_spec (fst y) z) as [E|_]; [exfalso; exact (H y (or_introl eq_refl) E)|]. apply IH. intros w Hw. apply H. right. exact Hw.
Qed.
Lemma pick_none z (P : list (Z * item)) : (forall y, In y P -> fst y <> z) -> pick z P = None.
Proof. intros H. rewrite <- (app_nil_r P). rewrite pick_app by exact H. reflexivity. Qed.
Lemma pick_lane P0 R0 b x0 R0' q : lok P0 R0 q -> R0 = (b, x0) :: R0' ->
  (found b (Some true) q -> pick b (l_F q) = p_item (l_p q)) /\ (found b (Some false) q -> pick b (l_F q) = None).
Proof.
  intros H ->. assert (Below : forall y, In y (l_P q) -> fst y <> b).
  { intros y Hy. assert (Q := lo_J _ _ _ H y (b, x0) Hy (or_introl eq_refl)). cbn in Q. lia. }
  unfold l_F. rewrite (pick_app b _ _ Below). split.
  - intros (z & x & R' & Ex & ER & ->). rewrite ER, Ex. unfold pick. cbn [find fst]. rewrite Z.eqb_refl. reflexivity.
  - intros (z & x & R' & Ex & ER & Hz). apply pick_none. intros y Hy. rewrite ER in Hy. destruct Hy as [<-|Hy]; [cbn; lia|].
    assert (C1 := lo_climb _ _ _ H). unfold l_F in C1. rewrite map_app in C1. apply climbs_right in C1. rewrite ER in C1. cbn [map fst] in C1.
    assert (Q := proj1 (Forall_forall _ _) (climbs_above _ _ _ C1) (fst y) (in_map fst _ _ Hy)). cbn in Q. lia.
Qed.
Lemma picks_all P0 R0 b x0 R0' L : R0 = (b, x0) :: R0' -> Forall (lok P0 R0) L -> Forall (found b (Some true)) L ->
  picks b (map l_F L) = Some (members (map l_p L)).
Proof.
  intros E F. induction F as [|q L H F IH]; intros Ff; [reflexivity|]. inversion Ff as [|? ? Hf Ff']; subst. cbn [map picks].
  destruct (pick_lane _ _ _ _ _ _ H eq_refl) as (Q & _). rewrite (Q Hf). destruct Hf as (z & x & R' & Ex & _). rewrite Ex, (IH Ff'). unfold members. cbn [map concat]. rewrite Ex. reflexivity.
Qed.
Lemma picks_not P0 R0 b x0 R0' L : R0 = (b, x0) :: R0' -> Forall (lok P0 R0) L -> Forall (fun q => found b (Some true) q \/ found b (Some false) q) L ->
  ~ Forall (found b (Some true)) L -> picks b (map l_F L) = None.
Proof.
  intros E F. induction F as [|q L H F IH]; intros Fo Nf; [exfalso; apply Nf; constructor|]. inversion Fo as [|? ? Hf Fo']; subst. cbn [map picks].
  destruct (pick_lane _ _ _ _ _ _ H eq_refl) as (Q1 & Q2). destruct Hf as [Hf|Hf].
  - rewrite (IH Fo'); [destruct (pick b (l_F q)); reflexivity|]. intros Ff. apply Nf. constructor; assumption.
  - rewrite (Q2 Hf). reflexivity.
Qed.
Lemma groups_at_app fs a b : groups_at fs (a ++ b) = groups_at fs a ++ groups_at fs b.
Proof. induction a as [|(z, x) a IH]; [reflexivity|]. cbn [app groups_at]. destruct (picks z fs); rewrite IH; reflexivity. Qed.
Lemma picks_none z fs f : In f fs -> pick z f = None -> picks z fs = None.
Proof.
  induction fs as [|g fs IH]; intros H E; [contradiction|]. cbn [picks]. destruct H as [->|H]; [rewrite E; reflexivity|]. rewrite (IH H E). destruct (pick z g); reflexivity.
Qed.
Lemma groups_at_none fs a : (forall y, In y a -> picks (fst y) fs = None) -> groups_at fs a = [].
Proof. induction a as [|(z, x) a IH]; intros H; [reflexivity|]. cbn [groups_at]. assert (Q := H (z, x) (or_introl eq_refl)). cbn [fst] in Q. rewrite Q. apply IH. intros y Hy. apply H. right. exact Hy. Qed.

(* ---- the state ---- *)
Variable Fs : list (list (Z * item)).
Hypothesis HF0 : hd [] Fs = F0.
Hypothesis HFs : Fs <> [].
Definition mg (x : Z * list item) : N * list item := (md (fst x), snd x).
Definition good (l : list (Z * list item)) : list (N * list item) := map mg (wanted (c_check c) (c_skip c) l).
Lemma good_app a b : good (a ++ b) = good a ++ good b.
Proof. unfold good, wanted. rewrite filter_app, map_app. reflexivity. Qed.
Record din (futs : list (list item)) (L : list lane) (P0 R0 : list (Z * item)) (s : comb) : Prop := mkD {
  d_in : map l_p L = k_in s;
  d_F : map l_F L = Fs;
  d_fut : map l_fut L = futs;
  d_ok : Forall (lok P0 R0) L;
  d_0 : match L with q :: _ => l_P q = P0 /\ l_R q = R0 | [] => False end;
  d_built : k_built s = good (groups_at Fs P0)
}.
Lemma d_split futs L P0 R0 s : din futs L P0 R0 s -> P0 ++ R0 = F0.
Proof.
  intros [H1 H2 H3 H4 H5 H6]. destruct L as [|q L]; [contradiction|]. destruct H5 as (<- & <-). rewrite <- HF0, <- H2. reflexivity.
Qed.

(* a consistent list of lanes gives again a state *)
Lemma same_maps L L2 : Forall2 same_lane L L2 -> map l_F L2 = map l_F L /\ map l_fut L2 = map l_fut L.
Proof. induction 1 as [|q q2 L L2 (E1 & E2) F (IH1 & IH2)]; [split; reflexivity|]. cbn [map]. rewrite E1, E2, IH1, IH2. split; reflexivity. Qed.

Lemma fill_lanes P0 R0 L : Forall (lok P0 R0) L -> exists L1, map l_p L1 = fill c (map l_p L) /\ Forall2 same_lane L L1 /\ Forall (lok P0 R0) L1 /\
  Forall2 (fun q q1 => l_P q1 = l_P q /\ l_R q1 = l_R q) L L1.
Proof.
  induction 1 as [|q L H F (L1 & E & S1 & K1 & U1)]; [exists []; repeat split; constructor|]. cbn [map fill].
  assert (Q : exists q1, l_p q1 = (match p_item (l_p q) with Some _ => l_p q | None => fst (shift_next c (l_p q)) end) /\ same_lane q q1 /\ lok P0 R0 q1 /\ l_P q1 = l_P q /\ l_R q1 = l_R q).
  { destruct (p_item (l_p q)) eqn:Ex; [exists q; split; [reflexivity|split; [split; reflexivity|split; [exact H|split; reflexivity]]]|].
    destruct (shift_next c (l_p q)) as (p1, ok) eqn:Es. destruct (shift_lane P0 R0 q p1 ok H) as (q1 & Ep & Sl & K & _ & Er); [congruence|exact Es|].
    rewrite Ex in Er. exists q1. split; [exact Ep|]. split; [exact Sl|]. split; [exact K|]. split; [|exact Er]. destruct Sl as (Sl & _). unfold l_F in Sl. rewrite Er in Sl. apply app_inv_tail in Sl. exact Sl. }
  destruct Q as (q1 & Ep & Sl & K & U). exists (q1 :: L1). cbn [map]. split; [rewrite Ep, E; reflexivity|]. split; [constructor; assumption|]. split; constructor; assumption.
Qed.

Lemma advance_lanes P0 b x0 R0' L : P0 ++ (b, x0) :: R0' = F0 -> Forall (lok P0 ((b, x0) :: R0')) L -> Forall (fun q => found b (Some true) q \/ found b (Some false) q) L ->
  exists L1, map l_p L1 = advance c (md b) (map l_p L) /\ Forall2 same_lane L L1 /\ Forall (lok (P0 ++ [(b, x0)]) R0') L1 /\
    Forall2 (fun q q1 => found b (Some true) q -> l_R q1 = tl (l_R q)) L L1.
Proof.
  intros EF F. induction F as [|q L H F IH]; intros Fo; [exists []; repeat split; constructor|]. inversion Fo as [|? ? Hf Fo']; subst. destruct (IH Fo') as (L1 & E & S1 & K1 & U1).
  destruct (advance_lane P0 b x0 R0' q EF H Hf) as (q1 & Ep & Sl & K & U). exists (q1 :: L1). cbn [map advance]. split; [rewrite Ep; f_equal; exact E|]. split; [constructor; assumption|]. split; constructor; assumption.
Qed.

(* minmax: never far apart *)
Lemma minmax_near L P0 R0 b x0 R0' : P0 ++ R0 = F0 -> R0 = (b, x0) :: R0' -> Forall (lok P0 R0) L ->
  match minmax c (map l_p L) with Some (mn, mx) => exists y z, mn = md y /\ mx = md z /\ (Z.abs (y - b) <= G)%Z /\ (Z.abs (z - b) <= G)%Z | None => True end.
Proof.
  intros EF E0 F. unfold minmax.
  assert (Gen : forall L a, Forall (lok P0 R0) L -> match a with Some (mn, mx) => exists y z, mn = md y /\ mx = md z /\ (Z.abs (y - b) <= G)%Z /\ (Z.abs (z - b) <= G)%Z | None => True end ->
    match fold_left (fun a p => if has_data p then match a with None => Some (p_trig p, p_trig p) | Some (mn, mx) =>
        Some (if (tdiff c mn (p_trig p) <? 0)%Z then p_trig p else mn, if (tdiff c (p_trig p) mx <? 0)%Z then p_trig p else mx) end else a) (map l_p L) a with
    Some (mn, mx) => exists y z, mn = md y /\ mx = md z /\ (Z.abs (y - b) <= G)%Z /\ (Z.abs (z - b) <= G)%Z | None => True end).
  { clear F L. induction L as [|q L IH]; intros a F Ha; [exact Ha|]. inversion F as [|? ? H F']; subst. cbn [map fold_left]. apply IH; [exact F'|]. unfold has_data.
    destruct (p_item (l_p q)) as [x|] eqn:Ex; [|exact Ha]. assert (Hh := lo_head _ _ _ H). unfold heads in Hh. rewrite Ex in Hh. destruct Hh as (z & R' & ER & Et & _).
    assert (Nz := near _ _ _ _ _ _ _ _ _ H EF eq_refl ER). rewrite Et. destruct a as [(mn & mx)|].
    - destruct Ha as (y & w & -> & -> & Hy & Hw). exists (if (tdiff c (md y) (md z) <? 0)%Z then z else y), (if (tdiff c (md z) (md w) <? 0)%Z then z else w).
      split; [destruct (_ <? _)%Z; reflexivity|]. split; [destruct (_ <? _)%Z; reflexivity|]. split; destruct (_ <? _)%Z; assumption.
    - exists z, z. auto. }
  apply Gen; [exact F|exact I].
Qed.
Lemma no_drop L P0 R0 s e : P0 ++ R0 = F0 -> (match L with q :: _ => l_P q = P0 /\ l_R q = R0 | [] => False end) -> Forall (lok P0 R0) L -> e_late e = false -> k_in s = map l_p L -> drop_all c e (map l_p L) = false.
Proof.
  intros EF H0 F He _. unfold drop_all. rewrite He. cbn [andb]. rewrite orb_false_r. destruct (e_drop e); [|reflexivity]. cbn [andb].
  destruct (forallb has_data (map l_p L)) eqn:Eh; [|cbv zeta; destruct HT as [H|H]; [destruct (Z.ltb_spec 0 (c_tol c)); [lia|reflexivity]|destruct (Z.ltb_spec (c_tol c) 0); [lia|apply andb_false_r]]].
  cbv zeta. destruct L as [|q0 L]; [contradiction|]. destruct H0 as (HP & HR). subst P0 R0. assert (H := Forall_inv F).
  assert (Hd := proj1 (has_data_all _) Eh). cbn [map] in Hd. apply Forall_inv in Hd. assert (Hh := lo_head _ _ _ H). unfold heads in Hh. destruct (p_item (l_p q0)) as [x|] eqn:Ex; [|congruence]. destruct Hh as (b & R' & ER & _).
  assert (Q := minmax_near (q0 :: L) _ _ _ _ _ EF ER F). destruct (minmax c (map l_p (q0 :: L))) as [(mn & mx)|].
  - destruct Q as (y & z & -> & -> & Hy & Hz). rewrite tdiff_md by lia. destruct HT as [T|T]; [destruct (Z.ltb_spec 0 (c_tol c)); [lia|reflexivity]|]. destruct (Z.ltb_spec (c_tol c) (z - y)); [lia|apply andb_false_r].
  - destruct HT as [T|T]; [destruct (Z.ltb_spec 0 (c_tol c)); [lia|reflexivity]|destruct (Z.ltb_spec (c_tol c) 0); [lia|apply andb_false_r]].
Qed.

(* ---- BuildEvent ---- *)
Variable n : nat.
Hypothesis Hlen : length Fs = n.
Definition big_env (e : env) : Prop := e_late e = false /\ match e_buf e with Some m => 32 + N.of_nat n * B <= lenN m | None => True end.

Lemma tags_t_err g : g <> [] -> tags_agree (c_skip c) g = negb (t_err c g).
Proof. intros H. destruct g as [|x0 g]; [congruence|]. unfold tags_agree, t_err. cbn [hd]. rewrite negb_involutive. reflexivity. Qed.

Lemma members_iok P0 R0 L : Forall (lok P0 R0) L -> Forall (iok B) (members (map l_p L)) /\ (length (members (map l_p L)) <= length L)%nat.
Proof.
  induction 1 as [|q L H F (IH & IH2)]; [split; [constructor|reflexivity]|]. unfold members in *. cbn [map concat]. destruct (p_item (l_p q)) as [x|] eqn:Ex; cbn [app length]; [|split; [exact IH|lia]].
  split; [|lia]. constructor; [|exact IH]. destruct (lo_pok _ _ _ H) as [_ _ Ho]. unfold all in Ho. rewrite Ex in Ho. inversion Ho; assumption.
Qed.
Lemma never_big P0 R0 L e s b s3 w : Forall (lok P0 R0) L -> length L = n -> big_env e -> prepare c e s b (sz c (members (map l_p L))) = inr (s3, w) -> is_place w (sz c (members (map l_p L))) = true.
Proof.
  intros F Ln (_ & He) Ep. assert (Q := prepare_spec c e s b (sz c (members (map l_p L)))). rewrite Ep in Q. destruct Q as [(_ & _ & Q & _)|(s0 & m & _ & _ & Em & Er & _)]; [exact Q|].
  rewrite Em in He. unfold w_reset in Er. destruct (lenN m <? 32 + 16); [discriminate|]. injection Er as <-. unfold is_place. cbn [w_mem w_ev]. change (is_null pnull) with true. cbv iota zeta. apply N.leb_le.
  destruct (members_iok _ _ _ F) as (Fi & Li). assert (T1 := total_le B _ Fi). assert (T2 := total_used c (members (map l_p L))).
  assert (T3 : sz c (members (map l_p L)) <= total (used (c_skip c) (members (map l_p L)))) by (apply N.mod_le; discriminate).
  assert (T4 : N.of_nat (length (members (map l_p L))) * B <= N.of_nat n * B) by (apply N.mul_le_mono_r; clear - Li Ln; lia).
  clear - T1 T2 T3 T4 He. lia.
Qed.

Lemma outcome_din futs L P0 R0 e s s1 r : din futs L P0 R0 s -> big_env e -> outcome c e s s1 r -> exists L1 P1 R1, din futs L1 P1 R1 s1.
Proof.
  intros D (He & Hb) O. assert (EF := d_split _ _ _ _ _ D). assert (Big : big_env e) by (split; assumption). destruct D as [D1 D2 D3 D4 D5 D6].
  destruct (fill_lanes P0 R0 L D4) as (L1 & M1 & S1 & K1 & U1). rewrite D1 in M1. destruct (same_maps _ _ S1) as (SF1 & Sf1).
  assert (Hd1 : match L1 with q :: _ => l_P q = P0 /\ l_R q = R0 | [] => False end).
  { destruct L as [|q L]; [contradiction|]. inversion U1 as [|? ? ? ? (E1 & E2) _]; subst. rewrite E1, E2. exact D5. }
  assert (Nd : drop_all c e (fill c (k_in s)) = false) by (rewrite <- M1; apply (no_drop L1 P0 R0 (set_in s (map l_p L1)) e EF Hd1 K1 He); reflexivity).
  (* up to alignment *)
  assert (Al : forall l b l2 o, l = fill c (k_in s) -> forallb has_data l = true -> b = p_trig (hd inp_new l) -> align_all c b l = Ok (l2, o) ->
    exists L2 bz x0 R0', R0 = (bz, x0) :: R0' /\ b = md bz /\ map l_p L2 = l2 /\ Forall2 same_lane L L2 /\ Forall (lok P0 R0) L2 /\
      (match L2 with q :: _ => l_P q = P0 /\ l_R q = R0 /\ found bz (Some true) q | [] => False end) /\
      match o with None => True | Some f => Forall (fun q => found bz (Some true) q \/ found bz (Some false) q) L2 /\ (f = true <-> Forall (found bz (Some true)) L2) end).
  { intros l b l2 o -> Eh Eb Ea. rewrite <- M1 in Eh, Eb, Ea. destruct L1 as [|q0 L1]; [contradiction|]. destruct Hd1 as (HP & HR). cbn [map hd] in Eb.
    assert (Hi : Forall (fun q => p_item (l_p q) <> None) (q0 :: L1)). { assert (Q := proj1 (has_data_all _) Eh). rewrite Forall_map in Q. exact Q. }
    assert (H0 := Forall_inv K1). assert (Hi0 := Forall_inv Hi). cbn beta in Hi0. assert (Hh := lo_head _ _ _ H0). unfold heads in Hh. destruct (p_item (l_p q0)) as [x0|] eqn:Ex; [|congruence]. destruct Hh as (bz & R0' & ER & Et & _).
    rewrite Et in Eb. subst b. rewrite HR in ER. destruct (align_lanes P0 R0 bz x0 R0' EF ER _ l2 o K1 Hi Ea) as (L2 & M2 & S2 & K2 & U2 & C2).
    destruct (U2 _ _ eq_refl Et) as (r2 & E2). exists L2, bz, x0, R0'. split; [exact ER|]. split; [reflexivity|]. split; [exact M2|].
    split. { clear - S1 S2. revert S1 L2 S2. generalize (q0 :: L1). intros Lb S1. induction S1 as [|q q1 La Lc (A1 & A2) F IH]; intros L2 S2; inversion S2 as [|? q2 ? ? (B1 & B2) F2]; subst; constructor; [split; congruence|]. apply IH. exact F2. }
    split; [exact K2|]. split; [|destruct o; [exact C2|exact I]]. subst L2. split; [exact HP|]. split; [exact HR|]. exists bz, x0, R0'. rewrite HR. auto. }
  assert (Keep : forall l L2 s2, map l_p L2 = l -> Forall2 same_lane L L2 -> Forall (lok P0 R0) L2 -> (match L2 with q :: _ => l_P q = P0 /\ l_R q = R0 | [] => False end) ->
     k_in s2 = l -> k_built s2 = k_built s -> din futs L2 P0 R0 s2).
  { intros l L2 s2 E1 E2 E3 E4 E5 E6. destruct (same_maps _ _ E2) as (SF2 & Sf2). split; auto; congruence. }
  assert (Adv : forall L2 bz x0 R0' s2 g (add : bool), R0 = (bz, x0) :: R0' -> Forall2 same_lane L L2 -> Forall (lok P0 R0) L2 ->
     (match L2 with q :: _ => l_P q = P0 /\ l_R q = R0 /\ found bz (Some true) q | [] => False end) -> Forall (fun q => found bz (Some true) q \/ found bz (Some false) q) L2 ->
     k_in s2 = advance c (md bz) (map l_p L2) ->
     match picks bz Fs with Some g' => g' = g /\ add = negb (c_check c) || tags_agree (c_skip c) g | None => add = false end ->
     k_built s2 = k_built s ++ (if add then [(md bz, g)] else []) -> exists L3 P1 R1, din futs L3 P1 R1 s2).
  { intros L2 bz x0 R0' s2 g add E0 S2 K2 H2 F2 Ei Eg Eb. rewrite E0 in K2, EF. destruct (advance_lanes P0 bz x0 R0' L2 EF K2 F2) as (L3 & M3 & S3 & K3 & U3).
    exists L3, (P0 ++ [(bz, x0)]), R0'. destruct (same_maps _ _ S2) as (SF2 & Sf2). destruct (same_maps _ _ S3) as (SF3 & Sf3). split; auto.
    - congruence.
    - congruence.
    - congruence.
    - destruct L2 as [|q2 L2]; [contradiction|]. destruct H2 as (HP & HR & Hf). inversion U3 as [|? q3 ? ? A1 _]; subst. inversion S3 as [|? ? ? ? (A2 & _) _]; subst. specialize (A1 Hf). rewrite HR in A1. cbn [tl] in A1. split; [|exact A1].
      unfold l_F in A2. rewrite A1, HR in A2. change (l_P q2 ++ (bz, x0) :: R0') with (l_P q2 ++ [(bz, x0)] ++ R0') in A2. rewrite app_assoc in A2. apply app_inv_tail in A2. exact A2.
    - rewrite Eb, D6, groups_at_app, good_app. f_equal. cbn [groups_at]. destruct (picks bz Fs) as [g'|].
      + destruct Eg as (-> & ->). unfold good, wanted. cbn [filter snd]. destruct (negb (c_check c) || tags_agree (c_skip c) g); reflexivity.
      + rewrite Eg. reflexivity. }
  assert (Head3 : forall (L2 : list lane) bz, (match L2 with q :: _ => l_P q = P0 /\ l_R q = R0 /\ found bz (Some true) q | [] => False end) -> match L2 with q :: _ => l_P q = P0 /\ l_R q = R0 | [] => False end).
  { intros [|q L2] bz H; [exact H|]. destruct H as (A1 & A2 & _). auto. }
  destruct O as [l El Ed|l El Ed Eh|l b l2 El Ed Eh Eb Ea|l b l2 cm s2 El Ed Eh Eb Ea Ec E2|l b l2 s3 El Ed Eh Eb Ea Ec Ep|l b l2 s3 w El Ed Eh Eb Ea Ec Ep Ew|l b l2 s3 w w1 g El Ed Eh Eb Ea Eg Ec Ep Ew E1].
  - rewrite El in Ed. congruence.
  - exists L1, P0, R0. subst l. apply (Keep (fill c (k_in s)) L1); auto.
  - destruct (Al l b l2 _ El Eh Eb Ea) as (L2 & bz & x0 & R0' & E0 & _ & M2 & S2 & K2 & H2 & _). exists L2, P0, R0. apply (Keep l2 L2); eauto; exact (Head3 L2 bz H2).
  - destruct (Al l b l2 _ El Eh Eb Ea) as (L2 & bz & x0 & R0' & E0 & Ebz & M2 & S2 & K2 & H2 & F2 & Ff). destruct (same_maps _ _ S2) as (SF2 & Sf2).
    apply (Adv L2 bz x0 R0' _ (members l2) false E0 S2 K2 H2 F2).
    + cbn [k_in set_in]. rewrite M2, Ebz. reflexivity.
    + rewrite <- D2, <- SF2. destruct cm.
      * rewrite (picks_all P0 R0 bz x0 R0' L2 E0 K2 (proj1 Ff eq_refl)), M2. split; [reflexivity|]. cbn [andb] in Ec. apply negb_false_iff, andb_prop in Ec. destruct Ec as (-> & Et).
        rewrite tags_t_err, Et; [reflexivity|]. intros En. rewrite En in Et. unfold t_err in Et. unfold used in Et. discriminate Et.
      * rewrite (picks_not P0 R0 bz x0 R0' L2 E0 K2 F2); [reflexivity|]. intros A. apply Ff in A. discriminate.
    + rewrite app_nil_r, E2. destruct cm; reflexivity.
  - destruct (Al l b l2 _ El Eh Eb Ea) as (L2 & bz & x0 & R0' & E0 & _ & M2 & S2 & K2 & H2 & _). exists L2, P0, R0.
    assert (R := prepare_rest c e (set_in s l2) b (sz c (members l2))). rewrite Ep in R. destruct R as (R1 & _ & _ & _ & _ & R2 & _). apply (Keep l2 L2); eauto; exact (Head3 L2 bz H2).
  - destruct (Al l b l2 _ El Eh Eb Ea) as (L2 & bz & x0 & R0' & E0 & _ & M2 & S2 & K2 & H2 & _). exfalso. rewrite <- M2 in Ep at 2. rewrite <- M2 in Ew.
    rewrite (never_big P0 R0 L2 e (set_in s l2) b s3 w K2) in Ew; [discriminate| |exact Big|exact Ep]. rewrite <- Hlen, <- D2, map_length. clear - S2. induction S2; cbn; congruence.
  - destruct (Al l b l2 _ El Eh Eb Ea) as (L2 & bz & x0 & R0' & E0 & Ebz & M2 & S2 & K2 & H2 & F2 & Ff). destruct (same_maps _ _ S2) as (SF2 & Sf2).
    assert (R := prepare_rest c e (set_in s l2) b (sz c g)). rewrite Ep in R. destruct R as (R1 & _ & _ & _ & _ & R2 & _).
    apply (Adv L2 bz x0 R0' _ (members l2) true E0 S2 K2 H2 F2).
    + cbn [k_in]. rewrite M2, Ebz. reflexivity.
    + rewrite <- D2, <- SF2. rewrite (picks_all P0 R0 bz x0 R0' L2 E0 K2 (proj1 Ff eq_refl)), M2. split; [reflexivity|]. subst g.
      assert (Ne : members l2 <> []). { rewrite <- M2. destruct L2 as [|q2 L2]; [contradiction|]. destruct H2 as (_ & _ & z & x & R' & Ex & _). unfold members. cbn [map concat]. rewrite Ex. discriminate. }
      rewrite tags_t_err by exact Ne. destruct (c_check c); [|reflexivity]. cbn [andb negb orb] in *. rewrite Ec. reflexivity.
    + cbn [k_built]. rewrite R2, Ebz, Eg. reflexivity.
Qed.

(* ---- runs ---- *)
Definition act_big (a : cact) : Prop := match a with CPush _ _ => True | CBuild e => big_env e | CFlush _ => True end.
Definition futs (l : list cact) : list (list item) := map (fun i => arrived i l) (seq 0 n).

Lemma d_len f L P0 R0 s : din f L P0 R0 s -> length L = n /\ length (k_in s) = n.
Proof. intros [D1 D2 _ _ _ _]. rewrite <- Hlen, <- D2, <- D1, !map_length. split; reflexivity. Qed.

Lemma push_lanes P0 R0 b l j : forall L i0, Forall (lok P0 R0) L -> Forall (iok B) (content b) -> map l_fut L = map (fun i => arrived i (CPush (i0 + j) b :: l)) (seq i0 (length L)) ->
  (j < length L)%nat ->
  exists L1, map l_p L1 = upd (map l_p L) j (push b (nth j (map l_p L) inp_new)) /\ map l_F L1 = map l_F L /\ map l_fut L1 = map (fun i => arrived i l) (seq i0 (length L)) /\ Forall (lok P0 R0) L1 /\
    Forall2 (fun q q1 => l_P q1 = l_P q /\ l_R q1 = l_R q) L L1.
Proof.
  assert (Same : forall L, Forall2 (fun q q1 : lane => l_P q1 = l_P q /\ l_R q1 = l_R q) L L) by (induction L; constructor; auto).
  induction j as [|j IH]; intros L i0 F Hb Hf Hj; (destruct L as [|q L]; [cbn in Hj; lia|]); inversion F as [|? ? H F']; subst; cbn [map length seq upd nth] in *; injection Hf as Hq Hf.
  - exists (mkL (push b (l_p q)) (arrived i0 l) (l_P q) (l_R q) :: L). cbn [map l_p l_fut]. split; [reflexivity|]. split; [reflexivity|]. split; [|split].
    + f_equal. rewrite Hf. apply map_ext_in. intros i Hi. apply in_seq in Hi. rewrite arrived_cons. unfold arrived at 1. cbn [map concat]. destruct (Nat.eqb_spec (i0 + 0) i); [lia|]. reflexivity.
    + constructor; [|exact F']. assert (A := push_all b (l_p q)). destruct H as [H1 H2 H3 H4 H5 H6 H7]. split; cbn [l_p l_fut l_P l_R]; auto.
      * apply push_pok; assumption.
      * rewrite H3, A, <- app_assoc. f_equal. rewrite Hq, arrived_cons. unfold arrived at 1. cbn [map concat]. rewrite Nat.add_0_r, Nat.eqb_refl, app_nil_r. reflexivity.
    + constructor; [split; reflexivity|apply Same].
  - destruct (IH L (S i0) F' Hb) as (L1 & M1 & M2 & M3 & K1 & U1).
    { rewrite Hf. apply map_ext. intros i. do 3 f_equal. lia. }
    { lia. }
    exists (mkL (l_p q) (arrived i0 l) (l_P q) (l_R q) :: L1). cbn [map l_p l_fut]. split; [f_equal; exact M1|]. split; [f_equal; exact M2|]. split; [f_equal; exact M3|]. split.
    + constructor; [|exact K1]. assert (E : l_fut q = arrived i0 l). { rewrite Hq, arrived_cons. unfold arrived at 1. cbn [map concat]. destruct (Nat.eqb_spec (i0 + S j) i0); [lia|]. reflexivity. }
      rewrite <- E. destruct q. exact H.
    + constructor; [split; reflexivity|exact U1].
Qed.

Lemma step_din x l s s1 : (exists L P0 R0, din (futs (x :: l)) L P0 R0 s) -> out_ok s -> (forall i b, x = CPush i b -> Forall (iok B) (content b)) -> act_big x ->
  (forall e, x = CBuild e -> env_ok e) -> step c s x = Ok s1 -> exists L P0 R0, din (futs l) L P0 R0 s1.
Proof.
  intros (L & P0 & R0 & D) Ho Hi Hx Hw Es. destruct (d_len _ _ _ _ _ D) as (LL & LK). destruct x as [j b|e|e]; cbn [step] in Es.
  - assert (D' := D). destruct D as [D1 D2 D3 D4 D5 D6]. destruct (nth_error (k_in s) j) as [p|] eqn:Ej.
    + assert (Lj : (j < n)%nat) by (rewrite <- LK; apply nth_error_Some; congruence). injection Es as <-.
      destruct (push_lanes P0 R0 b l j L 0%nat D4 (Hi j b eq_refl)) as (L1 & M1 & M2 & M3 & K1 & U1); [rewrite LL; exact D3|lia|].
      exists L1, P0, R0. split; [|congruence| |exact K1| |exact D6].
      * rewrite M1, D1. cbn [k_in set_in]. f_equal. f_equal. exact (nth_error_nth _ _ _ Ej).
      * rewrite M3, LL. reflexivity.
      * destruct L as [|q L]; [contradiction|]. inversion U1 as [|? ? ? ? (E1 & E2) _]; subst. rewrite E1, E2. exact D5.
    + injection Es as <-. exists L, P0, R0. split; auto. rewrite D3. unfold futs. apply map_ext_in. intros i Ii. apply in_seq in Ii. rewrite arrived_cons. unfold arrived at 1. cbn [map concat]. apply nth_error_None in Ej. destruct (Nat.eqb_spec j i); [lia|reflexivity].
  - assert (F : Forall (pok k B) (k_in s)). { destruct D as [D1 _ _ D4 _ _]. rewrite <- D1. apply Forall_map. eapply Forall_impl; [|exact D4]. intros q Hq. apply (lo_pok _ _ _ Hq). }
    destruct (build_outcome c k HM HK B e s F) as (s2 & r & E2 & O); [rewrite LK, <- Hlen; destruct Fs; [congruence|cbn; lia]|exact Ho|exact (Hw e eq_refl)|].
    rewrite E2 in Es. cbn [bind fst] in Es. injection Es as <-. apply (outcome_din _ _ _ _ e s s2 r D Hx O).
  - injection Es as <-. exists L, P0, R0. destruct (flush c e s) as [s2|] eqn:Ef; [|exact D]. destruct (flush_rest _ _ _ _ Ef) as (R1 & _ & _ & _ & _ & R2 & _). destruct D as [D1 D2 D3 D4 D5 D6]. split; auto; congruence.
Qed.
Lemma n_pos : (0 < n)%nat.
Proof. rewrite <- Hlen. destruct Fs; [congruence|cbn; lia]. Qed.
Lemma run_din l : Forall (act_ok B) l -> Forall act_big l -> forall a s s1, sinv k B n a s -> out_ok s -> (exists L P0 R0, din (futs l) L P0 R0 s) -> run c s l = Ok s1 ->
  exists L P0 R0, din (futs []) L P0 R0 s1.
Proof.
  induction l as [|x l IH]; intros Hl Hb a s s1 Is Ho D Er; cbn [run] in Er; [injection Er as <-; exact D|].
  inversion Hl as [|? ? Hx Hl']; subst. inversion Hb as [|? ? Hbx Hb']; subst. destruct (step_ok c k HM HK B n a s x n_pos Is Ho Hx) as (s2 & E2 & Is2 & Ho2). rewrite E2 in Er. cbn [bind] in Er.
  apply (IH Hl' Hb' _ s2 s1 Is2 Ho2); [|exact Er]. apply (step_din x l s s2 D Ho); auto; intros; subst x; exact Hx.
Qed.

Definition ready (l : list cact) (i : nat) : Prop :=
  let F := nth i Fs [] in map snd F = arrived i l /\ numbers k (negb (c_brecv c)) None (arrived i l) = map md (map fst F) /\ climbs G (map fst F) /\
  match F, F0 with f :: _, f0 :: _ => (Z.abs (fst f - fst f0) <= G)%Z | _, _ => True end.
Lemma din_new l : (forall i, (i < n)%nat -> ready l i) -> exists L P0 R0, din (futs l) L P0 R0 (comb_new n).
Proof.
  intros H. set (L := map (fun i => mkL inp_new (arrived i l) [] (nth i Fs [])) (seq 0 n)). exists L, [], F0.
  split.
  - unfold L. rewrite map_map. cbn [l_p comb_new k_in]. clear. generalize 0%nat. induction n as [|m IH]; intros i; [reflexivity|]. cbn [seq map repeat]. f_equal. apply IH.
  - unfold L. rewrite map_map. unfold l_F. cbn [l_P l_R app]. clear - Hlen. subst n. induction Fs as [|f fs IH]; [reflexivity|]. cbn [length seq map nth]. f_equal. rewrite <- seq_shift, map_map. cbn [nth]. apply IH; reflexivity.
  - unfold L, futs. rewrite map_map. reflexivity.
  - unfold L. apply Forall_map. apply Forall_forall. intros i Hi. apply in_seq in Hi. destruct (H i) as (E1 & E2 & E3 & E4); [lia|]. split; cbn [l_p l_fut l_P l_R].
    + apply pok_new.
    + unfold heads. cbn [l_p p_item inp_new p_last l_R]. unfold numok. change (opt none) with (@None N). rewrite E1, E2, map_map. reflexivity.
    + rewrite E1. reflexivity.
    + exact E3.
    + exact E4.
    + intros y z [].
    + intros y z [].
  - unfold L. assert (N0 := n_pos). destruct n; [lia|]. cbn [seq map]. cbn [l_P l_R]. split; [reflexivity|]. rewrite <- HF0. destruct Fs; reflexivity.
  - reflexivity.
Qed.

(* an exhausted input: all groups are built *)
Definition exhausted (s : comb) : Prop := exists p, In p (k_in s) /\ all p = [].
Lemma done_all L P0 R0 s : din (futs []) L P0 R0 s -> exhausted s -> k_built s = good (groups Fs).
Proof.
  intros D (p & Hp & Ea). assert (EF := d_split _ _ _ _ _ D). destruct D as [D1 D2 D3 D4 D5 D6]. rewrite D6. unfold groups. rewrite HF0, <- EF, groups_at_app.
  rewrite (groups_at_none Fs R0); [rewrite app_nil_r; reflexivity|]. intros z Hz. rewrite <- D1 in Hp. apply in_map_iff in Hp. destruct Hp as (q & <- & Hq). assert (Kq := proj1 (Forall_forall _ _) D4 q Hq).
  assert (Er : l_R q = []).
  { assert (E := lo_rest _ _ _ Kq). rewrite Ea in E. cbn [app] in E. assert (Ef : l_fut q = []).
    { assert (Q : In (l_fut q) (futs [])) by (rewrite <- D3; apply in_map; exact Hq). unfold futs in Q. apply in_map_iff in Q. destruct Q as (i & <- & _). reflexivity. }
    rewrite Ef in E. destruct (l_R q); [reflexivity|discriminate]. }
  apply (picks_none (fst z) Fs (l_F q)); [rewrite <- D2; apply in_map; exact Hq|]. unfold l_F. rewrite Er, app_nil_r. apply pick_none. intros y Hy. assert (Q := lo_J _ _ _ Kq y z Hy Hz). lia.
Qed.
(* in general: the groups of what was taken from input 0 *)
Lemma done_prefix f L P0 R0 s : din f L P0 R0 s -> exists m, k_built s = good (groups_at Fs (firstn m (hd [] Fs))).
Proof.
  intros D. assert (EF := d_split _ _ _ _ _ D). destruct D as [_ _ _ _ _ D6]. exists (length P0). rewrite HF0, <- EF, firstn_app, Nat.sub_diag, firstn_all. cbn [firstn]. rewrite app_nil_r. exact D6.
Qed.

(* ---- progress ---- *)
Definition mu1 (p : inp) : nat := length (all p) + length (p_queue p).
Definition mu (l : list inp) : nat := list_sum (map mu1 l).
Definition good_env (e : env) : Prop := big_env e /\ envw e /\ Forall (fun b => b = true) (e_send e) /\ (c_nout c <= length (e_send e))%nat /\ match e_buf e with Some m => 48 <= lenN m | None => False end.

Lemma next_buf_queue q r q' : next_buf q = (r, q') -> (length q' <= length q)%nat /\ (r = None -> q = [] /\ q' = [] \/ (length q' < length q)%nat).
Proof.
  revert q'. induction q as [|[b|] q IH]; intros q' E; cbn [next_buf] in E.
  - injection E as <- <-. split; [lia|auto].
  - destruct (next_in b) as [x|] eqn:Eb.
    + injection E as <- <-. cbn. split; [lia|discriminate].
    + destruct (IH q' E) as (A1 & A2). cbn. split; [lia|]. intros Er. destruct (A2 Er) as [(-> & ->)|A]; right; cbn; lia.
  - injection E as <- <-. cbn. split; [lia|]. right. lia.
Qed.
Lemma shift_mu p p1 ok : shift_next c p = (p1, ok) -> (mu1 p1 <= mu1 p)%nat /\ (p_item p <> None -> (mu1 p1 < mu1 p)%nat) /\ (ok = false -> (mu1 p1 < mu1 p)%nat \/ all p1 = []).
Proof.
  intros Es. assert (Q := shift_spec c p). rewrite Es in Q.
  assert (Qu : (length (p_queue p1) <= length (p_queue p))%nat /\ (ok = false -> p_queue p = [] /\ p_queue p1 = [] \/ (length (p_queue p1) < length (p_queue p))%nat)).
  { unfold shift_next, next_item in Es. destruct (next_in (p_cur p :: p_blocks p)) as [((x & cu) & r)|].
    - injection Es as <- <-. cbn. split; [lia|discriminate].
    - destruct (next_buf (p_queue p)) as (r & q) eqn:En. destruct (next_buf_queue _ _ _ En) as (A1 & A2). destruct r as [((x & cu) & r)|]; injection Es as <- <-; cbn [p_queue]; split; auto. discriminate. }
  destruct Qu as (Q1 & Q2). assert (A1 : all p1 = left p).
  { destruct ok; [destruct Q as (x & Ex & El & _); unfold all; rewrite Ex, El; reflexivity|destruct Q as (Ex & El & _); unfold all; rewrite Ex, El; reflexivity]. }
  unfold mu1. rewrite A1. assert (Al : length (all p) = ((match p_item p with Some _ => 1 | None => 0 end) + length (left p))%nat) by (unfold all; destruct (p_item p); reflexivity).
  split; [lia|]. split; [destruct (p_item p); [lia|congruence]|]. intros ->. destruct (Q2 eq_refl) as [(Ep & Ep1)|L]; [|left; lia]. destruct (p_item p); [left; lia|right].
  unfold shift_next, next_item in Es. destruct (next_in (p_cur p :: p_blocks p)) as [((x & cu) & r)|] eqn:En; [discriminate|]. apply next_in_none in En. cbn [concat] in En. apply app_eq_nil in En. destruct En as (E1 & E2). unfold left. rewrite E1, E2, Ep. reflexivity.
Qed.
Lemma mu_le l l1 : Forall2 (fun p p1 => (mu1 p1 <= mu1 p)%nat) l l1 -> (mu l1 <= mu l)%nat.
Proof. unfold mu. induction 1; [reflexivity|]. cbn [map list_sum fold_right] in *. unfold list_sum in *. lia. Qed.
Lemma mu_lt l l1 : Forall2 (fun p p1 => (mu1 p1 <= mu1 p)%nat) l l1 -> Exists (fun x => (mu1 (snd x) < mu1 (fst x))%nat) (combine l l1) -> (mu l1 < mu l)%nat.
Proof.
  unfold mu. induction 1 as [|p p1 l l1 H F IH]; intros E; [inversion E|]. assert (G1 := mu_le _ _ F). unfold mu in G1. cbn [combine] in E. cbn [map list_sum fold_right] in *. unfold list_sum in *. inversion E as [? ? A|? ? A]; subst; [cbn [fst snd] in A; lia|]. specialize (IH A). lia.
Qed.
Lemma fill_mu l : Forall2 (fun p p1 => (mu1 p1 <= mu1 p)%nat) l (fill c l) /\ (forallb has_data (fill c l) = false -> (mu (fill c l) < mu l)%nat \/ exists p, In p (fill c l) /\ all p = []).
Proof.
  assert (A : Forall2 (fun p p1 => (mu1 p1 <= mu1 p)%nat) l (fill c l)).
  { induction l as [|p l IH]; [constructor|]. cbn [fill map]. constructor; [|exact IH]. destruct (p_item p); [lia|]. destruct (shift_next c p) as (p1, ok) eqn:Es. apply (shift_mu _ _ _ Es). }
  split; [exact A|]. intros H. assert (Q : Exists (fun x => (mu1 (snd x) < mu1 (fst x))%nat \/ all (snd x) = []) (combine l (fill c l))).
  { clear A. induction l as [|p l IH]; [discriminate|]. cbn [fill map forallb] in H. cbn [fill map combine]. apply andb_false_iff in H. destruct H as [H|H]; [|apply Exists_cons_tl, IH, H]. apply Exists_cons_hd. cbn [fst snd].
    destruct (p_item p) as [x|] eqn:Ex; [unfold has_data in H; rewrite Ex in H; discriminate|]. destruct (shift_next c p) as (p1, ok) eqn:Es. cbn [fst] in *. destruct (shift_mu _ _ _ Es) as (_ & _ & S3). apply S3. destruct ok; [|reflexivity].
    assert (Q := shift_spec c p). rewrite Es in Q. destruct Q as (x & Ex1 & _). unfold has_data in H. rewrite Ex1 in H. discriminate. }
  destruct (proj1 (Exists_exists _ _) Q) as ((p & p1) & Hin & [Hl|He]).
  - left. apply mu_lt; [exact A|]. apply Exists_exists. exists (p, p1). auto.
  - right. exists p1. split; [exact (in_combine_r _ _ _ _ Hin)|exact He].
Qed.
Lemma align_mu fuel : forall b p p1 o, p_item p <> None -> align fuel c b p = Ok (p1, o) -> (mu1 p1 <= mu1 p)%nat /\ (o = None -> (mu1 p1 < mu1 p)%nat).
Proof.
  induction fuel as [|fuel IH]; intros b p p1 o Hi E; cbn [align] in E; (destruct (p_trig p =? b); [injection E as <- <-; split; [lia|discriminate]|]); (destruct (0 <? tdiff c (p_trig p) b)%Z; [|injection E as <- <-; split; [lia|discriminate]]); [discriminate|].
  destruct (shift_next c p) as (p2, ok) eqn:Es. destruct (shift_mu _ _ _ Es) as (A1 & A2 & _). specialize (A2 Hi). destruct ok.
  - assert (Q := shift_spec c p). rewrite Es in Q. destruct Q as (x & Ex & _). destruct (IH b p2 p1 o) as (B1 & B2); [congruence|exact E|]. split; [lia|intros; lia].
  - injection E as <- <-. split; [lia|intros _; lia].
Qed.
Lemma align_all_mu b l l2 o : Forall (fun p => p_item p <> None) l -> align_all c b l = Ok (l2, o) -> Forall2 (fun p p1 => (mu1 p1 <= mu1 p)%nat) l l2 /\ (o = None -> (mu l2 < mu l)%nat).
Proof.
  intros F. revert l2 o. induction F as [|p l Hp F IH]; intros l2 o E; cbn [align_all] in E; [injection E as <- <-; split; [constructor|discriminate]|].
  assert (Refl : forall l : list inp, Forall2 (fun p p1 => (mu1 p1 <= mu1 p)%nat) l l) by (induction l0; constructor; auto).
  destruct (align (S (length (left p))) c b p) as [(p1 & o1)| |] eqn:E1; cbn [bind] in E; try discriminate. destruct (align_mu _ _ _ _ _ Hp E1) as (A1 & A2). destruct o1 as [f1|].
  - destruct (align_all c b l) as [(l3 & o3)| |] eqn:E3; cbn [bind] in E; try discriminate. destruct (IH l3 o3 eq_refl) as (B1 & B2). destruct o3; injection E as <- <-; (split; [constructor; assumption|]); [discriminate|]. intros _. specialize (B2 eq_refl). unfold mu in *. cbn [map list_sum fold_right]. unfold list_sum in *. lia.
  - injection E as <- <-. split; [constructor; auto|]. intros _. specialize (A2 eq_refl). unfold mu. cbn [map list_sum fold_right]. unfold list_sum. lia.
Qed.
Lemma advance_mu b l : Forall2 (fun p p1 => (mu1 p1 <= mu1 p)%nat) l (advance c b l) /\ (match l with p :: _ => p_trig p = b /\ p_item p <> None | [] => False end -> (mu (advance c b l) < mu l)%nat).
Proof.
  assert (A : Forall2 (fun p p1 => (mu1 p1 <= mu1 p)%nat) l (advance c b l)).
  { induction l as [|p l IH]; [constructor|]. cbn [advance map]. constructor; [|exact IH]. destruct (p_trig p =? b); [|lia]. destruct (shift_next c p) as (p1, ok) eqn:Es. apply (shift_mu _ _ _ Es). }
  split; [exact A|]. intros H. apply mu_lt; [exact A|]. destruct l as [|p l]; [contradiction|]. destruct H as (E & Hi). cbn [advance map combine]. apply Exists_cons_hd. cbn [fst snd]. rewrite E, N.eqb_refl. destruct (shift_next c p) as (p1, ok) eqn:Es. cbn [fst]. apply (shift_mu _ _ _ Es). exact Hi.
Qed.

Definition filled (s : comb) : Prop := match k_out s with Some w => w_full w <> 0 | None => True end.
Lemma never_full e s b size : good_env e -> filled s -> exists s1 w, prepare c e s b size = inr (s1, w).
Proof.
  intros (_ & _ & Hs & Hn & Hb) Hf. assert (Fl : forall w, k_out s = Some w -> exists s1, flush c e s = Some s1).
  { intros w Eo. unfold filled in Hf. rewrite Eo in Hf. unfold flush. rewrite Eo. apply N.eqb_neq in Hf. rewrite Hf. cbv zeta. unfold dest_port.
    destruct (negb (c_bsend c) || (c_nout c <? 2)%nat) eqn:Ed.
    - assert (Q : forallb (fun b => b) (e_send e) = true) by (apply forallb_forall; intros x Hx; exact (proj1 (Forall_forall _ _) Hs x Hx)). rewrite Q. eauto.
    - apply orb_false_elim in Ed. destruct Ed as (_ & Ed). apply Nat.ltb_ge in Ed. assert (Lt : k_last s / c_bunch c mod N.of_nat (c_nout c) < N.of_nat (c_nout c)) by (apply N.mod_lt; lia).
      assert (Q : nth (N.to_nat (k_last s / c_bunch c mod N.of_nat (c_nout c))) (e_send e) false = true). { apply (proj1 (Forall_forall _ _) Hs). apply nth_In. lia. } rewrite Q. eauto. }
  unfold prepare. destruct (e_buf e) as [m|]; [|contradiction]. assert (Rs : exists w, w_reset m = Some w). { unfold w_reset. destruct (N.ltb_spec (lenN m) (32 + 16)); [lia|eauto]. } destruct Rs as (wn & Rs).
  destruct (k_out s) as [w|] eqn:Eo.
  - destruct (negb (is_place w size) || negb (check_dest c s b)).
    + destruct (Fl w eq_refl) as (s1 & E1). rewrite E1. destruct (flush_spec _ _ _ _ E1) as (w1 & _ & _ & ->). cbn [k_out set_out]. rewrite Rs. eauto.
    + rewrite Eo. eauto.
  - rewrite Eo, Rs. eauto.
Qed.

Lemma outcome_moved e s s1 r : Forall (pok k B) (k_in s) -> outcome c e s s1 r -> Forall2 (moved k B) (k_in s) (k_in s1).
Proof.
  intros F O. destruct (fill_pok c k HM HK B _ F) as (Fl & Ml).
  assert (Two : forall l b l2 o, l = fill c (k_in s) -> forallb has_data l = true -> align_all c b l = Ok (l2, o) -> Forall2 (moved k B) (k_in s) l2).
  { intros l b l2 o -> Eh Ea. destruct (aligned_all c k HM HK B b _ l2 o Fl (proj1 (has_data_all _) Eh) Ea) as (M & _). exact (moved_all_trans _ _ _ _ _ Ml M). }
  assert (Adv : forall b l2, Forall2 (moved k B) (k_in s) l2 -> Forall2 (moved k B) (k_in s) (advance c b l2)).
  { intros b l2 M. refine (moved_all_trans _ _ _ _ _ M _). apply (advance_moved c k HM HK B). exact (moved_pok _ _ _ _ M). }
  destruct O as [l El Ed|l El Ed Eh|l b l2 El Ed Eh Eb Ea|l b l2 cm s2 El Ed Eh Eb Ea Ec E2|l b l2 s3 El Ed Eh Eb Ea Ec Ep|l b l2 s3 w El Ed Eh Eb Ea Ec Ep Ew|l b l2 s3 w w1 g El Ed Eh Eb Ea Eg Ec Ep Ew E1]; cbn [k_in set_in].
  - rewrite El. eapply moved_all_trans; [exact Ml|]. clear. induction (fill c (k_in s)); constructor; auto. apply drop_moved.
  - rewrite El. exact Ml.
  - exact (Two l b l2 _ El Eh Ea).
  - apply Adv. exact (Two l b l2 _ El Eh Ea).
  - assert (R := prepare_rest c e (set_in s l2) b (sz c (members l2))). rewrite Ep in R. destruct R as (R1 & _). rewrite R1. exact (Two l b l2 _ El Eh Ea).
  - apply Adv. exact (Two l b l2 _ El Eh Ea).
  - apply Adv. exact (Two l b l2 _ El Eh Ea).
Qed.
Lemma exhausted_stays e s s1 r : Forall (pok k B) (k_in s) -> outcome c e s s1 r -> exhausted s -> exhausted s1.
Proof.
  intros F O (p & Hp & Ea). assert (M := outcome_moved e s s1 r F O). destruct (In_nth_error _ _ Hp) as (i & Ei). destruct (nth_error (k_in s1) i) as [p1|] eqn:E1.
  - destruct (nth2 _ _ _ _ _ M E1) as (q & Eq & (_ & d & E)). assert (q = p) by congruence. subst q. rewrite Ea in E. symmetry in E. apply app_eq_nil in E. exists p1. split; [exact (nth_error_In _ _ E1)|apply E].
  - exfalso. apply nth_error_None in E1. rewrite <- (len2 _ _ _ M) in E1. assert (Q : (i < length (k_in s))%nat) by (apply nth_error_Some; congruence). lia.
Qed.

Lemma outcome_progress f L P0 R0 e s s1 r : din f L P0 R0 s -> good_env e -> filled s -> outcome c e s s1 r -> (mu (k_in s1) < mu (k_in s))%nat \/ exhausted s1.
Proof.
  intros D Ge Hf O. assert (EF := d_split _ _ _ _ _ D). destruct (d_len _ _ _ _ _ D) as (LL & LK). assert (Big := proj1 Ge). destruct D as [D1 D2 D3 D4 D5 D6].
  assert (F : Forall (pok k B) (k_in s)). { rewrite <- D1. apply Forall_map. eapply Forall_impl; [|exact D4]. intros q Hq. apply (lo_pok _ _ _ Hq). }
  destruct (fill_mu (k_in s)) as (Mf & Mf2). destruct (fill_pok c k HM HK B _ F) as (Fl & _).
  destruct (fill_lanes P0 R0 L D4) as (L1 & M1 & S1 & K1 & U1). rewrite D1 in M1.
  assert (Hd1 : match L1 with q :: _ => l_P q = P0 /\ l_R q = R0 | [] => False end).
  { destruct L as [|q L]; [contradiction|]. inversion U1 as [|? ? ? ? (E1 & E2) _]; subst. rewrite E1, E2. exact D5. }
  assert (Nd : drop_all c e (fill c (k_in s)) = false) by (rewrite <- M1; apply (no_drop L1 P0 R0 (set_in s (map l_p L1)) e EF Hd1 K1 (proj1 Big)); reflexivity).
  assert (Al : forall l b l2 o, l = fill c (k_in s) -> forallb has_data l = true -> align_all c b l = Ok (l2, o) -> (mu l2 <= mu (k_in s))%nat /\ (o = None -> (mu l2 < mu (k_in s))%nat)).
  { intros l b l2 o -> Eh Ea. destruct (align_all_mu b _ l2 o (proj1 (has_data_all _) Eh) Ea) as (A1 & A2). assert (B1 := mu_le _ _ A1). assert (B2 := mu_le _ _ Mf). split; [lia|]. intros Eo. specialize (A2 Eo). lia. }
  assert (Adv : forall l b l2 f, l = fill c (k_in s) -> forallb has_data l = true -> b = p_trig (hd inp_new l) -> align_all c b l = Ok (l2, Some f) -> (mu (advance c b l2) < mu (k_in s))%nat).
  { intros l b l2 g El Eh Eb Ea. destruct (Al l b l2 _ El Eh Ea) as (A1 & _). enough (mu (advance c b l2) < mu l2)%nat by lia. apply advance_mu.
    subst l. destruct (fill c (k_in s)) as [|p0 l0]; [cbn in Ea; injection Ea as <-; rewrite <- M1 in *; destruct L1; [contradiction|discriminate M1]|]. cbn [hd] in Eb. cbn [align_all align] in Ea. rewrite <- Eb, N.eqb_refl in Ea. cbn [bind] in Ea.
    destruct (align_all c b l0) as [(l3 & o3)| |]; cbn [bind] in Ea; try discriminate. destruct o3; [|discriminate]. injection Ea as <- _. split; [congruence|]. exact (Forall_inv (proj1 (has_data_all _) Eh)). }
  destruct O as [l El Ed|l El Ed Eh|l b l2 El Ed Eh Eb Ea|l b l2 cm s2 El Ed Eh Eb Ea Ec E2|l b l2 s3 El Ed Eh Eb Ea Ec Ep|l b l2 s3 w El Ed Eh Eb Ea Ec Ep Ew|l b l2 s3 w w1 g El Ed Eh Eb Ea Eg Ec Ep Ew E1]; unfold exhausted; cbn [k_in set_in].
  - rewrite El in Ed. congruence.
  - subst l. exact (Mf2 Eh).
  - left. apply (Al l b l2 None El Eh Ea). reflexivity.
  - left. exact (Adv l b l2 cm El Eh Eb Ea).
  - destruct (never_full e (set_in s l2) b (sz c (members l2)) Ge Hf) as (s4 & w & E4). congruence.
  - left. exact (Adv l b l2 true El Eh Eb Ea).
  - left. exact (Adv l b l2 true El Eh Eb Ea).
Qed.
End S.
