(* What the event builder writes: the bytes of the buffers sent, where they go, the counters. *)
From Verif Require Import Common ListFacts Bytes WordMem BufPtr HadSpec HadModel HadWords HadRead TrigModel TrigProofs CombSpec CombModel CombWrite CombIn CombSafe.
Local Open Scope N_scope.

Lemma lor_low a t : t < 2^8 -> N.lor (a * 2^8) t = a * 2^8 + t.
Proof.
  intros H. assert (Q := lor_cat 8 a 0 0 t). rewrite N.add_0_r, N.mul_0_l, N.add_0_l, N.lor_0_r, N.lor_0_l in Q. apply Q; [reflexivity|exact H].
Qed.
Lemma lor_tag b t : t < 256 -> N.lor ((b * 256) mod 2^32) t = (b mod 2^24) * 256 + t.
Proof.
  intros H. assert (E : (b * 256) mod 2^32 = (b mod 2^24) * 2^8).
  { change (2^32) with (2^24 * 256). change (2^8) with 256. rewrite N.mul_mod_distr_r by discriminate. reflexivity. }
  rewrite E. rewrite lor_low by exact H. reflexivity.
Qed.
Lemma i_tag_lt x : i_tag x < 256.
Proof. apply N.mod_lt. discriminate. Qed.
Lemma i_type_lt c x : i_type c x < 256.
Proof.
  assert (A4 : forall y, N.land y 0xF < 256). { intros y. change 0xF with (N.ones 4). rewrite N.land_ones. change (2^4) with 16. lia. }
  destruct x as [y|u]; cbn [i_type]; [|apply A4].
  assert (Sh : forall z a b, 0 < b -> N.shiftr (N.land z (a * 2^b)) b = N.land (N.shiftr z b) a).
  { intros z a b _. rewrite N.shiftr_land. f_equal. rewrite N.shiftr_div_pow2. apply N.div_mul. apply N.pow_nonzero. discriminate. }
  destruct (c_hades c) as [hub|].
  - destruct (_ =? _); [|reflexivity]. cbv zeta. change 0xff000000 with (0xff * 2^24). rewrite Sh by reflexivity. change 0xff with (N.ones 8). rewrite N.land_ones. change (2^8) with 256. lia.
  - change 0xF0 with (0xF * 2^4). rewrite Sh by reflexivity. apply A4.
Qed.
Lemma group_type_lt c g : group_type c g < 256.
Proof. unfold group_type. destruct (find _ _); [apply i_type_lt|reflexivity]. Qed.
Lemma id_lt c g : N.lor (group_type c g) 0x2000 < 2^14.
Proof.
  assert (H := group_type_lt c g). change 0x2000 with (32 * 2^8). rewrite N.lor_comm. rewrite lor_low by exact H. change (2^14) with 16384. change (2^8) with 256. lia.
Qed.

Lemma total_le B g : Forall (iok B) g -> total g <= N.of_nat (length g) * B.
Proof. induction 1 as [|x g (_ & H) F IH]; [reflexivity|]. cbn [total fold_right]. fold (total g). cbn [length]. nia. Qed.
Lemma total_used c g : total (used (c_skip c) g) <= total g.
Proof. unfold used. induction g as [|x g IH]; [reflexivity|]. cbn [filter]. destruct (negb _); cbn [total fold_right]; fold (total g); [|lia]. fold (total (filter (fun x => negb (c_skip c && i_empty x)) g)). lia. Qed.

Section S.
Variable c : conf.
Variable k : N.
Hypothesis HM : c_max c = 2^k.
Hypothesis HK : k < 31.
Variable B : N.
Variable n : nat.
Hypothesis HB : N.of_nat n * B < 2^32.
Hypothesis Hn : (0 < n)%nat.

Local Notation entry := (N * list item * hunit)%type.
Definition ev (i : nat) (x : entry) : Prop :=
  let '(b, g, u) := x in
  unit_for TEvents u /\
  exists date clock run, u = mkUnit false 0x30001 [N.lor (group_type c g) 0x2000;
    (if c_bsend c then (b mod 2^24) * 256 + i_tag (hd dflt g) else (N.of_nat i + 1) mod 2^32); date; clock; run; 0] (concat (map i_subs (used (c_skip c) g))).
Definition sent_ok (o : option N * bytes) (p : list entry) : Prop :=
  snd o = enc_units (map snd p) /\ p <> [] /\ Forall (fun x => dest_port c (fst (fst x)) = fst o) p.
Definition wrote (cur : list entry) (w : witer) : Prop :=
  exists rest, w_mem w = enc_units (map snd cur) ++ rest /\ Forall isbyte rest /\ lenN (w_mem w) < 2^32 /\
    (if is_null (w_ev w) then mkP (Some 0) (lenN (w_mem w)) else w_ev w) = mkP (Some (lenN (enc_units (map snd cur)))) (lenN rest) /\
    w_full w = lenN (enc_units (map snd cur)) /\ 0 < lenN rest.
Record bi (E : list entry) (parts : list (list entry)) (cur : list entry) (s : comb) : Prop := mkB {
  b_built : k_built s = map fst E;
  b_parts : E = concat parts ++ cur;
  b_sent : Forall2 sent_ok (k_sent s) parts;
  b_ev : forall i x, nth_error E i = Some x -> ev i x;
  b_out : match k_out s with None => cur = [] | Some w => wrote cur w end;
  b_dest : cur = [] \/ (k_last s <> none /\ Forall (fun x => dest_port c (fst (fst x)) = dest_port c (k_last s)) cur);
  b_count : k_count s = lenN E
}.

Lemma wrote_close cur w : wrote cur w -> w_full w <> 0 -> w_close w = enc_units (map snd cur) /\ cur <> [].
Proof.
  intros (rest & Em & _ & _ & _ & Ef & _) H. split; [|intros ->; apply H; rewrite Ef; reflexivity].
  unfold w_close. assert (L : w_full w <= lenN (w_mem w)) by (rewrite Em, lenN_app; lia).
  destruct (N.ltb_spec 0 (w_full w)); [|lia]. destruct (N.leb_spec (w_full w) (lenN (w_mem w))); [|lia]. cbn [andb]. rewrite Em, Ef. apply takeN_app. reflexivity.
Qed.

Lemma flush_bi E parts cur e s s1 : bi E parts cur s -> flush c e s = Some s1 -> bi E (parts ++ [cur]) [] s1 /\ k_out s1 = None.
Proof.
  intros [H1 H2 H3 H4 H5 H6 H7] Ef. destruct (flush_spec _ _ _ _ Ef) as (w & Eo & Nf & ->). rewrite Eo in H5. destruct (wrote_close _ _ H5 Nf) as (Ec & Nc). split; [|reflexivity]. split; auto.
  - rewrite concat_app. cbn [concat]. rewrite !app_nil_r. exact H2.
  - cbn [k_sent set_out]. apply Forall2_app; [exact H3|]. constructor; [|constructor]. split; [exact Ec|]. split; [exact Nc|]. cbn [fst]. destruct H6 as [->|(_ & H6)]; [congruence|]. exact H6.
  - reflexivity.
Qed.
Lemma enc_units_nil : enc_units (map snd (@nil entry)) = []. Proof. reflexivity. Qed.
Definition envw (e : env) : Prop := word (e_run e) /\ word (e_date e) /\ word (e_clock e) /\
  match e_buf e with Some m => lenN m < 2^32 /\ Forall isbyte m | None => True end.
Lemma reset_wrote e m w : envw e -> e_buf e = Some m -> w_reset m = Some w -> wrote [] w.
Proof.
  intros (_ & _ & _ & H) Em Er. rewrite Em in H. unfold w_reset in Er. destruct (N.ltb_spec (lenN m) (32 + 16)); [discriminate|]. injection Er as <-.
  exists m. rewrite enc_units_nil. cbn [w_mem w_ev w_full app]. repeat split; try apply H. lia.
Qed.
Lemma prepare_bi E parts cur e s b size s1 w : bi E parts cur s -> envw e -> prepare c e s b size = inr (s1, w) ->
  exists parts1 cur1, bi E parts1 cur1 s1 /\ k_out s1 = Some w /\ wrote cur1 w /\ Forall (fun x => dest_port c (fst (fst x)) = dest_port c b) cur1 /\
    (is_place w size = false -> cur1 = []).
Proof.
  intros I He Ep. assert (Q := prepare_spec c e s b size). rewrite Ep in Q. destruct Q as [(-> & Eo & Pl & Cd)|(s0 & m & Q & Eo & Em & Er & ->)].
  - exists parts, cur. assert (W := b_out _ _ _ _ I). rewrite Eo in W. split; [exact I|]. split; [exact Eo|]. split; [exact W|]. split; [|congruence].
    destruct (b_dest _ _ _ _ I) as [->|(Nl & F)]; [constructor|]. eapply Forall_impl; [|exact F]. intros x ->. clear - Cd Nl. unfold check_dest in Cd. unfold dest_port in *.
    destruct (c_bsend c); [|reflexivity]. cbn [negb orb] in *. apply N.eqb_neq in Nl. rewrite Nl in Cd. destruct (c_nout c <? 2)%nat; [reflexivity|]. apply N.eqb_eq in Cd. rewrite Cd. reflexivity.
  - assert (W := reset_wrote _ _ _ He Em Er). assert (I0 : exists parts1, bi E parts1 [] s0 /\ k_out s0 = None).
    { destruct Q as [(-> & O)|Q]; [|eexists; exact (flush_bi _ _ _ _ _ _ I Q)]. exists parts. split; [|exact O]. assert (Ec := b_out _ _ _ _ I). rewrite O in Ec. subst cur. exact I. }
    destruct I0 as (parts1 & [H1 H2 H3 H4 H5 H6 H7] & O). exists parts1, []. split; [|split; [reflexivity|split; [exact W|split; [constructor|reflexivity]]]]. split; auto.
Qed.

Lemma enc_units_snoc l u : enc_units (l ++ [u]) = enc_units l ++ enc_unit u.
Proof. unfold enc_units. rewrite map_app, concat_app. cbn [map concat]. rewrite app_nil_r. reflexivity. Qed.

Lemma outcome_bi a E parts cur e s s1 r : sinv k B n a s -> bi E parts cur s -> envw e -> outcome c e s s1 r -> k_exact s1 = false ->
  exists E1 parts1 cur1, bi E1 parts1 cur1 s1 /\ (k_built s1 <> k_built s -> cur1 <> []).
Proof.
  intros Is I He O Hx. assert (Is1 := outcome_sinv c k HM HK B n _ _ _ _ _ Hn Is O).
  assert (Set_in : forall l E parts cur s, bi E parts cur s -> bi E parts cur (set_in s l)) by (intros ? ? ? ? ? []; split; assumption).
  assert (Add : forall E parts cur s, bi E parts cur s -> bi E parts cur (add_terr s)) by (intros ? ? ? ? []; split; assumption).
  destruct O as [l El Ed|l El Ed Eh|l b l2 El Ed Eh Eb Ea|l b l2 cm s2 El Ed Eh Eb Ea Ec E2|l b l2 s3 El Ed Eh Eb Ea Ec Ep|l b l2 s3 w El Ed Eh Eb Ea Ec Ep Ew|l b l2 s3 w w1 g El Ed Eh Eb Ea Eg Ec Ep Ew E1].
  - eexists _, _, _. split; [apply Set_in; exact I|intros Q0; contradiction Q0; reflexivity].
  - eexists _, _, _. split; [apply Set_in; exact I|intros Q0; contradiction Q0; reflexivity].
  - eexists _, _, _. split; [apply Set_in; exact I|intros Q0; contradiction Q0; reflexivity].
  - eexists _, _, _. rewrite E2. split; [apply Set_in; destruct cm; [apply Add|]; apply Set_in; exact I|intros Q0; contradiction Q0; destruct cm; reflexivity].
  - assert (Q := prepare_spec c e (set_in s l2) b (sz c (members l2))). rewrite Ep in Q. destruct Q as [->|Q]; [eexists _, _, _; split; [apply Set_in; exact I|intros Q0; contradiction Q0; reflexivity]|].
    eexists _, _, _. split; [exact (proj1 (flush_bi _ _ _ _ _ _ (Set_in l2 _ _ _ _ I) Q))|]. destruct (flush_rest _ _ _ _ Q) as (_ & _ & _ & _ & _ & R & _). rewrite R. intros Q0; contradiction Q0; reflexivity.
  - destruct (prepare_bi _ _ _ _ _ _ _ _ _ (Set_in l2 _ _ _ _ I) He Ep) as (p1 & c1 & I1 & _). eexists _, _, _. split; [apply Set_in; exact I1|].
    assert (R := prepare_rest c e (set_in s l2) b (sz c (members l2))). rewrite Ep in R. destruct R as (_ & _ & _ & _ & _ & R & _). cbn [k_built set_in] in *. congruence.
  - assert (P2 := prepare_rest c e (set_in s l2) b (sz c g)). rewrite Ep in P2. destruct P2 as (_ & _ & P2 & _ & _ & P3 & _). cbn [set_in k_count k_built] in P2, P3.
    destruct (prepare_bi _ _ _ _ _ _ _ _ _ (Set_in l2 _ _ _ _ I) He Ep) as (p1 & c1 & I1 & Eo & W & Fd & _).
    cbn [k_exact] in Hx. apply orb_false_elim in Hx. destruct Hx as (_ & Hx). apply N.eqb_neq in Hx.
    destruct Is1 as (_ & _ & G1). cbn [k_built] in G1. apply Forall_app in G1. destruct G1 as (_ & G1). apply Forall_inv in G1. destruct G1 as (Gb & Gl & Gi). cbn [fst snd] in *. subst b g l.
    set (b := p_trig (hd inp_new (fill c (k_in s)))) in *. set (g := members l2) in *.
    assert (Gi1 : Forall (iok B) g) by (eapply Forall_impl; [|exact Gi]; intros x (H & _); exact H).
    assert (Tl : total (used (c_skip c) g) < 2^32). { assert (T1 := total_used c g). assert (T2 := total_le B g Gi1). rewrite Gl in T2. lia. }
    assert (Es : sz c g = total (used (c_skip c) g)) by (apply N.mod_small; exact Tl).
    destruct W as (rest & Wm & Wb & Wl & We & Wf & Wr). unfold is_place in Ew. fold (avail w) in Ew. apply N.leb_le in Ew.
    assert (Av : avail w = lenN rest). { unfold avail. destruct (is_null (w_ev w)); [congruence|rewrite We; reflexivity]. }
    assert (Lr : lenN rest < 2^32) by (rewrite Wm, lenN_app in Wl; lia).
    assert (Sq : seq_of c s3 b g = (if c_bsend c then (b mod 2^24) * 256 + i_tag (hd dflt g) else (N.of_nat (length E) + 1) mod 2^32)).
    { unfold seq_of. destruct (c_bsend c); [apply lor_tag, i_tag_lt|]. rewrite P2, (b_count _ _ _ _ I). reflexivity. }
    assert (Wq : word (seq_of c s3 b g)).
    { rewrite Sq. unfold word. destruct (c_bsend c); [|apply N.mod_lt; discriminate]. assert (T1 := i_tag_lt (hd dflt g)). assert (T2 := N.mod_lt b (2^24) ltac:(discriminate)). change (2^24) with 16777216 in *. change (2^32) with 4294967296. lia. }
    assert (Wi : word (N.lor (group_type c g) 0x2000)). { unfold word. assert (T := id_lt c g). change (2^14) with 16384 in T. change (2^32) with 4294967296. lia. }
    destruct He as (He1 & He2 & He3 & _).
    destruct (put_event_at (enc_units (map snd c1)) rest w (seq_of c s3 b g) (e_run e) (e_date e) (e_clock e) (N.lor (group_type c g) 0x2000) (d_err c g || t_err c g) (used (c_skip c) g)) as (Ku & rest' & sb & Wb' & Lr' & E2); auto.
    { rewrite <- Av, <- Es. lia. }
    { clear - Gi1. apply Forall_concat. apply Forall_forall. intros y Hy. apply in_map_iff in Hy. destruct Hy as (x & <- & Hx). apply filter_In in Hx. apply (iok_subs B). exact (proj1 (Forall_forall _ _) Gi1 x (proj1 Hx)). }
    rewrite E1 in E2. assert (E3 : w1 = mkW (enc_units (map snd c1) ++ enc_unit (mkUnit false 0x30001 [N.lor (group_type c g) 0x2000; seq_of c s3 b g; e_date e; e_clock e; e_run e; 0] (concat (map i_subs (used (c_skip c) g)))) ++ rest')
       (mkP (Some (lenN (enc_units (map snd c1)) + unit_size (mkUnit false 0x30001 [N.lor (group_type c g) 0x2000; seq_of c s3 b g; e_date e; e_clock e; e_run e; 0] (concat (map i_subs (used (c_skip c) g)))))) (lenN rest')) sb
       (w_full w + unit_size (mkUnit false 0x30001 [N.lor (group_type c g) 0x2000; seq_of c s3 b g; e_date e; e_clock e; e_run e; 0] (concat (map i_subs (used (c_skip c) g)))))) by congruence. clear E2.
    set (u := mkUnit false 0x30001 [N.lor (group_type c g) 0x2000; seq_of c s3 b g; e_date e; e_clock e; e_run e; 0] (concat (map i_subs (used (c_skip c) g)))) in *.
    assert (Us : unit_size u = 32 + total (used (c_skip c) g)). { unfold unit_size, u. cbn [u_rest u_subs]. rewrite total_len. unfold lenN at 1. cbn [length]. lia. }
    assert (Pr : 0 < lenN rest') by (rewrite Es in *; lia).
    destruct I1 as [H1 H2 H3 H4 H5 H6 H7].
    exists (E ++ [(b, g, u)]), p1, (c1 ++ [(b, g, u)]). split; [|intros _ Q; apply app_eq_nil in Q; destruct Q; discriminate]. split; cbn [k_built k_sent k_out k_last k_count].
    + rewrite H1, map_app. reflexivity.
    + rewrite H2. apply app_assoc_reverse.
    + exact H3.
    + intros i x Hi. destruct (Nat.lt_ge_cases i (length E)) as [C|C].
      * rewrite nth_error_app1 in Hi by exact C. exact (H4 i x Hi).
      * rewrite nth_error_app2 in Hi by exact C. assert (Ei : i = length E). { destruct (i - length E)%nat as [|[|q]] eqn:Eq; [lia|discriminate Hi|discriminate Hi]. }
        subst i. rewrite Nat.sub_diag in Hi. cbn in Hi. injection Hi as <-. unfold ev. split; [exact Ku|]. exists (e_date e), (e_clock e), (e_run e). unfold u. rewrite Sq. reflexivity.
    + unfold wrote. exists rest'. rewrite E3. cbn [w_mem w_ev w_full]. rewrite map_app. cbn [map snd]. rewrite enc_units_snoc.
      assert (Lu : lenN (enc_units (map snd c1) ++ enc_unit u) = lenN (enc_units (map snd c1)) + unit_size u) by (rewrite lenN_app, lenN_enc_unit; reflexivity). rewrite Lu.
      split; [apply app_assoc|]. split; [exact Wb'|]. split; [rewrite !lenN_app, lenN_enc_unit; rewrite Wm, lenN_app in Wl; lia|]. split; [|split; [lia|exact Pr]].
      rewrite is_null_at by exact Pr. reflexivity.
    + right. split; [assert (2^k <= 2^30) by (apply N.pow_le_mono_r; lia); change (2^30) with 1073741824 in *; unfold none; lia|]. apply Forall_app. split; [exact Fd|]. constructor; [reflexivity|constructor].
    + rewrite H7, lenN_app. reflexivity.
Qed.

(* ---- runs ---- *)
Lemma exact_outcome e s s1 r : outcome c e s s1 r -> k_exact s = true -> k_exact s1 = true.
Proof.
  intros O H.
  destruct O as [l El Ed|l El Ed Eh|l b l2 El Ed Eh Eb Ea|l b l2 cm s2 El Ed Eh Eb Ea Ec E2|l b l2 s3 El Ed Eh Eb Ea Ec Ep|l b l2 s3 w El Ed Eh Eb Ea Ec Ep Ew|l b l2 s3 w w1 g El Ed Eh Eb Ea Eg Ec Ep Ew E1]; try exact H.
  - rewrite E2. destruct cm; exact H.
  - assert (R := prepare_rest c e (set_in s l2) b (sz c (members l2))). rewrite Ep in R. destruct R as (_ & _ & _ & _ & _ & _ & R). rewrite R. exact H.
  - assert (R := prepare_rest c e (set_in s l2) b (sz c (members l2))). rewrite Ep in R. destruct R as (_ & _ & _ & _ & _ & _ & R). cbn [k_exact set_in]. rewrite R. exact H.
  - assert (R := prepare_rest c e (set_in s l2) b (sz c g)). rewrite Ep in R. destruct R as (_ & _ & _ & _ & _ & _ & R). cbn [k_exact set_in] in *. rewrite R, H. reflexivity.
Qed.
Definition act_okw (a : cact) : Prop := match a with CPush _ b => Forall (iok B) (content b) | CBuild e => envw e | CFlush _ => True end.
Lemma act_okw_ok a : act_okw a -> act_ok B a.
Proof. destruct a as [i b|e|e]; cbn; auto. intros (_ & _ & _ & H). unfold env_ok. destruct (e_buf e); [apply H|exact I]. Qed.

Lemma step_bi a s x s1 : sinv k B n a s -> out_ok s -> (exists E p q, bi E p q s) -> act_okw x -> step c s x = Ok s1 -> k_exact s1 = false -> exists E p q, bi E p q s1.
Proof.
  intros Is Ho (E & p & q & I) Hx Es He. destruct x as [j b|e|e]; cbn [step] in Es.
  - destruct (nth_error (k_in s) j); injection Es as <-; exists E, p, q; [|exact I]. destruct I; split; assumption.
  - destruct (build_outcome c k HM HK B e s (sinv_pok _ _ _ _ _ Is)) as (s2 & r & E2 & O); [destruct Is as (L & _); rewrite L; exact Hn|exact Ho|apply (act_okw_ok (CBuild e) Hx)|].
    rewrite E2 in Es. cbn [bind fst] in Es. injection Es as <-. destruct (outcome_bi a E p q e s s2 r Is I Hx O He) as (E1 & p1 & q1 & I1 & _). eauto.
  - injection Es as <-. destruct (flush c e s) as [s2|] eqn:Ef; [|eauto]. destruct (flush_bi _ _ _ _ _ _ I Ef) as (I1 & _). eauto.
Qed.
Lemma step_exact a s x s1 : sinv k B n a s -> out_ok s -> act_okw x -> step c s x = Ok s1 -> k_exact s1 = false -> k_exact s = false.
Proof.
  intros Is Ho Hx Es He. destruct (k_exact s) eqn:Ex; [|reflexivity]. exfalso. destruct x as [j b|e|e]; cbn [step] in Es.
  - destruct (nth_error (k_in s) j); injection Es as <-; cbn in He; congruence.
  - destruct (build_outcome c k HM HK B e s (sinv_pok _ _ _ _ _ Is)) as (s2 & r & E2 & O); [destruct Is as (L & _); rewrite L; exact Hn|exact Ho|apply (act_okw_ok (CBuild e) Hx)|].
    rewrite E2 in Es. cbn [bind fst] in Es. injection Es as <-. rewrite (exact_outcome _ _ _ _ O Ex) in He. discriminate.
  - injection Es as <-. destruct (flush c e s) as [s2|] eqn:Ef; [|congruence]. destruct (flush_rest _ _ _ _ Ef) as (_ & _ & _ & _ & _ & _ & R). congruence.
Qed.
Lemma run_exact l : Forall act_okw l -> forall a s s1, sinv k B n a s -> out_ok s -> run c s l = Ok s1 -> k_exact s1 = false -> k_exact s = false.
Proof.
  induction l as [|x l IH]; intros Hl a s s1 Is Ho Er He; cbn [run] in Er; [injection Er as <-; exact He|].
  inversion Hl as [|? ? Hx Hl']; subst. destruct (step_ok c k HM HK B n a s x Hn Is Ho (act_okw_ok x Hx)) as (s2 & E2 & Is2 & Ho2). rewrite E2 in Er. cbn [bind] in Er.
  exact (step_exact a s x s2 Is Ho Hx E2 (IH Hl' _ s2 s1 Is2 Ho2 Er He)).
Qed.
Lemma run_bi l : Forall act_okw l -> forall a s s1, sinv k B n a s -> out_ok s -> (exists E p q, bi E p q s) -> run c s l = Ok s1 -> k_exact s1 = false -> exists E p q, bi E p q s1.
Proof.
  induction l as [|x l IH]; intros Hl a s s1 Is Ho I Er He; cbn [run] in Er; [injection Er as <-; exact I|].
  inversion Hl as [|? ? Hx Hl']; subst. destruct (step_ok c k HM HK B n a s x Hn Is Ho (act_okw_ok x Hx)) as (s2 & E2 & Is2 & Ho2). rewrite E2 in Er. cbn [bind] in Er.
  assert (He2 := run_exact l Hl' _ s2 s1 Is2 Ho2 Er He). exact (IH Hl' _ s2 s1 Is2 Ho2 (step_bi a s x s2 Is Ho I Hx E2 He2) Er He).
Qed.
Lemma bi_new : bi [] [] [] (comb_new n).
Proof. split; try reflexivity; [constructor|intros [|i] x H; discriminate H|left; reflexivity]. Qed.

(* ---- counters ---- *)
Definition count {A} (f : A -> bool) (l : list A) : N := lenN (filter f l).
Lemma count_snoc {A} (f : A -> bool) l x : count f (l ++ [x]) = count f l + if f x then 1 else 0.
Proof. unfold count. rewrite filter_app, lenN_app. cbn [filter]. destruct (f x); reflexivity. Qed.
Definition cnt (s : comb) : Prop :=
  k_count s = lenN (k_built s) /\ k_derr s = count (fun g => d_err c (snd g)) (k_built s) /\
  (c_check c = false -> k_terr s = count (fun g => t_err c (snd g)) (k_built s)) /\
  (c_check c = true -> Forall (fun g => t_err c (snd g) = false) (k_built s)).
Lemma cnt_rest s s1 : same_rest s s1 -> cnt s -> cnt s1.
Proof. intros (_ & _ & E1 & E2 & E3 & E4 & _) H. unfold cnt. rewrite E1, E2, E3, E4. exact H. Qed.
Lemma cnt_outcome e s s1 r : outcome c e s s1 r -> cnt s -> cnt s1.
Proof.
  intros O H.
  destruct O as [l El Ed|l El Ed Eh|l b l2 El Ed Eh Eb Ea|l b l2 cm s2 El Ed Eh Eb Ea Ec E2|l b l2 s3 El Ed Eh Eb Ea Ec Ep|l b l2 s3 w El Ed Eh Eb Ea Ec Ep Ew|l b l2 s3 w w1 g El Ed Eh Eb Ea Eg Ec Ep Ew E1]; try exact H.
  - rewrite E2. destruct cm; [|exact H]. cbn [andb] in Ec. apply negb_false_iff, andb_prop in Ec. destruct Ec as (Ec & _). destruct H as (H1 & H2 & _ & H4). split; [exact H1|]. split; [exact H2|]. split; [congruence|exact H4].
  - assert (R := prepare_rest c e (set_in s l2) b (sz c (members l2))). rewrite Ep in R. apply (cnt_rest _ _ R). exact H.
  - assert (R := prepare_rest c e (set_in s l2) b (sz c (members l2))). rewrite Ep in R. exact (cnt_rest _ _ R H).
  - assert (R := prepare_rest c e (set_in s l2) b (sz c g)). rewrite Ep in R. assert (H' := cnt_rest _ _ R H). destruct H' as (H1 & H2 & H3 & H4). unfold cnt. cbn [k_count k_built k_derr k_terr].
    rewrite !count_snoc. cbn [snd]. split; [rewrite H1, lenN_app; reflexivity|]. split; [rewrite H2; reflexivity|]. split; [intros C; rewrite (H3 C); reflexivity|]. intros C. apply Forall_app. split; [exact (H4 C)|]. constructor; [|constructor]. cbn [snd]. rewrite C in Ec. exact Ec.
Qed.
Lemma run_cnt l : Forall (act_ok B) l -> forall a s s1, sinv k B n a s -> out_ok s -> cnt s -> run c s l = Ok s1 -> cnt s1.
Proof.
  induction l as [|x l IH]; intros Hl a s s1 Is Ho I Er; cbn [run] in Er; [injection Er as <-; exact I|].
  inversion Hl as [|? ? Hx Hl']; subst. destruct (step_ok c k HM HK B n a s x Hn Is Ho Hx) as (s2 & E2 & Is2 & Ho2). rewrite E2 in Er. cbn [bind] in Er.
  apply (IH Hl' _ s2 s1 Is2 Ho2); [|exact Er]. clear - I E2 HM HK Is Ho Hx Hn. destruct x as [j b|e|e]; cbn [step] in E2.
  - destruct (nth_error (k_in s) j); injection E2 as <-; exact I.
  - destruct (build_outcome c k HM HK B e s (sinv_pok _ _ _ _ _ Is)) as (s3 & r & E3 & O); [destruct Is as (L & _); rewrite L; exact Hn|exact Ho|exact Hx|].
    rewrite E3 in E2. cbn [bind fst] in E2. injection E2 as <-. exact (cnt_outcome _ _ _ _ O I).
  - injection E2 as <-. destruct (flush c e s) as [s3|] eqn:Ef; [|exact I]. exact (cnt_rest _ _ (flush_rest _ _ _ _ Ef) I).
Qed.
Lemma cnt_new : cnt (comb_new n).
Proof. repeat split. constructor. Qed.
End S.
