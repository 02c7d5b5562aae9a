(* The parser ends for every text, and leaves defined behaviour only when the file does not
   fit into the buffer. *)
From Verif Require Import Common Bytes XmlSpec XmlModel XmlStream.
Local Open Scope N_scope.

Section T.
  Context (B : N).
  Definition lenS (s : st) : nat := length (s_txt s).
  Definition le (s' s : st) : Prop := inv B s' /\ (lenS s' <= lenS s)%nat /\ s_un s' <= s_un s.
  Definition lt (s' s : st) : Prop := inv B s' /\ (lenS s' < lenS s)%nat /\ s_un s' <= s_un s.

  Lemma le_refl s : inv B s -> le s s.
  Proof. unfold le. intuition lia. Qed.
  Lemma le_le a b c : le a b -> le b c -> le a c.
  Proof. unfold le. intuition lia. Qed.
  Lemma lt_le a b c : lt a b -> le b c -> lt a c.
  Proof. unfold le, lt. intuition lia. Qed.
  Lemma le_lt a b c : le a b -> lt b c -> lt a c.
  Proof. unfold le, lt. intuition lia. Qed.
  Lemma weak a b : lt a b -> le a b.
  Proof. unfold le, lt. intuition lia. Qed.
  Lemma at_le l s' s : at_ B l s' -> (length l <= lenS s)%nat -> s_un s' <= s_un s -> le s' s.
  Proof. intros (<- & I') L U. unfold le, lenS in *. auto. Qed.
  Lemma at_self s : inv B s -> at_ B (s_txt s) s.
  Proof. split; auto. Qed.

  Lemma t_shift1 s b s' : inv B s -> shift1 s = (b, s') -> b = true -> lt s' s.
  Proof.
    intros V E ->. pose proof (shift1_ok B _ s (at_self s V)) as H. destruct (s_txt s) as [|c r] eqn:T.
    - destruct H as (x & E1 & _). congruence.
    - destruct H as (x & E1 & (A1 & A2) & U). assert (x = s') by congruence. subst x. unfold lt, lenS. rewrite A1, T. cbn. auto with arith.
  Qed.
  Lemma t_shift n : forall s b s', inv B s -> shift n s = (b, s') -> b = true -> le s' s /\ (n <> O -> lt s' s).
  Proof.
    induction n as [|n IH]; intros s b s' V E ->; cbn [shift] in E.
    - injection E as <-. split; [apply le_refl; auto|easy].
    - destruct (shift1 s) as [b1 s1] eqn:E1. destruct b1; [|discriminate]. pose proof (t_shift1 _ _ _ V E1 eq_refl) as L1.
      destruct (IH s1 true s') as (L2 & _); auto; [apply L1|]. pose proof (le_lt _ _ _ L2 L1). split; [apply weak|]; auto.
  Qed.
  Lemma skipl_len t l : (length (snd (skipl t l)) <= length l)%nat.
  Proof. induction l as [|c r IH]; cbn [skipl]; [cbn; lia|]. destruct (solid c); [cbn; lia|]. destruct (t && (c =? 10)); cbn [snd length]; lia. Qed.
  Lemma t_skip s b s' : inv B s -> skip_spaces s = (b, s') -> le s' s /\ (b = true -> s_txt s' <> []).
  Proof.
    intros V E. destruct (skip_spaces_ok B _ s (at_self s V)) as (x & E1 & A & U). rewrite E in E1. injection E1 as -> ->. split.
    - eapply at_le; eauto. apply skipl_len.
    - destruct A as (-> & _). clear. induction (s_txt s) as [|c r IH]; cbn [skipl]; [easy|]. destruct (solid c); [easy|]. cbn [andb]. exact IH.
  Qed.
  Lemma t_line s : inv B s -> le (skip_line s) s.
  Proof. intros V. destruct (skip_line_ok B _ s (at_self s V)) as (A & U). eapply at_le; eauto. apply skipl_len. Qed.
  Lemma t_check str s b s' : inv B s -> check_for str s = (b, s') -> le s' s /\ (b = false -> s_txt s' = s_txt s).
  Proof.
    intros V E. destruct (check_for_ok B str _ s (at_self s V)) as (x & E1 & A & U). rewrite E in E1. injection E1 as -> ->. split.
    - eapply at_le; eauto. destruct (starts str (s_txt s)); [rewrite skipn_length|]; unfold lenS; lia.
    - intros F. rewrite F in A. apply A.
  Qed.
  Lemma t_search str s o s' : inv B s -> 0 < lenN str -> search_for str (s_txt s) 0 s = (o, s') -> le s' s.
  Proof.
    intros V L E. destruct (search_ok B str (s_txt s) (s_txt s) 0 s (at_self s V)) as (x & E1 & A & U); auto; try lia.
    rewrite E in E1. injection E1 as -> ->. eapply at_le; eauto.
  Qed.
  Lemma t_ident s n s' : inv B s -> locate_ident s = (n, s') -> le s' s /\ n <= s_av s'.
  Proof.
    intros V E. destruct (locate_ident_ok B _ s (at_self s V)) as (x & E1 & A & U & L). rewrite E in E1. injection E1 as -> ->. split; auto. eapply at_le; eauto.
  Qed.
  Lemma t_content s n s' : inv B s -> cur s <> 60 -> s_txt s <> [] -> locate_content s = (Some n, s') -> le s' s /\ n <> 0.
  Proof.
    intros V C NE E. unfold cur in C. destruct (s_txt s) as [|c r] eqn:T; [contradiction|].
    destruct (locate_content_ok B c r s) as (x & E1 & A & U); [split; auto|]. rewrite E in E1. injection E1 as E1 ->. split.
    - eapply at_le; eauto. unfold lenS. rewrite T. lia.
    - cbn [contl] in E1. cbn [hd] in C. destruct (N.eqb_spec c 60); [contradiction|]. destruct r as [|d r]; [discriminate|]. destruct (contl (d :: r)) as [k|]; [|discriminate]. cbn [option_map] in E1. assert (HK : n = 1 + k) by congruence. rewrite HK. lia.
  Qed.
  Lemma t_value a s : inv B s -> a <= s_av s -> match locate_value a s with Ok (_, s') => le s' s | UB => s_un s <> 0 | Loop => False end.
  Proof.
    intros V L. destruct (locate_value_ok B a _ s (at_self s V) L) as [(x & -> & A & U)|(-> & U)]; auto. eapply at_le; eauto.
  Qed.

  Definition osound (s : st) (r : res opened) : Prop :=
    match r with
    | Ok (OShort _ _ s') | Ok (OLong _ _ s') => le s' s
    | Ok OFail => True
    | UB => s_un s <> 0
    | Loop => False
    end.
  Lemma osound_le s s' r : osound s' r -> le s' s -> osound s r.
  Proof. unfold osound. destruct r as [[]| |]; auto; [apply le_le|apply le_le|]. intros H (_ & _ & U). lia. Qed.
  Lemma t_attrs e ch f : forall acc ns s, inv B s -> (lenS s < f)%nat -> osound s (read_attrs f e ch acc ns s).
  Proof.
    induction f as [|f IH]; intros acc ns s V L; [lia|]. cbn [read_attrs].
    destruct (skip_spaces s) as [b1 s1] eqn:E1. destruct (t_skip _ _ _ V E1) as (L1 & N1). destruct b1; [|exact Logic.I]. cbn [negb]. pose proof (proj1 L1) as V1.
    destruct (cur s1 =? e).
    { destruct (shift1 s1) as [b2 s2] eqn:E2. destruct b2; [|exact Logic.I]. cbn [negb]. pose proof (t_shift1 _ _ _ V1 E2 eq_refl) as L2.
      destruct (cur s2 =? 62); [|exact Logic.I]. destruct (shift1 s2) as [b3 s3] eqn:E3. destruct b3; [|exact Logic.I]. cbn [negb osound].
      pose proof (t_shift1 _ _ _ (proj1 L2) E3 eq_refl) as L3. eapply le_le; [apply t_line; apply L3|]. apply weak in L2, L3. eauto using le_le. }
    destruct (cur s1 =? 62).
    { destruct (negb ch); [exact Logic.I|]. destruct (shift1 s1) as [b2 s2] eqn:E2. destruct b2; [|exact Logic.I]. cbn [negb osound].
      pose proof (t_shift1 _ _ _ V1 E2 eq_refl) as L2. apply weak in L2. eauto using le_le. }
    destruct (locate_ident s1) as [n s2] eqn:E2. destruct (t_ident _ _ _ V1 E2) as (L2 & B2). destruct (n =? 0); [exact Logic.I|].
    pose proof (t_value n s2 (proj1 L2) B2) as H3. destruct (locate_value n s2) as [[v s3]| |]; cbn [bind]; [|cbn; destruct L1 as (_ & _ & ?), L2 as (_ & _ & ?); lia|contradiction].
    destruct (N.ltb_spec v 3); [exact Logic.I|]. destruct (shift (N.to_nat (n + v)) s3) as [b4 s4] eqn:E4. destruct b4; [|exact Logic.I]. cbn [negb].
    destruct (t_shift _ _ _ _ (proj1 H3) E4 eq_refl) as (_ & L4). specialize (L4 ltac:(lia)).
    assert (L5 : lt s4 s) by eauto using lt_le, le_le. eapply osound_le; [apply IH; [apply L5|]|apply weak; auto]. destruct L5 as (_ & ? & _). lia.
  Qed.

  Definition sound (s : st) (r : res got) : Prop :=
    match r with
    | Ok (GChild _ s') | Ok (GEnd s') => lt s' s
    | Ok GFail => True
    | UB => s_un s <> 0
    | Loop => False
    end.
  Lemma sound_le s s' r : sound s' r -> le s' s -> sound s r.
  Proof. unfold sound. destruct r as [[]| |]; auto; [apply lt_le|apply lt_le|]. intros H (_ & _ & U). lia. Qed.
  Lemma t_children rd mk m : (forall has s, inv B s -> (lenS s < m)%nat -> sound s (rd has s)) ->
    forall g acc s, inv B s -> (lenS s < m)%nat -> (lenS s < g)%nat -> sound s (children rd mk g acc s).
  Proof.
    intros H. induction g as [|g IH]; intros acc s V Lm Lg; [lia|]. cbn [children].
    pose proof (H (match acc with [] => false | _ => true end) s V Lm) as H1. destruct (rd _ s) as [[n s1|s1|]| |]; cbn [bind]; auto.
    fold (children rd mk). eapply sound_le; [apply IH|apply weak; exact H1]; [apply H1| |]; destruct H1 as (_ & ? & _); lia.
  Qed.
  Lemma t_node f : forall pname has above s, inv B s -> (lenS s < f)%nat -> sound s (read_node f pname has above s).
  Proof.
    induction f as [|f IH]; intros pname has above s V L; [lia|]. cbn [read_node].
    destruct (skip_spaces s) as [b1 s1] eqn:E1. destruct (t_skip _ _ _ V E1) as (L1 & N1). destruct b1; [|exact Logic.I]. cbn [negb].
    destruct (check_for [60; 33; 45; 45] s1) as [b2 s2] eqn:E2. destruct (t_check _ _ _ _ (proj1 L1) E2) as (L2 & N2). destruct b2.
    { destruct (search_for [45; 45; 62] (s_txt s2) 0 s2) as [[n|] s3] eqn:E3; [|exact Logic.I].
      pose proof (t_search [45; 45; 62] _ _ _ (proj1 L2) eq_refl E3) as L3.
      destruct (shift (N.to_nat (n + 3)) s3) as [b4 s4] eqn:E4. destruct b4; [|exact Logic.I]. cbn [negb].
      destruct (t_shift _ _ _ _ (proj1 L3) E4 eq_refl) as (_ & L4). specialize (L4 ltac:(lia)).
      destruct (skip_spaces s4) as [b5 s5] eqn:E5. destruct (t_skip _ _ _ (proj1 L4) E5) as (L5 & _).
      destruct (negb b5 && _); [exact Logic.I|]. cbn [sound]. eapply le_lt; [exact L5|]. eauto using lt_le, le_le. }
    assert (L12 : le s2 s) by eauto using le_le. assert (NE : s_txt s2 <> []) by (rewrite N2; auto). clear L1 N1 N2 L2 E1 E2.
    destruct (N.eqb_spec (cur s2) 60); cbn [negb].
    2: { destruct has; [exact Logic.I|]. destruct (locate_content s2) as [[n0|] s3] eqn:E3; [|exact Logic.I].
      destruct (t_content _ _ _ (proj1 L12) n NE E3) as (L3 & NZ). destruct (shift (N.to_nat n0) s3) as [b4 s4] eqn:E4. destruct b4; [|exact Logic.I]. cbn [negb sound].
      destruct (t_shift _ _ _ _ (proj1 L3) E4 eq_refl) as (_ & L4). specialize (L4 ltac:(lia)). eauto using lt_le, le_le. }
    destruct (shift1 s2) as [b3 s3] eqn:E3. destruct b3; [|exact Logic.I]. cbn [negb]. pose proof (t_shift1 _ _ _ (proj1 L12) E3 eq_refl) as L3.
    assert (L03 : lt s3 s) by eauto using lt_le. clear L3 E3.
    destruct (cur s3 =? 47).
    { destruct (shift1 s3) as [b4 s4] eqn:E4. destruct b4; [|exact Logic.I]. cbn [negb]. pose proof (weak _ _ (t_shift1 _ _ _ (proj1 L03) E4 eq_refl)) as L4.
      destruct (skip_spaces s4) as [b5 s5] eqn:E5. destruct (t_skip _ _ _ (proj1 L4) E5) as (L5 & _). destruct b5; [|exact Logic.I]. cbn [negb].
      destruct (locate_ident s5) as [n s6] eqn:E6. destruct (t_ident _ _ _ (proj1 L5) E6) as (L6 & _). destruct (n =? 0); [exact Logic.I|].
      destruct (negb (starts _ _)); [exact Logic.I|]. destruct (shift (N.to_nat n) s6) as [b7 s7] eqn:E7. destruct b7; [|exact Logic.I]. cbn [negb].
      destruct (t_shift _ _ _ _ (proj1 L6) E7 eq_refl) as (L7 & _). destruct (skip_spaces s7) as [b8 s8] eqn:E8. destruct (t_skip _ _ _ (proj1 L7) E8) as (L8 & _).
      destruct b8; [|exact Logic.I]. cbn [negb]. destruct (negb (cur s8 =? 62)); [exact Logic.I|]. destruct (shift1 s8) as [b9 s9] eqn:E9. destruct b9; [|exact Logic.I]. cbn [negb sound].
      pose proof (weak _ _ (t_shift1 _ _ _ (proj1 L8) E9 eq_refl)) as L9. pose proof (t_line _ (proj1 L9)) as L10.
      eapply le_lt; [|exact L03]. repeat (eapply le_le; [eassumption|]). apply le_refl. apply L03. }
    assert (HI : forall b4 s4, (if cur s3 =? 63 then shift1 s3 else (true, s3)) = (b4, s4) -> b4 = true -> lt s4 s).
    { intros b4 s4 E -> . destruct (cur s3 =? 63); [|injection E as <-; auto]. pose proof (weak _ _ (t_shift1 _ _ _ (proj1 L03) E eq_refl)). eauto using le_lt. }
    destruct (if cur s3 =? 63 then shift1 s3 else (true, s3)) as [b4 s4]. specialize (HI b4 s4 eq_refl). destruct b4; [|exact Logic.I]. cbn [negb]. specialize (HI eq_refl).
    destruct (skip_spaces s4) as [b5 s5] eqn:E5. destruct (t_skip _ _ _ (proj1 HI) E5) as (L5 & _). destruct b5; [|exact Logic.I]. cbn [negb].
    destruct (locate_ident s5) as [n s6] eqn:E6. destruct (t_ident _ _ _ (proj1 L5) E6) as (L6 & _). destruct (n =? 0); [exact Logic.I|].
    destruct (shift (N.to_nat n) s6) as [b7 s7] eqn:E7. destruct b7; [|exact Logic.I]. cbn [negb]. destruct (t_shift _ _ _ _ (proj1 L6) E7 eq_refl) as (L7 & _).
    assert (LA : lt s7 s) by (eapply le_lt; [|exact HI]; eauto using le_le). clear L5 L6 L7 E5 E6 E7 HI.
    assert (LB : (lenS s7 < f)%nat) by (destruct LA as (_ & ? & _); lia).
    pose proof (t_attrs (if cur s3 =? 63 then 63 else 47) (negb (cur s3 =? 63)) f [] (find_ns above (takeN n (s_txt s6))) s7 (proj1 LA) LB) as HA.
    destruct (read_attrs f _ _ _ _ s7) as [[l ns s8|l ns s8|]| |]; cbn [bind osound sound] in *; auto.
    - eauto using le_lt.
    - pose proof (le_lt _ _ _ HA LA) as LC. eapply sound_le; [eapply (t_children _ _ f)|apply weak; exact LC].
      + intros has' s' V' L'. apply IH; auto.
      + apply LC.
      + destruct LC as (_ & ? & _). lia.
      + destruct LC as (_ & ? & _). lia.
    - destruct LA as (_ & _ & ?). lia.
  Qed.

  Definition psound (s : st) (r : res (option (list node))) : Prop := match r with Ok _ => True | UB => s_un s <> 0 | Loop => False end.
  Lemma t_stream f g : forall acc s, inv B s -> (lenS s < f)%nat -> (lenS s < g)%nat -> psound s (parse_stream f g acc s).
  Proof.
    induction g as [|g IH]; intros acc s V Lf Lg; [lia|]. cbn [parse_stream].
    pose proof (t_node f top_name (match acc with [] => false | _ => true end) [] s V Lf) as H.
    destruct (read_node f top_name _ [] s) as [[n s1|s1|]| |]; cbn [bind sound] in *; auto; try exact Logic.I.
    assert (L2 : lt (if (s_un s1 =? 0) && (s_av s1 =? 0) then s1 else snd (skip_spaces s1)) s).
    { destruct ((s_un s1 =? 0) && (s_av s1 =? 0)); auto. destruct (skip_spaces s1) as [b s2] eqn:E. eapply le_lt; [|exact H]. apply (t_skip _ _ _ (proj1 H) E). }
    destruct (if (s_un s1 =? 0) && (s_av s1 =? 0) then s1 else snd (skip_spaces s1)) as [x1 x2 x3 x4 x5 x6]. set (s2 := mkS x1 x2 x3 x4 x5 x6) in *.
    destruct ((s_un s2 =? 0) && (s_av s2 =? 0)); [exact Logic.I|].
    assert (H2 : psound s2 (parse_stream f g (acc ++ [n]) s2)) by (apply IH; [apply L2| |]; destruct L2 as (_ & ? & _); lia).
    destruct (parse_stream f g (acc ++ [n]) s2); auto. cbn in *. destruct L2 as (_ & _ & ?). cbn in *. lia.
  Qed.
  Lemma t_file t : 8 <= B -> match parse_file B t with Ok _ => True | UB => B <= lenN t | Loop => False end.
  Proof.
    intros H8. unfold parse_file. destruct t as [|a r] eqn:E; [exact Logic.I|]. rewrite <- E.
    destruct (open_at B t H8) as (T & V). pose proof (t_stream (S (length t)) (S (length t)) [] (open_file B t) V) as H. unfold lenS in H. rewrite T in H.
    specialize (H ltac:(lia) ltac:(lia)). destruct (parse_stream _ _ _ _); auto. cbn in H. lia.
  Qed.
End T.
