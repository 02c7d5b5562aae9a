(* A written document is read as its nodes. *)
From Verif Require Import Common Bytes XmlSpec XmlModel XmlStream.
Local Open Scope N_scope.

Ltac norm := repeat (rewrite <- app_assoc || cbn [app]).

(* ---- spaces ---- *)
Definition core (l : bytes) : bytes := snd (skipl false l).
Lemma core_solid c l : solid c = true -> core (c :: l) = c :: l.
Proof. unfold core. cbn. intros ->. reflexivity. Qed.
Lemma core_space c l : solid c = false -> core (c :: l) = core l.
Proof. unfold core. cbn. intros ->. reflexivity. Qed.
Lemma core_head l : match core l with [] => True | c :: _ => solid c = true end.
Proof. induction l as [|c l IH]; [exact Logic.I|]. destruct (solid c) eqn:E; [rewrite core_solid; auto|rewrite core_space; auto]. Qed.
Lemma core_fst l : fst (skipl false l) = match core l with [] => false | _ => true end.
Proof. unfold core. induction l as [|c l IH]; cbn; auto. destruct (solid c); auto. Qed.
Lemma core_core l : core (core l) = core l.
Proof. pose proof (core_head l). destruct (core l); auto. apply core_solid. auto. Qed.
Lemma core_line l : core (snd (skipl true l)) = core l.
Proof.
  induction l as [|c l IH]; cbn; auto. destruct (solid c) eqn:E; auto. rewrite core_space by auto.
  destruct (c =? 10); cbn; auto.
Qed.
Lemma blank_space c : blank c -> solid c = false.
Proof. intros [-> | [-> | [-> | ->]]]; reflexivity. Qed.
Lemma core_blanks sp l : blanks sp -> core (sp ++ l) = core l.
Proof. induction 1 as [|c sp B _ IH]; auto. cbn [app]. rewrite core_space; auto using blank_space. Qed.
Lemma letter_solid c : letter c = true -> solid c = true.
Proof. unfold letter, solid. lia. Qed.
Lemma letter_name c : letter c = true -> name_char c = true.
Proof. unfold name_char. intros ->. reflexivity. Qed.

(* skipping with the result known *)
Lemma skips B l s t : at_ B l s -> core l = t -> t <> [] -> exists s', skip_spaces s = (true, s') /\ at_ B t s'.
Proof.
  intros A C NE. destruct (skip_spaces_ok _ _ _ A) as (s' & E & A' & _). rewrite core_fst, C in E. unfold core in C. rewrite C in A'.
  exists s'. split; auto. rewrite E. destruct t; [contradiction|auto].
Qed.
Lemma shifts1 B c l s : at_ B (c :: l) s -> exists s', shift1 s = (true, s') /\ at_ B l s'.
Proof. intros A. destruct (shift1_ok _ _ _ A) as (s' & E & A' & _). eauto. Qed.
Lemma shifts B a l s n : at_ B (a ++ l) s -> n = length a -> exists s', shift n s = (true, s') /\ at_ B l s'.
Proof.
  intros A ->. destruct (shift_ok B (length a) _ _ A) as (s' & E & A' & _); [rewrite app_length; lia|].
  exists s'. split; auto. rewrite skipn_app, skipn_all, Nat.sub_diag in A'. exact A'.
Qed.

(* ---- identifiers ---- *)
Definition stops (l : bytes) : Prop := match l with c :: _ => name_char c = false | [] => False end.
Lemma idl_app r x : Forall (fun c => name_char c = true) r -> stops x -> idl (r ++ x) = Some (lenN r).
Proof.
  induction 1 as [|c r C _ IH]; intros H; cbn [app idl].
  - destruct x; [destruct H|]. cbn in H. cbn [idl]. rewrite H. reflexivity.
  - rewrite C, IH by auto. cbn [option_map]. rewrite lenN_cons. reflexivity.
Qed.
Lemma idlen_app n x : ident n -> stops x -> idlen (n ++ x) = lenN n.
Proof.
  destruct n as [|c r]; [intros []|]. intros (L & F) H. cbn [app idlen]. rewrite L, idl_app by auto. rewrite lenN_cons. reflexivity.
Qed.
Lemma ident_head n x : ident n -> exists c r, n = c :: r /\ letter c = true /\ core (n ++ x) = n ++ x.
Proof. destruct n as [|c r]; [intros []|]. intros (L & F). exists c, r. split; auto. split; auto. apply core_solid, letter_solid, L. Qed.
Lemma ident_nonempty n : ident n -> lenN n <> 0.
Proof. destruct n; [intros []|]. rewrite lenN_cons. lia. Qed.
Lemma idents B n x s : at_ B (n ++ x) s -> ident n -> stops x -> exists s', locate_ident s = (lenN n, s') /\ at_ B (n ++ x) s'.
Proof. intros A I S0. destruct (locate_ident_ok _ _ _ A) as (s' & E & A' & _). rewrite idlen_app in E by auto. eauto. Qed.

(* ---- values ---- *)
Lemma unpack_coded v t : coded v t -> forall f, (length t <= f)%nat -> unpack f t = v.
Proof.
  induction 1; intros f L.
  - destruct f; reflexivity.
  - destruct f as [|f]; [cbn in L; lia|]. cbn [unpack starts]. destruct (N.eqb_spec 38 c); [congruence|]. cbn [andb]. rewrite IHcoded; auto. cbn in L. lia.
  - destruct f as [|f]; [cbn in L; lia|]. cbn [unpack app starts skipn]. cbn. rewrite IHcoded; auto. cbn in L. lia.
  - destruct f as [|f]; [cbn in L; lia|]. cbn [unpack app starts skipn]. cbn. rewrite IHcoded; auto. cbn in L. lia.
  - destruct f as [|f]; [cbn in L; lia|]. cbn [unpack app starts skipn]. cbn. rewrite IHcoded; auto. cbn in L. lia.
  - destruct f as [|f]; [cbn in L; lia|]. cbn [unpack app starts skipn]. cbn. rewrite IHcoded; auto. cbn in L. lia.
  - destruct f as [|f]; [cbn in L; lia|]. cbn [unpack app starts skipn]. cbn. rewrite IHcoded; auto. cbn in L. lia.
Qed.
Lemma unpacked_coded v t : coded v t -> unpacked t = v.
Proof. intros H. apply unpack_coded; auto. Qed.
Lemma coded_clean v t : coded v t -> Forall (fun c => c <> 34 /\ c <> 60) t.
Proof. induction 1; cbn [app]; repeat (constructor; [split; lia|]); auto. Qed.
Lemma quotl_clean t x : Forall (fun c => c <> 34 /\ c <> 60) t -> quotl (t ++ 34 :: x) = Some (lenN t).
Proof.
  induction 1 as [|c t (C & _) _ IH]; cbn [app quotl]; auto. destruct (N.eqb_spec c 34); [contradiction|]. rewrite IH. cbn [option_map]. rewrite lenN_cons. reflexivity.
Qed.
Lemma contl_clean t x : Forall (fun c => c <> 34 /\ c <> 60) t -> contl (t ++ 60 :: x) = Some (lenN t).
Proof.
  induction 1 as [|c t (_ & C) _ IH]; cbn [app contl]; auto. destruct (N.eqb_spec c 60); [contradiction|]. rewrite IH. cbn [option_map]. rewrite lenN_cons.
  destruct (t ++ 60 :: x) eqn:E; auto. destruct t; discriminate.
Qed.

(* ---- attributes ---- *)
Lemma takeN_len {A} (a b : list A) : takeN (lenN a) (a ++ b) = a.
Proof. apply takeN_app. reflexivity. Qed.
Lemma dropN_len {A} (a b : list A) : dropN (lenN a) (a ++ b) = b.
Proof. apply dropN_app. reflexivity. Qed.

Lemma attr_stop lim l tl x : attributes lim l tl -> stops x -> stops (tl ++ x).
Proof. intros []; auto. intros _. cbn. destruct H as [-> | [-> | [-> | ->]]]; reflexivity. Qed.
Lemma blanks_stop sp x : blanks sp -> stops x -> stops (sp ++ x).
Proof. intros []; auto. intros _. cbn. destruct H as [-> | [-> | [-> | ->]]]; reflexivity. Qed.

Section A.
  Context (B lim : N) (HB : 4 * lim + 6 <= B).

  Lemma attrs_ok : forall l tl, attributes lim l tl -> forall f e ch acc ns sp rest s,
    (length tl < f)%nat -> blanks sp -> (e = 47 \/ e = 63) ->
    (at_ B (tl ++ sp ++ [e; 62] ++ rest) s -> exists s' l', read_attrs f e ch acc ns s = Ok (OShort (acc ++ l) ns s') /\ at_ B l' s' /\ core l' = core rest) /\
    (ch = true -> at_ B (tl ++ sp ++ [62] ++ rest) s -> exists s', read_attrs f e ch acc ns s = Ok (OLong (acc ++ l) ns s') /\ at_ B rest s').
  Proof.
    induction 1 as [|b bs n v t l tl Hb Hbs Hn Hx Hc Hl _ IH]; intros f e ch acc ns sp rest s Lf Hsp He; (destruct f as [|f]; [lia|]).
    - cbn [app read_attrs]. rewrite app_nil_r. split.
      + intros A. destruct (skips B _ s (e :: 62 :: rest) A) as (s1 & -> & A1); [rewrite core_blanks by auto; apply core_solid; destruct He; subst; reflexivity|discriminate|].
        cbn [negb]. rewrite (at_cur _ _ _ _ A1), N.eqb_refl. destruct (shifts1 _ _ _ _ A1) as (s2 & -> & A2). cbn [negb].
        rewrite (at_cur _ _ _ _ A2). cbn [N.eqb]. destruct (shifts1 _ _ _ _ A2) as (s3 & -> & A3). cbn [negb].
        destruct (skip_line_ok _ _ _ A3) as (A4 & _). eexists. eexists. split; [reflexivity|]. split; [exact A4|]. apply core_line.
      + intros -> A. destruct (skips B _ s (62 :: rest) A) as (s1 & -> & A1); [rewrite core_blanks by auto; apply core_solid; reflexivity|discriminate|].
        cbn [negb]. rewrite (at_cur _ _ _ _ A1). destruct (N.eqb_spec 62 e); [lia|]. cbn [N.eqb Pos.eqb negb].
        destruct (shifts1 _ _ _ _ A1) as (s2 & -> & A2). eexists. split; [reflexivity|]. exact A2.
    - assert (STEP : forall more, at_ B ((b :: bs ++ n ++ [61; 34] ++ t ++ [34] ++ tl) ++ more) s ->
        exists s', at_ B (tl ++ more) s' /\ read_attrs (S f) e ch acc ns s = read_attrs f e ch (acc ++ [(n, v)]) ns s').
      { intros more A. set (X := [61; 34] ++ t ++ [34] ++ tl ++ more).
        assert (EX : core ((b :: bs ++ n ++ [61; 34] ++ t ++ [34] ++ tl) ++ more) = n ++ X).
        { replace ((b :: bs ++ n ++ [61; 34] ++ t ++ [34] ++ tl) ++ more) with (b :: bs ++ n ++ X) by (unfold X; norm; reflexivity).
          rewrite core_space by auto using blank_space. rewrite core_blanks by auto. destruct (ident_head n X Hn) as (c & r & _ & _ & E). exact E. }
        destruct (ident_head n X Hn) as (c & r & En & Lc & _). cbn [read_attrs].
        destruct (skips B _ s (n ++ X) A EX) as (s1 & -> & A1); [rewrite En; discriminate|]. cbn [negb].
        assert (CU : cur s1 = c) by (rewrite En in A1; apply (at_cur _ _ _ _ A1)). rewrite CU.
        assert (NE : c <> e /\ c <> 62) by (unfold letter in Lc; lia). destruct (N.eqb_spec c e); [lia|]. destruct (N.eqb_spec c 62); [lia|].
        destruct (idents B n X s1 A1 Hn eq_refl) as (s2 & -> & A2). pose proof (ident_nonempty n Hn). destruct (N.eqb_spec (lenN n) 0); [contradiction|].
        assert (EV : vlen (dropN (lenN n) (n ++ X)) = 3 + lenN t).
        { rewrite dropN_len. unfold X. cbn [app vlen]. cbn [N.eqb Pos.eqb andb]. rewrite quotl_clean by (eapply coded_clean; eauto). reflexivity. }
        assert (AV : lenN n + (3 + lenN t) <= s_av s2).
        { destruct A2 as (T2 & I2). unfold inv in I2. rewrite T2 in I2. unfold X in I2. rewrite !lenN_app, !lenN_cons, !lenN_nil in I2. lia. }
        rewrite (locate_value_in B (lenN n) (n ++ X) s2 A2) by (rewrite EV; lia). rewrite EV. cbn [bind].
        destruct (N.ltb_spec (3 + lenN t) 3); [lia|]. pose proof A2 as (-> & _). rewrite takeN_len.
        replace (dropN (lenN n + 2) (n ++ X)) with (t ++ [34] ++ tl ++ more).
        2: { unfold X. rewrite (app_assoc n). symmetry. apply dropN_app. rewrite lenN_app. reflexivity. }
        replace (3 + lenN t - 3) with (lenN t) by lia. rewrite takeN_len, (unpacked_coded v t) by auto.
        destruct (shifts B (n ++ [61; 34] ++ t ++ [34]) (tl ++ more) s2 (N.to_nat (lenN n + (3 + lenN t)))) as (s3 & -> & A3).
        { unfold X in A2. rewrite <- !app_assoc. exact A2. }
        { rewrite !app_length. cbn [length]. unfold lenN. lia. }
        cbn [negb]. exists s3. split; auto.
        replace ((6 <? lenN n) && starts [120; 109; 108; 110; 115; 58] n) with false; auto.
        symmetry. apply not_true_iff_false. intros W. apply andb_prop in W as (W1 & W2). apply starts_len in W2 as (_ & W2). apply Hx. split; [|lia].
        rewrite W2. reflexivity. }
      cbn [length] in Lf. rewrite !app_length in Lf. cbn in Lf. split; [intros A|intros CH A].
      + destruct (STEP _ A) as (s' & A' & ->). destruct (IH f e ch (acc ++ [(n, v)]) ns sp rest s') as (P1 & _); auto; [lia|].
        destruct (P1 A') as (s2 & l2 & E & A2 & C2). exists s2, l2. rewrite E, <- app_assoc. auto.
      + destruct (STEP _ A) as (s' & A' & ->). destruct (IH f e ch (acc ++ [(n, v)]) ns sp rest s') as (_ & P2); auto; [lia|].
        destruct (P2 CH A') as (s2 & E & A2). exists s2. rewrite E, <- app_assoc. auto.
  Qed.
End A.

(* ---- comments ---- *)
Lemma place_dashes x : forall c, no_dashes (c ++ [45]) -> place [45; 45; 62] (c ++ [45; 45; 62] ++ x) = Some (lenN c).
Proof.
  induction c as [|a c IH]; intros H.
  - cbn [app place starts]. rewrite !lenN_cons. destruct (N.ltb_spec (1 + (1 + (1 + lenN x))) (1 + (1 + (1 + lenN (@nil N))))); [rewrite lenN_nil in *; lia|]. reflexivity.
  - cbn [app] in H. cbn [no_dashes] in H. destruct H as (H1 & _ & H2). cbn [app place].
    destruct (N.ltb_spec (lenN (a :: c ++ 45 :: 45 :: 62 :: x)) (lenN [45; 45; 62])) as [L|L]; [rewrite !lenN_cons, lenN_app, !lenN_cons, lenN_nil in L; lia|].
    replace (starts [45; 45; 62] (a :: c ++ 45 :: 45 :: 62 :: x)) with false.
    + change (45 :: 45 :: 62 :: x) with ([45; 45; 62] ++ x). rewrite (IH H2). cbn [option_map]. rewrite lenN_cons. reflexivity.
    + cbn [starts]. destruct (N.eqb_spec 45 a) as [<-|]; auto. cbn [andb]. destruct c as [|b c]; cbn [app] in *.
      * exfalso. apply H1. auto.
      * destruct (N.eqb_spec 45 b) as [<-|]; auto. exfalso. apply H1. auto.
Qed.

Lemma no_comment c l : c <> 33 -> starts [60; 33; 45; 45] (60 :: c :: l) = false.
Proof. intros H. cbn. destruct c as [|p]; auto. destruct (Pos.eqb_spec 33 p); auto. subst. contradiction. Qed.
Lemma no_tag c l : c <> 60 -> starts [60; 33; 45; 45] (c :: l) = false.
Proof. intros H. cbn [starts]. destruct (N.eqb_spec 60 c); auto. congruence. Qed.
Lemma checks B str l s : at_ B l s -> starts str l = false -> exists s', check_for str s = (false, s') /\ at_ B l s'.
Proof. intros A E. destruct (check_for_ok B str l s A) as (s' & H & A' & _). rewrite E in *. eauto. Qed.

Lemma find_ns_nil name : find_ns [] name = None.
Proof. unfold find_ns. destruct (before_colon name); reflexivity. Qed.

Definition reads B (n : node) (f : nat) pname has s rest : Prop :=
  exists s' l', read_node f pname has [] s = Ok (GChild n s') /\ at_ B l' s' /\ core l' = core rest.

Lemma read_comment B c rest f pname has l s : no_dashes (c ++ [45]) -> at_ B l s -> core l = [60; 33; 45; 45] ++ c ++ [45; 45; 62] ++ rest ->
  reads B (Nd KComment c [] []) (S f) pname has s rest.
Proof.
  intros D A C. unfold reads. cbn [read_node].
  destruct (skips B l s _ A C) as (s1 & -> & A1); [discriminate|]. cbn [negb].
  destruct (check_for_ok B [60; 33; 45; 45] _ s1 A1) as (s2 & E2 & A2 & _). rewrite starts_app in *. cbn [length] in A2. cbn [skipn app] in A2. rewrite E2.
  change (45 :: 45 :: 62 :: rest) with ([45; 45; 62] ++ rest) in A2.
  destruct (search_ok B [45; 45; 62] _ (c ++ [45; 45; 62] ++ rest) 0 s2 A2) as (s3 & E3 & A3 & _); [reflexivity|lia|lia|reflexivity|].
  pose proof A2 as (T2 & _). rewrite T2, E3, place_dashes by auto. cbn [option_map]. rewrite N.add_0_l. pose proof A3 as (T3 & _). rewrite T3, takeN_len.
  destruct (shifts B (c ++ [45; 45; 62]) rest s3 (N.to_nat (lenN c + 3))) as (s4 & -> & A4); [rewrite <- app_assoc; exact A3|rewrite app_length; cbn [length]; unfold lenN; lia|].
  cbn [negb]. destruct (skip_spaces_ok _ _ _ A4) as (s5 & -> & A5 & _). rewrite (at_un _ _ _ A5), core_fst. fold (core rest) in *.
  replace (negb (match core rest with [] => false | _ :: _ => true end) && negb match core rest with [] => true | _ :: _ => false end) with false by (destruct (core rest); reflexivity).
  eexists. eexists. split; [reflexivity|]. split; [exact A5|]. apply core_core.
Qed.

(* the start of an element, up to its attributes *)
Definition attr_start (f : nat) (instr : bool) (n : bytes) (s : st) : res got :=
  do o <- read_attrs f (if instr then 63 else 47) (negb instr) [] None s;
  match o with
  | OFail => Ok GFail
  | OShort l ns s => Ok (GChild (Nd (if instr then KInstr else KElem) (truncated ns n) l []) s)
  | OLong l ns s =>
      let above := match ns with Some x => [x] | None => [] end in
      children (fun has s => read_node f n has above s) (Nd KElem (truncated ns n) l) f [] s
  end.
Lemma read_start B (instr : bool) n x f pname has l s : ident n -> stops x -> at_ B l s -> core l = [60] ++ (if instr then [63] else []) ++ n ++ x ->
  exists s', at_ B x s' /\ read_node (S f) pname has [] s = attr_start f instr n s'.
Proof.
  intros Hn Sx A C. destruct (ident_head n x Hn) as (c & r & En & Lc & EC). cbn [read_node].
  destruct (skips B l s _ A C) as (s1 & -> & A1); [discriminate|]. cbn [negb].
  assert (NC : exists d y, (if instr then [63] else []) ++ n ++ x = d :: y /\ d <> 33 /\ d <> 47 /\ (d =? 63) = instr).
  { destruct instr; [exists 63, (n ++ x); repeat split; lia|]. rewrite En. exists c, (r ++ x). unfold letter in Lc. repeat split; lia. }
  destruct NC as (d & y & ED & N33 & N47 & EI). cbn [app] in A1. cbn [app] in ED. rewrite ED in A1.
  destruct (checks B _ _ s1 A1 (no_comment d y N33)) as (s2 & -> & A2). rewrite (at_cur _ _ _ _ A2). cbn [N.eqb Pos.eqb negb].
  destruct (shifts1 _ _ _ _ A2) as (s3 & -> & A3). cbn [negb]. rewrite (at_cur _ _ _ _ A3). destruct (N.eqb_spec d 47); [contradiction|]. rewrite EI.
  assert (S4 : exists s4, (if instr then shift1 s3 else (true, s3)) = (true, s4) /\ at_ B (n ++ x) s4).
  { destruct instr; cbn [app] in ED; [|exists s3; split; auto; rewrite ED; exact A3]. destruct (shifts1 _ _ _ _ A3) as (s4 & -> & A4). exists s4. split; auto. congruence. }
  destruct S4 as (s4 & -> & A4). cbn [negb].
  destruct (skips B _ s4 (n ++ x) A4 EC) as (s5 & -> & A5); [rewrite En; discriminate|]. cbn [negb].
  destruct (idents B n x s5 A5 Hn Sx) as (s6 & -> & A6). pose proof (ident_nonempty n Hn). destruct (N.eqb_spec (lenN n) 0); [contradiction|].
  destruct (shifts B n x s6 (N.to_nat (lenN n)) A6) as (s7 & E7 & A7); [unfold lenN; lia|]. pose proof A6 as (T6 & _). rewrite T6, E7, takeN_len. cbn [negb].
  exists s7. split; auto. unfold attr_start. rewrite find_ns_nil. reflexivity.
Qed.

(* the closing tag *)
Lemma read_end B n sp rest f has l s : ident n -> blanks sp -> at_ B l s -> core l = [60; 47] ++ n ++ sp ++ [62] ++ rest ->
  exists s' l', read_node (S f) n has [] s = Ok (GEnd s') /\ at_ B l' s' /\ core l' = core rest.
Proof.
  intros Hn Hs A C. set (x := sp ++ [62] ++ rest) in *. destruct (ident_head n x Hn) as (c & r & En & Lc & EC). cbn [read_node].
  destruct (skips B l s _ A C) as (s1 & -> & A1); [discriminate|]. cbn [negb app] in *.
  destruct (checks B _ _ s1 A1 (no_comment 47 _ ltac:(lia))) as (s2 & -> & A2). rewrite (at_cur _ _ _ _ A2). cbn [N.eqb Pos.eqb negb].
  destruct (shifts1 _ _ _ _ A2) as (s3 & -> & A3). cbn [negb]. rewrite (at_cur _ _ _ _ A3). cbn [N.eqb Pos.eqb].
  destruct (shifts1 _ _ _ _ A3) as (s4 & -> & A4). cbn [negb].
  destruct (skips B _ s4 (n ++ x) A4 EC) as (s5 & -> & A5); [rewrite En; discriminate|]. cbn [negb].
  assert (Sx : stops x) by (apply blanks_stop; auto; reflexivity).
  destruct (idents B n x s5 A5 Hn Sx) as (s6 & -> & A6). pose proof (ident_nonempty n Hn). destruct (N.eqb_spec (lenN n) 0); [contradiction|].
  destruct (shifts B n x s6 (N.to_nat (lenN n)) A6) as (s7 & E7 & A7); [unfold lenN; lia|]. pose proof A6 as (T6 & _). rewrite T6, takeN_len.
  pose proof (starts_app n []) as SN. rewrite app_nil_r in SN. rewrite SN, E7. cbn [negb].
  destruct (skips B _ s7 (62 :: rest) A7) as (s8 & -> & A8); [unfold x; rewrite core_blanks by auto; apply core_solid; reflexivity|discriminate|]. cbn [negb].
  rewrite (at_cur _ _ _ _ A8). cbn [N.eqb Pos.eqb negb]. destruct (shifts1 _ _ _ _ A8) as (s9 & -> & A9). cbn [negb].
  destruct (skip_line_ok _ _ _ A9) as (A10 & _). eexists. eexists. split; [reflexivity|]. split; [exact A10|]. apply core_line.
Qed.

(* the text of an element *)
Lemma read_text B v c tv x f pname l s : coded v (c :: tv) -> printed c -> at_ B l s -> core l = (c :: tv) ++ 60 :: x ->
  exists s', read_node (S f) pname false [] s = Ok (GChild (Nd KText v [] []) s') /\ at_ B (60 :: x) s'.
Proof.
  intros Hc Hp A C. pose proof (coded_clean _ _ Hc) as CL. cbn [read_node].
  destruct (skips B l s _ A C) as (s1 & -> & A1); [discriminate|]. cbn [negb].
  assert (N60 : c <> 60) by (inversion CL; tauto). cbn [app] in A1.
  destruct (checks B _ _ s1 A1 (no_tag c _ N60)) as (s2 & -> & A2). rewrite (at_cur _ _ _ _ A2). destruct (N.eqb_spec c 60); [contradiction|]. cbn [negb].
  destruct (locate_content_ok _ _ _ _ A2) as (s3 & -> & A3 & _). change (c :: tv ++ 60 :: x) with ((c :: tv) ++ 60 :: x) in *. rewrite contl_clean by auto.
  pose proof A3 as (T3 & _). rewrite T3, takeN_len, (unpacked_coded v (c :: tv)) by auto.
  destruct (shifts B (c :: tv) (60 :: x) s3 (N.to_nat (lenN (c :: tv))) A3) as (s4 & -> & A4); [unfold lenN; lia|]. cbn [negb]. eauto.
Qed.

(* ---- nodes ---- *)
Scheme written_mut := Minimality for written Sort Prop with writtens_mut := Minimality for writtens Sort Prop.

Lemma written_head lim n t : written lim n t -> exists x, t = 60 :: x.
Proof. destruct 1; cbn; eauto. Qed.
Lemma writtens_core lim ns t x : writtens lim ns t -> core (t ++ 60 :: x) = t ++ 60 :: x.
Proof.
  intros []; [apply core_solid; reflexivity|]. destruct (written_head _ _ _ H) as (y & ->). apply core_solid. reflexivity.
Qed.
Lemma writtens_head lim ns t x : writtens lim ns t -> exists y, t ++ 60 :: x = 60 :: y.
Proof. intros []; [eexists; reflexivity|]. destruct (written_head _ _ _ H) as (y & ->). eexists. reflexivity. Qed.

Section N.
  Context (B lim : N) (HB : 4 * lim + 6 <= B).

  Lemma nodes_ok : (forall n t, written lim n t -> forall f pname has l s rest, (length t <= f)%nat -> at_ B l s -> core l = t ++ rest -> reads B n f pname has s rest) /\
    (forall ns t, writtens lim ns t -> forall f name mk g acc l s sp rest, (length t + 3 <= f)%nat -> (length t < g)%nat -> ident name -> blanks sp ->
       at_ B l s -> core l = t ++ [60; 47] ++ name ++ sp ++ [62] ++ rest ->
       exists s' l', children (fun has s => read_node f name has [] s) mk g acc s = Ok (GChild (mk (acc ++ ns)) s') /\ at_ B l' s' /\ core l' = core rest).
  Proof.
    set (P := fun n t => forall f pname has l s rest, (length t <= f)%nat -> at_ B l s -> core l = t ++ rest -> reads B n f pname has s rest).
    set (Q := fun ns t => forall f name mk g acc l s sp rest, (length t + 3 <= f)%nat -> (length t < g)%nat -> ident name -> blanks sp ->
       at_ B l s -> core l = t ++ [60; 47] ++ name ++ sp ++ [62] ++ rest ->
       exists s' l', children (fun has s => read_node f name has [] s) mk g acc s = Ok (GChild (mk (acc ++ ns)) s') /\ at_ B l' s' /\ core l' = core rest).
    assert (H1 : forall n l tl sp, ident n -> attributes lim l tl -> blanks sp -> P (Nd KElem n l []) ([60] ++ n ++ tl ++ sp ++ [47; 62])).
    { intros n l tl sp Hn Ha Hs f pname has l0 s rest Lf A C. destruct f as [|f]; [cbn in Lf; lia|]. unfold reads.
      destruct (read_start B false n (tl ++ sp ++ [47; 62] ++ rest) f pname has l0 s Hn) as (s1 & A1 & ->); auto.
      { eapply attr_stop; eauto. apply blanks_stop; auto. reflexivity. } { rewrite C. norm. reflexivity. }
      unfold attr_start. cbn [negb]. cbn [app length] in Lf. rewrite !app_length in Lf. cbn [length] in Lf.
      destruct (attrs_ok B lim HB l tl Ha f 47 true [] None sp rest s1) as (X & _); auto; [lia|]. destruct (X A1) as (s2 & l2 & -> & A2 & C2). cbn [bind app truncated]. eauto. }
    assert (LONG : forall n l tl sp, ident n -> attributes lim l tl -> blanks sp -> forall f pname has l0 s body,
      at_ B l0 s -> core l0 = [60] ++ n ++ tl ++ sp ++ [62] ++ body -> (length tl < f)%nat ->
      exists s', at_ B body s' /\ read_node (S f) pname has [] s = children (fun has s => read_node f n has [] s) (Nd KElem n l) f [] s').
    { intros n l tl sp Hn Ha Hs f pname has l0 s body A C Lf.
      destruct (read_start B false n (tl ++ sp ++ [62] ++ body) f pname has l0 s Hn) as (s1 & A1 & ->); auto.
      { eapply attr_stop; eauto. apply blanks_stop; auto. reflexivity. }
      unfold attr_start. cbn [negb].
      destruct (attrs_ok B lim HB l tl Ha f 47 true [] None sp body s1) as (_ & X); auto. destruct (X eq_refl A1) as (s2 & -> & A2). cbn [bind app truncated]. eauto. }
    assert (H2 : forall n l tl sp sp1 ks tk sp2, ident n -> attributes lim l tl -> blanks sp -> blanks sp1 -> blanks sp2 -> writtens lim ks tk -> Q ks tk ->
      P (Nd KElem n l ks) ([60] ++ n ++ tl ++ sp ++ [62] ++ sp1 ++ tk ++ [60; 47] ++ n ++ sp2 ++ [62])).
    { intros n l tl sp sp1 ks tk sp2 Hn Ha Hs Hs1 Hs2 Hk IH f pname has l0 s rest Lf A C. destruct f as [|f]; [cbn in Lf; lia|]. unfold reads.
      cbn [app length] in Lf. rewrite !app_length in Lf. cbn [length] in Lf. rewrite !app_length in Lf. cbn [length] in Lf. rewrite !app_length in Lf. cbn [length] in Lf.
      destruct (LONG n l tl sp Hn Ha Hs f pname has l0 s (sp1 ++ tk ++ [60; 47] ++ n ++ sp2 ++ [62] ++ rest)) as (s1 & A1 & ->); auto; [rewrite C; norm; reflexivity|lia|].
      destruct (IH f n (Nd KElem n l) f [] (sp1 ++ tk ++ [60; 47] ++ n ++ sp2 ++ [62] ++ rest) s1 sp2 rest) as (s2 & l2 & -> & A2 & C2); auto; [lia|lia| |eauto].
      rewrite core_blanks by auto. cbn [app]. apply (writtens_core lim ks); auto. }
    assert (H3 : forall n l tl sp sp1 v c tv ks tk sp2, ident n -> attributes lim l tl -> blanks sp -> blanks sp1 -> blanks sp2 -> coded v (c :: tv) -> printed c -> writtens lim ks tk -> Q ks tk ->
      P (Nd KElem n l (Nd KText v [] [] :: ks)) ([60] ++ n ++ tl ++ sp ++ [62] ++ sp1 ++ (c :: tv) ++ tk ++ [60; 47] ++ n ++ sp2 ++ [62])).
    { intros n l tl sp sp1 v c tv ks tk sp2 Hn Ha Hs Hs1 Hs2 Hc Hp Hk IH f pname has l0 s rest Lf A C. destruct f as [|f]; [cbn in Lf; lia|]. unfold reads.
      repeat (cbn [app length] in Lf; rewrite ?app_length in Lf).
      destruct (LONG n l tl sp Hn Ha Hs f pname has l0 s (sp1 ++ (c :: tv) ++ tk ++ [60; 47] ++ n ++ sp2 ++ [62] ++ rest)) as (s1 & A1 & ->); auto; [rewrite C; norm; reflexivity|lia|].
      destruct f as [|f]; [lia|]. destruct (writtens_head lim ks tk (47 :: n ++ sp2 ++ [62] ++ rest) Hk) as (y & EY).
      destruct (read_text B v c tv y f n _ s1 Hc Hp A1) as (s2 & E2 & A2).
      { rewrite core_blanks by auto. cbn [app] in *. rewrite core_solid by (unfold printed, solid in *; lia). rewrite EY. reflexivity. }
      cbn [children]. rewrite E2. cbn [bind app]. fold (children (fun has s => read_node (S f) n has [] s) (Nd KElem n l)).
      destruct (IH (S f) n (Nd KElem n l) f [Nd KText v [] []] (60 :: y) s2 sp2 rest) as (s3 & l3 & E3 & A3 & C3); try lia; auto; [exists s3, l3; split; [exact E3|auto]]. }
    assert (H4 : forall n l tl sp, ident n -> attributes lim l tl -> blanks sp -> P (Nd KInstr n l []) ([60; 63] ++ n ++ tl ++ sp ++ [63; 62])).
    { intros n l tl sp Hn Ha Hs f pname has l0 s rest Lf A C. destruct f as [|f]; [cbn in Lf; lia|]. unfold reads.
      destruct (read_start B true n (tl ++ sp ++ [63; 62] ++ rest) f pname has l0 s Hn) as (s1 & A1 & ->); auto.
      { eapply attr_stop; eauto. apply blanks_stop; auto. reflexivity. } { rewrite C. norm. reflexivity. }
      unfold attr_start. cbn [negb]. cbn [app length] in Lf. rewrite !app_length in Lf. cbn [length] in Lf.
      destruct (attrs_ok B lim HB l tl Ha f 63 false [] None sp rest s1) as (X & _); auto; [lia|]. destruct (X A1) as (s2 & l2 & -> & A2 & C2). cbn [bind app truncated]. eauto. }
    assert (H5 : forall c, no_dashes (c ++ [45]) -> P (Nd KComment c [] []) ([60; 33; 45; 45] ++ c ++ [45; 45; 62])).
    { intros c Hc f pname has l s rest Lf A C. destruct f as [|f]; [cbn in Lf; lia|]. apply (read_comment B c rest f pname has l s); auto. rewrite C. norm. reflexivity. }
    assert (H6 : Q [] []).
    { intros f name mk g acc l s sp rest Lf Lg Hn Hs A C. destruct g as [|g]; [lia|]. destruct f as [|f]; [lia|]. cbn [children app] in *.
      destruct (read_end B name sp rest f (match acc with [] => false | _ => true end) l s Hn Hs A C) as (s' & l' & -> & A' & C'). cbn [bind]. rewrite app_nil_r. eauto. }
    assert (H7 : forall n t sp ns ts, written lim n t -> P n t -> blanks sp -> writtens lim ns ts -> Q ns ts -> Q (n :: ns) (t ++ sp ++ ts)).
    { intros n t sp ns ts Hn Pn Hs Hns Qn f name mk g acc l s sp' rest Lf Lg Hi Hs' A C. rewrite !app_length in Lf, Lg. destruct g as [|g]; [lia|].
      destruct (Pn f name (match acc with [] => false | _ => true end) l s (sp ++ ts ++ [60; 47] ++ name ++ sp' ++ [62] ++ rest)) as (s1 & l1 & E1 & A1 & C1); auto; [lia|rewrite C; norm; reflexivity|].
      cbn [children]. rewrite E1. cbn [bind]. fold (children (fun has s => read_node f name has [] s) mk).
      destruct (written_head _ _ _ Hn) as (y & ->). cbn [length] in Lg.
      rewrite core_blanks in C1 by auto. cbn [app] in C1. rewrite (writtens_core lim ns) in C1 by auto.
      destruct (Qn f name mk g (acc ++ [n]) l1 s1 sp' rest) as (s2 & l2 & -> & A2 & C2); auto; [lia|lia|].
      rewrite <- app_assoc. eauto. }
    split; [apply (written_mut lim P Q)|apply (writtens_mut lim P Q)]; auto.
  Qed.

  (* the whole file *)
  Lemma stream_ok ns t : writtens lim ns t -> forall f g acc l s, ns <> [] -> (length t <= f)%nat -> (length t <= g)%nat -> at_ B l s -> core l = t ->
    parse_stream f g acc s = Ok (Some (acc ++ ns)).
  Proof.
    induction 1 as [|n t sp ns ts Hn Hs Hns IH]; intros f g acc l s NE Lf Lg A C; [contradiction|].
    destruct (written_head _ _ _ Hn) as (y & ->). rewrite !app_length in *. cbn [length] in *. destruct g as [|g]; [lia|]. cbn [parse_stream].
    destruct (proj1 nodes_ok n _ Hn f top_name (match acc with [] => false | _ => true end) l s (sp ++ ts)) as (s1 & l1 & -> & A1 & C1); auto; [cbn [length]; lia|].
    cbn [bind]. rewrite core_blanks in C1 by auto.
    assert (S2 : exists s2, (if (s_un s1 =? 0) && (s_av s1 =? 0) then s1 else snd (skip_spaces s1)) = s2 /\ at_ B (core l1) s2).
    { rewrite (at_un _ _ _ A1). destruct l1; [exists s1; auto|]. destruct (skip_spaces_ok _ _ _ A1) as (s2 & -> & A2 & _). exists s2. auto. }
    destruct S2 as (s2 & -> & A2). rewrite (at_un _ _ _ A2), C1. rewrite C1 in A2. destruct Hns as [|n2 t2 sp2 ns2 ts2 Hn2 Hs2 Hns2].
    - reflexivity.
    - destruct (written_head _ _ _ Hn2) as (y2 & ->). cbn [app] in A2 |- *. rewrite core_solid in A2 |- * by reflexivity.
      rewrite (IH f g (acc ++ [n]) (60 :: y2 ++ sp2 ++ ts2) s2); [rewrite <- app_assoc; reflexivity|discriminate| | |exact A2|apply core_solid; reflexivity].
      all: rewrite !app_length in *; cbn [length] in *; lia.
  Qed.
  Lemma parse_ok ns t : document lim ns t -> 8 <= B -> parse_file B t = Ok (Some ns).
  Proof.
    intros (sp & tn & Hs & Hn & NE & ->) H8. unfold parse_file. destruct (sp ++ tn) as [|a r] eqn:E.
    - destruct Hn as [|? ? ? ? ? Hw]; [contradiction|]. destruct (written_head _ _ _ Hw) as (y & ->). destruct sp; discriminate.
    - rewrite <- E. apply (stream_ok ns tn Hn) with (l := sp ++ tn); auto; try (rewrite app_length; lia).
      + apply open_at. auto.
      + rewrite core_blanks by auto. destruct Hn as [|? ? ? ? ? Hw]; [contradiction|]. destruct (written_head _ _ _ Hw) as (y & ->). apply core_solid. reflexivity.
  Qed.
End N.
