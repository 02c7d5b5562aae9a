(* C77: objects are found by their names.
   PathSpec.v says what a path stands for ([leads]); [find_child_ref d w o path force] is
   FindChildRef of the object [o]; [d] bounds the way to the top object. *)
From Coq Require Import String Ascii.
From Verif Require Import Common Bytes DecStr PathSpec PathModel PathProofs.
Local Open Scope N_scope.

(* Every path is followed part by part, with . and .. and repeated slashes; a slash in front starts
   at the top object. *)
Theorem C77_find : forall w depth d o path, proper w depth -> (depth o < d)%nat ->
  exists r, find_child_ref d w o path false = Ok (w, r) /\ leads w o path r.
Proof.
  intros w depth d o path P Hd. unfold leads. destruct (N.eqb_spec (hd 0 path) 47) as [Hh|Hh].
  - destruct path as [|x rest]; [discriminate|]. cbn in Hh. subst x. rewrite ref_slash. destruct (to_top_spec _ _ _ _ P Hd) as (t & E & T). rewrite E. cbn [bind].
    rewrite search_follow by lia. eexists. split; [reflexivity|]. exists t. split; [exact T|reflexivity].
  - rewrite ref_other by exact Hh. rewrite search_follow by lia. eexists. split; reflexivity.
Qed.
Print Assumptions C77_find.

(* With creation: the path leads to the result afterwards, nothing which was there is changed,
   nothing is created when the path led to an object, and there is a result unless .. is used. *)
Theorem C77_force : forall w depth d o path, proper w depth -> o < w_next w -> (depth o < d)%nat ->
  exists w' r, find_child_ref d w o path true = Ok (w', r) /\ extends w w' /\ (exists depth', proper w' depth') /\ leads w' o path r /\
    (forall x, leads w o path (Some x) -> w' = w) /\ (~ In [46; 46] (parts path) -> r <> None).
Proof.
  intros w depth d o path P Ho Hd. unfold leads. destruct (N.eqb_spec (hd 0 path) 47) as [Hh|Hh].
  - destruct path as [|x rest]; [discriminate|]. cbn in Hh. subst x. rewrite ref_slash. destruct (to_top_spec _ _ _ _ P Hd) as (t & E & T). rewrite E. cbn [bind].
    destruct (search_force d (S (List.length rest)) w depth t rest P (top_live _ _ _ _ P Ho T) ltac:(lia)) as (w' & r & E' & X & P' & F & Sm & Nn & _).
    exists w', r. split; [exact E'|]. split; [exact X|]. split; [exact P'|]. split; [exists t; split; [exact (top_extends _ _ _ _ _ P X Ho T)|exact F]|].
    split; [|exact Nn]. intros z (t' & T' & F'). rewrite <- (top_unique _ _ _ _ T T') in F'. exact (Sm z F').
  - rewrite ref_other by exact Hh. destruct (search_force d (S (List.length path)) w depth o path P Ho ltac:(lia)) as (w' & r & E' & X & P' & F & Sm & Nn & _).
    exists w', r. split; [exact E'|]. split; [exact X|]. split; [exact P'|]. split; [exact F|]. split; [exact Sm|exact Nn].
Qed.
Print Assumptions C77_force.

(* An object below the manager is found by its item name, when the names on the way can be part of
   a path and are the first ones of their folder. *)
Theorem C77_item_partial : forall w depth d m l o compact, proper w depth -> w_up w m = None -> way w m l o -> l <> [] -> (List.length l < d)%nat ->
  exists s, item_name d w (Some m) o compact = Ok s /\ s = (if compact then [] else [47]) ++ join l /\ find_child_ref d w m s false = Ok (w, Some o).
Proof.
  intros w depth d m l o compact P U W Hl Hd. exists ((if compact then [] else [47]) ++ join l).
  assert (Fl : follow w m (parts (join l)) = Some o) by (rewrite parts_join by exact (way_plain _ _ _ _ W); exact (way_follow _ _ _ _ W)).
  split; [unfold item_name; rewrite (is_parent_way w depth m P d l o W Hl) by lia; cbn [bind]; rewrite (full_name_way w depth m P d l o W Hl) by lia; reflexivity|].
  split; [reflexivity|]. destruct compact; cbn [app].
  - rewrite ref_other by exact (join_hd _ (way_plain _ _ _ _ W)). rewrite search_follow by lia. rewrite Fl. reflexivity.
  - rewrite ref_slash. destruct d as [|d]; [lia|]. cbn [to_top]. rewrite U. cbn [bind]. rewrite search_follow by lia. rewrite Fl. reflexivity.
Qed.
Print Assumptions C77_item_partial.

(* An object created with the name a/b/c below [p], where there was none of this name, is found
   there afterwards; the folders a and a/b are created when needed. *)
Theorem C77_create_partial : forall w depth d mgr p l c withmgr, proper w depth -> p < w_next w ->
  Forall plain l -> plain c -> hd 0 (join (l ++ [c])) <> 35 -> follow w p (l ++ [c]) = None ->
  exists w' o, create d w mgr (Some p) (join (l ++ [c])) withmgr = Ok (w', o) /\ extends w w' /\ w_next w <= o /\ (exists depth', proper w' depth') /\
    w_name w' o = c /\ way w' p (l ++ [c]) o /\ find_child_ref d w' p (join (l ++ [c])) false = Ok (w', Some o).
Proof.
  intros w depth d mgr p l c wm P Hp Fl Pc H35 Hn.
  assert (Fa : Forall plain (l ++ [c])) by (apply Forall_app; split; [exact Fl|constructor; [exact Pc|constructor]]).
  assert (Hh := join_hd _ Fa).
  assert (Sk : skip_slashes (join (l ++ [c])) = join (l ++ [c])). { destruct (join (l ++ [c])) as [|x s]; [reflexivity|]. cbn in Hh |- *. destruct (N.eqb_spec x 47); congruence. }
  assert (Mid : exists w1 q, make_pair d w mgr (Some p) (join (l ++ [c])) wm = Ok (w1, Some q, c) /\ extends w w1 /\ (exists dp, proper w1 dp) /\ follow w1 p l = Some q /\ child w1 q c = None).
  { unfold make_pair. destruct (join (l ++ [c])) as [|x s] eqn:Ej. { exfalso. destruct l as [|a l0]; cbn in Ej; [rewrite app_nil_r in Ej; destruct Pc; congruence|]. destruct a; [|discriminate]. destruct (Forall_inv Fl); congruence. }
    rewrite Sk. cbn [hd] in *. replace (x =? 47) with false by (symmetry; apply N.eqb_neq; exact Hh). replace (x =? 35) with false by (symmetry; apply N.eqb_neq; exact H35). cbn [negb andb].
    rewrite <- Ej. destruct l as [|a l0].
    - cbn [join app map concat]. rewrite app_nil_r. rewrite last_slash_none by apply Pc. exists w, p. split; [reflexivity|]. split; [apply extends_refl|]. split; [eauto|]. split; [reflexivity|].
      cbn in Hn. unfold step in Hn. destruct Pc as (_ & _ & Q1 & Q2). rewrite !beq_neq in Hn by assumption. destruct (child w p c); [discriminate|reflexivity].
    - rewrite join_snoc by discriminate. cbn [app]. rewrite last_slash_app by apply Pc. rewrite ref_other by exact (join_hd _ Fl).
      destruct (search_force d (S (List.length (join (a :: l0)))) w depth p (join (a :: l0)) P Hp ltac:(lia)) as (w1 & r & E & X & P1 & F & Sm & Nn & Nw). rewrite E. cbn [bind].
      rewrite parts_join in * by exact Fl.
      assert (Hr : r <> None). { apply Nn. intros Hi. rewrite Forall_forall in Fl. destruct (Fl _ Hi) as (_ & _ & _ & Z). congruence. }
      destruct r as [q|]; [|congruence]. exists w1, q. split; [reflexivity|]. split; [exact X|]. split; [exact P1|]. split; [exact F|].
      destruct (follow w p (a :: l0)) as [q0|] eqn:E0.
      + rewrite (Sm q0 eq_refl) in *. rewrite E0 in F. injection F as ->.
        assert (Ap : forall o m n, follow w o (m ++ n) = match follow w o m with Some o' => follow w o' n | None => None end).
        { clear. intros o m n. revert o. induction m as [|e m IH]; intros o; cbn; [reflexivity|]. destruct (step w o e); auto. }
        rewrite Ap, E0 in Hn. cbn in Hn. unfold step in Hn. destruct Pc as (_ & _ & Q1 & Q2). rewrite !beq_neq in Hn by assumption. destruct (child w q c); [discriminate|reflexivity].
      + destruct (Nw Fl eq_refl) as (q1 & [= <-] & K). unfold child. rewrite K. reflexivity. }
  destruct Mid as (w1 & q & Em & X1 & (dp & P1) & F1 & C1). unfold create. rewrite Em. cbn [bind].
  assert (Lq : q < w_next w1) by (apply (follow_live w1 dp l P1 p q); [destruct X1; lia|exact F1]).
  destruct (new_object w1 (Some q) c) as (w', o) eqn:En. destruct (new_proper w1 dp (Some q) c w' o P1 Lq En) as (X2 & P2 & Eo & Ko & No & Uo & Lo & Kq).
  assert (Cc : child w' q c = Some o).
  { unfold child in *. rewrite Kq. assert (H : forall m, (forall z, In z m -> In z (w_kids w1 q)) -> find (fun k => bytes_eqb (w_name w1 k) c) m = None -> find (fun k => bytes_eqb (w_name w' k) c) (m ++ [o]) = Some o).
    { induction m as [|z m IHm]; cbn; [intros _ _; rewrite No, beq_refl; reflexivity|]. intros Hm. destruct X2 as (_ & _ & X2). rewrite (proj1 (X2 z (kid_live _ _ q _ P1 (Hm z (or_introl eq_refl))))).
      destruct (bytes_eqb (w_name w1 z) c); [discriminate|]. apply IHm. auto. }
    apply H; [auto|exact C1]. }
  assert (Wl : way w' p l q).
  { assert (F2 : follow w' p l = Some q) by (apply (follow_extends w1 w' dp l P1 X2); [destruct X1; lia|exact F1]). clear - F2 Fl. revert p F2. induction Fl as [|a l Pa Fl IH]; intros p F2; cbn in F2; [injection F2 as ->; constructor|].
    unfold step in F2. pose proof Pa as (_ & _ & Q1 & Q2). rewrite !beq_neq in F2 by assumption. destruct (child w' p a) as [k|] eqn:Ek; [|discriminate]. econstructor; eauto. }
  pose proof (way_snoc _ _ _ _ _ _ Wl Cc Pc) as Wa. exists w', o. split; [reflexivity|]. split; [exact (extends_trans _ _ _ X1 X2)|]. split; [destruct X1; lia|]. split; [exact P2|]. split; [exact No|]. split; [exact Wa|].
  rewrite ref_other by exact Hh. rewrite search_follow by lia. rewrite parts_join by exact Fa. rewrite (way_follow _ _ _ _ Wa). reflexivity.
Qed.
Print Assumptions C77_create_partial.

(* A manager 1 with children "M" (2, with "Out" 4) and "N" (3). *)
Definition b (s : string) : bytes := map N_of_ascii (list_ascii_of_string s).
Definition small : world := mkW (fun o => match o with 1 => [2; 3] | 2 => [4] | _ => [] end)
  (fun o => match o with 1 => b "Manager" | 2 => b "M" | 3 => b "N" | 4 => b "Out" | _ => [] end)
  (fun o => match o with 2 | 3 => Some 1 | 4 => Some 2 | _ => None end) 5.
Definition small_depth (o : N) : nat := match o with 2 | 3 => 1 | 4 => 2 | _ => 0 end.
Lemma small_proper : proper small small_depth.
Proof.
  split.
  - intros o c H. cbn in H. destruct o as [|[[p|p|]|[p|p|]|]]; cbn in H; try contradiction; repeat destruct H as [<-|H]; try reflexivity; destruct H.
  - intros o c H. cbn in H. destruct c as [|[[p|p|]|[[p|p|]|[p|p|]|]|]]; try discriminate; injection H as <-; cbn; repeat split; auto; lia.
Qed.
Example C77_case : proper small small_depth /\
  find_child_ref 9 small 1 (b "M/Out") false = Ok (small, Some 4) /\ find_child_ref 9 small 4 (b "//M/..//./N/") false = Ok (small, Some 3) /\
  find_child_ref 9 small 4 (b "/M/../N") false = Ok (small, Some 3) /\ find_child_ref 9 small 4 (b "../..") false = Ok (small, Some 1) /\
  find_child_ref 9 small 1 (b "M/In") false = Ok (small, None) /\
  (exists w, find_child_ref 9 small 1 (b "M/In/x") true = Ok (w, Some 6) /\ w_kids w 2 = [4; 5] /\ w_kids w 5 = [6] /\ w_name w 5 = b "In").
Proof.
  split; [exact small_proper|]. repeat (split; [reflexivity|]). eexists. split; [reflexivity|]. repeat split.
Qed.
Example C77_case_item : way small 1 [b "M"; b "Out"] 4 /\ item_name 9 small (Some 1) 4 true = Ok (b "M/Out") /\ item_name 9 small (Some 1) 4 false = Ok (b "/M/Out").
Proof.
  split; [|split; reflexivity]. repeat (econstructor; [reflexivity|repeat split; [discriminate|cbn; intuition discriminate|discriminate|discriminate]|]). constructor.
Qed.
Example C77_case_create : follow small 1 [b "A"; b "B"; b "C"] = None /\ join [b "A"; b "B"; b "C"] = b "A/B/C" /\
  exists w, create 9 small (Some 1) (Some 1) (b "A/B/C") true = Ok (w, 7) /\ item_name 9 w (Some 1) 7 true = Ok (b "A/B/C") /\ find_child_ref 9 w 1 (b "A/B/C") false = Ok (w, Some 7).
Proof. split; [reflexivity|]. split; [reflexivity|]. eexists. split; [reflexivity|]. split; reflexivity. Qed.

(* Nothing keeps two children from having the same name: the second one is not found by its name. *)
Theorem C77_twice_refuted : exists w depth m name w1 o1 w2 o2, proper w depth /\ w_up w m = None /\ plain name /\
  create 9 w (Some m) (Some m) name true = Ok (w1, o1) /\ create 9 w1 (Some m) (Some m) name true = Ok (w2, o2) /\ o1 <> o2 /\
  item_name 9 w2 (Some m) o2 true = Ok name /\ find_child_ref 9 w2 m name false = Ok (w2, Some o1).
Proof.
  exists small, small_depth, 1, (b "A"). eexists _, 5, _, 6. split; [exact small_proper|]. split; [reflexivity|].
  split; [repeat split; [discriminate|cbn; intuition discriminate|discriminate|discriminate]|]. repeat (split; [reflexivity|]). split; [discriminate|]. split; reflexivity.
Qed.
Print Assumptions C77_twice_refuted.
(* A full name which ends with a slash gives an object without name, which no path leads to. *)
Theorem C77_slash_refuted : exists w depth m name w1 o1 s o2, proper w depth /\ w_up w m = None /\
  create 9 w (Some m) (Some m) name true = Ok (w1, o1) /\ item_name 9 w1 (Some m) o1 true = Ok s /\ find_child_ref 9 w1 m s false = Ok (w1, Some o2) /\ o1 <> o2.
Proof.
  exists small, small_depth, 1, (b "A/"). eexists _, 6, _, 5. split; [exact small_proper|]. split; [reflexivity|]. split; [reflexivity|]. split; [reflexivity|]. split; [reflexivity|discriminate].
Qed.
Print Assumptions C77_slash_refuted.
(* In a tree without manager the item name of an object contains the name of the top object: it
   does not lead to the object. *)
Theorem C77_full_name_refuted : exists w depth o l s, proper w depth /\ way w 1 l o /\ w_up w 1 = None /\ l <> [] /\
  item_name 9 w None o true = Ok s /\ find_child_ref 9 w 1 s false = Ok (w, None).
Proof.
  exists small, small_depth, 4, [b "M"; b "Out"]. eexists. split; [exact small_proper|]. split; [exact (proj1 C77_case_item)|].
  split; [reflexivity|]. split; [discriminate|]. split; reflexivity.
Qed.
Print Assumptions C77_full_name_refuted.
