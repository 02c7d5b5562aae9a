(* Reading the difference to an earlier state makes the copy equal to the master. *)
From Verif Require Import Common ListFacts Bytes RecordSpec RecordModel RecordMap RecordOut RecordIn RecordProps HierSpec HierModel HierProofs HierInv HierStream.
Local Open Scope N_scope.

(* names of sub-items differ *)
Inductive tnodup : tree -> Prop :=
| tnodup_intro f l : NoDup (map fst l) -> Forall (fun e => tnodup (snd e)) l -> tnodup (T f l).

Lemma view_nodup b P n : wfn b n -> tnodup (view P n).
Proof.
  induction n as [k d l IH] using hnode_ind2. intros W. destruct (wfn_inv _ _ _ _ W) as (H1 & H2 & H3 & H4 & H5 & H6 & H7 & H8).
  cbn [view]. constructor; [rewrite map_map; exact H6|]. rewrite Forall_forall in *. intros e He. apply in_map_iff in He.
  destruct He as (c & <- & Hc). cbn [snd]. auto.
Qed.

Lemma wfn_weak b n : wfn b n -> wfn false n.
Proof.
  induction n as [k d l IH] using hnode_ind2. intros W. destruct (wfn_inv _ _ _ _ W) as (H1 & H2 & H3 & H4 & H5 & H6 & H7 & H8).
  constructor; auto.
  - intros X. discriminate.
  - eapply Forall_impl; [|exact H7]. intros c (A & _). split; auto. discriminate.
  - rewrite Forall_forall in *. auto.
Qed.

Lemma subseq_after {A} (x : A) K B : forall l, NoDup (l ++ x :: B) -> subseq (x :: K) (l ++ x :: B) -> subseq K B.
Proof.
  induction l as [|y l IH]; cbn [app]; intros ND H; inversion ND as [|? ? NI ND2]; subst; inversion H as [|? ? ? S1|? ? ? S1]; subst; auto.
  - exfalso. apply NI. eapply subseq_in; [exact S1|left; auto].
  - exfalso. apply NI. apply in_or_app. right. left. auto.
Qed.

Section Sync.
Variable kd : skind.
Variable V v : N.
Definition by_names : bool := match kd with SFull => false | SNames => true end.
Notation P := (carried kd).
Notation vw := (view (carried kd)).

Lemma carried_under : by_names = true -> forall k, P k = prefixb under k.
Proof.
  unfold by_names. destruct kd; [discriminate|]. intros _ k. destruct k as [|c k]; auto. cbn [carried named prefixb under].
  rewrite (N.eqb_sym 95 c). destruct (c =? 95); reflexivity.
Qed.

Lemma stored_fields d : store_fields kd V d = (V <=? fver by_names d).
Proof. unfold fver, by_names. destruct kd; reflexivity. Qed.
Lemma stored_childs d : store_childs kd V d = (V <=? cver by_names d).
Proof. unfold cver, by_names. destruct kd; reflexivity. Qed.

Lemma memb_true k l : In k l -> memb k l = true.
Proof. intros H. destruct (memb_spec k l); auto. Qed.
Lemma memb_false k l : ~ In k l -> memb k l = false.
Proof. intros H. destruct (memb_spec k l); tauto. Qed.

Lemma rel_of_Inv n : V <= v + 1 -> forall oo c, wfn by_names n -> clean n -> Inv by_names P v oo n ->
  (forall t, oo = Some t -> tnodup t) -> vw c = T (of oo) (ok oo) -> rel kd V n c.
Proof.
  intros LV. induction n as [k d l IH] using hnode_ind2. intros oo c W C I0 TN VC. cbn [rel]. fold (rel_kids kd V).
  inversion C as [k0 d0 l0 Q CL]; subst. destruct (wfn_inv _ _ _ _ W) as (H1 & H2 & H3 & H4 & H5 & H6 & H7 & H8).
  destruct c as [ck cd cl]. cbn [view] in VC. injection VC as VF VK. cbn [dat kids].
  split.
  - rewrite stored_fields. intros L. apply N.leb_gt in L. rewrite VF. eapply quiet_fields; eauto using carried_under. lia.
  - rewrite stored_childs. destruct (N.leb_spec V (cver by_names d)) as [L|L].
    + destruct (Inv_inv _ _ _ _ _ _ _ I0) as (J1 & J2 & J3 & J4).
      assert (ND : NoDup (map fst (ok oo))).
      { destruct oo as [t|]; [|constructor]. specialize (TN t eq_refl). inversion TN; subst. auto. }
      assert (TK : forall k t, tfind k (ok oo) = Some t -> tnodup t).
      { intros k1 t1 E. apply tfind_some in E. destruct oo as [t|]; [|destruct E]. specialize (TN t eq_refl). inversion TN; subst.
        rewrite Forall_forall in *. apply (H0 (k1, t1) E). }
      assert (CK : forall y, In y cl -> tfind (nm y) (ok oo) = Some (vw y)).
      { intros y Hy. rewrite <- VK. rewrite <- VK in ND. apply tfind_in; auto. apply in_map_iff. exists y. auto. }
      assert (CN : map nm cl = map fst (ok oo)) by (rewrite <- VK, map_map; reflexivity).
      assert (ND2 : NoDup (map nm cl)) by (rewrite CN; auto). 
      assert (J5 : subseq (filter (fun x => memb x (map fst (ok oo))) (map nm l)) (map nm cl)) by (rewrite CN; exact J3). clear J3.
      generalize dependent (ok oo). intros o VK J2 J4 ND TK CK CN J5.
      assert (G : forall old, incl old cl -> NoDup (map nm old) ->
         subseq (filter (fun x => memb x (map fst o)) (map nm l)) (map nm old) -> rel_kids kd V l old).
      { clear - IH CL H8 J4 TK CK CN. induction l as [|x l IHl]; intros old IN NDO SS; [exact I|].
        inversion IH as [|? ? I1 I2]; inversion CL as [|? ? C1 C2]; inversion H8 as [|? ? W1 W2]; inversion J4 as [|? ? K1 K2]; subst.
        cbn [rel_kids]. fold (rel_kids kd V). cbn [map filter] in SS. pose proof (find_kid_split (nm x) old) as FK.
        destruct (find_kid (nm x) old) as [((a, y), b)|].
        - destruct FK as (-> & EN & _). assert (Hy : In y cl) by (apply IN; apply in_or_app; right; left; auto).
          pose proof (CK y Hy) as TY. rewrite EN in TY. rewrite memb_true in SS.
          2:{ rewrite <- CN. rewrite <- EN. apply in_map. auto. }
          split.
          + apply (I1 (tfind (nm x) o)); auto.
            * intros t Et. eauto.
            * rewrite TY. cbn [of ok]. destruct (vw y). reflexivity.
          + rewrite map_app in *. cbn [map] in *. rewrite EN in *. apply IHl; auto.
            * intros z Hz. apply IN. apply in_or_app. right. right. auto.
            * apply NoDup_remove_1 in NDO. clear - NDO. induction (map nm a) as [|z r IHr]; auto. apply IHr. inversion NDO; auto.
            * eapply subseq_after; eauto.
        - assert (NI : ~ In (nm x) (map fst o)).
          { intros X. rewrite memb_true in SS by auto. apply FK. eapply subseq_in; [exact SS|left; auto]. }
          rewrite memb_false in SS by auto. split; [|apply IHl; auto].
          apply (I1 (tfind (nm x) o)); auto.
          + intros t Et. eauto.
          + rewrite tfind_none by auto. reflexivity. }
      apply G; auto. apply incl_refl.
    + rewrite VK. eapply (quiet_kids by_names P carried_under v (HN k d l)); eauto. cbn [dat]. lia.
Qed.

Lemma rel_zero n : V = 0 -> forall c, rel kd V n c.
Proof.
  intros V0. induction n as [k d l IH] using hnode_ind2. intros c. cbn [rel]. fold (rel_kids kd V). rewrite stored_fields, stored_childs.
  destruct (N.leb_spec V (fver by_names d)); [|lia]. destruct (N.leb_spec V (cver by_names d)); [|lia]. split; [discriminate|].
  generalize (kids c). induction IH as [|x l I1 I2 IHl]; intros old; [exact I|]. cbn [rel_kids]. fold (rel_kids kd V).
  destruct (find_kid (nm x) old) as [((a, y), b)|]; auto.
Qed.

Lemma entries_len m : Forall (fun e => proper (snd e)) m ->
  lenN (entries_bytes m) <= sumN (map (fun e => lenN (fst e) + content_len (snd e) + 44) m).
Proof.
  induction 1 as [|e m H F IH]; [reflexivity|]. unfold entries_bytes in *. cbn [map concat]. rewrite sumN_cons, lenN_app.
  unfold entry_bytes at 1. rewrite lenN_app, lenN_str_bytes, lenN_field_bytes. pose proof (flen_content _ H).
  unfold str_storesize. pose proof (round8_ok (4 + (lenN (fst e) + 1))). unfold bytes in *. lia.
Qed.

Lemma hlen_bound n : sendable (vw n) -> hlen kd V n <= tree_len (vw n).
Proof.
  induction n as [k d l IH] using hnode_ind2. intros SD. cbn [hlen view tree_len] in *. inversion SD as [f0 l0 SD1 SD2 SD3 SD4 SD5]; subst.
  assert (M : mlen (prefix_of kd) (vals (d_map d)) <= 8 + sumN (map (fun e => lenN (fst e) + content_len (snd e) + 44) (sel P (d_map d)))).
  { unfold mlen. rewrite selected_sel. assert (F : Forall (fun e => proper (snd e)) (sel P (d_map d))) by (eapply Forall_impl; [|exact SD1]; intros e (_ & X & _); auto).
    pose proof (entries_len _ F). lia. }
  assert (K : sumN (map (fun c => str_storesize (nm c) + hlen kd V c) l) <= sumN (map (fun e => lenN (fst e) + 12 + tree_len (snd e)) (map (fun c => (nm c, vw c)) l))).
  { clear - IH SD5. induction l as [|c l IHl]; [reflexivity|]. cbn [map] in *. rewrite !sumN_cons. inversion IH as [|? ? I1 I2]; inversion SD5 as [|? ? D1 D2]; subst.
    specialize (IHl I2 D2). cbn [fst snd] in *. specialize (I1 D1). unfold str_storesize in *. pose proof (round8_ok (4 + (lenN (nm c) + 1))). lia. }
  destruct (store_fields kd V d), (store_childs kd V d); lia.
Qed.

(* a mark of a plain copy leaves what it shows *)
Lemma mark_plain ver now n : forall tm n' m tm', plain n -> mark_tree ver now None tm n = (n', m, tm') ->
  plain n' /\ vw n' = vw n /\ nm n' = nm n.
Proof.
  induction n as [k d l IH] using hnode_ind2. intros tm n' m tm' PL E. rewrite mark_tree_eq in E.
  destruct (plain_inv _ _ _ PL) as (P1 & P2 & P3 & P4).
  assert (inherit d None = None) as EI by (unfold inherit; rewrite P2; reflexivity). rewrite EI in E.
  destruct (mark_kids ver now None tm l) as ((l', mk), tm1) eqn:EK.
  destruct (mark_own ver now None mk tm1 d) as ((d', m'), tm2) eqn:EO. injection E as <- <- <-.
  assert (K : Forall plain l' /\ map (fun c => (nm c, vw c)) l' = map (fun c => (nm c, vw c)) l).
  { clear - IH P4 EK. revert tm l' mk tm1 EK. induction l as [|c l IHl]; intros tm l' mk tm1 EK; cbn [mark_kids] in EK.
    - injection EK as <- <- <-. split; auto.
    - inversion IH as [|? ? I1 I2]; inversion P4 as [|? ? Q1 Q2]; subst.
      destruct (mark_tree ver now None tm c) as ((c', mc), t1) eqn:E1.
      destruct (mark_kids ver now None t1 l) as ((r', mr), t2) eqn:E2. injection EK as <- <- <-.
      destruct (I1 _ _ _ _ Q1 E1) as (A1 & A2 & A3). destruct (IHl I2 Q2 _ _ _ _ E2) as (B1 & B2). split; auto. cbn [map]. congruence. }
  destruct K as (K1 & K2). cbn [view nm].
  assert (D : d_auto d' = false /\ d_hist d' = None /\ msorted (d_map d') /\ sel P (d_map d') = sel P (d_map d)).
  { unfold mark_own in EO. fold (NC d mk) in EO. destruct (NC d mk).
    - cbn [d_auto] in EO. rewrite P1 in EO. unfold check_history in EO. cbn [d_hist] in EO. rewrite P2 in EO. cbn [andb] in EO.
      injection EO as <- <- <-. cbn [with_flags with_map d_auto d_hist d_map]. split; [auto|]. split; [auto|].
      split; [apply (map_keys (fun e => mkF (f_val (snd e)) false)); auto|apply sel_clear].
    - injection EO as <- <- <-. cbn [with_flags d_auto d_hist d_map]. auto. }
  destruct D as (D1 & D2 & D3 & D4). split; [constructor; auto|]. rewrite D4, K2. auto.
Qed.

Lemma mark_plain_top now c : plain c -> plain (mark_changed now 0 [] c) /\ vw (mark_changed now 0 [] c) = vw c.
Proof.
  intros PL. unfold mark_changed. cbn [mark_at]. destruct (mark_tree (next_version c) now None 0 c) as ((n', m), tm') eqn:E.
  destruct (mark_plain _ _ _ _ _ _ _ PL E) as (A & B & _). auto.
Qed.

Lemma update_ok n c now tail : rel kd V n c -> plain c -> wfn by_names n -> sendable (vw n) -> tree_len (vw n) < 2^32 ->
  exists c', save_hier kd V n = Some (hbytes kd V n) /\ update_from tail (hbytes kd V n) now c = Some (Done (c', true)) /\
    vw c' = vw n /\ plain c'.
Proof.
  intros RL PL W SD TL. pose proof (hlen_bound n SD) as HB. assert (L : hlen kd V n < 2^32) by lia. clear HB.
  destruct (hier_in_ok kd V tail n c (S (S (length (hbytes kd V n)))) 0 [] RL PL (wfn_weak _ _ W) SD L ltac:(reflexivity) ltac:(lia)) as (c' & E & VW & _ & PL').
  rewrite app_nil_r in E. unfold update_from. rewrite E. exists (mark_changed now 0 [] c').
  destruct (mark_plain_top now c' PL') as (A & B). split; [apply save_ok; auto|]. split; [reflexivity|]. split; [congruence|auto].
Qed.
End Sync.
