(* Proofs about the update of a whole hierarchy: content, reports, marks. *)
From Verif Require Import Common ListFacts Bytes RecordSpec RecordModel RecordMap RecordOut RecordIn RecordProofs HierSpec HierModel HierProofs HierInv HierStream HierSync HierProps HUpdSpec HUpdModel HUpdProofs.
Local Open Scope N_scope.

Inductive every (D : hdata -> Prop) : hnode -> Prop :=
| every_intro k d l : D d -> Forall (every D) l -> every D (HN k d l).
Lemma every_inv D k d l : every D (HN k d l) -> D d /\ Forall (every D) l.
Proof. intros H. inversion H; subst. auto. Qed.
Lemma every_impl (D E : hdata -> Prop) n : (forall d, D d -> E d) -> every D n -> every E n.
Proof.
  intros H. induction n as [k d l IH] using hnode_ind2. intros X. apply every_inv in X. destruct X as (X1 & X2).
  constructor; auto. rewrite Forall_forall in *. auto.
Qed.

Definition sok (d : hdata) : Prop := msorted (d_map d) /\ fvals exact (d_map d).

Definition d_upd (sd td : hdata) : hdata :=
  let d1 := move_from (d_map sd) (with_flags td false (d_mc td) false) in
  if was_changed d1 then with_flags d1 true (d_mc d1) (d_cc d1) else d1.
Lemma upd_eq sk sd sl tk td tl : upd (HN sk sd sl) (HN tk td tl) =
  let '(sl', tl', w) := upd_kids sl tl in
  let d2 := d_upd sd td in
  let d3 := if w_list w then childs_changed d2 else d2 in
  let d4 := if w_sub w then with_flags d3 (d_nc d3) (d_mc d3) true else d3 in
  (HN sk (if w_taken w then childs_changed sd else sd) sl', HN tk d4 tl', d_cc d4 || d_nc d4).
Proof. reflexivity. Qed.
Lemma upd_kids_nil tl : upd_kids [] tl = ([], [], mkDid false (some tl) false).
Proof. reflexivity. Qed.
Lemma upd_kids_cons c r tl : upd_kids (c :: r) tl =
  match find_kid (nm c) tl with
  | None => let '(r', t', w) := upd_kids r tl in (r', set_modified true true c :: t', mkDid true true (w_sub w))
  | Some (a, x, b) =>
    let '(c', x', ch) := upd c x in
    let '(r', t', w) := upd_kids r b in
    (c' :: r', x' :: t', mkDid (w_taken w) (some a || w_list w) (ch || w_sub w))
  end.
Proof. reflexivity. Qed.

Lemma d_upd_map sd td : d_map (d_upd sd td) = d_map (move_from (d_map sd) (with_flags td false (d_mc td) false)).
Proof. unfold d_upd. destruct (was_changed _); reflexivity. Qed.
Lemma d_upd_ok sd td : sok sd -> sok td -> vals (d_map (d_upd sd td)) = vals (d_map sd) /\ sok (d_upd sd td).
Proof.
  intros (S1 & E1) (S2 & E2). unfold sok. rewrite d_upd_map. pose proof (move_vals (d_map sd) (with_flags td false (d_mc td) false) S1 S2 E1 E2) as V.
  split; [exact V|]. split; [apply move_sorted; auto|]. unfold fvals in *.
  assert (G : forall m, Forall (fun e : bytes * field => exact (f_val (snd e))) m <-> Forall (fun e => exact (snd e)) (vals m)).
  { intros m. unfold vals. rewrite Forall_map. reflexivity. }
  apply G. rewrite V. apply G. auto.
Qed.

Lemma find_kid_in k tl a x b : find_kid k tl = Some (a, x, b) -> tl = a ++ x :: b /\ nm x = k.
Proof. pose proof (find_kid_split k tl) as F. intros E. rewrite E in F. destruct F as (F1 & F2 & _). auto. Qed.
Lemma forall_mid {A} (Q : A -> Prop) a x b : Forall Q (a ++ x :: b) -> Q x /\ Forall Q b.
Proof. intros F. apply Forall_app in F. destruct F as (_ & F). inversion F; auto. Qed.

Lemma set_modified_ok (D : hdata -> Prop) a b n : (forall d, D d -> D (with_flags d (d_nc d || a) (d_mc d) (d_cc d || b))) ->
  whole (set_modified a b n) = whole n /\ nm (set_modified a b n) = nm n /\ (every D n -> every D (set_modified a b n)).
Proof.
  intros H. induction n as [k d l IH] using hnode_ind2. cbn [set_modified whole nm]. split; [|split; auto].
  - f_equal. rewrite map_map. apply map_ext_in. intros c Hc. rewrite Forall_forall in IH. destruct (IH c Hc) as (-> & -> & _). auto.
  - intros E. apply every_inv in E. destruct E as (E1 & E2). constructor; auto. rewrite Forall_map. rewrite Forall_forall in *.
    intros c Hc. apply IH; auto.
Qed.

Lemma upd_whole s : forall t, every sok s -> every sok t ->
  whole (updated s t) = whole s /\ nm (updated s t) = nm t /\ every sok (updated s t).
Proof.
  induction s as [sk sd sl IH] using hnode_ind2. intros [tk td tl] ES ET. apply every_inv in ES, ET.
  destruct ES as (S1 & S2), ET as (T1 & T2). unfold updated. rewrite upd_eq.
  assert (K : forall tl, Forall (every sok) tl -> forall sl' tl' w, upd_kids sl tl = (sl', tl', w) ->
     map (fun c => (nm c, whole c)) tl' = map (fun c => (nm c, whole c)) sl /\ Forall (every sok) tl').
  { clear - IH S2. induction sl as [|c r IHr]; intros tl T2 sl' tl' w E.
    - rewrite upd_kids_nil in E. injection E as <- <- <-. auto.
    - inversion IH as [|? ? I1 I2]; inversion S2 as [|? ? Q1 Q2]; subst. rewrite upd_kids_cons in E.
      destruct (find_kid (nm c) tl) as [((a, x), b)|] eqn:EF.
      + apply find_kid_in in EF. destruct EF as (-> & EN). apply forall_mid in T2. destruct T2 as (X1 & X2).
        specialize (I1 x Q1 X1). unfold updated in I1. destruct (upd c x) as ((c', x'), ch). cbn [fst snd] in I1.
        destruct (upd_kids r b) as ((r', t'), w') eqn:EK. injection E as <- <- <-.
        destruct (IHr I2 Q2 b X2 _ _ _ EK) as (J1 & J2). destruct I1 as (I1 & I3 & I4). split; auto. cbn [map]. congruence.
      + destruct (upd_kids r tl) as ((r', t'), w') eqn:EK. injection E as <- <- <-.
        destruct (IHr I2 Q2 tl T2 _ _ _ EK) as (J1 & J2).
        destruct (set_modified_ok sok true true c) as (M1 & M2 & M3); [auto|]. split; auto. cbn [map]. congruence. }
  destruct (upd_kids sl tl) as ((sl', tl'), w) eqn:EK. destruct (K tl T2 _ _ _ EK) as (K1 & K2). cbn [fst snd nm].
  destruct (d_upd_ok sd td S1 T1) as (D1 & D2). split; [|split; [reflexivity|]].
  - cbn [whole]. rewrite K1. f_equal. rewrite <- D1. destruct (w_sub w), (w_list w); reflexivity.
  - constructor; auto. destruct (w_sub w), (w_list w); exact D2.
Qed.

(* nothing reported *)
Lemma d_upd_quiet sd td : sok sd -> msorted (d_map td) -> d_nc (d_upd sd td) = false ->
  vals (d_map (d_upd sd td)) = vals (d_map td) /\ (quiet td -> d_upd sd td = td).
Proof.
  intros (S1 & E1) S2 H. unfold d_upd in *. destruct (was_changed (move_from (d_map sd) (with_flags td false (d_mc td) false))) eqn:W; [discriminate|].
  rewrite (move_quiet (d_map sd) (with_flags td false (d_mc td) false) S1 S2 E1 W). split; [reflexivity|].
  intros (Q1 & Q2 & Q3 & Q4). destruct td; cbn in *. subst. reflexivity.
Qed.
Lemma d_upd_flags sd td : d_cc (d_upd sd td) = false /\ d_mc (d_upd sd td) = d_mc td.
Proof.
  assert (G : forall src d, d_cc (move_from src d) = d_cc d /\ d_mc (move_from src d) = d_mc d).
  { intros src d. unfold move_from.
    assert (A : forall l d, d_cc (fold_left remove_field l d) = d_cc d /\ d_mc (fold_left remove_field l d) = d_mc d).
    { induction l as [|k l IH]; intros d1; auto. cbn [fold_left]. rewrite (proj1 (IH _)), (proj2 (IH _)). unfold remove_field. destruct (has k (d_map d1)); auto. }
    assert (B : forall (l : fmap field) d, d_cc (fold_left (fun d e => set_field d (fst e) (f_val (snd e))) l d) = d_cc d /\ d_mc (fold_left (fun d e => set_field d (fst e) (f_val (snd e))) l d) = d_mc d).
    { induction l as [|e l IH]; intros d1; auto. cbn [fold_left]. rewrite (proj1 (IH _)), (proj2 (IH _)). auto. }
    rewrite (proj1 (B _ _)), (proj2 (B _ _)). apply A. }
  unfold d_upd. destruct (was_changed _); cbn [with_flags d_cc d_mc]; rewrite (proj1 (G _ _)), (proj2 (G _ _)); auto.
Qed.

Lemma upd_quiet s : forall t, every sok s -> every sok t -> reported s t = false ->
  whole (updated s t) = whole t /\ (clean t -> upd s t = (s, t, false)).
Proof.
  induction s as [sk sd sl IH] using hnode_ind2. intros [tk td tl] ES ET. apply every_inv in ES, ET.
  destruct ES as (S1 & S2), ET as (T1 & T2). unfold updated, reported. rewrite upd_eq.
  assert (K : forall tl, Forall (every sok) tl -> forall sl' tl' w, upd_kids sl tl = (sl', tl', w) ->
     w_list w = false -> w_sub w = false -> map (fun c => (nm c, whole c)) tl' = map (fun c => (nm c, whole c)) tl /\
     (Forall clean tl -> upd_kids sl tl = (sl, tl, mkDid false false false))).
  { clear - IH S2. induction sl as [|c r IHr]; intros tl T2 sl' tl' w E W1 W2.
    - rewrite upd_kids_nil in E. injection E as <- <- <-. cbn [w_list] in W1. destruct tl; [auto|discriminate].
    - inversion IH as [|? ? I1 I2]; inversion S2 as [|? ? Q1 Q2]; subst. rewrite upd_kids_cons in *.
      destruct (find_kid (nm c) tl) as [((a, x), b)|] eqn:EF.
      + apply find_kid_in in EF. destruct EF as (-> & EN). pose proof (forall_mid _ _ _ _ T2) as (X1 & X2).
        specialize (I1 x Q1 X1). destruct (upd_whole c x Q1 X1) as (_ & NX & _). unfold updated, reported in *. destruct (upd c x) as ((c', x'), ch). cbn [fst snd] in *.
        destruct (upd_kids r b) as ((r', t'), w') eqn:EK. injection E as <- <- <-. cbn [w_list w_sub] in W1, W2.
        apply orb_false_iff in W1, W2. destruct W1 as (W1 & W3), W2 as (W2 & W4). subst ch.
        destruct a; [|discriminate]. destruct (IHr I2 Q2 b X2 _ _ _ EK W3 W4) as (J1 & J2). destruct (I1 eq_refl) as (A1 & A2).
        cbn [app map]. split; [congruence|]. intros CL. inversion CL as [|? ? C1 C2]; subst. injection (A2 C1) as -> ->.
        specialize (J2 C2). rewrite EK in J2. injection J2 as -> -> ->. reflexivity.
      + destruct (upd_kids r tl) as ((r', t'), w') eqn:EK. injection E as <- <- <-. discriminate. }
  destruct (upd_kids sl tl) as ((sl', tl'), w) eqn:EK. cbn [fst snd]. intros RP.
  assert (W2 : w_sub w = false). { destruct (w_sub w); [discriminate|auto]. } rewrite W2 in *.
  assert (W1 : w_list w = false). { destruct (w_list w); [discriminate|auto]. } rewrite W1 in *.
  apply orb_false_iff in RP. destruct RP as (R1 & R2).
  destruct (K tl T2 _ _ _ EK W1 W2) as (K1 & K2). destruct (d_upd_quiet sd td S1 (proj1 T1) R2) as (D1 & D2).
  cbn [whole]. split; [congruence|]. intros CL. inversion CL as [? ? ? C1 C2]; subst. specialize (K2 C2). rewrite EK in K2. injection K2 as -> -> ->.
  cbn [w_taken]. rewrite (D2 C1). destruct C1 as (Q1 & Q2 & Q3 & Q4). rewrite Q1, Q3. reflexivity.
Qed.

(* the same content again *)
Lemma upd_same s : forall t, every sok s -> every (fun d => fvals compared (d_map d)) s -> every sok t -> clean t ->
  whole s = whole t -> upd s t = (s, t, false).
Proof.
  induction s as [sk sd sl IH] using hnode_ind2. intros [tk td tl] ES EC ET CL EW. apply every_inv in ES, EC, ET. inversion CL as [? ? ? C1 C2]; subst.
  destruct ES as (S1 & S2), EC as (E1 & E2), ET as (T1 & T2). cbn [whole] in EW. injection EW as EV EK. rewrite upd_eq.
  assert (K : upd_kids sl tl = (sl, tl, mkDid false false false)).
  { clear - IH S2 E2 T2 C2 EK. revert tl T2 C2 EK. induction sl as [|c r IHr]; intros [|x tl] T2 C2 EK; try discriminate; [reflexivity|].
    inversion IH; inversion S2; inversion E2; inversion T2; inversion C2; subst. cbn [map] in EK. injection EK as EN EX EK.
    rewrite upd_kids_cons. cbn [find_kid]. rewrite EN, beqb_refl. rewrite (H1 x) by auto. rewrite IHr by auto. reflexivity. }
  rewrite K. cbn [w_list w_sub w_taken]. destruct C1 as (Q1 & Q2 & Q3 & Q4).
  assert (D : d_upd sd td = td).
  { assert (with_flags td false (d_mc td) false = td) as FL by (clear - Q1 Q2 Q3; destruct td; cbn in *; subst; reflexivity).
    unfold d_upd. rewrite FL. rewrite move_same; auto.
    - rewrite Q4. auto.
    - apply S1.
    - apply T1.
    - destruct S1 as (_ & S1). unfold fvals in *. rewrite Forall_forall in *. auto. }
  rewrite D, Q1, Q3. reflexivity.
Qed.
