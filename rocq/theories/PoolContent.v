(* From the effect on containers to the bytes seen by the user. *)
From Verif Require Import Common ListFacts BufferSpec PoolSpec PoolInsert.

Section P.
Context {B : Type}.
Implicit Types v : view B.
Implicit Types t : tabs.

Definition tbuf t g := match nth g (fst t) None with Some c => nth c (snd t) None | None => None end.
Definition WF t := forall h c, nth h (fst t) None = Some c -> exists x, nth_error (snd t) c = Some (Some x).

Lemma nth_some {A} (l : list (option A)) g x : nth g l None = Some x <-> nth_error l g = Some (Some x).
Proof.
  split.
  - intros H. destruct (nth_error l g) as [y|] eqn:E.
    + apply nth_error_nth with (d := None) in E. congruence.
    + apply nth_error_None in E. rewrite nth_overflow in H by auto. discriminate.
  - intros H. apply nth_error_nth with (d := None) in H. auto.
Qed.
Lemma nth_upd {A} (l : list (option A)) i j x : nth j (upd l i x) None = if (j =? i) && (i <? length l) then x else nth j l None.
Proof.
  pose proof (nth_error_upd l i x j) as H. destruct (_ && _).
  - apply nth_error_nth with (d := None) in H. auto.
  - destruct (nth_error l j) as [y|] eqn:E.
    + apply nth_error_nth with (d := None) in E, H. congruence.
    + apply nth_error_None in E, H. rewrite !nth_overflow; auto.
Qed.
Lemma refers_nth hs c g : refers hs c = false -> nth g hs None <> Some c.
Proof.
  intros R H. apply nth_some in H. apply nth_error_In in H. unfold refers in R.
  rewrite <- Bool.not_true_iff_false in R. apply R. apply existsb_exists. exists (Some c). split; auto. apply Nat.eqb_refl.
Qed.

Lemma tb_release t h g : g <> h -> tbuf (t_release t h) g = tbuf t g.
Proof.
  intros N. unfold tbuf, t_release. destruct (nth h (fst t) None) as [c|] eqn:E; auto. cbv zeta.
  assert (G : nth g (upd (fst t) h None) None = nth g (fst t) None).
  { rewrite nth_upd. destruct (Nat.eqb_spec g h); [congruence|]. auto. }
  destruct (refers _ _) eqn:R; cbn [fst snd]; rewrite G; auto.
  destruct (nth g (fst t) None) as [c'|] eqn:E'; auto. pose proof (refers_nth _ _ g R) as X. rewrite G in X.
  rewrite nth_upd. destruct (Nat.eqb_spec c' c); [congruence|]. auto.
Qed.
Lemma rel_fst t h : fst (t_release t h) = upd (fst t) h None.
Proof.
  unfold t_release. destruct (nth h (fst t) None) as [c|] eqn:E; cbv zeta.
  - destruct (refers _ _); auto.
  - apply list_eq_nth_error. intros y. rewrite nth_error_upd. destruct (Nat.eqb_spec y h) as [->|]; cbn [andb]; auto.
    destruct (Nat.ltb_spec h (length (fst t))); auto. rewrite (nth_error_nth' _ None) by auto. rewrite E. auto.
Qed.
Lemma tb_release_same t h : tbuf (t_release t h) h = None.
Proof.
  unfold tbuf. rewrite rel_fst, nth_upd, Nat.eqb_refl. cbn [andb]. destruct (Nat.ltb_spec h (length (fst t))); auto. rewrite nth_overflow by auto. auto.
Qed.
Lemma rel_handle t h g : g <> h -> nth g (fst (t_release t h)) None = nth g (fst t) None.
Proof. intros N. rewrite rel_fst, nth_upd. destruct (Nat.eqb_spec g h); [congruence|]. auto. Qed.
Lemma tb_set t h k g : g <> h -> tbuf (t_set t h k) g = tbuf t g.
Proof.
  intros N. rewrite <- (tb_release t h g N). unfold tbuf, t_set. cbn [fst snd]. rewrite nth_upd. destruct (Nat.eqb_spec g h); [congruence|]. auto.
Qed.
Lemma tb_set_same t h h2 : h < length (fst t) -> h <> h2 -> tbuf (t_set t h (nth h2 (fst t) None)) h = tbuf t h2.
Proof.
  intros L N. rewrite <- (tb_release t h h2) by auto. unfold tbuf, t_set. cbn [fst snd].
  rewrite nth_upd, Nat.eqb_refl. cbn [andb]. rewrite rel_fst, upd_length. destruct (Nat.ltb_spec h (length (fst t))); [|lia].
  rewrite nth_upd. destruct (Nat.eqb_spec h2 h); [congruence|]. auto.
Qed.
Lemma tb_set_none t h : tbuf (t_set t h None) h = None.
Proof.
  unfold tbuf, t_set. cbn [fst snd]. rewrite nth_upd, Nat.eqb_refl. cbn [andb]. destruct (Nat.ltb_spec h (length (fst (t_release t h)))); auto. rewrite nth_overflow by auto. auto.
Qed.
Lemma tb_new t h x g : WF t -> g <> h -> tbuf (t_new t h x) g = tbuf t g.
Proof.
  intros W N. unfold t_new. rewrite tb_set by auto. unfold tbuf. cbn [fst snd]. destruct (nth g (fst t) None) as [c|] eqn:E; auto.
  apply W in E as (y & E). rewrite app_nth1; auto. apply nth_error_Some. congruence.
Qed.
Lemma tb_new_same t h x : WF t -> h < length (fst t) -> tbuf (t_new t h x) h = Some x.
Proof.
  intros W L. unfold t_new, tbuf, t_set. cbn [fst snd]. rewrite nth_upd, Nat.eqb_refl. cbn [andb]. rewrite rel_fst, upd_length. cbn [fst].
  destruct (Nat.ltb_spec h (length (fst t))); [|lia]. unfold t_release. cbn [fst snd]. destruct (nth h (fst t) None) as [c|] eqn:E; cbn [fst snd].
  - apply W in E as (y & E). assert (c < length (snd t)) by (apply nth_error_Some; congruence).
    destruct (refers _ _); cbn [snd]; [|rewrite nth_upd; destruct (Nat.eqb_spec (length (snd t)) c); [lia|]; cbn [andb]]; rewrite app_nth2, Nat.sub_diag by auto; reflexivity.
  - rewrite app_nth2, Nat.sub_diag by auto; reflexivity.
Qed.
Lemma tb_put t c x g : c < length (snd t) -> tbuf (t_put t c x) g = match nth g (fst t) None with Some c' => if c' =? c then Some x else tbuf t g | None => None end.
Proof.
  intros L. unfold tbuf, t_put. cbn [fst snd]. destruct (nth g (fst t) None) as [c'|] eqn:E; auto. rewrite nth_upd.
  destruct (Nat.eqb_spec c' c); cbn [andb]; auto. destruct (Nat.ltb_spec c (length (snd t))); auto. lia.
Qed.

Lemma buf_tb v g : buf v g = tbuf (vtabs v) g.
Proof. reflexivity. Qed.
Lemma sound_WF v : sound v -> WF (vtabs v).
Proof. intros (_ & H & _) h c E. apply nth_some in E. apply H in E. auto. Qed.
Lemma buf_used v g b l a : buf v g = Some (b, l) -> In a l -> used v a.
Proof. unfold buf, vcont. destruct (handle v g) as [c|]; [|discriminate]. intros E Ha. apply nth_some in E. exists c, b, l. auto. Qed.

(* same container contents, memory kept *)
Lemma content_sub v v' g h f : keeps v v' -> (forall l, incl (f l) l) ->
  buf v' g = option_map (fun x => (fst x, f (snd x))) (buf v h) ->
  content v' g = option_map (fun x => map (v_mem v) (f (snd x))) (buf v h).
Proof.
  intros K F E. unfold content. rewrite E. destruct (buf v h) as [[b l]|] eqn:Eb; cbn [option_map fst snd]; auto. f_equal.
  apply map_ext_in. intros a Ha. apply K.
  - eapply buf_used; eauto. apply F. auto.
  - cbn [option_map fst snd] in E. eapply buf_used; eauto.
Qed.
Lemma content_same v v' g h : keeps v v' -> buf v' g = buf v h -> content v' g = content v h.
Proof.
  intros K E. rewrite (content_sub v v' g h (fun l => l)); auto. { intros l x; auto. } rewrite E. destruct (buf v h) as [[]|]; auto.
Qed.

Definition ins_cond v h h2 mv : Prop :=
  h < length (v_handles v) /\ h2 < length (v_handles v) /\
  match buf v h, buf v h2 with Some (k, l), Some (k2, l2) => k = true /\ (mv = true -> handle v h <> handle v h2) | _, _ => h <> h2 end.

Lemma slice_incl {A} (l : list A) p n : incl (slice l p n) l.
Proof. intros a Ha. apply firstn_In in Ha. eapply skipn_In; eauto. Qed.

(* no exception and no end of the process *)
Lemma insert_content v v' h pos h2 mv : sound v -> ins_cond v h h2 mv -> insert_rel v v' h pos h2 mv RDone ->
  (h = h2 -> mv = false) /\
  content v' h = joined (content v h) (content v h2) pos /\
  forall g, g <> h -> (mv = true -> g <> h2) -> (handle v h = None \/ handle v g <> handle v h) -> (mv = true -> handle v h2 = None \/ handle v g <> handle v h2) -> 
     content v' g = content v g.
Proof.
  intros S (L1 & L2 & H) R. pose proof (sound_WF v S) as W. unfold insert_rel in R.
  assert (HB : forall g c x, handle v g = Some c -> buf v g = Some x -> nth_error (v_conts v) c = Some (Some x)).
  { intros g c x E1 E2. unfold buf in E2. rewrite E1 in E2. apply nth_some; auto. }
  destruct (buf v h2) as [[k2 l2]|] eqn:E2.
  2: { destruct R as (_ & V & K). assert (EB : forall g, buf v' g = buf v g) by (intros g; rewrite !buf_tb, V; auto).
       split; [destruct (buf v h) as [[]|]; congruence|]. split.
       - rewrite (content_same v v' h h); auto. unfold joined. rewrite (eq_refl : content v h2 = option_map _ (buf v h2)), E2. cbn. destruct (content v h); auto.
       - intros g _ _ _ _. apply content_same; auto. }
  destruct (length l2 =? 0) eqn:El2.
  { destruct R as (_ & V & K). assert (EB : forall g, buf v' g = buf v g) by (intros g; rewrite !buf_tb, V; auto).
    apply Nat.eqb_eq in El2. destruct l2; [|discriminate].
    split.
    { intros ->. destruct (buf v h2) as [[]|]; [|congruence]. destruct mv; auto. exfalso. apply H; auto. }
    split.
    - rewrite (content_same v v' h h); auto. rewrite (eq_refl : content v h2 = option_map _ (buf v h2)), E2. cbn. unfold joined; destruct (content v h) eqn:E; auto. unfold joined. cbn [app]. rewrite firstn_skipn. auto.
    - intros g _ _ _ _. apply content_same; auto. }
  destruct (handle v h2) as [c2|] eqn:EH2. 2: { unfold buf in E2. rewrite EH2 in E2. discriminate. }
  assert (C2 : content v h2 = Some (map (v_mem v) l2)) by (unfold content; rewrite E2; auto).
  assert (N2 : map (v_mem v) l2 <> []). { destruct l2; cbn in *; [discriminate|congruence]. }
  destruct (handle v h) as [c|] eqn:EH.
  2: { assert (BN : buf v h = None) by (unfold buf; rewrite EH; auto). rewrite BN in H. destruct R as (_ & K & V).
    assert (CN : content v h = None) by (unfold content; rewrite BN; auto).
    split; [congruence|].
    assert (T1 : buf v' h = buf v h2).
    { rewrite (buf_tb v'), V. destruct mv.
      - unfold tbuf. cbn [fst snd]. rewrite nth_upd. destruct (Nat.eqb_spec h h2); [congruence|]. cbn [andb]. rewrite nth_upd, Nat.eqb_refl. cbn [andb].
        destruct (Nat.ltb_spec h (length (v_handles v))); [|lia]. unfold buf. rewrite EH2. auto.
      - rewrite tb_new_same; auto. }
    split.
    - rewrite (content_same v v' h h2), CN, C2 by auto. unfold joined. destruct (map (v_mem v) l2); congruence.
    - intros g Ng Nm _ _. apply content_same; auto. rewrite (buf_tb v'), V. destruct mv.
      + unfold tbuf. cbn [fst snd]. rewrite !nth_upd. destruct (Nat.eqb_spec g h2); [exfalso; apply Nm; auto|]. destruct (Nat.eqb_spec g h); [congruence|]. cbn [andb]. reflexivity.
      + rewrite tb_new by auto. auto. }
  destruct (vcont v c) as [[k l]|] eqn:EV; [|contradiction].
  assert (EB : buf v h = Some (k, l)) by (unfold buf; rewrite EH; auto). rewrite EB in H. destruct H as [-> Hmv].
  destruct R as (K & l2' & R2 & V). cbv zeta in V.
  assert (Lc : c < length (v_conts v)). { apply nth_error_Some. erewrite HB; eauto. congruence. }
  assert (Lc2 : c2 < length (v_conts v)). { apply nth_error_Some. erewrite HB; eauto. congruence. }
  set (t1 := t_put (vtabs v) c (true, firstn pos l ++ l2' ++ skipn pos l)) in *.
  assert (HH : h = h2 -> mv = false). { intros ->. destruct mv; auto. exfalso. apply Hmv; auto. congruence. }
  split; auto.
  assert (TH : buf v' h = Some (true, firstn pos l ++ l2' ++ skipn pos l)).
  { rewrite buf_tb, V. assert (X : tbuf t1 h = Some (true, firstn pos l ++ l2' ++ skipn pos l)).
    { unfold t1. rewrite tb_put by auto. cbn [vtabs fst]. fold (handle v h). rewrite EH, Nat.eqb_refl. auto. }
    destruct mv; auto. assert (Nh : h <> h2) by (intros E; apply HH in E; discriminate). rewrite tb_release by auto. destruct k2; auto.
    rewrite tb_put by (unfold t1, t_put; cbn [snd vtabs]; rewrite upd_length; auto). unfold t1 at 1. cbn [t_put fst vtabs]. fold (handle v h). rewrite EH.
    destruct (Nat.eqb_spec c c2) as [->|]; auto. exfalso. apply Hmv; auto. }
  split.
  - unfold content at 1. rewrite TH. cbn [option_map snd]. rewrite C2. unfold content. rewrite EB. cbn [option_map snd joined]. f_equal.
    rewrite !map_app, firstn_map, skipn_map.
    assert (ML : map (v_mem v') l2' = map (v_mem v) l2).
    { destruct k2; [|apply R2]. subst l2'. apply map_ext_in. intros a Ha. apply K; [eapply buf_used; [exact E2|auto]|].
      eapply buf_used; [exact TH|]. apply in_app_iff. right. apply in_app_iff. auto. }
    rewrite ML. f_equal; [|f_equal].
    + apply map_ext_in. intros a Ha. apply K.
      * eapply buf_used; [exact EB|]. eapply firstn_In; eauto.
      * eapply buf_used; [exact TH|]. apply in_app_iff. auto.
    + apply map_ext_in. intros a Ha. apply K.
      * eapply buf_used; [exact EB|]. eapply skipn_In; eauto.
      * eapply buf_used; [exact TH|]. apply in_app_iff. right. apply in_app_iff. auto.
  - intros g Ng Nm Nc Nc2. apply content_same; auto. rewrite (buf_tb v'), V.
    assert (X : tbuf t1 g = buf v g).
    { unfold t1. rewrite tb_put by auto. cbn [vtabs fst]. fold (handle v g). destruct (handle v g) as [c'|] eqn:Eg; [|unfold buf; rewrite Eg; auto].
      destruct (Nat.eqb_spec c' c) as [->|]; auto. destruct Nc as [Nc|Nc]; congruence. }
    destruct mv; auto. rewrite tb_release by auto. destruct k2; auto.
    rewrite tb_put by (unfold t1, t_put; cbn [snd vtabs]; rewrite upd_length; auto). unfold t1 at 1. cbn [t_put fst vtabs]. fold (handle v g).
    destruct (handle v g) as [c'|] eqn:Eg; [|unfold buf; rewrite Eg; auto].
    destruct (Nat.eqb_spec c' c2) as [->|]; auto. destruct (Nc2 eq_refl) as [Q|Q]; congruence.
Qed.

Lemma buf_conts v g c x : handle v g = Some c -> buf v g = Some x -> c < length (v_conts v).
Proof. intros E1 E2. unfold buf in E2. rewrite E1 in E2. apply nth_some in E2. apply nth_error_Some. congruence. Qed.

Lemma put_content v v' h c k l f : keeps v v' -> (forall l, incl (f l) l) -> handle v h = Some c -> buf v h = Some (k, l) -> vtabs v' = t_put (vtabs v) c (k, f l) ->
  content v' h = Some (map (v_mem v) (f l)) /\ forall g, handle v g <> Some c -> content v' g = content v g.
Proof.
  intros K F Eh Eb V. pose proof (buf_conts _ _ _ _ Eh Eb) as L. split.
  - rewrite (content_sub v v' h h f); auto. { rewrite Eb. auto. }
    rewrite buf_tb, V, tb_put by auto. cbn [vtabs fst]. fold (handle v h). rewrite Eh, Nat.eqb_refl, Eb. auto.
  - intros g N. apply content_same; auto. rewrite buf_tb, V, tb_put by auto. cbn [vtabs fst]. fold (handle v g).
    destruct (handle v g) as [c'|] eqn:E; [|unfold buf; rewrite E; auto]. destruct (Nat.eqb_spec c' c); [congruence|]. auto.
Qed.

Lemma new_content v v' h x : sound v -> keeps v v' -> h < length (v_handles v) -> vtabs v' = t_new (vtabs v) h x ->
  buf v' h = Some x /\ forall g, g <> h -> content v' g = content v g.
Proof.
  intros S K L V. split.
  - rewrite buf_tb, V. apply tb_new_same; auto. apply sound_WF; auto.
  - intros g N. apply content_same; auto. rewrite buf_tb, V. apply tb_new; auto. apply sound_WF; auto.
Qed.

Lemma set_content v v' h k : keeps v v' -> vtabs v' = t_set (vtabs v) h k -> forall g, g <> h -> content v' g = content v g.
Proof. intros K V g N. apply content_same; auto. rewrite buf_tb, V. apply tb_set; auto. Qed.
Lemma rel_content v v' h : keeps v v' -> vtabs v' = t_release (vtabs v) h -> content v' h = None /\ forall g, g <> h -> content v' g = content v g.
Proof.
  intros K V. split.
  - unfold content. rewrite buf_tb, V, tb_release_same. auto.
  - intros g N. apply content_same; auto. rewrite buf_tb, V. apply tb_release; auto.
Qed.

Lemma content_len v h : size_of (content v h) = match buf v h with Some (_, l) => length l | None => 0 end.
Proof. unfold content, size_of. destruct (buf v h) as [[k l]|]; auto. cbn. apply map_length. Qed.

Theorem step_content v op v' raw : sound v -> op_ok v raw op -> step_rel v op RDone v' -> content_rel v op v' /\ content_frame v op v'.
Proof.
  intros S OK R. destruct op as [h n|h n|h bs|h cap|h h2|h h2|h|h h2|h n|h n|h pos h2 mv|h h2 mv|h h2 mv|h h2 skip n|h bs| |id];
    cbn [op_ok step_rel content_rel content_frame assigned changed In] in *.
  - destruct R as (l & E & FR & V & K). destruct (new_content v v' h _ S K OK V) as [X Y]. split; [|intros g N _; apply Y; intuition].
    eexists. split; [unfold content; rewrite X; reflexivity|]. cbn. rewrite map_length. auto.
  - destruct R as (l & E & FR & V & K). destruct (new_content v v' h _ S K OK V) as [X Y]. split; [|intros g N _; apply Y; intuition].
    eexists. split; [unfold content; rewrite X; reflexivity|]. cbn. rewrite map_length. auto.
  - destruct R as (_ & K & l & FR & V & M). destruct (new_content v v' h _ S K OK V) as [X Y]. split; [|intros g N _; apply Y; intuition].
    unfold content. rewrite X. cbn. congruence.
  - destruct R as (_ & K & V). destruct (new_content v v' h _ S K OK V) as [X Y]. split; [|intros g N _; apply Y; intuition].
    unfold content. rewrite X. auto.
  - destruct R as (_ & K & V). destruct OK as (L1 & L2 & N). split; [|intros g Ng _; apply (set_content v v' h _ K V); intuition].
    apply content_same; auto. rewrite (buf_tb v'), V. apply tb_set_same; auto.
  - destruct R as (_ & K & V). destruct OK as (L1 & L2 & N). cbv zeta in V. set (t1 := t_set (vtabs v) h (handle v h2)) in *.
    assert (X : forall g, g <> h2 -> buf v' g = tbuf t1 g).
    { intros g Ng. rewrite buf_tb, V. unfold tbuf at 1. cbn [fst snd]. rewrite nth_upd. destruct (Nat.eqb_spec g h2); [congruence|]. auto. }
    split.
    + apply content_same; auto. rewrite X by auto. apply tb_set_same; auto.
    + intros g Ng _. apply content_same; auto. rewrite X by intuition. apply tb_set. intuition.
  - destruct R as (_ & K & V). destruct (rel_content v v' h K V) as [X Y]. split; [solve [auto]|]. intros g N _. apply Y; intuition.
  - destruct R as (_ & K & V). destruct OK as (L1 & L2). destruct (buf v h2) as [x|] eqn:E.
    + destruct (new_content v v' h _ S K L1 V) as [X Y]. split; [|intros g N _; apply Y; intuition]. apply content_same; auto. congruence.
    + split; [|intros g Ng _; apply (set_content v v' h _ K V); intuition]. unfold content. rewrite E, buf_tb, V, tb_set_none. auto.
  - destruct R as (_ & K & V). destruct (handle v h) as [c|] eqn:Eh.
    2: { assert (BN : buf v h = None) by (unfold buf; rewrite Eh; auto). assert (EB : forall g, buf v' g = buf v g) by (intros g; rewrite !buf_tb, V; auto).
         split; [|intros g _ _; apply content_same; auto]. unfold content. rewrite EB, BN. auto. }
    destruct (buf v h) as [[k l]|] eqn:Eb.
    2: { assert (EB : forall g, buf v' g = buf v g) by (intros g; rewrite !buf_tb, V; auto).
         split; [|intros g _ _; apply content_same; auto]. unfold content. rewrite EB, Eb. auto. }
    assert (EC : content v h = Some (map (v_mem v) l)) by (unfold content; rewrite Eb; auto). rewrite EC.
    destruct (n =? 0).
    { assert (EB : forall g, buf v' g = buf v g) by (intros g; rewrite !buf_tb, V; auto).
      split; [rewrite (content_same v v' h h); auto|intros g _ _; apply content_same; auto]. }
    rewrite map_length. destruct (length l <=? n).
    + destruct (rel_content v v' h K V) as [X Y]. split; [solve [auto]|]. intros g N _. apply Y; intuition.
    + destruct (put_content v v' h c k l (skipn n) K (fun l x => skipn_In l n x) Eh Eb V) as [X Y]. rewrite skipn_map. split; [solve [auto]|].
      intros g _ N. apply Y. destruct (N h); auto; congruence.
  - destruct R as (K & V). destruct (handle v h) as [c|] eqn:Eh.
    2: { assert (BN : buf v h = None) by (unfold buf; rewrite Eh; auto). destruct V as [_ V]. assert (EB : forall g, buf v' g = buf v g) by (intros g; rewrite !buf_tb, V; auto).
         split; [|intros g _ _; apply content_same; auto]. unfold content. rewrite EB, BN. auto. }
    destruct (buf v h) as [[k l]|] eqn:Eb.
    2: { destruct V as [_ V]. assert (EB : forall g, buf v' g = buf v g) by (intros g; rewrite !buf_tb, V; auto).
         split; [|intros g _ _; apply content_same; auto]. unfold content. rewrite EB, Eb. auto. }
    assert (EC : content v h = Some (map (v_mem v) l)) by (unfold content; rewrite Eb; auto). rewrite EC.
    destruct (n =? 0).
    { destruct V as [_ V]. destruct (rel_content v v' h K V) as [X Y]. split; [solve [auto]|]. intros g N _. apply Y; intuition. }
    destruct (length l <? n); destruct V as [V0 V]; [discriminate|].
    destruct (put_content v v' h c k l (firstn n) K (fun l x => firstn_In l n x) Eh Eb V) as [X Y]. rewrite firstn_map. split; [solve [auto]|].
    intros g _ N. apply Y. destruct (N h); auto; congruence.
  - destruct (insert_content v v' h pos h2 mv S OK R) as (_ & X & Y). split; [solve [auto]|]. intros g N C. destruct mv; cbn [In] in *; apply Y; auto; try (intros; discriminate); intuition (auto; congruence).
  - destruct (insert_content v v' h _ h2 mv S OK R) as (_ & X & Y). rewrite content_len. split; [solve [auto]|]. intros g N C. destruct mv; cbn [In] in *; apply Y; auto; try (intros; discriminate); intuition (auto; congruence).
  - destruct (insert_content v v' h _ h2 mv S OK R) as (_ & X & Y). split; [solve [auto]|]. intros g N C. destruct mv; cbn [In] in *; apply Y; auto; try (intros; discriminate); intuition (auto; congruence).
  - destruct OK as (L1 & L2 & Ln & _). destruct R as (K & V). destruct (buf v h2) as [[k l]|] eqn:E.
    2: { destruct V; discriminate. }
    cbv zeta in V. assert (EC : content v h2 = Some (map (v_mem v) l)) by (unfold content; rewrite E; auto). rewrite EC, map_length.
    destruct (_ <=? length l) in V; destruct V as [V0 V]; [|discriminate].
    destruct (new_content v v' h _ S K L1 V) as [X Y]. split; [|intros g N _; apply Y; intuition].
    intros Ls. destruct (Nat.leb_spec skip (length l)); [|lia].
    rewrite (content_sub v v' h h2 (fun l => slice l skip n) K (fun q => slice_incl q skip n)).
    + rewrite E. cbn. unfold slice. rewrite skipn_map, firstn_map. auto.
    + rewrite X, E. auto.
  - destruct OK as (L1 & OK). destruct R as (_ & V & R). split; auto. destruct (buf v h) as [[k l]|] eqn:E.
    + intros ND. destruct OK as [Lb _]. destruct R as [R1 R2]. specialize (R2 Lb).
      assert (ND1 : NoDup (firstn (length bs) l)). { clear -ND. generalize (length bs). induction ND as [|x q Hx ND IH]; intros [|m]; cbn; constructor; auto. intros Hi. apply firstn_In in Hi. auto. }
      specialize (R2 ND1). unfold content. rewrite (buf_tb v'), V, <- buf_tb, E. cbn [option_map snd]. f_equal.
      rewrite <- (firstn_skipn (length bs) l) at 1. rewrite map_app, R2. f_equal. rewrite skipn_map. apply map_ext_in. intros a Ha. apply R1. intros Hb.
      rewrite <- (firstn_skipn (length bs) l) in ND. clear -ND Ha Hb. induction (firstn (length bs) l) as [|x q IH]; [destruct Hb|]. cbn in ND. inversion ND; subst. destruct Hb as [->|Hb]; auto.
      apply H1. apply in_app_iff. auto.
    + unfold content. rewrite buf_tb, V, <- buf_tb, E. auto.
  - split; [solve [auto]|]. intros g _ _. destruct R as [V K]. apply content_same; auto. rewrite !buf_tb, V. auto.
  - split; [solve [auto]|]. intros g _ _. destruct R as [V K]. apply content_same; auto. rewrite !buf_tb, V. auto.
Qed.
End P.
