(* Proofs about the MBS event builder: one call, safety, groups. *)
From Verif Require Import Common ListFacts Bytes MbsSpec MCombSpec MCombModel.
Local Open Scope N_scope.

Arguments flush : simpl never.
Arguments place : simpl never.
Ltac bdestr H := match type of H with context [if ?b then _ else _] => let E := fresh "E" in destruct b eqn:E end.

(* ---- one input ---- *)

Section C.
Context (c : conf).
Implicit Types (p : inp) (e : mevent).

Definition unnumbered (g : icfg) (l : list mevent) : Prop := Forall (fun e => event_number c g e = None) l.

Lemma find_ev_spec g l :
  match find_ev c g l with
  | (sk, Some (e, r, n, b)) => l = sk ++ e :: r /\ event_number c g e = Some (n, b) /\ unnumbered g sk
  | (sk, None) => l = sk /\ unnumbered g sk
  end.
Proof.
  induction l as [|e l IH]; cbn.
  - split; auto. constructor.
  - destruct (event_number c g e) as [[n b]|] eqn:E.
    + repeat split; auto. constructor.
    + destruct (find_ev c g l) as [sk [[[[x r] n] b]|]]; cbn.
      * destruct IH as (-> & H & U). repeat split; auto. constructor; auto.
      * destruct IH as (-> & U). split; auto. constructor; auto.
Qed.

Definition qevents (q : list buf) : list mevent := concat (map events_of q).

Lemma find_buf_spec g q :
  match find_buf c g q with
  | (sk, Some (e, r, n, b), q') => qevents q = sk ++ e :: r ++ qevents (tl q') /\ event_number c g e = Some (n, b) /\ unnumbered g sk /\ q' <> []
  | (sk, None, q') => qevents q = sk /\ q' = [] /\ unnumbered g sk
  end.
Proof.
  induction q as [|[es|] q IH]; cbn [find_buf].
  - repeat split; auto. constructor.
  - pose proof (find_ev_spec g es) as F. destruct (find_ev c g es) as [sk [[[[x r] n] b]|]]; cbn in *.
    + destruct F as (-> & H & U). unfold qevents. cbn. rewrite <- app_assoc. cbn. repeat split; auto. discriminate.
    + destruct F as (-> & U). destruct (find_buf c g q) as [[sk' [[[[x r] n] b]|]] q']; cbn in *.
      * destruct IH as (E & H & U' & Q). unfold qevents in *. cbn. rewrite E, <- app_assoc. repeat split; auto. apply Forall_app. auto.
      * destruct IH as (E & -> & U'). unfold qevents in *. cbn. rewrite E. repeat split; auto. apply Forall_app. auto.
  - apply IH.
Qed.

(* what an input holds *)
Definition in_ok p : Prop :=
  match p_it p with
  | Some (e, _) => p_valid p = true /\ event_number c (p_cfg p) e = Some (p_num p, p_special p) /\ p_queue p <> []
  | None => p_valid p = false /\ p_special p = false
  end.
Definition head p : list mevent := match p_it p with Some (e, _) => [e] | None => [] end.

Lemma pending_head p e r : p_it p = Some (e, r) -> pending p = e :: r ++ qevents (tl (p_queue p)).
Proof. unfold pending. intros ->. reflexivity. Qed.

Lemma shift_spec p p' ok : in_ok p -> shift_ev c p = (p', ok) ->
  in_ok p' /\ p_cfg p' = p_cfg p /\ p_cap p' = p_cap p /\ p_conn p' = p_conn p /\ p_sel p' = p_sel p /\ p_last p' = p_last p /\
  p_done p' ++ pending p' = p_done p ++ pending p /\
  (exists sk, p_done p' = p_done p ++ head p ++ sk /\ unnumbered (p_cfg p) sk) /\
  (if ok then p_it p' <> None else p_it p' = None /\ pending p' = []).
Proof.
  intros K. unfold shift_ev. intros H.
  assert (X : exists sk r q, p_done p ++ pending p = p_done p ++ head p ++ sk ++ match r with Some (e, rest, _, _) => e :: rest ++ qevents (tl q) | None => qevents q end /\
     unnumbered (p_cfg p) sk /\
     match r with Some (e, rest, n, b) => event_number c (p_cfg p) e = Some (n, b) /\ q <> [] | None => q = [] end /\
     match r with
     | Some (e, rest, n, b) => (mkI (p_cfg p) (p_cap p) (p_conn p) q (Some (e, rest)) n b true (p_sel p) (p_last p) (p_done p ++ head p ++ sk), true)
     | None => (mkI (p_cfg p) (p_cap p) (p_conn p) q None 0 false false (p_sel p) (p_last p) (p_done p ++ head p ++ sk), false)
     end = (p', ok)).
  { unfold head, pending, in_ok in *. destruct (p_it p) as [[e rest]|] eqn:I.
    - pose proof (find_ev_spec (p_cfg p) rest) as F. destruct (find_ev c (p_cfg p) rest) as [sk [[[[x r] n] b]|]].
      + destruct F as (-> & F & U). exists sk, (Some (x, r, n, b)), (p_queue p). cbn in H. repeat split; auto; [|apply K].
        cbn. rewrite <- app_assoc. reflexivity.
      + destruct F as (-> & U). pose proof (find_buf_spec (p_cfg p) (tl (p_queue p))) as B.
        destruct (find_buf c (p_cfg p) (tl (p_queue p))) as [[sk' r] q]. exists (sk ++ sk'), r, q.
        destruct r as [[[[x r] n] b]|].
        * destruct B as (B & F & U' & Qn). cbn in H. repeat split; auto. { unfold qevents in *. rewrite B. cbn. rewrite <- !app_assoc. reflexivity. }
          apply Forall_app; auto.
        * destruct B as (B & -> & U'). cbn in H. repeat split; auto. { unfold qevents in *. rewrite B. cbn. rewrite app_nil_r. reflexivity. }
          apply Forall_app; auto.
    - pose proof (find_buf_spec (p_cfg p) (p_queue p)) as B. destruct (find_buf c (p_cfg p) (p_queue p)) as [[sk' r] q].
      exists sk', r, q. destruct r as [[[[x r] n] b]|].
      + destruct B as (B & F & U' & Qn). cbn in H. repeat split; auto. unfold qevents in *. rewrite B. reflexivity.
      + destruct B as (B & -> & U'). cbn in H. repeat split; auto. unfold qevents in *. rewrite B. cbn. rewrite app_nil_r. reflexivity. }
  destruct X as (sk & r & q & X1 & X2 & X3 & X4).
  destruct r as [[[[x r] n] b]|]; injection X4 as <- <-; cbn.
  - unfold in_ok. cbn. destruct X3 as [X3 Qn]. repeat split; auto; try discriminate.
    + rewrite X1, <- !app_assoc. reflexivity.
    + exists sk. auto.
  - subst q. unfold in_ok. cbn. repeat split; auto.
    + rewrite X1, <- !app_assoc. reflexivity.
    + exists sk. auto.
Qed.

(* the input as the iterators see it: what [same_in] inputs agree on *)
Definition same_in p p' : Prop :=
  p_cfg p' = p_cfg p /\ p_cap p' = p_cap p /\ p_conn p' = p_conn p /\ p_queue p' = p_queue p /\ p_it p' = p_it p /\ p_num p' = p_num p /\
  p_special p' = p_special p /\ p_valid p' = p_valid p /\ p_done p' = p_done p.
Lemma same_refl p : same_in p p. Proof. repeat split. Qed.
Lemma same_sel b p : same_in p (set_sel b p). Proof. repeat split. Qed.
Lemma same_last t p : same_in p (set_last t p). Proof. repeat split. Qed.
Lemma same_trans p q r : same_in p q -> same_in q r -> same_in p r.
Proof. unfold same_in. intuition congruence. Qed.
Lemma same_ok p p' : same_in p p' -> in_ok p -> in_ok p'.
Proof. unfold same_in, in_ok. intros (A & _ & _ & F & B & C & D & E & _). rewrite A, B, C, D, E, F. auto. Qed.
Lemma same_pending p p' : same_in p p' -> pending p' = pending p.
Proof. unfold same_in, pending. intros (_ & _ & _ & A & B & _). rewrite A, B. auto. Qed.
Lemma same_done p p' : same_in p p' -> p_done p' = p_done p.
Proof. unfold same_in. tauto. Qed.
Lemma same_head p p' : same_in p p' -> head p' = head p.
Proof. unfold same_in, head. intros (_ & _ & _ & _ & B & _). rewrite B. auto. Qed.
Lemma same_cfg p p' : same_in p p' -> p_cfg p' = p_cfg p.
Proof. unfold same_in. tauto. Qed.

(* looking for an event: events are only passed over when they carry no number *)
Definition looked p p' : Prop :=
  in_ok p' /\ p_cfg p' = p_cfg p /\ p_conn p' = p_conn p /\ p_done p' ++ pending p' = p_done p ++ pending p /\
  (exists sk, p_done p' = p_done p ++ sk /\ unnumbered (p_cfg p) sk) /\
  (p_it p <> None -> p_it p' = p_it p /\ p_done p' = p_done p).

Lemma looked_same p p' : in_ok p -> same_in p p' -> looked p p'.
Proof.
  intros K S. unfold looked. split; [|split; [|split; [|split; [|split]]]].
  - eapply same_ok; eauto.
  - apply S.
  - apply S.
  - rewrite (same_pending _ _ S), (same_done _ _ S). reflexivity.
  - exists []. rewrite app_nil_r. split; [apply (same_done _ _ S)|constructor].
  - intros _. split; [apply S|apply (same_done _ _ S)].
Qed.

Lemma looked_trans p q r : looked p q -> looked q r -> looked p r.
Proof.
  intros (_ & A1 & A2 & A3 & (s1 & A4 & A5) & A6) (B0 & B1 & B2 & B3 & (s2 & B4 & B5) & B6).
  split; [exact B0|]. split; [congruence|]. split; [congruence|]. split; [congruence|]. split.
  - exists (s1 ++ s2). split; [rewrite B4, A4, <- app_assoc; reflexivity|].
    apply Forall_app. split; auto. rewrite A1 in B5. exact B5.
  - intros H. destruct (A6 H) as [X1 X2]. rewrite <- X1 in H. destruct (B6 H) as [Y1 Y2]. split; congruence.
Qed.

Lemma prep_spec now mf p p' ok : in_ok p -> prep c now mf p = (p', ok) ->
  looked p p' /\ p_sel p' = false /\
  (ok = true -> p_it p' = None -> pending p' = [] /\
     (g_nonum (p_cfg p) || mf && negb (f_full c) || g_opt (p_cfg p) && late c now p') = true).
Proof.
  intros K. unfold prep. set (p0 := set_last _ _).
  assert (S : same_in p p0) by (subst p0; repeat split).
  assert (L0 : looked p p0) by (apply looked_same; auto).
  assert (E0 : p_sel p0 = false) by reflexivity.
  destruct (p_it p0) as [x|] eqn:I.
  - intros [= <- <-]. split; [auto|]. split; [auto|]. congruence.
  - destruct (shift_ev c p0) as [p1 b] eqn:Es. apply shift_spec in Es; [|eapply same_ok; eauto].
    destruct Es as (A1 & A2 & A3 & A4 & A5 & A6 & A7 & (sk & A8 & A9) & A10).
    assert (L1 : looked p0 p1).
    { unfold looked. split; [auto|]. split; [auto|]. split; [auto|]. split; [auto|]. split.
      - exists sk. unfold head in A8. rewrite I in A8. cbn in A8. split; auto.
      - congruence. }
    destruct b; intros [= <- <-].
    + split; [eapply looked_trans; [exact L0|eapply looked_trans; [exact L1|apply looked_same; [auto|apply same_last]]]|].
      split; [cbn; congruence|]. cbn. congruence.
    + split; [eapply looked_trans; [exact L0|exact L1]|]. split; [congruence|].
      intros H _. split; [apply A10|]. exact H.
Qed.

Lemma prep_all_spec now mf l : forall l' ok, Forall in_ok l -> prep_all c now mf l = (l', ok) ->
  Forall2 looked l l' /\
  (ok = true -> Forall (fun p' => p_sel p' = false /\ (p_it p' = None -> pending p' = [] /\
       (g_nonum (p_cfg p') || mf && negb (f_full c) || g_opt (p_cfg p') && late c now p') = true)) l').
Proof.
  induction l as [|p l IH]; cbn; intros l' ok K H.
  - injection H as <- <-. split; constructor.
  - inversion K as [|? ? K1 K2]; subst. destruct (prep c now mf p) as [p' b] eqn:P.
    apply prep_spec in P; auto. destruct P as (P1 & P2 & P3). destruct b.
    + destruct (prep_all c now mf l) as [r' ok'] eqn:R. injection H as <- <-.
      destruct (IH _ _ K2 eq_refl) as [I1 I2]. split; [constructor; auto|]. intros ->. constructor; auto. split; auto.
      intros N. destruct (P3 eq_refl N) as [Q1 Q2]. split; auto. replace (p_cfg p') with (p_cfg p); auto. symmetry. apply P1.
    + injection H as <- <-. split; [|discriminate]. constructor; auto.
      clear - K2. induction K2; constructor; auto. apply looked_same; auto. apply same_refl.
Qed.

(* selection *)
Lemma mark_same l : forall k, Forall2 same_in l (mark k l).
Proof.
  induction l as [|p l IH]; intros [|k]; cbn; constructor; try apply same_refl; try apply same_sel; auto.
  clear. induction l; constructor; auto. apply same_refl.
Qed.
Lemma select_same b l : Forall2 same_in l (select b l).
Proof.
  induction l as [|p l IH]; cbn; constructor; auto. destruct (_ && _); [apply same_sel|apply same_refl].
Qed.

Lemma find_special_spec l : forall k j, find_special k l = Some j ->
  exists p, (k <= j)%nat /\ nth_error l (j - k) = Some p /\ counted p = true /\ p_special p = true.
Proof.
  induction l as [|p l IH]; cbn; intros k j H; [discriminate|]. destruct (counted p && p_special p) eqn:E.
  - injection H as <-. exists p. rewrite Nat.sub_diag. apply andb_prop in E. cbn. repeat split; try apply E; lia.
  - apply IH in H. destruct H as (q & A & B & C). exists q. split; [lia|]. split; auto.
    replace (j - k)%nat with (S (j - S k))%nat by lia. exact B.
Qed.
Lemma find_special_none l : forall k, find_special k l = None -> Forall (fun p => counted p && p_special p = false) l.
Proof.
  induction l as [|p l IH]; cbn; intros k H; constructor; destruct (counted p && p_special p) eqn:E; auto; try discriminate.
  eapply IH; eauto.
Qed.

Lemma mark_nth l : forall k i p', nth_error (mark k l) i = Some p' ->
  exists p, nth_error l i = Some p /\ p' = (if Nat.eqb i k then set_sel true p else p).
Proof.
  induction l as [|q l IH]; intros k i p' H; cbn in H.
  - destruct i; discriminate.
  - destruct k as [|k], i as [|i]; cbn in *; try (injection H as <-); eauto.
Qed.
Lemma select_nth b l i p' : nth_error (select b l) i = Some p' ->
  exists p, nth_error l i = Some p /\ p' = (if p_valid p && ((p_num p =? b) || g_nonum (p_cfg p)) then set_sel true p else p).
Proof.
  unfold select. rewrite nth_error_map. destruct (nth_error l i) as [p|]; cbn; [|discriminate]. intros [= <-]. eauto.
Qed.

(* after the selection: selected inputs have an event *)
Definition sel_ok p : Prop := p_sel p = true -> p_it p <> None.

Lemma group_ok l : Forall sel_ok l -> exists g, group_of l = Ok g /\
  Forall2 (fun p o => match o with Some e => p_sel p = true /\ head p = [e] | None => p_sel p = false end) l g.
Proof.
  induction l as [|p l IH]; intros H; cbn.
  - exists []. split; auto.
  - inversion H as [|? ? H1 H2]; subst. destruct (IH H2) as (g & -> & G). cbn. unfold sel_ok, head in *.
    destruct (p_sel p) eqn:S.
    + destruct (p_it p) as [[e r]|] eqn:I; [|exfalso; apply H1; auto]. exists (Some e :: g). split; auto.
      constructor; auto. rewrite I. auto.
    + exists (None :: g). split; auto.
Qed.

Lemma header_ok l : Forall sel_ok l -> (exists p, In p l /\ p_sel p = true) -> exists h, header l = Ok h.
Proof.
  intros H (p & P1 & P2). unfold header.
  destruct (find (fun p => p_sel p && mandatory (p_cfg p) && g_mbs (p_cfg p)) l) as [q|] eqn:F.
  - apply find_some in F. destruct F as [F1 F2]. rewrite Forall_forall in H. specialize (H q F1). unfold sel_ok in H.
    destruct (p_sel q); [|discriminate]. destruct (p_it q) as [[e r]|]; [eauto|]. exfalso. apply H; auto.
  - destruct (find p_sel l) as [q|] eqn:F'.
    + apply find_some in F'. destruct F' as [F1 F2]. rewrite Forall_forall in H. specialize (H q F1). unfold sel_ok in H.
      destruct (p_it q) as [[e r]|]; [eauto|]. exfalso. apply H; auto.
    + eapply find_none in F'; eauto. congruence.
Qed.

(* writing *)
Lemma flush_spec can s s' ok : flush can s = (s', ok) ->
  s_ins s' = s_ins s /\ s_made s' = s_made s /\ s_stop s' = s_stop s /\ produced s' = produced s /\
  (if ok then s_out s' = None /\ can = true else s' = s /\ (can = false \/ in_out s = [])).
Proof.
  unfold flush, produced, in_out. destruct (s_out s) as [[cap [|e l]]|] eqn:O; [|destruct can|]; intros [= <- <-]; cbn; rewrite ?O; auto 10.
  repeat split. rewrite concat_app. cbn. rewrite !app_nil_r. reflexivity.
Qed.

Definition made_event (l : list inp) (g : group) (x : mevent) : Prop :=
  exists h, header l = Ok h /\ x = mkME mbs_type (me_trig h) (me_num h) (group_subs g).

Lemma write_spec (e : env) l g s s' ok : write e l g s = Ok (s', ok) ->
  s_ins s' = s_ins s /\
  ((s_made s' = s_made s /\ produced s' = produced s) \/
   (ok = true /\ s_made s' = s_made s ++ [g] /\ exists x, made_event l g x /\ produced s' = produced s ++ [x])).
Proof.
  unfold write. set (sz := lenN _).
  set (r1 := match s_out s with Some o => if place o sz then (s, true) else flush (e_send1 e) s | None => (s, true) end).
  assert (H1 : s_ins (fst r1) = s_ins s /\ s_made (fst r1) = s_made s /\ produced (fst r1) = produced s).
  { subst r1. destruct (s_out s) as [o|]; cbn; auto. destruct (place o sz); cbn; auto.
    destruct (flush (e_send1 e) s) as [s1 b] eqn:F. apply flush_spec in F. cbn. tauto. }
  destruct r1 as [s1 b1]. cbn in H1. destruct H1 as (A1 & A2 & A3).
  destruct b1; cbn; [|intros [= <- <-]; auto].
  set (r2 := match s_out s1 with Some _ => (s1, true) | None => _ end).
  assert (H2 : s_ins (fst r2) = s_ins s /\ s_made (fst r2) = s_made s /\ produced (fst r2) = produced s).
  { subst r2. destruct (s_out s1) as [o|] eqn:O; cbn; auto. destruct (e_take e) as [cap|]; cbn; auto.
    destruct (cap <? 28); cbn; auto. repeat split; auto. rewrite <- A3. unfold produced, in_out. cbn. rewrite O. reflexivity. }
  destruct r2 as [s2 b2]. cbn in H2. destruct H2 as (B1 & B2 & B3).
  destruct b2; cbn; [|intros [= <- <-]; auto].
  destruct (s_out s2) as [[cap evs]|] eqn:O; [|discriminate].
  destruct (place (cap, evs) sz); cbn; [|intros [= <- <-]; auto].
  destruct (header l) as [h| |] eqn:Hh; cbn; try discriminate.
  set (x := mkME _ _ _ _). set (s3 := mkS _ _ _ _ _ _).
  assert (P3 : produced s3 = produced s ++ [x]).
  { rewrite <- B3. unfold produced, in_out. subst s3. cbn. rewrite O, app_assoc. reflexivity. }
  assert (M3 : made_event l g x) by (exists h; split; auto).
  destruct (place _ 0); intros [= <- <-].
  - cbn. split; auto. right. split; auto. split; [cbn; congruence|]. exists x. auto.
  - destruct (flush (e_send2 e) s3) as [s4 b] eqn:F. apply flush_spec in F. cbn. destruct F as (F1 & F2 & F3 & F4 & _).
    split; [rewrite F1; auto|]. right. split; auto. split; [rewrite F2; cbn; congruence|]. exists x. split; auto. congruence.
Qed.

Lemma write_ok (e : env) l g s : Forall sel_ok l -> (exists p, In p l /\ p_sel p = true) -> exists r, write e l g s = Ok r.
Proof.
  intros H1 H2. destruct (header_ok l H1 H2) as [h Hh]. unfold write. set (sz := lenN _).
  destruct (match s_out s with Some o => _ | None => _ end) as [s1 [|]]; cbn; [|eauto].
  destruct (s_out s1) as [[cap evs]|] eqn:O.
  - cbn. rewrite O. destruct (place (cap, evs) sz); cbn; [|eauto]. rewrite Hh. cbn. eauto.
  - destruct (e_take e) as [cap|]; cbn; [|eauto]. destruct (cap <? 28); cbn; [eauto|].
    destruct (place (cap, []) sz); cbn; [|eauto]. rewrite Hh. cbn. eauto.
Qed.

(* ---- one call of BuildEvent ---- *)

Definition chosen (l l2 : list inp) : Prop :=
  (exists k, find_special 0 l = Some k /\ l2 = mark k l) \/
  (find_special 0 l = None /\ exists n ns b d, nums l = n :: ns /\ pick (f_mask c) n ns = (b, d) /\ l2 = select b l).

Lemma fold_min_spec l : forall n, In (fold_left N.min l n) (n :: l) /\ (forall x, In x (n :: l) -> fold_left N.min l n <= x).
Proof.
  induction l as [|y l IH]; intros n; cbn [fold_left].
  - split; [left; auto|]. intros x [<-|[]]. lia.
  - destruct (IH (N.min n y)) as [I1 I2]. split.
    + destruct I1 as [I1|I1]; [|right; right; auto]. rewrite <- I1. destruct (N.min_spec n y) as [[_ ->]|[_ ->]]; cbn; auto.
    + intros x [<-|[<-|X]].
      * specialize (I2 _ (or_introl eq_refl)). lia.
      * specialize (I2 _ (or_introl eq_refl)). lia.
      * apply I2. right. auto.
Qed.
Lemma fold_max_spec l : forall n, In (fold_left N.max l n) (n :: l) /\ (forall x, In x (n :: l) -> x <= fold_left N.max l n).
Proof.
  induction l as [|y l IH]; intros n; cbn [fold_left].
  - split; [left; auto|]. intros x [<-|[]]. lia.
  - destruct (IH (N.max n y)) as [I1 I2]. split.
    + destruct I1 as [I1|I1]; [|right; right; auto]. rewrite <- I1. destruct (N.max_spec n y) as [[_ ->]|[_ ->]]; cbn; auto.
    + intros x [<-|[<-|X]].
      * specialize (I2 _ (or_introl eq_refl)). lia.
      * specialize (I2 _ (or_introl eq_refl)). lia.
      * apply I2. right. auto.
Qed.
Lemma pick_in mask n ns b d : pick mask n ns = (b, d) -> In b (n :: ns).
Proof.
  unfold pick. destruct (_ <? _); intros [= <- _]; [apply fold_max_spec|apply fold_min_spec].
Qed.

Lemma in_nums l b : In b (nums l) -> exists p, In p l /\ counted p = true /\ p_num p = b.
Proof.
  unfold nums. rewrite in_map_iff. intros (p & <- & H). apply filter_In in H. exists p. tauto.
Qed.
Lemma nums_in l p : In p l -> counted p = true -> In (p_num p) (nums l).
Proof. intros. unfold nums. apply in_map. apply filter_In. auto. Qed.

Lemma counted_it p : counted p = true -> p_it p <> None /\ g_nonum (p_cfg p) = false.
Proof. unfold counted. intros H. apply andb_prop in H. destruct H as [H1 H2]. apply negb_true_iff in H1. destruct (p_it p); [|discriminate]. split; auto. discriminate. Qed.

Lemma chosen_facts l l2 : Forall in_ok l -> Forall (fun p => p_sel p = false) l -> chosen l l2 ->
  Forall2 same_in l l2 /\ Forall sel_ok l2 /\ (exists p, In p l2 /\ p_sel p = true /\ g_nonum (p_cfg p) = false).
Proof.
  intros K Z C. destruct C as [(k & Fk & ->)|(Fk & n & ns & b & d & E & P & ->)].
  - split; [apply mark_same|]. apply find_special_spec in Fk. destruct Fk as (q & _ & F1 & F2 & F3). rewrite Nat.sub_0_r in F1. split.
    + apply Forall_forall. intros p I. apply In_nth_error in I. destruct I as [i I]. apply mark_nth in I. destruct I as (p0 & I & ->).
      intros S. destruct (Nat.eqb i k) eqn:Ek.
      * apply Nat.eqb_eq in Ek. subst i. assert (p0 = q) by congruence. subst. cbn. apply counted_it; auto.
      * rewrite Forall_forall in Z. rewrite Z in S; [discriminate|]. eapply nth_error_In; eauto.
    + assert (nth_error (mark k l) k = Some (set_sel true q)).
      { clear - F1. revert k F1. induction l as [|p l IH]; intros [|k] F; cbn in *; try discriminate; try congruence. apply IH; auto. }
      exists (set_sel true q). split; [eapply nth_error_In; eauto|]. split; [reflexivity|]. apply counted_it in F2. apply F2.
  - split; [apply select_same|]. split.
    + apply Forall_forall. intros p I. apply In_nth_error in I. destruct I as [i I]. apply select_nth in I. destruct I as (p0 & I & ->).
      apply nth_error_In in I. rewrite Forall_forall in K, Z. specialize (K _ I). specialize (Z _ I). intros S.
      destruct (p_valid p0) eqn:V; cbn in *; [|congruence].
      assert (p_it p0 <> None). { unfold in_ok in K. destruct (p_it p0); [discriminate|]. destruct K. congruence. }
      destruct (_ || _); auto.
    + apply pick_in in P. rewrite <- E in P. apply in_nums in P. destruct P as (p & I & C & N).
      exists (set_sel true p). split; [|split; [reflexivity|apply counted_it in C; apply C]]. unfold select. apply in_map_iff. exists p. split; auto.
      assert (V : p_valid p = true). { rewrite Forall_forall in K. specialize (K _ I). unfold in_ok in K. apply counted_it in C. destruct (p_it p) as [[]|]; [apply K|]. tauto. }
      rewrite V, N, N.eqb_refl. reflexivity.
Qed.

Definition must_skip (now : N) (l l2 : list inp) (g : group) : Prop :=
  find_special 0 l = None /\
  ((f_full c = true /\ exists p, In p l2 /\ missed c now p = true) \/
   (f_chk c = true /\ has_dup (map ms_id (group_subs g)) = true)).

Definition entry (now : N) (mf : bool) (l : list inp) : Prop :=
  Forall in_ok l /\
  Forall (fun p' => p_sel p' = false /\ (p_it p' = None -> pending p' = [] /\
       (g_nonum (p_cfg p') || mf && negb (f_full c) || g_opt (p_cfg p') && late c now p') = true)) l.

Definition anyfull (s : st) : bool := existsb (fun p => mandatory (p_cfg p) && qfull p) (s_ins s).

Inductive case (e : env) (s s' : st) : bool -> Prop :=
| K_clean : f_full c = true -> (exists p, In p (s_ins s) /\ mandatory (p_cfg p) = true /\ p_conn p = false) ->
    s' = set_ins (map clean (s_ins s)) s -> case e s s' false
| K_wait l ok : prep_all c (e_now e) (anyfull s) (s_ins s) = (l, ok) -> Forall2 looked (s_ins s) l ->
    (ok = false \/ nums l = [] \/ 0 < f_tol c) ->
    s_ins s' = l -> s_out s' = s_out s -> s_sent s' = s_sent s -> s_flag s' = s_flag s -> s_made s' = s_made s -> case e s s' false
| K_full l l2 g s1 : prep_all c (e_now e) (anyfull s) (s_ins s) = (l, true) -> Forall2 looked (s_ins s) l -> entry (e_now e) (anyfull s) l -> chosen l l2 ->
    group_of l2 = Ok g -> write e l2 g (set_ins l2 s) = Ok (s1, false) -> s' = s1 -> case e s s' false
| K_skip l l2 g : prep_all c (e_now e) (anyfull s) (s_ins s) = (l, true) -> Forall2 looked (s_ins s) l -> entry (e_now e) (anyfull s) l -> chosen l l2 ->
    group_of l2 = Ok g -> must_skip (e_now e) l l2 g ->
    s' = set_ins (finish c (e_now e) true l2) s -> case e s s' true
| K_made l l2 g s1 : prep_all c (e_now e) (anyfull s) (s_ins s) = (l, true) -> Forall2 looked (s_ins s) l -> entry (e_now e) (anyfull s) l -> chosen l l2 ->
    group_of l2 = Ok g -> ~ must_skip (e_now e) l l2 g -> write e l2 g (set_ins l2 s) = Ok (s1, true) ->
    s' = set_ins (finish c (e_now e) false l2) s1 -> case e s s' true.

Lemma looked_ok l l' : Forall2 looked l l' -> Forall in_ok l'.
Proof. induction 1; constructor; auto. apply H. Qed.

Lemma build_cases (e : env) s : Forall in_ok (s_ins s) -> exists s' ok, build c e s = Ok (s', ok) /\ case e s s' ok.
Proof.
  intros K. unfold build. fold (anyfull s).
  destruct (existsb (fun p => mandatory (p_cfg p) && negb (p_conn p)) (s_ins s) && f_full c) eqn:D.
  { eexists _, _. split; [reflexivity|]. apply andb_prop in D. destruct D as [D1 D2]. apply existsb_exists in D1.
    destruct D1 as (p & P1 & P2). apply andb_prop in P2. destruct P2 as [P2 P3]. apply negb_true_iff in P3. eapply K_clean; eauto. }
  destruct (prep_all c (e_now e) (anyfull s) (s_ins s)) as [l ok] eqn:P.
  destruct (prep_all_spec _ _ _ _ _ K P) as [L Z].
  destruct ok; cbn [negb]; [|eexists _, _; split; [reflexivity|]; eapply K_wait; eauto].
  specialize (Z eq_refl). assert (Kl := looked_ok _ _ L).
  assert (En : entry (e_now e) (anyfull s) l) by (split; auto).
  assert (Zs : Forall (fun p => p_sel p = false) l) by (eapply Forall_impl; [|exact Z]; cbn; tauto).
  destruct (nums l) as [|n ns] eqn:Nl; [eexists _, _; split; [reflexivity|]; eapply K_wait; eauto|].
  set (choice := match find_special 0 l with Some _ => _ | None => _ end).
  destruct choice as [l2|] eqn:Ch; [|eexists _, _; split; [reflexivity|]; eapply K_wait; eauto; right; right;
    subst choice; destruct (find_special 0 l); [discriminate|]; destruct (pick _ _ _); destruct (0 <? f_tol c) eqn:T; [lia|discriminate]].
  assert (Cl : chosen l l2).
  { subst choice. destruct (find_special 0 l) as [k|] eqn:Fk.
    - left. exists k. split; auto. congruence.
    - right. split; auto. destruct (pick (f_mask c) n ns) as [b d] eqn:Pk. exists n, ns, b, d.
      bdestr Ch; [discriminate|]. injection Ch as <-. auto. }
  clear Ch. destruct (chosen_facts l l2 Kl Zs Cl) as (Sm & So & (ps & Ps1 & Ps2 & _)).
  destruct (group_ok l2 So) as (g & G & _). rewrite G. cbn [bind].
  match goal with |- context [if ?b && ?n then _ else _] => destruct (b && n) eqn:Sk end.
  - eexists _, _. split; [reflexivity|]. eapply K_skip; eauto. unfold must_skip.
    apply andb_prop in Sk. destruct Sk as [S1 S2]. destruct (find_special 0 l); [discriminate|]. split; auto.
    apply orb_prop in S1. destruct S1 as [S1|S1]; apply andb_prop in S1; destruct S1 as [S1 S3]; [left|right]; split; auto.
    apply existsb_exists in S3. exact S3.
  - assert (Ns : ~ must_skip (e_now e) l l2 g).
    { intros (M1 & M2). rewrite M1, andb_true_r in Sk. apply orb_false_elim in Sk. destruct Sk as [Sk1 Sk2].
      destruct M2 as [[M2 M3]|[M2 M3]]; rewrite M2 in *; cbn in *; [|congruence].
      rewrite <- existsb_exists in M3. congruence. }
    destruct (write_ok e l2 g (set_ins l2 s) So ltac:(eauto)) as [[s1 ok] W]. rewrite W. cbn [bind].
    destruct ok; eexists _, _; (split; [reflexivity|]).
    + eapply K_made; eauto.
    + eapply K_full; eauto.
Qed.

(* what going on does to an input *)
Definition advanced (skip : bool) p p' : Prop :=
  if p_sel p && negb (skip && g_nonum (p_cfg p))
  then in_ok p' /\ p_cfg p' = p_cfg p /\ p_conn p' = p_conn p /\ p_done p' ++ pending p' = p_done p ++ pending p /\
       (exists sk, p_done p' = p_done p ++ head p ++ sk /\ unnumbered (p_cfg p) sk)
  else p' = p.
Lemma finish_spec now skip l : Forall in_ok l -> Forall2 (advanced skip) l (finish c now skip l).
Proof.
  induction l as [|p l IH]; cbn; intros K; inversion K; subst; constructor; auto. unfold advanced.
  destruct (p_sel p && _); auto. destruct (shift_ev c p) as [p' ok] eqn:E. apply shift_spec in E; auto.
  destruct E as (A1 & A2 & A3 & A4 & A5 & A6 & A7 & A8 & A9). destruct ok; auto.
Qed.

Lemma clean_spec p : in_ok p -> in_ok (clean p) /\ p_cfg (clean p) = p_cfg p /\ p_conn (clean p) = p_conn p /\
  p_done (clean p) ++ pending (clean p) = p_done p ++ pending p /\ exists sk, p_done (clean p) = p_done p ++ sk.
Proof.
  intros K. unfold clean. destruct (_ || _).
  - unfold shift_buf, in_ok. cbn. repeat split; auto; [|eauto]. rewrite <- app_assoc. f_equal.
    unfold in_buffer, pending. destruct (p_it p) as [[e r]|]; cbn; auto. destruct (p_queue p); cbn; auto.
  - repeat split; auto. exists []. rewrite app_nil_r. auto.
Qed.
End C.
