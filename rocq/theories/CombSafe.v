(* Invariants of the event builder which hold for any data. *)
From Verif Require Import Common ListFacts Bytes WordMem BufPtr HadSpec HadModel HadWords HadRead TrigModel TrigProofs CombSpec CombModel CombWrite CombIn.
Local Open Scope N_scope.

Section S.
Variable c : conf.
Variable k : N.
Hypothesis HM : c_max c = 2^k.
Hypothesis HK : k < 31.
Variable B : N.   (* largest item *)

Definition iok (x : item) : Prop := item_ok x /\ i_size x <= B.
Lemma iok_word x : iok x -> i_word x < 2^32.
Proof.
  intros (H & _). destruct x as [x|u]; cbn [i_word item_ok] in *; [apply H|]. destruct H as ((_ & F & _) & L).
  destruct (u_rest u) as [|a [|b r]]; try discriminate. cbn [nth]. inversion F as [|? ? _ F2]; subst. inversion F2; subst. assumption.
Qed.
Lemma iok_subs x : iok x -> Forall sub_ok (i_subs x).
Proof. intros (H & _). destruct x as [x|u]; cbn [i_subs item_ok] in *; [constructor; [exact H|constructor]|]. apply H. Qed.

Record pok (p : inp) : Prop := mkPok {
  pk_item : forall x, p_item p = Some x -> carries k x (p_trig p) /\ p_trig p < 2^k;
  pk_last : p_last p = none \/ p_last p < 2^k;
  pk_ok : Forall iok (all p)
}.
Lemma pok_new : pok inp_new.
Proof. split; [discriminate|left; reflexivity|constructor]. Qed.

Lemma shift_pok p p1 ok : pok p -> shift_next c p = (p1, ok) ->
  pok p1 /\ all p1 = left p /\ (p_item p1 <> None <-> ok = true) /\ (ok = true -> length (left p) = S (length (left p1))).
Proof.
  intros [Hi Hl Ho] E. assert (Q := shift_spec c p). rewrite E in Q.
  assert (Fl : Forall iok (left p)). { unfold all in Ho. apply Forall_app in Ho. apply Ho. }
  destruct ok.
  - destruct Q as (x & Ex & El & Et & Ela). assert (Al : all p1 = left p) by (unfold all; rewrite Ex; symmetry; exact El).
    assert (Kx : iok x) by (rewrite El in Fl; inversion Fl; assumption).
    assert (Et2 := trig_of_spec c k (p_last p) x HM HK Hl (iok_word x Kx)). rewrite Et2 in Et.
    assert (Lt : p_trig p1 < 2^k) by (rewrite Et; apply next_number_lt).
    split; [|split; [exact Al|]]; [split|].
    + intros y Ey. rewrite Ex in Ey. injection Ey as <-. split; [|exact Lt]. rewrite Et. apply next_number_carries. unfold opt. destruct (N.eqb_spec (p_last p) none); [exact I|]. destruct Hl; [congruence|assumption].
    + right. rewrite Ela. exact Lt.
    + rewrite Al. exact Fl.
    + rewrite Ex. split; [split; [reflexivity|discriminate]|]. intros _. rewrite El. reflexivity.
  - destruct Q as (Ex & El & Ela). assert (Al : all p1 = left p) by (unfold all; rewrite Ex; exact El).
    split; [|split; [exact Al|]]; [split|].
    + rewrite Ex. discriminate.
    + rewrite Ela. exact Hl.
    + rewrite Al. exact Fl.
    + rewrite Ex. split; [split; [congruence|discriminate]|discriminate].
Qed.

(* [p] after some of its items were consumed *)
Definition moved (p p1 : inp) : Prop := pok p1 /\ exists d, all p = d ++ all p1.
Lemma moved_refl p : pok p -> moved p p.
Proof. intros H. split; [exact H|]. exists []. reflexivity. Qed.
Lemma moved_trans p q r : moved p q -> moved q r -> moved p r.
Proof. intros (_ & d & E) (K & d2 & E2). split; [exact K|]. exists (d ++ d2). rewrite E, E2. apply app_assoc. Qed.
Lemma shift_moved p : pok p -> moved p (fst (shift_next c p)).
Proof.
  intros H. destruct (shift_next c p) as (p1, ok) eqn:E. destruct (shift_pok _ _ _ H E) as (K & A & _). split; [exact K|]. cbn [fst]. rewrite A. unfold all. eauto.
Qed.
Lemma fill_moved p : pok p -> moved p (match p_item p with Some _ => p | None => fst (shift_next c p) end).
Proof. intros H. destruct (p_item p); [apply moved_refl; exact H|apply shift_moved; exact H]. Qed.
Lemma drop_moved p : moved p (drop_input p).
Proof. split; [apply pok_new|]. exists (all p). unfold all at 2. cbn. rewrite app_nil_r. reflexivity. Qed.

Lemma align_ok fuel : forall b p, pok p -> p_item p <> None -> (length (left p) < fuel)%nat ->
  exists p1 o, align fuel c b p = Ok (p1, o) /\ moved p p1 /\ (o <> None -> p_item p1 <> None) /\ (o = Some true -> p_trig p1 = b).
Proof.
  induction fuel as [|fuel IH]; intros b p H Hi Hf; [lia|]. cbn [align]. destruct (N.eqb_spec (p_trig p) b) as [E|E].
  - exists p, (Some true). split; [reflexivity|]. split; [apply moved_refl; exact H|auto].
  - destruct (Z.ltb_spec 0 (tdiff c (p_trig p) b)).
    + destruct (shift_next c p) as (p1, ok) eqn:Es. destruct (shift_pok _ _ _ H Es) as (K & A & I & L). assert (Mv := shift_moved p H). rewrite Es in Mv. cbn [fst] in Mv. destruct ok.
      * destruct (IH b p1 K) as (p2 & o & E2 & M2 & I2 & T2); [apply I; reflexivity|specialize (L eq_refl); lia|]. exists p2, o. split; [exact E2|]. split; [exact (moved_trans _ _ _ Mv M2)|auto].
      * exists p1, None. split; [reflexivity|]. split; [exact Mv|split; [congruence|discriminate]].
    + exists p, (Some false). split; [reflexivity|]. split; [apply moved_refl; exact H|split; [auto|discriminate]].
Qed.

(* result of the second loop for one input *)
Definition aligned (b : N) (p p1 : inp) (o : option bool) : Prop := align (S (length (left p))) c b p = Ok (p1, o).
Lemma align_all_ok b l : Forall pok l -> Forall (fun p => p_item p <> None) l ->
  exists l1 o, align_all c b l = Ok (l1, o) /\
    Forall2 (fun p p1 => p1 = p \/ exists o, aligned b p p1 o) l l1 /\
    match o with
    | None => True
    | Some f => exists fs, f = forallb (fun b => b) fs /\ Forall2 (fun p q => aligned b p (fst q) (Some (snd q))) l (combine l1 fs) /\ length fs = length l
    end.
Proof.
  induction l as [|p l IH]; intros F I; cbn [align_all].
  - exists [], (Some true). split; [reflexivity|]. split; [constructor|]. exists []. repeat constructor.
  - inversion F as [|? ? Hp F']; subst. inversion I as [|? ? Ip I']; subst. destruct (align_ok _ b p Hp Ip (Nat.lt_succ_diag_r _)) as (p1 & o & E & _). assert (E' := E). rewrite E. cbn [bind]. destruct o as [f|].
    + destruct (IH F' I') as (l1 & o & E1 & F2 & C). rewrite E1. cbn [bind]. destruct o as [f2|].
      * exists (p1 :: l1), (Some (f && f2)). split; [reflexivity|]. split; [constructor; [right; exists (Some f); exact E'|exact F2]|]. destruct C as (fs & -> & C & Lf). exists (f :: fs). split; [reflexivity|]. split; [constructor; [exact E'|exact C]|cbn; lia].
      * exists (p1 :: l1), None. split; [reflexivity|]. split; [constructor; [right; exists (Some f); exact E'|exact F2]|exact Logic.I].
    + exists (p1 :: l), None. split; [reflexivity|]. split; [constructor; [right; exists None; exact E'|]|exact Logic.I]. clear. induction l; constructor; auto.
Qed.
Lemma aligned_moved b p p1 o : pok p -> p_item p <> None -> aligned b p p1 o -> moved p p1 /\ (o <> None -> p_item p1 <> None) /\ (o = Some true -> p_trig p1 = b).
Proof.
  intros H I E. destruct (align_ok _ b p H I (Nat.lt_succ_diag_r _)) as (q & o2 & E2 & R). unfold aligned in E. rewrite E in E2. injection E2 as <- <-. exact R.
Qed.

(* ---- the invariant ---- *)
Variable n : nat.
Definition ikeep (built : list (N * list item)) (i : nat) (p : inp) (a : list item) : Prop := pok p /\ exists P, a = P ++ all p /\ sublist (of_input i built) P.
Definition group_ok (g : N * list item) : Prop := fst g < 2^k /\ length (snd g) = n /\ Forall (fun x => iok x /\ carries k x (fst g)) (snd g).
Definition sinv (a : nat -> list item) (s : comb) : Prop :=
  length (k_in s) = n /\ (forall i p, nth_error (k_in s) i = Some p -> ikeep (k_built s) i p (a i)) /\ Forall group_ok (k_built s).

Lemma sublist_app {A} (a1 a2 b1 b2 : list A) : sublist a1 b1 -> sublist a2 b2 -> sublist (a1 ++ a2) (b1 ++ b2).
Proof. intros H H2. induction H; cbn [app]; [exact H2|constructor; assumption|constructor; assumption]. Qed.
Lemma sublist_nil {A} (b : list A) : sublist [] b.
Proof. induction b; constructor; assumption. Qed.
Lemma sublist_refl {A} (b : list A) : sublist b b.
Proof. induction b; constructor; assumption. Qed.

Lemma moved_keep built i p p1 a : moved p p1 -> ikeep built i p a -> ikeep built i p1 a.
Proof.
  intros (K & d & E) (_ & P & Ea & Sb). split; [exact K|]. exists (P ++ d). split; [rewrite Ea, E; apply app_assoc|]. rewrite <- (app_nil_r (of_input i built)). apply sublist_app; [exact Sb|apply sublist_nil].
Qed.
Lemma nth2 {A C} (R : A -> C -> Prop) l1 l2 i y : Forall2 R l1 l2 -> nth_error l2 i = Some y -> exists x, nth_error l1 i = Some x /\ R x y.
Proof. intros F. revert i. induction F as [|a b l1 l2 H F IH]; intros [|i] E; cbn in *; try discriminate; [injection E as <-; eauto|apply IH; exact E]. Qed.
Lemma len2 {A C} (R : A -> C -> Prop) l1 l2 : Forall2 R l1 l2 -> length l1 = length l2.
Proof. induction 1; cbn; congruence. Qed.

(* consumption without event *)
Lemma skip_ok a s s1 : sinv a s -> Forall2 moved (k_in s) (k_in s1) -> k_built s1 = k_built s -> sinv a s1.
Proof.
  intros (L & H & G) F E. split; [rewrite <- (len2 _ _ _ F); exact L|]. rewrite E. split; [|exact G].
  intros i p Hp. destruct (nth2 _ _ _ _ _ F Hp) as (q & Hq & M). exact (moved_keep _ _ _ _ _ M (H i q Hq)).
Qed.

Lemma members_nth l i p : Forall (fun p => p_item p <> None) l -> nth_error l i = Some p -> nth_error (members l) i = p_item p.
Proof.
  intros F. revert i. induction F as [|q l H F IH]; intros [|i] E; cbn in *; try discriminate.
  - injection E as ->. destruct (p_item p); [reflexivity|congruence].
  - destruct (p_item q); [|congruence]. cbn. apply IH. exact E.
Qed.
Lemma members_len l : Forall (fun p => p_item p <> None) l -> length (members l) = length l.
Proof. induction 1 as [|q l H F IH]; [reflexivity|]. unfold members in *. cbn [map concat]. destruct (p_item q); [|congruence]. cbn. f_equal. exact IH. Qed.

(* an event *)
Lemma take_ok a s s1 b : sinv a s -> Forall (fun p => p_item p <> None /\ p_trig p = b) (k_in s) -> (0 < n)%nat ->
  k_in s1 = advance c b (k_in s) -> k_built s1 = k_built s ++ [(b, members (k_in s))] -> sinv a s1.
Proof.
  intros (L & H & G) F Hn Ei Eb. assert (Fi : Forall (fun p => p_item p <> None) (k_in s)) by (eapply Forall_impl; [|exact F]; intros p (Q & _); exact Q).
  split; [rewrite Ei; unfold advance; rewrite map_length; exact L|]. split.
  - intros i p Hp. rewrite Ei in Hp. unfold advance in Hp. rewrite nth_error_map in Hp. destruct (nth_error (k_in s) i) as [q|] eqn:Eq; [|discriminate]. cbn in Hp. injection Hp as <-.
    destruct (proj1 (Forall_forall _ _) F q (nth_error_In _ _ Eq)) as (Qi & Qt). rewrite Qt, N.eqb_refl.
    destruct (H i q Eq) as (K & P & Ea & Sb). destruct (shift_next c q) as (q1, ok) eqn:Es. cbn [fst]. destruct (shift_pok _ _ _ K Es) as (K1 & A1 & _).
    split; [exact K1|]. destruct (p_item q) as [x|] eqn:Ex; [|congruence]. exists (P ++ [x]). split.
    + rewrite Ea. unfold all at 1. rewrite Ex, <- app_assoc, A1. reflexivity.
    + rewrite Eb. unfold of_input. rewrite map_app, concat_app. apply sublist_app; [exact Sb|]. cbn [map concat snd]. rewrite (members_nth _ _ _ Fi Eq), Ex. apply sublist_refl.
  - rewrite Eb. apply Forall_app. split; [exact G|]. constructor; [|constructor]. unfold group_ok. cbn [fst snd]. split; [|split; [rewrite members_len; assumption|]].
    + destruct (k_in s) as [|p0 r] eqn:E0; [cbn in L; lia|]. inversion F as [|? ? (Q & <-) _]; subst. destruct (H 0%nat p0 eq_refl) as ([Pi _ _] & _). destruct (p_item p0) as [x|]; [|congruence]. apply (Pi x eq_refl).
    + apply Forall_forall. intros x Hx. destruct (In_nth_error _ _ Hx) as (i & Ei2). destruct (nth_error (k_in s) i) as [p|] eqn:Ep.
      * rewrite (members_nth _ _ _ Fi Ep) in Ei2. destruct (H i p Ep) as ([Pi _ Po] & _). destruct (proj1 (Forall_forall _ _) F p (nth_error_In _ _ Ep)) as (_ & <-). split; [|apply (Pi x Ei2)]. unfold all in Po. rewrite Ei2 in Po. inversion Po; assumption.
      * exfalso. apply nth_error_None in Ep. assert (Q : (i < length (members (k_in s)))%nat) by (apply nth_error_Some; congruence). rewrite members_len in Q by exact Fi. lia.
Qed.

(* ---- BuildEvent ---- *)
Definition dflt : item := IEvt (mkUnit false 0 [] []).
Definition t_err (g : list item) : bool := negb (forallb (fun x => i_tag x =? i_tag (hd dflt g)) (used (c_skip c) g)).
Definition d_err (g : list item) : bool := existsb i_err (used (c_skip c) g).
Definition sz (g : list item) : N := total (used (c_skip c) g) mod 2^32.
Definition seq_of (s : comb) (b : N) (g : list item) : N := if c_bsend c then N.lor ((b * 256) mod 2^32) (i_tag (hd dflt g)) else (k_count s + 1) mod 2^32.

Inductive outcome (e : env) (s : comb) : comb -> bool -> Prop :=
| o_drop l : l = fill c (k_in s) -> drop_all c e l = true -> outcome e s (set_in s (map drop_input l)) false
| o_wait l : l = fill c (k_in s) -> drop_all c e l = false -> forallb has_data l = false -> outcome e s (set_in s l) false
| o_stop l b l2 : l = fill c (k_in s) -> drop_all c e l = false -> forallb has_data l = true -> b = p_trig (hd inp_new l) -> align_all c b l = Ok (l2, None) ->
    outcome e s (set_in s l2) false
| o_pass l b l2 cm s2 : l = fill c (k_in s) -> drop_all c e l = false -> forallb has_data l = true -> b = p_trig (hd inp_new l) -> align_all c b l = Ok (l2, Some cm) ->
    cm && negb (c_check c && t_err (members l2)) = false ->
    s2 = (if cm then add_terr (set_in s l2) else set_in s l2) -> outcome e s (set_in s2 (advance c b l2)) true
| o_full l b l2 s3 : l = fill c (k_in s) -> drop_all c e l = false -> forallb has_data l = true -> b = p_trig (hd inp_new l) -> align_all c b l = Ok (l2, Some true) ->
    c_check c && t_err (members l2) = false -> prepare c e (set_in s l2) b (sz (members l2)) = inl s3 -> outcome e s s3 false
| o_big l b l2 s3 w : l = fill c (k_in s) -> drop_all c e l = false -> forallb has_data l = true -> b = p_trig (hd inp_new l) -> align_all c b l = Ok (l2, Some true) ->
    c_check c && t_err (members l2) = false -> prepare c e (set_in s l2) b (sz (members l2)) = inr (s3, w) -> is_place w (sz (members l2)) = false ->
    outcome e s (set_in s3 (advance c b l2)) true
| o_event l b l2 s3 w w1 g : l = fill c (k_in s) -> drop_all c e l = false -> forallb has_data l = true -> b = p_trig (hd inp_new l) -> align_all c b l = Ok (l2, Some true) ->
    g = members l2 -> c_check c && t_err g = false -> prepare c e (set_in s l2) b (sz g) = inr (s3, w) -> is_place w (sz g) = true ->
    put_event w (seq_of s3 b g) (e_run e) (e_date e) (e_clock e) (N.lor (group_type c g) 0x2000) (d_err g || t_err g) (used (c_skip c) g) = Ok w1 ->
    outcome e s (mkC (advance c b l2) (Some w1) b (k_count s3 + 1) (k_derr s3 + if d_err g then 1 else 0) (k_terr s3 + if t_err g then 1 else 0)
                   (k_built s3 ++ [(b, g)]) (k_sent s3) (k_exact s3 || (32 + sz g =? avail w))) true.

Lemma flush_spec e s s1 : flush c e s = Some s1 ->
  exists w, k_out s = Some w /\ w_full w <> 0 /\ s1 = set_out s None (k_sent s ++ [(dest_port c (k_last s), w_close w)]).
Proof.
  unfold flush. destruct (k_out s) as [w|]; [|discriminate]. destruct (N.eqb_spec (w_full w) 0); [discriminate|].
  cbv zeta.
  match goal with |- (if ?x then _ else _) = _ -> _ => destruct x end; [|discriminate]. intros H. injection H as <-. eauto.
Qed.
Lemma prepare_spec e s b size : match prepare c e s b size with
  | inl s1 => s1 = s \/ flush c e s = Some s1
  | inr (s1, w) => (s1 = s /\ k_out s = Some w /\ is_place w size = true /\ check_dest c s b = true) \/
      exists s0 m, (s0 = s /\ k_out s = None \/ flush c e s = Some s0) /\ k_out s0 = None /\ e_buf e = Some m /\ w_reset m = Some w /\ s1 = set_out s0 (Some w) (k_sent s0)
  end.
Proof.
  unfold prepare. destruct (k_out s) as [w0|] eqn:Eo.
  - destruct (is_place w0 size) eqn:Ep, (check_dest c s b) eqn:Ed; cbn [negb orb].
    1: { rewrite Eo. left. auto. }
    all: destruct (flush c e s) as [s0|] eqn:Ef; [|left; reflexivity]; destruct (flush_spec _ _ _ Ef) as (w1 & _ & _ & E0);
      assert (O0 : k_out s0 = None) by (rewrite E0; reflexivity); rewrite O0; destruct (e_buf e) as [m|]; [|right; reflexivity]; destruct (w_reset m) as [w|] eqn:Er; [|right; reflexivity];
      right; exists s0, m; repeat split; auto.
  - rewrite Eo. destruct (e_buf e) as [m|]; [|left; reflexivity]. destruct (w_reset m) as [w|] eqn:Er; [|left; reflexivity]. right. exists s, m. repeat split; auto.
Qed.
Definition same_rest (s s1 : comb) : Prop := k_in s1 = k_in s /\ k_last s1 = k_last s /\ k_count s1 = k_count s /\ k_derr s1 = k_derr s /\ k_terr s1 = k_terr s /\ k_built s1 = k_built s /\ k_exact s1 = k_exact s.
Lemma flush_rest e s s1 : flush c e s = Some s1 -> same_rest s s1.
Proof. intros E. destruct (flush_spec _ _ _ E) as (w & _ & _ & ->). repeat split. Qed.
Lemma prepare_rest e s b size : match prepare c e s b size with inl s1 => same_rest s s1 | inr (s1, _) => same_rest s s1 end.
Proof.
  assert (Q := prepare_spec e s b size). destruct (prepare c e s b size) as [s1|(s1 & w)].
  - destruct Q as [->|Q]; [repeat split|exact (flush_rest _ _ _ Q)].
  - destruct Q as [(-> & _)|(s0 & m & [(-> & _)|Q] & _ & _ & _ & ->)]; [repeat split|repeat split|]. exact (flush_rest _ _ _ Q).
Qed.
Lemma prepare_wok e s b size s1 w : (match k_out s with Some w => wok w | None => True end) ->
  (match e_buf e with Some m => lenN m < 2^32 | None => True end) -> prepare c e s b size = inr (s1, w) -> wok w.
Proof.
  intros Ho He E. assert (Q := prepare_spec e s b size). rewrite E in Q. destruct Q as [(-> & Q & _)|(s0 & m & _ & _ & Em & Er & _)].
  - rewrite Q in Ho. exact Ho.
  - rewrite Em in He. unfold w_reset in Er. destruct (lenN m <? 32 + 16); [discriminate|]. injection Er as <-. split; [exact He|left; reflexivity].
Qed.

Lemma has_data_all l : forallb has_data l = true <-> Forall (fun p => p_item p <> None) l.
Proof.
  rewrite forallb_forall, Forall_forall. unfold has_data. split; intros H p Hp; specialize (H p Hp); destruct (p_item p); try discriminate; auto; congruence.
Qed.

Lemma fill_pok l : Forall pok l -> Forall pok (fill c l) /\ Forall2 moved l (fill c l).
Proof.
  induction 1 as [|p l H F (IH & IH2)]; [split; constructor|]. cbn [fill map]. assert (M := fill_moved p H). split; constructor; auto. apply M.
Qed.

(* every call ends in one of the outcomes; nothing undefined *)
Lemma build_outcome e s : Forall pok (k_in s) -> (0 < length (k_in s))%nat -> (match k_out s with Some w => wok w | None => True end) ->
  (match e_buf e with Some m => lenN m < 2^32 | None => True end) ->
  exists s1 r, build c e s = Ok (s1, r) /\ outcome e s s1 r.
Proof.
  intros F Hn Ho He. destruct (fill_pok _ F) as (Fl & _). unfold build. remember (fill c (k_in s)) as l eqn:El.
  destruct (drop_all c e l) eqn:Ed; [eexists _, _; split; [reflexivity|]; eapply o_drop; eauto|].
  destruct (forallb has_data l) eqn:Eh; cbn [negb]; [|eexists _, _; split; [reflexivity|]; eapply o_wait; eauto].
  assert (Hi := proj1 (has_data_all l) Eh).
  assert (Ll : length l = length (k_in s)) by (rewrite El; unfold fill; apply map_length).
  destruct l as [|p0 r]; [cbn in Ll; lia|].
  destruct (align_all_ok (p_trig p0) _ Fl Hi) as (l2 & o & Ea & F2 & C). rewrite Ea. cbn [bind].
  destruct o as [cm|]; [|eexists _, _; split; [reflexivity|]; eapply o_stop; eauto].
  change (negb (forallb (fun x => i_tag x =? i_tag (hd (IEvt (mkUnit false 0 [] [])) (members l2))) (used (c_skip c) (members l2)))) with (t_err (members l2)).
  change (existsb i_err (used (c_skip c) (members l2))) with (d_err (members l2)).
  change (total (used (c_skip c) (members l2)) mod 2^32) with (sz (members l2)).
  destruct cm.
  - cbn [andb]. destruct (c_check c && t_err (members l2)) eqn:Et; cbn [negb].
    + eexists _, _. split; [reflexivity|]. change (k_in (add_terr (set_in s l2))) with l2. eapply (o_pass e s _ _ l2 true (add_terr (set_in s l2))); eauto. cbn. rewrite Et. reflexivity.
    + assert (Pi := prepare_rest e (set_in s l2) (p_trig p0) (sz (members l2))). destruct (prepare c e (set_in s l2) (p_trig p0) (sz (members l2))) as [s3|(s3 & w)] eqn:Ep.
      * eexists _, _. split; [reflexivity|]. eapply o_full; eauto.
      * destruct Pi as (Pi & _). change (k_in (set_in s l2)) with l2 in Pi. rewrite Pi. destruct (is_place w (sz (members l2))) eqn:Ew.
        -- assert (W : wok w) by exact (prepare_wok e (set_in s l2) _ _ _ _ Ho He Ep).
           destruct (put_event_in w (seq_of s3 (p_trig p0) (members l2)) (e_run e) (e_date e) (e_clock e) (N.lor (group_type c (members l2)) 0x2000) (d_err (members l2) || t_err (members l2)) (used (c_skip c) (members l2)) W) as (w1 & E1 & _).
           { unfold is_place in Ew. fold (avail w) in Ew. apply N.leb_le in Ew. lia. }
           unfold seq_of, dflt in E1. unfold dflt. rewrite E1. cbn [bind]. eexists _, _. split; [reflexivity|]. eapply (o_event e s _ _ l2 s3 w w1); eauto.
        -- eexists _, _. split; [reflexivity|]. eapply o_big; eauto.
  - cbn [andb]. eexists _, _. split; [reflexivity|]. eapply (o_pass e s _ _ l2 false (set_in s l2)); eauto.
Qed.

Lemma moved_all_trans l1 l2 l3 : Forall2 moved l1 l2 -> Forall2 moved l2 l3 -> Forall2 moved l1 l3.
Proof. intros F. revert l3. induction F as [|a b l1 l2 H F IH]; intros l3 F2; inversion F2; subst; constructor; eauto using moved_trans. Qed.
Lemma moved_pok l1 l2 : Forall2 moved l1 l2 -> Forall pok l2.
Proof. induction 1 as [|a b l1 l2 H F IH]; constructor; auto. apply H. Qed.
Lemma aligned_all b l l2 o : Forall pok l -> Forall (fun p => p_item p <> None) l -> align_all c b l = Ok (l2, o) ->
  Forall2 moved l l2 /\ (o <> None -> Forall (fun p => p_item p <> None) l2) /\ (o = Some true -> Forall (fun p => p_item p <> None /\ p_trig p = b) l2).
Proof.
  intros F I E. destruct (align_all_ok b l F I) as (l3 & o3 & E3 & F3 & C). rewrite E in E3. injection E3 as <- <-. split; [|].
  - clear C. clear E. revert F I. induction F3 as [|p p1 l l2 H F3 IH]; intros F I; constructor; inversion F; inversion I; subst; auto.
    destruct H as [->|(o1 & H)]; [apply moved_refl; assumption|]. refine (proj1 (aligned_moved _ _ _ _ _ _ H)); assumption.
  - destruct o as [f|]; [|split; [congruence|discriminate]]. destruct C as (fs & -> & C & L).
    assert (Ll := len2 _ _ _ F3). clear F3 E.
    assert (Q : Forall2 (fun p f => p_item p <> None /\ (f = true -> p_trig p = b)) l2 fs).
    { revert l2 fs C L Ll. induction F as [|p l Hp F IH]; intros l2 fs C L Ll; inversion I; subst.
      - destruct l2; [|discriminate]. destruct fs; [|discriminate]. constructor.
      - destruct l2 as [|p1 l2]; [discriminate|]. destruct fs as [|f fs]; [discriminate|]. cbn [combine] in C. inversion C as [|? ? ? ? A C']; subst. cbn [fst snd] in A.
        destruct (aligned_moved b p p1 (Some f) Hp ltac:(assumption) A) as (_ & A1 & A2).
        constructor; [split; [apply A1; discriminate|intros ->; apply A2; reflexivity]|]. apply IH; auto. }
    split; intros Ho.
    + clear - Q. induction Q as [|? ? ? ? (H & _)]; constructor; auto.
    + injection Ho as Hf. clear - Q Hf. induction Q as [|p f l fs (H & H2) Q IH]; constructor; cbn [forallb] in Hf; apply andb_prop in Hf; [split; [exact H|apply H2, Hf]|apply IH, Hf].
Qed.

Lemma advance_moved b l : Forall pok l -> Forall2 moved l (advance c b l).
Proof. induction 1 as [|p l H F IH]; [constructor|]. cbn [advance map]. constructor; [|exact IH]. destruct (_ =? _); [apply shift_moved; exact H|apply moved_refl; exact H]. Qed.

Lemma sinv_pok a s : sinv a s -> Forall pok (k_in s).
Proof. intros (_ & H & _). apply Forall_forall. intros p Hp. destruct (In_nth_error _ _ Hp) as (i & E). apply (H i p E). Qed.

Lemma outcome_sinv a e s s1 r : (0 < n)%nat -> sinv a s -> outcome e s s1 r -> sinv a s1.
Proof.
  intros Hn I O. assert (F := sinv_pok _ _ I). destruct (fill_pok _ F) as (Fl & Ml).
  assert (Two : forall l b l2 o, l = fill c (k_in s) -> forallb has_data l = true -> align_all c b l = Ok (l2, o) ->
     Forall2 moved (k_in s) l2 /\ (o = Some true -> Forall (fun p => p_item p <> None /\ p_trig p = b) l2)).
  { intros l b l2 o -> Eh Ea. destruct (aligned_all b _ l2 o Fl (proj1 (has_data_all _) Eh) Ea) as (M & _ & T). split; [exact (moved_all_trans _ _ _ Ml M)|exact T]. }
  destruct O as [l El Ed|l El Ed Eh|l b l2 El Ed Eh Eb Ea|l b l2 cm s2 El Ed Eh Eb Ea Ec E2|l b l2 s3 El Ed Eh Eb Ea Ec Ep|l b l2 s3 w El Ed Eh Eb Ea Ec Ep Ew|l b l2 s3 w w1 g El Ed Eh Eb Ea Eg Ec Ep Ew E1].
  - apply (skip_ok a s); [exact I| |reflexivity]. cbn [k_in set_in]. rewrite El. eapply moved_all_trans; [exact Ml|]. clear. induction (fill c (k_in s)); constructor; auto. apply drop_moved.
  - apply (skip_ok a s); [exact I| |reflexivity]. cbn [k_in set_in]. rewrite El. exact Ml.
  - destruct (Two l b l2 None El Eh Ea) as (M & _). apply (skip_ok a s); [exact I|exact M|reflexivity].
  - destruct (Two l b l2 _ El Eh Ea) as (M & _). apply (skip_ok a s); [exact I| |destruct cm; rewrite E2; reflexivity]. cbn [k_in set_in]. eapply moved_all_trans; [exact M|]. apply advance_moved. exact (moved_pok _ _ M).
  - destruct (Two l b l2 _ El Eh Ea) as (M & _). assert (R := prepare_rest e (set_in s l2) b (sz (members l2))). rewrite Ep in R. destruct R as (R1 & _ & _ & _ & _ & R2 & _).
    apply (skip_ok a s); [exact I|rewrite R1; exact M|rewrite R2; reflexivity].
  - destruct (Two l b l2 _ El Eh Ea) as (M & _). assert (R := prepare_rest e (set_in s l2) b (sz (members l2))). rewrite Ep in R. destruct R as (R1 & _ & _ & _ & _ & R2 & _).
    apply (skip_ok a s); [exact I| |cbn; rewrite R2; reflexivity]. cbn [k_in set_in]. eapply moved_all_trans; [exact M|]. apply advance_moved. exact (moved_pok _ _ M).
  - destruct (Two l b l2 _ El Eh Ea) as (M & T). assert (R := prepare_rest e (set_in s l2) b (sz g)). rewrite Ep in R. destruct R as (R1 & _ & _ & _ & _ & R2 & _).
    assert (I2 : sinv a (set_in s l2)) by (apply (skip_ok a s); [exact I|exact M|reflexivity]).
    apply (take_ok a (set_in s l2) _ b I2 (T eq_refl) Hn); [reflexivity|]. cbn [k_built k_in set_in]. rewrite R2, Eg. reflexivity.
Qed.

Definition out_ok (s : comb) : Prop := match k_out s with Some w => wok w | None => True end.
Definition env_ok (e : env) : Prop := match e_buf e with Some m => lenN m < 2^32 | None => True end.
Lemma outcome_out e s s1 r : out_ok s -> env_ok e -> outcome e s s1 r -> out_ok s1.
Proof.
  intros Ho He O.
  destruct O as [l El Ed|l El Ed Eh|l b l2 El Ed Eh Eb Ea|l b l2 cm s2 El Ed Eh Eb Ea Ec E2|l b l2 s3 El Ed Eh Eb Ea Ec Ep|l b l2 s3 w El Ed Eh Eb Ea Ec Ep Ew|l b l2 s3 w w1 g El Ed Eh Eb Ea Eg Ec Ep Ew E1]; try exact Ho.
  - rewrite E2. destruct cm; exact Ho.
  - assert (Q := prepare_spec e (set_in s l2) b (sz (members l2))). rewrite Ep in Q. destruct Q as [->|Q]; [exact Ho|]. destruct (flush_spec _ _ _ Q) as (w & _ & _ & ->). exact I.
  - assert (W := prepare_wok e (set_in s l2) _ _ _ _ Ho He Ep). unfold out_ok. cbn [k_out set_in].
    assert (Q := prepare_spec e (set_in s l2) b (sz (members l2))). rewrite Ep in Q. destruct Q as [(-> & Q & _)|(s0 & m & _ & _ & _ & _ & ->)]; [rewrite Q|]; exact W.
  - assert (W := prepare_wok e (set_in s l2) _ _ _ _ Ho He Ep). unfold out_ok. cbn [k_out].
    destruct (put_event_in w (seq_of s3 b g) (e_run e) (e_date e) (e_clock e) (N.lor (group_type c g) 0x2000) (d_err g || t_err g) (used (c_skip c) g) W) as (w2 & E2 & W2 & _).
    { unfold is_place in Ew. fold (avail w) in Ew. apply N.leb_le in Ew. lia. }
    rewrite E1 in E2. injection E2 as <-. exact W2.
Qed.

Lemma push_all b p : all (push b p) = all p ++ content b.
Proof.
  unfold all, left, push, content. cbn [p_item p_cur p_blocks p_queue]. rewrite map_app, concat_app. cbn [map concat]. rewrite !app_nil_r, <- !app_assoc. reflexivity.
Qed.
Lemma push_pok b p : pok p -> Forall iok (content b) -> pok (push b p).
Proof. intros [H1 H2 H3] H. split; [exact H1|exact H2|]. rewrite push_all. apply Forall_app. auto. Qed.

Definition act_ok (a : cact) : Prop := match a with CPush _ b => Forall iok (content b) | CBuild e => env_ok e | CFlush _ => True end.

Lemma step_ok a s x : (0 < n)%nat -> sinv a s -> out_ok s -> act_ok x ->
  exists s1, step c s x = Ok s1 /\ sinv (fun i => a i ++ arrived i [x]) s1 /\ out_ok s1.
Proof.
  intros Hn I Ho Hx. destruct x as [j b|e|e]; cbn [step].
  - destruct I as (L & H & G). destruct (nth_error (k_in s) j) as [p|] eqn:Ej.
    + eexists. split; [reflexivity|]. split; [|exact Ho]. split; [cbn [k_in set_in]; rewrite upd_length; exact L|]. split; [|exact G].
      intros i q Hq. cbn [k_in set_in k_built] in *. unfold arrived. cbn [map concat]. rewrite app_nil_r. destruct (Nat.eqb_spec j i) as [Ei|Ni].
      * subst i. assert (q = push b p). { rewrite nth_error_upd_same in Hq by (apply nth_error_Some; congruence). congruence. } subst q.
        destruct (H j p Ej) as (K & P & Ea & Sb). split; [apply push_pok; assumption|]. exists P. split; [rewrite Ea, push_all; apply app_assoc_reverse|exact Sb].
      * rewrite nth_error_upd_other in Hq by congruence. rewrite app_nil_r. exact (H i q Hq).
    + eexists. split; [reflexivity|]. split; [|exact Ho]. split; [exact L|]. split; [|exact G]. intros i q Hq. unfold arrived. cbn [map concat]. rewrite app_nil_r. destruct (Nat.eqb_spec j i) as [->|_]; [congruence|]. rewrite app_nil_r. exact (H i q Hq).
  - destruct (build_outcome e s (sinv_pok _ _ I)) as (s1 & r & E & O); [destruct I; lia|exact Ho|exact Hx|]. rewrite E. cbn [bind fst]. eexists. split; [reflexivity|]. split; [|exact (outcome_out _ _ _ _ Ho Hx O)].
    assert (I1 := outcome_sinv _ _ _ _ _ Hn I O). destruct I1 as (L & H & G). split; [exact L|]. split; [|exact G]. intros i q Hq. cbn. rewrite app_nil_r. exact (H i q Hq).
  - eexists. split; [reflexivity|]. assert (I1 : sinv a (match flush c e s with Some s1 => s1 | None => s end)).
    { destruct (flush c e s) as [s1|] eqn:Ef; [|exact I]. destruct (flush_rest _ _ _ Ef) as (R1 & _ & _ & _ & _ & R2 & _). destruct I as (L & H & G). split; [rewrite R1; exact L|]. rewrite R2, R1. split; assumption. }
    split.
    + destruct I1 as (L & H & G). split; [exact L|]. split; [|exact G]. intros i q Hq. cbn. rewrite app_nil_r. exact (H i q Hq).
    + destruct (flush c e s) as [s1|] eqn:Ef; [|exact Ho]. destruct (flush_spec _ _ _ Ef) as (w & _ & _ & ->). exact Logic.I.
Qed.
Lemma arrived_cons i x l : arrived i (x :: l) = arrived i [x] ++ arrived i l.
Proof. unfold arrived. cbn [map concat]. rewrite app_nil_r. reflexivity. Qed.
Lemma sinv_ext a b s : (forall i, a i = b i) -> sinv a s -> sinv b s.
Proof. intros E (L & H & G). split; [exact L|]. split; [|exact G]. intros i p Hp. rewrite <- E. auto. Qed.
Lemma run_ok l : (0 < n)%nat -> Forall act_ok l -> forall a s, sinv a s -> out_ok s ->
  exists s1, run c s l = Ok s1 /\ sinv (fun i => a i ++ arrived i l) s1 /\ out_ok s1.
Proof.
  intros Hn. induction l as [|x l IH]; intros Hl a s I Ho; cbn [run].
  - exists s. split; [reflexivity|]. split; [|exact Ho]. refine (sinv_ext _ _ _ _ I). intros i. cbn. rewrite app_nil_r. reflexivity.
  - inversion Hl as [|? ? Hx Hl']; subst. destruct (step_ok a s x Hn I Ho Hx) as (s1 & -> & I1 & O1). cbn [bind]. destruct (IH Hl' _ _ I1 O1) as (s2 & E2 & I2 & O2).
    exists s2. split; [exact E2|]. split; [|exact O2]. refine (sinv_ext _ _ _ _ I2). intros i. cbn beta. rewrite (arrived_cons i x l). apply app_assoc_reverse.
Qed.
Lemma new_sinv : sinv (fun _ => []) (comb_new n).
Proof.
  split; [apply repeat_length|]. split; [|constructor]. intros i p Hp. cbn [k_in comb_new] in Hp. apply nth_error_In, repeat_spec in Hp. subst p. split; [apply pok_new|]. exists []. split; [reflexivity|constructor].
Qed.
End S.
