(* Proofs about configuration variables. *)
From Verif Require Import Common ListFacts Bytes DecStr UrlSpec UrlModel UrlProofs CfgVarSpec CfgVarModel.
Local Open Scope N_scope.

(* ---- entries ---- *)
Lemma split_len l : length (split_comma l) = S (length (filter (N.eqb 44) l)).
Proof.
  induction l as [|x l IH]; [reflexivity|]. cbn [split_comma filter]. rewrite (N.eqb_sym 44 x). destruct (x =? 44); cbn [length]; [rewrite IH; reflexivity|].
  destruct (split_comma l) as [|a r]; cbn in *; [discriminate|]. congruence.
Qed.
Lemma last_cons {A} (x : A) l d : l <> [] -> last (x :: l) d = last l d.
Proof. destruct l; [congruence|reflexivity]. Qed.
Lemma is_array_spec x r : is_array (x :: r) = (x =? 91) && (last r 0 =? 93).
Proof.
  unfold is_array. cbn [hd]. destruct r as [|y r]; [|rewrite last_cons by discriminate; reflexivity]. cbn. destruct (N.eqb_spec x 91); subst; reflexivity.
Qed.
Lemma count_ok v : v <> [91; 93] -> count_entries v = dec (lenN (entries v)).
Proof.
  destruct v as [|x r]; [reflexivity|]. intros H. unfold count_entries, entries. rewrite is_array_spec. destruct ((x =? 91) && (last r 0 =? 93)) eqn:A; cbn [negb]; [|reflexivity].
  apply andb_prop in A. destruct A as [A B]. apply N.eqb_eq in A. apply N.eqb_eq in B. subst x. cbn [tl].
  destruct (removelast r) as [|y l] eqn:E.
  - exfalso. destruct r as [|z r]; [cbn in B; discriminate|]. destruct r as [|w r]; [cbn in B; subst; apply H; reflexivity|]. cbn in E. destruct r; discriminate.
  - f_equal. unfold lenN. rewrite split_len. lia.
Qed.
Lemma scan_ok l : forall id cnt cur y, (cnt <= id)%nat ->
  match scan_entries id cnt cur (l ++ [y]) with Some x => x | None => [] end =
  nth (id - cnt) (match split_comma l with [] => [cur] | a :: r => (cur ++ a) :: r end) [].
Proof.
  induction l as [|x l IH]; intros id cnt cur y Hc; cbn [app scan_entries split_comma].
  - rewrite orb_true_r. destruct (Nat.eqb_spec cnt id).
    + subst. rewrite Nat.sub_diag. cbn. rewrite app_nil_r. reflexivity.
    + cbn. replace (id - cnt)%nat with (S (id - S cnt)) by lia. destruct (id - S cnt)%nat; reflexivity.
  - replace (match l ++ [y] with [] => true | _ => false end) with false by (destruct l; reflexivity). rewrite orb_false_r.
    destruct (x =? 44) eqn:Ex.
    + destruct (Nat.eqb_spec cnt id).
      * subst. rewrite Nat.sub_diag. cbn. rewrite app_nil_r. reflexivity.
      * rewrite IH by lia. replace (id - cnt)%nat with (S (id - S cnt)) by lia. cbn [nth]. destruct (split_comma l) as [|a r] eqn:Es; [|reflexivity].
        pose proof (split_len l). rewrite Es in H. discriminate.
    + rewrite IH by lia. pose proof (split_len l). destruct (split_comma l) as [|a r]; [discriminate|]. rewrite <- app_assoc. reflexivity.
Qed.
Lemma entry_ok id v : v <> [] -> take_entry id v = nth id (entries v) [].
Proof.
  destruct v as [|x r]; [congruence|]. intros _. unfold take_entry, entries. rewrite is_array_spec. destruct ((x =? 91) && (last r 0 =? 93)) eqn:A; cbn [negb].
  - apply andb_prop in A. destruct A as [A B]. apply N.eqb_eq in A. apply N.eqb_eq in B. subst x. cbn [tl].
    destruct r as [|z r]; [cbn in B; discriminate|]. rewrite (app_removelast_last 0 (l := z :: r)) at 1 by discriminate. rewrite scan_ok by lia. rewrite Nat.sub_0_r.
    destruct (removelast (z :: r)) as [|y l]; [cbn; destruct id as [|[|]]; reflexivity|]. pose proof (split_len (y :: l)). destruct (split_comma (y :: l)); [discriminate|reflexivity].
  - destruct id as [|[|]]; reflexivity.
Qed.

(* ---- fuel ---- *)
Lemma resolve_more n : forall m c id arg name v, resolve n c id arg name = Ok v -> (n <= m)%nat -> resolve m c id arg name = Ok v.
Proof.
  induction n as [|n IH]; intros m c id arg name v H L; [discriminate|]. destruct m as [|m]; [lia|]. cbn [resolve] in *.
  destruct (find_sub _ name) as [p1|]; auto. destruct (find_sub _ (skipn p1 name)) as [d|]; auto.
  destruct (firstn (d - 2) (skipn (p1 + 2) name)) as [|y var] eqn:Ev; [apply IH; [exact H|lia]|].
  destruct (match find_child (y :: var) (v_cmd c) with Some t => Some t | None => find_child (y :: var) (v_file c) end) as [[|z t]|].
  2:{ destruct (resolve n c None (z :: t) (z :: t)) as [nv| |] eqn:R; try discriminate. rewrite (IH m _ _ _ _ _ R) by lia. cbn [bind] in *.
      destruct (last (firstn p1 name) 0 =? 35); [apply IH; [exact H|lia]|].
      destruct id as [i|]; [|apply IH; [exact H|lia]]. destruct (skipn (p1 + d + 1) name) as [|w r]; [apply IH; [exact H|lia]|].
      destruct w as [|w]; [apply IH; [exact H|lia]|]. destruct (fall_back c (y :: var) nv); repeat (destruct w as [w|w|]; try (apply IH; [exact H|lia])). }
  all: cbn [bind] in *; destruct (last (firstn p1 name) 0 =? 35); [apply IH; [exact H|lia]|].
  all: destruct id as [i|]; [|apply IH; [exact H|lia]]; destruct (skipn (p1 + d + 1) name) as [|w r]; [apply IH; [exact H|lia]|].
  all: destruct w as [|w]; [apply IH; [exact H|lia]|]; destruct (fall_back c (y :: var) []); repeat (destruct w as [w|w|]; try (apply IH; [exact H|lia])).
Qed.

(* ---- one variable at the front ---- *)
Lemma find_child_lookup n l : find_child n l = lookup n l.
Proof. unfold lookup. induction l as [|[m t] l IH]; cbn; auto. destruct (bytes_eqb m n); auto. Qed.
Lemma definition_find c n : (match find_child n (v_cmd c) with Some t => Some t | None => find_child n (v_file c) end) = definition c n.
Proof. unfold definition. rewrite !find_child_lookup. reflexivity. Qed.

(* the value of a variable is found with fuel k *)
Definition known (c : vars) (k : nat) (n v : bytes) : Prop :=
  exists nv, match definition c n with Some [] | None => nv = [] | Some t => resolve k c None t t = Ok nv end /\ fall_back c n nv = v.
Lemma known_more c k m n v : known c k n v -> (k <= m)%nat -> known c m n v.
Proof.
  intros (nv & A & B) L. exists nv. split; auto. destruct (definition c n) as [[|x t]|]; auto. eapply resolve_more; eauto.
Qed.

Definition next (id : option nat) (left value right : bytes) : bytes :=
  if last left 0 =? 35 then removelast left ++ count_entries value ++ right
  else match id, right, value with
       | Some i, 35 :: right', _ :: _ => left ++ take_entry i value ++ right'
       | _, _, _ => left ++ value ++ right
       end.
Lemma resolve_var_at k c id arg left n right v :
  find_sub [36; 123] (left ++ ([36; 123] ++ n ++ [125]) ++ right) = Some (length left) -> ~ In 125 n -> n <> [] -> known c k n v ->
  resolve (S k) c id arg (left ++ ([36; 123] ++ n ++ [125]) ++ right) = resolve k c id arg (next id left v right).
Proof.
  intros F1 Hn Nn (nv & Kv & Kf). cbn [resolve].
  rewrite F1. assert (S1 : skipn (length left) (left ++ ([36; 123] ++ n ++ [125]) ++ right) = ([36; 123] ++ n) ++ 125 :: right).
  { rewrite skipn_app, skipn_all, Nat.sub_diag. cbn. rewrite <- app_assoc. reflexivity. }
  rewrite S1. rewrite find1_at by (cbn; intros [E|[E|I]]; [discriminate..|auto]).
  assert (L1 : length ([36; 123] ++ n) = S (S (length n))) by reflexivity. rewrite L1.
  assert (S2 : skipn (length left + 2) (left ++ ([36; 123] ++ n ++ [125]) ++ right) = n ++ 125 :: right).
  { rewrite skipn_app. rewrite skipn_all2 by lia. replace (length left + 2 - length left)%nat with 2%nat by lia. cbn. rewrite <- app_assoc. reflexivity. }
  rewrite S2. replace (S (S (length n)) - 2)%nat with (length n) by lia. rewrite firstn_app, Nat.sub_diag, firstn_all. cbn [firstn]. rewrite app_nil_r.
  assert (S3 : skipn (length left + S (S (length n)) + 1) (left ++ ([36; 123] ++ n ++ [125]) ++ right) = right).
  { rewrite !app_assoc. rewrite skipn_app. rewrite skipn_all2 by (rewrite !app_length; cbn; lia).
    replace (length left + S (S (length n)) + 1 - length (((left ++ [36%N; 123%N]) ++ n) ++ [125%N]))%nat with 0%nat by (rewrite !app_length; cbn; lia). reflexivity. }
  rewrite S3. rewrite firstn_app, Nat.sub_diag, firstn_all. cbn [firstn]. rewrite app_nil_r.
  destruct n as [|y n]; [congruence|]. rewrite definition_find.
  assert (Ed : match definition c (y :: n) with Some [] | None => Ok [] | Some t => resolve k c None t t end = Ok nv).
  { destruct (definition c (y :: n)) as [[|z t]|]; congruence. }
  transitivity (do nv0 <- Ok nv;
    let value := fall_back c (y :: n) nv0 in
    if last left 0 =? 35 then resolve k c id arg (removelast left ++ count_entries value ++ right)
    else match id, right, value with
         | Some i, 35 :: right', _ :: _ => resolve k c id arg (left ++ take_entry i value ++ right')
         | _, _, _ => resolve k c id arg (left ++ value ++ right)
         end).
  { rewrite <- Ed. destruct (definition c (y :: n)) as [[|z t]|]; reflexivity. }
  cbn [bind]. rewrite Kf. unfold next. destruct (last left 0 =? 35); [reflexivity|]. destruct id as [i|]; [|reflexivity]. destruct right as [|w r]; [reflexivity|].
  destruct w as [|w]; [reflexivity|]; destruct v; repeat (destruct w as [w|w|]; try reflexivity).
Qed.
Lemma resolve_var k c id arg left n right v :
  ~ In 36 left -> ~ In 125 n -> n <> [] -> known c k n v ->
  resolve (S k) c id arg (left ++ ([36; 123] ++ n ++ [125]) ++ right) = resolve k c id arg (next id left v right).
Proof. intros Hl. apply resolve_var_at. apply (find_first 36 [123]); exact Hl. Qed.
Lemma resolve_none_at k c id arg left right : find_sub [36; 123] (left ++ [36; 123; 125] ++ right) = Some (length left) ->
  resolve (S k) c id arg (left ++ [36; 123; 125] ++ right) = resolve k c id arg (left ++ right).
Proof.
  intros F1. cbn [resolve]. rewrite F1. rewrite skipn_app, skipn_all, Nat.sub_diag. cbn [app skipn]. cbn [find_sub is_prefix N.eqb Pos.eqb andb].
  change (2 - 2)%nat with 0%nat. cbn [firstn].
  rewrite firstn_app, Nat.sub_diag, firstn_all. cbn [firstn]. rewrite app_nil_r. f_equal. f_equal.
  rewrite skipn_app. rewrite skipn_all2 by lia. replace (length left + 2 + 1 - length left)%nat with 3%nat by lia. reflexivity.
Qed.
Lemma resolve_none k c id arg left right : ~ In 36 left ->
  resolve (S k) c id arg (left ++ [36; 123; 125] ++ right) = resolve k c id arg (left ++ right).
Proof. intros Hl. apply resolve_none_at. apply (find_first 36 [123]); exact Hl. Qed.
Lemma resolve_end k c id arg name : ~ In 36 name -> resolve (S k) c id arg name = Ok name.
Proof. intros H. cbn [resolve]. rewrite (find_absent 36 [123]); auto. Qed.

(* ---- whole texts ---- *)
Lemma entries_in v x a : In x (entries v) -> In a x -> In a v.
Proof.
  assert (Sp : forall l x a, In x (split_comma l) -> In a x -> In a l).
  { clear. induction l as [|y l IH]; cbn [split_comma]; intros x a I J.
    - destruct I as [<-|[]]. destruct J.
    - destruct (y =? 44).
      + destruct I as [<-|I]; [destruct J|right; eauto].
      + destruct (split_comma l) as [|b r] eqn:E.
        * destruct I as [<-|[]]. destruct J as [<-|[]]. left; auto.
        * destruct I as [<-|I]; [destruct J as [<-|J]; [left; auto|right; apply (IH b); [left; auto|auto]]|right; apply (IH x); [right; auto|auto]]. }
  destruct v as [|y r]; cbn [entries]; [intros []|]. destruct ((y =? 91) && (last r 0 =? 93)).
  - destruct (removelast r) as [|z l] eqn:E; [intros []|]. intros I J. right. pose proof (Sp _ _ _ I J) as K. rewrite <- E in K.
    destruct r as [|w r]; [destruct K|]. rewrite (app_removelast_last 0 (l := w :: r)) by discriminate. apply in_or_app. auto.
  - intros [<-|[]]; auto.
Qed.
Lemma expand_seg_dollar val id s : (forall n, ~ In 36 (val n)) -> (forall t, s = Lit t -> ~ In 36 t) -> ~ In 36 (expand_seg val id s).
Proof.
  intros H L. destruct s as [t|n|n|n]; cbn; auto.
  - intros I. pose proof (dec_digit (lenN (entries (val n)))) as D. rewrite Forall_forall in D. specialize (D _ I). discriminate.
  - destruct id as [i|].
    + intros I. destruct (nth_in_or_default i (entries (val n)) []) as [J|J]; [|rewrite J in I; destruct I]. exact (H n (entries_in _ _ _ J I)).
    + intros I. apply in_app_or in I. destruct I as [I|[I|[]]]; [exact (H n I)|discriminate].
Qed.
Definition all_known (c : vars) (val : bytes -> bytes) (k : nat) (l : list seg) : Prop := forall n, In n (names l) -> n <> [] -> known c k n (val n).
Lemma text_cons s l : text (s :: l) = seg_text s ++ text l.
Proof. reflexivity. Qed.
Lemma removelast_snoc {A} (l : list A) x : removelast (l ++ [x]) = l.
Proof. apply removelast_last. Qed.
Lemma last_snoc {A} (l : list A) x d : last (l ++ [x]) d = x.
Proof. apply last_last. Qed.
Lemma resolve_text c val id arg suf : val [] = [] -> (forall n, ~ In 36 (val n)) -> hd 0 suf <> 35 -> forall l k left,
  ~ In 36 left -> clear val id left l -> all_known c val k l ->
  exists m, (k <= m <= k + length l)%nat /\ resolve m c id arg (left ++ text l ++ suf) = resolve k c id arg (left ++ expand val id l ++ suf).
Proof.
  intros V0 Vd Hs. induction l as [|s l IH]; intros k left Hl Cl Kn.
  - exists k. split; [cbn; lia|]. reflexivity.
  - cbn [clear] in Cl. destruct Cl as [Cs Cl].
    assert (Dx : ~ In 36 (left ++ expand_seg val id s)).
    { intros I. apply in_app_or in I. destruct I as [I|I]; [auto|]. revert I. apply expand_seg_dollar; auto. intros t ->. exact Cs. }
    assert (Kl : all_known c val k l). { intros n I. apply Kn. unfold names. cbn [map concat]. apply in_or_app. right. exact I. }
    destruct (IH k _ Dx Cl Kl) as (m & Hm & R). change (expand val id (s :: l)) with (expand_seg val id s ++ expand val id l).
    rewrite text_cons, <- !app_assoc. rewrite <- !app_assoc in R.
    assert (Ks : forall n, In n (names [s]) -> n <> [] -> known c m n (val n)).
    { intros n I J. apply (known_more c k); [|lia]. apply Kn; auto. change (names (s :: l)) with ((match s with Lit _ => [] | Val n | Count n | Elem n => [n] end) ++ names l).
      apply in_or_app. left. unfold names in I. cbn in I. rewrite app_nil_r in I. exact I. }
    destruct s as [t|n|n|n]; cbn [seg_text expand_seg] in *.
    + exists m. split; [cbn; lia|]. exact R.
    + exists (S m). split; [cbn; lia|]. rewrite <- R. destruct Cs as (C1 & C2 & C3). destruct n as [|y n].
      * change (left ++ ([36; 123] ++ [] ++ [125]) ++ text l ++ suf) with (left ++ [36; 123; 125] ++ (text l ++ suf)). rewrite resolve_none by auto. rewrite V0. reflexivity.
      * rewrite (resolve_var _ c id arg left (y :: n) (text l ++ suf) (val (y :: n))); auto; [|discriminate|apply Ks; [left; auto|discriminate]].
        f_equal. unfold next. destruct (N.eqb_spec (last left 0) 35); [contradiction|]. destruct id as [i|]; [|auto].
        assert (C4 : hd 0 (text l ++ suf) <> 35) by (destruct (text l); [exact Hs|exact (C3 ltac:(discriminate))]).
        destruct (text l ++ suf) as [|w r]; [reflexivity|]. cbn [hd] in C4.
        destruct w as [|w]; [reflexivity|]. destruct (val (y :: n)); repeat (destruct w as [w|w|]; try reflexivity; try congruence).
    + exists (S m). split; [cbn; lia|]. rewrite <- R. destruct Cs as (C1 & C2 & C3).
      change (([35; 36; 123] ++ n ++ [125]) ++ text l ++ suf) with ([35] ++ ([36; 123] ++ n ++ [125]) ++ text l ++ suf). rewrite app_assoc.
      rewrite (resolve_var _ c id arg (left ++ [35]) n (text l ++ suf) (val n)); auto; [|intros I; apply in_app_or in I; destruct I as [I|[I|[]]]; [auto|discriminate]|apply Ks; [left; auto|auto]].
      f_equal. unfold next. rewrite last_snoc. cbn [N.eqb Pos.eqb]. rewrite removelast_snoc, count_ok by auto. reflexivity.
    + exists (S m). split; [cbn; lia|]. rewrite <- R. destruct Cs as (C1 & C2 & C3 & C4 & C5). destruct id as [i|]; [|congruence].
      replace (left ++ ([36; 123] ++ n ++ [125; 35]) ++ text l ++ suf) with (left ++ ([36; 123] ++ n ++ [125]) ++ (35 :: text l ++ suf)) by (repeat (rewrite <- app_assoc; cbn [app]); reflexivity).
      rewrite (resolve_var _ c (Some i) arg left n (35 :: text l ++ suf) (val n)); auto; [|apply Ks; [left; auto|auto]].
      f_equal. unfold next. destruct (N.eqb_spec (last left 0) 35); [contradiction|]. rewrite <- entry_ok by auto.
      destruct (val n) as [|y r] eqn:Ev; [congruence|]. reflexivity.
Qed.
Lemma expand_dollar val id : val [] = [] -> (forall n, ~ In 36 (val n)) -> forall l before, clear val id before l -> ~ In 36 (expand val id l).
Proof.
  intros V0 Vd. induction l as [|s l IH]; intros before Cl; [intros []|]. cbn [clear] in Cl. destruct Cl as [Cs Cl]. change (expand val id (s :: l)) with (expand_seg val id s ++ expand val id l).
  intros I. apply in_app_or in I. destruct I as [I|I]; [|exact (IH _ Cl I)]. revert I. apply expand_seg_dollar; auto. intros t ->. exact Cs.
Qed.
Lemma resolve_whole c val id arg : val [] = [] -> (forall n, ~ In 36 (val n)) -> forall l k, clear val id [] l -> all_known c val k l ->
  resolve (k + S (length l)) c id arg (text l) = Ok (expand val id l).
Proof.
  intros V0 Vd l k Cl Kn. assert (Kn' : all_known c val (S k) l) by (intros n I J; apply (known_more c k); [apply Kn; auto|lia]).
  destruct (resolve_text c val id arg [] V0 Vd ltac:(cbn; discriminate) l (S k) [] ltac:(intros []) Cl Kn') as (m & Hm & R). cbn [app] in R. rewrite !app_nil_r in R.
  rewrite (resolve_end k c id arg) in R by (eapply expand_dollar; eauto). eapply resolve_more; [exact R|lia].
Qed.

Lemma fall_back_ok c n nv : fall_back c n nv = match nv with [] => otherwise c n | x => x end.
Proof. unfold fall_back, otherwise. rewrite find_child_lookup. destruct nv; [|reflexivity]. destruct (lookup n (v_builtin c)) as [[|x l]|]; [|reflexivity|]; cbn; reflexivity. Qed.
Lemma known_values c rank val : values c rank val -> forall r n, (rank n < r)%nat -> n <> [] -> exists k, known c k n (val n).
Proof.
  intros [V0 V]. assert (Vd : forall n, ~ In 36 (val n)) by (intros [|x n]; [rewrite V0; intros []|apply V; discriminate]).
  induction r as [|r IH]; intros n Hr Nn; [lia|]. destruct (V n Nn) as [_ D]. destruct (definition c n) as [t|] eqn:Ed.
  - destruct D as (l & -> & Cl & Rk & Ev).
    assert (K : exists k, all_known c val k l).
    { assert (G : forall q, (forall m, In m q -> (rank m < rank n)%nat) -> exists k, forall m, In m q -> m <> [] -> known c k m (val m)).
      { induction q as [|m q IHq]; intros Hq; [exists O; intros m []|]. destruct IHq as (k1 & K1); [intros x I; apply Hq; right; auto|].
        destruct m as [|y m].
        - exists k1. intros m [<-|I] Nm; [congruence|auto].
        - destruct (IH (y :: m)) as (k2 & K2); [specialize (Hq (y :: m) (or_introl eq_refl)); lia|discriminate|].
          exists (k1 + k2)%nat. intros z [<-|I] Nz; [eapply known_more; [exact K2|lia]|eapply known_more; [apply K1; auto|lia]]. }
      destruct (G (names l) Rk) as (k & K). exists k. exact K. }
    destruct K as (k & K). exists (k + S (length l))%nat. exists (expand val None l). rewrite Ed. split; [|rewrite fall_back_ok, Ev; destruct (expand val None l); reflexivity].
    pose proof (resolve_whole c val None (text l) V0 Vd l k Cl K) as R. destruct (text l) as [|x t] eqn:Et; [|exact R].
    destruct (k + S (length l))%nat; [discriminate|]. cbn in R. injection R as <-. reflexivity.
  - exists O, []. rewrite Ed. split; auto. rewrite fall_back_ok. auto.
Qed.
Lemma all_values c rank val l : values c rank val -> exists k, all_known c val k l.
Proof.
  intros V. unfold all_known. generalize (names l). clear l. induction l as [|m q IHq]; [exists O; intros m []|]. destruct IHq as (k1 & K1). destruct m as [|y m].
  - exists k1. intros m [<-|I] Nm; [congruence|auto].
  - destruct (known_values c rank val V (S (rank (y :: m))) (y :: m)) as (k2 & K2); [lia|discriminate|].
    exists (k1 + k2)%nat. intros z [<-|I] Nz; [eapply known_more; [exact K2|lia]|eapply known_more; [apply K1; auto|lia]].
Qed.

(* ---- arbitrary texts ---- *)
Definition dollars (l : bytes) : nat := length (filter (N.eqb 36) l).
Lemma dollars_app a b : dollars (a ++ b) = (dollars a + dollars b)%nat.
Proof. unfold dollars. rewrite filter_app, app_length. reflexivity. Qed.
Lemma dollars_none l : ~ In 36 l -> dollars l = O.
Proof.
  unfold dollars. induction l as [|x l IH]; intros H; auto. cbn [filter]. destruct (N.eqb_spec 36 x); [exfalso; apply H; left; auto|]. apply IH. intros I. apply H. right; auto.
Qed.
Lemma dollars_len l : (dollars l <= length l)%nat.
Proof. unfold dollars. induction l as [|x l IH]; [auto|]. cbn [filter]. destruct (36 =? x); cbn [length]; lia. Qed.
Lemma entry_in id v a : In a (take_entry id v) -> In a v.
Proof.
  destruct v as [|x r]; [unfold take_entry; cbn; destruct id; intros []|]. rewrite entry_ok by discriminate. intros I.
  destruct (nth_in_or_default id (entries (x :: r)) []) as [J|J]; [exact (entries_in _ _ _ J I)|]. rewrite J in I. destruct I.
Qed.
Lemma removelast_dollars l : (dollars (removelast l) <= dollars l)%nat.
Proof.
  destruct l as [|x l]; [auto|]. rewrite (app_removelast_last 0 (l := x :: l)) at 2 by discriminate. rewrite dollars_app. lia.
Qed.
Lemma count_dollars v : dollars (count_entries v) = O.
Proof.
  assert (D : forall n, dollars (dec n) = O). { intros n. apply dollars_none. intros I. pose proof (dec_digit n) as F. rewrite Forall_forall in F. specialize (F _ I). discriminate. }
  unfold count_entries. destruct v; auto. destruct (negb _); auto.
Qed.
Section Simple.
Context (c : vars).
Context (Hc : Forall (fun x => ~ In 36 (snd x)) (v_cmd c)) (Hf : Forall (fun x => ~ In 36 (snd x)) (v_file c)) (Hb : Forall (fun x => ~ In 36 (snd x)) (v_builtin c)) (He : forall n, ~ In 36 (v_env c n)).
Lemma find_child_dollar l n t : Forall (fun x : bytes * bytes => ~ In 36 (snd x)) l -> find_child n l = Some t -> ~ In 36 t.
Proof. induction 1 as [|[m u] l H _ IH]; cbn; [discriminate|]. destruct (bytes_eqb m n); [intros [= <-]; exact H|auto]. Qed.
Lemma simple_known n k : exists v, known c (S k) n v /\ ~ In 36 v.
Proof.
  assert (D : forall t, definition c n = Some t -> ~ In 36 t).
  { intros t. unfold definition. rewrite <- !find_child_lookup. destruct (find_child n (v_cmd c)) as [u|] eqn:E; [intros [= <-]; exact (find_child_dollar _ _ _ Hc E)|intros E'; exact (find_child_dollar _ _ _ Hf E')]. }
  assert (F : forall nv, ~ In 36 nv -> ~ In 36 (fall_back c n nv)).
  { intros nv Hn. rewrite fall_back_ok. destruct nv; auto. unfold otherwise. rewrite <- find_child_lookup. destruct (find_child n (v_builtin c)) as [[|x t]|] eqn:E; auto. exact (find_child_dollar _ _ _ Hb E). }
  unfold known. destruct (definition c n) as [[|x t]|].
  - exists (fall_back c n []). split; [exists []; auto|]. apply F. intros [].
  - exists (fall_back c n (x :: t)). split; [exists (x :: t); split; auto; apply resolve_end; apply D; auto|]. apply F. apply D. auto.
  - exists (fall_back c n []). split; [exists []; auto|]. apply F. intros [].
Qed.
Lemma find_none_in p s : find_sub p s = None -> forall a b, s <> a ++ p ++ b.
Proof.
  revert p. induction s as [|x s IH]; intros p F a b E.
  - destruct a; [|discriminate]. cbn [app] in E. cbn [find_sub] in F. destruct (is_prefix p []) eqn:P; [discriminate|]. rewrite E in P at 1. rewrite is_prefix_app in P. discriminate.
  - cbn [find_sub] in F. destruct (is_prefix p (x :: s)) eqn:P; [discriminate|]. destruct (find_sub p s) eqn:F'; [discriminate|].
    destruct a as [|y a]; [cbn [app] in E; rewrite E, is_prefix_app in P; discriminate|]. injection E as <- E. exact (IH p F' a b E).
Qed.
Lemma find1_split y s d : find_sub [y] s = Some d -> s = firstn d s ++ y :: skipn (S d) s /\ ~ In y (firstn d s).
Proof.
  revert d. induction s as [|x s IH]; intros d; cbn [find_sub is_prefix]; [discriminate|]. destruct (N.eqb_spec y x).
  - cbn [andb]. intros [= <-]. subst. split; [reflexivity|intros []].
  - cbn [andb]. destruct (find_sub [y] s) as [i|]; [|discriminate]. intros [= <-]. destruct (IH i eq_refl) as [A B]. cbn [firstn skipn app]. split; [f_equal; exact A|]. intros [E|I]; [congruence|auto].
Qed.
Lemma next_dollars id left v right : ~ In 36 v -> (dollars (next id left v right) <= dollars left + dollars right)%nat.
Proof.
  intros Hv. unfold next. destruct (_ =? 35).
  - rewrite !dollars_app, count_dollars. pose proof (removelast_dollars left). lia.
  - assert (G : (dollars (left ++ v ++ right) <= dollars left + dollars right)%nat) by (rewrite !dollars_app, (dollars_none v Hv); lia).
    destruct id as [i|]; auto. destruct right as [|w r]; auto. destruct w as [|w]; auto. destruct v as [|x v]; [repeat (destruct w as [w|w|]; auto)|].
    assert (G2 : (dollars (left ++ take_entry i (x :: v) ++ r) <= dollars left + dollars (35%N :: r))%nat).
    { rewrite !dollars_app, (dollars_none (take_entry i (x :: v))) by (intros I; exact (Hv (entry_in _ _ _ I))). unfold dollars at 4. cbn. unfold dollars. lia. }
    repeat (destruct w as [w|w|]; auto).
Qed.
Lemma resolve_simple id arg : forall k name, (dollars name < k)%nat ->
  exists out, resolve (S k) c id arg name = Ok out /\ (out = arg \/ forall a b, out <> a ++ [36; 123] ++ b).
Proof.
  induction k as [|k IH]; intros name Hk; [lia|].
  destruct (find_sub [36; 123] name) as [p1|] eqn:F1; [|exists name; cbn [resolve]; rewrite F1; split; auto; right; apply find_none_in; auto].
  destruct (find_sub [125] (skipn p1 name)) as [d|] eqn:F2; [|exists arg; cbn [resolve]; rewrite F1, F2; auto].
  pose proof (find_sub_spec _ _ _ F1) as E1. cbn [length] in E1.
  set (left := firstn p1 name) in *. set (rest := skipn (p1 + 2) name) in *.
  assert (E2 : skipn p1 name = 36 :: 123 :: rest).
  { rewrite E1 at 1. assert (Lp : length left = p1). { unfold left. apply firstn_length_le. assert (H : (length name = length left + (2 + length rest))%nat) by (rewrite E1 at 1; rewrite app_length; reflexivity). unfold left in H. rewrite firstn_length in H. lia. }
    rewrite skipn_app, Lp, Nat.sub_diag. rewrite skipn_all2 by lia. reflexivity. }
  rewrite E2 in F2. cbn [find_sub is_prefix N.eqb Pos.eqb andb] in F2. destruct (find_sub [125] rest) as [i|] eqn:F3; [|discriminate]. injection F2 as <-.
  destruct (find1_split _ _ _ F3) as [E3 N3]. set (n := firstn i rest) in *. set (right := skipn (S i) rest) in *.
  assert (En : name = left ++ ([36; 123] ++ n ++ [125]) ++ right). { rewrite E1 at 1. rewrite E3 at 1. cbn [app]. rewrite <- app_assoc. reflexivity. }
  assert (Lp : length left = p1).
  { unfold left. apply firstn_length_le. assert (H : (length name = length left + (2 + length rest))%nat) by (rewrite E1 at 1; rewrite app_length; reflexivity). unfold left in H. rewrite firstn_length in H. lia. }
  assert (Dn : (dollars left + dollars right < dollars name)%nat).
  { rewrite En, !dollars_app. cbn. unfold dollars. lia. }
  rewrite En in F1 |- *. rewrite <- Lp in F1. destruct n as [|y n].
  - change (left ++ ([36; 123] ++ [] ++ [125]) ++ right) with (left ++ [36; 123; 125] ++ right) in *. rewrite resolve_none_at by exact F1. apply IH. rewrite dollars_app. lia.
  - destruct (simple_known (y :: n) k) as (v & Kv & Dv). rewrite (resolve_var_at (S k) c id arg left (y :: n) right v F1 N3 ltac:(discriminate) Kv). apply IH. pose proof (next_dollars id left v right Dv). lia.
Qed.
End Simple.
