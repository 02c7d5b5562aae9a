(* The buffered stream gives the same characters as the whole text. *)
From Verif Require Import Common Bytes XmlSpec XmlModel.
Local Open Scope N_scope.

(* [l] is the text from here on; while the file has more, the buffer is full and a quarter of
   it lies ahead *)
Definition inv (B : N) (s : st) : Prop :=
  B <= s_size s /\ 8 <= s_size s /\ s_av s + s_un s = lenN (s_txt s) /\ s_pos s + s_av s < s_size s /\
  4 * s_lim s <= 3 * (s_pos s + s_av s) /\
  (s_un s = 0 \/ (s_pos s + s_av s + 1 = s_size s /\ s_size s <= 4 * s_av s + 1)).
Definition at_ (B : N) (l : bytes) (s : st) : Prop := s_txt s = l /\ inv B s.

Lemma lenN_0 {A} (l : list A) : lenN l = 0 -> l = [].
Proof. destruct l; auto. rewrite lenN_cons. lia. Qed.

Lemma open_at B t : 8 <= B -> at_ B t (open_file B t).
Proof.
  intros H. unfold at_, inv, open_file. cbn [s_txt s_av s_un s_pos s_lim s_size]. split; auto. repeat split; lia.
Qed.

Lemma expand_ok B l s b s' : at_ B l s -> expand s = (b, s') ->
  at_ B l s' /\ s_av s <= s_av s' /\ s_un s' <= s_un s /\ (b = true -> s_av s < s_av s') /\ (b = false -> s_un s = 0 /\ s' = s).
Proof.
  intros (T & I) E. unfold expand in E. destruct (N.eqb_spec (s_un s) 0) as [Z|Z].
  - injection E as <- <-. repeat split; auto; try apply I; try lia; discriminate.
  - injection E as <- <-. unfold inv in I. destruct I as (I1 & I2 & I3 & I4 & I5 & I6).
    set (k := N.min _ _). assert (K : 0 < k) by (unfold k; lia).
    unfold at_, inv. cbn [s_txt s_av s_un s_pos s_lim s_size].
    repeat split; auto; try (unfold k; lia).
Qed.

Lemma grow_ok B l s i b s' : at_ B l s -> i <= s_av s -> grow i s = (b, s') ->
  at_ B l s' /\ b = (i <? lenN l) /\ (b = true -> i < s_av s') /\ s_un s' <= s_un s.
Proof.
  intros A Hi E. unfold grow in E. destruct (N.ltb_spec i (s_av s)) as [L|L].
  - injection E as <- <-. split; auto. split; [|split; auto; lia]. destruct A as (<- & I). unfold inv in I. destruct (N.ltb_spec i (lenN (s_txt s))); auto. lia.
  - destruct (expand_ok _ _ _ _ _ A E) as (A' & H1 & H2 & H3 & H4). split; auto. destruct b.
    + split; [|split; [specialize (H3 eq_refl); lia|lia]]. destruct A' as (<- & I). unfold inv in I. specialize (H3 eq_refl).
      destruct (N.ltb_spec i (lenN (s_txt s'))); auto. lia.
    + destruct (H4 eq_refl) as (Z & ->). split; [|split; [discriminate|lia]]. destruct A as (<- & I). unfold inv in I.
      destruct (N.ltb_spec i (lenN (s_txt s))); auto. lia.
Qed.

Lemma need_ok B l f : forall s n b s', at_ B l s -> n <= s_av s + N.of_nat f -> need f n s = (b, s') ->
  at_ B l s' /\ b = (n <=? lenN l) /\ (b = true -> n <= s_av s') /\ s_un s' <= s_un s /\ s_av s <= s_av s'.
Proof.
  induction f as [|f IH]; intros s n b s' A Hn E; cbn [need] in E; destruct (N.leb_spec n (s_av s)) as [L|L].
  1,3: injection E as <- <-; split; auto; split; [|split; auto; lia]; destruct A as (<- & I); unfold inv in I; destruct (N.leb_spec n (lenN (s_txt s))); auto; lia.
  - lia.
  - destruct (expand s) as [ok s1] eqn:E1. destruct (expand_ok _ _ _ _ _ A E1) as (A1 & H1 & H2 & H3 & H4). destruct ok.
    + specialize (H3 eq_refl). destruct (IH s1 n b s' A1) as (P & Q & R & U & V); auto; try lia. split; auto. split; auto. split; auto. lia.
    + injection E as <- <-. destruct (H4 eq_refl) as (Z & ->). split; auto. split; [|split; [discriminate|lia]].
      destruct A as (<- & I). unfold inv in I. destruct (N.leb_spec n (lenN (s_txt s))); auto. lia.
Qed.

Lemma shift1_ok B l s : at_ B l s ->
  match l with
  | [] => exists s', shift1 s = (false, s') /\ at_ B [] s'
  | c :: r => exists s', shift1 s = (true, s') /\ at_ B r s' /\ s_un s' <= s_un s
  end.
Proof.
  intros (T & I). unfold shift1.
  set (s1 := if s_lim s <=? s_pos s then shift_stream s else s).
  assert (A1 : s_txt s1 = l /\ s_un s1 <= s_un s /\ 8 <= s_size s1 /\ B <= s_size s1 /\ s_av s1 + s_un s1 = lenN l /\ s_pos s1 + s_av s1 < s_size s1 /\ 4 * s_lim s1 <= 3 * (s_pos s1 + s_av s1) /\
     (s_un s1 = 0 \/ (s_pos s1 + s_av s1 + 1 = s_size s1 /\ s_size s1 + 3 <= 4 * s_av s1))).
  { unfold inv in I. destruct I as (I1 & I2 & I3 & I4 & I5 & I6). subst l. unfold s1, shift_stream. destruct (N.leb_spec (s_lim s) (s_pos s)) as [L|L].
    - destruct (N.ltb_spec (s_pos s) (s_lim s)); [lia|]. destruct (N.eqb_spec (s_un s) 0) as [Z|Z].
      + repeat split; auto; lia.
      + cbn [s_txt s_av s_un s_pos s_lim s_size]. set (k := N.min _ _). repeat split; auto; try (unfold k; lia).
    - repeat split; auto; try lia. }
  clearbody s1. clear I T. destruct A1 as (T & U & I1 & I2 & I3 & I4 & I5 & I6).
  destruct (N.eqb_spec (s_av s1) 0) as [Z|Z].
  - assert (X : l = []) by (apply lenN_0; lia). subst l. rewrite X in *. eexists. split; [reflexivity|]. split; auto. unfold inv. rewrite X, lenN_nil in *. repeat split; auto; lia.
  - destruct l as [|c r]; [rewrite lenN_nil in I3; lia|]. eexists. split; [reflexivity|]. unfold at_, inv. cbn [s_txt s_av s_un s_pos s_lim s_size].
    rewrite T. cbn [tl]. rewrite lenN_cons in I3. repeat split; auto; try lia.
Qed.

Lemma at_un B l s : at_ B l s -> (s_un s =? 0) && (s_av s =? 0) = match l with [] => true | _ => false end.
Proof.
  intros (T & I). unfold inv in I. rewrite T in I. destruct l.
  - rewrite lenN_nil in I. destruct (N.eqb_spec (s_un s) 0), (N.eqb_spec (s_av s) 0); auto; lia.
  - rewrite lenN_cons in I. destruct (N.eqb_spec (s_un s) 0), (N.eqb_spec (s_av s) 0); auto; lia.
Qed.
Lemma at_av B c l s : at_ B (c :: l) s -> s_av s <> 0.
Proof. intros (T & I). unfold inv in I. rewrite T, lenN_cons in I. lia. Qed.
Lemma at_cur B c l s : at_ B (c :: l) s -> cur s = c.
Proof. intros (T & _). unfold cur. rewrite T. reflexivity. Qed.

Lemma shift_ok B n : forall l s, at_ B l s -> (n <= length l)%nat ->
  exists s', shift n s = (true, s') /\ at_ B (skipn n l) s' /\ s_un s' <= s_un s.
Proof.
  induction n as [|n IH]; intros l s A L; cbn [shift].
  - eexists. split; eauto. split; [exact A|lia].
  - destruct l as [|c r]; [cbn in L; lia|]. destruct (shift1_ok _ _ _ A) as (s1 & -> & A1 & U1). cbn in L.
    destruct (IH r s1 A1) as (s' & E & A' & U'); [lia|]. exists s'. split; auto. split; auto. lia.
Qed.

(* spaces on the text *)
Fixpoint skipl (till : bool) (l : bytes) : bool * bytes :=
  match l with
  | [] => (false, [])
  | c :: r => if solid c then (true, l) else if till && (c =? 10) then (true, r) else skipl till r
  end.
Lemma skip_ok B till : forall l s, at_ B l s ->
  exists s', skip till l s = (fst (skipl till l), s') /\ at_ B (snd (skipl till l)) s' /\ s_un s' <= s_un s.
Proof.
  induction l as [|c r IH]; intros s A; cbn [skip skipl].
  - exists s. destruct (s_av s =? 0); (split; [auto|split; [auto|lia]]).
  - destruct (N.eqb_spec (s_av s) 0) as [Z|_]; [elim (at_av _ _ _ _ A Z)|].
    destruct (solid c); [exists s; cbn; split; [auto|split; [auto|lia]]|].
    destruct (shift1_ok _ _ _ A) as (s1 & -> & A1 & U1). cbn [negb]. destruct (till && (c =? 10)); [exists s1; auto|].
    destruct (IH s1 A1) as (s' & E & A' & U'). exists s'. split; auto. split; auto. lia.
Qed.
Lemma skip_spaces_ok B l s : at_ B l s ->
  exists s', skip_spaces s = (fst (skipl false l), s') /\ at_ B (snd (skipl false l)) s' /\ s_un s' <= s_un s.
Proof. intros A. unfold skip_spaces. pose proof A as (-> & _). apply skip_ok. exact A. Qed.
Lemma skip_line_ok B l s : at_ B l s -> at_ B (snd (skipl true l)) (skip_line s) /\ s_un (skip_line s) <= s_un s.
Proof. intros A. unfold skip_line. pose proof A as (-> & _). destruct (skip_ok B true l s A) as (s' & -> & A' & U). auto. Qed.

Lemma starts_app a b : starts a (a ++ b) = true.
Proof. induction a; cbn; auto. rewrite N.eqb_refl. auto. Qed.
Lemma starts_len a : forall l, starts a l = true -> lenN a <= lenN l /\ l = a ++ skipn (length a) l.
Proof.
  induction a as [|x a IH]; intros [|y l]; cbn [starts]; intros H; try discriminate; auto.
  - cbn. split; [lia|auto].
  - cbn. split; [lia|auto].
  - apply andb_prop in H as (H1 & H2). apply N.eqb_eq in H1 as ->. destruct (IH _ H2) as (L & E). rewrite !lenN_cons. split; [lia|]. cbn. congruence.
Qed.

Lemma check_for_ok B str l s : at_ B l s ->
  exists s', check_for str s = (starts str l, s') /\ at_ B (if starts str l then skipn (length str) l else l) s' /\ s_un s' <= s_un s.
Proof.
  intros A. unfold check_for. destruct (need _ _ s) as [ok s1] eqn:E.
  destruct (need_ok B l (length str) s (lenN str) ok s1 A) as (A1 & -> & _ & U & V); [unfold lenN; lia|exact E|].
  destruct (N.leb_spec (lenN str) (lenN l)) as [L|L]; cbn [negb].
  - pose proof A1 as (-> & _). destruct (starts str l) eqn:S1.
    + destruct (shift_ok B (length str) l s1 A1) as (s' & E' & A' & U'); [unfold lenN in L; lia|]. exists s'. split; auto. split; auto. lia.
    + exists s1. auto.
  - destruct (starts str l) eqn:S1; [apply starts_len in S1; lia|]. exists s1. auto.
Qed.

(* first place of a string in the text *)
Fixpoint place (str l : bytes) : option N :=
  if lenN l <? lenN str then None
  else if starts str l then Some 0 else match l with [] => None | _ :: r => option_map (N.add 1) (place str r) end.
Lemma search_ok B str t : forall l i s, at_ B t s -> l = dropN i t -> i <= lenN t -> i <= s_av s -> 0 < lenN str ->
  exists s', search_for str l i s = (option_map (N.add i) (place str l), s') /\ at_ B t s' /\ s_un s' <= s_un s.
Proof.
  induction l as [|c r IH]; intros i s A E Hi Ha Hs; cbn [search_for place]; destruct (need _ _ s) as [ok s1] eqn:EN;
    (destruct (need_ok B t (length str) s (i + lenN str) ok s1 A) as (A1 & -> & R & U & V); [unfold lenN; lia|exact EN|]);
    pose proof (lenN_dropN t i) as LD; rewrite <- E in LD.
  - rewrite lenN_nil in *. destruct (N.leb_spec (i + lenN str) (lenN t)); [lia|]. destruct (N.ltb_spec 0 (lenN str)); [|lia]. cbn. exists s1. auto.
  - destruct (N.leb_spec (i + lenN str) (lenN t)) as [L|L], (N.ltb_spec (lenN (c :: r)) (lenN str)) as [L'|L']; try lia; cbn [negb].
    2: exists s1; auto.
    destruct (starts str (c :: r)); [exists s1; cbn; rewrite N.add_0_r; auto|].
    assert (ED : r = dropN (i + 1) t). { unfold dropN in *. replace (N.to_nat (i + 1)) with (S (N.to_nat i)) by lia. 
      clear - E. revert E. generalize (N.to_nat i). intros n. revert t. induction n as [|n IH]; intros [|y t]; cbn [skipn]; try discriminate; try congruence. intros E. rewrite (IH t E). destruct t; auto. }
    rewrite lenN_cons in LD, L'. destruct (IH (i + 1) s1 A1 ED) as (s' & -> & A' & U'); auto; try lia; try (specialize (R eq_refl); lia).
    exists s'. split; [|split; auto; lia]. destruct (place str r); cbn [option_map]; auto; do 2 f_equal; lia.
Qed.

(* identifiers: number of name characters, if another character follows *)
Fixpoint idl (l : bytes) : option N :=
  match l with [] => None | c :: r => if name_char c then option_map (N.add 1) (idl r) else Some 0 end.
Lemma drop_tl i (t : bytes) c r : c :: r = dropN i t -> r = dropN (i + 1) t /\ i < lenN t.
Proof.
  intros E. pose proof (lenN_dropN t i) as LD. rewrite <- E, lenN_cons in LD. split; [|lia].
  unfold dropN in *. replace (N.to_nat (i + 1)) with (S (N.to_nat i)) by lia.
  clear - E. revert E. generalize (N.to_nat i). intros n. revert t. induction n as [|n IH]; intros [|y t]; cbn [skipn]; try discriminate; try congruence. intros E. rewrite (IH t E). destruct t; auto.
Qed.
Lemma ident_rest_ok B t : forall l i s, at_ B t s -> l = dropN i t -> i <= s_av s -> 0 < i -> i <= lenN t ->
  exists s', ident_rest l i s = (match idl l with Some k => i + k | None => 0 end, s') /\ at_ B t s' /\ s_un s' <= s_un s /\
    match idl l with Some k => i + k | None => 0 end <= s_av s'.
Proof.
  induction l as [|c r IH]; intros i s A E Ha Hi Ht; cbn [ident_rest idl]; destruct (grow i s) as [ok s1] eqn:EG;
    destruct (grow_ok _ _ _ _ _ _ A Ha EG) as (A1 & -> & R & U); pose proof (lenN_dropN t i) as LD; rewrite <- E in LD.
  - rewrite lenN_nil in LD. destruct (N.ltb_spec i (lenN t)); [lia|]. exists s1. split; auto. split; auto. lia.
  - destruct (drop_tl _ _ _ _ E) as (E' & L). destruct (N.ltb_spec i (lenN t)); [|lia]. cbn [negb]. specialize (R eq_refl). destruct (name_char c).
    + destruct (IH (i + 1) s1 A1 E') as (s' & -> & A' & U' & V'); [lia|lia|lia|]. exists s'. split; [|split; auto; split; [lia|]]; destruct (idl r); cbn [option_map]; auto; try f_equal; lia.
    + exists s1. rewrite N.add_0_r. split; auto. split; auto. lia.
Qed.
Definition idlen (l : bytes) : N := match l with c :: r => if letter c then match idl r with Some k => 1 + k | None => 0 end else 0 | [] => 0 end.
Lemma locate_ident_ok B l s : at_ B l s -> exists s', locate_ident s = (idlen l, s') /\ at_ B l s' /\ s_un s' <= s_un s /\ idlen l <= s_av s'.
Proof.
  intros A. unfold locate_ident. pose proof A as (-> & _). destruct l as [|c r]; cbn [idlen]; [exists s; split; [auto|split; [auto|lia]]|].
  destruct (letter c); [|exists s; split; [auto|split; [auto|lia]]]. 
  apply (ident_rest_ok B (c :: r)); auto; rewrite ?lenN_cons; try lia. pose proof (at_av _ _ _ _ A). lia.
Qed.

(* text up to the next tag *)
Fixpoint contl (l : bytes) : option N :=
  match l with [] => None | c :: r => if c =? 60 then Some 0 else match r with [] => None | _ => option_map (N.add 1) (contl r) end end.
Lemma content_ok B t : forall l i s, at_ B t s -> l = dropN i t -> i < s_av s ->
  exists s', content_rest l i s = (option_map (N.add i) (contl l), s') /\ at_ B t s' /\ s_un s' <= s_un s.
Proof.
  induction l as [|c r IH]; intros i s A E Ha; cbn [content_rest contl].
  - exists s. cbn. split; [auto|split; [auto|lia]].
  - destruct (drop_tl _ _ _ _ E) as (E' & L). destruct (c =? 60); [exists s; cbn; rewrite N.add_0_r; split; [auto|split; [auto|lia]]|].
    destruct (grow (i + 1) s) as [ok s1] eqn:EG. destruct (grow_ok B t s (i + 1) ok s1 A) as (A1 & -> & R & U); auto; [lia|].
    pose proof (lenN_dropN t i) as LD. rewrite <- E, lenN_cons in LD. destruct (N.ltb_spec (i + 1) (lenN t)) as [L1|L1]; cbn [negb].
    + destruct r as [|d r']; [rewrite lenN_nil in LD; lia|]. destruct (IH (i + 1) s1 A1 E' (R eq_refl)) as (s' & -> & A' & U').
      exists s'. split; [|split; auto; lia]. destruct (contl (d :: r')); cbn [option_map]; auto. do 2 f_equal. lia.
    + destruct r as [|d r']; [|rewrite lenN_cons in LD; lia]. exists s1. auto.
Qed.
Lemma locate_content_ok B c l s : at_ B (c :: l) s -> exists s', locate_content s = (contl (c :: l), s') /\ at_ B (c :: l) s' /\ s_un s' <= s_un s.
Proof.
  intros A. unfold locate_content. pose proof A as (-> & _). destruct (N.eqb_spec (s_av s) 0) as [Z|Z]; [elim (at_av _ _ _ _ A Z)|].
  destruct (content_ok B (c :: l) (c :: l) 0 s A) as (s' & -> & A' & U'); auto; [lia|]. exists s'. split; [|auto]. destruct (contl (c :: l)); auto.
Qed.

(* attribute values: number of characters up to the quote *)
Fixpoint quotl (l : bytes) : option N := match l with [] => None | c :: r => if c =? 34 then Some 0 else option_map (N.add 1) (quotl r) end.
Lemma value_rest_ok B t size a : forall l i s, at_ B t s -> l = dropN i t -> i <= s_av s -> i <= lenN t ->
  (exists s', value_rest size a l i s = Ok (match quotl l with Some k => i + k - a + 1 | None => 0 end, s') /\ at_ B t s' /\ s_un s' <= s_un s) \/
  (value_rest size a l i s = UB /\ (s_un s <> 0 \/ s_size s <> size)).
Proof.
  induction l as [|c r IH]; intros i s A E Ha Ht; cbn [value_rest quotl]; destruct (grow i s) as [ok s1] eqn:EG;
    destruct (grow_ok _ _ _ _ _ _ A Ha EG) as (A1 & -> & R & U); pose proof (lenN_dropN t i) as LD; rewrite <- E in LD.
  - rewrite lenN_nil in LD. destruct (N.ltb_spec i (lenN t)); [lia|]. left. exists s1. auto.
  - destruct (drop_tl _ _ _ _ E) as (E' & L). destruct (N.ltb_spec i (lenN t)); [|lia]. cbn [negb].
    assert (G : s_un s <> 0 \/ s1 = s). { unfold grow in EG. destruct (i <? s_av s); [injection EG as ->; auto|]. unfold expand in EG. destruct (N.eqb_spec (s_un s) 0); [discriminate|auto]. }
    destruct (c =? 34).
    + rewrite N.add_0_r. destruct (N.eqb_spec (s_size s1) size); [left; exists s1; auto|right; split; auto]. destruct G as [| ->]; auto.
    + destruct (IH (i + 1) s1 A1 E') as [(s' & -> & A' & U')|(-> & X)]; [specialize (R eq_refl); lia|lia| |].
      * left. exists s'. split; [|split; auto; lia]. destruct (quotl r); cbn [option_map]; auto; do 2 f_equal; lia.
      * right. split; auto. destruct X; [left; lia|]. destruct G as [| ->]; auto.
Qed.
(* length of the equals sign and the value in quotes at the begin of the text *)
Definition vlen (l : bytes) : N :=
  match l with
  | c :: d :: r => if (c =? 61) && (d =? 34) then match quotl r with Some k => 3 + k | None => 0 end else 0
  | _ => 0
  end.
Lemma locate_value_ok B a l s : at_ B l s -> a <= s_av s ->
  (exists s', locate_value a s = Ok (vlen (dropN a l), s') /\ at_ B l s' /\ s_un s' <= s_un s) \/
  (locate_value a s = UB /\ s_un s <> 0).
Proof.
  intros A Ha. unfold locate_value. destruct (grow a s) as [ok s1] eqn:E1. destruct (grow_ok _ _ _ _ _ _ A Ha E1) as (A1 & -> & R1 & U1).
  assert (G1 : s_un s <> 0 \/ s1 = s). { unfold grow in E1. destruct (a <? s_av s); [injection E1 as _ ->; auto|]. unfold expand in E1. destruct (N.eqb_spec (s_un s) 0); [injection E1 as _ ->; auto|auto]. }
  pose proof (lenN_dropN l a) as LD. pose proof A1 as (T1 & _). destruct (N.ltb_spec a (lenN l)) as [L|L]; cbn [negb].
  2: { assert (X : dropN a l = []) by (apply lenN_0; lia). rewrite X. left. exists s1. auto. }
  rewrite T1. destruct (dropN a l) as [|c r] eqn:ED; [rewrite lenN_nil in LD; lia|]. destruct (drop_tl _ _ _ _ (eq_sym ED)) as (E' & _).
  destruct (N.eqb_spec c 61) as [->|NC]; cbn [negb].
  2: { left. exists s1. split; auto. unfold vlen. destruct r; auto. destruct (N.eqb_spec c 61); [contradiction|auto]. }
  destruct (grow (a + 1) s1) as [ok s2] eqn:E2. destruct (grow_ok B l s1 (a + 1) ok s2 A1) as (A2 & -> & R2 & U2); auto; [specialize (R1 eq_refl); lia|].
  assert (G2 : s_un s1 <> 0 \/ s2 = s1). { unfold grow in E2. destruct (a + 1 <? s_av s1); [injection E2 as _ ->; auto|]. unfold expand in E2. destruct (N.eqb_spec (s_un s1) 0); [injection E2 as _ ->; auto|auto]. }
  rewrite lenN_cons in LD. destruct (N.ltb_spec (a + 1) (lenN l)) as [L2|L2]; cbn [negb].
  2: { assert (X : r = []) by (apply lenN_0; lia). subst r. rewrite X. left. exists s2. split; auto. split; auto. lia. }
  destruct r as [|d r]; [rewrite lenN_nil in LD; lia|]. destruct (drop_tl _ _ _ _ E') as (E'' & _). unfold vlen. rewrite N.eqb_refl. cbn [andb].
  destruct (N.eqb_spec d 34) as [->|ND]; cbn [negb]; [|left; exists s2; split; auto; split; auto; lia].
  replace (a + 1 + 1) with (a + 2) in E'' by lia. rewrite lenN_cons in LD.
  destruct (value_rest_ok B l (s_size s) a r (a + 2) s2 A2 E'') as [(s' & -> & A' & U')|(-> & X)]; [specialize (R2 eq_refl); lia|lia| |].
  - left. exists s'. split; [|split; auto; lia]. destruct (quotl r); auto. do 2 f_equal. lia.
  - right. split; auto. destruct X as [X|X]; [lia|]. destruct G1 as [| ->]; auto. destruct G2 as [| ->]; auto; contradiction.
Qed.

(* no reallocation when the value lies in the buffer *)
Lemma value_rest_in size a : forall l i s k, quotl l = Some k -> i + k < s_av s -> s_size s = size -> value_rest size a l i s = Ok (i + k - a + 1, s).
Proof.
  induction l as [|c r IH]; intros i s k; cbn [quotl value_rest]; [discriminate|]. intros Q L SZ.
  unfold grow. destruct (c =? 34).
  - injection Q as <-. destruct (N.ltb_spec i (s_av s)); [|lia]. cbn [negb]. rewrite SZ, N.eqb_refl, N.add_0_r. reflexivity.
  - destruct (quotl r) as [j|] eqn:QR; [|discriminate]. cbn [option_map] in Q. assert (k = 1 + j) by congruence. subst k. clear Q. destruct (N.ltb_spec i (s_av s)); [|lia]. cbn [negb].
    rewrite (IH (i + 1) s j); auto; [|lia]. do 2 f_equal. lia.
Qed.
Lemma locate_value_in B a l s : at_ B l s -> vlen (dropN a l) <> 0 -> a + vlen (dropN a l) <= s_av s -> locate_value a s = Ok (vlen (dropN a l), s).
Proof.
  intros (T & _) NZ L. unfold locate_value, grow. destruct (N.ltb_spec a (s_av s)); [|lia]. cbn [negb]. rewrite T.
  destruct (dropN a l) as [|c [|d r]]; try (cbn in NZ; congruence). unfold vlen in *.
  destruct (N.eqb_spec c 61) as [->|]; [|cbn in NZ; congruence]. destruct (N.eqb_spec d 34) as [->|]; [|cbn in NZ; congruence]. cbn [andb negb] in *.
  destruct (quotl r) as [k|] eqn:Q; [|congruence].
  destruct (N.ltb_spec (a + 1) (s_av s)); [|lia]. cbn [negb].
  rewrite (value_rest_in (s_size s) a r (a + 2) s k); auto; [|lia]. do 2 f_equal. lia.
Qed.
