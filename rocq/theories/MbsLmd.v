(* Reading LMD files in blocks. *)
From Verif Require Import Common ListFacts Bytes WordMem BufPtr MbsSpec MbsModel MbsRead.
Open Scope N_scope.

Lemma full_taken a e c n : mevent_ok e -> lenN a + 4 <= n -> full_size (takeN n (a ++ enc_mevent e ++ c)) (lenN a) = Ok (mevent_size e).
Proof.
  intros H L. assert (E := event_even e H). unfold enc_mevent. rewrite <- !app_assoc. rewrite takeN_app_ge by lia. rewrite takeN_app_ge by (rewrite lenN_le; lia).
  destruct H as (_ & _ & _ & _ & S1). apply full_at; try assumption; try lia. unfold mevent_size. lia.
Qed.
Lemma mevents_aligned l : Forall (fun e => mevent_size e mod 4 = 0) l -> lenN (enc_mevents l) mod 4 = 0.
Proof.
  induction 1 as [|e l E _ IH]; [reflexivity|]. rewrite enc_mevents_cons, lenN_app, lenN_enc_mevent. lia.
Qed.

Definition aligned (l : list mevent) : Prop := Forall (fun e => mevent_size e mod 4 = 0) l.

Lemma scan_at maxsz only : maxsz mod 4 = 0 -> forall fuel a b,
  Forall mevent_ok (a ++ b) -> aligned (a ++ b) -> lenN (enc_mevents a) <= maxsz ->
  N.min maxsz (lenN (enc_mevents (a ++ b))) - lenN (enc_mevents a) < N.of_nat fuel ->
  exists c d back, b = c ++ d /\ scan fuel (takeN maxsz (enc_mevents (a ++ b))) only (lenN (enc_mevents a)) = Ok (lenN (enc_mevents (a ++ c)), back) /\
    lenN (enc_mevents (a ++ c)) <= maxsz /\
    (back = false -> lenN (enc_mevents (a ++ c)) = N.min maxsz (lenN (enc_mevents (a ++ b)))) /\
    (only = true -> a <> [] -> c = []) /\
    (a = [] -> match b with [] => True | e :: _ => mevent_size e <= maxsz -> if only then c = [e] else c <> [] end) /\
    (only = false -> match d with [] => True | e :: _ => maxsz < lenN (enc_mevents (a ++ c)) + mevent_size e end).
Proof.
  intros M4. induction fuel as [|fuel IH]; intros a b Hok Al La F; [lia|]. cbn [scan]. rewrite lenN_takeN.
  assert (Hl : lenN (enc_mevents (a ++ b)) = lenN (enc_mevents a) + lenN (enc_mevents b)) by (rewrite enc_mevents_app, lenN_app; reflexivity).
  destruct (N.leb_spec (N.min maxsz (lenN (enc_mevents (a ++ b)))) (lenN (enc_mevents a))) as [L|L].
  - exists [], b, false. rewrite app_nil_r. split; [reflexivity|]. split; [reflexivity|]. split; [exact La|]. split; [intros _; lia|]. split; [auto|].
    destruct b as [|e b]; [split; auto|].
    rewrite enc_mevents_cons, lenN_app, lenN_enc_mevent in Hl. assert (S1 : 16 <= mevent_size e) by (unfold mevent_size; lia). split; [|intros _; lia].
    intros -> Le. change (lenN (enc_mevents [])) with 0 in *. lia.
  - destruct b as [|e b]; [rewrite app_nil_r in *; lia|].
    assert (Al1 := Al). apply Forall_app in Al1. destruct Al1 as (Aa & Ab). assert (A4 := mevents_aligned a Aa). assert (B4 := mevents_aligned _ Ab).
    assert (He : mevent_ok e). { apply Forall_app in Hok. destruct Hok as (_ & Hb). inversion Hb; assumption. }
    assert (S1 : 16 <= mevent_size e) by (unfold mevent_size; lia).
    assert (Full : full_size (takeN maxsz (enc_mevents (a ++ e :: b))) (lenN (enc_mevents a)) = Ok (mevent_size e)).
    { rewrite enc_mevents_app, enc_mevents_cons. apply full_taken; [exact He|]. lia. }
    rewrite Full. cbn [bind]. rewrite enc_mevents_cons, lenN_app, lenN_enc_mevent in Hl.
    assert (Stop : exists c d back, e :: b = c ++ d /\ Ok (lenN (enc_mevents a), true) = Ok (lenN (enc_mevents (a ++ c)), back) /\
      lenN (enc_mevents (a ++ c)) <= maxsz /\ (back = false -> lenN (enc_mevents (a ++ c)) = N.min maxsz (lenN (enc_mevents (a ++ e :: b)))) /\
      c = [] /\ d = e :: b).
    { exists [], (e :: b), true. rewrite app_nil_r. repeat split; auto. discriminate. }
    destruct (N.ltb_spec (N.min maxsz (lenN (enc_mevents (a ++ e :: b)))) (lenN (enc_mevents a) + mevent_size e)) as [L2|L2].
    + destruct Stop as (c & d & back & Q1 & Q2 & Q3 & Q4 & -> & ->). exists [], (e :: b), back. cbn [orb]. repeat split; auto.
      * intros -> Le. change (lenN (enc_mevents [])) with 0 in *. lia.
      * intros _. rewrite app_nil_r. lia.
    + cbn [orb]. destruct only; cbn [andb].
      * destruct (N.ltb_spec 0 (lenN (enc_mevents a))) as [P|P].
        { destruct Stop as (c & d & back & Q1 & Q2 & Q3 & Q4 & -> & ->). exists [], (e :: b), back. repeat split; auto; try discriminate. intros ->. change (lenN (enc_mevents [])) with 0 in *. lia. }
        assert (a = []) as ->. { destruct a as [|x a]; [reflexivity|]. rewrite enc_mevents_cons, lenN_app, lenN_enc_mevent in P. unfold mevent_size in P. lia. }
        destruct (IH [e] b) as (c & d & back & -> & Sc & Lc & Bk & On & _ & _); auto.
        { rewrite enc_mevents_cons, lenN_app, lenN_enc_mevent. cbn [app] in *. change (lenN (enc_mevents [])) with 0 in *. lia. }
        { rewrite enc_mevents_cons, lenN_app, lenN_enc_mevent. cbn [app] in *. change (lenN (enc_mevents [])) with 0 in *. lia. }
        assert (c = []) as -> by (apply On; [reflexivity|discriminate]). exists [e], d, back.
        rewrite enc_mevents_cons, lenN_app, lenN_enc_mevent in Sc at 1. change (lenN (enc_mevents [])) with 0 in *. rewrite N.add_0_r in Sc.
        cbn [app] in *. split; [reflexivity|]. split; [rewrite N.add_0_l; exact Sc|]. repeat split; auto; try congruence; discriminate.
      * assert (Ea : a ++ e :: b = (a ++ [e]) ++ b) by (rewrite <- app_assoc; reflexivity).
        assert (Le1 : lenN (enc_mevents (a ++ [e])) = lenN (enc_mevents a) + mevent_size e).
        { rewrite enc_mevents_app, lenN_app, enc_mevents_cons, lenN_app, lenN_enc_mevent. change (lenN (enc_mevents [])) with 0. lia. }
        destruct (IH (a ++ [e]) b) as (c & d & back & -> & Sc & Lc & Bk & _ & _ & Mx); [rewrite <- Ea; exact Hok|rewrite <- Ea; exact Al|lia|rewrite <- Ea; lia|].
        exists (e :: c), d, back. rewrite Le1 in Sc.
        assert (Ec : (a ++ [e]) ++ c = a ++ e :: c) by (rewrite <- app_assoc; reflexivity). rewrite Ec in *. rewrite <- Ea in Sc, Bk.
        split; [reflexivity|]. split; [exact Sc|]. repeat split; auto; discriminate.
Qed.

Lemma read_block maxsz only e l : maxsz mod 4 = 0 -> Forall mevent_ok (e :: l) -> aligned (e :: l) -> mevent_size e <= maxsz ->
  exists a b, e :: l = a ++ b /\ lmd_read maxsz only (enc_mevents (e :: l)) = Ok (enc_mevents b, Some (enc_mevents a)) /\
    (if only then a = [e] else a <> [] /\ match b with [] => True | f :: _ => maxsz < lenN (enc_mevents a) + mevent_size f end).
Proof.
  intros M4 Hok Al Le. assert (S1 : 16 <= mevent_size e) by (unfold mevent_size; lia).
  destruct (scan_at maxsz only M4 (S (length (takeN maxsz (enc_mevents (e :: l))))) [] (e :: l)) as (a & b & back & E & Sc & La & Bk & _ & Ne & Mx); auto.
  { change (lenN (enc_mevents [])) with 0. lia. }
  { change (lenN (enc_mevents [])) with 0. cbn [app]. assert (Q := lenN_takeN (enc_mevents (e :: l)) maxsz). unfold lenN in *. lia. }
  cbn [app] in *. specialize (Ne eq_refl Le). exists a, b. split; [exact E|]. split; [|destruct only; [exact Ne|split; [exact Ne|apply Mx; reflexivity]]].
  assert (Na : 16 <= lenN (enc_mevents a)).
  { destruct a as [|x a]; [exfalso; destruct only; [discriminate|apply Ne; reflexivity]|]. rewrite enc_mevents_cons, lenN_app, lenN_enc_mevent. unfold mevent_size. lia. }
  unfold lmd_read. destruct (N.ltb_spec maxsz 8); [lia|]. 
  assert (Lt : lenN (takeN maxsz (enc_mevents (e :: l))) = N.min maxsz (lenN (enc_mevents (e :: l)))) by apply lenN_takeN.
  destruct (N.eqb_spec (lenN (takeN maxsz (enc_mevents (e :: l)))) 0) as [Z|Z].
  { rewrite Lt, enc_mevents_cons, lenN_app, lenN_enc_mevent in Z. lia. }
  change 0 with (lenN (enc_mevents [])). rewrite Sc. cbn [bind]. change (lenN (enc_mevents [])) with 0.
  destruct (N.ltb_spec 0 (lenN (enc_mevents a))); [|lia]. rewrite E, enc_mevents_app in *. f_equal. f_equal.
  - destruct back; [apply dropN_app; reflexivity|]. specialize (Bk eq_refl). rewrite lenN_app in Bk.
    destruct (N.le_gt_cases (lenN (enc_mevents a)) maxsz) as [Q|Q]; [|lia]. rewrite dropN_app_ge by exact Q.
    destruct (N.eq_dec maxsz (lenN (enc_mevents a))) as [->|Nq]; [rewrite N.sub_diag; apply dropN_0|].
    assert (lenN (enc_mevents b) = 0) by lia. destruct (enc_mevents b); [unfold dropN; apply skipn_nil|rewrite lenN_cons in *; lia].
  - f_equal. rewrite takeN_app_ge by exact La. apply takeN_app. reflexivity.
Qed.
Lemma read_end maxsz only : lmd_read maxsz only [] = Ok ([], None).
Proof. unfold lmd_read. destruct (maxsz <? 8); [reflexivity|]. unfold takeN. destruct (N.to_nat maxsz); reflexivity. Qed.

(* what the calls return: groups of whole events *)
Definition grouped (only : bool) (maxsz : N) (l : list mevent) (parts : list (list mevent)) : Prop :=
  concat parts = l /\ Forall (fun p => p <> [] /\ lenN (enc_mevents p) <= maxsz) parts /\ (only = true -> parts = map (fun e => [e]) l).

Lemma blocks_at maxsz only : maxsz mod 4 = 0 -> forall fuel l, (length l < fuel)%nat -> Forall mevent_ok l -> aligned l -> Forall (fun e => mevent_size e <= maxsz) l ->
  exists parts, grouped only maxsz l parts /\ lmd_blocks fuel maxsz only (enc_mevents l) = Ok (map enc_mevents parts).
Proof.
  intros M4. induction fuel as [|fuel IH]; intros l F Hok Al Le; [lia|]. destruct l as [|e l].
  { exists []. split; [repeat split; constructor|]. cbn [lmd_blocks]. change (enc_mevents []) with (@nil N). rewrite read_end. reflexivity. }
  inversion Le as [|? ? Le1 Le2 ]; subst. destruct (read_block maxsz only e l M4 Hok Al Le1) as (a & b & E & Rd & Pa).
  assert (Na : a <> []) by (destruct only; [rewrite Pa; discriminate|apply Pa]).
  cbn [lmd_blocks]. rewrite Rd. cbn [bind]. rewrite E in *. apply Forall_app in Hok, Al, Le. destruct Hok as (_ & Hb), Al as (_ & Ab), Le as (La & Lb).
  destruct (IH b) as (parts & (G1 & G2 & G3) & ->); auto.
  { assert (Q := f_equal (@length mevent) E). rewrite app_length in Q. destruct a; [congruence|]. cbn [length] in *. rewrite ?app_length in F. cbn in F. lia. }
  cbn [bind]. exists (a :: parts). split; [|reflexivity]. split; [cbn [concat]; congruence|]. split.
  - constructor; [|exact G2]. split; [exact Na|]. assert (X := Rd). unfold lmd_read in X. destruct (maxsz <? 8); [discriminate|]. destruct (lenN (takeN maxsz (enc_mevents (a ++ b))) =? 0); [discriminate|].
    destruct (scan _ _ _ _) as [[ch bk]| |]; cbn [bind] in X; try discriminate. destruct (0 <? ch); [|discriminate]. injection X as X1 X2. rewrite <- X2. rewrite !lenN_takeN. lia.
  - intros ->. rewrite map_app, (G3 eq_refl), Pa. reflexivity.
Qed.

Lemma lmd_open_header r : lmd_open (lmd_header ++ r) = Some r.
Proof.
  unfold lmd_open. rewrite (takeN_app lmd_header r 48) by reflexivity. rewrite (dropN_app lmd_header r 48) by reflexivity. reflexivity.
Qed.
Lemma lmd_file_at l : lmd_file l = lmd_header ++ concat l.
Proof.
  unfold lmd_file. assert (G : forall f, fold_left (fun f d => fst (lmd_write f d)) l f = f ++ concat l); [|apply G].
  induction l as [|d l IH]; intros f; [cbn; rewrite app_nil_r; reflexivity|]. cbn [fold_left concat]. rewrite IH. unfold lmd_write. destruct (N.eqb_spec (lenN d) 0) as [Z|Z]; cbn [fst].
  - destruct d; [reflexivity|]. rewrite lenN_cons in Z. lia.
  - rewrite app_assoc. reflexivity.
Qed.
Lemma concat_enc (ll : list (list mevent)) : concat (map enc_mevents ll) = enc_mevents (concat ll).
Proof. induction ll as [|l ll IH]; [reflexivity|]. cbn [map concat]. rewrite enc_mevents_app, IH. reflexivity. Qed.

Lemma file_blocks maxsz only ll : maxsz mod 4 = 0 -> Forall mevent_ok (concat ll) -> aligned (concat ll) -> Forall (fun e => mevent_size e <= maxsz) (concat ll) ->
  exists rest parts, lmd_open (lmd_file (map enc_mevents ll)) = Some rest /\ grouped only maxsz (concat ll) parts /\
    lmd_blocks (S (length rest)) maxsz only rest = Ok (map enc_mevents parts).
Proof.
  intros M4 Hok Al Le. exists (enc_mevents (concat ll)). rewrite lmd_file_at, concat_enc, lmd_open_header.
  assert (F : (length (concat ll) < S (length (enc_mevents (concat ll))))%nat). { assert (Q := mevents_len (concat ll)). unfold lenN in Q. lia. }
  destruct (blocks_at maxsz only M4 _ _ F Hok Al Le) as (parts & G & E). exists parts. auto.
Qed.

Lemma input_at maxsz : maxsz mod 4 = 0 -> forall fuel l, (length l < fuel)%nat -> Forall mevent_ok l -> aligned l -> Forall (fun e => mevent_size e <= maxsz) l ->
  exists parts, grouped false maxsz l parts /\ input_loop fuel maxsz (mkL (Some (enc_mevents l)) []) = Ok (map enc_mevents parts, true).
Proof.
  intros M4. induction fuel as [|fuel IH]; intros l F Hok Al Le; [lia|]. destruct l as [|e l].
  { exists []. split; [repeat split; constructor|]. cbn [input_loop read_size l_cur]. unfold read_complete. cbn [l_cur l_files]. change (enc_mevents []) with (@nil N). rewrite read_end. reflexivity. }
  inversion Le as [|? ? Le1 Le2 ]; subst. destruct (read_block maxsz false e l M4 Hok Al Le1) as (a & b & E & Rd & Na & _).
  cbn [input_loop read_size l_cur]. unfold read_complete. cbn [l_cur l_files]. rewrite Rd. cbn [bind]. rewrite E in *. apply Forall_app in Hok, Al, Le. destruct Hok as (_ & Hb), Al as (_ & Ab), Le as (La & Lb).
  destruct (IH b) as (parts & (G1 & G2 & G3) & ->); auto.
  { assert (Q := f_equal (@length mevent) E). rewrite app_length in Q. destruct a; [congruence|]. cbn [length] in *. rewrite ?app_length in F. cbn in F. lia. }
  cbn [bind]. exists (a :: parts). split; [|reflexivity]. split; [cbn [concat]; congruence|]. split; [|discriminate].
  constructor; [|exact G2]. split; [exact Na|]. assert (X := Rd). unfold lmd_read in X. destruct (maxsz <? 8); [discriminate|]. destruct (lenN (takeN maxsz (enc_mevents (a ++ b))) =? 0); [discriminate|].
  destruct (scan _ _ _ _) as [[ch bk]| |]; cbn [bind] in X; try discriminate. destruct (0 <? ch); [|discriminate]. injection X as X1 X2. rewrite <- X2. rewrite !lenN_takeN. lia.
Qed.
Lemma input_file maxsz ll : maxsz mod 4 = 0 -> Forall mevent_ok (concat ll) -> aligned (concat ll) -> Forall (fun e => mevent_size e <= maxsz) (concat ll) ->
  exists parts, grouped false maxsz (concat ll) parts /\
    input_loop (S (S (length (enc_mevents (concat ll))))) maxsz (mkL None [lmd_file (map enc_mevents ll)]) = Ok (map enc_mevents parts, true).
Proof.
  intros M4 Hok Al Le.
  assert (F : (length (concat ll) < S (S (length (enc_mevents (concat ll)))))%nat). { assert (Q := mevents_len (concat ll)). unfold lenN in Q. lia. }
  destruct (input_at maxsz M4 _ _ F Hok Al Le) as (parts & G & E). exists parts. split; [exact G|]. rewrite <- E.
  cbn [input_loop read_size l_cur]. unfold open_next. cbn [l_files]. rewrite lmd_file_at, concat_enc, lmd_open_header. reflexivity.
Qed.
