(* Proofs about HLD files. *)
From Verif Require Import Common ListFacts Bytes WordMem BufPtr HadSpec HadModel HadWords HadRead HadWrite HldModel.
Open Scope N_scope.

(* an event as bytes: three header words and the rest *)
Definition evt (big : bool) (d i : N) (t : bytes) : bytes := hdr_bytes big [12 + lenN t; d; i] ++ t.
Definition evt_ok (d i : N) (t : bytes) : Prop := dec_ok d /\ word i /\ (12 + lenN t) mod 8 = 0 /\ 12 + lenN t < 2^32 /\ 32 <= 12 + lenN t.

Lemma hdr_bytes_app big l l' : hdr_bytes big (l ++ l') = hdr_bytes big l ++ hdr_bytes big l'.
Proof. unfold hdr_bytes. rewrite map_app, concat_app. reflexivity. Qed.
Lemma hdr3 big a b c : lenN (hdr_bytes big [a; b; c]) = 12.
Proof. rewrite lenN_hdr_bytes. reflexivity. Qed.
Lemma lenN_evt big d i t : lenN (evt big d i t) = 12 + lenN t.
Proof. unfold evt. rewrite lenN_app, hdr3. reflexivity. Qed.

Lemma padded_prefix big d i t a c k : evt_ok d i t -> 8 <= k ->
  padded (a ++ takeN k (evt big d i t ++ c)) (lenN a) = Ok (12 + lenN t).
Proof.
  intros (D & I & M & L & G) K. unfold evt.
  assert (E : hdr_bytes big [12 + lenN t; d; i] = hdr_bytes big [12 + lenN t; d] ++ hdr_bytes big [i]) by (rewrite <- hdr_bytes_app; reflexivity).
  rewrite E, <- !app_assoc. rewrite takeN_app_ge by (rewrite lenN_hdr_bytes; unfold lenN at 1; cbn [length]; lia).
  unfold padded, get_size. rewrite (get_hdrN big [12 + lenN t; d] a _ (lenN a) 0 (12 + lenN t) d); auto.
  - cbn [bind]. f_equal. rewrite <- (N.add_0_r (12 + lenN t)) at 2. apply pad8_exact; lia.
  - repeat constructor; [exact L|apply dec_word; exact D].
Qed.
Lemma id_prefix big d i t a c k : evt_ok d i t -> 12 <= k ->
  get_id (a ++ takeN k (evt big d i t ++ c)) (lenN a) = Ok i.
Proof.
  intros (D & I & M & L & G) K. unfold evt.
  rewrite <- !app_assoc. rewrite takeN_app_ge by (rewrite hdr3; lia).
  unfold get_id. apply (get_hdrN big [12 + lenN t; d; i] a _ (lenN a) 2 i d); auto.
  repeat constructor; [exact L|apply dec_word; exact D|exact I].
Qed.
Lemma getw_out m o : lenN m < o + 4 -> getw m o = UB.
Proof. intros H. unfold getw, getb. destruct (N.leb_spec (o + 4) (lenN m)); [lia|reflexivity]. Qed.
Lemma get_field_out m o k : lenN m < o + 4 * k + 4 -> get_field m o k = UB.
Proof.
  intros H. unfold get_field. destruct (getw m (o + 4)) eqn:E; cbn [bind]; [rewrite getw_out by lia; reflexivity|reflexivity|].
  unfold getw, getb in E. destruct (o + 4 + 4 <=? lenN m); discriminate.
Qed.
Lemma padded_out m o : lenN m < o + 8 -> padded m o = UB.
Proof.
  intros H. unfold padded, get_size, get_field. rewrite getw_out by lia. reflexivity.
Qed.

(* an event that is not the end marker *)
Definition plain (i : N) (t : bytes) : Prop := 12 + lenN t <> 32 \/ i <> EvtId_runStop.
Record ev : Type := mkE { e_big : bool; e_dec : N; e_id : N; e_tail : bytes }.
Definition eb (e : ev) : bytes := evt (e_big e) (e_dec e) (e_id e) (e_tail e).
Definition eok (e : ev) : Prop := evt_ok (e_dec e) (e_id e) (e_tail e).
Definition eplain (e : ev) : Prop := plain (e_id e) (e_tail e).
Definition ebs (l : list ev) : bytes := concat (map eb l).
Definition elen (e : ev) : N := 12 + lenN (e_tail e).
Lemma lenN_eb e : lenN (eb e) = elen e. Proof. apply lenN_evt. Qed.

(* ---- one event at a time ---- *)

Lemma takeN_pre (a b : bytes) n : n <= lenN a -> takeN n (a ++ b) = takeN n a.
Proof. apply takeN_app_le. Qed.

Lemma head_of e c : eok e -> padded (takeN 8 (eb e ++ c)) 0 = Ok (elen e).
Proof.
  intros K. assert (E := padded_prefix (e_big e) (e_dec e) (e_id e) (e_tail e) [] c 8 K ltac:(lia)). exact E.
Qed.
Lemma stop_check e : eok e -> is_stop (eb e) 0 (elen e) = Ok ((elen e =? 32) && (e_id e =? EvtId_runStop)).
Proof.
  intros K. unfold is_stop. destruct (N.eqb_spec (elen e) 32) as [E|E]; [|reflexivity].
  assert (X := id_prefix (e_big e) (e_dec e) (e_id e) (e_tail e) [] [] (elen e) K ltac:(lia)).
  rewrite app_nil_r in X. fold (eb e) in X. cbn [app] in X. rewrite takeN_all in X by (rewrite lenN_eb; lia).
  change (lenN []) with 0 in X. rewrite X. reflexivity.
Qed.

Lemma read_event_at e c maxsz eof : eok e -> elen e <= maxsz ->
  read_event maxsz (mkH (eb e ++ c) eof) =
  if (elen e =? 32) && (e_id e =? EvtId_runStop) then Ok (mkH c true, None) else Ok (mkH c eof, Some (eb e)).
Proof.
  intros K L. assert (G : 32 <= elen e) by apply K. unfold read_event. cbn [h_rest h_eof].
  destruct (N.ltb_spec maxsz 8); [lia|].
  assert (L8 : lenN (takeN 8 (eb e ++ c)) = 8) by (rewrite lenN_takeN, lenN_app, lenN_eb; lia).
  rewrite L8. change (8 <? 8) with false. cbv iota. rewrite head_of by exact K. cbn [bind].
  destruct (N.ltb_spec maxsz (elen e)); [lia|]. destruct (N.ltb_spec (elen e) 8); [lia|].
  rewrite takeN_app by (symmetry; apply lenN_eb). rewrite dropN_app by (symmetry; apply lenN_eb).
  rewrite lenN_eb. destruct (N.ltb_spec (elen e) (elen e)); [lia|]. rewrite stop_check by exact K. cbn [bind].
  destruct ((elen e =? 32) && (e_id e =? EvtId_runStop)); reflexivity.
Qed.

Definition is_end (e : ev) : Prop := eok e /\ elen e = 32 /\ e_id e = EvtId_runStop.

Lemma plain_check e : eplain e -> ((elen e =? 32) && (e_id e =? EvtId_runStop)) = false.
Proof.
  intros [H|H]; [destruct (N.eqb_spec (elen e) 32); [contradiction|reflexivity]|].
  destruct (N.eqb_spec (e_id e) EvtId_runStop); [contradiction|]. apply andb_false_r.
Qed.

Lemma read_events l : forall stop c maxsz fuel, Forall eok l -> Forall eplain l -> is_end stop ->
  Forall (fun e => elen e <= maxsz) l -> 32 <= maxsz -> (length l < fuel)%nat ->
  read_loop fuel (read_event maxsz) (mkH (ebs l ++ eb stop ++ c) false) = Ok (map eb l, true).
Proof.
  induction l as [|e l IH]; intros stop c maxsz fuel K P St Mx M32 F; (destruct fuel as [|fuel]; [cbn in F; lia|]).
  - cbn [read_loop h_eof]. change (ebs [] ++ eb stop ++ c) with (eb stop ++ c). destruct St as (Ks & Ls & Is).
    rewrite read_event_at by (auto; lia). rewrite Ls, Is. reflexivity.
  - cbn [read_loop h_eof]. inversion K; inversion P; inversion Mx; subst.
    assert (E : ebs (e :: l) ++ eb stop ++ c = eb e ++ (ebs l ++ eb stop ++ c)) by (unfold ebs; cbn [map concat]; rewrite <- app_assoc; reflexivity).
    rewrite E. rewrite read_event_at by auto. rewrite plain_check by auto. cbn [bind].
    rewrite IH by (auto; cbn in F; lia). reflexivity.
Qed.

(* ---- in blocks ---- *)

(* how many whole events fit in k bytes *)
Lemma scan_at l : forall done stop k maxsz fuel, Forall eok l -> Forall eplain l -> is_end stop ->
  let buf := done ++ takeN k (ebs l ++ eb stop) in
  lenN buf < N.of_nat fuel + lenN done ->
  lenN buf <= maxsz -> (lenN buf < maxsz -> lenN (ebs l ++ eb stop) <= k) ->
  (scan fuel buf maxsz (lenN done) = UB /\
     (lenN buf mod 16 = 0 -> lenN done mod 16 = 0 -> Forall (fun e => elen e mod 16 = 0) l -> False)) \/
  exists l1 l2, l = l1 ++ l2 /\ lenN (ebs l1) <= k /\
    (* the end marker was seen, or the position is set back to the next event, or the block ends with an event *)
    ((l2 = [] /\ scan fuel buf maxsz (lenN done) = Ok (lenN done + lenN (ebs l1), true, false)) \/
     (k < lenN (ebs l1) + match l2 with e :: _ => elen e | [] => 32 end /\ lenN buf = maxsz /\ scan fuel buf maxsz (lenN done) = Ok (lenN done + lenN (ebs l1), false, true)) \/
     (k = lenN (ebs l1) /\ lenN buf = maxsz /\ scan fuel buf maxsz (lenN done) = Ok (lenN done + lenN (ebs l1), false, false))).
Proof.
  induction l as [|e l IH]; intros done stop k maxsz fuel K P St buf F Lb Lk; (destruct fuel as [|fuel]; [unfold buf in F; rewrite lenN_app in F; lia|]).
  - set (b := eb stop) in *. assert (Ls : lenN b = 32) by (unfold b; rewrite lenN_eb; apply St).
    assert (Eb : buf = done ++ takeN k b) by reflexivity.
    assert (Lbuf : lenN buf = lenN done + N.min k 32) by (rewrite Eb, lenN_app, lenN_takeN, Ls; reflexivity).
    change (lenN (ebs [] ++ b)) with (lenN b) in Lk. rewrite Ls in Lk.
    assert (Eb0 : buf = done ++ takeN k (eb stop ++ [])) by (rewrite app_nil_r; exact Eb).
    clearbody buf. cbn [scan]. destruct (N.leb_spec (lenN buf) (lenN done)) as [H|H].
    + right. exists [], []. split; [reflexivity|]. split; [cbn [ebs map concat]; rewrite lenN_nil; lia|]. right. right. cbn [ebs map concat]. rewrite lenN_nil, N.add_0_r.
      split; [lia|]. split; [lia|reflexivity].
    + destruct (N.leb_spec 8 (lenN buf - lenN done)) as [H8|H8].
      * assert (Pd : padded buf (lenN done) = Ok 32).
        { rewrite Eb0. unfold eb. rewrite padded_prefix; [|apply St|lia]. f_equal. apply St. }
        rewrite Pd. cbn [bind]. unfold is_stop. change (32 =? 32) with true. cbv iota.
        destruct (N.ltb_spec (lenN buf - lenN done) 12) as [H12|H12].
        { left. unfold get_id. rewrite get_field_out by lia. split; [reflexivity|]. intros M1 M2 _. lia. }
        assert (Gi : get_id buf (lenN done) = Ok EvtId_runStop).
        { rewrite Eb0. unfold eb. rewrite id_prefix; [|apply St|lia]. f_equal. apply St. }
        rewrite Gi. cbn [bind]. right. exists [], []. split; [reflexivity|]. split; [cbn [ebs map concat]; rewrite lenN_nil; lia|]. left. split; [reflexivity|]. cbn [ebs map concat]. rewrite lenN_nil, N.add_0_r. reflexivity.
      * left. cbn [bind]. unfold is_stop. destruct (N.eqb_spec (lenN buf - lenN done) 32); [lia|]. cbn [bind].
        destruct (N.ltb_spec (lenN buf) (lenN done + (lenN buf - lenN done))); [lia|]. rewrite padded_out by lia. split; [reflexivity|]. intros M1 M2 _. lia.
  - inversion K as [|? ? Ke K']; inversion P as [|? ? Pe P']; subst.
    assert (G : 32 <= elen e) by apply Ke.
    set (tl := ebs l ++ eb stop) in *.
    assert (Eb : buf = done ++ takeN k (eb e ++ tl)) by (unfold buf, tl, ebs; cbn [map concat]; rewrite <- app_assoc; reflexivity).
    assert (Ltl : lenN (ebs (e :: l) ++ eb stop) = elen e + lenN tl) by (unfold ebs; cbn [map concat]; rewrite <- app_assoc, lenN_app, lenN_eb; reflexivity).
    rewrite Ltl in Lk.
    assert (Lbuf : lenN buf = lenN done + N.min k (elen e + lenN tl)) by (rewrite Eb, lenN_app, lenN_takeN, lenN_app, lenN_eb; reflexivity).
    clearbody buf. cbn [scan]. destruct (N.leb_spec (lenN buf) (lenN done)) as [H|H].
    + right. exists [], (e :: l). split; [reflexivity|]. split; [cbn [ebs map concat]; rewrite lenN_nil; lia|]. right. right. cbn [ebs map concat]. rewrite lenN_nil, N.add_0_r.
      split; [lia|]. split; [lia|reflexivity].
    + destruct (N.leb_spec 8 (lenN buf - lenN done)) as [H8|H8].
      * assert (Pd : padded buf (lenN done) = Ok (elen e)).
        { rewrite Eb. unfold eb. rewrite padded_prefix; [reflexivity|exact Ke|lia]. }
        rewrite Pd. cbn [bind].
        assert (Is : is_stop buf (lenN done) (elen e) = UB /\ (lenN buf mod 16 = 0 -> lenN done mod 16 = 0 -> False) \/ is_stop buf (lenN done) (elen e) = Ok false).
        { unfold is_stop. destruct (N.eqb_spec (elen e) 32) as [E32|E32]; [|auto].
          destruct (N.ltb_spec (lenN buf - lenN done) 12) as [H12|H12]; [left; unfold get_id; rewrite get_field_out by lia; split; [reflexivity|intros M1 M2; lia]|right].
          assert (Gi : get_id buf (lenN done) = Ok (e_id e)). { rewrite Eb. unfold eb. rewrite id_prefix; [reflexivity|exact Ke|lia]. }
          rewrite Gi. cbn [bind]. destruct Pe as [Pe|Pe]; [unfold elen in E32; contradiction|]. destruct (N.eqb_spec (e_id e) EvtId_runStop); [contradiction|reflexivity]. }
        destruct Is as [(-> & Im) | ->]; [left; split; [reflexivity|intros M1 M2 _; exact (Im M1 M2)]|]. cbn [bind].
        destruct (N.ltb_spec (lenN buf) (lenN done + elen e)) as [Hn|Hn].
        { right. exists [], (e :: l). split; [reflexivity|]. split; [cbn [ebs map concat]; rewrite lenN_nil; lia|]. right. left. cbn [ebs map concat]. rewrite lenN_nil, N.add_0_r.
          split; [lia|]. assert (lenN buf = maxsz) by lia. split; [assumption|]. destruct (N.ltb_spec (lenN buf) maxsz); [lia|reflexivity]. }
        assert (Eb2 : buf = (done ++ eb e) ++ takeN (k - elen e) tl).
        { rewrite Eb, <- app_assoc. f_equal. rewrite takeN_app_ge by (rewrite lenN_eb; lia). rewrite lenN_eb. reflexivity. }
        destruct (IH (done ++ eb e) stop (k - elen e) maxsz fuel K' P' St) as [(U & Um)|(l1 & l2 & El & Lk1 & R)].
        { fold tl. rewrite <- Eb2, lenN_app, lenN_eb. lia. }
        { fold tl. rewrite <- Eb2. exact Lb. }
        { fold tl. rewrite <- Eb2. intros H1. specialize (Lk H1). lia. }
        { left. fold tl in U, Um. rewrite <- Eb2, lenN_app, lenN_eb in U. rewrite <- Eb2, lenN_app, lenN_eb in Um. split; [exact U|].
          intros M1 M2 M3. inversion M3; subst. apply Um; auto. lia. }
        fold tl in R. rewrite <- Eb2, lenN_app, lenN_eb in R.
        right. exists (e :: l1), l2. split; [cbn; congruence|].
        assert (Lc : lenN (ebs (e :: l1)) = elen e + lenN (ebs l1)) by (unfold ebs; cbn [map concat]; rewrite lenN_app, lenN_eb; reflexivity).
        rewrite Lc. split; [lia|]. rewrite N.add_assoc. destruct R as [(R1 & R2)|[(R1 & R2 & R3)|(R1 & R2 & R3)]]; [left|right;left|right;right]; auto.
        { split; [lia|]. auto. } { split; [lia|]. auto. }
      * left. cbn [bind]. unfold is_stop. destruct (N.eqb_spec (lenN buf - lenN done) 32); [lia|]. cbn [bind].
        destruct (N.ltb_spec (lenN buf) (lenN done + (lenN buf - lenN done))); [lia|]. rewrite padded_out by lia. split; [reflexivity|]. intros M1 M2 _. lia.
Qed.

Lemma read_block_at l stop maxsz : Forall eok l -> Forall eplain l -> is_end stop ->
  Forall (fun e => elen e <= maxsz) l -> 32 <= maxsz ->
  let s := mkH (ebs l ++ eb stop) false in
  (read_block maxsz s = UB /\ (maxsz mod 16 = 0 -> Forall (fun e => elen e mod 16 = 0) l -> False)) \/
  (exists rest, read_block maxsz s = Ok (mkH rest true, match l with [] => None | _ => Some (ebs l) end)) \/
  (exists l1 l2, l = l1 ++ l2 /\ l1 <> [] /\ read_block maxsz s = Ok (mkH (ebs l2 ++ eb stop) false, Some (ebs l1))).
Proof.
  intros K P St Mx M32 s. unfold read_block, s. cbn [h_rest h_eof].
  destruct (N.ltb_spec maxsz 8); [lia|].
  set (rest := ebs l ++ eb stop) in *.
  assert (Lst : lenN (eb stop) = 32) by (rewrite lenN_eb; apply St).
  assert (Lrest : lenN rest = lenN (ebs l) + 32) by (unfold rest; rewrite lenN_app, Lst; reflexivity).
  assert (Lbuf : lenN (takeN maxsz rest) = N.min maxsz (lenN rest)) by apply lenN_takeN.
  destruct (N.ltb_spec (lenN (takeN maxsz rest)) 8); [lia|].
  assert (Fu : lenN (takeN maxsz rest) < N.of_nat (S (length (takeN maxsz rest))) + 0) by (unfold lenN; lia).
  assert (Rt : rest = ebs l ++ eb stop) by reflexivity.
  destruct (scan_at l [] stop maxsz maxsz (S (length (takeN maxsz rest))) K P St) as [(U & Um)|(l1 & l2 & El & Lk1 & R)].
  { exact Fu. }
  { change ([] ++ takeN maxsz (ebs l ++ eb stop)) with (takeN maxsz rest). lia. }
  { change ([] ++ takeN maxsz (ebs l ++ eb stop)) with (takeN maxsz rest). fold rest. lia. }
  - left. change ([] ++ takeN maxsz (ebs l ++ eb stop)) with (takeN maxsz rest) in U, Um. change (lenN (@nil N)) with 0 in U, Um. rewrite U. split; [reflexivity|].
    intros M1 M2. apply Um; auto. rewrite Lbuf.
    assert (Z : lenN (ebs l) mod 16 = 0). { clear -M2. induction M2 as [|e l He Hl IH]; [reflexivity|]. unfold ebs in *. cbn [map concat]. rewrite lenN_app, lenN_eb. lia. }
    lia.
  - change ([] ++ takeN maxsz (ebs l ++ eb stop)) with (takeN maxsz rest) in R. change (lenN (@nil N)) with 0 in R. rewrite N.add_0_l in R.
    assert (Esp : rest = ebs l1 ++ (ebs l2 ++ eb stop)). { rewrite Rt, El. unfold ebs. rewrite map_app, concat_app, <- app_assoc. reflexivity. }
    assert (Lsp := f_equal lenN Esp). rewrite !lenN_app, Lst in Lsp.
    assert (Tk : lenN (ebs l1) <= maxsz -> takeN (lenN (ebs l1)) (takeN maxsz rest) = ebs l1).
    { intros Hl. rewrite Esp. rewrite takeN_app_ge by exact Hl. apply takeN_app. reflexivity. }
    assert (Pos : l1 <> [] -> 0 < lenN (ebs l1)).
    { intros Hl. destruct l1 as [|e l1']; [congruence|]. unfold ebs. cbn [map concat]. rewrite lenN_app, lenN_eb.
      assert (32 <= elen e); [|lia]. rewrite El in K. inversion K as [|? ? Ke _]. apply Ke. }
    destruct R as [(R1 & R2)|[(R1 & R2 & R3)|(R1 & R2 & R3)]].
    + right. left. rewrite R2. cbn [bind]. subst l2. rewrite app_nil_r in El. subst l1. eexists.
      cbn [orb]. rewrite Tk by exact Lk1.
      destruct l as [|e l]; [reflexivity|]. specialize (Pos ltac:(discriminate)).
      destruct (N.ltb_spec 0 (lenN (ebs (e :: l)))); [reflexivity|lia].
    + right. right. exists l1, l2. split; [exact El|]. rewrite R3. cbn [bind].
      assert (Ne : l1 <> []).
      { intros ->. cbn [ebs map concat] in R1. rewrite lenN_nil in R1. destruct l2 as [|e l2]; [lia|].
        rewrite El in Mx. inversion Mx; subst. lia. }
      split; [exact Ne|]. specialize (Pos Ne). rewrite R2. destruct (N.ltb_spec maxsz maxsz); [lia|]. cbn [orb andb].
      destruct (N.ltb_spec 0 (lenN (ebs l1))); [|lia]. rewrite Tk by exact Lk1. do 3 f_equal.
      rewrite Esp. apply dropN_app. reflexivity.
    + right. right. exists l1, l2. split; [exact El|]. rewrite R3. cbn [bind].
      assert (Ne : l1 <> []) by (intros ->; cbn [ebs map concat] in R1; rewrite lenN_nil in R1; lia).
      split; [exact Ne|]. specialize (Pos Ne). rewrite R2. destruct (N.ltb_spec maxsz maxsz); [lia|]. cbn [orb andb].
      destruct (N.ltb_spec 0 (lenN (ebs l1))); [|lia]. rewrite Tk by lia. do 3 f_equal.
      rewrite Esp. apply dropN_app. exact R1.
Qed.

Lemma read_blocks maxsz stop n : forall l, (length l <= n)%nat -> Forall eok l -> Forall eplain l -> is_end stop ->
  Forall (fun e => elen e <= maxsz) l -> 32 <= maxsz -> forall fuel, (length l + 1 < fuel)%nat ->
  (read_loop fuel (read_block maxsz) (mkH (ebs l ++ eb stop) false) = UB /\ (maxsz mod 16 = 0 -> Forall (fun e => elen e mod 16 = 0) l -> False)) \/
  exists bs, concat bs = l /\ Forall (fun b => b <> []) bs /\
    read_loop fuel (read_block maxsz) (mkH (ebs l ++ eb stop) false) = Ok (map ebs bs, true).
Proof.
  induction n as [|n IH]; intros l Ln K P St Mx M32 fuel F; (destruct fuel as [|fuel]; [lia|]); cbn [read_loop h_eof];
    (destruct (read_block_at l stop maxsz K P St Mx M32) as [(-> & Um)|[(rest & ->)|(l1 & l2 & El & Ne & ->)]]; cbn [bind]; [left; split; [reflexivity|exact Um]| |]).
  - destruct l; [|cbn in Ln; lia]. right. exists []. repeat split; constructor.
  - subst l. destruct l1; [congruence|]. cbn in Ln. lia.
  - right. destruct l as [|e l].
    + exists []. repeat split; constructor.
    + exists [e :: l]. split; [cbn [concat]; apply app_nil_r|]. split; [constructor; [discriminate|constructor]|].
      destruct fuel; [cbn in F; lia|]. reflexivity.
  - subst l. destruct l1 as [|e l1]; [congruence|]. rewrite app_length in *. cbn [length] in Ln, F.
    apply Forall_app in K. destruct K as (K1 & K2). apply Forall_app in P. destruct P as (P1 & P2). apply Forall_app in Mx. destruct Mx as (Mx1 & Mx2).
    destruct (IH l2 ltac:(lia) K2 P2 St Mx2 M32 fuel ltac:(lia)) as [(-> & Um)|(bs & Eb & Nb & ->)].
    + left. split; [reflexivity|]. intros M1 M2. apply Um; auto. apply Forall_app in M2. apply M2.
    + right. exists ((e :: l1) :: bs). split; [cbn; congruence|]. split; [constructor; [discriminate|exact Nb]|]. reflexivity.
Qed.

(* ---- the whole file ---- *)

Definition mark (id run date clock : N) : ev :=
  mkE false 0x30001 id (words [0; date; clock; run; 0]).
Lemma mark_ok id run date clock : word id -> eok (mark id run date clock).
Proof.
  intros W. unfold eok, evt_ok, mark; cbn [e_dec e_id e_tail]. rewrite lenN_words. unfold lenN. cbn [length].
  repeat split; auto; try reflexivity; discriminate.
Qed.
Lemma mark_len id run date clock : elen (mark id run date clock) = 32.
Proof. unfold elen, mark; cbn [e_tail]. rewrite lenN_words. reflexivity. Qed.
Lemma mark_bytes id run date clock : word id ->
  eb (mark id run date clock) = words [32; 0x30001; id; 0; date; clock; run; 0].
Proof.
  intros W. unfold eb, evt, mark; cbn [e_big e_dec e_id e_tail]. rewrite hdr_bytes_words.
  - rewrite lenN_words. unfold lenN. cbn [length map stored]. unfold words. cbn [map concat]. rewrite <- !app_assoc. reflexivity.
  - rewrite lenN_words. unfold lenN. cbn [length]. repeat constructor; auto.
Qed.
Lemma init_mark g run id date clock : lenN g = 32 -> Forall isbyte g -> word id ->
  init_event g 0 0 run id date clock = Ok (eb (mark id run date clock)).
Proof.
  intros L B W. destruct (as_words 8 g) as (l & -> & Ll & Wl); [exact L|exact B|].
  assert (E := init_event_at [] l [] 0 0 run id date clock eq_refl Ll Wl). cbn [app] in E. rewrite !app_nil_r in E. rewrite E.
  rewrite mark_bytes by exact W. reflexivity.
Qed.

Lemma open_read_at run date clock c : word run -> word date -> word clock ->
  open_read (eb (mark EvtId_runStart run date clock) ++ c) = Ok (Some (mkH c false, run)).
Proof.
  intros Wr Wd Wc. unfold open_read.
  assert (Kk : eok (mark EvtId_runStart run date clock)) by (apply mark_ok; reflexivity).
  rewrite read_event_at; [|exact Kk|rewrite mark_len; lia]. rewrite mark_len. cbn [e_id mark].
  change ((32 =? 32) && (EvtId_runStart =? EvtId_runStop)) with false. cbv iota. cbn [bind].
  rewrite lenN_eb, mark_len. change (negb (32 =? 32)) with false. cbv iota.
  rewrite mark_bytes by reflexivity.
  assert (G := get_field_words [] [32; 0x30001; EvtId_runStart; 0; date; clock; run; 0] [] 0 2 EvtId_runStart 0x30001 eq_refl eq_refl eq_refl eq_refl eq_refl).
  cbn [app] in G. rewrite app_nil_r in G. change (N.of_nat 2) with 2 in G. unfold get_id. rewrite G. cbn [bind].
  change (negb (conv 196609 EvtId_runStart =? EvtId_runStart)) with false. cbv iota.
  assert (G2 := get_field_words [] [32; 0x30001; EvtId_runStart; 0; date; clock; run; 0] [] 0 6 run 0x30001 eq_refl eq_refl eq_refl eq_refl Wr).
  cbn [app] in G2. rewrite app_nil_r in G2. change (N.of_nat 6) with 6 in G2. rewrite G2. cbn [bind h_rest]. reflexivity.
Qed.
