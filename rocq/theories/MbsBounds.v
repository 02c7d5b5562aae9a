(* The MBS read iterator on arbitrary bytes. *)
From Verif Require Import Common ListFacts Bytes WordMem BufPtr MbsSpec MbsModel.
Open Scope N_scope.

Lemma getw_in m o : o + 4 <= lenN m -> exists w, getw m o = Ok w.
Proof. intros H. unfold getw, getb. destruct (N.leb_spec (o + 4) (lenN m)); [|lia]. eexists. reflexivity. Qed.
Lemma full_in m o : o + 4 <= lenN m -> exists n, full_size m o = Ok n.
Proof. intros H. unfold full_size. destruct (getw_in m o H) as (w & ->). eexists. reflexivity. Qed.

Definition nul (p : ptr) : Prop := p_full p = 0.
Definition ev_ok (m : bytes) (p : ptr) : Prop :=
  exists o z, p_off p = Some o /\ o + p_full p <= lenN m /\ 16 <= p_full p /\ full_size m o = Ok z /\ z <= p_full p.
Definition sb_ok (m : bytes) (s : riter) : Prop :=
  exists o z, p_off (r_sub s) = Some o /\ o + p_full (r_sub s) <= lenN m /\ 12 <= p_full (r_sub s) /\
    full_size m o = Ok z /\ 12 <= z /\ p_off (r_raw s) = Some (o + 12) /\ p_full (r_raw s) = N.min z (p_full (r_sub s)) - 12.
Definition in_ev (m : bytes) (s : riter) : Prop :=
  forall oe ze o, p_off (r_ev s) = Some oe -> full_size m oe = Ok ze -> p_off (r_sub s) = Some o ->
    oe + 16 <= o /\ o + p_full (r_sub s) <= oe + ze.
Definition rok (m : bytes) (s : riter) : Prop :=
  r_first s = false /\ (nul (r_ev s) \/ ev_ok m (r_ev s)) /\
  (nul (r_sub s) \/ sb_ok m s /\ (nul (r_ev s) \/ in_ev m s)).

Lemma nul_null p : nul p -> is_null p = true.
Proof. unfold nul, is_null. intros ->. destruct (p_off p); reflexivity. Qed.
Lemma ev_not_null m p : ev_ok m p -> is_null p = false.
Proof. intros (o & z & E & _ & L & _). unfold is_null. rewrite E. apply N.eqb_neq. lia. Qed.
Lemma sb_not_null m s : sb_ok m s -> is_null (r_sub s) = false.
Proof. intros (o & z & E & _ & L & _). unfold is_null. rewrite E. apply N.eqb_neq. lia. Qed.
Lemma nul_pnull : nul pnull. Proof. reflexivity. Qed.

(* a pointer inside the memory, or with nothing behind it *)
Definition pin (m : bytes) (p : ptr) : Prop := nul p \/ exists o, p_off p = Some o /\ o + p_full p <= lenN m.
Lemma shift_in (m : bytes) p o n : p_off p = Some o -> o + p_full p <= lenN m ->
  (shift p n = pnull /\ p_full p < n) \/ (shift p n = mkP (Some (o + n)) (p_full p - n) /\ n <= p_full p /\ o + n + (p_full p - n) <= lenN m).
Proof. intros E B. unfold shift. destruct (N.ltb_spec (p_full p) n); [left; auto|]. right. rewrite E. split; [reflexivity|]. split; [lia|lia]. Qed.
Lemma limit_in p n : p_off (limit_to p n) = p_off p /\ p_full (limit_to p n) = (if n =? 0 then p_full p else N.min n (p_full p)).
Proof.
  unfold limit_to. destruct (N.eqb_spec n 0) as [->|Hn]; [destruct p; auto|]. destruct (N.ltb_spec 0 n); [|lia].
  destruct (N.ltb_spec n (p_full p)); cbn [andb p_off p_full]; [split; [reflexivity|lia]|split; [reflexivity|lia]].
Qed.

Lemma event_check m ev sb rw : pin m ev ->
  exists s1 b, (if p_full ev <? 16 then Ok (mkR false pnull sb rw, false)
     else do o <- addr ev; do n <- full_size m o;
     if p_full ev <? n then Ok (mkR false pnull sb rw, false) else Ok (mkR false ev pnull pnull, true)) = Ok (s1, b) /\
   (b = false -> s1 = mkR false pnull sb rw) /\ (b = true -> s1 = mkR false ev pnull pnull /\ ev_ok m ev).
Proof.
  intros H. destruct (N.ltb_spec (p_full ev) 16) as [L|L]; [eexists; eexists; split; [reflexivity|]; split; [auto|discriminate]|].
  destruct H as [H|(o & E & B)]; [unfold nul in H; lia|]. unfold addr. rewrite E. cbn [bind].
  destruct (full_in m o) as (n & En); [lia|]. rewrite En. cbn [bind]. destruct (N.ltb_spec (p_full ev) n) as [L1|L1].
  - eexists; eexists; split; [reflexivity|]; split; [auto|discriminate].
  - eexists; eexists; split; [reflexivity|]; split; [discriminate|]. intros _. split; [reflexivity|]. exists o, n. auto.
Qed.

Lemma reset_in m : pin m (r_ev (r_reset m)).
Proof. unfold r_reset. cbn [r_ev]. destruct (N.eqb_spec (lenN m) 0) as [E|E]; [left; exact E|]. right. exists 0. cbn [p_off p_full]. split; [reflexivity|lia]. Qed.

Lemma next_first_ok m : exists s1 b, next_event m (r_reset m) = Ok (s1, b) /\ 
  (b = true -> rok m s1 /\ ev_ok m (r_ev s1) /\ nul (r_sub s1)) /\
  (b = false -> nul (r_ev s1) /\ nul (r_sub s1) /\ nul (r_raw s1)).
Proof.
  unfold next_event. destruct (is_null (r_ev (r_reset m))) eqn:N0.
  - eexists; eexists; split; [reflexivity|]. split; [discriminate|]. intros _. unfold r_reset in *. cbn [r_ev r_sub r_raw] in *. split; [|split; reflexivity].
    unfold nul. cbn [p_full]. unfold is_null in N0. cbn [p_off p_full] in N0. destruct (N.eqb_spec (lenN m) 0); [auto|]. discriminate.
  - cbn [r_first r_reset bind]. fold (r_ev (r_reset m)). destruct (event_check m (r_ev (r_reset m)) pnull pnull (reset_in m)) as (s1 & b & E & F & T).
    change (r_sub (r_reset m)) with pnull. change (r_raw (r_reset m)) with pnull. cbv zeta. exists s1, b. split; [exact E|]. split; intros ->.
    + destruct (T eq_refl) as (-> & K). split; [|split; [exact K|reflexivity]]. split; [reflexivity|]. split; [right; exact K|left; reflexivity].
    + rewrite (F eq_refl). repeat split.
Qed.

Lemma next_event_ok m s : rok m s ->
  exists s1 b, next_event m s = Ok (s1, b) /\ rok m s1 /\
    (b = true -> ev_ok m (r_ev s1) /\ nul (r_sub s1) /\
      exists o n, event_at s = Some o /\ full_size m o = Ok n /\ p_full (r_ev s1) + n = p_full (r_ev s)).
Proof.
  intros (F0 & Ev & Sb). unfold next_event. destruct Ev as [Ev|Ev].
  - rewrite (nul_null _ Ev). exists s, false. split; [reflexivity|]. split; [split; [auto|split; auto]|discriminate].
  - rewrite (ev_not_null m _ Ev). rewrite F0. destruct Ev as (o & z & Eo & B & L & Ez & Lz). unfold addr at 1. rewrite Eo. cbn [bind]. rewrite Ez. cbn [bind]. cbv zeta.
    destruct (shift_in m (r_ev s) o z Eo B) as [(_ & X)|(Es & _ & B1)]; [lia|].
    destruct (event_check m (shift (r_ev s) z) (r_sub s) (r_raw s)) as (s1 & b & E & Fa & Tr).
    { rewrite Es. right. exists (o + z). cbn [p_off p_full]. auto. }
    exists s1, b. split; [exact E|]. split.
    + destruct b.
      * destruct (Tr eq_refl) as (-> & K). split; [reflexivity|]. split; [right; exact K|left; reflexivity].
      * rewrite (Fa eq_refl). split; [reflexivity|]. split; [left; reflexivity|]. cbn [r_sub r_ev]. destruct Sb as [Sb|(Sb & _)]; [left; exact Sb|]. right. split; [exact Sb|left; reflexivity].
    + intros ->. destruct (Tr eq_refl) as (-> & K). cbn [r_ev r_sub]. split; [exact K|]. split; [reflexivity|].
      exists o, z. split; [unfold event_at; unfold is_null; rewrite Eo; destruct (N.eqb_spec (p_full (r_ev s)) 0); [lia|reflexivity]|]. split; [exact Ez|]. rewrite Es. cbn [p_full]. lia.
Qed.

Lemma go_ok m s sb : pin m sb ->
  exists s1 b,
   (if p_full sb <? 12 then Ok (mkR (r_first s) (r_ev s) pnull (r_raw s), false)
    else do o <- addr sb; do n <- full_size m o;
    if n <? 12 then Ok (mkR (r_first s) (r_ev s) pnull (r_raw s), false)
    else Ok (mkR (r_first s) (r_ev s) sb (shift (limit_to sb n) 12), true)) = Ok (s1, b) /\
   r_first s1 = r_first s /\ r_ev s1 = r_ev s /\ (b = false -> nul (r_sub s1)) /\ (b = true -> sb_ok m s1 /\ r_sub s1 = sb).
Proof.
  intros H. destruct (N.ltb_spec (p_full sb) 12) as [L|L]; [eexists; eexists; split; [reflexivity|]; repeat split; discriminate|].
  destruct H as [H|(o & E & B)]; [unfold nul in H; lia|]. unfold addr. rewrite E. cbn [bind].
  destruct (full_in m o) as (n & En); [lia|]. rewrite En. cbn [bind]. destruct (N.ltb_spec n 12) as [L1|L1].
  - eexists; eexists; split; [reflexivity|]; repeat split; discriminate.
  - eexists; eexists; split; [reflexivity|]. split; [reflexivity|]. split; [reflexivity|]. split; [discriminate|]. intros _. split; [|reflexivity].
    destruct (limit_in sb n) as (L2 & L3). destruct (N.eqb_spec n 0); [lia|]. exists o, n. cbn [r_sub r_raw]. split; [exact E|]. split; [exact B|]. split; [exact L|]. split; [exact En|]. split; [exact L1|].
    unfold shift. rewrite L3. destruct (N.ltb_spec (N.min n (p_full sb)) 12); [lia|]. rewrite L2, E. auto.
Qed.

Lemma next_sub_ok m s : rok m s ->
  exists s1 b, next_sub m s = Ok (s1, b) /\ rok m s1 /\ r_ev s1 = r_ev s /\
    (b = true -> sb_ok m s1 /\ p_full (r_sub s1) + 12 <= (if is_null (r_sub s) then lenN m + 12 else p_full (r_sub s))).
Proof.
  intros (F0 & Ev & Sb). unfold next_sub. destruct Sb as [Sb|(Sb & In)].
  - rewrite (nul_null _ Sb). destruct Ev as [Ev|Ev].
    { rewrite (nul_null _ Ev). exists s, false. split; [reflexivity|]. split; [split; [auto|split; auto]|]. split; [reflexivity|discriminate]. }
    rewrite (ev_not_null m _ Ev). assert (Ev' := Ev). destruct Ev' as (o & z & Eo & B & L & Ez & Lz). unfold addr at 1. rewrite Eo. cbn [bind]. rewrite Ez. cbn [bind].
    destruct (N.ltb_spec z 16) as [Z|Z].
    { exists s, false. split; [reflexivity|]. split; [split; [auto|split; auto]|]. split; [reflexivity|discriminate]. }
    set (sb := shift (limit_to (r_ev s) z) 16). destruct (limit_in (r_ev s) z) as (L2 & L3). destruct (N.eqb_spec z 0); [lia|]. rewrite N.min_l in L3 by lia.
    assert (Es : sb = mkP (Some (o + 16)) (z - 16)). { unfold sb, shift. rewrite L3, L2, Eo. destruct (N.ltb_spec z 16); [lia|]. reflexivity. }
    destruct (go_ok m s sb) as (s1 & b & E & F1 & E1 & Fa & Tr). { rewrite Es. right. exists (o + 16). cbn [p_off p_full]. split; [reflexivity|lia]. }
    exists s1, b. split; [exact E|]. split; [|split; [exact E1|]].
    + split; [congruence|]. rewrite E1. split; [right; exact Ev|]. destruct b; [|left; apply Fa; reflexivity].
      destruct (Tr eq_refl) as (K & Er). right. split; [exact K|]. right. intros oe ze o2 A1 A2 A3. rewrite E1 in A1. rewrite Er, Es in *. cbn [p_off p_full] in *. injection A3 as <-. rewrite Eo in A1. injection A1 as <-. rewrite Ez in A2. injection A2 as <-. lia.
    + intros ->. destruct (Tr eq_refl) as (K & Er). split; [exact K|]. rewrite Er, Es. cbn [p_full]. lia.
  - rewrite (sb_not_null m s Sb). assert (Sb' := Sb). destruct Sb' as (o & z & Eo & B & L & Ez & Lz & _). unfold addr at 1. rewrite Eo. cbn [bind]. rewrite Ez. cbn [bind].
    set (sb := shift (r_sub s) z).
    assert (Es := shift_in m (r_sub s) o z Eo B). fold sb in Es.
    destruct (go_ok m s sb) as (s1 & b & E & F1 & E1 & Fa & Tr). { destruct Es as [(-> & _)|(-> & _ & B2)]; [left; reflexivity|right; eexists; split; [reflexivity|exact B2]]. }
    exists s1, b. split; [exact E|]. split; [|split; [exact E1|]].
    + split; [congruence|]. rewrite E1. split; [exact Ev|]. destruct b; [|left; apply Fa; reflexivity].
      destruct (Tr eq_refl) as (K & Er). right. split; [exact K|]. destruct In as [In|In]; [left; exact In|]. right.
      intros oe ze o2 A1 A2 A3. rewrite E1 in A1. rewrite Er in *. destruct (In oe ze o A1 A2 Eo) as (I1 & I2).
      destruct Es as [(Es & _)|(Es & Lt & B2)]; rewrite Es in *; cbn [p_off p_full] in *; [discriminate|]. injection A3 as <-. lia.
    + intros ->. destruct (Tr eq_refl) as (K & Er). split; [exact K|]. rewrite Er. destruct Es as [(Es & _)|(Es & Lt & B2)]; rewrite Es; cbn [p_full pnull]; lia.
Qed.

Lemma r_calls_app m l l' : forall s, r_calls m s (l ++ l') = do s1 <- r_calls m s l; r_calls m s1 l'.
Proof. induction l as [|c l IH]; intros s; [reflexivity|]. cbn [app r_calls]. destruct (r_call m s c); cbn [bind]; auto. Qed.
(* an empty iterator stays empty *)
Definition dead (s : riter) : Prop := nul (r_ev s) /\ nul (r_sub s) /\ nul (r_raw s).
Lemma dead_step m s c : dead s -> r_call m s c = Ok s.
Proof.
  intros (D1 & D2 & D3). unfold r_call, next_event, next_sub. rewrite (nul_null _ D1), (nul_null _ D2). destruct c; reflexivity.
Qed.
Lemma r_calls_ok m l : forall s, rok m s \/ dead s -> exists s1, r_calls m s l = Ok s1 /\ (rok m s1 \/ dead s1).
Proof.
  induction l as [|c l IH]; intros s H; [exists s; auto|]. cbn [r_calls]. destruct H as [H|D].
  - assert (X : exists s1, r_call m s c = Ok s1 /\ rok m s1).
    { unfold r_call. destruct c; [destruct (next_event_ok m s H) as (s1 & b & -> & H1 & _)|destruct (next_sub_ok m s H) as (s1 & b & -> & H1 & _)]; cbn [bind]; eauto. }
    destruct X as (s1 & -> & H1). cbn [bind]. apply IH. auto.
  - rewrite (dead_step m s c D). cbn [bind]. apply IH. auto.
Qed.
Lemma r_run_ok m l : exists s, r_run m l = Ok s /\ (rok m s \/ dead s).
Proof.
  unfold r_run. cbn [r_calls]. unfold r_call at 1. destruct (next_first_ok m) as (s1 & b & -> & T & F). cbn [bind].
  apply r_calls_ok. destruct b; [left; apply T; reflexivity|right; apply F; reflexivity].
Qed.
Lemma rok_inside m s : rok m s \/ dead s ->
  (forall o, event_at s = Some o -> exists z, o + 16 <= lenN m /\ full_size m o = Ok z /\ o + z <= lenN m) /\
  (forall o, sub_at s = Some o -> exists z, full_size m o = Ok z /\ 12 <= z /\ raw_at s = Some (o + 12) /\ o + 12 + raw_len s <= lenN m /\
     forall oe ze, event_at s = Some oe -> full_size m oe = Ok ze -> oe + 16 <= o /\ o + 12 + raw_len s <= oe + ze).
Proof.
  unfold event_at, sub_at, raw_at, raw_len. intros [(F0 & Ev & Sb)|(D1 & D2 & D3)].
  2:{ rewrite (nul_null _ D1), (nul_null _ D2). split; discriminate. }
  split.
  - intros o. destruct Ev as [Ev|Ev]; [rewrite (nul_null _ Ev); discriminate|]. rewrite (ev_not_null m _ Ev). destruct Ev as (o' & z & E & B & L & Ez & Lz).
    rewrite E. intros H. injection H as <-. exists z. split; [lia|]. split; [exact Ez|lia].
  - intros o. destruct Sb as [Sb|(Sb & In)]; [rewrite (nul_null _ Sb); discriminate|]. rewrite (sb_not_null m _ Sb). assert (Sb' := Sb). destruct Sb' as (o' & z & E & B & L & Ez & Lz & R1 & R2).
    rewrite E. intros H. injection H as <-. exists z. split; [exact Ez|]. split; [exact Lz|]. split; [exact R1|]. split; [lia|].
    intros oe ze A1 A2. destruct Ev as [Ev|Ev]; [rewrite (nul_null _ Ev) in A1; discriminate|]. rewrite (ev_not_null m _ Ev) in A1.
    destruct In as [In|In]; [destruct Ev as (x & y & _ & _ & X & _); unfold nul in In; lia|]. destruct (In oe ze o' A1 A2 E) as (I1 & I2). lia.
Qed.

(* ---- termination ---- *)
Section Term.
Context (m : bytes).
Context (NoZ : forall l s o, r_run m l = Ok s -> event_at s = Some o -> full_size m o <> Ok 0).

Definition rch (s : riter) : Prop := rok m s /\ exists l, r_run m l = Ok s.
Lemma rch_step s c s1 b : rch s -> (match c with NextEvent => next_event m s | NextSub => next_sub m s end) = Ok (s1, b) -> rok m s1 -> rch s1.
Proof.
  intros (_ & l & E) H K. split; [exact K|]. exists (l ++ [c]). unfold r_run in *. change (NextEvent :: l ++ [c]) with ((NextEvent :: l) ++ [c]).
  rewrite r_calls_app, E. cbn [bind r_calls]. unfold r_call. rewrite H. reflexivity.
Qed.
Lemma see_sub_ok s : sb_ok m s -> exists x, see_sub m s = Ok x.
Proof.
  intros (o & z & E & B & L & Ez & Lz & R1 & R2). unfold see_sub. unfold addr. rewrite E, R1. cbn [bind].
  destruct (getw_in m (o + 4)) as (w & ->); [lia|]. destruct (getw_in m (o + 8)) as (w2 & ->); [lia|]. cbn [bind].
  unfold getb. destruct (N.leb_spec (o + 12 + p_full (r_raw s)) (lenN m)); [|lia]. eexists. reflexivity.
Qed.
Lemma sub_loop_term fuel : forall s, rch s -> (if is_null (r_sub s) then lenN m + 12 else p_full (r_sub s)) <= 12 * N.of_nat fuel + 11 ->
  exists s2 l, sub_loop (S fuel) m s = Ok (s2, l) /\ rch s2 /\ r_ev s2 = r_ev s.
Proof.
  induction fuel as [|fuel IH]; intros s R L; assert (H := proj1 R);
    destruct (next_sub_ok m s H) as (s1 & b & En & H1 & E1 & Ps); assert (R1 := rch_step s NextSub s1 b R En H1);
    assert (Uf : forall k, sub_loop (S k) m s = if b then do x <- see_sub m s1; do (s2, l) <- sub_loop k m s1; Ok (s2, x :: l) else Ok (s1, [])) by (intros k; cbn [sub_loop]; rewrite En; reflexivity);
    rewrite Uf; clear Uf; (destruct b; [|exists s1, []; auto]);
    destruct (Ps eq_refl) as (K & Lf); assert (K' := K); destruct K' as (o & z & _ & _ & L12 & _).
  - exfalso. destruct (is_null (r_sub s)); lia.
  - destruct (see_sub_ok s1 K) as (x & ->). cbn [bind]. destruct (IH s1 R1) as (s2 & l & -> & R2 & E2).
    { rewrite (sb_not_null m s1 K). destruct (is_null (r_sub s)); lia. }
    cbn [bind]. exists s2, (x :: l). split; [reflexivity|]. split; [exact R2|congruence].
Qed.
Lemma sub_loop_all s : rch s -> ev_ok m (r_ev s) -> nul (r_sub s) -> exists s2 l, sub_loop (S (length m)) m s = Ok (s2, l) /\ rch s2 /\ r_ev s2 = r_ev s.
Proof.
  intros R (o & z & _ & B & L & _) Sn. apply sub_loop_term; [exact R|]. rewrite (nul_null _ Sn). unfold lenN in *. lia.
Qed.
Lemma see_event_ok s : ev_ok m (r_ev s) -> exists p o all t g n, event_pointer m s = Ok p /\ addr p = Ok o /\ getb m o (p_full p) = Ok all /\
  getw m (o + 4) = Ok t /\ getw m (o + 8) = Ok g /\ getw m (o + 12) = Ok n.
Proof.
  intros K. assert (Nn := ev_not_null m _ K). destruct K as (o & z & E & B & L & Ez & Lz). unfold event_pointer. rewrite Nn. unfold addr at 1. rewrite E. cbn [bind]. rewrite Ez. cbn [bind].
  destruct (limit_in (r_ev s) z) as (L1 & L2). exists (limit_to (r_ev s) z), o. unfold addr. rewrite L1, E.
  destruct (getw_in m (o + 4)) as (w & ->); [lia|]. destruct (getw_in m (o + 8)) as (w2 & ->); [lia|]. destruct (getw_in m (o + 12)) as (w3 & ->); [lia|].
  unfold getb. destruct (N.leb_spec (o + p_full (limit_to (r_ev s) z)) (lenN m)) as [Q|Q].
  - eexists. exists w, w2, w3. repeat split.
  - exfalso. rewrite L2 in Q. destruct (N.eqb_spec z 0); lia.
Qed.
Lemma event_loop_body s fuel : rch s -> ev_ok m (r_ev s) -> nul (r_sub s) ->
  (forall s2, rch s2 -> r_ev s2 = r_ev s -> exists l, event_loop fuel m s2 = Ok l) ->
  exists l, (do p <- event_pointer m s; do o <- addr p; do all <- getb m o (p_full p);
      do t <- getw m (o + 4); do g <- getw m (o + 8); do n <- getw m (o + 12);
      do (s2, subs) <- sub_loop (S (length m)) m s;
      do l <- event_loop fuel m s2; Ok ((all, mkME t g n subs) :: l)) = Ok l.
Proof.
  intros R K Sn H. destruct (see_event_ok s K) as (p & o & all & t & g & n & E1 & A & E2 & E3 & E4 & E5). rewrite E1. cbn [bind]. rewrite A. cbn [bind]. rewrite E2, E3, E4, E5. cbn [bind].
  destruct (sub_loop_all s R K Sn) as (s2 & subs & -> & R2 & Ev2). cbn [bind]. destruct (H s2 R2 Ev2) as (l & ->). eexists. reflexivity.
Qed.
Lemma event_loop_term fuel : forall s, rch s -> ev_ok m (r_ev s) -> p_full (r_ev s) <= N.of_nat fuel + 15 -> exists l, event_loop fuel m s = Ok l.
Proof.
  induction fuel as [|fuel IH]; intros s R K L.
  { destruct K as (o & z & _ & _ & L16 & _). lia. }
  cbn [event_loop]. destruct (next_event_ok m s (proj1 R)) as (s1 & b & En & H1 & Ps). assert (R1 := rch_step s NextEvent s1 b R En H1).
  rewrite En. cbn [bind]. destruct b; [|eexists; reflexivity]. destruct (Ps eq_refl) as (K1 & Sn & o & n & Uo & Ez & Ln).
  assert (Nz : n <> 0). { intros ->. destruct R as (_ & l & El). exact (NoZ l s o El Uo Ez). }
  apply event_loop_body; auto. intros s2 R2 E2. apply IH; [exact R2|rewrite E2; exact K1|rewrite E2; lia].
Qed.
Lemma read_all_term : exists l, read_all m = Ok l.
Proof.
  unfold read_all. cbn [event_loop]. destruct (next_first_ok m) as (s1 & b & En & T & F). rewrite En. cbn [bind]. destruct b; [|eexists; reflexivity].
  destruct (T eq_refl) as (H1 & K1 & Sn).
  assert (R1 : rch s1). { split; [exact H1|]. exists []. unfold r_run. cbn [r_calls]. unfold r_call. rewrite En. reflexivity. }
  apply event_loop_body; auto. intros s2 R2 E2. apply event_loop_term; [exact R2|rewrite E2; exact K1|].
  rewrite E2. destruct K1 as (o & z & _ & B & _). unfold lenN in B. lia.
Qed.
End Term.
