(* The HADAQ read iterator on arbitrary bytes: bounds and termination. *)
From Verif Require Import Common ListFacts Bytes WordMem BufPtr HadSpec HadModel HadWords HadRead.
Open Scope N_scope.

Lemma getw_in m o : o + 4 <= lenN m -> exists w, getw m o = Ok w.
Proof. intros H. unfold getw, getb. destruct (N.leb_spec (o + 4) (lenN m)); [|lia]. eexists. reflexivity. Qed.
Lemma get_size_in m o : o + 8 <= lenN m -> exists z, get_size m o = Ok z.
Proof.
  intros H. unfold get_size, get_field. destruct (getw_in m (o + 4)) as (d & ->); [lia|]. cbn [bind].
  destruct (getw_in m (o + 4 * 0)) as (w & ->); [lia|]. eexists. reflexivity.
Qed.
Lemma padded_in m o z : get_size m o = Ok z -> padded m o = Ok (pad8 z).
Proof. intros H. unfold padded. rewrite H. reflexivity. Qed.

Lemma size_word m o z : Forall isbyte m -> get_size m o = Ok z -> z < 2^32.
Proof.
  intros B. unfold get_size, get_field. destruct (getw m (o + 4)) as [d| |] eqn:E; cbn [bind]; try discriminate.
  destruct (getw m (o + 4 * 0)) as [w| |] eqn:E0; cbn [bind]; try discriminate. intros X. injection X as <-.
  assert (W : word w).
  { unfold getw, getb in E0. destruct (N.leb_spec (o + 4 * 0 + 4) (lenN m)); [|discriminate].
    destruct (getw_ok m (o + 4 * 0)) as (w' & E1 & L); auto. unfold getw, getb in E1.
    destruct (N.leb_spec (o + 4 * 0 + 4) (lenN m)); [|discriminate]. rewrite E1 in E0. injection E0 as <-. exact L. }
  unfold conv. destruct (is_swapped d); [apply bswap_lt|exact W].
Qed.
(* the padded size of a size of at least 16 is at least 16, or zero by wrap-around *)
Lemma pad8_big z : z < 2^32 -> 16 <= z -> pad8 z = 0 \/ 16 <= pad8 z.
Proof.
  intros L P. unfold pad8. cbv zeta. change (2^32) with 4294967296 in *. destruct (N.eqb_spec (z mod 8) 0); [lia|].
  destruct (N.ltb_spec (z + 8 - z mod 8) 4294967296); [rewrite N.mod_small by lia; lia|].
  left. replace (z + 8 - z mod 8) with 4294967296; [reflexivity|lia].
Qed.
Lemma pad8_zero z : z < 2^32 -> pad8 z = 0 <-> z = 0 \/ 2^32 - 8 < z.
Proof.
  intros L. unfold pad8. cbv zeta. change (2^32) with 4294967296 in *. destruct (N.eqb_spec (z mod 8) 0); [lia|].
  destruct (N.ltb_spec (z + 8 - z mod 8) 4294967296); [rewrite N.mod_small by lia; lia|].
  replace (z + 8 - z mod 8) with 4294967296 by lia. change (4294967296 mod 4294967296) with 0. lia.
Qed.

Definition p_none (p : ptr) : Prop := p_off p = None /\ p_full p = 0.
Lemma none_null p : p_none p -> is_null p = true.
Proof. intros (H & _). unfold is_null. rewrite H. reflexivity. Qed.

Definition ev_ok (m : bytes) (t : btype) (p : ptr) : Prop :=
  exists o, p_off p = Some o /\ o + p_full p <= lenN m /\ 0 < p_full p /\ head_size t <= p_full p /\
    (t <> TSubs -> exists z, get_size m o = Ok z /\ z <= p_full p).
Definition sb_ok (m : bytes) (s : riter) : Prop :=
  exists o z, p_off (r_sub s) = Some o /\ o + p_full (r_sub s) <= lenN m /\ 16 <= p_full (r_sub s) /\
    get_size m o = Ok z /\ 16 <= z /\
    p_off (r_raw s) = Some (o + 16) /\ 16 + p_full (r_raw s) <= p_full (r_sub s).
Definition rok (m : bytes) (s : riter) : Prop :=
  (p_none (r_ev s) \/ r_first s = false /\ ev_ok m (r_type s) (r_ev s)) /\ (p_none (r_sub s) \/ sb_ok m s).

Lemma ev_pos m t p : ev_ok m t p -> is_null p = false.
Proof. intros (o & E & _ & P & _). destruct p as [po pf]. cbn in *. subst. apply is_null_at. exact P. Qed.
Lemma head_pos t : t <> TSubs -> 8 <= head_size t.
Proof. destruct t; cbn; intros; try lia. congruence. Qed.

Lemma none_pnull : p_none pnull. Proof. split; reflexivity. Qed.


(* the part of next_unit after the pointer was moved *)
Lemma unit_check m t sb rw ev : t <> TSubs ->
  (p_none ev \/ exists o, p_off ev = Some o /\ o + p_full ev <= lenN m) ->
  let fail := Ok (mkR false pnull sb rw t, false) in
  let r := (if p_full ev <? head_size t then fail
    else do o <- addr ev; do sz <- get_size m o;
    if p_full ev <? sz then fail
    else Ok (mkR false ev pnull pnull t, true)) in
  r = fail \/ r = Ok (mkR false ev pnull pnull t, true) /\ ev_ok m t ev.
Proof.
  intros T H fail r. assert (Hp := head_pos t T). unfold r. destruct (N.ltb_spec (p_full ev) (head_size t)) as [L|L]; [left; reflexivity|].
  destruct H as [(_ & Z)|(o & Eo & B)]; [lia|].
  unfold addr. rewrite Eo. cbn [bind]. destruct (get_size_in m o) as (z & Ez); [lia|]. rewrite Ez. cbn [bind].
  destruct (N.ltb_spec (p_full ev) z); [left; reflexivity|right]. split; [reflexivity|].
  exists o. repeat split; auto; try lia. intros _. exists z. auto.
Qed.

Lemma shift_in (m : bytes) p o n : p_off p = Some o -> o + p_full p <= lenN m ->
  p_none (shift p n) \/ (exists o', p_off (shift p n) = Some o' /\ o' + p_full (shift p n) <= lenN m) /\ n <= p_full p /\ p_full (shift p n) = p_full p - n.
Proof.
  intros E B. unfold shift. destruct (N.ltb_spec (p_full p) n); [left; apply none_pnull|right].
  rewrite E. cbn [p_off p_full]. split; [|auto]. exists (o + n). split; [reflexivity|lia].
Qed.

Lemma next_block_first_ok m t : exists s1 b, next_block m (r_reset m t) = Ok (s1, b) /\ rok m s1 /\ r_type s1 = t /\ p_none (r_sub s1) /\
  (b = true -> r_first s1 = false /\ r_sub s1 = pnull /\ ev_ok m t (r_ev s1)) /\ (b = false -> p_none (r_ev s1)).
Proof.
  assert (Rz : (lenN m = 0 /\ r_reset m t = mkR true pnull pnull pnull t) \/ (0 < lenN m /\ r_reset m t = mkR true (mkP (Some 0) (lenN m)) pnull pnull t)).
  { unfold r_reset. destruct (N.eqb_spec (lenN m) 0) as [E|E]; [left|right]; split; try lia; [rewrite E|]; reflexivity. }
  destruct Rz as [(_ & ->)|(P & ->)].
  - exists (mkR true pnull pnull pnull t), false. split; [destruct t; reflexivity|].
    split; [split; left; apply none_pnull|]. repeat split; auto; discriminate.
  - destruct (is_null (mkP (Some 0) (lenN m))) eqn:Nl; [rewrite is_null_at in Nl by auto; discriminate|].
    assert (Ub : t <> TSubs -> exists s1 b, next_unit m (mkR true (mkP (Some 0) (lenN m)) pnull pnull t) = Ok (s1, b) /\ rok m s1 /\ r_type s1 = t /\ p_none (r_sub s1) /\
       (b = true -> r_first s1 = false /\ r_sub s1 = pnull /\ ev_ok m t (r_ev s1)) /\ (b = false -> p_none (r_ev s1))).
    { intros T. unfold next_unit. cbn [r_ev r_first r_sub r_raw r_type]. rewrite Nl. cbn [bind].
      destruct (unit_check m t pnull pnull (mkP (Some 0) (lenN m)) T) as [E|(E & K)].
      { right. exists 0. cbn. split; [reflexivity|lia]. }
      - rewrite E. do 2 eexists. split; [reflexivity|]. split; [split; left; apply none_pnull|]. repeat split; auto; discriminate.
      - rewrite E. do 2 eexists. split; [reflexivity|]. split; [split; [right|left; apply none_pnull]; cbn; auto|]. cbn. repeat split; auto; discriminate. }
    unfold next_block. cbn [r_type r_first r_ev r_sub r_raw]. destruct t; try (apply Ub; discriminate).
    rewrite Nl. do 2 eexists. split; [reflexivity|].
    assert (K : ev_ok m TSubs (mkP (Some 0) (lenN m))).
    { exists 0. cbn [p_off p_full head_size]. repeat split; try lia. intros H. congruence. }
    split; [split; [right|left; apply none_pnull]; cbn; auto|]. repeat split; auto; discriminate.
Qed.

Lemma next_block_ok m s : rok m s ->
  exists s1 b, next_block m s = Ok (s1, b) /\ rok m s1 /\ r_type s1 = r_type s /\
    (b = true -> r_first s = false /\ r_first s1 = false /\ r_sub s1 = pnull /\ ev_ok m (r_type s) (r_ev s1) /\
       r_type s <> TSubs /\
       exists o n, unit_at s = Some o /\ padded m o = Ok n /\ n <= p_full (r_ev s) /\ p_full (r_ev s1) = p_full (r_ev s) - n).
Proof.
  intros (E & Sb). unfold next_block.
  assert (U : r_type s <> TSubs -> exists s1 b, next_unit m s = Ok (s1, b) /\ rok m s1 /\ r_type s1 = r_type s /\
    (b = true -> r_first s = false /\ r_first s1 = false /\ r_sub s1 = pnull /\ ev_ok m (r_type s) (r_ev s1) /\ r_type s <> TSubs /\
       exists o n, unit_at s = Some o /\ padded m o = Ok n /\ n <= p_full (r_ev s) /\ p_full (r_ev s1) = p_full (r_ev s) - n)).
  { intros T. unfold next_unit. destruct E as [E|(Fi & K)].
    { rewrite none_null by auto. do 2 eexists. split; [reflexivity|]. split; [split; auto|]. split; [reflexivity|discriminate]. }
    assert (Nl := ev_pos _ _ _ K). rewrite Nl, Fi. destruct K as (o & Eo & B & P & H & Z). destruct (Z T) as (z & Ez & Lz).
    unfold addr at 1. rewrite Eo. cbn [bind]. rewrite (padded_in _ _ _ Ez). cbn [bind].
    destruct (unit_check m (r_type s) (r_sub s) (r_raw s) (shift (r_ev s) (pad8 z)) T) as [Ec|(Ec & K)].
    { destruct (shift_in m (r_ev s) o (pad8 z) Eo B) as [H1|(H1 & _)]; auto. }
    - rewrite Ec. do 2 eexists. split; [reflexivity|]. split; [split; [left; apply none_pnull|exact Sb]|]. split; [reflexivity|discriminate].
    - rewrite Ec. do 2 eexists. split; [reflexivity|]. split; [split; [right; auto|left; apply none_pnull]|]. split; [reflexivity|].
      intros _. cbn [r_first r_sub r_ev]. repeat split; auto. exists o, (pad8 z). split; [unfold unit_at; rewrite Nl; exact Eo|]. split; [apply padded_in; exact Ez|].
      destruct (shift_in m (r_ev s) o (pad8 z) Eo B) as [(_ & H1)|(_ & H1 & H2)]; [|auto].
      destruct K as (? & _ & _ & Pz & _). lia. }
  destruct (r_type s) eqn:T; [apply U; discriminate|apply U; discriminate|].
  assert (X : p_none (if r_first s then r_ev s else pnull)).
  { destruct E as [E|(Fi & _)]; [destruct (r_first s); [exact E|apply none_pnull]|]. rewrite Fi. apply none_pnull. }
  cbv zeta. rewrite (none_null _ X). do 2 eexists. split; [reflexivity|]. split; [split; [left; exact X|exact Sb]|]. split; [reflexivity|discriminate].
Qed.

Lemma go_ok m s sb : Forall isbyte m -> (p_none sb \/ exists o, p_off sb = Some o /\ o + p_full sb <= lenN m) ->
  let fail := Ok (mkR (r_first s) (r_ev s) pnull (r_raw s) (r_type s), false) in
  let r := (if p_full sb <? 16 then fail
    else do o <- addr sb; do sz <- get_size m o;
    if sz <? 16 then fail
    else Ok (mkR (r_first s) (r_ev s) sb (shift (limit_to sb (pad8 sz)) 16) (r_type s), true)) in
  r = fail \/ exists raw, let s1 := mkR (r_first s) (r_ev s) sb raw (r_type s) in r = Ok (s1, true) /\ sb_ok m s1.
Proof.
  intros By H fail r. unfold r. destruct (N.ltb_spec (p_full sb) 16) as [L|L]; [left; reflexivity|].
  destruct H as [(_ & Z)|(o & Eo & B)]; [lia|].
  unfold addr. rewrite Eo. cbn [bind]. destruct (get_size_in m o) as (z & Ez); [lia|]. rewrite Ez. cbn [bind].
  destruct (N.ltb_spec z 16) as [Lz|Lz]; [left; reflexivity|right]. eexists. split; [reflexivity|].
  exists o, z. cbn [r_sub r_raw]. split; [exact Eo|]. split; [exact B|]. split; [exact L|]. split; [exact Ez|]. split; [lia|].
  destruct sb as [so sf]. cbn [p_off p_full] in *. subst so.
  assert (Zw := size_word m o z By Ez). assert (Pb := pad8_big z Zw Lz).
  assert (Lm : exists k, limit_to (mkP (Some o) sf) (pad8 z) = mkP (Some o) k /\ 16 <= k <= sf).
  { unfold limit_to. cbn [p_off p_full]. destruct (N.ltb_spec 0 (pad8 z)); [|exists sf; cbn; split; [reflexivity|lia]].
    destruct (N.ltb_spec (pad8 z) sf); [|exists sf; cbn; split; [reflexivity|lia]]. cbn [andb]. exists (pad8 z). split; [reflexivity|]. lia. }
  destruct Lm as (k & -> & Lk). rewrite shift_at by lia. cbn [p_off p_full]. split; [reflexivity|lia].
Qed.

Lemma limit_in (m : bytes) p o n : p_off p = Some o -> o + p_full p <= lenN m ->
  p_off (limit_to p n) = Some o /\ o + p_full (limit_to p n) <= lenN m /\ p_full (limit_to p n) <= p_full p.
Proof.
  intros E B. unfold limit_to. destruct ((0 <? n) && (n <? p_full p)) eqn:C; [|auto with arith; repeat split; auto; lia].
  apply andb_prop in C. destruct C as (_ & C). apply N.ltb_lt in C. cbn [p_off p_full]. repeat split; auto; lia.
Qed.

Lemma next_sub_ok m s : Forall isbyte m -> rok m s ->
  exists s1 b, next_sub m s = Ok (s1, b) /\ rok m s1 /\ r_type s1 = r_type s /\ r_ev s1 = r_ev s /\ r_first s1 = r_first s /\
    (b = true -> sb_ok m s1 /\
      (p_none (r_sub s) /\ p_full (r_sub s1) <= p_full (r_ev s) /\ is_null (r_ev s) = false \/
       exists o n, sub_at s = Some o /\ padded m o = Ok n /\ n <= p_full (r_sub s) /\ p_full (r_sub s1) = p_full (r_sub s) - n)).
Proof.
  intros By (E & Sb). unfold next_sub.
  assert (Fin : forall sb, (p_none sb \/ exists o, p_off sb = Some o /\ o + p_full sb <= lenN m) ->
    exists s1 b, (if p_full sb <? 16 then Ok (mkR (r_first s) (r_ev s) pnull (r_raw s) (r_type s), false)
      else do o <- addr sb; do sz <- get_size m o;
      if sz <? 16 then Ok (mkR (r_first s) (r_ev s) pnull (r_raw s) (r_type s), false)
      else Ok (mkR (r_first s) (r_ev s) sb (shift (limit_to sb (pad8 sz)) 16) (r_type s), true)) = Ok (s1, b) /\
     rok m s1 /\ r_type s1 = r_type s /\ r_ev s1 = r_ev s /\ r_first s1 = r_first s /\
     (b = true -> sb_ok m s1 /\ r_sub s1 = sb)).
  { intros sb H. destruct (go_ok m s sb By H) as [R|(raw & R & K)].
    - do 2 eexists. split; [exact R|]. split; [split; [exact E|left; apply none_pnull]|]. repeat split; auto; discriminate.
    - do 2 eexists. split; [exact R|]. split; [split; [exact E|right; exact K]|]. repeat split; auto. }
  destruct Sb as [Sn|K].
  - rewrite (none_null _ Sn). destruct E as [En|(Fi & Ke)].
    { rewrite (none_null _ En). do 2 eexists. split; [reflexivity|]. split; [split; auto|]. repeat split; auto; discriminate. }
    assert (Nl := ev_pos _ _ _ Ke). rewrite Nl. destruct Ke as (o & Eo & B & P & Hd & Z).
    unfold addr at 1. rewrite Eo. cbn [bind].
    assert (C : exists csz, (match r_type s with TSubs => Ok (p_full (r_ev s)) | _ => padded m o end) = Ok csz).
    { destruct (r_type s); [destruct (Z ltac:(discriminate)) as (z & Ez & _); eexists; apply padded_in; exact Ez
        |destruct (Z ltac:(discriminate)) as (z & Ez & _); eexists; apply padded_in; exact Ez|eexists; reflexivity]. }
    destruct C as (csz & ->). cbn [bind].
    destruct (csz =? 0). { do 2 eexists. split; [reflexivity|]. split; [split; [right; split; [exact Fi|exists o; auto]|left; exact Sn]|]. repeat split; auto; discriminate. }
    destruct (csz <? head_size (r_type s)). { do 2 eexists. split; [reflexivity|]. split; [split; [right; split; [exact Fi|exists o; auto]|left; exact Sn]|]. repeat split; auto; discriminate. }
    destruct (limit_in m (r_ev s) o csz Eo B) as (L1 & L2 & L3).
    assert (Sh := shift_in m (limit_to (r_ev s) csz) o (head_size (r_type s)) L1 L2).
    destruct (Fin (shift (limit_to (r_ev s) csz) (head_size (r_type s)))) as (s1 & b & R & Rk & T1 & E1 & F1 & Ps).
    { destruct Sh as [H|(H & _)]; auto. }
    exists s1, b. split; [exact R|]. repeat (split; [assumption|]). intros Hb. destruct (Ps Hb) as (Ks & Es). split; [exact Ks|left].
    split; [exact Sn|]. split; [|reflexivity]. rewrite Es. destruct Sh as [(_ & H)|(_ & _ & H)]; lia.
  - destruct K as (o & z & Eo & B & P & Ez & Lz & Rr & Rf).
    assert (Nl : is_null (r_sub s) = false). { destruct (r_sub s) as [so sf]. cbn in *. subst so. apply is_null_at. lia. }
    rewrite Nl. unfold addr at 1. rewrite Eo. cbn [bind]. rewrite (padded_in _ _ _ Ez). cbn [bind].
    assert (Sh := shift_in m (r_sub s) o (pad8 z) Eo B).
    destruct (Fin (shift (r_sub s) (pad8 z))) as (s1 & b & R & Rk & T1 & E1 & F1 & Ps).
    { destruct Sh as [H|(H & _)]; auto. }
    exists s1, b. split; [exact R|]. repeat (split; [assumption|]). intros Hb. destruct (Ps Hb) as (Ks & Es). split; [exact Ks|right].
    exists o, (pad8 z). split; [unfold sub_at; rewrite Nl; exact Eo|]. split; [apply padded_in; exact Ez|]. rewrite Es.
    destruct Sh as [(_ & H)|(_ & H1 & H2)]; [|auto].
    destruct Ks as (? & ? & _ & _ & Pz & _). rewrite Es in Pz. lia.
Qed.

(* ---- any sequence of calls ---- *)

Lemma r_calls_app m l l' : forall s, r_calls m s (l ++ l') = do s1 <- r_calls m s l; r_calls m s1 l'.
Proof.
  induction l as [|c l IH]; intros s; [reflexivity|]. cbn [r_calls app]. destruct (r_call m s c); cbn [bind]; auto.
Qed.
Lemma r_calls_ok m (By : Forall isbyte m) l : forall s, rok m s -> exists s1, r_calls m s l = Ok s1 /\ rok m s1 /\ r_type s1 = r_type s.
Proof.
  induction l as [|c l IH]; intros s H; [exists s; auto|]. cbn [r_calls]. unfold r_call.
  destruct c.
  - destruct (next_block_ok m s H) as (s1 & b & -> & H1 & T1 & _). cbn [bind]. destruct (IH s1 H1) as (s2 & E & H2 & T2). exists s2. rewrite T2. auto.
  - destruct (next_sub_ok m s By H) as (s1 & b & -> & H1 & T1 & _). cbn [bind]. destruct (IH s1 H1) as (s2 & E & H2 & T2). exists s2. rewrite T2. auto.
Qed.
Lemma r_run_ok m t l : Forall isbyte m -> exists s, r_run m t l = Ok s /\ rok m s /\ r_type s = t.
Proof.
  intros By. unfold r_run. cbn [r_calls]. unfold r_call.
  destruct (next_block_first_ok m t) as (s1 & b & -> & H1 & T1 & _). cbn [bind].
  destruct (r_calls_ok m By l s1 H1) as (s2 & E & H2 & T2). exists s2. rewrite T2. auto.
Qed.

Lemma rok_inside m s : rok m s ->
  (forall o, unit_at s = Some o -> o + head_size (r_type s) <= lenN m /\ (r_type s <> TSubs -> exists z, get_size m o = Ok z /\ o + z <= lenN m)) /\
  (forall o, sub_at s = Some o -> o + 16 <= lenN m /\ (exists z, get_size m o = Ok z /\ 16 <= z) /\ raw_at s = Some (o + 16) /\ o + 16 + raw_len s <= lenN m).
Proof.
  intros (E & Sb). split; intros o H.
  - unfold unit_at in H. destruct (is_null (r_ev s)) eqn:Nl; [discriminate|]. destruct E as [E|(_ & K)]; [rewrite none_null in Nl by auto; discriminate|].
    destruct K as (o' & Eo & B & P & Hd & Z). rewrite Eo in H. injection H as <-. split; [lia|]. intros T. destruct (Z T) as (z & Ez & L). exists z. split; [exact Ez|lia].
  - unfold sub_at in H. destruct (is_null (r_sub s)) eqn:Nl; [discriminate|]. destruct Sb as [Sb|K]; [rewrite none_null in Nl by auto; discriminate|].
    destruct K as (o' & z & Eo & B & P & Ez & Lz & Rr & Rf). rewrite Eo in H. injection H as <-. unfold raw_at, raw_len.
    split; [lia|]. split; [exists z; auto|]. split; [exact Rr|lia].
Qed.

(* ---- termination ---- *)

Section Term.
Context (m : bytes) (t : btype) (By : Forall isbyte m).
Definition reached (o : N) : Prop := exists l s, r_run m t l = Ok s /\ (unit_at s = Some o \/ sub_at s = Some o).
Context (NoZ : forall o n, reached o -> padded m o = Ok n -> 0 < n).

Definition rch (s : riter) : Prop := exists l, r_run m t l = Ok s.
Lemma rch_rok s : rch s -> rok m s.
Proof. intros (l & E). destruct (r_run_ok m t l By) as (s' & E' & H & _). rewrite E in E'. injection E' as <-. exact H. Qed.
Lemma rch_step s c s1 b : rch s -> (match c with NextBlock => next_block m s | NextSub => next_sub m s end) = Ok (s1, b) -> rch s1.
Proof.
  intros (l & E) H. exists (l ++ [c]). unfold r_run in *. change (NextBlock :: l ++ [c]) with ((NextBlock :: l) ++ [c]).
  rewrite r_calls_app, E. cbn [bind r_calls]. unfold r_call. rewrite H. reflexivity.
Qed.

Lemma see_sub_ok s : sb_ok m s -> exists x, see_sub m s = Ok x.
Proof.
  intros (o & z & Eo & B & P & Ez & _ & Rr & Rf). unfold see_sub. unfold addr at 1. rewrite Eo. cbn [bind]. rewrite Ez. cbn [bind].
  assert (G : forall k, k < 4 -> exists v, get_field m o k = Ok v).
  { intros k Hk. unfold get_field. destruct (getw_in m (o + 4)) as (d & ->); [lia|]. cbn [bind]. destruct (getw_in m (o + 4 * k)) as (w & ->); [lia|]. eexists. reflexivity. }
  unfold get_dec, get_id, get_trig. destruct (G 1) as (v1 & ->); [lia|]. destruct (G 2) as (v2 & ->); [lia|]. destruct (G 3) as (v3 & ->); [lia|].
  cbn [bind]. unfold addr. rewrite Rr. cbn [bind]. unfold getb. destruct (N.leb_spec (o + 16 + p_full (r_raw s)) (lenN m)); [|lia]. eexists. reflexivity.
Qed.
Lemma see_unit_ok s : ev_ok m (r_type s) (r_ev s) -> exists x, see_unit m s = Ok x.
Proof.
  intros (o & Eo & B & P & Hd & _). unfold see_unit. unfold addr. rewrite Eo. cbn [bind].
  assert (G : forall k, 4 * N.of_nat k <= head_size (r_type s) -> exists l, see_fields m o k = Ok l).
  { induction k as [|k IH]; intros L; [eexists; reflexivity|]. cbn [see_fields]. destruct IH as (l & ->); [lia|]. cbn [bind].
    unfold get_field. destruct (getw_in m (o + 4)) as (d & ->); [destruct (r_type s); cbn in *; lia|]. cbn [bind].
    destruct (getw_in m (o + 4 * N.of_nat k)) as (w & ->); [lia|]. eexists. reflexivity. }
  apply G. rewrite N2Nat.id. destruct (r_type s); cbn [head_size]; lia.
Qed.

Lemma sub_loop_term fuel : forall s, rch s -> sb_ok m s -> p_full (r_sub s) <= N.of_nat fuel + 8 ->
  exists s2 l, sub_loop fuel m s = Ok (s2, l) /\ rch s2 /\ r_ev s2 = r_ev s /\ r_first s2 = r_first s /\ r_type s2 = r_type s.
Proof.
  induction fuel as [|fuel IH]; intros s R K L.
  { destruct K as (o & z & _ & _ & P & _). lia. }
  cbn [sub_loop]. destruct (next_sub_ok m s By (rch_rok s R)) as (s1 & b & En & H1 & T1 & E1 & F1 & Ps).
  assert (R1 := rch_step s NextSub s1 b R En). rewrite En. cbn [bind]. destruct b.
  - destruct (Ps eq_refl) as (K1 & [(Sn & _)|(o & n & So & Pd & Ln & Ef)]).
    { destruct K as (o & z & Eo & _). destruct Sn as (Sn & _). congruence. }
    assert (0 < n). { apply (NoZ o n); auto. destruct R as (l & El). exists l, s. auto. }
    destruct (see_sub_ok s1 K1) as (x & ->). cbn [bind].
    destruct (IH s1 R1 K1) as (s2 & l & -> & R2 & E2 & F2 & T2); [lia|]. cbn [bind]. exists s2, (x :: l).
    split; [reflexivity|]. rewrite E2, F2, T2. auto.
  - exists s1, []. auto.
Qed.

Lemma sub_loop_all s : rch s -> p_none (r_sub s) -> 
  exists s2 l, sub_loop (S (length m)) m s = Ok (s2, l) /\ rch s2 /\ r_ev s2 = r_ev s /\ r_first s2 = r_first s /\ r_type s2 = r_type s.
Proof.
  intros R Sn. cbn [sub_loop]. assert (Rk := rch_rok s R). destruct (next_sub_ok m s By Rk) as (s1 & b & En & H1 & T1 & E1 & F1 & Ps).
  assert (R1 := rch_step s NextSub s1 b R En). rewrite En. cbn [bind]. destruct b.
  - destruct (Ps eq_refl) as (K1 & [(_ & Lf & Nl)|(o & n & So & _)]).
    2:{ unfold sub_at in So. rewrite none_null in So by auto. discriminate. }
    assert (Lm : p_full (r_sub s1) <= lenN m) by (destruct K1 as (o1 & z1 & _ & B1 & _); lia).
    destruct (see_sub_ok s1 K1) as (x & ->). cbn [bind].
    destruct (sub_loop_term (length m) s1 R1 K1) as (s2 & l & -> & R2 & E2 & F2 & T2); [unfold lenN in Lm; lia|].
    cbn [bind]. exists s2, (x :: l). split; [reflexivity|]. rewrite E2, F2, T2. auto.
  - exists s1, []. auto.
Qed.

Lemma block_loop_term fuel : forall s, rch s -> ev_ok m t (r_ev s) -> r_type s = t -> p_full (r_ev s) <= N.of_nat fuel + (if match t with TSubs => true | _ => false end then p_full (r_ev s) - 1 else 4) ->
  exists l, block_loop fuel m s = Ok l.
Proof.
  induction fuel as [|fuel IH]; intros s R K T L.
  { destruct K as (o & _ & _ & P & Hd & _). destruct t; cbn in *; lia. }
  cbn [block_loop]. destruct (next_block_ok m s (rch_rok s R)) as (s1 & b & En & H1 & T1 & Ps).
  assert (R1 := rch_step s NextBlock s1 b R En). rewrite En. cbn [bind]. destruct b; [|eexists; reflexivity].
  destruct (Ps eq_refl) as (_ & F1 & S1 & K1 & Ns & o & n & Uo & Pd & Ln & Ef).
  assert (0 < n). { apply (NoZ o n); auto. destruct R as (l & El). exists l, s. auto. }
  destruct (see_unit_ok s1) as (h & ->); [rewrite T1; exact K1|]. cbn [bind].
  destruct (sub_loop_all s1 R1) as (s2 & l & Esl & R2 & E2 & F2 & T2); [rewrite S1; apply none_pnull|].
  rewrite Esl. cbn [bind].
  destruct (IH s2 R2) as (l2 & ->); [rewrite E2, <- T; exact K1|congruence|rewrite E2; destruct t; [lia|lia|congruence]|].
  eexists. reflexivity.
Qed.

Lemma read_all_term : exists l, read_all m t = Ok l.
Proof.
  unfold read_all. cbn [block_loop]. destruct (next_block_first_ok m t) as (s1 & b & En & H1 & T1 & Sn & Pt & _). rewrite En. cbn [bind].
  destruct b; [|eexists; reflexivity]. destruct (Pt eq_refl) as (F1 & S1 & K1).
  assert (R1 : rch s1). { exists []. unfold r_run. cbn [r_calls]. unfold r_call. rewrite En. reflexivity. }
  destruct (see_unit_ok s1) as (h & ->); [rewrite T1; exact K1|]. cbn [bind].
  destruct (sub_loop_all s1 R1 Sn) as (s2 & l & Esl & R2 & E2 & F2 & T2).
  rewrite Esl. cbn [bind].
  destruct (block_loop_term (length m) s2 R2) as (l2 & ->); [rewrite E2; exact K1|congruence| |eexists; reflexivity].
  destruct K1 as (o & _ & B & P & _). rewrite E2. unfold lenN in B. destruct t; lia.
Qed.
End Term.
