(* C41 and C42: the HADAQ event builder. *)
From Verif Require Import Common ListFacts Bytes WordMem BufPtr HadSpec HadModel HadWords HadRead TrigModel TrigProofs CombSpec CombModel CombWrite CombIn CombSafe CombBytes CombDone CombLive.
Local Open Scope N_scope.

(* ---- what is assumed ---- *)
(* well-formed items arrive; buffers of the pool have less than 4 GB *)
Definition data_ok (a : cact) : Prop :=
  match a with
  | CPush _ b => Forall item_ok (content b)
  | CBuild e => match e_buf e with Some m => lenN m < 2^32 | None => True end
  | CFlush _ => True
  end.
(* items of at most [B] bytes *)
Definition bounded (B : N) (a : cact) : Prop := match a with CPush _ b => Forall (fun x => i_size x <= B) (content b) | _ => True end.
(* buffers are bytes, header values are words *)
Definition words_ok (a : cact) : Prop :=
  match a with
  | CBuild e => word (e_run e) /\ word (e_date e) /\ word (e_clock e) /\ match e_buf e with Some m => Forall isbyte m | None => True end
  | _ => True
  end.
(* no drop for long waiting; [n] items fit into a buffer *)
Definition roomy (B : N) (n : nat) (a : cact) : Prop :=
  match a with CBuild e => e_late e = false /\ match e_buf e with Some m => 32 + N.of_nat n * B <= lenN m | None => True end | _ => True end.
(* outputs can send, a buffer is available *)
Definition can_work (c : conf) (e : env) : Prop :=
  Forall (fun b => b = true) (e_send e) /\ (c_nout c <= length (e_send e))%nat /\ match e_buf e with Some m => 48 <= lenN m | None => False end.

(* [Fs]: the items of every input with unbounded trigger numbers, of which the items show the
   lower [k] bits: they increase with steps of at most [G], inputs start at most [G] apart *)
Definition streams (c : conf) (k : N) (G : Z) (l : list cact) (Fs : list (list (Z * item))) : Prop :=
  forall i, (i < length Fs)%nat ->
    let F := nth i Fs [] in
    map snd F = arrived i l /\
    numbers k (negb (c_brecv c)) None (map snd F) = map (fun x => Z.to_N (fst x mod 2 ^ Z.of_N k)) F /\
    climbs G (map fst F) /\
    match F, nth 0 Fs [] with f :: _, f0 :: _ => (Z.abs (fst f - fst f0) <= G)%Z | _, _ => True end.
(* the events to be built *)
Definition expected (c : conf) (k : N) (l : list (Z * list item)) : list (N * list item) :=
  map (fun g => (Z.to_N (fst g mod 2 ^ Z.of_N k), snd g)) (wanted (c_check c) (c_skip c) l).

Lemma Z_pow k : Z.of_N (2^k) = (2 ^ Z.of_N k)%Z.
Proof. rewrite N2Z.inj_pow. reflexivity. Qed.
Lemma act_bound l : Forall data_ok l -> exists B, Forall (act_ok B) l.
Proof.
  assert (Up : forall B B2 a, B <= B2 -> act_ok B a -> act_ok B2 a).
  { intros B B2 [i b|e|e] L H; cbn in *; auto. eapply Forall_impl; [|exact H]. intros x (H1 & H2). split; [exact H1|lia]. }
  assert (One : forall l, Forall item_ok l -> exists B, Forall (iok B) l).
  { induction 1 as [|x m H F (B & IH)]; [exists 0; constructor|]. exists (B + i_size x). constructor; [split; [exact H|lia]|]. eapply Forall_impl; [|exact IH]. intros y (H1 & H2). split; [exact H1|lia]. }
  induction 1 as [|a l H F (B & IH)]; [exists 0; constructor|]. assert (Q : exists B2, act_ok B2 a). { destruct a as [i b|e|e]; cbn in *; [apply One; exact H|exists 0; exact H|exists 0; exact I]. }
  destruct Q as (B2 & Q). exists (B + B2). constructor; [apply (Up B2); [lia|exact Q]|]. eapply Forall_impl; [|exact IH]. intros x. apply Up. lia.
Qed.
Lemma act_both B l : Forall data_ok l -> Forall (bounded B) l -> Forall (act_ok B) l.
Proof.
  intros F1 F2. apply Forall_forall. intros a Ha. assert (H1 := proj1 (Forall_forall _ _) F1 a Ha). assert (H2 := proj1 (Forall_forall _ _) F2 a Ha).
  destruct a as [i b|e|e]; cbn in *; auto. apply Forall_forall. intros x Hx. split; [exact (proj1 (Forall_forall _ _) H1 x Hx)|exact (proj1 (Forall_forall _ _) H2 x Hx)].
Qed.
Lemma act_all B l : Forall data_ok l -> Forall (bounded B) l -> Forall words_ok l -> Forall (act_okw B) l.
Proof.
  intros F1 F2 F3. assert (F := act_both B l F1 F2). apply Forall_forall. intros a Ha. assert (H := proj1 (Forall_forall _ _) F a Ha). assert (H3 := proj1 (Forall_forall _ _) F3 a Ha).
  destruct a as [i b|e|e]; cbn in *; auto. unfold env_ok in H. destruct H3 as (H4 & H5 & H6 & H7). repeat split; auto. destruct (e_buf e); auto.
Qed.

(* Any number of inputs, any data, any order of arrival, building and sending: nothing
   undefined happens; every event has one member of each input, in input order, which all
   carry the number of the event; no item is used twice and the order is kept. *)
Theorem C41_groups : forall c k n l, c_max c = 2^k -> k < 31 -> (0 < n)%nat -> Forall data_ok l ->
  exists s, run c (comb_new n) l = Ok s /\
    Forall (fun g => fst g < 2^k /\ length (snd g) = n /\ Forall (fun x => carries k x (fst g)) (snd g)) (k_built s) /\
    forall i, (i < n)%nat -> sublist (of_input i (k_built s)) (arrived i l).
Proof.
  intros c k n l HM HK Hn F. destruct (act_bound l F) as (B & FB).
  destruct (run_ok c k HM HK B n l Hn FB (fun _ => []) (comb_new n) (new_sinv k B n) I) as (s & E & (L & H & Gk) & _). exists s. split; [exact E|]. split.
  - eapply Forall_impl; [|exact Gk]. intros g (A1 & A2 & A3). split; [exact A1|]. split; [exact A2|]. eapply Forall_impl; [|exact A3]. intros x (_ & Q). exact Q.
  - intros i Hi. destruct (nth_error (k_in s) i) as [p|] eqn:Ep; [|apply nth_error_None in Ep; lia]. destruct (H i p Ep) as (_ & P & Ea & Sb). cbn [app] in Ea. rewrite Ea.
    rewrite <- (app_nil_r (of_input i (k_built s))). apply sublist_app; [exact Sb|apply sublist_nil].
Qed.
Print Assumptions C41_groups.

(* The buffers which are sent and the one being filled hold exactly these events, in order:
   little-endian, with the subevents of the members (empty ones left out when fSkipEmpty is set).
   Events are numbered; when they go to several event builders, they have the trigger number and
   the tag of the first input, and every event goes to the builder of its trigger number.
   Missing: an event which reaches exactly to the end of a buffer (see C41_exact_fill_refuted);
   members of 4 GB. *)
Theorem C41_bytes_partial : forall c k n B l s, c_max c = 2^k -> k < 31 -> (0 < n)%nat -> N.of_nat n * B < 2^32 ->
  Forall data_ok l -> Forall (bounded B) l -> Forall words_ok l ->
  run c (comb_new n) l = Ok s -> k_exact s = false ->
  exists (E : list (N * list item * hunit)) parts cur,
    k_built s = map fst E /\ E = concat parts ++ cur /\
    Forall2 (fun o p => snd o = enc_units (map snd p) /\ p <> [] /\
      Forall (fun x => fst o = if c_bsend c && (2 <=? c_nout c)%nat then Some ((fst (fst x) / c_bunch c) mod N.of_nat (c_nout c)) else None) p) (k_sent s) parts /\
    match k_out s with None => cur = [] | Some w => exists rest, w_mem w = enc_units (map snd cur) ++ rest /\ w_full w = lenN (enc_units (map snd cur)) end /\
    forall i b g u, nth_error E i = Some (b, g, u) ->
      event_of (c_skip c) g u /\ item_ok (IEvt u) /\
      if c_bsend c then i_raw (IEvt u) = b mod 2^24 /\ match g with x :: _ => i_tag (IEvt u) = i_tag x | [] => False end
      else i_word (IEvt u) = (N.of_nat i + 1) mod 2^32.
Proof.
  intros c k n B l s HM HK Hn HB F1 F2 F3 Er He. assert (F := act_all B l F1 F2 F3).
  assert (Fo : Forall (act_ok B) l) by (apply act_both; assumption).
  destruct (run_ok c k HM HK B n l Hn Fo (fun _ => []) (comb_new n) (new_sinv k B n) I) as (s' & Es & (_ & _ & Gk) & _). assert (s' = s) by congruence. subst s'.
  destruct (run_bi c k HM HK B n HB Hn l F (fun _ => []) (comb_new n) s (new_sinv k B n) I (ex_intro _ [] (ex_intro _ [] (ex_intro _ [] (bi_new c n)))) Er He) as (E & parts & cur & [H1 H2 H3 H4 H5 H6 H7]).
  exists E, parts, cur. split; [exact H1|]. split; [exact H2|]. split; [|split].
  - clear - H3. induction H3 as [|o p os ps (A1 & A2 & A3) F IH]; constructor; [|exact IH]. split; [exact A1|]. split; [exact A2|]. eapply Forall_impl; [|exact A3]. intros x <-. unfold dest_port. clear.
    destruct (c_bsend c); [|reflexivity]. cbn [negb orb andb]. destruct (Nat.ltb_spec (c_nout c) 2), (Nat.leb_spec 2 (c_nout c)); try lia; reflexivity.
  - destruct (k_out s) as [w|]; [|exact H5]. destruct H5 as (rest & W1 & _ & _ & _ & W2 & _). exists rest. auto.
  - intros i b g u Hi. assert (Q := H4 i _ Hi). cbn [ev] in Q. destruct Q as ((Ku & _) & date & clock & rn & Eu). split; [|split].
    + rewrite Eu. repeat split.
    + split; [exact Ku|]. rewrite Eu. reflexivity.
    + assert (Hg : In (b, g) (k_built s)). { rewrite H1. change (b, g) with (fst (b, g, u)). apply in_map. exact (nth_error_In _ _ Hi). }
      destruct (proj1 (Forall_forall _ _) Gk (b, g) Hg) as (_ & Lg & _). cbn [snd] in Lg.
      unfold i_raw, i_tag at 1. rewrite Eu. cbn [i_word u_rest nth]. destruct (c_bsend c); [|reflexivity]. destruct g as [|x g]; [cbn in Lg; lia|]. cbn [hd]. assert (T := i_tag_lt x). split.
      * rewrite N.div_add_l by discriminate. rewrite N.div_small by exact T. apply N.add_0_r.
      * rewrite N.add_comm, N.mod_add by discriminate. apply N.mod_small. exact T.
Qed.
Print Assumptions C41_bytes_partial.

(* Increasing numbers: the events built are those with a member on all inputs, in order, as far as
   input 0 was processed; all of them when one input was used up.  With the tag check, those whose
   tags agree.
   Needed: steps of at most a quarter of the number range and less than half the tolerance, no drop
   of all inputs after the timeout (fEventBuildTimeout), buffers which have place for the events. *)
Theorem C41_complete_partial : forall c k n B G l Fs s, c_max c = 2^k -> k < 31 -> (0 < n)%nat ->
  (0 <= G)%Z -> (4 * G < 2 ^ Z.of_N k)%Z -> (c_tol c <= 0 \/ 2 * G <= c_tol c)%Z ->
  Forall data_ok l -> Forall (bounded B) l -> Forall (roomy B n) l ->
  length Fs = n -> streams c k G l Fs ->
  run c (comb_new n) l = Ok s ->
  (exists m, k_built s = expected c k (groups_at Fs (firstn m (nth 0 Fs [])))) /\
  ((exists p, In p (k_in s) /\ p_item p = None /\ left p = []) -> k_built s = expected c k (groups Fs)).
Proof.
  intros c k n B G l Fs s HM HK Hn HG HG4 HT F1 F2 F3 HL HS Er. rewrite <- Z_pow in HG4.
  assert (Fo : Forall (act_ok B) l) by (apply act_both; assumption).
  assert (Fb : Forall (act_big B n) l) by (eapply Forall_impl; [|exact F3]; intros [i b|e|e] H; exact H).
  assert (HF : Fs <> []) by (intros ->; cbn in HL; lia). assert (H0 : hd [] Fs = nth 0 Fs []) by (destruct Fs; reflexivity).
  assert (Rd : forall i, (i < n)%nat -> ready c k G (hd [] Fs) Fs l i).
  { intros i Hi. rewrite <- HL in Hi. destruct (HS i Hi) as (S1 & S2 & S3 & S4). split; [exact S1|]. split; [rewrite <- S1, S2, map_map; unfold md; rewrite Z_pow; reflexivity|]. split; [exact S3|]. rewrite H0. exact S4. }
  assert (C0 : climbs G (map fst (hd [] Fs))). { rewrite H0. apply HS. lia. }
  assert (D0 := din_new c k HM HK B G HG4 (hd [] Fs) Fs eq_refl HF n HL l Rd).
  destruct (run_din c k HM HK B G HG HG4 (hd [] Fs) C0 HT Fs eq_refl HF n HL l Fo Fb (fun _ => []) (comb_new n) s (new_sinv k B n) I D0 Er) as (L & P0 & R0 & D).
  assert (Ex : forall g, good c k g = expected c k g). { intros g. unfold good, expected, mg, md. rewrite Z_pow. reflexivity. }
  split.
  - destruct (done_prefix c k B G (hd [] Fs) Fs eq_refl _ _ _ _ _ D) as (m & E). exists m. rewrite E, Ex, H0. reflexivity.
  - intros (p & Hp & Ei & El). rewrite (done_all c k HM HK B G HG4 (hd [] Fs) Fs eq_refl n HL L P0 R0 s D); [apply Ex|]. exists p. split; [exact Hp|]. unfold all. rewrite Ei, El. reflexivity.
Qed.
Print Assumptions C41_complete_partial.

(* ... and calling BuildEvent often enough, with outputs which can send and buffers in the pool,
   gives all of them. *)
Theorem C41_all_built_partial : forall c k n B G l Fs, c_max c = 2^k -> k < 31 -> (0 < n)%nat -> N.of_nat n * B < 2^32 ->
  (0 <= G)%Z -> (4 * G < 2 ^ Z.of_N k)%Z -> (c_tol c <= 0 \/ 2 * G <= c_tol c)%Z ->
  Forall data_ok l -> Forall (bounded B) l -> Forall words_ok l -> Forall (roomy B n) l ->
  length Fs = n -> streams c k G l Fs ->
  exists N0, forall es s, (N0 <= length es)%nat -> Forall (can_work c) es ->
    Forall data_ok (map CBuild es) -> Forall words_ok (map CBuild es) -> Forall (roomy B n) (map CBuild es) ->
    run c (comb_new n) (l ++ map CBuild es) = Ok s -> k_exact s = false -> k_built s = expected c k (groups Fs).
Proof.
  intros c k n B G l Fs HM HK Hn HB HG HG4 HT F1 F2 Fw F3 HL HS.
  assert (Fo : Forall (act_ok B) l) by (apply act_both; assumption). assert (Fa := act_all B l F1 F2 Fw).
  assert (Fb : Forall (act_big B n) l) by (eapply Forall_impl; [|exact F3]; intros [i b|e|e] H; exact H).
  assert (HF : Fs <> []) by (intros ->; cbn in HL; lia). assert (H0 : hd [] Fs = nth 0 Fs []) by (destruct Fs; reflexivity).
  destruct (run_ok c k HM HK B n l Hn Fo (fun _ => []) (comb_new n) (new_sinv k B n) I) as (s0 & Es0 & Is0 & Ho0).
  exists (S (mu (k_in s0))). intros es s Hm Hc Hd Hw Hr Er Hx.
  assert (Split : forall l1 l2 s1, run c s1 (l1 ++ l2) = (do s2 <- run c s1 l1; run c s2 l2)).
  { induction l1 as [|x l1 IH]; intros l2 s1; cbn [app run]; [reflexivity|]. destruct (step c s1 x); cbn [bind]; [apply IH|reflexivity|reflexivity]. }
  rewrite Split, Es0 in Er. cbn [bind] in Er.
  assert (HG4' := HG4). rewrite <- Z_pow in HG4'.
  assert (Rd : forall i, (i < n)%nat -> ready c k G (hd [] Fs) Fs l i).
  { intros i Hi. rewrite <- HL in Hi. destruct (HS i Hi) as (S1 & S2 & S3 & S4). split; [exact S1|]. split; [rewrite <- S1, S2, map_map; unfold md; rewrite Z_pow; reflexivity|]. split; [exact S3|]. rewrite H0. exact S4. }
  assert (C0 : climbs G (map fst (hd [] Fs))). { rewrite H0. apply HS. lia. }
  assert (D0 := din_new c k HM HK B G HG4' (hd [] Fs) Fs eq_refl HF n HL l Rd).
  assert (D1 := run_din c k HM HK B G HG HG4' (hd [] Fs) C0 HT Fs eq_refl HF n HL l Fo Fb (fun _ => []) (comb_new n) s0 (new_sinv k B n) I D0 Es0).
  assert (Fe : Forall (good_env c B n) es).
  { rewrite Forall_map in Hd, Hw, Hr. apply Forall_forall. intros e He. assert (A1 := proj1 (Forall_forall _ _) Hc e He). assert (A2 := proj1 (Forall_forall _ _) Hd e He). assert (A3 := proj1 (Forall_forall _ _) Hw e He). assert (A4 := proj1 (Forall_forall _ _) Hr e He). cbn in A2, A3, A4.
    destruct A1 as (A1 & A5 & A6). destruct A3 as (B1 & B2 & B3 & B4). split; [exact A4|]. split; [|split; [exact A1|split; [exact A5|exact A6]]]. repeat split; auto. destruct (e_buf e); auto. }
  assert (Fok : Forall (act_okw B) (map CBuild es)) by (apply Forall_map; eapply Forall_impl; [|exact Fe]; intros e (_ & H & _); exact H).
  assert (Hx0 := run_exact c k HM HK B n Hn _ Fok _ s0 s Is0 Ho0 Er Hx).
  assert (St0 : state c k B n (fun _ => []) (comb_new n)).
  { split; [apply new_sinv|]. split; [exact I|]. split; [exact (ex_intro _ [] (ex_intro _ [] (ex_intro _ [] (bi_new c n))))|exact I]. }
  assert (St := run_state c k HM HK B n HB Hn G HG4' Fs HL l Fa Fb _ _ _ St0 Es0 Hx0).
  destruct (builds_done c k HM HK B n HB Hn G HG HG4' HT Fs HL HF C0 es Fe _ s0 s St D1 (or_introl Hm) Er Hx) as ((L & P0 & R0 & D) & Exh).
  rewrite (done_all c k HM HK B G HG4' (hd [] Fs) Fs eq_refl n HL L P0 R0 s D Exh). unfold good, expected, mg, md. rewrite Z_pow. reflexivity.
Qed.
Print Assumptions C41_all_built_partial.

(* ---- a concrete case ---- *)
(* trigger number, tag, id and number of data words of a subevent *)
Definition sub_of (t tag id : N) (w : nat) : item := ISub (mkSub false 0x20001 id (t * 256 + tag) (repeat 7 (8 * w)) []).
Definition cfg : conf := mkConf (2^24) true true false false 16 1 (2^22) None.
Definition env_of (m : N) : env := mkE false false [true] (Some (repeat 0 (N.to_nat m))) 11 12 13.
Definition feed : list cact :=
  [CPush 0 (Some [[sub_of 5 1 100 1; sub_of 6 1 100 2]]); CBuild (env_of 100); CPush 1 (Some [[sub_of 5 1 200 1]; [sub_of 7 2 200 1]]);
   CBuild (env_of 100); CPush 1 (Some [[sub_of 8 3 200 2]]); CPush 0 (Some [[sub_of 8 3 100 1]]); CBuild (env_of 100)].
Definition Feed : list (list (Z * item)) :=
  [[(5, sub_of 5 1 100 1); (6, sub_of 6 1 100 2); (8, sub_of 8 3 100 1)];
   [(5, sub_of 5 1 200 1); (7, sub_of 7 2 200 1); (8, sub_of 8 3 200 2)]]%Z.

Ltac sub_fine := repeat split; try (vm_compute; congruence); try discriminate.
Example feed_data : Forall data_ok feed. Proof. repeat constructor; sub_fine. Qed.
Example feed_bounded : Forall (bounded 32) feed. Proof. repeat constructor; vm_compute; congruence. Qed.
Lemma zeros m : Forall isbyte (repeat 0 m). Proof. apply Forall_forall. intros x H. apply repeat_spec in H. subst x. reflexivity. Qed.
Example env_words m : words_ok (CBuild (env_of m)). Proof. repeat split; apply zeros. Qed.
Example feed_words : Forall words_ok feed. Proof. repeat (constructor; [first [exact I|apply env_words]|]). constructor. Qed.
Example feed_roomy : Forall (roomy 32 2) feed. Proof. repeat constructor; vm_compute; congruence. Qed.
Example feed_streams : streams cfg 24 4 feed Feed.
Proof.
  assert (C : forall a b d, (a < b <= a + 4)%Z -> (b < d <= b + 4)%Z -> climbs 4 [a; b; d]) by (intros; repeat constructor; lia).
  intros [|[|i]] Hi; [| |cbn in Hi; lia]; cbv zeta; (split; [reflexivity|split; [vm_compute; reflexivity|split; [cbn; apply C; lia|cbn; lia]]]).
Qed.
Example feed_expected : expected cfg 24 (groups Feed) = [(5, [sub_of 5 1 100 1; sub_of 5 1 200 1]); (8, [sub_of 8 3 100 1; sub_of 8 3 200 2])].
Proof. vm_compute. reflexivity. Qed.
(* two buffers of 100 bytes: the second event does not fit behind the first *)
Definition feed_end : list cact := feed ++ map CBuild (repeat (env_of 100) 3) ++ [CFlush (env_of 100)].
Example feed_built : exists s, run cfg (comb_new 2) feed_end = Ok s /\ k_built s = expected cfg 24 (groups Feed) /\ k_exact s = false /\ length (k_sent s) = 2%nat.
Proof. eexists. split; [vm_compute; reflexivity|]. vm_compute. auto. Qed.
Example env_works : can_work cfg (env_of 100). Proof. split; [repeat constructor|split; [cbn; lia|vm_compute; congruence]]. Qed.

(* second level: events of first-level builders are combined again and carry the trigger number *)
Example second_level : forall k b tag u, k <= 24 -> b < 2^k -> i_raw (IEvt u) = b mod 2^24 -> i_tag (IEvt u) = tag -> carries k (IEvt u) b.
Proof. intros k b tag u Hk Hb Hr _. left. rewrite Hr. assert (P := N.pow_le_mono_r 2 k 24 ltac:(discriminate) Hk). rewrite (N.mod_small b (2^24)) by lia. symmetry. apply N.mod_small. exact Hb. Qed.

(* ---- where the full claim fails ---- *)
(* an event which reaches exactly to the end of the buffer is sent without its subevents *)
Definition fill_up : list cact :=
  [CPush 0 (Some [[sub_of 5 1 100 1]]); CPush 1 (Some [[sub_of 5 1 200 1]]); CBuild (env_of 80); CFlush (env_of 80)].
Theorem C41_exact_fill_refuted : exists s o u, Forall data_ok fill_up /\ run cfg (comb_new 2) fill_up = Ok s /\
  k_built s = [(5, [sub_of 5 1 100 1; sub_of 5 1 200 1])] /\ k_sent s = [o] /\ snd o = enc_unit u /\ u_subs u = [].
Proof.
  eexists _, _, (mkUnit false 0x30001 [0x2000; 1; 12; 13; 11; 0] []). split; [repeat constructor; sub_fine|]. split; [vm_compute; reflexivity|]. vm_compute. auto 10.
Qed.
Print Assumptions C41_exact_fill_refuted.

(* a second event which is larger than a buffer stops the builder until all data are dropped
   after the timeout: the following events are not built *)
Definition too_big : list cact :=
  [CPush 0 (Some [[sub_of 5 1 100 1; sub_of 6 1 100 1; sub_of 7 1 100 0]]); CPush 1 (Some [[sub_of 5 1 200 10; sub_of 6 1 200 10; sub_of 7 1 200 1]]);
   CBuild (env_of 90)].
Theorem C41_oversize_stall_refuted : exists s, Forall data_ok too_big /\ run cfg (comb_new 2) too_big = Ok s /\
  forall es, Forall (fun e => e_late e = false) es -> run cfg s (map CBuild es) = Ok s.
Proof.
  eexists. split; [repeat constructor; sub_fine|]. split; [vm_compute; reflexivity|]. induction 1 as [|e es He F IH]; [reflexivity|]. cbn [map run].
  match goal with |- bind ?x _ = _ => replace x with (Ok (A := comb) ltac:(match type of IH with run _ ?t _ = _ => exact t end)); [cbn [bind]; exact IH|] end.
  destruct e as [[|] late sd bf rn dt ck]; cbn in He; subst late; vm_compute; reflexivity.
Qed.
Print Assumptions C41_oversize_stall_refuted.

(* a module without inputs: the timer calls BuildEvent, which uses fCfg[0] *)
Theorem C41_no_inputs_refuted : forall c e, run c (comb_new 0) [CBuild e] = UB.
Proof. intros c [[|] [|] sd bf rn dt ck]; unfold run, step, build; cbn [comb_new repeat k_in fill map]; unfold drop_all; cbn; rewrite ?andb_false_r; destruct (0 <? c_tol c)%Z eqn:E1, (c_tol c <? 0)%Z eqn:E2; try reflexivity; lia. Qed.
Print Assumptions C41_no_inputs_refuted.

(* input 0 delivers 0 and 0x900000, input 1 0x900000: a step of more than half the range *)
Definition far : list cact :=
  [CPush 0 (Some [[sub_of 0 1 100 1; sub_of 0x900000 1 100 1]]); CPush 1 (Some [[sub_of 0x900000 1 200 1]])].
Theorem C41_far_refuted : exists s, Forall data_ok far /\
  (forall i, (i < 2)%nat -> climbs (2^24) (map (fun x => Z.of_N (i_raw x)) (arrived i far))) /\
  (forall i, (i < 2)%nat -> exists x, In x (arrived i far) /\ i_raw x = 0x900000) /\
  run cfg (comb_new 2) (far ++ map CBuild (repeat (env_of 200) 5)) = Ok s /\ k_built s = [].
Proof.
  eexists. split; [repeat constructor; sub_fine|]. split.
  { intros [|[|i]] Hi; [| |lia]; vm_compute map; repeat constructor; lia. }
  split. { intros [|[|i]] Hi; [| |lia]; [exists (sub_of 0x900000 1 100 1)|exists (sub_of 0x900000 1 200 1)]; (split; [cbn; auto|reflexivity]). }
  split; vm_compute; reflexivity.
Qed.
Print Assumptions C41_far_refuted.

(* ---- C42 ---- *)
(* a subevent with data error: the event header shows none *)
Definition damaged : list cact :=
  [CPush 0 (Some [[sub_of 5 1 100 1]]); CPush 1 (Some [[sub_of 5 1 0x80000200 1]]); CBuild (env_of 200); CFlush (env_of 200)].
Theorem C42_error_bit_refuted : exists s u x y, Forall data_ok damaged /\ run cfg (comb_new 2) damaged = Ok s /\
  k_built s = [(5, [x; y])] /\ i_err y = true /\ i_empty y = false /\
  k_sent s = [(None, enc_unit u)] /\ i_err (IEvt u) = false.
Proof.
  eexists _, (mkUnit false 0x30001 [0x2000; 1; 12; 13; 11; 0] (i_subs (sub_of 5 1 100 1) ++ i_subs (sub_of 5 1 0x80000200 1))), _, _. split; [repeat constructor; sub_fine|]. split; [vm_compute; reflexivity|]. split; [vm_compute; reflexivity|]. vm_compute. auto 10.
Qed.
Print Assumptions C42_error_bit_refuted.

(* What is true: the bit is clear in all events; the id is the trigger type with 0x2000. *)
Theorem C42_never_set : forall c k n B l s, c_max c = 2^k -> k < 31 -> (0 < n)%nat -> N.of_nat n * B < 2^32 ->
  Forall data_ok l -> Forall (bounded B) l -> Forall words_ok l ->
  run c (comb_new n) l = Ok s -> k_exact s = false ->
  exists (E : list (N * list item * hunit)) parts cur,
    k_built s = map fst E /\ E = concat parts ++ cur /\
    Forall2 (fun o p => snd o = enc_units (map snd p)) (k_sent s) parts /\
    Forall (fun x => i_err (IEvt (snd x)) = false /\ i_id (IEvt (snd x)) = N.lor (group_type c (snd (fst x))) 0x2000) E.
Proof.
  intros c k n B l s HM HK Hn HB F1 F2 F3 Er He. assert (F := act_all B l F1 F2 F3).
  destruct (run_bi c k HM HK B n HB Hn l F (fun _ => []) (comb_new n) s (new_sinv k B n) I (ex_intro _ [] (ex_intro _ [] (ex_intro _ [] (bi_new c n)))) Er He) as (E & parts & cur & [H1 H2 H3 H4 H5 H6 H7]).
  exists E, parts, cur. split; [exact H1|]. split; [exact H2|]. split.
  - clear - H3. induction H3 as [|o p os ps (A1 & A2 & A3) F IH]; constructor; [exact A1|exact IH].
  - apply Forall_forall. intros [[b g] u] Hx. apply In_nth_error in Hx. destruct Hx as (i & Hi). assert (Q := H4 i _ Hi). cbn [ev] in Q. destruct Q as (_ & date & clock & rn & Eu). cbn [fst snd].
    assert (W : i_id (IEvt u) = N.lor (group_type c g) 0x2000) by (rewrite Eu; reflexivity). split; [|exact W]. unfold i_err. rewrite W. assert (L := id_lt c g). revert L. generalize (N.lor (group_type c g) 0x2000). clear. intros x L.
    destruct (N.eq_dec x 0) as [->|Z]; [reflexivity|]. apply N.bits_above_log2. assert (Q : N.log2 x < 14) by (apply N.log2_lt_pow2; lia). lia.
Qed.
Print Assumptions C42_never_set.

(* The damage is only counted: fRunDataErrors counts the events with an error in a used member;
   without the tag check fRunTagErrors counts those whose tags differ, with it there are none. *)
Theorem C42_counters_partial : forall c k n l s, c_max c = 2^k -> k < 31 -> (0 < n)%nat -> Forall data_ok l ->
  run c (comb_new n) l = Ok s ->
  k_count s = lenN (k_built s) /\
  k_derr s = lenN (filter (fun g => existsb i_err (used (c_skip c) (snd g))) (k_built s)) /\
  (c_check c = false -> k_terr s = lenN (filter (fun g => negb (tags_agree (c_skip c) (snd g))) (k_built s))) /\
  (c_check c = true -> Forall (fun g => tags_agree (c_skip c) (snd g) = true) (k_built s)).
Proof.
  intros c k n l s HM HK Hn F Er. destruct (act_bound l F) as (B & FB).
  destruct (run_cnt c k HM HK B n Hn l FB (fun _ => []) (comb_new n) s (new_sinv k B n) I (cnt_new c n) Er) as (A1 & A2 & A3 & A4).
  assert (T : forall g, tags_agree (c_skip c) g = negb (t_err c g)). { intros [|x g]; [reflexivity|]. unfold tags_agree, t_err. cbn [hd]. rewrite negb_involutive. reflexivity. }
  split; [exact A1|]. split; [exact A2|]. split.
  - intros Hc. rewrite (A3 Hc). unfold count. f_equal. apply filter_ext. intros g. rewrite T, negb_involutive. reflexivity.
  - intros Hc. eapply Forall_impl; [|exact (A4 Hc)]. intros g Q. rewrite T, Q. reflexivity.
Qed.
Print Assumptions C42_counters_partial.
Example damaged_counted : exists s, run cfg (comb_new 2) damaged = Ok s /\ k_derr s = 1 /\ k_terr s = 0.
Proof. eexists. split; [vm_compute; reflexivity|]. vm_compute. auto. Qed.
