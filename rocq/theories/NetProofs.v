(* Lemmas for C52. *)
From Coq Require Import Permutation.
From Verif Require Import Common ListFacts NetSpec NetModel.

(* ---- records ---- *)
Definition occ := count_occ Nat.eq_dec.
Lemma is_used_upd r i x j : i < length r -> is_used (upd r i x) j = if j =? i then r_used x else is_used r j.
Proof.
  intros H. unfold is_used. destruct (Nat.eqb_spec j i) as [->|Ne]; [rewrite nth_error_upd_same by exact H; reflexivity|rewrite nth_error_upd_other by (intros E; apply Ne; symmetry; exact E); reflexivity].
Qed.
Lemma is_used_lt r i : is_used r i = true -> i < length r.
Proof. unfold is_used. intros H. apply nth_error_Some. destruct (nth_error r i); discriminate || congruence. Qed.
Lemma find_rec_none r cnt : forall ctr c', ctr < length r -> find_rec cnt r ctr = (None, c') -> forall k, k < cnt -> is_used r ((ctr + k) mod length r) = true.
Proof.
  induction cnt as [|cnt IH]; intros ctr c' Hc E k Hk; [lia|]. cbn [find_rec] in E. destruct (is_used r ctr) eqn:U; [|discriminate]. destruct k as [|k].
  - rewrite Nat.add_0_r, Nat.mod_small by exact Hc. exact U.
  - assert (Hm : (ctr + 1) mod length r < length r) by (apply Nat.mod_upper_bound; lia). specialize (IH _ _ Hm E k ltac:(lia)). rewrite Nat.add_mod_idemp_l in IH by lia. replace (ctr + S k) with (ctr + 1 + k) by lia. exact IH.
Qed.
Lemma find_rec_some r cnt : forall ctr i c', ctr < length r -> find_rec cnt r ctr = (Some i, c') -> i < length r /\ is_used r i = false /\ c' < length r.
Proof.
  induction cnt as [|cnt IH]; intros ctr i c' Hc E; [discriminate|]. cbn [find_rec] in E. assert (Hm : (ctr + 1) mod length r < length r) by (apply Nat.mod_upper_bound; lia). destruct (is_used r ctr) eqn:U; [exact (IH _ _ _ Hm E)|]. injection E as <- <-. auto.
Qed.
Lemma find_rec_ok r ctr i : ctr < length r -> i < length r -> is_used r i = false -> exists j c', find_rec (length r) r ctr = (Some j, c') /\ j < length r /\ is_used r j = false /\ c' < length r.
Proof.
  intros Hc Hi Hu. destruct (find_rec (length r) r ctr) as [[j|] c'] eqn:E; [exists j, c'; split; [reflexivity|]; exact (find_rec_some _ _ _ _ _ Hc E)|]. exfalso.
  assert (M : (i + length r - ctr) mod length r < length r) by (apply Nat.mod_upper_bound; lia). assert (A := find_rec_none r (length r) ctr c' Hc E _ M).
  rewrite Nat.add_mod_idemp_r in A by lia. replace (ctr + (i + length r - ctr)) with (i + 1 * length r) in A by lia. rewrite Nat.mod_add, Nat.mod_small in A by lia. congruence.
Qed.

Definition sone (r : list rec) (i : nat) : list N := match nth_error r i with Some x => match r_kind x with KSend => [r_data x] | _ => [] end | None => [] end.
Definition hone (r : list rec) (i : nat) : nat := match nth_error r i with Some x => match r_kind x with KHdr => 1 | _ => 0 end | None => 0 end.
Definition sdata (r : list rec) (l : list nat) : list N := flat_map (sone r) l.
Definition nhdr (r : list rec) (l : list nat) : nat := list_sum (map (hone r) l).
Definition is_send (r : list rec) (i : nat) : Prop := exists x, nth_error r i = Some x /\ (r_kind x = KSend \/ r_kind x = KHdr).
Definition is_data (r : list rec) (i : nat) : Prop := exists x, nth_error r i = Some x /\ r_kind x = KSend.
Lemma sone_upd r i x j : j <> i -> sone (upd r i x) j = sone r j.
Proof. intros H. unfold sone. rewrite nth_error_upd_other by auto. reflexivity. Qed.
Lemma hone_upd r i x j : j <> i -> hone (upd r i x) j = hone r j.
Proof. intros H. unfold hone. rewrite nth_error_upd_other by auto. reflexivity. Qed.
Lemma sdata_upd r i x l : ~ In i l -> sdata (upd r i x) l = sdata r l.
Proof. unfold sdata. induction l as [|j l IH]; intros H; [reflexivity|]. cbn [flat_map]. rewrite sone_upd by (intros ->; apply H; left; reflexivity). rewrite IH; [reflexivity|]. intros C; apply H; right; exact C. Qed.
Lemma nhdr_upd r i x l : ~ In i l -> nhdr (upd r i x) l = nhdr r l.
Proof. unfold nhdr. intros H. f_equal. apply map_ext_in. intros j Hj. apply hone_upd. intros ->. contradiction. Qed.
Lemma is_send_upd r i x l : ~ In i l -> Forall (is_send r) l -> Forall (is_send (upd r i x)) l.
Proof. intros H F. rewrite Forall_forall in *. intros j Hj. destruct (F j Hj) as (y & E & K). exists y. split; [|exact K]. rewrite nth_error_upd_other; [exact E|]. intros ->. contradiction. Qed.
Lemma is_data_upd r i x l : ~ In i l -> Forall (is_data r) l -> Forall (is_data (upd r i x)) l.
Proof. intros H F. rewrite Forall_forall in *. intros j Hj. destruct (F j Hj) as (y & E & K). exists y. split; [|exact K]. rewrite nth_error_upd_other; [exact E|]. intros ->. contradiction. Qed.
Lemma sdata_app r a b : sdata r (a ++ b) = sdata r a ++ sdata r b.
Proof. apply flat_map_app. Qed.
Lemma nhdr_app r a b : nhdr r (a ++ b) = nhdr r a + nhdr r b.
Proof. unfold nhdr. rewrite map_app, list_sum_app. reflexivity. Qed.
Lemma send_length r l : Forall (is_send r) l -> length (sdata r l) + nhdr r l = length l.
Proof.
  induction 1 as [|i l (x & E & K) F IH]; [reflexivity|]. cbn [sdata flat_map nhdr map list_sum fold_right length] in *. rewrite app_length. unfold sone at 1, hone at 1. rewrite E. unfold sdata, nhdr, list_sum in IH. destruct K as [-> | ->]; cbn [length]; lia.
Qed.
Lemma data_length r l : Forall (is_data r) l -> length (sdata r l) = length l /\ nhdr r l = 0.
Proof.
  induction 1 as [|i l (x & E & K) F IH]; [split; reflexivity|]. cbn [sdata flat_map nhdr map list_sum fold_right length] in *. rewrite app_length. unfold sone at 1, hone at 1. rewrite E, K. unfold sdata, nhdr, list_sum in IH. cbn [length]. lia.
Qed.

(* ---- the invariant of one node ---- *)
Definition ids (n : node) : list nat := n_posted n ++ n_sending n ++ n_ackq n.
(* queues have the capacity of the ports *)
Definition consistent (c : config) : Prop := c_iqueue c = c_icap c /\ c_oqueue c = c_ocap c.
Record good (n : node) : Prop := {
  g_cfg : consistent (n_cfg n);
  g_len : length (n_recs n) = numrecs (n_cfg n);
  g_ctr : n_ctr n < length (n_recs n);
  g_occ : forall i, occ (ids n) i = if is_used (n_recs n) i then 1 else 0;
  g_isize : n_isize n = length (n_posted n);
  g_ilimit : length (n_posted n) + length (n_outq n) <= if c_inp (n_cfg n) then c_iqueue (n_cfg n) else icapacity (n_cfg n);
  g_outq : c_inp (n_cfg n) = false -> n_outq n = [];
  g_send : Forall (is_send (n_recs n)) (n_sending n);
  g_ackq : Forall (is_data (n_recs n)) (n_ackq n);
  g_data : sdata (n_recs n) (n_sending n ++ n_ackq n) = firstn (n_osize n) (n_inq n);
  g_osize : n_osize n <= length (n_inq n);
  g_inq : length (n_inq n) <= (if c_out (n_cfg n) then c_oqueue (n_cfg n) else 0);
  g_hdr : nhdr (n_recs n) (n_sending n) = if n_busy n then 1 else 0;
  g_acap : ackq_capacity (n_cfg n) = 0 -> n_ackq n = []
}.
Lemma occ_app a b i : occ (a ++ b) i = occ a i + occ b i.
Proof. apply count_occ_app. Qed.
Lemma occ_cons a l i : occ (a :: l) i = (if a =? i then 1 else 0) + occ l i.
Proof. unfold occ. cbn. destruct (Nat.eq_dec a i) as [->|Ne]; [rewrite Nat.eqb_refl; reflexivity|]. destruct (Nat.eqb_spec a i); [contradiction|reflexivity]. Qed.
Lemma occ_nil i : occ [] i = 0.
Proof. reflexivity. Qed.
Lemma occ_in l i : In i l <-> occ l i > 0.
Proof. apply count_occ_In. Qed.
Lemma good_nodup n : good n -> NoDup (ids n).
Proof. intros G. apply (NoDup_count_occ Nat.eq_dec). intros i. assert (H := g_occ n G i). unfold occ in H. rewrite H. destruct (is_used _ _); lia. Qed.
Lemma good_ids n : good n -> length (n_sending n) + length (n_ackq n) = n_osize n + (if n_busy n then 1 else 0).
Proof.
  intros G. assert (S1 := send_length _ _ (g_send n G)). destruct (data_length _ _ (g_ackq n G)) as (A1 & A2). assert (D := f_equal (@length N) (g_data n G)). rewrite sdata_app, app_length, firstn_length in D. assert (H := g_hdr n G). assert (O := g_osize n G). lia.
Qed.
Lemma take_ok n kind d x : good n -> length (ids n) < numrecs (n_cfg n) ->
  exists i ctr, take_rec n kind d x = (set_recs n (upd (n_recs n) i (mkRec true kind d x)) ctr, i) /\ i < length (n_recs n) /\ is_used (n_recs n) i = false /\ ctr < length (n_recs n) /\ ~ In i (ids n).
Proof.
  intros G L. assert (F : exists i, i < length (n_recs n) /\ is_used (n_recs n) i = false).
  { destruct (forallb (is_used (n_recs n)) (seq 0 (length (n_recs n)))) eqn:Al.
    - exfalso. rewrite forallb_forall in Al. assert (I : incl (seq 0 (length (n_recs n))) (ids n)). { intros i Hi. apply occ_in. rewrite (g_occ n G i), (Al i Hi). lia. }
      apply NoDup_incl_length in I; [|apply seq_NoDup]. rewrite seq_length, (g_len n G) in I. lia.
    - apply Bool.not_true_iff_false in Al. destruct (existsb (fun i => negb (is_used (n_recs n) i)) (seq 0 (length (n_recs n)))) eqn:Ex.
      + apply existsb_exists in Ex. destruct Ex as (i & Hi & U). apply in_seq in Hi. exists i. split; [lia|]. apply negb_true_iff. exact U.
      + exfalso. apply Al. apply forallb_forall. intros i Hi. apply Bool.not_false_iff_true. intros U. apply Bool.not_true_iff_false in Ex. apply Ex. apply existsb_exists. exists i. rewrite U. auto. }
  destruct F as (k & Hk & Uk). destruct (find_rec_ok _ (n_ctr n) k (g_ctr n G) Hk Uk) as (i & c & E & Hi & Ui & Hc). exists i, c. unfold take_rec. rewrite E. repeat split; auto. intros C. apply occ_in in C. rewrite (g_occ n G i), Ui in C. lia.
Qed.

(* ---- what a function does, seen from outside ---- *)
Definition sends (l : list act) : list packet := flat_map (fun a => match a with ASend p => [p] | _ => [] end) l.
Definition waiting (n : node) : list N := sdata (n_recs n) (n_ackq n) ++ skipn (n_osize n) (n_inq n).
Record delta (n n' : node) (a : list act) (credit cons : nat) (dl : list N) : Prop := {
  e_cfg : n_cfg n' = n_cfg n;
  e_wire : n_wire n' = n_wire n ++ sends a;
  e_data : sent a ++ waiting n' = waiting n ++ pushed a;
  e_cred : 0 < ackq_capacity (n_cfg n) -> length (sent a) + n_allowed n' = n_allowed n + credit;
  e_post : if c_ack (n_cfg n) && c_inp (n_cfg n) then credits a + n_ready n' = n_ready n + posts a else credits a = 0;
  e_posted : length (n_posted n') + cons = length (n_posted n) + posts a;
  e_del : delivered a = dl
}.
Lemma pushed_app a b : pushed (a ++ b) = pushed a ++ pushed b. Proof. apply flat_map_app. Qed.
Lemma delivered_app a b : delivered (a ++ b) = delivered a ++ delivered b. Proof. apply flat_map_app. Qed.
Lemma sent_app a b : sent (a ++ b) = sent a ++ sent b. Proof. apply flat_map_app. Qed.
Lemma sends_app a b : sends (a ++ b) = sends a ++ sends b. Proof. apply flat_map_app. Qed.
Lemma posts_app a b : posts (a ++ b) = posts a + posts b. Proof. unfold posts. rewrite flat_map_app, app_length. reflexivity. Qed.
Lemma credits_app a b : credits (a ++ b) = credits a + credits b. Proof. unfold credits. rewrite flat_map_app, list_sum_app. reflexivity. Qed.
Lemma acks_app a b : acks (a ++ b) = acks a + acks b. Proof. unfold acks. rewrite flat_map_app, app_length. reflexivity. Qed.
Lemma delta_refl n : delta n n [] 0 0 [].
Proof. split; cbn; auto; try lia; [rewrite app_nil_r; reflexivity|rewrite app_nil_r; reflexivity|destruct (_ && _); unfold credits, posts; cbn; lia]. Qed.
Lemma delta_trans n1 n2 n3 a b c1 c2 k1 k2 d1 d2 : delta n1 n2 a c1 k1 d1 -> delta n2 n3 b c2 k2 d2 -> delta n1 n3 (a ++ b) (c1 + c2) (k1 + k2) (d1 ++ d2).
Proof.
  intros [A1 A2 A3 A4 A5 A6 A7] [B1 B2 B3 B4 B5 B6 B7]. split.
  - congruence.
  - rewrite B2, A2, sends_app, app_assoc. reflexivity.
  - rewrite sent_app, pushed_app, <- app_assoc, B3, !app_assoc, A3. reflexivity.
  - intros H. rewrite sent_app, app_length. specialize (A4 H). rewrite A1 in B4. specialize (B4 H). lia.
  - rewrite credits_app, posts_app. rewrite A1 in B5. destruct (_ && _); lia.
  - rewrite posts_app. lia.
  - rewrite delivered_app. congruence.
Qed.
Lemma notin_ids n i : ~ In i (ids n) -> ~ In i (n_posted n) /\ ~ In i (n_sending n) /\ ~ In i (n_ackq n) /\ ~ In i (n_sending n ++ n_ackq n).
Proof. unfold ids. rewrite !in_app_iff. tauto. Qed.
Ltac proj := cbn [n_cfg n_recs n_ctr n_osize n_allowed n_ackq n_busy n_isize n_first n_ready n_inq n_outq n_posted n_sending n_wire set_recs set_send set_ack set_recv set_net fst snd] in *.

(* posting of one receive operation *)
Lemma num_le n : consistent (n_cfg n) -> num_can_submit n <= icapacity (n_cfg n).
Proof. intros (C & _). unfold num_can_submit, icapacity. cbv zeta. destruct (c_inp (n_cfg n)); [|destruct (c_ack _); lia]. rewrite C. destruct (c_ack _); lia. Qed.
Lemma oqueue_le n : good n -> length (n_inq n) <= ocapacity (n_cfg n).
Proof. intros G. assert (H := g_inq n G). destruct (g_cfg n G) as (_ & C). unfold ocapacity. rewrite <- C. exact H. Qed.
Lemma post_ok n : good n -> n_isize n < num_can_submit n -> exists i ctr n1,
  take_rec n KRecv 0%N 0 = (set_recs n (upd (n_recs n) i (mkRec true KRecv 0%N 0)) ctr, i)
  /\ submit_recv (set_recv (set_recs n (upd (n_recs n) i (mkRec true KRecv 0%N 0)) ctr) (n_isize n + 1) (n_outq n) (n_posted n)) i = Ok (n1, [APost])
  /\ good n1 /\ delta n (set_ack n1 (n_busy n1) (n_first n1) (n_ready n1 + 1)) [APost] 0 0 []
  /\ n_isize n1 = n_isize n + 1 /\ n_outq n1 = n_outq n /\ n_ready n1 = n_ready n /\ n_busy n1 = n_busy n /\ n_first n1 = n_first n /\ n_cfg n1 = n_cfg n.
Proof.
  intros G L. assert (Ln : length (ids n) < numrecs (n_cfg n)).
  { unfold ids. rewrite !app_length. assert (I := good_ids n G). assert (B := num_le n (g_cfg n G)). assert (Q := oqueue_le n G). assert (S0 := g_isize n G). assert (O := g_osize n G). unfold numrecs. destruct (n_busy n); lia. }
  destruct (take_ok n KRecv 0%N 0 G Ln) as (i & ctr & E & Hi & Ui & Hc & Ni). exists i, ctr. eexists. split; [exact E|]. unfold submit_recv. proj. rewrite upd_length. destruct (Nat.ltb_spec i (length (n_recs n))); [|lia]. split; [reflexivity|].
  destruct (notin_ids n i Ni) as (N1 & N2 & N3 & N4). destruct G. split; [|split; [|proj; auto 10]].
  - split; proj; auto.
    + rewrite upd_length; assumption.
    + rewrite upd_length; assumption.
    + intros j. specialize (g_occ0 j). unfold ids in *. proj. rewrite !occ_app, occ_cons, occ_nil in *. rewrite is_used_upd by exact Hi. cbn [r_used]. rewrite (Nat.eqb_sym i j). destruct (Nat.eqb_spec j i) as [->|]; [rewrite Ui in *; lia|lia].
    + rewrite app_length. cbn. lia.
    + rewrite app_length. cbn [length]. unfold num_can_submit in L. destruct (c_inp (n_cfg n)); [lia|]. rewrite g_outq0 by reflexivity. cbn [length]. lia.
    + apply is_send_upd; assumption.
    + apply is_data_upd; assumption.
    + rewrite sdata_upd by exact N4. assumption.
    + rewrite nhdr_upd by exact N2. assumption.
  - split; proj.
    + reflexivity.
    + cbn. rewrite app_nil_r; reflexivity.
    + unfold waiting. proj. rewrite sdata_upd by exact N3. cbn. rewrite app_nil_r. reflexivity.
    + intros _. cbn. lia.
    + unfold credits, posts. cbn. destruct (_ && _); [lia|reflexivity].
    + rewrite app_length. unfold posts. cbn. lia.
    + reflexivity.
Qed.
Lemma delta_ready n1 n2 a c k d m b f b' f' : delta n1 n2 a c k d -> delta (set_ack n1 b f (n_ready n1 + m)) (set_ack n2 b' f' (n_ready n2 + m)) a c k d.
Proof. intros [A1 A2 A3 A4 A5 A6 A7]. split; proj; auto. destruct (_ && _); lia. Qed.
Lemma delta_eq n1 n1' n2 a c k d : (n_cfg n1 = n_cfg n1' /\ n_wire n1 = n_wire n1' /\ waiting n1 = waiting n1' /\ n_allowed n1 = n_allowed n1' /\ n_ready n1 = n_ready n1' /\ length (n_posted n1) = length (n_posted n1')) -> delta n1 n2 a c k d -> delta n1' n2 a c k d.
Proof. intros (E1 & E2 & E3 & E4 & E5 & E6) [A1 A2 A3 A4 A5 A6 A7]. rewrite E1, E2, E3, E4, E5, E6 in *. split; auto. Qed.
Lemma fill_loop_ok fuel : forall n limit avail new out, good n -> limit = num_can_submit n -> limit < n_isize n + fuel -> exists n' k a,
  fill_loop fuel n limit avail new out = Ok (n', new + k, out ++ a) /\ good n' /\ delta n (set_ack n' (n_busy n') (n_first n') (n_ready n' + k)) a 0 0 []
  /\ (n_isize n' < limit -> c_inp (n_cfg n) = true /\ k = avail) /\ n_isize n' = n_isize n + k /\ n_outq n' = n_outq n /\ n_busy n' = n_busy n /\ n_first n' = n_first n /\ n_ready n' = n_ready n.
Proof.
  induction fuel as [|fuel IH]; intros n limit avail new out G El F.
  { exfalso. assert (S0 := g_isize n G). assert (I := g_ilimit n G). unfold num_can_submit in El. destruct (c_inp _); lia. }
  cbn [fill_loop]. destruct (Nat.ltb_spec (n_isize n) limit) as [L|L].
  - destruct (c_inp (n_cfg n) && (avail =? 0)) eqn:Av.
    + exists n, 0, []. rewrite Nat.add_0_r, app_nil_r. split; [reflexivity|]. split; [exact G|]. apply andb_true_iff in Av. destruct Av as (Av1 & Av2). apply Nat.eqb_eq in Av2. split; [|split; [auto|repeat split; auto; lia]].
      split; proj; [reflexivity|cbn; rewrite app_nil_r; reflexivity|unfold waiting; proj; cbn; rewrite app_nil_r; reflexivity|intros _; cbn; lia|unfold credits, posts; cbn; destruct (_ && _); [lia|reflexivity]|unfold posts; cbn; lia|reflexivity].
    + destruct (post_ok n G ltac:(lia)) as (i & ctr & n1 & E1 & E2 & G1 & D1 & P1 & P2 & P3 & P4 & P5 & P6). rewrite E1. proj. rewrite E2. cbn [bind]. proj.
      assert (El1 : limit = num_can_submit n1) by (unfold num_can_submit; rewrite P6, P2; exact El).
      destruct (IH n1 limit (avail - 1) (new + 1) (out ++ [APost]) G1 El1 ltac:(lia)) as (n' & k & a & E & G' & D & St & Q1 & Q2 & Q3 & Q4 & Q5). exists n', (k + 1), (APost :: a). rewrite E, <- app_assoc. split; [f_equal; f_equal; f_equal; lia|]. split; [exact G'|]. split; [|split; [|repeat split; congruence || lia]].
      * apply (delta_ready _ _ _ _ _ _ 1 (n_busy n1) (n_first n1) (n_busy n') (n_first n')) in D. proj. rewrite <- Nat.add_assoc in D. exact (delta_trans _ _ _ _ _ _ _ _ _ _ _ D1 D).
      * intros H. destruct (St H) as (S1 & S2). rewrite P6 in S1. split; [exact S1|]. rewrite S1 in Av. destruct (Nat.eqb_spec avail 0); [discriminate|]. lia.
  - exists n, 0, []. rewrite Nat.add_0_r, app_nil_r. split; [reflexivity|]. split; [exact G|]. split; [|split; [lia|repeat split; auto; lia]].
    split; proj; [reflexivity|cbn; rewrite app_nil_r; reflexivity|unfold waiting; proj; cbn; rewrite app_nil_r; reflexivity|intros _; cbn; lia|unfold credits, posts; cbn; destruct (_ && _); [lia|reflexivity]|unfold posts; cbn; lia|reflexivity].
Qed.

(* sending of an acknowledge *)
Lemma check_ok n m : good n -> exists n' a, check_ackn n m = Ok (n', a) /\ good n'
  /\ (if c_ack (n_cfg n) && c_inp (n_cfg n) then delta (set_ack n (n_busy n) (n_first n) (n_ready n + m)) n' a 0 0 [] else delta n n' a 0 0 [])
  /\ (sent a = [] /\ delivered a = [] /\ posts a = 0)
  /\ n_isize n' = n_isize n /\ n_outq n' = n_outq n /\ n_posted n' = n_posted n
  /\ (c_ack (n_cfg n) && c_inp (n_cfg n) = true -> n_busy n' = false -> n_ready n' < ack_limit n' /\ n_first n' = n_first n).
Proof.
  intros G. unfold check_ackn. destruct (c_ack (n_cfg n) && c_inp (n_cfg n)) eqn:Ai; cbn [negb].
  2:{ exists n, []. split; [reflexivity|]. split; [exact G|]. split; [apply delta_refl|]. split; [repeat split; reflexivity|]. split; [reflexivity|]. split; [reflexivity|]. split; [reflexivity|]. discriminate. }
  assert (Gs : forall b, b = n_busy n -> good (set_ack n b (n_first n) (n_ready n + m))) by (intros b ->; destruct G; split; proj; auto).
  proj. destruct (n_busy n) eqn:Bu.
  { eexists. exists []. split; [reflexivity|]. split; [apply Gs; auto|]. split; [apply delta_refl|]. split; [repeat split; reflexivity|]. proj. split; [reflexivity|]. split; [reflexivity|]. split; [reflexivity|]. discriminate. }
  assert (Lm : ack_limit (set_ack n false (n_first n) (n_ready n + m)) = ack_limit n) by (unfold ack_limit; proj; reflexivity). rewrite Lm. destruct (Nat.ltb_spec (n_ready n + m) (ack_limit n)) as [L|L].
  { eexists. exists []. split; [reflexivity|]. split; [apply Gs; auto|]. split; [apply delta_refl|]. split; [repeat split; reflexivity|]. proj. split; [reflexivity|]. split; [reflexivity|]. split; [reflexivity|]. intros _ _. rewrite Lm. auto. }
  assert (Ln : length (ids (set_ack n false (n_first n) (n_ready n + m))) < numrecs (n_cfg n)).
  { unfold ids. proj. rewrite !app_length. assert (I := good_ids n G). rewrite Bu in I. assert (Q := oqueue_le n G). assert (O := g_osize n G). assert (P : length (n_posted n) <= icapacity (n_cfg n)).
    { assert (X := g_ilimit n G). destruct (g_cfg n G) as (C & _). unfold icapacity in *. cbv zeta in *. destruct (c_inp _); [rewrite C in X; destruct (c_ack _); lia|destruct (c_ack _); lia]. }
    unfold numrecs. lia. }
  destruct (take_ok _ KHdr 0%N (ack_limit n) (Gs false eq_refl) Ln) as (i & ctr & E & Hi & Ui & Hc & Ni). proj. destruct (notin_ids _ i Ni) as (N1 & N2 & N3 & N4). proj.
  assert (E' : take_rec (set_ack n true false (n_ready n + m - ack_limit n)) KHdr 0%N (ack_limit n) = (set_recs (set_ack n true false (n_ready n + m - ack_limit n)) (upd (n_recs n) i (mkRec true KHdr 0%N (ack_limit n))) ctr, i)).
  { unfold take_rec in *. proj. destruct (find_rec _ _ _) as [[j|] c]; proj; [injection E as E1 E2 E3 | exfalso; injection E as E1 E2 E3; lia]. subst. reflexivity. }
  change (set_ack (set_ack n false (n_first n) (n_ready n + m)) true false (n_ready n + m - ack_limit n)) with (set_ack n true false (n_ready n + m - ack_limit n)). rewrite E'. unfold submit_send. proj. rewrite nth_error_upd_same by exact Hi. cbn [r_kind r_extras]. eexists. eexists. split; [reflexivity|]. destruct G. split; [|split; [|split; [repeat split; reflexivity|]]].
  - split; proj; auto.
    + rewrite upd_length; assumption.
    + rewrite upd_length; assumption.
    + intros j. specialize (g_occ0 j). unfold ids in *. proj. rewrite !occ_app, occ_cons, occ_nil in *. rewrite is_used_upd by exact Hi. cbn [r_used]. rewrite (Nat.eqb_sym i j). destruct (Nat.eqb_spec j i) as [->|]; [rewrite Ui in *; lia|lia].
    + apply Forall_app. split; [apply is_send_upd; assumption|]. constructor; [|constructor]. eexists. split; [apply nth_error_upd_same; exact Hi|]. right. reflexivity.
    + apply is_data_upd; assumption.
    + rewrite <- app_assoc, !sdata_app in *. cbn [sdata flat_map]. unfold sone. rewrite nth_error_upd_same by exact Hi. cbn [r_kind app]. fold (sdata (upd (n_recs n) i (mkRec true KHdr 0%N (ack_limit n))) (n_ackq n)). rewrite !sdata_upd by assumption. exact g_data0.
    + rewrite nhdr_app, nhdr_upd by exact N2. rewrite g_hdr0, Bu. unfold nhdr, hone. cbn [map]. rewrite nth_error_upd_same by exact Hi. reflexivity.
  - split; proj.
    + reflexivity.
    + reflexivity.
    + unfold waiting. proj. rewrite sdata_upd by exact N3. cbn. rewrite app_nil_r. reflexivity.
    + intros _. cbn. lia.
    + rewrite Ai. unfold credits, posts. cbn [flat_map list_sum fold_right app length]. lia.
    + unfold posts. cbn. lia.
    + reflexivity.
  - proj. split; [reflexivity|]. split; [reflexivity|]. split; [reflexivity|]. discriminate.
Qed.
Lemma fill_ok n avail : good n -> exists n' a, fill_recv n avail = Ok (n', a) /\ good n' /\ delta n n' a 0 0 []
  /\ (n_isize n' < num_can_submit n -> c_inp (n_cfg n) = true /\ n_isize n' = n_isize n + avail) /\ n_isize n <= n_isize n' /\ n_outq n' = n_outq n
  /\ (c_ack (n_cfg n) && c_inp (n_cfg n) = true -> n_busy n' = false -> n_ready n' < ack_limit n' /\ n_first n' = n_first n).
Proof.
  intros G. unfold fill_recv. destruct (fill_loop_ok (S (num_can_submit n)) n _ avail 0 [] G eq_refl ltac:(lia)) as (n1 & k & a & E & G1 & D & St & Q1 & Q2 & Q3 & Q4 & Q5). rewrite E. cbn [bind app]. proj.
  destruct (check_ok n1 k G1) as (n2 & b & E2 & G2 & D2 & _ & R1 & R2 & R3 & R4). rewrite Nat.add_0_l, E2. cbn [bind]. proj. exists n2, (a ++ b). split; [reflexivity|]. split; [exact G2|]. assert (Ec : n_cfg n1 = n_cfg n) by (assert (X := e_cfg _ _ _ _ _ _ D); proj; exact X). rewrite Ec in *.
  split; [|split; [|split; [lia|split; [congruence|]]]].
  - destruct (c_ack (n_cfg n) && c_inp (n_cfg n)) eqn:Ai; [exact (delta_trans _ _ _ _ _ _ _ _ _ _ _ D D2)|].
    assert (D' : delta n n1 a 0 0 []) by (destruct D as [A1 A2 A3 A4 A5 A6 A7]; rewrite Ai in A5; split; proj; auto; rewrite Ai; exact A5). exact (delta_trans _ _ _ _ _ _ _ _ _ _ _ D' D2).
  - intros H. destruct (St ltac:(lia)) as (S1 & S2). split; [exact S1|lia].
  - intros H1 H2. destruct (R4 H1 H2) as (R5 & R6). split; [exact R5|congruence].
Qed.

(* ---- sending ---- *)
Ltac trace0 := solve [reflexivity | cbn; rewrite app_nil_r; reflexivity | intros _; cbn; lia | intros; lia | unfold credits, posts; cbn; destruct (_ && _); [lia|reflexivity] | unfold posts; cbn; lia].
Definition same_recv (n n' : node) : Prop :=
  n_isize n' = n_isize n /\ n_outq n' = n_outq n /\ n_posted n' = n_posted n /\ n_busy n' = n_busy n /\ n_ready n' = n_ready n /\ n_first n' = n_first n.
Lemma same_trans a b c : same_recv a b -> same_recv b c -> same_recv a c.
Proof. unfold same_recv. intuition congruence. Qed.
Lemma allowed_step n i q : good n -> n_ackq n = i :: q -> 0 < n_allowed n -> exists n' d,
  submit_send (set_send n (n_osize n) (n_allowed n - 1) q (n_inq n)) i = Ok (n', [ASend (PData d)]) /\ good n' /\ delta n n' [ASend (PData d)] 0 0 []
  /\ n_ackq n' = q /\ n_osize n' = n_osize n /\ n_inq n' = n_inq n /\ n_allowed n' = n_allowed n - 1 /\ same_recv n n'.
Proof.
  intros G Eq Al. unfold submit_send. proj. assert (Hd := g_ackq n G). rewrite Eq in Hd. inversion Hd as [|? ? (x & Ex & Kx) Hq]; subst. rewrite Ex, Kx. eexists. exists (r_data x). split; [reflexivity|]. assert (So : sone (n_recs n) i = [r_data x]) by (unfold sone; rewrite Ex, Kx; reflexivity). destruct G. split; [|split; [|unfold same_recv; proj; auto 12]].
  - split; proj; auto.
    + intros j. specialize (g_occ0 j). unfold ids in *. proj. rewrite Eq in *. rewrite !occ_app, occ_cons, occ_nil in *. lia.
    + apply Forall_app. split; [assumption|]. constructor; [|constructor]. exists x. auto.
    + rewrite Eq in g_data0. rewrite <- app_assoc. exact g_data0.
    + rewrite nhdr_app. unfold nhdr at 2. cbn [map list_sum fold_right]. unfold hone. rewrite Ex, Kx. lia.
    + intros C. specialize (g_acap0 C). congruence.
  - split; proj.
    + reflexivity.
    + reflexivity.
    + unfold waiting. proj. rewrite Eq. cbn [sdata flat_map]. fold (sdata (n_recs n) q). rewrite So. cbn. rewrite app_nil_r. reflexivity.
    + intros _. cbn. lia.
    + unfold credits, posts. cbn. destruct (_ && _); [lia|reflexivity].
    + unfold posts. cbn. lia.
    + reflexivity.
Qed.
Lemma allowed_ok fuel : forall n out, good n -> length (n_ackq n) < fuel -> exists n' a,
  submit_allowed fuel n out = Ok (n', out ++ a) /\ good n' /\ delta n n' a 0 0 [] /\ (n_ackq n' = [] \/ n_allowed n' = 0) /\ n_osize n' = n_osize n /\ n_inq n' = n_inq n /\ same_recv n n'.
Proof.
  induction fuel as [|fuel IH]; intros n out G L; [lia|]. cbn [submit_allowed]. assert (Re : same_recv n n) by (unfold same_recv; auto 10). destruct (n_ackq n) as [|i q] eqn:Eq.
  - exists n, []. rewrite app_nil_r. split; [reflexivity|]. split; [exact G|]. split; [apply delta_refl|]. auto.
  - destruct (Nat.ltb_spec 0 (n_allowed n)) as [A|A].
    + destruct (allowed_step n i q G Eq A) as (n1 & d & E1 & G1 & D1 & Q1 & Q2 & Q3 & Q4 & S1). rewrite E1. cbn [bind]. proj. destruct (IH n1 (out ++ [ASend (PData d)]) G1) as (n2 & a & E2 & G2 & D2 & F & R1 & R2 & S2); [rewrite Q1; cbn in L; lia|].
      exists n2, (ASend (PData d) :: a). rewrite E2, <- app_assoc. split; [reflexivity|]. split; [exact G2|]. split; [exact (delta_trans _ _ _ _ _ _ _ _ _ _ _ D1 D2)|]. split; [exact F|]. split; [congruence|]. split; [congruence|]. eapply same_trans; eassumption.
    + exists n, []. rewrite app_nil_r. split; [reflexivity|]. split; [exact G|]. split; [apply delta_refl|]. split; [right; lia|auto].
Qed.
Lemma all_ok n : good n -> exists n' a, submit_all n = Ok (n', a) /\ good n' /\ delta n n' a 0 0 [] /\ (n_ackq n' = [] \/ n_allowed n' = 0) /\ n_osize n' = n_osize n /\ n_inq n' = n_inq n /\ same_recv n n'.
Proof. intros G. unfold submit_all. destruct (allowed_ok (S (length (n_ackq n))) n [] G ltac:(lia)) as (n' & a & H). exists n', a. exact H. Qed.

Lemma skipn_nth {A} (l : list A) : forall k d, nth_error l k = Some d -> skipn k l = d :: skipn (k + 1) l.
Proof. induction l as [|x l IH]; intros [|k] d H; try discriminate; cbn in *; [injection H as ->; reflexivity|]. apply IH. exact H. Qed.
Lemma firstn_nth {A} (l : list A) : forall k d, nth_error l k = Some d -> firstn (k + 1) l = firstn k l ++ [d].
Proof. induction l as [|x l IH]; intros [|k] d H; try discriminate; cbn in *; [injection H as ->; reflexivity|]. f_equal. apply IH. exact H. Qed.
Lemma input_ok fuel : forall n out, good n -> length (n_inq n) < n_osize n + fuel -> exists n' a,
  input_loop fuel n out = Ok (n', out ++ a) /\ good n' /\ delta n n' a 0 0 [] /\ n_osize n' = length (n_inq n') /\ n_inq n' = n_inq n /\ same_recv n n'.
Proof.
  induction fuel as [|fuel IH]; intros n out G L; [assert (O := g_osize n G); lia|]. cbn [input_loop]. assert (Re : same_recv n n) by (unfold same_recv; auto 10). destruct (nth_error (n_inq n) (n_osize n)) as [d|] eqn:En.
  2:{ exists n, []. rewrite app_nil_r. split; [reflexivity|]. split; [exact G|]. split; [apply delta_refl|]. apply nth_error_None in En. assert (O := g_osize n G). split; [lia|auto]. }
  assert (Lt : n_osize n < length (n_inq n)) by (apply nth_error_Some; congruence). assert (Qc := oqueue_le n G). assert (I := good_ids n G).
  assert (Ln : length (ids n) < numrecs (n_cfg n)).
  { unfold ids. rewrite !app_length. assert (P : length (n_posted n) <= icapacity (n_cfg n)).
    { assert (X := g_ilimit n G). destruct (g_cfg n G) as (C & _). unfold icapacity in *. cbv zeta in *. destruct (c_inp _); [rewrite C in X; destruct (c_ack _); lia|destruct (c_ack _); lia]. }
    unfold numrecs. destruct (n_busy n); lia. }
  destruct (take_ok n KSend d 0 G Ln) as (i & ctr & E & Hi & Ui & Hc & Ni). rewrite E. cbn [n_recs set_recs]. rewrite upd_length. destruct (Nat.eqb_spec i (length (n_recs n))); [lia|]. destruct (notin_ids n i Ni) as (N1 & N2 & N3 & N4).
  set (x := mkRec true KSend d 0). assert (Nx : nth_error (upd (n_recs n) i x) i = Some x) by (apply nth_error_upd_same; exact Hi). assert (So : sone (upd (n_recs n) i x) i = [d]) by (unfold sone; rewrite Nx; reflexivity).
  proj. destruct (Nat.ltb_spec 0 (ackq_capacity (n_cfg n))) as [Ac|Ac].
  - destruct (Nat.ltb_spec (length (n_ackq n)) (ackq_capacity (n_cfg n))) as [Room|Room].
    2:{ exfalso. assert (B : length (n_ackq n) <= n_osize n) by (destruct (data_length _ _ (g_ackq n G)) as (A1 & _); assert (D := f_equal (@length N) (g_data n G)); rewrite sdata_app, app_length, firstn_length in D; lia). unfold ackq_capacity in *. destruct (c_inp (n_cfg n) && c_ack (n_cfg n)); lia. }
    set (n1 := set_send (set_send (set_recs n (upd (n_recs n) i x) ctr) (n_osize n + 1) (n_allowed n) (n_ackq n) (n_inq n)) (n_osize n + 1) (n_allowed n) (n_ackq n ++ [i]) (n_inq n)).
    assert (G1 : good n1).
    { destruct G. unfold n1. split; proj; auto.
      + rewrite upd_length; assumption.
      + rewrite upd_length; assumption.
      + intros j. specialize (g_occ0 j). unfold ids in *. proj. rewrite !occ_app, occ_cons, occ_nil in *. rewrite is_used_upd by exact Hi. cbn [r_used x]. rewrite (Nat.eqb_sym i j). destruct (Nat.eqb_spec j i) as [->|]; [rewrite Ui in *; lia|lia].
      + apply is_send_upd; assumption.
      + apply Forall_app. split; [apply is_data_upd; assumption|]. constructor; [|constructor]. exists x. auto.
      + rewrite app_assoc, sdata_app, sdata_upd by exact N4. rewrite g_data0. cbn [sdata flat_map]. rewrite So, app_nil_r. symmetry. apply firstn_nth. exact En.
      + lia.
      + rewrite nhdr_upd by exact N2. assumption.
      + intros C. lia. }
    assert (D1 : delta n n1 [] 0 0 []).
    { unfold n1. split; proj; try trace0.
      + unfold waiting. proj. rewrite sdata_app, sdata_upd by exact N3. cbn [sdata flat_map]. rewrite So, app_nil_r. rewrite (skipn_nth _ _ _ En). cbn. rewrite app_nil_r, <- app_assoc. reflexivity. }
    destruct (IH n1 out G1) as (n2 & a & E2 & G2 & D2 & O2 & Q2 & S2); [unfold n1; proj; lia|]. exists n2, a. split; [exact E2|]. split; [exact G2|]. split; [exact (delta_trans _ _ _ _ _ _ _ _ _ _ _ D1 D2)|]. split; [exact O2|]. split; [rewrite Q2; reflexivity|]. eapply same_trans; [|exact S2]. unfold same_recv, n1. proj. auto 10.
  - assert (Z : n_ackq n = []) by (apply (g_acap n G); lia). unfold submit_send. proj. rewrite Nx. cbn [r_kind r_data x bind]. proj.
    set (n1 := set_net (set_send (set_recs n (upd (n_recs n) i x) ctr) (n_osize n + 1) (n_allowed n) (n_ackq n) (n_inq n)) (n_sending n ++ [i]) (n_wire n ++ [PData d])).
    assert (G1 : good n1).
    { destruct G. unfold n1. split; proj; auto.
      + rewrite upd_length; assumption.
      + rewrite upd_length; assumption.
      + intros j. specialize (g_occ0 j). unfold ids in *. proj. rewrite !occ_app, occ_cons, occ_nil in *. rewrite is_used_upd by exact Hi. cbn [r_used x]. rewrite (Nat.eqb_sym i j). destruct (Nat.eqb_spec j i) as [->|]; [rewrite Ui in *; lia|lia].
      + apply Forall_app. split; [apply is_send_upd; assumption|]. constructor; [|constructor]. exists x. auto.
      + apply is_data_upd; assumption.
      + rewrite Z, app_nil_r in *. rewrite sdata_app, sdata_upd by exact N2. rewrite g_data0. cbn [sdata flat_map]. rewrite So, app_nil_r. symmetry. apply firstn_nth. exact En.
      + lia.
      + rewrite nhdr_app, nhdr_upd by exact N2. unfold nhdr at 2, hone. cbn [map]. rewrite Nx. cbn. lia. }
    assert (D1 : delta n n1 [ASend (PData d)] 0 0 []).
    { unfold n1. split; proj; try trace0.
      + unfold waiting. proj. rewrite Z. cbn [sdata flat_map app]. rewrite (skipn_nth _ _ _ En). cbn. rewrite app_nil_r. reflexivity. }
    destruct (IH n1 (out ++ [ASend (PData d)]) G1) as (n2 & a & E2 & G2 & D2 & O2 & Q2 & S2); [unfold n1; proj; lia|]. exists n2, (ASend (PData d) :: a). rewrite E2, <- app_assoc. split; [reflexivity|]. split; [exact G2|]. split; [exact (delta_trans _ _ _ _ _ _ _ _ _ _ _ D1 D2)|]. split; [exact O2|]. split; [rewrite Q2; reflexivity|]. eapply same_trans; [|exact S2]. unfold same_recv, n1. proj. auto 10.
Qed.
Lemma process_input_ok n : good n -> exists n' a, process_input n = Ok (n', a) /\ good n' /\ delta n n' a 0 0 []
  /\ (n_ackq n' = [] \/ n_allowed n' = 0) /\ n_osize n' = length (n_inq n') /\ n_inq n' = n_inq n /\ same_recv n n'.
Proof.
  intros G. unfold process_input. destruct (input_ok (S (length (n_inq n) - n_osize n)) n [] G) as (n1 & a & E1 & G1 & D1 & O1 & Q1 & S1); [assert (O := g_osize n G); lia|]. rewrite E1. cbn [bind app]. proj.
  destruct (all_ok n1 G1) as (n2 & b & E2 & G2 & D2 & F & O2 & Q2 & S2). rewrite E2. cbn [bind]. proj. exists n2, (a ++ b). split; [reflexivity|]. split; [exact G2|]. split; [exact (delta_trans _ _ _ _ _ _ _ _ _ _ _ D1 D2)|]. split; [exact F|]. split; [congruence|]. split; [congruence|]. eapply same_trans; eassumption.
Qed.

(* ---- completion ---- *)
Lemma release_eq n i : release_rec n i = match nth_error (n_recs n) i with Some x => set_recs n (upd (n_recs n) i (mkRec false (r_kind x) 0%N (r_extras x))) (n_ctr n) | None => n end.
Proof. reflexivity. Qed.
Lemma process_sent_ok n : good n -> exists n' a, process_sent n = Ok (n', a) /\ good n' /\ delta n n' a 0 0 [].
Proof.
  intros G. unfold process_sent. destruct (n_sending n) as [|i s] eqn:Es; [exists n, []; split; [reflexivity|]; split; [exact G|apply delta_refl]|]. proj.
  assert (Hs := g_send n G). rewrite Es in Hs. inversion Hs as [|? ? (x & Ex & Kx) Hs']; subst. rewrite Ex. assert (Nd := good_nodup n G). unfold ids in Nd. rewrite Es in Nd.
  assert (Ni : ~ In i (n_posted n) /\ ~ In i s /\ ~ In i (n_ackq n)).
  { apply NoDup_app_iff in Nd. destruct Nd as (_ & Nd & Nd2). cbn [app] in Nd. inversion Nd as [|? ? Na _]; subst. rewrite in_app_iff in Na. split; [|tauto]. intros C. apply (Nd2 i C). left. reflexivity. }
  destruct Ni as (N1 & N2 & N3). assert (N4 : ~ In i (s ++ n_ackq n)) by (rewrite in_app_iff; tauto). assert (Hi : i < length (n_recs n)) by (apply nth_error_Some; congruence).
  assert (Dt := g_data n G). rewrite Es in Dt. cbn [app sdata flat_map] in Dt. fold (sdata (n_recs n) (s ++ n_ackq n)) in Dt. assert (Hh := g_hdr n G). rewrite Es in Hh. unfold nhdr in Hh. cbn [map list_sum fold_right] in Hh. fold (list_sum (map (hone (n_recs n)) s)) in Hh. fold (nhdr (n_recs n) s) in Hh.
  assert (Oc : forall y, r_used y = false -> forall j, occ (n_posted n ++ s ++ n_ackq n) j = if is_used (upd (n_recs n) i y) j then 1 else 0).
  { intros y Uy j. assert (H := g_occ n G j). unfold ids in H. rewrite Es in H. cbn [app] in H. rewrite !occ_app in *. rewrite occ_cons, !occ_app in H. rewrite is_used_upd by exact Hi. rewrite (Nat.eqb_sym i j) in H. destruct (Nat.eqb_spec j i) as [Ej|_]; [rewrite Uy|]; destruct (is_used (n_recs n) j); lia. }
  destruct Kx as [Kx|Kx]; rewrite Kx.
  - unfold sone in Dt. rewrite Ex, Kx in Dt. assert (O := g_osize n G). destruct (n_inq n) as [|d q] eqn:Eq; [rewrite firstn_nil in Dt; discriminate|]. eexists. exists []. split; [reflexivity|]. rewrite release_eq. proj. rewrite Ex. proj.
    destruct (n_osize n) as [|o] eqn:Eo; [discriminate|]. cbn [firstn app] in Dt. injection Dt as Dx Dt. cbn [length] in O.
    assert (H0 : hone (n_recs n) i = 0) by (unfold hone; rewrite Ex, Kx; reflexivity). destruct G. split.
    + split; proj; auto.
      * rewrite upd_length; assumption.
      * rewrite upd_length; assumption.
      * apply is_send_upd; assumption.
      * apply is_data_upd; assumption.
      * rewrite sdata_upd by exact N4. replace (S o - 1) with o by lia. exact Dt.
      * lia.
      * rewrite Eq in g_inq0. cbn [length] in g_inq0. lia.
      * rewrite nhdr_upd by exact N2. lia.
    + split; proj.
      * reflexivity.
      * cbn. rewrite app_nil_r. reflexivity.
      * unfold waiting. proj. rewrite sdata_upd by exact N3. rewrite Eo, Eq. cbn [skipn]. replace (S o - 1) with o by lia. cbn. rewrite app_nil_r. reflexivity.
      * intros _. cbn. lia.
      * unfold credits, posts. cbn. destruct (_ && _); [lia|reflexivity].
      * unfold posts. cbn. lia.
      * reflexivity.
  - unfold sone in Dt. rewrite Ex, Kx in Dt. cbn [app] in Dt. assert (H1 : hone (n_recs n) i = 1) by (unfold hone; rewrite Ex, Kx; reflexivity). rewrite release_eq. proj. rewrite Ex. proj.
    set (n1 := set_recs (set_ack (set_net n s (n_wire n)) false (n_first n) (n_ready n)) (upd (n_recs n) i (mkRec false (r_kind x) 0%N (r_extras x))) (n_ctr n)).
    assert (G1 : good n1).
    { destruct G. unfold n1. split; proj; auto.
      * rewrite upd_length; assumption.
      * rewrite upd_length; assumption.
      * apply is_send_upd; assumption.
      * apply is_data_upd; assumption.
      * rewrite sdata_upd by exact N4. exact Dt.
      * rewrite nhdr_upd by exact N2. destruct (n_busy n); lia. }
    assert (D1 : delta n n1 [] 0 0 []).
    { unfold n1. split; proj; try trace0.
      * unfold waiting. proj. rewrite sdata_upd by exact N3. cbn. rewrite app_nil_r. reflexivity. }
    destruct (check_ok n1 0 G1) as (n2 & b & E2 & G2 & D2 & _). exists n2, b. split; [exact E2|]. split; [exact G2|]. change b with ([] ++ b). refine (delta_trans _ _ _ _ _ _ _ _ _ _ _ D1 _). destruct (c_ack (n_cfg n1) && c_inp (n_cfg n1)); [|exact D2]. eapply delta_eq; [|exact D2]. proj. unfold waiting. proj. rewrite Nat.add_0_r. auto 10.
Qed.

(* ---- receiving ---- *)
Lemma consume_ok n i ps q : good n -> n_posted n = i :: ps -> (q = n_outq n \/ exists d, q = n_outq n ++ [d] /\ c_inp (n_cfg n) = true) ->
  let n' := release_rec (set_recv n (n_isize n - 1) q ps) i in good n' /\ delta n n' [] 0 1 [] /\ n_outq n' = q /\ n_isize n' = n_isize n - 1 /\ n_ready n' = n_ready n /\ n_cfg n' = n_cfg n.
Proof.
  intros G Ep Hq. cbv zeta. assert (Nd := good_nodup n G). unfold ids in Nd. rewrite Ep in Nd. cbn [app] in Nd. inversion Nd as [|? ? Na _]; subst. rewrite !in_app_iff in Na.
  assert (U : is_used (n_recs n) i = true). { assert (H := g_occ n G i). unfold ids in H. rewrite Ep in H. cbn [app] in H. rewrite occ_cons, Nat.eqb_refl in H. destruct (is_used (n_recs n) i); [reflexivity|lia]. }
  assert (Hi := is_used_lt _ _ U). destruct (nth_error (n_recs n) i) as [x|] eqn:Ex; [|apply nth_error_None in Ex; lia]. rewrite release_eq. proj. rewrite Ex. proj.
  assert (N2 : ~ In i (n_sending n)) by tauto. assert (N3 : ~ In i (n_ackq n)) by tauto. assert (N4 : ~ In i (n_sending n ++ n_ackq n)) by (rewrite in_app_iff; tauto).
  assert (Lq : length q <= S (length (n_outq n))) by (destruct Hq as [-> |(d & -> & _)]; [lia|rewrite app_length; cbn; lia]). destruct G. split; [|split; [|auto]].
  - split; proj; auto.
    + rewrite upd_length; assumption.
    + rewrite upd_length; assumption.
    + intros j. specialize (g_occ0 j). unfold ids in *. proj. rewrite Ep in g_occ0. cbn [app] in g_occ0. rewrite occ_cons, (Nat.eqb_sym i j) in g_occ0. rewrite is_used_upd by exact Hi. cbn [r_used]. destruct (Nat.eqb_spec j i) as [Ej|_]; [rewrite Ej in *; rewrite U in g_occ0; lia|destruct (is_used (n_recs n) j); lia].
    + rewrite Ep in g_isize0. cbn [length] in g_isize0. lia.
    + rewrite Ep in g_ilimit0. cbn [length] in g_ilimit0. lia.
    + intros C. destruct Hq as [-> |(d & _ & F)]; [auto|congruence].
    + apply is_send_upd; assumption.
    + apply is_data_upd; assumption.
    + rewrite sdata_upd by exact N4. assumption.
    + rewrite nhdr_upd by exact N2. assumption.
  - split; proj; try trace0.
    + unfold waiting. proj. rewrite sdata_upd by exact N3. cbn. rewrite app_nil_r. reflexivity.
    + rewrite Ep. unfold posts. cbn. lia.
Qed.
Lemma recv_ack_ok n c k : good n -> n_posted n <> [] -> exists n' a, process_recv n (PAck c) k = Ok (n', a) /\ good n' /\ delta n n' a c 1 [].
Proof.
  intros G Np. unfold process_recv. destruct (n_posted n) as [|i ps] eqn:Ep; [contradiction|]. set (n0 := set_send n (n_osize n) (n_allowed n + c) (n_ackq n) (n_inq n)).
  assert (G0 : good n0) by (destruct G; unfold n0; split; proj; auto).
  assert (D0 : delta n n0 [] c 0 []) by (unfold n0; split; proj; try trace0; unfold waiting; proj; cbn; rewrite app_nil_r; reflexivity).
  destruct (all_ok n0 G0) as (n1 & a & E1 & G1 & D1 & _ & _ & _ & S1). rewrite E1. cbn [bind]. proj. destruct S1 as (S1 & S2 & S3 & _).
  assert (Ep1 : n_posted n1 = i :: ps) by (rewrite S3; unfold n0; proj; exact Ep). destruct (consume_ok n1 i ps (n_outq n1) G1 Ep1 (or_introl eq_refl)) as (G2 & D2 & _). set (n2 := release_rec (set_recv n1 (n_isize n1 - 1) (n_outq n1) ps) i) in *.
  destruct (fill_ok n2 (1 + k) G2) as (n3 & b & E3 & G3 & D3 & _). rewrite E3. cbn [bind]. proj. exists n3, (a ++ b). split; [reflexivity|]. split; [exact G3|].
  assert (X := delta_trans _ _ _ _ _ _ _ _ _ _ _ D0 (delta_trans _ _ _ _ _ _ _ _ _ _ _ D1 (delta_trans _ _ _ _ _ _ _ _ _ _ _ D2 D3))). cbn [app] in X. rewrite !Nat.add_0_r in X. exact X.
Qed.
Lemma recv_data_ok n d k : good n -> n_posted n <> [] -> c_inp (n_cfg n) = true -> exists n', process_recv n (PData d) k = Ok (n', [ADeliver d]) /\ good n' /\ delta n n' [ADeliver d] 0 1 [d].
Proof.
  intros G Np Ci. unfold process_recv. destruct (n_posted n) as [|i ps] eqn:Ep; [contradiction|]. rewrite Ci. cbn [negb]. assert (I := g_ilimit n G). rewrite Ci, Ep in I. cbn [length] in I. destruct (Nat.ltb_spec (length (n_outq n)) (c_iqueue (n_cfg n))); [|lia].
  destruct (consume_ok n i ps (n_outq n ++ [d]) G Ep) as (G2 & D2 & _); [right; exists d; auto|]. eexists. split; [reflexivity|]. split; [exact G2|]. destruct D2 as [A1 A2 A3 A4 A5 A6 A7]. split; auto.
Qed.

(* ---- nothing but the user pushes ---- *)
Lemma submit_send_pushed n i r : submit_send n i = Ok r -> pushed (snd r) = [].
Proof. unfold submit_send. destruct (nth_error _ _) as [x|]; [|discriminate]. intros H. injection H as <-. destruct (r_kind x); reflexivity. Qed.
Lemma submit_recv_pushed n i r : submit_recv n i = Ok r -> pushed (snd r) = [].
Proof. unfold submit_recv. destruct (_ <? _); [|discriminate]. intros H. injection H as <-. reflexivity. Qed.
Lemma check_pushed n m r : check_ackn n m = Ok r -> pushed (snd r) = [].
Proof.
  unfold check_ackn. destruct (negb _); [intros H; injection H as <-; reflexivity|]. cbv zeta. destruct (n_busy _); [intros H; injection H as <-; reflexivity|]. destruct (_ <? _); [intros H; injection H as <-; reflexivity|]. destruct (take_rec _ _ _ _) as [n1 i]. apply submit_send_pushed.
Qed.
Lemma fill_loop_pushed fuel : forall n l av new out r, fill_loop fuel n l av new out = Ok r -> pushed (snd r) = pushed out.
Proof.
  induction fuel as [|fuel IH]; intros n l av new out r H; [discriminate|]. cbn [fill_loop] in H. destruct (_ <? _); [|injection H as <-; reflexivity]. destruct (_ && _); [injection H as <-; reflexivity|]. destruct (take_rec _ _ _ _) as [n1 i]. destruct (submit_recv _ _) as [q| |] eqn:E; try discriminate. cbn [bind] in H. apply IH in H. rewrite H, pushed_app, (submit_recv_pushed _ _ _ E), app_nil_r. reflexivity.
Qed.
Lemma fill_pushed n k r : fill_recv n k = Ok r -> pushed (snd r) = [].
Proof.
  unfold fill_recv. intros H. destruct (fill_loop _ _ _ _ _ _) as [q| |] eqn:E; try discriminate. cbn [bind] in H. destruct (check_ackn _ _) as [q2| |] eqn:E2; try discriminate. cbn [bind] in H. injection H as <-. cbn [snd]. rewrite pushed_app, (fill_loop_pushed _ _ _ _ _ _ _ E), (check_pushed _ _ _ E2). reflexivity.
Qed.
Lemma allowed_pushed fuel : forall n out r, submit_allowed fuel n out = Ok r -> pushed (snd r) = pushed out.
Proof.
  induction fuel as [|fuel IH]; intros n out r H; [discriminate|]. cbn [submit_allowed] in H. destruct (n_ackq n) as [|i q]; [injection H as <-; reflexivity|]. destruct (_ <? _); [|injection H as <-; reflexivity]. destruct (submit_send _ _) as [x| |] eqn:E; try discriminate. cbn [bind] in H. apply IH in H. rewrite H, pushed_app, (submit_send_pushed _ _ _ E), app_nil_r. reflexivity.
Qed.
Lemma recv_pushed n p k r : process_recv n p k = Ok r -> pushed (snd r) = [].
Proof.
  unfold process_recv. destruct (n_posted n) as [|i ps]; [intros H; injection H as <-; reflexivity|]. destruct p as [d|c].
  - destruct (negb _); [discriminate|]. destruct (_ <? _); intros H; injection H as <-; reflexivity.
  - intros H. unfold submit_all in H. destruct (submit_allowed _ _ _) as [q| |] eqn:E; try discriminate. cbn [bind] in H. destruct (fill_recv _ _) as [q2| |] eqn:E2; try discriminate. cbn [bind] in H. injection H as <-. cbn [snd]. rewrite pushed_app, (allowed_pushed _ _ _ _ E), (fill_pushed _ _ _ E2). reflexivity.
Qed.
Lemma sent_pushed n r : process_sent n = Ok r -> pushed (snd r) = [].
Proof.
  unfold process_sent. destruct (n_sending n) as [|i s]; [intros H; injection H as <-; reflexivity|]. cbv zeta. proj. destruct (nth_error _ _) as [x|]; [|discriminate]. destruct (r_kind x); try (intros H; injection H as <-; reflexivity); [|apply check_pushed]. destruct (n_inq n); [discriminate|]. intros H; injection H as <-; reflexivity.
Qed.

Lemma input_loop_pushed fuel : forall n out r, input_loop fuel n out = Ok r -> pushed (snd r) = pushed out.
Proof.
  induction fuel as [|fuel IH]; intros n out r H; [discriminate|]. cbn [input_loop] in H. destruct (nth_error _ _) as [d|]; [|injection H as <-; reflexivity]. destruct (take_rec _ _ _ _) as [n1 i]. destruct (_ =? _); [discriminate|]. cbv zeta in H. destruct (0 <? _).
  - destruct (_ <? _); [|discriminate]. apply IH in H. exact H.
  - destruct (submit_send _ _) as [x| |] eqn:E; try discriminate. cbn [bind] in H. apply IH in H. rewrite H, pushed_app, (submit_send_pushed _ _ _ E), app_nil_r. reflexivity.
Qed.
Lemma input_pushed n r : process_input n = Ok r -> pushed (snd r) = [].
Proof.
  unfold process_input, submit_all. intros H. destruct (input_loop _ _ _) as [q| |] eqn:E; try discriminate. cbn [bind] in H. destruct (submit_allowed _ _ _) as [q2| |] eqn:E2; try discriminate. cbn [bind] in H. injection H as <-. cbn [snd]. rewrite pushed_app, (input_loop_pushed _ _ _ _ E), (allowed_pushed _ _ _ _ E2). reflexivity.
Qed.

(* ---- one event ---- *)
Definition wdata (w : list packet) : list N := flat_map (fun p => match p with PData d => [d] | _ => [] end) w.
Definition wcred (w : list packet) : nat := list_sum (flat_map (fun p => match p with PAck c => [c] | _ => [] end) w).
Definition wacks (w : list packet) : nat := length (flat_map (fun p => match p with PAck c => [c] | _ => [] end) w).
Definition taken (from w : list packet) (credit cons : nat) (dl : list N) : Prop :=
  (w = from /\ credit = 0 /\ cons = 0 /\ dl = []) \/ (from = PAck credit :: w /\ cons = 1 /\ dl = []) \/ (exists d, from = PData d :: w /\ credit = 0 /\ cons = 1 /\ dl = [d]).
Lemma push_ok n d : good n -> c_out (n_cfg n) = true -> length (n_inq n) < c_oqueue (n_cfg n) ->
  let n' := set_send n (n_osize n) (n_allowed n) (n_ackq n) (n_inq n ++ [d]) in good n' /\ delta n n' [APush d] 0 0 [].
Proof.
  intros G Co L. cbv zeta. assert (O := g_osize n G). destruct G. split.
  - split; proj; auto.
    + rewrite firstn_app. replace (n_osize n - length (n_inq n)) with 0 by lia. cbn [firstn]. rewrite app_nil_r. exact g_data0.
    + rewrite app_length. lia.
    + rewrite app_length, Co. cbn [length]. lia.
  - split; proj; try trace0. unfold waiting. proj. rewrite skipn_app. replace (n_osize n - length (n_inq n)) with 0 by lia. cbn [skipn]. cbn. rewrite app_assoc. reflexivity.
Qed.
Lemma tail_ok n : good n -> let n' := set_recv n (n_isize n) (tl (n_outq n)) (n_posted n) in good n' /\ delta n n' [] 0 0 [].
Proof.
  intros G. cbv zeta. destruct G. split.
  - split; proj; auto.
    + destruct (n_outq n) as [|x q]; cbn [tl length] in *; [assumption|]. lia.
    + intros C. rewrite g_outq0 by exact C. reflexivity.
  - split; proj; try trace0.
Qed.
Lemma node_step_ok n from e : good n -> (wdata from <> [] -> c_inp (n_cfg n) = true) -> exists n' w a credit cons dl,
  node_step n from e = Ok (n', w, a) /\ good n' /\ delta n n' a credit cons dl /\ taken from w credit cons dl /\ (ocapacity (n_cfg n) = 0 -> pushed a = []).
Proof.
  intros G Wi. assert (T0 : taken from from 0 0 []) by (left; auto). destruct e as [d| | |k| |k]; cbn [node_step].
  - destruct (c_out (n_cfg n)) eqn:Co; cbn [andb].
    2:{ exists n, from, [], 0, 0, []. split; [reflexivity|]. split; [exact G|]. split; [apply delta_refl|auto]. }
    destruct (Nat.ltb_spec (length (n_inq n)) (c_oqueue (n_cfg n))).
    + destruct (push_ok n d G Co H) as (G1 & D1). eexists _, from, _, 0, 0, []. split; [reflexivity|]. split; [exact G1|]. split; [exact D1|]. split; [exact T0|]. intros Z. exfalso. unfold ocapacity in Z. rewrite Co in Z. destruct (g_cfg n G). lia.
    + exists n, from, [], 0, 0, []. split; [reflexivity|]. split; [exact G|]. split; [apply delta_refl|auto].
  - destruct (c_out (n_cfg n)) eqn:Co.
    + destruct (process_input_ok n G) as (n' & a & E & G1 & D1 & _). rewrite E. cbn [bind]. proj. exists n', from, a, 0, 0, []. split; [reflexivity|]. split; [exact G1|]. split; [exact D1|]. split; [exact T0|]. intros _. exact (input_pushed _ _ E).
    + exists n, from, [], 0, 0, []. split; [reflexivity|]. split; [exact G|]. split; [apply delta_refl|auto].
  - destruct (tail_ok n G) as (G1 & D1). eexists _, from, _, 0, 0, []. split; [reflexivity|]. split; [exact G1|]. split; [exact D1|]. auto.
  - destruct (fill_ok n k G) as (n' & a & E & G1 & D1 & _). assert (P := fill_pushed _ _ _ E). rewrite E. cbn [bind]. proj. exists n', from, a, 0, 0, []. split; [reflexivity|]. split; [exact G1|]. split; [exact D1|]. auto.
  - destruct (process_sent_ok n G) as (n' & a & E & G1 & D1). assert (P := sent_pushed _ _ E). rewrite E. cbn [bind]. proj. exists n', from, a, 0, 0, []. split; [reflexivity|]. split; [exact G1|]. split; [exact D1|]. auto.
  - destruct from as [|p w]; [exists n, [], [], 0, 0, []; split; [reflexivity|]; split; [exact G|]; split; [apply delta_refl|auto]|].
    destruct (n_posted n) as [|i ps] eqn:Ep; [exists n, (p :: w), [], 0, 0, []; split; [reflexivity|]; split; [exact G|]; split; [apply delta_refl|auto]|].
    assert (Np : n_posted n <> []) by congruence. destruct p as [d|c].
    + destruct (recv_data_ok n d k G Np) as (n' & E & G1 & D1); [apply Wi; discriminate|]. rewrite E. cbn [bind]. proj. exists n', w, [ADeliver d], 0, 1, [d]. split; [reflexivity|]. split; [exact G1|]. split; [exact D1|]. split; [right; right; exists d; auto|auto].
    + destruct (recv_ack_ok n c k G Np) as (n' & a & E & G1 & D1). assert (P := recv_pushed _ _ _ _ E). rewrite E. cbn [bind]. proj. exists n', w, a, c, 1, []. split; [reflexivity|]. split; [exact G1|]. split; [exact D1|]. split; [right; left; auto|auto].
Qed.

(* ---- two nodes: the direction from x to y ---- *)
Record dir (x y : node) (tx ty : list act) : Prop := {
  d_push : pushed tx = delivered ty ++ wdata (n_wire x) ++ waiting x;
  d_sent : sent tx = delivered ty ++ wdata (n_wire x);
  d_cred : 0 < ackq_capacity (n_cfg x) -> length (sent tx) + n_allowed x + wcred (n_wire y) = credits ty;
  d_post : if c_ack (n_cfg y) && c_inp (n_cfg y) then credits ty + n_ready y = posts ty else credits ty = 0;
  d_rec : posts ty + wacks (n_wire x) = length (n_posted y) + length (delivered ty) + acks tx;
  d_out : ocapacity (n_cfg x) = 0 -> pushed tx = []
}.
Lemma wdata_app a b : wdata (a ++ b) = wdata a ++ wdata b. Proof. apply flat_map_app. Qed.
Lemma wcred_app a b : wcred (a ++ b) = wcred a + wcred b. Proof. unfold wcred. rewrite flat_map_app, list_sum_app. reflexivity. Qed.
Lemma wacks_app a b : wacks (a ++ b) = wacks a + wacks b. Proof. unfold wacks. rewrite flat_map_app, app_length. reflexivity. Qed.
Lemma wdata_sends a : wdata (sends a) = sent a.
Proof. induction a as [|x a IH]; [reflexivity|]. destruct x as [d|[d|c]| |d]; cbn; try exact IH. unfold wdata, sends in IH. rewrite IH. reflexivity. Qed.
Lemma wcred_sends a : wcred (sends a) = credits a.
Proof. induction a as [|x a IH]; [reflexivity|]. destruct x as [d|[d|c]| |d]; try exact IH. unfold wcred, sends, credits in *. cbn [flat_map app]. change (c + list_sum (flat_map (fun p => match p with PAck c => [c] | _ => [] end) (flat_map (fun a => match a with ASend p => [p] | _ => [] end) a)) = c + list_sum (flat_map (fun a => match a with ASend (PAck n) => [n] | _ => [] end) a)). rewrite IH. reflexivity. Qed.
Lemma wacks_sends a : wacks (sends a) = acks a.
Proof. induction a as [|x a IH]; [reflexivity|]. destruct x as [d|[d|c]| |d]; try exact IH. unfold wacks, sends, acks in *. cbn [flat_map app length] in *. rewrite IH. reflexivity. Qed.
Lemma taken_w from w cr k dl : taken from w cr k dl -> wdata from = dl ++ wdata w /\ wcred from = cr + wcred w /\ wacks from + length dl = k + wacks w.
Proof.
  intros [(-> & -> & -> & ->)|[(-> & -> & ->)|(d & -> & -> & -> & ->)]]; unfold wdata, wcred, wacks; cbn; auto; split; [reflexivity|split; [reflexivity|lia]].
Qed.
Lemma dir_sender x y x' w tx ty a cr k dl : dir x y tx ty -> delta x x' a cr k dl -> taken (n_wire y) w cr k dl -> (ocapacity (n_cfg x) = 0 -> pushed a = []) -> dir x' (set_wire y w) (tx ++ a) ty.
Proof.
  intros [A1 A2 A3 A4 A5 A6] [B1 B2 B3 B4 B5 B6 B7] T P. destruct (taken_w _ _ _ _ _ T) as (_ & T2 & _). unfold set_wire. split; proj.
  - rewrite pushed_app, B2, wdata_app, wdata_sends, A1, <- !app_assoc. f_equal. f_equal. symmetry. exact B3.
  - rewrite sent_app, B2, wdata_app, wdata_sends, A2, app_assoc. reflexivity.
  - rewrite B1. intros H. specialize (A3 H). specialize (B4 H). rewrite sent_app, app_length. lia.
  - exact A4.
  - rewrite B2, wacks_app, wacks_sends, acks_app. lia.
  - rewrite B1. intros H. rewrite pushed_app, (A6 H), (P H). reflexivity.
Qed.
Lemma dir_receiver x y y' w tx ty a cr k dl : dir x y tx ty -> delta y y' a cr k dl -> taken (n_wire x) w cr k dl -> dir (set_wire x w) y' tx (ty ++ a).
Proof.
  intros [A1 A2 A3 A4 A5 A6] [B1 B2 B3 B4 B5 B6 B7] T. destruct (taken_w _ _ _ _ _ T) as (T1 & _ & T3). unfold set_wire. split; proj.
  - rewrite delivered_app, B7, A1, T1, <- !app_assoc. reflexivity.
  - rewrite delivered_app, B7, A2, T1, <- !app_assoc. reflexivity.
  - intros H. specialize (A3 H). rewrite B2, wcred_app, wcred_sends, credits_app. lia.
  - rewrite B1, credits_app, posts_app. destruct (_ && _); lia.
  - rewrite delivered_app, app_length, B7, posts_app. lia.
  - exact A6.
Qed.
Definition opposite (x y : config) : Prop := c_out x = true -> c_inp y = true.
Definition sgood (s : sys) : Prop :=
  good (s_a s) /\ good (s_b s) /\ dir (s_a s) (s_b s) (t_a s) (t_b s) /\ dir (s_b s) (s_a s) (t_b s) (t_a s)
  /\ opposite (n_cfg (s_a s)) (n_cfg (s_b s)) /\ opposite (n_cfg (s_b s)) (n_cfg (s_a s)).
Lemma good_wire n w : good n -> good (set_wire n w).
Proof. intros G. destruct G. unfold set_wire. split; proj; auto. Qed.
Lemma dir_out x y tx ty : dir x y tx ty -> opposite (n_cfg x) (n_cfg y) -> wdata (n_wire x) <> [] -> c_inp (n_cfg y) = true.
Proof.
  intros D O W. apply O. destruct (c_out (n_cfg x)) eqn:E; [reflexivity|]. exfalso. assert (P := d_out _ _ _ _ D ltac:(unfold ocapacity; rewrite E; reflexivity)). rewrite (d_push _ _ _ _ D) in P. apply app_eq_nil in P. destruct P as (_ & P). apply app_eq_nil in P. destruct P. contradiction.
Qed.
Lemma step_ok s ev : sgood s -> exists s', step s ev = Ok s' /\ sgood s' /\ n_cfg (s_a s') = n_cfg (s_a s) /\ n_cfg (s_b s') = n_cfg (s_b s).
Proof.
  intros (Ga & Gb & Da & Db & Oa & Ob). destruct ev as [[|] e]; unfold step; cbn [fst snd].
  - destruct (node_step_ok (s_a s) (n_wire (s_b s)) e Ga (dir_out _ _ _ _ Db Ob)) as (n' & w & a & cr & k & dl & E & G & D & T & P). rewrite E. cbn [bind fst snd]. eexists. split; [reflexivity|]. assert (C := e_cfg _ _ _ _ _ _ D). cbn [s_a s_b t_a t_b]. split; [|split; [exact C|reflexivity]]. unfold sgood. cbn [s_a s_b t_a t_b]. rewrite C. change (n_cfg (set_wire (s_b s) w)) with (n_cfg (s_b s)).
    split; [exact G|]. split; [apply good_wire; exact Gb|]. split; [exact (dir_sender _ _ _ _ _ _ _ _ _ _ Da D T P)|]. split; [exact (dir_receiver _ _ _ _ _ _ _ _ _ _ Db D T)|auto].
  - destruct (node_step_ok (s_b s) (n_wire (s_a s)) e Gb (dir_out _ _ _ _ Da Oa)) as (n' & w & a & cr & k & dl & E & G & D & T & P). rewrite E. cbn [bind fst snd]. eexists. split; [reflexivity|]. assert (C := e_cfg _ _ _ _ _ _ D). cbn [s_a s_b t_a t_b]. split; [|split; [reflexivity|exact C]]. unfold sgood. cbn [s_a s_b t_a t_b]. rewrite C. change (n_cfg (set_wire (s_a s) w)) with (n_cfg (s_a s)).
    split; [apply good_wire; exact Ga|]. split; [exact G|]. split; [exact (dir_receiver _ _ _ _ _ _ _ _ _ _ Da D T)|]. split; [exact (dir_sender _ _ _ _ _ _ _ _ _ _ Db D T P)|auto].
Qed.
Lemma used_init k i : is_used (repeat (mkRec false KNone 0%N 0) k) i = false.
Proof. unfold is_used. destruct (nth_error (repeat _ k) i) as [x|] eqn:E; [|reflexivity]. apply nth_error_In, repeat_spec in E. subst x. reflexivity. Qed.
Lemma good_init c : consistent c -> good (init c).
Proof.
  intros C. unfold init. split; proj; auto.
  - apply repeat_length.
  - rewrite repeat_length. unfold numrecs. lia.
  - intros i. rewrite used_init. reflexivity.
  - cbn. lia.
  - cbn. lia.
Qed.
Lemma dir_init ca cb : dir (init ca) (init cb) [] [].
Proof. split; try reflexivity; unfold init; proj. destruct (_ && _); reflexivity. Qed.
Lemma start_ok ca cb : consistent ca -> consistent cb -> opposite ca cb -> opposite cb ca -> sgood (start ca cb).
Proof. intros Ca Cb Oa Ob. unfold sgood, start. cbn [s_a s_b t_a t_b]. split; [apply good_init; exact Ca|]. split; [apply good_init; exact Cb|]. split; [apply dir_init|]. split; [apply dir_init|]. unfold init. proj. auto. Qed.
Lemma run_ok evs : forall s, sgood s -> exists s', run s evs = Ok s' /\ sgood s' /\ n_cfg (s_a s') = n_cfg (s_a s) /\ n_cfg (s_b s') = n_cfg (s_b s).
Proof.
  induction evs as [|e evs IH]; intros s G; [exists s; auto|]. cbn [run]. destruct (step_ok s e G) as (s1 & E & G1 & C1 & C2). rewrite E. cbn [bind]. destruct (IH s1 G1) as (s2 & E2 & G2 & C3 & C4). exists s2. split; [exact E2|]. split; [exact G2|]. split; congruence.
Qed.

(* ---- a state which nothing changes ---- *)
Definition user_push (e : event) : bool := match e with EPush _ => true | _ => false end.
Lemma stuck_node s (f : bool) e n from : step s (f, e) = Ok s -> n = (if f then s_a s else s_b s) -> from = n_wire (if f then s_b s else s_a s) -> node_step n from e = Ok (n, from, []).
Proof.
  unfold step. cbn [fst snd]. intros H En Ef. subst n from. destruct s as [A B ta tb]. cbn [s_a s_b t_a t_b] in *. destruct f.
  - destruct (node_step A (n_wire B) e) as [[[n' w] a]| |]; try discriminate. cbn [bind fst snd] in H. injection H as H1 H2 H3. rewrite H1. assert (a = []) by (apply (app_inv_head ta); rewrite app_nil_r; exact H3). assert (E : w = n_wire B) by (rewrite <- H2; reflexivity). rewrite E. subst a. reflexivity.
  - destruct (node_step B (n_wire A) e) as [[[n' w] a]| |]; try discriminate. cbn [bind fst snd] in H. injection H as H1 H2 H3. rewrite H2. assert (a = []) by (apply (app_inv_head tb); rewrite app_nil_r; exact H3). assert (E : w = n_wire A) by (rewrite <- H1; reflexivity). rewrite E. subst a. reflexivity.
Qed.
Lemma stuck_sent n from : good n -> node_step n from ESent = Ok (n, from, []) -> n_busy n = false.
Proof.
  intros G H. destruct (n_busy n) eqn:Bu; [exfalso|reflexivity]. assert (Hh := g_hdr n G). rewrite Bu in Hh. cbn [node_step] in H. unfold process_sent in H. destruct (n_sending n) as [|i s] eqn:Es; [discriminate|]. proj.
  assert (Hs := g_send n G). rewrite Es in Hs. inversion Hs as [|? ? (x & Ex & Kx) Hs']; subst. rewrite Ex in H. destruct Kx as [Kx|Kx]; rewrite Kx in H.
  - destruct (n_inq n) as [|d q] eqn:Eq; [discriminate|]. cbn [bind] in H. injection H as H. assert (C := f_equal n_inq H). rewrite release_eq in C. proj. rewrite Ex in C. proj. rewrite Eq in C. assert (L := f_equal (@length N) C). cbn in L. lia.
  - unfold check_ackn in H. rewrite release_eq in H. proj. rewrite Ex in H. proj. destruct (negb _); [cbn [bind] in H; injection H as H; assert (C := f_equal n_busy H); proj; congruence|]. destruct (_ <? _); [cbn [bind] in H; injection H as H; assert (C := f_equal n_busy H); proj; congruence|].
    destruct (take_rec _ _ _ _) as [n1 j]. unfold submit_send in H. destruct (nth_error _ _); discriminate.
Qed.
Lemma stuck_take n from : node_step n from ETake = Ok (n, from, []) -> n_outq n = [].
Proof.
  cbn [node_step]. intros H. injection H as H. assert (C := f_equal n_outq H). proj. destruct (n_outq n) as [|d q]; [reflexivity|]. assert (L := f_equal (@length N) C). cbn in L. lia.
Qed.
Lemma stuck_fill n from : good n -> (forall k, node_step n from (EFill k) = Ok (n, from, [])) -> num_can_submit n <= length (n_posted n) /\ (c_ack (n_cfg n) && c_inp (n_cfg n) = true -> n_busy n = false -> n_ready n < ack_limit n).
Proof.
  intros G H. specialize (H (S (num_can_submit n))). cbn [node_step] in H. destruct (fill_ok n (S (num_can_submit n)) G) as (n' & a & E & _ & _ & F & _ & _ & R). rewrite E in H. cbn [bind] in H. proj. injection H as -> ->. split.
  - assert (I := g_isize n G). destruct (Nat.lt_ge_cases (n_isize n) (num_can_submit n)) as [L|L]; [|lia]. destruct (F L). lia.
  - intros A B. apply R; assumption.
Qed.
Lemma stuck_recv n from : good n -> n_posted n <> [] -> (wdata from <> [] -> c_inp (n_cfg n) = true) -> node_step n from (ERecv 0) = Ok (n, from, []) -> from = [].
Proof.
  intros G Np Wi H. destruct from as [|p w]; [reflexivity|exfalso]. cbn [node_step] in H. destruct (n_posted n); [contradiction|]. destruct (process_recv n p 0) as [r| |]; try discriminate. cbn [bind] in H. injection H as _ H _. assert (L := f_equal (@length packet) H). cbn in L. lia.
Qed.
Lemma stuck_done s ca cb : sgood s -> n_cfg (s_a s) = ca -> n_cfg (s_b s) = cb -> (forall f e, user_push e = false -> step s (f, e) = Ok s) ->
  c_out ca = true -> 1 <= c_icap cb -> (c_inp ca && c_ack ca = true -> c_ack cb = true /\ 2 <= c_icap cb /\ 1 <= c_icap ca) ->
  delivered (t_b s) = pushed (t_a s).
Proof.
  intros (Ga & Gb & Da & Db & Oa & Ob) Ea Eb St Co Ic Cond.
  assert (SA : forall e, user_push e = false -> node_step (s_a s) (n_wire (s_b s)) e = Ok (s_a s, n_wire (s_b s), [])) by (intros e He; apply (stuck_node s true e); auto).
  assert (SB : forall e, user_push e = false -> node_step (s_b s) (n_wire (s_a s)) e = Ok (s_b s, n_wire (s_a s), [])) by (intros e He; apply (stuck_node s false e); auto).
  set (A := s_a s) in *. set (B := s_b s) in *. assert (Ci : c_inp cb = true) by (rewrite <- Eb; apply Oa; rewrite Ea; exact Co).
  destruct (stuck_fill B _ Gb (fun k => SB (EFill k) eq_refl)) as (Fb & Rb). assert (Tb := stuck_take B _ (SB ETake eq_refl)). unfold num_can_submit in Fb. rewrite Eb, Ci, Tb in Fb. cbn [length] in Fb.
  assert (Cb := g_cfg B Gb). rewrite Eb in Cb. destruct Cb as (Cb & _). assert (Pb : n_posted B <> []) by (intros X; rewrite X in Fb; cbn [length] in Fb; lia).
  assert (Wa : n_wire A = []) by exact (stuck_recv B _ Gb Pb (dir_out _ _ _ _ Da Oa) (SB (ERecv 0) eq_refl)).
  destruct (process_input_ok A Ga) as (n' & a & E & _ & _ & Fa & Qa & _). assert (X := SA EInput eq_refl). cbn [node_step] in X. rewrite Ea, Co, E in X. cbn [bind] in X. proj. injection X as -> ->.
  assert (P := d_push _ _ _ _ Da). rewrite Wa in P. cbn [wdata flat_map app] in P. unfold waiting in P. rewrite Qa, skipn_all, app_nil_r in P.
  assert (Z : n_ackq A = []); [|rewrite Z in P; cbn [sdata flat_map] in P; rewrite app_nil_r in P; symmetry; exact P].
  destruct Fa as [Fa|Fa]; [exact Fa|]. destruct (Nat.eq_dec (ackq_capacity (n_cfg A)) 0) as [Az|Az]; [exact (g_acap A Ga Az)|exfalso].
  assert (Ai : c_inp ca && c_ack ca = true). { unfold ackq_capacity in Az. rewrite Ea in Az. destruct (c_inp ca && c_ack ca); [reflexivity|lia]. } destruct (Cond Ai) as (Cb1 & Cb2 & Ca1). apply andb_true_iff in Ai. destruct Ai as (Ai & Aa).
  destruct (stuck_fill A _ Ga (fun k => SA (EFill k) eq_refl)) as (Fa2 & _). assert (Ta := stuck_take A _ (SA ETake eq_refl)). unfold num_can_submit in Fa2. rewrite Ea, Ai, Ta in Fa2. cbn [length] in Fa2.
  assert (Ca := g_cfg A Ga). rewrite Ea in Ca. destruct Ca as (Ca & _). assert (Pa : n_posted A <> []) by (intros Y; rewrite Y in Fa2; cbn [length] in Fa2; lia).
  assert (Wb : n_wire B = []) by exact (stuck_recv A _ Ga Pa (dir_out _ _ _ _ Db Ob) (SA (ERecv 0) eq_refl)).
  assert (D3 := d_cred _ _ _ _ Da ltac:(lia)). assert (D4 := d_post _ _ _ _ Da). assert (D5 := d_rec _ _ _ _ Da). assert (D2 := f_equal (@length N) (d_sent _ _ _ _ Da)). rewrite Wa in D2, D5. rewrite Wb in D3. cbn [wdata wcred wacks flat_map list_sum fold_right] in *. rewrite app_nil_r in D2. change (wcred []) with 0 in D3. change (wacks []) with 0 in D5. rewrite Eb, Cb1, Ci in D4. cbn [andb] in D4.
  assert (R := Rb ltac:(rewrite Eb, Cb1, Ci; reflexivity) (stuck_sent B _ Gb (SB ESent eq_refl))). unfold ack_limit, icapacity in R. rewrite Eb, Ci, Cb1 in R. cbv zeta in R.
  assert (Q := Nat.div_le_upper_bound (Nat.max (c_icap cb) 2) 2 (Nat.max (c_icap cb) 2) ltac:(lia) ltac:(lia)). unfold wcred in D3. cbn in D3. destruct (n_first B); lia.
Qed.
