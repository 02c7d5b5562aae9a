(* Server and client of an MBS connection: packets in the byte stream, requests, states. *)
From Verif Require Import Common ListFacts Bytes MbsSpec SrvSpec SrvModel.
Local Open Scope N_scope.

(* ---- packets ---- *)
Definition okb (d : bytes) : Prop := 0 < lenN d /\ lenN d mod 2 = 0 /\ lenN d <= 4194304.
Definition frame (k : cfg) (d : bytes) : bytes := header k (lenN d) ++ d.
Fixpoint rest_bytes (k : cfg) (n : N) (l : list (bytes * N)) : bytes :=
  match l with [] => [] | e :: r => event_bytes k n e ++ rest_bytes k (n + 1) r end.

Lemma words_small sz : 8 <= sz -> sz < 2^32 -> words sz = (sz - 8) / 2.
Proof.
  intros H1 H2. unfold words. rewrite (N.mod_small sz) by auto. replace (sz + 2^32 - 8) with ((sz - 8) + 1 * 2^32) by lia.
  rewrite N.mod_add by lia. rewrite N.mod_small by lia. reflexivity.
Qed.
Lemma odd_mod (n : N) : N.odd n = (n mod 2 =? 1).
Proof. rewrite <- (N.bit0_mod n), N.bit0_odd. destruct (N.odd n); reflexivity. Qed.
Lemma padded_len e : lenN (padded e) = evsize e.
Proof.
  unfold padded, evsize, odd_len. rewrite odd_mod. pose proof (N.mod_lt (lenN (fst e)) 2 ltac:(lia)). destruct (N.eqb_spec (lenN (fst e) mod 2) 1).
  - unfold lenN in *. rewrite app_length. cbn. lia.
  - lia.
Qed.
Lemma padded_take e : takeN (evsize e) (fst e ++ [snd e]) = padded e.
Proof.
  unfold padded, evsize, odd_len. rewrite odd_mod. pose proof (N.mod_lt (lenN (fst e)) 2 ltac:(lia)). unfold takeN, lenN in *. destruct (N.eqb_spec (N.of_nat (length (fst e)) mod 2) 1) as [E|E].
  - rewrite E. apply firstn_all2. rewrite app_length. cbn. lia.
  - replace (N.to_nat _) with (length (fst e) + 0)%nat by lia. rewrite firstn_app_2. cbn. apply app_nil_r.
Qed.
Lemma evsize_even e : evsize e mod 2 = 0.
Proof.
  unfold evsize. set (n := lenN (fst e)). pose proof (N.div_mod n 2 ltac:(lia)). pose proof (N.mod_lt n 2 ltac:(lia)).
  assert (n mod 2 = 0 \/ n mod 2 = 1) as [E|E] by lia; rewrite E.
  - rewrite N.add_0_r. auto.
  - replace (n + 1) with ((n / 2 + 1) * 2) by lia. apply N.mod_mul. lia.
Qed.
Lemma event_enc k n e : evsize e + 28 < 2^32 -> event_bytes k n e = enc_mevent (mkME mbs_type (1 * 2^16) n [mkMS mbs_type (k_id k) (padded e)]).
Proof.
  intros H. unfold event_bytes, enc_mevent, mevent_size, enc_msubs, enc_msub, msub_size. cbn [me_subs me_type me_trig me_num map concat ms_raw ms_type ms_id].
  rewrite app_nil_r. rewrite padded_len, padded_take. rewrite !words_small by lia.
  assert (L : lenN (le 4 ((12 + evsize e - 8) / 2) ++ le 4 mbs_type ++ le 4 (k_id k) ++ padded e) = 12 + evsize e).
  { unfold lenN. rewrite !app_length, !le_length. pose proof (padded_len e). unfold lenN in *. lia. }
  rewrite L. replace (evsize e + 16 + 12) with (16 + (12 + evsize e)) by lia. replace (evsize e + 12) with (12 + evsize e) by lia.
  replace (le 4 (1 * 2 ^ 16)) with (le 2 0 ++ le 2 1) by reflexivity. rewrite <- !app_assoc. reflexivity.
Qed.
Lemma event_len k n e : lenN (event_bytes k n e) = 28 + evsize e.
Proof.
  unfold event_bytes. rewrite padded_take. pose proof (padded_len e). unfold lenN in *. rewrite !app_length, !le_length. lia.
Qed.
Lemma rest_len k l : forall n, lenN (rest_bytes k n l) = sizes l.
Proof.
  induction l as [|e l IH]; intros n; [reflexivity|]. cbn [rest_bytes sizes fold_right]. fold (sizes l). pose proof (IH (n + 1)). pose proof (event_len k n e).
  unfold lenN in *. rewrite app_length. lia.
Qed.
Lemma rest_enc k l : forall n, sizes l < 2^32 -> rest_bytes k n l = enc_mevents (numbered (k_id k) n l).
Proof.
  induction l as [|e l IH]; intros n H; [reflexivity|]. cbn [sizes fold_right] in H. fold (sizes l) in H. cbn [rest_bytes numbered].
  unfold enc_mevents. cbn [map concat]. rewrite event_enc by lia. f_equal. apply IH. lia.
Qed.
Lemma enc_len id l : forall n, lenN (enc_mevents (numbered id n l)) = sizes l.
Proof.
  induction l as [|e l IH]; intros n; [reflexivity|]. cbn [sizes fold_right numbered]. fold (sizes l). unfold enc_mevents in *. cbn [map concat].
  pose proof (IH (n + 1)) as H. pose proof (padded_len e) as P. unfold lenN in *. rewrite app_length, Nat2N.inj_add, H. f_equal.
  unfold enc_mevent, enc_msubs, enc_msub. cbn [me_subs me_type me_trig me_num map concat ms_raw ms_type ms_id]. rewrite !app_length, !le_length. cbn [length]. lia.
Qed.
Lemma sizes_even l : sizes l mod 2 = 0.
Proof.
  induction l as [|e l IH]; [reflexivity|]. cbn [sizes fold_right]. fold (sizes l). pose proof (evsize_even e).
  rewrite (N.div_mod (sizes l) 2), (N.div_mod (evsize e) 2), IH, H by lia. replace (16 + 12 + _ + _) with ((14 + evsize e / 2 + sizes l / 2) * 2) by lia. apply N.mod_mul. lia.
Qed.
Lemma raws_zero l : (raws l =? 0) = forallb (fun e => lenN (fst e) =? 0) l.
Proof.
  induction l as [|e l IH]; [reflexivity|]. cbn [raws fold_right forallb]. fold (raws l). rewrite <- IH. unfold evsize, bytes in *.
  destruct (N.eqb_spec (lenN (fst e)) 0) as [E|E]; cbn [andb].
  - rewrite E. reflexivity.
  - apply N.eqb_neq. lia.
Qed.

Lemma header_len k n : lenN (header k n) = 48.
Proof. unfold lenN, header. rewrite !app_length, !le_length. reflexivity. Qed.
Lemma word1 k n : word_at 1 (header k n) = mtype 100.
Proof. change (word_at 1 (header k n)) with (unle (le 4 (mtype 100))). reflexivity. Qed.
Lemma word10 k n : n <= 4194304 -> word_at 10 (header k n) = n / 2.
Proof.
  intros H. change (word_at 10 (header k n)) with (unle (le 4 (n / 2))). apply unle_le4. pose proof (N.div_le_upper_bound n 2 4194304 ltac:(lia)). lia.
Qed.
Lemma half n : n mod 2 = 0 -> n / 2 * 2 = n.
Proof. intros E. pose proof (N.div_mod n 2 ltac:(lia)). lia. Qed.
Lemma read_header k d : okb d -> read_size (header k (lenN d)) = lenN d /\ used_size (header k (lenN d)) = lenN d.
Proof.
  intros (P & E & L). unfold read_size, used_size. rewrite word1, word10 by auto. rewrite N.eqb_refl, half by auto.
  rewrite !N.mod_small by lia. destruct (N.ltb_spec (48 + lenN d) 48); [lia|]. split; lia.
Qed.
Lemma take_app_len (a b : bytes) : takeN (lenN a) (a ++ b) = a.
Proof. unfold takeN, lenN. rewrite Nat2N.id. rewrite firstn_app, Nat.sub_diag, firstn_all. cbn. apply app_nil_r. Qed.
Lemma drop_app_len (a b : bytes) : dropN (lenN a) (a ++ b) = b.
Proof. unfold dropN, lenN. rewrite Nat2N.id. rewrite skipn_app, Nat.sub_diag, skipn_all. reflexivity. Qed.
(* what has arrived of a longer stream *)
Lemma split_front (d u a b : bytes) : d ++ u = a ++ b -> lenN a <= lenN d -> exists r, d = a ++ r /\ r ++ u = b.
Proof.
  intros E L. exists (skipn (length a) d). assert (H : a = firstn (length a) d).
  { transitivity (firstn (length a) (a ++ b)); [rewrite firstn_app, Nat.sub_diag, firstn_all; cbn; rewrite app_nil_r; auto|].
    rewrite <- E, firstn_app. unfold lenN in L. replace (length a - length d)%nat with 0%nat by lia. cbn. apply app_nil_r. }
  split; [rewrite H at 1; symmetry; apply firstn_skipn|]. apply (app_inv_head a). rewrite <- E, app_assoc. f_equal. rewrite H at 1. apply firstn_skipn.
Qed.

(* ---- invariant ---- *)
Definition credit (v : srv) : nat :=
  match v_st v with
  | oInitReq | oWaitingBuffer => 1%nat
  | oSendingEvents | oSendingLastEvent | oSendingBuffer => one (v_extra v)
  | _ => 0%nat
  end.
Definition idle (v : srv) : Prop := (v_ot v = OReady \/ v_ot v = OTimeout) /\ v_cb v = 0%nat.
Definition sok (k : cfg) (v : srv) : Prop :=
  match v_st v with
  | oInit | oInitReq => v_busy v = true /\ v_todo v = [] /\ v_extra v = false /\ idle v
  | oWaitingReq => v_busy v = false /\ v_todo v = [] /\ v_extra v = false /\ (idle v \/ (v_ot v = OWaitFinish /\ v_cb v = 1%nat))
  | oWaitingReqBack => v_busy v = false /\ v_todo v = [] /\ v_extra v = false /\ v_ot v = OWaitCall /\ v_cb v = 0%nat
  | oWaitingBuffer => v_busy v = false /\ v_todo v = [] /\ v_extra v = false /\ (idle v \/ ((v_ot v = OWaitFinish \/ v_ot v = OWaitCall) /\ v_cb v = 1%nat))
  | oSendingEvents => v_busy v = true /\ v_todo v <> [] /\ v_ot v = OWaitFinish /\ v_cb v = 0%nat
  | oSendingLastEvent | oSendingBuffer => v_busy v = true /\ v_todo v = [] /\ v_ot v = OWaitFinish /\ v_cb v = 0%nat
  | oError => False
  end /\
  (k_stream k = false -> v_extra v = false /\ match v_st v with oInitReq | oWaitingReq | oWaitingReqBack => False | _ => True end).

Definition awaits (c : cli) : nat := match c_st c with ioRecvHeader | ioWaitBuffer | ioRecvBuffer | ioComplBuffer => 1%nat | _ => 0%nat end.
Definition cur_of (c : cli) (x : bytes) : list bytes := match c_st c with ioWaitBuffer | ioRecvBuffer | ioComplBuffer => [x] | _ => [] end.
Definition expect (c : cli) (x : bytes) : bytes := match c_st c with ioRecvInfo => info | ioWaitBuffer | ioRecvBuffer => x | _ => [] end.
Definition cok (c : cli) (x : bytes) : Prop :=
  match c_st c with
  | ioRecvInfo => c_cb c = [] /\ (c_it c = IReady /\ c_pend c = false \/ c_it c = IWaitSize /\ c_pend c = true)
  | ioReady => c_cb c = [] /\ c_it c = IReady /\ c_max c = 4194304
  | ioRecvHeader => c_cb c = [] /\ c_it c = IWaitSize /\ c_max c = 4194304
  | ioWaitBuffer => c_cb c = [CSize (lenN x)] /\ c_it c = IWaitSize /\ c_max c = 4194304 /\ okb x /\ read_size (c_hdr c) = lenN x /\ used_size (c_hdr c) = lenN x
  | ioRecvBuffer => c_cb c = [] /\ c_it c = IWaitData /\ c_max c = 4194304 /\ okb x /\ read_size (c_hdr c) = lenN x /\ used_size (c_hdr c) = lenN x
  | ioComplBuffer => c_cb c = [COk] /\ c_it c = IWaitData /\ c_max c = 4194304 /\ okb x /\ used_size (c_hdr c) = lenN x /\ c_buf c = x
  | ioError => False
  end.

(* number of the next event after some buffers *)
Fixpoint next_no (iter : bool) (n : N) (l : list buf) : N :=
  match l with
  | [] => n
  | b :: r => if iter then if forallb (fun e => lenN (fst e) =? 0) (b_events b) then next_no iter n r else next_no iter (n + lenN (b_events b)) r else next_no iter n r
  end.
Lemma arrives_app iter id l b : forall n, arrives iter id n (l ++ [b]) = arrives iter id n l ++ arrives iter id (next_no iter n l) [b].
Proof.
  induction l as [|a l IH]; intros n; [reflexivity|]. cbn [app arrives next_no]. destruct iter.
  - destruct (forallb (fun e => lenN (fst e) =? 0) (b_events a)); rewrite IH; reflexivity.
  - destruct (b_data a); rewrite IH; reflexivity.
Qed.
Lemma next_app iter l b : forall n, next_no iter n (l ++ [b]) = next_no iter (next_no iter n l) [b].
Proof.
  induction l as [|a l IH]; intros n; [reflexivity|]. cbn [app next_no]. destruct iter; [destruct (forallb (fun e => lenN (fst e) =? 0) (b_events a))|]; apply IH.
Qed.

Record Inv (k : cfg) (all : list buf) (w : sys) (fs : list bytes) (x : bytes) : Prop := {
  i_s : sok k (w_v w);
  i_c : cok (w_c w) x;
  i_down : w_down w ++ rest_bytes k (v_evc (w_v w)) (v_todo (w_v w)) = expect (w_c w) x ++ concat (map (frame k) fs);
  i_fs : Forall okb fs;
  i_all : c_got (w_c w) ++ cur_of (w_c w) x ++ fs ++ arrives (k_iter k) (k_id k) (v_evc (w_v w) + lenN (v_todo (w_v w))) (v_q (w_v w)) = arrives (k_iter k) (k_id k) 0 all;
  i_num : next_no (k_iter k) (v_evc (w_v w) + lenN (v_todo (w_v w))) (v_q (w_v w)) = next_no (k_iter k) 0 all;
  i_q : Forall (fits (k_iter k)) (v_q (w_v w));
  i_sent : w_sent w = (length (c_got (w_c w)) + length (cur_of (w_c w) x) + length fs)%nat;
  i_up : if k_stream k then w_asked w = (w_up w + credit (w_v w) + w_sent w)%nat /\ w_asked w = (length (c_got (w_c w)) + awaits (w_c w))%nat
         else w_up w = 0%nat /\ w_asked w = 0%nat
}.

Lemma inv_start k : Inv k [] start [] [].
Proof.
  constructor; cbn; auto.
  - unfold sok, idle. cbn. repeat split; auto.
  - destruct (k_stream k); auto.
Qed.


Ltac open w := destruct w as [[st ex ev td ot cb q bz] [cst pd hd mx bf it cc gt] up dn ask snt].
Ltac simp := cbn [w_v w_c w_up w_down w_asked w_sent v_st v_extra v_evc v_todo v_ot v_cb v_q v_busy c_st c_pend c_hdr c_max c_buf c_it c_cb c_got] in *.

Lemma inv_put k all w fs x b : fits (k_iter k) b -> Inv k all w fs x -> Inv k (all ++ [b]) (step k w (Put b)) fs x.
Proof.
  intros F [H1 H2 H3 H4 H5 H5' H6 H7 H8]. open w. constructor; cbn [step]; simp; auto.
  - rewrite (arrives_app _ _ all), (arrives_app _ _ q), <- H5, H5'. rewrite <- !app_assoc. reflexivity.
  - rewrite !next_app, H5'. reflexivity.
  - apply Forall_app. auto.
Qed.

Lemma inv_send k all w fs x : Inv k all w fs x -> Inv k all (step k w SSend) fs x.
Proof.
  intros [H1 H2 H3 H4 H5 H5' H6 H7 H8]. open w. cbn [step]. simp. destruct bz; [|constructor; auto]. unfold sok in H1. simp. destruct H1 as (H1 & H0).
  unfold on_send. simp. destruct st; simp; try (destruct H1 as (E & _); discriminate E); try contradiction.
  - destruct H1 as (_ & -> & -> & Hi). rewrite app_nil_r. constructor; simp; auto.
    + unfold sok. simp. destruct (k_stream k); simp; repeat split; auto; discriminate.
    + unfold credit in *. simp. destruct (k_stream k); simp; auto.
  - destruct H1 as (_ & -> & -> & Hi). rewrite app_nil_r. constructor; simp; auto.
    unfold sok. simp. destruct (k_stream k); simp; repeat split; auto.
  - destruct H1 as (_ & Ht & -> & ->). destruct td as [|e r]; [congruence|]. constructor; simp; auto.
    + unfold sok. simp. split; [destruct r; simp; repeat split; auto; discriminate|]. intros S0. destruct (H0 S0). split; auto. destruct r; auto.
    + cbn [rest_bytes] in H3. rewrite <- app_assoc. auto.
    + replace (ev + 1 + lenN r) with (ev + lenN (e :: r)) by (unfold lenN; cbn [length]; lia). auto.
    + replace (ev + 1 + lenN r) with (ev + lenN (e :: r)) by (unfold lenN; cbn [length]; lia). auto.
    + unfold credit in *. simp. destruct r; simp; auto.
  - destruct H1 as (_ & -> & -> & ->). rewrite app_nil_r. constructor; simp; auto.
    + unfold sok. simp. destruct (k_stream k), ex; simp; repeat split; auto; discriminate.
    + unfold credit in *. simp. destruct (k_stream k), ex; simp; auto.
  - destruct H1 as (_ & -> & -> & ->). rewrite app_nil_r. constructor; simp; auto.
    + unfold sok. simp. destruct (k_stream k), ex; simp; repeat split; auto; discriminate.
    + unfold credit in *. simp. destruct (k_stream k), ex; simp; auto.
Qed.

Lemma inv_recv k all w fs x : Inv k all w fs x -> Inv k all (step k w SRecv) fs x.
Proof.
  intros [H1 H2 H3 H4 H5 H5' H6 H7 H8]. open w. cbn [step]. simp. destruct up as [|up]; [constructor; auto|].
  destruct (k_stream k) eqn:K; [|destruct H8; discriminate]. destruct H8 as (H8 & H9). unfold sok in H1. simp. destruct H1 as (H1 & H0).
  assert (A : (awaits (mkC cst pd hd mx bf it cc gt) <= 1)%nat) by (unfold awaits; simp; destruct cst; lia).
  unfold credit in *. simp. unfold on_recv. simp.
  destruct st; simp; try contradiction; try (exfalso; cbn in *; lia);
    try (destruct H1 as (B1 & B2 & B3 & B4); subst);
    constructor; simp; try rewrite K; simp; auto;
    try (unfold sok; simp; repeat split; auto; fail);
    try (unfold credit; simp; split; cbn [one] in *; lia);
    try (unfold sok; simp; rewrite K; repeat split; auto; discriminate);
    try (unfold credit; simp; destruct ex; cbn [one] in *; split; lia).
  - unfold sok. simp. rewrite K. split; [|discriminate]. destruct B4. repeat split; auto.
  - unfold sok. simp. rewrite K. split; [|discriminate]. repeat split; auto. destruct B4 as [B4|(B4 & B5)]; auto.
  - unfold sok. simp. rewrite K. split; [|discriminate]. destruct B4 as (-> & ->). repeat split; auto.
Qed.

Lemma inv_call k all w fs x : Inv k all w fs x -> Inv k all (step k w SCall) fs x.
Proof.
  intros [H1 H2 H3 H4 H5 H5' H6 H7 H8]. open w. cbn [step]. simp. unfold on_call. simp. destruct cb as [|cb]; [constructor; auto|].
  unfold sok in H1. simp. destruct H1 as (H1 & H0). unfold idle in H1. simp.
  constructor; simp; auto. unfold sok. simp. split; [|auto]. unfold idle. simp.
  destruct st; try contradiction; destruct H1 as (B1 & B2 & B3 & B4); try (destruct B4; lia); try lia; repeat split; auto; left;
    (destruct B4 as [(? & ?)|([->| ->] & ?)] || destruct B4 as [(? & ?)|(-> & ?)]); split; auto; lia.
Qed.

Lemma okb_mk d : lenN d <> 0 -> lenN d mod 2 = 0 -> lenN d <= 4194304 -> okb d.
Proof. unfold okb. lia. Qed.
Lemma frame_nonempty k n d : exists b t, header k n ++ d = b :: t.
Proof. unfold header. cbn. eauto. Qed.
Lemma one_frame k n d : one (match header k n ++ d with [] => false | _ => true end) = 1%nat.
Proof. destruct (frame_nonempty k n d) as (b & t & ->). reflexivity. Qed.
Lemma concat_end (l : list bytes) (a : bytes) : concat (l ++ [a]) = concat l ++ a.
Proof. rewrite concat_app. cbn. rewrite app_nil_r. reflexivity. Qed.
Lemma lenN_nil {A} : lenN (@nil A) = 0. Proof. reflexivity. Qed.

Lemma inv_try k all w fs x : Inv k all w fs x -> exists fs', Inv k all (step k w STry) fs' x.
Proof.
  intros [H1 H2 H3 H4 H5 H5' H6 H7 H8]. open w. cbn [step]. simp. unfold try_write. simp.
  assert (Same : Inv k all (mkW (mkV st ex ev td ot cb q bz) (mkC cst pd hd mx bf it cc gt) up dn ask snt) fs x) by (constructor; auto).
  destruct ot; simp; rewrite ?app_nil_r, ?Nat.add_0_r; try (exists fs; exact Same).
  all: destruct q as [|b q]; simp; unfold with_ot; simp.
  1,3: rewrite ?app_nil_r, ?Nat.add_0_r; exists fs; constructor; simp; auto; unfold sok, idle in *; simp; destruct H1 as (H1 & H0); (split; [|auto]);
    destruct st; intuition discriminate.
  all: unfold sok, idle in H1; simp; destruct H1 as (H1 & H0).
  all: destruct st; simp; try contradiction; try (exfalso; intuition discriminate).
  all: try (rewrite ?app_nil_r, ?Nat.add_0_r; exists fs; constructor; simp; auto; unfold sok, idle; simp; (split; [|auto]); intuition (auto; discriminate); fail).
  all: destruct H1 as (-> & -> & -> & B4); assert (cb = 0%nat) as -> by (destruct B4 as [(_ & B)|([B|B] & _)]; [exact B|discriminate|discriminate]); clear B4.
  all: cbn [rest_bytes] in H3; rewrite app_nil_r in H3; rewrite lenN_nil, N.add_0_r in *.
  all: assert (F := Forall_inv H6); assert (Fq := Forall_inv_tail H6); unfold write; simp; destruct (k_iter k) eqn:KI; simp.
  all: unfold fits in F; cbn [arrives next_no] in H5, H5'.
  all: destruct (N.eqb_spec (lenN (b_data b)) 0) as [E|E]; simp.
  1,5: assert (En : b_data b = []) by (destruct (b_data b); [auto|cbv in E; discriminate]); rewrite (proj2 F En) in H5, H5'; cbn [forallb] in H5, H5';
    rewrite ?app_nil_r, ?Nat.add_0_r; exists fs; constructor; simp; rewrite ?KI, ?lenN_nil, ?N.add_0_r; cbn [rest_bytes]; rewrite ?app_nil_r; auto;
    unfold sok, idle; simp; repeat split; auto; apply H0.
  2,5: assert (En : b_data b = []) by (destruct (b_data b); [auto|cbv in E; discriminate]); rewrite En in H5;
    rewrite ?app_nil_r, ?Nat.add_0_r; exists fs; constructor; simp; rewrite ?KI, ?lenN_nil, ?N.add_0_r; cbn [rest_bytes]; rewrite ?app_nil_r; auto;
    unfold sok, idle; simp; repeat split; auto; apply H0.
  1,3: rewrite raws_zero; destruct (forallb (fun e => lenN (fst e) =? 0) (b_events b)) eqn:Z; simp.
  1,3: rewrite ?app_nil_r, ?Nat.add_0_r; exists fs; constructor; simp; rewrite ?KI, ?lenN_nil, ?N.add_0_r; cbn [rest_bytes]; rewrite ?app_nil_r; auto;
    unfold sok, idle; simp; repeat split; auto; apply H0.
  1,2: assert (Hn : b_events b <> []) by (intros E0; rewrite E0 in Z; discriminate);
    assert (L := enc_len 0 (b_events b) 0); assert (L' := enc_len (k_id k) (b_events b) ev);
    set (p := enc_mevents (numbered (k_id k) ev (b_events b))) in *;
    assert (P : okb p) by (apply okb_mk; rewrite L'; [destruct (b_events b) as [|e r]; [congruence|]; cbn [sizes fold_right]; lia|apply sizes_even|lia]);
    exists (fs ++ [p]); pose proof (one_frame k (sizes (b_events b)) []) as O1; rewrite app_nil_r in O1; rewrite O1;
    constructor; simp; rewrite ?KI; auto;
      [unfold sok; simp; repeat split; auto; apply H0; auto
      |rewrite rest_enc by lia; fold p; rewrite map_app; cbn [map]; rewrite concat_end, (app_assoc (expect _ _)), <- H3; unfold frame; rewrite L', <- !app_assoc; reflexivity
      |apply Forall_app; auto
      |rewrite <- H5, <- !app_assoc; reflexivity
      |rewrite app_length; cbn [length]; lia
      |destruct (k_stream k); unfold credit in *; simp; cbn [one] in *; lia].
  all: assert (En : match b_data b with [] => arrives false (k_id k) ev q | _ => b_data b :: arrives false (k_id k) ev q end = b_data b :: arrives false (k_id k) ev q)
    by (destruct (b_data b); [cbv in E; congruence|reflexivity]).
  all: exists (fs ++ [b_data b]); rewrite one_frame;
    constructor; simp; rewrite ?KI, ?lenN_nil, ?N.add_0_r; cbn [rest_bytes]; rewrite ?app_nil_r; auto;
      [unfold sok; simp; repeat split; auto; apply H0; auto
      |rewrite map_app; cbn [map]; rewrite concat_end, (app_assoc (expect _ _)), <- H3; unfold frame; reflexivity
      |apply Forall_app; split; auto; constructor; auto; apply okb_mk; tauto
      |rewrite <- H5; rewrite <- !app_assoc; cbn [app]; do 3 f_equal; destruct (b_data b); [cbv in E; congruence|reflexivity]
      |rewrite app_length; cbn [length]; lia
      |destruct (k_stream k); unfold credit in *; simp; cbn [one] in *; lia].
Qed.

Lemma info_head r : takeN 16 (info ++ r) = info /\ dropN 16 (info ++ r) = r.
Proof. split; reflexivity. Qed.

Lemma inv_crecv k all w fs x : Inv k all w fs x -> exists fs' x', Inv k all (step k w CRecv) fs' x'.
Proof.
  intros H. pose proof H as [H1 H2 H3 H4 H5 H5' H6 H7 H8]. open w. cbn [step]. simp. unfold c_recv. simp.
  assert (Same : Inv k all (mkW (mkV st ex ev td ot cb q bz) (mkC cst pd hd mx bf it cc gt) (up + one false) dn (ask + one false) snt) fs x)
    by (cbn [one]; rewrite !Nat.add_0_r; exact H).
  destruct cst; try (exists fs, x; exact Same).
  - destruct (N.ltb_spec (lenN dn) 16) as [L|L]; [exists fs, x; exact Same|]. unfold expect in H3. simp.
    destruct (split_front _ _ _ _ H3 L) as (r & -> & Er). destruct (info_head r) as [-> ->].
    change ((word_at 0 info =? 1) && (word_at 3 info =? 0)) with true. cbn iota. change (word_at 1 info) with 4194304.
    unfold cok in H2. simp. destruct H2 as (-> & [(-> & ->)|(-> & ->)]); exists fs, x.
    + cbn [one]; rewrite (Nat.add_0_r up), (Nat.add_0_r ask). constructor; unfold expect, cur_of, awaits in *; simp; auto. unfold cok. simp. auto.
    + unfold submit. simp. constructor; unfold expect, cur_of, awaits in *; simp; auto.
      * unfold cok. simp. auto.
      * unfold credit in *. simp. destruct (k_stream k); cbn [one length] in *; lia.
  - destruct (N.ltb_spec (lenN dn) 48) as [L|L]; [exists fs, x; exact Same|]. unfold expect in H3. simp. destruct fs as [|d fs].
    + cbn in H3. apply app_eq_nil in H3 as (-> & _). cbv in L. exfalso. apply L. reflexivity.
    + cbn [map concat app] in H3. unfold frame at 1 in H3. rewrite <- app_assoc in H3.
      destruct (split_front _ _ _ _ H3) as (r & -> & Er); [rewrite header_len; auto|].
      replace (takeN 48 (header k (lenN d) ++ r)) with (header k (lenN d)) by (rewrite <- (header_len k (lenN d)) at 1; symmetry; apply take_app_len).
      replace (dropN 48 (header k (lenN d) ++ r)) with r by (rewrite <- (header_len k (lenN d)) at 1; symmetry; apply drop_app_len).
      assert (Hd := Forall_inv H4). assert (Ht := Forall_inv_tail H4). destruct (read_header k d Hd) as (R & U). rewrite R.
      unfold cok in H2. simp. destruct H2 as (-> & -> & ->). pose proof Hd as (D1 & D2 & D3).
      destruct (N.ltb_spec 4194304 (lenN d)); [lia|]. destruct (N.eqb_spec (lenN d) 0); [lia|]. cbn [one]. rewrite !Nat.add_0_r.
      exists fs, d. constructor; unfold expect, cur_of, awaits in *; simp; auto.
      * unfold cok. simp. repeat split; auto; apply Hd.
      * cbn [length] in *. lia.
  - unfold cok in H2. simp. destruct H2 as (-> & -> & -> & Ox & R & U). rewrite R, U.
    destruct (N.ltb_spec (lenN dn) (lenN x)) as [L|L]; [exists fs, x; exact Same|]. unfold expect in H3. simp.
    destruct (split_front _ _ _ _ H3 L) as (r & -> & Er). rewrite take_app_len, drop_app_len. pose proof Ox as (D1 & D2 & D3). destruct (N.eqb_spec (lenN x) 0); [lia|].
    cbn [one]. rewrite !Nat.add_0_r. exists fs, x. constructor; unfold expect, cur_of, awaits in *; simp; auto.
    unfold cok. simp. repeat split; auto.
Qed.

Lemma inv_cread k all w fs x : Inv k all w fs x -> Inv k all (step k w CRead) fs x.
Proof.
  intros H. pose proof H as [H1 H2 H3 H4 H5 H5' H6 H7 H8]. open w. cbn [step]. simp. unfold c_read. simp.
  assert (Same : Inv k all (mkW (mkV st ex ev td ot cb q bz) (mkC cst pd hd mx bf it cc gt) (up + one false) dn (ask + one false) snt) fs x)
    by (cbn [one]; rewrite !Nat.add_0_r; exact H).
  destruct it; try exact Same. unfold cok in H2. simp. destruct cst; try (exfalso; intuition discriminate).
  - cbn [one]. rewrite !Nat.add_0_r. constructor; unfold expect, cur_of, awaits in *; simp; auto. unfold cok. simp. intuition.
  - unfold submit. simp. constructor; unfold expect, cur_of, awaits in *; simp; auto.
    + unfold cok. simp. intuition.
    + unfold credit in *. simp. destruct (k_stream k); cbn [one length] in *; lia.
Qed.

Lemma inv_ccall k all w fs x : Inv k all w fs x -> Inv k all (step k w CCall) fs x.
Proof.
  intros H. pose proof H as [H1 H2 H3 H4 H5 H5' H6 H7 H8]. open w. cbn [step]. simp. unfold c_call. simp.
  destruct cc as [|y r]; [exact H|]. unfold cok in H2. simp. destruct cst; try (exfalso; intuition discriminate).
  - destruct H2 as (E & -> & -> & Ox & R & U). injection E as -> ->. rewrite R, N.ltb_irrefl. unfold with_it. simp. constructor; unfold expect, cur_of, awaits in *; simp; auto.
    unfold cok. simp. repeat split; auto; apply Ox.
  - destruct H2 as (E & -> & -> & Ox & U & ->). injection E as -> ->. rewrite U. unfold with_it. simp.
    replace (takeN (lenN x) x) with x by (rewrite <- (app_nil_r x) at 3; symmetry; apply take_app_len).
    constructor; unfold expect, cur_of, awaits in *; simp; auto.
    + unfold cok. simp. auto.
    + cbn [app] in *. rewrite <- H5. rewrite <- app_assoc. reflexivity.
    + rewrite app_length. cbn [length] in *. lia.
    + rewrite app_length. cbn [length] in *. destruct (k_stream k); lia.
Qed.

Lemma inv_step k all w fs x o : internal o -> Inv k all w fs x -> exists fs' x', Inv k all (step k w o) fs' x'.
Proof.
  intros I0 H. destruct o; [contradiction|..].
  - exists fs, x. apply inv_send; auto.
  - exists fs, x. apply inv_recv; auto.
  - exists fs, x. apply inv_call; auto.
  - destruct (inv_try _ _ _ _ _ H) as (fs' & ?). eauto.
  - apply (inv_crecv _ _ _ _ _ H).
  - exists fs, x. apply inv_cread; auto.
  - exists fs, x. apply inv_ccall; auto.
Qed.
Lemma inv_run k l : forall all w fs x, Forall (fits (k_iter k)) (puts l) -> Inv k all w fs x -> exists fs' x', Inv k (all ++ puts l) (run k l w) fs' x'.
Proof.
  induction l as [|o l IH]; intros all w fs x F H.
  - cbn. rewrite app_nil_r. eauto.
  - cbn [puts flat_map] in *. fold (puts l) in *. cbn [run fold_left]. fold (run k l (step k w o)).
    assert (G : internal o -> Forall (fits (k_iter k)) (puts l) -> exists fs' x', Inv k (all ++ puts l) (run k l (step k w o)) fs' x').
    { intros Io Fo. destruct (inv_step k all w fs x o Io H) as (fs' & x' & H'). apply (IH _ _ fs' x'); auto. }
    destruct o as [b| | | | | | |]; cbn [app] in *; try (apply G; [exact Logic.I|exact F]).
    replace (all ++ b :: puts l) with ((all ++ [b]) ++ puts l) by (rewrite <- app_assoc; reflexivity). apply (IH _ _ fs x); [apply (Forall_inv_tail F)|].
    apply inv_put; auto. apply (Forall_inv F).
Qed.
Lemma inv_reach k l : Forall (fits (k_iter k)) (puts l) -> exists fs x, Inv k (puts l) (run k l start) fs x.
Proof. intros F. apply (inv_run k l [] start [] []); auto. apply inv_start. Qed.
