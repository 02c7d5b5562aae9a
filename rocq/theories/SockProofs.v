(* Lemmas for C70. *)
From Verif Require Import Common Bytes ListFacts SockSpec SockModel.
Local Open Scope nat_scope.

Definition okmsg (M : nat) (m : message) : Prop :=
  match m with
  | MBuf t segs => (t < 2^32)%N /\ Forall (fun s => s <> []) segs /\ 32 < length (concat segs) <= M
  | MNull => False
  | MAck n => (n < 2^32)%N
  end.
Definition okpost (M : nat) (b : list nat) : Prop := Forall (fun x => 0 < x) b /\ M <= list_sum b.
Definition okevent (M : nat) (e : event) : Prop :=
  match e with ESend m st => okmsg M m /\ length st = 32 | EPost b => okpost M b | _ => True end.
Definition okitem (M : nat) (x : message * bytes) : Prop := okmsg M (fst x) /\ length (snd x) = 32.

Definition hd (x : message * bytes) : bytes :=
  match fst x with
  | MBuf t segs => header netot_Send t (lenN (concat segs)) ++ snd x
  | MNull => []
  | MAck n => header netot_HdrSend mbt_AcknCounter n ++ snd x
  end.
Definition dat (x : message * bytes) : bytes := match fst x with MBuf _ segs => concat segs | _ => [] end.
Definition fmt (x : message * bytes) : bytes := concat (pack (fst x) (snd x)).
Definition fmts (l : list (message * bytes)) : bytes := concat (map fmt l).
Lemma header_length k t s : length (header k t s) = 16.
Proof. reflexivity. Qed.
Lemma pack_ok M x : okitem M x -> Forall (fun s => s <> []) (pack (fst x) (snd x)) /\ pack (fst x) (snd x) <> [] /\ fmt x = hd x ++ dat x /\ length (hd x) = 48.
Proof.
  destruct x as [[t segs| |n] st]; unfold okitem, fmt, hd, dat, pack; cbn [fst snd okmsg]; intros (Ho & Hs).
  - destruct Ho as (Ht & Hf & Hl). destruct (Nat.leb_spec (length (concat segs)) inline_size) as [C|C]; [unfold inline_size in C; lia|]. rewrite Bool.andb_false_r. split; [constructor; [discriminate|exact Hf]|]. split; [discriminate|]. split; [reflexivity|]. rewrite app_length, header_length. lia.
  - contradiction.
  - split; [constructor; [discriminate|constructor]|]. split; [discriminate|]. split; [cbn [concat]; rewrite !app_nil_r; reflexivity|]. rewrite app_length, header_length. lia.
Qed.

(* ---- pieces ---- *)
Definition pos_list (l : list nat) : Prop := Forall (fun x => 0 < x) l.
Lemma advance_write iov : forall k, Forall (fun s => s <> []) iov -> iov <> [] -> k <= length (concat iov) ->
  match advance (@length N) (@skipn N) iov k with
  | None => k = length (concat iov)
  | Some i => concat i = skipn k (concat iov) /\ Forall (fun s => s <> []) i /\ i <> []
  end.
Proof.
  induction iov as [|x r IH]; intros k F Ne L; [contradiction|]. cbn [advance]. destruct (Nat.eqb_spec k 0) as [->|Kz]; [split; [reflexivity|auto]|].
  inversion F as [|? ? Fx Fr]; subst. cbn [concat] in *. rewrite app_length in L. destruct (Nat.leb_spec (length x) k) as [C|C].
  - destruct r as [|y r']; [cbn in *; rewrite app_nil_r; lia|]. specialize (IH (k - length x) Fr ltac:(discriminate) ltac:(lia)). destruct (advance _ _ (y :: r') _) as [i|].
    + destruct IH as (A & B & D). rewrite A. split; [|auto]. rewrite skipn_app. rewrite (skipn_all2 x) by lia. reflexivity.
    + rewrite app_length. lia.
  - split; [|split; [|discriminate]].
    + cbn [concat]. rewrite skipn_app. replace (k - length x) with 0 by lia. reflexivity.
    + constructor; [|exact Fr]. intros E. apply (f_equal (@length N)) in E. rewrite skipn_length in E. cbn in E. lia.
Qed.
Lemma advance_read iov : forall k, pos_list iov -> iov <> [] -> k <= list_sum iov ->
  match advance (fun x => x) (fun k x => x - k) iov k with
  | None => k = list_sum iov
  | Some i => list_sum i + k = list_sum iov /\ pos_list i /\ i <> []
  end.
Proof.
  induction iov as [|x r IH]; intros k F Ne L; [contradiction|]. cbn [advance]. destruct (Nat.eqb_spec k 0) as [->|Kz]; [split; [lia|auto]|].
  inversion F as [|? ? Fx Fr]; subst. change (list_sum (x :: r)) with (x + list_sum r) in *. destruct (Nat.leb_spec x k) as [C|C].
  - destruct r as [|y r']; [cbn in *; lia|]. specialize (IH (k - x) Fr ltac:(discriminate) ltac:(lia)). destruct (advance _ _ (y :: r') _) as [i|]; [|lia]. destruct IH as (A & B & D). split; [lia|auto].
  - split; [|split; [|discriminate]].
    + change (list_sum (x - k :: r)) with (x - k + list_sum r). lia.
    + constructor; [lia|exact Fr].
Qed.
Lemma pos_sum l : pos_list l -> l <> [] -> 0 < list_sum l.
Proof. intros F N. destruct l as [|x r]; [contradiction|]. inversion F; subst. change (list_sum (x :: r)) with (x + list_sum r). lia. Qed.
Lemma recv_iov_ok segs : forall size, pos_list segs -> 0 < size <= list_sum segs -> pos_list (recv_iov segs size) /\ recv_iov segs size <> [] /\ list_sum (recv_iov segs size) = size.
Proof.
  induction segs as [|x r IH]; intros size F L; [cbn in L; lia|]. inversion F as [|? ? Fx Fr]; subst. change (list_sum (x :: r)) with (x + list_sum r) in L. cbn [recv_iov]. cbv zeta. destruct (Nat.eqb_spec (Nat.min x size) 0); [lia|]. split; [|split; [discriminate|]].
  - constructor; [lia|]. destruct (Nat.eq_dec (size - Nat.min x size) 0) as [Z|Z]; [|apply IH; auto; lia]. rewrite Z. destruct r as [|y r']; [constructor|]. cbn [recv_iov]. cbv zeta. rewrite Nat.min_0_r. constructor.
  - change (list_sum (Nat.min x size :: recv_iov r (size - Nat.min x size))) with (Nat.min x size + list_sum (recv_iov r (size - Nat.min x size))).
    destruct (Nat.eq_dec (size - Nat.min x size) 0) as [Z|Z]; [|destruct (IH (size - Nat.min x size) Fr ltac:(lia)) as (_ & _ & E); lia]. rewrite Z. destruct r as [|y r']; [cbn; lia|]. cbn [recv_iov]. cbv zeta. rewrite Nat.min_0_r. cbn. lia.
Qed.

(* ---- header fields ---- *)
Lemma fields k t s rest : (k < 2^32)%N -> (t < 2^32)%N -> (s < 2^32)%N ->
  h_chkword (header k t s ++ rest) = 123%N /\ h_kind (header k t s ++ rest) = k /\ h_typid (header k t s ++ rest) = t /\ h_size (header k t s ++ rest) = s.
Proof.
  intros Hk Ht Hs. unfold h_chkword, h_kind, h_typid, h_size, header. split; [reflexivity|].
  split; [rewrite <- (unle_le4 k Hk) at 2; reflexivity|]. split; [rewrite <- (unle_le4 t Ht) at 2; reflexivity|]. rewrite <- (unle_le4 s Hs) at 2. reflexivity.
Qed.
Lemma ack_fields M n st : okitem M (MAck n, st) -> is_hdrsend (hd (MAck n, st)) = true /\ process_recv (hd (MAck n, st)) [] = Some (ICredit n).
Proof.
  intros (Hn & _). cbn [fst okmsg] in Hn. unfold process_recv, is_hdrsend, hd. cbn [fst snd]. destruct (fields netot_HdrSend mbt_AcknCounter n st ltac:(reflexivity) ltac:(reflexivity) Hn) as (A & B & C & D). rewrite A, B, D. split; reflexivity.
Qed.
Lemma buf_fields M t segs st : (N.of_nat M < 2^32)%N -> okitem M (MBuf t segs, st) -> is_hdrsend (hd (MBuf t segs, st)) = false /\ h_size (hd (MBuf t segs, st)) = lenN (concat segs) /\ process_recv (hd (MBuf t segs, st)) (concat segs) = Some (IBuf t (concat segs)).
Proof.
  intros HM ((Ht & _ & Hl) & _). unfold process_recv, is_hdrsend, hd. cbn [fst snd]. assert (HL : (lenN (concat segs) < 2^32)%N).
  { unfold lenN. lia. }
  destruct (fields netot_Send t (lenN (concat segs)) st ltac:(reflexivity) Ht HL) as (A & B & C & D). rewrite A, B, C, D. split; [reflexivity|]. split; [reflexivity|]. change (negb (123 =? 123)%N) with false. change (negb (N.land netot_Send netot_HdrSend =? 0)%N) with false. cbv iota zeta. unfold lenN. rewrite Nat2N.id. destruct (Nat.eqb_spec (length (concat segs)) 0); [lia|]. destruct (Nat.leb_spec (length (concat segs)) inline_size) as [X|X]; [unfold inline_size in X; lia|]. rewrite Nat.sub_diag. cbn [repeat]. rewrite app_nil_r, firstn_all. reflexivity.
Qed.

(* ---- the invariant ---- *)
Definition pending (n : node) : bytes := concat (s_iov n) ++ fmts (s_queue n).
Record sending (M : nat) (n : node) : Prop := {
  v_idle : s_status n = false -> s_iov n = [] /\ s_queue n = [];
  v_busy : s_status n = true -> s_iov n <> [];
  v_iov : Forall (fun s => s <> []) (s_iov n);
  v_queue : Forall (okitem M) (s_queue n)
}.
Definition receiving (n : node) (todo : list (message * bytes)) : Prop :=
  match r_status n with
  | 0 => r_iov n = [] /\ r_queue n = [] /\ wire n ++ pending n = fmts todo
  | 1 => pos_list (r_iov n) /\ r_iov n <> [] /\ total (r_iov n) + length (r_got n) = 48 /\ r_got n ++ wire n ++ pending n = fmts todo
  | 2 => pos_list (r_iov n) /\ r_iov n <> [] /\ exists t segs st rest, todo = (MBuf t segs, st) :: rest /\ r_header n = hd (MBuf t segs, st)
         /\ total (r_iov n) + length (r_got n) = length (concat segs) /\ r_got n ++ wire n ++ pending n = concat segs ++ fmts rest
  | _ => False
  end.
Record inv (M : nat) (n : node) (todo : list (message * bytes)) (ms : list message) (np : nat) : Prop := {
  i_send : sending M n;
  i_todo : Forall (okitem M) todo;
  i_recv : receiving n todo;
  i_buf : r_status n <> 0 -> okpost M (r_buf n);
  i_posts : Forall (okpost M) (r_queue n);
  i_open : closed n = false;
  i_items : out n ++ map (fun x => item_of (fst x)) todo = map item_of ms;
  i_count : length (out n) + length (r_queue n) + (if r_status n =? 0 then 0 else 1) = np
}.
Ltac prj := cbn [s_status s_iov s_queue wire r_status r_iov r_got r_header r_buf r_queue out closed set_send set_recv] in *.
Lemma fmts_app a b : fmts (a ++ b) = fmts a ++ fmts b.
Proof. unfold fmts. rewrite map_app, concat_app. reflexivity. Qed.
Lemma fmts_cons x l : fmts (x :: l) = fmt x ++ fmts l.
Proof. reflexivity. Qed.
Lemma app_split_at {A} (a b c d : list A) : a ++ b = c ++ d -> length a = length c -> a = c /\ b = d.
Proof. revert c. induction a as [|x a IH]; intros [|y c] E L; try discriminate; [auto|]. cbn in *. injection E as -> E. destruct (IH c E ltac:(lia)) as (-> & ->). auto. Qed.

(* only the sending part changes; [x]: bytes added to what is to come *)
Lemma recv_frame n n' todo more : receiving n todo -> r_status n' = r_status n -> r_iov n' = r_iov n -> r_got n' = r_got n -> r_header n' = r_header n -> r_queue n' = r_queue n ->
  wire n' ++ pending n' = (wire n ++ pending n) ++ fmts more -> receiving n' (todo ++ more).
Proof.
  unfold receiving. intros R E1 E2 E3 E4 E5 E6. rewrite E1, E2, E3, E4, E5, E6. destruct (r_status n) as [|[|[|]]].
  - destruct R as (A & B & C). rewrite C, fmts_app. auto.
  - destruct R as (A & B & C & D). rewrite (app_assoc (r_got n)), D, fmts_app. auto.
  - destruct R as (A & B & t & segs & st & rest & C & D & E & F). split; [exact A|]. split; [exact B|]. exists t, segs, st, (rest ++ more). rewrite C. split; [reflexivity|]. split; [exact D|]. split; [exact E|]. rewrite (app_assoc (r_got n)), F, fmts_app, <- app_assoc. reflexivity.
  - contradiction.
Qed.
Lemma completed_send M n : Forall (okitem M) (s_queue n) -> let n' := on_send_completed n in
  sending M n' /\ wire n' = wire n /\ pending n' = fmts (s_queue n) /\ r_status n' = r_status n /\ r_iov n' = r_iov n /\ r_got n' = r_got n /\ r_header n' = r_header n /\ r_queue n' = r_queue n /\ r_buf n' = r_buf n /\ closed n' = closed n /\ out n' = out n.
Proof.
  intros F. cbv zeta. unfold on_send_completed, pending. destruct (s_queue n) as [|[m st] q]; prj.
  - split; [split; prj; auto; discriminate|]. auto 12.
  - inversion F as [|? ? Fx Fq]; subst. destruct (pack_ok M _ Fx) as (A & B & _). cbn [fst snd] in *. split; [split; prj; auto; discriminate|]. auto 12.
Qed.
Lemma send_ok M n todo ms np m st : inv M n todo ms np -> okitem M (m, st) -> inv M (submit_send n m st) (todo ++ [(m, st)]) (ms ++ [m]) np.
Proof.
  intros [Hs Ht Hr Hb Hp Ho Hi Hc] Hm. unfold submit_send. cbv zeta. set (n1 := SockModel.set_send n (s_status n) (s_iov n) (s_queue n ++ [(m, st)]) (wire n)).
  assert (Fq : Forall (okitem M) (s_queue n1)) by (unfold n1; prj; apply Forall_app; split; [apply (v_queue M n Hs)|constructor; auto]).
  assert (Todo : Forall (okitem M) (todo ++ [(m, st)])) by (apply Forall_app; split; [exact Ht|constructor; auto]).
  assert (Items : forall o, o = out n -> o ++ map (fun x => item_of (fst x)) (todo ++ [(m, st)]) = map item_of (ms ++ [m])) by (intros o ->; rewrite !map_app, app_assoc, Hi; reflexivity).
  assert (Pn : pending n1 = pending n ++ fmts [(m, st)]) by (unfold n1, pending; prj; rewrite fmts_app, app_assoc; reflexivity).
  destruct ((length (s_queue n1) =? 1) && negb (s_status n1)) eqn:C.
  - apply andb_true_iff in C. destruct C as (_ & C). assert (Sf : s_status n = false) by (unfold n1 in C; prj; destruct (s_status n); [discriminate|reflexivity]). destruct (v_idle M n Hs Sf) as (I1 & I2).
    destruct (completed_send M n1 Fq) as (A1 & A2 & A3 & A4 & A5 & A6 & A7 & A8 & A9 & A10 & A11). set (n2 := on_send_completed n1) in *. split.
    + exact A1.
    + exact Todo.
    + apply (recv_frame n); auto. rewrite A2, A3. unfold n1. prj. rewrite I2. unfold pending. rewrite I1, I2. cbn [concat app]. unfold fmts. cbn [map concat]. rewrite !app_nil_r. reflexivity.
    + rewrite A4, A9. exact Hb.
    + rewrite A8. exact Hp.
    + rewrite A10. exact Ho.
    + apply Items. rewrite A11. reflexivity.
    + rewrite A11, A8, A4. exact Hc.
  - split.
    + destruct Hs. unfold n1. split; prj; auto. intros E. destruct (v_idle0 E) as (I1 & I2). exfalso. unfold n1 in C. prj. rewrite I2, E in C. discriminate.
    + exact Todo.
    + apply (recv_frame n); auto. rewrite Pn, app_assoc. reflexivity.
    + exact Hb.
    + exact Hp.
    + exact Ho.
    + apply Items. reflexivity.
    + exact Hc.
Qed.
Lemma write_ok M n todo ms np k : inv M n todo ms np -> inv M (write n k) todo ms np.
Proof.
  intros I. assert (I' := I). destruct I' as [Hs Ht Hr Hb Hp Ho Hi Hc]. unfold write. destruct (s_iov n) as [|x r] eqn:E; [exact I|]. rewrite <- E. assert (Ne : s_iov n <> []) by congruence. cbv zeta. assert (L0 : 0 < length (concat (s_iov n))). { assert (F := v_iov M n Hs). rewrite E in F |- *. inversion F as [|? ? Fx Fr]; subst. cbn [concat]. rewrite app_length. destruct x; [contradiction|cbn; lia]. }
  destruct (Nat.eqb_spec (length (concat (s_iov n))) 0); [lia|]. set (k' := Nat.min k (length (concat (s_iov n)))). assert (A := advance_write (s_iov n) k' (v_iov M n Hs) Ne ltac:(lia)).
  destruct (advance _ _ _ k') as [i|].
  - destruct A as (A & B & C). split; prj; auto.
    + destruct Hs. split; prj; auto. intros F. destruct (v_idle0 F). contradiction.
    + rewrite <- (app_nil_r todo). apply (recv_frame n); auto. unfold pending. prj. rewrite A. change (fmts []) with (@nil N). rewrite app_nil_r, <- !app_assoc. f_equal. rewrite app_assoc, firstn_skipn. reflexivity.
  - set (n1 := SockModel.set_send n (s_status n) [] (s_queue n) (wire n ++ firstn k' (concat (s_iov n)))). destruct (completed_send M n1 (v_queue M n Hs)) as (A1 & A2 & A3 & A4 & A5 & A6 & A7 & A8 & A9 & A10 & A11). set (n2 := on_send_completed n1) in *. split.
    + exact A1.
    + exact Ht.
    + rewrite <- (app_nil_r todo). apply (recv_frame n); auto. rewrite A2, A3. unfold n1, pending. prj. rewrite A, firstn_all. change (fmts []) with (@nil N). rewrite app_nil_r, <- app_assoc. reflexivity.
    + rewrite A4, A9. exact Hb.
    + rewrite A8. exact Hp.
    + rewrite A10. exact Ho.
    + rewrite A11. exact Hi.
    + rewrite A11, A8, A4. exact Hc.
Qed.
Lemma start_ok M n todo ms np : sending M n -> Forall (okitem M) todo -> wire n ++ pending n = fmts todo -> Forall (okpost M) (r_queue n) -> closed n = false ->
  out n ++ map (fun x => item_of (fst x)) todo = map item_of ms -> length (out n) + length (r_queue n) = np -> inv M (start_recv n) todo ms np.
Proof.
  intros Hs Ht Hw Hp Ho Hi Hc. unfold start_recv. destruct (r_queue n) as [|b q].
  - split; prj; [destruct Hs; split; prj; auto|exact Ht|unfold receiving; prj; auto|contradiction|constructor|exact Ho|exact Hi|cbn in *; lia].
  - inversion Hp as [|? ? Pb Pq]; subst. split; prj; [destruct Hs; split; prj; auto|exact Ht| |auto|exact Pq|exact Ho|exact Hi|cbn in *; lia]. unfold receiving. prj. split; [constructor; [unfold header_size; lia|constructor]|]. split; [discriminate|]. split; [reflexivity|exact Hw].
Qed.
Lemma post_ok M n todo ms np b : inv M n todo ms np -> okpost M b -> inv M (submit_recv n b) todo ms (S np).
Proof.
  intros [Hs Ht Hr Hb Hp Ho Hi Hc] Pb. unfold submit_recv. cbv zeta. set (n1 := SockModel.set_recv n (r_status n) (r_iov n) (r_got n) (r_header n) (r_buf n) (r_queue n ++ [b]) (out n)).
  assert (Fp : Forall (okpost M) (r_queue n ++ [b])) by (apply Forall_app; split; [exact Hp|constructor; auto]). assert (S1 : sending M n1) by (destruct Hs; unfold n1; split; prj; auto).
  destruct (r_status n) as [|st] eqn:Es.
  - unfold receiving in Hr. rewrite Es in Hr. destruct Hr as (R1 & R2 & R3). unfold n1 at 1 2. prj. rewrite R2. cbn [length app Nat.eqb andb]. unfold on_recv_completed. unfold n1 at 1. prj. apply start_ok; auto. unfold n1. prj. rewrite app_length. cbn [length Nat.eqb] in *. lia.
  - unfold n1 at 2. prj. cbn [Nat.eqb]. rewrite Bool.andb_false_r. split; auto.
    + unfold receiving in *. rewrite Es in Hr. unfold n1. prj. destruct st as [|[|]]; [exact Hr|exact Hr|contradiction].
    + unfold n1. prj. cbn [Nat.eqb] in *. rewrite app_length. cbn [length]. lia.
Qed.
Lemma complete_ok M n x todo ms np h got : sending M n -> Forall (okitem M) todo -> wire n ++ pending n = fmts todo -> Forall (okpost M) (r_queue n) -> closed n = false ->
  out n ++ map (fun x => item_of (fst x)) (x :: todo) = map item_of ms -> length (out n) + length (r_queue n) + 1 = np -> process_recv h got = Some (item_of (fst x)) -> inv M (complete n h got) todo ms np.
Proof.
  intros Hs Ht Hw Hp Ho Hi Hc P. unfold complete. rewrite P. apply start_ok; prj; auto.
  - destruct Hs; split; prj; auto.
  - rewrite <- app_assoc. exact Hi.
  - rewrite app_length. cbn [length]. lia.
Qed.
Lemma read_ok M n todo ms np k : (N.of_nat M < 2^32)%N -> inv M n todo ms np -> inv M (read n k) todo ms np \/ exists x r, todo = x :: r /\ inv M (read n k) r ms np.
Proof.
  intros HM I. assert (I' := I). destruct I' as [Hs Ht Hr Hb Hp Ho Hi Hc]. unfold read. destruct (r_iov n) as [|y l] eqn:E; [left; exact I|]. rewrite <- E. assert (Ne : r_iov n <> []) by congruence. cbv zeta. set (k' := Nat.min k _). assert (K1 : k' <= length (wire n)) by lia. assert (K2 : k' <= list_sum (r_iov n)) by (unfold total in *; lia).
  assert (S0 : r_status n <> 0) by (intros Z; unfold receiving in Hr; rewrite Z in Hr; destruct Hr; contradiction).
  assert (Pl : pos_list (r_iov n)) by (unfold receiving in Hr; destruct (r_status n) as [|[|[|]]]; [contradiction|apply Hr|apply Hr|contradiction]).
  assert (W : forall g : bytes, (g ++ firstn k' (wire n)) ++ skipn k' (wire n) ++ pending n = g ++ wire n ++ pending n) by (intros g; rewrite <- app_assoc; f_equal; rewrite app_assoc, firstn_skipn; reflexivity).
  assert (A := advance_read (r_iov n) k' Pl Ne K2). assert (Lf : length (firstn k' (wire n)) = k') by (rewrite firstn_length; lia).
  destruct (advance _ _ (r_iov n) k') as [i|].
  - left. destruct A as (A & B & C). split; prj; [destruct Hs; split; prj; auto|exact Ht| |exact Hb|exact Hp|exact Ho|exact Hi|exact Hc].
    unfold receiving in *. prj. unfold pending in *. prj. unfold total in *. destruct (r_status n) as [|[|[|]]]; [contradiction| | |contradiction].
    + destruct Hr as (R1 & R2 & R3 & R4). split; [exact B|]. split; [exact C|]. split; [rewrite app_length; lia|]. rewrite W. exact R4.
    + destruct Hr as (R1 & R2 & t & segs & st & rest & R3 & R4 & R5 & R6). split; [exact B|]. split; [exact C|]. exists t, segs, st, rest. split; [exact R3|]. split; [exact R4|]. split; [rewrite app_length; lia|]. rewrite W. exact R6.
  - set (got := r_got n ++ firstn k' (wire n)). set (n1 := SockModel.set_recv _ _ _ _ _ _ _ _). assert (S1 : sending M n1) by (destruct Hs; unfold n1; split; prj; auto). assert (Lg : length got = length (r_got n) + list_sum (r_iov n)) by (unfold got; rewrite app_length; lia).
    assert (Cn : length (out n) + length (r_queue n) + 1 = np) by (destruct (Nat.eqb_spec (r_status n) 0); [contradiction|exact Hc]).
    unfold receiving in Hr. unfold on_recv_completed. unfold n1 at 1. prj. destruct (r_status n) as [|[|[|]]] eqn:Es; [contradiction| | |contradiction].
    + destruct Hr as (_ & _ & R3 & R4). unfold total in R3. rewrite <- (W (r_got n)) in R4. fold got in R4. destruct todo as [|x r].
      { exfalso. apply (f_equal (@length N)) in R4. rewrite app_length in R4. cbn in R4. lia. }
      inversion Ht as [|? ? Tx Tr]; subst. destruct (pack_ok M x Tx) as (_ & _ & Fx & Lh). rewrite fmts_cons, Fx, <- app_assoc in R4. destruct (app_split_at _ _ _ _ R4 ltac:(lia)) as (Eg & Er). change (r_got n1) with got. rewrite Eg. destruct x as [[t segs| |c] st]; [| destruct Tx as (Tx & _); contradiction|].
      * destruct (buf_fields M t segs st HM Tx) as (B1 & B2 & B3). rewrite B1, B2. destruct Tx as ((T1 & T2 & T3) & T4). cbn [fst snd] in *. destruct (Hb ltac:(discriminate)) as (Pb & Ps). change (r_buf n1) with (r_buf n). unfold lenN, total. destruct (N.ltb_spec (N.of_nat (list_sum (r_buf n))) (N.of_nat (length (concat segs)))); [lia|]. left. rewrite Nat2N.id.
        destruct (recv_iov_ok (r_buf n) (length (concat segs)) Pb ltac:(lia)) as (V1 & V2 & V3). split; prj; [destruct S1; split; prj; auto|exact Ht| |intros _; split; assumption|exact Hp|exact Ho|exact Hi|cbn [Nat.eqb]; reflexivity || lia].
        unfold receiving. prj. split; [exact V1|]. split; [exact V2|]. exists t, segs, st, r. split; [reflexivity|]. split; [reflexivity|]. split; [unfold total; cbn [length]; lia|]. exact Er.
      * destruct (ack_fields M c st Tx) as (B1 & B2). rewrite B1. right. exists (MAck c, st), r. split; [reflexivity|]. apply (complete_ok M n1 (MAck c, st)); auto.
    + destruct Hr as (_ & _ & t & segs & st & rest & R3 & R4 & R5 & R6). unfold total in R5. rewrite <- (W (r_got n)) in R6. fold got in R6. destruct (app_split_at _ _ _ _ R6 ltac:(lia)) as (Eg & Er). right. exists (MBuf t segs, st), rest. split; [exact R3|]. rewrite R3 in Ht, Hi. inversion Ht as [|? ? Tx Tr]; subst. apply (complete_ok M n1 (MBuf t segs, st)); auto.
      change (r_header n1) with (r_header n). change (r_got n1) with got. rewrite R4, Eg. destruct (buf_fields M t segs st HM Tx) as (_ & _ & B3). exact B3.
Qed.
Lemma run_inv M l : (N.of_nat M < 2^32)%N -> Forall (okevent M) l -> exists todo, inv M (run l) todo (messages l) (length (posts l)).
Proof.
  intros HM. induction l as [|e l IH] using rev_ind; intros F.
  - exists []. split; [split; cbn; auto; discriminate|constructor|unfold receiving; cbn; auto|cbn; congruence|constructor|reflexivity|reflexivity|reflexivity].
  - apply Forall_app in F. destruct F as (F & Fe). inversion Fe as [|? ? Oe _]; subst. destruct (IH F) as (todo & I). unfold run, messages, posts in *. rewrite fold_left_app, !flat_map_app, app_length. cbn [fold_left flat_map length]. unfold step at 1. rewrite (i_open _ _ _ _ _ I). destruct e as [m st|b|k|k]; rewrite ?app_nil_r; cbn [length app]; rewrite ?Nat.add_0_r, ?Nat.add_1_r.
    + eexists. apply send_ok; [exact I|]. split; apply Oe.
    + eexists. apply post_ok; [exact I|exact Oe].
    + eexists. apply write_ok. exact I.
    + destruct (read_ok _ _ _ _ _ k HM I) as [J|(x & r & _ & J)]; eexists; exact J.
Qed.

(* ---- nothing more to do ---- *)
Lemma stuck_write M n todo ms np : inv M n todo ms np -> (forall k, write n k = n) -> pending n = [].
Proof.
  intros [Hs _ _ _ _ _ _ _] W. destruct (s_iov n) as [|x r] eqn:E.
  - destruct (s_status n) eqn:S0; [destruct (v_busy M n Hs S0 E)|]. destruct (v_idle M n Hs S0) as (A & B). unfold pending. rewrite A, B. reflexivity.
  - exfalso. specialize (W (length (concat (s_iov n)))). assert (Wf := f_equal wire W). unfold write in Wf. rewrite E in Wf. rewrite <- E in Wf. cbv zeta in Wf. rewrite Nat.min_id in Wf.
    assert (L0 : 0 < length (concat (s_iov n))). { assert (F := v_iov M n Hs). rewrite E in F |- *. inversion F as [|? ? Fx Fr]; subst. cbn [concat]. rewrite app_length. destruct x; [contradiction|cbn; lia]. }
    destruct (Nat.eqb_spec (length (concat (s_iov n))) 0); [lia|]. rewrite firstn_all in Wf. assert (Lw : length (wire n ++ concat (s_iov n)) = length (wire n)); [|rewrite app_length in Lw; lia].
    destruct (advance _ _ _ _); [|unfold on_send_completed in Wf; prj; destruct (s_queue n) as [|[m st] q]]; prj; rewrite Wf; reflexivity.
Qed.
Lemma wire_recv_completed n : wire (on_recv_completed n) = wire n.
Proof.
  unfold on_recv_completed, complete, start_recv, close. destruct (r_status n) as [|[|[|]]]; try (destruct (r_queue n); reflexivity).
  - destruct (is_hdrsend _); [destruct (process_recv _ _); [prj; destruct (r_queue n); reflexivity|reflexivity]|]. destruct (_ <? _)%N; reflexivity.
  - destruct (process_recv _ _); [prj; destruct (r_queue n); reflexivity|reflexivity].
Qed.
Lemma stuck_read n : pos_list (r_iov n) -> r_iov n <> [] -> (forall k, read n k = n) -> wire n = [].
Proof.
  intros Pl Ne R. destruct (wire n) as [|b w] eqn:E; [reflexivity|exfalso]. specialize (R 1). assert (Rf := f_equal wire R). unfold read in Rf. assert (P := pos_sum _ Pl Ne). destruct (r_iov n) as [|x l] eqn:Ei; [contradiction|]. rewrite <- Ei in Rf. rewrite <- Ei in P. cbv zeta in Rf. rewrite E in Rf. cbn [length] in Rf. replace (Nat.min 1 (Nat.min (S (length w)) (total (r_iov n)))) with 1 in Rf by (unfold total; rewrite Ei in *; lia).
  assert (L : length w = length (b :: w)); [|cbn in L; lia]. destruct (advance _ _ _ _); rewrite ?wire_recv_completed in Rf; prj; cbn [skipn] in Rf; exact (f_equal (@length N) Rf).
Qed.
Lemma stuck_done M n todo ms np : inv M n todo ms np -> (forall k, write n k = n) -> (forall k, read n k = n) -> length ms <= np -> todo = [].
Proof.
  intros I W R L. assert (Pn := stuck_write M n todo ms np I W). assert (Lo : length (out n) + length todo = length ms) by (assert (X := f_equal (@length item) (i_items _ _ _ _ _ I)); rewrite app_length, !map_length in X; exact X). assert (Hc := i_count _ _ _ _ _ I). destruct I as [Hs Ht Hr Hb Hp Ho Hi _]. unfold receiving in Hr. rewrite Pn in Hr. destruct (r_status n) as [|[|[|]]]; cbn [Nat.eqb] in Hc.
  - destruct Hr as (_ & R2 & _). rewrite R2 in Hc. cbn [length] in Hc. destruct todo; [reflexivity|cbn in Lo; lia].
  - destruct Hr as (A & B & C & D). rewrite (stuck_read n A B R), !app_nil_r in D. destruct todo as [|x r]; [reflexivity|exfalso]. inversion Ht as [|? ? Tx Tr]; subst. destruct (pack_ok M x Tx) as (_ & _ & Fx & Lh). apply (f_equal (@length N)) in D. rewrite fmts_cons, Fx, !app_length in D. assert (P := pos_sum _ A B). unfold total in C. lia.
  - exfalso. destruct Hr as (A & B & t & segs & st & rest & C & D & E & F). rewrite (stuck_read n A B R), !app_nil_r in F. apply (f_equal (@length N)) in F. rewrite app_length in F. assert (P := pos_sum _ A B). unfold total in E. lia.
  - contradiction.
Qed.
