(* Lemmas for C53. *)
From Verif Require Import Common ListFacts TransportSpec TransportModel TransportProofs MuxSpec MuxModel.
Local Open Scope nat_scope.

Section P.
Context {X : Type}.

(* ---- one transport ---- *)
Lemma send_sig (t : lt X) x t1 sk f : lt_send t x = Some (t1, sk, f) ->
  t_outkind t1 = t_outkind t /\ t_inpkind t1 = t_inpkind t /\ t_sigout t1 = (if t_sigout t =? 2 then 3 else t_sigout t) /\
  (t_inpkind t = SignalEvery -> t_inpconn t = true -> f = true).
Proof.
  unfold lt_send. intros H. destruct (if b_full (t_q t) && negb (t_blocking t) then _ else _) as [q1 skip]. destruct (bq_push q1 (Some x)) as [[[ok q2] mine] lost]. destruct mine; [discriminate|].
  unfold signal_inp in H. cbn [t_sigout set_q] in H.
  destruct (t_sigout t =? 2) eqn:E2; cbn [set_sigout set_q t_inpconn t_inpkind t_siginp] in H; destruct (t_inpconn t); destruct (t_inpkind t) eqn:K; try destruct (t_siginp t =? 3); injection H as <- _ <-; cbn; repeat split; auto; discriminate.
Qed.
Lemma recv_sig (t : lt X) t1 x f : lt_recv t = (t1, x, f) ->
  t_outkind t1 = t_outkind t /\ t_inpkind t1 = t_inpkind t /\
  match t_outkind t with
  | SignalNone => t_sigout t1 = t_sigout t /\ f = false
  | SignalConfirm => if t_sigout t =? 3 then t_sigout t1 = 1 /\ f = true else t_sigout t1 = t_sigout t /\ f = false
  | SignalOperation => if t_sigout t =? 3 then t_sigout t1 = 2 /\ f = true else t_sigout t1 = t_sigout t /\ f = false
  | SignalEvery => t_sigout t1 = t_sigout t /\ f = true
  end.
Proof.
  unfold lt_recv. intros H. destruct (bq_pop (t_q t)) as [[ok q1] y]. cbn [t_siginp set_q] in H. unfold signal_out in H.
  destruct (t_siginp t =? 2); cbn [set_siginp set_q t_outkind t_sigout] in H; destruct (t_outkind t) eqn:K; try destruct (t_sigout t =? 3) eqn:E; injection H as <- _ <-; cbn; rewrite ?K, ?E; auto.
Qed.

(* transport holding [l], blocking and connected *)
Record Tok (t : lt X) (l : list X) : Prop := {
  k_rep : TRep t l;
  k_cap : 0 < b_cap (t_q t);
  k_inp : t_inpconn t = true;
  k_out : t_outconn t = true;
  k_blk : t_block_conn t = true
}.
Lemma tok_blocking t l : Tok t l -> t_blocking t = true.
Proof. intros [A B C D E]. unfold t_blocking. rewrite C, D. exact E. Qed.
Lemma tok_le t l : Tok t l -> length l <= b_cap (t_q t).
Proof. intros K. assert (A := br_size _ _ (k_rep _ _ K)). assert (B := br_le _ _ (k_rep _ _ K)). rewrite map_length in A. lia. Qed.
Lemma tok_can t l : Tok t l -> can_send t = true <-> length l < b_cap (t_q t).
Proof.
  intros K. rewrite (can_send_spec t l (k_rep _ _ K) (k_cap _ _ K)), (tok_blocking _ _ K). assert (L := tok_le _ _ K). destruct (Nat.eqb_spec (length l) (b_cap (t_q t))); cbn; split; intros; try lia; try discriminate; auto.
Qed.
Lemma tok_conf t t' l l' : Tok t l -> TRep t' l' -> same_conf t t' -> Tok t' l'.
Proof. intros [A B C D E] R (S1 & S2 & S3 & S4 & S5). split; auto; congruence. Qed.
Lemma tok_send t l x : Tok t l -> length l < b_cap (t_q t) -> exists t1 f, lt_send t x = Some (t1, None, f) /\ Tok t1 (l ++ [x]) /\ b_cap (t_q t1) = b_cap (t_q t).
Proof.
  intros K L. assert (S := lt_send_spec t l x (k_rep _ _ K) (k_cap _ _ K)). destruct (Nat.eqb_spec (length l) (b_cap (t_q t))); [lia|]. cbn [andb] in S. destruct S as (t1 & f & E & R & C). exists t1, f. split; [exact E|]. split; [|apply C]. apply (tok_conf t t1 l); auto. unfold newest in R. rewrite app_length in R. cbn [length] in R. replace (length l + 1 - b_cap (t_q t)) with 0 in R by lia. exact R.
Qed.
Lemma tok_recv t l : Tok t l -> exists t1 f, lt_recv t = (t1, hd_error l, f) /\ Tok t1 (tl l) /\ b_cap (t_q t1) = b_cap (t_q t).
Proof. intros K. destruct (lt_recv_spec t l (k_rep _ _ K)) as (t1 & f & E & R & C). exists t1, f. split; [exact E|]. split; [apply (tok_conf t t1 l); auto|apply C]. Qed.
Lemma tok_confirm t l b : Tok t l -> Tok (lt_confirm t b) l /\ b_cap (t_q (lt_confirm t b)) = b_cap (t_q t) /\ t_outkind (lt_confirm t b) = t_outkind t.
Proof. intros [A B C D E]. unfold lt_confirm. destruct b; [destruct (t_outkind t) eqn:K|destruct (t_inpkind t) eqn:K]; cbn; (split; [split; auto|auto]). Qed.
Lemma confirm_sig t l : Tok t l -> t_sigout (lt_confirm t true) = match t_outkind t with SignalConfirm => if length l =? b_cap (t_q t) then 3 else 2 | _ => t_sigout t end.
Proof. intros K. unfold lt_confirm, b_full. rewrite (br_size _ _ (k_rep _ _ K)), map_length. destruct (t_outkind t); reflexivity. Qed.

(* ---- lists ---- *)
Lemma forall2_nth {A B} (P : A -> B -> Prop) l l' i x : Forall2 P l l' -> nth_error l i = Some x -> exists y, nth_error l' i = Some y /\ P x y.
Proof. intros F. revert i. induction F as [|a b l l' Hab F IH]; intros [|i] E; try discriminate; cbn in *; [injection E as <-; eauto|auto]. Qed.
Lemma forall2_upd {A B} (P : A -> B -> Prop) l l' i x y : Forall2 P l l' -> P x y -> Forall2 P (upd l i x) (upd l' i y).
Proof. intros F H. revert i. induction F as [|a b l l' Hab F IH]; intros [|i]; cbn; constructor; auto. Qed.
Lemma forall2_len {A B} (P : A -> B -> Prop) l l' : Forall2 P l l' -> length l = length l'.
Proof. induction 1; cbn; lia. Qed.
Lemma nth_error_nth0 {A} (l : list A) i x d : nth_error l i = Some x -> nth i l d = x /\ i < length l.
Proof. intros E. split; [apply nth_error_nth; exact E|apply nth_error_Some; congruence]. Qed.
Definition cnt (i : nat) (l : list nat) : nat := count_occ Nat.eq_dec l i.
Lemma cnt_app i a b : cnt i (a ++ b) = cnt i a + cnt i b.
Proof. apply count_occ_app. Qed.
Lemma cnt_cons i j l : cnt i (j :: l) = (if j =? i then 1 else 0) + cnt i l.
Proof. unfold cnt. cbn. destruct (Nat.eq_dec j i); destruct (Nat.eqb_spec j i); lia. Qed.
Lemma cnt_remove_at i k l j : nth_error l k = Some j -> cnt i l = cnt i [j] + cnt i (remove_at k l).
Proof.
  intros E. assert (H : l = firstn k l ++ j :: skipn (S k) l). { rewrite <- (firstn_skipn k l) at 1. f_equal. revert l E. induction k as [|k IH]; intros [|y l] E; try discriminate; cbn in *; [injection E as ->; reflexivity|apply IH; exact E]. }
  unfold remove_at. rewrite H at 1. rewrite !cnt_app, cnt_cons, cnt_cons. change (cnt i []) with 0. lia.
Qed.
Lemma in_remove_at {A} (x : A) k l j : nth_error l k = Some j -> In x l -> x = j \/ In x (remove_at k l).
Proof.
  intros E H. unfold remove_at. revert l E H. induction k as [|k IH]; intros [|y l] E H; try discriminate; cbn in *.
  - injection E as ->. destruct H; auto.
  - destruct H as [H|H]; [auto|]. destruct (IH l E H); auto.
Qed.
Definition inids (l : list xev) : list nat := flat_map (fun e => match e with EvIn i => [i] | EvOut _ => [] end) l.
Lemma inids_app a b : inids (a ++ b) = inids a ++ inids b.
Proof. apply flat_map_app. Qed.
Lemma of_input_app i (a b : list (nat * X)) : of_input i (a ++ b) = of_input i a ++ of_input i b.
Proof. unfold of_input. rewrite filter_app, map_app. reflexivity. Qed.
Lemma of_input_one i j (x : X) : of_input i [(j, x)] = if j =? i then [x] else [].
Proof. unfold of_input. cbn. destruct (j =? i); reflexivity. Qed.

(* ---- the invariant ---- *)
Definition Iok (t : lt X) (l : list X) : Prop := Tok t l /\ t_inpkind t = SignalEvery.
Definition pend (s : mux X) (o : nat) : Prop := In o (x_wout s) \/ In (EvOut o) (x_ev s) \/ x_pc s = XConfirm o.
Definition Sig (t : lt X) (l : list X) (p : Prop) : Prop :=
  match t_outkind t with
  | SignalNone => False
  | SignalEvery => True
  | _ => (length l = b_cap (t_q t) -> t_sigout t <> 2) /\ (t_sigout t = 1 -> p /\ t_outkind t = SignalConfirm) /\ 1 <= t_sigout t <= 3
  end.
Definition room (s : mux X) (lo : list (list X)) (o : nat) : Prop :=
  match nth_error (x_out s) o with Some t => length (nth o lo []) < b_cap (t_q t) | None => True end.
Definition doing (s : mux X) : list nat := match x_pc s with XRecv i => [i] | XFlag _ _ p => [fst p] | _ => [] end.
Definition held (s : mux X) : list (nat * X) := match x_pc s with XFlag _ _ p => [p] | _ => [] end.
Definition unsent (s : mux X) (o : nat) : list X := match x_pc s with XSend n _ p => if n <=? o then [snd p] else [] | _ => [] end.
Definition pcok (s : mux X) (lo : list (list X)) : Prop :=
  match x_pc s with
  | XIdle => x_q s <> [] -> exists o, o < length lo /\ (~ room s lo o \/ pend s o)
  | XConfirm o => o < length lo
  | XCheck n => forall o, o < n -> room s lo o
  | XRecv i => i < length (x_inp s) /\ forall o, room s lo o
  | XFlag n fl p => fl = repeat true n /\ n <= length lo /\ forall o, room s lo o
  | XSend n fl p => fl = repeat true (length lo) /\ n <= length lo /\ forall o, n <= o -> room s lo o
  end.
Record inv (s : mux X) (li lo : list (list X)) : Prop := {
  v_inp : Forall2 Iok (x_inp s) li;
  v_out : Forall2 Tok (x_out s) lo;
  v_run : x_run s = true;
  v_exit : x_exit s = false;
  v_pc : pcok s lo;
  v_cnt : forall i, cnt i (inids (x_ev s)) + cnt i (x_win s) + cnt i (x_q s) + (match x_pc s with XRecv j => if j =? i then 1 else 0 | _ => 0 end) = length (nth i li []);
  v_order : x_fired s = map fst (x_done s) ++ doing s ++ x_q s ++ inids (x_ev s);
  v_arr : forall i, of_input i (x_arrived s) = of_input i (x_done s) ++ of_input i (held s) ++ nth i li [];
  v_taken : length (x_taken s) = length lo;
  v_sent : forall o, o < length lo -> nth o (x_taken s) [] ++ nth o lo [] ++ unsent s o = map snd (x_done s);
  v_sig : forall o t, nth_error (x_out s) o = Some t -> Sig t (nth o lo []) (pend s o);
  v_evs : forall o, pend s o -> o < length lo
}.

Ltac prj := cbn [x_inp x_out x_q x_ev x_win x_wout x_pc x_run x_exit x_arrived x_fired x_done x_taken set_ev set_h set_out set_inp set_done set_exit set_run] in *.

Lemma sig_mono t l (p q : Prop) : (p -> q) -> Sig t l p -> Sig t l q.
Proof. unfold Sig. intros H. destruct (t_outkind t); auto; intros (A & B & C); (split; [exact A|split; [|exact C]]; intros E; destruct (B E); auto). Qed.
Lemma nth_upd0 {A} (l : list (list A)) i v j : i < length l -> nth j (upd l i v) [] = if j =? i then v else nth j l [].
Proof. intros H. rewrite nth_upd_eq. destruct (Nat.ltb_spec i (length l)); [|lia]. rewrite Bool.andb_true_r. reflexivity. Qed.
Lemma ne_upd {A} (l : list A) i v j : i < length l -> nth_error (upd l i v) j = if j =? i then Some v else nth_error l j.
Proof. intros H. rewrite nth_error_upd. destruct (Nat.ltb_spec i (length l)); [|lia]. rewrite Bool.andb_true_r. reflexivity. Qed.
Lemma nth_tl {A} (l : list A) (x : A) : hd_error l = Some x -> l = x :: tl l.
Proof. destruct l; [discriminate|]. cbn. intros [= ->]. reflexivity. Qed.

Lemma arrive_ok s li lo i x : inv s li lo -> exists li', inv (step s (AArrive i x)) li' lo.
Proof.
  intros V. assert (V' := V). destruct V' as [V1 V2 V3 V4 V5 V6 V7 V8 V9 V10 V11 V12]. unfold step. rewrite V4. destruct (nth_error (x_inp s) i) as [t|] eqn:E; [|eauto]. destruct (forall2_nth _ _ _ _ _ V1 E) as (l & El & K & Kk). destruct (can_send t) eqn:C; [|eauto].
  destruct (tok_send t l x K (proj1 (tok_can t l K) C)) as (t1 & f & Es & K1 & _). rewrite Es. destruct (send_sig _ _ _ _ _ Es) as (_ & S2 & _ & S4). rewrite (S4 Kk (k_inp _ _ K)). destruct (nth_error_nth0 _ _ _ [] El) as (Nl & Ll). exists (upd li i (l ++ [x])). split; prj; auto.
  - apply forall2_upd; [exact V1|]. split; [exact K1|congruence].
  - unfold pcok in *. prj. destruct (x_pc s); auto. rewrite upd_length. exact V5.
  - intros j. rewrite nth_upd0 by exact Ll. rewrite cnt_app, cnt_cons. change (cnt j []) with 0. specialize (V6 j). rewrite (Nat.eqb_sym j i). destruct (Nat.eqb_spec i j) as [<-|]; [rewrite app_length; cbn [length]; rewrite Nl in V6; lia|lia].
  - intros j. rewrite of_input_app, V8, of_input_one, nth_upd0 by exact Ll. rewrite (Nat.eqb_sym j i). destruct (Nat.eqb_spec i j) as [<-|]; [rewrite <- Nl, <- !app_assoc|rewrite app_nil_r]; reflexivity.
Qed.
Lemma firein_ok s li lo k : inv s li lo -> inv (step s (AFireIn k)) li lo.
Proof.
  intros V. assert (V' := V). destruct V' as [V1 V2 V3 V4 V5 V6 V7 V8 V9 V10 V11 V12]. unfold step. rewrite V4. destruct (nth_error (x_win s) k) as [i|] eqn:E; [|exact V].
  assert (Pe : forall o, pend (set_ev s (x_ev s ++ [EvIn i]) (remove_at k (x_win s)) (x_wout s) (x_fired s ++ [i])) o <-> pend s o). { intros o. unfold pend. prj. rewrite in_app_iff. cbn. intuition discriminate. }
  split; prj; auto.
  - unfold pcok in *. prj. destruct (x_pc s); auto. intros Q. destruct (V5 Q) as (o & L & H). exists o. split; [exact L|]. destruct H as [H|H]; [left; exact H|right]. apply Pe. exact H.
  - intros j. rewrite inids_app, cnt_app. cbn [inids flat_map app]. assert (A := cnt_remove_at j k _ _ E). specialize (V6 j). lia.
  - rewrite V7, inids_app. unfold doing. prj. rewrite <- !app_assoc. reflexivity.
  - intros o t Et. apply (sig_mono t _ (pend s o)); [apply Pe|apply V11; exact Et].
  - intros o Ho. apply V12, Pe, Ho.
Qed.
Lemma fireout_ok s li lo k : inv s li lo -> inv (step s (AFireOut k)) li lo.
Proof.
  intros V. assert (V' := V). destruct V' as [V1 V2 V3 V4 V5 V6 V7 V8 V9 V10 V11 V12]. unfold step. rewrite V4. destruct (nth_error (x_wout s) k) as [o|] eqn:E; [|exact V].
  set (s1 := set_ev _ _ _ _ _). assert (Pe : forall p, pend s p -> pend s1 p). { intros p. unfold pend, s1. prj. rewrite in_app_iff. intros [H|[H|H]]; auto. destruct (in_remove_at p k _ _ E H) as [->|H']; auto. right. left. right. left. reflexivity. }
  assert (Pr : forall p, pend s1 p -> pend s p). { intros p. unfold pend, s1. prj. rewrite in_app_iff. unfold remove_at. rewrite in_app_iff. intros [[H|H]|[[H|[H|[]]]|H]]; auto. - left. apply (in_firstn _ _ _ H). - left. apply (in_skipn _ _ _ H). - injection H as <-. left. apply (nth_error_In _ _ E). }
  split; auto; try (unfold s1; prj; auto; fail).
  - unfold pcok in *. unfold s1 at 1. prj. destruct (x_pc s); auto. intros Q. destruct (V5 Q) as (q & L & H). exists q. split; [exact L|]. destruct H as [H|H]; [left; exact H|right; auto].
  - intros j. unfold s1. prj. rewrite inids_app, cnt_app. cbn [inids flat_map app]. change (cnt j []) with 0. rewrite Nat.add_0_r. apply V6.
  - unfold s1, doing. prj. rewrite inids_app. cbn [inids flat_map app]. rewrite app_nil_r. exact V7.
  - intros p t Et. apply (sig_mono t _ (pend s p)); [apply Pe|apply V11; exact Et].
Qed.
Lemma take_ok s li lo o : inv s li lo -> exists lo', inv (step s (ATake o)) li lo'.
Proof.
  intros V. assert (V' := V). destruct V' as [V1 V2 V3 V4 V5 V6 V7 V8 V9 V10 V11 V12]. unfold step. rewrite V4. destruct (nth_error (x_out s) o) as [t|] eqn:E; [|eauto]. destruct (forall2_nth _ _ _ _ _ V2 E) as (l & El & K). destruct (tok_recv t l K) as (t1 & f & Es & K1 & C1). rewrite Es. destruct (nth_error_nth0 _ _ _ [] El) as (Nl & Ll).
  destruct (recv_sig _ _ _ _ Es) as (S1 & S2 & S3). set (s1 := set_out _ _ _ _). assert (Pe : forall p, pend s p -> pend s1 p). { intros p. unfold pend, s1. prj. rewrite in_app_iff. intuition. }
  assert (Lx : o < length (x_out s)) by (apply nth_error_Some; congruence).
  assert (Lt : length (tl l) <= length l) by (destruct l; cbn; lia).
  assert (Rm : forall p, room s lo p -> room s1 (upd lo o (tl l)) p). { intros p. unfold room, s1. prj. rewrite ne_upd by exact Lx. rewrite nth_upd0 by exact Ll. destruct (Nat.eqb_spec p o) as [Ep|_]; [|auto]. rewrite Ep, E, Nl, C1. lia. }
  exists (upd lo o (tl l)). split; auto; try (unfold s1; prj; auto; fail).
  - unfold s1. prj. apply forall2_upd; auto.
  - unfold pcok in *. rewrite upd_length. change (x_pc s1) with (x_pc s). change (x_q s1) with (x_q s). change (x_inp s1) with (x_inp s). destruct (x_pc s) as [|o1|n|i|n fl p|n fl p]; auto.
    + intros Q. destruct (V5 Q) as (q & L & H). exists q. split; [exact L|]. destruct H as [H|H]; [|right; auto]. destruct (Nat.eq_dec q o) as [->|N].
      * right. specialize (V11 o t E). rewrite Nl in V11. unfold room in H. rewrite E, Nl in H. assert (Fu : length l = b_cap (t_q t)) by (assert (L1 := tok_le _ _ K); lia). unfold Sig in V11. assert (Fi : f = true \/ pend s o). { destruct (t_outkind t); [contradiction| | |left; apply S3]; destruct V11 as (A & B & D); destruct (Nat.eqb_spec (t_sigout t) 3); try (left; apply S3; fail); right; apply B; specialize (A Fu); lia. }
        destruct Fi as [-> |P]; [|auto]. unfold pend, s1. prj. left. apply in_app_iff. right. left. reflexivity.
      * left. intros Hr. apply H. unfold room, s1 in *. prj. rewrite ne_upd in Hr by exact Lx. rewrite nth_upd0 in Hr by exact Ll. destruct (Nat.eqb_spec q o); [contradiction|exact Hr].
    + destruct V5 as (A & B). auto.
    + destruct V5 as (A & B & D). auto.
    + destruct V5 as (A & B & D). auto.
  - unfold s1. prj. rewrite !upd_length. exact V9.
  - intros p Lp. rewrite upd_length in Lp. unfold s1, unsent. prj. rewrite nth_upd0 by lia. rewrite nth_upd0 by exact Ll. specialize (V10 p Lp). unfold unsent in V10. destruct (Nat.eqb_spec p o) as [Ep|_]; [|exact V10]. rewrite Ep in *. rewrite Nl in V10. rewrite <- V10, <- app_assoc. f_equal. destruct l; reflexivity.
  - intros p t' Et. unfold s1 in Et. prj. rewrite ne_upd in Et by exact Lx. rewrite nth_upd0 by exact Ll. destruct (Nat.eqb_spec p o) as [Ep|_].
    + injection Et as <-. rewrite Ep. specialize (V11 o t E). rewrite Nl in V11. assert (Pf : f = true -> pend s1 o) by (intros ->; unfold pend, s1; prj; left; apply in_app_iff; right; left; reflexivity). unfold Sig in *. rewrite S1, C1. destruct (t_outkind t); [contradiction| | |exact I]; destruct V11 as (A & B & D); destruct (Nat.eqb_spec (t_sigout t) 3) as [E3|N3]; destruct S3 as (S3 & S4); rewrite S3.
      * split; [lia|]. split; [intros _; split; [apply Pf; exact S4|reflexivity]|lia].
      * split; [intros Fu; apply A; assert (L1 := tok_le _ _ K); lia|]. split; [intros Z; destruct (B Z); auto|lia].
      * split; [|split; lia]. intros Fu. exfalso. assert (L1 := tok_le _ _ K). assert (L2 := k_cap _ _ K). destruct l as [|y l]; cbn in *; lia.
      * split; [intros Fu; apply A; assert (L1 := tok_le _ _ K); lia|]. split; [intros Z; destruct (B Z); auto|lia].
    + apply (sig_mono t' _ (pend s p)); [apply Pe|apply V11; exact Et].
  - intros p Hp. rewrite upd_length. unfold pend, s1 in Hp. prj. rewrite in_app_iff in Hp. destruct Hp as [[Hp|Hp]|[Hp|Hp]]; [apply V12; left; exact Hp| |apply V12; right; left; exact Hp|apply V12; right; right; exact Hp]. destruct f; [|contradiction]. destruct Hp as [<-|[]]. exact Ll.
Qed.
Lemma event_ok s li lo : inv s li lo -> inv (step s AEvent) li lo.
Proof.
  intros V. assert (V' := V). destruct V' as [V1 V2 V3 V4 V5 V6 V7 V8 V9 V10 V11 V12]. unfold step. rewrite V4. destruct (x_pc s) eqn:Ep; try exact V. destruct (x_ev s) as [|e r] eqn:Ee; [exact V|]. rewrite V3.
  unfold doing, held, unsent in *. rewrite Ep in *. destruct e as [i|o].
  - assert (Pe : forall o, pend (set_h (set_ev s r (x_win s) (x_wout s) (x_fired s)) (x_q s ++ [i]) (XCheck 0)) o <-> pend s o). { intros o. unfold pend. prj. rewrite Ep, Ee. cbn. intuition discriminate. }
    split; unfold doing, held, unsent; prj; auto.
    + unfold pcok. prj. intros o Ho. lia.
    + intros j. specialize (V6 j). cbn [inids flat_map app] in V6. fold (inids r) in V6. rewrite cnt_cons in V6. rewrite cnt_app, cnt_cons. change (cnt j []) with 0. lia.
    + rewrite V7. cbn [inids flat_map app]. rewrite <- !app_assoc. reflexivity.
    + intros o t Et. apply (sig_mono t _ (pend s o)); [apply Pe|apply V11; exact Et].
    + intros o Ho. apply V12, Pe, Ho.
  - set (s1 := set_h _ _ _). assert (Pe : forall q, pend s q <-> pend s1 q). { intros q. unfold pend, s1. prj. rewrite Ep, Ee. cbn. split; [intros [H|[[H|H]|H]]; auto; [right; right; congruence|discriminate]|intros [H|[H|H]]; auto; right; left; left; congruence]. }
    split; unfold doing, held, unsent; auto; try (unfold s1; prj; auto; fail).
    + unfold pcok, s1. prj. apply V12. unfold pend. rewrite Ee. right. left. left. reflexivity.
    + intros q t Et. apply (sig_mono t _ (pend s q)); [apply Pe|apply V11; exact Et].
    + intros q Hq. apply V12, Pe, Hq.
Qed.

Lemma nth_repeat_true n k : k < n -> nth k (repeat true n) false = true.
Proof. revert k. induction n as [|n IH]; intros [|k] H; cbn; try lia; auto. apply IH. lia. Qed.
Lemma repeat_snoc {A} (x : A) n : repeat x n ++ [x] = repeat x (S n).
Proof. induction n; cbn; [reflexivity|]. f_equal. exact IHn. Qed.
Lemma go_ok s li lo : inv s li lo -> exists li' lo', inv (step s AGo) li' lo'.
Proof.
  intros V. assert (V' := V). destruct V' as [V1 V2 V3 V4 V5 V6 V7 V8 V9 V10 V11 V12]. unfold step. rewrite V4. unfold go. assert (Lo := forall2_len _ _ _ V2). assert (Li := forall2_len _ _ _ V1). destruct (x_pc s) as [|o|n|i|n fl p|n fl p] eqn:Ep; [eauto| | | | |].
  - (* confirm *)
    destruct (nth_error (x_out s) o) as [t|] eqn:E; [|eauto]. destruct (forall2_nth _ _ _ _ _ V2 E) as (l & El & K). destruct (nth_error_nth0 _ _ _ [] El) as (Nl & Ll). destruct (tok_confirm t l true K) as (K1 & C1 & O1). set (s1 := set_h _ _ _).
    assert (Pe : forall q, q <> o -> pend s q -> pend s1 q). { intros q Nq. unfold pend, s1. prj. rewrite Ep. intros [H|[H|H]]; auto. congruence. }
    exists li, lo. split; auto; try (unfold s1; prj; auto; fail).
    + unfold s1. prj. rewrite <- (upd_split lo o l) at 1 || idtac. assert (Eu : upd lo o l = lo). { rewrite (upd_split lo o l Ll). symmetry. apply nth_error_split_list. exact El. } rewrite <- Eu. apply forall2_upd; auto.
    + unfold pcok, s1. prj. intros q Hq. lia.
    + unfold s1. prj. rewrite V7. unfold doing. rewrite Ep. reflexivity.
    + unfold s1. intros j. prj. rewrite V8. unfold held. rewrite Ep. reflexivity.
    + intros q Hq. specialize (V10 q Hq). unfold unsent in *. rewrite Ep in V10. unfold s1. prj. exact V10.
    + intros q t' Et. unfold s1 in Et. prj. rewrite ne_upd in Et by lia. destruct (Nat.eqb_spec q o) as [Eq|Nq].
      * assert (Et' : t' = lt_confirm t true) by congruence. rewrite Et', Eq. specialize (V11 o t E). rewrite Nl in *. unfold Sig in *. rewrite O1, C1, (confirm_sig t l K). destruct (t_outkind t); auto.
        -- destruct (Nat.eqb_spec (length l) (b_cap (t_q t))); (split; [lia|split; lia]).
        -- destruct V11 as (A & B & C). split; [exact A|]. split; [|exact C]. intros Z. destruct (B Z) as (_ & D). discriminate.
      * apply (sig_mono t' _ (pend s q)); [auto|apply V11; exact Et].
    + intros q Hq. apply V12. unfold pend, s1 in Hq. prj. unfold pend. destruct Hq as [H|[H|H]]; auto. discriminate.
  - (* check *)
    assert (Pn : forall q pc q0, (forall z, pc <> XConfirm z) -> pend (set_h s q pc) q0 <-> pend s q0). { intros q pc q0 Nc. unfold pend. prj. rewrite Ep. assert (N := Nc q0). intuition (try discriminate). }
    unfold pcok in V5. rewrite Ep in V5. destruct (nth_error (x_out s) n) as [t|] eqn:E.
    + destruct (forall2_nth _ _ _ _ _ V2 E) as (l & El & K). destruct (nth_error_nth0 _ _ _ [] El) as (Nl & Ll). assert (Cs := tok_can t l K). assert (Rn : room s lo n <-> length l < b_cap (t_q t)) by (unfold room; rewrite E, Nl; tauto). unfold doing, held, unsent in *. rewrite Ep in *.
      exists li, lo. destruct (can_send t); (split; unfold doing, held, unsent; prj; auto; [|intros q t' Et; apply (sig_mono t' _ (pend s q)); [apply Pn; discriminate|apply V11; exact Et]|intros q Hq; apply V12; apply (Pn _ _ q) in Hq; [exact Hq|discriminate]]).
      * unfold pcok. prj. intros q Hq. destruct (Nat.eq_dec q n) as [->|]; [apply Rn, Cs; reflexivity|]. apply V5. lia.
      * unfold pcok. prj. intros _. exists n. split; [exact Ll|]. left. intros Hr. apply (proj1 Rn) in Hr. apply Cs in Hr. discriminate.
    + assert (Ra : forall q, room s lo q). { intros q. destruct (Nat.lt_ge_cases q n) as [H|H]; [auto|]. unfold room. apply nth_error_None in E. destruct (nth_error (x_out s) q) eqn:E2; [|exact I]. assert (q < length (x_out s)) by (apply nth_error_Some; congruence). lia. }
      unfold doing, held, unsent in *. rewrite Ep in *. exists li, lo. destruct (x_q s) as [|i q] eqn:Eq; (split; unfold doing, held, unsent; prj; rewrite ?Ep; auto; [| |intros z t' Et; apply (sig_mono t' _ (pend s z)); [apply Pn; discriminate|apply V11; exact Et]|intros z Hz; apply V12; apply (Pn _ _ z) in Hz; [exact Hz|discriminate]] || (split; unfold doing, held, unsent; prj; auto)).
      * unfold pcok. prj. contradiction.
      * intros z t' Et. apply (sig_mono t' _ (pend s z)); [apply Pn; discriminate|apply V11; exact Et].
      * intros z Hz. apply V12. apply (Pn _ _ z) in Hz; [exact Hz|discriminate].
      * unfold pcok. prj. split; [|exact Ra]. specialize (V6 i). rewrite cnt_cons, Nat.eqb_refl in V6. destruct (Nat.lt_ge_cases i (length li)) as [H|H]; [lia|]. rewrite (nth_overflow li) in V6 by exact H. cbn in V6. lia.
      * intros j. specialize (V6 j). rewrite cnt_cons in V6. lia.
  - (* receive *)
    unfold pcok in V5. rewrite Ep in V5. destruct V5 as (L5 & Ra). destruct (Nat.ltb_spec i (length (x_inp s))); [|lia]. destruct (nth_error (x_inp s) i) as [t|] eqn:E; [|apply nth_error_None in E; lia].
    destruct (forall2_nth _ _ _ _ _ V1 E) as (l & El & K & Kk). destruct (nth_error_nth0 _ _ _ [] El) as (Nl & Ll). destruct (tok_recv t l K) as (t1 & f & Es & K1 & _). rewrite Es. destruct (recv_sig _ _ _ _ Es) as (_ & S2 & _).
    assert (V6i := V6 i). rewrite Nat.eqb_refl, Nl in V6i. destruct l as [|b l']; [cbn in V6i; lia|]. cbn [hd_error tl] in *. set (s1 := set_h _ _ _).
    assert (Pn : forall q, pend s1 q <-> pend s q). { intros q. unfold pend, s1. prj. rewrite Ep. intuition discriminate. }
    unfold doing, held, unsent in *. rewrite Ep in *. exists (upd li i l'), lo. split; unfold doing, held, unsent; auto; try (unfold s1; prj; auto; fail).
    + unfold s1. prj. apply forall2_upd; [exact V1|]. split; [exact K1|congruence].
    + unfold pcok, s1. prj. split; [reflexivity|]. split; [lia|exact Ra].
    + intros j. unfold s1. prj. rewrite nth_upd0 by exact Ll. specialize (V6 j). rewrite (Nat.eqb_sym j i). destruct (Nat.eqb_spec i j) as [Ej|_]; [rewrite <- Ej, Nl in V6; rewrite <- Ej; cbn [length] in V6; lia|lia].
    + intros j. unfold s1. prj. rewrite V8, nth_upd0 by exact Ll. rewrite of_input_one. cbn [of_input filter map app]. rewrite (Nat.eqb_sym j i). destruct (Nat.eqb_spec i j) as [Ej|_]; [rewrite <- Ej, Nl|]; reflexivity.
    + intros q t' Et. apply (sig_mono t' _ (pend s q)); [apply Pn|apply V11; exact Et].
    + intros q Hq. apply V12, Pn, Hq.
  - (* flags *)
    unfold pcok in V5. rewrite Ep in V5. destruct V5 as (Ef & Ln & Ra). assert (Pn : forall q d pc q0, (forall z, pc <> XConfirm z) -> pend (set_h (set_done s d) q pc) q0 <-> pend s q0). { intros q d pc q0 Nc. unfold pend. prj. rewrite Ep. assert (N := Nc q0). intuition (try discriminate). }
    unfold doing, held, unsent in *. rewrite Ep in *. destruct (nth_error (x_out s) n) as [t|] eqn:E.
    + destruct (forall2_nth _ _ _ _ _ V2 E) as (l & El & K). destruct (nth_error_nth0 _ _ _ [] El) as (Nl & Ll). assert (Rn := Ra n). unfold room in Rn. rewrite E, Nl in Rn. rewrite (proj2 (tok_can t l K) Rn).
      exists li, lo. split; unfold doing, held, unsent; prj; auto.
      * unfold pcok. prj. split; [rewrite Ef; apply repeat_snoc|]. split; [lia|exact Ra].
      * intros q t' Et. apply (sig_mono t' _ (pend s q)); [|apply V11; exact Et]. unfold pend. prj. rewrite Ep. intuition discriminate.
      * intros q Hq. apply V12. revert Hq. unfold pend. prj. rewrite Ep. intuition discriminate.
    + apply nth_error_None in E. assert (n = length lo) by lia. subst n. exists li, lo. split; unfold doing, held, unsent; prj; auto.
      * unfold pcok. prj. split; [exact Ef|]. split; [lia|]. intros; apply Ra.
      * rewrite V7, map_app, <- app_assoc. reflexivity.
      * intros j. rewrite V8, of_input_app, <- app_assoc. reflexivity.
      * intros q Hq. rewrite map_app, <- (V10 q Hq), app_nil_r, <- app_assoc. reflexivity.
      * intros q t' Et. apply (sig_mono t' _ (pend s q)); [apply Pn; discriminate|apply V11; exact Et].
      * intros q Hq. apply V12. apply (Pn _ _ _ q) in Hq; [exact Hq|discriminate].
  - (* send *)
    unfold pcok in V5. rewrite Ep in V5. destruct V5 as (Ef & Ln & Ra). unfold doing, held, unsent in *. rewrite Ep in *. destruct (nth_error (x_out s) n) as [t|] eqn:E.
    + destruct (forall2_nth _ _ _ _ _ V2 E) as (l & El & K). destruct (nth_error_nth0 _ _ _ [] El) as (Nl & Ll). assert (Rn := Ra n (le_n n)). unfold room in Rn. rewrite E, Nl in Rn. rewrite Ef, nth_repeat_true by lia. rewrite <- Ef. destruct (tok_send t l (snd p) K Rn) as (t1 & f & Es & K1 & C1). rewrite Es. destruct (send_sig _ _ _ _ _ Es) as (S1 & _ & S3 & _). set (s1 := set_h _ _ _).
      assert (Pn : forall q, pend s1 q <-> pend s q). { intros q. unfold pend, s1. prj. rewrite Ep. intuition discriminate. }
      exists li, (upd lo n (l ++ [snd p])). split; unfold doing, held, unsent; auto; try (unfold s1; prj; auto; fail).
      * unfold s1. prj. apply forall2_upd; auto.
      * unfold pcok, s1. prj. rewrite upd_length. split; [exact Ef|]. split; [lia|]. intros q Hq. assert (R := Ra q ltac:(lia)). unfold room in *. prj. rewrite ne_upd by lia. rewrite nth_upd0 by exact Ll. destruct (Nat.eqb_spec q n); [lia|exact R].
      * unfold s1. prj. rewrite upd_length. exact V9.
      * intros q Hq. rewrite upd_length in Hq. unfold s1. prj. rewrite <- (V10 q Hq), nth_upd0 by exact Ll. f_equal. destruct (Nat.eqb_spec q n) as [Eq|Nq].
        -- rewrite Eq, Nl. destruct (Nat.leb_spec (S n) n); [lia|]. destruct (Nat.leb_spec n n); [|lia]. rewrite app_nil_r. reflexivity.
        -- destruct (Nat.leb_spec (S n) q); destruct (Nat.leb_spec n q); try lia; reflexivity.
      * intros q t' Et. unfold s1 in Et. prj. rewrite ne_upd in Et by lia. rewrite nth_upd0 by exact Ll. destruct (Nat.eqb_spec q n) as [Eq|Nq].
        -- injection Et as <-. rewrite Eq. specialize (V11 n t E). rewrite Nl in V11. unfold Sig in *. rewrite S1, C1, S3. assert (Z := Pn n). destruct (t_outkind t); auto; destruct V11 as (A & B & C); destruct (Nat.eqb_spec (t_sigout t) 2); (split; [lia|split; [|lia]]); intros Z1; try lia; destruct (B Z1); split; auto; apply Z; auto.
        -- apply (sig_mono t' _ (pend s q)); [apply Pn|apply V11; exact Et].
      * intros q Hq. rewrite upd_length. apply V12, Pn, Hq.
    + apply nth_error_None in E. assert (Pn : forall q q0, pend (set_h s q (XCheck 0)) q0 <-> pend s q0). { intros q q0. unfold pend. prj. rewrite Ep. intuition (try discriminate). }
      exists li, lo. split; unfold doing, held, unsent; prj; auto.
      * unfold pcok. prj. intros q Hq. lia.
      * intros q Hq. specialize (V10 q Hq). destruct (Nat.leb_spec n q); [lia|exact V10].
      * intros q t' Et. apply (sig_mono t' _ (pend s q)); [apply Pn|apply V11; exact Et].
      * intros q Hq. apply V12, (Pn (x_q s) q), Hq.
Qed.

(* ---- start and runs ---- *)
Lemma numbered_nil {A B} (f : nat -> A -> list B) l : forall n, (forall k x, In x l -> f k x = []) -> numbered f n l = [].
Proof. induction l as [|x r IH]; intros n H; cbn; [reflexivity|]. rewrite (H n x) by (left; reflexivity). apply IH. intros k y Hy. apply H. right. exact Hy. Qed.
Lemma numbered_in {A} (f : A -> nat) l : forall n o, In o (numbered (fun n x => repeat n (f x)) n l) -> n <= o < n + length l.
Proof. induction l as [|x r IH]; intros n o H; cbn in *; [contradiction|]. apply in_app_iff in H. destruct H as [H|H]; [apply repeat_spec in H; lia|]. apply IH in H. lia. Qed.
Lemma in_map_out o l : In (EvOut o) (map EvOut l) -> In o l.
Proof. intros H. apply in_map_iff in H. destruct H as (z & E & H). injection E as <-. exact H. Qed.
Lemma inids_out l : inids (map EvOut l) = [].
Proof. induction l; cbn; auto. Qed.
Definition fresh icaps outs : mux X := start (mux_new icaps outs SignalEvery).
Lemma init_ok icaps outs : Forall (fun c => 0 < c) icaps -> Forall (fun c => 0 < fst c /\ snd c <> SignalNone) outs ->
  inv (fresh icaps outs) (map (fun _ => []) icaps) (map (fun _ => []) outs).
Proof.
  intros Fi Fo. unfold fresh, start. assert (Si : start_in (mux_new (X:=X) icaps outs SignalEvery) = []). { unfold start_in, mux_new. cbn [x_inp]. apply numbered_nil. intros k t H. apply in_map_iff in H. destruct H as (c & <- & _). reflexivity. }
  rewrite Si. set (so := start_out _). assert (Hso : forall o, In o so -> o < length outs). { intros o H. unfold so, start_out in H. apply numbered_in in H. cbn [mux_new x_out] in H. rewrite map_length in H. lia. } clearbody so.
  assert (Nn : forall (A : Type) (l : list A) i, nth i (map (fun _ => @nil X) l) [] = []). { intros A l. induction l as [|a l IH]; intros [|i]; cbn; auto. }
  assert (Tk : forall c ko ki, 0 < c -> Tok (lt_new (X:=X) c ko ki false true) []). { intros c ko ki Hc. split; cbn; auto. - apply brep_new. - unfold b_cap. cbn. rewrite repeat_length. exact Hc. }
  split; unfold mux_new; prj; auto.
  - clear Si Hso. induction Fi as [|c r Hc _ IH]; cbn; constructor; auto. split; [apply Tk; exact Hc|reflexivity].
  - clear Si Hso. induction Fo as [|c r Hc _ IH]; cbn; constructor; auto. apply Tk. apply Hc.
  - unfold pcok. prj. contradiction.
  - intros i. rewrite inids_app, inids_app, inids_out. cbn. rewrite Nn. reflexivity.
  - rewrite !inids_app, inids_out. reflexivity.
  - intros i. cbn. rewrite Nn. reflexivity.
  - intros o Ho. rewrite !Nn. reflexivity.
  - intros o t E. rewrite Nn. apply nth_error_In, in_map_iff in E. destruct E as (c & <- & Hc). rewrite Forall_forall in Fo. destruct (Fo c Hc) as (H1 & H2). unfold Sig, lt_new. cbn. destruct (snd c); [contradiction| | |exact I]; (split; [discriminate|split; [discriminate|lia]]).
  - intros o H. rewrite map_length. apply Hso. unfold pend in H. prj. destruct H as [[]|[H|H]]; [|discriminate]. apply in_map_out. exact H.
Qed.
Definition nostop (a : xact X) : Prop := match a with AStop | AStart => False | _ => True end.
Lemma run_ok l : forall s li lo, inv s li lo -> Forall nostop l -> exists li' lo', inv (run s l) li' lo'.
Proof.
  induction l as [|a l IH]; intros s li lo V F; [eauto|]. inversion F as [|? ? Fa Fl]; subst. change (run s (a :: l)) with (run (step s a) l). assert (H : exists li' lo', inv (step s a) li' lo').
  { destruct a as [i x|k|o|k| | | |]; try contradiction.
    - destruct (arrive_ok s li lo i x V) as (li' & H). eauto.
    - exists li, lo. apply firein_ok; exact V.
    - destruct (take_ok s li lo o V) as (lo' & H). eauto.
    - exists li, lo. apply fireout_ok; exact V.
    - exists li, lo. apply event_ok; exact V.
    - apply (go_ok s li lo V). }
  destruct H as (li' & lo' & V1). apply (IH _ _ _ V1 Fl).
Qed.

(* ---- reading the transports ---- *)
Lemma content_ok t l : Tok t l -> content t = map Some l.
Proof. intros K. apply (flight_ok (mkP t false [] [] []) l). exact (k_rep _ _ K). Qed.
Lemma inp_len icaps outs l : forall s : mux X, length (x_inp s) = icaps -> length (x_out s) = outs -> length (x_inp (run s l)) = icaps /\ length (x_out (run s l)) = outs.
Proof.
  induction l as [|a l IH]; intros s A B; [auto|]. change (run s (a :: l)) with (run (step s a) l). apply IH; unfold step, go, start.
  - destruct (x_exit s); auto. destruct a; repeat match goal with |- context [match ?e with _ => _ end] => destruct e end; prj; rewrite ?upd_length; auto.
  - destruct (x_exit s); auto. destruct a; repeat match goal with |- context [match ?e with _ => _ end] => destruct e end; prj; rewrite ?upd_length; auto.
Qed.
(* the same inputs in the same order and the same buffers of each input: the same buffers *)
Lemma merge_prefix (a : list (nat * X)) : forall b, prefix (map fst a) (map fst b) -> (forall i, prefix (of_input i a) (of_input i b)) -> prefix a b.
Proof.
  induction a as [|[i x] a IH]; intros b (r & P) Q; [exists b; reflexivity|]. destruct b as [|[j y] b]; [discriminate|]. cbn [map fst app] in P. injection P as -> P.
  assert (Exy : x = y). { destruct (Q i) as (r2 & Q2). unfold of_input in Q2. cbn [filter map fst] in Q2. rewrite Nat.eqb_refl in Q2. cbn in Q2. congruence. } subst y.
  destruct (IH b) as (r3 & E3); [exists r; exact P| |exists r3; rewrite E3; reflexivity].
  intros k. destruct (Q k) as (r2 & Q2). unfold of_input in *. cbn [filter fst] in Q2. destruct (i =? k); [|exists r2; exact Q2]. cbn [map app snd] in Q2. injection Q2 as Q2. exists r2. exact Q2.
Qed.
End P.
