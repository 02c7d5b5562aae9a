(* Every change on the way of the data makes a measure smaller, and when nothing changes any
   more all data have arrived. *)
From Verif Require Import Common ListFacts Bytes MbsSpec SrvSpec SrvModel SrvProofs.
Local Open Scope N_scope.

Lemma drop_less n (l : bytes) : n <= lenN l -> lenN (dropN n l) + n = lenN l.
Proof. unfold lenN, dropN. rewrite skipn_length. lia. Qed.
Lemma len_app (a b : bytes) : lenN (a ++ b) = lenN a + lenN b.
Proof. unfold lenN. rewrite app_length. lia. Qed.

Definition tw (l : list (bytes * N)) : N := fold_right (fun e n => 39 + lenN (fst e) + n) 0 l.
Definition qw (b : buf) : N := 200 + lenN (b_data b) + tw (b_events b).
Lemma tw_nil : tw [] = 0. Proof. reflexivity. Qed.
Lemma tw_cons e r : tw (e :: r) = 39 + lenN (fst e) + tw r. Proof. reflexivity. Qed.
Definition otw (ot : otstate) (q : list buf) : N := match ot with OReady => 6 | OTimeout => match q with [] => 7 | _ => 5 end | OWaitFinish => 6 | _ => 0 end.
Definition stw (s : ostate) : N :=
  match s with oInit | oInitReq => 3 | oWaitingReq | oWaitingBuffer => 2 | oWaitingReqBack => 1 | oSendingEvents => 30 | oSendingLastEvent | oSendingBuffer => 20 | oError => 0 end.
Definition cw (s : cstate) (pend : bool) : N :=
  match s with ioRecvInfo => if pend then 39 else 40 | ioReady => 40 | ioRecvHeader => 10 | ioWaitBuffer => 46 | ioRecvBuffer => 45 | ioComplBuffer => 44 | ioError => 0 end.
Definition measure (w : sys) : N :=
  fold_right (fun b n => qw b + n) 0 (v_q (w_v w)) + tw (v_todo (w_v w)) + otw (v_ot (w_v w)) (v_q (w_v w)) + stw (v_st (w_v w)) + 8 * N.of_nat (v_cb (w_v w)) +
  20 * N.of_nat (w_up w) + lenN (w_down w) + cw (c_st (w_c w)) (c_pend (w_c w)).

Lemma evsize_le e : evsize e <= lenN (fst e) + 1.
Proof. unfold evsize. pose proof (N.mod_lt (lenN (fst e)) 2). lia. Qed.

Ltac wm := unfold measure; simp; cbn [fold_right]; rewrite ?tw_nil, ?tw_cons, ?len_app, ?event_len, ?header_len.

Lemma less_send k w : step k w SSend = w \/ measure (step k w SSend) < measure w.
Proof.
  open w. cbn [step]. simp. destruct bz; [|auto]. unfold on_send. simp. destruct st; simp; rewrite ?app_nil_r; auto; try destruct td as [|e r]; simp; rewrite ?app_nil_r; auto;
    right; wm; try (destruct (k_stream k), ex; cbn [stw]; lia); try (destruct (k_stream k); cbn [stw]; lia); try (cbn [stw]; lia).
  pose proof (evsize_le e). destruct r; cbn [stw]; lia.
Qed.
Lemma less_recv k w : step k w SRecv = w \/ measure (step k w SRecv) < measure w.
Proof.
  open w. cbn [step]. simp. destruct up as [|up]; [auto|]. right. unfold on_recv. simp. destruct st; wm; cbn [stw]; lia.
Qed.
Lemma less_call k w : step k w SCall = w \/ measure (step k w SCall) < measure w.
Proof.
  open w. cbn [step]. simp. unfold on_call. simp. destruct cb as [|cb]; [auto|]. right. wm. destruct ot, q; cbn [otw]; lia.
Qed.
Lemma less_try k w : step k w STry = w \/ measure (step k w STry) < measure w.
Proof.
  open w. cbn [step]. simp. unfold try_write. simp.
  assert (Z : forall s : nat, (s + one false = s)%nat) by (intros; cbn; lia).
  destruct ot; simp; rewrite ?app_nil_r, ?Z; auto; destruct q as [|b q]; unfold with_ot; simp; rewrite ?app_nil_r, ?Z; auto;
    try (right; wm; cbn [otw]; lia).
  all: destruct st; simp; rewrite ?app_nil_r, ?Z; auto; try (right; wm; cbn [otw stw]; lia).
  all: right; unfold write; simp; destruct (lenN (b_data b) =? 0); simp; [rewrite ?app_nil_r; wm; unfold qw; destruct q; cbn [otw stw]; lia|]; destruct (k_iter k); simp.
  1,3: destruct (raws (b_events b) =? 0); simp; rewrite ?app_nil_r; wm; unfold qw; destruct q; cbn [otw stw]; lia.
  all: rewrite ?app_nil_r; wm; unfold qw; destruct q; cbn [otw stw]; lia.
Qed.
Lemma less_crecv k w : step k w CRecv = w \/ measure (step k w CRecv) < measure w.
Proof.
  open w. cbn [step]. simp. unfold c_recv. simp. assert (Z : forall s : nat, (s + one false = s)%nat) by (intros; cbn; lia).
  destruct cst; rewrite ?Z; auto.
  - destruct (N.ltb_spec (lenN dn) 16) as [L|L]; rewrite ?Z; auto. right. pose proof (drop_less 16 dn L). cbn zeta.
    destruct pd; unfold submit; simp; wm; [destruct (k_stream k); cbn [one cw]; lia|]. rewrite ?Z. destruct ((word_at 0 (takeN 16 dn) =? 1) && _); cbn [cw]; lia.
  - destruct (N.ltb_spec (lenN dn) 48) as [L|L]; rewrite ?Z; auto. right. pose proof (drop_less 48 dn L). cbn zeta.
    destruct (mx <? _); [|destruct (_ =? 0)]; rewrite ?Z; wm; cbn [cw]; lia.
  - destruct (N.ltb_spec (lenN dn) (read_size hd)) as [L|L]; rewrite ?Z; auto. right. pose proof (drop_less _ dn L). cbn zeta.
    destruct (_ =? 0); rewrite ?Z; wm; cbn [cw]; lia.
Qed.
Lemma less_cread k all w fs x : Inv k all w fs x -> step k w CRead = w \/ measure (step k w CRead) < measure w.
Proof.
  intros H. pose proof (i_c _ _ _ _ _ H) as H2. open w. cbn [step]. simp. unfold c_read. simp. assert (Z : forall s : nat, (s + one false = s)%nat) by (intros; cbn; lia).
  destruct it; rewrite ?Z; auto. unfold cok in H2. simp. destruct cst; try (exfalso; intuition discriminate).
  - destruct H2 as (_ & [(_ & ->)|(E & _)]); [|discriminate]. right. rewrite ?Z. wm. cbn [cw]. lia.
  - unfold submit. simp. right. wm. destruct (k_stream k); cbn [one cw]; lia.
Qed.
Lemma less_ccall k all w fs x : Inv k all w fs x -> step k w CCall = w \/ measure (step k w CCall) < measure w.
Proof.
  intros H. pose proof (i_c _ _ _ _ _ H) as H2. open w. cbn [step]. simp. unfold c_call. simp. destruct cc as [|y r]; [auto|]. unfold cok in H2. simp.
  destruct cst; try (exfalso; intuition discriminate).
  - destruct H2 as (E & -> & -> & Ox & R & U). injection E as -> ->. rewrite R, N.ltb_irrefl. right. unfold with_it. wm. cbn [cw]. lia.
  - destruct H2 as (E & -> & -> & Ox & U & ->). injection E as -> ->. right. unfold with_it. wm. cbn [cw]. lia.
Qed.
Lemma less k all w fs x o : Inv k all w fs x -> internal o -> step k w o = w \/ measure (step k w o) < measure w.
Proof.
  intros H Io. destruct o; [contradiction|..].
  - apply less_send.
  - apply less_recv.
  - apply less_call.
  - apply less_try.
  - apply less_crecv.
  - apply (less_cread _ _ _ _ _ H).
  - apply (less_ccall _ _ _ _ _ H).
Qed.

(* ---- nothing changes any more ---- *)
Lemma quiet k all w fs x : Inv k all w fs x -> (forall o, internal o -> step k w o = w) -> c_got (w_c w) = arrives (k_iter k) (k_id k) 0 all.
Proof.
  intros H Q. pose proof H as [H1 H2 H3 H4 H5 H5' H6 H7 H8].
  pose proof (Q SSend Logic.I) as Q1. pose proof (Q SRecv Logic.I) as Q2. pose proof (Q SCall Logic.I) as Q3. pose proof (Q STry Logic.I) as Q4.
  pose proof (Q CRecv Logic.I) as Q5. pose proof (Q CRead Logic.I) as Q6. pose proof (Q CCall Logic.I) as Q7. clear Q.
  open w. cbn [step] in *. simp.
  assert (up = 0%nat) as ->. { destruct up; auto. injection Q2. intros. lia. }
  assert (cb = 0%nat) as ->. { destruct cb; auto. unfold on_call in Q3. simp. injection Q3. intros. lia. }
  assert (bz = false) as ->.
  { destruct bz; auto. exfalso. unfold sok in H1. simp. destruct H1 as (H1 & _). unfold on_send in Q1. simp. destruct st; simp; try (intuition discriminate);
      try (apply (f_equal (fun w => v_busy (w_v w))) in Q1; simp; discriminate).
    destruct td as [|e r]; [intuition congruence|]. apply (f_equal (fun w => v_evc (w_v w))) in Q1. simp. lia. }
  assert (cst = ioRecvHeader) as ->.
  { unfold cok in H2. simp. destruct cst; auto; exfalso.
    - unfold expect in H3. simp. assert (L : 16 <= lenN dn).
      { unfold sok in H1. simp. destruct H1 as (H1 & _). assert (td = []) as -> by (destruct st; intuition discriminate). cbn [rest_bytes] in H3. rewrite app_nil_r in H3. rewrite H3, len_app.
        change (lenN info) with 16. lia. }
      unfold c_recv in Q5. simp. destruct (N.ltb_spec (lenN dn) 16); [lia|]. pose proof (drop_less 16 dn L). destruct pd; unfold submit in Q5; simp.
      + discriminate.
      + apply (f_equal (fun w => lenN (w_down w))) in Q5. simp. lia.
    - destruct H2 as (-> & -> & _). unfold c_read, submit in Q6. simp. discriminate.
    - destruct H2 as (-> & -> & -> & Ox & R & _). unfold c_call in Q7. simp. rewrite R, N.ltb_irrefl in Q7. discriminate.
    - destruct H2 as (-> & -> & -> & (Ox & _) & R & U). unfold expect in H3. simp. assert (L : lenN x <= lenN dn).
      { unfold sok in H1. simp. destruct H1 as (H1 & _). assert (td = []) as -> by (destruct st; intuition discriminate). cbn [rest_bytes] in H3. rewrite app_nil_r in H3. rewrite H3, len_app. lia. }
      unfold c_recv in Q5. simp. rewrite R in Q5. destruct (N.ltb_spec (lenN dn) (lenN x)); [lia|]. destruct (_ =? 0); discriminate.
    - destruct H2 as (-> & -> & _). unfold c_call in Q7. simp. discriminate.
    - exact H2. }
  unfold sok in H1. simp. destruct H1 as (H1 & H0). assert (td = []) as -> by (destruct st; intuition discriminate). cbn [rest_bytes] in H3. rewrite app_nil_r in H3.
  unfold expect, cur_of, awaits in *. simp. cbn [app] in H3. destruct fs as [|d fs].
  2: { exfalso. cbn [map concat] in H3. assert (L : 48 <= lenN dn) by (rewrite H3, len_app; unfold frame; rewrite len_app, header_len; lia).
       unfold c_recv in Q5. simp. destruct (N.ltb_spec (lenN dn) 48); [lia|]. destruct (mx <? _); [discriminate|]. destruct (_ =? 0); discriminate. }
  cbn [app length] in *. assert (st = oWaitingBuffer) as ->.
  { unfold credit in H8. simp. destruct (k_stream k).
    - destruct H8. destruct st; auto; try (exfalso; lia); exfalso; intuition discriminate.
    - specialize (H0 eq_refl). destruct st; auto; exfalso; try (exact H1); try (exact (proj2 H0)); intuition discriminate. }
  destruct q as [|b q]; [cbn [arrives] in H5; rewrite app_nil_r in H5; exact H5|].
  exfalso. unfold idle in H1. simp. destruct H1 as (_ & _ & _ & B4). destruct B4 as [([->| ->] & _)|(_ & E)]; [..|discriminate].
  all: unfold try_write in Q4; simp; unfold write in Q4; simp; destruct (lenN (b_data b) =? 0); [|destruct (k_iter k)]; simp.
  all: try destruct (raws (b_events b) =? 0); simp; apply (f_equal (fun w => length (v_q (w_v w)))) in Q4; simp; cbn [length] in Q4; lia.
Qed.

Lemma leads k all w fs x : Inv k all w fs x -> exists l, Forall internal l /\ c_got (w_c (run k l w)) = arrives (k_iter k) (k_id k) 0 all.
Proof.
  revert fs x. induction w as [w IH] using (well_founded_induction (well_founded_ltof _ (fun w => N.to_nat (measure w)))). intros fs x H.
  assert (D : (forall o, internal o -> step k w o = w) \/ exists o, internal o /\ measure (step k w o) < measure w).
  { destruct (less k all w fs x SSend H Logic.I) as [E1|E1]; [|right; exists SSend; split; [exact Logic.I|exact E1]].
    destruct (less k all w fs x SRecv H Logic.I) as [E2|E2]; [|right; exists SRecv; split; [exact Logic.I|exact E2]].
    destruct (less k all w fs x SCall H Logic.I) as [E3|E3]; [|right; exists SCall; split; [exact Logic.I|exact E3]].
    destruct (less k all w fs x STry H Logic.I) as [E4|E4]; [|right; exists STry; split; [exact Logic.I|exact E4]].
    destruct (less k all w fs x CRecv H Logic.I) as [E5|E5]; [|right; exists CRecv; split; [exact Logic.I|exact E5]].
    destruct (less k all w fs x CRead H Logic.I) as [E6|E6]; [|right; exists CRead; split; [exact Logic.I|exact E6]].
    destruct (less k all w fs x CCall H Logic.I) as [E7|E7]; [|right; exists CCall; split; [exact Logic.I|exact E7]].
    left. intros [b| | | | | | |] Io; auto. contradiction. }
  destruct D as [D|(o & Io & L)].
  - exists []. split; [constructor|]. cbn. apply (quiet _ _ _ _ _ H D).
  - destruct (inv_step k all w fs x o Io H) as (fs' & x' & H'). destruct (IH (step k w o)) with (fs := fs') (x := x') as (l & Hl & E); auto.
    + unfold ltof. lia.
    + exists (o :: l). split; [constructor; auto|exact E].
Qed.

(* a list of changing steps has at most as many members as the measure tells *)
Fixpoint changing (k : cfg) (w : sys) (l : list op) : Prop :=
  match l with [] => True | o :: r => internal o /\ step k w o <> w /\ changing k (step k w o) r end.
Lemma bounded k l : forall all w fs x, Inv k all w fs x -> changing k w l -> N.of_nat (length l) <= measure w.
Proof.
  induction l as [|o l IH]; intros all w fs x H Ch; [cbn; lia|]. destruct Ch as (Io & Ne & Ch). destruct (less k all w fs x o H Io) as [E|L]; [contradiction|].
  destruct (inv_step k all w fs x o Io H) as (fs' & x' & H'). pose proof (IH _ _ _ _ H' Ch). cbn [length]. lia.
Qed.
