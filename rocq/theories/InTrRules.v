(* Proofs about the calls of a DataInput object. *)
From Verif Require Import Common InTrSpec InTrModel InTrProofs.
From Coq Require Import Lia.

Lemma k_w_state_i_csz s x : i_csz (w_state s x) = i_csz s. Proof. reflexivity. Qed.
Lemma k_w_inp_i_csz s x : i_csz (w_inp s x) = i_csz s. Proof. reflexivity. Qed.
Lemma k_w_cur_i_csz s x z : i_csz (w_cur s x z) = z. Proof. reflexivity. Qed.
Lemma k_w_size_i_csz s x : i_csz (w_size s x) = i_csz s. Proof. reflexivity. Qed.
Lemma k_w_ext_i_csz s x : i_csz (w_ext s x) = i_csz s. Proof. reflexivity. Qed.
Lemma k_w_stop_i_csz s x : i_csz (w_stop s x) = i_csz s. Proof. reflexivity. Qed.
Lemma k_w_tr_i_csz s x : i_csz (w_tr s x) = i_csz s. Proof. reflexivity. Qed.
Lemma k_w_run_i_csz s x : i_csz (w_run s x) = i_csz s. Proof. reflexivity. Qed.
Lemma k_w_timer_i_csz s x : i_csz (w_timer s x) = i_csz s. Proof. reflexivity. Qed.
Lemma k_w_port_i_csz s x : i_csz (w_port s x) = i_csz s. Proof. reflexivity. Qed.
Lemma k_w_dead_i_csz s  : i_csz (w_dead s ) = i_csz s. Proof. reflexivity. Qed.
Lemma k_w_exit_i_csz s  : i_csz (w_exit s ) = i_csz s. Proof. reflexivity. Qed.
Lemma k_note_i_csz s o : i_csz (note s o) = i_csz s. Proof. reflexivity. Qed.
Lemma k_close_transport_i_csz s e : i_csz (close_transport s e) = i_csz s. Proof. reflexivity. Qed.
Lemma k_close_input_i_csz s : i_csz (close_input s) = i_csz s. Proof. unfold close_input. destruct (i_inp s); reflexivity. Qed.
Lemma k_change_i_csz s x : i_csz (change s x) = i_csz s. Proof. unfold change, base_stop. cbv zeta. destruct (i_stop _ && _); [|reflexivity]. destruct (i_run _); reflexivity. Qed.
Lemma k_w_state_i_size s x : i_size (w_state s x) = i_size s. Proof. reflexivity. Qed.
Lemma k_w_inp_i_size s x : i_size (w_inp s x) = i_size s. Proof. reflexivity. Qed.
Lemma k_w_cur_i_size s x z : i_size (w_cur s x z) = i_size s. Proof. reflexivity. Qed.
Lemma k_w_size_i_size s x : i_size (w_size s x) = x. Proof. reflexivity. Qed.
Lemma k_w_ext_i_size s x : i_size (w_ext s x) = i_size s. Proof. reflexivity. Qed.
Lemma k_w_stop_i_size s x : i_size (w_stop s x) = i_size s. Proof. reflexivity. Qed.
Lemma k_w_tr_i_size s x : i_size (w_tr s x) = i_size s. Proof. reflexivity. Qed.
Lemma k_w_run_i_size s x : i_size (w_run s x) = i_size s. Proof. reflexivity. Qed.
Lemma k_w_timer_i_size s x : i_size (w_timer s x) = i_size s. Proof. reflexivity. Qed.
Lemma k_w_port_i_size s x : i_size (w_port s x) = i_size s. Proof. reflexivity. Qed.
Lemma k_w_dead_i_size s  : i_size (w_dead s ) = i_size s. Proof. reflexivity. Qed.
Lemma k_w_exit_i_size s  : i_size (w_exit s ) = i_size s. Proof. reflexivity. Qed.
Lemma k_note_i_size s o : i_size (note s o) = i_size s. Proof. reflexivity. Qed.
Lemma k_close_transport_i_size s e : i_size (close_transport s e) = i_size s. Proof. reflexivity. Qed.
Lemma k_close_input_i_size s : i_size (close_input s) = i_size s. Proof. unfold close_input. destruct (i_inp s); reflexivity. Qed.
Lemma k_change_i_size s x : i_size (change s x) = i_size s. Proof. unfold change, base_stop. cbv zeta. destruct (i_stop _ && _); [|reflexivity]. destruct (i_run _); reflexivity. Qed.
#[local] Hint Rewrite k_w_state_i_csz
  k_w_inp_i_csz
  k_w_cur_i_csz
  k_w_size_i_csz
  k_w_ext_i_csz
  k_w_stop_i_csz
  k_w_tr_i_csz
  k_w_run_i_csz
  k_w_timer_i_csz
  k_w_port_i_csz
  k_w_dead_i_csz
  k_w_exit_i_csz
  k_note_i_csz
  k_close_transport_i_csz
  k_close_input_i_csz
  k_change_i_csz
  k_w_state_i_size
  k_w_inp_i_size
  k_w_cur_i_size
  k_w_size_i_size
  k_w_ext_i_size
  k_w_stop_i_size
  k_w_tr_i_size
  k_w_run_i_size
  k_w_timer_i_size
  k_w_port_i_size
  k_w_dead_i_size
  k_w_exit_i_size
  k_note_i_size
  k_close_transport_i_size
  k_close_input_i_size
  k_change_i_size : itf.
Ltac flds := autorewrite with itf.

Fixpoint okl (l : list iobs) : Prop :=
  match l with
  | [] => True
  | o :: r => match o with OStart _ => may_start r | OComplete _ _ => (0 < working r)%nat | _ => True end /\ okl r
  end.
Definition askc (l : list iobs) : option scode :=
  match l with
  | OCall c :: OSize SCallBack :: _ => Some c
  | OSize SCallBack :: OCall c :: _ => Some c
  | OSize c :: _ => Some c
  | _ => None
  end.
Lemma asked_c l c : askc l = Some c -> asked l = size_of c.
Proof.
  destruct l as [|o l]; [discriminate|]. destruct o; try discriminate; cbn.
  - destruct l as [|o l]; [|destruct o]; destruct c0; intro E; injection E as <-; reflexivity.
  - destruct l as [|o l]; [discriminate|]. destruct o; try discriminate. destruct c1; try discriminate. intro E; injection E as <-; reflexivity.
Qed.

Definition kst (x : istate) (l : list iobs) (sz : scode) (cur : option N) (z : N) (ext : nat) : Prop :=
  match x with
  | inpCheckSize => askc l = Some sz
  | inpSizeCallBack => exists r, l = OSize SCallBack :: r
  | inpNeedBuffer | inpWaitBuffer => exists n, sz = SSize n /\ asked l = Some n
  | inpCheckBuffer => exists n r, l = OTake z :: r /\ asked r = Some n /\ sz = SSize n /\ cur <> None
  | inpHasBuffer => exists y n r, l = OTake y :: r /\ asked r = Some n /\ (n <= y)%N
  | inpCallBack | inpCompleting | inpComplitTimeout => cur <> None -> ext = 0%nat -> (0 < working l)%nat
  | _ => True
  end.
(* states in which the object must be there *)
Definition needs (x : istate) : bool :=
  match x with inpCheckSize | inpSizeCallBack | inpNeedBuffer | inpWaitBuffer | inpCheckBuffer | inpHasBuffer => true | _ => false end.
Definition K (s : it) : Prop :=
  okl (i_log s) /\ (i_exit s = false -> (i_ext s <= working (i_log s))%nat /\ (needs (i_state s) = true -> i_inp s = true) /\
    kst (i_state s) (i_log s) (i_size s) (i_cur s) (i_csz s) (i_ext s)).
(* nothing the clauses speak about *)
Definition quiet (o : iobs) : bool := match o with OStart _ | OComplete _ _ => false | _ => true end.
Lemma okl_quiet o l : quiet o = true -> okl l -> okl (o :: l).
Proof. destruct o; try discriminate; cbn; auto. Qed.
Lemma work_quiet o l : quiet o = true -> working (o :: l) = working l.
Proof. destruct o; try discriminate; reflexivity. Qed.
Lemma kst_quiet o x l sz cur z ext : quiet o = true -> needs x = false -> kst x l sz cur z ext -> kst x (o :: l) sz cur z ext.
Proof. intros Q N. unfold kst. rewrite (work_quiet o l Q). destruct x; try discriminate; auto. Qed.

Section R.
Variable osize : list iobs -> scode.
Variable ostart : list iobs -> stcode * bool.
Variable ocomp : list iobs -> cpcode * option N.
Variable ocb : list iobs -> option scode.
Variable opool : list iobs -> option N.
Variable ocreate : list iobs -> bool.
Variable env : list iobs -> list pev.
Variable auto recon : bool.
Variable lim : option nat.

Definition keeps (p : part) : Prop :=
  forall s s1 o, K s -> i_exit s = false -> p s = Ok (s1, o) -> K s1 /\ (o = None -> i_exit s1 = false).

Ltac got E := injection E as <- <-.
Ltac body H X := let L := fresh "L" in let M1 := fresh "M1" in let M2 := fresh "M2" in let M3 := fresh "M3" in
  pose proof H as (L & M1 & M2 & M3); [exact X|].

Lemma k_shut s e : K s -> i_exit s = false -> needs (i_state s) = false -> K (close_transport s e).
Proof.
  intros (L & M) X N. destruct (M X) as (M1 & M2 & M3). split; flds; [apply okl_quiet; auto|]. intros _.
  rewrite work_quiet by reflexivity. repeat split; auto. apply kst_quiet; auto.
Qed.
Lemma k_gone s : K s -> i_exit s = false -> K (change (close_input s) inpClosed) /\ i_exit (change (close_input s) inpClosed) = false.
Proof.
  intros (L & M) X. destruct (M X) as (M1 & M2 & M3). split; [|flds; exact X]. split; flds; [destruct (i_inp s); cbn [okl]; auto|]. intros _.
  repeat split; [destruct (i_inp s); exact M1|discriminate].
Qed.

Lemma k_closed : keeps p_closed.
Proof.
  intros s s1 o H X E. unfold p_closed in E.
  assert (G : forall r, (if i_dead s then Ok (close_transport (change (close_input s) inpClosed) false, Some false) else Ok (s, None)) = Ok r -> K (fst r) /\ (snd r = None -> i_exit (fst r) = false)).
  { intros r R. destruct (i_dead s); injection R as <-; cbn [fst snd]; [|split; auto].
    split; [|discriminate]. destruct (k_gone s H X). apply k_shut; auto. flds. reflexivity. }
  destruct (i_state s); try (specialize (G _ E); exact G). got E. split; [exact H|discriminate].
Qed.

Lemma k_recon : keeps (p_recon ocreate recon).
Proof.
  intros s s1 o H X E. unfold p_recon in E. pose proof H as [L M]. destruct (M X) as (M1 & M2 & M3).
  destruct (i_state s) eqn:S; try (got E; split; auto; fail).
  destruct (i_inp s). { got E. split; [|discriminate]. apply k_shut; auto. rewrite S; reflexivity. }
  destruct (negb recon). { got E. split; [|discriminate]. apply k_shut; auto. rewrite S; reflexivity. }
  cbv zeta in E. destruct (ocreate (i_log s)); got E.
  - split; [|intros _; flds; exact X]. split; flds; [apply okl_quiet; auto|]. intros _. repeat split; auto.
  - split; [|discriminate]. split; flds; [apply okl_quiet; auto|]. intros _. rewrite S. repeat split; auto; discriminate.
Qed.

Lemma k_noinp : keeps p_noinp.
Proof.
  intros s s1 o H X E. unfold p_noinp in E. pose proof H as [L M]. destruct (M X) as (M1 & M2 & M3).
  destruct (i_inp s) eqn:I.
  - destruct (i_state s); got E; split; auto; discriminate.
  - got E. split; [|discriminate]. apply k_shut; auto. destruct (needs (i_state s)); auto. specialize (M2 eq_refl). discriminate.
Qed.

(* what a call-back from inside a function of the object does *)
Lemma inside_cases s : (i_state s = inpSizeCallBack \/ i_state s = inpCallBack) ->
  let s1 := inside ocb s in
  i_exit s1 = i_exit s /\ i_inp s1 = i_inp s /\ i_ext s1 = i_ext s /\ i_cur s1 = i_cur s /\ i_csz s1 = i_csz s /\
  (i_log s1 = i_log s /\ i_state s1 = i_state s /\ i_size s1 = i_size s \/
   exists c, i_log s1 = OCall c :: i_log s /\
     ((i_state s = inpSizeCallBack /\ i_state s1 = inpCheckSize /\ i_size s1 = c) \/
      (i_state s1 = inpCompleting /\ i_size s1 = i_size s /\ (i_state s = inpCallBack \/ i_ext s <> 0%nat)))).
Proof.
  intros S s1. unfold s1, inside. destruct (ocb (i_log s)) as [c|]; [|tauto].
  unfold read_callback. cbv zeta. set (s2 := match c with SQueue => _ | _ => _ end).
  assert (Q : s2 = note s (OCall c) \/ s2 = w_state (note s (OCall c)) inpCallBack /\ i_ext s <> 0%nat).
  { unfold s2. destruct c; auto. change (i_ext (note s (OCall SQueue))) with (i_ext s). destruct (Nat.eqb (i_ext s) 0) eqn:Z; auto. apply Nat.eqb_neq in Z. auto. }
  clearbody s2. destruct Q as [->|[-> Z]].
  - change (i_state (note s (OCall c))) with (i_state s). destruct S as [S|S]; rewrite S; repeat split; right; exists c; (split; [reflexivity|]); auto.
  - change (i_state (w_state (note s (OCall c)) inpCallBack)) with inpCallBack. repeat split. right. exists c. split; [reflexivity|]. auto.
Qed.

Lemma k_init : keeps (p_init osize ocb env).
Proof.
  intros s s1 o H X E. unfold p_init in E. pose proof H as [L M]. destruct (M X) as (M1 & M2 & M3).
  destruct (i_state s) eqn:S; try (got E; split; auto; fail).
  destruct (negb _). { got E. split; auto; discriminate. }
  destruct (Nat.ltb 0 (i_ext s) && _) eqn:C.
  { got E. split; [|discriminate]. apply andb_prop in C as [C _]. apply Nat.ltb_lt in C. split; flds; auto. intros _. repeat split; auto; cbn; try discriminate; lia. }
  destruct (Nat.eqb _ 0). { got E. split; [|discriminate]. split; flds; [apply okl_quiet; auto|discriminate]. }
  destruct (i_inp s) eqn:I; [|discriminate]. cbv zeta in E.
  set (s0 := meanwhile env (w_size (w_state s inpSizeCallBack) (SSize 0))) in E.
  assert (F0 : i_exit s0 = false /\ i_inp s0 = true /\ i_ext s0 = i_ext s /\ i_log s0 = i_log s /\ i_state s0 = inpSizeCallBack)
    by (unfold s0, meanwhile; flds; auto).
  destruct F0 as (F1 & F2 & F3 & F4 & F5). clearbody s0.
  destruct (inside_cases s0) as (A1 & A2 & A3 & A4 & A5 & A6); [auto|]. set (s2 := inside ocb s0) in *. clearbody s2.
  rewrite A1, F1 in E. rewrite F1 in A1. rewrite F2 in A2. rewrite F3 in A3. clear A4 A5.
  assert (B : okl (i_log s2) /\ working (i_log s2) = working (i_log s)).
  { destruct A6 as [(A6 & _)|(c & A6 & _)]; rewrite A6, F4; [auto|]. split; [apply okl_quiet; auto|reflexivity]. }
  destruct B as [B1 B2].
  destruct (osize (i_log s2)) eqn:Q; got E; (split; [|try discriminate; intros _; flds; exact A1]); (split; [flds; apply okl_quiet; auto|]); intros _; flds;
    rewrite work_quiet, B2, A3 by reflexivity; (split; [exact M1|]); try (split; [auto|]; cbn [kst]; try exact Logic.I; reflexivity).
  (* call-back *)
  destruct A6 as [(A6 & A7 & A8)|(c & A6 & [(A7 & A8 & A9)|(A8 & A9 & A7)])].
  - rewrite A7, F5. split; auto. cbn [kst]. eauto.
  - rewrite A8. split; auto. cbn [kst]. rewrite A6, A9. reflexivity.
  - rewrite A8. split; [discriminate|]. cbn [kst]. intros _ Z. destruct A7; congruence.
Qed.

Lemma k_size : keeps p_size.
Proof.
  intros s s1 o H X E. unfold p_size in E. pose proof H as [L M]. destruct (M X) as (M1 & M2 & M3).
  destruct (i_state s) eqn:S; try (got E; split; auto; fail). cbn [needs kst] in M2, M3. specialize (M2 eq_refl). apply asked_c in M3.
  destruct (i_size s) eqn:Q; got E; (split; [|intros _; flds; exact X]); (split; [flds; auto|]); intros _; flds; repeat split; auto; try discriminate;
    cbn [kst]; rewrite ?Q; eauto.
Qed.

Lemma k_need : keeps (p_need opool auto).
Proof.
  intros s s1 o H X E. unfold p_need in E. pose proof H as [L M]. destruct (M X) as (M1 & M2 & M3).
  destruct (i_state s) eqn:S; try (got E; split; auto; fail). cbn [needs kst] in M2, M3. specialize (M2 eq_refl). destruct M3 as (n & Q & A).
  destruct (opool (i_log s)) as [z|].
  - got E. split; [|intros _; flds; exact X]. split; flds; [apply okl_quiet; auto|]. intros _. repeat split; auto. cbn [kst]. exists n, (i_log s). repeat split; auto; discriminate.
  - cbv zeta in E. destruct auto; got E; (split; [|discriminate]); (split; [flds; auto|]); intros _; flds; rewrite ?S; repeat split; auto; cbn [kst]; eauto.
Qed.

Lemma k_check : keeps p_check.
Proof.
  intros s s1 o H X E. unfold p_check in E. pose proof H as [L M]. destruct (M X) as (M1 & M2 & M3).
  destruct (i_state s) eqn:S; try (got E; split; auto; fail). cbn [needs kst] in M2, M3. specialize (M2 eq_refl). destruct M3 as (n & r & A & B & Q & C).
  rewrite Q in E. destruct (i_cur s) as [y|]; [|congruence]. cbv zeta in E.
  destruct (i_csz s <? n)%N eqn:Z; got E; (split; [|intros _; flds; exact X]); (split; [flds; auto|]); intros _; flds; repeat split; auto; try discriminate.
  cbn [kst]. exists (i_csz s), n, r. repeat split; auto. apply N.ltb_ge in Z. exact Z.
Qed.

Lemma k_has : keeps (p_has ostart ocb env).
Proof.
  intros s s1 o H X E. unfold p_has in E. pose proof H as [L M]. destruct (M X) as (M1 & M2 & M3).
  destruct (i_state s) eqn:S; try (got E; split; auto; fail). cbn [needs kst] in M2, M3. specialize (M2 eq_refl). rewrite M2 in E. cbv zeta in E.
  destruct M3 as (y & n & r & A & B & C).
  set (s0 := meanwhile env (w_state s inpCallBack)) in E.
  assert (F0 : i_exit s0 = false /\ i_inp s0 = true /\ i_ext s0 = i_ext s /\ i_log s0 = i_log s /\ i_state s0 = inpCallBack)
    by (unfold s0, meanwhile; flds; auto).
  destruct F0 as (F1 & F2 & F3 & F4 & F5). clearbody s0.
  destruct (inside_cases s0) as (A1 & A2 & A3 & A4 & A5 & A6); [auto|]. set (s2 := inside ocb s0) in *. clearbody s2.
  rewrite A1, F1 in E. rewrite F1 in A1. rewrite F2 in A2. rewrite F3 in A3. clear A4 A5.
  assert (D : okl (i_log s2) /\ working (i_log s2) = working (i_log s) /\ may_start (i_log s2) /\ (i_state s2 = inpCallBack \/ i_state s2 = inpCompleting)).
  { destruct A6 as [(A6 & A7 & _)|(c & A6 & A7)]; rewrite A6, F4.
    - repeat split; auto; [|left; congruence]. exists y, n, r. auto.
    - repeat split; auto; [|destruct A7 as [(A7 & _)|(A7 & _)]; [congruence|auto]]. exists y, n, r. split; eauto. right. exists c. congruence. }
  destruct D as (D1 & D2 & D3 & D4).
  destruct (ostart (i_log s2)) as [c keep]. set (s3 := if keep then w_cur s2 None 0%N else s2) in E.
  assert (G : i_exit s3 = false /\ i_inp s3 = true /\ i_ext s3 = i_ext s /\ i_log s3 = i_log s2 /\ i_state s3 = i_state s2)
    by (unfold s3; destruct keep; flds; auto). clearbody s3. destruct G as (G1 & G2 & G3 & G4 & G5).
  destruct c; got E; (split; [|try discriminate; intros _; flds; exact G1]); (split; [flds; rewrite G4; cbn [okl]; auto|]); intros _; flds;
    rewrite G3, G4, ?G5; cbn [working]; rewrite D2; (split; [lia|]); try (split; [discriminate|]; cbn [kst working]; try exact Logic.I; lia);
    destruct D4 as [D4|D4]; rewrite D4; (split; [discriminate|]); cbn [kst working]; lia.
Qed.

Lemma k_cb : keeps p_cb.
Proof. intros s s1 o H X E. unfold p_cb in E. destruct (i_state s); got E; split; auto; discriminate. Qed.

Lemma k_compl : keeps (p_compl ocomp env).
Proof.
  intros s s1 o H X E. unfold p_compl in E. pose proof H as [L M]. destruct (M X) as (M1 & M2 & M3).
  destruct (i_state s) eqn:S; try (got E; split; auto; fail). cbn [needs kst] in M2, M3. cbv zeta in E.
  destruct (Bool.eqb _ _) eqn:Z. { got E. split; auto; discriminate. }
  destruct (i_inp s) eqn:I; [|discriminate].
  assert (W : (0 < working (i_log s))%nat).
  { destruct (i_cur s); destruct (i_ext s); try discriminate; [apply M3; congruence|lia]. }
  clear Z M3. set (s0 := meanwhile env s) in E.
  assert (F0 : i_exit s0 = false /\ i_inp s0 = true /\ i_ext s0 = i_ext s /\ i_log s0 = i_log s /\ i_state s0 = inpCompleting)
    by (unfold s0, meanwhile; flds; auto).
  destruct F0 as (F1 & F2 & F3 & F4 & F5). clearbody s0.
  destruct (ocomp (i_log s0)) as [c d].
  destruct c; [| |..];
  try (got E; (split; [|try discriminate; intros _; flds; exact F1]); (split; [flds; rewrite F4; cbn [okl]; auto|]); intros _; flds;
    rewrite F3, F4, ?F5; cbn [working]; (split; [lia|]); (split; [discriminate|]); cbn [kst working]; try exact Logic.I; intros; lia).
  destruct (Nat.eqb _ 0); got E; (split; [|discriminate]); (split; [flds; rewrite F4; cbn [okl]; auto|]).
  - flds. discriminate.
  - intros _. flds. rewrite F3, F4, F5. cbn [working]. split; [lia|]. split; [discriminate|]. cbn [kst]. congruence.
Qed.

Lemma k_ready : keeps p_ready.
Proof.
  intros s s1 o H X E. unfold p_ready in E. pose proof H as [L M]. destruct (M X) as (M1 & M2 & M3).
  destruct (i_state s) eqn:S; try (got E; split; auto; fail).
  destruct (Nat.eqb _ 0); got E.
  - split; [|discriminate]. split; flds; [apply okl_quiet; auto|discriminate].
  - split; [|intros _; flds; exact X]. split; flds; [apply okl_quiet; auto|]. intros _. repeat split; auto; discriminate.
Qed.

Lemma k_end : keeps p_end.
Proof.
  intros s s1 o H X E. unfold p_end in E. pose proof H as [L M]. destruct (M X) as (M1 & M2 & M3).
  assert (G : (if Nat.eqb (num_can_send (i_port (w_size (close_input s) (SSize 0)))) 0 then Ok (w_exit (w_size (close_input s) (SSize 0)), Some false)
    else Ok (close_transport (change (w_cur (w_port (note (w_size (close_input s) (SSize 0)) OEof) (p_send (i_port (w_size (close_input s) (SSize 0))))) None 0%N) inpClosed) false, Some false)) = Ok (s1, o)
    -> K s1 /\ (o = None -> i_exit s1 = false)).
  { clear E. intro E. destruct (Nat.eqb _ 0); got E; (split; [|discriminate]); (split; [flds; destruct (i_inp s); cbn [okl]; auto|]); flds; [discriminate|].
    intros _. split; [destruct (i_inp s); exact M1|]. split; [discriminate|exact I]. }
  destruct (i_state s) eqn:S; try (got E; split; auto; discriminate); try (apply G; exact E).
  got E. split; [|discriminate]. apply k_shut; auto. rewrite S. reflexivity.
Qed.

Lemma k_seq l : (forall p, In p l -> keeps p) -> forall s s1 b, K s -> i_exit s = false -> seq_parts l s = Ok (s1, b) -> K s1.
Proof.
  induction l as [|p l IH]; intros A s s1 b H X E; cbn [seq_parts] in E.
  - injection E as <- <-. exact H.
  - destruct (p s) as [[s2 o]| |] eqn:P; cbn [bind] in E; try discriminate.
    destruct (A p (or_introl eq_refl) s s2 o H X P) as [H2 X2]. destruct o; [injection E as <- <-; exact H2|].
    eapply IH; eauto. intros q Q. apply A. right; exact Q.
Qed.
Lemma k_send s s1 b : K s -> i_exit s = false -> process_send osize ostart ocomp ocb opool ocreate env auto recon s = Ok (s1, b) -> K s1.
Proof.
  apply k_seq. intros p. cbn [In]. intros P.
  repeat (destruct P as [<-|P]; [auto using k_closed, k_recon, k_noinp, k_init, k_size, k_need, k_check, k_has, k_cb, k_compl, k_ready, k_end|]). destruct P.
Qed.
Lemma active_exit s : active s = true -> i_exit s = false.
Proof. unfold active. destruct (i_exit s); [discriminate|reflexivity]. Qed.
Lemma k_loop n : forall s s1 b, K s -> out_loop osize ostart ocomp ocb opool ocreate env auto recon n s = Ok (s1, b) -> K s1.
Proof.
  induction n as [|n IH]; intros s s1 b H E; cbn [out_loop] in E; (destruct (active s) eqn:A; [|injection E as <- <-; exact H]);
    apply active_exit in A; (destruct (process_send _ _ _ _ _ _ _ _ _ s) as [[s2 go]| |] eqn:P; cbn [bind] in E; try discriminate);
    pose proof (k_send _ _ _ H A P) as H2; destruct go; try (injection E as <- <-; exact H2). eapply IH; eauto.
Qed.
Lemma k_output s s1 b : K s -> process_output osize ostart ocomp ocb opool ocreate env auto recon lim s = Ok (s1, b) -> K s1.
Proof.
  intros H E. unfold process_output in E. destruct lim; [eapply k_loop; eauto|]. destruct (active s) eqn:A; [|injection E as <- <-; exact H].
  apply active_exit in A. destruct (process_send _ _ _ _ _ _ _ _ _ s) as [[s2 go]| |] eqn:P; cbn [bind] in E; try discriminate.
  injection E as <- <-. eapply k_send; eauto.
Qed.

Lemma k_same s s1 : K s -> i_log s1 = i_log s -> i_exit s1 = i_exit s -> i_ext s1 = i_ext s -> i_inp s1 = i_inp s -> i_state s1 = i_state s ->
  i_size s1 = i_size s -> i_cur s1 = i_cur s -> i_csz s1 = i_csz s -> K s1.
Proof. intros H A B C D E F G I. unfold K. rewrite A, B, C, D, E, F, G, I. exact H. Qed.

Lemma k_callback s c : K s -> i_exit s = false -> K (read_callback s c).
Proof.
  intros H X. pose proof H as [L M]. destruct (M X) as (M1 & M2 & M3). unfold read_callback. cbv zeta.
  set (s0 := note s (OCall c)). set (s1 := match c with SQueue => _ | _ => s0 end).
  assert (Q : (i_state s1 = i_state s \/ i_state s1 = inpCallBack /\ i_ext s <> 0%nat) /\ i_log s1 = OCall c :: i_log s /\ i_exit s1 = i_exit s /\ i_ext s1 = i_ext s /\ i_inp s1 = i_inp s /\ i_size s1 = i_size s /\ i_cur s1 = i_cur s /\ i_csz s1 = i_csz s).
  { unfold s1, s0. destruct c; flds; auto 12. destruct (Nat.eqb (i_ext s) 0) eqn:Z; flds; auto 12. apply Nat.eqb_neq in Z. auto 12. }
  clearbody s1. clear s0. destruct Q as (A & B & C & D & E & F & G & I).
  assert (L1 : okl (i_log s1)) by (rewrite B; apply okl_quiet; auto).
  assert (W1 : working (i_log s1) = working (i_log s)) by (rewrite B; reflexivity).
  destruct A as [A|[A Z]].
  - rewrite A. destruct (i_state s) eqn:S; try (split; flds; auto; intros _; rewrite W1, D; repeat split; auto; discriminate).
    + destruct (Nat.eqb (i_ext s1) 0) eqn:Z.
      * split; flds; [apply okl_quiet; auto|discriminate].
      * apply Nat.eqb_neq in Z. split; flds; auto. intros _. rewrite W1, D. repeat split; auto; [discriminate|]. cbn [kst]. congruence.
    + split; flds; auto. intros _. rewrite W1, D. repeat split; auto; [intros _; rewrite E; apply M2; reflexivity|].
      cbn [kst] in M3 |- *. destruct M3 as (r & M3). rewrite B, M3. reflexivity.
    + split; flds; auto. intros _. rewrite W1, D. repeat split; auto; [discriminate|]. cbn [kst] in M3 |- *. rewrite W1, G. exact M3.
  - rewrite A. split; flds; auto. intros _. rewrite W1, D. repeat split; auto; [discriminate|]. cbn [kst]. congruence.
Qed.

Lemma k_step s e s1 : K s -> step osize ostart ocomp ocb opool ocreate env auto recon lim s e = Ok s1 -> K s1.
Proof.
  intros H E. unfold step in E. destruct (i_exit s) eqn:X; [injection E as <-; exact H|]. pose proof H as [L M]. destruct (M X) as (M1 & M2 & M3).
  assert (Po : forall s0, K s0 -> (do (s2, _) <- process_output osize ostart ocomp ocb opool ocreate env auto recon lim s0; Ok s2) = Ok s1 -> K s1).
  { intros s0 H0 R. destruct (process_output _ _ _ _ _ _ _ _ _ _ s0) as [[s2 b]| |] eqn:P; cbn [bind] in R; try discriminate. injection R as <-. eapply k_output; eauto. }
  destruct e.
  - eauto.
  - destruct (i_timer s); [|injection E as <-; exact H]. cbv zeta in E.
    assert (H0 : K (w_timer s false)) by (eapply k_same; [exact H|..]; reflexivity).
    destruct (i_run (w_timer s false)); [|injection E as <-; exact H0]. unfold process_timer in E. cbv zeta in E.
    revert E. apply Po. clear Po. flds. destruct (i_state s) eqn:S; flds; rewrite ?S; try exact H0;
      (split; [flds; auto|]); intros _; flds; repeat split; auto; discriminate.
  - destruct (i_run s); [|injection E as <-; exact H]. unfold process_buffer in E. destruct (i_state s) eqn:S; try (injection E as <-; exact H).
    destruct (opool (i_log s)) as [z|]; [|injection E as <-; exact H]. revert E. apply Po. split; flds; [apply okl_quiet; auto|]. intros _.
    cbn [kst needs] in M2, M3. destruct M3 as (n & Q & A). repeat split; auto. cbn [kst]. exists n, (i_log s). repeat split; auto; discriminate.
  - injection E as <-. apply k_callback; auto.
  - injection E as <-. unfold process_closed. cbv zeta.
    set (s0 := match i_state s with inpClosed => s | _ => change (close_input s) inpClosed end).
    assert (H1 : K s0 /\ i_exit s0 = false /\ i_state s0 = inpClosed) by (unfold s0; pose proof (k_gone s H X); destruct (i_state s) eqn:S; flds; tauto).
    clearbody s0. destruct H1 as (H1 & X1 & S1). destruct (negb recon); [apply k_shut; auto; rewrite S1; reflexivity|].
    destruct H1 as [L1 N1]. specialize (N1 X1). split; flds; auto. intros _. repeat split; try discriminate; apply N1.
  - injection E as <-. unfold start_transport. destruct (i_tr s); cbv zeta; try exact H; flds; (destruct (i_inp s) eqn:I; eapply (k_same s); flds; auto).
  - injection E as <-. destruct (i_tr s); auto. unfold stop_transport, base_stop. destruct (suitable _); [|eapply (k_same s); flds; auto].
    flds. destruct (i_run (w_stop s false)); eapply (k_same s); flds; auto.
  - injection E as <-. eapply (k_same s); flds; auto.
  - injection E as <-. eapply (k_same s); flds; auto.
Qed.
Lemma k_run l : forall s s1, K s -> run osize ostart ocomp ocb opool ocreate env auto recon lim s l = Ok s1 -> K s1.
Proof.
  induction l as [|e l IH]; intros s s1 H E; cbn [run] in E; [injection E as <-; exact H|].
  destruct (step _ _ _ _ _ _ _ _ _ _ s e) as [s2| |] eqn:P; cbn [bind] in E; try discriminate.
  eapply IH; [|exact E]. eapply k_step; eauto.
Qed.
Lemma k_new cap bc bu : K (it_new cap bc bu).
Proof. split; [exact I|]. intros _. cbn. repeat split; auto. Qed.
End R.
