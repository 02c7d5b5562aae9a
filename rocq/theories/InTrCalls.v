(* Proofs about the order of the calls of a DataInput object and about its end. *)
From Verif Require Import Common InTrSpec InTrModel InTrProofs InTrRules.

#[local] Hint Rewrite k_w_state_i_size k_w_inp_i_size k_w_cur_i_size k_w_size_i_size k_w_ext_i_size k_w_stop_i_size k_w_tr_i_size
  k_w_run_i_size k_w_timer_i_size k_w_port_i_size k_w_dead_i_size k_w_exit_i_size k_note_i_size k_close_transport_i_size
  k_close_input_i_size k_change_i_size : itf.

Definition nb (o : option iobs) : bool := match o with Some e => negb (ended e) | None => true end.
Definition pending (l : list iobs) : bool := match l with e :: _ => ended e | _ => false end.
Definition gonep (l : list iobs) : bool := match l with OGone :: r => pending r | _ => false end.
Definition eofp (l : list iobs) : bool := match l with OEof :: _ => true | _ => false end.
Definition exitp (l : list iobs) : bool := match l with OExit :: _ => true | _ => false end.
Definition calm (l : list iobs) : bool := negb (pending l || gonep l || eofp l || exitp l).
Definition nocall (l : list iobs) : bool := match l with OCall _ :: _ => false | _ => true end.
Definition nolost (l : list iobs) : bool :=
  match l with OCall _ :: _ => false | OStart StMore :: _ => true | OStart _ :: r => nocall r | _ => true end.
Definition is_size (o : iobs) : bool := match o with OSize _ => true | _ => false end.
Definition bad (c : scode) : bool := match c with SSize _ | SDflt => false | _ => true end.

Definition rule (l : list iobs) (o : iobs) : Prop :=
  (calls o = true -> nb (last_call l) = true /\ (is_size o = true -> may_size (last_call l) = true)) /\
  (pending l = true -> o = OGone) /\ (gonep l = true -> o = OEof \/ o = OExit) /\ (eofp l = true -> o = OClose false) /\ exitp l = false.
Fixpoint okw (l : list iobs) : Prop := match l with [] => True | o :: r => rule r o /\ okw r end.

Definition cst (x : istate) (l : list iobs) : Prop :=
  match x with
  | inpInit | inpInitTimeout | inpReady => may_size (last_call l) = true /\ nocall l = true
  | inpClosed | inpReconnect => False
  | inpError | inpEnd | inpCheckSize => pending l = true \/ nb (last_call l) = true
  | inpSizeCallBack => exists r, l = OSize SCallBack :: r /\ nocall r = true
  | inpCallBack => nb (last_call l) = true /\ nolost l = true
  | inpCheckBuffer | inpHasBuffer => nb (last_call l) = true /\ nocall l = true
  | _ => nb (last_call l) = true
  end.
Definition pendok (x : istate) (inp : bool) (sz : scode) : Prop := inp = true /\ (x = inpError \/ x = inpEnd \/ x = inpCheckSize /\ bad sz = true).
Definition Wv (x : istate) (l : list iobs) (inp ex : bool) (sz : scode) : Prop :=
  okw l /\ (ex = true -> exitp l = true) /\
  (ex = false -> (calm l = true \/ pending l = true /\ pendok x inp sz) /\ (inp = true -> cst x l)).
Definition W (s : it) : Prop := Wv (i_state s) (i_log s) (i_inp s) (i_exit s) (i_size s).
(* between two events *)
Definition Wc (s : it) : Prop := W s /\ (i_exit s = false -> calm (i_log s) = true).

Lemma calm_parts l : calm l = true -> pending l = false /\ gonep l = false /\ eofp l = false /\ exitp l = false.
Proof. unfold calm. destruct (pending l), (gonep l), (eofp l), (exitp l); auto; discriminate. Qed.
Lemma rule_calm l o : calm l = true -> calls o = false -> rule l o.
Proof. intros C N. destruct (calm_parts l C) as (A & B & D & E). unfold rule. rewrite A, B, D, E, N. repeat split; discriminate. Qed.
Lemma rule_call l o : calm l = true -> nb (last_call l) = true -> (is_size o = true -> may_size (last_call l) = true) -> rule l o.
Proof. intros C N M. destruct (calm_parts l C) as (A & B & D & E). unfold rule. rewrite A, B, D, E. repeat split; auto; discriminate. Qed.
Lemma may_nb o : may_size o = true -> nb o = true.
Proof. destruct o as [[[]|z|[]|[] d|d| |c| |e|k|]|]; auto; discriminate. Qed.
(* observations that disturb nothing *)
Definition mild (o : iobs) : bool := match o with OTake _ | OSend _ | OCall _ | OClose _ | OCreate false => true | _ => false end.
Lemma mild_ok o l : mild o = true -> calm l = true -> okw l -> okw (o :: l) /\ calm (o :: l) = true /\ last_call (o :: l) = last_call l /\ pending (o :: l) = false.
Proof.
  intros M C K. split; [split; [apply rule_calm; [exact C|destruct o; try discriminate; reflexivity]|exact K]|].
  destruct o; try discriminate M; repeat split; destruct ok; try discriminate M; reflexivity.
Qed.
Lemma last_note l o : calls o = true -> last_call (o :: l) = Some o.
Proof. destruct o; try discriminate; reflexivity. Qed.
Lemma pend_last l : pending l = true -> nb (last_call l) = false.
Proof. destruct l as [|o l]; [discriminate|]. intro P. rewrite last_note by (destruct o as [[]|z|[]|[] d|d| |c| |e|k|]; try discriminate; reflexivity). cbn in *. rewrite P. reflexivity. Qed.

Section R.
Variable osize : list iobs -> scode.
Variable ostart : list iobs -> stcode * bool.
Variable ocomp : list iobs -> cpcode * option N.
Variable ocb : list iobs -> option scode.
Variable opool : list iobs -> option N.
Variable ocreate : list iobs -> bool.
Variable env : list iobs -> list pev.
Variable auto recon : bool.
Variable lim : option nat.
Notation process_send := (process_send osize ostart ocomp ocb opool ocreate env auto recon).
Notation out_loop := (out_loop osize ostart ocomp ocb opool ocreate env auto recon).
Notation process_output := (process_output osize ostart ocomp ocb opool ocreate env auto recon lim).
Notation step := (step osize ostart ocomp ocb opool ocreate env auto recon lim).
Notation run := (run osize ostart ocomp ocb opool ocreate env auto recon lim).

Definition wkeeps (p : part) : Prop := forall s s1 o, W s -> i_exit s = false -> p s = Ok (s1, o) ->
  W s1 /\ (o = None -> i_exit s1 = false) /\ (o <> None -> i_exit s1 = false -> calm (i_log s1) = true).
Definition wkeepc (p : part) : Prop := forall s s1 o, Wc s -> i_exit s = false -> p s = Ok (s1, o) ->
  Wc s1 /\ (o = None -> i_exit s1 = false).
Ltac got E := injection E as <- <-.

(* the object given up, nothing pending *)
Lemma w_gone s : Wc s -> i_exit s = false -> Wc (change (close_input s) inpClosed) /\ i_exit (change (close_input s) inpClosed) = false.
Proof.
  intros [H C] X. destruct H as (L & _ & _). specialize (C X). split; [|flds; exact X].
  assert (K : okw (if i_inp s then OGone :: i_log s else i_log s) /\ calm (if i_inp s then OGone :: i_log s else i_log s) = true).
  { destruct (i_inp s); [|auto]. split; [split; [apply rule_calm; auto|exact L]|]. destruct (calm_parts _ C) as (A & _). unfold calm. cbn. rewrite A. reflexivity. }
  destruct K as [K1 K2]. split; [unfold W, Wv; flds|intros _; flds; exact K2].
  rewrite X. split; [exact K1|]. split; [discriminate|]. intros _. split; [auto|discriminate].
Qed.
Lemma w_shut s e : Wc s -> i_exit s = false -> (i_inp s = true -> False) -> Wc (close_transport s e).
Proof.
  intros [H C] X N. destruct H as (L & _ & _). specialize (C X). destruct (mild_ok (OClose e) _ eq_refl C L) as (A & B & _).
  split; [unfold W, Wv; flds|intros _; flds; exact B]. rewrite X. split; [exact A|]. split; [discriminate|]. intros _. split; [auto|tauto].
Qed.

Lemma w_closed : wkeepc p_closed.
Proof.
  intros s s1 o H X E. unfold p_closed in E.
  assert (G : forall r, (if i_dead s then Ok (close_transport (change (close_input s) inpClosed) false, Some false) else Ok (s, None)) = Ok r -> Wc (fst r) /\ (snd r = None -> i_exit (fst r) = false)).
  { intros r R. destruct (i_dead s); injection R as <-; cbn [fst snd]; [|split; auto].
    split; [|discriminate]. destruct (w_gone s H X). apply w_shut; auto. flds. discriminate. }
  destruct (i_state s); try (specialize (G _ E); exact G). got E. split; [exact H|discriminate].
Qed.
Lemma w_recon : wkeepc (p_recon ocreate recon).
Proof.
  intros s s1 o H X E. unfold p_recon in E. destruct (i_state s) eqn:S; try (got E; split; auto; fail).
  pose proof H as [(L & _ & M) C]. specialize (C X). destruct (M X) as [_ M2]. rewrite S in M2. cbn [cst] in M2.
  destruct (i_inp s) eqn:I; [destruct (M2 eq_refl)|]. destruct (negb recon).
  { got E. split; [|discriminate]. apply w_shut; auto. congruence. }
  cbv zeta in E. destruct (ocreate (i_log s)); got E.
  - split; [|intros _; flds; exact X]. split; [unfold W, Wv; flds|intros _; flds; unfold calm; reflexivity].
    rewrite X. split; [split; [apply rule_calm; auto|exact L]|]. split; [discriminate|]. intros _. split; [left; reflexivity|]. intros _. split; reflexivity.
  - split; [|discriminate]. split; [unfold W, Wv; flds|intros _; flds; unfold calm; reflexivity].
    rewrite X, I, S. split; [split; [apply rule_calm; auto|exact L]|]. split; [discriminate|]. intros _. split; [left; reflexivity|discriminate].
Qed.
Lemma w_noinp : wkeepc p_noinp.
Proof.
  intros s s1 o H X E. unfold p_noinp in E. destruct (i_inp s) eqn:I.
  - destruct (i_state s); got E; split; auto; discriminate.
  - got E. split; [|discriminate]. apply w_shut; auto. congruence.
Qed.

(* a part that only changes the state *)
Lemma wv_state s x sz : W s -> i_exit s = false -> calm (i_log s) = true -> (i_inp s = true -> cst x (i_log s)) -> Wv x (i_log s) (i_inp s) false sz.
Proof. intros (L & _ & _) X C K. split; [exact L|]. split; [discriminate|]. intros _. auto. Qed.
Lemma not_pend s : W s -> i_exit s = false -> i_state s <> inpError -> i_state s <> inpEnd -> i_state s <> inpCheckSize -> calm (i_log s) = true.
Proof. intros (_ & _ & M) X A B C. destruct (M X) as [[K|[_ [_ K]]] _]; auto. destruct K as [K|[K|[K _]]]; contradiction. Qed.
Ltac np H X S := assert (C : calm (i_log _) = true) by (apply (not_pend _ H X); rewrite S; discriminate).

Lemma w_init : wkeeps (p_init osize ocb env).
Proof.
  intros s s1 o H X E. unfold p_init in E. destruct (i_state s) eqn:S; try (got E; (split; [exact H|split; [auto|congruence]]); fail).
  assert (C : calm (i_log s) = true) by (apply not_pend; auto; rewrite S; discriminate).
  pose proof H as (L & _ & M). destruct (M X) as [_ M2]. rewrite S in M2. cbn [cst] in M2. clear M.
  destruct (negb _). { got E. split; [exact H|]. split; [discriminate|auto]. }
  destruct (Nat.ltb 0 (i_ext s) && _).
  { got E. split; [|split; [discriminate|intros _ _; flds; exact C]]. unfold W. flds. rewrite X. apply wv_state; auto. intro I. destruct (M2 I) as [A B].
    cbn [cst]. split; [apply may_nb; exact A|]. destruct (i_log s) as [|[] r]; try reflexivity; try discriminate. destruct c; try reflexivity; discriminate A. }
  destruct (Nat.eqb _ 0).
  { got E. split; [|split; [discriminate|flds; discriminate]]. unfold W, Wv. flds. split; [split; [apply rule_calm; auto|exact L]|]. split; [reflexivity|discriminate]. }
  destruct (i_inp s) eqn:I; [|discriminate]. destruct (M2 eq_refl) as [A B]. clear M2. cbv zeta in E.
  set (s0 := meanwhile env (w_size (w_state s inpSizeCallBack) (SSize 0))) in E.
  assert (F0 : i_exit s0 = false /\ i_inp s0 = true /\ i_log s0 = i_log s /\ i_state s0 = inpSizeCallBack) by (unfold s0, meanwhile; flds; auto).
  destruct F0 as (F1 & F2 & F4 & F5). clearbody s0.
  destruct (inside_cases ocb s0) as (A1 & A2 & _ & _ & _ & A6); [auto|]. set (s2 := inside ocb s0) in *. clearbody s2.
  rewrite A1, F1 in E. rewrite F1 in A1. rewrite F2 in A2.
  assert (D : okw (i_log s2) /\ calm (i_log s2) = true /\ last_call (i_log s2) = last_call (i_log s)).
  { destruct A6 as [(A6 & _)|(c & A6 & _)]; rewrite A6, F4; [auto|]. destruct (mild_ok (OCall c) _ eq_refl C L) as (D1 & D2 & D3 & _). auto. }
  destruct D as (D1 & D2 & D3).
  assert (R : forall c, okw (OSize c :: i_log s2)).
  { intro c. split; [|exact D1]. apply rule_call; [exact D2|rewrite D3; apply may_nb; exact A|intros _; rewrite D3; exact A]. }
  destruct (osize (i_log s2)) eqn:Q; got E; (split; [|split; [try discriminate; intros _; flds; exact A1|try congruence; intros _ _; flds; reflexivity]]);
    unfold W, Wv; flds; rewrite A1, A2; (split; [apply R|]); (split; [discriminate|]); intros _;
    try (split; [left; reflexivity|]; intros _; cbn; auto; fail); try (split; [right; split; [reflexivity|]; split; [reflexivity|]; auto|intros _; left; reflexivity]).
  split; [left; reflexivity|]. intros _.
  destruct A6 as [(A6 & A7 & A8)|(c & A6 & [(A7 & A8 & A9)|(A8 & A9 & A7)])].
  - rewrite A7, F5. cbn [cst]. eexists. split; [reflexivity|]. rewrite A6, F4. exact B.
  - rewrite A8. cbn [cst]. right. reflexivity.
  - rewrite A8. cbn [cst]. reflexivity.
Qed.

Lemma w_size' : wkeeps p_size.
Proof.
  intros s s1 o H X E. unfold p_size in E. destruct (i_state s) eqn:S; try (got E; (split; [exact H|split; [auto|congruence]]); fail).
  pose proof H as (L & _ & M). destruct (M X) as [M1 M2]. rewrite S in M1, M2. cbn [cst] in M2. clear M.
  destruct (i_size s) eqn:Q; got E; (split; [|split; [intros _; flds; exact X|congruence]]); unfold W, Wv; flds; rewrite X, ?Q;
    (split; [exact L|]); (split; [discriminate|]); intros _.
  all: try (split; [destruct M1 as [M1|(M1 & M3 & M4)]; [auto|right; split; [exact M1|split; [exact M3|auto]]]|exact M2]).
  all: destruct M1 as [M1|(M1 & M3 & [M4|[M4|[_ M4]]])]; try discriminate M4; (split; [auto|]); intro I; destruct (M2 I) as [M5|M5]; auto;
    destruct (calm_parts _ M1) as (Z & _); congruence.
Qed.

Lemma w_need : wkeeps (p_need opool auto).
Proof.
  intros s s1 o H X E. unfold p_need in E. destruct (i_state s) eqn:S; try (got E; (split; [exact H|split; [auto|congruence]]); fail).
  assert (C : calm (i_log s) = true) by (apply not_pend; auto; rewrite S; discriminate).
  pose proof H as (L & _ & M). destruct (M X) as [_ M2]. rewrite S in M2. cbn [cst] in M2. clear M.
  destruct (opool (i_log s)) as [z|].
  - got E. split; [|split; [intros _; flds; exact X|congruence]]. destruct (mild_ok (OTake z) _ eq_refl C L) as (D1 & D2 & D3 & _).
    unfold W, Wv; flds; rewrite X. split; [exact D1|]. split; [discriminate|]. intros _. split; [auto|]. intro I. cbn [cst]. split; [rewrite D3; auto|reflexivity].
  - cbv zeta in E. destruct auto; got E; (split; [|split; [discriminate|intros _ _; flds; exact C]]); unfold W; flds; rewrite X; apply wv_state; auto; rewrite S; exact M2.
Qed.
Lemma w_check : wkeeps p_check.
Proof.
  intros s s1 o H X E. unfold p_check in E. destruct (i_state s) eqn:S; try (got E; (split; [exact H|split; [auto|congruence]]); fail).
  assert (C : calm (i_log s) = true) by (apply not_pend; auto; rewrite S; discriminate).
  pose proof H as (L & _ & M). destruct (M X) as [_ M2]. rewrite S in M2. cbn [cst] in M2. clear M.
  cbv zeta in E. destruct (_ <? _)%N; got E; (split; [|split; [intros _; flds; exact X|congruence]]); unfold W; flds; rewrite X; apply wv_state; auto.
  intro I. right. apply M2. exact I.
Qed.

Lemma w_has : wkeeps (p_has ostart ocb env).
Proof.
  intros s s1 o H X E. unfold p_has in E. destruct (i_state s) eqn:S; try (got E; (split; [exact H|split; [auto|congruence]]); fail).
  assert (C : calm (i_log s) = true) by (apply not_pend; auto; rewrite S; discriminate).
  pose proof H as (L & _ & M). destruct (M X) as [_ M2]. rewrite S in M2. cbn [cst] in M2. clear M.
  destruct (i_inp s) eqn:I; [|discriminate]. destruct (M2 eq_refl) as [A B]. clear M2. cbv zeta in E.
  set (s0 := meanwhile env (w_state s inpCallBack)) in E.
  assert (F0 : i_exit s0 = false /\ i_inp s0 = true /\ i_log s0 = i_log s /\ i_state s0 = inpCallBack) by (unfold s0, meanwhile; flds; auto).
  destruct F0 as (F1 & F2 & F4 & F5). clearbody s0.
  destruct (inside_cases ocb s0) as (A1 & A2 & _ & _ & _ & A6); [auto|]. set (s2 := inside ocb s0) in *. clearbody s2.
  rewrite A1, F1 in E. rewrite F1 in A1. rewrite F2 in A2.
  assert (D : okw (i_log s2) /\ calm (i_log s2) = true /\ last_call (i_log s2) = last_call (i_log s) /\
    (i_state s2 = inpCallBack /\ i_log s2 = i_log s \/ i_state s2 = inpCompleting)).
  { destruct A6 as [(A6 & A7 & _)|(c & A6 & A7)]; rewrite A6, F4.
    - rewrite A7. auto 6.
    - destruct (mild_ok (OCall c) _ eq_refl C L) as (D1 & D2 & D3 & _). repeat (split; [assumption|]). right. destruct A7 as [(A7 & _)|(A7 & _)]; [congruence|exact A7]. }
  destruct D as (D1 & D2 & D3 & D4).
  assert (R : forall c, okw (OStart c :: i_log s2)) by (intro c; split; [|exact D1]; apply rule_call; [exact D2|rewrite D3; exact A|discriminate]).
  destruct (ostart (i_log s2)) as [c keep]. set (s3 := if keep then w_cur s2 None 0%N else s2) in E.
  assert (G : i_exit s3 = false /\ i_inp s3 = true /\ i_log s3 = i_log s2 /\ i_state s3 = i_state s2)
    by (unfold s3; destruct keep; flds; auto). clearbody s3. destruct G as (G1 & G2 & G4 & G5).
  destruct c; got E; (split; [|split; [try discriminate; intros _; flds; exact G1|try congruence; intros _ _; flds; reflexivity]]);
    unfold W, Wv; flds; rewrite G1, G2, G4, ?G5; (split; [apply R|]); (split; [discriminate|]); intros _;
    try (split; [left; reflexivity|]; intros _; cbn; auto; fail); try (split; [right; split; [reflexivity|]; split; [reflexivity|]; auto|intros _; left; reflexivity]);
    (split; [left; reflexivity|]); intros _; (destruct D4 as [[D4 D5]|D4]; rewrite D4; cbn [cst]; [split; [reflexivity|cbn [nolost]; rewrite D5; exact B]|reflexivity]).
Qed.

Lemma w_cb : wkeeps p_cb.
Proof.
  intros s s1 o H X E. unfold p_cb in E. destruct (i_state s) eqn:S; got E; (split; [exact H|]); (split; [try discriminate; auto|]); try congruence.
  intros _ _. apply not_pend; auto; rewrite S; discriminate.
Qed.

Lemma w_compl : wkeeps (p_compl ocomp env).
Proof.
  intros s s1 o H X E. unfold p_compl in E. destruct (i_state s) eqn:S; try (got E; (split; [exact H|split; [auto|congruence]]); fail).
  assert (C : calm (i_log s) = true) by (apply not_pend; auto; rewrite S; discriminate).
  pose proof H as (L & _ & M). destruct (M X) as [_ M2]. rewrite S in M2. cbn [cst] in M2. clear M. cbv zeta in E.
  destruct (Bool.eqb _ _). { got E. split; [exact H|]. split; [discriminate|auto]. }
  destruct (i_inp s) eqn:I; [|discriminate]. specialize (M2 eq_refl). rename M2 into A.
  set (s0 := meanwhile env s) in E.
  assert (F0 : i_exit s0 = false /\ i_inp s0 = true /\ i_log s0 = i_log s /\ i_state s0 = inpCompleting) by (unfold s0, meanwhile; flds; auto).
  destruct F0 as (F1 & F2 & F4 & F5). clearbody s0.
  assert (R : forall c d, okw (OComplete c d :: i_log s)) by (intros c d; split; [|exact L]; apply rule_call; [exact C|exact A|discriminate]).
  destruct (ocomp (i_log s0)) as [c d].
  destruct c; [|destruct (Nat.eqb _ 0)|..]; got E; (split; [|split; [try discriminate; intros _; flds; exact F1|try congruence; flds; try discriminate; intros _ _; flds; rewrite ?F4; reflexivity]]);
    unfold W, Wv; flds; rewrite ?F1, ?F2, ?F4, ?F5.
  all: try (split; [apply R|]; split; [discriminate|]; intros _; split; [left; reflexivity|]; intros _; cbn; auto; fail).
  all: try (split; [apply R|]; split; [discriminate|]; intros _; split; [right; split; [reflexivity|]; split; [reflexivity|]; auto|intros _; left; reflexivity]).
  - split; [split; [apply rule_calm; reflexivity|apply R]|]. split; [reflexivity|discriminate].
  - split; [split; [apply rule_calm; reflexivity|apply R]|]. split; [discriminate|]. intros _. split; [left; reflexivity|]. intros _. reflexivity.
Qed.

Lemma w_ready : wkeeps p_ready.
Proof.
  intros s s1 o H X E. unfold p_ready in E. destruct (i_state s) eqn:S; try (got E; (split; [exact H|split; [auto|congruence]]); fail).
  assert (C : calm (i_log s) = true) by (apply not_pend; auto; rewrite S; discriminate).
  pose proof H as (L & _ & M). destruct (M X) as [_ M2]. rewrite S in M2. cbn [cst] in M2. clear M.
  destruct (Nat.eqb _ 0); got E.
  - split; [|split; [discriminate|flds; discriminate]]. unfold W, Wv. flds. split; [split; [apply rule_calm; auto|exact L]|]. split; [reflexivity|discriminate].
  - split; [|split; [intros _; flds; exact X|congruence]]. unfold W, Wv. flds. rewrite X. destruct (mild_ok (OSend (i_cur s)) _ eq_refl C L) as (D1 & D2 & D3 & _).
    split; [exact D1|]. split; [discriminate|]. intros _. split; [auto|]. intro I. cbn [cst]. rewrite D3. split; [apply M2; exact I|reflexivity].
Qed.


(* after p_size the state is not inpCheckSize *)
Definition nocheck (p : part) : Prop := forall s s1 o, i_state s <> inpCheckSize -> p s = Ok (s1, o) -> i_state s1 <> inpCheckSize.
Ltac nck E := repeat match type of E with context [match ?x with _ => _ end] => destruct x eqn:?; try discriminate E end; injection E as <- <-; flds; congruence.
Lemma n_need : nocheck (p_need opool auto).
Proof. intros s s1 o N E. unfold p_need in E. cbv zeta in E. nck E. Qed.
Lemma n_check : nocheck p_check.
Proof. intros s s1 o N E. unfold p_check in E. cbv zeta in E. nck E. Qed.
Lemma n_cb : nocheck p_cb.
Proof. intros s s1 o N E. unfold p_cb in E. cbv zeta in E. nck E. Qed.
Lemma n_ready : nocheck p_ready.
Proof. intros s s1 o N E. unfold p_ready in E. cbv zeta in E. nck E. Qed.
Lemma n_compl : nocheck (p_compl ocomp env).
Proof.
  intros s s1 o N E. unfold p_compl in E. cbv zeta in E.
  set (s0 := meanwhile env s) in E. assert (F : i_state s0 = i_state s) by (unfold s0, meanwhile; flds; auto). clearbody s0.
  destruct (i_state s) eqn:S; try nck E.
Qed.
Lemma n_has : nocheck (p_has ostart ocb env).
Proof.
  intros s s1 o N E. unfold p_has in E. cbv zeta in E.
  set (s0 := meanwhile env (w_state s inpCallBack)) in E. assert (F : i_state s0 = inpCallBack) by (unfold s0, meanwhile; flds; auto). clearbody s0.
  set (s2 := inside ocb s0) in E. assert (G : i_state s2 <> inpCheckSize).
  { unfold s2, inside. destruct (ocb (i_log s0)) as [c|]; [|congruence]. unfold read_callback. cbv zeta.
    destruct c; flds; rewrite ?F; flds; try discriminate. destruct (Nat.eqb (i_ext s0) 0); flds; rewrite ?F; flds; discriminate. }
  clearbody s2. destruct (i_state s) eqn:S; try (injection E as <- <-; congruence).
  destruct (i_inp s); [|discriminate]. destruct (i_exit s2); [injection E as <- <-; exact G|].
  destruct (ostart (i_log s2)) as [c keep]. destruct keep, c; injection E as <- <-; flds; try exact G; discriminate.
Qed.

Lemma w_end s s1 o : W s -> i_exit s = false -> i_state s <> inpCheckSize -> p_end s = Ok (s1, o) -> Wc s1.
Proof.
  intros H X N E. unfold p_end in E. pose proof H as (L & _ & M). destruct (M X) as [M1 M2]. clear M.
  assert (G : (if Nat.eqb (num_can_send (i_port (w_size (close_input s) (SSize 0)))) 0 then Ok (w_exit (w_size (close_input s) (SSize 0)), Some false)
    else Ok (close_transport (change (w_cur (w_port (note (w_size (close_input s) (SSize 0)) OEof) (p_send (i_port (w_size (close_input s) (SSize 0))))) None 0%N) inpClosed) false, Some false)) = Ok (s1, o)
    -> Wc s1).
  { clear E. intro E.
    assert (K : okw (if i_inp s then OGone :: i_log s else i_log s) /\ (forall x, x = OEof \/ x = OExit -> rule (if i_inp s then OGone :: i_log s else i_log s) x)).
    { destruct M1 as [M1|(M1 & I & _)].
      - assert (D : okw (if i_inp s then OGone :: i_log s else i_log s) /\ calm (if i_inp s then OGone :: i_log s else i_log s) = true).
        { destruct (i_inp s); [|auto]. split; [split; [apply rule_calm; auto|exact L]|]. destruct (calm_parts _ M1) as (D & _). unfold calm. cbn. rewrite D. reflexivity. }
        destruct D as [D1 D2]. split; [exact D1|]. intros x [->| ->]; apply rule_calm; auto.
      - rewrite I. split; [split; [|exact L]|].
        + unfold rule. destruct (i_log s) as [|e r]; [discriminate M1|]. cbn in M1. destruct e as [[]|z|[]|[] d|d| |c| |er|k|]; try discriminate M1; repeat split; discriminate.
        + intros x Y. unfold rule. cbn. destruct Y as [->| ->]; repeat split; auto; try discriminate. }
    destruct K as [K1 K2].
    destruct (Nat.eqb _ 0); got E; split.
    - unfold W, Wv. flds. split; [split; [apply K2; auto|exact K1]|]. split; [reflexivity|discriminate].
    - flds. discriminate.
    - unfold W, Wv. flds. rewrite X. split; [|split; [discriminate|intros _; split; [left; reflexivity|discriminate]]].
      split; [unfold rule; cbn; repeat split; discriminate|]. split; [apply K2; auto|exact K1].
    - intros _. flds. reflexivity. }
  assert (Z : i_state s <> inpError -> i_state s <> inpEnd -> calm (i_log s) = true) by (intros; apply not_pend; auto).
  destruct (i_state s) eqn:S; try (apply G; exact E); try contradiction; got E; try (split; [exact H|intros _; apply Z; discriminate]).
  apply w_shut; auto. split; [exact H|intros _; apply Z; discriminate].
Qed.

Lemma w_send s s1 b : Wc s -> i_exit s = false -> process_send s = Ok (s1, b) -> Wc s1.
Proof.
  intros H X E. unfold process_send in E. cbn [seq_parts] in E.
  destruct (p_closed s) as [[s2 o]| |] eqn:P; cbn [bind] in E; try discriminate. destruct (w_closed _ _ _ H X P) as [H2 X2].
  destruct o; [injection E as <- <-; exact H2|]. specialize (X2 eq_refl). clear H X P s. rename s2 into s, H2 into H, X2 into X.
  destruct (p_recon ocreate recon s) as [[s2 o]| |] eqn:P; cbn [bind] in E; try discriminate. destruct (w_recon _ _ _ H X P) as [H2 X2].
  destruct o; [injection E as <- <-; exact H2|]. specialize (X2 eq_refl). clear H X P s. rename s2 into s, H2 into H, X2 into X.
  destruct (p_noinp s) as [[s2 o]| |] eqn:P; cbn [bind] in E; try discriminate. destruct (w_noinp _ _ _ H X P) as [H2 X2].
  destruct o; [injection E as <- <-; exact H2|]. specialize (X2 eq_refl). clear H X P s. rename s2 into s, X2 into X. destruct H2 as [H _].
  destruct (p_init osize ocb env s) as [[s2 o]| |] eqn:P; cbn [bind] in E; try discriminate. destruct (w_init _ _ _ H X P) as (H2 & X2 & C2).
  destruct o; [injection E as <- <-; split; [exact H2|apply C2; discriminate]|]. specialize (X2 eq_refl). clear H X P C2 s. rename s2 into s, H2 into H, X2 into X.
  destruct (p_size s) as [[s2 o]| |] eqn:P; cbn [bind] in E; try discriminate. destruct (w_size' _ _ _ H X P) as (H2 & X2 & C2).
  assert (N2 : i_state s2 <> inpCheckSize). { unfold p_size in P. destruct (i_state s) eqn:S; try (injection P as <- <-; congruence). destruct (i_size s); injection P as <- <-; flds; discriminate. }
  destruct o; [injection E as <- <-; split; [exact H2|apply C2; discriminate]|]. specialize (X2 eq_refl). clear H X P C2 s. rename s2 into s, H2 into H, X2 into X, N2 into N.
  Ltac nx E P H X N p w n s := destruct (p s) as [[?s2 [?|]]| |] eqn:P; cbn [bind] in E; try discriminate E;
    (let H2 := fresh "H" in let X2 := fresh "X" in let C2 := fresh "C" in let N2 := fresh "N" in
     pose proof (n _ _ _ N P) as N2; destruct (w _ _ _ H X P) as (H2 & X2 & C2); clear H X N;
     first [specialize (X2 eq_refl); clear C2 P s; rename H2 into H, X2 into X, N2 into N|injection E as <- <-; split; [exact H2|apply C2; discriminate]]).
  nx E P H X N (p_need opool auto) w_need n_need s.
  nx E P H X N p_check w_check n_check s2.
  nx E P H X N (p_has ostart ocb env) w_has n_has s0.
  nx E P H X N p_cb w_cb n_cb s2.
  nx E P H X N (p_compl ocomp env) w_compl n_compl s0.
  nx E P H X N p_ready w_ready n_ready s2.
  destruct (p_end s0) as [[s2 o]| |] eqn:P; cbn [bind] in E; try discriminate. pose proof (w_end _ _ _ H X N P) as H2. destruct o; injection E as <- <-; exact H2.
Qed.
Lemma w_loop n : forall s s1 b, Wc s -> out_loop n s = Ok (s1, b) -> Wc s1.
Proof.
  induction n as [|n IH]; intros s s1 b H E; cbn [out_loop] in E; (destruct (active s) eqn:A; [|injection E as <- <-; exact H]);
    apply active_exit in A; (destruct (process_send s) as [[s2 go]| |] eqn:P; cbn [bind] in E; try discriminate);
    pose proof (w_send _ _ _ H A P) as H2; destruct go; try (injection E as <- <-; exact H2). eapply IH; eauto.
Qed.
Lemma w_output s s1 b : Wc s -> process_output s = Ok (s1, b) -> Wc s1.
Proof.
  intros H E. unfold process_output in E. destruct lim; [eapply w_loop; eauto|]. destruct (active s) eqn:A; [|injection E as <- <-; exact H].
  apply active_exit in A. destruct (process_send s) as [[s2 go]| |] eqn:P; cbn [bind] in E; try discriminate.
  injection E as <- <-. eapply w_send; eauto.
Qed.

Lemma w_same s s1 : Wc s -> i_log s1 = i_log s -> i_exit s1 = i_exit s -> i_inp s1 = i_inp s -> i_state s1 = i_state s -> i_size s1 = i_size s -> Wc s1.
Proof. intros H A B C D E. unfold Wc, W. rewrite A, B, C, D, E. exact H. Qed.

Lemma cst_nb x l : calm l = true -> cst x l -> nb (last_call l) = true.
Proof.
  intros C H. destruct (calm_parts _ C) as (P & _). destruct x; cbn [cst] in H; try tauto; try (destruct H; [congruence|assumption]); try (apply may_nb; apply H).
  destruct H as (r & -> & _). reflexivity.
Qed.

Lemma w_callback s c : Wc s -> i_exit s = false -> Wc (read_callback s c).
Proof.
  intros [H C] X. specialize (C X). pose proof H as (L & _ & M). destruct (M X) as (_ & M2). clear M. unfold read_callback. cbv zeta.
  set (s0 := note s (OCall c)). set (s1 := match c with SQueue => _ | _ => s0 end).
  assert (Q : i_log s1 = OCall c :: i_log s /\ i_exit s1 = false /\ i_inp s1 = i_inp s).
  { unfold s1, s0. destruct c; flds; auto 12. destruct (Nat.eqb (i_ext s) 0) eqn:Z; flds; auto 12. }
  clearbody s1. clear s0. destruct Q as (B & D & E).
  destruct (mild_ok (OCall c) _ eq_refl C L) as (K1 & K2 & K3 & _).
  assert (N : i_inp s1 = true -> nb (last_call (OCall c :: i_log s)) = true) by (rewrite E; intro I; rewrite K3; eapply cst_nb; eauto).
  assert (G : forall x sz, (nb (last_call (OCall c :: i_log s)) = true -> cst x (OCall c :: i_log s)) -> Wv x (OCall c :: i_log s) (i_inp s1) false sz).
  { intros x sz Y. split; [exact K1|]. split; [discriminate|]. auto. }
  destruct (i_state s1) eqn:S; try (split; [unfold W; flds; rewrite B, D; apply G; cbn [cst]; auto|intros _; flds; rewrite B; exact K2]).
  destruct (Nat.eqb (i_ext s1) 0).
  - split; [|flds; discriminate]. unfold W, Wv. flds. rewrite B. split; [split; [apply rule_calm; auto|exact K1]|]. split; [reflexivity|discriminate].
  - split; [unfold W; flds; rewrite B, D; apply G; cbn [cst]; auto|intros _; flds; rewrite B; exact K2].
Qed.

Lemma w_step s e s1 : Wc s -> step s e = Ok s1 -> Wc s1.
Proof.
  intros H E. unfold step in E. destruct (i_exit s) eqn:X; [injection E as <-; exact H|]. pose proof H as [(L & _ & M) C]. specialize (C X). destruct (M X) as (_ & M2). clear M.
  assert (Po : forall s0, Wc s0 -> (do (s2, _) <- process_output s0; Ok s2) = Ok s1 -> Wc s1).
  { intros s0 H0 R. destruct (process_output s0) as [[s2 b]| |] eqn:P; cbn [bind] in R; try discriminate. injection R as <-. eapply w_output; eauto. }
  destruct e.
  - eauto.
  - destruct (i_timer s); [|injection E as <-; exact H]. cbv zeta in E.
    assert (H0 : Wc (w_timer s false)) by (eapply w_same; [exact H|..]; reflexivity).
    destruct (i_run (w_timer s false)); [|injection E as <-; exact H0]. unfold process_timer in E. cbv zeta in E.
    revert E. apply Po. clear Po. flds. destruct (i_state s) eqn:S; flds; rewrite ?S; try exact H0;
      (split; [unfold W; flds; rewrite X; apply wv_state; [apply H|exact X|exact C|exact M2]|intros _; flds; exact C]).
  - destruct (i_run s); [|injection E as <-; exact H]. unfold process_buffer in E. destruct (i_state s) eqn:S; try (injection E as <-; exact H).
    destruct (opool (i_log s)) as [z|]; [|injection E as <-; exact H]. revert E. apply Po. destruct (mild_ok (OTake z) _ eq_refl C L) as (K1 & K2 & K3 & _).
    split; [|intros _; flds; exact K2]. unfold W, Wv. flds. rewrite X. split; [exact K1|]. split; [discriminate|]. intros _. split; [auto|]. intro I. cbn [cst]. rewrite K3. split; [apply M2; exact I|reflexivity].
  - injection E as <-. apply w_callback; auto.
  - injection E as <-. unfold process_closed. cbv zeta.
    set (s0 := match i_state s with inpClosed => s | _ => change (close_input s) inpClosed end).
    assert (H1 : Wc s0 /\ i_exit s0 = false /\ i_inp s0 = false).
    { unfold s0. destruct (w_gone s H X) as [G1 G2]. destruct (i_state s) eqn:S; try (repeat split; try apply G1; flds; auto; fail).
      split; [exact H|]. split; [exact X|]. destruct (i_inp s); [destruct (M2 eq_refl)|reflexivity]. }
    clearbody s0. destruct H1 as (H1 & X1 & S1). destruct (negb recon); [apply w_shut; auto; congruence|].
    destruct H1 as [(L1 & _ & _) N1]. specialize (N1 X1). split; [unfold W, Wv; flds; rewrite X1, S1|intros _; flds; exact N1].
    split; [exact L1|]. split; [discriminate|]. intros _. split; [auto|discriminate].
  - injection E as <-. unfold start_transport. destruct (i_tr s); cbv zeta; try exact H; flds; (destruct (i_inp s) eqn:I; eapply (w_same s); flds; auto).
  - injection E as <-. destruct (i_tr s); auto. unfold stop_transport, base_stop. destruct (suitable _); [|eapply (w_same s); flds; auto].
    flds. destruct (i_run (w_stop s false)); eapply (w_same s); flds; auto.
  - injection E as <-. eapply (w_same s); flds; auto.
  - injection E as <-. eapply (w_same s); flds; auto.
Qed.
Lemma w_run' l : forall s s1, Wc s -> run s l = Ok s1 -> Wc s1.
Proof.
  induction l as [|e l IH]; intros s s1 H E; cbn [run] in E; [injection E as <-; exact H|].
  destruct (step s e) as [s2| |] eqn:P; cbn [bind] in E; try discriminate.
  eapply IH; [|exact E]. eapply w_step; eauto.
Qed.
Lemma w_new cap bc bu : Wc (it_new cap bc bu).
Proof. split; [|reflexivity]. split; [exact I|]. split; [discriminate|]. intros _. split; [left; reflexivity|]. intros _. split; reflexivity. Qed.

(* a transport left without a buffer has armed the timer *)
Definition noneed (p : part) : Prop := forall s s1 o, i_state s <> inpNeedBuffer -> p s = Ok (s1, o) -> i_state s1 <> inpNeedBuffer.
Lemma d_check : noneed p_check.
Proof. intros s s1 o N E. unfold p_check in E. cbv zeta in E. nck E. Qed.
Lemma d_cb : noneed p_cb.
Proof. intros s s1 o N E. unfold p_cb in E. cbv zeta in E. nck E. Qed.
Lemma d_ready : noneed p_ready.
Proof. intros s s1 o N E. unfold p_ready in E. cbv zeta in E. nck E. Qed.
Lemma d_end : noneed p_end.
Proof. intros s s1 o N E. unfold p_end in E. cbv zeta in E. nck E. Qed.
Lemma d_compl : noneed (p_compl ocomp env).
Proof.
  intros s s1 o N E. unfold p_compl in E. cbv zeta in E.
  set (s0 := meanwhile env s) in E. assert (F : i_state s0 = i_state s) by (unfold s0, meanwhile; flds; auto). clearbody s0.
  destruct (i_state s) eqn:S; try nck E.
Qed.
Lemma d_inside s0 : In (i_state s0) [inpCallBack; inpSizeCallBack] -> i_state (inside ocb s0) <> inpNeedBuffer.
Proof.
  intro F. unfold inside. cbn [In] in F. destruct (ocb (i_log s0)) as [c|]; [|destruct F as [F|[F|[]]]; congruence]. unfold read_callback. cbv zeta.
  destruct F as [F|[F|[]]]; symmetry in F; destruct c; flds; rewrite ?F; flds; try discriminate; destruct (Nat.eqb (i_ext s0) 0); flds; rewrite ?F; flds; discriminate.
Qed.
Lemma d_has : noneed (p_has ostart ocb env).
Proof.
  intros s s1 o N E. unfold p_has in E. cbv zeta in E.
  set (s0 := meanwhile env (w_state s inpCallBack)) in E. assert (F : i_state s0 = inpCallBack) by (unfold s0, meanwhile; flds; auto). clearbody s0.
  set (s2 := inside ocb s0) in E. assert (G : i_state s2 <> inpNeedBuffer) by (apply d_inside; rewrite F; cbn; auto).
  clearbody s2. destruct (i_state s) eqn:S; try (injection E as <- <-; congruence).
  destruct (i_inp s); [|discriminate]. destruct (i_exit s2); [injection E as <- <-; exact G|].
  destruct (ostart (i_log s2)) as [c keep]. destruct keep, c; injection E as <- <-; flds; try exact G; discriminate.
Qed.
Lemma d_init : noneed (p_init osize ocb env).
Proof.
  intros s s1 o N E. unfold p_init in E. cbv zeta in E.
  set (s0 := meanwhile env (w_size (w_state s inpSizeCallBack) (SSize 0))) in E. assert (F : i_state s0 = inpSizeCallBack) by (unfold s0, meanwhile; flds; auto). clearbody s0.
  set (s2 := inside ocb s0) in E. assert (G : i_state s2 <> inpNeedBuffer) by (apply d_inside; rewrite F; cbn; auto).
  clearbody s2. destruct (i_state s) eqn:S; try (injection E as <- <-; congruence).
  destruct (negb _); [injection E as <- <-; congruence|]. destruct (_ && _); [injection E as <- <-; flds; discriminate|].
  destruct (Nat.eqb _ 0); [injection E as <- <-; flds; congruence|].
  destruct (i_inp s); [|discriminate]. destruct (i_exit s2); [injection E as <- <-; exact G|].
  destruct (osize (i_log s2)); injection E as <- <-; flds; try exact G; discriminate.
Qed.

Lemma d_send s s1 b : K s -> i_exit s = false -> process_send s = Ok (s1, b) -> i_state s1 = inpNeedBuffer -> i_timer s1 = true /\ b = false.
Proof.
  intros H X E Q. unfold process_send in E. cbn [seq_parts] in E.
  destruct (p_closed s) as [[s2 o]| |] eqn:P; cbn [bind] in E; try discriminate. destruct (k_closed _ _ _ H X P) as [H2 X2].
  destruct o. { injection E as -> ->. exfalso. unfold p_closed in P. destruct (i_state s) eqn:S; try (destruct (i_dead s)); try discriminate P; injection P as <- <-; rewrite ?S in Q; revert Q; flds; discriminate. }
  specialize (X2 eq_refl). clear H X P s. rename s2 into s, H2 into H, X2 into X.
  destruct (p_recon ocreate recon s) as [[s2 o]| |] eqn:P; cbn [bind] in E; try discriminate. destruct (k_recon ocreate recon _ _ _ H X P) as [H2 X2].
  destruct o. { injection E as -> ->. exfalso. unfold p_recon in P. cbv zeta in P. destruct (i_state s) eqn:S; try discriminate P.
    destruct (i_inp s); [|destruct (negb recon); [|destruct (ocreate (i_log s)); [discriminate P|]]]; injection P as <- <-; revert Q; flds; rewrite ?S; discriminate. }
  specialize (X2 eq_refl). clear H X P s. rename s2 into s, H2 into H, X2 into X.
  destruct (p_noinp s) as [[s2 o]| |] eqn:P; cbn [bind] in E; try discriminate.
  destruct o. { injection E as -> ->. exfalso. unfold p_noinp in P. destruct H as [_ M]. destruct (M X) as (_ & M2 & _). destruct (i_inp s) eqn:I.
    - destruct (i_state s) eqn:S; try discriminate P; injection P as <- <-; congruence.
    - injection P as <- <-. revert Q. flds. intro Q. rewrite Q in M2. specialize (M2 eq_refl). discriminate M2. }
  assert (s2 = s). { unfold p_noinp in P. destruct (i_inp s); [destruct (i_state s)|]; congruence. } subst s2. clear P.
  destruct (p_init osize ocb env s) as [[s2 o]| |] eqn:P; cbn [bind] in E; try discriminate.
  destruct o. { injection E as -> ->. exfalso. destruct (i_state s) eqn:S; try (eapply (d_init s); [|exact P|exact Q]; congruence).
    unfold p_init in P. rewrite S in P. discriminate P. }
  clear P H X s. rename s2 into s.
  destruct (p_size s) as [[s2 o]| |] eqn:P; cbn [bind] in E; try discriminate.
  assert (o = None) by (unfold p_size in P; destruct (i_state s), (i_size s); congruence). subst o. clear P s. rename s2 into s.
  destruct (p_need opool auto s) as [[s2 o]| |] eqn:P; cbn [bind] in E; try discriminate.
  destruct o as [b0|].
  { injection E as -> ->. unfold p_need in P. cbv zeta in P. destruct (i_state s) eqn:S; try discriminate P. destruct (opool (i_log s)); [discriminate P|].
    destruct auto; injection P as <- <-; revert Q; flds; [discriminate|auto]. }
  assert (N : i_state s2 <> inpNeedBuffer).
  { unfold p_need in P. cbv zeta in P. destruct (i_state s) eqn:S; try (injection P as <-; congruence). destruct (opool (i_log s)); [injection P as <-; flds; discriminate|]. destruct auto; discriminate P. }
  clear P s. rename s2 into s. exfalso.
  Ltac dx E P N Q p n s := destruct (p s) as [[?s2 [?|]]| |] eqn:P; cbn [bind] in E; try discriminate E;
    (let N2 := fresh "N" in pose proof (n _ _ _ N P) as N2; clear N; first [injection E as -> _; exact (N2 Q)|rename N2 into N; clear P s]).
  dx E P N Q p_check d_check s.
  dx E P N Q (p_has ostart ocb env) d_has s2.
  dx E P N Q p_cb d_cb s0.
  dx E P N Q (p_compl ocomp env) d_compl s2.
  dx E P N Q p_ready d_ready s0.
  destruct (p_end s2) as [[s3 o]| |] eqn:P; cbn [bind] in E; try discriminate. pose proof (d_end _ _ _ N P). destruct o; injection E as -> _; auto.
Qed.
Lemma d_loop n : forall s s1 b, K s -> active s = true -> out_loop n s = Ok (s1, b) -> i_state s1 = inpNeedBuffer -> i_timer s1 = true.
Proof.
  induction n as [|n IH]; intros s s1 b H A E Q; cbn [out_loop] in E; rewrite A in E; apply active_exit in A;
    (destruct (process_send s) as [[s2 go]| |] eqn:P; cbn [bind] in E; try discriminate).
  - destruct (d_send _ _ _ H A P); auto; destruct go; injection E as -> _; auto.
  - destruct go; [|injection E as -> _; eapply d_send; eauto].
    destruct (active s2) eqn:A2.
    + apply (IH s2 s1 b); auto. eapply (k_send osize ostart ocomp ocb opool ocreate env auto recon); [exact H|exact A|exact P].
    + assert (s2 = s1) by (destruct n; cbn [out_loop] in E; rewrite A2 in E; congruence). subst. destruct (d_send _ _ _ H A P); auto.
Qed.
Lemma d_output s s1 b : K s -> active s = true -> process_output s = Ok (s1, b) -> i_state s1 = inpNeedBuffer -> i_timer s1 = true.
Proof.
  intros H A E Q. unfold process_output in E. destruct lim; [eapply d_loop; eauto|]. rewrite A in E.
  apply active_exit in A. destruct (process_send s) as [[s2 go]| |] eqn:P; cbn [bind] in E; try discriminate.
  injection E as -> <-. eapply d_send; eauto.
Qed.

(* a module that does not run leaves the object alone *)
Lemma idle_output s : i_run s = false -> process_output s = Ok (s, false).
Proof. intro R. unfold process_output. destruct lim as [[|n]|]; cbn [out_loop]; unfold active; rewrite R, andb_false_r; reflexivity. Qed.
Lemma idle_step s e s1 : i_run s = false -> step s e = Ok s1 -> exists n, i_log s1 = n ++ i_log s /\ existsb calls n = false.
Proof.
  intros R E. unfold step in E. assert (Z : exists n, i_log s = n ++ i_log s /\ existsb calls n = false) by (exists []; auto).
  destruct (i_exit s); [injection E as <-; exact Z|]. destruct e.
  - rewrite (idle_output s R) in E. injection E as <-. exact Z.
  - destruct (i_timer s); [|injection E as <-; exact Z]. cbv zeta in E. change (i_run (w_timer s false)) with (i_run s) in E. rewrite R in E. injection E as <-. flds. exact Z.
  - rewrite R in E. injection E as <-. exact Z.
  - injection E as <-. unfold read_callback. cbv zeta. set (s0 := note s (OCall c)). set (s2 := match c with SQueue => _ | _ => s0 end).
    assert (B : i_log s2 = [OCall c] ++ i_log s). { unfold s2, s0. destruct c; flds; auto. destruct (Nat.eqb (i_ext s) 0) eqn:Y; flds; auto. }
    destruct (i_state s2); try destruct (Nat.eqb (i_ext s2) 0); flds; rewrite B;
      first [exists [OCall c]; split; reflexivity|exists [OExit; OCall c]; split; reflexivity].
  - injection E as <-. unfold process_closed. cbv zeta.
    set (s0 := match i_state s with inpClosed => s | _ => change (close_input s) inpClosed end).
    assert (B : exists n, i_log s0 = n ++ i_log s /\ existsb calls n = false).
    { unfold s0. destruct (i_state s); flds; try exact Z; (destruct (i_inp s); [exists [OGone]|exists []]; split; reflexivity). }
    clearbody s0. destruct B as (n & B & D). destruct (negb recon); flds; rewrite B; [exists (OClose err :: n)|exists n]; auto.
  - injection E as <-. unfold start_transport. destruct (i_tr s); cbv zeta; flds; try exact Z; destruct (i_inp s); flds; exact Z.
  - injection E as <-. destruct (i_tr s); try exact Z. unfold stop_transport, base_stop. destruct (suitable _); flds; [|exact Z]. destruct (i_run (w_stop s false)); flds; exact Z.
  - injection E as <-. flds. exact Z.
  - injection E as <-. flds. exact Z.
Qed.
End R.

(* what the rules say about the whole log *)
Lemma okw_at a o b : okw (a ++ o :: b) -> rule b o.
Proof. induction a as [|x a IH]; cbn; [tauto|]. intros [_ H]. auto. Qed.
Lemma end_shape a o b : okw (a ++ o :: b) -> ended o = true -> (calm (a ++ o :: b) = true \/ exitp (a ++ o :: b) = true) ->
  (exists a', a = a' ++ [OClose false; OEof; OGone]) \/ a = [OExit; OGone].
Proof.
  intros K D F. destruct a as [|x a _] using rev_ind.
  { exfalso. cbn [app] in F. unfold calm in F. cbn [pending] in F. rewrite D in F. destruct F as [F|F]; [discriminate|]. destruct o; discriminate. }
  rewrite <- app_assoc in *. cbn [app] in *. destruct (okw_at _ _ _ K) as (_ & R & _). rewrite (R D) in *. clear R x.
  destruct a as [|x a _] using rev_ind.
  { exfalso. cbn [app] in F. unfold calm in F. cbn in F. rewrite D in F. destruct F; discriminate. }
  rewrite <- app_assoc in *. cbn [app] in *. destruct (okw_at _ _ _ K) as (_ & _ & R & _). destruct (R D) as [->| ->]; clear R.
  - destruct a as [|x a _] using rev_ind; [exfalso; destruct F; discriminate|].
    rewrite <- app_assoc in *. cbn [app] in *. destruct (okw_at _ _ _ K) as (_ & _ & _ & R & _). rewrite (R eq_refl). left. exists a. rewrite <- ?app_assoc. reflexivity.
  - destruct a as [|x a _] using rev_ind; [right; reflexivity|].
    rewrite <- app_assoc in *. cbn [app] in *. destruct (okw_at _ _ _ K) as (_ & _ & _ & _ & R). discriminate R.
Qed.
