(* A reader one update behind: reading the difference makes its copy equal to the source. *)
From Verif Require Import Common ListFacts Bytes RecordSpec RecordModel RecordMap RecordOut RecordIn RecordProofs HierSpec HierModel HierProofs HierInv HierStream HierSync HierProps HUpdSpec HUpdModel HUpdProofs HUpdTree.
Local Open Scope N_scope.

(* the update without the flag set for a change below, which the marks find anyway *)
Fixpoint updq (s t : hnode) {struct s} : hnode :=
  match s, t with
  | HN _ sd sl, HN tk td tl =>
    let '(tl', w) :=
      (fix go (sl tl : list hnode) {struct sl} : list hnode * bool :=
         match sl with
         | [] => ([], some tl)
         | c :: r =>
           match find_kid (nm c) tl with
           | None => let '(t', w) := go r tl in (set_modified true true c :: t', true)
           | Some (a, x, b) => let '(t', w) := go r b in (updq c x :: t', some a || w)
           end
         end) sl tl in
    HN tk (if w then childs_changed (d_upd sd td) else d_upd sd td) tl'
  end.
Definition updq_kids := fix go (sl tl : list hnode) {struct sl} : list hnode * bool :=
  match sl with
  | [] => ([], some tl)
  | c :: r =>
    match find_kid (nm c) tl with
    | None => let '(t', w) := go r tl in (set_modified true true c :: t', true)
    | Some (a, x, b) => let '(t', w) := go r b in (updq c x :: t', some a || w)
    end
  end.
Lemma updq_eq sk sd sl tk td tl : updq (HN sk sd sl) (HN tk td tl) =
  let '(tl', w) := updq_kids sl tl in HN tk (if w then childs_changed (d_upd sd td) else d_upd sd td) tl'.
Proof. reflexivity. Qed.
Lemma updq_kids_cons c r tl : updq_kids (c :: r) tl =
  match find_kid (nm c) tl with
  | None => let '(t', w) := updq_kids r tl in (set_modified true true c :: t', true)
  | Some (a, x, b) => let '(t', w) := updq_kids r b in (updq c x :: t', some a || w)
  end.
Proof. reflexivity. Qed.

Lemma mark_own_value ver now inh m tm d d' m' tm' : mark_own ver now inh m tm d = (d', m', tm') ->
  (any m = true -> m_value m = true) -> (any m' = true -> m_value m' = true) /\ (any m || d_nc d || was_changed d = true -> any m' = true).
Proof.
  unfold mark_own. intros E H. destruct (d_nc d || any m || was_changed d) eqn:N.
  - destruct (check_history inh _) as (d3, doing). injection E as <- <- <-. split; reflexivity.
  - injection E as <- <- <-. split; auto. intros X. exfalso. destruct (any m), (d_nc d), (was_changed d); discriminate.
Qed.
Lemma mark_kids_cons ver now inh tm c r : mark_kids ver now inh tm (c :: r) =
  let '(c', mc, tm1) := mark_tree ver now inh tm c in let '(r', mr, tm2) := mark_kids ver now inh tm1 r in (c' :: r', mor mc mr, tm2).
Proof. reflexivity. Qed.
Lemma mark_value ver now n : forall inh tm n' m tm', mark_tree ver now inh tm n = (n', m, tm') -> any m = true -> m_value m = true.
Proof.
  induction n as [k d l IH] using hnode_ind2. intros inh tm n' m tm' E. rewrite mark_tree_eq in E.
  destruct (mark_kids ver now (inherit d inh) tm l) as ((l', mk), tm1) eqn:EK.
  destruct (mark_own ver now inh mk tm1 d) as ((d', m'), tm2) eqn:EO. injection E as <- <- <-.
  apply (mark_own_value _ _ _ _ _ _ _ _ _ EO). clear - IH EK. revert tm l' mk tm1 EK.
  induction l as [|c l IHl]; intros tm l' mk tm1 EK; [injection EK as <- <- <-; discriminate|].
  inversion IH as [|? ? I1 I2]; subst. rewrite mark_kids_cons in EK.
  destruct (mark_tree ver now (inherit d inh) tm c) as ((c', mc), t1) eqn:E1.
  destruct (mark_kids ver now (inherit d inh) t1 l) as ((r', mr), t2) eqn:E2. injection EK as <- <- <-.
  rewrite any_mor. cbn [mor m_value]. intros X. apply orb_true_iff in X. apply orb_true_iff. destruct X; [left; eauto|right; eauto].
Qed.
Lemma mark_own_cc ver now inh m tm d : any m = true -> m_value m = true ->
  mark_own ver now inh m tm (with_flags d (d_nc d) (d_mc d) true) = mark_own ver now inh m tm d.
Proof.
  intros A B. unfold mark_own.
  change (was_changed (with_flags d (d_nc d) (d_mc d) true)) with (was_changed d).
  change (was_changed_with under (with_flags d (d_nc d) (d_mc d) true)) with (was_changed_with under d).
  cbn [with_flags d_nc d_mc d_cc d_map d_fch d_mv d_cv d_auto d_hist]. rewrite A, B. rewrite !orb_true_r. cbn [orb]. reflexivity.
Qed.

Lemma upd_mark ver now s : forall t inh tm,
  mark_tree ver now inh tm (updated s t) = mark_tree ver now inh tm (updq s t) /\
  (reported s t = true -> any (snd (fst (mark_tree ver now inh tm (updq s t)))) = true) /\
  nm (updq s t) = nm t.
Proof.
  induction s as [sk sd sl IH] using hnode_ind2. intros [tk td tl] inh tm. unfold updated, reported. rewrite upd_eq, updq_eq.
  assert (K : forall inh tm tl sl' tl' w, upd_kids sl tl = (sl', tl', w) ->
     snd (updq_kids sl tl) = w_list w /\ mark_kids ver now inh tm tl' = mark_kids ver now inh tm (fst (updq_kids sl tl)) /\
     (w_sub w = true -> any (snd (fst (mark_kids ver now inh tm (fst (updq_kids sl tl))))) = true)).
  { clear - IH. induction sl as [|c r IHr]; intros inh tm tl sl' tl' w E.
    - rewrite upd_kids_nil in E. injection E as <- <- <-. cbn. split; [auto|]. split; [auto|discriminate].
    - inversion IH as [|? ? I1 I2]; subst. rewrite upd_kids_cons in E. rewrite updq_kids_cons.
      destruct (find_kid (nm c) tl) as [((a, x), b)|].
      + specialize (I1 x inh tm). unfold updated, reported in I1. destruct (upd c x) as ((c', x'), ch). cbn [fst snd] in I1.
        destruct I1 as (A1 & A2 & _). destruct (upd_kids r b) as ((r', t'), w') eqn:EK. injection E as <- <- <-.
        destruct (updq_kids r b) as (q', wq) eqn:EQ. cbn [fst snd w_list w_sub]. rewrite !mark_kids_cons, A1.
        destruct (mark_tree ver now inh tm (updq c x)) as ((c2, mc), t1). cbn [fst snd] in A2.
        destruct (IHr I2 inh t1 _ _ _ _ EK) as (B1 & B2 & B3). rewrite EQ in *. cbn [fst snd] in *. rewrite B2.
        split; [congruence|]. split; [reflexivity|]. destruct (mark_kids ver now inh t1 q') as ((r2, mr), t2). cbn [fst snd] in *.
        rewrite any_mor. intros X. apply orb_true_iff in X. apply orb_true_iff. destruct X; auto.
      + destruct (upd_kids r tl) as ((r', t'), w') eqn:EK. injection E as <- <- <-.
        destruct (updq_kids r tl) as (q', wq) eqn:EQ. cbn [fst snd w_list w_sub]. rewrite !mark_kids_cons.
        destruct (mark_tree ver now inh tm (set_modified true true c)) as ((c2, mc), t1).
        destruct (IHr I2 inh t1 _ _ _ _ EK) as (B1 & B2 & B3). rewrite EQ in *. cbn [fst snd] in *. rewrite B2.
        split; [reflexivity|]. split; [reflexivity|]. destruct (mark_kids ver now inh t1 q') as ((r2, mr), t2). cbn [fst snd] in *.
        rewrite any_mor. intros X. rewrite B3 by auto. apply orb_true_r. }
  destruct (upd_kids sl tl) as ((sl', tl'), w) eqn:EK. cbn [fst snd].
  set (d3 := if w_list w then childs_changed (d_upd sd td) else d_upd sd td).
  set (d4 := if w_sub w then with_flags d3 (d_nc d3) (d_mc d3) true else d3).
  destruct (updq_kids sl tl) as (tq, wq) eqn:EQ.
  assert (EI : inherit d4 inh = inherit d3 inh) by (unfold d4; destruct (w_sub w); reflexivity).
  destruct (K (inherit d3 inh) tm tl _ _ _ EK) as (K1 & K2 & K3). rewrite EQ in *. cbn [fst snd] in *. rewrite K1. fold d3.
  rewrite !mark_tree_eq, EI, K2. pose proof (mark_value ver now) as MV.
  destruct (mark_kids ver now (inherit d3 inh) tm tq) as ((l', mk), tm1) eqn:EM. cbn [fst snd] in K3.
  assert (KV : any mk = true -> m_value mk = true).
  { clear - MV EM. revert tm l' mk tm1 EM. induction tq as [|c r IHr]; intros tm l' mk tm1 EM; [injection EM as <- <- <-; discriminate|].
    rewrite mark_kids_cons in EM. destruct (mark_tree ver now (inherit d3 inh) tm c) as ((c', mc), t1) eqn:E1.
    destruct (mark_kids ver now (inherit d3 inh) t1 r) as ((r', mr), t2) eqn:E2. injection EM as <- <- <-.
    rewrite any_mor. cbn [mor m_value]. intros X. apply orb_true_iff in X. apply orb_true_iff. destruct X; [left; eauto|right; eauto]. }
  assert (EO : mark_own ver now inh mk tm1 d4 = mark_own ver now inh mk tm1 d3).
  { unfold d4. destruct (w_sub w); auto. apply mark_own_cc; auto. }
  rewrite EO. split; [reflexivity|]. split; [|reflexivity].
  destruct (mark_own ver now inh mk tm1 d3) as ((d', m'), tm2) eqn:EO2. cbn [fst snd].
  destruct (mark_own_value _ _ _ _ _ _ _ _ _ EO2 KV) as (_ & G). intros R. apply G.
  destruct (d_upd_flags sd td) as (F1 & F2).
  destruct (w_sub w) eqn:WS; [rewrite K3 by auto; reflexivity|]. subst d4.
  destruct (w_list w) eqn:WL; [unfold d3; cbn [childs_changed with_flags d_nc]; rewrite orb_true_r; reflexivity|].
  unfold d3 in *. rewrite F1 in R. cbn [orb] in R. rewrite R, orb_true_r. reflexivity.
Qed.
