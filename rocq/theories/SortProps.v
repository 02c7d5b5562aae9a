(* C54: the sorter *)
From Coq Require Import Permutation Sorting.Sorted.
From Verif Require Import Common ListFacts Bytes HadSpec TrigModel TrigProofs SortSpec SortModel SortProofs SortDone.
Local Open Scope N_scope.

(* what the C++ standard promises about std::sort *)
Definition calls_sort (k : N) (a : sact) : Prop := match a with ACall e => sorts k (e_sort e) | _ => True end.
(* the output port does not become ready between the two checks of one call *)
Definition steady (a : sact) : Prop := match a with ACall e => e_can1 e = e_can2 e | _ => True end.
Lemma acts_ok k l : Forall (calls_sort k) l -> Forall (act_ok k false) l.
Proof. apply Forall_impl. intros [[x|]|e|c]; cbn; auto. intros H. split; [exact H|discriminate]. Qed.
Lemma acts_steady k l : Forall (calls_sort k) l -> Forall steady l -> Forall (act_ok k true) l.
Proof. intros H. induction 1 as [|a l Ha F IH]; [constructor|]. inversion H; subst. constructor; auto. destruct a as [[x|]|e|c]; cbn in *; auto. split; auto. Qed.

(* Whatever arrives: the trigger numbers of the subevents, in the order in which they are
   handed to the output, never go backwards (over half of the range); each subevent that arrived
   is handed over at most once; and what was sent consists of handed over subevents, each at
   most once. *)
Theorem C54_order_partial : forall k l s, k < 31 -> Forall (calls_sort k) l -> run k sorter_new l = Ok s ->
  chain (follows k) (map (fun x => number k (snd x)) (q_emit s)) /\ NoDup (q_emit s) /\ incl (q_emit s) (insides (arriving 0 l)) /\
  exists segs rest, Forall2 holds (q_sent s) segs /\ Permutation (concat segs ++ rest) (q_emit s).
Proof.
  intros k l s HK F R. assert (I := run_inv k HK false l [] sorter_new s (acts_ok k l F) (new_inv k HK false) R). cbn [app] in I. change (q_arr sorter_new) with O in I. destruct I as [_ _ _ H4 (lo & H5) (segs & cur & lost & S1 & _ & S3 & _)].
  assert (N := Permutation_NoDup (Permutation_sym H5) (arriving_nodup l)). split; [exact H4|]. split; [apply NoDup_app_iff in N; apply N|]. split; [|exists segs, (cur ++ insides (firstn (q_ready s) (q_in s)) ++ lost); auto].
  intros x Hx. apply (Permutation_in _ H5). apply in_app_iff. auto.
Qed.
Print Assumptions C54_order_partial.

(* With a steady output: everything handed over is sent, is in the output buffer, or in a
   buffer which waits at the front of the queue.  If no buffer was passed on while the output
   buffer had data, it is sent in the order of hand over. *)
Theorem C54_sent_partial : forall k l s, k < 31 -> Forall (calls_sort k) l -> Forall steady l -> run k sorter_new l = Ok s ->
  exists segs cur, Forall2 holds (q_sent s) segs /\
    match q_out s with Some (cap, b) => b = enc_subs (map snd cur) /\ lenN b <= cap | None => cur = [] end /\
    let waiting := insides (firstn (q_ready s) (q_in s)) in
    Permutation (concat segs ++ cur ++ waiting) (q_emit s) /\
    (q_over s = false -> q_emit s = concat segs ++ cur ++ waiting).
Proof.
  intros k l s HK F Fs R. assert (I := run_inv k HK true l [] sorter_new s (acts_steady k l F Fs) (new_inv k HK true) R). destruct I as [_ _ _ _ _ (segs & cur & lost & S1 & S2 & S3 & S4 & S5)].
  exists segs, cur. split; [exact S1|]. split; [exact S2|]. cbv zeta. rewrite (S4 eq_refl), app_nil_r in S3. auto.
Qed.
Print Assumptions C54_sent_partial.

(* ---- subevents at most one buffer late ---- *)
(* a call with a steady output and an input queue which is not full; buffers for the output
   have at least [B] bytes *)
Definition call_fair (k B : N) (a : sact) : Prop :=
  match a with ACall e => sorts k (e_sort e) /\ e_can1 e = e_can2 e /\ e_full e = false /\ (forall c, e_buf e = Some c -> B <= c) | _ => True end.
(* a subevent arrives with a number close to those in the queue and to the last one handed over *)
Definition arrives_close (k : N) (lab : nat -> Z) (l : list sact) : Prop :=
  forall l1 x l2 s, l = l1 ++ APush (Some x) :: l2 -> run k sorter_new l1 = Ok s ->
  let new := combine (seq (q_arr s) (length x)) x in
  forall a b, In a new -> In b (new ++ insides (q_in s) ++ lastl (q_emit s)) -> close k lab a b.
Definition late_input (k B : N) (lab : nat -> Z) (l : list sact) : Prop :=
  let T := arriving 0 l in labelled k lab (insides T) /\ one_late lab T /\ lowest_first lab T /\ arrives_close k lab l /\ Forall (call_fair k B) l.

Section P.
Context (k B : N) (lab : nat -> Z) (l : list sact) (HK : k < 31) (H : late_input k B lab l).
Let T := arriving 0 l.
Lemma new_done : good k T lab T [] sorter_new.
Proof.
  split; [|constructor]. split; cbn [sorter_new q_in q_next q_ready q_subs q_emit app length]; auto.
  - intros. lia.
  - split; [intros ? ? []|]. split; [exact I|]. intros ? [].
  - intros ? ? [].
  - intros. lia.
Qed.
Lemma fair_ok : Forall (call_ok k true B) l.
Proof. destruct H as (_ & _ & _ & _ & F). revert F. apply Forall_impl. intros [[x|]|e|c]; cbn; auto. intros (F1 & F2 & F3 & F4). repeat split; auto; apply F1; assumption. Qed.
Lemma end_state : exists s pre, run k sorter_new l = Ok s /\ good k T lab [] pre s /\ inv k true (so_far pre s) s /\ roomy B s.
Proof.
  destruct H as ((L1 & L2) & O1 & O2 & A1 & _). apply (run_done k HK T lab L1 L2 O1 O2 (arriving_nodup l) true B l [] sorter_new fair_ok (new_inv k HK true) new_done I). apply near_prefix. exact A1.
Qed.
Lemma all_perm pre s : inv k true (so_far pre s) s -> good k T lab [] pre s -> (forall y, In y (insides T) -> In y (q_emit s)) -> Permutation (q_emit s) (insides T).
Proof.
  intros I G Q. assert (D := proj1 G). assert (Nd := done_nodup k T (arriving_nodup l) true [] pre s I (x_T _ _ _ _ _ _ D)). apply NoDup_Permutation; [destruct Nd as (Nd & _); apply NoDup_app_iff in Nd; apply Nd|apply (arriving_nodup l)|]. intros x. split; [apply (x_init _ _ _ _ _ _ D)|apply Q].
Qed.
End P.
Lemma run_app k a : forall s b, run k s (a ++ b) = do s1 <- run k s a; run k s1 b.
Proof. induction a as [|x a IH]; intros s b; [reflexivity|]. cbn [app run]. destruct (step k s x); cbn [bind]; auto. Qed.

(* Nothing undefined happens, and at any time the subevents handed over are those with the
   lowest numbers, in increasing order; when the queue is scanned and no record is kept, this is
   all that arrived. *)
Theorem C54_complete_partial : forall k B lab l, k < 31 -> late_input k B lab l ->
  exists s, run k sorter_new l = Ok s /\ rising lab (q_emit s) /\
    (forall x y, In x (q_emit s) -> In y (insides (arriving 0 l)) -> ~ In y (q_emit s) -> (lab (fst x) < lab (fst y))%Z) /\
    (q_next s = length (q_in s) -> q_subs s = [] -> Permutation (q_emit s) (insides (arriving 0 l))).
Proof.
  intros k B lab l HK H. destruct (end_state k B lab l HK H) as (s & pre & R & G & I & _). exists s. split; [exact R|]. destruct (x_init _ _ _ _ _ _ (proj1 G)) as (I1 & I2 & I3). split; [exact I2|]. split; [exact I1|].
  intros E1 E2. apply (all_perm k lab l pre s I G). intros y Hy. apply insides_nth in Hy. destruct Hy as (j & b & Hj & Hy). assert (Et := x_T _ _ _ _ _ _ (proj1 G)).
  destruct (x_scan _ _ _ _ _ _ (proj1 G) j b y Hj Hy) as [Q|Q]; [|exact Q|rewrite E2 in Q; destruct Q]. assert (Lj : (j < length (arriving 0 l))%nat) by (apply nth_error_Some; congruence). rewrite Et, app_nil_r, app_length in Lj. lia.
Qed.
Print Assumptions C54_complete_partial.

(* An end of file after the data: enough calls with an open output hand over everything. *)
Theorem C54_flush_partial : forall k B lab l bufs, k < 31 -> late_input k B lab l ->
  arriving 0 l = bufs ++ [SEof] -> ~ In SEof bufs -> (forall x, In x (insides bufs) -> lenN (enc_sub (snd x)) <= B) ->
  exists n, forall calls, (n <= length calls)%nat ->
    Forall (fun e => sorts k (e_sort e) /\ e_can1 e = true /\ e_can2 e = true /\ e_full e = false /\ exists c, e_buf e = Some c /\ B <= c) calls ->
    exists s, run k sorter_new (l ++ map ACall calls) = Ok s /\ Permutation (q_emit s) (insides bufs) /\ rising lab (q_emit s).
Proof.
  intros k B lab l bufs HK H Ea Ne HB. destruct (end_state k B lab l HK H) as (s & pre & R & G & I & Ro). set (T := arriving 0 l) in *. destruct H as ((L1 & L2) & O1 & O2 & A1 & _). assert (ND := arriving_nodup l). fold T in ND.
  assert (ET : insides T = insides bufs) by (rewrite Ea, insides_app; cbn; apply app_nil_r). assert (HB' : forall x, In x (insides T) -> lenN (enc_sub (snd x)) <= B) by (rewrite ET; exact HB).
  assert (Et := x_T _ _ _ _ _ _ (proj1 G)). rewrite app_nil_r in Et.
  exists (S (mu s)). intros calls Ln F. destruct (calls_run k HK T lab L1 L2 O1 O2 ND true [] B calls pre s F I G) as (s1 & pre1 & R1 & G1 & I1 & Mono). exists s1. split; [rewrite run_app, R; exact R1|].
  split; [|apply (x_init _ _ _ _ _ _ (proj1 G1))]. rewrite <- ET. apply (all_perm k lab l pre1 s1 I1 G1).
  assert (X : emitted_to T (length bufs) s1).
  { destruct (q_in s) as [|b0 r] eqn:Eq.
    - assert (V := v_next k _ _ _ I). rewrite Eq in V. cbn in V. assert (Es : q_subs s = []). { destruct (q_subs s) as [|r0 rs] eqn:Es; [reflexivity|]. assert (W := v_rec k _ _ _ I). rewrite Es in W. destruct (Forall_inv W) as (_ & Q). lia. }
      apply Mono. assert (Q := done_to k T lab [] pre s (proj1 G) Es). intros j b y Hj Hy Lj. apply (Q j b y Hj Hy). rewrite app_nil_r in Et. rewrite <- Et. fold T in Ea. rewrite Ea, app_length. cbn. lia.
    - rewrite <- Eq in Et. assert (Lq : length (q_in s) = S (length r)) by (rewrite Eq; reflexivity). set (i := length r). assert (Lb : (length bufs = length pre + i)%nat). { apply (f_equal (@length sbuf)) in Et. fold T in Ea. rewrite Ea, !app_length, Lq in Et. cbn [length] in Et. unfold i. lia. }
      assert (Hq : forall j, (j <= i)%nat -> nth_error (q_in s) j = nth_error (bufs ++ [SEof]) (length pre + j)). { intros j Lj. fold T in Ea. rewrite <- Ea, Et, nth_error_app2 by lia. f_equal. lia. }
      assert (Ei : nth_error (q_in s) i = Some SEof). { rewrite Hq by lia. rewrite <- Lb, nth_error_app2 by lia. rewrite Nat.sub_diag. reflexivity. }
      assert (At : eof_at s i). { split; [exact Ei|]. split; [destruct (Nat.le_gt_cases (q_next s) i) as [Q|Q]; [exact Q|]; destruct (x_eof _ _ _ _ _ _ (proj1 G) i Q Ei)|]. intros j Lj Q. rewrite Hq in Q by lia. rewrite nth_error_app1 in Q by lia. apply Ne. exact (nth_error_In _ _ Q). }
      destruct (live k HK T lab L1 L2 O1 O2 ND true [] B calls pre s i F HB' Ro I G At ltac:(lia)) as (s2 & R2 & E2). assert (s2 = s1) by congruence. subst s2. rewrite Lb. exact E2. }
  intros y Hy. change (In y (insides T)) in Hy. rewrite ET in Hy. apply insides_nth in Hy. destruct Hy as (j & b & Hj & Hy). assert (Lj : (j < length bufs)%nat) by (apply nth_error_Some; congruence). apply (X j b y); auto. fold T in Ea. rewrite Ea. rewrite nth_error_app1 by exact Lj. exact Hj.
Qed.
Print Assumptions C54_flush_partial.

(* ---- a sort ---- *)
Fixpoint ins (k : N) (r : srec) (l : list srec) : list srec := match l with [] => [r] | x :: t => if before k x r then x :: ins k r t else r :: l end.
Definition isort (k : N) (l : list srec) : list srec := fold_right (ins k) [] l.
Lemma ins_perm k r l : Permutation (ins k r l) (r :: l).
Proof. induction l as [|x l IH]; [reflexivity|]. cbn. destruct (before k x r); [rewrite IH; constructor|reflexivity]. Qed.
Lemma isort_perm k l : Permutation (isort k l) l.
Proof. induction l as [|x l IH]; [reflexivity|]. unfold isort in *. cbn. rewrite ins_perm, IH. reflexivity. Qed.
Lemma before_irrefl k a : k < 31 -> before k a a = false.
Proof.
  intros HK. unfold before, diff, trig_diff. rewrite Z.sub_diag. assert (P := M_pos k HK). change (2^30)%Z with 1073741824%Z in P. assert (Q : s32 (Z.of_N (2^k)) = Z.of_N (2^k)) by (apply s32_id; change (2^31)%Z with 2147483648%Z; lia). rewrite Q.
  change (s32 (u32 0)) with 0%Z. cbv zeta. assert (Q1 := Z.quot_pos (Z.of_N (2^k)) 2 ltac:(lia) ltac:(lia)). assert (Q2 : Z.quot (Z.of_N (2^k)) (-2) = (- Z.quot (Z.of_N (2^k)) 2)%Z) by (apply (Z.quot_opp_r _ 2); lia). rewrite Q2.
  destruct (Z.ltb_spec (Z.quot (Z.of_N (2^k)) 2) 0); [lia|]. destruct (Z.ltb_spec 0 (- Z.quot (Z.of_N (2^k)) 2)); [lia|]. reflexivity.
Qed.
Lemma isort_sorts k : k < 31 -> sorts k (isort k).
Proof.
  intros HK l W. split; [apply isort_perm|]. unfold weak_order in W.
  assert (Tr : forall a b c, In a l -> In b l -> In c l -> (before k a b = true -> before k b c = true -> before k a c = true) /\
    (before k a b = false -> before k b a = false -> before k b c = false -> before k c b = false -> before k a c = false /\ before k c a = false)).
  { intros a b c Ha Hb Hc. rewrite forallb_forall in W. specialize (W a Ha). rewrite forallb_forall in W. specialize (W b Hb). rewrite forallb_forall in W. specialize (W c Hc). apply andb_prop in W. destruct W as (W1 & W2). split.
    - intros E1 E2. rewrite E1, E2 in W1. exact W1.
    - intros E1 E2 E3 E4. rewrite E1, E2, E3, E4 in W2. cbn in W2. apply andb_prop in W2. rewrite !negb_true_iff in W2. exact W2. }
  clear W. assert (G : forall m, incl m l -> StronglySorted (fun a b => before k b a = false) (isort k m)).
  { induction m as [|x m IH]; intros Hi; [constructor|]. assert (Im : incl m l) by (intros z Hz; apply Hi; right; exact Hz). assert (Hx : In x l) by (apply Hi; left; reflexivity). specialize (IH Im).
    assert (Is : incl (isort k m) l) by (intros z Hz; apply Im, (Permutation_in _ (isort_perm k m)); exact Hz). unfold isort. cbn [fold_right]. fold (isort k m). revert IH Is. generalize (isort k m). clear m Hi Im. intros m S Is.
    induction S as [|y m S IH F]; cbn [ins]; [constructor; [constructor|constructor]|]. assert (Hy : In y l) by (apply Is; left; reflexivity). assert (Im : incl m l) by (intros z Hz; apply Is; right; exact Hz). destruct (before k y x) eqn:E.
    - constructor; [exact (IH Im)|]. apply Forall_forall. intros z Hz. apply (Permutation_in _ (ins_perm k x m)) in Hz. destruct Hz as [<-|Hz]; [|exact (proj1 (Forall_forall _ _) F z Hz)].
      destruct (before k x y) eqn:E2; [|reflexivity]. assert (Q := proj1 (Tr x y x Hx Hy Hx) E2 E). rewrite (before_irrefl k x HK) in Q. discriminate.
    - constructor; [constructor; assumption|]. constructor; [exact E|]. apply Forall_forall. intros z Hz. assert (Hzl : In z l) by (apply Im; exact Hz). assert (Q := proj1 (Forall_forall _ _) F z Hz). cbn in Q.
      destruct (before k z x) eqn:E2; [|reflexivity]. exfalso. destruct (before k y z) eqn:E3; [rewrite (proj1 (Tr y z x Hy Hzl Hx) E3 E2) in E; discriminate|]. destruct (before k x y) eqn:E4; [rewrite (proj1 (Tr z x y Hzl Hx Hy) E2 E4) in Q; discriminate|].
      destruct (proj2 (Tr z y x Hzl Hy Hx) Q E3 E E4) as (W1 & _). congruence. }
  exact (G l (incl_refl l)).
Qed.

(* ---- an example: numbers of 8 bits around the wrap; two of them one buffer late ---- *)
Definition sb (n : N) : sub := mkSub true 0x20001 0 (n * 256) [] [].
Definition push (l : list N) : sact := APush (Some (map sb l)).
Definition ev (k c : N) : env := mkE false true true (Some c) (isort k).
Definition demo : list sact := [push [254; 255]; ACall (ev 8 1000); push [0; 3]; ACall (ev 8 1000); push [1; 2]; ACall (ev 8 1000); push [6; 5]; ACall (ev 8 1000); ACall (ev 8 1000); push [8; 9]; ACall (ev 8 1000); APush None].
Definition demo_lab (i : nat) : Z := nth i [254; 255; 256; 259; 257; 258; 262; 261; 264; 265]%Z 0%Z.
Definition demo_end := run 8 sorter_new (demo ++ map ACall (repeat (ev 8 1000) 10)).
Lemma by_index {A} (T : list A) (P : nat -> A -> Prop) : (forall i, (i < length T)%nat -> match nth_error T i with Some a => P i a | None => True end) -> forall i a, nth_error T i = Some a -> P i a.
Proof. intros H i a E. assert (L : (i < length T)%nat) by (apply nth_error_Some; congruence). specialize (H i L). rewrite E in H. exact H. Qed.
Definition one_lateb (lab : nat -> Z) (T : list sbuf) : bool :=
  forallb (fun i => forallb (fun j =>
    negb ((i + 2 <=? j)%nat || existsb (fun m => (i <? m)%nat && (m <? j)%nat && match nth_error T m with Some SEof => true | _ => false end) (seq 0 (length T))) ||
    forallb (fun x => forallb (fun y => (lab (fst x) <? lab (fst y))%Z) (match nth_error T j with Some b => inside b | None => [] end)) (match nth_error T i with Some b => inside b | None => [] end))
    (seq 0 (length T))) (seq 0 (length T)).
Lemma one_lateb_ok lab T : one_lateb lab T = true -> one_late lab T.
Proof.
  unfold one_lateb, one_late. rewrite forallb_forall. intros H i j a b x y Ha Hx Hb Hy Hij. assert (Li : (i < length T)%nat) by (apply nth_error_Some; congruence). assert (Lj : (j < length T)%nat) by (apply nth_error_Some; congruence).
  specialize (H i ltac:(apply in_seq; lia)). rewrite forallb_forall in H. specialize (H j ltac:(apply in_seq; lia)). rewrite Ha, Hb in H. apply orb_prop in H. destruct H as [H|H].
  - exfalso. apply negb_true_iff, orb_false_iff in H. destruct H as (H1 & H2). apply Nat.leb_gt in H1. destruct Hij as [Hij|(m & Hm & Em)]; [lia|]. assert (Q : existsb (fun m => (i <? m)%nat && (m <? j)%nat && match nth_error T m with Some SEof => true | _ => false end) (seq 0 (length T)) = true).
    { apply existsb_exists. exists m. assert (Lm : (m < length T)%nat) by (apply nth_error_Some; congruence). split; [apply in_seq; lia|]. rewrite Em. rewrite (proj2 (Nat.ltb_lt i m)) by lia. rewrite (proj2 (Nat.ltb_lt m j)) by lia. reflexivity. }
    congruence.
  - rewrite forallb_forall in H. specialize (H x Hx). rewrite forallb_forall in H. specialize (H y Hy). lia.
Qed.
Lemma in_forallb {A} (f : A -> bool) (P : A -> Prop) l : (forall x, f x = true -> P x) -> forallb f l = true -> forall x, In x l -> P x.
Proof. intros H F x Hx. apply H. rewrite forallb_forall in F. auto. Qed.
Definition closeb (k : N) (lab : nat -> Z) (x y : item) : bool := (2 * Z.abs (lab (fst x) - lab (fst y)) <? Z.of_N (2^k))%Z.
Fixpoint near_runb (k : N) (lab : nat -> Z) (s : sorter) (l : list sact) : bool :=
  match l with
  | [] => true
  | a :: l => match a with APush (Some x) => let new := combine (seq (q_arr s) (length x)) x in forallb (fun x => forallb (closeb k lab x) (new ++ insides (q_in s) ++ lastl (q_emit s))) new | _ => true end &&
      match step k s a with Ok s1 => near_runb k lab s1 l | _ => true end
  end.
Lemma near_runb_ok k lab l : forall s, near_runb k lab s l = true -> forall l1 x l2 s1, l = l1 ++ APush (Some x) :: l2 -> run k s l1 = Ok s1 ->
  let new := combine (seq (q_arr s1) (length x)) x in forall a b, In a new -> In b (new ++ insides (q_in s1) ++ lastl (q_emit s1)) -> close k lab a b.
Proof.
  induction l as [|c l IH]; intros s H l1 x l2 s1 El R; [destruct l1; discriminate|]. cbn [near_runb] in H. apply andb_prop in H. destruct H as (H1 & H2). destruct l1 as [|d l1].
  - cbn [app] in El. assert (Ec : c = APush (Some x)) by congruence. rewrite Ec in H1. cbn [run] in R. injection R as <-. cbv zeta in *. intros a b Ha Hb. rewrite forallb_forall in H1. specialize (H1 a Ha). rewrite forallb_forall in H1. specialize (H1 b Hb). unfold closeb in H1. unfold close. lia.
  - cbn [app] in El. assert (d = c) by congruence. subst d. assert (El2 : l = l1 ++ APush (Some x) :: l2) by congruence. cbn [run] in R. destruct (step k s c) as [s2| |]; cbn [bind] in R; [|discriminate|discriminate]. exact (IH s2 H2 l1 x l2 s1 El2 R).
Qed.
Theorem C54_example :
  late_input 8 16 demo_lab demo /\ (exists bufs, arriving 0 demo = bufs ++ [SEof] /\ ~ In SEof bufs /\ forall x, In x (insides bufs) -> lenN (enc_sub (snd x)) <= 16) /\
  match demo_end with Ok s => map (fun x => number 8 (snd x)) (q_emit s) = [254; 255; 0; 1; 2; 3; 5; 6; 8; 9] /\ q_sent s = [OFwd [(0%nat, sb 254); (1%nat, sb 255)]; OOut (enc_subs (map sb [0; 1; 2; 3; 5; 6; 8; 9])); OEof] /\ q_in s = [] | _ => False end.
Proof.
  split; [|split].
  - split; [split|split; [|split; [|split]]].
    + apply (in_forallb (fun x => number 8 (snd x) =? Z.to_N (demo_lab (fst x) mod Z.of_N (2^8)))); [intros x Hx; apply N.eqb_eq; exact Hx|]. vm_compute. reflexivity.
    + assert (Q : forall x, In x (insides (arriving 0 demo)) -> forall y, In y (insides (arriving 0 demo)) -> demo_lab (fst x) = demo_lab (fst y) -> x = y).
      { change (insides (arriving 0 demo)) with (combine (seq 0 10) (map sb [254; 255; 0; 3; 1; 2; 6; 5; 8; 9])). intros x Hx y Hy E. cbn in Hx, Hy. repeat (destruct Hx as [<-|Hx]; [repeat (destruct Hy as [<-|Hy]; [first [reflexivity|vm_compute in E; discriminate]|]); destruct Hy|]). destruct Hx. }
      intros x y Hx Hy. exact (Q x Hx y Hy).
    + apply one_lateb_ok. vm_compute. reflexivity.
    + intros y Hy. exists (O, sb 254). split; [left; reflexivity|]. revert y Hy. apply (in_forallb (fun y => (254 <=? demo_lab (fst y))%Z)); [intros x Hx; apply Z.leb_le in Hx; exact Hx|]. vm_compute. reflexivity.
    + unfold arrives_close. apply near_runb_ok. vm_compute. reflexivity.
    + assert (C : call_fair 8 16 (ACall (ev 8 1000))). { split; [apply isort_sorts; lia|]. split; [reflexivity|]. split; [reflexivity|]. intros c E. injection E as <-. lia. } repeat (constructor; [first [exact C|exact I]|]). constructor.
  - exists (removelast (arriving 0 demo)). split; [vm_compute; reflexivity|]. split; [vm_compute; intuition discriminate|]. apply (in_forallb (fun x => lenN (enc_sub (snd x)) <=? 16)); [intros x Hx; apply N.leb_le; exact Hx|]. vm_compute. reflexivity.
  - vm_compute. split; [reflexivity|]. split; reflexivity.
Qed.
Print Assumptions C54_example.

(* ---- what is false ---- *)
Definition call : sact := ACall (ev 24 1000).
Definition tick3 : list sact := repeat (ATimer true) 3.
(* Order of what is sent: a buffer with consecutive numbers is passed on at once, while
   subevents handed over before it still are in the output buffer.  6, 5, 7, 8 arrive; 7, 8, 5, 6
   are sent. *)
Theorem C54_sent_order_refuted : exists s, run 24 sorter_new ([push [6; 5]; call; push [7; 8]; call] ++ tick3) = Ok s /\
  map (fun x => number 24 (snd x)) (q_emit s) = [5; 6; 7; 8] /\
  q_sent s = [OFwd [(2%nat, sb 7); (3%nat, sb 8)]; OOut (enc_subs [sb 5; sb 6])].
Proof. eexists. split; [vm_compute; reflexivity|]. split; vm_compute; reflexivity. Qed.
Print Assumptions C54_sent_order_refuted.
(* So does the end of file: it leaves before the data. *)
Theorem C54_eof_order_refuted : exists s, run 24 sorter_new ([push [6; 5]; call; APush None; call] ++ tick3) = Ok s /\ q_sent s = [OEof; OOut (enc_subs [sb 5; sb 6])].
Proof. eexists. split; vm_compute; reflexivity. Qed.
Print Assumptions C54_eof_order_refuted.
(* Three numbers, each a third of the range after the other, make the comparison for
   std::sort cyclic. *)
Theorem C54_sort_refuted : run 24 sorter_new [push [0; 5592405; 11184810]; call] = UB.
Proof. vm_compute. reflexivity. Qed.
Print Assumptions C54_sort_refuted.
(* The output port becomes ready between the two checks of one call: the buffer which was
   ready to be passed on is dropped. *)
Definition full : sact := ACall (mkE false false false None (isort 24)).
Definition race : sact := ACall (mkE false false true (Some 1000) (isort 24)).
Theorem C54_race_refuted : exists s, run 24 sorter_new ([push [1; 2]; full; push [4; 3]; race] ++ tick3) = Ok s /\
  q_in s = [] /\ q_subs s = [] /\ q_sent s = [OOut (enc_subs [sb 3; sb 4])].
Proof. eexists. split; [vm_compute; reflexivity|]. vm_compute. repeat split. Qed.
Print Assumptions C54_race_refuted.
(* A buffer all of whose subevents went out before others of an earlier buffer stays in the
   queue; the end of file behind it is never passed on, and the call asks to be repeated
   forever. *)
Definition small : sact := ACall (ev 24 32).
Theorem C54_eof_stuck_refuted : exists s, run 24 sorter_new [push [1; 4]; push [2]; small; small; APush None; small; small] = Ok s /\
  retransmit 24 (ev 24 32) s = Ok (s, true) /\ q_in s = [SBuf [(2%nat, sb 2)]; SEof] /\ map (fun x => number 24 (snd x)) (q_emit s) = [1; 2; 4].
Proof. eexists. split; [vm_compute; reflexivity|]. vm_compute. repeat split. Qed.
Print Assumptions C54_eof_stuck_refuted.
(* A subevent larger than an output buffer is never sent; here too the call asks to be repeated
   forever. *)
Theorem C54_large_stuck_refuted : exists s, run 24 sorter_new [push [2; 1]; ACall (ev 24 15)] = Ok s /\ retransmit 24 (ev 24 15) s = Ok (s, true) /\ q_sent s = [] /\ q_emit s = [].
Proof. eexists. split; [vm_compute; reflexivity|]. vm_compute. repeat split. Qed.
Print Assumptions C54_large_stuck_refuted.
(* The numbers do not strictly increase: a repeated number is passed on again. *)
Theorem C54_repeated_refuted : exists s, run 24 sorter_new [push [5]; call; push [5]; call; APush None; call; call; call] = Ok s /\ map (fun x => number 24 (snd x)) (q_emit s) = [5; 5] /\ q_sent s = [OFwd [(0%nat, sb 5)]; OOut (enc_subs [sb 5]); OEof].
Proof. eexists. split; [vm_compute; reflexivity|]. vm_compute. repeat split. Qed.
Print Assumptions C54_repeated_refuted.
(* A subevent which is more than one buffer late is dropped. *)
Theorem C54_late_refuted : exists s, run 24 sorter_new [push [5]; call; push [4]; call; APush None; call; call; call] = Ok s /\ map (fun x => number 24 (snd x)) (q_emit s) = [5] /\ q_in s = [] /\ q_sent s = [OFwd [(0%nat, sb 5)]; OEof].
Proof. eexists. split; [vm_compute; reflexivity|]. vm_compute. repeat split. Qed.
Print Assumptions C54_late_refuted.
(* After a gap the data of the last two buffers waits for more data.  The timer does not
   send it, though the comment there says so: no number of timer events and calls does. *)
Definition gap_start : list sact := [push [1]; call; push [3]; call].
Lemma gap_stays : forall l s, Forall (fun a => a = call \/ exists can, a = ATimer can) l ->
  (exists c, s = mkS [SBuf [(1%nat, sb 3)]] 1 0 [mkR (1%nat, sb 3) 3 0] 1 (Some (1000, [])) c 2 [(0%nat, sb 1)] [OFwd [(0%nat, sb 1)]] false) ->
  exists s1, run 24 s l = Ok s1 /\ exists c, s1 = mkS [SBuf [(1%nat, sb 3)]] 1 0 [mkR (1%nat, sb 3) 3 0] 1 (Some (1000, [])) c 2 [(0%nat, sb 1)] [OFwd [(0%nat, sb 1)]] false.
Proof.
  induction l as [|a l IH]; intros s F (c & ->); [eexists; split; [reflexivity|exists c; reflexivity]|]. inversion F as [|? ? Fa Fl]; subst. cbn [run]. destruct Fa as [->|(can & ->)].
  - assert (Q : step 24 (mkS [SBuf [(1%nat, sb 3)]] 1 0 [mkR (1%nat, sb 3) 3 0] 1 (Some (1000, [])) c 2 [(0%nat, sb 1)] [OFwd [(0%nat, sb 1)]] false) call = Ok (mkS [SBuf [(1%nat, sb 3)]] 1 0 [mkR (1%nat, sb 3) 3 0] 1 (Some (1000, [])) c 2 [(0%nat, sb 1)] [OFwd [(0%nat, sb 1)]] false)) by (vm_compute; reflexivity).
    rewrite Q. cbn [bind]. apply IH; [exact Fl|exists c; reflexivity].
  - cbn [step bind]. apply IH; [exact Fl|]. unfold timer. destruct can; cbn [negb]; [|exists c; reflexivity]. exists (c - 1)%Z. cbn [q_cnt]. destruct (2 <? c - 1)%Z; reflexivity.
Qed.
Theorem C54_timer_refuted : forall l, Forall (fun a => a = call \/ exists can, a = ATimer can) l ->
  exists s, run 24 sorter_new (gap_start ++ l) = Ok s /\ q_in s = [SBuf [(1%nat, sb 3)]] /\ q_sent s = [OFwd [(0%nat, sb 1)]].
Proof.
  intros l F. rewrite run_app. assert (Q : exists c, run 24 sorter_new gap_start = Ok (mkS [SBuf [(1%nat, sb 3)]] 1 0 [mkR (1%nat, sb 3) 3 0] 1 (Some (1000, [])) c 2 [(0%nat, sb 1)] [OFwd [(0%nat, sb 1)]] false)) by (eexists; vm_compute; reflexivity).
  destruct Q as (c & Q). rewrite Q. cbn [bind]. destruct (gap_stays l _ F (ex_intro _ c eq_refl)) as (s1 & R & c1 & ->). eexists. split; [exact R|]. split; reflexivity.
Qed.
Print Assumptions C54_timer_refuted.
