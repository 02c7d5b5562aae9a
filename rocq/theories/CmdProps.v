(* C30, C31, C66: callers, results and delivery of commands.  A run starts with n workers
   in normal state, each with a thread, and no commands. *)
From Verif Require Import Common ListFacts Sums CmdQSpec CmdQModel CmdModel CmdSpec CmdProofs CmdWork.
Open Scope nat_scope.

Lemma times_cnt x l : times x l = cnt (fun y => call_eqb y x) l.
Proof. unfold times. induction l as [|y l IH]; [reflexivity|]. cbn [count_occ]. rewrite cnt_cons, IH. destruct (call_dec y x), (call_eqb_spec y x); cbn [b2n]; congruence || lia. Qed.
Lemma occ_cnt r l : count_occ clr_dec l r = cnt (fun y => clr_eqb y r) l.
Proof. induction l as [|y l IH]; [reflexivity|]. cbn [count_occ]. rewrite cnt_cons, IH. destruct (clr_dec y r), (clr_eqb_spec y r); cbn [b2n]; congruence || lia. Qed.
Lemma filter_cnt {A} (p : A -> bool) l : length (filter p l) = cnt p l.
Proof. induction l as [|x l IH]; [reflexivity|]. rewrite cnt_cons. cbn [filter]. destruct (p x); cbn [length b2n]; lia. Qed.
Lemma waiting_is s c r : waiting s c r = wait_reply s c r.
Proof. unfold waiting, wait_reply. destruct (snd r); [reflexivity|]. apply filter_cnt. Qed.
Lemma reach n l s : (N.of_nat (length l) < 2 ^ 32)%N -> run true (init n) l = Ok s -> good s.
Proof. intros B H. destruct (init_run n l B) as (s' & E & G). rewrite E in H. injection H as <-. exact G. Qed.
Lemma reach_cnt l : forall s n s', good s -> (forall w, (q_cnt (w_q (worker s w)) <= n)%N) -> (n + N.of_nat (length l) < 2 ^ 32)%N -> run true s l = Ok s' -> forall w, (q_cnt (w_q (worker s' w)) <= n + N.of_nat (length l))%N.
Proof.
  induction l as [|o l IH]; intros s n s' G Hn B H w; cbn [run length] in *; [injection H as <-; specialize (Hn w); lia|]. rewrite Nnat.Nat2N.inj_succ in *.
  destruct (step_ok s o G) as (s1 & E & G1 & Gr); [intros v; unfold room; specialize (Hn v); lia|]. rewrite E in H. cbn [bind] in H.
  assert (X := IH s1 (n + 1)%N s' G1 (fun v => N.le_trans _ _ _ (Gr v) (proj1 (N.add_le_mono_r _ _ 1%N) (Hn v))) ltac:(lia) H w). lia.
Qed.
Lemma init_cnt n w : (q_cnt (w_q (worker (init n) w)) <= 0)%N.
Proof. unfold worker, init. cbn [wks]. destruct (Nat.lt_ge_cases w n) as [L|L]; [rewrite nth_repeat_lt by exact L|rewrite nth_overflow by (rewrite repeat_length; exact L)]; cbn; lia. Qed.

(* ---- C30 ----
   Full claim: each caller gets exactly one reply unless removed before.  Proved: in every
   run in which a synchronous call does not give up between being taken from the list of
   callers and being informed, nothing undefined happens, and each registration of a caller
   is at any moment in exactly one of the states: registered, taken by Reply, waiting as
   reply record in the queue of its worker, informed, or refused/removed. *)
Theorem C30_each_caller_once_partial n l : (N.of_nat (length l) < 2 ^ 32)%N ->
  exists s, run true (init n) l = Ok s /\
  forall c r, times (c, r) (added s) =
    count_occ clr_dec (c_call (command s c)) r + times (c, r) (fly s) + waiting s c r + times (c, r) (told s) + times (c, r) (gone s).
Proof.
  intros B. destruct (init_run n l B) as (s & E & G). exists s. split; [exact E|]. intros c r. assert (X := v_log _ _ _ (proj1 G) c r). rewrite !times_cnt, occ_cnt, waiting_is. cbn [pend] in X. lia.
Qed.
(* When nothing is under way, all callers were informed, refused or are still registered. *)
Corollary C30_informed_or_refused n l s c r : (N.of_nat (length l) < 2 ^ 32)%N -> run true (init n) l = Ok s -> quiet s ->
  times (c, r) (added s) = count_occ clr_dec (c_call (command s c)) r + times (c, r) (told s) + times (c, r) (gone s).
Proof.
  intros B H (H1 & H2 & H3 & H4). assert (G := reach n l s B H). destruct (C30_each_caller_once_partial n l B) as (s' & E & X). rewrite E in H. injection H as ->. rewrite (X c r), H2, waiting_is.
  assert (W : wait_reply s c r = 0); [|unfold times; cbn; lia]. unfold wait_reply. destruct (snd r); [reflexivity|]. apply cnt_zero. intros e He. unfold is_reply. destruct (kind_eqb (q_kind e) KReply) eqn:K; [|apply andb_false_r]. exfalso.
  assert (P : 0 < cnt (fun y => fired EvReply y && (q_id y =? q_id e)%N) (Q s (fst r))) by (apply cnt_pos; exists e; split; [exact He|unfold fired; rewrite K, N.eqb_refl; reflexivity]). rewrite <- (v_ev _ _ _ (proj1 G)), H3, cnt_nil in P. lia.
Qed.

(* one turn of Reply when the worker of the caller refuses *)
Lemma refuse_turn s c p : fly s = [(c, p)] -> good s -> (forall w, room s w) -> refuses s p = true -> exists s', step true s (Notify 0) = Ok s' /\ good s' /\ grow s s' /\
  told s' = told s /\ evs s' = evs s /\ gone s' = (c, p) :: gone s /\ c_call (command s' c) = tl (c_call (command s c)) /\ fly s' = match c_call (command s c) with [] => [] | r :: _ => [(c, r)] end /\
  forall v, refuses s' v = refuses s v.
Proof.
  intros Ef G R Rf. destruct (step_ok s (Notify 0) G R) as (s' & E & G' & Gr). exists s'. split; [exact E|]. split; [exact G'|]. split; [exact Gr|]. unfold step in E. rewrite Ef in E. cbn [nth_error remove_nth] in E. unfold refuses in Rf. apply negb_true_iff in Rf.
  assert (Ps : forall t, fly t = [] -> c_call (command t c) = c_call (command s c) -> c_call (command (pop_call t c) c) = tl (c_call (command s c)) /\ fly (pop_call t c) = (match c_call (command s c) with [] => [] | r :: _ => [(c, r)] end) /\ told (pop_call t c) = told t /\ evs (pop_call t c) = evs t /\ gone (pop_call t c) = gone t /\ wks (pop_call t c) = wks t).
  { intros t Et Ec. unfold pop_call. rewrite Ec. destruct (c_call (command s c)) as [|r k] eqn:Ek; [rewrite Ec; auto 7|]. change (command (with_fly (set_call t c k) (fly t ++ [(c, r)])) c) with (command (set_call t c k) c). rewrite call_set, Nat.eqb_refl. assert (L : c < length (cmds t)) by (apply call_len; rewrite Ec; discriminate). apply Nat.ltb_lt in L. rewrite L. cbn [andb with_fly fly]. rewrite Et. auto 7. }
  unfold notify in E. cbv zeta in E. change (worker (with_fly s []) (fst p)) with (worker s (fst p)) in E. change (added (with_fly s [])) with (added s) in E. change (told (with_fly s [])) with (told s) in E. change (gone (with_fly s [])) with (gone s) in E. rewrite Rf in E.
  assert (P1 := Ps (with_log (with_fly s []) (added s) (told s) ((c, p) :: gone s)) eq_refl eq_refl). assert (P2 := fun w q2 => Ps (with_log (set_q (with_fly s []) w q2) (added s) (told s) ((c, p) :: gone s)) eq_refl eq_refl). clear Ps. destruct p as [w [f|]]; cbn [fst snd] in *.
  - injection E as <-. destruct P1 as (A1 & A2 & A3 & A4 & A5 & A6). repeat split; auto. intros v. unfold refuses, worker. rewrite A6. reflexivity.
  - destruct (chkind (w_q (worker s w)) c KReply) as [q id]. destruct (pop_id q id) as [q2 x]. injection E as <-. destruct (P2 w q2) as (A1 & A2 & A3 & A4 & A5 & A6). repeat split; auto.
    intros v. unfold refuses. unfold worker at 1 2. rewrite A6. change (wks (with_log (set_q (with_fly s []) w q2) _ _ _)) with (wks (set_q s w q2)). fold (worker (set_q s w q2) (fst v)). unfold set_q. cbv zeta. rewrite worker_upd. destruct (Nat.eqb_spec (fst v) w) as [->|N]; cbn [andb]; [destruct (w <? _)|]; reflexivity.
Qed.
Lemma refuse_turns c pre : forall s rest n p, fly s = match pre ++ rest with [] => [] | r :: _ => [(c, r)] end -> c_call (command s c) = tl (pre ++ rest) -> good s -> (forall w, (q_cnt (w_q (worker s w)) <= n)%N) -> (n + N.of_nat (length pre) < 2 ^ 32)%N ->
  Forall (fun r => refuses s r = true) pre -> (forall v, refuses s v = p v) ->
  exists s', run true s (repeat (Notify 0) (length pre)) = Ok s' /\ good s' /\ told s' = told s /\ evs s' = evs s /\ gone s' = map (pair c) (rev pre) ++ gone s /\ fly s' = (match rest with [] => [] | r :: _ => [(c, r)] end) /\
    c_call (command s' c) = tl rest /\ (forall v, refuses s' v = p v) /\ forall w, (q_cnt (w_q (worker s' w)) <= n + N.of_nat (length pre))%N.
Proof.
  induction pre as [|x pre IH]; intros s rest n p Ef Ec G Hn B Fr Ep.
  - exists s. cbn [length repeat run rev map app] in *. split; [reflexivity|]. split; [exact G|]. repeat split; auto. intros w. specialize (Hn w). lia.
  - cbn [app tl length] in *. rewrite Nnat.Nat2N.inj_succ in *. inversion Fr as [|? ? F1 F2]; subst. destruct (refuse_turn s c x Ef G) as (s1 & E1 & G1 & Gr & T1 & V1 & D1 & C1 & L1 & R1); [intros w; unfold room; specialize (Hn w); lia|exact F1|].
    destruct (IH s1 rest (n + 1)%N p) as (s2 & E2 & G2 & T2 & V2 & D2 & L2 & C2 & R2 & N2).
    + rewrite L1, Ec. reflexivity.
    + rewrite C1, Ec. reflexivity.
    + exact G1.
    + intros w. specialize (Hn w). specialize (Gr w). lia.
    + lia.
    + eapply Forall_impl; [|exact F2]. intros a Ha. cbn in *. rewrite R1. exact Ha.
    + intros v. rewrite R1. apply Ep.
    + exists s2. cbn [repeat run]. rewrite E1. cbn [bind]. split; [exact E2|]. split; [exact G2|]. rewrite T2, V2, D2, T1, V1, D1. cbn [rev]. rewrite map_app, <- app_assoc. repeat split; auto. intros w. specialize (N2 w). lia.
Qed.
Lemma worker_set_q s w q : w < length (wks s) -> w_q (worker (set_q s w q) w) = q.
Proof. intros L. unfold set_q. cbv zeta. rewrite worker_upd, Nat.eqb_refl, (proj2 (Nat.ltb_lt _ _) L). reflexivity. Qed.
Lemma run_app p l1 : forall s l2, run p s (l1 ++ l2) = do s1 <- run p s l1; run p s1 l2.
Proof. induction l1 as [|o l1 IH]; intros s l2; cbn [run app bind]; [reflexivity|]. destruct (step p s o); cbn [bind]; auto. Qed.
Lemma repeat_snoc {A} (x : A) n : repeat x (S n) = repeat x n ++ [x].
Proof. induction n as [|n IH]; [reflexivity|]. cbn [repeat app] in *. rewrite <- IH. reflexivity. Qed.
Lemma after_reply s c res : good s -> fly s = [] -> has c (hands s) = true -> (forall w, room s w) ->
  exists s', step true s (Reply c res) = Ok s' /\ good s' /\ grow s s' /\ fly s' = (match c_call (command s c) with [] => [] | r :: _ => [(c, r)] end) /\ c_call (command s' c) = tl (c_call (command s c)) /\
    told s' = told s /\ evs s' = evs s /\ gone s' = gone s /\ forall v, refuses s' v = refuses s v.
Proof.
  intros G Ef Hh R. destruct (step_ok s (Reply c res) G R) as (s' & E & G' & Gr). exists s'. split; [exact E|]. split; [exact G'|]. split; [exact Gr|]. unfold step in E. rewrite Hh in E. injection E as <-. destruct (hands_len _ _ (proj1 G) Hh) as (Lc & _).
  set (s0 := with_hands s (remove1 c (hands s))). unfold reply. set (t := if (0 <=? res)%Z then set_res s0 c res else s0).
  assert (T : fly t = [] /\ c_call (command t c) = c_call (command s c) /\ told t = told s /\ evs t = evs s /\ gone t = gone s /\ wks t = wks s /\ length (cmds t) = length (cmds s)).
  { unfold t. destruct (0 <=? res)%Z; [|unfold s0; auto 8]. unfold set_res. cbv zeta. rewrite command_upd, Nat.eqb_refl. cbn [with_c fly told evs gone wks cmds]. rewrite upd_length. change (length (cmds s0)) with (length (cmds s)). destruct (c <? length (cmds s)); cbn [andb c_call]; auto 8. }
  clearbody t. destruct T as (T1 & T2 & T3 & T4 & T5 & T6 & T7). unfold pop_call. rewrite T2. destruct (c_call (command s c)) as [|r k] eqn:Ek.
  - rewrite T2. repeat split; auto. intros v. unfold refuses, worker. rewrite T6. reflexivity.
  - change (command (with_fly (set_call t c k) (fly t ++ [(c, r)])) c) with (command (set_call t c k) c). rewrite call_set, Nat.eqb_refl, T7, (proj2 (Nat.ltb_lt _ _) Lc), T1. cbn [andb with_fly fly app tl]. repeat split; auto. intros v. unfold refuses, worker. change (wks (with_fly (set_call t c k) [(c, r)])) with (wks t). rewrite T6. reflexivity.
Qed.

(* The list of callers keeps the order of registration, the newest first. *)
Definition ord (s : sys) : Prop := forall c, sub (map (pair c) (c_call (command s c))) (added s).
Lemma sub_filter {A} (p : A -> bool) a b : sub a b -> sub (filter p a) b.
Proof. induction 1 as [b|x a b H IH|x a b H IH]; cbn [filter]; [constructor|destruct (p x); constructor; exact IH|constructor; exact IH]. Qed.
Lemma sub_tl {A} (a b : list A) : sub a b -> sub (tl a) b.
Proof. induction 1 as [b|x a b H IH|x a b H IH]; cbn [tl]; constructor; assumption. Qed.
Lemma ord_same s s' : ord s -> cmds s' = cmds s -> added s' = added s -> ord s'.
Proof. intros O E A c. unfold command. rewrite E, A. apply O. Qed.
Lemma ord_c s c x : ord s -> c_call x = c_call (command s c) -> ord (with_c s c x).
Proof. intros O E d. rewrite command_upd. destruct (Nat.eqb_spec d c) as [->|N]; cbn [andb]; [|apply O]. destruct (c <? _); [rewrite E|]; apply O. Qed.
Lemma ord_pop s c : ord s -> ord (pop_call s c).
Proof.
  intros O. unfold pop_call. destruct (c_call (command s c)) as [|r k] eqn:E; [exact O|]. intros d. change (command (with_fly (set_call s c k) (fly s ++ [(c, r)])) d) with (command (set_call s c k) d). rewrite call_set. change (added (with_fly (set_call s c k) (fly s ++ [(c, r)]))) with (added s).
  destruct (Nat.eqb_spec d c) as [->|N]; cbn [andb]; [|apply O]. destruct (c <? _); [|apply O]. specialize (O c). rewrite E in O. apply sub_tl in O. exact O.
Qed.
Lemma ord_reply s c r : ord s -> ord (reply s c r).
Proof. intros O. unfold reply. apply ord_pop. destruct (0 <=? r)%Z; [|exact O]. unfold set_res. cbv zeta. apply ord_c; [exact O|reflexivity]. Qed.
Lemma ord_add s c r : ord s -> ord (add_caller s c r).
Proof.
  intros O d. unfold add_caller. cbv zeta. set (t := with_log _ _ _ _). change (command t d) with (command (set_call s c (r :: c_call (command s c))) d). change (added t) with ((c, r) :: added s). rewrite call_set. destruct (Nat.eqb_spec d c) as [->|N]; cbn [andb]; [|constructor; apply O].
  destruct (c <? _); [|constructor; apply O]. cbn [map]. apply sub_keep. apply O.
Qed.
Lemma ord_remove s c w f : ord s -> ord (remove_caller s c w f).
Proof.
  intros O d. rewrite remove_calls. change (added (remove_caller s c w f)) with (added s). destruct (Nat.eqb_spec d c) as [->|N]; [|apply O].
  assert (X := sub_filter (fun x => negb (hit w f (snd x))) _ _ (O c)). assert (Y : forall k, filter (fun x : nat * clr => negb (hit w f (snd x))) (map (pair c) k) = map (pair c) (filter (fun r => negb (hit w f r)) k)).
  { induction k as [|r k IH]; [reflexivity|]. cbn [map filter snd]. destruct (negb (hit w f r)); cbn [map]; rewrite IH; reflexivity. }
  rewrite Y in X. exact X.
Qed.
Lemma ord_process s w c : ord s -> ord (process s w c).
Proof. intros O. unfold process. cbv zeta. destruct (negb (w_norm _)); [exact O|]. destruct (c_cancel _); [apply ord_reply; exact O|]. destruct (_ && _); exact O. Qed.
Lemma ord_clean l : forall s w, ord s -> ord (clean_loop l s w).
Proof. induction l as [|e l IH]; intros s w O; cbn [clean_loop]; [exact O|]. apply IH. destruct (q_kind e); try exact O; [|apply ord_remove; exact O]. cbv zeta. apply ord_reply. exact O. Qed.
Lemma ord_step p s o s' : ord s -> step p s o = Ok s' -> ord s'.
Proof.
  intros O H. destruct o; unfold step in H.
  - injection H as <-. intros d. unfold command. cbn [with_hands cmds added]. specialize (O d). unfold command in O. destruct (Nat.lt_ge_cases d (length (cmds s))) as [L|L]; [rewrite app_nth1 by exact L; exact O|]. rewrite app_nth2 by exact L. destruct (d - length (cmds s)) as [|[|?]]; constructor.
  - destruct (_ && _); injection H as <-; [|exact O]. apply ord_add. exact O.
  - destruct (_ && _); cbv zeta in H; injection H as <-; [|exact O]. exact (ord_add s c (w, Some f) O).
  - destruct (_ && _); [|injection H as <-; exact O]. cbv zeta in H. destruct (w_thr _ && _); [|injection H as <-; apply ord_reply; exact O]. destruct (push _ _ _). injection H as <-. exact O.
  - destruct (has c (hands s)); injection H as <-; [apply ord_reply|]; exact O.
  - injection H as <-. unfold set_cancel. cbv zeta. apply ord_c; [exact O|reflexivity].
  - destruct (_ && _); cbv zeta in H; injection H as <-; [|exact O]. exact (ord_remove s c w (Some f) O).
  - destruct (nth_error (fly s) n) as [[c r]|]; [|injection H as <-; exact O]. set (t := with_fly s (remove_nth n (fly s))) in *. assert (Ot : ord t) by exact O. clearbody t. unfold notify in H. cbv zeta in H. destruct r as [w [f|]]; cbn [fst snd] in H.
    + destruct (_ && _); [destruct (running t f w c); [|discriminate]|]; injection H as <-; [exact Ot|]. apply ord_pop. exact Ot.
    + destruct (chkind _ c KReply) as [q id]. destruct (_ && _); [injection H as <-; exact Ot|]. destruct (pop_id q id) as [q2 x]. injection H as <-. apply ord_pop. exact Ot.
  - destruct (nth_error (evs s) n) as [[[w k] id]|]; [|injection H as <-; exact O]. destruct (_ && _); [injection H as <-; exact O|]. destruct (pop_id _ id) as [q x]. cbv zeta in H. destruct k, x as [e|]; injection H as <-; try exact O. apply ord_process. exact O.
  - destruct (w_stack (worker s w)) as [|c st]; [injection H as <-; exact O|]. destruct (res =? -3)%Z; [injection H as <-; exact O|]. destruct (has c (hands s)); cbv zeta in H; injection H as <-; [apply ord_reply|]; exact O.
  - destruct (_ && _); [|injection H as <-; exact O]. destruct (pop_kind _ KPost) as [q [e|]]; injection H as <-; [apply ord_process|]; exact O.
  - injection H as <-. exact O.
  - cbv zeta in H. destruct (_ && _); injection H as <-; exact O.
  - injection H as <-. exact O.
  - cbv zeta in H. destruct (_ && _); injection H as <-; [apply ord_clean|]; exact O.
Qed.
Theorem C30_newest_first p n l : forall s, run p (init n) l = Ok s -> forall c, sub (map (pair c) (c_call (command s c))) (added s).
Proof.
  assert (G : forall l s s', ord s -> run p s l = Ok s' -> ord s').
  { clear. induction l as [|o l IH]; intros s s' O H; cbn [run] in H; [injection H as <-; exact O|]. destruct (step p s o) eqn:E; try discriminate. cbn [bind] in H. eapply IH; [|exact H]. eapply ord_step; eauto. }
  intros s H. eapply G; [|exact H]. intros c. unfold command, init. cbn [cmds]. destruct c; constructor.
Qed.

(* Order: the holder of a command replies.  The callers are asked from the last registered
   to the first; those which refuse are skipped, and the first which does not refuse is the
   one informed; the callers registered before stay for its own reply. *)
Theorem C30_reply_order n l s c res pre r rest : (N.of_nat (length l + length pre) < 2 ^ 32 - 2)%N -> run true (init n) l = Ok s ->
  fly s = [] -> In c (hands s) -> c_call (command s c) = pre ++ r :: rest ->
  Forall (fun x => refuses s x = true) pre -> refuses s r = false ->
  exists s', run true s (Reply c res :: repeat (Notify 0) (S (length pre))) = Ok s' /\
    gone s' = map (pair c) (rev pre) ++ gone s /\ fly s' = [] /\ c_call (command s' c) = rest /\
    match snd r with
    | Some _ => told s' = (c, r) :: told s /\ evs s' = evs s /\ In c (hands s')
    | None => told s' = told s /\ waiting s' c r = 1 /\ exists id, evs s' = evs s ++ [(fst r, EvReply, id)] /\ In (mkQ c KReply id) (q_list (w_q (worker s' (fst r))))
    end.
Proof.
  intros B H Ef Hin Ec Fr Rr. assert (G := reach n l s ltac:(lia) H). assert (Cn := reach_cnt l (init n) 0 s (init_ok n) (init_cnt n) ltac:(lia) H). rewrite N.add_0_l in Cn.
  assert (Hh : has c (hands s) = true) by (unfold has; apply existsb_exists; exists c; split; [exact Hin|apply Nat.eqb_refl]).
  destruct (after_reply s c res G Ef Hh) as (s1 & E1 & G1 & Gr1 & F1 & C1 & T1 & V1 & D1 & R1); [intros w; unfold room; specialize (Cn w); lia|]. rewrite Ec in F1, C1.
  destruct (refuse_turns c pre s1 (r :: rest) (N.of_nat (length l) + 1)%N (refuses s)) as (s2 & E2 & G2 & T2 & V2 & D2 & F2 & C2 & R2 & N2); [exact F1|exact C1|exact G1|intros w; specialize (Cn w); specialize (Gr1 w); lia|lia|eapply Forall_impl; [|exact Fr]; intros a Ha; cbn in *; rewrite R1; exact Ha|exact R1|].
  assert (Rm : forall w, room s2 w) by (intros w; unfold room; specialize (N2 w); lia). destruct (step_ok s2 (Notify 0) G2 Rm) as (s3 & E3 & G3 & _).
  exists s3. cbn [run]. rewrite E1. cbn [bind]. rewrite repeat_snoc, run_app, E2. cbn [bind run]. rewrite E3. cbn [bind]. split; [reflexivity|].
  assert (E3' := E3). unfold step in E3'. cbn [tl] in *. rewrite F2 in E3'. cbn [nth_error remove_nth] in E3'. assert (It := fly_take s2 0 c r (proj1 G2)). rewrite F2 in It. specialize (It eq_refl). cbn [remove_nth] in It. set (t := with_fly s2 []) in *.
  assert (On : w_thr (worker t (fst r)) && w_act (worker t (fst r)) = true). { change (worker t (fst r)) with (worker s2 (fst r)). assert (X := R2 r). rewrite Rr in X. unfold refuses in X. apply negb_false_iff in X. exact X. }
  unfold notify in E3'. cbv zeta in E3'. rewrite On in E3'. destruct r as [w [f|]]; cbn [fst snd] in *.
  - destruct (running t f w c); [|discriminate]. injection E3' as <-. cbn [with_hands with_log gone told fly evs hands]. change (gone t) with (gone s2). change (told t) with (told s2). change (evs t) with (evs s2). rewrite D2, T2, V2, T1, V1, D1. repeat split; auto. left. reflexivity.
  - destruct (chkind (w_q (worker t w)) c KReply) as [q id] eqn:Eq. injection E3' as E3'. destruct (chkind_shape _ _ _ _ _ _ It (Rm w) Eq) as (Hq & _).
    assert (Lw := v_wk _ _ _ It c (w, None) (or_intror (or_intror eq_refl))). cbn [fst] in Lw.
    assert (Eqw : Q s3 w = q_list q). { rewrite <- E3'. transitivity (Q (set_q t w q) w); [reflexivity|]. unfold Q. rewrite (worker_set_q t w q Lw). reflexivity. }
    split; [rewrite <- E3'; cbn [with_evs gone]; change (gone (set_q t w q)) with (gone s2); rewrite D2, D1; reflexivity|].
    split; [rewrite <- E3'; reflexivity|]. split; [rewrite <- E3'; exact C2|]. split; [rewrite <- E3'; cbn [with_evs told]; change (told (set_q t w q)) with (told s2); congruence|]. split.
    + rewrite waiting_is. unfold wait_reply. cbn [fst snd]. assert (A : 0 < cnt (is_reply c) (Q s3 w)) by (apply cnt_pos; eexists; split; [rewrite Eqw; exact Hq|unfold is_reply; cbn [q_cmd q_kind kind_eqb]; rewrite Nat.eqb_refl; reflexivity]).
      assert (A2 : cnt (is_reply c) (Q s3 w) <= cnt (actq c) (Q s3 w)) by (apply sumf_le; intros e _; unfold is_reply, actq; destruct (q_cmd e =? c); cbn [andb]; [|lia]; destruct (q_kind e); cbn; lia).
      assert (A3 := Q_le s3 w c). assert (A4 := v_carry _ _ _ (proj1 G3) c). unfold Carry in A4. assert (A5 := b2n_le (c <? length (cmds s3))). lia.
    + exists id. split; [rewrite <- E3'; cbn [with_evs evs]; change (evs t) with (evs s2); congruence|]. fold (Q s3 w). rewrite Eqw. exact Hq.
Qed.
(* If all callers refuse, each of them is passed over once and nobody is informed. *)
Theorem C30_all_refuse n l s c res : (N.of_nat (length l + length (c_call (command s c))) < 2 ^ 32 - 2)%N -> run true (init n) l = Ok s ->
  fly s = [] -> In c (hands s) -> Forall (fun x => refuses s x = true) (c_call (command s c)) ->
  exists s', run true s (Reply c res :: repeat (Notify 0) (length (c_call (command s c)))) = Ok s' /\
    gone s' = map (pair c) (rev (c_call (command s c))) ++ gone s /\ fly s' = [] /\ c_call (command s' c) = [] /\ told s' = told s /\ evs s' = evs s.
Proof.
  intros B H Ef Hin Fr. assert (G := reach n l s ltac:(lia) H). assert (Cn := reach_cnt l (init n) 0 s (init_ok n) (init_cnt n) ltac:(lia) H). rewrite N.add_0_l in Cn.
  assert (Hh : has c (hands s) = true) by (unfold has; apply existsb_exists; exists c; split; [exact Hin|apply Nat.eqb_refl]).
  destruct (after_reply s c res G Ef Hh) as (s1 & E1 & G1 & Gr1 & F1 & C1 & T1 & V1 & D1 & R1); [intros w; unfold room; specialize (Cn w); lia|].
  destruct (refuse_turns c (c_call (command s c)) s1 [] (N.of_nat (length l) + 1)%N (refuses s)) as (s2 & E2 & G2 & T2 & V2 & D2 & F2 & C2 & R2 & N2); [rewrite app_nil_r; exact F1|rewrite app_nil_r; exact C1|exact G1|intros w; specialize (Cn w); specialize (Gr1 w); lia|lia|eapply Forall_impl; [|exact Fr]; intros a Ha; cbn in *; rewrite R1; exact Ha|exact R1|].
  exists s2. cbn [run]. rewrite E1. cbn [bind]. split; [exact E2|]. rewrite D2, T2, V2, T1, V1, D1. auto.
Qed.

(* Example: worker 0 has assigned the command, worker 1 calls it synchronously through
   worker 2, worker 1 halts.  The reply passes worker 1 by and reaches worker 0. *)
Definition ex30 : list op := [New; Assign 0 0; AddSync 1 5 0; Submit 2 0 false; Deliver 0; Halt 1].
Example C30_case : exists s, run true (init 3) ex30 = Ok s /\ fly s = [] /\ hands s = [0] /\ c_call (command s 0) = [(1, Some 5); (0, None)] /\ refuses s (1, Some 5) = true /\ refuses s (0, None) = false /\
  exists s', run true s [Reply 0 1; Notify 0; Notify 0; Deliver 0] = Ok s' /\ told s' = [(0, (0, None))] /\ gone s' = [(0, (1, Some 5))] /\ hands s' = [0] /\ result s' 0 = 1%Z.
Proof. eexists. split; [vm_compute; reflexivity|]. do 5 (split; [reflexivity|]). eexists. split; [vm_compute; reflexivity|]. repeat split; reflexivity. Qed.

(* Without the restriction: a synchronous call which ends by time-out after Reply took its
   record and before it is informed; its local variable is then written. *)
Theorem C30_caller_gone_refuted : exists l, run false (init 2) l = UB.
Proof. exists [New; AddSync 0 5 0; Submit 1 0 false; Deliver 0; Reply 0 1; Remove 0 5 0; Notify 0]. vm_compute. reflexivity. Qed.

Print Assumptions C30_each_caller_once_partial.
Print Assumptions C30_informed_or_refused.
Print Assumptions C30_newest_first.
Print Assumptions C30_reply_order.
Print Assumptions C30_all_refuse.
Print Assumptions C30_caller_gone_refuted.

(* ---- C31 ---- *)
Lemma result_pop s c d : result (pop_call s c) d = result s d.
Proof.
  unfold pop_call. destruct (c_call (command s c)) as [|r l]; [reflexivity|]. unfold result. change (command (with_fly (set_call s c l) (fly s ++ [(c, r)])) d) with (command (set_call s c l) d). unfold set_call. cbv zeta. rewrite command_upd. destruct (Nat.eqb_spec d c) as [->|N]; cbn [andb]; [destruct (c <? _); reflexivity|reflexivity].
Qed.
(* Result codes which are not negative arrive, and no other command changes. *)
Theorem C31_result_partial n l s c res s' : (N.of_nat (length l) < 2 ^ 32)%N -> run true (init n) l = Ok s -> In c (hands s) -> (0 <= res)%Z ->
  step true s (Reply c res) = Ok s' -> result s' c = res /\ forall d, d <> c -> result s' d = result s d.
Proof.
  intros B H Hin Hr E. assert (G := reach n l s B H). assert (Hh : has c (hands s) = true) by (unfold has; apply existsb_exists; exists c; split; [exact Hin|apply Nat.eqb_refl]). destruct (hands_len _ _ (proj1 G) Hh) as (Lc & _).
  unfold step in E. rewrite Hh in E. injection E as <-. unfold reply. rewrite (proj2 (Z.leb_le _ _) Hr).
  assert (X : forall d, result (pop_call (set_res (with_hands s (remove1 c (hands s))) c res) c) d = if d =? c then res else result s d).
  { intros d. rewrite result_pop. unfold result, set_res. cbv zeta. rewrite command_upd. change (length (cmds (with_hands s (remove1 c (hands s))))) with (length (cmds s)). apply Nat.ltb_lt in Lc. rewrite Lc, andb_true_r. destruct (Nat.eqb_spec d c) as [->|N]; reflexivity. }
  split; [rewrite X, Nat.eqb_refl; reflexivity|]. intros d N. rewrite X. destruct (Nat.eqb_spec d c); [contradiction|reflexivity].
Qed.
(* No later step except a reply of the same command changes the result. *)
Theorem C31_result_kept p s o s' c : (match o with Reply d _ => d <> c | Submit _ d _ => d <> c | Finish w _ => ~ In c (w_stack (worker s w)) | Clean _ => False | New => c < length (cmds s) | _ => True end) ->
  step p s o = Ok s' -> result s' c = result s c.
Proof.
  assert (Same : forall a b, cmds b = cmds a -> result b c = result a c) by (intros a b E; unfold result, command; rewrite E; reflexivity).
  assert (Rep : forall a d r, d <> c -> result (reply a d r) c = result a c).
  { intros a d r N. unfold reply. rewrite result_pop. destruct (0 <=? r)%Z; [|reflexivity]. unfold result, set_res. cbv zeta. rewrite command_upd. destruct (Nat.eqb_spec c d); [congruence|reflexivity]. }
  assert (Rc : forall a d (x : cmd), c_res x = c_res (command a d) -> result (with_c a d x) c = result a c).
  { intros a d x E. unfold result. rewrite command_upd. destruct (Nat.eqb_spec c d) as [->|N]; cbn [andb]; [destruct (d <? _); [rewrite E|]; reflexivity|reflexivity]. }
  assert (Rneg : forall a d, result (reply a d (-5)) c = result a c) by (intros a d; unfold reply; cbn [Z.leb Z.compare]; apply result_pop).
  assert (Pr : forall a w d, result (process a w d) c = result a c).
  { intros a w d. unfold process. cbv zeta. destruct (negb (w_norm _)); [apply Same; reflexivity|]. destruct (c_cancel _); [apply Rneg|]. destruct (_ && _); apply Same; reflexivity. }
  intros K H. destruct o; unfold step in H.
  - injection H as <-. unfold result, command. cbn [with_hands cmds]. rewrite app_nth1 by exact K. reflexivity.
  - destruct (_ && _); injection H as <-; [|reflexivity]. unfold add_caller, set_call. cbv zeta. transitivity (result (set_q s w (fst (push (w_q (worker s w)) c0 KAssign))) c); [|apply Same; reflexivity]. match goal with |- result (with_log (with_c ?a ?d ?x) _ _ _) c = _ => exact (Rc a d x eq_refl) end.
  - destruct (_ && _); [|injection H as <-; reflexivity]. cbv zeta in H. injection H as <-. unfold add_caller, set_call. cbv zeta. match goal with |- result (with_sync (with_log (with_c ?a ?d ?x) _ _ _) _) c = _ => exact (Rc a d x eq_refl) end.
  - destruct (_ && _); [|injection H as <-; reflexivity]. cbv zeta in H. destruct (w_thr _ && _); [|injection H as <-; rewrite Rep by exact K; apply Same; reflexivity]. destruct (push _ _ _) as [q id]. injection H as <-. apply Same. reflexivity.
  - destruct (has c0 (hands s)); injection H as <-; [|reflexivity]. rewrite Rep by exact K. apply Same. reflexivity.
  - injection H as <-. unfold set_cancel. cbv zeta. apply Rc. reflexivity.
  - destruct (_ && _); [|injection H as <-; reflexivity]. cbv zeta in H. injection H as <-. unfold remove_caller, set_call. cbv zeta. match goal with |- result (with_sync (with_log (with_c ?a ?d ?x) _ _ _) _) c = _ => exact (Rc a d x eq_refl) end.
  - destruct (nth_error (fly s) n) as [[d r]|]; [|injection H as <-; reflexivity]. transitivity (result (with_fly s (remove_nth n (fly s))) c); [|apply Same; reflexivity]. set (t := with_fly s (remove_nth n (fly s))) in *. clearbody t. unfold notify in H. cbv zeta in H. destruct r as [w [f|]]; cbn [fst snd] in H.
    + destruct (_ && _); [destruct (running t f w d); [|discriminate]|]; injection H as <-; [apply Same; reflexivity|]. rewrite result_pop. apply Same. reflexivity.
    + destruct (chkind (w_q (worker t w)) d KReply) as [q id]. destruct (_ && _); [injection H as <-; apply Same; reflexivity|]. destruct (pop_id q id) as [q2 x]. injection H as <-. rewrite result_pop. apply Same. reflexivity.
  - destruct (nth_error (evs s) n) as [[[w k] id]|]; [|injection H as <-; reflexivity]. destruct (_ && _); [injection H as <-; reflexivity|]. destruct (pop_id _ id) as [q x]. cbv zeta in H. destruct k, x as [e|]; injection H as <-; try (apply Same; reflexivity). rewrite Pr. apply Same. reflexivity.
  - destruct (w_stack (worker s w)) as [|d st] eqn:Es; [injection H as <-; reflexivity|]. destruct (res =? -3)%Z; [injection H as <-; apply Same; reflexivity|]. destruct (has d (hands s)); cbv zeta in H; injection H as <-; [|reflexivity]. rewrite Rep; [apply Same; reflexivity|]. intros ->. apply K. left. reflexivity.
  - destruct (_ && _); [|injection H as <-; reflexivity]. destruct (pop_kind _ KPost) as [q [e|]]; injection H as <-; [|apply Same; reflexivity]. rewrite Pr. apply Same. reflexivity.
  - injection H as <-. apply Same. reflexivity.
  - cbv zeta in H. destruct (_ && _); injection H as <-; [apply Same|]; reflexivity.
  - injection H as <-. apply Same. reflexivity.
  - destruct K.
Qed.
(* The full claim is false: a command is executed with success, submitted again and this
   time answered with cmd_timedout (-1); its result reads "true". *)
Theorem C31_negative_refuted : exists l s s', run true (init 2) l = Ok s /\ In 0 (hands s) /\ step true s (Reply 0 (-1)) = Ok s' /\ result s' 0 = 1%Z.
Proof.
  exists [New; AddSync 0 5 0; Submit 1 0 false; Deliver 0; Finish 1 1; Notify 0; Remove 0 5 0; Next 1; AddSync 0 5 0; Submit 1 0 false; Deliver 0].
  eexists. eexists. split; [vm_compute; reflexivity|]. split; [left; reflexivity|]. split; [vm_compute; reflexivity|]. reflexivity.
Qed.
(* ... and a cancelled command looks like one which failed *)
Theorem C31_canceled_refuted : exists l s, run true (init 2) l = Ok s /\ told s = [(0, (0, Some 5))] /\ c_cancel (command s 0) = true /\ result s 0 = 0%Z.
Proof. exists [New; AddSync 0 5 0; Cancel 0; Submit 1 0 false; Deliver 0; Notify 0]. eexists. split; [vm_compute; reflexivity|]. repeat split; reflexivity. Qed.
Print Assumptions C31_result_partial.
Print Assumptions C31_result_kept.
Print Assumptions C31_negative_refuted.
Print Assumptions C31_canceled_refuted.

(* ---- C66 ----
   Full claim (Thread.cxx:560): a submitted command is executed or cancelled, so its callers
   are answered.  Proved for workers which stay in normal state: from every reachable state
   (a) each delivery step either changes nothing or reduces the work left, so no schedule of
   deliveries is endless; (b) where no delivery changes anything, no caller is left and each
   one registered was informed, refused or removed; (c) such a state can be reached. *)
Theorem C66_always_answered_partial n l s : (N.of_nat (length l) < 2 ^ 32)%N -> run true (init n) l = Ok s -> normal s ->
  (forall o s', delivery o = true -> step true s o = Ok s' -> s' = s \/ work s' < work s) /\
  ((forall o, delivery o = true -> step true s o = Ok s) ->
     quiet s /\ lost s = [] /\ forall c r, c_call (command s c) = [] /\ times (c, r) (added s) = times (c, r) (told s) + times (c, r) (gone s)) /\
  ((N.of_nat (length l + work s) < 2 ^ 32 - 1)%N ->
     exists l' s', Forall (fun o => delivery o = true) l' /\ length l' <= work s /\ run true s l' = Ok s' /\ quiet s' /\ lost s' = [] /\
       forall c r, c_call (command s' c) = [] /\ times (c, r) (added s') = times (c, r) (told s') + times (c, r) (gone s')).
Proof.
  intros B H Nm. assert (G := reach n l s B H).
  assert (Done : forall t, good t -> quiet t -> normal t -> lost t = [] /\ forall c r, c_call (command t c) = [] /\ times (c, r) (added t) = times (c, r) (told t) + times (c, r) (gone t)).
  { intros t Gt Qt Nt. destruct (quiet_done t Gt Qt Nt) as (L0 & D). split; [exact L0|]. intros c r. destruct (D c) as (D1 & D2). split; [exact D1|]. assert (X := v_log _ _ _ (proj1 Gt) c r). rewrite !times_cnt. rewrite D1, (D2 r), (proj1 (proj2 Qt)) in X. cbn [pend] in X. rewrite !cnt_nil in X. lia. }
  split; [|split].
  - intros o s' D E. eapply work_down; eauto.
  - intros St. assert (Qt := still_is_quiet s G St). split; [exact Qt|]. apply Done; assumption.
  - intros B2. assert (Cn := reach_cnt l (init n) 0 s (init_ok n) (init_cnt n) ltac:(lia) H). rewrite N.add_0_l in Cn. destruct (settle (work s) s (N.of_nat (length l)) (le_n _) G Cn) as (l' & s' & Fd & Ll & Er & G' & Qt & F); [lia|].
    exists l', s'. split; [exact Fd|]. split; [exact Ll|]. split; [exact Er|]. split; [exact Qt|]. apply Done; [exact G'|exact Qt|]. eapply fn_normal; eauto.
Qed.
(* Every event of a command finds its command: the worker never looks for one which is
   not there, and takes exactly the one the event was fired for. *)
Theorem C66_event_has_command n l s k w e id : (N.of_nat (length l) < 2 ^ 32)%N -> run true (init n) l = Ok s -> nth_error (evs s) k = Some (w, e, id) ->
  exists r, snd (pop_id (w_q (worker s w)) id) = Some r /\ q_id r = id /\ q_kind r = match e with EvSubmit => KSubmit | EvReply => KReply end.
Proof.
  intros B H E. assert (G := reach n l s B H). destruct (deliver_finds _ _ _ _ _ (proj1 G) E) as (x & r & Ep & Fx & _). exists x. rewrite Ep. split; [reflexivity|]. split.
  - unfold pop_id, take in Ep. destruct (erase _ _) as [[y z]|] eqn:Er; [|discriminate]. injection Ep as <- <-. destruct (erase_split _ _ _ _ Er) as (P & _). apply N.eqb_eq. exact P.
  - unfold fired in Fx. destruct (kind_eqb_spec (q_kind x) (match e with EvSubmit => KSubmit | EvReply => KReply end)); [assumption|discriminate].
Qed.
(* Example: three nested commands, the inner one postponed because its worker is busy. *)
Example C66_case : exists s, run true (init 2) [New; New; AddSync 0 5 0; Submit 1 0 false; Assign 0 1; Submit 1 1 false; Deliver 0; Deliver 0] = Ok s /\ normal s /\ hands s = [0] /\ work s = 14 /\
  map q_kind (q_list (w_q (worker s 1))) = [KPost] /\ c_call (command s 1) = [(0, None)].
Proof. eexists. split; [vm_compute; reflexivity|]. split; [intros [|[|w]] L; [reflexivity|reflexivity|cbn in L; lia]|]. repeat split; reflexivity. Qed.
(* The full claim is false: the worker is destroyed while the command is on its way; the
   command is dropped in silence and nothing will ever answer the caller. *)
Theorem C66_dropped_refuted : exists l s, run true (init 2) l = Ok s /\ (forall o, delivery o = true -> step true s o = Ok s) /\
  c_call (command s 0) = [(0, Some 5)] /\ told s = [] /\ gone s = [].
Proof.
  exists [New; AddSync 0 5 0; Submit 1 0 false; Destroy 1; Deliver 0; Next 1]. eexists. split; [vm_compute; reflexivity|]. split.
  - intros o D. destruct o; try discriminate D; try reflexivity.
    + unfold step. cbn [fly]. destruct n; reflexivity.
    + unfold step. cbn [evs]. destruct n; reflexivity.
    + destruct w as [|[|w]]; [reflexivity|reflexivity|]. unfold step, worker. cbn [wks]. destruct w; reflexivity.
    + destruct w as [|[|w]]; [reflexivity|reflexivity|]. unfold step, worker. cbn [wks]. destruct w; reflexivity.
  - repeat split; reflexivity.
Qed.
Print Assumptions C66_always_answered_partial.
Print Assumptions C66_event_has_command.
Print Assumptions C66_dropped_refuted.
