(* Invariant of the commands system. *)
From Verif Require Import Common ListFacts Sums CmdQSpec CmdQModel CmdModel.
Open Scope nat_scope.

Definition cnt {A} (p : A -> bool) (l : list A) : nat := sumf (fun x => b2n (p x)) l.
Lemma cnt_app {A} (p : A -> bool) a b : cnt p (a ++ b) = cnt p a + cnt p b. Proof. apply sumf_app. Qed.
Lemma cnt_cons {A} (p : A -> bool) x l : cnt p (x :: l) = b2n (p x) + cnt p l. Proof. reflexivity. Qed.
Lemma cnt_nil {A} (p : A -> bool) : cnt p [] = 0. Proof. reflexivity. Qed.
Lemma cnt_pos {A} (p : A -> bool) l : 0 < cnt p l <-> exists x, In x l /\ p x = true.
Proof.
  unfold cnt. induction l as [|x l IH]; cbn [sumf]; [split; [lia|intros (x & [] & _)]|]. destruct (p x) eqn:E; cbn [b2n].
  - split; [intros _; exists x; split; [left; reflexivity|exact E]|lia].
  - rewrite Nat.add_0_l, IH. split; intros (y & Hy & Py); exists y; split; auto; [right; exact Hy|]. destruct Hy as [<-|Hy]; [congruence|exact Hy].
Qed.
Lemma cnt_zero {A} (p : A -> bool) l : cnt p l = 0 <-> forall x, In x l -> p x = false.
Proof.
  unfold cnt. rewrite sumf_zero, Forall_forall. split; intros H x Hx; specialize (H x Hx); destruct (p x); try reflexivity; discriminate.
Qed.
Lemma cnt_ext {A} (p q : A -> bool) l : (forall x, In x l -> p x = q x) -> cnt p l = cnt q l.
Proof. intros H. apply sumf_eq. intros x Hx. rewrite (H x Hx). reflexivity. Qed.
Lemma cnt_filter {A} (p q : A -> bool) l : cnt p (filter q l) = cnt (fun x => p x && q x) l.
Proof. unfold cnt. induction l as [|x l IH]; cbn [filter sumf]; [reflexivity|]. destruct (q x); cbn [sumf]; rewrite ?IH; rewrite ?andb_true_r, ?andb_false_r; reflexivity. Qed.
Lemma cnt_map {A B} (p : B -> bool) (f : A -> B) l : cnt p (map f l) = cnt (fun x => p (f x)) l.
Proof. unfold cnt. induction l as [|x l IH]; cbn [map sumf]; [reflexivity|]. rewrite IH. reflexivity. Qed.
Lemma cnt_remove_nth {A} (p : A -> bool) l : forall n x, nth_error l n = Some x -> cnt p (remove_nth n l) + b2n (p x) = cnt p l.
Proof. unfold cnt. induction l as [|y l IH]; intros [|n] x H; try discriminate H; cbn [remove_nth sumf]; [injection H as ->; lia|]. specialize (IH n x H). lia. Qed.
Lemma in_remove_nth {A} (l : list A) : forall n x, In x (remove_nth n l) -> In x l.
Proof. induction l as [|y l IH]; intros [|n] x H; cbn [remove_nth] in H; auto; [right; exact H|]. destruct H as [->|H]; [left; reflexivity|right; eauto]. Qed.
Definition hn (c : nat) (l : list nat) : nat := cnt (fun x => x =? c) l.
Lemma hn_remove1 c l d : has c l = true -> hn d (remove1 c l) + b2n (c =? d) = hn d l.
Proof.
  unfold hn, cnt, has. induction l as [|x l IH]; cbn [existsb remove1 sumf]; [discriminate|]. destruct (Nat.eqb_spec x c) as [->|N]; intros H; [lia|].
  destruct (Nat.eqb_spec c x) as [E|_]; [congruence|]. cbn [orb sumf] in *. specialize (IH H). lia.
Qed.
Lemma hn_has c l : has c l = true -> 0 < hn c l.
Proof. intros H. apply cnt_pos. unfold has in H. apply existsb_exists in H. destruct H as (x & Hx & E). exists x. split; [exact Hx|]. rewrite Nat.eqb_sym. exact E. Qed.
Lemma clr_eqb_spec a b : reflect (a = b) (clr_eqb a b).
Proof.
  destruct a as [x f], b as [y g]. unfold clr_eqb. cbn [fst snd]. destruct (Nat.eqb_spec x y) as [->|N]; cbn [andb]; [|constructor; congruence].
  destruct f as [f|], g as [g|]; try (constructor; congruence). destruct (Nat.eqb_spec f g) as [->|N]; constructor; congruence.
Qed.
Lemma clr_eqb_refl a : clr_eqb a a = true. Proof. destruct (clr_eqb_spec a a); congruence. Qed.
Lemma clr_eqb_sym a b : clr_eqb a b = clr_eqb b a. Proof. destruct (clr_eqb_spec a b), (clr_eqb_spec b a); congruence. Qed.
Definition call_eqb (a b : nat * clr) : bool := (fst a =? fst b) && clr_eqb (snd a) (snd b).
Lemma kind_eqb_spec a b : reflect (a = b) (kind_eqb a b).
Proof. destruct a, b; constructor; congruence. Qed.
Definition evk_eqb (a b : evc) : bool := match a, b with EvSubmit, EvSubmit | EvReply, EvReply => true | _, _ => false end.
Definition ev_eqb (a b : nat * evc * N) : bool := (fst (fst a) =? fst (fst b)) && evk_eqb (snd (fst a)) (snd (fst b)) && (snd a =? snd b)%N.
Lemma evk_eqb_spec a b : reflect (a = b) (evk_eqb a b). Proof. destruct a, b; constructor; congruence. Qed.
Lemma trip_eqb_spec a b : reflect (a = b) (trip_eqb a b).
Proof.
  destruct a as [[x y] z], b as [[x' y'] z']. unfold trip_eqb. cbn [fst snd]. destruct (Nat.eqb_spec x x'), (Nat.eqb_spec y y'), (Nat.eqb_spec z z'); constructor; congruence.
Qed.

(* queue functions *)
Lemma erase_split p l e r : erase p l = Some (e, r) -> p e = true /\ In e l /\ (forall x, In x r -> In x l) /\ forall q : qrec -> bool, cnt q l = b2n (q e) + cnt q r.
Proof.
  revert r. induction l as [|x l IH]; intros r H; [discriminate|]. cbn [erase] in H. destruct (p x) eqn:E.
  - injection H as <- <-. split; [exact E|]. split; [left; reflexivity|]. split; [intros y Hy; right; exact Hy|]. reflexivity.
  - destruct (erase p l) as [[y r']|]; [|discriminate]. injection H as <- <-. destruct (IH _ eq_refl) as (P & I & S & C). split; [exact P|]. split; [right; exact I|]. split; [intros z [<-|Hz]; [left; reflexivity|right; auto]|].
    intros q. rewrite !cnt_cons, C. lia.
Qed.
Lemma erase_none p l : erase p l = None -> forall x, In x l -> p x = false.
Proof. induction l as [|x l IH]; intros H y Hy; [destruct Hy|]. cbn [erase] in H. destruct (p x) eqn:E; [discriminate|]. destruct (erase p l) as [[z r]|]; [discriminate|]. destruct Hy as [<-|Hy]; auto. Qed.
Lemma change_kind_split c k l t r : change_kind c k l = Some (t, r) -> exists e, In e l /\ q_cmd e = c /\ q_id e = t /\ (forall x, In x r -> x = mkQ c k t \/ In x l) /\ forall q : qrec -> bool, cnt q r + b2n (q e) = cnt q l + b2n (q (mkQ c k t)).
Proof.
  revert r. induction l as [|x l IH]; intros r H; [discriminate|]. cbn [change_kind] in H. destruct (Nat.eqb_spec (q_cmd x) c) as [E|E].
  - injection H as <- <-. exists x. split; [left; reflexivity|]. split; [exact E|]. split; [reflexivity|]. split; [intros y [<-|Hy]; [left; reflexivity|right; right; exact Hy]|]. intros q. rewrite !cnt_cons. lia.
  - destruct (change_kind c k l) as [[y r']|]; [|discriminate]. injection H as <- <-. destruct (IH _ eq_refl) as (e & A & B & C & D & F). exists e. split; [right; exact A|]. split; [exact B|]. split; [exact C|]. split; [intros z [<-|Hz]; [right; left; reflexivity|]; destruct (D z Hz); auto; right; right; assumption|].
    intros q. rewrite !cnt_cons. specialize (F q). lia.
Qed.
Lemma change_kind_none c k l : change_kind c k l = None -> forall x, In x l -> q_cmd x <> c.
Proof. induction l as [|x l IH]; intros H y Hy; [destruct Hy|]. cbn [change_kind] in H. destruct (Nat.eqb_spec (q_cmd x) c) as [E|E]; [discriminate|]. destruct (change_kind c k l) as [[z r]|]; [discriminate|]. destruct Hy as [<-|Hy]; auto. Qed.

(* the state *)
Definition Q (s : sys) (w : nat) : list qrec := q_list (w_q (worker s w)).
Definition actq (c : nat) (e : qrec) : bool := (q_cmd e =? c) && negb (kind_eqb (q_kind e) KAssign).
Definition Qs (c : nat) (s : sys) : nat := sumf (fun x => cnt (actq c) (q_list (w_q x))) (wks s).
Definition inF (c : nat) (s : sys) : nat := cnt (fun x => fst x =? c) (fly s).
Definition tok (c : nat) (t : option nat) : nat := match t with Some d => b2n (d =? c) | None => 0 end.
Definition Carry (c : nat) (t : option nat) (s : sys) : nat := hn c (hands s) + Qs c s + inF c s + hn c (lost s) + tok c t.
Definition fired (k : evc) (e : qrec) : bool := kind_eqb (q_kind e) (match k with EvSubmit => KSubmit | EvReply => KReply end).
Definition is_reply (c : nat) (e : qrec) : bool := (q_cmd e =? c) && kind_eqb (q_kind e) KReply.
Definition wait_reply (s : sys) (c : nat) (r : clr) : nat := match snd r with None => cnt (is_reply c) (Q s (fst r)) | Some _ => 0 end.
Definition pend (u : option (nat * clr)) (x : nat * clr) : nat := match u with Some y => b2n (call_eqb y x) | None => 0 end.

(* t: a command just in the hands of the framework; u: a caller just being informed *)
Record inv (t : option nat) (u : option (nat * clr)) (s : sys) : Prop := mkInv {
  v_carry : forall c, Carry c t s <= b2n (c <? length (cmds s));
  v_call : forall c, c_call (command s c) <> [] -> Carry c t s = 1;
  v_id : forall w e, In e (Q s w) -> (1 <= q_id e <= q_cnt (w_q (worker s w)))%N;
  v_nodup : forall w i, cnt (fun e => (q_id e =? i)%N) (Q s w) <= 1;
  v_ev : forall w k i, cnt (fun x => ev_eqb x (w, k, i)) (evs s) = cnt (fun e => fired k e && (q_id e =? i)%N) (Q s w);
  v_post : forall w e, In e (Q s w) -> q_kind e = KPost -> w_loop (worker s w) = true;
  v_kind : forall w e, In e (Q s w) -> q_kind e <> KNone;
  v_sync : forall c w f, In (w, Some f) (c_call (command s c)) \/ In (c, (w, Some f)) (fly s) \/ u = Some (c, (w, Some f)) -> running s f w c = true;
  v_wk : forall c r, In r (c_call (command s c)) \/ In (c, r) (fly s) \/ u = Some (c, r) -> fst r < length (wks s);
  v_log : forall c r, cnt (fun x => call_eqb x (c, r)) (added s) =
    cnt (fun x => clr_eqb x r) (c_call (command s c)) + cnt (fun x => call_eqb x (c, r)) (fly s) + cnt (fun x => call_eqb x (c, r)) (told s) +
    cnt (fun x => call_eqb x (c, r)) (gone s) + wait_reply s c r + pend u (c, r);
  v_lost : lost s <> [] -> exists w, w < length (wks s) /\ w_norm (worker s w) = false }.

(* elementary writes *)
Lemma worker_upd s w x v : worker (with_w s w x) v = if (v =? w) && (w <? length (wks s)) then x else worker s v.
Proof. unfold worker, with_w. cbn [wks]. apply nth_upd_eq. Qed.
Lemma command_upd s c x d : command (with_c s c x) d = if (d =? c) && (c <? length (cmds s)) then x else command s d.
Proof. unfold command, with_c. cbn [cmds]. apply nth_upd_eq. Qed.
Lemma Qs_upd s w x c : w < length (wks s) -> Qs c (with_w s w x) + cnt (actq c) (Q s w) = Qs c s + cnt (actq c) (q_list (w_q x)).
Proof. intros L. exact (sumf_upd (fun y => cnt (actq c) (q_list (w_q y))) dead_wk (wks s) w x L). Qed.
Lemma Q_le s w c : cnt (actq c) (Q s w) <= Qs c s.
Proof.
  unfold Q, worker. destruct (Nat.lt_ge_cases w (length (wks s))) as [L|L]; [exact (sumf_in (fun y => cnt (actq c) (q_list (w_q y))) dead_wk (wks s) w L)|].
  rewrite nth_overflow by exact L. cbn. lia.
Qed.
Lemma Q_dead s w : length (wks s) <= w -> Q s w = [].
Proof. intros L. unfold Q, worker. rewrite nth_overflow by exact L. reflexivity. Qed.
Lemma call_len s c : c_call (command s c) <> [] -> c < length (cmds s).
Proof. intros H. destruct (Nat.lt_ge_cases c (length (cmds s))) as [L|L]; [exact L|]. unfold command in H. rewrite nth_overflow in H by exact L. destruct H. reflexivity. Qed.

Lemma inv_frame t t' u s s' : inv t u s -> cmds s' = cmds s -> wks s' = wks s -> evs s' = evs s -> fly s' = fly s -> sync s' = sync s ->
  added s' = added s -> told s' = told s -> gone s' = gone s -> lost s' = lost s -> (forall c, Carry c t' s' = Carry c t s) -> inv t' u s'.
Proof.
  intros I E1 E2 E3 E4 E5 E6 E7 E8 E9 C.
  assert (W : forall w, worker s' w = worker s w) by (intros w; unfold worker; rewrite E2; reflexivity). assert (M : forall c, command s' c = command s c) by (intros c; unfold command; rewrite E1; reflexivity).
  destruct I as [A1 A2 A3 A4 A5 A6 A7 A8 A9 A10 A11]. unfold Q, wait_reply, running in *. constructor; unfold Q, wait_reply, running; intros.
  - rewrite C, E1. apply A1.
  - rewrite C. apply A2. rewrite <- M. assumption.
  - rewrite W in *. apply A3. assumption.
  - rewrite W. apply A4.
  - rewrite E3, W. apply A5.
  - rewrite W in *. eapply A6; eauto.
  - rewrite W in *. eapply A7; eauto.
  - rewrite M, E4, E5 in *. apply A8. assumption.
  - rewrite M, E2, E4 in *. eapply A9; eassumption.
  - rewrite M, E4, E6, E7, E8. unfold Q. rewrite W. apply A10.
  - rewrite E9, E2 in *. destruct (A11 H) as (w & L & N). exists w. rewrite W. auto.
Qed.
Lemma take_hand u s c : inv None u s -> has c (hands s) = true -> inv (Some c) u (with_hands s (remove1 c (hands s))).
Proof. intros I H. eapply inv_frame; [exact I|reflexivity..|]. intros d. unfold Carry. cbn [with_hands hands lost tok]. assert (X := hn_remove1 c (hands s) d H). change (Qs d (with_hands s (remove1 c (hands s)))) with (Qs d s). change (inF d (with_hands s (remove1 c (hands s)))) with (inF d s). lia. Qed.
Lemma to_hand u s c : inv (Some c) u s -> inv None u (with_hands s (c :: hands s)).
Proof. intros I. eapply inv_frame; [exact I|reflexivity..|]. intros d. unfold Carry. cbn [with_hands hands lost tok]. change (Qs d (with_hands s (c :: hands s))) with (Qs d s). change (inF d (with_hands s (c :: hands s))) with (inF d s). unfold hn. rewrite cnt_cons. lia. Qed.
Lemma tok_len u s c : inv (Some c) u s -> c < length (cmds s).
Proof. intros I. assert (H := v_carry _ _ _ I c). unfold Carry in H. cbn [tok] in H. rewrite Nat.eqb_refl in H. destruct (Nat.ltb_spec c (length (cmds s))); [assumption|cbn [b2n] in H; lia]. Qed.
Lemma drop_tok u s c : inv (Some c) u s -> c_call (command s c) = [] -> inv None u s.
Proof.
  intros I E. destruct I as [A1 A2 A3 A4 A5 A6 A7 A8 A9 A10 A11]. constructor; auto.
  - intros d. specialize (A1 d). unfold Carry in *. cbn [tok] in *. lia.
  - intros d H. specialize (A2 d H). unfold Carry in *. cbn [tok] in *. destruct (Nat.eqb_spec c d) as [->|N]; [congruence|]. cbn [b2n] in A2. lia.
Qed.
(* a caller informed, or given up *)
Lemma log_told t s c r : inv t (Some (c, r)) s -> inv t None (with_log s (added s) ((c, r) :: told s) (gone s)).
Proof.
  intros I. destruct I as [A1 A2 A3 A4 A5 A6 A7 A8 A9 A10 A11]. constructor; auto.
  - intros d w f [H|[H|H]]; [apply A8; auto|apply A8; auto|discriminate].
  - intros d x [H|[H|H]]; [eapply A9; left; exact H|eapply A9; right; left; exact H|discriminate].
  - intros d x. specialize (A10 d x). cbn [with_log added told gone pend]. rewrite cnt_cons. cbn [pend] in A10. change (wait_reply (with_log s (added s) ((c, r) :: told s) (gone s)) d x) with (wait_reply s d x). cbn [with_log fly]. change (command (with_log s (added s) ((c, r) :: told s) (gone s)) d) with (command s d). lia.
Qed.
Lemma log_gone t s c r : inv t (Some (c, r)) s -> inv t None (with_log s (added s) (told s) ((c, r) :: gone s)).
Proof.
  intros I. destruct I as [A1 A2 A3 A4 A5 A6 A7 A8 A9 A10 A11]. constructor; auto.
  - intros d w f [H|[H|H]]; [apply A8; auto|apply A8; auto|discriminate].
  - intros d x [H|[H|H]]; [eapply A9; left; exact H|eapply A9; right; left; exact H|discriminate].
  - intros d x. specialize (A10 d x). cbn [with_log added told gone pend]. rewrite cnt_cons. cbn [pend] in A10. change (wait_reply (with_log s (added s) (told s) ((c, r) :: gone s)) d x) with (wait_reply s d x). cbn [with_log fly]. change (command (with_log s (added s) (told s) ((c, r) :: gone s)) d) with (command s d). lia.
Qed.
(* commands: what is no caller does not matter *)
Lemma inv_cmd t u s c x : inv t u s -> c_call x = c_call (command s c) -> inv t u (with_c s c x).
Proof.
  intros I E. assert (M : forall d, c_call (command (with_c s c x) d) = c_call (command s d)).
  { intros d. rewrite command_upd. destruct (Nat.eqb_spec d c) as [->|N]; cbn [andb]; [|reflexivity]. destruct (_ <? _); [exact E|reflexivity]. }
  destruct I as [A1 A2 A3 A4 A5 A6 A7 A8 A9 A10 A11]. constructor; auto.
  - intros d. cbn [with_c cmds]. rewrite upd_length. apply A1.
  - intros d H. rewrite M in H. apply A2. exact H.
  - intros d w f H. rewrite M in H. apply A8. exact H.
  - intros d r H. rewrite M in H. eapply A9; exact H.
  - intros d r. rewrite M. apply A10.
Qed.
Lemma call_set s c l d : c_call (command (set_call s c l) d) = if (d =? c) && (c <? length (cmds s)) then l else c_call (command s d).
Proof. unfold set_call. cbv zeta. rewrite command_upd. destruct ((d =? c) && _); reflexivity. Qed.
Lemma pop_call_ok s c : inv (Some c) None s -> inv None None (pop_call s c).
Proof.
  intros I. unfold pop_call. destruct (c_call (command s c)) as [|r l] eqn:E; [eapply drop_tok; eauto|]. assert (L := tok_len _ _ _ I). apply Nat.ltb_lt in L.
  assert (M : forall d, c_call (command (with_fly (set_call s c l) (fly s ++ [(c, r)])) d) = if d =? c then l else c_call (command s d)).
  { intros d. change (command (with_fly (set_call s c l) (fly s ++ [(c, r)])) d) with (command (set_call s c l) d). rewrite call_set, L, andb_true_r. reflexivity. }
  assert (Cy : forall d, Carry d None (with_fly (set_call s c l) (fly s ++ [(c, r)])) = Carry d (Some c) s).
  { intros d. unfold Carry, inF. cbn [with_fly fly]. rewrite cnt_app, cnt_cons, cnt_nil. cbn [fst tok]. unfold hn, set_call. cbn [with_fly with_c hands lost]. change (Qs d _) with (Qs d s). lia. }
  destruct I as [A1 A2 A3 A4 A5 A6 A7 A8 A9 A10 A11]. constructor; auto.
  - intros d. rewrite Cy. unfold set_call. cbn [with_fly with_c cmds]. rewrite upd_length. apply A1.
  - intros d H. rewrite Cy. apply A2. rewrite M in H. destruct (Nat.eqb_spec d c) as [Ed|N]; [subst d; congruence|exact H].
  - intros d w f H. rewrite M in H. cbn [with_fly fly] in H. change (running (with_fly (set_call s c l) (fly s ++ [(c, r)])) f w d) with (running s f w d). apply A8. destruct H as [H|[H|H]]; [|apply in_app_or in H; destruct H as [H|[H|[]]]; [auto|]|discriminate].
    + left. destruct (Nat.eqb_spec d c) as [->|N]; [rewrite E; right; exact H|exact H].
    + injection H as <- ->. left. rewrite E. left. reflexivity.
  - intros d x H. rewrite M in H. cbn [with_fly fly] in H. change (length (wks (with_fly (set_call s c l) (fly s ++ [(c, r)])))) with (length (wks s)). apply (A9 d). destruct H as [H|[H|H]]; [|apply in_app_or in H; destruct H as [H|[H|[]]]; [auto|]|discriminate].
    + left. destruct (Nat.eqb_spec d c) as [->|N]; [rewrite E; right; exact H|exact H].
    + injection H as <- <-. left. rewrite E. left. reflexivity.
  - intros d x. rewrite M. cbn [with_fly fly]. rewrite cnt_app, cnt_cons, cnt_nil. specialize (A10 d x). cbn [with_fly set_call with_c added told gone pend] in *. unfold set_call. cbn [with_c added told gone]. change (wait_reply _ d x) with (wait_reply s d x).
    unfold call_eqb at 3. cbn [fst snd]. destruct (Nat.eqb_spec d c) as [->|N].
    + rewrite E, cnt_cons in A10. rewrite Nat.eqb_refl. cbn [andb]. lia.
    + destruct (Nat.eqb_spec c d); [congruence|]. cbn [andb b2n]. lia.
Qed.
Lemma reply_ok s c res : inv (Some c) None s -> inv None None (reply s c res).
Proof. intros I. unfold reply. apply pop_call_ok. destruct (0 <=? res)%Z; [|exact I]. unfold set_res. cbv zeta. apply inv_cmd; [exact I|reflexivity]. Qed.
Lemma lose_ok u s c w : inv (Some c) u s -> w < length (wks s) -> w_norm (worker s w) = false -> inv None u (lose s c).
Proof.
  intros I Lw N. assert (Cy : forall d, Carry d None (lose s c) = Carry d (Some c) s) by (intros d; unfold Carry, lose, inF, hn, Qs; cbn [hands lost fly wks tok]; rewrite cnt_cons; lia).
  destruct I as [A1 A2 A3 A4 A5 A6 A7 A8 A9 A10 A11]. constructor; auto.
  - intros d. rewrite Cy. apply A1.
  - intros d H. rewrite Cy. apply A2. exact H.
  - intros _. exists w. split; [exact Lw|exact N].
Qed.

(* a worker and the events change *)
Lemma inv_w t u t' u' s w x ev' : inv t u s -> w < length (wks s) ->
  (w_norm x = true -> w_norm (worker s w) = true) ->
  (forall c, cnt (actq c) (q_list (w_q x)) + tok c t' = cnt (actq c) (Q s w) + tok c t) ->
  (forall e, In e (q_list (w_q x)) -> (1 <= q_id e <= q_cnt (w_q x))%N /\ q_kind e <> KNone /\ (q_kind e = KPost -> w_loop x = true)) ->
  (forall i, cnt (fun e => (q_id e =? i)%N) (q_list (w_q x)) <= 1) ->
  (forall k i, cnt (fun y => ev_eqb y (w, k, i)) ev' = cnt (fun e => fired k e && (q_id e =? i)%N) (q_list (w_q x))) ->
  (forall v k i, v <> w -> cnt (fun y => ev_eqb y (v, k, i)) ev' = cnt (fun y => ev_eqb y (v, k, i)) (evs s)) ->
  (forall c, cnt (is_reply c) (q_list (w_q x)) + pend u' (c, (w, None)) = cnt (is_reply c) (Q s w) + pend u (c, (w, None))) ->
  (forall c r, r <> (w, None) -> pend u' (c, r) = pend u (c, r)) ->
  (forall c r, u' = Some (c, r) -> u = Some (c, r) \/ r = (w, None)) ->
  inv t' u' (with_evs (with_w s w x) ev').
Proof.
  intros I L Hn0 Ha Hi Hn He Hv Hl Hu Hu2.
  assert (Wk : forall v, worker (with_evs (with_w s w x) ev') v = if v =? w then x else worker s v).
  { intros v. change (worker (with_evs (with_w s w x) ev') v) with (worker (with_w s w x) v). rewrite worker_upd. apply Nat.ltb_lt in L. rewrite L, andb_true_r. reflexivity. }
  assert (Qw : forall v, Q (with_evs (with_w s w x) ev') v = if v =? w then q_list (w_q x) else Q s v) by (intros v; unfold Q; rewrite Wk; destruct (v =? w); reflexivity).
  assert (Cy : forall c, Carry c t' (with_evs (with_w s w x) ev') = Carry c t s).
  { intros c. unfold Carry, inF. cbn [with_evs with_w hands lost fly]. change (Qs c (with_evs (with_w s w x) ev')) with (Qs c (with_w s w x)). assert (X := Qs_upd s w x c L). specialize (Ha c). lia. }
  destruct I as [A1 A2 A3 A4 A5 A6 A7 A8 A9 A10 A11]. constructor.
  - intros c. rewrite Cy. apply A1.
  - intros c H. rewrite Cy. apply A2. exact H.
  - intros v e H. rewrite Qw in H. rewrite Wk. destruct (v =? w); [apply Hi; exact H|apply A3; exact H].
  - intros v i. rewrite Qw. destruct (v =? w); auto.
  - intros v k i. rewrite Qw. cbn [with_evs evs]. destruct (Nat.eqb_spec v w) as [->|N]; [apply He|]. rewrite Hv by exact N. apply A5.
  - intros v e H. rewrite Qw in H. rewrite Wk. destruct (v =? w); [intros K; apply (Hi e H); exact K|eapply A6; eauto].
  - intros v e H. rewrite Qw in H. destruct (v =? w); [apply Hi; exact H|eapply A7; eauto].
  - intros c v f H. change (running (with_evs (with_w s w x) ev') f v c) with (running s f v c). apply A8. destruct H as [H|[H|H]]; [auto|auto|]. destruct (Hu2 _ _ H) as [X|X]; [auto|discriminate].
  - intros c r H. cbn [with_evs with_w wks]. rewrite upd_length. destruct H as [H|[H|H]]; [apply (A9 c); auto|apply (A9 c); auto|]. destruct (Hu2 _ _ H) as [X|X]; [apply (A9 c); auto|subst r; exact L].
  - intros c r. specialize (A10 c r). cbn [with_evs with_w added fly told gone]. change (command (with_evs (with_w s w x) ev') c) with (command s c).
    assert (X : wait_reply (with_evs (with_w s w x) ev') c r + pend u' (c, r) = wait_reply s c r + pend u (c, r)); [|lia].
    unfold wait_reply. destruct r as [v [f|]]; cbn [fst snd]; [rewrite Hu by discriminate; reflexivity|]. rewrite Qw. destruct (Nat.eqb_spec v w) as [->|N]; [apply Hl|]. rewrite Hu by congruence. reflexivity.
  - cbn [with_evs with_w lost]. intros H. destruct (A11 H) as (v & Lv & Nv). exists v. split; [cbn [with_evs with_w wks]; rewrite upd_length; exact Lv|]. rewrite Wk. destruct (Nat.eqb_spec v w) as [->|N]; [|exact Nv]. destruct (w_norm x) eqn:E; [rewrite (Hn0 eq_refl) in Nv; discriminate|reflexivity].
Qed.

Definition room (s : sys) (w : nat) : Prop := (q_cnt (w_q (worker s w)) + 1 < 2 ^ 32)%N.
Lemma next_id_plain n : (n + 1 < 2 ^ 32)%N -> next_id n = (n + 1)%N.
Proof. intros H. unfold next_id. cbv zeta. rewrite N.mod_small by exact H. destruct (N.eqb_spec (n + 1) 0) as [E|E]; [destruct n; discriminate|reflexivity]. Qed.
Lemma ev_eqb_mine w k i v k' i' : ev_eqb (w, k, i) (v, k', i') = (w =? v) && evk_eqb k k' && (i =? i')%N. Proof. reflexivity. Qed.
Lemma no_big_id t u s w i : inv t u s -> (q_cnt (w_q (worker s w)) < i)%N -> cnt (fun e => (q_id e =? i)%N) (Q s w) = 0.
Proof. intros I H. apply cnt_zero. intros e He. assert (X := v_id _ _ _ I w e He). apply N.eqb_neq. lia. Qed.

(* a command in the hands of the framework goes into a queue *)
Lemma push_ok u s w c k : inv (Some c) u s -> w < length (wks s) -> room s w -> k = KSubmit \/ (k = KPost /\ w_loop (worker s w) = true) ->
  let (q, id) := push (w_q (worker s w)) c k in
  inv None u (with_evs (set_q s w q) (evs s ++ match k with KSubmit => [(w, EvSubmit, id)] | _ => [] end)).
Proof.
  intros I L Rm K. unfold push. assert (Ek : (if kind_eqb k KNone then q_dflt (w_q (worker s w)) else k) = k) by (destruct K as [->|(-> & _)]; reflexivity). rewrite Ek. rewrite next_id_plain by exact Rm.
  set (id := (q_cnt (w_q (worker s w)) + 1)%N). unfold set_q. cbv zeta. assert (Z := no_big_id _ _ s w id I ltac:(unfold id; lia)).
  eapply inv_w; [exact I|exact L|..]; cbn [w_q w_norm w_loop q_list q_cnt].
  - auto.
  - intros d. fold (Q s w). rewrite cnt_app, cnt_cons, cnt_nil. unfold actq at 2. cbn [q_cmd q_kind tok]. destruct K as [->|(-> & _)]; cbn [kind_eqb negb]; rewrite andb_true_r; lia.
  - intros e He. fold (Q s w) in He. apply in_app_or in He. destruct He as [He|[<-|[]]].
    + assert (X := v_id _ _ _ I w e He). split; [unfold id; lia|]. split; [eapply v_kind; eauto|]. intros E. eapply v_post; eauto.
    + cbn [q_id q_kind]. split; [unfold id; lia|]. destruct K as [->|(-> & Kl)]; split; try discriminate; auto.
  - intros i. fold (Q s w). rewrite cnt_app, cnt_cons, cnt_nil. cbn [q_id]. destruct (N.eqb_spec id i) as [<-|N]; cbn [b2n]; [lia|]. assert (X := v_nodup _ _ _ I w i). lia.
  - intros k' i. fold (Q s w). rewrite !cnt_app, cnt_cons, cnt_nil, (v_ev _ _ _ I w k' i). f_equal. unfold fired. cbn [q_kind q_id]. destruct K as [->|(-> & _)].
    + rewrite cnt_cons, cnt_nil, ev_eqb_mine, Nat.eqb_refl. destruct k'; reflexivity.
    + destruct k'; reflexivity.
  - intros v k' i N. rewrite cnt_app. destruct K as [->|(-> & _)]; [|rewrite cnt_nil; lia]. rewrite cnt_cons, cnt_nil, ev_eqb_mine. destruct (Nat.eqb_spec w v); [congruence|]. cbn [andb b2n]. lia.
  - intros d. fold (Q s w). rewrite cnt_app, cnt_cons, cnt_nil. unfold is_reply at 2. cbn [q_cmd q_kind]. destruct K as [->|(-> & _)]; cbn [kind_eqb]; rewrite andb_false_r; cbn [b2n]; lia.
  - reflexivity.
  - auto.
Qed.
Lemma with_evs_same s : with_evs s (evs s) = s. Proof. destruct s; reflexivity. Qed.
(* Assign: a record and a caller *)
Lemma assign_ok s w c : inv None None s -> w < length (wks s) -> room s w -> has c (hands s) = true ->
  inv None None (add_caller (set_q s w (fst (push (w_q (worker s w)) c KAssign))) c (w, None)).
Proof.
  intros I L Rm Hh. set (s1 := set_q s w (fst (push (w_q (worker s w)) c KAssign))).
  assert (I1 : inv None None s1).
  { unfold s1, push. cbn [kind_eqb fst]. rewrite next_id_plain by exact Rm. set (id := (q_cnt (w_q (worker s w)) + 1)%N). assert (Z := no_big_id _ _ s w id I ltac:(unfold id; lia)). rewrite <- (with_evs_same (set_q s w _)). unfold set_q. cbv zeta.
    eapply inv_w; [exact I|exact L|..]; cbn [w_q w_norm w_loop q_list q_cnt with_w evs].
    - auto.
    - intros d. fold (Q s w). rewrite cnt_app, cnt_cons, cnt_nil. unfold actq at 2. cbn [q_cmd q_kind kind_eqb negb]. rewrite andb_false_r. cbn [b2n]. lia.
    - intros e He. fold (Q s w) in He. apply in_app_or in He. destruct He as [He|[<-|[]]].
      + assert (X := v_id _ _ _ I w e He). split; [unfold id; lia|]. split; [eapply v_kind; eauto|]. intros E. eapply v_post; eauto.
      + cbn [q_id q_kind]. split; [unfold id; lia|]. split; discriminate.
    - intros i. fold (Q s w). rewrite cnt_app, cnt_cons, cnt_nil. cbn [q_id]. destruct (N.eqb_spec id i) as [<-|N]; cbn [b2n]; [lia|]. assert (X := v_nodup _ _ _ I w i). lia.
    - intros k' i. fold (Q s w). rewrite cnt_app, cnt_cons, cnt_nil, (v_ev _ _ _ I w k' i). unfold fired at 3. cbn [q_kind]. destruct k'; cbn [kind_eqb andb b2n]; lia.
    - reflexivity.
    - intros d. fold (Q s w). rewrite cnt_app, cnt_cons, cnt_nil. unfold is_reply at 2. cbn [q_cmd q_kind kind_eqb]. rewrite andb_false_r. cbn [b2n pend]. lia.
    - reflexivity.
    - auto. }
  assert (Hc : hn c (hands s1) > 0) by (apply hn_has; exact Hh). assert (L1 : w < length (wks s1)) by (unfold s1, set_q; cbn [with_w wks]; rewrite upd_length; exact L). clearbody s1.
  assert (Cl : c < length (cmds s1)). { assert (X := v_carry _ _ _ I1 c). unfold Carry in X. destruct (Nat.ltb_spec c (length (cmds s1))); [assumption|cbn [b2n] in X; lia]. }
  unfold add_caller. cbv zeta. set (s2 := with_log _ _ _ _).
  assert (M : forall d, c_call (command s2 d) = if d =? c then (w, None) :: c_call (command s1 c) else c_call (command s1 d)).
  { intros d. change (command s2 d) with (command (set_call s1 c ((w, None) :: c_call (command s1 c))) d). rewrite call_set. apply Nat.ltb_lt in Cl. rewrite Cl, andb_true_r. reflexivity. }
  assert (Cy : forall d, Carry d None s2 = Carry d None s1) by reflexivity.
  destruct I1 as [A1 A2 A3 A4 A5 A6 A7 A8 A9 A10 A11]. constructor; auto.
  - intros d. rewrite Cy. unfold s2, set_call. cbn [with_log with_c cmds]. rewrite upd_length. apply A1.
  - intros d H. rewrite Cy. rewrite M in H. destruct (Nat.eqb_spec d c) as [Ed|N]; [|apply A2; exact H]. subst d. specialize (A1 c). apply Nat.ltb_lt in Cl. rewrite Cl in A1. unfold Carry in *. cbn [b2n] in A1. lia.
  - intros d v f H. rewrite M in H. change (running s2 f v d) with (running s1 f v d). apply A8. destruct H as [H|[H|H]]; [|auto|discriminate]. left. destruct (Nat.eqb_spec d c) as [Ed|N]; [subst d; destruct H as [H|H]; [discriminate|exact H]|exact H].
  - intros d r H. rewrite M in H. change (length (wks s2)) with (length (wks s1)). destruct H as [H|[H|H]]; [|eapply A9; right; left; exact H|discriminate]. destruct (Nat.eqb_spec d c) as [Ed|N]; [subst d; destruct H as [<-|H]; [exact L1|]|]; eapply A9; left; exact H.
  - intros d r. specialize (A10 d r). rewrite M. change (wait_reply s2 d r) with (wait_reply s1 d r). change (fly s2) with (fly s1). change (told s2) with (told s1). change (gone s2) with (gone s1).
    assert (Ea : added s2 = (c, (w, None)) :: added s1) by reflexivity. rewrite Ea, cnt_cons. unfold call_eqb at 1. cbn [fst snd]. destruct (Nat.eqb_spec d c) as [Ed|N].
    + subst d. rewrite Nat.eqb_refl. cbn [andb]. rewrite cnt_cons. lia.
    + destruct (Nat.eqb_spec c d); [congruence|]. cbn [andb b2n]. lia.
Qed.

Lemma erase_in p l : forall e r x, erase p l = Some (e, r) -> In x l -> x = e \/ In x r.
Proof.
  induction l as [|y l IH]; intros e r x H Hx; [discriminate|]. cbn [erase] in H. destruct (p y).
  - injection H as <- <-. destruct Hx as [<-|Hx]; auto.
  - destruct (erase p l) as [[z r']|]; [|discriminate]. injection H as <- <-. destruct Hx as [<-|Hx]; [right; left; reflexivity|]. destruct (IH _ _ x eq_refl Hx) as [->|Hx']; [left; reflexivity|right; right; exact Hx'].
Qed.
Definition oc (o : option qrec) (p : qrec -> bool) : nat := match o with Some e => b2n (p e) | None => 0 end.
Definition is_asg (o : option qrec) : Prop := match o with Some e => q_kind e = KAssign | None => True end.
Lemma in_change_kind c k l : forall t r, change_kind c k l = Some (t, r) -> In (mkQ c k t) r.
Proof.
  induction l as [|x l IH]; intros t r H; [discriminate|]. cbn [change_kind] in H. destruct (q_cmd x =? c); [injection H as <- <-; left; reflexivity|].
  destruct (change_kind c k l) as [[y r']|]; [|discriminate]. injection H as <- <-. right. apply IH. reflexivity.
Qed.
Lemma no_act u s c w : inv (Some c) u s -> forall e, In e (Q s w) -> q_cmd e = c -> q_kind e = KAssign.
Proof.
  intros I e He E. assert (X := v_carry _ _ _ I c). unfold Carry in X. cbn [tok] in X. rewrite Nat.eqb_refl in X. assert (Y := Q_le s w c). assert (B : b2n (c <? length (cmds s)) <= 1) by (destruct (_ <? _); cbn; lia). cbn [b2n] in X.
  assert (Z : cnt (actq c) (Q s w) = 0) by lia. rewrite cnt_zero in Z. specialize (Z e He). unfold actq in Z. apply Nat.eqb_eq in E. rewrite E in Z. cbn [andb] in Z. destruct (kind_eqb_spec (q_kind e) KAssign); [assumption|discriminate].
Qed.
Lemma chkind_shape u s w c q id : inv (Some c) u s -> room s w -> chkind (w_q (worker s w)) c KReply = (q, id) ->
  In (mkQ c KReply id) (q_list q) /\ (q_cnt (w_q (worker s w)) <= q_cnt q)%N /\ (1 <= id <= q_cnt q)%N /\
  (forall x, In x (q_list q) -> x = mkQ c KReply id \/ In x (Q s w)) /\
  (forall i, cnt (fun e => (q_id e =? i)%N) (q_list q) <= 1) /\
  exists o, is_asg o /\ forall p, cnt p (q_list q) + oc o p = cnt p (Q s w) + b2n (p (mkQ c KReply id)).
Proof.
  intros I Rm H. unfold chkind in H. fold (Q s w) in H. destruct (change_kind c KReply (Q s w)) as [[t r]|] eqn:E.
  - injection H as <- <-. cbn [q_list q_cnt]. destruct (change_kind_split _ _ _ _ _ E) as (e & He & Ec & Ei & Hs & Hc). assert (Ki := no_act _ _ _ w I e He Ec). assert (Xi := v_id _ _ _ I w e He).
    split; [eapply in_change_kind; eauto|]. split; [lia|]. split; [lia|]. split; [exact Hs|]. split.
    + intros i. specialize (Hc (fun e => (q_id e =? i)%N)). cbn [q_id] in Hc. rewrite Ei in Hc. assert (X := v_nodup _ _ _ I w i). lia.
    + exists (Some e). split; [exact Ki|]. intros p. cbn [oc]. apply Hc.
  - unfold push in H. cbn [kind_eqb] in H. rewrite next_id_plain in H by exact Rm. injection H as <- <-. cbn [q_list q_cnt]. fold (Q s w).
    split; [apply in_or_app; right; left; reflexivity|]. split; [lia|]. split; [lia|]. split; [intros x Hx; apply in_app_or in Hx; destruct Hx as [Hx|[<-|[]]]; auto|]. split.
    + intros i. rewrite cnt_app, cnt_cons, cnt_nil. cbn [q_id]. destruct (N.eqb_spec (q_cnt (w_q (worker s w)) + 1) i) as [<-|N]; cbn [b2n]; [rewrite (no_big_id _ _ s w _ I) by lia; lia|]. assert (X := v_nodup _ _ _ I w i). lia.
    + exists None. split; [exact Logic.I|]. intros p. rewrite cnt_app, cnt_cons, cnt_nil. cbn [oc]. lia.
Qed.
Lemma oc_zero o p : is_asg o -> (forall e, q_kind e = KAssign -> p e = false) -> oc o p = 0.
Proof. intros A H. destruct o as [e|]; [|reflexivity]. cbn. rewrite (H e A). reflexivity. Qed.
Lemma asg_actq c e : q_kind e = KAssign -> actq c e = false. Proof. intros H. unfold actq. rewrite H. apply andb_false_r. Qed.
Lemma asg_fired k i e : q_kind e = KAssign -> fired k e && (q_id e =? i)%N = false. Proof. intros H. unfold fired. rewrite H. destruct k; reflexivity. Qed.
Lemma asg_reply c e : q_kind e = KAssign -> is_reply c e = false. Proof. intros H. unfold is_reply. rewrite H. apply andb_false_r. Qed.

Lemma call_eqb_refl x : call_eqb x x = true. Proof. unfold call_eqb. rewrite Nat.eqb_refl, clr_eqb_refl. reflexivity. Qed.
Lemma call_eqb_spec a b : reflect (a = b) (call_eqb a b).
Proof. destruct a as [x f], b as [y g]. unfold call_eqb. cbn [fst snd]. destruct (Nat.eqb_spec x y), (clr_eqb_spec f g); constructor; congruence. Qed.
(* GetCommandReply when the worker works *)
Lemma accept_ok s w c q id : inv (Some c) (Some (c, (w, None))) s -> w < length (wks s) -> room s w -> chkind (w_q (worker s w)) c KReply = (q, id) ->
  inv None None (with_evs (set_q s w q) (evs s ++ [(w, EvReply, id)])).
Proof.
  intros I L Rm E. destruct (chkind_shape _ _ _ _ _ _ I Rm E) as (Hin & Hcn & Hid & Hsub & Hnd & o & Ho & Hc). unfold set_q. cbv zeta.
  eapply inv_w; [exact I|exact L|..]; cbn [w_q w_norm w_loop].
  - auto.
  - intros d. specialize (Hc (actq d)). rewrite (oc_zero o) in Hc by (auto using asg_actq). unfold actq at 3 in Hc. cbn [q_cmd q_kind kind_eqb negb] in Hc. rewrite andb_true_r in Hc. cbn [tok]. lia.
  - intros e He. destruct (Hsub e He) as [->|H]; [cbn [q_id q_kind]; split; [exact Hid|split; discriminate]|]. assert (X := v_id _ _ _ I w e H). split; [lia|]. split; [eapply v_kind; eauto|intros K; eapply v_post; eauto].
  - exact Hnd.
  - intros k i. rewrite cnt_app, cnt_cons, cnt_nil, (v_ev _ _ _ I w k i). specialize (Hc (fun e => fired k e && (q_id e =? i)%N)). rewrite (oc_zero o) in Hc by (auto using asg_fired). rewrite ev_eqb_mine, Nat.eqb_refl. unfold fired at 3 in Hc. cbn [q_kind q_id] in Hc. cbn [andb]. destruct k; cbn [evk_eqb kind_eqb andb] in *; lia.
  - intros v k i N. rewrite cnt_app, cnt_cons, cnt_nil, ev_eqb_mine. destruct (Nat.eqb_spec w v); [congruence|]. cbn [andb b2n]. lia.
  - intros d. specialize (Hc (is_reply d)). rewrite (oc_zero o) in Hc by (auto using asg_reply). unfold is_reply at 3 in Hc. cbn [q_cmd q_kind kind_eqb] in Hc. rewrite andb_true_r in Hc. cbn [pend]. unfold call_eqb. cbn [fst snd]. rewrite clr_eqb_refl, andb_true_r. lia.
  - intros d r N. cbn [pend]. destruct (call_eqb_spec (c, (w, None)) (d, r)); [congruence|reflexivity].
  - discriminate.
Qed.
(* ... and when it does not: the record disappears again *)
Lemma refuse_ok s w c q id q2 x : inv (Some c) (Some (c, (w, None))) s -> w < length (wks s) -> room s w -> chkind (w_q (worker s w)) c KReply = (q, id) -> pop_id q id = (q2, x) ->
  inv (Some c) (Some (c, (w, None))) (set_q s w q2).
Proof.
  intros I L Rm E P. destruct (chkind_shape _ _ _ _ _ _ I Rm E) as (Hin & Hcn & Hid & Hsub & Hnd & o & Ho & Hc).
  unfold pop_id, take in P. destruct (erase (fun e => (q_id e =? id)%N) (q_list q)) as [[e r]|] eqn:Er.
  2: { assert (X := erase_none _ _ Er _ Hin). cbn in X. rewrite N.eqb_refl in X. discriminate. }
  injection P as <- <-. destruct (erase_split _ _ _ _ Er) as (Pe & Ie & Hsr & Hcr). apply N.eqb_eq in Pe.
  assert (Ee : e = mkQ c KReply id).
  { destruct (erase_in _ _ _ _ _ Er Hin) as [X|X]; [auto|]. exfalso. specialize (Hnd id). rewrite Hcr in Hnd. rewrite (proj2 (N.eqb_eq _ _) Pe) in Hnd. cbn [b2n] in Hnd.
    assert (Y : 0 < cnt (fun e => (q_id e =? id)%N) r) by (apply cnt_pos; eexists; split; [exact X|apply N.eqb_refl]). lia. }
  subst e. assert (Hq : forall p, cnt p r + oc o p = cnt p (Q s w)) by (intros p; specialize (Hc p); rewrite Hcr in Hc; lia).
  rewrite <- (with_evs_same (set_q s w _)). unfold set_q. cbv zeta.
  eapply inv_w; [exact I|exact L|..]; cbn [w_q w_norm w_loop q_list q_cnt with_w evs].
  - auto.
  - intros d. specialize (Hq (actq d)). rewrite (oc_zero o) in Hq by (auto using asg_actq). lia.
  - intros e He. destruct (Hsub e (Hsr e He)) as [->|H]; [cbn [q_id q_kind]; split; [exact Hid|split; discriminate]|]. assert (X := v_id _ _ _ I w e H). split; [lia|]. split; [eapply v_kind; eauto|intros K; eapply v_post; eauto].
  - intros i. specialize (Hnd i). rewrite Hcr in Hnd. lia.
  - intros k i. rewrite (v_ev _ _ _ I w k i). specialize (Hq (fun e => fired k e && (q_id e =? i)%N)). rewrite (oc_zero o) in Hq by (auto using asg_fired). lia.
  - reflexivity.
  - intros d. specialize (Hq (is_reply d)). rewrite (oc_zero o) in Hq by (auto using asg_reply). lia.
  - reflexivity.
  - auto.
Qed.
Lemma fly_take s n c r : inv None None s -> nth_error (fly s) n = Some (c, r) -> inv (Some c) (Some (c, r)) (with_fly s (remove_nth n (fly s))).
Proof.
  intros I E. assert (Hin : In (c, r) (fly s)) by (eapply nth_error_In; eauto).
  assert (Cy : forall d, Carry d (Some c) (with_fly s (remove_nth n (fly s))) = Carry d None s).
  { intros d. unfold Carry, inF. cbn [with_fly hands lost fly tok]. change (Qs d (with_fly s (remove_nth n (fly s)))) with (Qs d s). assert (X := cnt_remove_nth (fun x => fst x =? d) _ _ _ E). cbn [fst] in X. lia. }
  destruct I as [A1 A2 A3 A4 A5 A6 A7 A8 A9 A10 A11]. constructor; auto.
  - intros d. rewrite Cy. apply A1.
  - intros d H. rewrite Cy. apply A2. exact H.
  - intros d w f H. apply A8. destruct H as [H|[H|H]]; [left; exact H|right; left; eapply in_remove_nth; exact H|]. injection H as <- ->. right. left. exact Hin.
  - intros d x H. apply (A9 d). destruct H as [H|[H|H]]; [left; exact H|right; left; eapply in_remove_nth; exact H|]. injection H as <- ->. right. left. exact Hin.
  - intros d x. specialize (A10 d x). assert (X := cnt_remove_nth (fun y => call_eqb y (d, x)) _ _ _ E). cbn [with_fly added fly told gone pend] in *. change (command (with_fly s (remove_nth n (fly s))) d) with (command s d). change (wait_reply (with_fly s (remove_nth n (fly s))) d x) with (wait_reply s d x). lia.
Qed.
Lemma notify_ok s c r : inv (Some c) (Some (c, r)) s -> room s (fst r) -> exists s', notify s c r = Ok s' /\ inv None None s'.
Proof.
  intros I Rm. assert (L := v_wk _ _ _ I c r (or_intror (or_intror eq_refl))). destruct r as [w [f|]]; cbn [fst] in *; unfold notify; cbn [fst snd]; cbv zeta.
  - assert (R := v_sync _ _ _ I c w f (or_intror (or_intror eq_refl))). rewrite R. destruct (w_thr (worker s w) && w_act (worker s w)); (eexists; split; [reflexivity|]).
    + exact (to_hand _ _ _ (log_told _ _ _ _ I)).
    + apply pop_call_ok. apply log_gone. exact I.
  - destruct (chkind (w_q (worker s w)) c KReply) as [q id] eqn:E. destruct (w_thr (worker s w) && w_act (worker s w)).
    + eexists; split; [reflexivity|]. eapply accept_ok; eauto.
    + destruct (pop_id q id) as [q2 x] eqn:P. eexists; split; [reflexivity|]. apply pop_call_ok.
      exact (log_gone _ _ _ _ (refuse_ok _ _ _ _ _ _ _ I L Rm E P)).
Qed.

(* workers: flags and the commands in processing *)
Lemma inv_flags t u s w x : inv t u s -> w < length (wks s) -> w_q x = w_q (worker s w) -> (w_norm x = true -> w_norm (worker s w) = true) ->
  (w_loop x = false -> forall e, In e (Q s w) -> q_kind e <> KPost) -> inv t u (with_w s w x).
Proof.
  intros I L Eq En El. rewrite <- (with_evs_same (with_w s w x)). cbn [with_w evs].
  eapply inv_w; [exact I|exact L|..]; rewrite ?Eq; fold (Q s w).
  - exact En.
  - reflexivity.
  - intros e He. split; [eapply v_id; eauto|]. split; [eapply v_kind; eauto|]. intros K. destruct (w_loop x); [reflexivity|]. destruct (El eq_refl e He K).
  - apply (v_nodup _ _ _ I).
  - intros k i. apply (v_ev _ _ _ I).
  - reflexivity.
  - reflexivity.
  - reflexivity.
  - auto.
Qed.
Lemma out_w s w x : length (wks s) <= w -> with_w s w x = s.
Proof. intros L. unfold with_w. rewrite upd_beyond by exact L. destruct s; reflexivity. Qed.
Lemma flags_ok s w t a n : inv None None s -> (n = true -> w_norm (worker s w) = true) -> inv None None (set_flags s w t a n).
Proof.
  intros I Hn. unfold set_flags. cbv zeta. destruct (Nat.lt_ge_cases w (length (wks s))) as [L|L]; [|rewrite out_w by exact L; exact I].
  apply inv_flags; auto. cbn [w_loop]. intros E e He K. rewrite (v_post _ _ _ I w e He K) in E. discriminate.
Qed.
Lemma run_set_ok t u s w st l : inv t u s -> (l = false -> forall e, In e (Q s w) -> q_kind e <> KPost) -> inv t u (set_run s w st l).
Proof.
  intros I Hl. unfold set_run. cbv zeta. destruct (Nat.lt_ge_cases w (length (wks s))) as [L|L]; [|rewrite out_w by exact L; exact I].
  apply inv_flags; auto.
Qed.
Lemma run_same_ok t u s w st : inv t u s -> inv t u (set_run s w st (w_loop (worker s w))).
Proof. intros I. apply run_set_ok; [exact I|]. intros E e He K. rewrite (v_post _ _ _ I w e He K) in E. discriminate. Qed.
Lemma process_ok s w c : inv (Some c) None s -> w < length (wks s) -> room s w -> w_loop (worker s w) = true -> inv None None (process s w c).
Proof.
  intros I L Rm Lp. unfold process. cbv zeta. destruct (w_norm (worker s w)) eqn:En; cbn [negb]; [|eapply lose_ok; eauto].
  destruct (c_cancel (command s c)); [apply reply_ok; exact I|]. destruct (negb (match w_stack (worker s w) with [] => true | _ => false end) && negb (last_sync (command s c))).
  - assert (X := push_ok None s w c KPost I L Rm (or_intror (conj eq_refl Lp))). destruct (push (w_q (worker s w)) c KPost) as [q id]. cbn [fst]. rewrite app_nil_r in X. change (evs s) with (evs (set_q s w q)) in X. rewrite with_evs_same in X. exact X.
  - exact (to_hand _ _ _ (run_same_ok _ _ _ w _ I)).
Qed.

(* a record is taken out of a queue *)
Lemma in_Q_len s w e : In e (Q s w) -> w < length (wks s).
Proof. intros H. destruct (Nat.lt_ge_cases w (length (wks s))) as [L|L]; [exact L|]. rewrite Q_dead in H by exact L. destruct H. Qed.
Lemma take_ok s w e r ev' : inv None None s -> In e (Q s w) -> (forall x, In x r -> In x (Q s w)) -> (forall p, cnt p (Q s w) = b2n (p e) + cnt p r) ->
  q_kind e <> KAssign -> (forall v k i, cnt (fun y => ev_eqb y (v, k, i)) ev' + b2n ((w =? v) && (fired k e && (q_id e =? i)%N)) = cnt (fun y => ev_eqb y (v, k, i)) (evs s)) ->
  inv (Some (q_cmd e)) (if kind_eqb (q_kind e) KReply then Some (q_cmd e, (w, None)) else None)
      (with_evs (set_q s w (mkCQ r (q_dflt (w_q (worker s w))) (q_cnt (w_q (worker s w))))) ev').
Proof.
  intros I He Hs Hc Ka Hv. assert (L := in_Q_len _ _ _ He). unfold set_q. cbv zeta.
  eapply inv_w; [exact I|exact L|..]; cbn [w_q w_norm w_loop q_list q_cnt].
  - auto.
  - intros d. specialize (Hc (actq d)). unfold actq at 2 in Hc. destruct (kind_eqb_spec (q_kind e) KAssign); [contradiction|]. cbn [negb] in Hc. rewrite andb_true_r in Hc. cbn [tok]. lia.
  - intros x Hx. apply Hs in Hx. split; [eapply v_id; eauto|]. split; [eapply v_kind; eauto|intros K; eapply v_post; eauto].
  - intros i. assert (X := v_nodup _ _ _ I w i). rewrite Hc in X. lia.
  - intros k i. specialize (Hv w k i). rewrite Nat.eqb_refl, (v_ev _ _ _ I w k i), Hc in Hv. cbn [andb] in Hv. lia.
  - intros v k i N. specialize (Hv v k i). destruct (Nat.eqb_spec w v); [congruence|]. cbn [andb b2n] in Hv. lia.
  - intros d. specialize (Hc (is_reply d)). unfold is_reply at 2 in Hc. destruct (kind_eqb (q_kind e) KReply); cbn [pend]; rewrite ?andb_true_r, ?andb_false_r in Hc; [unfold call_eqb; cbn [fst snd]; rewrite clr_eqb_refl, andb_true_r|cbn [b2n] in Hc]; lia.
  - intros d x N. destruct (kind_eqb (q_kind e) KReply); cbn [pend]; [|reflexivity]. destruct (call_eqb_spec (q_cmd e, (w, None)) (d, x)); [congruence|reflexivity].
  - intros d x H. right. destruct (kind_eqb (q_kind e) KReply); [congruence|discriminate].
Qed.
Lemma deliver_finds s n w k id : inv None None s -> nth_error (evs s) n = Some (w, k, id) ->
  exists e r, pop_id (w_q (worker s w)) id = (mkCQ r (q_dflt (w_q (worker s w))) (q_cnt (w_q (worker s w))), Some e) /\ fired k e = true /\ In e (Q s w) /\
  inv (Some (q_cmd e)) (match k with EvReply => Some (q_cmd e, (w, None)) | EvSubmit => None end)
      (with_evs (set_q s w (mkCQ r (q_dflt (w_q (worker s w))) (q_cnt (w_q (worker s w))))) (remove_nth n (evs s))).
Proof.
  intros I E. assert (Hin : In (w, k, id) (evs s)) by (eapply nth_error_In; eauto). assert (Er : ev_eqb (w, k, id) (w, k, id) = true) by (unfold ev_eqb; cbn [fst snd]; rewrite Nat.eqb_refl, N.eqb_refl; destruct k; reflexivity).
  assert (P : 0 < cnt (fun e => fired k e && (q_id e =? id)%N) (Q s w)) by (rewrite <- (v_ev _ _ _ I); apply cnt_pos; eexists; split; [exact Hin|exact Er]).
  apply cnt_pos in P. destruct P as (e & He & Pe). apply andb_true_iff in Pe. destruct Pe as (Fe & Ie).
  unfold pop_id, take. fold (Q s w). destruct (erase (fun x => (q_id x =? id)%N) (Q s w)) as [[x r]|] eqn:Eq; [|assert (X := erase_none _ _ Eq e He); cbn in X; congruence].
  destruct (erase_split _ _ _ _ Eq) as (Px & Ix & Hs & Hc).
  assert (Ex : x = e).
  { destruct (erase_in _ _ _ _ _ Eq He) as [X|X]; [auto|]. exfalso. assert (Y := v_nodup _ _ _ I w id). rewrite Hc, Px in Y. assert (Z : 0 < cnt (fun z => (q_id z =? id)%N) r) by (apply cnt_pos; exists e; auto). cbn [b2n] in Y. lia. }
  subst x. exists e, r. split; [reflexivity|]. split; [exact Fe|]. split; [exact He|].
  assert (X : inv (Some (q_cmd e)) (if kind_eqb (q_kind e) KReply then Some (q_cmd e, (w, None)) else None)
      (with_evs (set_q s w (mkCQ r (q_dflt (w_q (worker s w))) (q_cnt (w_q (worker s w))))) (remove_nth n (evs s)))).
  { apply take_ok; auto.
    - intros K. unfold fired in Fe. rewrite K in Fe. destruct k; discriminate.
    - intros v k' i. rewrite <- (cnt_remove_nth _ _ _ _ E). f_equal. rewrite ev_eqb_mine. apply N.eqb_eq in Ie. rewrite Ie. rewrite <- andb_assoc. f_equal. f_equal. f_equal. unfold fired in *. destruct k, k'; cbn [evk_eqb]; auto; destruct (q_kind e); try discriminate; reflexivity. }
  unfold fired in Fe. destruct k; destruct (kind_eqb_spec (q_kind e) KReply) as [Ek|Ek]; auto; [rewrite Ek in Fe; discriminate|]. destruct (kind_eqb_spec (q_kind e) KReply); [contradiction|discriminate].
Qed.
Lemma next_takes s w : inv None None s ->
  (exists e r, pop_kind (w_q (worker s w)) KPost = (mkCQ r (q_dflt (w_q (worker s w))) (q_cnt (w_q (worker s w))), Some e) /\ q_kind e = KPost /\ w < length (wks s) /\
    inv (Some (q_cmd e)) None (set_q s w (mkCQ r (q_dflt (w_q (worker s w))) (q_cnt (w_q (worker s w)))))) \/
  (pop_kind (w_q (worker s w)) KPost = (w_q (worker s w), None) /\ forall e, In e (Q s w) -> q_kind e <> KPost).
Proof.
  intros I. unfold pop_kind, take. fold (Q s w). destruct (erase (fun x => kind_eqb (q_kind x) KPost) (Q s w)) as [[e r]|] eqn:E.
  - left. destruct (erase_split _ _ _ _ E) as (Px & Ix & Hs & Hc). destruct (kind_eqb_spec (q_kind e) KPost) as [K|]; [|discriminate]. exists e, r. split; [reflexivity|]. split; [exact K|]. split; [eapply in_Q_len; eauto|].
    assert (X := take_ok s w e r (evs s) I Ix Hs Hc). rewrite K in X. cbn [kind_eqb] in X. change (evs s) with (evs (set_q s w (mkCQ r (q_dflt (w_q (worker s w))) (q_cnt (w_q (worker s w)))))) in X at 3. rewrite with_evs_same in X. apply X; [discriminate|].
    intros v k i. unfold fired. rewrite K. destruct k; cbn [kind_eqb andb]; rewrite andb_false_r; cbn [b2n]; lia.
  - right. split; [reflexivity|]. intros e He K. assert (X := erase_none _ _ E e He). cbn in X. rewrite K in X. discriminate.
Qed.

(* callers *)
Lemma hands_len s c : inv None None s -> has c (hands s) = true -> c < length (cmds s) /\ Carry c None s = 1.
Proof.
  intros I H. assert (Hc := hn_has _ _ H). assert (X := v_carry _ _ _ I c). unfold Carry in *. destruct (Nat.ltb_spec c (length (cmds s))); cbn [b2n] in X; lia.
Qed.
Lemma add_sync_ok s w f c : inv None None s -> w < length (wks s) -> has c (hands s) = true ->
  inv None None (with_sync (add_caller s c (w, Some f)) ((f, w, c) :: sync (add_caller s c (w, Some f)))).
Proof.
  intros I L Hh. destruct (hands_len _ _ I Hh) as (Cl & C1). unfold add_caller. cbv zeta. set (s2 := with_sync _ _).
  assert (M : forall d, c_call (command s2 d) = if d =? c then (w, Some f) :: c_call (command s c) else c_call (command s d)).
  { intros d. change (command s2 d) with (command (set_call s c ((w, Some f) :: c_call (command s c))) d). rewrite call_set. apply Nat.ltb_lt in Cl. rewrite Cl, andb_true_r. reflexivity. }
  assert (Cy : forall d, Carry d None s2 = Carry d None s) by reflexivity.
  assert (Rn : forall f' v d, running s f' v d = true -> running s2 f' v d = true).
  { intros f' v d H. unfold running in *. change (sync s2) with ((f, w, c) :: sync s). cbn [existsb]. rewrite H. apply orb_true_r. }
  destruct I as [A1 A2 A3 A4 A5 A6 A7 A8 A9 A10 A11]. constructor; auto.
  - intros d. rewrite Cy. unfold s2, set_call. cbn [with_sync with_log with_c cmds]. rewrite upd_length. apply A1.
  - intros d H. rewrite Cy. rewrite M in H. destruct (Nat.eqb_spec d c) as [Ed|N]; [subst d; exact C1|apply A2; exact H].
  - intros d v g H. rewrite M in H. destruct H as [H|[H|H]]; [|apply Rn; apply A8; right; left; exact H|discriminate]. destruct (Nat.eqb_spec d c) as [Ed|N]; [subst d; destruct H as [H|H]|].
    + injection H as <- <-. unfold running. change (sync s2) with ((f, w, c) :: sync s). cbn [existsb]. destruct (trip_eqb_spec (f, w, c) (f, w, c)); [reflexivity|congruence].
    + apply Rn, A8. left. exact H.
    + apply Rn, A8. left. exact H.
  - intros d r H. rewrite M in H. change (length (wks s2)) with (length (wks s)). destruct H as [H|[H|H]]; [|eapply A9; right; left; exact H|discriminate]. destruct (Nat.eqb_spec d c) as [Ed|N]; [subst d; destruct H as [<-|H]; [exact L|]|]; eapply A9; left; exact H.
  - intros d r. specialize (A10 d r). rewrite M. change (wait_reply s2 d r) with (wait_reply s d r). change (fly s2) with (fly s). change (told s2) with (told s). change (gone s2) with (gone s).
    assert (Ea : added s2 = (c, (w, Some f)) :: added s) by reflexivity. rewrite Ea, cnt_cons. unfold call_eqb at 1. cbn [fst snd]. destruct (Nat.eqb_spec d c) as [Ed|N].
    + subst d. rewrite Nat.eqb_refl. cbn [andb]. rewrite cnt_cons. lia.
    + destruct (Nat.eqb_spec c d); [congruence|]. cbn [andb b2n]. lia.
Qed.
Lemma cnt_part {A} (p h : A -> bool) l : cnt p l = cnt p (filter (fun x => negb (h x)) l) + cnt p (filter h l).
Proof. unfold cnt. induction l as [|x l IH]; cbn [filter sumf]; [reflexivity|]. destruct (h x); cbn [negb filter sumf]; lia. Qed.
Definition hit (w : nat) (f : option nat) (r : clr) : bool := (fst r =? w) && match f with None => true | Some _ => clr_eqb r (w, f) end.
Lemma remove_calls s c w f d : c_call (command (remove_caller s c w f) d) = if d =? c then filter (fun r => negb (hit w f r)) (c_call (command s c)) else c_call (command s d).
Proof.
  change (command (remove_caller s c w f) d) with (command (set_call s c (filter (fun r => negb (hit w f r)) (c_call (command s c)))) d). rewrite call_set. destruct (Nat.eqb_spec d c) as [->|N]; cbn [andb]; [|reflexivity].
  destruct (Nat.ltb_spec c (length (cmds s))) as [L|L]; [reflexivity|]. unfold command. rewrite nth_overflow by exact L. reflexivity.
Qed.
Lemma remove_caller_ok s c w f : inv None None s -> inv None None (remove_caller s c w f).
Proof.
  intros I. set (s2 := remove_caller s c w f). assert (M := remove_calls s c w f). fold s2 in M.
  assert (Cy : forall d, Carry d None s2 = Carry d None s) by reflexivity.
  assert (Sub : forall d r, In r (c_call (command s2 d)) -> In r (c_call (command s d))).
  { intros d r H. rewrite M in H. destruct (Nat.eqb_spec d c) as [->|N]; [apply filter_In in H; apply H|exact H]. }
  destruct I as [A1 A2 A3 A4 A5 A6 A7 A8 A9 A10 A11]. constructor; auto.
  - intros d. rewrite Cy. unfold s2, remove_caller, set_call. cbv zeta. cbn [with_log with_c cmds]. rewrite upd_length. apply A1.
  - intros d H. rewrite Cy. apply A2. intros E. apply H. destruct (c_call (command s2 d)) as [|r l] eqn:X; [reflexivity|]. specialize (Sub d r). rewrite X, E in Sub. destruct (Sub (or_introl eq_refl)).
  - intros d v g H. apply A8. destruct H as [H|H]; [left; apply Sub; exact H|right; exact H].
  - intros d r H. apply (A9 d). destruct H as [H|H]; [left; apply Sub; exact H|right; exact H].
  - intros d r. specialize (A10 d r). rewrite M. change (wait_reply s2 d r) with (wait_reply s d r). change (fly s2) with (fly s). change (told s2) with (told s). change (added s2) with (added s).
    assert (Eg : gone s2 = map (fun r => (c, r)) (filter (hit w f) (c_call (command s c))) ++ gone s) by reflexivity. rewrite Eg, cnt_app, cnt_map. destruct (Nat.eqb_spec d c) as [Ed|N].
    + subst d. rewrite (cnt_part (fun x => clr_eqb x r) (hit w f) (c_call (command s c))) in A10.
      assert (X : cnt (fun x => call_eqb (c, x) (c, r)) (filter (hit w f) (c_call (command s c))) = cnt (fun x => clr_eqb x r) (filter (hit w f) (c_call (command s c)))) by (apply cnt_ext; intros x _; unfold call_eqb; cbn [fst snd]; rewrite Nat.eqb_refl; reflexivity). lia.
    + assert (X : cnt (fun x => call_eqb (c, x) (d, r)) (filter (hit w f) (c_call (command s c))) = 0) by (apply cnt_zero; intros x _; unfold call_eqb; cbn [fst snd]; destruct (Nat.eqb_spec c d); [congruence|reflexivity]). lia.
Qed.
Lemma remove_sync_ok s c w f : inv None None s -> existsb (fun x => (fst x =? c) && clr_eqb (snd x) (w, Some f)) (fly s) = false ->
  inv None None (with_sync (remove_caller s c w (Some f)) (filter (fun x => negb (trip_eqb (f, w, c) x)) (sync (remove_caller s c w (Some f))))).
Proof.
  intros I Hf. assert (I2 := remove_caller_ok s c w (Some f) I). assert (M := remove_calls s c w (Some f)). assert (Fl : fly (remove_caller s c w (Some f)) = fly s) by reflexivity. rewrite <- Fl in Hf. set (s1 := remove_caller s c w (Some f)) in *.
  assert (No : ~ In (w, Some f) (c_call (command s1 c))).
  { rewrite M, Nat.eqb_refl. intros H. apply filter_In in H. destruct H as (_ & H). unfold hit in H. cbn [fst] in H. rewrite Nat.eqb_refl, clr_eqb_refl in H. discriminate. }
  assert (Nf : ~ In (c, (w, Some f)) (fly s1)).
  { intros H. apply Bool.not_true_iff_false in Hf. apply Hf. apply existsb_exists. eexists. split; [exact H|]. cbn [fst snd]. rewrite Nat.eqb_refl, clr_eqb_refl. reflexivity. }
  clearbody s1. clear M I Fl. destruct I2 as [A1 A2 A3 A4 A5 A6 A7 A8 A9 A10 A11]. constructor; auto.
  intros d v g H. assert (R : running s1 g v d = true) by (apply A8; exact H). unfold running in *. cbn [with_sync sync]. apply existsb_exists in R. destruct R as (x & Hx & Ex). apply existsb_exists. exists x. split; [|exact Ex]. apply filter_In. split; [exact Hx|].
  destruct (trip_eqb_spec (g, v, d) x) as [<-|]; [|discriminate]. destruct (trip_eqb_spec (f, w, c) (g, v, d)) as [E|]; [|reflexivity]. injection E as <- <- <-. destruct H as [H|[H|H]]; [destruct (No H)|destruct (Nf H)|discriminate].
Qed.
Lemma new_ok s : inv None None s ->
  inv None None (with_hands (mkSy (cmds s ++ [mkC [] None false]) (wks s) (evs s) (hands s) (fly s) (sync s) (lost s) (added s) (told s) (gone s)) (length (cmds s) :: hands s)).
Proof.
  intros I. set (s2 := with_hands _ _).
  assert (M : forall d, c_call (command s2 d) = c_call (command s d)).
  { intros d. change (command s2 d) with (nth d (cmds s ++ [mkC [] None false]) (mkC [] None false)). unfold command. destruct (Nat.lt_ge_cases d (length (cmds s))) as [L|L]; [rewrite app_nth1 by exact L; reflexivity|]. rewrite app_nth2, (nth_overflow (cmds s)) by exact L. destruct (d - length (cmds s)) as [|[|?]]; reflexivity. }
  assert (Cy : forall d, Carry d None s2 = b2n (length (cmds s) =? d) + Carry d None s).
  { intros d. unfold Carry, hn. change (hands s2) with (length (cmds s) :: hands s). rewrite cnt_cons. change (Qs d s2) with (Qs d s). change (inF d s2) with (inF d s). change (lost s2) with (lost s). lia. }
  destruct I as [A1 A2 A3 A4 A5 A6 A7 A8 A9 A10 A11]. constructor; auto.
  - intros d. rewrite Cy. change (cmds s2) with (cmds s ++ [mkC [] None false]). rewrite app_length. cbn [length]. specialize (A1 d). destruct (Nat.ltb_spec d (length (cmds s))), (Nat.ltb_spec d (length (cmds s) + 1)), (Nat.eqb_spec (length (cmds s)) d); cbn [b2n] in *; lia.
  - intros d H. rewrite M in H. rewrite Cy, (A2 d H). assert (L := call_len _ _ H). destruct (Nat.eqb_spec (length (cmds s)) d); [lia|reflexivity].
  - intros d w f H. rewrite M in H. apply A8. exact H.
  - intros d r H. rewrite M in H. apply (A9 d). exact H.
  - intros d r. rewrite M. apply A10.
Qed.
(* cleanup of a worker: all that is left are assigned commands *)
Lemma clean_ok l : forall s w, inv None None s -> (forall e, In e l -> q_kind e = KAssign) -> inv None None (clean_loop l s w).
Proof.
  induction l as [|e l IH]; intros s w I H; cbn [clean_loop]; [exact I|]. rewrite (H e (or_introl eq_refl)). apply IH; [apply remove_caller_ok; exact I|]. intros x Hx. apply H. right. exact Hx.
Qed.
Lemma empty_ok s w : inv None None s -> w < length (wks s) -> (forall e, In e (Q s w) -> q_kind e = KAssign) ->
  inv None None (set_q s w (mkCQ [] (q_dflt (w_q (worker s w))) (q_cnt (w_q (worker s w))))).
Proof.
  intros I L H. rewrite <- (with_evs_same (set_q s w _)). unfold set_q. cbv zeta.
  eapply inv_w; [exact I|exact L|..]; cbn [w_q w_norm w_loop q_list q_cnt with_w evs]; auto.
  - intros c. rewrite cnt_nil. rewrite (proj2 (cnt_zero _ _)); [reflexivity|]. intros e He. apply asg_actq. auto.
  - intros e [].
  - intros k i. rewrite (v_ev _ _ _ I w k i), cnt_nil. apply cnt_zero. intros e He. apply asg_fired. auto.
  - intros c. rewrite cnt_nil. rewrite (proj2 (cnt_zero _ _)); [reflexivity|]. intros e He. apply asg_reply. auto.
Qed.

(* events only at workers with thread *)
Definition inv2 (s : sys) : Prop := forall x, In x (evs s) -> w_thr (worker s (fst (fst x))) = true.
Definition fr (s s' : sys) : Prop := evs s' = evs s /\ forall w, w_thr (worker s' w) = w_thr (worker s w) /\ q_cnt (w_q (worker s' w)) = q_cnt (w_q (worker s w)).
Definition grow (s s' : sys) : Prop := forall w, (q_cnt (w_q (worker s' w)) <= q_cnt (w_q (worker s w)) + 1)%N.
Definition keepthr (s s' : sys) : Prop := forall w, w_thr (worker s' w) = w_thr (worker s w).
Lemma fr_refl s : fr s s. Proof. split; auto. Qed.
Lemma fr_trans a b c : fr a b -> fr b c -> fr a c.
Proof. intros (E1 & H1) (E2 & H2). split; [congruence|]. intros w. destruct (H1 w), (H2 w). split; congruence. Qed.
Lemma fr_inv2 s s' : fr s s' -> inv2 s -> inv2 s'.
Proof. intros (E & H) I x Hx. rewrite E in Hx. rewrite (proj1 (H _)). apply I. exact Hx. Qed.
Lemma fr_grow s s' : fr s s' -> grow s s'.
Proof. intros (E & H) w. rewrite (proj2 (H w)). lia. Qed.
Lemma fr_wks s s' : evs s' = evs s -> wks s' = wks s -> fr s s'.
Proof. intros E W. split; [exact E|]. intros w. unfold worker. rewrite W. auto. Qed.
Lemma fr_pop s c : fr s (pop_call s c). Proof. unfold pop_call. destruct (c_call (command s c)); apply fr_wks; reflexivity. Qed.
Lemma fr_reply s c r : fr s (reply s c r).
Proof. unfold reply. destruct (0 <=? r)%Z; [|apply fr_pop]. eapply fr_trans; [|apply fr_pop]. apply fr_wks; reflexivity. Qed.
Lemma fr_with_w s w x : w_thr x = w_thr (worker s w) -> q_cnt (w_q x) = q_cnt (w_q (worker s w)) -> fr s (with_w s w x).
Proof. intros T C. split; [reflexivity|]. intros v. rewrite worker_upd. destruct (Nat.eqb_spec v w) as [->|N]; cbn [andb]; [|auto]. destruct (w <? _); auto. Qed.
Lemma next_id_le n : (next_id n <= n + 1)%N.
Proof. unfold next_id. cbv zeta. destruct (N.eqb_spec ((n + 1) mod 2 ^ 32) 0); [lia|]. apply N.mod_le. discriminate. Qed.
Lemma push_thr s w c k : keepthr s (set_q s w (fst (push (w_q (worker s w)) c k))) /\ grow s (set_q s w (fst (push (w_q (worker s w)) c k))).
Proof.
  split; intros v; unfold set_q; cbv zeta; rewrite worker_upd; destruct (Nat.eqb_spec v w) as [->|N]; cbn [andb]; try (destruct (w <? _)); cbn [w_thr w_q push fst q_cnt]; try reflexivity; try lia. apply next_id_le.
Qed.
Lemma grow_fr a b c : grow a b -> fr b c -> grow a c.
Proof. intros G (_ & H) w. rewrite (proj2 (H w)). apply G. Qed.
Lemma fr_grow_l a b c : fr a b -> grow b c -> grow a c.
Proof. intros (_ & H) G w. specialize (G w). rewrite (proj2 (H w)) in G. exact G. Qed.
Lemma process_fr s w c : (inv2 s -> inv2 (process s w c)) /\ grow s (process s w c).
Proof.
  unfold process. cbv zeta. destruct (negb (w_norm _)); [split; [apply fr_inv2|apply fr_grow]; apply fr_wks; reflexivity|].
  destruct (c_cancel _); [split; [apply fr_inv2|apply fr_grow]; apply fr_reply|]. destruct (_ && _).
  - destruct (push_thr s w c KPost) as (T & G). split; [|exact G]. intros I x Hx. rewrite T. apply I. exact Hx.
  - assert (F : fr s (with_hands (set_run s w (c :: w_stack (worker s w)) (w_loop (worker s w))) (c :: hands s))).
    { apply fr_trans with (b := set_run s w (c :: w_stack (worker s w)) (w_loop (worker s w))); [apply fr_with_w; reflexivity|]. apply fr_wks; reflexivity. }
    split; [apply fr_inv2|apply fr_grow]; exact F.
Qed.
Lemma clean_fr l : forall s w, fr s (clean_loop l s w).
Proof.
  induction l as [|e l IH]; intros s w; cbn [clean_loop]; [apply fr_refl|]. eapply fr_trans; [|apply IH]. destruct (q_kind e); try (apply fr_wks; reflexivity). eapply fr_trans; [|apply fr_reply]. apply fr_wks; reflexivity.
Qed.

Lemma notify_fr s c r s' : inv2 s -> notify s c r = Ok s' -> inv2 s' /\ grow s s'.
Proof.
  intros I2 H. unfold notify in H. cbv zeta in H. destruct r as [w [f|]]; cbn [fst snd] in H.
  - destruct (w_thr (worker s w) && w_act (worker s w)).
    + destruct (running s f w c); [|discriminate]. injection H as <-. split; [eapply fr_inv2; [|exact I2]|apply fr_grow]; apply fr_wks; reflexivity.
    + injection H as <-. assert (F : fr s (pop_call (with_log s (added s) (told s) ((c, (w, Some f)) :: gone s)) c)) by (eapply fr_trans; [|apply fr_pop]; apply fr_wks; reflexivity). split; [eapply fr_inv2; [exact F|exact I2]|apply fr_grow; exact F].
  - destruct (chkind (w_q (worker s w)) c KReply) as [q id] eqn:E.
    assert (Cq : (q_cnt q <= q_cnt (w_q (worker s w)) + 1)%N).
    { unfold chkind in E. destruct (change_kind c KReply (q_list (w_q (worker s w)))) as [[t l]|]; [injection E as <- <-; cbn [q_cnt]; lia|]. unfold push in E. injection E as <- <-. cbn [q_cnt]. apply next_id_le. }
    assert (T : forall q2, keepthr s (set_q s w q2)) by (intros q2 v; unfold set_q; cbv zeta; rewrite worker_upd; destruct (Nat.eqb_spec v w) as [->|N]; cbn [andb]; [destruct (w <? _)|]; reflexivity).
    assert (G : forall q2, (q_cnt q2 <= q_cnt (w_q (worker s w)) + 1)%N -> grow s (set_q s w q2)) by (intros q2 Hq v; unfold set_q; cbv zeta; rewrite worker_upd; destruct (Nat.eqb_spec v w) as [->|N]; cbn [andb]; [destruct (w <? _)|]; cbn [w_q]; lia).
    destruct (w_thr (worker s w)) eqn:Et; cbn [andb] in H.
    + destruct (w_act (worker s w)).
      * injection H as <-. split; [|apply G; exact Cq]. intros x Hx. change (worker (with_evs (set_q s w q) (evs s ++ [(w, EvReply, id)])) (fst (fst x))) with (worker (set_q s w q) (fst (fst x))). rewrite T. cbn [with_evs evs] in Hx. apply in_app_or in Hx. destruct Hx as [Hx|[<-|[]]]; [apply I2; exact Hx|exact Et].
      * destruct (pop_id q id) as [q2 x] eqn:P. injection H as <-. assert (Cp : q_cnt q2 = q_cnt q) by (unfold pop_id, take in P; destruct (erase _ _) as [[? ?]|]; injection P as <- <-; reflexivity).
        split; [|eapply grow_fr; [apply (G q2); lia|]; eapply fr_trans; [|apply fr_pop]; apply fr_wks; reflexivity].
        apply (fr_inv2 (set_q s w q2)); [eapply fr_trans; [|apply fr_pop]; apply fr_wks; reflexivity|]. intros y Hy. rewrite T. apply I2. exact Hy.
    + destruct (pop_id q id) as [q2 x] eqn:P. injection H as <-. assert (Cp : q_cnt q2 = q_cnt q) by (unfold pop_id, take in P; destruct (erase _ _) as [[? ?]|]; injection P as <- <-; reflexivity).
      split; [|eapply grow_fr; [apply (G q2); lia|]; eapply fr_trans; [|apply fr_pop]; apply fr_wks; reflexivity].
      apply (fr_inv2 (set_q s w q2)); [eapply fr_trans; [|apply fr_pop]; apply fr_wks; reflexivity|]. intros y Hy. rewrite T. apply I2. exact Hy.
Qed.
Lemma set_q_thr s w q : keepthr s (set_q s w q).
Proof. intros v. unfold set_q. cbv zeta. rewrite worker_upd. destruct (Nat.eqb_spec v w) as [->|N]; cbn [andb]; [destruct (w <? _)|]; reflexivity. Qed.

Definition good (s : sys) : Prop := inv None None s /\ inv2 s.
Lemma fr_good s s' : inv2 s -> inv None None s' -> fr s s' -> good s' /\ grow s s'.
Proof. intros I2 I F. split; [split; [exact I|eapply fr_inv2; eauto]|apply fr_grow; exact F]. Qed.
Lemma step_ok s o : good s -> (forall w, room s w) -> exists s', step true s o = Ok s' /\ good s' /\ grow s s'.
Proof.
  intros (I & I2) Rm. assert (Stay : good s /\ grow s s) by (split; [split; assumption|apply fr_grow; apply fr_refl]).
  destruct o; unfold step.
  - eexists; split; [reflexivity|]. apply fr_good; [exact I2|apply new_ok; exact I|apply fr_wks; reflexivity].
  - destruct (w <? length (wks s)) eqn:L; cbn [andb]; [|exists s; auto]. apply Nat.ltb_lt in L. destruct (has c (hands s)) eqn:Hh; cbn [andb]; [|exists s; auto]. destruct (w_thr (worker s w)) eqn:Et; [|exists s; auto].
    eexists; split; [reflexivity|]. destruct (push_thr s w c KAssign) as (T & G). split; [split; [apply assign_ok; auto|]|].
    + intros x Hx. change (evs _) with (evs s) in Hx. change (worker (add_caller _ c (w, None)) (fst (fst x))) with (worker (set_q s w (fst (push (w_q (worker s w)) c KAssign))) (fst (fst x))). rewrite T. apply I2. exact Hx.
    + exact G.
  - destruct (w <? length (wks s)) eqn:L; cbn [andb]; [|exists s; auto]. apply Nat.ltb_lt in L. destruct (has c (hands s)) eqn:Hh; cbn [andb]; [|exists s; auto]. destruct (negb (running s f w c)); [|exists s; auto].
    cbv zeta. eexists; split; [reflexivity|]. apply fr_good; [exact I2|apply add_sync_ok; auto|apply fr_wks; reflexivity].
  - destruct (w <? length (wks s)) eqn:L; cbn [andb]; [|exists s; auto]. apply Nat.ltb_lt in L. destruct (has c (hands s)) eqn:Hh; [|exists s; auto]. cbv zeta. assert (It := take_hand None s c I Hh). set (s1 := with_hands s (remove1 c (hands s))) in *.
    assert (F1 : fr s s1) by (apply fr_wks; reflexivity). change (worker s1 w) with (worker s w). destruct (w_thr (worker s w)) eqn:Et; cbn [andb]; [destruct (w_act (worker s w) || magic)|].
    + assert (X := push_ok None s1 w c KSubmit It L (Rm w) (or_introl eq_refl)). change (worker s1 w) with (worker s w) in X. assert (TG := push_thr s w c KSubmit). destruct (push (w_q (worker s w)) c KSubmit) as [q id]. cbn [fst] in TG. destruct TG as (T & G). eexists; split; [reflexivity|]. split; [split; [exact X|]|exact G].
      intros x Hx. cbn [with_evs evs] in Hx. change (worker (with_evs (set_q s1 w q) _) (fst (fst x))) with (worker (set_q s w q) (fst (fst x))). rewrite T. apply in_app_or in Hx. destruct Hx as [Hx|[<-|[]]]; [apply I2; exact Hx|exact Et].
    + eexists; split; [reflexivity|]. apply fr_good; [exact I2|apply reply_ok; exact It|eapply fr_trans; [exact F1|apply fr_reply]].
    + eexists; split; [reflexivity|]. apply fr_good; [exact I2|apply reply_ok; exact It|eapply fr_trans; [exact F1|apply fr_reply]].
  - destruct (has c (hands s)) eqn:Hh; [|exists s; auto]. eexists; split; [reflexivity|]. apply fr_good; [exact I2|apply reply_ok; apply take_hand; auto|]. eapply fr_trans; [|apply fr_reply]. apply fr_wks; reflexivity.
  - eexists; split; [reflexivity|]. apply fr_good; [exact I2|unfold set_cancel; cbv zeta; apply inv_cmd; [exact I|reflexivity]|apply fr_wks; reflexivity].
  - cbn [andb]. destruct (running s f w c); cbn [andb]; [|exists s; auto]. destruct (existsb (fun x => (fst x =? c) && clr_eqb (snd x) (w, Some f)) (fly s)) eqn:Ef; cbn [negb]; [exists s; auto|]. cbv zeta. eexists; split; [reflexivity|]. apply fr_good; [exact I2|apply remove_sync_ok; assumption|apply fr_wks; reflexivity].
  - destruct (nth_error (fly s) n) as [[c r]|] eqn:E; [|exists s; auto]. assert (It := fly_take _ _ _ _ I E). set (s1 := with_fly s (remove_nth n (fly s))) in *. assert (F1 : fr s s1) by (apply fr_wks; reflexivity).
    destruct (notify_ok s1 c r It (Rm _)) as (s' & Es & I'). exists s'. split; [exact Es|]. destruct (notify_fr _ _ _ _ (fr_inv2 _ _ F1 I2) Es) as (I2' & G). split; [split; assumption|eapply fr_grow_l; eauto].
  - destruct (nth_error (evs s) n) as [[[w k] id]|] eqn:E; [|exists s; auto]. destruct (w_loop (worker s w) && is_nil (w_stack (worker s w))); [exists s; auto|].
    destruct (deliver_finds _ _ _ _ _ I E) as (e & r & Ep & Fe & Hin & It). rewrite Ep. cbv zeta. set (q := mkCQ r (q_dflt (w_q (worker s w))) (q_cnt (w_q (worker s w)))) in *. set (s1 := with_evs (set_q s w q) (remove_nth n (evs s))) in *. assert (Lw := in_Q_len _ _ _ Hin).
    assert (I2a : inv2 s1). { intros x Hx. change (worker s1 (fst (fst x))) with (worker (set_q s w q) (fst (fst x))). rewrite set_q_thr. apply I2. eapply in_remove_nth. exact Hx. }
    assert (Cn : forall v, q_cnt (w_q (worker s1 v)) = q_cnt (w_q (worker s v))). { intros v. change (worker s1 v) with (worker (set_q s w q) v). apply (proj2 (fr_with_w s w (mkW q (w_thr (worker s w)) (w_act (worker s w)) (w_norm (worker s w)) (w_stack (worker s w)) (w_loop (worker s w))) eq_refl eq_refl)). }
    assert (L1 : w < length (wks s1)) by (unfold s1, set_q; cbn [with_evs with_w wks]; rewrite upd_length; exact Lw). clearbody s1. destruct k.
    + assert (Iu : inv (Some (q_cmd e)) None (set_run s1 w (w_stack (worker s1 w)) true)) by (apply run_set_ok; [exact It|discriminate]).
      assert (F2 : fr s1 (set_run s1 w (w_stack (worker s1 w)) true)) by (apply fr_with_w; reflexivity).
      assert (Lp : w_loop (worker (set_run s1 w (w_stack (worker s1 w)) true) w) = true) by (unfold set_run; cbv zeta; rewrite worker_upd, Nat.eqb_refl, (proj2 (Nat.ltb_lt _ _) L1); reflexivity).
      assert (L2 : w < length (wks (set_run s1 w (w_stack (worker s1 w)) true))) by (unfold set_run; cbn [with_w wks]; rewrite upd_length; exact L1).
      set (s2 := set_run s1 w (w_stack (worker s1 w)) true) in *. assert (R2 : room s2 w) by (unfold room; rewrite (proj2 (proj2 F2 w)), Cn; apply Rm).
      eexists; split; [reflexivity|]. destruct (process_fr s2 w (q_cmd e)) as (P2 & PG). split; [split; [apply process_ok; auto|apply P2; eapply fr_inv2; eauto]|]. intros v. specialize (PG v). rewrite (proj2 (proj2 F2 v)), Cn in PG. exact PG.
    + eexists; split; [reflexivity|]. assert (X := to_hand _ _ _ (log_told _ _ _ _ It)). split; [split; [exact X|]|].
      * exact I2a.
      * intros v. rewrite <- Cn. exact (N.le_add_r _ _).
  - destruct (w_stack (worker s w)) as [|c st] eqn:Est; [exists s; auto|]. destruct (res =? -3)%Z.
    + eexists; split; [reflexivity|]. apply fr_good; [exact I2|apply run_same_ok; exact I|apply fr_with_w; reflexivity].
    + destruct (has c (hands s)) eqn:Hh; [|exists s; auto]. cbv zeta. eexists; split; [reflexivity|]. assert (Ir := run_same_ok _ _ _ w st I). assert (It := take_hand None (set_run s w st (w_loop (worker s w))) c Ir Hh).
      apply fr_good; [exact I2|apply reply_ok; exact It|]. eapply fr_trans; [|apply fr_reply]. apply fr_trans with (b := set_run s w st (w_loop (worker s w))); [apply fr_with_w; reflexivity|apply fr_wks; reflexivity].
  - destruct (w_loop (worker s w)) eqn:Lp; cbn [andb]; [|exists s; auto]. destruct (is_nil (w_stack (worker s w))); [|exists s; auto]. destruct (next_takes s w I) as [(e & r & Ep & Ke & Lw & It)|(Ep & No)]; rewrite Ep.
    + eexists; split; [reflexivity|]. set (q := mkCQ r (q_dflt (w_q (worker s w))) (q_cnt (w_q (worker s w)))) in *. set (s1 := set_q s w q) in *. assert (F1 : fr s s1) by (apply fr_with_w; reflexivity).
      assert (L1 : w < length (wks s1)) by (unfold s1, set_q; cbn [with_w wks]; rewrite upd_length; exact Lw).
      assert (Lp1 : w_loop (worker s1 w) = true) by (unfold s1, set_q; cbv zeta; rewrite worker_upd, Nat.eqb_refl, (proj2 (Nat.ltb_lt _ _) Lw); exact Lp).
      assert (R1 : room s1 w) by (unfold room; rewrite (proj2 (proj2 F1 w)); apply Rm). destruct (process_fr s1 w (q_cmd e)) as (P2 & PG). split; [split; [apply process_ok; auto|apply P2; eapply fr_inv2; eauto]|eapply fr_grow_l; eauto].
    + eexists; split; [reflexivity|]. apply fr_good; [exact I2|apply run_set_ok; auto|apply fr_with_w; reflexivity].
  - cbv zeta. eexists; split; [reflexivity|]. apply fr_good; [exact I2|apply flags_ok; auto|apply fr_with_w; reflexivity].
  - cbv zeta. destruct (negb (w_act (worker s w)) && negb (w_loop (worker s w)) && is_nil (w_stack (worker s w))); cbn [andb]; [|exists s; auto]. destruct (existsb (my_event w) (evs s)) eqn:Ee; cbn [negb]; [exists s; auto|].
    eexists; split; [reflexivity|]. split; [split; [apply flags_ok; auto|]|].
    + intros x Hx. change (evs _) with (evs s) in Hx. unfold set_flags. cbv zeta. rewrite worker_upd. destruct (Nat.eqb_spec (fst (fst x)) w) as [Ew|N]; cbn [andb]; [|apply I2; exact Hx]. exfalso. apply Bool.not_true_iff_false in Ee. apply Ee. apply existsb_exists. exists x. split; [exact Hx|]. unfold my_event. apply Nat.eqb_eq. exact Ew.
    + intros v. unfold set_flags. cbv zeta. rewrite worker_upd. destruct (Nat.eqb_spec v w) as [->|N]; cbn [andb]; [destruct (w <? _)|]; cbn [w_q]; lia.
  - cbv zeta. eexists; split; [reflexivity|]. apply fr_good; [exact I2|apply flags_ok; [exact I|discriminate]|apply fr_with_w; reflexivity].
  - cbv zeta. destruct (w <? length (wks s)) eqn:L; cbn [andb]; [|exists s; auto]. apply Nat.ltb_lt in L. destruct (w_thr (worker s w)) eqn:Et; cbn [negb andb]; [exists s; auto|]. destruct (negb (w_norm (worker s w))); cbn [andb]; [|exists s; auto]. destruct (w_loop (worker s w)) eqn:Lp; cbn [negb]; [exists s; auto|].
    assert (As : forall e, In e (Q s w) -> q_kind e = KAssign).
    { intros e He. assert (Ne : forall k, fired k e = false).
      { intros k. destruct (fired k e) eqn:Fe; [|reflexivity]. exfalso. assert (P : 0 < cnt (fun x => fired k x && (q_id x =? q_id e)%N) (Q s w)) by (apply cnt_pos; exists e; split; [exact He|rewrite Fe, N.eqb_refl; reflexivity]). rewrite <- (v_ev _ _ _ I) in P. apply cnt_pos in P. destruct P as (x & Hx & Ex). specialize (I2 x Hx). unfold ev_eqb in Ex. apply andb_true_iff in Ex. destruct Ex as (Ex & _). apply andb_true_iff in Ex. destruct Ex as (Ex & _). apply Nat.eqb_eq in Ex. cbn [fst] in Ex. rewrite Ex in I2. congruence. }
      assert (X1 := Ne EvSubmit). assert (X2 := Ne EvReply). assert (X3 := v_kind _ _ _ I w e He). assert (X4 := v_post _ _ _ I w e He). unfold fired in *. destruct (q_kind e); try discriminate; try congruence. rewrite (X4 eq_refl) in Lp. discriminate. }
    eexists; split; [reflexivity|]. apply fr_good; [exact I2|apply clean_ok; [apply empty_ok; auto|exact As]|]. apply fr_trans with (b := set_q s w (mkCQ [] (q_dflt (w_q (worker s w))) (q_cnt (w_q (worker s w))))); [apply fr_with_w; reflexivity|apply clean_fr].
Qed.
Lemma nth_repeat_lt {A} (x d : A) n : forall i, i < n -> nth i (repeat x n) d = x.
Proof. induction n as [|n IH]; intros [|i] H; cbn; try lia; [reflexivity|]. apply IH. lia. Qed.
Lemma init_ok n : good (init n).
Proof.
  assert (Wk : forall w, Q (init n) w = []).
  { intros w. unfold Q, worker, init. cbn [wks]. destruct (Nat.lt_ge_cases w n) as [L|L]; [rewrite nth_repeat_lt by exact L|rewrite nth_overflow by (rewrite repeat_length; exact L)]; reflexivity. }
  assert (Cm : forall c, c_call (command (init n) c) = []) by (intros c; unfold command, init; cbn [cmds]; destruct c; reflexivity).
  split; [|intros x []]. constructor.
  - intros c. unfold Carry, Qs, inF, hn, init. cbn [hands wks fly lost tok]. rewrite !cnt_nil. assert (X : sumf (fun x => cnt (actq c) (q_list (w_q x))) (repeat new_wk n) = 0) by (apply sumf_zero; apply Forall_forall; intros x Hx; apply repeat_spec in Hx; subst x; reflexivity). rewrite X. cbn. lia.
  - intros c H. rewrite Cm in H. destruct H. reflexivity.
  - intros w e H. rewrite Wk in H. destruct H.
  - intros w i. rewrite Wk. cbn. lia.
  - intros w k i. rewrite Wk. reflexivity.
  - intros w e H. rewrite Wk in H. destruct H.
  - intros w e H. rewrite Wk in H. destruct H.
  - intros c w f [H|[H|H]]; [rewrite Cm in H; destruct H|destruct H|discriminate].
  - intros c r [H|[H|H]]; [rewrite Cm in H; destruct H|destruct H|discriminate].
  - intros c r. rewrite Cm. unfold wait_reply. rewrite Wk. destruct (snd r); reflexivity.
  - intros H. destruct H. reflexivity.
Qed.
Lemma run_ok l : forall s n, good s -> (forall w, (q_cnt (w_q (worker s w)) <= n)%N) -> (n + N.of_nat (length l) < 2 ^ 32)%N -> exists s', run true s l = Ok s' /\ good s'.
Proof.
  induction l as [|o l IH]; intros s n G Hn B; cbn [run]; [exists s; auto|]. cbn [length] in B. rewrite Nnat.Nat2N.inj_succ in B.
  assert (R : forall w, room s w) by (intros w; unfold room; specialize (Hn w); lia). destruct (step_ok s o G R) as (s1 & E & G1 & Gr). rewrite E. cbn [bind].
  apply (IH s1 (n + 1)%N G1); [intros w; specialize (Hn w); specialize (Gr w); lia|lia].
Qed.
Lemma init_run n l : (N.of_nat (length l) < 2 ^ 32)%N -> exists s', run true (init n) l = Ok s' /\ good s'.
Proof.
  intros B. apply (run_ok l (init n) 0%N); [apply init_ok| |lia]. intros w. unfold worker, init. cbn [wks]. destruct (Nat.lt_ge_cases w n) as [L|L]; [rewrite nth_repeat_lt by exact L|rewrite nth_overflow by (rewrite repeat_length; exact L)]; cbn; lia.
Qed.
