(* The commands queue refines its specification while ids are not reused. *)
From Coq Require Import Permutation Sorting.Sorted.
From Verif Require Import Common CmdQSpec CmdQModel.
Open Scope N_scope.

(* number of different ids *)
Definition W : N := 2 ^ 32 - 1.
Definition id_of (t : N) : N := t mod W + 1.
Definition rec_of (e : entry) : qrec := mkQ (e_cmd e) (e_kind e) (id_of (e_ticket e)).
Definition cnt_of (n : N) : N := if n =? 0 then 0 else id_of (n - 1).
Definition conc (o : sop) : qop :=
  match o with SPush c k => Push c k | SPop => Pop | SPopTicket t => PopId (id_of t) | SPopKind k => PopKind k | SChange c k => Change c k | SCleanup => Cleanup end.
Definition conc_out (x : sout) : qout := match x with Ticket t => Id (id_of t) | Taken l => Got (map rec_of l) end.

Lemma W_pos : W <> 0. Proof. discriminate. Qed.
Lemma next_id_of n : next_id (cnt_of n) = id_of n.
Proof.
  unfold next_id, cnt_of, id_of. cbv zeta. destruct (N.eqb_spec n 0) as [->|N0]; [reflexivity|]. assert (HW : 2 ^ 32 = W + 1) by reflexivity. rewrite HW.
  assert (K : n mod W = (if ((n - 1) mod W + 1 =? W)%N then 0 else (n - 1) mod W + 1)).
  { assert (A := N.div_mod (n - 1) W W_pos). assert (B := N.mod_lt (n - 1) W W_pos). destruct (N.eqb_spec ((n - 1) mod W + 1) W) as [E|E].
    - symmetry. apply (N.mod_unique n W ((n - 1) / W + 1)); [reflexivity|]. nia.
    - symmetry. apply (N.mod_unique n W ((n - 1) / W)); lia. }
  rewrite K. assert (B := N.mod_lt (n - 1) W W_pos). set (r := (n - 1) mod W) in *. clearbody r.
  destruct (N.eqb_spec (r + 1) W) as [E|E].
  - rewrite E. rewrite N.mod_same by lia. reflexivity.
  - rewrite N.mod_small by lia. destruct (N.eqb_spec (r + 1 + 1) 0); lia.
Qed.
Lemma id_inj a b n : a < n -> b < n -> n <= a + W -> n <= b + W -> id_of a = id_of b -> a = b.
Proof.
  unfold id_of. intros A B C D E. assert (E2 : a mod W = b mod W) by lia. assert (X := N.div_mod a W W_pos). assert (Y := N.div_mod b W W_pos). rewrite E2 in X.
  assert (Z := N.mod_lt b W W_pos). set (r := b mod W) in *. set (qa := a / W) in *. set (qb := b / W) in *. clearbody r qa qb. destruct (N.lt_trichotomy qa qb) as [H|[H|H]]; [|subst; lia|]; exfalso; nia.
Qed.

Definition recent (s : spec) : Prop := Forall (fun e => e_ticket e < sp_next s /\ sp_next s <= e_ticket e + W) (sp_list s).
Definition ticket_ok (s : spec) (o : sop) : Prop := match o with SPopTicket t => t < sp_next s /\ sp_next s <= t + W | _ => True end.
Definition R (k0 : kind) (s : spec) (q : cq) : Prop := q_list q = map rec_of (sp_list s) /\ q_dflt q = k0 /\ q_cnt q = cnt_of (sp_next s).

Lemma erase_first p p' l : (forall e, In e l -> p' (rec_of e) = p e) -> erase p' (map rec_of l) = match first p l with Some (e, r) => Some (rec_of e, map rec_of r) | None => None end.
Proof.
  induction l as [|e l IH]; intros H; [reflexivity|]. cbn [map erase first]. rewrite (H e (or_introl eq_refl)). destruct (p e); [reflexivity|].
  rewrite IH by (intros x Hx; apply H; right; exact Hx). destruct (first p l) as [[x r]|]; reflexivity.
Qed.
Lemma change_first c k l : change_kind c k (map rec_of l) = match change c k l with Some (t, r) => Some (id_of t, map rec_of r) | None => None end.
Proof.
  induction l as [|e l IH]; [reflexivity|]. cbn [map change_kind change rec_of q_cmd]. destruct (Nat.eqb (e_cmd e) c); [reflexivity|]. rewrite IH. destruct (change c k l) as [[t r]|]; reflexivity.
Qed.
Lemma first_split p l e r : first p l = Some (e, r) -> exists a b, l = a ++ e :: b /\ r = a ++ b /\ p e = true /\ Forall (fun x => p x = false) a.
Proof.
  revert r. induction l as [|x l IH]; intros r H; [discriminate|]. cbn [first] in H. destruct (p x) eqn:E.
  - injection H as <- <-. exists [], l. auto.
  - destruct (first p l) as [[y r']|]; [|discriminate]. injection H as <- <-. destruct (IH _ eq_refl) as (a & b & -> & -> & P & F). exists (x :: a), b. auto.
Qed.
Lemma first_none p l : first p l = None -> Forall (fun x => p x = false) l.
Proof. induction l as [|x l IH]; intros H; [constructor|]. cbn [first] in H. destruct (p x) eqn:E; [discriminate|]. destruct (first p l) as [[y r]|]; [discriminate|]. auto. Qed.
Lemma change_split c k l t r : change c k l = Some (t, r) -> exists a k1 b, l = a ++ mkE t c k1 :: b /\ r = a ++ mkE t c k :: b.
Proof.
  revert r. induction l as [|x l IH]; intros r H; [discriminate|]. cbn [change] in H. destruct (Nat.eqb_spec (e_cmd x) c) as [E|E].
  - injection H as <- <-. exists [], (e_kind x), l. destruct x; cbn in *; subst; auto.
  - destruct (change c k l) as [[y r']|]; [|discriminate]. injection H as <- <-. destruct (IH _ eq_refl) as (a & k1 & b & -> & ->). exists (x :: a), k1, b. auto.
Qed.
Lemma cleanup_all l k n f : (length l < f)%nat -> cleanup_loop f (mkCQ l k n) = (mkCQ [] k n, l).
Proof. revert l. induction f as [|f IH]; intros l H; [lia|]. cbn [cleanup_loop]. unfold pop. cbn [q_list q_dflt q_cnt]. destruct l as [|e l]; [reflexivity|]. cbn [length] in H. rewrite IH by lia. reflexivity. Qed.

Lemma R_step k0 s q o : R k0 s q -> recent s -> ticket_ok s o -> R k0 (fst (sstep k0 s o)) (fst (qstep q (conc o))) /\ snd (qstep q (conc o)) = conc_out (snd (sstep k0 s o)).
Proof.
  intros (L & D & C) Re T. destruct q as [ql qd qn]. cbn [q_list q_dflt q_cnt] in *. subst ql qd qn.
  assert (P : forall c k, R k0 (fst (spush k0 s c k)) (fst (push (mkCQ (map rec_of (sp_list s)) k0 (cnt_of (sp_next s))) c k)) /\ snd (push (mkCQ (map rec_of (sp_list s)) k0 (cnt_of (sp_next s))) c k) = id_of (sp_next s)).
  { intros c k. unfold push, spush, R. cbn [fst snd q_list q_dflt q_cnt sp_list sp_next]. rewrite next_id_of. split; [|reflexivity]. split; [rewrite map_app; reflexivity|]. split; [reflexivity|].
    unfold cnt_of. destruct (N.eqb_spec (sp_next s + 1) 0); [lia|]. f_equal. lia. }
  assert (Tk : forall p p', (forall e, In e (sp_list s) -> p' (rec_of e) = p e) -> let x := got (take (mkCQ (map rec_of (sp_list s)) k0 (cnt_of (sp_next s))) p') in R k0 (fst (stake s p)) (fst x) /\ snd x = conc_out (snd (stake s p))).
  { intros p p' Hp. cbv zeta. unfold take, stake. cbn [q_list q_dflt q_cnt]. rewrite (erase_first p p' _ Hp). destruct (first p (sp_list s)) as [[e r]|]; cbn [got fst snd conc_out map]; split; try reflexivity; repeat split; reflexivity. }
  destruct o; cbn [conc qstep sstep].
  - destruct (P c k) as (P1 & P2). destruct (push _ c k) as [q i]. cbn [fst snd] in *. subst i. split; [exact P1|reflexivity].
  - assert (X := Tk (fun _ => true) (fun _ => true) (fun _ _ => eq_refl)). cbv zeta in X. unfold take in X. unfold pop. cbn [q_list q_dflt q_cnt] in *. destruct (sp_list s) as [|e l]; exact X.
  - apply (Tk (fun e => e_ticket e =? t) (fun e => q_id e =? id_of t)). intros e He. cbn [rec_of q_id]. unfold recent in Re. rewrite Forall_forall in Re. specialize (Re e He). cbn [ticket_ok] in T.
    destruct (N.eqb_spec (e_ticket e) t) as [->|N0]; [apply N.eqb_refl|]. apply N.eqb_neq. intros E. apply N0. apply (id_inj _ _ (sp_next s)); lia.
  - apply (Tk (fun e => kind_eqb (e_kind e) k) (fun e => kind_eqb (q_kind e) k)). reflexivity.
  - unfold chkind. cbn [q_list q_dflt q_cnt]. rewrite change_first. destruct (change c k (sp_list s)) as [[t r]|]; cbn [fst snd conc_out]; [split; [repeat split; reflexivity|reflexivity]|].
    destruct (P c k) as (P1 & P2). destruct (push _ c k) as [q i]. cbn [fst snd] in *. subst i. split; [exact P1|reflexivity].
  - rewrite cleanup_all by (cbn [q_list]; lia). cbn [fst snd conc_out]. split; [repeat split; reflexivity|reflexivity].
Qed.

(* everything pushed is queued or was taken, once *)
Definition taken (x : sout) : list entry := match x with Taken l => l | Ticket _ => [] end.
Definition tickets (s : spec) (outs : list sout) : list N := map e_ticket (concat (map taken outs) ++ sp_list s).
Definition upto (n : N) : list N := map N.of_nat (seq 0 (N.to_nat n)).
Lemma upto_next n : upto (n + 1) = upto n ++ [n].
Proof. unfold upto. rewrite N.add_1_r, N2Nat.inj_succ. rewrite seq_S, map_app. cbn [map Nat.add]. rewrite N2Nat.id. reflexivity. Qed.
Lemma step_tickets k0 s o : let r := sstep k0 s o in
  (sp_next (fst r) = sp_next s /\ Permutation (map e_ticket (sp_list s)) (map e_ticket (taken (snd r) ++ sp_list (fst r)))) \/
  (sp_next (fst r) = sp_next s + 1 /\ Permutation (map e_ticket (sp_list s) ++ [sp_next s]) (map e_ticket (taken (snd r) ++ sp_list (fst r)))).
Proof.
  cbv zeta. assert (P : forall c k, let r := spush k0 s c k in sp_next (fst r) = sp_next s + 1 /\ Permutation (map e_ticket (sp_list s) ++ [sp_next s]) (map e_ticket (taken (snd r) ++ sp_list (fst r)))) by (intros c k; cbn; split; [reflexivity|]; rewrite map_app; reflexivity).
  assert (T : forall p, let r := stake s p in sp_next (fst r) = sp_next s /\ Permutation (map e_ticket (sp_list s)) (map e_ticket (taken (snd r) ++ sp_list (fst r)))).
  { intros p. unfold stake. destruct (first p (sp_list s)) as [[e r]|] eqn:E; cbn [fst snd taken sp_next sp_list app]; split; try reflexivity. apply first_split in E. destruct E as (a & b & -> & -> & _). apply Permutation_map. symmetry. apply Permutation_middle. }
  destruct o; cbn [sstep].
  - right. apply P.
  - left. apply T.
  - left. apply T.
  - left. apply T.
  - destruct (change c k (sp_list s)) as [[t r]|] eqn:E; [|right; apply P]. left. cbn [fst snd taken sp_list sp_next app]. split; [reflexivity|]. apply change_split in E. destruct E as (a & k1 & b & -> & ->). rewrite !map_app. reflexivity.
  - left. cbn [fst snd taken sp_next sp_list]. split; [reflexivity|]. rewrite app_nil_r. reflexivity.
Qed.
Lemma run_tickets k0 l : forall s pre, Permutation (upto (sp_next s)) (pre ++ map e_ticket (sp_list s)) ->
  let (s', outs) := srun k0 s l in Permutation (upto (sp_next s')) (pre ++ tickets s' outs).
Proof.
  induction l as [|o l IH]; intros s pre H; cbn [srun]; [exact H|]. assert (X := step_tickets k0 s o). cbv zeta in X. destruct (sstep k0 s o) as [s1 x]. cbn [fst snd] in X.
  assert (H1 : Permutation (upto (sp_next s1)) ((pre ++ map e_ticket (taken x)) ++ map e_ticket (sp_list s1))).
  { rewrite map_app in X. rewrite <- app_assoc. destruct X as [(-> & X)|(-> & X)].
    - rewrite H. apply Permutation_app_head. exact X.
    - rewrite upto_next, H. rewrite <- app_assoc. apply Permutation_app_head. exact X. }
  specialize (IH s1 _ H1). destruct (srun k0 s1 l) as [s' outs]. unfold tickets in *. cbn [map concat]. rewrite <- app_assoc, !map_app in IH. rewrite !map_app, <- ?app_assoc. exact IH.
Qed.

(* the queue is ordered by ticket *)
Definition ordered (s : spec) : Prop := StronglySorted (fun a b => e_ticket a < e_ticket b) (sp_list s) /\ Forall (fun e => e_ticket e < sp_next s) (sp_list s).
Lemma sorted_app {A} (P : A -> A -> Prop) a b : StronglySorted P (a ++ b) <-> StronglySorted P a /\ StronglySorted P b /\ (forall x y, In x a -> In y b -> P x y).
Proof.
  induction a as [|x a IH]; cbn [app]; [split; [intros H; split; [constructor|]; split; [exact H|intros ? ? []]|intros (_ & H & _); exact H]|].
  split.
  - intros H. apply StronglySorted_inv in H. destruct H as (H1 & H2). apply IH in H1. destruct H1 as (H1 & H3 & H4). apply Forall_app in H2. destruct H2 as (H2 & H5). split; [constructor; assumption|]. split; [assumption|].
    rewrite Forall_forall in H5. intros u v [<-|Hu] Hv; auto.
  - intros (H1 & H2 & H3). apply StronglySorted_inv in H1. destruct H1 as (H1 & H4). constructor; [apply IH; split; [exact H1|]; split; [exact H2|]; intros u v Hu Hv; apply H3; [right|]; assumption|].
    apply Forall_app. split; [exact H4|]. apply Forall_forall. intros v Hv. apply H3; [left; reflexivity|exact Hv].
Qed.
Lemma ordered_step k0 s o : ordered s -> ordered (fst (sstep k0 s o)).
Proof.
  intros (O1 & O2).
  assert (P : forall c k, ordered (fst (spush k0 s c k))).
  { intros c k. cbn. split; cbn [sp_list sp_next].
    - apply sorted_app. split; [exact O1|]. split; [repeat constructor|]. intros x y Hx [<-|[]]. rewrite Forall_forall in O2. exact (O2 x Hx).
    - apply Forall_app. split; [eapply Forall_impl; [|exact O2]; cbn; intros; lia|]. repeat constructor. cbn [e_ticket]. lia. }
  assert (T : forall p, ordered (fst (stake s p))).
  { intros p. unfold stake. destruct (first p (sp_list s)) as [[e r]|] eqn:E; [|split; assumption]. apply first_split in E. destruct E as (a & b & E & -> & _). rewrite E in *. split; cbn [fst sp_list sp_next].
    - apply sorted_app in O1. destruct O1 as (A & B & C). apply StronglySorted_inv in B. apply sorted_app. split; [exact A|]. split; [apply B|]. intros x y Hx Hy. apply C; [exact Hx|right; exact Hy].
    - apply Forall_app in O2. destruct O2 as (A & B). apply Forall_cons_iff in B. apply Forall_app. split; [exact A|apply B]. }
  destruct o; cbn [sstep]; auto.
  - destruct (change c k (sp_list s)) as [[t r]|] eqn:E; [|apply P]. apply change_split in E. destruct E as (a & k1 & b & E & ->). rewrite E in *. split; cbn [fst sp_list sp_next].
    + apply sorted_app in O1. destruct O1 as (A & B & C). apply StronglySorted_inv in B. destruct B as (B1 & B2). apply sorted_app. split; [exact A|]. split; [constructor; [exact B1|exact B2]|].
      intros x y Hx [<-|Hy]; [exact (C x _ Hx (or_introl eq_refl))|apply C; [exact Hx|right; exact Hy]].
    + apply Forall_app in O2. destruct O2 as (A & B). apply Forall_cons_iff in B. destruct B as (B1 & B2). apply Forall_app. split; [exact A|]. constructor; assumption.
  - split; constructor.
Qed.
