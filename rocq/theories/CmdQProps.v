(* C29: commands queue. *)
From Coq Require Import Permutation Sorting.Sorted.
From Verif Require Import Common CmdQSpec CmdQModel CmdQProofs.
Open Scope N_scope.

(* At no moment the queue holds a command which has been there during more than 2^32-1
   later pushes, and nobody asks for a command with an id that old. *)
Fixpoint fresh (k0 : kind) (s : spec) (l : list sop) : Prop :=
  Forall (fun e => sp_next s <= e_ticket e + (2 ^ 32 - 1)) (sp_list s) /\
  match l with
  | [] => True
  | o :: l => match o with SPopTicket t => t < sp_next s /\ sp_next s <= t + (2 ^ 32 - 1) | _ => True end /\ fresh k0 (fst (sstep k0 s o)) l
  end.

(* C29.  For every sequence of calls the queue behaves as the specification, with the ids as
   tickets: what Push and ChangeKind return is the id of the ticket, and exactly the same
   commands are taken out by every Pop, PopWithId, PopWithKind, Cleanup.  Needs [fresh];
   with only few commands in the queue but one of them there for 2^32-1 pushes the claim is
   false, see C29_id_reused_refuted. *)
Theorem C29_queue_refinement_partial k0 l : fresh k0 start l ->
  let (s, outs) := srun k0 start l in
  qrun (empty k0) (map conc l) = (mkCQ (map rec_of (sp_list s)) k0 (cnt_of (sp_next s)), map conc_out outs).
Proof.
  assert (G : forall l s q, R k0 s q -> ordered s -> fresh k0 s l -> let (s', outs) := srun k0 s l in qrun q (map conc l) = (mkCQ (map rec_of (sp_list s')) k0 (cnt_of (sp_next s')), map conc_out outs)).
  { clear l. induction l as [|o l IH]; intros s q Rr O F; cbn [srun map qrun].
    - destruct Rr as (A & B & C). destruct q. cbn in *. congruence.
    - cbn [fresh] in F. destruct F as (F1 & F2 & F3).
      assert (Re : recent s). { unfold recent. destruct O as (_ & O). rewrite Forall_forall in *. intros e He. split; [exact (O e He)|exact (F1 e He)]. }
      destruct (R_step k0 s q o Rr Re) as (R1 & X); [destruct o; auto|]. assert (O1 := ordered_step k0 s o O).
      destruct (sstep k0 s o) as [s1 x]. destruct (qstep q (conc o)) as [q1 y]. cbn [fst snd] in *. specialize (IH s1 q1 R1 O1 F3).
      destruct (srun k0 s1 l) as [s' outs]. rewrite IH, X. reflexivity. }
  intros F. apply G; [repeat split| |exact F]. split; constructor.
Qed.
Print Assumptions C29_queue_refinement_partial.

(* Every command pushed is in the queue or was taken out, and exactly once: the tickets of
   the commands taken out (in all calls together) and of the commands in the queue are all
   the tickets given, each one once. *)
Theorem C29_taken_once k0 l : let (s, outs) := srun k0 start l in
  Permutation (upto (sp_next s)) (tickets s outs) /\ NoDup (tickets s outs).
Proof.
  assert (H := run_tickets k0 l start [] (Permutation_refl _)). destruct (srun k0 start l) as [s outs]. cbn [app] in H. split; [exact H|]. eapply Permutation_NoDup; [exact H|].
  unfold upto. apply FinFun.Injective_map_NoDup; [|apply seq_NoDup]. intros a b E. lia.
Qed.
Print Assumptions C29_taken_once.

(* PopWithKind gives the earliest pushed command of that kind, Pop the earliest of all, and
   PopWithId the command which got the id. *)
Theorem C29_fifo k0 l o e : let s := fst (srun k0 start l) in snd (sstep k0 s o) = Taken [e] ->
  In e (sp_list s) /\
  match o with
  | SPopKind k => kind_eqb (e_kind e) k = true /\ forall x, In x (sp_list s) -> kind_eqb (e_kind x) k = true -> e_ticket e <= e_ticket x
  | SPop => forall x, In x (sp_list s) -> e_ticket e <= e_ticket x
  | SPopTicket t => e_ticket e = t
  | _ => True
  end.
Proof.
  cbv zeta. assert (O : ordered (fst (srun k0 start l))).
  { assert (G : forall l s, ordered s -> ordered (fst (srun k0 s l))).
    { clear. induction l as [|o l IH]; intros s O; cbn [srun]; [exact O|]. assert (X := ordered_step k0 s o O). destruct (sstep k0 s o) as [s1 x]. cbn [fst] in X. specialize (IH s1 X). destruct (srun k0 s1 l) as [s2 r]. exact IH. }
    apply G. split; constructor. }
  set (s := fst (srun k0 start l)) in *. clearbody s. destruct O as (O & _). intros H.
  assert (T : forall p, snd (stake s p) = Taken [e] -> In e (sp_list s) /\ p e = true /\ forall x, In x (sp_list s) -> p x = true -> e_ticket e <= e_ticket x).
  { intros p Hp. unfold stake in Hp. destruct (first p (sp_list s)) as [[x r]|] eqn:E; cbn [snd] in Hp; [|discriminate]. injection Hp as ->. apply first_split in E. destruct E as (a & b & E & _ & P & F). rewrite E in *. split; [apply in_or_app; right; left; reflexivity|]. split; [exact P|].
    intros x Hx Px. apply in_app_or in Hx. rewrite Forall_forall in F. destruct Hx as [Hx|[<-|Hx]]; [rewrite (F x Hx) in Px; discriminate|lia|].
    apply sorted_app in O. destruct O as (_ & O & _). apply StronglySorted_inv in O. destruct O as (_ & O). rewrite Forall_forall in O. specialize (O x Hx). lia. }
  destruct o; cbn [sstep] in H; try discriminate H.
  - destruct (T _ H) as (A & _ & B). split; [exact A|]. intros x Hx. apply B; auto.
  - destruct (T _ H) as (A & B & _). split; [exact A|]. apply N.eqb_eq. exact B.
  - destruct (T _ H) as (A & B & C). auto.
  - destruct (change c k (sp_list s)) as [[t r]|]; discriminate H.
  - cbn [snd] in H. injection H as ->. split; [left; reflexivity|exact I].
Qed.
Print Assumptions C29_fifo.

(* three commands, one changed from assigned to replied, taken out in different ways *)
Definition ops29 : list sop := [SPush 5 KAssign; SPush 6 KNone; SPush 7 KReply; SPopKind KReply; SPush 8 KPost; SChange 5 KReply; SPopTicket 0; SPopTicket 2; SPop; SCleanup].
Example C29_case : fresh KSubmit start ops29 /\
  snd (srun KSubmit start ops29) = [Ticket 0; Ticket 1; Ticket 2; Taken [mkE 2 7 KReply]; Ticket 3; Ticket 0; Taken [mkE 0 5 KReply]; Taken []; Taken [mkE 1 6 KSubmit]; Taken [mkE 3 8 KPost]] /\
  qrun (empty KSubmit) (map conc ops29) = (mkCQ [] KSubmit 4,
    [Id 1; Id 2; Id 3; Got [mkQ 7 KReply 3]; Id 4; Id 1; Got [mkQ 5 KReply 1]; Got []; Got [mkQ 6 KSubmit 2]; Got [mkQ 8 KPost 4]]).
Proof. split; [|split; reflexivity]. cbn. repeat split; repeat constructor; cbn; lia. Qed.

(* An id is given out again although its command is still queued, when 2^32-2 further
   commands have gone through the queue: two commands in the queue with one id. *)
Definition rounds (n : nat) : list qop := concat (repeat [Push 9 KReply; PopKind KReply] n).
Theorem C29_id_reused_refuted : exists n, q_list (fst (qrun (empty KSubmit) (Push 7 KSubmit :: rounds n ++ [Push 8 KSubmit]))) = [mkQ 7 KSubmit 1; mkQ 8 KSubmit 1].
Proof.
  assert (G : forall n c, c + N.of_nat n < 2 ^ 32 -> q_list (fst (qrun (mkCQ [mkQ 7 KSubmit 1] KSubmit c) (rounds n ++ [Push 8 KSubmit]))) = [mkQ 7 KSubmit 1; mkQ 8 KSubmit (next_id (c + N.of_nat n))]).
  { induction n as [|n IH]; intros c H.
    - change (N.of_nat 0) with 0. rewrite N.add_0_r. reflexivity.
    - unfold rounds. cbn [repeat concat app]. fold (rounds n). cbn [qrun qstep push]. cbn [q_list q_dflt q_cnt app kind_eqb]. unfold pop_kind, take. cbn [q_list erase q_kind kind_eqb got fst snd q_dflt q_cnt].
      assert (E : next_id c = c + 1) by (unfold next_id; cbv zeta; rewrite N.mod_small; [destruct (N.eqb_spec (c + 1) 0) as [Z|Z]; [destruct c; discriminate|reflexivity]|]; apply (N.le_lt_trans _ (c + N.of_nat (S n))); [lia|exact H]). rewrite E.
      assert (X : _) by (apply (IH (c + 1)); lia). destruct (qrun (mkCQ [mkQ 7 KSubmit 1] KSubmit (c + 1)) (rounds n ++ [Push 8 KSubmit])) as [q r]. cbn [fst] in *. assert (E2 : c + 1 + N.of_nat n = c + N.of_nat (S n)) by lia. rewrite <- E2. exact X. }
  assert (K : forall n, N.of_nat n = 2 ^ 32 - 2 -> q_list (fst (qrun (empty KSubmit) (Push 7 KSubmit :: rounds n ++ [Push 8 KSubmit]))) = [mkQ 7 KSubmit 1; mkQ 8 KSubmit 1]).
  { intros n Hn. cbn [qrun qstep]. unfold push at 1. cbn [empty q_list q_dflt q_cnt app kind_eqb]. change (next_id 0) with 1.
    assert (X := G n 1). rewrite Hn in X. specialize (X eq_refl). destruct (qrun (mkCQ [mkQ 7 KSubmit 1] KSubmit 1) _) as [q r]. cbn [fst] in *. rewrite X. reflexivity. }
  exists (N.to_nat (2 ^ 32 - 2)). apply K. apply N2Nat.id.
Qed.
Print Assumptions C29_id_reused_refuted.
