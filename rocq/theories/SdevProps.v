(* C85: an ordered connection is answered once, its transport gets the socket of the protocol
   which named it, and no record is used after its end. *)
From Coq Require Import Sorting.Permutation.
From Verif Require Import Common ListFacts Bytes SdevSpec SdevModel SdevProofs.
Local Open Scope N_scope.

(* each order either waits or is answered, and is answered once *)
Theorem C85_answers l d : run l start = Ok d ->
  Permutation (seq 0 (length (ordered l))) (map fst (d_recs d) ++ map fst (d_ans d)) /\
  forall r id, In (r, id) (d_recs d) -> nth_error (ordered l) r = Some id.
Proof. intros H. apply run_inv in H. split; [rewrite <- (v_n _ _ H); apply (v_perm _ _ H)|apply (v_ids _ _ H)]. Qed.
Print Assumptions C85_answers.

(* success is told for the orders which got a transport, and for no others; an order gets one at
   most, with the socket of a client connected for its id and accepted by the server, or of one
   whose request has its id *)
Theorem C85_transport l d : run l start = Ok d ->
  (forall r, In (r, true) (d_ans d) <-> In r (map fst (d_made d))) /\ NoDup (map fst (d_made d)) /\
  forall r p, In (r, p) (d_made d) -> exists id, nth_error (ordered l) r = Some id /\
    ((exists m, In (Request p m) l /\ names m = Ok (Some id)) \/ In (Connected id) l /\ exists mk, In (Reply p true mk) l).
Proof.
  intros H. apply run_inv in H. split; [apply (v_true _ _ H)|]. split; [apply (v_once _ _ H)|].
  intros r p M. destruct (v_made _ _ H r p M) as [(id & E & F)|((id & E & F) & G)]; exists id; auto.
Qed.
Print Assumptions C85_transport.

(* no record is used after its end, if each id is used by one protocol only, the requests are
   written completely, and orders with a protocol do not expire or fail *)
Theorem C85_safe_partial l :
  NoDup (flat_map (fun v => match v with Connected id => [id] | Request _ m => match names m with Ok (Some id) => [id] | _ => [] end | _ => [] end) l) ->
  (forall p m, In (Request p m) l -> exists i, names m = Ok i) ->
  (forall id v, In (Failed id) l -> In v l -> v <> Connected id /\ forall p m, v = Request p m -> names m <> Ok (Some id)) ->
  (forall r id v, In (Expire r) l -> nth_error (ordered l) r = Some id -> In v l -> v <> Connected id /\ forall p m, v = Request p m -> names m <> Ok (Some id)) ->
  exists d, run l start = Ok d.
Proof.
  intros H1 H2 H3 H4. assert (A : forall id, (forall v, In v l -> v <> Connected id /\ forall p m, v = Request p m -> names m <> Ok (Some id)) -> ~ In id (attached l)).
  { intros id H N. apply in_flat_map in N as (v & Hv & N). destruct (H v Hv) as (D1 & D2). destruct v as [i|i|i| |p|p m|p mk|p ok mk|p|r]; try contradiction; cbn [attaches] in N.
    - destruct N as [->|[]]. congruence.
    - specialize (D2 p m eq_refl). destruct (names m) as [[i|]| |]; try contradiction. destruct N as [->|[]]. congruence. }
  destruct (run_safe l) as (d & R & _); [|exists d; exact R]. split; [exact H1|]. split; [exact H2|]. split; [intros id H; apply A; intros v; apply (H3 id v H)|intros r id H E; apply A; intros v; apply (H4 r id v H E)].
Qed.
Print Assumptions C85_safe_partial.

(* the id of a request: read by the server as it was given, up to 94 characters *)
Theorem C85_request_partial id : ~ In 0 id -> (length id < 95)%nat -> names (request id) = Ok (Some id).
Proof.
  intros N L. rewrite names_request, firstn_all2, map_app, <- app_assoc, cstr_full by (auto; lia). destruct (95 - length id)%nat eqn:E; [lia|]. cbn [repeat map app cstr]. change (0 =? 0) with true. cbn [bind]. rewrite app_nil_r. reflexivity.
Qed.
Print Assumptions C85_request_partial.
(* longer ones have no end: the server reads the byte which was not written *)
Theorem C85_request_long id : ~ In 0 id -> (95 <= length id)%nat -> names (request id) = UB.
Proof.
  intros N L. rewrite names_request. replace (95 - length id)%nat with 0%nat by lia. cbn [repeat]. rewrite app_nil_r, cstr_full; [reflexivity|]. intros H. apply N. eapply in_firstn. exact H.
Qed.
Print Assumptions C85_request_long.

(* ---- concrete cases ---- *)
Definition ida : bytes := [65; 49]. Definition idb : bytes := [66]. Definition idc : bytes := [67; 50; 51].
Definition case_events : list event :=
  [Order ida; Order idb; Accepted; Order idc; Connected idb; Request 0 (request ida); Begin 1; Accepted; Request 2 (request [90]); Sent 0 true; Sent 2 true; Reply 1 false true; Failed [91]; Expire 2].
Example case_safe :
  NoDup (flat_map (fun v => match v with Connected id => [id] | Request _ m => match names m with Ok (Some id) => [id] | _ => [] end | _ => [] end) case_events) /\
  (forall p m, In (Request p m) case_events -> exists i, names m = Ok i) /\
  match run case_events start with Ok d => d_ans d = [(0%nat, true); (1%nat, false); (2%nat, false)] /\ d_made d = [(0%nat, 0%nat)] /\ d_recs d = [] | _ => False end.
Proof.
  split.
  - vm_compute. repeat constructor; cbn; intuition discriminate.
  - split; [|vm_compute; repeat split]. intros p m H. cbn [case_events In] in H. repeat (destruct H as [H|H]; [try discriminate H; injection H as <- <-; eexists; vm_compute; reflexivity|]). contradiction.
Qed.
Example case_expire : forall r id v, In (Expire r) case_events -> nth_error (ordered case_events) r = Some id -> In v case_events -> v <> Connected id /\ forall p m, v = Request p m -> names m <> Ok (Some id).
Proof.
  intros r id v H. cbn [case_events In] in H. assert (r = 2%nat) as -> by (repeat (destruct H as [H|H]; [try discriminate H; injection H as <-; reflexivity|]); contradiction). clear H. intros E. vm_compute in E. injection E as <-. intros V. cbn [case_events In] in V.
  repeat (destruct V as [V|V]; [subst v; split; [discriminate|]; intros p m M; try discriminate M; injection M as <- <-; vm_compute; discriminate|]). contradiction.
Qed.

(* ---- what does not hold ---- *)
(* an order expires while its protocol is active: its record is used after its end, by a broken
   socket or by a client which begins *)
Theorem C85_expired_refuted : exists l l', run l start = UB /\ run l' start = UB /\ NoDup (ordered l) /\ NoDup (ordered l') /\ (forall p q m n, In (Request p m) l -> In (Request q n) l -> p = q).
Proof.
  exists [Order ida; Accepted; Request 0 (request ida); Expire 0; Broken 0], [Order ida; Connected ida; Expire 0; Begin 0].
  split; [vm_compute; reflexivity|]. split; [vm_compute; reflexivity|]. split; [repeat constructor; intros []|]. split; [repeat constructor; intros []|].
  intros p q m n H K. assert (p = 0%nat) by (repeat (destruct H as [H|H]; [try discriminate H; injection H as <- <-; reflexivity|]); contradiction). assert (q = 0%nat) by (repeat (destruct K as [K|K]; [try discriminate K; injection K as <- <-; reflexivity|]); contradiction). congruence.
Qed.
Print Assumptions C85_expired_refuted.

(* two requests with the same id, no time passed: the second socket breaks after the first one
   got its transport *)
Theorem C85_twice_refuted : exists l, run l start = UB /\ ordered l = [ida] /\ (forall r, ~ In (Expire r) l) /\ (forall id, ~ In (Failed id) l).
Proof.
  exists [Order ida; Accepted; Accepted; Request 0 (request ida); Request 1 (request ida); Sent 0 true; Broken 1].
  split; [vm_compute; reflexivity|]. split; [reflexivity|]. split; intros r H; cbn [In] in H; repeat (destruct H as [H|H]; [discriminate H|]); contradiction.
Qed.
Print Assumptions C85_twice_refuted.

(* a request without end lets the server read outside of it *)
Theorem C85_request_refuted : exists m, length m = 100%nat /\ ~ In None m /\ run [Accepted; Request 0 m] start = UB.
Proof.
  exists (map Some (le 4 header_connect ++ repeat 65 96)). split; [reflexivity|]. split; [|vm_compute; reflexivity]. intros H. apply in_map_iff in H as (x & H & _). discriminate.
Qed.
Print Assumptions C85_request_refuted.
