(* C44: the HADAQ UDP receiver. *)
From Verif Require Import Common ListFacts Bytes WordMem HadSpec HadModel HadRead HadProps UdpSpec UdpModel UdpProofs.
Open Scope N_scope.

(* what is in the buffer being filled *)
Definition filled (s : ust) : bytes :=
  match b_tgt (u_b s), nth_error (b_queue (u_b s)) (b_ready (u_b s)) with
  | Some o, Some m => takeN o m
  | _, _ => []
  end.
(* buffers sent and waiting to be sent *)
Definition produced (s : ust) : list bytes := b_out (u_b s) ++ firstn (b_ready (u_b s)) (b_queue (u_b s)).

Lemma inv_data c K b s : binv c K b -> b = u_b s -> exists groups rest,
  produced s = map glue groups /\ filled s = glue rest /\ concat groups ++ rest = K /\ Forall (fun g => glue g <> []) groups.
Proof.
  intros B E. unfold produced, filled. rewrite <- E.
  destruct B as [rs fr gs sd room out Ff E1 Eg Ek|rs x y fr gs g sd room out Ff E1 Eg Ek Ex Fx Fy L];
  cbn [b_tgt b_queue b_ready b_out]; rewrite firstn_app, firstn_all, Nat.sub_diag; cbn [firstn]; rewrite app_nil_r.
  - exists gs, []. rewrite app_nil_r. auto.
  - exists gs, g. rewrite nth_mid. rewrite takeN_app by reflexivity. auto.
Qed.

(* For every sequence of events - datagrams of any content arriving, buffers coming
   from the pool, read events, flush timer, start and stop, places in the output -
   and every content of fresh memory: nothing is read or written outside the buffers;
   the datagrams are taken from the socket in order; each produced buffer is the
   concatenation of the unit parts of a group of datagrams, and the groups one after
   the other, with the buffer still being filled, are exactly the consistent ones
   among the datagrams that were received into a pool buffer.  A datagram is received
   elsewhere only if it is empty, artificial losses were asked for, or there was no
   buffer (C44_spare_partial).  A datagram longer than the MTU counts as its first MTU
   bytes, all that recv delivers.
   Missing for the full property: datagrams of 8 to 31 bytes announcing almost 2^32
   bytes ([harmless] in [act_ok]; C44_short_packet_refuted). *)
Theorem C44_received_partial c spare acts : cfg_ok c -> lenN spare = c_mtu c -> Forall isbyte spare -> Forall (act_ok c) acts ->
  exists s groups rest, run c (init spare) acts = Ok s /\
    map snd (u_log s) ++ data_of (u_sock s) = flat_map came acts /\
    produced s = map glue groups /\ filled s = glue rest /\
    concat groups ++ rest = only_consistent (map (takeN (c_mtu c)) (in_pool (u_log s))) /\
    Forall (fun g => glue g <> []) groups /\
    Forall (fun x => fst x = FLost -> c_lost c = true) (u_log s) /\ Forall (fun x => fst x = FEmpty -> snd x = []) (u_log s).
Proof.
  intros Hc Ls Fs Ha. destruct (run_spec c (init spare) acts Hc Ha (init_inv c spare Ls Fs)) as (s & R & I & e & E1 & E2 & E3 & E4).
  cbn [init u_log app] in E1. destruct I as (I1 & _). destruct (inv_data c _ _ s I1 eq_refl) as (gs & g & D1 & D2 & D3 & D4).
  exists s, gs, g. split; [exact R|]. split; [rewrite E1; exact E2|]. do 4 (split; [assumption|]). rewrite E1. auto.
Qed.
Print Assumptions C44_received_partial.

(* Without artificial losses and as long as a buffer was there for each datagram, the
   buffers hold all consistent datagrams read. *)
Theorem C44_all_partial c spare acts : cfg_ok c -> lenN spare = c_mtu c -> Forall isbyte spare -> Forall (act_ok c) acts ->
  c_lost c = false ->
  exists s groups rest, run c (init spare) acts = Ok s /\
    map snd (u_log s) ++ data_of (u_sock s) = flat_map came acts /\
    (Forall (fun x => fst x <> FSpare) (u_log s) ->
     produced s = map glue groups /\ filled s = glue rest /\
     concat groups ++ rest = only_consistent (map (takeN (c_mtu c)) (map snd (u_log s)))).
Proof.
  intros Hc Ls Fs Ha Hl. destruct (C44_received_partial c spare acts Hc Ls Fs Ha) as (s & gs & g & R & A & D1 & D2 & D3 & _ & D5 & D6).
  exists s, gs, g. split; [exact R|]. split; [exact A|]. intros Hs. split; [exact D1|]. split; [exact D2|]. rewrite D3.
  clear - D5 D6 Hs Hl. induction (u_log s) as [|(f & p) l IH]; [reflexivity|].
  inversion_clear D5 as [|? ? P5 D5']. inversion_clear D6 as [|? ? P6 D6']. inversion_clear Hs as [|? ? Ps Hs'].
  specialize (IH D5' D6' Hs'). cbn [fst snd] in *. unfold in_pool in *. cbn [filter fst]. destruct f; cbn [is_pool].
  - cbn [map snd]. change (?a :: ?l) with ([a] ++ l). rewrite !only_app. rewrite IH. reflexivity.
  - contradiction.
  - rewrite P5 in Hl by reflexivity. discriminate.
  - rewrite (P6 eq_refl). cbn [map snd]. rewrite IH. unfold takeN. rewrite firstn_nil.
    unfold only_consistent at 2. cbn [filter]. destruct (consistent_dec []) as [(X & _)|_]; [rewrite lenN_nil in X; lia|reflexivity].
Qed.
Print Assumptions C44_all_partial.

(* A datagram goes into the spare buffer, and is lost, only when the queue of the pool
   holds no buffer to fill, or only one smaller than the MTU, and ten read calls in a
   row were skipped before for that reason. *)
Theorem C44_spare_partial c spare acts s a : cfg_ok c -> lenN spare = c_mtu c -> Forall isbyte spare -> Forall (act_ok c) acts ->
  run c (init spare) acts = Ok s -> act_ok c a ->
  exists s' e, step c s a = Ok s' /\ u_log s' = u_log s ++ e /\
    ((exists p, In (FSpare, p) e) ->
       10 <= u_skip s /\
       ((length (b_queue (u_b s)) <= b_ready (u_b s))%nat \/
        exists m, nth_error (b_queue (u_b s)) (b_ready (u_b s)) = Some m /\ lenN m < c_mtu c)).
Proof.
  intros Hc Ls Fs Ha R Aa. destruct (run_spec c (init spare) acts Hc Ha (init_inv c spare Ls Fs)) as (s0 & R0 & I & _).
  rewrite R in R0. injection R0 as <-. destruct (step_spec c s a Hc Aa I) as (s' & S1 & _ & e & E1 & _ & _ & _ & E5).
  exists s', e. split; [exact S1|]. split; [exact E1|]. intros (p & Hp). destruct E5 as (N1 & N2); [exists (FSpare, p); auto|]. auto.
Qed.
Print Assumptions C44_spare_partial.

(* Two flush timer events with no read between them, or a stop, leave nothing in the
   buffer being filled: all accepted data is in produced buffers. *)
Theorem C44_flush_partial c spare acts s : cfg_ok c -> lenN spare = c_mtu c -> Forall isbyte spare -> Forall (act_ok c) acts ->
  run c (init spare) acts = Ok s ->
  (exists s', run c s [AFlush; AFlush] = Ok s' /\ filled s' = [] /\ u_log s' = u_log s) /\
  (exists s', run c s [AStop] = Ok s' /\ filled s' = [] /\ u_log s' = u_log s).
Proof.
  intros Hc Ls Fs Ha R. destruct (run_spec c (init spare) acts Hc Ha (init_inv c spare Ls Fs)) as (s0 & R0 & I & _).
  rewrite R in R0. injection R0 as <-.
  assert (Fi : forall s', match b_tgt (u_b s') with None => True | Some o => o = 0 end -> filled s' = []).
  { intros s' H. unfold filled. destruct (b_tgt (u_b s')) as [o|]; [|reflexivity]. subst o. destruct (nth_error _ _); reflexivity. }
  split.
  - destruct (flush_spec c false s Hc I) as (s1 & F1 & I1 & L1 & _ & _ & T1 & _).
    destruct (flush_spec c false s1 Hc I1) as (s2 & F2 & _ & L2 & _ & _ & _ & H2).
    exists s2. cbn [run step]. rewrite F1. cbn [bind]. rewrite F2. cbn [bind]. split; [reflexivity|].
    split; [apply Fi; apply H2; auto|congruence].
  - destruct (flush_spec c true s Hc I) as (s1 & F1 & _ & L1 & _ & _ & _ & H1).
    cbn [run step]. rewrite F1. cbn [bind]. eexists. split; [reflexivity|]. split; [|exact L1].
    apply Fi. apply H1. auto.
Qed.
Print Assumptions C44_flush_partial.

(* The statistic counters: received packets and bytes, discarded ones, wrong trailers,
   artificial losses.  The packets of [wrapped] count as received though they are not
   consistent; they add nothing to a buffer (C44_wrapped_refuted). *)
Theorem C44_counters_partial c spare acts : cfg_ok c -> lenN spare = c_mtu c -> Forall isbyte spare -> Forall (act_ok c) acts ->
  exists s, run c (init spare) acts = Ok s /\
    let pool := map (takeN (c_mtu c)) (in_pool (u_log s)) in
    let all := map (takeN (c_mtu c)) (judged (u_log s)) in
    let t := u_stat s in
    n_recv t = lenN (only_consistent pool) + lenN (filter wrapped pool) /\
    n_recvb t = total_len (only_consistent pool) + total_len (filter wrapped pool) /\
    n_recv t + n_disc t = lenN all /\ n_recvb t + n_discb t = total_len all /\
    n_disc32 t = lenN (filter bad_trailer all) /\ n_lost t = lenN (dropped (u_log s)).
Proof.
  intros Hc Ls Fs Ha. destruct (run_spec c (init spare) acts Hc Ha (init_inv c spare Ls Fs)) as (s & R & I & _).
  exists s. split; [exact R|]. destruct I as (_ & _ & _ & _ & (A & B & C & D & E & F)). cbv zeta.
  split; [exact A|]. split; [exact B|]. split; [|auto]. rewrite C. unfold lenN. rewrite map_length. reflexivity.
Qed.
Print Assumptions C44_counters_partial.

(* With C38: when the unit parts are well-formed transport units, the read iterator
   finds in the produced buffers those units, in order of arrival. *)
Theorem C44_units_partial c spare acts : cfg_ok c -> lenN spare = c_mtu c -> Forall isbyte spare -> Forall (act_ok c) acts ->
  exists s rest, run c (init spare) acts = Ok s /\ filled s = glue rest /\
    let good := only_consistent (map (takeN (c_mtu c)) (in_pool (u_log s))) in
    (Forall (fun p => exists u, unit_for TUnits u /\ unit_part p = enc_unit u) good ->
     exists groups us, concat groups ++ rest = good /\
       Forall2 (fun m l => read_all m TUnits = Ok (map unit_seen l)) (produced s) us /\
       Forall2 (fun p u => unit_part p = enc_unit u) (concat groups) (concat us)).
Proof.
  intros Hc Ls Fs Ha. destruct (C44_received_partial c spare acts Hc Ls Fs Ha) as (s & gs & g & R & _ & D1 & D2 & D3 & _).
  exists s, g. split; [exact R|]. split; [exact D2|]. cbv zeta. intros H. rewrite <- D3 in H. apply Forall_app in H. destruct H as (H & _).
  exists gs.
  assert (X : exists us, Forall2 (fun m l => read_all m TUnits = Ok (map unit_seen l)) (map glue gs) us /\
                Forall2 (fun p u => unit_part p = enc_unit u) (concat gs) (concat us)).
  { clear - H. induction gs as [|l gs IH]; [exists []; split; constructor|]. cbn [concat] in H. apply Forall_app in H. destruct H as (Hl & Hg).
    destruct (IH Hg) as (us & U1 & U2).
    assert (Y : exists v, Forall (unit_for TUnits) v /\ Forall2 (fun p u => unit_part p = enc_unit u) l v).
    { clear - Hl. induction Hl as [|p l (u & U1 & U2) Hl (v & V1 & V2)]; [exists []; auto|]. exists (u :: v). split; constructor; auto. }
    destruct Y as (v & V1 & V2). exists (v :: us). cbn [map concat]. split; [constructor; [|exact U1]|apply Forall2_app; auto].
    replace (glue l) with (enc_units v); [apply C38_read_units; [discriminate|exact V1]|].
    unfold glue, enc_units. f_equal. clear - V2. induction V2 as [|p u l v E V IH]; [reflexivity|]. cbn [map]. rewrite E, IH. reflexivity. }
  destruct X as (us & U1 & U2). exists us. split; [exact D3|]. rewrite D1. auto.
Qed.
Print Assumptions C44_units_partial.

(* ---- a run ---- *)

(* 24-byte unit with trailer *)
Definition demo_unit (x : N) : bytes := [24;0;0;0; 1;0;2;0; 16;0;0;0; 1;0;2;0; x;0;0;0; 9;0;0;0].
Definition demo_good (x : N) : bytes := demo_unit x ++ demo_unit x ++ [24;0;0;0; 1;0;2;0].
(* 8-byte unit: the trailer repeats the unit and its own beginning *)
Definition demo_small : bytes := concat (repeat [8;0;0;0; 1;0;2;0] 5).
(* the same in big-endian byte order *)
Definition demo_big : bytes := concat (repeat [0;0;0;8; 0;2;0;1] 5).
Definition demo_cfg : cfg := mkCfg 64 3 (fun fill size => size * 9 <? fill * 10) false.

Example C44_consistent : consistent demo_small /\ consistent demo_big /\ unit_part demo_big = [0;0;0;8; 0;2;0;1] /\
  consistent (demo_good 5) /\ unit_part (demo_good 5) = demo_unit 5.
Proof. unfold consistent. repeat split; vm_compute; reflexivity. Qed.

Definition demo_acts : list action :=
  [AStart; APool (repeat 170 100); APool (repeat 187 100); ABuffer;
   AArrive (SData demo_small false); AArrive (SData demo_big false);
   AArrive (SData [1;2;3] false);                       (* too short *)
   AArrive (SData (demo_small ++ [0]) false);           (* wrong length *)
   AArrive (SData (takeN 39 demo_small ++ [7]) false);  (* wrong trailer *)
   AArrive (SData demo_big false); ARead; ARead; ARoom;
   AArrive (SData (demo_good 7) false); AArrive SErr; AArrive (SData demo_big false);
   AArrive (SData demo_small false); ARead; ARead; ARead; AFlush; AFlush; ARoom; ASend].

Example C44_example : cfg_ok demo_cfg /\ Forall (act_ok demo_cfg) demo_acts /\
  exists s, run demo_cfg (init (repeat 0 64)) demo_acts = Ok s /\
    b_out (u_b s) = [[8;0;0;0; 1;0;2;0; 0;0;0;8; 0;2;0;1; 0;0;0;8; 0;2;0;1] ++ demo_unit 7;
                     [0;0;0;8; 0;2;0;1; 8;0;0;0; 1;0;2;0]] /\
    n_recv (u_stat s) = 6 /\ n_disc (u_stat s) = 3 /\ n_disc32 (u_stat s) = 1 /\ b_ready (u_b s) = 0%nat.
Proof.
  split; [split; [discriminate|split; [reflexivity|intro n; cbn [c_full demo_cfg]; lia]]|]. split.
  - unfold demo_acts. repeat (apply Forall_cons || apply Forall_nil); cbn [act_ok item_ok]; try exact I;
      try (split; [vm_compute; repeat constructor|first [left; reflexivity|right; left; vm_compute; discriminate]]);
      vm_compute; repeat constructor.
  - eexists. split; [vm_compute; reflexivity|]. repeat split; vm_compute; reflexivity.
Qed.

(* ---- where the property fails ---- *)

(* A datagram of eight bytes announcing 0xFFFFFFE8 bytes: the sum with 32 wraps to 8,
   which is the length of the datagram, and the trailer is looked for almost 4 GB
   behind the buffer. *)
Theorem C44_short_packet_refuted : exists c spare p, cfg_ok c /\ lenN spare = c_mtu c /\ Forall isbyte p /\ lenN p = 8 /\
  run c (init spare) [APool (repeat 0 128); AStart; AArrive (SData p false); ARead] = UB.
Proof.
  exists demo_cfg, (repeat 0 64), [232; 255; 255; 255; 0; 0; 0; 0]. split; [split; [discriminate|split; [reflexivity|intro n; cbn [c_full demo_cfg]; lia]]|].
  split; [reflexivity|]. split; [repeat constructor|]. split; [reflexivity|]. vm_compute. reflexivity.
Qed.
Print Assumptions C44_short_packet_refuted.

(* 32 bytes announcing 2^32 - 1 bytes are counted as received. *)
Theorem C44_wrapped_refuted : exists p s, Forall isbyte p /\ ~ consistent p /\
  run demo_cfg (init (repeat 0 64)) [APool (repeat 0 128); AStart; AArrive (SData p false); ARead] = Ok s /\
  n_recv (u_stat s) = 1 /\ n_disc (u_stat s) = 0 /\ produced s = [] /\ filled s = [].
Proof.
  exists ([255; 255; 255; 255] ++ repeat 0 28). eexists. split; [repeat constructor|].
  split; [intros (X & _); vm_compute in X; discriminate|].
  split; [vm_compute; reflexivity|]. repeat split; vm_compute; reflexivity.
Qed.
Print Assumptions C44_wrapped_refuted.

(* A datagram longer than the MTU is cut by recv: what the sender sent was not
   consistent, but it leaves a trace. *)
Theorem C44_long_packet_refuted : exists c p s, cfg_ok c /\ Forall (act_ok c) [AArrive (SData p false)] /\ ~ consistent p /\
  run c (init (repeat 0 40)) [APool (repeat 0 128); AStart; AArrive (SData p false); ARead] = Ok s /\
  filled s = takeN 8 p.
Proof.
  exists (mkCfg 40 3 (fun fill size => size * 9 <? fill * 10) false), (demo_small ++ [1; 2; 3; 4; 5; 6; 7; 8]). eexists.
  split; [split; [discriminate|split; [reflexivity|intro n; cbn [c_full demo_cfg]; lia]]|].
  split; [constructor; [split; [repeat constructor|right; left; vm_compute; discriminate]|constructor]|].
  split; [intros (X & _); vm_compute in X; discriminate|].
  split; [vm_compute; reflexivity|]. vm_compute. reflexivity.
Qed.
Print Assumptions C44_long_packet_refuted.

(* A consistent datagram is thrown away when the eleventh read call finds no buffer. *)
Theorem C44_no_buffer_refuted : exists p s, consistent p /\
  run demo_cfg (init (repeat 0 64)) (AStart :: AArrive (SData p false) :: repeat ARead 11 ++ [APool (repeat 0 128); ABuffer; ARead]) = Ok s /\
  u_log s = [(FSpare, p)] /\ produced s = [] /\ filled s = [].
Proof.
  exists demo_small. eexists. split; [split; vm_compute; reflexivity|]. split; [vm_compute; reflexivity|]. repeat split; vm_compute; reflexivity.
Qed.
Print Assumptions C44_no_buffer_refuted.
