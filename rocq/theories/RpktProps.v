(* C84: packets between two nodes come out as they were sent, and the receiver stays within
   what it has received. *)
From Verif Require Import Common ListFacts Bytes RpktSpec RpktModel RpktProofs.
Local Open Scope N_scope.

Definition send_list (ms : list msg) : res bytes :=
  fold_right (fun m s => do p <- send (m_kind m) (m_timeout m) (m_cmd m) [m_raw m]; do r <- s; Ok (p ++ r)) (Ok []) ms.

(* messages with raw data of one segment: all come out, in their order and unchanged, over a new
   connection whatever the receiver has got before *)
Theorem C84_roundtrip_partial decodes known redirect ms x :
  Forall (fun m =>
    m_cmd m <> [] /\ decodes (map Some (m_cmd m)) = true /\ lenN (m_cmd m) + lenN (m_raw m) < 2 ^ 31 /\ m_timeout m < 2 ^ 32 /\
    (m_kind m = 1 \/ m_kind m = 2 /\ m_timeout m = 0 /\ known (map Some (m_cmd m)) = true)) ms ->
  exists s y, send_list ms = Ok s /\ run decodes known redirect s (connect x) = Ok (y, map received ms) /\ x_st y = WantHdr /\ x_got y = [].
Proof.
  intros F. unfold connect. generalize (x_buf x). clear x. induction F as [|m ms Hm _ IH]; intros buf.
  - exists [], (mkR WantHdr [] buf). repeat split.
  - destruct (run_message decodes known redirect m buf Hm) as (p & buf' & Ep & Rp). destruct (IH buf') as (s & y & Es & Ry & S & G).
    exists (p ++ s), y. cbn [send_list fold_right]. rewrite Ep. cbn [bind]. unfold send_list in Es. rewrite Es. split; [reflexivity|]. rewrite run_app, Rp. cbn [bind fst snd]. rewrite Ry. cbn [bind fst snd map app]. auto.
Qed.
Print Assumptions C84_roundtrip_partial.

(* every stream whose headers have sizes which fit together, from every former state: no access
   outside of the buffer, and what is given on are bytes which came with this stream, command
   and raw data one behind the other *)
Theorem C84_safe_partial decodes known redirect s x :
  (forall h, length h = 24%nat -> within h s -> field 0 h = header_dabc -> fits h) ->
  exists y o, run decodes known redirect s (connect x) = Ok (y, o) /\
  Forall (fun g => match g with
                   | Got _ _ c r => exists cb rb, c = map Some cb /\ r = map Some rb /\ within (cb ++ rb) s
                   | Redirect q => exists qb, q = map Some qb /\ lenN qb = msg_size /\ within qb s
                   end) o.
Proof.
  intros H. destruct (run_good decodes known redirect s [] (connect x)) as (y & o & R & _ & S); [exact H| |exists y, o; split; [exact R|exact S]].
  split; [reflexivity|]. exists []. reflexivity.
Qed.
Print Assumptions C84_safe_partial.

(* nothing behind a foreign header is taken *)
Theorem C84_foreign decodes known redirect h s x :
  length h = 24%nat -> field 0 h <> header_dabc -> field 0 h <> header_connect ->
  exists y, run decodes known redirect (h ++ s) (connect x) = Ok (y, []) /\ x_st y = Closed.
Proof.
  intros L N1 N2. unfold connect. rewrite run_app, (run_want decodes known redirect WantHdr (x_buf x)) with (s := h) (g := []);
    [|discriminate|destruct h; [discriminate|congruence]|unfold lenN; rewrite L; reflexivity].
  cbn [app complete]. destruct (N.eqb_spec (field 0 h) header_connect); [contradiction|]. destruct (N.eqb_spec (field 0 h) header_dabc); [contradiction|].
  cbn [negb close bind fst snd]. rewrite run_closed. cbn [bind fst snd app]. eexists. split; [reflexivity|reflexivity].
Qed.
Print Assumptions C84_foreign.

(* a connection request is handed over as it came, whatever the receiver has got before *)
Theorem C84_redirect decodes known q s x :
  lenN q = 100 -> field 0 q = header_connect ->
  exists y, run decodes known true (q ++ s) (connect x) = Ok (y, [Redirect (map Some q)]) /\ x_st y = Closed.
Proof.
  intros L M. set (h := takeN 24 q). set (g := dropN 24 q). assert (Eq : h ++ g = q) by apply take_drop.
  assert (Lh : lenN h = 24) by (unfold h; rewrite lenN_takeN, L; reflexivity). assert (Lg : lenN g = 76) by (unfold g; rewrite lenN_dropN, L; reflexivity).
  assert (M2 : field 0 h = header_connect).
  { rewrite <- M. unfold field, h, takeN. change (4 * 0)%nat with 0%nat. cbn [skipn]. rewrite (firstn_firstn q 4 (N.to_nat 24)). reflexivity. }
  replace (q ++ s) with (h ++ g ++ s) by (rewrite <- Eq, <- app_assoc; reflexivity). clearbody h g. unfold connect. rewrite run_app, (run_want decodes known true WantHdr (x_buf x)) with (s := h) (g := []); [|discriminate|intros E; rewrite E in Lh; discriminate|rewrite Lh; reflexivity].
  cbn [app complete]. rewrite M2, N.eqb_refl. destruct (ensure_ok msg_size (x_buf x) ltac:(vm_compute; reflexivity)) as (b & -> & Lb). cbn [bind fst snd].
  rewrite run_app, (run_want decodes known true WantDev _) with (s := g) (g := []); [|discriminate|intros E; rewrite E in Lg; discriminate|rewrite Lg; reflexivity].
  cbn [app complete]. rewrite (takeN_app (map Some h)) by (rewrite lenN_map; auto). rewrite app_assoc, <- map_app. rewrite Eq.
  rewrite copy_map by (rewrite L; discriminate). rewrite dropN_0, takeN_all by (rewrite L; discriminate). cbn [bind fst snd]. rewrite run_closed. cbn [bind fst snd app]. eexists. split; [reflexivity|reflexivity].
Qed.
Print Assumptions C84_redirect.

(* the buffer: for every size below 2 GB there is one which is large enough, and not larger than
   twice the size; for the others the loop has no end *)
Theorem C84_buffer_partial want : want < 2 ^ 31 -> exists n, grow 64 2048 want = Ok n /\ want < n /\ n <= N.max 2048 (2 * want).
Proof.
  intros W. destruct (grow_ok 63 2048 want W ltac:(lia)) as (n & G & L & D).
  - eapply N.lt_le_trans; [exact W|]. vm_compute. discriminate.
  - exists n. split; [exact G|]. split; [exact L|]. destruct D; lia.
Qed.
Print Assumptions C84_buffer_partial.
Theorem C84_buffer_refuted : exists want, want < 2 ^ 32 /\ forall fuel, grow fuel 2048 want = Loop.
Proof. exists (2 ^ 31). split; [reflexivity|]. intros f. apply grow_loop; [lia|]. exists 11. split; [lia|reflexivity]. Qed.
Print Assumptions C84_buffer_refuted.

(* ---- concrete cases ---- *)
Definition all : cells -> bool := fun _ => true.
Definition case_msgs : list msg := [mkM 1 3000 [7; 8] [1; 2; 3]; mkM 2 0 [5] []; mkM 1 0 [9; 9; 9] [4]].
Example case_proper : Forall (fun m =>
    m_cmd m <> [] /\ all (map Some (m_cmd m)) = true /\ lenN (m_cmd m) + lenN (m_raw m) < 2 ^ 31 /\ m_timeout m < 2 ^ 32 /\
    (m_kind m = 1 \/ m_kind m = 2 /\ m_timeout m = 0 /\ all (map Some (m_cmd m)) = true)) case_msgs.
Proof. repeat (apply Forall_cons; [split; [discriminate|]; split; [reflexivity|]; split; [reflexivity|]; split; [reflexivity|]; cbn; auto|]). constructor. Qed.
Example case_run : exists s, send_list case_msgs = Ok s /\ lenN s = 82 /\
  match run all all false s fresh with Ok (y, o) => o = map received case_msgs /\ lenN (x_buf y) = 2048 | _ => False end.
Proof. eexists. split; [vm_compute; reflexivity|]. split; [vm_compute; reflexivity|]. vm_compute. repeat split. Qed.
(* sizes which do not use all of the data: taken, the rest is skipped *)
Definition case_stream : bytes := le 4 header_dabc ++ le 4 1 ++ le 4 0 ++ le 4 6 ++ le 4 2 ++ le 4 3 ++ [11; 12; 13; 14; 15; 16].
Example case_stream_fits : forall h, length h = 24%nat -> within h case_stream -> field 0 h = header_dabc -> fits h.
Proof.
  intros h L (a & b & E) M. assert (D : (length a <= 6)%nat) by (apply (f_equal (@length N)) in E; rewrite !app_length, L in E; change (length case_stream) with 30%nat in E; lia).
  assert (Eh : h = firstn 24 (skipn (length a) case_stream)).
  { rewrite E, skipn_app, skipn_all, Nat.sub_diag. cbn [app skipn]. rewrite firstn_app, <- L, firstn_all, Nat.sub_diag. cbn [firstn]. rewrite app_nil_r. reflexivity. }
  clear E L. subst h. destruct (length a) as [|[|[|[|[|[|[|n]]]]]]]; [|vm_compute in M; discriminate M..|lia]. vm_compute. split; [discriminate|reflexivity].
Qed.
Example case_stream_run : match run all all false case_stream fresh with Ok (_, o) => o = [Got 1 0 [Some 11; Some 12] [Some 13; Some 14; Some 15]] | _ => False end.
Proof. vm_compute. reflexivity. Qed.
Example case_foreign : field 0 (repeat 1 24) <> header_dabc /\ field 0 (repeat 1 24) <> header_connect.
Proof. vm_compute. split; discriminate. Qed.
Example case_redirect : lenN (le 4 header_connect ++ repeat 3 96) = 100 /\ field 0 (le 4 header_connect ++ repeat 3 96) = header_connect.
Proof. vm_compute. split; reflexivity. Qed.

(* ---- what does not hold ---- *)
(* the sizes of a header are not compared: 24 bytes let the receiver read without any buffer, and
   29 bytes read behind its end *)
Theorem C84_bounds_refuted : exists s t, length s = 24%nat /\ run all all false s fresh = UB /\ length t = 29%nat /\ run all all false t fresh = UB.
Proof.
  exists (le 4 header_dabc ++ le 4 1 ++ le 4 0 ++ le 4 0 ++ le 4 16 ++ le 4 0), (le 4 header_dabc ++ le 4 1 ++ le 4 0 ++ le 4 5 ++ le 4 2 ++ le 4 5000 ++ [1; 2; 3; 4; 5]).
  split; [reflexivity|]. split; [vm_compute; reflexivity|]. split; [reflexivity|]. vm_compute. reflexivity.
Qed.
Print Assumptions C84_bounds_refuted.

(* bytes of a former connection, and cells nobody has written, are given on as raw data *)
Theorem C84_stale_refuted : exists s t, match run all all false s fresh with
  | Ok (x, _) => exists y, run all all false t (connect x) = Ok (y, [Got 1 0 [Some 9] [Some 2; Some 3; None]]) /\ ~ In 2 (skipn 24 t) /\ ~ In 3 (skipn 24 t)
  | _ => False end.
Proof.
  exists (le 4 header_dabc ++ le 4 1 ++ le 4 0 ++ le 4 3 ++ le 4 3 ++ le 4 0 ++ [1; 2; 3]), (le 4 header_dabc ++ le 4 1 ++ le 4 0 ++ le 4 1 ++ le 4 1 ++ le 4 3 ++ [9]).
  vm_compute. eexists. split; [reflexivity|]. split; intros [H|[]]; discriminate.
Qed.
Print Assumptions C84_stale_refuted.

(* a size of 2 GB stops the thread of the receiver for ever *)
Theorem C84_size_refuted : exists s, length s = 24%nat /\ run all all false s fresh = Loop.
Proof. exists (le 4 header_dabc ++ le 4 1 ++ le 4 0 ++ le 4 (2 ^ 31) ++ le 4 1 ++ le 4 0). split; [reflexivity|]. vm_compute. reflexivity. Qed.
Print Assumptions C84_size_refuted.

(* raw data in two segments: the sender reads behind the first one *)
Theorem C84_segments_refuted : exists cmd raw, send 1 0 cmd raw = UB /\ lenN (concat raw) < 2 ^ 31 /\ length raw = 2%nat.
Proof. exists [7], [[1]; [2]]. split; [vm_compute; reflexivity|]. split; reflexivity. Qed.
Print Assumptions C84_segments_refuted.
