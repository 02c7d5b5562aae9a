(* Property theorems about the MBS formats, LMD files and slow control data. *)
From Verif Require Import Common ListFacts Bytes WordMem BufPtr MbsSpec MbsModel MbsRead MbsWrite MbsBounds MbsLmd DecStr SlowSpec SlowModel SlowProofs.
Open Scope N_scope.

(* ---- C45: written events are the events read ---- *)

(* a buffer that the events fit into, also exactly: every call succeeds, the buffer
   returned by Close iterates over the same events, and NumEvents counts them *)
Theorem C45_written_is_read m0 s0 l : w_reset m0 = Some s0 -> Forall wevent_ok l -> l <> [] ->
  lenN (enc_mevents (map event_of l)) <= lenN m0 -> lenN m0 < 2^32 ->
  exists s b, write_events s0 l = Ok (s, true) /\ w_close s = Ok b /\
    read_all b = Ok (map (fun e => (enc_mevent e, e)) (map event_of l)) /\ num_events b = Ok (lenN l).
Proof.
  intros H1 H2 H3 H4 H5. destruct (write_all m0 s0 l H1 H2 H3 H4 H5) as (s & W & C). exists s, (enc_mevents (map event_of l)).
  assert (K : Forall mevent_ok (map event_of l)) by (apply Forall_map; eapply Forall_impl; [|exact H2]; intros e He; apply He).
  split; [exact W|]. split; [exact C|]. split; [apply read_events; exact K|]. rewrite num_events_at by exact K. unfold lenN. rewrite map_length. reflexivity.
Qed.
Print Assumptions C45_written_is_read.

(* events written by anybody, one after the other, are read back *)
Theorem C45_read l : Forall mevent_ok l ->
  read_all (enc_mevents l) = Ok (map (fun e => (enc_mevent e, e)) l) /\ num_events (enc_mevents l) = Ok (lenN l).
Proof. intros H. split; [exact (read_events l H)|exact (num_events_at l H)]. Qed.
Print Assumptions C45_read.

Definition ex_events : list wevent :=
  [(WNumber 7, [WNew 1 2 3 [[10; 11]; [12; 13; 14; 15]]; WNew 4 5 6 []]);
   (WCopy (mkME 9 8 7 [mkMS 6 5 [4; 3]]), [WAdd (mkMS 1 2 [])])].
Example C45_example : exists s, Forall wevent_ok ex_events /\
  (do (s, _) <- write_events (mkW (repeat 99 88) (mkP (Some 0) 88) pnull pnull 0) ex_events; Ok s) = Ok s /\
  (do b <- w_close s; read_all b) = Ok (map (fun e => (enc_mevent e, e)) (map event_of ex_events)) /\
  map event_of ex_events = [mkME 65546 65536 7 [mkMS 65546 (2 + 65536 + 3 * 2^24) [10; 11; 12; 13; 14; 15]; mkMS 65546 (5 + 4 * 65536 + 6 * 2^24) []];
                            mkME 9 8 7 [mkMS 6 5 [4; 3]; mkMS 1 2 []]].
Proof.
  eexists. split; [|split; [vm_compute; reflexivity|split; vm_compute; reflexivity]].
  repeat constructor; try discriminate; try (vm_compute; reflexivity).
Qed.

(* ---- C46: walking over the subevents ---- *)

(* full statement: walk ... = Ok (positions (lenN a + 16) (me_subs e)) for every
   well-formed event.  It holds when the last subevent has data or is the only one. *)
Theorem C46_walk_partial a e c : mevent_ok e ->
  (forall l x y, me_subs e = l ++ [x; y] -> ms_raw y <> []) ->
  walk (S (length (a ++ enc_mevent e ++ c))) (a ++ enc_mevent e ++ c) (lenN a) None = Ok (positions (lenN a + 16) (me_subs e)).
Proof.
  intros H L. rewrite walk_event by exact H. f_equal. f_equal. unfold found, empty_last.
  assert (Er := rev_involutive (me_subs e)). destruct (rev (me_subs e)) as [|y [|x r]]; try reflexivity. cbn [rev] in Er.
  assert (Ny := L (rev r) x y ltac:(rewrite <- Er, <- app_assoc; reflexivity)). destruct (N.eqb_spec (lenN (ms_raw y)) 0) as [Z|Z]; [|reflexivity].
  destruct (ms_raw y); [congruence|]. rewrite lenN_cons in Z. lia.
Qed.
Print Assumptions C46_walk_partial.

(* otherwise exactly the last one is missed *)
Theorem C46_walk_misses_last a e c l x y : mevent_ok e -> me_subs e = l ++ [x; y] -> ms_raw y = [] ->
  walk (S (length (a ++ enc_mevent e ++ c))) (a ++ enc_mevent e ++ c) (lenN a) None = Ok (positions (lenN a + 16) (l ++ [x])).
Proof.
  intros H E Ey. rewrite walk_event by exact H. f_equal. f_equal. unfold found, empty_last. rewrite E.
  change [x; y] with ([x] ++ [y]). rewrite app_assoc, rev_app_distr, rev_app_distr. cbn [rev app]. rewrite Ey. change (lenN (@nil N) =? 0) with true. apply removelast_last.
Qed.
Print Assumptions C46_walk_misses_last.

Theorem C46_empty_last_refuted : exists e, mevent_ok e /\ length (me_subs e) = 2%nat /\
  num_subevents (enc_mevent e) 0 = Ok 1.
Proof.
  exists (mkME mbs_type 65536 5 [mkMS mbs_type 1 [1; 2]; mkMS mbs_type 2 []]).
  split; [repeat constructor; try discriminate|]. split; vm_compute; reflexivity.
Qed.
Print Assumptions C46_empty_last_refuted.

Example C46_example : num_subevents (enc_mevent (mkME mbs_type 65536 5 [mkMS mbs_type 1 []; mkMS mbs_type 2 [1; 2]])) 0 = Ok 2.
Proof. vm_compute. reflexivity. Qed.

(* ---- C47: LMD files ---- *)

(* full statement: for every block size maxsz.  Proved for events and block sizes that
   are multiples of 4 bytes ("any data in LMD should be written with 4-byte wrapping",
   LmdFile.h:181): a file written with any sequence of WriteBuffer calls and read with
   any block size holding the largest event gives all events, in order, each block
   containing whole events, and single events when only one is asked for *)
Theorem C47_blocks_partial maxsz only ll : maxsz mod 4 = 0 -> Forall mevent_ok (concat ll) ->
  Forall (fun e => mevent_size e mod 4 = 0) (concat ll) -> Forall (fun e => mevent_size e <= maxsz) (concat ll) ->
  exists rest parts, lmd_open (lmd_file (map enc_mevents ll)) = Some rest /\
    lmd_blocks (S (length rest)) maxsz only rest = Ok (map enc_mevents parts) /\
    concat parts = concat ll /\ Forall (fun p => p <> [] /\ lenN (enc_mevents p) <= maxsz) parts /\
    (only = true -> parts = map (fun e => [e]) (concat ll)).
Proof.
  intros H1 H2 H3 H4. destruct (file_blocks maxsz only ll H1 H2 H3 H4) as (rest & parts & O & (G1 & G2 & G3) & B). exists rest, parts. auto.
Qed.
Print Assumptions C47_blocks_partial.

(* the same through LmdInput, which ends without error *)
Theorem C47_input_partial maxsz ll : maxsz mod 4 = 0 -> Forall mevent_ok (concat ll) ->
  Forall (fun e => mevent_size e mod 4 = 0) (concat ll) -> Forall (fun e => mevent_size e <= maxsz) (concat ll) ->
  exists parts fuel, input_loop fuel maxsz (mkL None [lmd_file (map enc_mevents ll)]) = Ok (map enc_mevents parts, true) /\
    concat parts = concat ll /\ Forall (fun p => p <> [] /\ lenN (enc_mevents p) <= maxsz) parts.
Proof.
  intros H1 H2 H3 H4. destruct (input_file maxsz ll H1 H2 H3 H4) as (parts & (G1 & G2 & G3) & B). exists parts. eexists. split; [exact B|]. auto.
Qed.
Print Assumptions C47_input_partial.

(* a block size that is no multiple of 4: the header of the next event is read although
   only part of it is in the buffer *)
Theorem C47_unaligned_refuted : exists e maxsz, mevent_ok e /\ mevent_size e mod 4 = 0 /\ mevent_size e <= maxsz /\
  lmd_read maxsz false (enc_mevents [e; e]) = UB.
Proof.
  exists (mkME mbs_type 65536 5 [mkMS mbs_type 1 [1; 2; 3; 4]]), 34. split; [repeat constructor; try discriminate|].
  split; [reflexivity|]. split; [discriminate|]. vm_compute. reflexivity.
Qed.
Print Assumptions C47_unaligned_refuted.

Definition ex_ev (n : N) (d : bytes) : mevent := mkME mbs_type 65536 n [mkMS mbs_type 1 d].
Example C47_example :
  let ll := [[ex_ev 1 [1; 2; 3; 4]; ex_ev 2 []]; [ex_ev 3 [5; 6; 7; 8]]] in
  (match lmd_open (lmd_file (map enc_mevents ll)) with
   | Some r => lmd_blocks 100 64 false r | None => UB end) = Ok (map enc_mevents [[ex_ev 1 [1; 2; 3; 4]; ex_ev 2 []]; [ex_ev 3 [5; 6; 7; 8]]]) /\
  (match lmd_open (lmd_file (map enc_mevents ll)) with
   | Some r => lmd_blocks 100 64 true r | None => UB end) = Ok (map enc_mevents [[ex_ev 1 [1; 2; 3; 4]]; [ex_ev 2 []]; [ex_ev 3 [5; 6; 7; 8]]]).
Proof. split; vm_compute; reflexivity. Qed.

(* ---- C61: a list of LMD files ---- *)

(* full statement: LmdInput returns the events of all files of the list.  Reading
   reports an error at the end of the first file: the size it returns is that of the
   failed read, although the next file is open *)
Theorem C61_files_refuted : exists e1 e2 s, mevent_ok e1 /\ mevent_ok e2 /\
  input_loop 100 1024 (mkL None [lmd_file [enc_mevent e1]; lmd_file [enc_mevent e2]]) = Ok ([enc_mevent e1], false) /\
  read_complete 1024 (mkL (Some []) [lmd_file [enc_mevent e2]]) = Ok (s, LError) /\ l_cur s = Some (enc_mevent e2).
Proof.
  exists (ex_ev 1 [1; 2; 3; 4]), (ex_ev 2 [5; 6; 7; 8]). eexists. split; [repeat constructor; try discriminate|]. split; [repeat constructor; try discriminate|].
  split; [vm_compute; reflexivity|]. split; vm_compute; reflexivity.
Qed.
Print Assumptions C61_files_refuted.

(* what holds: the end of a file with another one after it is always reported as an error *)
Theorem C61_next_file_is_error maxsz f fs r : lmd_open f = Some r ->
  read_complete maxsz (mkL (Some []) (f :: fs)) = Ok (mkL (Some r) fs, LError).
Proof.
  intros H. unfold read_complete. cbn [l_cur l_files]. rewrite read_end. cbn [bind]. unfold open_next. cbn [l_files]. rewrite H. reflexivity.
Qed.
Print Assumptions C61_next_file_is_error.

(* ---- C60: the read iterator stays inside the buffer ---- *)

(* any buffer content, any calls: no access outside; the current event and subevent lie
   inside the buffer, the subevent inside its event *)
Theorem C60_inside m l : exists s, r_run m l = Ok s /\
  (forall o, event_at s = Some o -> exists z, o + 16 <= lenN m /\ full_size m o = Ok z /\ o + z <= lenN m) /\
  (forall o, sub_at s = Some o -> exists z, full_size m o = Ok z /\ 12 <= z /\ raw_at s = Some (o + 12) /\ o + 12 + raw_len s <= lenN m /\
     forall oe ze, event_at s = Some oe -> full_size m oe = Ok ze -> oe + 16 <= o /\ o + 12 + raw_len s <= oe + ze).
Proof. destruct (r_run_ok m l) as (s & E & H). exists s. split; [exact E|]. exact (rok_inside m s H). Qed.
Print Assumptions C60_inside.

(* iterating over everything ends, unless an event with a size of 0 is reached *)
Theorem C60_ends_partial m :
  (forall l s o, r_run m l = Ok s -> event_at s = Some o -> full_size m o <> Ok 0) ->
  exists l, read_all m = Ok l.
Proof. exact (read_all_term m). Qed.
Print Assumptions C60_ends_partial.

(* such an event is never left *)
Definition zero_event : bytes := le 4 (2^31 - 4) ++ le 4 0 ++ le 8 0.
Theorem C60_endless_refuted : exists s, lenN zero_event = 16 /\ next_event zero_event (r_reset zero_event) = Ok (s, true) /\
  forall n, r_run zero_event (repeat NextEvent n) = Ok s.
Proof.
  eexists. split; [reflexivity|]. split; [vm_compute; reflexivity|]. intros n. unfold r_run. cbn [r_calls].
  assert (E0 : r_call zero_event (r_reset zero_event) NextEvent = Ok (mkR false (mkP (Some 0) 16) pnull pnull)) by (vm_compute; reflexivity). rewrite E0. cbn [bind].
  induction n as [|n IH]; [reflexivity|]. cbn [repeat r_calls].
  assert (E1 : r_call zero_event (mkR false (mkP (Some 0) 16) pnull pnull) NextEvent = Ok (mkR false (mkP (Some 0) 16) pnull pnull)) by (vm_compute; reflexivity). rewrite E1. cbn [bind]. exact IH.
Qed.
Print Assumptions C60_endless_refuted.

Example C60_example : exists s, r_run (enc_mevent (ex_ev 1 [1; 2; 3; 4]) ++ [200; 0; 0; 0; 1; 1; 1; 1; 9; 9; 9; 9; 3; 3; 3; 3]) [NextSub; NextSub; NextEvent; NextSub] = Ok s /\ event_at s = None.
Proof. eexists. split; vm_compute; reflexivity. Qed.

(* ---- C63: data accepted by the write iterator is kept ---- *)

(* full statement: what calls returning true have put into the iterator is in the
   buffer returned by Close.  It fails three times.
   Close does not finish the event when the subevent filled the buffer exactly: *)
Definition wstart (n : N) : witer := mkW (repeat 99 (N.to_nat n)) (mkP (Some 0) n) pnull pnull 0.
Theorem C63_close_refuted : exists s e b, w_reset (repeat 99 32) = Some (wstart 32) /\
  (do (s, b1) <- new_event (wstart 32) 1 0; do (s, b2) <- new_sub s 0 0 0 0; do (s, b3) <- add_raw s [1; 2; 3; 4]; Ok (s, b1 && b2 && b3)) = Ok (s, true) /\
  w_close s = Ok b /\ read_all b = Ok [(b, e)] /\ me_subs e = [].
Proof. eexists. eexists. eexists. split; [vm_compute; reflexivity|]. split; [vm_compute; reflexivity|]. split; [vm_compute; reflexivity|]. split; vm_compute; reflexivity. Qed.
Print Assumptions C63_close_refuted.

(* an event finished except for FinishEvent is lost when it filled the buffer exactly,
   although two bytes more in the buffer would keep it: *)
Theorem C63_close_event_refuted : exists s b s2 b2 e1 e2,
  (do (s, b1) <- write_event (wstart 64) (WNumber 1, [WNew 0 0 0 [[1; 2; 3; 4]]]);
   do (s, b2) <- new_event s 2 0; do (s, b3) <- write_subs s [WNew 0 0 0 [[5; 6; 7; 8]]]; Ok (s, b1 && b2 && b3)) = Ok (s, true) /\
  w_close s = Ok b /\ read_all b = Ok [e1] /\
  (do (s, b1) <- write_event (wstart 66) (WNumber 1, [WNew 0 0 0 [[1; 2; 3; 4]]]);
   do (s, b2) <- new_event s 2 0; do (s, b3) <- write_subs s [WNew 0 0 0 [[5; 6; 7; 8]]]; Ok (s, b1 && b2 && b3)) = Ok (s2, true) /\
  w_close s2 = Ok b2 /\ read_all b2 = Ok [e1; e2].
Proof.
  eexists. eexists. eexists. eexists. eexists. eexists. split; [vm_compute; reflexivity|]. split; [vm_compute; reflexivity|]. split; [vm_compute; reflexivity|].
  split; [vm_compute; reflexivity|]. split; vm_compute; reflexivity.
Qed.
Print Assumptions C63_close_event_refuted.

(* AddRawData compares with the space from the subevent header on and stores less: *)
Theorem C63_add_raw_refuted : exists s b x, 
  (do (s, b1) <- new_event (wstart 40) 1 0; do (s, b2) <- new_sub s 0 0 0 0; do (s, b3) <- add_raw s (repeat 7 20); Ok (s, b1 && b2 && b3)) = Ok (s, true) /\
  (do (s, _) <- finish_sub s 0; do (s, _) <- finish_event s; w_close s) = Ok b /\
  (do l <- read_all b; Ok (map (fun e => map ms_raw (me_subs (snd e))) l)) = Ok [[x]] /\ x = repeat 7 12.
Proof. eexists. eexists. eexists. split; [vm_compute; reflexivity|]. split; [vm_compute; reflexivity|]. split; [vm_compute; reflexivity|reflexivity]. Qed.
Print Assumptions C63_add_raw_refuted.

(* what holds: see C45_written_is_read, where events are finished before Close and data
   fits.  Without any event Close returns the whole buffer with its old content: *)
Theorem C63_close_empty_refuted : exists s, w_reset (repeat 99 32) = Some s /\ w_close s = Ok (repeat 99 32).
Proof. eexists. split; vm_compute; reflexivity. Qed.
Print Assumptions C63_close_empty_refuted.

(* ---- C64: CloseAndTransfer ---- *)

(* full statement: the buffer returned by CloseAndTransfer contains the events completed
   so far.  It holds while no event is open: *)
Theorem C64_transfer_partial m0 s0 l newm : w_reset m0 = Some s0 -> Forall wevent_ok l -> l <> [] ->
  lenN (enc_mevents (map event_of l)) <= lenN m0 -> lenN m0 < 2^32 ->
  exists s, write_events s0 l = Ok (s, true) /\
    close_transfer s newm = Ok (w_reset newm, enc_mevents (map event_of l)).
Proof.
  intros H1 H2 H3 H4 H5. destruct (write_all m0 s0 l H1 H2 H3 H4 H5) as (s & W & C). exists s. split; [exact W|]. assert (E := write_events_sub l s0 s H3 W).
  unfold close_transfer. rewrite E. change (is_null pnull) with true. cbv iota. rewrite C. reflexivity.
Qed.
Print Assumptions C64_transfer_partial.

(* with an open event the completed ones are lost: the new buffer is returned (it starts
   with the open event, number 2), and the iterator is left without buffer *)
Theorem C64_transfer_refuted : exists s b,
  (do (s, b1) <- write_event (wstart 100) (WNumber 1, [WNew 0 0 0 [[1; 2; 3; 4]]]);
   do (s, b2) <- new_event s 2 0; do (s, b3) <- new_sub s 0 0 0 0; do (s, b4) <- add_raw s [5; 6]; Ok (s, b1 && b2 && b3 && b4)) = Ok (s, true) /\
  close_transfer s (repeat 88 100) = Ok (None, b) /\ getw b 12 = Ok 2 /\ dropN 30 b = repeat 88 70.
Proof.
  eexists. eexists. split; [vm_compute; reflexivity|]. split; [vm_compute; reflexivity|]. split; vm_compute; reflexivity.
Qed.
Print Assumptions C64_transfer_refuted.

(* ---- C65: the write iterator stays inside its buffer ---- *)

(* NewSubevent2 does not check the space *)
Theorem C65_new_sub2_refuted : exists s, 
  (do (s, b) <- write_subs (mkW (repeat 99 32) (mkP (Some 0) 32) (mkP (Some 16) 16) pnull 0) [WNew 0 0 0 [[1; 2]]]; Ok (s, b)) = Ok (s, true) /\
  (do (s, b) <- new_event (wstart 32) 1 0; do (s, b) <- write_subs s [WNew 0 0 0 [[1; 2]]]; new_sub2 s 7) = UB.
Proof. eexists. split; vm_compute; reflexivity. Qed.
Print Assumptions C65_new_sub2_refuted.

(* ---- C48: slow control data ---- *)

(* any calls of AddLong and AddDouble with names that are C strings, in any buffer that
   is large enough: Write returns the size of GetRawSize, changes only so many bytes,
   and Read of these restores the object *)
Theorem C48_roundtrip id tm l m s0 : id < 2^32 -> tm < 2^32 -> Forall call_ok l -> calls_size l < 2^32 -> calls_size l <= lenN m ->
  exists m' n, s_write (s_build id tm l) m = Ok (m', n) /\ n = raw_size (s_build id tm l) /\ n mod 4 = 0 /\ 24 <= n /\ n <= calls_size l /\
    lenN m' = lenN m /\ dropN n m' = dropN n m /\ s_read s0 (takeN n m') = Ok (s_build id tm l, true).
Proof. exact (slow_roundtrip id tm l m s0). Qed.
Print Assumptions C48_roundtrip.

(* ids and times are those set *)
Theorem C48_id_time id tm l : id < 2^32 -> tm < 2^32 -> Forall call_ok l -> calls_size l < 2^32 ->
  s_id (s_build id tm l) = id /\ s_time (s_build id tm l) = tm /\
  length (s_lnames (s_build id tm l)) = length (s_lvals (s_build id tm l)) /\
  length (s_dnames (s_build id tm l)) = length (s_dvals (s_build id tm l)).
Proof.
  intros H1 H2 H3 H4. destruct (build_full id tm l H1 H2 H3 H4) as ((_ & _ & (A & _) & (B & _)) & _ & I1 & I2). auto.
Qed.
Print Assumptions C48_id_time.

(* with the check for duplicates each name has exactly the value given to it at last *)
Theorem C48_values id tm l : Forall (fun c => call_check c = true) l ->
  let s := s_build id tm l in
  NoDup (s_lnames s) /\ NoDup (s_dnames s) /\
  (forall n x, In (n, x) (combine (s_lnames s) (s_lvals s)) <-> last_long n l = Some x) /\
  (forall n x, In (n, x) (combine (s_dnames s) (s_dvals s)) <-> last_double n l = Some x).
Proof. exact (build_values id tm l). Qed.
Print Assumptions C48_values.

Example C48_example :
  let l := [AddLong [65; 66] 5 true; AddDouble [67] 4611686018427387904 true; AddLong [] (2^64 - 1) true; AddLong [65; 66] 6 true] in
  Forall call_ok l /\ s_build 3 4 l = mkS 3 4 [[65; 66]; []] [6; 2^64 - 1] [[67]] [4611686018427387904] /\
  exists m, s_write (s_build 3 4 l) (repeat 99 70) = Ok (m, 60) /\ s_read s_clear (takeN 60 m) = Ok (s_build 3 4 l, true).
Proof.
  split; [repeat constructor; try discriminate|]. split; [reflexivity|]. eexists. split; vm_compute; reflexivity.
Qed.

(* ---- C62: reading slow control data from arbitrary content ---- *)

(* the numbers of values are not compared with the size *)
Theorem C62_arbitrary_refuted : exists m, lenN m = 24 /\ Forall isbyte m /\ s_read s_clear m = UB.
Proof. exists (le 4 1 ++ le 4 2 ++ le 8 2 ++ le 8 0). split; [reflexivity|]. split; [|vm_compute; reflexivity]. repeat constructor. Qed.
Print Assumptions C62_arbitrary_refuted.
(* neither is the end of the strings checked *)
Theorem C62_strings_refuted : exists m, lenN m = 28 /\ s_read s_clear m = UB /\
  exists m2 s, lenN m2 = 28 /\ s_read s_clear m2 = Ok (s, false).
Proof.
  exists (le 4 1 ++ le 4 2 ++ le 8 0 ++ le 8 0 ++ [48; 48; 48; 48]). split; [reflexivity|]. split; [vm_compute; reflexivity|].
  exists (le 4 1 ++ le 4 2 ++ le 8 0 ++ le 8 0 ++ [65; 48; 48; 0]). eexists. split; [reflexivity|]. vm_compute. reflexivity.
Qed.
Print Assumptions C62_strings_refuted.
