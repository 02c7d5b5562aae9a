(* Property theorems about the HADAQ formats, files and trigger numbers. *)
From Verif Require Import Common ListFacts Bytes WordMem BufPtr HadSpec HadModel HadWords HadRead HadBounds HadWrite HldModel HldProofs TrigModel TrigProofs.
Open Scope N_scope.

(* ---- C37: header words in either byte order ---- *)

(* a header anywhere in memory, in either byte order, reads as its words *)
Theorem C37_read big l a c k x dec : Forall word l -> nth_error l 1 = Some dec -> dec_ok dec ->
  nth_error l k = Some x ->
  get_field (a ++ hdr_bytes big l ++ c) (lenN a) (N.of_nat k) = Ok x.
Proof. exact (get_hdr big l a c k x dec). Qed.
Print Assumptions C37_read.

(* setting word k gives the header with that word replaced, in the same byte order,
   and nothing around it changes; a decoding word set this way must be a valid one *)
Theorem C37_write big l a c k dec v : Forall word l -> nth_error l 1 = Some dec -> dec_ok dec ->
  (k < length l)%nat -> word v ->
  set_field (a ++ hdr_bytes big l ++ c) (lenN a) (N.of_nat k) v = Ok (a ++ hdr_bytes big (upd l k v) ++ c).
Proof. exact (set_hdr_field big l a c k dec v). Qed.
Print Assumptions C37_write.

(* the data-error bit is bit 31 of the id; the other 31 bits stay *)
Theorem C37_error_bit big l a c dec i (on : bool) : Forall word l -> nth_error l 1 = Some dec -> dec_ok dec ->
  nth_error l 2 = Some i ->
  set_error (a ++ hdr_bytes big l ++ c) (lenN a) on =
    Ok (a ++ hdr_bytes big (upd l 2 (i mod 2^31 + (if on then 2^31 else 0))) ++ c) /\
  get_error (a ++ hdr_bytes big (upd l 2 (i mod 2^31 + (if on then 2^31 else 0))) ++ c) (lenN a) = Ok on.
Proof. exact (set_error_spec big l a c dec i on). Qed.
Print Assumptions C37_error_bit.

(* the trigger type is bits 4-7 of the decoding word *)
Theorem C37_trigger_type_partial big l a c d typ :
  Forall word l -> nth_error l 1 = Some d -> dec_ok d -> d mod 16 <> 0 -> typ < 16 ->
  let d' := d / 256 * 256 + typ * 16 + d mod 16 in
  set_trigtype (a ++ hdr_bytes big l ++ c) (lenN a) typ = Ok (a ++ hdr_bytes big (upd l 1 d') ++ c) /\
  get_trigtype (a ++ hdr_bytes big (upd l 1 d') ++ c) (lenN a) = Ok typ /\ dec_ok d'.
Proof. exact (set_trigtype_spec big l a c d typ). Qed.
Print Assumptions C37_trigger_type_partial.

(* ... without d mod 16 <> 0 it fails: setting trigger type 0 in a swapped header
   whose decoding has no other bit in its last byte makes the header unswapped, and
   the size reads differently *)
Theorem C37_trigger_type_refuted : exists l m', Forall word l /\ dec_ok (nth 1 l 0) /\
  get_size (hdr_bytes true l) 0 = Ok 16 /\ set_trigtype (hdr_bytes true l) 0 0 = Ok m' /\
  get_size m' 0 = Ok 0x10000000.
Proof.
  exists [16; 0x20010; 5; 7]. eexists. split; [repeat constructor|]. split; [split; [reflexivity|discriminate]|].
  split; [vm_compute; reflexivity|]. split; vm_compute; reflexivity.
Qed.
Print Assumptions C37_trigger_type_refuted.

Example C37_example :
  get_field (hdr_bytes true [20; 0x20001; 0x8abc; 0x1234]) 0 3 = Ok 0x1234 /\
  get_field (hdr_bytes false [20; 0x20001; 0x8abc; 0x1234]) 0 3 = Ok 0x1234 /\
  hdr_bytes true [20; 0x20001; 0x8abc; 0x1234] <> hdr_bytes false [20; 0x20001; 0x8abc; 0x1234].
Proof. split; [vm_compute; reflexivity|]. split; [vm_compute; reflexivity|]. vm_compute. discriminate. Qed.

(* ---- C38: written events are the events read ---- *)

(* any sequence of events or transport units, each in its own byte order *)
Theorem C38_read_units t l : t <> TSubs -> Forall (unit_for t) l ->
  read_all (enc_units l) t = Ok (map unit_seen l).
Proof. exact (read_units t l). Qed.
Print Assumptions C38_read_units.
Theorem C38_read_subevents l : Forall sub_ok l -> l <> [] ->
  read_all (enc_subs l) TSubs = Ok [([], map sub_seen l)].
Proof. exact (read_subs l). Qed.
Print Assumptions C38_read_subevents.

(* Written into a buffer that is larger than what is needed, whatever the buffer
   held before: the events are stored and read back. *)
Theorem C38_roundtrip_partial m0 s0 l : w_reset m0 = Some s0 -> Forall isbyte m0 -> Forall wevent_ok l -> l <> [] ->
  wevents_size l < lenN m0 -> wevents_size l < 2^32 ->
  exists s us, write_events s0 l = Ok (s, true) /\ w_close s = enc_units us /\ Forall2 same_event l us /\
    read_all (w_close s) TEvents = Ok (map unit_seen us).
Proof.
  intros R B K Ne L Lw. destruct (write_all m0 s0 l R B K Ne L Lw) as (s & us & W & C & S2 & U).
  exists s, us. split; [exact W|]. split; [exact C|]. split; [exact S2|]. rewrite C. apply read_units; [discriminate|exact U].
Qed.
Print Assumptions C38_roundtrip_partial.

Definition demo_events : list wevent :=
  [mkWE 1 77 0x7a0102 0x0c0d0e [mkWS true 0x20011 0xc001 0x11 [1;2;3;4]; mkWS false 0x20001 0xc002 0x11 [5;6;7;8;9;10;11;12]];
   mkWE 2 77 0x7a0102 0x0c0d0f [];
   mkWE 3 77 0x7a0102 0x0c0d0f [mkWS true 0x20011 0xc001 0x12 []]].
Example C38_example : Forall wevent_ok demo_events /\ wevents_size demo_events = 160 /\
  exists s0, w_reset (repeat 0xAA 200) = Some s0.
Proof.
  split; [|split; [reflexivity|eexists; reflexivity]].
  repeat constructor; try discriminate.
Qed.

(* A buffer that is filled exactly: every call succeeds, the subevent is lost. *)
Theorem C38_exact_fill_refuted : exists m0 s0 l s,
  w_reset m0 = Some s0 /\ Forall wevent_ok l /\ wevents_size l = lenN m0 /\
  write_events s0 l = Ok (s, true) /\ (exists e, l = [e] /\ we_subs e <> []) /\
  exists h, read_all (w_close s) TEvents = Ok [(h, [])].
Proof.
  exists (repeat 0 56), (mkW (repeat 0 56) pnull pnull 0), [mkWE 1 2 3 4 [mkWS false 0x20001 5 6 [1;2;3;4;5;6;7;8]]].
  eexists. split; [reflexivity|]. split; [repeat constructor; discriminate|]. split; [reflexivity|].
  split; [vm_compute; reflexivity|]. split; [eexists; split; [reflexivity|discriminate]|].
  eexists. vm_compute. reflexivity.
Qed.
Print Assumptions C38_exact_fill_refuted.

(* After events filled the buffer exactly, another event is accepted and overwrites
   the first one. *)
Theorem C38_full_buffer_refuted : exists m0 s0 l e s s2,
  w_reset m0 = Some s0 /\ wevents_size l = lenN m0 /\ write_events s0 l = Ok (s, true) /\
  is_place s 0 = true /\ write_event s e = Ok (s2, true) /\
  exists r, read_all (w_close s2) TEvents = Ok r /\ length r = length l /\
    nth 3 (fst (nth 0 r ([], []))) 0 = we_seq e.
Proof.
  exists (repeat 0 64), (mkW (repeat 0 64) pnull pnull 0), [mkWE 1 2 3 4 []; mkWE 2 2 3 4 []], (mkWE 3 2 3 4 []).
  eexists. eexists. split; [reflexivity|]. split; [reflexivity|]. split; [vm_compute; reflexivity|].
  split; [vm_compute; reflexivity|]. split; [vm_compute; reflexivity|].
  eexists. split; [vm_compute; reflexivity|]. split; reflexivity.
Qed.
Print Assumptions C38_full_buffer_refuted.

(* A buffer closed without any event is delivered with its whole old content. *)
Theorem C38_no_event_refuted : exists m0 s0, w_reset m0 = Some s0 /\
  write_events s0 [] = Ok (s0, true) /\ w_close s0 = m0 /\ read_all m0 TEvents <> Ok [].
Proof.
  exists (enc_units [mkUnit false 0x30001 [0x2001; 5; 6; 7; 8; 0] [mkSub false 0x20001 1 2 [] []]]).
  eexists. split; [reflexivity|]. split; [reflexivity|]. split; [vm_compute; reflexivity|]. vm_compute. discriminate.
Qed.
Print Assumptions C38_no_event_refuted.

(* ---- C39: arbitrary content ---- *)

(* any sequence of calls on any bytes: no access outside the buffer, and what the
   iterator points to lies inside *)
Theorem C39_inside_partial m t calls : Forall isbyte m -> exists s, r_run m t calls = Ok s /\
  (forall o, unit_at s = Some o -> o + head_size t <= lenN m /\
     (t <> TSubs -> exists z, get_size m o = Ok z /\ o + z <= lenN m)) /\
  (forall o, sub_at s = Some o -> o + 16 <= lenN m /\ (exists z, get_size m o = Ok z /\ 16 <= z) /\
     raw_at s = Some (o + 16) /\ o + 16 + raw_len s <= lenN m).
Proof.
  intros B. destruct (r_run_ok m t calls B) as (s & E & R & T). exists s. split; [exact E|].
  rewrite <- T. apply rok_inside. exact R.
Qed.
Print Assumptions C39_inside_partial.

(* iteration ends unless it meets a unit of size 0 or a size in the last 7 values of
   32 bits (whose padded size is 0) *)
Theorem C39_terminates_partial m t : Forall isbyte m ->
  (forall calls s o z, r_run m t calls = Ok s -> unit_at s = Some o \/ sub_at s = Some o ->
     get_size m o = Ok z -> 0 < z <= 2^32 - 8) ->
  exists l, read_all m t = Ok l.
Proof.
  intros B H. apply read_all_term; [exact B|]. intros o n (calls & s & E & P) Pd.
  unfold padded in Pd. destruct (get_size m o) as [z| |] eqn:Ez; cbn [bind] in Pd; try discriminate. injection Pd as <-.
  assert (Hz := H calls s o z E P Ez). assert (W := size_word m o z B Ez). assert (X := pad8_zero z W). lia.
Qed.
Print Assumptions C39_terminates_partial.

Example C39_example : exists s, r_run (enc_units [mkUnit true 0x20001 [] [mkSub false 0x20001 1 2 [9;9] [0;0;0;0;0;0]]]) TUnits [NextSub] = Ok s /\
  unit_at s = Some 0 /\ sub_at s = Some 8 /\ raw_at s = Some 24 /\ raw_len s = 8.
Proof. eexists. vm_compute. repeat split. Qed.

(* a unit of size zero: NextEvent / NextHadTu return true forever *)
Theorem C39_zero_unit_refuted : exists m, Forall isbyte m /\
  (forall fuel, block_loop fuel m (r_reset m TEvents) = Loop) /\ (forall fuel, block_loop fuel m (r_reset m TUnits) = Loop).
Proof.
  exists (repeat 0 32). split; [apply Forall_forall; intros x H; apply repeat_spec in H; subst; reflexivity|].
  assert (G : forall t, t <> TSubs -> forall fuel, block_loop fuel (repeat 0 32) (mkR false (mkP (Some 0) 32) pnull pnull t) = Loop).
  { intros t T fuel. induction fuel as [|fuel IH]; [reflexivity|].
    assert (St : block_loop (S fuel) (repeat 0 32) (mkR false (mkP (Some 0) 32) pnull pnull t) =
       do l <- block_loop fuel (repeat 0 32) (mkR false (mkP (Some 0) 32) pnull pnull t); Ok ((repeat 0 (N.to_nat (head_size t / 4)), []) :: l)).
    { destruct t; [reflexivity|reflexivity|congruence]. }
    rewrite St, IH. reflexivity. }
  split; intros [|fuel]; try reflexivity.
  - assert (St : block_loop (S fuel) (repeat 0 32) (r_reset (repeat 0 32) TEvents) =
       do l <- block_loop fuel (repeat 0 32) (mkR false (mkP (Some 0) 32) pnull pnull TEvents); Ok ((repeat 0 8, []) :: l)) by reflexivity.
    rewrite St, G by discriminate. reflexivity.
  - assert (St : block_loop (S fuel) (repeat 0 32) (r_reset (repeat 0 32) TUnits) =
       do l <- block_loop fuel (repeat 0 32) (mkR false (mkP (Some 0) 32) pnull pnull TUnits); Ok ((repeat 0 2, []) :: l)) by reflexivity.
    rewrite St, G by discriminate. reflexivity.
Qed.
Print Assumptions C39_zero_unit_refuted.

(* a subevent of size 2^32-1: its padded size wraps to 0, NextSubEvent returns it
   forever; and it is returned although the buffer has only 16 bytes *)
Theorem C39_huge_subevent_refuted : exists m s, Forall isbyte m /\ lenN m = 16 /\
  r_run m TSubs [] = Ok s /\ (forall fuel, sub_loop fuel m s = Loop) /\
  exists s1, next_sub m s = Ok (s1, true) /\ sub_at s1 = Some 0 /\ get_size m 0 = Ok (2^32 - 1).
Proof.
  set (m := words [0xFFFFFFFF; 0x20001; 1; 2]).
  exists m, (mkR false (mkP (Some 0) 16) pnull pnull TSubs). split; [repeat constructor|]. split; [reflexivity|].
  split; [reflexivity|]. split.
  - assert (G : forall fuel, sub_loop fuel m (mkR false (mkP (Some 0) 16) (mkP (Some 0) 16) (mkP (Some 16) 0) TSubs) = Loop).
    { induction fuel as [|fuel IH]; [reflexivity|].
      assert (St : sub_loop (S fuel) m (mkR false (mkP (Some 0) 16) (mkP (Some 0) 16) (mkP (Some 16) 0) TSubs) =
        do (s2, l) <- sub_loop fuel m (mkR false (mkP (Some 0) 16) (mkP (Some 0) 16) (mkP (Some 16) 0) TSubs); Ok (s2, mkRS 0xFFFFFFFF 0x20001 1 2 [] :: l)) by reflexivity.
      rewrite St, IH. reflexivity. }
    intros [|fuel]; [reflexivity|].
    assert (St : sub_loop (S fuel) m (mkR false (mkP (Some 0) 16) pnull pnull TSubs) =
        do (s2, l) <- sub_loop fuel m (mkR false (mkP (Some 0) 16) (mkP (Some 0) 16) (mkP (Some 16) 0) TSubs); Ok (s2, mkRS 0xFFFFFFFF 0x20001 1 2 [] :: l)) by reflexivity.
    rewrite St, G. reflexivity.
  - eexists. split; [vm_compute; reflexivity|]. split; reflexivity.
Qed.
Print Assumptions C39_huge_subevent_refuted.

(* a subevent whose size says it ends behind the buffer is returned *)
Theorem C39_subevent_size_refuted : exists m s, Forall isbyte m /\ r_run m TSubs [NextSub] = Ok s /\
  exists o z, sub_at s = Some o /\ get_size m o = Ok z /\ lenN m < o + z.
Proof.
  exists (words [100; 0x20001; 1; 2]). eexists. split; [repeat constructor|]. split; [vm_compute; reflexivity|].
  exists 0, 100. split; [reflexivity|]. split; reflexivity.
Qed.
Print Assumptions C39_subevent_size_refuted.

(* ---- C40: HLD files ---- *)

(* not an end marker: an event of 32 bytes with id runStop *)
Definition not_stop (u : hunit) : Prop := unit_size u <> 32 \/ hd 0 (u_rest u) <> 0x00010003.

Definition write_buffers (f : bytes) (l : list bytes) : bytes := fold_left (fun f b => fst (write_buffer f b)) l f.

Lemma write_buffers_eq l : forall f, write_buffers f l = f ++ concat l.
Proof.
  induction l as [|b l IH]; intros f; [cbn; rewrite app_nil_r; reflexivity|]. unfold write_buffers in *. cbn [fold_left concat].
  rewrite IH. unfold write_buffer. destruct (N.eqb_spec (lenN b) 0) as [E|E]; cbn [fst].
  - destruct b; [reflexivity|]. rewrite lenN_cons in E. lia.
  - rewrite <- app_assoc. reflexivity.
Qed.

Lemma unit_event u : unit_for TEvents u -> exists e, eb e = enc_unit u /\ eok e /\ elen e = unit_size u /\ (not_stop u -> eplain e).
Proof.
  intros ((D & W & S & L) & R). cbn [rest_words] in R. destruct u as [big dec rest subs]. cbn [u_dec u_rest u_subs u_big] in *.
  destruct rest as [|i rest]; [discriminate|]. rewrite lenN_cons in R. inversion W as [|? ? Wi Wr]; subst.
  set (u := mkUnit big dec (i :: rest) subs) in *.
  set (t := hdr_bytes big rest ++ enc_subs subs).
  assert (Lt : 12 + lenN t = unit_size u).
  { unfold t, unit_size, u. cbn [u_rest u_subs]. rewrite lenN_app, lenN_hdr_bytes, lenN_cons. lia. }
  exists (mkE big dec i t). split; [|split; [|split]].
  - unfold eb, evt. cbn [e_big e_dec e_id e_tail]. rewrite Lt. unfold t, enc_unit, unit_hdr, u. cbn [u_big u_dec u_rest u_subs].
    rewrite app_assoc, <- hdr_bytes_app. reflexivity.
  - unfold eok, evt_ok. cbn [e_dec e_id e_tail]. rewrite Lt. split; [exact D|]. split; [exact Wi|].
    assert (M := enc_subs_mod8 subs S). unfold unit_size, u in *. cbn [u_rest u_subs] in *. rewrite lenN_cons in *. repeat split; lia.
  - unfold elen. cbn [e_tail]. exact Lt.
  - intros Np. unfold eplain, plain. cbn [e_id e_tail]. rewrite Lt. exact Np.
Qed.
Lemma units_events us : Forall (unit_for TEvents) us -> Forall not_stop us ->
  exists l, map eb l = map enc_unit us /\ map elen l = map unit_size us /\ Forall eok l /\ Forall eplain l.
Proof.
  induction us as [|u us IH]; intros K P; [exists []; repeat split; constructor|].
  inversion K; inversion P; subst. destruct IH as (l & E & El & Kl & Pl); auto.
  destruct (unit_event u) as (e & Ee & Ke & Le & Pe); auto. exists (e :: l). cbn [map]. rewrite E, El, Ee, Le. repeat split; constructor; auto.
Qed.
Lemma Forall_sizes (f : N -> Prop) (l : list ev) us : map elen l = map unit_size us -> Forall (fun u => f (unit_size u)) us -> Forall (fun e => f (elen e)) l.
Proof.
  revert us. induction l as [|e l IH]; intros [|u us] E H; try discriminate; [constructor|]. cbn [map] in E. injection E as E1 E2. inversion H; subst. constructor; [rewrite E1; auto|]. eapply IH; eauto.
Qed.

(* the file: start event, whatever is written, end event *)
Lemma hld_file g0 g1 run d0 t0 d1 t1 bufs us :
  lenN g0 = 32 -> Forall isbyte g0 -> lenN g1 = 32 -> Forall isbyte g1 -> concat bufs = enc_units us ->
  exists f0 f, open_write g0 run d0 t0 = Ok f0 /\ close_write (write_buffers f0 bufs) g1 run d1 t1 = Ok f /\
    f = eb (mark EvtId_runStart run d0 t0) ++ enc_units us ++ eb (mark EvtId_runStop run d1 t1).
Proof.
  intros L0 B0 L1 B1 C. eexists. eexists. unfold open_write, close_write. rewrite !init_mark by (auto; reflexivity).
  split; [reflexivity|]. cbn [bind]. split; [reflexivity|]. rewrite write_buffers_eq, C. unfold write_buffer. rewrite lenN_eb, mark_len.
  change (32 =? 0) with false. cbn [fst]. rewrite <- app_assoc. reflexivity.
Qed.

Lemma stop_mark run d t : is_end (mark EvtId_runStop run d t).
Proof. split; [apply mark_ok; reflexivity|]. split; [apply mark_len|reflexivity]. Qed.

(* Events recorded through any buffers come back one by one, with the run number;
   reading stops at the end marker. *)
Theorem C40_one_by_one g0 g1 run d0 t0 d1 t1 bufs us maxsz :
  lenN g0 = 32 -> Forall isbyte g0 -> lenN g1 = 32 -> Forall isbyte g1 ->
  word run -> word d0 -> word t0 ->
  Forall (unit_for TEvents) us -> Forall not_stop us -> concat bufs = enc_units us ->
  32 <= maxsz -> Forall (fun u => unit_size u <= maxsz) us ->
  exists f0 f s, open_write g0 run d0 t0 = Ok f0 /\ close_write (write_buffers f0 bufs) g1 run d1 t1 = Ok f /\
    open_read f = Ok (Some (s, run)) /\
    read_loop (S (length us)) (read_event maxsz) s = Ok (map enc_unit us, true).
Proof.
  intros L0 B0 L1 B1 Wr W0 Wt K P C M32 Mx.
  destruct (hld_file g0 g1 run d0 t0 d1 t1 bufs us L0 B0 L1 B1 C) as (f0 & f & O & Cl & ->).
  exists f0. eexists. eexists. split; [exact O|]. split; [exact Cl|]. rewrite open_read_at by auto. split; [reflexivity|].
  destruct (units_events us K P) as (l & E & El & Kl & Pl).
  unfold enc_units. rewrite <- E. rewrite <- (app_nil_r (eb (mark EvtId_runStop run d1 t1))).
  apply read_events; auto using stop_mark.
  - apply (Forall_sizes (fun n => n <= maxsz) l us); auto.
  - assert (Ll := f_equal (@length _) E). rewrite !map_length in Ll. lia.
Qed.
Print Assumptions C40_one_by_one.

(* Reading in blocks of any size that can hold the largest event: the blocks
   delivered are whole events and together all events in order - unless the code
   reads a header that was read only in part, which is undefined; that never happens
   when the block size and all event sizes are multiples of 16. *)
Lemma map_ebs l us bs : map eb l = map enc_unit us -> concat bs = l ->
  exists bs', concat bs' = us /\ map enc_units bs' = map ebs bs /\ (Forall (fun b => b <> []) bs -> Forall (fun b => b <> []) bs').
Proof.
  intros E <-. revert us E. induction bs as [|b bs IH]; intros us E.
  - destruct us; [|discriminate]. exists []. repeat split; constructor.
  - cbn [concat] in E. rewrite map_app in E.
    assert (Sp : exists u1 u2, us = u1 ++ u2 /\ map enc_unit u1 = map eb b /\ map enc_unit u2 = map eb (concat bs)).
    { exists (firstn (length b) us), (skipn (length b) us). split; [symmetry; apply firstn_skipn|].
      rewrite <- firstn_map, <- skipn_map, <- E. rewrite <- (map_length eb b). rewrite firstn_app, skipn_app, Nat.sub_diag, firstn_all, skipn_all.
      cbn [firstn skipn app]. rewrite app_nil_r. auto. }
    destruct Sp as (u1 & u2 & -> & E1 & E2). destruct (IH u2 (eq_sym E2)) as (bs' & C & M & Nn).
    exists (u1 :: bs'). cbn [concat map]. rewrite C, M. split; [reflexivity|]. split; [unfold enc_units, ebs; rewrite E1; reflexivity|].
    intros H. inversion H; subst. constructor; auto. intros ->. destruct b; [congruence|discriminate].
Qed.

Theorem C40_blocks_partial g0 g1 run d0 t0 d1 t1 bufs us maxsz :
  lenN g0 = 32 -> Forall isbyte g0 -> lenN g1 = 32 -> Forall isbyte g1 ->
  word run -> word d0 -> word t0 ->
  Forall (unit_for TEvents) us -> Forall not_stop us -> concat bufs = enc_units us ->
  32 <= maxsz -> Forall (fun u => unit_size u <= maxsz) us ->
  exists f0 f s, open_write g0 run d0 t0 = Ok f0 /\ close_write (write_buffers f0 bufs) g1 run d1 t1 = Ok f /\
    open_read f = Ok (Some (s, run)) /\
    (let r := read_loop (S (S (length us))) (read_block maxsz) s in
     (r = UB /\ ~ (maxsz mod 16 = 0 /\ Forall (fun u => unit_size u mod 16 = 0) us)) \/
     exists bs, r = Ok (map enc_units bs, true) /\ concat bs = us /\ Forall (fun b => b <> []) bs).
Proof.
  intros L0 B0 L1 B1 Wr W0 Wt K P C M32 Mx.
  destruct (hld_file g0 g1 run d0 t0 d1 t1 bufs us L0 B0 L1 B1 C) as (f0 & f & O & Cl & ->).
  exists f0. eexists. eexists. split; [exact O|]. split; [exact Cl|]. rewrite open_read_at by auto. split; [reflexivity|].
  destruct (units_events us K P) as (l & E & El & Kl & Pl). cbv zeta.
  assert (Ll := f_equal (@length _) E). rewrite !map_length in Ll.
  assert (Eq : enc_units us = ebs l) by (unfold enc_units, ebs; rewrite E; reflexivity). rewrite Eq.
  destruct (read_blocks maxsz (mark EvtId_runStop run d1 t1) (length l) l ltac:(lia) Kl Pl (stop_mark _ _ _)
     (Forall_sizes (fun n => n <= maxsz) l us El Mx) M32 (S (S (length us))) ltac:(lia)) as [(U & Um)|(bs & Cb & Nb & R)].
  - left. split; [exact U|]. intros (M1 & M2). apply Um; auto. apply (Forall_sizes (fun n => n mod 16 = 0) l us); auto.
  - right. destruct (map_ebs l us bs E Cb) as (bs' & C' & M' & N'). exists bs'. rewrite M'. auto.
Qed.
Print Assumptions C40_blocks_partial.

(* block sizes that cut a header: undefined although every event fits *)
Definition demo_hunit (n : N) : hunit := mkUnit false 0x30001 [0x2001; n; 1; 2; 3; 0] [mkSub false 0x20001 4 n [1;2;3;4;5;6;7;8] []].
Theorem C40_blocks_refuted : exists us maxsz, Forall (unit_for TEvents) us /\ Forall not_stop us /\ 
  maxsz mod 8 = 0 /\ Forall (fun u => unit_size u <= maxsz) us /\
  let f := eb (mark EvtId_runStart 1 2 3) ++ enc_units us ++ eb (mark EvtId_runStop 1 2 3) in
  exists s, open_read f = Ok (Some (s, 1)) /\ read_loop 5 (read_block maxsz) s = UB.
Proof.
  exists [demo_hunit 1], 64.
  assert (K : unit_for TEvents (demo_hunit 1)). { split; [|reflexivity]. split; [split; [reflexivity|discriminate]|]. split; [repeat constructor|]. split; [|reflexivity]. repeat constructor; discriminate. }
  split; [repeat constructor; apply K|]. split; [constructor; [left; discriminate|constructor]|]. split; [reflexivity|]. split; [constructor; [discriminate|constructor]|].
  cbv zeta. eexists. split; vm_compute; reflexivity.
Qed.
Print Assumptions C40_blocks_refuted.

Example C40_example : let us := [demo_hunit 1; demo_hunit 2; demo_hunit 3] in
  let f := eb (mark EvtId_runStart 1 2 3) ++ enc_units us ++ eb (mark EvtId_runStop 1 2 3) in
  exists s, open_read f = Ok (Some (s, 1)) /\
    read_loop 5 (read_block 112) s = Ok ([enc_units [demo_hunit 1; demo_hunit 2]; enc_units [demo_hunit 3]], true) /\
    read_loop 5 (read_event 56) s = Ok (map enc_unit us, true).
Proof. cbv zeta. eexists. split; [vm_compute; reflexivity|]. split; vm_compute; reflexivity. Qed.

(* ---- C43: trigger distance ---- *)
Open Scope Z_scope.

Theorem C43_distance_partial max prev next : 0 < max < 2^31 -> 0 <= prev < max -> 0 <= next < max ->
  (exists k, trig_diff max prev next = next - prev + k * max) /\
  (forall k, Z.abs (trig_diff max prev next) <= Z.abs (next - prev + k * max)) /\
  trig_diff max next prev = - trig_diff max prev next.
Proof.
  intros M P N. split; [apply trig_diff_spec; auto|]. split; [intros k; apply trig_diff_min; auto|]. apply trig_diff_anti; auto.
Qed.
Print Assumptions C43_distance_partial.
Example C43_example : trig_diff 0x1000000 0xFFFFFE 3 = 5 /\ trig_diff 0x1000000 3 0xFFFFFE = -5 /\ trig_diff 16 0 8 = 8 /\ trig_diff 16 8 0 = -8.
Proof. vm_compute. auto. Qed.

(* with the full 31-bit range the int conversion of the range is negative *)
Theorem C43_range_2_31_refuted : exists prev next, 0 <= prev < 2^31 /\ 0 <= next < 2^31 /\
  trig_diff (2^31) prev next <> next - prev /\ Z.abs (next - prev) = 1 /\ Z.abs (trig_diff (2^31) prev next) = 2^31 - 1.
Proof. exists 5, 6. vm_compute. repeat split; discriminate. Qed.
Print Assumptions C43_range_2_31_refuted.
