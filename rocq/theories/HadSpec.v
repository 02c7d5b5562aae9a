(* Specification of the HADAQ data format, independent of the model. *)
From Verif Require Import Common Bytes.
Open Scope N_scope.

Definition word (x : N) : Prop := x < 2^32.

(* a decoding word according to the format: the most significant byte is zero, the
   least significant is not *)
Definition dec_ok (d : N) : Prop := d < 2^24 /\ d mod 256 <> 0.

(* a word in memory, little-endian or big-endian *)
Definition word_bytes (big : bool) (v : N) : bytes := if big then rev (le 4 v) else le 4 v.
(* a header: its words in one byte order.  Word 0 size, 1 decoding, 2 id,
   3 trigger number or event number, events: 4 date, 5 time, 6 run, 7 padding *)
Definition hdr_bytes (big : bool) (l : list N) : bytes := concat (map (word_bytes big) l).

(* What a reader learns about a subevent: size, decoding, id, trigger number and the
   data after the header, padding included. *)
Record rsub : Type := mkRS { x_size : N; x_dec : N; x_id : N; x_trig : N; x_data : bytes }.

(* A subevent: 16-byte header in one of the byte orders, raw data, padding to a
   multiple of 8 bytes. *)
Record sub : Type := mkSub { s_big : bool; s_dec : N; s_id : N; s_trig : N; s_raw : bytes; s_pad : bytes }.
Definition enc_sub (x : sub) : bytes :=
  hdr_bytes (s_big x) [16 + lenN (s_raw x); s_dec x; s_id x; s_trig x] ++ s_raw x ++ s_pad x.
Definition sub_ok (x : sub) : Prop :=
  dec_ok (s_dec x) /\ word (s_id x) /\ word (s_trig x) /\
  lenN (s_pad x) < 8 /\ (lenN (s_raw x) + lenN (s_pad x)) mod 8 = 0 /\
  16 + lenN (s_raw x) + lenN (s_pad x) < 2^32.
Definition sub_seen (x : sub) : rsub :=
  mkRS (16 + lenN (s_raw x)) (s_dec x) (s_id x) (s_trig x) (s_raw x ++ s_pad x).

Definition enc_subs (l : list sub) : bytes := concat (map enc_sub l).

(* A unit: header [size; decoding] followed by [u_rest] (events: id, event number,
   date, time, run, padding; transport units: nothing), then the subevents. *)
Record hunit : Type := mkUnit { u_big : bool; u_dec : N; u_rest : list N; u_subs : list sub }.
Definition unit_size (u : hunit) : N := 8 + 4 * lenN (u_rest u) + lenN (enc_subs (u_subs u)).
Definition unit_hdr (u : hunit) : list N := unit_size u :: u_dec u :: u_rest u.
Definition enc_unit (u : hunit) : bytes := hdr_bytes (u_big u) (unit_hdr u) ++ enc_subs (u_subs u).
Definition unit_ok (u : hunit) : Prop :=
  dec_ok (u_dec u) /\ Forall word (u_rest u) /\ Forall sub_ok (u_subs u) /\ unit_size u < 2^32.
Definition enc_units (l : list hunit) : bytes := concat (map enc_unit l).
Definition unit_seen (u : hunit) : list N * list rsub := (unit_hdr u, map sub_seen (u_subs u)).

(* ---- what a user of the write iterator wants to store ---- *)
Record wsub : Type := mkWS { ws_big : bool; ws_dec : N; ws_id : N; ws_trig : N; ws_raw : bytes }.
Record wevent : Type := mkWE { we_seq : N; we_run : N; we_date : N; we_time : N; we_subs : list wsub }.

(* space they need *)
Definition wsub_size (x : wsub) : N := (16 + lenN (ws_raw x) + 7) / 8 * 8.
Fixpoint wsubs_size (l : list wsub) : N := match l with [] => 0 | x :: l => wsub_size x + wsubs_size l end.
Definition wevent_size (e : wevent) : N := 32 + wsubs_size (we_subs e).
Fixpoint wevents_size (l : list wevent) : N := match l with [] => 0 | e :: l => wevent_size e + wevents_size l end.

Definition wsub_ok (x : wsub) : Prop :=
  dec_ok (ws_dec x) /\ word (ws_id x) /\ word (ws_trig x).
Definition wevent_ok (e : wevent) : Prop :=
  word (we_seq e) /\ word (we_run e) /\ word (we_date e) /\ word (we_time e) /\ Forall wsub_ok (we_subs e).

(* what was wanted is what is stored; only the padding bytes are free *)
Definition same_sub (x : wsub) (y : sub) : Prop :=
  s_big y = ws_big x /\ s_dec y = ws_dec x /\ s_id y = ws_id x /\ s_trig y = ws_trig x /\ s_raw y = ws_raw x.
Definition same_event (e : wevent) (u : hunit) : Prop :=
  u_big u = false /\ u_dec u = 0x30001 /\
  u_rest u = [0x2001; we_seq e; we_date e; we_time e; we_run e; 0] /\
  Forall2 same_sub (we_subs e) (u_subs u).
