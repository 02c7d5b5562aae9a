(* Specification of the MBS event format, independent of the model: little-endian
   32-bit words; the first word of a header counts 16-bit words after the first 8 bytes. *)
From Verif Require Import Common Bytes.
Open Scope N_scope.

Definition word (x : N) : Prop := x < 2^32.

(* A subevent: type word, full id word (procid + crate * 2^16 + control * 2^24), data. *)
Record msub : Type := mkMS { ms_type : N; ms_id : N; ms_raw : bytes }.
Definition msub_size (x : msub) : N := 12 + lenN (ms_raw x).
Definition enc_msub (x : msub) : bytes :=
  le 4 ((msub_size x - 8) / 2) ++ le 4 (ms_type x) ++ le 4 (ms_id x) ++ ms_raw x.
Definition msub_ok (x : msub) : Prop :=
  word (ms_type x) /\ word (ms_id x) /\ lenN (ms_raw x) mod 2 = 0 /\ msub_size x < 2^32.
Definition enc_msubs (l : list msub) : bytes := concat (map enc_msub l).

(* An event: type word, trigger word (trigger number * 2^16), event number, subevents. *)
Record mevent : Type := mkME { me_type : N; me_trig : N; me_num : N; me_subs : list msub }.
Definition mevent_size (e : mevent) : N := 16 + lenN (enc_msubs (me_subs e)).
Definition enc_mevent (e : mevent) : bytes :=
  le 4 ((mevent_size e - 8) / 2) ++ le 4 (me_type e) ++ le 4 (me_trig e) ++ le 4 (me_num e) ++ enc_msubs (me_subs e).
Definition mevent_ok (e : mevent) : Prop :=
  word (me_type e) /\ word (me_trig e) /\ word (me_num e) /\ Forall msub_ok (me_subs e) /\ mevent_size e < 2^32.
Definition enc_mevents (l : list mevent) : bytes := concat (map enc_mevent l).

(* ---- what a user of the write iterator does ---- *)

(* a subevent is filled with pieces of data, or added as a whole *)
Inductive wsub : Type := WNew (crate procid control : N) (pieces : list bytes) | WAdd (x : msub).
(* an event is started with its number, or as copy of another one *)
Inductive wbase : Type := WNumber (num : N) | WCopy (e : mevent).
Definition wevent : Type := (wbase * list wsub)%type.

Definition mbs_type : N := 10 + 1 * 2^16.
Definition sub_of (x : wsub) : msub :=
  match x with
  | WNew crate procid control pieces => mkMS mbs_type (procid + crate * 2^16 + control * 2^24) (concat pieces)
  | WAdd x => x
  end.
Definition event_of (e : wevent) : mevent :=
  match fst e with
  | WNumber n => mkME mbs_type (1 * 2^16) n (map sub_of (snd e))
  | WCopy b => mkME (me_type b) (me_trig b) (me_num b) (me_subs b ++ map sub_of (snd e))
  end.
Definition wsub_ok (x : wsub) : Prop :=
  match x with
  | WNew crate procid control pieces => crate < 2^8 /\ procid < 2^16 /\ control < 2^8 /\ Forall (fun b => b <> []) pieces
  | WAdd _ => True
  end.
Definition wevent_ok (e : wevent) : Prop := Forall wsub_ok (snd e) /\ mevent_ok (event_of e).

(* positions of the subevents of an event at position [o] *)
Fixpoint positions (o : N) (l : list msub) : list N :=
  match l with [] => [] | x :: l => o :: positions (o + msub_size x) l end.
