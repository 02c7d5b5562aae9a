(* Specification for the HADAQ event builder: what an input delivers and which events
   should be built. *)
From Verif Require Import Common ListFacts Bytes HadSpec.
Local Open Scope N_scope.

(* What the event builder takes from an input: a subevent, or (second level of event
   building) an event with its subevents. *)
Inductive item := ISub (x : sub) | IEvt (u : hunit).

(* the word with trigger number and tag: trigger number of a subevent, event number of an event *)
Definition i_word (x : item) : N := match x with ISub x => s_trig x | IEvt u => nth 1 (u_rest u) 0 end.
(* the lower 8 bits are the tag, the upper 24 the trigger number *)
Definition i_tag (x : item) : N := i_word x mod 256.
Definition i_raw (x : item) : N := i_word x / 256.
Definition i_id (x : item) : N := match x with ISub x => s_id x | IEvt u => nth 0 (u_rest u) 0 end.
(* the error bit of the id *)
Definition i_err (x : item) : bool := N.testbit (i_id x) 31.
Definition i_subs (x : item) : list sub := match x with ISub x => [x] | IEvt u => u_subs u end.
(* no data: a subevent without raw data, an event without subevents *)
Definition i_empty (x : item) : bool :=
  match x with ISub x => lenN (s_raw x) =? 0 | IEvt u => lenN (enc_subs (u_subs u)) =? 0 end.
Definition i_size (x : item) : N := lenN (enc_subs (i_subs x)).
Definition item_ok (x : item) : Prop :=
  match x with ISub x => sub_ok x | IEvt u => unit_ok u /\ length (u_rest u) = 6%nat end.

(* [T] is the trigger number of [x] in a range of [2^k] numbers.  TRB2 boards deliver
   0x2bffff, 0x2b0000, 0x2c0001: a number whose lower 16 bits are zero may stand for the
   number which is 0x10000 higher. *)
Definition carries (k : N) (x : item) (T : N) : Prop :=
  T = i_raw x mod 2^k \/ (i_raw x mod 2^k) mod 0x10000 = 0 /\ T = (i_raw x mod 2^k + 0x10000) mod 2^k.

(* The trigger numbers of a stream of items: the raw number, except that after a number which
   ends with 0xffff, a number with the same upper bits which ends with 0 means the next one
   ([trb2]: subevents; ranges of more than 20 bits). *)
Definition next_number (k : N) (trb2 : bool) (last : option N) (x : item) : N :=
  let t := i_raw x mod 2^k in
  match last with
  | Some l => if trb2 && (20 <? k) && (t mod 0x10000 =? 0) && (l mod 0x10000 =? 0xffff) && (t / 0x10000 =? l / 0x10000) then (l + 1) mod 2^k else t
  | None => t
  end.
Fixpoint numbers (k : N) (trb2 : bool) (last : option N) (l : list item) : list N :=
  match l with [] => [] | x :: l => let t := next_number k trb2 last x in t :: numbers k trb2 (Some t) l end.

(* [l] without some of its elements *)
Inductive sublist {A} : list A -> list A -> Prop :=
| sl_nil : sublist [] []
| sl_skip x l m : sublist l m -> sublist l (x :: m)
| sl_keep x l m : sublist l m -> sublist (x :: l) (x :: m).

(* what the events took from input [i] *)
Definition of_input (i : nat) (l : list (N * list item)) : list item :=
  concat (map (fun g => match nth_error (snd g) i with Some x => [x] | None => [] end) l).

(* Members of an event: all inputs, or those with data when empty ones are skipped. *)
Definition used (skip : bool) (g : list item) : list item := filter (fun x => negb (skip && i_empty x)) g.
Definition tags_agree (skip : bool) (g : list item) : bool :=
  match g with [] => true | x0 :: _ => forallb (fun x => i_tag x =? i_tag x0) (used skip g) end.

(* ---- which events should be built: inputs with a (logical, unbounded) trigger number for
   every item ---- *)
Definition pick (z : Z) (f : list (Z * item)) : option item := option_map snd (find (fun p => (fst p =? z)%Z) f).
Fixpoint picks (z : Z) (fs : list (list (Z * item))) : option (list item) :=
  match fs with
  | [] => Some []
  | f :: fs => match pick z f, picks z fs with Some x, Some g => Some (x :: g) | _, _ => None end
  end.
(* the groups of items with a number present on all inputs, in the order of input 0 *)
Fixpoint groups_at (fs : list (list (Z * item))) (f0 : list (Z * item)) : list (Z * list item) :=
  match f0 with
  | [] => []
  | (z, _) :: f0 => match picks z fs with Some g => (z, g) :: groups_at fs f0 | None => groups_at fs f0 end
  end.
Definition groups (fs : list (list (Z * item))) : list (Z * list item) := groups_at fs (hd [] fs).
(* those which are wanted: with the tag check, tags have to agree *)
Definition wanted (check skip : bool) (l : list (Z * list item)) : list (Z * list item) :=
  filter (fun p => negb check || tags_agree skip (snd p)) l.

(* strictly increasing numbers with steps of at most [G] *)
Inductive climbs (G : Z) : list Z -> Prop :=
| cl_nil : climbs G []
| cl_one z : climbs G [z]
| cl_step z y l : (z < y <= z + G)%Z -> climbs G (y :: l) -> climbs G (z :: y :: l).

(* the event with the given members *)
Definition event_of (skip : bool) (g : list item) (u : hunit) : Prop :=
  u_big u = false /\ u_dec u = 0x30001 /\ u_subs u = concat (map i_subs (used skip g)).
