(* Vocabulary for segmented memory: a buffer is a list of segments, each a range
   of bytes in some memory object; a user sees the list of its byte locations. *)
From Verif Require Import Common.

(* one location: memory object and offset *)
Definition loc := (nat * nat)%type.

Definition loc_dec (a b : loc) : {a = b} + {a <> b}.
Proof. repeat decide equality. Defined.

(* locations of [n] bytes from (o, f) on *)
Definition range (o f n : nat) : list loc := map (fun k => (o, f + k)) (seq 0 n).

(* bytes [p, p+n) of a byte string or location list *)
Definition slice {A} (l : list A) (p n : nat) : list A := firstn n (skipn p l).

(* memory: a list of objects, None = freed *)
Definition memory (B : Type) := list (option (list B)).
Definition mget {B} (m : memory B) (a : loc) : option B :=
  match nth_error m (fst a) with Some (Some l) => nth_error l (snd a) | _ => None end.

(* successive parts of a byte string: a part is cut off only if enough is left *)
Fixpoint parts_of {A} (l : list A) (lens : list nat) : list (option (list A)) * list A :=
  match lens with
  | [] => ([], l)
  | n :: r => if length l <? n then let (ps, e) := parts_of l r in (None :: ps, e)
              else let (ps, e) := parts_of (skipn n l) r in (Some (firstn n l) :: ps, e)
  end.

(* moves of a pointer over a buffer: shift(n), setfullsize(n) *)
Inductive pmove := MShift (n : nat) | MLimit (n : nat).

(* the shift by n from position P ends on the end of a segment that begins behind P *)
Definition lands_on_endb (lens : list nat) (P n : nat) : bool :=
  existsb (fun k => (P <? list_sum (firstn k lens)) && (P + n =? list_sum (firstn (S k) lens))) (seq 0 (length lens)).

(* position and number of accessible bytes after the moves, lens: segment lengths;
   None: some shift exceeds the accessible bytes, or ends (with bytes left)
   on the end of a segment that begins behind its start *)
Fixpoint position (lens : list nat) (P F : nat) (l : list pmove) : option (nat * nat) :=
  match l with
  | [] => Some (P, F)
  | MShift n :: r => if (n <=? F) && ((n =? F) || negb (lands_on_endb lens P n)) then position lens (P + n) (F - n) r else None
  | MLimit n :: r => position lens P (Nat.min n F) r
  end.
