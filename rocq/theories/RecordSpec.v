(* What a record is, independently of the streaming code: field values, and
   field maps as finite maps ordered by name. *)
From Verif Require Import Common ListFacts Bytes.
Open Scope N_scope.

(* Value of a record field (base/dabc/Record.h:226-258).  Numbers are given by
   their 64-bit pattern (two's complement for int, IEEE pattern for double);
   strings by their characters without the terminating zero.
   [VOther k]: a field whose kind number [k] is not one of the known kinds (only
   after reading foreign data).  [VJunk k]: a field of kind [k] whose content is
   not determined by the stream: memory that was allocated but not filled, or a
   string without terminating zero inside its memory block. *)
Inductive value : Type :=
| VNone
| VBool (w : N) | VInt (w : N) | VDatime (w : N) | VUInt (w : N) | VDouble (w : N)
| VArrInt (ws : list N) | VArrUInt (ws : list N) | VArrDouble (ws : list N)
| VStr (b : bytes)
| VArrStr (l : list bytes)
| VBuf (b : bytes)
| VRef
| VOther (k : N)
| VJunk (k : N).

Definition word (w : N) : Prop := w < 2^64.
(* characters of a C string: bytes other than zero *)
Definition cchar (b : N) : Prop := 0 < b /\ b < 256.
Definition cstring (b : bytes) : Prop := Forall cchar b.

(* the values a field can be given with the Set methods *)
Definition proper (v : value) : Prop :=
  match v with
  | VNone | VRef => True
  | VBool w | VInt w | VDatime w | VUInt w | VDouble w => word w
  | VArrInt ws | VArrUInt ws | VArrDouble ws => Forall word ws
  | VStr b => cstring b
  | VArrStr l => Forall cstring l
  | VBuf b => Forall isbyte b
  | VOther _ | VJunk _ => False
  end.

Definition is_buffer (v : value) : bool := match v with VBuf _ => true | _ => false end.

(* number of bytes of the content of a value *)
Definition content_len (v : value) : N :=
  match v with
  | VArrInt ws | VArrUInt ws | VArrDouble ws => 8 * lenN ws
  | VStr b => lenN b
  | VArrStr l => lenN (concat l) + lenN l
  | VBuf b => lenN b
  | _ => 0
  end.

(* ---- names: std::string compared as std::map does, bytewise unsigned ---- *)
Fixpoint bcmp (a b : bytes) : comparison :=
  match a, b with
  | [], [] => Eq
  | [], _ :: _ => Lt
  | _ :: _, [] => Gt
  | x :: a', y :: b' => match x ?= y with Eq => bcmp a' b' | c => c end
  end.
Definition blt (a b : bytes) : Prop := bcmp a b = Lt.

Definition beqb (a b : bytes) : bool := match bcmp a b with Eq => true | _ => false end.

(* ---- finite maps with names as keys ---- *)
Section FMap.
Context {V : Type}.
Definition fmap := list (bytes * V).

Fixpoint mget (k : bytes) (m : fmap) : option V :=
  match m with
  | [] => None
  | (k', v) :: r => if beqb k k' then Some v else mget k r
  end.

(* names strictly increasing: what std::map iteration delivers *)
Fixpoint msorted (m : fmap) : Prop :=
  match m with
  | [] => True
  | (k, _) :: r => match r with [] => True | (k', _) :: _ => blt k k' end /\ msorted r
  end.
End FMap.
Arguments fmap : clear implicits.

(* names starting with '#' and the empty name are invisible for I/O
   (base/src/Record.cxx:1457-1464) *)
Definition visible (name : bytes) : bool :=
  match name with [] => false | c :: _ => negb (c =? 35) end.

(* record: name and fields *)
Definition record : Type := bytes * fmap value.

(* the part of a record which can be saved: everything but invisible fields *)
Definition proper_record (r : record) : Prop :=
  cstring (fst r) /\ msorted (snd r) /\
  (forall k v, In (k, v) (snd r) -> cstring k /\ proper v).

Definition all_visible (r : record) : Prop := forall k v, In (k, v) (snd r) -> visible k = true.

(* ---- for differences between field maps ---- *)

(* equality of field values up to the sign of a double zero *)
Definition same_val (a b : value) : Prop :=
  a = b \/ exists x y, a = VDouble x /\ b = VDouble y /\ x mod 2^63 = 0 /\ y mod 2^63 = 0.

(* values a field can hold after the Set methods: number arrays are not empty,
   bool is 0 or 1 *)
Definition settable (v : value) : Prop :=
  proper v /\
  match v with
  | VBool w => w <= 1
  | VArrInt l | VArrUInt l | VArrDouble l => l <> []
  | _ => True
  end.
