(* What a command line means. *)
From Verif Require Import Common Bytes DecStr.
Open Scope N_scope.

Inductive value := VStr (s : bytes) | VInt (n : N).
Record cmdrec : Type := mkCR { cr_name : bytes; cr_fields : list (bytes * value) }.
(* a field is replaced or added *)
Fixpoint put (l : list (bytes * value)) (k : bytes) (v : value) : list (bytes * value) :=
  match l with
  | [] => [(k, v)]
  | x :: r => if bytes_eqb (fst x) k then (k, v) :: r else x :: put r k v
  end.
Fixpoint get (l : list (bytes * value)) (k : bytes) : option value :=
  match l with [] => None | x :: r => if bytes_eqb (fst x) k then Some (snd x) else get r k end.

(* name=value or a plain argument; the flag says whether it is written in quotes *)
Inductive arg := Named (n v : bytes) (q : bool) | Plain (p : bytes) (q : bool).
Definition quoted (q : bool) (v : bytes) : bytes := if q then [34] ++ v ++ [34] else v.
Definition text (a : arg) : bytes := match a with Named n v q => n ++ [61] ++ quoted q v | Plain p q => quoted q p end.
(* spaces before each part and at the end *)
Fixpoint line (parts : list (nat * bytes)) (tail : nat) : bytes :=
  match parts with [] => repeat 32 tail | (n, p) :: r => repeat 32 n ++ p ++ line r tail end.

Definition free (x : N) (l : bytes) : Prop := ~ In x l.
Definition word (l : bytes) : Prop := l <> [] /\ free 32 l /\ free 34 l.
Definition wf (a : arg) : Prop :=
  match a with
  | Named n v q => word n /\ free 61 n /\ free 34 v /\ (q = false -> free 32 v)
  | Plain p q => free 34 p /\ (q = false -> p <> [] /\ free 32 p /\ free 61 p)
  end.

(* ASCII: "Arg" and "NumArg" *)
Definition arg_key (n : N) : bytes := [65; 114; 103] ++ dec n.
Definition num_key : bytes := [78; 117; 109; 65; 114; 103].
(* fields for the arguments; [f] is what becomes of an argument name, and plain arguments
   in quotes keep them *)
Fixpoint fields (f : bytes -> bytes) (l : list arg) (narg : N) (r : list (bytes * value)) : list (bytes * value) :=
  match l with
  | [] => if 0 <? narg then put r num_key (VInt narg) else r
  | Named n v _ :: l => fields f l narg (put r (f n) (VStr v))
  | Plain p q :: l => fields f l (narg + 1) (put r (arg_key narg) (VStr (quoted q p)))
  end.
