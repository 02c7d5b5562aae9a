(* What a user does with slow control data, independent of the model. *)
From Verif Require Import Common Bytes.
Open Scope N_scope.

(* AddLong / AddDouble with a name, the 8-byte pattern of the value, checkduplicate *)
Inductive scall := AddLong (name : bytes) (v : N) (check : bool) | AddDouble (name : bytes) (v : N) (check : bool).
Definition call_name (c : scall) : bytes := match c with AddLong n _ _ | AddDouble n _ _ => n end.
Definition call_val (c : scall) : N := match c with AddLong _ v _ | AddDouble _ v _ => v end.
Definition call_check (c : scall) : bool := match c with AddLong _ _ b | AddDouble _ _ b => b end.
(* names are C strings, values have 8 bytes *)
Definition call_ok (c : scall) : Prop := Forall (fun x => x <> 0) (call_name c) /\ call_val c < 2^64.
(* bytes needed at most *)
Fixpoint calls_size (l : list scall) : N := match l with [] => 128 | c :: l => lenN (call_name c) + 9 + calls_size l end.
(* the value given to a name at last *)
Definition last_long (name : bytes) (l : list scall) : option N :=
  fold_left (fun r c => match c with AddLong n v _ => if list_eq_dec N.eq_dec n name then Some v else r | _ => r end) l None.
Definition last_double (name : bytes) (l : list scall) : option N :=
  fold_left (fun r c => match c with AddDouble n v _ => if list_eq_dec N.eq_dec n name then Some v else r | _ => r end) l None.
