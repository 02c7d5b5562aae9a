(* What the parts of a URL are. *)
From Verif Require Import Common Bytes DecStr.
Open Scope N_scope.

Definition free (x : N) (l : bytes) : Prop := ~ In x l.

(* one option: name, and the value if there is one, written without or with quotes *)
Inductive quote := NoQuote | Single | Double.
Record opt : Type := mkOpt { o_key : bytes; o_val : option (quote * bytes) }.
Definition in_quotes (q : quote) (v : bytes) : bytes :=
  match q with NoQuote => v | Single => [39] ++ v ++ [39] | Double => [34] ++ v ++ [34] end.
Definition opt_text (o : opt) : bytes :=
  match o_val o with None => o_key o | Some (q, v) => o_key o ++ [61] ++ in_quotes q v end.
(* the option list, separated by '&' *)
Fixpoint opts_text (l : list opt) : bytes :=
  match l with [] => [] | [o] => opt_text o | o :: r => opt_text o ++ [38] ++ opts_text r end.
(* key: no & = and quotes; value: no & and quotes, inside quotes no such quote *)
Definition wf_key (k : bytes) : Prop := free 38 k /\ free 61 k /\ free 39 k /\ free 34 k.
Definition wf_opt (o : opt) : Prop :=
  wf_key (o_key o) /\
  match o_val o with
  | None => True
  | Some (NoQuote, v) => free 38 v /\ free 39 v /\ free 34 v
  | Some (Single, v) => free 39 v
  | Some (Double, v) => free 34 v
  end.
(* value of the first option with that name *)
Fixpoint first_value (l : list opt) (k : bytes) : option bytes :=
  match l with
  | [] => None
  | o :: r => if bytes_eqb (o_key o) k then Some (match o_val o with None => [] | Some (_, v) => v end) else first_value r k
  end.

(* a URL from its parts *)
Definition opt_part (pre : bytes) (o : option bytes) : bytes := match o with None => [] | Some x => pre ++ x end.

(* characters written as %27, %22, %20, %3E, %3C, %5B, %5D in an encoded text *)
Definition escapes : list (N * bytes) :=
  [(39, [37; 50; 55]); (34, [37; 50; 50]); (32, [37; 50; 48]); (62, [37; 51; 69]); (60, [37; 51; 67]); (91, [37; 53; 66]); (93, [37; 53; 68])].
Fixpoint escape (l : list (N * bytes)) (x : N) : bytes :=
  match l with [] => [x] | (c, p) :: r => if x =? c then p else escape r x end.
Definition encode (v : bytes) : bytes := flat_map (escape escapes) v.
