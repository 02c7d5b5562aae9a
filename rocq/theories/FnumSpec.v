(* Names of numbered files. *)
From Verif Require Import Common Bytes DecStr UrlSpec.
Local Open Scope Z_scope.

(* decimal number filled with zeros at the left *)
Definition zeros (w : nat) (n : Z) : bytes := repeat 48%N (w - length (dec (Z.to_N n))) ++ dec (Z.to_N n).
(* "_0012", for negative numbers "_-012" *)
Definition number (n : Z) : bytes := if n <? 0 then 45%N :: zeros 3 (- n) else zeros 4 n.
Definition file_name (base ext : bytes) (n : Z) : bytes := base ++ 95%N :: number n ++ ext.

(* [base]: the name given for the output, without the extension if it ends with it *)
Definition stem (name ext base : bytes) : Prop := name = base ++ ext \/ name = base /\ (forall b, name <> b ++ ext).

(* order of texts *)
Fixpoint text_lt (a b : bytes) : Prop :=
  match a, b with
  | _, [] => False
  | [], _ => True
  | x :: a, y :: b => (x < y)%N \/ x = y /\ text_lt a b
  end.

(* what follows the last slash *)
Fixpoint item (s : bytes) : bytes :=
  match s with
  | [] => []
  | c :: r => if existsb (N.eqb 47) r then item r else if (c =? 47)%N then r else s
  end.
Definition hidden (s : bytes) : Prop := exists r, item s = 46%N :: r.
Definition max_int : Z := 2147483647.
