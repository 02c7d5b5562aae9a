(* Values and changes of hierarchies, for the update from a second hierarchy. *)
From Verif Require Import Common ListFacts Bytes RecordSpec HierSpec.
Local Open Scope N_scope.

(* a value a Set method stores as it is: not a negative zero, which compares equal to zero *)
Definition exact (v : value) : Prop := settable v /\ v <> VNone /\ v <> VDouble (2^63).

(* a double which is not a number: exponent of ones only, some bit of the fraction set *)
Definition nan (w : N) : Prop := N.land w 9218868437227405312 = 9218868437227405312 /\ N.land w 4503599627370495 <> 0.

(* values a Set method compares with the value already there *)
Definition compared (v : value) : Prop :=
  match v with
  | VDouble w => ~ nan w
  | VArrStr _ | VBuf _ | VRef => False
  | _ => True
  end.

(* all values of all items *)
Inductive values (P : value -> Prop) : tree -> Prop :=
| values_intro f l : Forall (fun e => P (snd e)) f -> Forall (fun e => values P (snd e)) l -> values P (T f l).

(* no item of both hierarchies loses a field with an underscore *)
Definition keeps_named (a b : tree) : Prop :=
  forall p x y k v, tat p a = Some x -> tat p b = Some y -> named k = true ->
  mget k (t_fields x) = Some v -> mget k (t_fields y) <> None.

(* fields of all items in the order of their names, as in a std::map *)
Inductive ordered : tree -> Prop :=
| ordered_intro f l : msorted f -> Forall (fun e => ordered (snd e)) l -> ordered (T f l).
