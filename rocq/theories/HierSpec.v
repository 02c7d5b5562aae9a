(* What a hierarchy shows, independently of the code: items with fields and ordered
   sub-items. *)
From Verif Require Import Common ListFacts Bytes RecordSpec.
Local Open Scope N_scope.

Inductive tree : Type := T (fields : fmap value) (kids : list (bytes * tree)).
Definition t_fields (t : tree) : fmap value := match t with T f _ => f end.
Definition t_kids (t : tree) : list (bytes * tree) := match t with T _ l => l end.

(* the first sub-item with the given name *)
Fixpoint tfind (name : bytes) (l : list (bytes * tree)) : option tree :=
  match l with
  | [] => None
  | (k, t) :: r => if beqb name k then Some t else tfind name r
  end.

(* the item at a path of names *)
Fixpoint tat (path : list bytes) (t : tree) : option tree :=
  match path with
  | [] => Some t
  | k :: p => match tfind k (t_kids t) with Some t' => tat p t' | None => None end
  end.
Definition is_item (path : list bytes) (t : tree) : Prop := tat path t <> None.

(* [a] is the beginning of the path [b] *)
Definition starts {A} (a b : list A) : Prop := exists c, b = a ++ c.

(* names starting with an underscore: the fields a list of names carries *)
Definition under : bytes := [95].
Definition named (k : bytes) : bool := match k with c :: _ => c =? 95 | [] => false end.

(* the two ways a hierarchy is transferred: everything, or names of items with the fields
   describing them *)
Inductive skind : Type := SFull | SNames.
Definition carried (k : skind) : bytes -> bool := match k with SFull => visible | SNames => named end.

(* last n elements, newest first *)
Definition newest {A} (n : N) (l : list A) : list A := takeN n (rev l).

(* what can be transferred: names are C strings, values are those of the Set methods except
   buffers, less than 2^24 fields and sub-items *)
Inductive sendable : tree -> Prop :=
| sendable_intro f l :
    Forall (fun e => cstring (fst e) /\ proper (snd e) /\ is_buffer (snd e) = false) f -> lenN f < 2^24 ->
    Forall (fun e => cstring (fst e)) l -> lenN l < 2^24 -> Forall (fun e => sendable (snd e)) l ->
    sendable (T f l).

Definition sumN (l : list N) : N := fold_right N.add 0 l.
(* upper bound for the number of bytes needed *)
Fixpoint tree_len (t : tree) : N :=
  match t with
  | T f l => 24 + sumN (map (fun e => lenN (fst e) + content_len (snd e) + 44) f)
                + sumN (map (fun e => lenN (fst e) + 12 + tree_len (snd e)) l)
  end.
