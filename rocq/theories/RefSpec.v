(* References without counting: variables hold objects, vectors hold lists of objects. *)
From Verif Require Import Common.

(* for every object whether it has the autodestroy flag and whether Destroy was called;
   the variables; the vectors *)
Record spec : Type := mkSp { sp_objs : list (bool * bool); sp_vars : list (option nat); sp_vecs : list (list nat) }.

Inductive rop : Type :=
| New (v : nat) (autodestroy : bool)         (* v = Reference(new Object), SetAutoDestroy *)
| Assign (v w : nat)                         (* v = w *)
| Point (v o : nat)                          (* v = pointer on object o *)
| SetObj (v o : nat)                         (* v.SetObject(pointer on object o) *)
| Move (v w : nat)                           (* v << w *)
| TakeTo (v w : nat)                         (* v << w.Take() *)
| Release (v : nat)
| Destroy (v : nat)
| Add (k v : nat)                            (* vector k: Add(v) *)
| AddAt (k v pos : nat)
| Remove (k o : nat)
| RemoveAt (k n : nat)
| Extract (k n v : nat)                      (* ExtractRef(n, v) *)
| ExtractObj (k o v : nat)
| TakeLast (k v : nat)                       (* v << TakeLast() *)
| Get (k n v : nat)                          (* v = Get(n) *)
| Clear (k : nat) (owner : bool).

Definition var (s : spec) (v : nat) : option nat := nth v (sp_vars s) None.
Definition vec (s : spec) (k : nat) : list nat := nth k (sp_vecs s) [].
Definition set_var (s : spec) (v : nat) (x : option nat) : spec := mkSp (sp_objs s) (upd (sp_vars s) v x) (sp_vecs s).
Definition set_vec (s : spec) (k : nat) (l : list nat) : spec := mkSp (sp_objs s) (sp_vars s) (upd (sp_vecs s) k l).
Definition request (s : spec) (o : nat) : spec :=
  mkSp (upd (sp_objs s) o (fst (nth o (sp_objs s) (false, false)), true)) (sp_vars s) (sp_vecs s).
Definition remove_at {A} (n : nat) (l : list A) : list A := firstn n l ++ skipn (S n) l.
Definition insert_at {A} (n : nat) (x : A) (l : list A) : list A := firstn n l ++ x :: skipn n l.
Fixpoint index_of (o : nat) (l : list nat) : option nat :=
  match l with [] => None | x :: l => if x =? o then Some 0 else option_map S (index_of o l) end.

Definition spec_step (s : spec) (c : rop) : spec :=
  match c with
  | New v a => mkSp (sp_objs s ++ [(a, false)]) (upd (sp_vars s) v (Some (length (sp_objs s)))) (sp_vecs s)
  | Assign v w => set_var s v (var s w)
  | Point v o | SetObj v o => set_var s v (Some o)
  | Move v w => set_var (set_var s w None) v (var s w)
  | TakeTo v w => set_var (set_var s w None) v (var s w)
  | Release v => set_var s v None
  | Destroy v => match var s v with Some o => set_var (request s o) v None | None => s end
  | Add k v => match var s v with Some o => set_var (set_vec s k (vec s k ++ [o])) v None | None => s end
  | AddAt k v pos => match var s v with Some o => set_var (set_vec s k (insert_at pos o (vec s k))) v None | None => s end
  | Remove k o => set_vec s k (filter (fun x => negb (x =? o)) (vec s k))
  | RemoveAt k n => set_vec s k (remove_at n (vec s k))
  | Extract k n v => match nth_error (vec s k) n with Some o => set_var (set_vec s k (remove_at n (vec s k))) v (Some o) | None => s end
  | ExtractObj k o v => match index_of o (vec s k) with Some n => set_var (set_vec s k (remove_at n (vec s k))) v (Some o) | None => s end
  | TakeLast k v => set_var (set_vec s k (removelast (vec s k))) v (nth_error (vec s k) (length (vec s k) - 1))
  | Get k n v => set_var s v (nth_error (vec s k) n)
  | Clear k own => set_vec (if own : bool then fold_left request (vec s k) s else s) k []
  end.

Definition option_eq_dec (x y : option nat) : {x = y} + {x <> y}.
Proof. decide equality. apply Nat.eq_dec. Defined.
(* how often an object is referenced *)
Definition uses (s : spec) (o : nat) : nat :=
  count_occ option_eq_dec (sp_vars s) (Some o) + count_occ Nat.eq_dec (concat (sp_vecs s)) o.
(* it exists while it is referenced; without reference only when it is not destroyed
   automatically and nobody asked for its destruction *)
Definition alive (s : spec) (o : nat) : Prop :=
  o < length (sp_objs s) /\ (0 < uses s o \/ nth o (sp_objs s) (false, false) = (false, false)).

(* existing variables and vectors, pointers on existing objects; no variable is assigned
   or moved to itself, and no variable is given a pointer on the object it refers to *)
Definition op_ok (s : spec) (c : rop) : Prop :=
  let isv v := v < length (sp_vars s) in
  let isk k := k < length (sp_vecs s) in
  match c with
  | New v _ | Release v | Destroy v => isv v
  | Assign v w | Move v w => isv v /\ isv w /\ v <> w
  | TakeTo v w => isv v /\ isv w
  | Point v o | SetObj v o => isv v /\ alive s o /\ var s v <> Some o
  | Add k v | AddAt k v _ | ExtractObj k _ v | TakeLast k v | Extract k _ v | Get k _ v => isk k /\ isv v
  | Remove k _ | RemoveAt k _ | Clear k _ => isk k
  end.
Fixpoint ops_ok (s : spec) (l : list rop) : Prop :=
  match l with [] => True | c :: l => op_ok s c /\ ops_ok (spec_step s c) l end.
