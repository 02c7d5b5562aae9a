(* Items of a module: five numbered lists (inputs, outputs, pools, timers, user items). *)
From Verif Require Import Common.

Inductive kind : Type := KInput | KOutput | KPool | KTimer | KUser.
Definition kind_eqb (a b : kind) : bool :=
  match a, b with
  | KInput, KInput | KOutput, KOutput | KPool, KPool | KTimer, KTimer | KUser, KUser => true
  | _, _ => false
  end.

(* what is done with a module; an item is named by its serial number of creation *)
Inductive op : Type :=
| OCreate (k : kind) (name : N)      (* CreateInput, CreateOutput, ... *)
| ODelete (x : nat)                  (* the item is deleted while it is a child of the module *)
| ODestroy (x : nat)                 (* the item is destroyed by reference: cleanup, then delete *)
| OProduce (k : kind) (n : nat)      (* an event for item [n] of the list [k] *)
| OActivatePool (n : nat)            (* the user asks for another event of pool [n] *)
| OProcess.                          (* the thread of the module handles the next event *)

(* one call of a handler: ProcessInputEvent(n), ProcessOutputEvent(n), ... *)
Definition call : Type := (kind * nat)%type.

(* What is wanted: lists of named items, the number of an item being its position in its
   list; events are handled in order, with the number the item has at that time; events of
   items which are gone are dropped. *)
Record sstate : Type := mkS { s_next : nat; s_vec : kind -> list (nat * N); s_queue : list (kind * nat) }.
Definition s_empty : sstate := mkS 0 (fun _ => []) [].
Definition s_set (s : sstate) (k : kind) (l : list (nat * N)) : kind -> list (nat * N) := fun k' => if kind_eqb k k' then l else s_vec s k'.
Definition known (l : list (nat * N)) (name : N) : bool := negb (name =? 0)%N && existsb (fun e => (snd e =? name)%N) l.
Definition without (x : nat) (l : list (nat * N)) : list (nat * N) := filter (fun e => negb (fst e =? x)) l.
Fixpoint position (x : nat) (l : list (nat * N)) : option nat :=
  match l with [] => None | e :: r => if fst e =? x then Some 0 else option_map S (position x r) end.
Definition s_step (s : sstate) (o : op) : sstate * list call :=
  match o with
  | OCreate k name => if known (s_vec s k) name then (s, []) else (mkS (S (s_next s)) (s_set s k (s_vec s k ++ [(s_next s, name)])) (s_queue s), [])
  | ODelete x | ODestroy x => (mkS (s_next s) (fun k => without x (s_vec s k)) (filter (fun e => negb (snd e =? x)) (s_queue s)), [])
  | OProduce k n => match nth_error (s_vec s k) n with None => (s, []) | Some e => (mkS (s_next s) (s_vec s) (s_queue s ++ [(k, fst e)]), []) end
  | OActivatePool n => match nth_error (s_vec s KPool) n with None => (s, []) | Some e => (mkS (s_next s) (s_vec s) (s_queue s ++ [(KPool, fst e)]), []) end
  | OProcess =>
    match s_queue s with
    | [] => (s, [])
    | (k, x) :: r => (mkS (s_next s) (s_vec s) r, match position x (s_vec s k) with Some n => [(k, n)] | None => [] end)
    end
  end.
Fixpoint s_run (s : sstate) (l : list op) : sstate * list call :=
  match l with
  | [] => (s, [])
  | o :: r => let '(s1, c1) := s_step s o in let '(s2, c2) := s_run s1 r in (s2, c1 ++ c2)
  end.

(* operations for which the code does what is wanted: items are deleted from the end of
   their list, when no event of theirs is waiting *)
Definition safe (s : sstate) (o : op) : Prop :=
  match o with
  | ODelete x => (exists k l name, s_vec s k = l ++ [(x, name)]) /\ ~ In x (map snd (s_queue s))
  | ODestroy _ | OActivatePool _ => False
  | _ => True
  end.
Fixpoint all_safe (s : sstate) (l : list op) : Prop :=
  match l with [] => True | o :: r => safe s o /\ all_safe (fst (s_step s o)) r end.
