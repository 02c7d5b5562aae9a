(* What a user of Queue / RecordsQueue relies on: a list of items in order of
   insertion, together with the capacity.  No ring buffer here. *)
From Verif Require Import Common.

Section Spec.
Context {T : Type}.
Variable eqb : T -> T -> bool.
Variable canexpand : bool.
Variable isrec : bool.

(* the calls of the public interface *)
Inductive qop :=
| QPush (v : T)          (* Push / PushRef *)
| QPushEmpty (v : T)     (* PushEmpty, caller fills the cell with v *)
| QPop | QPopOnly | QFront | QBack | QItem (i : nat)
| QSize | QEmpty | QFull | QCapacity
| QRemove (v : T) | QRemoveItem (i : nat)
| QExpand (n : nat) | QReset | QIterate.

(* what the call shows to the caller *)
Inductive qout := RUnit | RBool (b : bool) | RVal (v : T) | RNat (n : nat) | RList (l : list T).

Record sq := mkS { s_items : list T; s_cap : nat; s_init : nat }.

Definition s_new (cap : nat) : sq := mkS [] cap cap.

Definition s_grow (cap n : nat) : nat := Nat.max 16 (if n <=? cap then cap * 2 else n).

Definition s_push (v : T) (s : sq) : qout * sq :=
  if length (s_items s) <? s_cap s then (RBool true, mkS (s_items s ++ [v]) (s_cap s) (s_init s))
  else if canexpand then (RBool true, mkS (s_items s ++ [v]) (s_grow (s_cap s) 0) (s_init s))
  else (RBool false, s).

(* removal of the i-th item *)
Definition del (i : nat) (l : list T) : list T := firstn i l ++ skipn (S i) l.

(* [None]: the caller violated the documented precondition of the call *)
Definition s_step (o : qop) (s : sq) : option (qout * sq) :=
  match o with
  | QPush v | QPushEmpty v => Some (s_push v s)
  | QPop => match s_items s with [] => None | x :: r => Some (RVal x, mkS r (s_cap s) (s_init s)) end
  | QPopOnly =>
    match s_items s with
    | [] => if isrec && (s_cap s =? 0) then None else Some (RUnit, s)
    | _ :: r => Some (RUnit, mkS r (s_cap s) (s_init s))
    end
  | QFront => match s_items s with [] => None | x :: _ => Some (RVal x, s) end
  | QBack => match rev (s_items s) with [] => None | x :: _ => Some (RVal x, s) end
  | QItem i => match nth_error (s_items s) i with None => None | Some x => Some (RVal x, s) end
  | QSize => Some (RNat (length (s_items s)), s)
  | QEmpty => Some (RBool (length (s_items s) =? 0), s)
  | QFull => Some (RBool (length (s_items s) =? s_cap s), s)
  | QCapacity => Some (RNat (s_cap s), s)
  | QRemove v => Some (RUnit, mkS (filter (fun x => negb (eqb x v)) (s_items s)) (s_cap s) (s_init s))
  | QRemoveItem i => Some (RBool (i <? length (s_items s)), mkS (del i (s_items s)) (s_cap s) (s_init s))
  | QExpand n => Some (RUnit, mkS (s_items s) (s_grow (s_cap s) n) (s_init s))
  | QReset =>
    if isrec then
      if (s_cap s =? s_init s) || (0 <? s_init s) then Some (RUnit, mkS [] (s_init s) (s_init s)) else None
    else Some (RUnit, mkS [] (s_cap s) (s_init s))
  | QIterate => match s_items s with [] => None | l => Some (RList l, s) end
  end.

Fixpoint s_run (ops : list qop) (s : sq) : option (list qout * sq) :=
  match ops with
  | [] => Some ([], s)
  | o :: r =>
    match s_step o s with
    | None => None
    | Some (x, s1) => match s_run r s1 with None => None | Some (xs, s2) => Some (x :: xs, s2) end
    end
  end.

End Spec.
Arguments qop : clear implicits.
Arguments qout : clear implicits.
Arguments sq : clear implicits.

(* Histories of Push and Pop only: the values accepted and the values handed out. *)
Section PushPop.
Context {T : Type}.
Definition pushpop (o : qop T) : bool := match o with QPush _ | QPop => true | _ => false end.
Fixpoint pushed (ops : list (qop T)) (outs : list (qout T)) : list T :=
  match ops, outs with
  | QPush v :: r, RBool true :: o => v :: pushed r o
  | _ :: r, _ :: o => pushed r o
  | _, _ => []
  end.
Fixpoint popped (outs : list (qout T)) : list T :=
  match outs with RVal v :: r => v :: popped r | _ :: r => popped r | [] => [] end.

End PushPop.
