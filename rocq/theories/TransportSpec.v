(* Bounded first-in-first-out list: what BuffersQueue promises. *)
From Verif Require Import Common.
Section S.
Context {X : Type}.

Inductive bop :=
| BPush (x : option X) | BPop | BItem (n : nat) | BSize | BFull | BEmpty | BCleanup | BCleanupM.

Inductive bout :=
| OPush (ok : bool) (mine : option X) (lost : option X)
     (* result, the caller's buffer afterwards, a stored buffer lost by the call *)
| OPop (ok : bool) (x : option X)
| OItem (x : option X) | ONat (n : nat) | OBool (b : bool)
| OReleased (l : list (option X)).

(* [None]: precondition of the call violated *)
Definition bs_step (cap : nat) (o : bop) (l : list (option X)) : option (bout * list (option X)) :=
  match o with
  | BPush x => if length l <? cap then Some (OPush true None None, l ++ [x]) else Some (OPush false x None, l)
  | BPop => match l with [] => Some (OPop false None, []) | x :: r => Some (OPop true x, r) end
  | BItem n => match nth_error l n with Some x => Some (OItem x, l) | None => None end
  | BSize => Some (ONat (length l), l)
  | BFull => Some (OBool (length l =? cap), l)
  | BEmpty => Some (OBool (length l =? 0), l)
  | BCleanup => Some (OReleased l, [])
  | BCleanupM => if forallb (fun x => match x with Some _ => true | None => false end) l
                 then Some (OReleased l, []) else None
  end.

Fixpoint bs_run (cap : nat) (ops : list bop) (l : list (option X)) : option (list bout * list (option X)) :=
  match ops with
  | [] => Some ([], l)
  | o :: r => match bs_step cap o l with
              | None => None
              | Some (x, l1) => match bs_run cap r l1 with None => None | Some (xs, l2) => Some (x :: xs, l2) end
              end
  end.

(* Actions of a sending and a receiving thread on one transport. *)
Inductive pact :=
| PCheck            (* sender thread evaluates CanSend() *)
| PSend (x : X)     (* sender thread calls Send(x), only after CanSend() was true *)
| PRecv             (* receiver thread calls Recv() *)
| PConn (on : bool) (* input side gets connected / disconnected *).

(* The sender/receiver pair without any queue structure: what is in flight.
   Newest [cap] elements of a list: *)
Definition newest (cap : nat) (l : list X) : list X := skipn (length l - cap) l.

(* Never-blocking transport: [n_flight] is in flight, [n_ok]: CanSend() was
   asked since the last Send. *)
Record nstate := mkN { n_ok : bool; n_flight : list X; n_recv : list X; n_skip : list X; n_sent : list X }.

Definition ns_step (cap : nat) (s : nstate) (a : pact) : nstate :=
  match a with
  | PCheck => mkN true (n_flight s) (n_recv s) (n_skip s) (n_sent s)
  | PSend x =>
    if n_ok s then
      mkN false (newest cap (n_flight s ++ [x])) (n_recv s)
          (n_skip s ++ (if length (n_flight s) =? cap then firstn 1 (n_flight s) else []))
          (n_sent s ++ [x])
    else s
  | PRecv => mkN (n_ok s) (tl (n_flight s)) (n_recv s ++ firstn 1 (n_flight s)) (n_skip s) (n_sent s)
  | PConn _ => s
  end.
Definition n_init : nstate := mkN false [] [] [] [].
End S.
Arguments bop : clear implicits.
Arguments bout : clear implicits.
Arguments pact : clear implicits.
Arguments nstate : clear implicits.
