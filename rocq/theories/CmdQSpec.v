(* Specification of the commands queue: entries carry the number of the Push call which
   brought them, and that number is also the ticket returned by Push. *)
From Verif Require Import Common.
Open Scope N_scope.

Inductive kind := KNone | KSubmit | KReply | KAssign | KPost.
Definition kind_eqb (a b : kind) : bool :=
  match a, b with KNone, KNone | KSubmit, KSubmit | KReply, KReply | KAssign, KAssign | KPost, KPost => true | _, _ => false end.

Record entry : Type := mkE { e_ticket : N; e_cmd : nat; e_kind : kind }.
Record spec : Type := mkSp { sp_list : list entry; sp_next : N }.

Inductive sop : Type := SPush (c : nat) (k : kind) | SPop | SPopTicket (t : N) | SPopKind (k : kind) | SChange (c : nat) (k : kind) | SCleanup.
(* what a call gives: a ticket, or the entries taken out *)
Inductive sout : Type := Ticket (t : N) | Taken (l : list entry).

(* the first entry with a property *)
Fixpoint first (p : entry -> bool) (l : list entry) : option (entry * list entry) :=
  match l with
  | [] => None
  | e :: l => if p e then Some (e, l) else match first p l with Some (x, r) => Some (x, e :: r) | None => None end
  end.
Fixpoint change (c : nat) (k : kind) (l : list entry) : option (N * list entry) :=
  match l with
  | [] => None
  | e :: l => if (e_cmd e =? c)%nat then Some (e_ticket e, mkE (e_ticket e) c k :: l)
              else match change c k l with Some (t, r) => Some (t, e :: r) | None => None end
  end.

(* [k0]: kind of the queue, used when Push is given none *)
Definition real_kind (k0 k : kind) : kind := if kind_eqb k KNone then k0 else k.
Definition spush (k0 : kind) (s : spec) (c : nat) (k : kind) : spec * sout :=
  (mkSp (sp_list s ++ [mkE (sp_next s) c (real_kind k0 k)]) (sp_next s + 1), Ticket (sp_next s)).
Definition stake (s : spec) (p : entry -> bool) : spec * sout :=
  match first p (sp_list s) with Some (e, l) => (mkSp l (sp_next s), Taken [e]) | None => (s, Taken []) end.
Definition sstep (k0 : kind) (s : spec) (o : sop) : spec * sout :=
  match o with
  | SPush c k => spush k0 s c k
  | SPop => stake s (fun _ => true)
  | SPopTicket t => stake s (fun e => e_ticket e =? t)
  | SPopKind k => stake s (fun e => kind_eqb (e_kind e) k)
  | SChange c k => match change c k (sp_list s) with Some (t, l) => (mkSp l (sp_next s), Ticket t) | None => spush k0 s c k end
  | SCleanup => (mkSp [] (sp_next s), Taken (sp_list s))
  end.
Fixpoint srun (k0 : kind) (s : spec) (l : list sop) : spec * list sout :=
  match l with
  | [] => (s, [])
  | o :: l => let (s, x) := sstep k0 s o in let (s, r) := srun k0 s l in (s, x :: r)
  end.
Definition start : spec := mkSp [] 0.
