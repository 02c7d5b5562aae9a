(* CommandsQueue, CommandsQueue.cxx.  A command is known by its object.  Not modelled:
   null commands pushed into the queue, Front, FrontKind. *)
From Verif Require Import Common CmdQSpec.
Open Scope N_scope.

(* QueueRec, CommandsQueue.h:53-57 *)
Record qrec : Type := mkQ { q_cmd : nat; q_kind : kind; q_id : N }.
(* fList, fKind, fIdCounter CommandsQueue.h:72-74 *)
Record cq : Type := mkCQ { q_list : list qrec; q_dflt : kind; q_cnt : N }.
Definition empty (k : kind) : cq := mkCQ [] k 0.

(* do { fIdCounter++; } while (fIdCounter==0); on uint32_t, 76 *)
Definition next_id (n : N) : N := let m := (n + 1) mod 2 ^ 32 in if m =? 0 then 1 else m.
(* Push, CommandsQueue.cxx:71-85 *)
Definition push (q : cq) (c : nat) (k : kind) : cq * N :=
  let k := if kind_eqb k KNone then q_dflt q else k in
  let id := next_id (q_cnt q) in
  (mkCQ (q_list q ++ [mkQ c k id]) (q_dflt q) id, id).
(* the loops of PopWithKind and PopWithId: first matching record is erased *)
Fixpoint erase (p : qrec -> bool) (l : list qrec) : option (qrec * list qrec) :=
  match l with
  | [] => None
  | e :: l => if p e then Some (e, l) else match erase p l with Some (x, r) => Some (x, e :: r) | None => None end
  end.
Definition take (q : cq) (p : qrec -> bool) : cq * option qrec :=
  match erase p (q_list q) with Some (e, l) => (mkCQ l (q_dflt q) (q_cnt q), Some e) | None => (q, None) end.
(* Pop 87-98 *)
Definition pop (q : cq) : cq * option qrec :=
  match q_list q with [] => (q, None) | e :: l => (mkCQ l (q_dflt q) (q_cnt q), Some e) end.
(* PopWithKind 100-112 *)
Definition pop_kind (q : cq) (k : kind) := take q (fun e => kind_eqb (q_kind e) k).
(* PopWithId 114-126 *)
Definition pop_id (q : cq) (id : N) := take q (fun e => q_id e =? id).
(* ChangeKind 138-148 *)
Fixpoint change_kind (c : nat) (k : kind) (l : list qrec) : option (N * list qrec) :=
  match l with
  | [] => None
  | e :: l => if (q_cmd e =? c)%nat then Some (q_id e, mkQ c k (q_id e) :: l)
              else match change_kind c k l with Some (t, r) => Some (t, e :: r) | None => None end
  end.
Definition chkind (q : cq) (c : nat) (k : kind) : cq * N :=
  match change_kind c k (q_list q) with Some (t, l) => (mkCQ l (q_dflt q) (q_cnt q), t) | None => push q c k end.

(* one call; Cleanup (19-52) takes the records from the front one by one *)
Inductive qop : Type := Push (c : nat) (k : kind) | Pop | PopId (id : N) | PopKind (k : kind) | Change (c : nat) (k : kind) | Cleanup.
Inductive qout : Type := Id (n : N) | Got (l : list qrec).
Fixpoint cleanup_loop (fuel : nat) (q : cq) : cq * list qrec :=
  match fuel with
  | O => (q, [])
  | S f => match pop q with (q, Some e) => let (q, r) := cleanup_loop f q in (q, e :: r) | (q, None) => (q, []) end
  end.
Definition got (x : cq * option qrec) : cq * qout := (fst x, Got (match snd x with Some e => [e] | None => [] end)).
Definition qstep (q : cq) (o : qop) : cq * qout :=
  match o with
  | Push c k => let (q, i) := push q c k in (q, Id i)
  | Pop => got (pop q)
  | PopId i => got (pop_id q i)
  | PopKind k => got (pop_kind q k)
  | Change c k => let (q, i) := chkind q c k in (q, Id i)
  | Cleanup => let (q, l) := cleanup_loop (S (length (q_list q))) q in (q, Got l)
  end.
Fixpoint qrun (q : cq) (l : list qop) : cq * list qout :=
  match l with
  | [] => (q, [])
  | o :: l => let (q, x) := qstep q o in let (q, r) := qrun q l in (q, x :: r)
  end.
