(* Model of dabc::Queue<T,canexpand> and dabc::RecordsQueue<T,canexpand>,
   /repo/base/dabc/Queue.h.

   A queue is the C++ object: the allocated array (a list of cells, [None] =
   a cell never written), and the members fSize, fHead, fTail, fInitSize.
   Pointers into the array are indices relative to fQueue; fCapacity is the
   array length (they are only changed together, Queue.h:115-132, 150-168).
   [fQueue == nullptr] is the empty array; dereferencing any index is then UB.

   Simplified: memory allocation always succeeds (Expand never returns false);
   fSize is a nat, and Pop on an empty queue, which in C++ makes fSize wrap to
   2^32-1 (Queue.h:259-268), is the outcome UB. *)
From Verif Require Import Common.

Section Queue.
Context {T : Type}.
Variable eqb : T -> T -> bool.     (* operator== of T, used by Remove, Queue.h:177 *)
Variable rst : T -> T.             (* T::reset(), used by RecordsQueue *)
Variable canexpand : bool.         (* template parameter, Queue.h:40 *)
Variable isrec : bool.             (* false: Queue, true: RecordsQueue *)

Record queue := mkQ {
  q_arr  : list (option T);  (* fQueue .. fBorder, Queue.h:85-87 *)
  q_size : nat;              (* fSize, Queue.h:88 *)
  q_head : nat;              (* fHead - fQueue, Queue.h:89 *)
  q_tail : nat;              (* fTail - fQueue, Queue.h:90 *)
  q_init : nat               (* fInitSize, Queue.h:91 *)
}.

Definition capacity (q : queue) := length (q_arr q).     (* Queue.h:319 *)

Definition rd (a : list (option T)) (i : nat) : res T :=
  match nth_error a i with Some (Some v) => Ok v | _ => UB end.

Definition wr (a : list (option T)) (i : nat) (v : T) : res (list (option T)) :=
  if i <? length a then Ok (upd a i (Some v)) else UB.

(* "if (++p == fBorder) p = fQueue" *)
Definition wrap (cap i : nat) : nat := if i =? cap then 0 else i.

(* Queue(), Queue.h:96 *)
Definition qnull : queue := mkQ [] 0 0 0 0.

(* Allocate, Queue.h:115-132.  With capacity 0 the array is deleted, but fSize,
   fHead and fTail keep their (now dangling) values. *)
Definition allocate (q : queue) (cap : nat) : queue :=
  if 0 <? cap then mkQ (repeat None cap) 0 0 0 (q_init q)
  else mkQ [] (q_size q) (q_head q) (q_tail q) (q_init q).

(* Init, Queue.h:109-113 *)
Definition qinit (q : queue) (cap : nat) : queue :=
  allocate (mkQ (q_arr q) (q_size q) (q_head q) (q_tail q) cap) cap.

(* Queue(unsigned), Queue.h:98-101 *)
Definition qnew (cap : nat) : queue := qinit qnull cap.

(* Item, Queue.h:280-289 (address computation of ItemPtr 299-301) *)
Definition item_idx (q : queue) (indx : nat) : nat :=
  let i := q_tail q + indx in
  if capacity q <=? i then i - capacity q else i.

Definition item (q : queue) (indx : nat) : res T := rd (q_arr q) (item_idx q indx).

(* memcpy of [n] cells starting at [from] *)
Definition cells (a : list (option T)) (from n : nat) : res (list (option T)) :=
  if from + n <=? length a then Ok (firstn n (skipn from a)) else UB.

(* RecordsQueue::CopyTo, Queue.h:431-435: element-wise assignment *)
Fixpoint copy_items (q : queue) (k n : nat) : res (list (option T)) :=
  match n with
  | O => Ok []
  | S m => do v <- item q k; do r <- copy_items q (S k) m; Ok (Some v :: r)
  end.

(* Queue::CopyTo, Queue.h:136-147, or the override above *)
Definition copy_to (q : queue) : res (list (option T)) :=
  if isrec then copy_items q 0 (q_size q)
  else if 0 <? q_size q then
    if q_tail q <? q_head q then cells (q_arr q) (q_tail q) (q_head q - q_tail q)
    else
      do a <- cells (q_arr q) (q_tail q) (capacity q - q_tail q);
      do b <- cells (q_arr q) 0 (q_head q);
      Ok (a ++ b)
  else Ok [].

(* Expand, Queue.h:150-168 *)
Definition expand (q : queue) (newcap : nat) : res queue :=
  let n1 := if newcap <=? capacity q then capacity q * 2 else newcap in
  let n2 := if n1 <? 16 then 16 else n1 in
  do c <- copy_to q;
  if length c <=? n2 then
    Ok (mkQ (c ++ repeat None (n2 - length c)) (q_size q) (q_size q) 0 (q_init q))
  else UB.

(* MakePlaceForNext, Queue.h:210-213 *)
Definition make_place (q : queue) : res (bool * queue) :=
  if q_size q <? capacity q then Ok (true, q)
  else if canexpand then do q' <- expand q 0; Ok (true, q')
  else Ok (false, q).

(* Push, Queue.h:215-224; PushRef, Queue.h:240-249.  The result says whether
   the value was stored (the C++ function only prints an error otherwise). *)
Definition push (q : queue) (v : T) : res (bool * queue) :=
  do (ok, q1) <- make_place q;
  if ok then
    do a <- wr (q_arr q1) (q_head q1) v;
    Ok (true, mkQ a (S (q_size q1)) (wrap (length a) (S (q_head q1))) (q_tail q1) (q_init q1))
  else Ok (false, q1).

(* PushEmpty, Queue.h:226-237: returns the index of the new cell *)
Definition push_empty (q : queue) : res (option nat * queue) :=
  do (ok, q1) <- make_place q;
  if ok then
    Ok (Some (q_head q1),
        mkQ (q_arr q1) (S (q_size q1)) (wrap (capacity q1) (S (q_head q1))) (q_tail q1) (q_init q1))
  else Ok (None, q1).

(* the use of PushEmpty in the code base: fill the returned cell *)
Definition push_empty_fill (q : queue) (v : T) : res (bool * queue) :=
  do (r, q1) <- push_empty q;
  match r with
  | None => Ok (false, q1)
  | Some i => do a <- wr (q_arr q1) i v;
              Ok (true, mkQ a (q_size q1) (q_head q1) (q_tail q1) (q_init q1))
  end.

(* PopOnly, Queue.h:251-257; RecordsQueue::PopOnly, Queue.h:429 *)
Definition pop_only_base (q : queue) : queue :=
  if 0 <? q_size q then
    mkQ (q_arr q) (q_size q - 1) (q_head q) (wrap (capacity q) (S (q_tail q))) (q_init q)
  else q.

Definition reset_cell (q : queue) (i : nat) : res queue :=
  match nth_error (q_arr q) i with
  | None => UB
  | Some c => Ok (mkQ (upd (q_arr q) i (option_map rst c)) (q_size q) (q_head q) (q_tail q) (q_init q))
  end.

Definition pop_only (q : queue) : res queue :=
  if isrec then do q1 <- reset_cell q (q_tail q); Ok (pop_only_base q1)
  else Ok (pop_only_base q).

(* Pop, Queue.h:259-268 *)
Definition pop (q : queue) : res (T * queue) :=
  if q_size q =? 0 then UB
  else
    do v <- rd (q_arr q) (q_tail q);
    Ok (v, mkQ (q_arr q) (q_size q - 1) (q_head q) (wrap (capacity q) (S (q_tail q))) (q_init q)).

(* Front, Queue.h:270-276 *)
Definition front (q : queue) : res T := rd (q_arr q) (q_tail q).

(* Back, Queue.h:304-310; fSize-1 on an empty queue is 2^32-1 *)
Definition back (q : queue) : res T :=
  if q_size q =? 0 then UB else item q (q_size q - 1).

(* Remove, Queue.h:170-188: the do-while loop over [i_src], [i_tgt] *)
Fixpoint remove_loop (fuel : nat) (head : nat) (v : T)
         (a : list (option T)) (size tgt src : nat) : res (list (option T) * nat * nat) :=
  match fuel with
  | O => Loop
  | S f =>
    do x <- rd a src;
    do (a1, size1, tgt1) <-
       (if eqb x v then Ok (a, size - 1, tgt)
        else do a' <- (if tgt =? src then Ok a else wr a tgt x);
             Ok (a', size, wrap (length a) (S tgt)));
    let src1 := wrap (length a) (S src) in
    if src1 =? head then Ok (a1, size1, tgt1) else remove_loop f head v a1 size1 tgt1 src1
  end.

Definition remove (q : queue) (v : T) : res (bool * queue) :=
  if q_size q =? 0 then Ok (false, q)
  else
    do (a, size, tgt) <- remove_loop (S (capacity q)) (q_head q) v (q_arr q) (q_size q) (q_tail q) (q_tail q);
    (* "return i_tgt != i_src" with i_src == old fHead *)
    Ok (negb (tgt =? q_head q), mkQ a size tgt (q_tail q) (q_init q)).

(* RemoveItem, Queue.h:190-208 *)
Fixpoint remove_item_loop (fuel : nat) (head : nat) (a : list (option T)) (tgt : nat)
  : res (list (option T) * nat) :=
  match fuel with
  | O => Loop
  | S f =>
    let src := wrap (length a) (S tgt) in
    if src =? head then Ok (a, tgt)
    else do x <- rd a src; do a' <- wr a tgt x; remove_item_loop f head a' src
  end.

Definition remove_item (q : queue) (indx : nat) : res (bool * queue) :=
  if q_size q <=? indx then Ok (false, q)
  else
    do (a, tgt) <- remove_item_loop (S (capacity q)) (q_head q) (q_arr q) (item_idx q indx);
    Ok (true, mkQ a (q_size q - 1) tgt (q_tail q) (q_init q)).

(* Queue::Reset, Queue.h:312-317 *)
Definition reset_base (q : queue) : queue := mkQ (q_arr q) 0 0 0 (q_init q).

Fixpoint reset_items (q : queue) (k n : nat) : res queue :=
  match n with
  | O => Ok q
  | S m => do q1 <- reset_cell q (item_idx q k); reset_items q1 (S k) m
  end.

(* RecordsQueue::Reset, Queue.h:439-448 *)
Definition reset (q : queue) : res queue :=
  if isrec then
    if capacity q =? q_init q then
      do q1 <- reset_items q 0 (q_size q); Ok (reset_base q1)
    else Ok (allocate q (q_init q))
  else Ok (reset_base q).

(* for (iter = begin(); iter != end(); ++iter) visit( *iter() );
   Iterator: Queue.h:44-78, begin/end: Queue.h:327-328 *)
Fixpoint iter_loop (fuel : nat) (a : list (option T)) (itm lp eitm elp : nat) : res (list T) :=
  if (itm =? eitm) && (lp =? elp) then Ok []
  else match fuel with
       | O => Loop
       | S f =>
         do x <- rd a itm;
         let nx := S itm in
         do r <- (if nx =? length a then iter_loop f a 0 (S lp) eitm elp
                  else iter_loop f a nx lp eitm elp);
         Ok (x :: r)
       end.

Definition iterate (q : queue) : res (list T) :=
  iter_loop (2 * capacity q) (q_arr q) (q_tail q) 0
            (q_head q) (if q_tail q <? q_head q then 0 else 1).

End Queue.

(* Sequence of calls on the modelled object. *)
From Verif Require Import QueueSpec.
Section Run.
Context {T : Type}.
Variable eqb : T -> T -> bool.
Variable rst : T -> T.
Variable canexpand isrec : bool.

Definition m_step (o : qop T) (q : queue (T:=T)) : res (qout T * queue) :=
  match o with
  | QPush v => do (b, q1) <- push canexpand isrec q v; Ok (RBool b, q1)
  | QPushEmpty v => do (b, q1) <- push_empty_fill canexpand isrec q v; Ok (RBool b, q1)
  | QPop => do (v, q1) <- pop q; Ok (RVal v, q1)
  | QPopOnly => do q1 <- pop_only rst isrec q; Ok (RUnit, q1)
  | QFront => do v <- front q; Ok (RVal v, q)
  | QBack => do v <- back q; Ok (RVal v, q)
  | QItem i => do v <- item q i; Ok (RVal v, q)
  | QSize => Ok (RNat (q_size q), q)                        (* Queue.h:321 *)
  | QEmpty => Ok (RBool (q_size q =? 0), q)                 (* Queue.h:325 *)
  | QFull => Ok (RBool (q_size q =? capacity q), q)         (* Queue.h:323 *)
  | QCapacity => Ok (RNat (capacity q), q)                  (* Queue.h:319 *)
  | QRemove v => do (_, q1) <- remove eqb q v; Ok (RUnit, q1)
  | QRemoveItem i => do (b, q1) <- remove_item q i; Ok (RBool b, q1)
  | QExpand n => do q1 <- expand isrec q n; Ok (RUnit, q1)
  | QReset => do q1 <- reset rst isrec q; Ok (RUnit, q1)
  | QIterate => do l <- iterate q; Ok (RList l, q)
  end.

Fixpoint m_run (ops : list (qop T)) (q : queue) : res (list (qout T) * queue) :=
  match ops with
  | [] => Ok ([], q)
  | o :: r => do (x, q1) <- m_step o q; do (xs, q2) <- m_run r q1; Ok (x :: xs, q2)
  end.
End Run.
