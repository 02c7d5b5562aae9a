(* Properties C01 - C04: dabc::Queue and dabc::RecordsQueue. *)
From Verif Require Import Common QueueSpec QueueModel QueueProofs.

(* C01.  Whatever calls are made on a queue created with any capacity, as long
   as the list specification accepts them, the ring buffer answers exactly
   what the list answers (and never touches memory outside the array). *)
Theorem C01_queue_refines_list :
  forall (T : Type) (eqb : T -> T -> bool) (rst : T -> T) (canexpand isrec : bool)
         (cap : nat) (ops : list (qop T)) (outs : list (qout T)) (s : sq T),
    s_run eqb canexpand isrec ops (s_new cap) = Some (outs, s) ->
    exists q, m_run eqb rst canexpand isrec ops (qnew cap) = Ok (outs, q).
Proof. exact @run_reach. Qed.
Print Assumptions C01_queue_refines_list.

(* C01, order and no loss: the values handed out by Pop are a prefix of the
   values accepted by Push, and the rest is what the queue still holds. *)
Theorem C01_fifo_order :
  forall (T : Type) (eqb : T -> T -> bool) (rst : T -> T) (canexpand isrec : bool)
         (cap : nat) (ops : list (qop T)) (outs : list (qout T)) q,
    forallb pushpop ops = true ->
    m_run eqb rst canexpand isrec ops (qnew cap) = Ok (outs, q) ->
    exists rest, pushed ops outs = popped outs ++ rest /\ length rest = q_size q.
Proof. exact @fifo_order. Qed.
Print Assumptions C01_fifo_order.

(* a queue of capacity 2 that wraps around and is then re-allocated *)
Example C01_case :
  s_run Nat.eqb true false
    [QPush 1; QPush 2; QPop; QPush 3; QPush 4; QFull; QSize; QItem 1; QBack; QPop; QIterate; QCapacity] (s_new 2)
  = Some ([RBool true; RBool true; RVal 1; RBool true; RBool true; RBool false; RNat 3; RVal 3; RVal 4;
           RVal 2; RList [3; 4]; RNat 16], mkS [3; 4] 16 2)
  /\ (exists q, m_run Nat.eqb (fun x => x) false false [QPush 1; QPush 2; QPush 3; QPop; QPush 4] (qnew 2)
      = Ok ([RBool true; RBool true; RBool false; RVal 1; RBool true], q)).
Proof. split; [vm_compute; reflexivity|eexists; vm_compute; reflexivity]. Qed.

(* C02.  In every reachable queue: Remove leaves exactly the other items, in
   order.  Its result is right unless the queue is exactly full and consists
   of the removed value only. *)
Theorem C02_remove_partial :
  forall (T : Type) (eqb : T -> T -> bool) (rst : T -> T) (canexpand isrec : bool)
         (cap : nat) (ops : list (qop T)) (outs : list (qout T)) (s : sq T) (v : T),
    s_run eqb canexpand isrec ops (s_new cap) = Some (outs, s) ->
    exists q b q',
      m_run eqb rst canexpand isrec ops (qnew cap) = Ok (outs, q) /\
      remove eqb q v = Ok (b, q') /\
      q_size q' = length (filter (fun x => negb (eqb x v)) (s_items s)) /\
      (forall i x, nth_error (filter (fun x => negb (eqb x v)) (s_items s)) i = Some x -> item q' i = Ok x) /\
      (~ (length (s_items s) = s_cap s /\ forallb (fun x => eqb x v) (s_items s) = true) ->
       b = existsb (fun x => eqb x v) (s_items s)).
Proof. exact @remove_reach. Qed.
Print Assumptions C02_remove_partial.

Theorem C02_remove_item :
  forall (T : Type) (eqb : T -> T -> bool) (rst : T -> T) (canexpand isrec : bool)
         (cap : nat) (ops : list (qop T)) (outs : list (qout T)) (s : sq T) (i : nat),
    s_run eqb canexpand isrec ops (s_new cap) = Some (outs, s) ->
    exists q q',
      m_run eqb rst canexpand isrec ops (qnew cap) = Ok (outs, q) /\
      remove_item q i = Ok (i <? length (s_items s), q') /\
      q_size q' = length (firstn i (s_items s) ++ skipn (S i) (s_items s)) /\
      (forall k x, nth_error (firstn i (s_items s) ++ skipn (S i) (s_items s)) k = Some x -> item q' k = Ok x).
Proof. exact @remove_item_reach. Qed.
Print Assumptions C02_remove_item.

(* The full claim about the result of Remove is false: a full queue of two
   equal items is emptied, yet Remove returns false. *)
Theorem C02_remove_result_refuted :
  exists (ops : list (qop nat)) outs q q',
    m_run Nat.eqb (fun x => x) true false ops (qnew 2) = Ok (outs, q) /\
    q_size q = 2 /\ remove Nat.eqb q 7 = Ok (false, q') /\ q_size q' = 0.
Proof.
  exists [QPush 7; QPush 7]. do 3 eexists. vm_compute.
  split; [reflexivity|]. repeat split.
Qed.
Print Assumptions C02_remove_result_refuted.

Example C02_case :
  let ops := [QPush 1; QPush 5; QPush 2; QPopOnly; QPopOnly; QPush 5; QPush 3; QPush 5] in
  (exists outs, s_run Nat.eqb true false ops (s_new 4) = Some (outs, mkS [2; 5; 3; 5] 4 4)) /\
  (exists q, m_run Nat.eqb (fun x => x) true false (ops ++ [QRemove 5; QIterate]) (qnew 4)
    = Ok (repeat (RBool true) 3 ++ [RUnit; RUnit] ++ repeat (RBool true) 3 ++ [RUnit; RList [2; 3]], q)).
Proof. split; eexists; vm_compute; reflexivity. Qed.

(* C03.  Iteration over a non-empty queue visits exactly its items in order. *)
Theorem C03_iterate_partial :
  forall (T : Type) (eqb : T -> T -> bool) (rst : T -> T) (canexpand isrec : bool)
         (cap : nat) (ops : list (qop T)) (outs : list (qout T)) (s : sq T),
    s_run eqb canexpand isrec ops (s_new cap) = Some (outs, s) ->
    s_items s <> [] ->
    exists q, m_run eqb rst canexpand isrec ops (qnew cap) = Ok (outs, q) /\ iterate q = Ok (s_items s).
Proof. exact @iterate_reach. Qed.
Print Assumptions C03_iterate_partial.

(* For an empty queue the claim is false: stale items are visited, or cells
   that were never written. *)
Theorem C03_iterate_empty_refuted :
  (exists (ops : list (qop nat)) outs q,
     m_run Nat.eqb (fun x => x) true false ops (qnew 2) = Ok (outs, q) /\
     q_size q = 0 /\ iterate q = Ok [1; 2]) /\
  iterate (qnew (T := nat) 2) = UB.
Proof.
  split; [|vm_compute; reflexivity].
  exists [QPush 1; QPush 2; QPop; QPop]. do 2 eexists. vm_compute. repeat split.
Qed.
Print Assumptions C03_iterate_empty_refuted.

(* the full queue that has wrapped around is iterated correctly *)
Example C03_case :
  exists outs q, m_run Nat.eqb (fun x => x) true false
     [QPush 1; QPush 2; QPush 3; QPop; QPush 4; QIterate] (qnew 3) = Ok (outs ++ [RList [2; 3; 4]], q)
  /\ length outs = 5.
Proof. exists [RBool true; RBool true; RBool true; RVal 1; RBool true]. eexists. vm_compute. repeat split. Qed.

(* C04.  After any history, Reset, then any further calls: the answers are
   those of a fresh queue (of the construction capacity for RecordsQueue, of
   the current capacity for Queue).  For RecordsQueue the construction
   capacity must not be 0 (or the queue never was expanded). *)
Theorem C04_reset_partial :
  forall (T : Type) (eqb : T -> T -> bool) (rst : T -> T) (canexpand isrec : bool)
         (cap : nat) (ops1 : list (qop T)) outs1 s1 (ops2 : list (qop T)) outs2 s2,
    s_run eqb canexpand isrec ops1 (s_new cap) = Some (outs1, s1) ->
    isrec = false \/ 0 < cap \/ s_cap s1 = 0 ->
    s_run eqb canexpand isrec ops2 (s_new (if isrec then cap else s_cap s1)) = Some (outs2, s2) ->
    exists q, m_run eqb rst canexpand isrec (ops1 ++ QReset :: ops2) (qnew cap) = Ok (outs1 ++ RUnit :: outs2, q).
Proof. exact @reset_fresh. Qed.
Print Assumptions C04_reset_partial.

(* The default-constructed RecordsQueue: after Push and Reset it still reports
   one item, and the next Push reads freed memory. *)
Theorem C04_reset_default_refuted :
  exists (ops : list (qop nat)) outs q,
    m_run Nat.eqb (fun x => x) true true (ops ++ [QReset; QSize]) qnull = Ok (outs ++ [RUnit; RNat 1], q) /\
    m_run Nat.eqb (fun x => x) true true (ops ++ [QReset; QPush 2]) qnull = UB.
Proof. exists [QPush 1], [RBool true]. eexists. vm_compute. split; reflexivity. Qed.
Print Assumptions C04_reset_default_refuted.

Example C04_case :
  exists q, m_run Nat.eqb (fun _ => 0) true true
     (map QPush (seq 0 5) ++ QReset :: [QEmpty; QCapacity; QPush 9; QFront]) (qnew 2)
   = Ok (repeat (RBool true) 5 ++ RUnit :: [RBool true; RNat 2; RBool true; RVal 9], q).
Proof. eexists. vm_compute. reflexivity. Qed.
