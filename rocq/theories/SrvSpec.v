(* What a client of an MBS server gets: for each buffer with data its bytes, or one MBS event
   around each event which is found in it. *)
From Verif Require Import Common Bytes MbsSpec.
Local Open Scope N_scope.

(* A buffer: its bytes, and the events which an iterator finds in it, each with the byte which
   follows it in memory. *)
Record buf : Type := mkB { b_data : bytes; b_events : list (bytes * N) }.

Definition odd_len (d : bytes) : bool := N.odd (lenN d).
(* MBS data comes in words of 16 bits *)
Definition padded (e : bytes * N) : bytes := if odd_len (fst e) then fst e ++ [snd e] else fst e.
Fixpoint numbered (id n : N) (l : list (bytes * N)) : list mevent :=
  match l with
  | [] => []
  | e :: r => mkME mbs_type (1 * 2^16) n [mkMS mbs_type id (padded e)] :: numbered id (n + 1) r
  end.

(* the packets a client gets; [n]: number of the next event *)
Fixpoint arrives (iter : bool) (id n : N) (l : list buf) : list bytes :=
  match l with
  | [] => []
  | b :: r =>
      if iter then
        if forallb (fun e => lenN (fst e) =? 0) (b_events b) then arrives iter id n r
        else enc_mevents (numbered id n (b_events b)) :: arrives iter id (n + lenN (b_events b)) r
      else match b_data b with [] => arrives iter id n r | d => d :: arrives iter id n r end
  end.

(* sizes which the protocol can transport: even, not above 4 MB; with the iterator the size
   of the packet, and a buffer without data has no events *)
Definition fits (iter : bool) (b : buf) : Prop :=
  if iter then lenN (enc_mevents (numbered 0 0 (b_events b))) <= 4194304 /\ (b_data b = [] -> b_events b = [])
  else lenN (b_data b) mod 2 = 0 /\ lenN (b_data b) <= 4194304.
