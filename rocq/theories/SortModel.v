(* hadaq::SorterModule, plugins/hadaq/src/SorterModule.cxx and plugins/hadaq/hadaq/SorterModule.h.
   The read iterator is abstracted to the list of subevents of a buffer (C38 proves what it
   delivers).  The output buffer has one segment.  Queue state, pool and output port are
   inputs of every call; so is std::sort, of which only the guarantee of the C++ standard is
   used.  Not modelled: commands, debug output, fBufCnt and fLastRet. *)
From Verif Require Import Common ListFacts Bytes HadSpec TrigModel SortSpec.
Local Open Scope N_scope.

(* SubsRec, SorterModule.h:41-46; the subevent is given with its arrival number *)
Record srec := mkR { r_item : item; r_trig : N; r_buf : nat }.
Definition r_sz (r : srec) : N := lenN (enc_sub (snd (r_item r))).
Definition none : N := 0xffffffff.

(* SorterModule.h:56-65 *)
Record sorter := mkS {
  q_in : list sbuf;              (* input queue *)
  q_next : nat;                  (* fNextBufIndx *)
  q_ready : nat;                 (* fReadyBufIndx *)
  q_subs : list srec;            (* fSubs *)
  q_last : N;                    (* fLastTrigger *)
  q_out : option (N * bytes);    (* fOutBuf: its size and what was written up to fOutPtr *)
  q_cnt : Z;                     (* fFlushCnt *)
  (* what happened so far *)
  q_arr : nat;                   (* number of subevents which arrived *)
  q_emit : list item;            (* subevents in the order in which fLastTrigger went over them *)
  q_sent : list sout;            (* buffers sent *)
  q_over : bool                  (* something was sent while fOutBuf had data *)
}.
Definition sorter_new : sorter := mkS [] 0 0 [] none None 5 0 [] [] false.

(* what a call finds *)
Record env := mkE {
  e_full : bool;                 (* RecvQueueFull *)
  e_can1 : bool; e_can2 : bool;  (* CanSend, at the first and the second check *)
  e_buf : option N;              (* TakeBuffer: size of the buffer *)
  e_sort : list srec -> list srec (* std::sort *)
}.

(* Diff, SorterModule.h:86-92 *)
Definition diff (k a b : N) : Z := trig_diff (Z.of_N (2^k)) (Z.of_N a) (Z.of_N b).
(* SubsComp, SorterModule.h:48-53 *)
Definition before (k : N) (l r : srec) : bool := (0 <? diff k (r_trig l) (r_trig r))%Z.
(* std::sort needs a strict weak ordering: otherwise its behaviour is undefined *)
Definition weak_order (k : N) (l : list srec) : bool :=
  forallb (fun a => forallb (fun b => forallb (fun c =>
    (negb (before k a b && before k b c) || before k a c) &&
    (negb (negb (before k a b) && negb (before k b a) && negb (before k b c) && negb (before k c b)) ||
     (negb (before k a c) && negb (before k c a)))) l) l) l.

(* the record of a subevent, SorterModule.cxx:144-148 *)
Definition rec_of (k : N) (n : nat) (x : item) : srec := mkR x (N.land (N.shiftr (s_trig (snd x)) 8) (2^k - 1)) n.
(* SorterModule.cxx:159-167: are the numbers consecutive?  the last one *)
Fixpoint consecutive (k prev : N) (l : list srec) : option N :=
  match l with
  | [] => Some prev
  | r :: l => if negb (prev =? none) && negb (diff k prev (r_trig r) =? 1)%Z then None else consecutive k (r_trig r) l
  end.

(* DecremntInputIndex, SorterModule.cxx:48-66, for the indices and fSubs *)
Definition dec_subs (n : nat) (l : list srec) : list srec :=
  map (fun r => mkR (r_item r) (r_trig r) (r_buf r - n)) (filter (fun r => (n <=? r_buf r)%nat) l).

(* the scan loop, SorterModule.cxx:114-178 over the buffers from fNextBufIndx on *)
Record scan_st := mkSc { sc_next : nat; sc_ready : nat; sc_subs : list srec; sc_last : N; sc_emit : list item; sc_new : bool }.
Inductive scan_end := ScanDone | ScanFlush | ScanEof.
Definition scan_one (k : N) (l : list item) (a : scan_st) : scan_st :=
  let subs := sc_subs a ++ map (rec_of k (sc_next a)) l in
  let new := sc_new a || match l with [] => false | _ => true end in
  match (if (sc_ready a =? sc_next a)%nat && match sc_subs a with [] => true | _ => false end then consecutive k (sc_last a) subs else None) with
  | Some last => mkSc (S (sc_next a)) (S (sc_ready a)) [] last (sc_emit a ++ l) false
  | None => mkSc (S (sc_next a)) (sc_ready a) subs (sc_last a) (sc_emit a) new
  end.
Fixpoint scan (k : N) (bufs : list sbuf) (a : scan_st) : scan_st * scan_end :=
  match bufs with
  | [] => (a, ScanDone)
  | SEof :: _ => (a, if (sc_next a =? 0)%nat then ScanEof else ScanFlush)
  | SBuf l :: bufs => scan k bufs (scan_one k l a)
  end.

(* the loop which fills the output buffer, SorterModule.cxx:205-237.  [room]: fOutPtr.fullsize();
   result: number of records used, what was copied, fLastTrigger, flush_data *)
Fixpoint copy (k : N) (gaps : srec -> bool) (room last : N) (l : list srec) : nat * list item * N * bool :=
  match l with
  | [] => (O, [], last, false)
  | r :: l =>
    let d := if last =? none then 1%Z else diff k last (r_trig r) in
    if negb (d =? 1)%Z && (d <? 0)%Z then let '(n, g, t, f) := copy k gaps room last l in (S n, g, t, f)
    else if negb (d =? 1)%Z && negb (gaps r) then (O, [], last, false)
    else if room <? r_sz r then (O, [], last, true)
    else let '(n, g, t, f) := copy k gaps (room - r_sz r) (r_trig r) l in (S n, r_item r :: g, t, f)
  end.

(* RemoveUsedSubevents, SorterModule.cxx:68-107: how many buffers are skipped, and fSubs *)
Definition remove_used (n : nat) (l : list srec) : option nat * list srec :=
  match n with
  | O => (None, l)
  | _ => if (length l <=? n)%nat then (Some (S (fold_right (fun r m => Nat.max (r_buf r) m) O l)), [])
         else let rest := skipn n l in
              let m := match rest with [] => O | r :: t => fold_right (fun r m => Nat.min (r_buf r) m) (r_buf r) t end in
              match m with O => (None, rest) | _ => (Some m, dec_subs m rest) end
  end.

Definition has_out (s : sorter) : bool := match q_out s with Some (_, _ :: _) => true | _ => false end.
(* the first buffer of the queue is passed on, SorterModule.cxx:126-129 and 186-189 *)
Definition pass_on (s : sorter) (b : sbuf) (rest : list sbuf) : sorter :=
  mkS rest (q_next s - 1) (q_ready s - 1) (dec_subs 1 (q_subs s)) (q_last s) (q_out s) 5 (q_arr s) (q_emit s)
    (q_sent s ++ [match b with SEof => OEof | SBuf l => OFwd l end]) (q_over s || has_out s).
(* sending of fOutBuf, SorterModule.cxx:242-245 and 271-274 *)
Definition send_out (s : sorter) : sorter :=
  match q_out s with
  | Some (_, (_ :: _) as b) => mkS (q_in s) (q_next s) (q_ready s) (q_subs s) (q_last s) None 5 (q_arr s) (q_emit s) (q_sent s ++ [OOut b]) (q_over s)
  | _ => s
  end.

(* the part of retransmit from the output buffer on, SorterModule.cxx:197-253 *)
Definition fill_out (k : N) (e : env) (eof : bool) (s : sorter) : sorter * bool :=
  match (match q_out s with Some o => Some o | None => match e_buf e with Some c => Some (c, []) | None => None end end) with
  | None => (s, false)
  | Some (cap, b) =>
    let '(n, g, last, fl) := copy k (fun r => (r_buf r + 2 <=? q_next s)%nat || e_full e || eof) (cap - lenN b) (q_last s) (q_subs s) in
    let s1 := mkS (q_in s) (q_next s) (q_ready s) (q_subs s) last (Some (cap, b ++ enc_subs (map snd g))) (q_cnt s) (q_arr s) (q_emit s ++ g) (q_sent s) (q_over s) in
    let flush := eof || fl || e_full e in
    let s2 := if flush then send_out s1 else s1 in
    match remove_used n (q_subs s2) with
    | (None, l) => (mkS (q_in s2) (q_next s2) (q_ready s2) l (q_last s2) (q_out s2) (q_cnt s2) (q_arr s2) (q_emit s2) (q_sent s2) (q_over s2), flush)
    | (Some m, l) => (mkS (skipn m (q_in s2)) (q_next s2 - m) (q_ready s2 - m) l (q_last s2) (q_out s2) (q_cnt s2) (q_arr s2) (q_emit s2) (q_sent s2) (q_over s2), true)
    end
  end.

(* retransmit, SorterModule.cxx:110-254 *)
Definition retransmit (k : N) (e : env) (s : sorter) : res (sorter * bool) :=
  let '(a, stop) := scan k (skipn (q_next s) (q_in s)) (mkSc (q_next s) (q_ready s) (q_subs s) (q_last s) (q_emit s) false) in
  let s1 subs := mkS (q_in s) (sc_next a) (sc_ready a) subs (sc_last a) (q_out s) (q_cnt s) (q_arr s) (sc_emit a) (q_sent s) (q_over s) in
  match stop with
  | ScanEof =>
    if e_can1 e then Ok (match q_in s with b :: r => pass_on (s1 (sc_subs a)) b r | [] => s1 (sc_subs a) end, true)
    else Ok (s1 (sc_subs a), false)
  | _ =>
    do subs <- (if sc_new a then if weak_order k (sc_subs a) then Ok (e_sort e (sc_subs a)) else UB else Ok (sc_subs a));
    let s1 := s1 subs in
    match q_in s1 with
    | b :: r =>
      if (0 <? q_ready s1)%nat && e_can1 e then Ok (pass_on s1 b r, true)
      else if e_can2 e then Ok (fill_out k e (match stop with ScanFlush => true | _ => false end) s1) else Ok (s1, false)
    | [] => if e_can2 e then Ok (fill_out k e false s1) else Ok (s1, false)
    end
  end.

(* ProcessTimerEvent, SorterModule.cxx:257-281 *)
Definition timer (can : bool) (s : sorter) : sorter :=
  if negb can then s
  else let s := mkS (q_in s) (q_next s) (q_ready s) (q_subs s) (q_last s) (q_out s) (q_cnt s - 1) (q_arr s) (q_emit s) (q_sent s) (q_over s) in
       if (2 <? q_cnt s)%Z then s else send_out s.

(* ---- what can happen ---- *)
Inductive sact :=
| APush (b : option (list sub))    (* a buffer with subevents, or end of file *)
| ACall (e : env)                  (* ProcessRecv, ProcessSend, ProcessBuffer *)
| ATimer (can : bool).
Definition step (k : N) (s : sorter) (a : sact) : res sorter :=
  match a with
  | APush None => Ok (mkS (q_in s ++ [SEof]) (q_next s) (q_ready s) (q_subs s) (q_last s) (q_out s) (q_cnt s) (q_arr s) (q_emit s) (q_sent s) (q_over s))
  | APush (Some l) => Ok (mkS (q_in s ++ [SBuf (combine (seq (q_arr s) (length l)) l)]) (q_next s) (q_ready s) (q_subs s) (q_last s) (q_out s) (q_cnt s) (q_arr s + length l) (q_emit s) (q_sent s) (q_over s))
  | ACall e => do r <- retransmit k e s; Ok (fst r)
  | ATimer can => Ok (timer can s)
  end.
Fixpoint run (k : N) (s : sorter) (l : list sact) : res sorter :=
  match l with [] => Ok s | a :: l => do s <- step k s a; run k s l end.

(* the buffers which arrive, with numbered subevents *)
Fixpoint arriving (n : nat) (l : list sact) : list sbuf :=
  match l with
  | [] => []
  | APush None :: l => SEof :: arriving n l
  | APush (Some x) :: l => SBuf (combine (seq n (length x)) x) :: arriving (n + length x) l
  | _ :: l => arriving n l
  end.
