(* hadaq::CombinerModule, plugins/hadaq/src/CombinerModule.cxx.
   Modelled: taking subevents from the inputs, the trigger number with the TRB2 correction,
   BuildEvent, dropping all inputs, the output buffer and its sending, second-level building
   (fBNETrecv) and distribution over several builders (fBNETsend).
   The read iterators are abstracted to lists (C38 proves what they deliver); the write
   iterator is the byte-level model of HadModel.v.
   Not modelled: fResort inputs (off by default), statistics except the error counters,
   rates, commands, the number of BuildEvent calls per event.  Times, the state of the output
   ports and the memory pool are inputs of every call. *)
From Verif Require Import Common ListFacts Bytes WordMem BufPtr HadSpec HadModel TrigModel CombSpec.
Local Open Scope N_scope.

(* configuration, CombinerModule.cxx:70-114 *)
Record conf := mkConf {
  c_max : N;            (* fMaxHadaqTrigger *)
  c_skip : bool;        (* fSkipEmpty *)
  c_check : bool;       (* fCheckTag *)
  c_bsend : bool;       (* fBNETsend *)
  c_brecv : bool;       (* fBNETrecv *)
  c_bunch : N;          (* fBNETbunch *)
  c_nout : nat;         (* NumOutputs() *)
  c_tol : Z;            (* fTriggerNrTolerance *)
  c_hades : option N    (* fHadesTriggerType with fHadesTriggerHUB *)
}.
Definition c_mask (c : conf) : N := c_max c - 1.
Definition none : N := 0xffffffff.

(* ---- one input: InputCfg, CombinerModule.h:59-90, with the port queue ---- *)

(* a buffer: the blocks of subevents in it; [None]: end-of-file or unsupported type.  A buffer of
   events for second-level building is one block of events. *)
Definition buf := option (list (list item)).
Record inp := mkI {
  p_item : option item;            (* has_data with subevnt or evnt *)
  p_trig : N;                      (* fTrigNr *)
  p_last : N;                      (* fLastTrigNr *)
  p_cur : list item;               (* what is left in the block at fIter *)
  p_blocks : list (list item);     (* following blocks of the buffer at fIter *)
  p_queue : list buf               (* buffers in the port *)
}.
Definition inp_new : inp := mkI None 0 none [] [] [].

(* ShiftToNextHadTu, CombinerModule.cxx:590-609, with ShiftToNextBuffer 557-588 and
   NextSubEvent: next item, what is left of block and buffer, and the queue *)
Fixpoint next_in (blocks : list (list item)) : option (item * list item * list (list item)) :=
  match blocks with
  | [] => None
  | [] :: r => next_in r
  | (x :: c) :: r => Some (x, c, r)
  end.
Fixpoint next_buf (q : list buf) : option (item * list item * list (list item)) * list buf :=
  match q with
  | [] => (None, [])
  | None :: q => (None, q)
  | Some b :: q => match next_in b with Some r => (Some r, q) | None => next_buf q end
  end.
Definition next_item (p : inp) : option (item * list item * list (list item)) * list buf :=
  match next_in (p_cur p :: p_blocks p) with
  | Some r => (Some r, p_queue p)
  | None => next_buf (p_queue p)
  end.

(* trigger number: CombinerModule.cxx:741-756, for events 646 *)
Definition trig_of (c : conf) (last : N) (x : item) : N :=
  let t := N.land (N.shiftr (i_word x) 8) (c_mask c) in
  if negb (c_brecv c) && (N.land t 0xffff =? 0) && (0x100000 <? c_mask c) && negb (last =? none) &&
     (N.land last 0xffff =? 0xffff) && (N.land t 0xffff0000 =? N.land last 0xffff0000)
  then N.land ((last + 1) mod 2^32) (c_mask c) else t.

(* ShiftToNextSubEvent, CombinerModule.cxx:667-806, and ShiftToNextEvent 620-664, not fast *)
Definition shift_next (c : conf) (p : inp) : inp * bool :=
  match next_item p with
  | (Some (x, cur, r), q) => let t := trig_of c (p_last p) x in (mkI (Some x) t t cur r q, true)
  | (None, q) => (mkI None 0 (p_last p) [] [] q, false)
  end.

(* DropAllInputBuffers, CombinerModule.cxx:808-837: everything of the input is gone *)
Definition drop_input (p : inp) : inp := inp_new.

(* CalcTrigNumDiff *)
Definition tdiff (c : conf) (a b : N) : Z := trig_diff (Z.of_N (c_max c)) (Z.of_N a) (Z.of_N b).

(* ---- module ---- *)
Record comb := mkC {
  k_in : list inp;
  k_out : option witer;            (* fOut *)
  k_last : N;                      (* fLastTrigNr *)
  k_count : N;                     (* fRunBuildEvents *)
  k_derr : N;                      (* fRunDataErrors *)
  k_terr : N;                      (* fRunTagErrors *)
  (* what happened so far *)
  k_built : list (N * list item);  (* trigger number and members of the events *)
  k_sent : list (option N * bytes);(* buffers sent, to one output or to all *)
  k_exact : bool                   (* an event reached exactly to the end of the buffer *)
}.
Definition comb_new (n : nat) : comb := mkC (repeat inp_new n) None none 0 0 0 [] [] false.
Definition set_in (s : comb) (i : list inp) : comb := mkC i (k_out s) (k_last s) (k_count s) (k_derr s) (k_terr s) (k_built s) (k_sent s) (k_exact s).
Definition set_out (s : comb) (o : option witer) (sent : list (option N * bytes)) : comb := mkC (k_in s) o (k_last s) (k_count s) (k_derr s) (k_terr s) (k_built s) sent (k_exact s).
Definition add_terr (s : comb) : comb := mkC (k_in s) (k_out s) (k_last s) (k_count s) (k_derr s) (k_terr s + 1) (k_built s) (k_sent s) (k_exact s).

(* what a call finds *)
Record env := mkE {
  e_drop : bool;           (* fLastDropTm expired *)
  e_late : bool;           (* fEventBuildTimeout > 0 and fLastBuildTm expired *)
  e_send : list bool;      (* CanSend of the outputs *)
  e_buf : option bytes;    (* TakeBuffer *)
  e_run : N; e_date : N; e_clock : N   (* fRunNumber and the time written into headers *)
}.

(* DestinationPort, CombinerModule.cxx:839-844 *)
Definition dest_port (c : conf) (t : N) : option N :=
  if negb (c_bsend c) || (c_nout c <? 2)%nat then None else Some ((t / c_bunch c) mod N.of_nat (c_nout c)).
(* CheckDestination, CombinerModule.cxx:846-851 *)
Definition check_dest (c : conf) (s : comb) (t : N) : bool :=
  if negb (c_bsend c) || (k_last s =? none) then true
  else match dest_port c (k_last s), dest_port c t with
       | None, None => true | Some a, Some b => a =? b | _, _ => false end.
(* FlushOutputBuffer, CombinerModule.cxx:326-352 *)
Definition flush (c : conf) (e : env) (s : comb) : option comb :=
  match k_out s with
  | None => None
  | Some w =>
    if w_full w =? 0 then None
    else let d := dest_port c (k_last s) in
         if match d with None => forallb (fun b => b) (e_send e) | Some d => nth (N.to_nat d) (e_send e) false end
         then Some (set_out s None (k_sent s ++ [(d, w_close w)])) else None
  end.

(* first loop, CombinerModule.cxx:893-931 *)
Definition fill (c : conf) (l : list inp) : list inp :=
  map (fun p => match p_item p with Some _ => p | None => fst (shift_next c p) end) l.
Definition has_data (p : inp) : bool := match p_item p with Some _ => true | None => false end.
Definition minmax (c : conf) (l : list inp) : option (N * N) :=
  fold_left (fun a p =>
    if has_data p then
      match a with
      | None => Some (p_trig p, p_trig p)
      | Some (mn, mx) =>
        Some (if (tdiff c mn (p_trig p) <? 0)%Z then p_trig p else mn, if (tdiff c (p_trig p) mx <? 0)%Z then p_trig p else mx)
      end
    else a) l None.
(* the condition of 943-944 *)
Definition drop_all (c : conf) (e : env) (l : list inp) : bool :=
  let any := existsb has_data l in
  let diff := if forallb has_data l then match minmax c l with Some (a, b) => tdiff c a b | None => 0%Z end else 0%Z in
  e_drop e && (((0 <? c_tol c)%Z && (c_tol c <? diff)%Z) || (e_late e && any && (1 <? length l)%nat)).

(* second loop for one input, CombinerModule.cxx:994-1048: [Some true] the number was
   found, [Some false] the input is ahead, [None] no more data.  [fuel]: more than the items left *)
Fixpoint align (fuel : nat) (c : conf) (b : N) (p : inp) : res (inp * option bool) :=
  if p_trig p =? b then Ok (p, Some true)
  else if (0 <? tdiff c (p_trig p) b)%Z then
    match fuel with
    | O => Loop
    | S fuel => let '(p1, ok) := shift_next c p in if ok then align fuel c b p1 else Ok (p1, None)
    end
  else Ok (p, Some false).
Definition left (p : inp) : list item :=
  p_cur p ++ concat (p_blocks p) ++ concat (map (fun b => match b with Some b => concat b | None => [] end) (p_queue p)).
Fixpoint align_all (c : conf) (b : N) (l : list inp) : res (list inp * option bool) :=
  match l with
  | [] => Ok ([], Some true)
  | p :: l =>
    do r <- align (S (length (left p))) c b p;
    match r with
    | (p1, None) => Ok (p1 :: l, None)
    | (p1, Some f) =>
      do r2 <- align_all c b l;
      match r2 with (l2, None) => Ok (p1 :: l2, None) | (l2, Some f2) => Ok (p1 :: l2, Some (f && f2)) end
    end
  end.

(* trigger type: CombinerModule.cxx:776-793, for events 655.  In HADES mode the second data
   word is read even if the subevent has none; here it is 0 then *)
Definition i_type (c : conf) (x : item) : N :=
  match x with
  | IEvt u => N.land (i_id x) 0xF
  | ISub y =>
    match c_hades c with
    | None => N.shiftr (N.land (s_dec y) 0xF0) 4
    | Some hub =>
      if N.land (s_id y) 0xffff =? hub then
        let d := firstn 4 (skipn 4 (s_raw y ++ s_pad y)) in
        N.shiftr (N.land (unle (if s_big y then rev d else d)) 0xff000000) 24
      else 0
    end
  end.
(* CombinerModule.cxx:1133-1137 *)
Definition group_type (c : conf) (g : list item) : N :=
  match find (fun x => negb (i_type c x =? 0)) g with Some x => i_type c x | None => 0 end.

(* third loop, CombinerModule.cxx:1147-1156 *)
Fixpoint add_items (s : witer) (l : list item) : res witer :=
  match l with
  | [] => Ok s
  | x :: l => do r <- add_sub s (enc_subs (i_subs x)); add_items (fst r) l
  end.
(* CombinerModule.cxx:1125-1161: NewEvent, SetDataError, SetId, members, FinishEvent *)
Definition put_event (s : witer) (seq run date clock id : N) (err : bool) (l : list item) : res witer :=
  do r <- new_event s seq run 0 date clock;
  let s := fst r in
  do o <- addr (w_ev s);
  do m <- set_error (w_mem s) o err;
  do m <- set_field m o 2 id;
  do s <- add_items (mkW m (w_ev s) (w_sub s) (w_full s)) l;
  do r <- finish_event s;
  Ok (fst r).

Definition avail (w : witer) : N := if is_null (w_ev w) then lenN (w_mem w) else p_full (w_ev w).
Definition total (l : list item) : N := fold_right (fun x a => i_size x + a) 0 l.

(* the output buffer for an event of [size] bytes, CombinerModule.cxx:1073-1112: [inl]: return false *)
Definition prepare (c : conf) (e : env) (s : comb) (b size : N) : comb + comb * witer :=
  let flushed :=
    match k_out s with
    | Some w => if negb (is_place w size) || negb (check_dest c s b) then flush c e s else Some s
    | None => Some s
    end in
  match flushed with
  | None => inl s
  | Some s =>
    match k_out s with
    | Some w => inr (s, w)
    | None =>
      match e_buf e with
      | None => inl s
      | Some m => match w_reset m with None => inl s | Some w => inr (set_out s (Some w) (k_sent s), w) end
      end
    end
  end.

(* final loop, CombinerModule.cxx:1231-1237 *)
Definition advance (c : conf) (b : N) (l : list inp) : list inp :=
  map (fun p => if p_trig p =? b then fst (shift_next c p) else p) l.

Definition members (l : list inp) : list item := concat (map (fun p => match p_item p with Some x => [x] | None => [] end) l).

(* BuildEvent, CombinerModule.cxx:853-1252 *)
Definition build (c : conf) (e : env) (s : comb) : res (comb * bool) :=
  let l := fill c (k_in s) in
  if drop_all c e l then Ok (set_in s (map drop_input l), false)
  else if negb (forallb has_data l) then Ok (set_in s l, false)
  else match l with
  | [] => UB                                         (* fCfg[masterchannel] of an empty vector *)
  | p0 :: _ =>
    let b := p_trig p0 in
    do r <- align_all c b l;
    match r with
    | (l, None) => Ok (set_in s l, false)
    | (l, Some complete) =>
      let g := members l in
      let u := used (c_skip c) g in
      let tagerr := negb (forallb (fun x => i_tag x =? i_tag (hd (IEvt (mkUnit false 0 [] [])) g)) u) in
      let dataerr := existsb i_err u in
      let size := total u mod 2^32 in
      let s := set_in s l in
      let bad := complete && c_check c && tagerr in
      let s := if bad then add_terr s else s in
      if complete && negb bad then
        match prepare c e s b size with
        | inl s => Ok (s, false)
        | inr (s, w) =>
          if is_place w size then
            let seq := if c_bsend c then N.lor ((b * 256) mod 2^32) (i_tag (hd (IEvt (mkUnit false 0 [] [])) g)) else (k_count s + 1) mod 2^32 in
            do w1 <- put_event w seq (e_run e) (e_date e) (e_clock e) (N.lor (group_type c g) 0x2000) (dataerr || tagerr) u;
            Ok (mkC (advance c b (k_in s)) (Some w1) b (k_count s + 1)
                 (k_derr s + if dataerr then 1 else 0) (k_terr s + if tagerr then 1 else 0)
                 (k_built s ++ [(b, g)]) (k_sent s) (k_exact s || (32 + size =? avail w)), true)
          else Ok (set_in s (advance c b (k_in s)), true)
        end
      else Ok (set_in s (advance c b (k_in s)), true)
    end
  end.

(* ---- what can happen ---- *)
Inductive cact :=
| CPush (i : nat) (b : buf)     (* a buffer arrives at input i *)
| CBuild (e : env)              (* BuildEvent *)
| CFlush (e : env).             (* flush timer, CombinerModule.cxx:225-230 *)

Definition push (b : buf) (p : inp) : inp := mkI (p_item p) (p_trig p) (p_last p) (p_cur p) (p_blocks p) (p_queue p ++ [b]).
Definition step (c : conf) (s : comb) (a : cact) : res comb :=
  match a with
  | CPush i b => match nth_error (k_in s) i with Some p => Ok (set_in s (upd (k_in s) i (push b p))) | None => Ok s end
  | CBuild e => do r <- build c e s; Ok (fst r)
  | CFlush e => Ok (match flush c e s with Some s => s | None => s end)
  end.
Fixpoint run (c : conf) (s : comb) (l : list cact) : res comb :=
  match l with [] => Ok s | a :: l => do s <- step c s a; run c s l end.

(* what arrived at input [i] *)
Definition content (b : buf) : list item := match b with Some b => concat b | None => [] end.
Definition arrived (i : nat) (l : list cact) : list item :=
  concat (map (fun a => match a with CPush j b => if (j =? i)%nat then content b else [] | _ => [] end) l).
