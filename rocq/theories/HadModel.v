(* Model of the HADAQ formats: plugins/hadaq/hadaq/defines.h (HadTu, HadTuId,
   RawSubevent, RawEvent), plugins/hadaq/src/defines.cxx and
   plugins/hadaq/src/Iterator.cxx (ReadIterator, WriteIterator).

   Simplification: a buffer is one memory segment, so rawsize() = fullsize() of
   every dabc::Pointer into it. *)
From Verif Require Import Common ListFacts Bytes WordMem BufPtr HadSpec.
Open Scope N_scope.

(* ---- words ---- *)

(* byte swap expression of HadTu::Value and SetValue defines.h:154-157, 168-171 *)
Definition bswap (w : N) : N :=
  N.lor (N.lor (N.lor (N.shiftl (N.land w 0xFF) 24) (N.shiftl (N.land w 0xFF00) 8))
               (N.shiftr (N.land w 0xFF0000) 8))
        (N.shiftr (N.land w 0xFF000000) 24).

(* HadTu::IsSwapped defines.h:148 on the stored decoding word *)
Definition is_swapped (dec : N) : bool := 0xFFFFFF <? dec.
(* HadTu::Value defines.h:152-163, SetValue 166-178: [dec] is the stored decoding
   word at that moment *)
Definition conv (dec v : N) : N := if is_swapped dec then bswap v else v.

(* GetPaddedSize defines.h:184-189 (uint32_t arithmetic) *)
Definition pad8 (sz : N) : N :=
  let rest := sz mod 8 in if rest =? 0 then sz else (sz + 8 - rest) mod 2^32.

(* A header in memory at offset [o]: word 0 size, 1 decoding, 2 id, 3 trigger
   number (subevent) or sequence number (event), 4 date, 5 time, 6 run, 7 pad. *)
Definition get_field (m : bytes) (o k : N) : res N :=
  do dec <- getw m (o + 4); do w <- getw m (o + 4 * k); Ok (conv dec w).
Definition set_field (m : bytes) (o k v : N) : res bytes :=
  do dec <- getw m (o + 4); setw m (o + 4 * k) (conv dec v).

Definition get_size m o := get_field m o 0.
Definition get_dec m o := get_field m o 1.
Definition get_id m o := get_field m o 2.
Definition get_trig m o := get_field m o 3.
Definition padded m o : res N := do s <- get_size m o; Ok (pad8 s).

(* SetDecodingDirect defines.h:150 *)
Definition set_dec_direct (m : bytes) (o dec : N) : res bytes := setw m (o + 4) dec.
(* HadTuId::GetDataError defines.h:211, SetDataError defines.h:213-219 *)
Definition get_error m o : res bool := do i <- get_id m o; Ok (negb (N.land i 0x80000000 =? 0)).
Definition set_error m o (on : bool) : res bytes :=
  do i <- get_id m o;
  set_field m o 2 (if on then N.lor i 0x80000000 else N.land i 0x7FFFFFFF).
(* RawSubevent::GetTrigTypeTrb3 defines.h:278, SetTrigTypeTrb3 280-284, [typ] is uint8_t *)
Definition get_trigtype m o : res N := do d <- get_dec m o; Ok (N.shiftr (N.land d 0xF0) 4).
Definition set_trigtype m o typ : res bytes :=
  do d <- get_dec m o; set_field m o 1 (N.lor (N.land d 0xFFFFFF0F) (N.shiftl typ 4)).

(* ---- ReadIterator ---- *)

(* buffer types mbt_HadaqEvents, mbt_HadaqTransportUnit, mbt_HadaqSubevents *)
Inductive btype := TEvents | TUnits | TSubs.

Record riter : Type := mkR { r_first : bool; r_ev : ptr; r_sub : ptr; r_raw : ptr; r_type : btype }.

(* Reset(buf) Iterator.cxx:59-76 *)
Definition r_reset (m : bytes) (t : btype) : riter :=
  mkR true (mkP (if lenN m =? 0 then None else Some 0) (lenN m)) pnull pnull t.

(* sizeof(hadaq::RawEvent), sizeof(hadaq::HadTu) *)
Definition head_size (t : btype) : N := match t with TEvents => 32 | TUnits => 8 | TSubs => 0 end.

(* NextHadTu Iterator.cxx:88-124 and NextEvent 127-164: the same code for the two
   header sizes *)
Definition next_unit (m : bytes) (s : riter) : res (riter * bool) :=
  if is_null (r_ev s) then Ok (s, false)
  else
    do ev <- (if r_first s then Ok (r_ev s)
              else do o <- addr (r_ev s); do n <- padded m o; Ok (shift (r_ev s) n));
    let fail := Ok (mkR false pnull (r_sub s) (r_raw s) (r_type s), false) in
    if p_full ev <? head_size (r_type s) then fail
    else do o <- addr ev; do sz <- get_size m o;
    if p_full ev <? sz then fail
    else Ok (mkR false ev pnull pnull (r_type s), true).

(* NextSubeventsBlock Iterator.cxx:166-185 *)
Definition next_block (m : bytes) (s : riter) : res (riter * bool) :=
  match r_type s with
  | TSubs =>
    let ev := if r_first s then r_ev s else pnull in
    if is_null ev then Ok (mkR (r_first s) ev (r_sub s) (r_raw s) TSubs, false)
    else Ok (mkR false ev pnull pnull TSubs, true)
  | _ => next_unit m s
  end.

(* NextSubEvent Iterator.cxx:199-250 *)
Definition next_sub (m : bytes) (s : riter) : res (riter * bool) :=
  let go (sub : ptr) : res (riter * bool) :=
    let fail := Ok (mkR (r_first s) (r_ev s) pnull (r_raw s) (r_type s), false) in
    if p_full sub <? 16 then fail
    else do o <- addr sub; do sz <- get_size m o;
    if sz <? 16 then fail
    else Ok (mkR (r_first s) (r_ev s) sub (shift (limit_to sub (pad8 sz)) 16) (r_type s), true) in
  if is_null (r_sub s) then
    if is_null (r_ev s) then Ok (s, false)
    else
      do o <- addr (r_ev s);
      do csz <- (match r_type s with TSubs => Ok (p_full (r_ev s)) | _ => padded m o end);
      if csz =? 0 then Ok (s, false)
      else if csz <? head_size (r_type s) then Ok (s, false)
      else go (shift (limit_to (r_ev s) csz) (head_size (r_type s)))
  else
    do o <- addr (r_sub s); do n <- padded m o; go (shift (r_sub s) n).

(* what a user of the iterator reads of a subevent: the header fields and the bytes
   rawdata() .. rawdata() + rawdatasize() (Iterator.h:90-92) *)
Definition see_sub (m : bytes) (s : riter) : res rsub :=
  do o <- addr (r_sub s);
  do z <- get_size m o; do d <- get_dec m o; do i <- get_id m o; do t <- get_trig m o;
  do r <- addr (r_raw s); do b <- getb m r (p_full (r_raw s));
  Ok (mkRS z d i t b).
(* ... and of the unit: the words of the event header (defines.h:406-417) or of the
   transport unit header *)
Fixpoint see_fields (m : bytes) (o : N) (k : nat) : res (list N) :=
  match k with
  | O => Ok []
  | S k => do l <- see_fields m o k; do x <- get_field m o (N.of_nat k); Ok (l ++ [x])
  end.
Definition see_unit (m : bytes) (s : riter) : res (list N) :=
  do o <- addr (r_ev s); see_fields m o (N.to_nat (head_size (r_type s) / 4)).

Fixpoint sub_loop (fuel : nat) (m : bytes) (s : riter) : res (riter * list rsub) :=
  match fuel with
  | O => Loop
  | S k =>
    do (s1, ok) <- next_sub m s;
    if ok then do x <- see_sub m s1; do (s2, l) <- sub_loop k m s1; Ok (s2, x :: l)
    else Ok (s1, [])
  end.

(* while (NextSubeventsBlock()) { ... while (NextSubEvent()) ... }: the units with
   the subevents found in them *)
Fixpoint block_loop (fuel : nat) (m : bytes) (s : riter) : res (list (list N * list rsub)) :=
  match fuel with
  | O => Loop
  | S k =>
    do (s1, ok) <- next_block m s;
    if ok then
      do h <- see_unit m s1;
      do (s2, subs) <- sub_loop (S (length m)) m s1;
      do l <- block_loop k m s2; Ok ((h, subs) :: l)
    else Ok []
  end.
Definition read_all (m : bytes) (t : btype) : res (list (list N * list rsub)) :=
  block_loop (S (length m)) m (r_reset m t).

(* ---- WriteIterator ---- *)

(* [w_mem]: the memory of the buffer, GetTotalSize() = its length *)
Record witer : Type := mkW { w_mem : bytes; w_ev : ptr; w_sub : ptr; w_full : N }.

(* Reset Iterator.cxx:291-307 *)
Definition w_reset (m : bytes) : option witer :=
  if lenN m <? 32 + 16 then None else Some (mkW m pnull pnull 0).

(* Close Iterator.cxx:309-320: the data of the resulting buffer *)
Definition w_close (s : witer) : bytes :=
  if (0 <? w_full s) && (w_full s <=? lenN (w_mem s)) then takeN (w_full s) (w_mem s) else w_mem s.

(* IsPlaceForEvent Iterator.cxx:322-330 *)
Definition is_place (s : witer) (n : N) : bool :=
  let avail := if is_null (w_ev s) then lenN (w_mem s) else p_full (w_ev s) in 32 + n <=? avail.

(* RawEvent::Init defines.h:472-478 with InitHeader defines.cxx:34-51; [date] and
   [clock] are what gmtime() of the moment gives *)
Definition init_event (m : bytes) (o seq run id date clock : N) : res bytes :=
  do m <- set_dec_direct m o 0x30001;
  do m <- set_field m o 2 id;
  do m <- set_field m o 0 32;
  do m <- set_field m o 4 date;
  do m <- set_field m o 5 clock;
  do m <- set_field m o 3 seq;
  do m <- set_field m o 6 run;
  setw m (o + 28) 0.

Definition EvtId_DABC : N := 0x2001.

(* NewEvent Iterator.cxx:333-351 *)
Definition new_event (s : witer) (seq run minsub date clock : N) : res (witer * bool) :=
  let ev := if is_null (w_ev s) then mkP (Some 0) (lenN (w_mem s)) else w_ev s in
  if p_full ev <? 32 + minsub then Ok (mkW (w_mem s) pnull pnull (w_full s), false)
  else do o <- addr ev;
       do m <- init_event (w_mem s) o seq run EvtId_DABC date clock;
       Ok (mkW m ev pnull (w_full s), true).

(* NewSubevent Iterator.cxx:353-365, RawSubevent::Init defines.h:286-289 *)
Definition new_sub (s : witer) (minraw trig : N) : res (witer * bool) :=
  if is_null (w_ev s) then Ok (s, false)
  else
    let sub := if is_null (w_sub s) then shift (w_ev s) 32 else w_sub s in
    if p_full sub <? 16 + minraw then Ok (mkW (w_mem s) (w_ev s) sub (w_full s), false)
    else do o <- addr sub; do m <- set_field (w_mem s) o 3 trig;
         Ok (mkW m (w_ev s) sub (w_full s), true).

(* maxrawdatasize Iterator.h:136, FinishSubEvent Iterator.cxx:367-378 *)
Definition finish_sub (s : witer) (rawsz : N) : res (witer * bool) :=
  if is_null (w_sub s) then Ok (s, false)
  else if p_full (w_sub s) - 16 <? rawsz then Ok (s, false)
  else do o <- addr (w_sub s);
       do m <- set_field (w_mem s) o 0 (rawsz + 16);
       do n <- padded m o;
       Ok (mkW m (w_ev s) (shift (w_sub s) n) (w_full s), true).

(* AddSubevent(ptr, len) Iterator.cxx:396-410 *)
Definition add_sub (s : witer) (d : bytes) : res (witer * bool) :=
  if is_null (w_ev s) then Ok (s, false)
  else
    let sub := if is_null (w_sub s) then shift (w_ev s) 32 else w_sub s in
    if p_full sub <? lenN d then Ok (mkW (w_mem s) (w_ev s) sub (w_full s), false)
    else do m <- (if lenN d =? 0 then Ok (w_mem s) else do o <- addr sub; setb (w_mem s) o d);
         Ok (mkW m (w_ev s) (shift sub (lenN d)) (w_full s), true).

(* FinishEvent Iterator.cxx:413-425; distance_to Pointer.cxx:134-140 in one segment *)
Definition finish_event (s : witer) : res (witer * bool) :=
  if is_null (w_ev s) then Ok (s, false)
  else
    do o <- addr (w_ev s);
    do dist <- (if is_null (w_sub s) then Ok 32 else do os <- addr (w_sub s); Ok (os - o));
    do m <- set_field (w_mem s) o 0 dist;
    do n <- padded m o;
    Ok (mkW m (shift (w_ev s) n) (w_sub s) (w_full s + n), true).

(* what the user does between NewSubevent and FinishSubEvent, as in
   MonitorModule.cxx:129-148: decoding, trigger number, id and the raw data *)
Definition fill_sub (s : witer) (dec trig id : N) (raw : bytes) : res witer :=
  do o <- addr (w_sub s);
  do m <- set_dec_direct (w_mem s) o dec;
  do m <- set_field m o 3 trig;
  do m <- set_field m o 2 id;
  do m <- setb m (o + 16) raw;
  Ok (mkW m (w_ev s) (w_sub s) (w_full s)).

(* ---- any sequence of calls to a read iterator, for the bounds property ---- *)
Inductive rcall := NextBlock | NextSub.
Definition r_call (m : bytes) (s : riter) (c : rcall) : res riter :=
  do (s1, _) <- (match c with NextBlock => next_block m s | NextSub => next_sub m s end); Ok s1.
Fixpoint r_calls (m : bytes) (s : riter) (l : list rcall) : res riter :=
  match l with [] => Ok s | c :: l => do s1 <- r_call m s c; r_calls m s1 l end.
(* a new iterator, positioned on the first unit, and further calls *)
Definition r_run (m : bytes) (t : btype) (l : list rcall) : res riter :=
  r_calls m (r_reset m t) (NextBlock :: l).
(* evnt() / hadtu(), subevnt(), rawdata() and rawdatasize() of Iterator.h:80-92 *)
Definition unit_at (s : riter) : option N := if is_null (r_ev s) then None else p_off (r_ev s).
Definition sub_at (s : riter) : option N := if is_null (r_sub s) then None else p_off (r_sub s).
Definition raw_at (s : riter) : option N := p_off (r_raw s).
Definition raw_len (s : riter) : N := p_full (r_raw s).

(* ---- a user of the write iterator, as in MonitorModule.cxx:112-158 ---- *)
Definition write_sub (s : witer) (x : wsub) : res (witer * bool) :=
  do (s, ok) <- new_sub s (lenN (ws_raw x)) (ws_trig x);
  if ok then
    (* the decoding word is given in the wanted byte order *)
    do s <- fill_sub s (unle (word_bytes (ws_big x) (ws_dec x))) (ws_trig x) (ws_id x) (ws_raw x);
    finish_sub s (lenN (ws_raw x))
  else Ok (s, false).
Fixpoint write_subs (s : witer) (l : list wsub) : res (witer * bool) :=
  match l with
  | [] => Ok (s, true)
  | x :: l => do (s, ok) <- write_sub s x; if ok then write_subs s l else Ok (s, false)
  end.
Definition write_event (s : witer) (e : wevent) : res (witer * bool) :=
  do (s, ok) <- new_event s (we_seq e) (we_run e) 0 (we_date e) (we_time e);
  if ok then
    do (s, ok) <- write_subs s (we_subs e);
    if ok then finish_event s else Ok (s, false)
  else Ok (s, false).
Fixpoint write_events (s : witer) (l : list wevent) : res (witer * bool) :=
  match l with
  | [] => Ok (s, true)
  | e :: l => do (s, ok) <- write_event s e; if ok then write_events s l else Ok (s, false)
  end.
