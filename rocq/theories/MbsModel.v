(* Model of plugins/mbs: event format (mbs/LmdTypeDefs.h, mbs/MbsTypeDefs.h),
   ReadIterator and WriteIterator (src/Iterator.cxx), LMD files (mbs/LmdFile.h,
   src/LmdInput.cxx).

   Simplification: a buffer is one memory segment, so rawsize() = fullsize() of
   every dabc::Pointer into it; raw data is moved with AddRawData.
   Not modelled: printing, BufferHeader (MBS' own buffers), failing I/O calls. *)
From Verif Require Import Common ListFacts Bytes WordMem BufPtr MbsSpec.
Open Scope N_scope.

(* ---- headers ---- *)

(* Header::FullSize, SetFullSize LmdTypeDefs.h:55-56 (uint32_t arithmetic) *)
Definition full_size (m : bytes) (o : N) : res N := do w <- getw m o; Ok ((8 + w * 2) mod 2^32).
Definition set_full_size (m : bytes) (o sz : N) : res bytes := setw m o ((sz mod 2^32 + 2^32 - 8) mod 2^32 / 2).

(* EventHeader::Init MbsTypeDefs.h:108-115 *)
Definition init_event (m : bytes) (o num : N) : res bytes :=
  setb m o (le 4 0 ++ le 4 (N.lor 10 (N.shiftl 1 16)) ++ le 2 0 ++ le 2 1 ++ le 4 num).
(* SubeventHeader::Init MbsTypeDefs.h:59-66, InitFull 68-73 *)
Definition init_sub (m : bytes) (o crate procid control : N) : res bytes :=
  setb m o (le 4 0 ++ le 4 (N.lor 10 (N.shiftl 1 16)) ++ le 2 procid ++ le 1 crate ++ le 1 control).
Definition init_full (m : bytes) (o fullid : N) : res bytes :=
  setb m o (le 4 0 ++ le 4 (N.lor 10 (N.shiftl 1 16)) ++ le 4 fullid).

(* EventHeader::NextSubEvent MbsTypeDefs.h:136-139 of the event at [o]; positions for pointers *)
Definition next_sub_hdr (m : bytes) (o : N) (prev : option N) : res (option N) :=
  do n <- full_size m o;
  match prev with
  | None => Ok (if 16 <? n then Some (o + 16) else None)
  | Some p => do k <- full_size m p; Ok (if p + k + 12 <? o + n then Some (p + k) else None)
  end.
(* the loop of NumSubevents MbsTypeDefs.cxx:102-108: the subevents it finds *)
Fixpoint walk (fuel : nat) (m : bytes) (o : N) (prev : option N) : res (list N) :=
  match fuel with
  | O => Loop
  | S k => do p <- next_sub_hdr m o prev;
           match p with None => Ok [] | Some p => do l <- walk k m o (Some p); Ok (p :: l) end
  end.
Definition num_subevents (m : bytes) (o : N) : res N := do l <- walk (S (length m)) m o None; Ok (lenN l).

(* ---- ReadIterator ---- *)

Record riter : Type := mkR { r_first : bool; r_ev : ptr; r_sub : ptr; r_raw : ptr }.

(* Reset(buf) Iterator.cxx:55-70 *)
Definition r_reset (m : bytes) : riter :=
  mkR true (mkP (if lenN m =? 0 then None else Some 0) (lenN m)) pnull pnull.

(* IsLastEvent Iterator.cxx:80-85 *)
Definition is_last (m : bytes) (s : riter) : res bool :=
  if is_null (r_ev s) then Ok true
  else do o <- addr (r_ev s); do n <- full_size m o; Ok (p_full (r_ev s) <=? n).

(* NextEvent Iterator.cxx:88-120 *)
Definition next_event (m : bytes) (s : riter) : res (riter * bool) :=
  if is_null (r_ev s) then Ok (s, false)
  else
    do ev <- (if r_first s then Ok (r_ev s)
              else do o <- addr (r_ev s); do n <- full_size m o; Ok (shift (r_ev s) n));
    let fail := Ok (mkR false pnull (r_sub s) (r_raw s), false) in
    if p_full ev <? 16 then fail
    else do o <- addr ev; do n <- full_size m o;
    if p_full ev <? n then fail
    else Ok (mkR false ev pnull pnull, true).

(* AssignEventPointer Iterator.cxx:146-154, GetEventSize 122-128 *)
Definition event_pointer (m : bytes) (s : riter) : res ptr :=
  if is_null (r_ev s) then Ok pnull
  else do o <- addr (r_ev s); do n <- full_size m o; Ok (limit_to (r_ev s) n).
Definition event_size (m : bytes) (s : riter) : res N :=
  match p_off (r_ev s) with
  | None => Ok 0
  | Some o => do n <- full_size m o; Ok (if n <? p_full (r_ev s) then n else p_full (r_ev s))
  end.

(* NextSubEvent Iterator.cxx:157-185 *)
Definition next_sub (m : bytes) (s : riter) : res (riter * bool) :=
  let go (sub : ptr) : res (riter * bool) :=
    let fail := Ok (mkR (r_first s) (r_ev s) pnull (r_raw s), false) in
    if p_full sub <? 12 then fail
    else do o <- addr sub; do n <- full_size m o;
    if n <? 12 then fail
    else Ok (mkR (r_first s) (r_ev s) sub (shift (limit_to sub n) 12), true) in
  if is_null (r_sub s) then
    if is_null (r_ev s) then Ok (s, false)
    else do o <- addr (r_ev s); do n <- full_size m o;
         if n <? 16 then Ok (s, false)
         else go (shift (limit_to (r_ev s) n) 16)
  else do o <- addr (r_sub s); do n <- full_size m o; go (shift (r_sub s) n).

(* what a user reads: header words and rawdata() .. rawdatasize() (Iterator.h:75-88) *)
Definition see_sub (m : bytes) (s : riter) : res msub :=
  do o <- addr (r_sub s); do t <- getw m (o + 4); do i <- getw m (o + 8);
  do r <- addr (r_raw s); do b <- getb m r (p_full (r_raw s)); Ok (mkMS t i b).
Fixpoint sub_loop (fuel : nat) (m : bytes) (s : riter) : res (riter * list msub) :=
  match fuel with
  | O => Loop
  | S k => do (s1, ok) <- next_sub m s;
           if ok then do x <- see_sub m s1; do (s2, l) <- sub_loop k m s1; Ok (s2, x :: l)
           else Ok (s1, [])
  end.
(* while (NextEvent()) while (NextSubEvent()): the bytes of GetEventPointer() and the
   content of every event *)
Fixpoint event_loop (fuel : nat) (m : bytes) (s : riter) : res (list (bytes * mevent)) :=
  match fuel with
  | O => Loop
  | S k =>
    do (s1, ok) <- next_event m s;
    if ok then
      do p <- event_pointer m s1; do o <- addr p; do all <- getb m o (p_full p);
      do t <- getw m (o + 4); do g <- getw m (o + 8); do n <- getw m (o + 12);
      do (s2, subs) <- sub_loop (S (length m)) m s1;
      do l <- event_loop k m s2; Ok ((all, mkME t g n subs) :: l)
    else Ok []
  end.
Definition read_all (m : bytes) : res (list (bytes * mevent)) := event_loop (S (length m)) m (r_reset m).

(* NumEvents Iterator.cxx:187-193 *)
Fixpoint count_loop (fuel : nat) (m : bytes) (s : riter) : res N :=
  match fuel with
  | O => Loop
  | S k => do (s1, ok) <- next_event m s; if ok then do n <- count_loop k m s1; Ok (1 + n) else Ok 0
  end.
Definition num_events (m : bytes) : res N := count_loop (S (length m)) m (r_reset m).

(* any sequence of calls *)
Inductive rcall := NextEvent | NextSub.
Definition r_call (m : bytes) (s : riter) (c : rcall) : res riter :=
  do (s1, _) <- (match c with NextEvent => next_event m s | NextSub => next_sub m s end); Ok s1.
Fixpoint r_calls (m : bytes) (s : riter) (l : list rcall) : res riter :=
  match l with [] => Ok s | c :: l => do s1 <- r_call m s c; r_calls m s1 l end.
(* a new iterator, NextEvent and further calls *)
Definition r_run (m : bytes) (l : list rcall) : res riter := r_calls m (r_reset m) (NextEvent :: l).
(* evnt(), subevnt(), rawdata(), rawdatasize() *)
Definition event_at (s : riter) : option N := if is_null (r_ev s) then None else p_off (r_ev s).
Definition sub_at (s : riter) : option N := if is_null (r_sub s) then None else p_off (r_sub s).
Definition raw_at (s : riter) : option N := p_off (r_raw s).
Definition raw_len (s : riter) : N := p_full (r_raw s).

(* ---- WriteIterator ---- *)

Record witer : Type := mkW { w_mem : bytes; w_ev : ptr; w_sub : ptr; w_data : ptr; w_full : N }.

(* Reset Iterator.cxx:219-235 *)
Definition w_reset (m : bytes) : option witer :=
  if lenN m <? 16 + 12 then None else Some (mkW m (mkP (Some 0) (lenN m)) pnull pnull 0).

(* NewEvent Iterator.cxx:304-327 *)
Definition new_event (s : witer) (num minsub : N) : res (witer * bool) :=
  if negb (is_null (w_sub s)) then Ok (s, false)
  else if is_null (w_ev s) then Ok (s, false)
  else if p_full (w_ev s) <? 16 + minsub then Ok (s, false)
  else do o <- addr (w_ev s); do m <- init_event (w_mem s) o num;
       Ok (mkW m (w_ev s) (shift (w_ev s) 16) (w_data s) (w_full s), true).

(* NewSubevent Iterator.cxx:329-345 *)
Definition new_sub (s : witer) (minraw crate procid control : N) : res (witer * bool) :=
  if is_null (w_sub s) then Ok (s, false)
  else if negb (is_null (w_data s)) then Ok (s, false)
  else if p_full (w_sub s) <? 12 + minraw then Ok (s, false)
  else do o <- addr (w_sub s); do m <- init_sub (w_mem s) o crate procid control;
       Ok (mkW m (w_ev s) (w_sub s) (shift (w_sub s) 12) (w_full s), true).
(* NewSubevent2 Iterator.cxx:347-361 *)
Definition new_sub2 (s : witer) (fullid : N) : res (witer * bool) :=
  if is_null (w_sub s) then Ok (s, false)
  else if negb (is_null (w_data s)) then Ok (s, false)
  else do o <- addr (w_sub s); do m <- init_full (w_mem s) o fullid;
       Ok (mkW m (w_ev s) (w_sub s) (shift (w_sub s) 12) (w_full s), true).

(* AddRawData Iterator.cxx:371-376, copyfrom of memory Pointer.cxx:110-127 *)
Definition add_raw (s : witer) (d : bytes) : res (witer * bool) :=
  if is_null (w_data s) || (p_full (w_sub s) <? lenN d) then Ok (s, false)
  else let n := N.min (lenN d) (p_full (w_data s)) in
       do o <- addr (w_data s); do m <- setb (w_mem s) o (takeN n d);
       Ok (mkW m (w_ev s) (w_sub s) (shift (w_data s) n) (w_full s), true).

(* maxrawdatasize Iterator.h:159 *)
Definition max_raw (s : witer) : N := if is_null (w_sub s) then 0 else (p_full (w_sub s) + 2^32 - 12) mod 2^32.
(* FinishSubEvent Iterator.cxx:378-407; SetRawDataSize MbsTypeDefs.h:79 *)
Definition finish_sub (s : witer) (rawsz : N) : res (witer * bool) :=
  if is_null (w_sub s) then Ok (s, false)
  else
    do o <- addr (w_sub s);
    do filled <- (if is_null (w_data s) then Ok (max_raw s) else do d <- addr (w_data s); Ok (d - o - 12));
    let rawsz := if rawsz =? 0 then filled else rawsz in
    let rawsz := if max_raw s <? rawsz then max_raw s else rawsz in
    do m <- set_full_size (w_mem s) o (rawsz + 12);
    do n <- full_size m o;
    Ok (mkW m (w_ev s) (shift (w_sub s) n) pnull (w_full s), true).

(* AddSubevent Iterator.cxx:409-421 *)
Definition add_sub (s : witer) (d : bytes) : res (witer * bool) :=
  if is_null (w_sub s) then Ok (s, false)
  else if p_full (w_sub s) <? lenN d then Ok (s, false)
  else do o <- addr (w_sub s); do m <- setb (w_mem s) o d;
       Ok (mkW m (w_ev s) (shift (w_sub s) (lenN d)) (w_data s) (w_full s), true).

(* FinishEvent Iterator.cxx:428-447 *)
Definition finish_event (s : witer) : res (witer * bool) :=
  if is_null (w_ev s) then Ok (s, false)
  else
    do o <- addr (w_ev s);
    do n <- (if is_null (w_sub s) then Ok (p_full (w_ev s)) else do e <- addr (w_sub s); Ok (e - o));
    do m <- set_full_size (w_mem s) o n;
    Ok (mkW m (shift (w_ev s) n) pnull (w_data s) (w_full s + n), true).

(* DiscardEvent Iterator.cxx:449-453 *)
Definition discard (s : witer) : witer := mkW (w_mem s) (w_ev s) pnull pnull (w_full s).

(* CopyEventFrom Iterator.cxx:456-480 *)
Definition copy_event (s : witer) (d : bytes) (finish : bool) : res (witer * bool) :=
  if negb (is_null (w_sub s)) then Ok (s, false)
  else if is_null (w_ev s) then Ok (s, false)
  else if p_full (w_ev s) <? lenN d then Ok (s, false)
  else do o <- addr (w_ev s); do m <- setb (w_mem s) o d;
       let s1 := mkW m (w_ev s) (shift (w_ev s) (lenN d)) (w_data s) (w_full s) in
       if finish then finish_event s1 else Ok (s1, true).

(* Close Iterator.cxx:237-254: the data of the resulting buffer (the size check there
   only prints a message) *)
Definition w_close (s : witer) : res bytes :=
  do (s, _) <- (if is_null (w_data s) then Ok (s, false) else finish_sub s 0);
  do (s, _) <- (if is_null (w_sub s) then Ok (s, false) else finish_event s);
  Ok (if (0 <? w_full s) && (w_full s <=? lenN (w_mem s)) then takeN (w_full s) (w_mem s) else w_mem s).

(* CloseAndTransfer Iterator.cxx:256-295: the iterator afterwards (without buffer: None)
   and the buffer returned.  In the last step fBuffer, the new buffer, is moved to
   the result; oldbuf is destroyed. *)
Definition close_transfer (s : witer) (newm : bytes) : res (option witer * bytes) :=
  if is_null (w_sub s) then
    do b <- w_close s; Ok (w_reset newm, b)
  else
    do o <- addr (w_ev s); do e <- addr (w_sub s);
    do dist <- (if is_null (w_data s) then Ok 0 else do d <- addr (w_data s); Ok (d - e));
    let n := e - o + dist in
    do part <- getb (w_mem s) o n;
    let n := N.min n (lenN newm) in
    do newm <- setb newm 0 (takeN n part);
    do old <- w_close (discard s);
    Ok (None, newm).

(* ---- a user of the write iterator ---- *)
Fixpoint add_pieces (s : witer) (l : list bytes) : res (witer * bool) :=
  match l with
  | [] => Ok (s, true)
  | d :: l => do (s, ok) <- add_raw s d; if ok then add_pieces s l else Ok (s, false)
  end.
Definition write_sub (s : witer) (x : wsub) : res (witer * bool) :=
  match x with
  | WNew crate procid control pieces =>
    do (s, ok) <- new_sub s 0 crate procid control;
    if ok then
      do (s, ok) <- add_pieces s pieces;
      if ok then finish_sub s 0 else Ok (s, false)
    else Ok (s, false)
  | WAdd x => add_sub s (enc_msub x)
  end.
Fixpoint write_subs (s : witer) (l : list wsub) : res (witer * bool) :=
  match l with
  | [] => Ok (s, true)
  | x :: l => do (s, ok) <- write_sub s x; if ok then write_subs s l else Ok (s, false)
  end.
Definition start_event (s : witer) (b : wbase) : res (witer * bool) :=
  match b with WNumber n => new_event s n 0 | WCopy e => copy_event s (enc_mevent e) false end.
Definition write_event (s : witer) (e : wevent) : res (witer * bool) :=
  do (s, ok) <- start_event s (fst e);
  if ok then
    do (s, ok) <- write_subs s (snd e);
    if ok then finish_event s else Ok (s, false)
  else Ok (s, false).
Fixpoint write_events (s : witer) (l : list wevent) : res (witer * bool) :=
  match l with
  | [] => Ok (s, true)
  | e :: l => do (s, ok) <- write_event s e; if ok then write_events s l else Ok (s, false)
  end.

(* ---- LMD files ---- *)

(* OpenWriting LmdFile.h:105-144: the file header *)
Definition lmd_header : bytes :=
  le 4 ((0xfffffff0 - 8) / 2) ++ le 4 (N.lor 0x65 (N.shiftl 1 16)) ++ le 8 0 ++ le 4 0xffffffff ++ le 4 8 ++
  le 4 0 ++ le 4 0 ++ le 4 1 ++ le 4 0 ++ le 4 0 ++ le 4 0.
(* WriteBuffer LmdFile.h:155-166 *)
Definition lmd_write (f d : bytes) : bytes * bool := if lenN d =? 0 then (f, false) else (f ++ d, true).
(* OpenReading LmdFile.h:48-103: the rest of the file *)
Definition lmd_open (f : bytes) : option bytes :=
  let h := takeN 48 f in
  if lenN h <? 48 then None
  else
    let w o := unle (takeN 4 (dropN o h)) in
    if negb (w 32 =? 1) then None
    else if (w 4 =? N.lor 0x65 (N.shiftl 1 16)) && ((8 + w 0 * 2) mod 2^32 =? 0xfffffff0) && (w 20 =? 8) then Some (dropN 48 f)
    else None.

(* the loop LmdFile.h:191-201 over the [buf] read: checked size, file position set back *)
Fixpoint scan (fuel : nat) (buf : bytes) (only : bool) (checked : N) : res (N * bool) :=
  match fuel with
  | O => Loop
  | S k =>
    if lenN buf <=? checked then Ok (checked, false)
    else
      do n <- full_size buf checked;
      if (lenN buf <? checked + n) || (only && (0 <? checked)) then Ok (checked, true)
      else scan k buf only (checked + n)
  end.
(* ReadBuffer LmdFile.h:170-206: new rest of the file and the data *)
Definition lmd_read (maxsz : N) (only : bool) (rest : bytes) : res (bytes * option bytes) :=
  if maxsz <? 8 then Ok (rest, None)
  else
    let buf := takeN maxsz rest in
    if lenN buf =? 0 then Ok (rest, None)
    else
      do (checked, back) <- scan (S (length buf)) buf only 0;
      Ok (if back then dropN checked rest else dropN maxsz rest,
          if 0 <? checked then Some (takeN checked buf) else None).

(* LmdInput: the file being read and the files still to be read *)
Record linput : Type := mkL { l_cur : option bytes; l_files : list bytes }.
Inductive lres := LData (b : bytes) | LEnd | LError.
(* OpenNextFile LmdInput.cxx:48-62 *)
Definition open_next (s : linput) : linput * bool :=
  match l_files s with
  | [] => (mkL None [], false)
  | f :: fs => match lmd_open f with Some r => (mkL (Some r) fs, true) | None => (mkL None fs, false) end
  end.
(* Read_Size LmdInput.cxx:72-80, Read_Complete 82-109 *)
Definition read_size (s : linput) : linput * bool :=
  match l_cur s with Some _ => (s, true) | None => open_next s end.
Definition read_complete (maxsz : N) (s : linput) : res (linput * lres) :=
  match l_cur s with
  | None => Ok (s, LError)
  | Some r =>
    do (r1, d) <- lmd_read maxsz false r;
    match d with
    | Some b => Ok (mkL (Some r1) (l_files s), LData b)
    | None => let (s1, ok) := open_next s in
              (* bufsize is still 0 *)
              Ok (s1, if ok then LError else LEnd)
    end
  end.
(* reading until the end or an error: the data and whether the end was reached *)
Fixpoint input_loop (fuel : nat) (maxsz : N) (s : linput) : res (list bytes * bool) :=
  match fuel with
  | O => Loop
  | S k =>
    let (s, ok) := read_size s in
    if ok then
      do (s, d) <- read_complete maxsz s;
      match d with
      | LData b => do (l, e) <- input_loop k maxsz s; Ok (b :: l, e)
      | LEnd => Ok ([], true)
      | LError => Ok ([], false)
      end
    else Ok ([], true)
  end.
(* calling ReadBuffer until it fails: the data of the calls *)
Fixpoint lmd_blocks (fuel : nat) (maxsz : N) (only : bool) (rest : bytes) : res (list bytes) :=
  match fuel with
  | O => Loop
  | S k => do (r1, d) <- lmd_read maxsz only rest;
           match d with None => Ok [] | Some b => do l <- lmd_blocks k maxsz only r1; Ok (b :: l) end
  end.
(* a file written with one WriteBuffer call per element of [l] *)
Definition lmd_file (l : list bytes) : bytes := fold_left (fun f d => fst (lmd_write f d)) l lmd_header.
