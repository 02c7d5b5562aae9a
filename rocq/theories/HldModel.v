(* Model of HLD files: plugins/hadaq/src/HldFile.cxx and the loop of
   plugins/hadaq/src/HldInput.cxx.

   A file is its bytes; a file open for reading is what remains of it after the file
   position.  The memory a header is read from is what fread() delivered: reading
   behind that (old buffer content, or memory after the buffer) is undefined.
   Not modelled: failing fread / fwrite / fseek calls. *)
From Verif Require Import Common ListFacts Bytes WordMem BufPtr HadSpec HadModel.
Open Scope N_scope.

(* defines.h:121-122 *)
Definition EvtId_runStart : N := 0x00010002.
Definition EvtId_runStop : N := 0x00010003.

(* ---- writing ---- *)

(* OpenWrite HldFile.cxx:31-61: [g] is the uninitialised local variable evnt *)
Definition open_write (g : bytes) (run date clock : N) : res bytes :=
  init_event g 0 0 run EvtId_runStart date clock.
(* WriteBuffer HldFile.cxx:126-137 *)
Definition write_buffer (f d : bytes) : bytes * bool :=
  if lenN d =? 0 then (f, false) else (f ++ d, true).
(* Close HldFile.cxx:108-122 of a file being written *)
Definition close_write (f g : bytes) (run date clock : N) : res bytes :=
  do e <- init_event g 0 0 run EvtId_runStop date clock; Ok (fst (write_buffer f e)).

(* ---- reading ---- *)

Record hld : Type := mkH { h_rest : bytes; h_eof : bool }.

(* padded size 32 and id runStop HldFile.cxx:178, 202 *)
Definition is_stop (m : bytes) (o n : N) : res bool :=
  if n =? 32 then do i <- get_id m o; Ok (i =? EvtId_runStop) else Ok false.

(* ReadBuffer(ptr, &maxsz, true) HldFile.cxx:139-188 *)
Definition read_event (maxsz : N) (s : hld) : res (hld * option bytes) :=
  if maxsz <? 8 then Ok (s, None)
  else
    let hd := takeN 8 (h_rest s) in
    if lenN hd <? 8 then Ok (mkH [] true, None)
    else do n <- padded hd 0;
    if maxsz <? n then Ok (mkH (dropN 8 (h_rest s)) (h_eof s), None)
    (* padded size - 8 wraps to a huge value: fread() behind the buffer *)
    else if n <? 8 then UB
    else
      let ev := takeN n (h_rest s) in
      let rest := dropN n (h_rest s) in
      if lenN ev <? n then Ok (mkH rest true, None)
      else do st <- is_stop ev 0 n;
           if st then Ok (mkH rest true, None) else Ok (mkH rest (h_eof s), Some ev).

(* the loop HldFile.cxx:191-223 over the [buf] read: checked size, end-of-file
   detected, file position set back *)
Fixpoint scan (fuel : nat) (buf : bytes) (maxsz checked : N) : res (N * bool * bool) :=
  match fuel with
  | O => Loop
  | S k =>
    if lenN buf <=? checked then Ok (checked, false, false)
    else
      let r0 := lenN buf - checked in
      do r <- (if 8 <=? r0 then padded buf checked else Ok r0);
      do st <- is_stop buf checked r;
      if st then Ok (checked, true, false)
      else if lenN buf <? checked + r then Ok (checked, lenN buf <? maxsz, true)
      else do n <- padded buf checked; scan k buf maxsz (checked + n)
  end.

(* ReadBuffer(ptr, &maxsz, false) HldFile.cxx:139-153, 191-233 *)
Definition read_block (maxsz : N) (s : hld) : res (hld * option bytes) :=
  if maxsz <? 8 then Ok (s, None)
  else
    let buf := takeN maxsz (h_rest s) in
    if lenN buf <? 8 then Ok (mkH [] true, None)
    else do (checked, eof, back) <- scan (S (length buf)) buf maxsz 0;
    let eof := h_eof s || eof || ((lenN buf <? maxsz) && (checked =? lenN buf)) in
    let rest := if back then dropN checked (h_rest s) else dropN maxsz (h_rest s) in
    Ok (mkH rest eof, if 0 <? checked then Some (takeN checked buf) else None).

(* OpenRead HldFile.cxx:63-106: the run number *)
Definition open_read (f : bytes) : res (option (hld * N)) :=
  do (s, r) <- read_event 32 (mkH f true);
  match r with
  | None => Ok None
  | Some ev =>
    if negb (lenN ev =? 32) then Ok None
    else do i <- get_id ev 0;
         if negb (i =? EvtId_runStart) then Ok None
         else do run <- get_field ev 0 6; Ok (Some (mkH (h_rest s) false, run))
  end.

(* HldInput.cxx:72-103 (Read_Size, Read_Complete) with one file: reads until
   end-of-file; the blocks delivered and whether reading failed *)
Fixpoint read_loop (fuel : nat) (read : hld -> res (hld * option bytes)) (s : hld) : res (list bytes * bool) :=
  match fuel with
  | O => Loop
  | S k =>
    if h_eof s then Ok ([], true)
    else do (s1, r) <- read s;
         match r with
         | Some b => do (l, ok) <- read_loop k read s1; Ok (b :: l, ok)
         | None => Ok ([], h_eof s1)
         end
  end.
