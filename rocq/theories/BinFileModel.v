(* Model of base/dabc/BinaryFile.h (BinaryFile over the C library FILE functions),
   base/src/BinaryFileIO.cxx (BinaryFileInput, BinaryFileOutput) and of the file
   splitting in base/src/DataIO.cxx (FileOutput). *)
From Verif Require Import Common ListFacts Bytes.
Open Scope N_scope.

Inductive fmode := Closed | Reading | Writing.

(* BinaryFile with its FILE.  [b_rest]: bytes from the read position to the end
   of the file; [b_eof]: the end-of-file indicator; [b_disk]: content written so
   far (kept when the file is closed: it is what is on disk); [b_room]: free
   space of the disk; [b_len], [b_typ]: fBufHdr. *)
Record bf : Type := mkB {
  b_mode : fmode; b_rest : bytes; b_eof : bool; b_disk : bytes; b_room : N; b_len : N; b_typ : N }.

(* C library: fread(ptr, n, 1, f): all n bytes or failure; a failing read takes
   what is there and sets the end-of-file indicator *)
Definition fread (s : bf) (n : N) : bf * option bytes :=
  if n <=? lenN (b_rest s) then
    (mkB (b_mode s) (dropN n (b_rest s)) (b_eof s) (b_disk s) (b_room s) (b_len s) (b_typ s), Some (takeN n (b_rest s)))
  else (mkB (b_mode s) [] true (b_disk s) (b_room s) (b_len s) (b_typ s), None).

(* C library: fwrite(ptr, n, 1, f): fails when the disk is full, what fits is written *)
Definition fwrite (s : bf) (d : bytes) : bf * bool :=
  if lenN d <=? b_room s then
    (mkB (b_mode s) (b_rest s) (b_eof s) (b_disk s ++ d) (b_room s - lenN d) (b_len s) (b_typ s), true)
  else (mkB (b_mode s) (b_rest s) (b_eof s) (b_disk s ++ takeN (b_room s) d) 0 (b_len s) (b_typ s), false).

(* BasicFile::CloseBasicFile BinaryFile.h:91-97 *)
Definition close (s : bf) : bf := mkB Closed (b_rest s) (b_eof s) (b_disk s) (b_room s) (b_len s) (b_typ s).
Definition set_hdr (s : bf) (len typ : N) : bf := mkB (b_mode s) (b_rest s) (b_eof s) (b_disk s) (b_room s) len typ.
Definition set_mode (s : bf) (m : fmode) : bf := mkB m (b_rest s) (b_eof s) (b_disk s) (b_room s) (b_len s) (b_typ s).

Definition magic : N := 1237.

(* BinaryFile::OpenReading BinaryFile.h:197-225 for an existing file with content [d] *)
Definition open_reading (d : bytes) : bf * bool :=
  let s := mkB Reading d false [] 0 0 0 in
  match fread s 16 with
  | (s1, Some h) => if unle (takeN 8 h) =? magic then (set_hdr s1 0 0, true) else (close s1, false)
  | (s1, None) => (close s1, false)
  end.

(* BinaryFile::OpenWriting BinaryFile.h:227-257: the file is empty after fopen *)
Definition open_writing (room : N) : bf * bool :=
  let s := mkB Writing [] false [] room 0 0 in
  match fwrite s (le 8 magic ++ le 8 2) with
  | (s1, true) => (set_hdr s1 0 0, true)
  | (s1, false) => (close s1, false)
  end.

(* BinaryFile::WriteBufHeader BinaryFile.h:266-286 *)
Definition write_hdr (s : bf) (size typ : N) : bf * bool :=
  match b_mode s with
  | Writing =>
    if size =? 0 then (s, false)
    else if negb (b_len s =? 0) then (close s, false)
    else match fwrite (set_hdr s size typ) (le 8 size ++ le 8 typ) with
         | (s1, true) => (s1, true)
         | (s1, false) => (close s1, false)
         end
  | _ => (s, false)
  end.

(* BinaryFile::WriteBufPayload BinaryFile.h:288-307 *)
Definition write_pay (s : bf) (d : bytes) : bf * bool :=
  match b_mode s with
  | Writing =>
    if lenN d =? 0 then (s, false)
    else if b_len s <? lenN d then (close s, false)
    else match fwrite (set_hdr s (b_len s - lenN d) (b_typ s)) d with
         | (s1, true) => (s1, true)
         | (s1, false) => (close s1, false)
         end
  | _ => (s, false)
  end.

(* BinaryFile::WriteBuffer BinaryFile.h:309-314 *)
Definition write_buffer (s : bf) (d : bytes) (typ : N) : bf * bool :=
  match write_hdr s (lenN d) typ with
  | (s1, true) => write_pay s1 d
  | (s1, false) => (s1, false)
  end.

(* BinaryFile::ReadBufHeader BinaryFile.h:317-335 *)
Definition read_hdr (s : bf) : bf * option (N * N) :=
  match b_mode s with
  | Reading =>
    if negb (b_len s =? 0) then (close s, None)
    else match fread s 16 with
         | (s1, Some h) =>
           let len := unle (takeN 8 h) in let typ := unle (dropN 8 h) in
           (set_hdr s1 len typ, Some (len, typ))
         | (s1, None) => (close s1, None)
         end
  | _ => (s, None)
  end.

(* BinaryFile::ReadBufPayload BinaryFile.h:337-356 *)
Definition read_pay (s : bf) (sz : N) : bf * option bytes :=
  match b_mode s with
  | Reading =>
    if sz =? 0 then (s, None)
    else if b_len s <? sz then (close s, None)
    else match fread (set_hdr s (b_len s - sz) (b_typ s)) sz with
         | (s1, Some d) => (s1, Some d)
         | (s1, None) => (close s1, None)
         end
  | _ => (s, None)
  end.

(* BinaryFile::ReadBuffer BinaryFile.h:358-374 with memory for [maxsz] bytes *)
Definition read_buffer (s : bf) (maxsz : N) : bf * option (N * bytes) :=
  if maxsz =? 0 then (s, None)
  else match read_hdr s with
       | (s1, Some (sz, typ)) =>
         if maxsz <? sz then (close s1, None)
         else match read_pay s1 sz with
              | (s2, Some d) => (s2, Some (typ, d))
              | (s2, None) => (s2, None)
              end
       | (s1, None) => (s1, None)
       end.

(* result of Read_Size, an unsigned 32-bit value: a size or one of the codes of
   base/dabc/DataIO.h:31-47 *)
Inductive icode := DiSize (n : N) | DiCode (n : N).
Definition di_EndOfStream : N := 0xFFFFFFF4.
Definition di_Error : N := 0xFFFFFFF7.
Definition as_code (n : N) : icode := if n <=? 0xFFFFFFF0 then DiSize n else DiCode n.

(* BinaryFileInput::Read_Size base/src/BinaryFileIO.cxx:62-77.  Result: the returned
   value, fCurrentBufSize and fCurrentBufType *)
Definition read_size (s : bf) : bf * (icode * (N * N)) :=
  match b_mode s with
  | Reading =>
    if b_eof s then (s, (as_code di_EndOfStream, (0, 0)))
    else match read_hdr s with
         | (s1, Some (sz, typ)) => (s1, (as_code (sz mod 2^32), (sz, typ)))
         | (s1, None) => (s1, (as_code di_Error, (0, 0)))
         end
  | _ => (s, (as_code di_Error, (0, 0)))
  end.

(* BinaryFileInput::Read_Complete base/src/BinaryFileIO.cxx:79-99 into a buffer of
   one segment of [bufsz] bytes; [sz], [typ]: fCurrentBufSize, fCurrentBufType *)
Definition read_complete (s : bf) (bufsz sz typ : N) : bf * option (N * bytes) :=
  match b_mode s with
  | Reading =>
    if bufsz <? sz then (s, None)
    else match read_pay s sz with
         | (s1, Some d) => (s1, Some (typ, d))
         | (s1, None) => (s1, None)
         end
  | _ => (s, None)
  end.

(* How the transport uses the input: ask for the size, take a buffer of that size,
   complete; until something else than a buffer is delivered.  Result: the
   buffers and the final code (di_Error when completing failed). *)
Fixpoint input_loop (fuel : nat) (s : bf) : res (list (N * bytes) * N) :=
  match fuel with
  | O => Loop
  | S k =>
    match read_size s with
    | (s1, (DiSize n, (sz, typ))) =>
      match read_complete s1 n sz typ with
      | (s2, Some b) => do lc <- input_loop k s2; Ok (b :: fst lc, snd lc)
      | (s2, None) => Ok ([], di_Error)
      end
    | (s1, (DiCode c, _)) => Ok ([], c)
    end
  end.

(* every delivered buffer consumes at least 17 bytes of the file *)
Definition input_file (d : bytes) : res (list (N * bytes) * N) :=
  match open_reading d with
  | (s, true) => input_loop (S (length d)) s
  | (s, false) => Ok ([], di_Error)
  end.

(* the same with BinaryFile::ReadBuffer and memory for [maxsz] bytes *)
Fixpoint buffer_loop (fuel : nat) (maxsz : N) (s : bf) : res (list (N * bytes)) :=
  match fuel with
  | O => Loop
  | S k =>
    match read_buffer s maxsz with
    | (s1, Some b) => do l <- buffer_loop k maxsz s1; Ok (b :: l)
    | (s1, None) => Ok []
    end
  end.
Definition buffers_of_file (maxsz : N) (d : bytes) : res (list (N * bytes)) :=
  match open_reading d with
  | (s, true) => buffer_loop (S (length d)) maxsz s
  | (s, false) => Ok []
  end.

(* ---- BinaryFileOutput ---- *)

(* a buffer to be written: type and segments *)
Definition obuf : Type := N * list bytes.
Definition obuf_len (b : obuf) : N := lenN (concat (snd b)).

(* BinaryFileOutput with FileOutput: [o_done] closed files, [o_cur] current file,
   [o_cursize] fCurrentFileSize, [o_limit] fSizeLimitMB, [o_num] fCurrentFileNumber *)
Record bo : Type := mkO { o_done : list bytes; o_cur : bf; o_cursize : N; o_limit : N; o_num : N }.

(* segments loop base/src/BinaryFileIO.cxx:165-166 *)
Fixpoint write_segs (s : bf) (segs : list bytes) : bf * bool :=
  match segs with
  | [] => (s, true)
  | d :: r => match write_pay s d with (s1, true) => write_segs s1 r | (s1, false) => (s1, false) end
  end.

(* FileOutput::CheckBufferForNextFile base/src/DataIO.cxx:277-283; the comparison
   of doubles is exact for file sizes below 2^53 *)
Definition next_file (o : bo) (sz : N) : bool :=
  (0 <? o_limit o) && (o_limit o * 1048576 <? o_cursize o + sz).

(* BinaryFileOutput::StartNewFile base/src/BinaryFileIO.cxx:124-138 with
   CloseFile 141-148 and ProduceNewFileName base/src/DataIO.cxx:270-274 *)
Definition start_file (o : bo) : bo * bool :=
  let done := o_done o ++ match b_mode (o_cur o) with Writing => [b_disk (o_cur o)] | _ => [] end in
  let (s, ok) := open_writing (b_room (o_cur o)) in
  (mkO done s 0 (o_limit o) (o_num o + 1), ok).

(* BinaryFileOutput::Write_Init base/src/BinaryFileIO.cxx:115-122: first file; the
   choice of the first number (DataIO.cxx:211-250) is in FnumModel.v *)
Definition output_init (room limit : N) : bo * bool :=
  start_file (mkO [] (mkB Closed [] false [] room 0 0) 0 limit 0).

(* BinaryFileOutput::Write_Buffer base/src/BinaryFileIO.cxx:151-171 with AccountBuffer base/src/DataIO.cxx:286-292 *)
Definition output_buffer (o : bo) (b : obuf) : bo * bool :=
  match b_mode (o_cur o) with
  | Writing =>
    let sz := obuf_len b in
    let (o1, ok) := if next_file o sz then start_file o else (o, true) in
    if negb ok then (o1, false)
    else match write_hdr (o_cur o1) sz (fst b) with
         | (s1, false) => (mkO (o_done o1) s1 (o_cursize o1) (o_limit o1) (o_num o1), false)
         | (s1, true) =>
           match write_segs s1 (snd b) with
           | (s2, false) => (mkO (o_done o1) s2 (o_cursize o1) (o_limit o1) (o_num o1), false)
           | (s2, true) => (mkO (o_done o1) s2 (o_cursize o1 + sz) (o_limit o1) (o_num o1), true)
           end
         end
  | _ => (o, false)
  end.

(* write buffers until one fails: what the output transport does *)
Fixpoint output_run (o : bo) (l : list obuf) : bo * list bool :=
  match l with
  | [] => (o, [])
  | b :: r =>
    match output_buffer o b with
    | (o1, true) => let (o2, rs) := output_run o1 r in (o2, true :: rs)
    | (o1, false) => (o1, [false])
    end
  end.

(* the files on disk afterwards *)
Definition files_of (o : bo) : list bytes := o_done o ++ [b_disk (o_cur o)].
