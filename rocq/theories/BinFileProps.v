(* Properties of binary files (C33, C34, C59). *)
From Verif Require Import Common ListFacts Bytes BinFileSpec BinFileModel BinFileProofs.
Open Scope N_scope.

(* ---- C33: what is written is read back ---- *)

(* Writing any list of non-empty buffers with enough disk space succeeds, gives one
   file, and reading this file delivers exactly these buffers, in order, with
   size and type, for both reading interfaces.  Missing: the end is reported as
   error, see below. *)
Theorem C33_roundtrip_partial : forall l room, Forall good l -> room_for l <= room ->
  exists o o' f, output_init room 0 = (o, true) /\ output_run o l = (o', repeat true (length l)) /\
    files_of o' = [f] /\
    input_file f = Ok (map flat l, di_Error) /\
    forall maxsz, Forall (fun b => lenN (snd (flat b)) <= maxsz) l -> buffers_of_file maxsz f = Ok (map flat l).
Proof. exact file_roundtrip. Qed.
Print Assumptions C33_roundtrip_partial.

(* The end of a completely written file is never reported as end of stream but as
   error: the end-of-file indicator is looked at before the read which sets it. *)
Theorem C33_eof_refuted :
  exists l f, Forall storable l /\ f = encode_file l /\ input_file f = Ok (l, di_Error) /\ di_Error <> di_EndOfStream.
Proof. exact eof_is_error. Qed.
Print Assumptions C33_eof_refuted.

Example C33_case :
  let l := [(1, [[10;11];[12]]); (7, [[255]]); (2^32, [[0];[0;0];[1;2;3]])] in
  Forall good l /\
  match output_init 1000 0 with
  | (o, _) => files_of (fst (output_run o l)) = [encode_file [(1,[10;11;12]);(7,[255]);(2^32,[0;0;0;1;2;3])]] end /\
  input_file (encode_file [(1,[10;11;12]);(7,[255])]) = Ok ([(1,[10;11;12]);(7,[255])], di_Error).
Proof.
  cbv zeta. split; [|split; vm_compute; reflexivity].
  repeat constructor; try discriminate.
Qed.

(* An empty segment breaks the file: the buffer is refused after its header and a
   part of its content were written, and the next buffer is refused as well. *)
Theorem C33_empty_segment_refuted :
  exists b c o o', storable (flat b) /\ good c /\ output_init 1000 0 = (o, true) /\
    output_buffer o b = (o', false) /\ snd (output_buffer o' c) = false /\ files_of o' <> [encode_file []].
Proof. exact empty_segment. Qed.
Print Assumptions C33_empty_segment_refuted.

(* ---- C34: truncated files ---- *)

(* A file cut at any byte delivers exactly the buffers which are complete on disk,
   and then an error. *)
Theorem C34_truncated : forall l n, Forall storable l ->
  input_file (takeN n (encode_file l)) = Ok (complete (n - 16) l, di_Error).
Proof. exact cut_file. Qed.
Print Assumptions C34_truncated.

(* When the disk gets full: the writer acknowledges exactly the buffers which are
   complete on disk, and reading the file later delivers exactly these. *)
Theorem C34_disk_full : forall l room, Forall good l -> 16 <= room ->
  exists o o' k f, output_init room 0 = (o, true) /\
    output_run o l = (o', repeat true k ++ (if (k <? length l)%nat then [false] else [])) /\
    files_of o' = [f] /\ f = takeN room (encode_file (map flat l)) /\
    input_file f = Ok (firstn k (map flat l), di_Error).
Proof. exact disk_full_read. Qed.
Print Assumptions C34_disk_full.

(* Whatever the content of a file: reading ends, and all data delivered lie in the
   file at the place and with the length and type given by the headers there. *)
Theorem C34_any_content : forall d, Forall isbyte d ->
  exists l c, input_file d = Ok (l, c) /\
    (l <> [] -> exists version rest, lenN version = 8 /\ d = le 8 1237 ++ version ++ encode_bufs l ++ rest).
Proof. exact input_file_sound. Qed.
Print Assumptions C34_any_content.

Example C34_case :
  let f := encode_file [(1,[10;11;12]);(7,[255])] in
  input_file (takeN 34 f) = Ok ([], di_Error) /\
  input_file (takeN 35 f) = Ok ([(1,[10;11;12])], di_Error) /\
  input_file (takeN 51 f) = Ok ([(1,[10;11;12])], di_Error) /\
  input_file (takeN 52 f) = Ok ([(1,[10;11;12]);(7,[255])], di_Error) /\
  complete (52 - 16) [(1,[10;11;12]);(7,[255])] = [(1,[10;11;12]);(7,[255])].
Proof. vm_compute. auto. Qed.
Example C34_case_full :
  match output_init 40 0 with
  | (o, _) => snd (output_run o [(1,[[10];[11;12]]);(7,[[255]])]) = [true; false] end.
Proof. vm_compute. reflexivity. Qed.

(* ---- C59: output over several files ---- *)

(* With a size limit the buffers are spread over files such that nothing is lost,
   duplicated or reordered, every file can be read on its own, and no file has
   more data than the limit unless it holds a single larger buffer. *)
Theorem C59_split : forall l room limit, Forall good l -> room_for l <= room ->
  exists o o' gs, output_init room limit = (o, true) /\ output_run o l = (o', repeat true (length l)) /\
    Forall2 (fun f g => input_file f = Ok (g, di_Error)) (files_of o') gs /\
    files_of o' = map encode_file gs /\
    concat gs = map flat l /\ Forall (fits limit) gs /\ o_num o' = lenN gs.
Proof. exact split_all. Qed.
Print Assumptions C59_split.

(* The headers are not counted: the file on disk can be larger than the limit. *)
Theorem C59_file_size_refuted :
  exists l room o o' f, Forall good l /\ output_init room 1 = (o, true) /\
    output_run o l = (o', repeat true (length l)) /\ files_of o' = [f] /\ (1 < length l)%nat /\ 1048576 < lenN f.
Proof. exact limit_exceeded. Qed.
Print Assumptions C59_file_size_refuted.

Example C59_case : (* second file started, sizes as in the code *)
  let o := mkO [] (mkB Writing [] false (encode_file [(1,[5])]) 2000000 0 0) 1048576 1 1 in
  let o' := fst (output_run o [(2,[[6;7]])]) in
  files_of o' = [encode_file [(1,[5])]; encode_file [(2,[6;7])]] /\ o_num o' = 2.
Proof. vm_compute. auto. Qed.
