(* Model of the file numbers of dabc::FileOutput, base/src/DataIO.cxx:211-274, with
   dabc::FileInterface::fmatch (base/src/BinaryFile.cxx:60-110) and the list of files of
   dabc::FileInput (base/src/DataIO.cxx:125-165, without loop).

   The file system is a list of the names under which readable plain files can be opened;
   different names of one file and changes by others while the list is made are not modelled,
   nor zero bytes in names.  Masks have no bracket expressions (see NameModel.v). *)
From Verif Require Import Common Bytes DecStr NameModel.
Local Open Scope Z_scope.

Fixpoint starts (p s : bytes) : bool :=
  match p, s with
  | [], _ => true
  | _, [] => false
  | x :: p, y :: s => (x =? y)%N && starts p s
  end.
(* std::string::rfind *)
Fixpoint rfind (s p : bytes) : option nat :=
  match s with
  | [] => if starts p [] then Some 0%nat else None
  | c :: r => match rfind r p with Some i => Some (S i) | None => if starts p s then Some 0%nat else None end
  end.

(* ProduceFileName, DataIO.cxx:252-267.  [None]: the exception of insert at npos; npos is equal
   to len - fFileExtens.length() when the name is one shorter than the extension *)
Definition produce (name ext suffix : bytes) : option bytes :=
  match rfind name ext with
  | Some pos => if (pos + length ext =? length name)%nat then Some (firstn pos name ++ suffix ++ skipn pos name) else Some ((name ++ suffix) ++ ext)
  | None => if (length name + 1 =? length ext)%nat then None else Some ((name ++ suffix) ++ ext)
  end.

(* strrchr with '/', BinaryFile.cxx:67-75 *)
Fixpoint after_slash (s : bytes) : bytes :=
  match s with
  | [] => []
  | c :: r => if existsb (N.eqb 47) r then after_slash r else if (c =? 47)%N then r else s
  end.
Definition folder (s : bytes) : bytes := firstn (length s - length (after_slash s)) s.
(* order of scandir with alphasort in the C locale *)
Fixpoint text_leb (a b : bytes) : bool :=
  match a, b with
  | [], _ => true
  | _, [] => false
  | x :: a, y :: b => (x <? y)%N || (x =? y)%N && text_leb a b
  end.
Fixpoint insert (x : bytes) (l : list bytes) : list bytes :=
  match l with [] => [x] | y :: r => if text_leb x y then x :: l else y :: insert x r end.
Definition sort (l : list bytes) : list bytes := fold_right insert [] l.
(* fmatch, BinaryFile.cxx:60-110 *)
Definition fmatch (fs : list bytes) (mask : bytes) : list bytes :=
  sort (filter (fun f => bytes_eqb (folder f) (folder mask) && negb (starts [46%N] (after_slash f)) && fnmatch (after_slash mask) (after_slash f)) fs).

(* the number at the end of a name, DataIO.cxx:229-240.  The search for the first digit goes
   below the begin of a name without any other character; sscanf with a value which does not fit
   is undefined *)
Fixpoint tail_digits (s : bytes) : bytes :=
  match s with [] => [] | c :: r => if forallb is_digit s then s else tail_digits r end.
Fixpoint strip (s : bytes) : bytes :=
  match s with
  | [] => []
  | c :: r => match r with [] => s | _ => if (c =? 48)%N then strip r else s end
  end.
Definition file_no (ext f : bytes) : res (option Z) :=
  let s := firstn (length f - length ext) f in
  if (length f <? length ext)%nat || forallb is_digit s then UB
  else
    let d := strip (tail_digits s) in
    match d with
    | [] => Ok None
    | _ => let v := Z.of_N (fold_left (fun v c => 10 * v + (c - 48))%N d 0%N) in if 2147483647 <? v then UB else Ok (Some v)
    end.
Fixpoint max_no (ext : bytes) (l : list bytes) (m : Z) : res Z :=
  match l with
  | [] => Ok m
  | f :: r => do o <- file_no ext f; max_no ext r (match o with Some v => if m <? v then v else m | None => m end)
  end.
(* Write_Init, DataIO.cxx:211-250: fCurrentFileNumber afterwards; [Ok None]: exception *)
Definition write_init (fs : list bytes) (name ext : bytes) (start : Z) : res (option Z) :=
  match produce name ext [42%N] with
  | None => Ok None
  | Some mask =>
      do m <- max_no ext (fmatch fs mask) (-1);
      if start <=? m then (if m =? 2147483647 then UB else Ok (Some (m + 1))) else Ok (Some start)
  end.

(* format of "_%04d" *)
Definition fmt4 (n : Z) : bytes :=
  let d := dec (Z.to_N (Z.abs n)) in
  95%N :: (if n <? 0 then 45%N :: repeat 48%N (3 - length d) ++ d else repeat 48%N (4 - length d) ++ d).
(* ProduceNewFileName, DataIO.cxx:270-274: name and next number *)
Definition new_file (name ext : bytes) (n : Z) : res (option (bytes * Z)) :=
  if n =? 2147483647 then UB else Ok (match produce name ext (fmt4 n) with Some f => Some (f, n + 1) | None => None end).

(* one use of an output: Write_Init and [k] files, as done by plugins/mbs/src/LmdOutput.cxx:51-73; the files are
   added to the file system *)
Fixpoint files (name ext : bytes) (n : Z) (k : nat) : res (option (list bytes)) :=
  match k with
  | O => Ok (Some [])
  | S k =>
      do o <- new_file name ext n;
      match o with
      | None => Ok None
      | Some (f, n') => do r <- files name ext n' k; Ok (match r with Some l => Some (f :: l) | None => None end)
      end
  end.
Definition session (fs : list bytes) (name ext : bytes) (start : Z) (k : nat) : res (option (list bytes)) :=
  do c <- write_init fs name ext start;
  match c with
  | None => Ok None
  | Some n => do r <- files name ext n k; Ok (match r with Some l => Some (fs ++ l) | None => None end)
  end.
Fixpoint sessions (fs : list bytes) (name ext : bytes) (l : list (Z * nat)) : res (option (list bytes)) :=
  match l with
  | [] => Ok (Some fs)
  | (s, k) :: r => do o <- session fs name ext s k; match o with Some fs' => sessions fs' name ext r | None => Ok None end
  end.
