(* Text of record fields, Record.cxx:749-1027, and numbers from text, string.cxx:162-214.
   Strings are lists of bytes; char is signed.  Error output is not modelled. *)
From Coq Require Import ZArith.
From Verif Require Import Common Bytes DecStr RecordSpec UrlModel.
Open Scope N_scope.

(* NeedJsonReformat 792-811, for one character; bytes from 128 on are negative as char *)
Definition need_char (c : N) : bool :=
  (c =? 10) || (c =? 9) || (c =? 34) || (c =? 92) || (c =? 8) || (c =? 12) || (c =? 13) || (c =? 47)
  || ((c <? 32) || (127 <? c)) || ((126 <? c) && (c <? 128)).
Definition need_reformat (s : bytes) : bool := existsb need_char s.

(* printf("%04x") *)
Definition hex_char (d : N) : N := if d <? 10 then 48 + d else 87 + d.
Fixpoint hex_digits (fuel : nat) (n : N) : bytes :=
  match fuel with
  | O => []
  | S k => (if n / 16 =? 0 then [] else hex_digits k (n / 16)) ++ [hex_char (n mod 16)]
  end.
Definition hex4 (n : N) : bytes := let d := hex_digits 8 n in repeat 48 (4 - length d) ++ d.
(* (unsigned) str[n] *)
Definition to_unsigned (c : N) : N := if c <? 128 then c else 2^32 - 256 + c.
(* JsonReformat 813-833 *)
Definition reformat_char (c : N) : bytes :=
  if c =? 10 then [92; 110] else if c =? 9 then [92; 116] else if c =? 34 then [92; 34] else if c =? 92 then [92; 92]
  else if c =? 8 then [92; 98] else if c =? 12 then [92; 102] else if c =? 13 then [92; 114] else if c =? 47 then [92; 47]
  else if (31 <? c) && (c <? 127) then [c] else [92; 117] ++ hex4 (to_unsigned c).
Definition reformat (s : bytes) : bytes := flat_map reformat_char s.
(* 772-777, 883-888, 895-900: the quoted string *)
Definition quoted (s : bytes) : bytes := [34] ++ (if need_reformat s then reformat s else s) ++ [34].

(* printf("%ld"), printf("%lu") *)
Definition print_ld (w : N) : bytes := if w <? 2^63 then dec w else 45 :: dec (2^64 - w).
Definition print_lu (w : N) : bytes := dec w.

(* the loops of 850-855, 859-864, 880-890: elements with commas between, in brackets *)
Fixpoint commas (l : list bytes) : bytes :=
  match l with
  | [] => []
  | [x] => x
  | x :: r => x ++ 44 :: commas r
  end.
Definition brackets (l : list bytes) : bytes := [91] ++ commas l ++ [93].

(* AsJson 835-921; date and time, floating point numbers and references are left out *)
Definition as_json (v : value) : option bytes :=
  match v with
  | VNone => Some [110;117;108;108]
  | VBool w => Some (if negb (w =? 0) then [116;114;117;101] else [102;97;108;115;101])
  | VInt w => Some (print_ld w)
  | VUInt w => Some (print_lu w)
  | VArrInt ws => Some (brackets (map print_ld ws))
  | VArrUInt ws => Some (brackets (map print_lu ws))
  | VStr b => Some (quoted b)
  | VArrStr l => Some (brackets (map quoted l))
  | VBuf b => Some (brackets (map (fun c => [48; 120] ++ (let d := hex_digits 8 c in repeat 48 (2 - length d) ++ d)) b))
  | _ => None
  end.

(* AsStr 749-790 of an array, from the texts of its elements; [dflt] for an empty one *)
Definition array_str (dflt : bytes) (l : list bytes) : bytes := match l with [] => dflt | _ => brackets (map quoted l) end.
(* AsStrVect 923-967 for arrays *)
Definition elements (v : value) : list bytes :=
  match v with
  | VArrInt ws => map print_ld ws
  | VArrUInt ws => map print_lu ws
  | VArrStr l => l
  | _ => []
  end.

(* ---- reading arrays from text ---- *)
(* index of the first character with the property *)
Fixpoint find_char (f : N -> bool) (l : bytes) : option nat :=
  match l with [] => None | c :: r => if f c then Some O else option_map S (find_char f r) end.
(* the element without spaces at its end, but with its first character (1009-1011) *)
Fixpoint rtrim (l : bytes) : bytes :=
  match l with [] => [] | c :: r => match rtrim r with [] => if c =? 32 then [] else [c] | t => c :: t end end.
Definition keep_first (l : bytes) : bytes := match l with [] => [] | c :: r => c :: rtrim r end.
(* one element at the start: 993-1013.  [Ok None]: syntax error *)
Definition one_element (l : bytes) : res (option (bytes * bytes)) :=
  match l with
  | [] => UB
  | c :: r =>
    if (c =? 39) || (c =? 34) then
      Ok (match find_char (N.eqb c) r with None => None | Some i => Some (firstn i r, skipn (i + 1) r) end)
    else
      Ok (match find_char (fun x => (x =? 44) || (x =? 93)) r with
          | None => None
          | Some i => Some (keep_first (c :: firstn i r), skipn i r)
          end)
  end.
(* the loop 991-1024 *)
Fixpoint vect_loop (fuel : nat) (l : bytes) (acc : list bytes) : res (option (list bytes)) :=
  match fuel with
  | O => Loop
  | S k =>
    match l with
    | [] => Ok (Some acc)
    | _ =>
      do o <- one_element (skip_blank l);
      match o with
      | None => Ok None
      | Some (e, t) =>
        match skip_blank t with
        | [] => Ok (Some (acc ++ [e]))
        | c :: t' => if c =? 44 then vect_loop k t' (acc ++ [e]) else Ok (Some (acc ++ [e]))
        end
      end
    end
  end.
(* StrToStrVect 983-1027: false is None *)
Definition str_to_vect (s : bytes) : res (option (list bytes)) :=
  if (length s <? 2)%nat || negb (hd 0 s =? 91) || negb (last s 0 =? 93) then Ok None
  else vect_loop (S (length s)) (skipn 1 s) [].

(* sscanf "%ld", "%lu", "%lx"; a value that does not fit is undefined behaviour *)
Definition scan_ld (l : bytes) : res (option Z) :=
  let '(neg, l) := scan_sign (skip_space l) in
  let '(v, any, _) := scan_digits l 0 false in
  if negb any then Ok None
  else if neg then if 2^63 <? v then UB else Ok (Some (- Z.of_N v)%Z)
       else if 2^63 <=? v then UB else Ok (Some (Z.of_N v)).
Definition scan_lu (l : bytes) : res (option N) :=
  let '(neg, l) := scan_sign (skip_space l) in
  let '(v, any, _) := scan_digits l 0 false in
  if negb any then Ok None else if 2^64 <=? v then UB else Ok (Some (if neg then (2^64 - v) mod 2^64 else v)).
Definition scan_lx (l : bytes) : res (option N) :=
  let '(neg, l) := scan_sign (skip_space l) in
  let '(v, any) := scan_hex (if is_0x l then skipn 2 l else l) 0 false in
  if negb any then Ok None else if 2^64 <=? v then UB else Ok (Some (if neg then (2^64 - v) mod 2^64 else v)).
Definition float_char (c : N) : bool := (c =? 46) || (c =? 44) || (c =? 101) || (c =? 69).
(* unsigned long to long *)
Definition to_long (n : N) : Z := if 2^63 <=? n then (Z.of_N n - 2^64)%Z else Z.of_N n.
(* str_to_lint, string.cxx:162-181 *)
Definition str_to_lint (s : bytes) : res (option Z) :=
  let l := skip_blank s in
  match l with
  | [] => Ok None
  | _ =>
    if (2 <? length l)%nat && is_0x l then do x <- scan_lx (skipn 2 l); Ok (option_map to_long x)
    else if existsb float_char l then Ok None
    else scan_ld l
  end.
(* str_to_luint, string.cxx:200-214 *)
Definition str_to_luint (s : bytes) : res (option N) :=
  let l := skip_blank s in
  match l with
  | [] => Ok None
  | _ =>
    if (2 <? length l)%nat && is_0x l then scan_lx (skipn 2 l)
    else if existsb float_char l then Ok None
    else scan_lu l
  end.
(* the values which can be read, in order: Record.cxx:604-606, 662-664 *)
Fixpoint collect {A} (f : bytes -> res (option A)) (l : list bytes) : res (list A) :=
  match l with
  | [] => Ok []
  | x :: r => do o <- f x; do t <- collect f r; Ok (match o with Some a => a :: t | None => t end)
  end.
(* AsIntVect 599-611, AsUIntVect 657-670 and AsStrVect 949-953 of a string *)
Definition as_num_vect {A} (f : bytes -> res (option A)) (s : bytes) : res (list A) :=
  do o <- str_to_vect s;
  match o with
  | Some l => collect f l
  | None => do o <- f s; Ok (match o with Some a => [a] | None => [] end)
  end.
Definition as_str_vect (s : bytes) : res (list bytes) :=
  do o <- str_to_vect s; Ok (match o with Some l => l | None => [s] end).
