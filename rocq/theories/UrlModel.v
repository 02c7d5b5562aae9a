(* dabc::Url, Url.cxx:46-300, and str_to_int, string.cxx:142-160.  Strings are lists of
   bytes; EOUT output is not modelled. *)
From Coq Require Import ZArith.
From Verif Require Import Common Bytes DecStr.
Open Scope N_scope.

Fixpoint is_prefix (p s : bytes) : bool :=
  match p, s with
  | [], _ => true
  | x :: p, y :: s => (x =? y) && is_prefix p s
  | _, [] => false
  end.
(* std::string::find *)
Fixpoint find_sub (p s : bytes) : option nat :=
  if is_prefix p s then Some O else match s with [] => None | _ :: r => match find_sub p r with Some i => Some (S i) | None => None end end.
(* c_str(): up to the first zero *)
Fixpoint c_str (l : bytes) : bytes := match l with [] => [] | c :: r => if c =? 0 then [] else c :: c_str r end.

(* sscanf: optional sign *)
Definition scan_sign (l : bytes) : bool * bytes :=
  match l with c :: r => if c =? 45 then (true, r) else if c =? 43 then (false, r) else (false, l) | [] => (false, l) end.
(* sscanf(l, "%d"); a value that does not fit is undefined behaviour *)
Definition scan_d (l : bytes) : res (option Z) :=
  let '(neg, l) := scan_sign (skip_space l) in
  let '(v, any, _) := scan_digits l 0 false in
  if negb any then Ok None
  else if neg then if 2^31 <? v then UB else Ok (Some (- Z.of_N v)%Z)
       else if 2^31 <=? v then UB else Ok (Some (Z.of_N v)).
Definition hex_digit (c : N) : option N :=
  if is_digit c then Some (c - 48) else if (97 <=? c) && (c <=? 102) then Some (c - 87) else if (65 <=? c) && (c <=? 70) then Some (c - 55) else None.
Fixpoint scan_hex (l : bytes) (v : N) (any : bool) : N * bool :=
  match l with
  | c :: r => match hex_digit c with Some d => scan_hex r (16 * v + d) true | None => (v, any) end
  | [] => (v, any)
  end.
Definition is_0x (l : bytes) : bool := match l with c :: d :: _ => (c =? 48) && ((d =? 120) || (d =? 88)) | _ => false end.
(* sscanf(l, "%x"), with an optional 0x *)
Definition scan_x (l : bytes) : res (option N) :=
  let '(neg, l) := scan_sign (skip_space l) in
  let '(v, any) := scan_hex (if is_0x l then skipn 2 l else l) 0 false in
  if negb any then Ok None else if 2^32 <=? v then UB else Ok (Some (if neg then (2^32 - v) mod 2^32 else v)).
Fixpoint skip_blank (l : bytes) : bytes := match l with c :: r => if c =? 32 then skip_blank r else l | [] => [] end.
(* unsigned to int *)
Definition to_int (n : N) : Z := if 2^31 <=? n then (Z.of_N n - 2^32)%Z else Z.of_N n.
(* str_to_int, string.cxx:142-160 *)
Definition str_to_int (s : bytes) : res (option Z) :=
  let l := skip_blank (c_str s) in
  match l with
  | [] => Ok None
  | _ =>
    if (2 <? length l)%nat && is_0x l then do x <- scan_x (skipn 2 l); Ok (option_map to_int x)
    else if existsb (fun c => (c =? 46) || (c =? 44) || (c =? 101) || (c =? 69)) l then Ok None
    else scan_d l
  end.

(* ReplaceSpecialSymbols 109-121: one of its loops, and all of them *)
Fixpoint replace_loop (fuel : nat) (pat : bytes) (c : N) (s : bytes) : res bytes :=
  match fuel with
  | O => Loop
  | S k => match find_sub pat s with None => Ok s | Some i => replace_loop k pat c (firstn i s ++ [c] ++ skipn (i + 3) s) end
  end.
(* %27 %22 %20 %3E %3C %5B %5D stand for the quotes 39 and 34, 32, 62, 60, 91 and 93 *)
Definition special_symbols : list (bytes * N) :=
  [([37; 50; 55], 39); ([37; 50; 50], 34); ([37; 50; 48], 32); ([37; 51; 69], 62); ([37; 51; 67], 60); ([37; 53; 66], 91); ([37; 53; 68], 93)].
Fixpoint replace_special (l : list (bytes * N)) (s : bytes) : res bytes :=
  match l with [] => Ok s | (p, c) :: r => do s <- replace_loop (S (length s)) p c s; replace_special r s end.

Record url : Type := mkUrl { u_valid : bool; u_proto : bytes; u_host : bytes; u_port : Z; u_file : bytes; u_opts : bytes }.
(* the steps of SetUrl; the strings: "://" "?" "/" ":" *)
(* 61-67 *)
Definition split_proto (s : bytes) : bytes * bytes :=
  match find_sub [58; 47; 47] s with Some i => (firstn i s, skipn (i + 3) s) | None => ([], s) end.
(* 71-76: options, decoded, and the rest *)
Definition split_query (s : bytes) : res (bytes * bytes) :=
  match find_sub [63] s with
  | Some i => do o <- replace_special special_symbols (skipn (i + 1) s); Ok (o, firstn i s)
  | None => Ok ([], s)
  end.
(* 78-88: host and file *)
Definition split_host (s : bytes) : bytes * bytes :=
  match find_sub [47] s with
  | Some i => if (i =? 0)%nat then ([], s) else (firstn i s, skipn (i + 1) s)
  | None => (s, [])
  end.
(* 90-97: host and port, None when it is no number *)
Definition split_port (h : bytes) : res (bytes * option Z) :=
  match find_sub [58] h with
  | Some i => do p <- str_to_int (skipn (i + 1) h); Ok (firstn i h, p)
  | None => Ok (h, Some 0%Z)
  end.
(* SetUrl 46-100 *)
Definition set_url (s : bytes) : res url :=
  if (length s =? 0)%nat then Ok (mkUrl false [] [] 0 [] [])
  else
    let (proto, s) := split_proto s in
    if (length s =? 0)%nat then Ok (mkUrl true proto [] 0 [] [])
    else
      do os <- split_query s;
      let (host, file) := split_host (snd os) in
      do hp <- split_port host;
      Ok (match snd hp with
          | Some p => mkUrl true proto (fst hp) p file (fst os)
          | None => mkUrl false proto (fst hp) 0 file (fst os)
          end).
(* GetFullName 124-130; format("%s/%s") stops at a zero byte *)
Definition full_name (u : url) : bytes :=
  if (length (u_file u) =? 0)%nat then u_host u
  else if (length (u_host u) =? 0)%nat then u_file u else c_str (u_host u) ++ [47] ++ c_str (u_file u).

(* "dabc", "node" and "dabc://node" *)
Definition dabc_s : bytes := [100; 97; 98; 99].
Definition node_s : bytes := [110; 111; 100; 101].
(* ComposeItemName 147-152 *)
Definition compose_item (node : Z) (name : bytes) : bytes :=
  if (node <? 0)%Z then [] else dabc_s ++ [58; 47; 47] ++ node_s ++ dec (Z.to_N node) ++ [47] ++ c_str name.
(* ComposePortName 154-165 *)
Definition compose_port (node : Z) (name : bytes) (port : Z) : bytes :=
  if (node <? 0)%Z || (length name =? 0)%nat then []
  else compose_item node name ++ (if (0 <=? port)%Z then dec (Z.to_N port) else []).
(* DecomposeItemName 167-193: node and item name, or None when false is returned *)
Definition decompose (s : bytes) : res (option (Z * bytes)) :=
  do u <- set_url s;
  if negb (u_valid u) then Ok None
  else if (length (u_proto u) =? 0)%nat then Ok (Some ((-1)%Z, full_name u))
  else if negb (bytes_eqb (u_proto u) dabc_s) then Ok None
  else if negb (bytes_eqb (firstn 4 (u_host u)) node_s) then Ok None
  else do n <- str_to_int (skipn 4 (u_host u));
       Ok (match n with None => None | Some n => if (n <? 0)%Z then None else Some (n, u_file u) end).

(* the end of an option, GetOption 220-237 (posequal is not used) *)
Fixpoint scan_sep (q1 q2 special : bool) (l : bytes) : nat :=
  match l with
  | [] => O
  | x :: r =>
    if (q1 || q2) && (x =? 92) then S (scan_sep q1 q2 (negb special) r)
    else let special := if q1 || q2 then false else special in
         if negb q2 && (x =? 39) && negb special then S (scan_sep (negb q1) q2 special r)
         else if negb q1 && (x =? 34) && negb special then S (scan_sep q1 (negb q2) special r)
         else if negb q1 && negb q2 && (x =? 38) then O
         else S (scan_sep q1 q2 special r)
  end.
(* removal of the quotes, 264-268 *)
Definition strip_quotes (v : bytes) : bytes :=
  if (1 <? length v)%nat && ((nth 0 v 0 =? 39) || (nth 0 v 0 =? 34)) && (nth 0 v 0 =? nth (length v - 1) v 0)
  then firstn (length v - 2) (skipn 1 v) else v.
(* GetOption 203-279 with a name: the value or None when false is returned *)
Fixpoint opt_loop (fuel : nat) (l : bytes) (name : bytes) : res (option bytes) :=
  match fuel with
  | O => Loop
  | S k =>
    match l with
    | [] => Ok None
    | _ =>
      let sep := scan_sep false false false l in
      let part := firstn sep l in
      let next := opt_loop k (skipn (sep + 1) l) name in
      if (length name <=? sep)%nat && is_prefix name part
      then match skipn (length name) part with
           | [] => Ok (Some [])
           | x :: v => if x =? 61 then Ok (Some (strip_quotes v)) else next
           end
      else next
    end
  end.
Definition get_option (opts name : bytes) : res (option bytes) :=
  if (length name =? 0)%nat then Ok None else opt_loop (S (length opts)) opts name.
(* GetOption 203-279 with a number *)
Fixpoint part_loop (fuel : nat) (l : bytes) (n : nat) : res (option bytes) :=
  match fuel with
  | O => Loop
  | S k =>
    match l with
    | [] => Ok None
    | _ => let sep := scan_sep false false false l in
           match n with O => Ok (Some (firstn sep l)) | S n => part_loop k (skipn (sep + 1) l) n end
    end
  end.
(* GetOptionStr 281-288, GetOptionInt 290-300 *)
Definition option_str (opts name dflt : bytes) : res bytes :=
  do v <- get_option opts name; Ok (match v with Some v => v | None => dflt end).
Definition option_int (opts name : bytes) (dflt : Z) : res Z :=
  do v <- option_str opts name [];
  match v with [] => Ok dflt | _ => do n <- str_to_int v; Ok (match n with Some n => n | None => dflt end) end.
