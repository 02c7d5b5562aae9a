(* Model of the parser of base/src/XmlEngine.cxx: XmlInputStream for a file, ParseFile,
   ParseStream, ReadNode, UnpackSpecialCharacters; DocGetRootElement and GetNodeContent.
   The stream is the text from fCurrent on, with the positions in the buffer; fBuf itself is
   not needed.  std::istream::get (libstdc++) looks at the character after the last one it
   stores, so eof is set as soon as nothing is left in the file; it writes a zero behind the
   characters, which is what *fCurrent reads at the end (value 0 below).
   The file holds no zero bytes.  Characters are signed: 128 to 255 are negative.
   Not modelled: failing realloc and malloc, error numbers and line numbers (only messages,
   XmlEngine.cxx:1639-1657), ParseString and ReadSingleNode (called nowhere), writing of XML. *)
From Verif Require Import Common Bytes XmlSpec.
Local Open Scope N_scope.

(* fCurrent and what follows in the file; characters in the buffer from fCurrent on
   (fMaxAddr - fCurrent); characters still in the file; fCurrent - fBuf; fLimitAddr - fBuf;
   fBufSize *)
Record st : Type := mkS { s_txt : bytes; s_av : N; s_un : N; s_pos : N; s_lim : N; s_size : N }.

(* XmlEngine.cxx:167-192 and 214-227: the first read; int(len*0.75) *)
Definition open_file (size : N) (t : bytes) : st :=
  let k := N.min (size - 1) (lenN t) in mkS t k (lenN t - k) 0 (k * 3 / 4) size.

(* lines 233-252; the buffer is reallocated *)
Definition expand (s : st) : bool * st :=
  if s_un s =? 0 then (false, s)
  else
    let size := s_size s * 2 in
    let k := N.min (size - (s_pos s + s_av s) - 1) (s_un s) in
    (negb (k =? 0), mkS (s_txt s) (s_av s + k) (s_un s - k) (s_pos s) (s_lim s + k * 3 / 4) size).

(* lines 254-266 *)
Definition shift_stream (s : st) : st :=
  if s_pos s <? s_lim s then s
  else if s_un s =? 0 then s
  else
    let k := N.min (s_size s - s_av s - 1) (s_un s) in
    mkS (s_txt s) (s_av s + k) (s_un s - k) 0 ((s_av s + k) * 3 / 4) (s_size s).

(* lines 272-286, one round and all *)
Definition shift1 (s : st) : bool * st :=
  let s := if s_lim s <=? s_pos s then shift_stream s else s in
  if s_av s =? 0 then (false, s)
  else (true, mkS (tl (s_txt s)) (s_av s - 1) (s_un s) (s_pos s + 1) (s_lim s) (s_size s)).
Fixpoint shift (n : nat) (s : st) : bool * st :=
  match n with
  | O => (true, s)
  | S n => let '(ok, s) := shift1 s in if ok then shift n s else (false, s)
  end.

(* lines 288-299; [l] is the text of [s] *)
Definition solid (c : N) : bool := (26 <? c) && (c <? 128) && negb (c =? 32).
Fixpoint skip (till : bool) (l : bytes) (s : st) : bool * st :=
  if s_av s =? 0 then (false, s)
  else
    match l with
    | [] => (false, s)
    | c :: r =>
        if solid c then (true, s)
        else
          let '(ok, s) := shift1 s in
          if negb ok then (false, s)
          else if till && (c =? 10) then (true, s)
          else skip till r s
    end.
Definition skip_spaces (s : st) : bool * st := skip false (s_txt s) s.
Definition skip_line (s : st) : st := snd (skip true (s_txt s) s).

(* while (curr+len>fMaxAddr) if (!ExpandStream(curr)) ...: at least [n] characters in the buffer *)
Fixpoint need (f : nat) (n : N) (s : st) : bool * st :=
  if n <=? s_av s then (true, s)
  else
    match f with
    | O => (false, s)
    | S f => let '(ok, s) := expand s in if ok then need f n s else (false, s)
    end.
(* if (curr>=fMaxAddr) if (!ExpandStream(curr)) ...: character number [i] *)
Definition grow (i : N) (s : st) : bool * st := if i <? s_av s then (true, s) else expand s.

Fixpoint starts (a l : bytes) : bool :=
  match a, l with
  | [], _ => true
  | x :: a, y :: l => (x =? y) && starts a l
  | _ :: _, [] => false
  end.

(* lines 301-311 *)
Definition check_for (str : bytes) (s : st) : bool * st :=
  let '(ok, s) := need (length str) (lenN str) s in
  if negb ok then (false, s) else if starts str (s_txt s) then shift (length str) s else (false, s).

(* lines 313-334; [l] is the text from number [i] on *)
Fixpoint search_for (str : bytes) (l : bytes) (i : N) (s : st) : option N * st :=
  let '(ok, s) := need (length str) (i + lenN str) s in
  if negb ok then (None, s)
  else if starts str l then (Some i, s)
  else match l with [] => (None, s) | _ :: r => search_for str r (i + 1) s end.

(* lines 336-358 *)
Fixpoint ident_rest (l : bytes) (i : N) (s : st) : N * st :=
  let '(ok, s) := grow i s in
  if negb ok then (0, s)
  else match l with
       | [] => (0, s)
       | c :: r => if name_char c then ident_rest r (i + 1) s else (i, s)
       end.
Definition locate_ident (s : st) : N * st :=
  match s_txt s with
  | c :: r => if letter c then ident_rest r 1 s else (0, s)
  | [] => (0, s)
  end.

(* lines 360-371 *)
Fixpoint content_rest (l : bytes) (i : N) (s : st) : option N * st :=
  match l with
  | [] => (None, s)
  | c :: r =>
      if c =? 60 then (Some i, s)
      else let '(ok, s) := grow (i + 1) s in if negb ok then (None, s) else content_rest r (i + 1) s
  end.
Definition locate_content (s : st) : option N * st :=
  if s_av s =? 0 then (None, s) else content_rest (s_txt s) 0 s.

(* lines 373-390.  The value starts at number [a]; when the buffer is reallocated on the way,
   start (and valuestart of the caller) point into freed memory and curr-start is undefined *)
Fixpoint value_rest (size a : N) (l : bytes) (i : N) (s : st) : res (N * st) :=
  let '(ok, s) := grow i s in
  if negb ok then Ok (0, s)
  else match l with
       | [] => Ok (0, s)
       | c :: r =>
           if c =? 34 then (if s_size s =? size then Ok (i - a + 1, s) else UB)
           else value_rest size a r (i + 1) s
       end.
Definition locate_value (a : N) (s : st) : res (N * st) :=
  let size := s_size s in
  let '(ok, s) := grow a s in
  if negb ok then Ok (0, s)
  else
    match dropN a (s_txt s) with
    | c :: l =>
        if negb (c =? 61) then Ok (0, s)
        else
          let '(ok, s) := grow (a + 1) s in
          if negb ok then Ok (0, s)
          else match l with
               | d :: l => if negb (d =? 34) then Ok (0, s) else value_rest size a l (a + 2) s
               | [] => Ok (0, s)
               end
    | [] => Ok (0, s)
    end.

(* UnpackSpecialCharacters, lines 1299-1329 *)
Fixpoint unpack (f : nat) (l : bytes) : bytes :=
  match f with
  | O => []
  | S f =>
      match l with
      | [] => []
      | c :: r =>
          if starts [38; 108; 116; 59] l then 60 :: unpack f (skipn 4 l)
          else if starts [38; 103; 116; 59] l then 62 :: unpack f (skipn 4 l)
          else if starts [38; 97; 109; 112; 59] l then 38 :: unpack f (skipn 5 l)
          else if starts [38; 113; 117; 111; 116; 59] l then 34 :: unpack f (skipn 6 l)
          else if starts [38; 97; 112; 111; 115; 59] l then 39 :: unpack f (skipn 6 l)
          else c :: unpack f r
      end
  end.
Definition unpacked (l : bytes) : bytes := unpack (length l) l.

(* name spaces: the part of a name in front of the first colon; FindNs, lines 1267-1280, over
   the name spaces of the nodes above; TruncateNsExtension, lines 1283-1296 *)
Fixpoint before_colon (l : bytes) : option bytes :=
  match l with
  | [] => None
  | c :: r => if c =? 58 then Some [] else option_map (cons c) (before_colon r)
  end.
Fixpoint after_colon (l : bytes) : bytes :=
  match l with [] => [] | c :: r => if c =? 58 then r else after_colon r end.
Fixpoint beq (a b : bytes) : bool :=
  match a, b with [], [] => true | x :: a, y :: b => (x =? y) && beq a b | _, _ => false end.
Definition find_ns (above : list bytes) (name : bytes) : option bytes :=
  match before_colon name with
  | Some p => find (beq p) above
  | None => None
  end.
Definition truncated (ns : option bytes) (name : bytes) : bytes :=
  match ns, before_colon name with Some _, Some _ => after_colon name | _, _ => name end.

(* the start of a node up to its end (/> or ?>) or up to > only: loop of lines 1569-1634 *)
Inductive opened : Type :=
| OShort (attrs : list (bytes * bytes)) (ns : option bytes) (s : st)
| OLong (attrs : list (bytes * bytes)) (ns : option bytes) (s : st)
| OFail.
Definition cur (s : st) : N := hd 0 (s_txt s).
Fixpoint read_attrs (f : nat) (endsym : N) (childs : bool) (acc : list (bytes * bytes)) (ns : option bytes) (s : st) : res opened :=
  match f with
  | O => Loop
  | S f =>
      let '(ok, s) := skip_spaces s in
      if negb ok then Ok OFail
      else if cur s =? endsym then
        let '(ok, s) := shift1 s in
        if negb ok then Ok OFail
        else if cur s =? 62 then
          let '(ok, s) := shift1 s in
          if negb ok then Ok OFail else Ok (OShort acc ns (skip_line s))
        else Ok OFail
      else if cur s =? 62 then
        if negb childs then Ok OFail
        else let '(ok, s) := shift1 s in if negb ok then Ok OFail else Ok (OLong acc ns s)
      else
        let '(n, s) := locate_ident s in
        if n =? 0 then Ok OFail
        else
          do r <- locate_value n s;
          let '(v, s) := r in
          if v <? 3 then Ok OFail
          else
            let name := takeN n (s_txt s) in
            let value := unpacked (takeN (v - 3) (dropN (n + 2) (s_txt s))) in
            let '(ok, s) := shift (N.to_nat (n + v)) s in
            if negb ok then Ok OFail
            else
              let ns := if (6 <? lenN name) && starts [120; 109; 108; 110; 115; 58] name then Some (skipn 6 name) else ns in
              read_attrs f endsym childs (acc ++ [(name, value)]) ns s
  end.

(* ReadNode, lines 1453-1637: a child of the parent, its closing tag, or a failure.  [pname]:
   name of the parent; [has]: it has a child already; [above]: name spaces from the parent on
   up.  The name of the parent is truncated by the caller at its closing tag (lines 1529-1530) *)
Inductive got : Type := GChild (n : node) (s : st) | GEnd (s : st) | GFail.
(* the loop of lines 1592-1599; [mk] makes the node from its childs *)
Definition children (rd : bool -> st -> res got) (mk : list node -> node) : nat -> list node -> st -> res got :=
  fix kids (g : nat) (acc : list node) (s : st) {struct g} : res got :=
    match g with
    | O => Loop
    | S g =>
        do r <- rd (match acc with [] => false | _ => true end) s;
        match r with
        | GChild n s => kids g (acc ++ [n]) s
        | GEnd s => Ok (GChild (mk acc) s)
        | GFail => Ok GFail
        end
    end.
Fixpoint read_node (f : nat) (pname : bytes) (has : bool) (above : list bytes) (s : st) {struct f} : res got :=
  match f with
  | O => Loop
  | S f =>
      let '(ok, s) := skip_spaces s in
      if negb ok then Ok GFail
      else
        let '(com, s) := check_for [60; 33; 45; 45] s in
        if com then
          match search_for [45; 45; 62] (s_txt s) 0 s with
          | (None, _) => Ok GFail
          | (Some n, s) =>
              let c := takeN n (s_txt s) in
              let '(ok, s) := shift (N.to_nat (n + 3)) s in
              if negb ok then Ok GFail
              else
                let '(ok, s) := skip_spaces s in
                if negb ok && negb ((s_un s =? 0) && (s_av s =? 0)) then Ok GFail
                else Ok (GChild (Nd KComment c [] []) s)
          end
        else if negb (cur s =? 60) then
          if has then Ok GFail
          else
            match locate_content s with
            | (None, _) => Ok GFail
            | (Some n, s) =>
                let v := unpacked (takeN n (s_txt s)) in
                let '(ok, s) := shift (N.to_nat n) s in
                if negb ok then Ok GFail else Ok (GChild (Nd KText v [] []) s)
            end
        else
          let '(ok, s) := shift1 s in
          if negb ok then Ok GFail
          else if cur s =? 47 then
            let '(ok, s) := shift1 s in
            if negb ok then Ok GFail
            else
              let '(ok, s) := skip_spaces s in
              if negb ok then Ok GFail
              else
                let '(n, s) := locate_ident s in
                if n =? 0 then Ok GFail
                else if negb (starts (takeN n (s_txt s)) pname) then Ok GFail
                else
                  let '(ok, s) := shift (N.to_nat n) s in
                  if negb ok then Ok GFail
                  else
                    let '(ok, s) := skip_spaces s in
                    if negb ok then Ok GFail
                    else if negb (cur s =? 62) then Ok GFail
                    else let '(ok, s) := shift1 s in if negb ok then Ok GFail else Ok (GEnd (skip_line s))
          else
            let instr := cur s =? 63 in
            let '(ok, s) := if instr then shift1 s else (true, s) in
            if negb ok then Ok GFail
            else
              let '(ok, s) := skip_spaces s in
              if negb ok then Ok GFail
              else
                let '(n, s) := locate_ident s in
                if n =? 0 then Ok GFail
                else
                  let name := takeN n (s_txt s) in
                  let '(ok, s) := shift (N.to_nat n) s in
                  if negb ok then Ok GFail
                  else
                    do o <- read_attrs f (if instr then 63 else 47) (negb instr) [] (find_ns above name) s;
                    match o with
                    | OFail => Ok GFail
                    | OShort l ns s => Ok (GChild (Nd (if instr then KInstr else KElem) (truncated ns name) l []) s)
                    | OLong l ns s =>
                        let above := match ns with Some x => x :: above | None => above end in
                        children (fun has s => read_node f name has above s) (Nd KElem (truncated ns name) l) f [] s
                    end
  end.

(* ParseStream, lines 1099-1132 (NewDoc, lines 981-997): the nodes of the document *)
Definition top_name : bytes := [63; 63; 68; 117; 109; 109; 121; 84; 111; 112; 78; 111; 100; 101; 63; 63].
Fixpoint parse_stream (f g : nat) (acc : list node) (s : st) : res (option (list node)) :=
  match g with
  | O => Loop
  | S g =>
      do r <- read_node f top_name (match acc with [] => false | _ => true end) [] s;
      match r with
      | GChild n s =>
          let s := if (s_un s =? 0) && (s_av s =? 0) then s else snd (skip_spaces s) in
          if (s_un s =? 0) && (s_av s =? 0) then Ok (Some (acc ++ [n])) else parse_stream f g (acc ++ [n]) s
      | _ => Ok None
      end
  end.

(* ParseFile, lines 1078-1086; nothing can be read from an empty file, which sets failbit *)
Definition parse_file (size : N) (t : bytes) : res (option (list node)) :=
  match t with
  | [] => Ok None
  | _ => let f := S (length t) in parse_stream f f [] (open_file size t)
  end.
(* the buffer of ParseFile, line 1083 *)
Definition buffer_size : N := 100000.

(* DocGetRootElement, lines 1062-1075, with GetChild (906-914) and ShiftToNext (933-942) *)
Definition is_elem (n : node) : bool := match n_kind n with KElem | KText => true | _ => false end.
Definition empty_name (n : node) : bool := match n with Nd KText _ _ _ => true | Nd _ [] _ _ => true | _ => false end.
Definition get_child (l : list node) : list node :=
  match l with n :: r => if empty_name n then r else l | [] => [] end.
Definition root_element (doc : list node) : option node :=
  match get_child doc with _ :: r => find is_elem r | [] => None end.

(* GetNodeContent, lines 893-903: the byte after the zero of the name; an empty comment has
   no such byte *)
Definition node_content (n : node) : res (option bytes) :=
  let 'Nd _ _ _ kids := n in
  match kids with
  | Nd KText v _ _ :: _ => Ok (Some v)
  | Nd _ [] _ _ :: _ => UB
  | _ => Ok None
  end.
