(* XML texts, and the nodes they describe: elements, processing instructions, comments and
   the text at the begin of an element. *)
From Verif Require Import Common Bytes.
Local Open Scope N_scope.

Inductive kind : Type := KElem | KInstr | KComment | KText.
(* a comment or a text keeps its characters in place of a name *)
Inductive node : Type := Nd (k : kind) (name : bytes) (attrs : list (bytes * bytes)) (kids : list node).
Definition n_kind (n : node) : kind := let 'Nd k _ _ _ := n in k.
Definition n_name (n : node) : bytes := let 'Nd _ x _ _ := n in x.

Definition letter (c : N) : bool := ((97 <=? c) && (c <=? 122)) || ((65 <=? c) && (c <=? 90)) || (c =? 95).
Definition name_char (c : N) : bool := letter c || ((48 <=? c) && (c <=? 57)) || (c =? 58) || (c =? 45) || (c =? 46).
Definition ident (l : bytes) : Prop :=
  match l with c :: r => letter c = true /\ Forall (fun c => name_char c = true) r | [] => False end.

(* blank, tab, new line, carriage return *)
Definition blank (c : N) : Prop := c = 32 \/ c = 9 \/ c = 10 \/ c = 13.
Definition blanks (l : bytes) : Prop := Forall blank l.
(* a printed character of ASCII *)
Definition printed (c : N) : Prop := 33 <= c <= 126.

(* characters and how they are written: ampersand, less-than sign and double quote always as
   entity, greater-than sign and apostrophe possibly *)
Inductive coded : bytes -> bytes -> Prop :=
| cd_nil : coded [] []
| cd_char c v t : 0 < c < 256 -> c <> 38 -> c <> 60 -> c <> 34 -> coded v t -> coded (c :: v) (c :: t)
| cd_lt v t : coded v t -> coded (60 :: v) ([38; 108; 116; 59] ++ t)
| cd_gt v t : coded v t -> coded (62 :: v) ([38; 103; 116; 59] ++ t)
| cd_amp v t : coded v t -> coded (38 :: v) ([38; 97; 109; 112; 59] ++ t)
| cd_quot v t : coded v t -> coded (34 :: v) ([38; 113; 117; 111; 116; 59] ++ t)
| cd_apos v t : coded v t -> coded (39 :: v) ([38; 97; 112; 111; 115; 59] ++ t).

(* a name, the equals sign and the value in double quotes, each with blanks in front; name and value of less than [lim] characters in
   the file; no definition of a name space *)
Definition is_xmlns (l : bytes) : Prop := firstn 6 l = [120; 109; 108; 110; 115; 58] /\ 6 < lenN l.
Inductive attributes (lim : N) : list (bytes * bytes) -> bytes -> Prop :=
| at_nil : attributes lim [] []
| at_cons b bs n v t l tl : blank b -> blanks bs -> ident n -> ~ is_xmlns n -> coded v t -> lenN n + lenN t < lim -> attributes lim l tl ->
    attributes lim ((n, v) :: l) (b :: bs ++ n ++ [61; 34] ++ t ++ [34] ++ tl).

(* no two dashes in a row *)
Fixpoint no_dashes (l : bytes) : Prop :=
  match l with
  | a :: r => match r with b :: _ => ~ (a = 45 /\ b = 45) | [] => True end /\ 0 < a < 256 /\ no_dashes r
  | [] => True
  end.

(* one node; a list of nodes, with blanks after each *)
Inductive written (lim : N) : node -> bytes -> Prop :=
| wr_short n l tl sp : ident n -> attributes lim l tl -> blanks sp ->
    written lim (Nd KElem n l []) ([60] ++ n ++ tl ++ sp ++ [47; 62])
| wr_nodes n l tl sp sp1 ks tk sp2 : ident n -> attributes lim l tl -> blanks sp -> blanks sp1 -> blanks sp2 ->
    writtens lim ks tk ->
    written lim (Nd KElem n l ks) ([60] ++ n ++ tl ++ sp ++ [62] ++ sp1 ++ tk ++ [60; 47] ++ n ++ sp2 ++ [62])
| wr_text n l tl sp sp1 v c tv ks tk sp2 : ident n -> attributes lim l tl -> blanks sp -> blanks sp1 -> blanks sp2 ->
    coded v (c :: tv) -> printed c -> writtens lim ks tk ->
    written lim (Nd KElem n l (Nd KText v [] [] :: ks))
      ([60] ++ n ++ tl ++ sp ++ [62] ++ sp1 ++ (c :: tv) ++ tk ++ [60; 47] ++ n ++ sp2 ++ [62])
| wr_instr n l tl sp : ident n -> attributes lim l tl -> blanks sp ->
    written lim (Nd KInstr n l []) ([60; 63] ++ n ++ tl ++ sp ++ [63; 62])
| wr_comment c : no_dashes (c ++ [45]) ->
    written lim (Nd KComment c [] []) ([60; 33; 45; 45] ++ c ++ [45; 45; 62])
with writtens (lim : N) : list node -> bytes -> Prop :=
| ws_nil : writtens lim [] []
| ws_cons n t sp ns ts : written lim n t -> blanks sp -> writtens lim ns ts -> writtens lim (n :: ns) (t ++ sp ++ ts).

(* a whole file *)
Definition document (lim : N) (ns : list node) (t : bytes) : Prop :=
  exists sp tn, blanks sp /\ writtens lim ns tn /\ ns <> [] /\ t = sp ++ tn.
