(* JSON texts (RFC 8259) without white space, and what they denote: null, true, false,
   integers, strings and arrays.  Characters of a string are given by their code. *)
From Coq Require Import ZArith.
From Verif Require Import Common Bytes DecStr RecordSpec.
Open Scope N_scope.

Inductive json : Type :=
| JNull | JBool (b : bool) | JNum (z : Z) | JStr (codes : list N) | JArr (l : list json).

(* value of a hexadecimal digit *)
Definition hexval (c : N) : option N :=
  if (48 <=? c) && (c <=? 57) then Some (c - 48)
  else if (97 <=? c) && (c <=? 102) then Some (c - 87)
  else if (65 <=? c) && (c <=? 70) then Some (c - 55) else None.
(* the character after a backslash *)
Definition unescape (c : N) : option N :=
  if c =? 34 then Some 34 else if c =? 92 then Some 92 else if c =? 47 then Some 47
  else if c =? 98 then Some 8 else if c =? 102 then Some 12 else if c =? 110 then Some 10
  else if c =? 114 then Some 13 else if c =? 116 then Some 9 else None.

Definition prepend (x : N) (o : option (list N * bytes)) : option (list N * bytes) :=
  match o with Some (s, t) => Some (x :: s, t) | None => None end.
(* the rest of a string literal after its opening quote, up to the closing one; control
   characters have to be escaped *)
Fixpoint str_body (l : bytes) : option (list N * bytes) :=
  match l with
  | [] => None
  | c :: r =>
    if c =? 34 then Some ([], r)
    else if c =? 92 then
      match r with
      | e :: r' =>
        if e =? 117 then
          match r' with
          | h1 :: h2 :: h3 :: h4 :: r4 =>
            match hexval h1, hexval h2, hexval h3, hexval h4 with
            | Some a, Some b, Some d, Some e => prepend (4096 * a + 256 * b + 16 * d + e) (str_body r4)
            | _, _, _, _ => None
            end
          | _ => None
          end
        else match unescape e with Some x => prepend x (str_body r') | None => None end
      | [] => None
      end
    else if c <? 32 then None
    else prepend c (str_body r)
  end.

(* digits of a number: no leading zero *)
Definition nat_lit (l : bytes) : option (N * bytes) :=
  match l with
  | c :: r =>
    if c =? 48 then Some (0, r)
    else match scan_digits l 0 false with (v, true, r) => Some (v, r) | _ => None end
  | [] => None
  end.
Definition num_lit (l : bytes) : option (json * bytes) :=
  match l with
  | c :: r =>
    if c =? 45 then match nat_lit r with Some (v, t) => Some (JNum (- Z.of_N v), t) | None => None end
    else match nat_lit l with Some (v, t) => Some (JNum (Z.of_N v), t) | None => None end
  | [] => None
  end.

(* the text after a given start *)
Fixpoint strip (p l : bytes) : option bytes :=
  match p, l with
  | [], _ => Some l
  | x :: p, y :: l => if x =? y then strip p l else None
  | _, [] => None
  end.
Definition t_null : bytes := [110;117;108;108].
Definition t_true : bytes := [116;114;117;101].
Definition t_false : bytes := [102;97;108;115;101].

(* a value at the start of the text, and what follows it *)
Fixpoint value_of (fuel : nat) (l : bytes) : option (json * bytes) :=
  match fuel with
  | O => None
  | S k =>
    match l with
    | [] => None
    | c :: r =>
      if c =? 34 then match str_body r with Some (s, t) => Some (JStr s, t) | None => None end
      else if c =? 91 then
        match strip [93] r with
        | Some t => Some (JArr [], t)
        | None => match items_of k r with Some (vs, t) => Some (JArr vs, t) | None => None end
        end
      else if c =? 110 then option_map (pair JNull) (strip t_null l)
      else if c =? 116 then option_map (pair (JBool true)) (strip t_true l)
      else if c =? 102 then option_map (pair (JBool false)) (strip t_false l)
      else num_lit l
    end
  end
with items_of (fuel : nat) (l : bytes) : option (list json * bytes) :=
  match fuel with
  | O => None
  | S k =>
    match value_of k l with
    | Some (v, c :: t) =>
      if c =? 93 then Some ([v], t)
      else if c =? 44 then match items_of k t with Some (vs, t') => Some (v :: vs, t') | None => None end
      else None
    | _ => None
    end
  end.
(* the value of a whole text; every nested value takes at least one character *)
Definition json_value (l : bytes) : option json :=
  match value_of (S (length l)) l with Some (v, []) => Some v | _ => None end.

(* int64_t from its bits *)
Definition signed (w : N) : Z := if w <? 2^63 then Z.of_N w else (Z.of_N w - 2^64)%Z.

(* what the text for a field has to denote, for the kinds treated here (not date and time,
   floating point, references) *)
Definition meaning (v : value) : option json :=
  match v with
  | VNone => Some JNull
  | VBool w => Some (JBool (negb (w =? 0)))
  | VInt w => Some (JNum (signed w))
  | VUInt w => Some (JNum (Z.of_N w))
  | VArrInt ws => Some (JArr (map (fun w => JNum (signed w)) ws))
  | VArrUInt ws => Some (JArr (map (fun w => JNum (Z.of_N w)) ws))
  | VStr b => Some (JStr b)
  | VArrStr l => Some (JArr (map JStr l))
  | VBuf b => Some (JArr (map (fun c => JNum (Z.of_N c)) b))
  | _ => None
  end.

(* strings of ASCII characters *)
Definition ascii_value (v : value) : Prop :=
  match v with
  | VStr b => Forall (fun c => c < 128) b
  | VArrStr l => Forall (Forall (fun c => c < 128)) l
  | VBuf _ => False
  | _ => True
  end.

(* characters which are printed as they are *)
Definition simple_char (c : N) : Prop := 32 <= c < 127 /\ c <> 34 /\ c <> 92 /\ c <> 47.
