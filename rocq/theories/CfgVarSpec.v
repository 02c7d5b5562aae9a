(* What a text with configuration variables stands for.  Characters: $ 36, { 123, } 125, # 35,
   [ 91, ] 93, comma 44. *)
From Verif Require Import Common Bytes DecStr.
Local Open Scope N_scope.

(* A text: literal parts; ${name}; #${name}, the number of entries of the value; ${name}#, one
   entry of it. *)
Inductive seg := Lit (t : bytes) | Val (n : bytes) | Count (n : bytes) | Elem (n : bytes).
Definition seg_text (s : seg) : bytes :=
  match s with
  | Lit t => t
  | Val n => [36; 123] ++ n ++ [125]
  | Count n => [35; 36; 123] ++ n ++ [125]
  | Elem n => [36; 123] ++ n ++ [125; 35]
  end.
Definition text (l : list seg) : bytes := concat (map seg_text l).

(* entries of a value: [a,b,c] has the entries a, b and c, [] has none; any other value is its
   only entry *)
Fixpoint split_comma (l : bytes) : list bytes :=
  match l with
  | [] => [[]]
  | x :: l => if x =? 44 then [] :: split_comma l else match split_comma l with [] => [[x]] | a :: r => (x :: a) :: r end
  end.
Definition entries (v : bytes) : list bytes :=
  match v with
  | [] => []
  | x :: r => if (x =? 91) && (last r 0 =? 93) then match removelast r with [] => [] | y => split_comma y end else [v]
  end.

(* what the text stands for, when [val n] is the value of the variable [n] *)
Definition expand_seg (val : bytes -> bytes) (id : option nat) (s : seg) : bytes :=
  match s, id with
  | Lit t, _ => t
  | Val n, _ => val n
  | Count n, _ => dec (lenN (entries (val n)))
  | Elem n, Some i => nth i (entries (val n)) []
  | Elem n, None => val n ++ [35]
  end.
Definition expand (val : bytes -> bytes) (id : option nat) (l : list seg) : bytes := concat (map (expand_seg val id) l).

(* The text can be read in one way only: no other $, no } in a name, and a # next to a variable
   belongs to it.  [before]: what precedes, expanded.  Entries are taken only with an index and of
   non-empty values; entries of [] are not counted. *)
Fixpoint clear (val : bytes -> bytes) (id : option nat) (before : bytes) (l : list seg) : Prop :=
  match l with
  | [] => True
  | s :: r =>
    match s with
    | Lit t => ~ In 36 t
    | Val n => ~ In 125 n /\ last before 0 <> 35 /\ (id <> None -> hd 0 (text r) <> 35)
    | Count n => ~ In 125 n /\ n <> [] /\ val n <> [91; 93]
    | Elem n => ~ In 125 n /\ n <> [] /\ last before 0 <> 35 /\ id <> None /\ val n <> []
    end /\ clear val id (before ++ expand_seg val id s) r
  end.
Definition names (l : list seg) : list bytes := concat (map (fun s => match s with Lit _ => [] | Val n | Count n | Elem n => [n] end) l).

(* the variables: from the command line, from the file, and what else is known (the built-in ones
   and the environment of the process) *)
Record vars := mkV { v_cmd : list (bytes * bytes); v_file : list (bytes * bytes); v_builtin : list (bytes * bytes); v_env : bytes -> bytes }.
Definition lookup (n : bytes) (l : list (bytes * bytes)) : option bytes := option_map snd (find (fun x => bytes_eqb (fst x) n) l).
Definition definition (v : vars) (n : bytes) : option bytes :=
  match lookup n (v_cmd v) with Some t => Some t | None => lookup n (v_file v) end.
Definition otherwise (v : vars) (n : bytes) : bytes :=
  match lookup n (v_builtin v) with Some ((_ :: _) as x) => x | _ => v_env v n end.

(* [val] gives the values: definitions use only variables of smaller rank; a variable without
   definition, or with one that gives nothing, has the value known otherwise; the name may not be
   empty; no value contains a $ *)
Definition values (v : vars) (rank : bytes -> nat) (val : bytes -> bytes) : Prop :=
  val [] = [] /\
  forall n, n <> [] -> ~ In 36 (val n) /\
    match definition v n with
    | None => val n = otherwise v n
    | Some t => exists l, t = text l /\ clear val None [] l /\ (forall m, In m (names l) -> (rank m < rank n)%nat) /\
                  val n = match expand val None l with [] => otherwise v n | x => x end
    end.
