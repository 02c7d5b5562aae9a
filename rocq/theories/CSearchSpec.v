(* Which places of the configuration file belong to an object. *)
From Verif Require Import Common.
From Coq Require Export String Ascii.
Local Open Scope string_scope.

(* a node of the file: is it a comment, its name (the text of a comment), attributes, children *)
Inductive xml := Node (x_comment : bool) (x_name : string) (x_attrs : list (string * string)) (x_kids : list xml).
Definition x_comment (n : xml) := let 'Node c _ _ _ := n in c.
Definition x_name (n : xml) := let 'Node _ s _ _ := n in s.
Definition x_attrs (n : xml) := let 'Node _ _ a _ := n in a.
Definition x_kids (n : xml) := let 'Node _ _ _ k := n in k.
(* the children without the text of the node, which is a first child without name *)
Definition shown (n : xml) : list xml :=
  match x_kids n with [] => [] | k :: r => if String.eqb (x_name k) "" then r else k :: r end.
Definition lookup (l : list (string * string)) (a : string) : option string :=
  option_map snd (find (fun p => String.eqb (fst p) a) l).
Definition attr (n : xml) (a : string) : option string := lookup (x_attrs n) a.

(* objects as far as the file knows them; [o_top]: the object stands directly below a context *)
Inductive kind := Plain | Worker (class : string) | Module | Device | Pool | ThreadWorker | Application (class : string).
Record obj := mkO { o_kind : kind; o_name : string; o_top : bool }.
(* the manager: host of the context and name *)
Record mgr := mkM { m_host : string; m_name : string }.

(* name of the node of an object, and the attributes which must agree *)
Definition described (o : obj) : string * list (string * string) :=
  match o_kind o with
  | Plain => (o_name o, [])
  | Worker class => (class, [("name", o_name o)])
  | Module => ("Module", [("name", o_name o)])
  | Device => ("Device", [("name", o_name o)])
  | Pool => ("MemoryPool", [("name", o_name o)])
  | ThreadWorker => ("Thread", [("name", o_name o)])
  | Application class => ("Application", if String.eqb class "Application" then [] else [("class", class)])
  end.
Definition described_mgr (m : mgr) : string * list (string * string) :=
  ("Context", (if String.eqb (m_host m) "" then [] else [("host", m_host m)])
              ++ (if String.eqb (m_host m) (m_name m) then [] else [("name", m_name m)]))%list.
(* kinds which are looked for only when the object has a parent *)
Definition needs_parent (k : kind) : bool := match k with ThreadWorker | Application _ => false | _ => true end.

Section S.
  (* wildcard comparison (pattern first); replacement of variables in attributes and in values *)
  Context (glob : string -> string -> bool) (vars vars_id : string -> string).

  (* strict: the attribute must be there and be equal; otherwise a missing one fits and a pattern may be used *)
  Definition agrees (strict : bool) (n : xml) (want : string * string) : bool :=
    let have := match attr n (fst want) with Some t => vars t | None => "" end in
    if strict then negb (String.eqb have "") && String.eqb have (snd want)
    else String.eqb have "" || String.eqb have (snd want) || glob have (snd want).
  Definition fits (strict : bool) (d : string * list (string * string)) (n : xml) : bool :=
    String.eqb (x_name n) (fst d) && forallb (agrees strict n) (snd d).

  (* the nodes reached from [n] by one node for each description, in document order (no description: no node) *)
  Fixpoint places (strict : bool) (ds : list (option (string * list (string * string)))) (n : xml) : list xml :=
    match ds with
    | [] => [n]
    | None :: _ => []
    | Some d :: ds => flat_map (fun k => if fits strict d k then places strict ds k else []) (shown n)
    end.

  (* the part of the node with this path; the parts of the path are separated by slashes *)
  Definition part (n : xml) (name : string) : option xml := find (fun k => String.eqb (x_name k) name) (shown n).
  Fixpoint below (n : xml) (parts : list string) : option xml :=
    match parts with
    | [] => Some n
    | [""] => Some n
    | a :: parts => match part n a with Some k => below k parts | None => None end
    end.
  Fixpoint split (s : string) : list string :=
    match s with
    | EmptyString => [""]
    | String c s => if Ascii.eqb c "/"%char then "" :: split s
                    else match split s with [] => [] | a :: r => String c a :: r end
    end.

  Inductive value := Text (s : string) | Texts (l : list string).
  (* the value a place gives for an item *)
  Definition value_at (name : string) (n : xml) : option value :=
    let item := below n (split name) in
    match match item with Some i => attr i "value" | None => None end with
    | Some t => Some (Text (vars_id t))
    | None =>
        match attr n name with
        | Some t => Some (Text (vars_id t))
        | None =>
            match item with
            | None => None
            | Some i =>
                match flat_map (fun k => match attr k "value" with Some t => [vars_id t] | None => [] end)
                               (filter (fun k => String.eqb (x_name k) "item") (shown i)) with
                | [] => None
                | l => Some (Texts l)
                end
            end
        end
    end.
  (* the fields a place gives for a record *)
  Definition fields_at (name : string) (n : xml) : list (string * string) :=
    match below n (split name) with
    | None => []
    | Some i =>
        map (fun p => (fst p, vars_id (snd p))) (x_attrs i) ++
        flat_map (fun k => match attr k "name", attr k "value" with
                           | Some a, Some t => [(a, vars_id t)] | _, _ => [] end)
                 (filter (fun k => String.eqb (x_name k) "dabc:field") (shown i))
    end.
  Fixpoint first {A B} (f : A -> option B) (l : list A) : option B :=
    match l with [] => None | x :: l => match f x with Some y => Some y | None => first f l end end.
End S.

(* The descriptions of an object and its parents, outermost first.  [ch]: the object, its parent and so on;
   [below_mgr]: the last one is a child of the manager.  An object which stands directly below a context ends
   the list.  An object alone is looked for as if it was a child of the manager. *)
Definition seen (o : obj) (has_parent : bool) : option (string * list (string * string)) :=
  if needs_parent (o_kind o) && negb has_parent then None else Some (described o).
Fixpoint line (ch : list obj) (below_mgr : bool) : option (list (option (string * list (string * string)))) :=
  match ch with
  | [] => if below_mgr then Some [] else None
  | o :: ch =>
      let d := seen o (below_mgr || match ch with [] => false | _ => true end) in
      if o_top o then Some [d] else option_map (fun l => l ++ [d])%list (line ch below_mgr)
  end.
Definition descriptions (ch : list obj) (below_mgr : bool) :=
  match ch, below_mgr with
  | [o], false => Some [seen o false]
  | _, _ => line ch below_mgr
  end.

(* All places of the file which belong to the object: first below the selected context with exact names,
   then everywhere with wildcards. *)
Definition all_places (glob : string -> string -> bool) (vars : string -> string)
                      (m : mgr) (ds : list (option (string * list (string * string)))) (selected : option xml) (doc : xml) : list xml :=
  ((match ds, selected with [], _ => [] | _, None => [] | _, Some s => places glob vars true ds s end)
   ++ places glob vars false (Some (described_mgr m) :: ds) doc)%list.

(* the file without its comments *)
Fixpoint strip (n : xml) : xml :=
  let 'Node c s a ks := n in Node c s a (flat_map (fun k => if x_comment k then [] else [strip k]) ks).
Inductive within (k : xml) : xml -> Prop :=
| W_here : within k k
| W_kid : forall c n, In c (x_kids n) -> within k c -> within k n.
(* the names which are looked for *)
Fixpoint looked (parts : list string) : list string :=
  match parts with [] => [] | [""] => [] | a :: parts => a :: looked parts end.
Definition names_used (m : mgr) (ds : list (option (string * list (string * string)))) (name : string) : list string :=
  "Context" :: "item" :: "dabc:field" :: looked (split name) ++ flat_map (fun d => match d with Some d => [fst d] | None => [] end) ds.
(* no comment has a text which is looked for *)
Definition quiet (used : list string) (doc : xml) : Prop :=
  ~ In "" used /\ forall k, within k doc -> x_comment k = true -> ~ In (x_name k) used.
