(* The search for the nodes of an object in the configuration file (base/src/ConfigIO.cxx).
   XML nodes are given by their way from the root node (innermost index first), so that
   GetChild / GetNext / GetParent (base/src/XmlEngine.cxx:906-930) are moves; a move away from the root
   node (its parent, its siblings) is [UB], it would leave the file.  Strings contain no zero bytes.
   Simplified: a name space attribute is listed like the others (Xml::GetFirstAttr, XmlEngine.cxx:518-529);
   fnmatch and the replacement of variables are any functions. *)
From Verif Require Import Common CSearchSpec.
Local Open Scope string_scope.

Definition path := list nat.

Section M.
  Context (glob : string -> string -> bool) (vars vars_id : string -> string) (doc : xml).

  Fixpoint node_at (p : path) : option xml :=
    match p with
    | [] => Some doc
    | i :: p => match node_at p with Some n => nth_error (x_kids n) i | None => None end
    end.
  Definition name_at (p : path) : string := match node_at p with Some n => x_name n | None => "" end.
  Fixpoint size (n : xml) : nat := let 'Node _ _ _ ks := n in S (list_sum (map size ks)).
  Definition wide : nat := S (size doc).

  (* XmlEngine.cxx:906-914: first child, the text of the node is left out *)
  Definition get_child (p : option path) : option path :=
    match p with
    | None => None
    | Some p =>
        match node_at p with
        | None => None
        | Some n =>
            match x_kids n with
            | [] => None
            | k :: r => if String.eqb (x_name k) "" then match r with [] => None | _ => Some (1 :: p) end
                        else Some (0 :: p)
            end
        end
    end.
  (* XmlEngine.cxx:925-930 *)
  Definition get_next (c : path) : res (option path) :=
    match c with
    | [] => UB
    | i :: p => match node_at (S i :: p) with Some _ => Ok (Some (S i :: p)) | None => Ok None end
    end.
  (* XmlEngine.cxx:917-922 *)
  Definition get_parent (c : path) : res path := match c with [] => UB | _ :: p => Ok p end.
  (* XmlEngine.cxx:411-423 *)
  Definition get_attr (p : option path) (a : string) : option string :=
    match p with
    | None => None
    | Some p => match node_at p with Some n => attr n a | None => None end
    end.

  (* fCurrItem, fCurrChld (base/dabc/ConfigIO.h:45-46) *)
  Record cur := mkC { c_item : option path; c_chld : option path }.

  (* the loop of ConfigIO.cxx:51-58 and of ConfigBase::FindChild (ConfigBase.cxx:185-188);
     ConfigBase::IsNodeName is ConfigBase.cxx:160-167 *)
  Fixpoint scan (f : nat) (c : option path) (name : string) : res (option path) :=
    match c with
    | None => Ok None
    | Some c =>
        match f with
        | O => Loop
        | S f =>
            if String.eqb (name_at c) name then Ok (Some c)
            else do c' <- get_next c; scan f c' name
        end
    end.

  (* ConfigIO::FindItem, ConfigIO.cxx:42-61 *)
  Definition find_item (st : cur) (name : string) : res (cur * bool) :=
    match c_item st with
    | None => Ok (st, false)
    | Some p =>
        do c <- match c_chld st with None => Ok (get_child (Some p)) | Some c => get_next c end;
        do r <- scan wide c name;
        match r with
        | Some c => Ok (mkC (Some c) None, true)
        | None => Ok (mkC (Some p) None, false)
        end
    end.

  (* ConfigIO::CheckAttr, ConfigIO.cxx:63-97; [value] is never null in the calls modelled *)
  Definition check_attr (strict : bool) (st : cur) (name value : string) : res (cur * bool) :=
    match c_chld st, c_item st with
    | None, Some p =>
        let sattr := match get_attr (Some p) name with Some a => vars a | None => "" end in
        let r := if strict then (if String.eqb sattr "" then false else String.eqb sattr value)
                 else if String.eqb sattr "" then true
                 else if String.eqb sattr value then true else glob sattr value in
        if r then Ok (st, true)
        else do q <- get_parent p; Ok (mkC (Some q) (Some p), false)
    | _, _ => Ok (st, false)
    end.

  (* Worker::Find (Worker.cxx:608-618), Module::Find (Module.cxx:516-528), Device::Find (Device.cxx:87-99),
     MemoryPool::Find (MemoryPool.cxx:157-169), thread worker (Thread.cxx:111-118): the loop *)
  Fixpoint find_named (f : nat) (strict : bool) (st : cur) (tag name : string) : res (cur * bool) :=
    match f with
    | O => Loop
    | S f =>
        do r <- find_item st tag;
        let '(st1, ok) := r in
        if ok then
          do r <- check_attr strict st1 "name" name;
          let '(st2, ok) := r in
          if ok then Ok (st2, true) else find_named f strict st2 tag name
        else Ok (st1, false)
    end.

  (* Application::Find, Application.cxx:435-444 *)
  Fixpoint find_app (f : nat) (strict : bool) (st : cur) (class : string) : res (cur * bool) :=
    match f with
    | O => Loop
    | S f =>
        do r <- find_item st "Application";
        let '(st1, ok) := r in
        if ok then
          if String.eqb class "Application" then Ok (st1, true)
          else
            do r <- check_attr strict st1 "class" class;
            let '(st2, ok) := r in
            if ok then Ok (st2, true) else find_app f strict st2 class
        else Ok (st1, false)
    end.

  (* Manager::Find, Manager.cxx:1880-1893 *)
  Fixpoint find_mgr (f : nat) (strict : bool) (st : cur) (m : mgr) : res (cur * bool) :=
    match f with
    | O => Loop
    | S f =>
        do r <- find_item st "Context";
        let '(st1, ok) := r in
        if ok then
          do r <- (if String.eqb (m_host m) "" then Ok (st1, true) else check_attr strict st1 "host" (m_host m));
          let '(st2, ok) := r in
          if ok then
            do r <- (if String.eqb (m_host m) (m_name m) then Ok (st2, true) else check_attr strict st2 "name" (m_name m));
            let '(st3, ok) := r in
            if ok then Ok (st3, true) else find_mgr f strict st3 m
          else find_mgr f strict st2 m
        else Ok (st1, false)
    end.

  (* the virtual call obj->Find; [up]: the object has a parent.  Object::Find is Object.cxx:929-932 *)
  Definition find_obj (strict : bool) (st : cur) (o : obj) (up : bool) : res (cur * bool) :=
    match o_kind o with
    | Plain => if up then find_item st (o_name o) else Ok (st, false)
    | Worker class => if up then find_named wide strict st class (o_name o) else Ok (st, false)
    | Module => if up then find_named wide strict st "Module" (o_name o) else Ok (st, false)
    | Device => if up then find_named wide strict st "Device" (o_name o) else Ok (st, false)
    | Pool => if up then find_named wide strict st "MemoryPool" (o_name o) else Ok (st, false)
    | ThreadWorker => find_named wide strict st "Thread" (o_name o)
    | Application class => find_app wide strict st class
    end.

  (* an object is given by itself and its parents [ch] up to the manager ([below_mgr]) or to an object
     without parent; the manager itself is the empty list *)
  Inductive target := TMgr | TObj (o : obj) (up : bool).
  Context (m : mgr) (ch : list obj) (below_mgr : bool).

  (* ConfigIO::GetObjParent, ConfigIO.cxx:99-110 *)
  Definition obj_parent (lvl : nat) : option target :=
    if (List.length ch =? 1)%nat && negb below_mgr && (lvl =? 1)%nat then Some TMgr
    else match nth_error ch lvl with
         | Some o => Some (TObj o ((S lvl <? List.length ch)%nat || below_mgr))
         | None => if (lvl =? List.length ch)%nat && below_mgr then Some TMgr else None
         end.

  (* ConfigIO.cxx:140-149: the number of levels, or nothing when there is no manager above *)
  Fixpoint max_level (f lvl : nat) : res (option nat) :=
    match f with
    | O => Loop
    | S f =>
        match obj_parent lvl with
        | None => Ok None
        | Some TMgr => Ok (Some lvl)
        | Some (TObj o _) => if o_top o then Ok (Some (S lvl)) else max_level f (S lvl)
        end
    end.

  (* ConfigIO::FindSubItem, ConfigIO.cxx:112-121; [cut]: the text before and behind the first slash *)
  Fixpoint cut (s : string) : string * option string :=
    match s with
    | EmptyString => ("", None)
    | String c r => if Ascii.eqb c "/"%char then ("", Some r) else let '(a, b) := cut r in (String c a, b)
    end.
  Fixpoint find_sub_item (f : nat) (node : option path) (name : string) : res (option path) :=
    match node with
    | None => Ok None
    | Some p =>
        if String.eqb name "" then Ok (Some p)
        else match f with
             | O => Loop
             | S f =>
                 match cut name with
                 | (_, None) => scan wide (get_child (Some p)) name
                 | (a, Some rest) => do k <- scan wide (get_child (Some p)) a; find_sub_item f k rest
                 end
             end
    end.

  (* what has been read: value, fields, isany *)
  Record got := mkG { g_value : option value; g_fields : list (string * string); g_any : bool }.

  (* ConfigIO.cxx:223-228: values of the children with name item *)
  Fixpoint collect (f : nat) (c : option path) : res (list string) :=
    match c with
    | None => Ok []
    | Some c =>
        match f with
        | O => Loop
        | S f =>
            do n <- get_next c;
            do l <- collect f n;
            Ok (if String.eqb (name_at c) "item"
                then match get_attr (Some c) "value" with Some t => vars_id t :: l | None => l end
                else l)
        end
    end.

  (* RecordFieldsMap: HasField, Field().SetStr *)
  Definition add_field (l : list (string * string)) (a t : string) : list (string * string) :=
    match lookup l a with Some _ => l | None => l ++ [(a, vars_id t)] end%list.

  (* ConfigIO.cxx:248-258 *)
  Fixpoint add_children (f : nat) (c : option path) (l : list (string * string)) : res (list (string * string)) :=
    match c with
    | None => Ok l
    | Some c =>
        match f with
        | O => Loop
        | S f =>
            do n <- get_next c;
            let l' := if String.eqb (name_at c) "dabc:field"
                      then match get_attr (Some c) "name", get_attr (Some c) "value" with
                           | Some a, Some t => add_field l a t
                           | _, _ => l
                           end
                      else l in
            add_children f n l'
        end
    end.

  (* ConfigIO.cxx:205-259: a node of the object is found; the result tells if the search is over.
     [single]: a field is asked for, otherwise a map of fields *)
  Definition visit (single : bool) (itemname : string) (item : option path) (g : got) : res (bool * got) :=
    do itemnode <- find_sub_item (S (String.length itemname)) item itemname;
    if single then
      let a := match get_attr itemnode "value" with Some t => Some t | None => get_attr item itemname end in
      match a with
      | Some t => Ok (true, mkG (Some (Text (vars_id t))) (g_fields g) (g_any g))
      | None =>
          do arr <- collect wide (get_child itemnode);
          match arr with
          | [] => Ok (false, g)
          | _ => Ok (true, mkG (Some (Texts arr)) (g_fields g) (g_any g))
          end
      end
    else
      match itemnode with
      | None => Ok (false, g)
      | Some p =>
          let l := match node_at p with
                   | Some n => fold_left (fun l q => add_field l (fst q) (snd q)) (x_attrs n) (g_fields g)
                   | None => g_fields g
                   end in
          do l' <- add_children wide (get_child itemnode) l;
          Ok (false, mkG (g_value g) l' true)
      end.

  (* ConfigIO.cxx:186-286: the loop over the levels; [depth] is max_depth + 1; the result tells what the
     function returned from inside the loop (if it did), and what was read *)
  Definition same (a b : option path) : bool :=
    match a, b with
    | None, None => true
    | Some p, Some q => if list_eq_dec Nat.eq_dec p q then true else false
    | _, _ => false
    end.
  Fixpoint search (f : nat) (strict : bool) (single : bool) (itemname : string) (maxlevel depth level : nat)
                  (st : cur) (g : got) : res (option bool * got) :=
    match f with
    | O => Loop
    | S f =>
        let prnt := if (level =? maxlevel)%nat then Some TMgr else obj_parent level in
        (* ConfigIO.cxx:274-284; [next] is the level after it was incremented *)
        let up := fun (next : nat) (st : cur) (g : got) =>
          if (depth <=? next)%nat then Ok (None, g)
          else match c_item st with
               | None => Ok (None, g)
               | Some p => do q <- get_parent p; search f strict single itemname maxlevel depth next (mkC (Some q) (Some p)) g
               end in
        match prnt with
        | None => Ok (Some false, g)
        | Some t =>
            do r <- match t with TMgr => find_mgr wide strict st m | TObj o u => find_obj strict st o u end;
            let '(st1, found) := r in
            if found then
              match level with
              | S level => search f strict single itemname maxlevel depth level st1 g
              | O => (* the level is decremented to -1 *)
                  do v <- visit single itemname (c_item st1) g;
                  let '(over, g1) := v in
                  if over then Ok (Some true, g1) else up O (mkC (c_item st1) None) g1
              end
            else if negb (same (c_item st) (c_item st1)) || match c_chld st1 with None => false | Some _ => true end
            then Ok (None, g)
            else up (S level) st1 g
        end
    end.

  (* ConfigIO::ReadRecordField, ConfigIO.cxx:132-292; [selected] is Configuration::fSelected,
     [fields]: what the map contains before.  Result: the value returned, what was read *)
  Definition read_record_field (f : nat) (selected : option path) (single : bool) (itemname : string)
                               (fields : list (string * string)) : res (bool * got) :=
    do ml <- max_level (S (S (List.length ch))) 0;
    match ml with
    | None => Ok (false, mkG None fields false)
    | Some maxlevel =>
        do r <- match maxlevel with
                | O => Ok (None, mkG None fields false)
                | S l => search f true single itemname maxlevel maxlevel l (mkC selected None) (mkG None fields false)
                end;
        let '(over, g) := r in
        match over with Some b => Ok (b, g) | None =>
          do r <- search f false single itemname maxlevel (S maxlevel) maxlevel (mkC (Some []) None) g;
          let '(over, g) := r in
          match over with Some b => Ok (b, g) | None => Ok (g_any g, g) end
        end
    end.
End M.

(* the selected context (Configuration::fSelected, Configuration.cxx:44) is this node of the file *)
Definition selected_is (doc : xml) (sel : option path) (s : option xml) : Prop :=
  match sel with None => s = None | Some p => s <> None /\ node_at doc p = s end.
