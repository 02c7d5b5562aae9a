(* dabc::ConfigBase::ResolveEnv, base/src/ConfigBase.cxx:440-521, with GetNodeValue 284-290, FindChild
   181-190, and ConfigIO::ResolveEnv, ConfigIO.cxx:123-130.  The XML nodes with the variables are
   given by their names and texts (attribute "value" or content); strings are lists of bytes.
   [Loop]: the fuel does not suffice - for every fuel if the code does not return (endless loop or
   recursion).  Not modelled: the error output, zero bytes inside a name. *)
From Verif Require Import Common Bytes DecStr UrlModel CfgVarSpec.
Local Open Scope N_scope.

(* FindChild 181-190: the first node with that name *)
Fixpoint find_child (n : bytes) (l : list (bytes * bytes)) : option bytes :=
  match l with [] => None | (m, t) :: l => if bytes_eqb m n then Some t else find_child n l end.

(* 470-479: what is taken when the nodes give nothing *)
Definition fall_back (c : vars) (var value : bytes) : bytes :=
  let value := match value with [] => match find_child var (v_builtin c) with Some x => x | None => [] end | _ => value end in
  match value with [] => v_env c var | _ => value end.

Definition is_array (value : bytes) : bool := (hd 0 value =? 91) && (last value 0 =? 93).
(* 483-489: number of entries *)
Definition count_entries (value : bytes) : bytes :=
  match value with
  | [] => dec 0
  | _ => if negb (is_array value) then dec 1 else dec (1 + lenN (filter (N.eqb 44) (removelast (tl value))))
  end.
(* 499-511: loop over the array; [l]: from character i on; [cur]: from prev to i *)
Fixpoint scan_entries (id cnt : nat) (cur l : bytes) : option bytes :=
  match l with
  | [] => None
  | x :: l' =>
    if (x =? 44) || match l' with [] => true | _ => false end
    then if Nat.eqb cnt id then Some cur else scan_entries id (S cnt) [] l'
    else scan_entries id cnt (cur ++ [x]) l'
  end.
(* 495-513: one entry *)
Definition take_entry (id : nat) (value : bytes) : bytes :=
  if negb (is_array value) then match id with O => value | S _ => [] end
  else match scan_entries id 0 [] (tl value) with Some x => x | None => [] end.

(* the loop 450-518; [arg] is returned when a bracket is missing; [id]: None for negative *)
Fixpoint resolve (fuel : nat) (c : vars) (id : option nat) (arg name : bytes) : res bytes :=
  match fuel with
  | O => Loop
  | S k =>
    match find_sub [36; 123] name with
    | None => Ok name
    | Some p1 =>
      match find_sub [125] (skipn p1 name) with
      | None => Ok arg
      | Some d =>
        let var := firstn (d - 2) (skipn (p1 + 2) name) in
        let left := firstn p1 name in
        let right := skipn (p1 + d + 1) name in
        match var with
        | [] => resolve k c id arg (left ++ right)
        | _ =>
          do nv <- match (match find_child var (v_cmd c) with Some t => Some t | None => find_child var (v_file c) end) with
                   | Some [] | None => Ok []
                   | Some t => resolve k c None t t
                   end;
          let value := fall_back c var nv in
          if last left 0 =? 35
          then resolve k c id arg (removelast left ++ count_entries value ++ right)
          else
            match id, right, value with
            | Some i, 35 :: right', _ :: _ => resolve k c id arg (left ++ take_entry i value ++ right')
            | _, _, _ => resolve k c id arg (left ++ value ++ right)
            end
        end
      end
    end
  end.
(* 440-444 *)
Definition resolve_env (fuel : nat) (c : vars) (id : option nat) (arg : bytes) : res bytes :=
  match arg with [] => Ok [] | _ => resolve fuel c id arg arg end.
(* ConfigIO::ResolveEnv, ConfigIO.cxx:123-130 *)
Definition io_resolve (fuel : nat) (c : vars) (id : option nat) (value : bytes) : res bytes :=
  match value with [] => Ok [] | _ => match find_sub [36; 123] value with None => Ok value | Some _ => resolve_env fuel c id value end end.
