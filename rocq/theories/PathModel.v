(* Finding objects by name, and names of objects.
   base/src/Object.cxx, base/src/Manager.cxx.
   Simplified: objects are numbers; texts contain no zero bytes; references and mutexes are left out
   (RefModel.v, LifeModel.v); the loop to the top object has a step limit [d] ([Loop] beyond it). *)
From Verif Require Import Common Bytes DecStr PathSpec.
Local Open Scope N_scope.

(* base/src/Object.cxx:750-751 *)
Fixpoint to_top (d : nat) (w : world) (o : N) : res N :=
  match d with
  | O => Loop
  | S d => match w_up w o with None => Ok o | Some p => to_top d w p end
  end.

(* base/src/Object.cxx:755 *)
Fixpoint skip_slashes (l : bytes) : bytes := match l with [] => [] | x :: r => if x =? 47 then skip_slashes r else l end.
(* base/src/Object.cxx:777-781: the text up to the next slash, and the rest with it *)
Fixpoint token (l : bytes) : bytes * bytes :=
  match l with
  | [] => ([], [])
  | x :: r => if x =? 47 then ([], l) else let '(a, b) := token r in (x :: a, b)
  end.

(* Object::IsName with a length, base/src/Object.cxx:203-208 *)
Definition is_name (w : world) (o : N) (s : bytes) : bool := match s with [] => false | _ => bytes_eqb (w_name w o) s end.
(* ReferencesVector::FindObject, base/src/ReferencesVector.cxx:174-181 *)
Fixpoint find_object (w : world) (l : list N) (s : bytes) : option N :=
  match l with [] => None | o :: l => if is_name w o s then Some o else find_object w l s end.

Definition set {A} (f : N -> A) (x : N) (v : A) : N -> A := fun y => if y =? x then v else f y.
(* constructor of an object, base/src/Object.cxx:117-144 and 210-223, with AddChildAt for the last
   position, base/src/Object.cxx:570-602 *)
Definition new_object (w : world) (parent : option N) (name : bytes) : world * N :=
  let o := w_next w in
  (mkW (match parent with Some p => set (w_kids w) p (w_kids w p ++ [o]) | None => w_kids w end)
       (set (w_name w) o name) (set (w_up w) o parent) (o + 1), o).

(* base/src/Object.cxx:783-806; CreateInstance base/dabc/Object.h:241 *)
Definition find_or_create (w : world) (o : N) (s : bytes) (force : bool) : world * option N :=
  match find_object w (w_kids w o) s with
  | Some c => (w, Some c)
  | None => if force then let '(w', c) := new_object w (Some o) s in (w', Some c) else (w, None)
  end.

(* Object::SearchForChild, base/src/Object.cxx:742-811 *)
Fixpoint search (fuel d : nat) (w : world) (ref : option N) (name : bytes) (firsttime force : bool) : res (world * option N) :=
  match fuel with
  | O => Loop
  | S k =>
    match ref, name with
    | None, _ => Ok (w, None)
    | Some o, [] => Ok (w, Some o)
    | Some o, x :: rest =>
      if (x =? 47) && firsttime then do t <- to_top d w o; search k d w (Some t) rest false force
      else
        let name := skip_slashes name in
        let len := length name in
        if (len =? 0)%nat then Ok (w, Some o) else
        if (2 <=? len)%nat && (nth 0 name 0 =? 46) && (nth 1 name 0 =? 46) && (len =? 2)%nat then Ok (w, w_up w o) else
        if (2 <=? len)%nat && (nth 0 name 0 =? 46) && (nth 1 name 0 =? 46) && (nth 2 name 0 =? 47)
          then search k d w (w_up w o) (skipn 3 name) false force else
        if (nth 0 name 0 =? 46) && (len =? 1)%nat then Ok (w, Some o) else
        if (nth 0 name 0 =? 46) && (nth 1 name 0 =? 47) then search k d w (Some o) (skipn 2 name) false force else
        let '(tok, rest) := token name in
        let '(w', newref) := find_or_create w o tok force in
        match rest with
        | [] => Ok (w', newref)
        | _ :: r => search k d w' newref r false force
        end
    end
  end.
(* Object::FindChildRef, base/src/Object.cxx:735-740 (Manager::FindItem for a local name,
   base/src/Manager.cxx:697-711) *)
Definition find_child_ref (d : nat) (w : world) (o : N) (name : bytes) (force : bool) : res (world * option N) :=
  search (S (length name)) d w (Some o) name true force.

(* Object::FillFullName, base/src/Object.cxx:1061-1073 *)
Fixpoint full_name (d : nat) (w : world) (o : N) (upto : option N) (exclude : bool) : res bytes :=
  match d with
  | O => Loop
  | S d =>
    match w_up w o with
    | None => Ok (if exclude then [] else [47] ++ w_name w o)
    | Some p =>
      if match upto with Some u => p =? u | None => false end then Ok (w_name w o)
      else do s <- full_name d w p upto exclude; Ok (s ++ [47] ++ w_name w o)
    end
  end.
(* Object::IsParent, base/src/Object.cxx:985-996 *)
Fixpoint is_parent (d : nat) (w : world) (o m : N) : res bool :=
  match d with
  | O => Loop
  | S d => match w_up w o with None => Ok false | Some p => if p =? m then Ok true else is_parent d w p m end
  end.
(* Object::ItemName, base/src/Object.cxx:1076-1085; Manager::FillItemName, base/src/Manager.cxx:746-754;
   [mgr]: the manager, if there is one *)
Definition item_name (d : nat) (w : world) (mgr : option N) (o : N) (compact : bool) : res bytes :=
  match mgr with
  | None => full_name d w o None false
  | Some m =>
    do b <- is_parent d w o m;
    if b then do s <- full_name d w o (Some m) false; Ok ((if compact then [] else [47]) ++ s)
    else full_name d w o None false
  end.

(* strrchr(fullname, '/'): text in front of the last slash and text behind it *)
Fixpoint last_slash (l : bytes) : option (bytes * bytes) :=
  match l with
  | [] => None
  | x :: r =>
    match last_slash r with
    | Some (a, b) => Some (x :: a, b)
    | None => if x =? 47 then Some ([], r) else None
    end
  end.
(* Object::MakePair, base/src/Object.cxx:934-972: parent and name of a new object *)
Definition make_pair (d : nat) (w : world) (mgr prnt : option N) (fullnamearg : bytes) (withmanager : bool) : res (world * option N * bytes) :=
  match fullnamearg, prnt with
  | [], None => Ok (w, None, [])
  | _, _ =>
    let full := match fullnamearg with [] => [45; 45; 45] | _ => fullnamearg end in
    let isroot := hd 0 full =? 47 in
    let full := skip_slashes full in
    let skip := negb isroot && (hd 0 full =? 35) in
    let full := if skip then tl full else full in
    let prnt := match prnt with Some p => Some p | None => if withmanager && negb skip then mgr else None end in
    match last_slash full with
    | Some (path, name) =>
      match prnt with
      | Some p => do (w', p') <- find_child_ref d w p path true; Ok (w', if skip then None else p', name)
      | None => Ok (w, None, name)
      end
    | None => Ok (w, if skip then None else prnt, full)
    end
  end.
(* an object constructed with MakePair(prnt, fullname) *)
Definition create (d : nat) (w : world) (mgr prnt : option N) (fullname : bytes) (withmanager : bool) : res (world * N) :=
  do (w', p, name) <- make_pair d w mgr prnt fullname withmanager; Ok (new_object w' p name).
