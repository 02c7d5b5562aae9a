(* dabc::Iterator, the walk over the objects below a folder.
   base/src/Iterator.cxx, base/dabc/Iterator.h.
   Simplified: references are object numbers (counting of references: RefModel.v, LifeModel.v);
   the children of an object do not change within one call of next(); fewer than 2^32 children;
   the item name kept by next() (line 86) is left out. *)
From Verif Require Import Common.

(* fCurrent, fIndexes, fFolders (base/dabc/Iterator.h:39-41); fTop and fMaxLevel are parameters *)
Record iter := mkIt { it_cur : option N; it_idx : list nat; it_fold : list N }.
(* base/src/Iterator.cxx:20-38 *)
Definition it_new := mkIt None [] [].

(* Object::GetChildRef, base/src/Object.cxx:684-699 *)
Definition child_ref (kids : N -> list N) (o : N) (n : nat) : option N := nth_error (kids o) n.

(* ReferencesVector::RemoveAt, base/src/ReferencesVector.cxx:103-115 *)
Definition remove_at {A} (l : list A) (n : nat) : list A := firstn n l ++ skipn (S n) l.

(* the loop, base/src/Iterator.cxx:67-83; a folder missing in fFolders is a null pointer *)
Fixpoint climb (kids : N -> list N) (sz : nat) (idx : list nat) (fold : list N) : res iter :=
  match sz with
  | O => Ok (mkIt None idx fold)
  | S k =>
    let n := S (nth k idx O) in
    let idx := upd idx k n in
    match nth_error fold k with
    | None => UB
    | Some f =>
      match child_ref kids f n with
      | Some c => Ok (mkIt (Some c) idx fold)
      | None => climb kids k (firstn k idx) (remove_at fold k)
      end
    end
  end.

(* base/src/Iterator.cxx:44-89 *)
Definition next (top : N) (limit : Z) (kids : N -> list N) (g : bool) (it : iter) : res iter :=
  match it_cur it with
  | None => Ok (mkIt (Some top) [] [])
  | Some o =>
    let sz := length (it_idx it) in
    let child := if g && ((limit <? 0)%Z || (Z.of_nat sz <? limit)%Z) then child_ref kids o 0 else None in
    match child with
    | Some c => Ok (mkIt (Some c) (it_idx it ++ [0]) (it_fold it ++ [o]))
    | None => climb kids sz (it_idx it) (it_fold it)
    end
  end.

(* level() base/dabc/Iterator.h:51; parent(lvl) base/src/Iterator.cxx:91-94 *)
Definition level (it : iter) := length (it_idx it).
Definition parent (it : iter) (lvl : nat) : option N := nth_error (it_fold it) lvl.

(* what the caller sees after next() *)
Definition seen (it : iter) : option (N * nat * list N) :=
  match it_cur it with Some o => Some (o, level it, it_fold it) | None => None end.

Fixpoint run (top : N) (limit : Z) (it : iter) (cs : list ((N -> list N) * bool)) : res (iter * list (option (N * nat * list N))) :=
  match cs with
  | [] => Ok (it, [])
  | (kids, g) :: cs => do it' <- next top limit kids g it; do (it2, l) <- run top limit it' cs; Ok (it2, seen it' :: l)
  end.

(* next_cast, base/dabc/Iterator.h:59-67; [cls o]: the dynamic_cast of the object succeeds *)
Fixpoint next_cast (fuel : nat) (top : N) (limit : Z) (kids : N -> list N) (cls : N -> bool) (g : bool) (it : iter) : res (option N * iter) :=
  match fuel with
  | O => Loop
  | S k =>
    do it' <- next top limit kids g it;
    match it_cur it' with
    | None => Ok (None, it')
    | Some o => if cls o then Ok (Some o, it') else next_cast k top limit kids cls g it'
    end
  end.

(* Manager::IsAnyModuleRunning, base/src/Manager.cxx:684-694: the argument m==0 is true in the first
   call only, as next_cast sets m to the module found *)
Fixpoint any_running (fuel : nat) (top : N) (kids : N -> list N) (is_module running : N -> bool) (m : option N) (it : iter) : res bool :=
  match fuel with
  | O => Loop
  | S k =>
    do (m', it') <- next_cast (S k) top (-1) kids is_module (match m with None => true | Some _ => false end) it;
    match m' with
    | None => Ok false
    | Some o => if running o then Ok true else any_running k top kids is_module running m' it'
    end
  end.

(* command Print, base/src/Manager.cxx:1192-1202: all threads, or all modules, found by
   next_cast(.., false) *)
Fixpoint listed (fuel : nat) (top : N) (kids : N -> list N) (cls : N -> bool) (it : iter) : res (list N) :=
  match fuel with
  | O => Loop
  | S k =>
    do (m, it') <- next_cast (S k) top (-1) kids cls false it;
    match m with
    | None => Ok []
    | Some o => do l <- listed k top kids cls it'; Ok (o :: l)
    end
  end.
