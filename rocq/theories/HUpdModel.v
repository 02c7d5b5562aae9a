(* Model of the update of a hierarchy from a second one which was built anew:
   HierarchyContainer::UpdateHierarchyFrom with SetModified, RecordFieldsMap::MoveFrom and
   Hierarchy::Update.  Items, fields, flags and marks are those of HierModel.v.
   Not modelled, as there: permanent items (SetPermanent is called nowhere) and protected
   fields (only the hash field of an item with binary data gets protected,
   base/src/Hierarchy.cxx:1062 and 1087), a null source (Update releases the hierarchy), the
   exceptions for a null container and for a name which differs after the search just found
   it. *)
From Verif Require Import Common ListFacts Bytes RecordSpec RecordModel HierSpec HierModel.
Local Open Scope N_scope.

(* RecordFieldsMap::MoveFrom, base/src/Record.cxx:1550-1568: fields which the source does not
   have are removed, those it has are set *)
Definition move_from (src : fmap field) (d : hdata) : hdata :=
  fold_left (fun d e => set_field d (fst e) (f_val (snd e))) src
    (fold_left remove_field (filter (fun k => negb (has k src)) (map fst (d_map d))) d).

(* HierarchyContainer::SetModified, base/src/Hierarchy.cxx:441-450, called with recursive *)
Fixpoint set_modified (node childs : bool) (n : hnode) : hnode :=
  match n with
  | HN k d l => HN k (with_flags d (d_nc d || node) (d_mc d) (d_cc d || childs)) (map (set_modified node childs) l)
  end.

Definition some {A} (l : list A) : bool := match l with [] => false | _ :: _ => true end.

(* what the loop over the sub-items did: an item was taken out of the source; an item was
   added or removed here; a sub-item reported a change *)
Record did : Type := mkDid { w_taken : bool; w_list : bool; w_sub : bool }.

(* UpdateHierarchyFrom, base/src/Hierarchy.cxx:476-553: what stays in the source, the updated
   item, the result.  The inner function is the loop of lines 498-550 over the items of the
   source not yet used and those of the target from cnt2 on *)
Fixpoint upd (s t : hnode) {struct s} : hnode * hnode * bool :=
  match s, t with
  | HN sk sd sl, HN tk td tl =>
    let d0 := with_flags td false (d_mc td) false in
    let d1 := move_from (d_map sd) d0 in
    let d2 := if was_changed d1 then with_flags d1 true (d_mc d1) (d_cc d1) else d1 in
    let '(sl', tl', w) :=
      (fix go (sl tl : list hnode) {struct sl} : list hnode * list hnode * did :=
         match sl with
         | [] => ([], [], mkDid false (some tl) false)
         | c :: r =>
           match find_kid (nm c) tl with
           | None =>
             let '(r', t', w) := go r tl in
             (r', set_modified true true c :: t', mkDid true true (w_sub w))
           | Some (a, x, b) =>
             let '(c', x', ch) := upd c x in
             let '(r', t', w) := go r b in
             (c' :: r', x' :: t', mkDid (w_taken w) (some a || w_list w) (ch || w_sub w))
           end
         end) sl tl in
    let d3 := if w_list w then childs_changed d2 else d2 in
    let d4 := if w_sub w then with_flags d3 (d_nc d3) (d_mc d3) true else d3 in
    (HN sk (if w_taken w then childs_changed sd else sd) sl', HN tk d4 tl', d_cc d4 || d_nc d4)
  end.
Definition upd_kids : list hnode -> list hnode -> list hnode * list hnode * did :=
  fix go (sl tl : list hnode) {struct sl} : list hnode * list hnode * did :=
    match sl with
    | [] => ([], [], mkDid false (some tl) false)
    | c :: r =>
      match find_kid (nm c) tl with
      | None =>
        let '(r', t', w) := go r tl in
        (r', set_modified true true c :: t', mkDid true true (w_sub w))
      | Some (a, x, b) =>
        let '(c', x', ch) := upd c x in
        let '(r', t', w) := go r b in
        (c' :: r', x' :: t', mkDid (w_taken w) (some a || w_list w) (ch || w_sub w))
      end
    end.

Definition updated (s t : hnode) : hnode := snd (fst (upd s t)).
Definition reported (s t : hnode) : bool := snd (upd s t).
Definition left_in (s t : hnode) : hnode := fst (fst (upd s t)).

(* Hierarchy::Update, base/src/Hierarchy.cxx:802-819, with a source; the time passed to
   MarkChangedItems is 0 (base/dabc/Hierarchy.h:233) *)
Definition hupdate (now : N) (s t : hnode) : hnode :=
  if reported s t then mark_changed now 0 [] (updated s t) else updated s t.

(* one update after another, each at its own time from its own source *)
Definition updates (us : list (N * hnode)) (t : hnode) : hnode :=
  fold_left (fun t u => hupdate (fst u) (snd u) t) us t.
