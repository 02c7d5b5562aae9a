(* Model of base/src/Hierarchy.cxx: HierarchyContainer with its versions, change flags,
   time recording and history; the streamer; GetHChild and RemoveHChild; HistoryIter.
   An item is a tree; items are addressed by paths of names from the top item.
   Not modelled: permanent items (SetPermanent is called nowhere), disabled reading,
   stream_NoDelete, stream_Value, streaming of history entries (hlimit is 0), binary data,
   mutexes, protected fields, items with a _realname (names hold none of "/#:&?" and are not
   "", "." or ".."), other references keeping a removed item alive.  Versions are unbounded
   numbers. *)
From Verif Require Import Common ListFacts Bytes RecordSpec RecordModel HierSpec.
Local Open Scope N_scope.

(* class HistoryContainer, base/dabc/Hierarchy.h:58-96: fEnabled, fChildsEnabled, capacity of
   fArr, fPrev, entries of fArr oldest first (version and fields) *)
Record hist : Type := mkHist {
  hs_on : bool; hs_childs : bool; hs_cap : N;
  hs_prev : option (fmap field); hs_arr : list (N * fmap field)
}.

(* class HierarchyContainer, base/dabc/Hierarchy.h:138-183: the field map with its fChanged
   (base/src/Record.cxx:1372-1376), fNodeVersion, fNamesVersion, fChildsVersion,
   fNodeChanged, fNamesChanged, fChildsChanged, fAutoTime, fHist *)
Record hdata : Type := mkD {
  d_map : fmap field; d_fch : bool;
  d_nv : N; d_mv : N; d_cv : N;
  d_nc : bool; d_mc : bool; d_cc : bool;
  d_auto : bool; d_hist : option hist
}.
Inductive hnode : Type := HN (name : bytes) (d : hdata) (kids : list hnode).
Definition nm (n : hnode) : bytes := match n with HN k _ _ => k end.
Definition dat (n : hnode) : hdata := match n with HN _ d _ => d end.
Definition kids (n : hnode) : list hnode := match n with HN _ _ l => l end.

(* constructor, Hierarchy.cxx:158-180 *)
Definition hd0 : hdata := mkD [] false 0 0 0 false false false false None.
Definition new_item (name : bytes) : hnode := HN name hd0 [].

Definition vals (m : fmap field) : fmap value := map (fun e => (fst e, f_val (snd e))) m.

Definition with_map (d : hdata) (m : fmap field) (fch : bool) : hdata :=
  mkD m fch (d_nv d) (d_mv d) (d_cv d) (d_nc d) (d_mc d) (d_cc d) (d_auto d) (d_hist d).
Definition with_flags (d : hdata) (nc mc cc : bool) : hdata :=
  mkD (d_map d) (d_fch d) (d_nv d) (d_mv d) (d_cv d) nc mc cc (d_auto d) (d_hist d).
Definition with_hist (d : hdata) (a : bool) (h : option hist) : hdata :=
  mkD (d_map d) (d_fch d) (d_nv d) (d_mv d) (d_cv d) (d_nc d) (d_mc d) (d_cc d) a h.
(* HierarchyContainer::_ChildsChanged, base/dabc/Hierarchy.h:240, called by
   Object::AddChildAt and RemoveChild, base/src/Object.cxx:599,630 *)
Definition childs_changed (d : hdata) : hdata := with_flags d true true true.

(* ----------------------------------------------------------------- fields -- *)

(* RecordFieldsMap::WasChanged and WasChangedWith, base/src/Record.cxx:1409-1430 *)
Definition was_changed (d : hdata) : bool := d_fch d || existsb (fun e => f_mod (snd e)) (d_map d).
Definition was_changed_with (p : bytes) (d : hdata) : bool :=
  existsb (fun e => f_mod (snd e) && prefixb p (fst e)) (d_map d).
(* RecordContainer::SetField, base/dabc/Record.h:475-476, with RecordFieldsMap::Field 401 *)
Definition map_set (m : fmap field) (k : bytes) (v : value) : fmap field :=
  let old := match mget k m with Some f => f | None => mkF VNone false end in
  mset k (set_value old v) m.
Definition set_field (d : hdata) (k : bytes) (v : value) : hdata := with_map d (map_set (d_map d) k v) (d_fch d).
(* RecordFieldsMap::RemoveField, base/src/Record.cxx:1387-1394 *)
Definition remove_field (d : hdata) (k : bytes) : hdata :=
  if has k (d_map d) then with_map d (mdel k (d_map d)) true else d.
(* RecordFieldsMap::ClearChangeFlags, base/src/Record.cxx:1433-1438 *)
Definition clear_map (m : fmap field) : fmap field := map (fun e => (fst e, mkF (f_val (snd e)) false)) m.
(* RecordFieldsMap::Clone, base/src/Record.cxx:1440-1448 *)
Definition clone (m : fmap field) : fmap field := fold_left (fun r e => map_set r (fst e) (f_val (snd e))) m [].

(* ---------------------------------------------------------------- history -- *)

(* "time" and "_history", Hierarchy.cxx:36-37 *)
Definition time_name : bytes := [116; 105; 109; 101].
Definition history_name : bytes := [95; 104; 105; 115; 116; 111; 114; 121].

(* History::DoHistory, base/dabc/Hierarchy.h:108 *)
Definition do_history (h : hist) : bool := hs_on h && (0 <? hs_cap h).

(* the loop over the parents in CheckIfDoingHistory, Hierarchy.cxx:653-665: what an item
   finds above it, given what its parent finds *)
Definition inherit (d : hdata) (inh : option N) : option N :=
  match d_hist d with
  | Some h => if do_history h && hs_childs h then Some (hs_cap h) else inh
  | None => inh
  end.

(* CheckIfDoingHistory, Hierarchy.cxx:649-668 *)
Definition check_history (inh : option N) (d : hdata) : hdata * bool :=
  match d_hist d with
  | Some h => (d, do_history h)
  | None =>
    match inh with
    | Some c => (with_hist (set_field d history_name (VUInt c)) (d_auto d) (Some (mkHist true true c None [])), true)
    | None => (d, false)
    end
  end.

(* AddHistory, Hierarchy.cxx:603-610 *)
Definition add_history (ver : N) (diff : fmap field) (h : hist) : list (N * fmap field) :=
  if hs_cap h =? 0 then hs_arr h
  else (if lenN (hs_arr h) =? hs_cap h then tl (hs_arr h) else hs_arr h) ++ [(ver, diff)].

(* lines 725-736 of MarkVersionIfChanged *)
Definition record_history (ver : N) (d : hdata) : hdata :=
  match d_hist d with
  | None => d
  | Some h =>
    let arr := match hs_prev h with
               | Some p => add_history ver (make_diff p (d_map d)) h
               | None => hs_arr h
               end in
    with_hist d (d_auto d) (Some (mkHist (hs_on h) (hs_childs h) (hs_cap h) (Some (clone (d_map d))) arr))
  end.

(* --------------------------------------------------------- version marks -- *)

(* enum ChangeBits, Hierarchy.cxx:670-674 *)
Record mask : Type := mkMask { m_value : bool; m_names : bool; m_childs : bool }.
Definition no_mask : mask := mkMask false false false.
Definition any (m : mask) : bool := m_value m || m_names m || m_childs m.
Definition mor (a b : mask) : mask :=
  mkMask (m_value a || m_value b) (m_names a || m_names b) (m_childs a || m_childs b).

(* MarkVersionIfChanged without the loop over the childs, Hierarchy.cxx:700-745; [m] is what
   the childs reported, [now] the time DateTime().GetNow() would give, [tm] the time passed
   along by reference *)
Definition mark_own (ver now : N) (inh : option N) (m : mask) (tm : N) (d0 : hdata) : hdata * mask * N :=
  let fwc := was_changed d0 in
  let nc := d_nc d0 || any m || fwc in
  let mc := d_mc d0 || m_names m || (fwc && was_changed_with under d0) in
  let cc := d_cc d0 || m_value m || m_childs m in
  if nc then
    let d1 := mkD (d_map d0) (d_fch d0) ver (if mc then ver else d_mv d0) (if cc then ver else d_cv d0)
                  nc mc cc (d_auto d0) (d_hist d0) in
    let m1 := mkMask true (m_names m || mc) (m_childs m || cc) in
    let tm1 := if d_auto d1 then (if tm =? 0 then now else tm) else tm in
    let d2 := if d_auto d1 then set_field d1 time_name (VDatime tm1) else d1 in
    let (d3, doing) := check_history inh d2 in
    let d4 := if doing && fwc then record_history ver d3 else d3 in
    (with_flags (with_map d4 (clear_map (d_map d4)) false) false false false, m1, tm1)
  else (with_flags d0 nc mc cc, m, tm).

(* MarkVersionIfChanged with childs, Hierarchy.cxx:690-746 *)
Fixpoint mark_tree (ver now : N) (inh : option N) (tm : N) (n : hnode) : hnode * mask * N :=
  match n with
  | HN k d l =>
    let inh' := inherit d inh in
    let '(l', m, tm1) :=
      (fix go (tm : N) (l : list hnode) : list hnode * mask * N :=
         match l with
         | [] => ([], no_mask, tm)
         | c :: r =>
           let '(c', mc, tm1) := mark_tree ver now inh' tm c in
           let '(r', mr, tm2) := go tm1 r in
           (c' :: r', mor mc mr, tm2)
         end) tm l in
    let '(d', m', tm2) := mark_own ver now inh m tm1 d in
    (HN k d' l', m', tm2)
  end.

(* the first child with the given name: FindChild, Object.cxx:783-806 *)
Fixpoint find_kid (k : bytes) (l : list hnode) : option (list hnode * hnode * list hnode) :=
  match l with
  | [] => None
  | c :: r =>
    if beqb k (nm c) then Some ([], c, r)
    else match find_kid k r with Some (a, x, b) => Some (c :: a, x, b) | None => None end
  end.

(* MarkChangedItems of the item at [path], Hierarchy.cxx:761-780, after the version was
   chosen: the item with all its childs, then its parents one after another *)
Fixpoint mark_at (ver now : N) (inh : option N) (tm : N) (path : list bytes) (n : hnode) : hnode * mask * N :=
  match path with
  | [] => mark_tree ver now inh tm n
  | k :: p =>
    match n with
    | HN name d l =>
      match find_kid k l with
      | None => (n, no_mask, tm)
      | Some (a, x, b) =>
        let '(x', m, tm1) := mark_at ver now (inherit d inh) tm p x in
        if any m then
          let d1 := with_flags d true (d_mc d || m_names m) (d_cc d || m_value m || m_childs m) in
          let '(d2, _, tm2) := mark_own ver now inh no_mask tm1 d1 in
          (HN name d2 (a ++ x' :: b), m, tm2)
        else (HN name d (a ++ x' :: b), m, tm1)
      end
    end
  end.

(* GetNextVersion, Hierarchy.cxx:748-758 *)
Definition next_version (top : hnode) : N := d_nv (dat top) + 1.
Definition mark_changed (now tm : N) (path : list bytes) (top : hnode) : hnode :=
  fst (fst (mark_at (next_version top) now None tm path top)).

(* ------------------------------------------------------------------ edits -- *)

(* a change of the item at [path], nothing when there is no such item *)
Fixpoint update_at (path : list bytes) (f : hnode -> hnode) (n : hnode) : hnode :=
  match path with
  | [] => f n
  | k :: p =>
    match n with
    | HN name d l =>
      match find_kid k l with
      | None => n
      | Some (a, x, b) => HN name d (a ++ update_at p f x :: b)
      end
    end
  end.
Definition on_data (f : hdata -> hdata) (n : hnode) : hnode := HN (nm n) (f (dat n)) (kids n).

(* position of the new item, GetHChild lines 976-989 and 1004-1007 *)
Fixpoint insert_kid (sort : bool) (x : hnode) (l : list hnode) : list hnode :=
  match l with
  | [] => [x]
  | c :: r =>
    match sort, bcmp (nm c) (nm x) with
    | true, Gt => x :: c :: r
    | _, _ => c :: insert_kid sort x r
    end
  end.

(* CreateHChild for a path: GetHChild with force, Hierarchy.cxx:944-1016 *)
Fixpoint create_at (path : list bytes) (sort : bool) (n : hnode) : hnode :=
  match path with
  | [] => n
  | k :: p =>
    match n with
    | HN name d l =>
      match find_kid k l with
      | Some (a, x, b) => HN name d (a ++ create_at p sort x :: b)
      | None => HN name (childs_changed d) (insert_kid sort (create_at p sort (new_item k)) l)
      end
    end
  end.

(* RemoveHChild, Hierarchy.cxx:1018-1032: the item is destroyed, then those of its parents
   (but not the top) which have no other childs *)
Fixpoint remove_at (path : list bytes) (n : hnode) : hnode :=
  match path with
  | [] => n
  | k :: p =>
    match n with
    | HN name d l =>
      match find_kid k l with
      | None => n
      | Some (a, x, b) =>
        match p with
        | [] => HN name (childs_changed d) (a ++ b)
        | _ :: _ =>
          let x' := remove_at p x in
          match kids x, kids x' with
          | _ :: _, [] => HN name (childs_changed d) (a ++ b)
          | _, _ => HN name d (a ++ x' :: b)
          end
        end
      end
    end
  end.

(* EnableTimeRecording, Hierarchy.cxx:782-790 *)
Fixpoint enable_time (withchilds : bool) (n : hnode) : hnode :=
  match n with
  | HN k d l => HN k (with_hist d true (d_hist d)) (if withchilds then map (enable_time withchilds) l else l)
  end.

(* Hierarchy::EnableHistory, Hierarchy.cxx:837-854 *)
Definition enable_history (len : N) (withchilds : bool) (n : hnode) : hnode :=
  let n1 := if 0 <? len then enable_time withchilds n else n in
  let cap := match d_hist (dat n1) with Some h => hs_cap h | None => 0 end in
  if cap =? len then n1
  else if 0 <? len
  then on_data (fun d => set_field (with_hist d (d_auto d) (Some (mkHist true withchilds len None []))) history_name (VUInt len)) n1
  else on_data (fun d => remove_field (with_hist d (d_auto d) None) history_name) n1.

(* what can be done with a hierarchy: Record::SetField, RemoveField (base/dabc/Record.h:501,516),
   CreateHChild, RemoveHChild, MarkChangedItems, EnableHistory, EnableTimeRecording *)
Inductive hop : Type :=
| OSet (path : list bytes) (k : bytes) (v : value)
| ODel (path : list bytes) (k : bytes)
| OCreate (path : list bytes) (sort : bool)
| ORemove (path : list bytes)
| OMark (path : list bytes) (now tm : N)
| OHistory (path : list bytes) (len : N) (withchilds : bool)
| OTime (path : list bytes) (withchilds : bool).

Definition hstep (n : hnode) (o : hop) : hnode :=
  match o with
  | OSet p k v => update_at p (on_data (fun d => set_field d k v)) n
  | ODel p k => update_at p (on_data (fun d => remove_field d k)) n
  | OCreate p s => create_at p s n
  | ORemove p => remove_at p n
  | OMark p now tm => mark_changed now tm p n
  | OHistory p len w => update_at p (enable_history len w) n
  | OTime p w => update_at p (enable_time w) n
  end.
Definition hrun (ops : list hop) (n : hnode) : hnode := fold_left hstep ops n.

(* ----------------------------------------------------------------- output -- *)

(* lines 241-260: what is stored for the two kinds *)
Definition prefix_of (k : skind) : bytes := match k with SFull => [] | SNames => under end.
Definition store_fields (k : skind) (v : N) (d : hdata) : bool :=
  match k with SFull => v <=? d_nv d | SNames => v <=? d_mv d end.
Definition store_childs (k : skind) (v : N) (d : hdata) : bool :=
  match k with SFull => v <=? d_cv d | SNames => v <=? d_mv d end.
Definition store_diff (k : skind) (v : N) (d : hdata) : bool :=
  match k with SFull => false | SNames => v <=? d_mv d end.
(* line 264 with the constants of base/dabc/Hierarchy.h:146-151 *)
Definition b2n (b : bool) (n : N) : N := if b then n else 0.
Definition out_mask (k : skind) (v : N) (d : hdata) : N :=
  b2n (store_fields k v d) 1 + b2n (store_childs k v d) 2 + b2n (store_diff k v d) 4.

(* HierarchyContainer::Stream, Hierarchy.cxx:224-294 and 399, output branch; [szf] gives the
   stored size of an item *)
Fixpoint hier_body (szf : hnode -> N) (k : skind) (v : N) (s : ws) (n : hnode) : ws * bool :=
  match n with
  | HN name d l =>
    let sz := if w_real s then szf n else 0 in
    let num := if store_childs k v d then lenN l else 0 in
    let s1 := wwrites s [le 4 (sz / 8); le 4 num; le 8 (out_mask k v d)] in
    let s2 := if store_fields k v d then fst (map_out s1 (prefix_of k) (vals (d_map d))) else s1 in
    let s3 := if store_childs k v d
              then (fix go (s : ws) (l : list hnode) : ws :=
                      match l with
                      | [] => s
                      | c :: r => go (fst (hier_body szf k v (fst (write_str s (nm c))) c)) r
                      end) s2 l
              else s2 in
    verify_out s3 (w_pos s) sz
  end.
(* StoreSize, Hierarchy.cxx:216-222 *)
Definition hier_size (k : skind) (v : N) (n : hnode) : N := w_pos (fst (hier_body (fun _ => 0) k v size0 n)).
Definition hier_out (k : skind) (v : N) (s : ws) (n : hnode) : ws * bool := hier_body (hier_size k v) k v s n.

(* Hierarchy::SaveToBuffer, Hierarchy.cxx:873-894; see save_record for the buffer *)
Definition save_hier (k : skind) (v : N) (n : hnode) : option bytes :=
  let (s, ok) := hier_out k v (mem0 (hier_size k v n mod 2^32)) n in
  if ok then Some (w_out s) else None.

(* ------------------------------------------------------------------ input -- *)

(* Reading a field keeps its fModified (base/src/Record.cxx:395-452), a new one has none *)
Definition keep_flags (old : fmap field) (m : fmap value) : fmap field :=
  map (fun e => (fst e, mkF (snd e) (match mget (fst e) old with Some f => f_mod f | None => false end))) m.

(* HierarchyContainer::Stream, Hierarchy.cxx:297-399, input branch with candeletechilds; the
   childs up to tgtcnt are in the result already, [old] are those behind.  The results of
   read_str and of the nested Stream calls are ignored.  [None]: the depth allowed by [fuel]
   is exhausted. *)
Fixpoint hier_in (fuel : nat) (tail : bytes) (s : rs) (n : hnode) : option (out (rs * (hnode * bool))) :=
  match fuel with
  | O => None
  | S fu =>
    let pos := r_pos s in
    let (s1, storesz) := rnum s 4 0 in
    let (s2, num0) := rnum s1 4 0 in
    let num := N.land num0 16777215 in
    let (s3, msk) := rnum s2 8 0 in
    let d := dat n in
    match (if N.testbit msk 0 then
             let diff := N.testbit msk 2 in
             od (s4, (m, _)) <- map_in tail s3 (if diff then under else []) (vals (d_map d));
             Done (s4, with_flags (with_map d (keep_flags (d_map d) m) (d_fch d)) true (d_mc d || diff) (d_cc d))
           else Done (s3, d)) with
    | Throw => Some Throw
    | Oob => Some Oob
    | Done (s4, d1) =>
      match (if N.testbit msk 1 then
               let d2 := with_flags d1 (d_nc d1) (d_mc d1) true in
               (fix go (cnt : nat) (s : rs) (d : hdata) (old : list hnode) : option (out (rs * (hdata * list hnode))) :=
                  match cnt with
                  | O => Some (Done (s, (match old with [] => d | _ :: _ => childs_changed d end, [])))
                  | S c =>
                    match read_str tail s with
                    | Throw => Some Throw
                    | Oob => Some Oob
                    | Done (s1, (name, _)) =>
                      let '(d', x, b) := match find_kid name old with
                                         | None => (childs_changed d, new_item name, old)
                                         | Some (a, x, b) => (match a with [] => d | _ :: _ => childs_changed d end, x, b)
                                         end in
                      match hier_in fu tail s1 x with
                      | Some (Done (s2, (x', _))) =>
                        match go c s2 d' b with
                        | Some (Done (s3, (d'', r))) => Some (Done (s3, (d'', x' :: r)))
                        | other => other
                        end
                      | Some Throw => Some Throw
                      | Some Oob => Some Oob
                      | None => None
                      end
                    end
                  end) (N.to_nat num) s4 d2 (kids n)
             else Some (Done (s4, (d1, kids n)))) with
      | Some (Done (s5, (d2, l))) =>
        let (s6, ok) := verify_in s5 pos (storesz * 8) in
        Some (Done (s6, (HN (nm n) d2 l, ok)))
      | Some Throw => Some Throw
      | Some Oob => Some Oob
      | None => None
      end
    end
  end.

(* Hierarchy::UpdateFromBuffer, Hierarchy.cxx:912-931; the buffer has one segment.  Each
   nested call consumes bytes of the stream or finds nothing to read *)
Definition update_from (tail : bytes) (b : bytes) (now : N) (n : hnode) : option (out (hnode * bool)) :=
  match hier_in (S (S (length b))) tail (mkR 0 b) n with
  | Some (Done (_, (n', ok))) => Some (Done (if ok then mark_changed now 0 [] n' else n', ok))
  | Some Throw => Some Throw
  | Some Oob => Some Oob
  | None => None
  end.

(* --------------------------------------------------------- history reading -- *)

(* ExtractHistoryStep, Hierarchy.cxx:612-621, with RecordsQueue::Item, base/dabc/Queue.h:280-289:
   a slot of the ring that is not in use holds a null pointer (HistoryItem::reset,
   base/dabc/Hierarchy.h:53), which is then dereferenced *)
Definition extract_step (d : hdata) (fields : fmap field) (step : N) : res (option (fmap field)) :=
  match d_hist d with
  | None => Ok None
  | Some h =>
    if hs_cap h <=? step then Ok None
    else match nth_error (hs_arr h) (N.to_nat (hs_cap h - step - 1)) with
         | Some (_, diff) => Ok (Some (apply_diff fields diff))
         | None => UB
         end
  end.

(* HistoryIterContainer::next, Hierarchy.cxx:1194-1214: [cnt] is fCnt, [fields] the current map *)
Definition iter_next (d : hdata) (cnt : N) (fields : fmap field) : res (bool * N * fmap field) :=
  if cnt =? 0 then Ok (true, 1, clone (d_map d))
  else
    do o <- extract_step d fields (cnt - 1);
    match o with
    | Some f => Ok (true, cnt + 1, f)
    | None => Ok (false, 0, [])
    end.
