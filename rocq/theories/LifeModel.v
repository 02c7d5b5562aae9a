(* The life of one dabc::Object used by any number of threads: reference counter, destroy
   requests, destruction by an own thread, cleanup, childs, hand-over to the manager,
   deletion.  One step is one section under the object mutex (or one access outside).
   Not modelled: objects which delete themselves (_DoDeleteItself, only dabc::Thread) and
   objects without mutex. *)
From Verif Require Import Common.

(* Object.h:124-129, without stConstructor *)
Inductive ostate := Normal | WaitThread | DoingDestroy | WaitDestr | Destructor.
(* what a thread does with the object between its sections:
   Via      inside DecReference, before DestroyByOwnThread (Object.cxx:421-422)
   Clean0   inside ObjectCleanup, childs not yet taken
   Clean t  inside RemoveChilds, the childs [t] still to be detached, or later in the cleanup
   Hand     before DestroyObject of the manager (Object.cxx:480-483)
   Del      DecReference returned true, delete follows *)
Inductive phase := Idle | Via | Clean0 | Clean (todo : list nat) | Hand | Del.
(* t_h: references held; t_rd: the parent reference of this child was found not null inside
   Release (Reference.cxx:138-145), which runs without lock on the reference itself *)
Record thr : Type := mkT { t_h : nat; t_ph : phase; t_rd : option nat }.
(* childs: k_list in the list of childs; k_slot the child's fObjectParent points here *)
Record kid : Type := mkK { k_list : bool; k_slot : bool }.
(* asked, late are only for the statements: somebody asked for destruction; a child was
   added after destruction began.  duty: the own thread has to call
   DestroyCalledFromOwnThread *)
Record st : Type := mkS {
  cnt : nat; ost : ostate; auto : bool; hasthr : bool; cleanup : bool; deleted : bool;
  asked : bool; late : bool; duty : bool; kids : list kid; thrs : list thr }.

Definition w_obj (s : st) (c : nat) (o : ostate) : st :=
  mkS c o (auto s) (hasthr s) (cleanup s) (deleted s) (asked s) (late s) (duty s) (kids s) (thrs s).
Definition w_thr (s : st) (i : nat) (t : thr) : st :=
  mkS (cnt s) (ost s) (auto s) (hasthr s) (cleanup s) (deleted s) (asked s) (late s) (duty s) (kids s) (upd (thrs s) i t).
Definition w_kids (s : st) (k : list kid) : st :=
  mkS (cnt s) (ost s) (auto s) (hasthr s) (cleanup s) (deleted s) (asked s) (late s) (duty s) k (thrs s).
Definition w_asked (s : st) (b : bool) : st :=
  mkS (cnt s) (ost s) (auto s) (hasthr s) (cleanup s) (deleted s) b (late s) (duty s) (kids s) (thrs s).
Definition w_late (s : st) (b : bool) : st :=
  mkS (cnt s) (ost s) (auto s) (hasthr s) (cleanup s) (deleted s) (asked s) b (duty s) (kids s) (thrs s).
Definition w_duty (s : st) (b : bool) : st :=
  mkS (cnt s) (ost s) (auto s) (hasthr s) (cleanup s) (deleted s) (asked s) (late s) b (kids s) (thrs s).
Definition w_flags (s : st) (h c : bool) : st :=
  mkS (cnt s) (ost s) (auto s) h c (deleted s) (asked s) (late s) (duty s) (kids s) (thrs s).
Definition w_deleted (s : st) : st :=
  mkS (cnt s) (ost s) (auto s) (hasthr s) (cleanup s) true (asked s) (late s) (duty s) (kids s) (thrs s).

Definition nlist (l : list kid) : nat := length (filter k_list l).
Definition thread (s : st) (i : nat) : thr := nth i (thrs s) (mkT 0 Idle None).

(* IncReference Object.cxx:278-295: false in the destructor *)
Definition inc (s : st) : option st :=
  match ost s with Destructor => None | o => Some (w_obj s (S (cnt s)) o) end.

(* DecReference Object.cxx:317-502, first section 324-419.  The counter is unsigned in the
   model; 0 throws an exception which no caller handles (the callers are throw()). *)
Inductive outcome := Ret | OVia | OClean | ODel.
Definition dec (s : st) (ask dodec from_thread : bool) : res (st * outcome) :=
  match dodec, cnt s with
  | true, O => UB
  | _, _ =>
    let c := if dodec then cnt s - 1 else cnt s in
    match ost s with
    | Normal =>
      if ask || (auto s && (c =? 0)) || (dodec && (c =? nlist (kids s)) && auto s) then
        if hasthr s then Ok (w_obj s (S c) WaitThread, OVia) else Ok (w_obj s c DoingDestroy, OClean)
      else Ok (w_obj s c Normal, Ret)
    | WaitThread => if from_thread then Ok (w_obj s c DoingDestroy, OClean) else Ok (w_obj s c WaitThread, Ret)
    | DoingDestroy => Ok (w_obj s c DoingDestroy, Ret)
    | WaitDestr => if c =? 0 then Ok (w_obj s c Destructor, ODel) else Ok (w_obj s c WaitDestr, Ret)
    | Destructor => Ok (w_obj s c Destructor, Ret)
    end
  end.
(* the thread continues according to the outcome; a thread inside the cleanup must not be
   sent into a second one *)
Definition continue (s : st) (i : nat) (o : outcome) : res st :=
  let t := thread s i in
  match o with
  | Ret => Ok s
  | _ => match t_ph t with
         | Idle => Ok (w_thr s i (mkT (t_h t) (match o with OVia => Via | OClean => Clean0 | _ => Del end) (t_rd t)))
         | _ => UB
         end
  end.

Inductive op : Type :=
| Copy (i j : nat)          (* thread j gets a new reference, copied from one held by i *)
| Give (i j : nat)          (* a reference is moved from thread i to thread j *)
| Release (i : nat) (ask : bool)   (* Release / Destroy of a reference, Reference.cxx:138-159 *)
| AskRaw (i : nat)          (* Object::Destroy(obj) Object.cxx:921-927, by a thread holding a reference *)
| SetCleanup (i : nat)      (* SetCleanupBit Object.cxx:297-301, DeleteThis 509-527 *)
| SetThread (b : bool)      (* flHasThread set or cleared under the mutex *)
| ByThread (i : nat) (accept : bool)  (* DestroyByOwnThread, Object.cxx:421-433, Worker.cxx:194-210 *)
| FromThread (i : nat)      (* DestroyCalledFromOwnThread Object.cxx:504-507, Thread.cxx:1001-1004 *)
| Steal (i : nat)           (* RemoveChilds Object.cxx:829-841 *)
| Skip (i : nat)            (* next child of RemoveChilds 859-862 has no parent reference any more *)
| KRead (i k : nat)         (* Release of the parent reference of child k: pointer read *)
| KDec (i : nat)            (*  ... DecReference and pointer cleared *)
| KRemove (k : nat)         (* RemoveChild Object.cxx:604-663 for a child in the list *)
| AddKid (i : nat)          (* AddChildAt Object.cxx:570-602 *)
| Done (i : nat)            (* second section of DecReference Object.cxx:446-478 *)
| ToManager (i m : nat)     (* DestroyObject Manager.cxx:1317-1361; thread m is the manager *)
| Delete (i : nat).         (* delete, Reference.cxx:142,155 *)

Definition is_idle (p : phase) : bool := match p with Idle => true | _ => false end.
Definition in_clean (p : phase) : bool := match p with Clean0 | Clean _ => true | _ => false end.
Definition reading (s : st) (k : nat) : bool :=
  existsb (fun t => match t_rd t with Some n => n =? k | None => false end) (thrs s).
Definition kid_at (s : st) (k : nat) : kid := nth k (kids s) (mkK false false).

(* When a step can happen.  With [serial] no two threads release the parent reference of
   one child at the same time. *)
Definition enabled (serial : bool) (s : st) (o : op) : bool :=
  let n := length (thrs s) in
  let can i := (i <? n) && (0 <? t_h (thread s i)) && (is_idle (t_ph (thread s i)) || in_clean (t_ph (thread s i))) in
  match o with
  | Copy i j | Give i j => can i && (j <? n)
  | Release i _ | SetCleanup i | AddKid i => can i
  | AskRaw i => can i
  | SetThread _ => negb (deleted s)
  | ByThread i _ => (i <? n) && match t_ph (thread s i) with Via => true | _ => false end
  | FromThread i => (i <? n) && is_idle (t_ph (thread s i)) && duty s
  | Steal i => (i <? n) && match t_ph (thread s i) with Clean0 => true | _ => false end
  | Skip i => (i <? n) && match t_ph (thread s i) with Clean (k :: _) => negb (k_slot (kid_at s k)) | _ => false end
  | KRead i k => (i <? n) && (k <? length (kids s)) && k_slot (kid_at s k) && negb (k_list (kid_at s k)) &&
                 match t_rd (thread s i) with None => true | _ => false end &&
                 (is_idle (t_ph (thread s i)) || in_clean (t_ph (thread s i))) && negb (serial && reading s k)
  | KDec i => (i <? n) && match t_rd (thread s i) with Some _ => true | None => false end &&
              (is_idle (t_ph (thread s i)) || in_clean (t_ph (thread s i)))
  | KRemove k => (k <? length (kids s)) && k_list (kid_at s k) && k_slot (kid_at s k)
  | Done i => (i <? n) && match t_ph (thread s i), t_rd (thread s i) with Clean [], None => true | _, _ => false end
  | ToManager i m => (i <? n) && (m <? n) && match t_ph (thread s i) with Hand => true | _ => false end
  | Delete i => (i <? n) && match t_ph (thread s i) with Del => true | _ => false end
  end.

Definition add_h (s : st) (i : nat) : st := let t := thread s i in w_thr s i (mkT (S (t_h t)) (t_ph t) (t_rd t)).
Definition sub_h (s : st) (i : nat) : st := let t := thread s i in w_thr s i (mkT (t_h t - 1) (t_ph t) (t_rd t)).
Definition set_ph (s : st) (i : nat) (p : phase) : st := let t := thread s i in w_thr s i (mkT (t_h t) p (t_rd t)).
Definition set_rd (s : st) (i : nat) (r : option nat) : st := let t := thread s i in w_thr s i (mkT (t_h t) (t_ph t) r).
Fixpoint listed (l : list kid) (n : nat) : list nat :=
  match l with [] => [] | k :: l => (if k_list k then [n] else []) ++ listed l (S n) end.

(* a step on a deleted object is undefined behaviour *)
Definition step (s : st) (o : op) : res st :=
  if deleted s then UB else
  match o with
  | Copy i j => match inc s with Some s => Ok (add_h s j) | None => UB end
  | Give i j => Ok (add_h (sub_h s i) j)
  | Release i ask =>
      do p <- dec (w_asked s (asked s || ask)) ask true false;
      let (s, o) := (p : st * outcome) in continue (sub_h s i) i o
  | AskRaw i =>
      do p <- dec (w_asked s true) true false false;
      let (s, o) := (p : st * outcome) in continue s i o
  | SetCleanup _ => Ok (w_flags s (hasthr s) true)
  | SetThread b => Ok (w_flags s b (cleanup s))
  | ByThread i accept =>
      if accept then Ok (w_duty (set_ph s i Idle) true)
      else Ok (set_ph (w_obj s (cnt s - 1) DoingDestroy) i Clean0)
  | FromThread i =>
      do p <- dec (w_duty s false) true true true;
      let (s, o) := (p : st * outcome) in continue s i o
  | Steal i =>
      Ok (set_ph (w_kids s (map (fun k => mkK false (k_slot k)) (kids s))) i (Clean (listed (kids s) 0)))
  | Skip i => match t_ph (thread s i) with Clean (_ :: t) => Ok (set_ph s i (Clean t)) | _ => UB end
  | KRead i k => Ok (set_rd s i (Some k))
  | KDec i =>
      match t_rd (thread s i) with
      | None => UB
      | Some k =>
        do p <- dec s false true false;
        let (s, o) := (p : st * outcome) in
        continue (set_rd (w_kids s (upd (kids s) k (mkK (k_list (kid_at s k)) false))) i None) i o
      end
  | KRemove k => Ok (w_obj (w_kids s (upd (kids s) k (mkK false false))) (if 1 <? cnt s then cnt s - 1 else 0) (ost s))
  | AddKid i =>
      let s := match ost s with Normal | WaitThread => s | _ => w_late s true end in
      Ok (w_obj (w_kids s (kids s ++ [mkK true true])) (S (cnt s)) (ost s))
  | Done i =>
      if cleanup s then Ok (set_ph (w_obj s (S (cnt s)) WaitDestr) i Hand)
      else if cnt s =? 0 then Ok (set_ph (w_obj s 0 Destructor) i Del)
      else Ok (set_ph (w_obj s (cnt s) WaitDestr) i Idle)
  | ToManager i m =>
      match inc s with Some s => Ok (set_ph (add_h (add_h s m) i) i Idle) | None => UB end
  | Delete i => Ok (w_deleted (set_ph s i Idle))
  end.

(* every interleaving is a list of steps; a step which cannot happen is skipped *)
Fixpoint run (serial : bool) (s : st) (l : list op) : res st :=
  match l with
  | [] => Ok s
  | o :: l => if enabled serial s o then do s <- step s o; run serial s l else run serial s l
  end.
(* one thread created the object and holds the first reference *)
Definition init (au : bool) (n : nat) : st :=
  mkS 1 Normal au false false false false false false [] (mkT 1 Idle None :: repeat (mkT 0 Idle None) n).
