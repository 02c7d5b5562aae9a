(* dabc::Reference, dabc::ReferencesVector and the reference counter of dabc::Object, used
   by one thread, for objects without childs, parent, own thread and cleanup flag. *)
From Verif Require Import Common RefSpec.

(* the states of an object that can be seen between calls (Object.h: stNormal,
   stWaitForDestructor) *)
Inductive ostate := Normal | WaitDestr.
Record obj : Type := mkO { o_cnt : nat; o_st : ostate; o_auto : bool }.
(* objects (None: deleted), reference variables, vectors of references *)
Record st : Type := mkSt { heap : list (option obj); vars : list (option nat); vecs : list (list (option nat)) }.
(* places of a reference *)
Inductive loc := V (v : nat) | E (k i : nat).

Definition get (s : st) (l : loc) : res (option nat) :=
  match l with
  | V v => match nth_error (vars s) v with Some x => Ok x | None => UB end
  | E k i => match nth_error (vecs s) k with
             | Some r => match nth_error r i with Some x => Ok x | None => UB end
             | None => UB end
  end.
Definition set (s : st) (l : loc) (x : option nat) : st :=
  match l with
  | V v => mkSt (heap s) (upd (vars s) v x) (vecs s)
  | E k i => mkSt (heap s) (vars s) (upd (vecs s) k (upd (nth k (vecs s) []) i x))
  end.
Definition set_obj (s : st) (o : nat) (x : option obj) : st := mkSt (upd (heap s) o x) (vars s) (vecs s).

(* IncReference Object.cxx:278-295 *)
Definition inc (s : st) (o : nat) : res st :=
  match nth_error (heap s) o with
  | Some (Some x) => Ok (set_obj s o (Some (mkO (S (o_cnt x)) (o_st x) (o_auto x))))
  | _ => UB
  end.
(* DecReference Object.cxx:317-502 followed by the delete of the caller, Reference.cxx:141-143
   and 153-156.  A counter of 0 throws inside a throw() function.  ObjectCleanup has nothing
   to do for such objects. *)
Definition dec (s : st) (ask : bool) (o : nat) : res st :=
  match nth_error (heap s) o with
  | Some (Some x) =>
    match o_cnt x with
    | O => UB
    | S c =>
      match o_st x with
      | Normal =>
        if (o_auto x && (c =? 0)) || ask then
          Ok (set_obj s o (if c =? 0 then None else Some (mkO c WaitDestr (o_auto x))))
        else Ok (set_obj s o (Some (mkO c Normal (o_auto x))))
      | WaitDestr => Ok (set_obj s o (if c =? 0 then None else Some (mkO c WaitDestr (o_auto x))))
      end
    end
  | _ => UB
  end.

(* Release Reference.cxx:138-145 and Destroy 148-159 *)
Definition rel (ask : bool) (s : st) (l : loc) : res st :=
  do x <- get s l;
  match x with None => Ok s | Some o => do s <- dec s ask o; Ok (set s l None) end.
(* operator= Reference.cxx:64-73, Assign 50-56 *)
Definition assign (s : st) (d r : loc) : res st :=
  do s <- rel false s d; do x <- get s r;
  match x with None => Ok s | Some o => do s <- inc s o; Ok (set s d (Some o)) end.
(* operator<< Reference.cxx:88-100 *)
Definition move (s : st) (d r : loc) : res st :=
  do s <- rel false s d; do x <- get s r; Ok (set (set s r None) d x).
(* a temporary reference holding [x] is moved to a place *)
Definition move_temp (s : st) (d : loc) (x : option nat) : res st := do s <- rel false s d; Ok (set s d x).
(* operator=(Object* ) Reference.cxx:75-85, SetObject 37-48 *)
Definition point (s : st) (d : loc) (o : nat) : res st :=
  do s <- rel false s d; do s <- inc s o; move_temp s d (Some o).
Definition set_object (s : st) (d : loc) (o : nat) : res st :=
  do s <- rel false s d; do s <- inc s o; Ok (set s d (Some o)).
(* Take Reference.cxx:102-109, moved to another variable *)
Definition take_to (s : st) (d r : loc) : res st :=
  do x <- get s r; move_temp (set s r None) d x.

Definition size (s : st) (k : nat) : nat := length (nth k (vecs s) []).
(* push_back(Reference()); ExpandVector ReferencesVector.cxx:35-53 moves the entries to a
   larger vector and is not visible here *)
Definition push_null (s : st) (k : nat) : st := mkSt (heap s) (vars s) (upd (vecs s) k (nth k (vecs s) [] ++ [None])).
Definition pop_back (s : st) (k : nat) : st := mkSt (heap s) (vars s) (upd (vecs s) k (removelast (nth k (vecs s) []))).
(* Add ReferencesVector.cxx:56-68 *)
Definition add (s : st) (k : nat) (r : loc) : res st :=
  do x <- get s r;
  match x with
  | None => Ok s
  | Some _ => let s := push_null s k in move s (E k (size s k - 1)) r
  end.
(* AddAt ReferencesVector.cxx:71-88 *)
Fixpoint shift_up (s : st) (k n pos : nat) : res st :=
  match n with
  | O => Ok s
  | S m => if pos <? n then do s <- move s (E k n) (E k m); shift_up s k m pos else Ok s
  end.
Definition add_at (s : st) (k : nat) (r : loc) (pos : nat) : res st :=
  do x <- get s r;
  match x with
  | None => Ok s
  | Some _ =>
    let s := push_null s k in
    if size s k <=? pos then move s (E k (size s k - 1)) r
    else do s <- shift_up s k (size s k - 1) pos; move s (E k pos) r
  end.
(* RemoveAt ReferencesVector.cxx:103-115: [cnt] turns of the loop *)
Fixpoint shift_down (s : st) (k n cnt : nat) : res st :=
  match cnt with O => Ok s | S c => do s <- move s (E k n) (E k (S n)); shift_down s k (S n) c end.
Definition remove_at_m (s : st) (k n : nat) : res st :=
  if size s k <=? n then Ok s
  else
    do x <- get s (E k n);
    let s := set s (E k n) None in
    do s <- match x with Some o => dec s false o | None => Ok s end;
    do s <- shift_down s k n (size s k - 1 - n);
    Ok (pop_back s k).
(* Remove ReferencesVector.cxx:91-100 *)
Fixpoint remove_loop (s : st) (k o n : nat) : res st :=
  match n with
  | O => Ok s
  | S m => do x <- get s (E k m);
           do s <- (if match x with Some y => y =? o | None => false end then remove_at_m s k m else Ok s);
           remove_loop s k o m
  end.
(* ExtractRef ReferencesVector.cxx:127-135, 137-143 *)
Definition extract (s : st) (k n : nat) (d : loc) : res st :=
  if size s k <=? n then Ok s else do s <- move s d (E k n); remove_at_m s k n.
Fixpoint extract_loop (s : st) (k o n cnt : nat) (d : loc) : res st :=
  match cnt with
  | O => Ok s
  | S c => do x <- get s (E k n);
           if match x with Some y => y =? o | None => false end then extract s k n d
           else extract_loop s k o (S n) c d
  end.
(* TakeLast ReferencesVector.cxx:147-157, moved to a variable *)
Definition take_last (s : st) (k : nat) (d : loc) : res st :=
  if 0 <? size s k then
    do x <- get s (E k (size s k - 1));
    move_temp (pop_back (set s (E k (size s k - 1)) None) k) d x
  else move_temp s d None.
(* Get ReferencesVector.h:71: the new reference is assigned to a variable and destroyed *)
Definition get_ref (s : st) (k n : nat) (d : loc) : res st :=
  if n <? size s k then
    do x <- get s (E k n);
    match x with
    | None => rel false s d
    | Some o => do s <- inc s o; do s <- rel false s d; do s <- inc s o; dec (set s d (Some o)) false o
    end
  else rel false s d.
(* Clear ReferencesVector.cxx:160-172 *)
Fixpoint clear_loop (s : st) (k n cnt : nat) (own : bool) : res st :=
  match cnt with
  | O => Ok s
  | S c => do x <- get s (E k n);
           let s := set s (E k n) None in
           do s <- match x with Some o => dec s own o | None => Ok s end;
           clear_loop s k (S n) c own
  end.
Definition clear (s : st) (k : nat) (own : bool) : res st :=
  do s <- clear_loop s k 0 (size s k) own;
  Ok (mkSt (heap s) (vars s) (upd (vecs s) k [])).

(* Reference(new Object), constructor Reference.cxx:25-35, SetAutoDestroy 118-121; moved *)
Definition new_obj (s : st) (d : loc) (auto : bool) : res st :=
  let o := length (heap s) in
  let s := mkSt (heap s ++ [Some (mkO 0 Normal auto)]) (vars s) (vecs s) in
  do s <- inc s o; move_temp s d (Some o).

Definition step (s : st) (c : rop) : res st :=
  match c with
  | New v a => new_obj s (V v) a
  | Assign v w => assign s (V v) (V w)
  | Point v o => point s (V v) o
  | SetObj v o => set_object s (V v) o
  | Move v w => move s (V v) (V w)
  | TakeTo v w => take_to s (V v) (V w)
  | Release v => rel false s (V v)
  | Destroy v => rel true s (V v)
  | Add k v => add s k (V v)
  | AddAt k v pos => add_at s k (V v) pos
  | Remove k o => remove_loop s k o (size s k)
  | RemoveAt k n => remove_at_m s k n
  | Extract k n v => extract s k n (V v)
  | ExtractObj k o v => extract_loop s k o 0 (size s k) (V v)
  | TakeLast k v => take_last s k (V v)
  | Get k n v => get_ref s k n (V v)
  | Clear k own => clear s k own
  end.
Fixpoint run (s : st) (l : list rop) : res st :=
  match l with [] => Ok s | c :: l => do s <- step s c; run s l end.
Definition init (nvars nvecs : nat) : st := mkSt [] (repeat None nvars) (repeat [] nvecs).
