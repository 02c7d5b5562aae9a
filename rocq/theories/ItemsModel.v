(* Numbering of module items and delivery of their events: Module.cxx:100-127, 157-225,
   607-696, 704-748, 764-833, ModuleItem.cxx:38-47, ModuleAsync.cxx:49-178.
   Pointers are serial numbers; a freed item is [None] in the heap, and any access to it is
   undefined behaviour.  Names are numbers, 0 the empty name.  The module is running; the
   handlers are only recorded, the loops in them (ModuleAsync.cxx:116-124) not modelled. *)
From Verif Require Import Common ItemsSpec.

Record item : Type := mkItem { i_kind : kind; i_name : N; i_id : nat; i_sub : nat }.
(* codes of EModuleEvents, ModuleItem.h:39-46 *)
Inductive code : Type := EvInput | EvOutput | EvInputReinj | EvOutputReinj | EvTimeout | EvUser.
Record module : Type := mkM {
  m_heap : list (option item);
  m_items : list (option nat);          (* fItems *)
  m_vec : kind -> list nat;             (* fInputs, fOutputs, fPools, fTimers, fUsers *)
  m_queue : list (code * nat)           (* events of the module, oldest first *)
}.
Definition empty_module : module := mkM [] [] (fun _ => []) [].

Definition set_vec (m : module) (k : kind) (v : list nat) : module :=
  mkM (m_heap m) (m_items m) (fun k' => if kind_eqb k k' then v else m_vec m k') (m_queue m).
Definition set_heap (m : module) (h : list (option item)) : module := mkM h (m_items m) (m_vec m) (m_queue m).

Definition deref (m : module) (x : nat) : res item :=
  match nth_error (m_heap m) x with Some (Some i) => Ok i | _ => UB end.
(* SetItemSubId, ModuleItem.h:84 *)
Definition set_sub (m : module) (x n : nat) : res module :=
  do i <- deref m x; Ok (set_heap m (upd (m_heap m) x (Some (mkItem (i_kind i) (i_name i) (i_id i) n)))).

(* FindInput, FindOutput, FindPool, Module.cxx:157-179, FindTimer 100-106, FindUserItem 219-225 *)
Fixpoint find_from (m : module) (name : N) (n : nat) (v : list nat) : res (option nat) :=
  match v with
  | [] => Ok None
  | x :: r => do i <- deref m x; if (i_name i =? name)%N then Ok (Some n) else find_from m name (S n) r
  end.
Definition find_item (m : module) (k : kind) (name : N) : res (option nat) :=
  if (name =? 0)%N then Ok None else find_from m name O (m_vec m k).

(* CreateInput, CreateOutput, Module.cxx:704-748 (queue length not zero), CreateTimer
   109-127, CreateUserItem 203-217, CreatePoolHandle 607-627 (existing pool), with
   AddModuleItem 629-649 (fewer than 65535 items): the number returned *)
Definition create (m : module) (k : kind) (name : N) : res (module * nat) :=
  do o <- find_item m k name;
  match o with
  | Some n => Ok (m, n)
  | None =>
    let sub := length (m_vec m k) in
    let x := length (m_heap m) in
    Ok (set_vec (mkM (m_heap m ++ [Some (mkItem k name (length (m_items m)) sub)]) (m_items m ++ [Some x]) (m_vec m) (m_queue m)) k (m_vec m k ++ [x]), sub)
  end.

(* vector::erase *)
Definition erase (v : list nat) (n : nat) : list nat := firstn n v ++ skipn (S n) v.
(* one of the five loops of RemoveModuleItem, Module.cxx:655-661 and following *)
Fixpoint remove_loop (fuel : nat) (m : module) (k : kind) (x n : nat) : res module :=
  match fuel with
  | O => Loop
  | S f =>
    match nth_error (m_vec m k) n with
    | None => Ok m
    | Some y =>
      if y =? x then remove_loop f (set_vec m k (erase (m_vec m k) n)) k x (S n)
      else do m <- set_sub m y n; remove_loop f m k x (S n)
    end
  end.
Definition remove_kind (m : module) (k : kind) (x : nat) : res module := remove_loop (S (length (m_vec m k))) m k x O.
(* RemoveModuleItem, Module.cxx:651-696 *)
Definition remove_item (m : module) (x : nat) : res module :=
  do i <- deref m x;
  do m <- remove_kind m KInput x;
  do m <- remove_kind m KOutput x;
  do m <- remove_kind m KPool x;
  do m <- remove_kind m KTimer x;
  do m <- remove_kind m KUser x;
  Ok (mkM (m_heap m) (upd (m_items m) (i_id i) None) (m_vec m) (m_queue m)).

(* ~ModuleItem, ModuleItem.cxx:38-47: the module is told only when the item still has it as
   its parent *)
Definition destructor (m : module) (x : nat) (parent : bool) : res module :=
  do m <- (if parent then remove_item m x else Ok m);
  do _ <- deref m x;
  Ok (set_heap m (upd (m_heap m) x None)).
(* Destroy of an item: ObjectCleanup takes it out of the children of its parent and clears
   the pointer to it (Object.cxx:541-542, 632-633) before the object is deleted *)
Definition destroy (m : module) (x : nat) : res module := destructor m x false.

Definition fire (m : module) (c : code) (id : nat) : module := mkM (m_heap m) (m_items m) (m_vec m) (m_queue m ++ [(c, id)]).
(* code of the event made for an item: ProduceInputEvent, ProducePoolEvent,
   ProduceOutputEvent, Module.cxx:764-783, ProduceUserItemEvent 234-238, Timer
   (ModuleItem.cxx:131, there without the queue) *)
Definition code_of (k : kind) : code :=
  match k with KInput => EvInput | KPool => EvInput | KOutput => EvOutput | KTimer => EvTimeout | KUser => EvUser end.
Definition produce (m : module) (k : kind) (n : nat) (c : code) : res module :=
  match nth_error (m_vec m k) n with
  | None => Ok m
  | Some x => do i <- deref m x; Ok (fire m c (i_id i))
  end.

(* Input(n), Output(n), Pool(n), Module.h:77-79, used without a check for null in
   ModuleAsync.cxx:112-114, 137-139, 165-167 *)
Definition handler (m : module) (k : kind) (n : nat) : res call :=
  match k with
  | KTimer | KUser => Ok (k, n)
  | _ => match nth_error (m_vec m k) n with None => UB | Some x => do _ <- deref m x; Ok (k, n) end
  end.
(* ModuleAsync::ProcessItemEvent, ModuleAsync.cxx:49-83 *)
Definition dispatch (m : module) (c : code) (i : item) : res call :=
  match c with
  | EvInput | EvInputReinj => handler m (match i_kind i with KPool => KPool | _ => KInput end) (i_sub i)
  | EvOutput | EvOutputReinj => handler m KOutput (i_sub i)
  | EvTimeout => handler m KTimer (i_sub i)
  | EvUser => handler m KUser (i_sub i)
  end.
(* Module::ProcessEvent, Module.cxx:822-833, with GetItem, Module.h:198: the item may be null *)
Definition process (m : module) : res (module * list call) :=
  match m_queue m with
  | [] => Ok (m, [])
  | (c, id) :: r =>
    match nth_error (m_items m) id with
    | Some (Some x) => do i <- deref m x; do h <- dispatch m c i; Ok (mkM (m_heap m) (m_items m) (m_vec m) r, [h])
    | _ => UB
    end
  end.

Definition step (m : module) (o : op) : res (module * list call) :=
  match o with
  | OCreate k name => do mn <- create m k name; Ok (fst mn, [])
  | ODelete x => do m <- destructor m x true; Ok (m, [])
  | ODestroy x => do m <- destroy m x; Ok (m, [])
  | OProduce k n => do m <- produce m k n (code_of k); Ok (m, [])
  | OActivatePool n => do m <- produce m KPool n EvOutputReinj; Ok (m, [])   (* ModuleAsync.cxx:152-158 *)
  | OProcess => process m
  end.
Fixpoint run (m : module) (l : list op) : res (module * list call) :=
  match l with
  | [] => Ok (m, [])
  | o :: r => do mc <- step m o; do mc' <- run (fst mc) r; Ok (fst mc', snd mc ++ snd mc')
  end.
