(* Buffers of one memory pool as a user sees them: handles refer to containers,
   a container is a list of byte locations, memory maps locations to bytes. *)
From Verif Require Import Common BufferSpec.

Section S.
Context {B : Type}.

Inductive bop :=
| OTake (h n : nat)                 (* h = pool.TakeBuffer(n) *)
| OTakeReq (h n : nat)              (* h = what the pool sends on a request of size n *)
| OCreate (h : nat) (bs : list B)   (* h = Buffer::CreateBuffer(copy of bs): memory outside of the pool *)
| OMakeEmpty (h cap : nat)          (* h.MakeEmpty(cap) *)
| OAssign (h h2 : nat)              (* h = h2: both refer to the same container *)
| OMove (h h2 : nat)                (* h << h2 *)
| ORelease (h : nat)
| ODup (h h2 : nat)                 (* h = h2.Duplicate() *)
| OCut (h n : nat)                  (* h.CutFromBegin(n) *)
| OSetTotal (h n : nat)             (* h.SetTotalSize(n) *)
| OInsert (h pos h2 : nat) (mv : bool)   (* h.Insert(pos, h2, mv) *)
| OAppend (h h2 : nat) (mv : bool)  (* h.Append(h2, mv) *)
| OPrepend (h h2 : nat) (mv : bool)
| OPart (h h2 skip n : nat)         (* Pointer p(h2); h2.GetNextPart(p, skip); h = h2.GetNextPart(p, n) *)
| OWrite (h : nat) (bs : list B)    (* h.CopyFrom(bs) *)
| ORawTake | ORawRelease (id : nat).

(* outcome: done, nothing delivered, exception, end of the process *)
Inductive bout := RDone | RNothing | RThrown | RTerminate.

Record view := mkV {
  v_handles : list (option nat);
  v_conts : list (option (bool * list loc));   (* flag: memory belongs to the pool *)
  v_mem : loc -> option B }.

Definition handle (v : view) (h : nat) : option nat := nth h (v_handles v) None.
Definition vcont (v : view) (c : nat) : option (bool * list loc) := nth c (v_conts v) None.
Definition buf (v : view) (h : nat) : option (bool * list loc) :=
  match handle v h with Some c => vcont v c | None => None end.
(* the bytes a user reads *)
Definition content (v : view) (h : nat) : option (list (option B)) :=
  option_map (fun b => map (v_mem v) (snd b)) (buf v h).

(* location used by some buffer *)
Definition used (v : view) (a : loc) : Prop := exists c b l, nth_error (v_conts v) c = Some (Some (b, l)) /\ In a l.

(* ---- effect on handles and containers ---- *)
Definition tabs := (list (option nat) * list (option (bool * list loc)))%type.
Definition vtabs (v : view) : tabs := (v_handles v, v_conts v).

Definition refers (hs : list (option nat)) (c : nat) : bool :=
  existsb (fun x => match x with Some k => k =? c | None => false end) hs.
Definition t_release (t : tabs) (h : nat) : tabs :=
  match nth h (fst t) None with
  | None => t
  | Some c => let hs := upd (fst t) h None in
              if refers hs c then (hs, snd t) else (hs, upd (snd t) c None)
  end.
Definition t_set (t : tabs) (h : nat) (c : option nat) : tabs :=
  let t1 := t_release t h in (upd (fst t1) h c, snd t1).
(* h becomes a new container *)
Definition t_new (t : tabs) (h : nat) (x : bool * list loc) : tabs :=
  t_set (fst t, snd t ++ [Some x]) h (Some (length (snd t))).
Definition t_put (t : tabs) (c : nat) (x : bool * list loc) : tabs := (fst t, upd (snd t) c (Some x)).

(* memory of buffers that exist before and after is unchanged; nothing dangles *)
Definition keeps (v v' : view) : Prop := forall a, used v a -> used v' a -> v_mem v' a = v_mem v a.
Definition sound (v : view) : Prop :=
  (forall a, used v a -> v_mem v a <> None) /\
  (forall h c, nth_error (v_handles v) h = Some (Some c) -> exists x, nth_error (v_conts v) c = Some (Some x)) /\
  (forall c x, nth_error (v_conts v) c = Some (Some x) -> refers (v_handles v) c = true).

Definition fresh (v : view) (l : list loc) : Prop := NoDup l /\ forall a, In a l -> ~ used v a.

(* the source of an insertion: bytes and locations that get inserted *)
Definition insert_rel (v v' : view) (h pos h2 : nat) (mv : bool) (o : bout) : Prop :=
  match buf v h2 with
  | None => o = RDone /\ vtabs v' = vtabs v /\ keeps v v'
  | Some (k2, l2) =>
    if length l2 =? 0 then o = RDone /\ vtabs v' = vtabs v /\ keeps v v'
    else match handle v h, handle v h2 with
    | None, Some c2 =>
      o = RDone /\ keeps v v' /\
      vtabs v' = if mv then (upd (upd (v_handles v) h (Some c2)) h2 None, v_conts v)
                 else t_new (vtabs v) h (k2, l2)
    | Some c, Some c2 =>
      match vcont v c with
      | None => False
      | Some (k, l) =>
        match o with
        | RDone =>
          keeps v v' /\
          exists l2', (if k2 then l2' = l2                       (* pool memory is shared *)
                       else fresh v l2' /\ map (v_mem v') l2' = map (v_mem v) l2) /\  (* other memory is copied *)
          let t1 := t_put (vtabs v) c (k, firstn pos l ++ l2' ++ skipn pos l) in
          vtabs v' = if mv then t_release (if k2 then t_put t1 c2 (k2, []) else t1) h2 else t1
        | RThrown => vtabs v' = vtabs v /\ keeps v v'
        | _ => False
        end
      end
    | _, None => False
    end
  end.

Definition step_rel (v : view) (op : bop) (o : bout) (v' : view) : Prop :=
  match op with
  | OTake h n | OTakeReq h n =>
    match o with
    | RDone => exists l, (0 < n -> length l = n) /\ fresh v l /\ vtabs v' = t_new (vtabs v) h (true, l) /\ keeps v v'
    | RNothing => vtabs v' = t_set (vtabs v) h None /\ keeps v v'
    | _ => False
    end
  | OCreate h bs => o = RDone /\ keeps v v' /\
      exists l, fresh v l /\ vtabs v' = t_new (vtabs v) h (false, l) /\ map (v_mem v') l = map Some bs
  | OMakeEmpty h _ => o = RDone /\ keeps v v' /\ vtabs v' = t_new (vtabs v) h (false, [])
  | OAssign h h2 => o = RDone /\ keeps v v' /\ vtabs v' = t_set (vtabs v) h (handle v h2)
  | OMove h h2 => o = RDone /\ keeps v v' /\
      vtabs v' = (let t1 := t_set (vtabs v) h (handle v h2) in (upd (fst t1) h2 None, snd t1))
  | ORelease h => o = RDone /\ keeps v v' /\ vtabs v' = t_release (vtabs v) h
  | ODup h h2 => o = RDone /\ keeps v v' /\
      vtabs v' = match buf v h2 with Some x => t_new (vtabs v) h x | None => t_set (vtabs v) h None end
  | OCut h n =>
      o = RDone /\ keeps v v' /\
      vtabs v' = match handle v h, buf v h with
                 | Some c, Some (k, l) => if n =? 0 then vtabs v
                                          else if length l <=? n then t_release (vtabs v) h
                                          else t_put (vtabs v) c (k, skipn n l)
                 | _, _ => vtabs v
                 end
  | OSetTotal h n =>
      keeps v v' /\
      match handle v h, buf v h with
      | Some c, Some (k, l) => if n =? 0 then o = RDone /\ vtabs v' = t_release (vtabs v) h
                               else if length l <? n then o = RThrown /\ vtabs v' = vtabs v
                               else o = RDone /\ vtabs v' = t_put (vtabs v) c (k, firstn n l)
      | _, _ => o = RDone /\ vtabs v' = vtabs v
      end
  | OInsert h pos h2 mv => insert_rel v v' h pos h2 mv o
  | OAppend h h2 mv => insert_rel v v' h (match buf v h with Some (_, l) => length l | None => 0 end) h2 mv o
  | OPrepend h h2 mv => insert_rel v v' h 0 h2 mv o
  | OPart h h2 skip n =>
      keeps v v' /\
      match buf v h2 with
      | Some (k, l) => let pos := if skip <=? length l then skip else 0 in   (* refused parts move nothing *)
                       if pos + n <=? length l
                       then o = RDone /\ vtabs v' = t_new (vtabs v) h (k, slice l pos n)
                       else o = RNothing /\ vtabs v' = t_set (vtabs v) h None
      | None => o = RNothing /\ vtabs v' = t_set (vtabs v) h None
      end
  | OWrite h bs =>
      o = RDone /\ vtabs v' = vtabs v /\
      match buf v h with
      | Some (_, l) =>
          (forall a, ~ In a (firstn (length bs) l) -> v_mem v' a = v_mem v a) /\
          (length bs <= length l -> NoDup (firstn (length bs) l) -> map (v_mem v') (firstn (length bs) l) = map Some bs)
      | None => forall a, v_mem v' a = v_mem v a
      end
  | ORawTake | ORawRelease _ => vtabs v' = vtabs v /\ keeps v v'
  end.

(* calls covered by the theorems *)
Definition op_ok (v : view) (raw : list nat) (op : bop) : Prop :=
  let inr h := h < length (v_handles v) in
  let ins h h2 mv :=
    inr h /\ inr h2 /\
    match buf v h, buf v h2 with
    | Some (k, l), Some (k2, l2) => k = true /\ (mv = true -> handle v h <> handle v h2)
    | _, _ => h <> h2
    end in
  match op with
  | OTake h _ | OTakeReq h _ | OMakeEmpty h _ | ORelease h | OCut h _ | OSetTotal h _ | OCreate h _ => inr h
  | OAssign h h2 | OMove h h2 => inr h /\ inr h2 /\ h <> h2
  | ODup h h2 => inr h /\ inr h2
  | OInsert h _ h2 mv | OAppend h h2 mv | OPrepend h h2 mv => ins h h2 mv
  | OPart h h2 skip n => inr h /\ inr h2 /\ 0 < n /\ match buf v h2 with Some (k, _) => k = true | None => True end
  | OWrite h bs => inr h /\ match buf v h with Some (_, l) => length bs <= length l /\ NoDup (firstn (length bs) l) | None => True end
  | ORawTake => True
  | ORawRelease id => In id raw
  end.

(* ---- effect on the bytes read through the handles, for calls that succeed ---- *)
Definition joined (a b : option (list (option B))) (pos : nat) : option (list (option B)) :=
  match a, b with
  | Some x, Some y => Some (firstn pos x ++ y ++ skipn pos x)
  | None, Some [] => None
  | None, Some y => Some y
  | a, None => a
  end.

Definition size_of (c : option (list (option B))) : nat := match c with Some l => length l | None => 0 end.

Definition content_rel (v : view) (op : bop) (v' : view) : Prop :=
  match op with
  | OTake h n | OTakeReq h n => exists c, content v' h = Some c /\ (0 < n -> length c = n)
  | OCreate h bs => content v' h = Some (map Some bs)
  | OMakeEmpty h _ => content v' h = Some []
  | OAssign h h2 | OMove h h2 | ODup h h2 => content v' h = content v h2
  | ORelease h => content v' h = None
  | OCut h n => content v' h = match content v h with
                               | Some c => if n =? 0 then Some c else if length c <=? n then None else Some (skipn n c)
                               | None => None
                               end
  | OSetTotal h n => content v' h = match content v h with
                                    | Some c => if n =? 0 then None else Some (firstn n c)
                                    | None => None
                                    end
  | OInsert h pos h2 mv => content v' h = joined (content v h) (content v h2) pos
  | OAppend h h2 mv => content v' h = joined (content v h) (content v h2) (size_of (content v h))
  | OPrepend h h2 mv => content v' h = joined (content v h) (content v h2) 0
  | OPart h h2 skip n => match content v h2 with
                         | Some c => skip <= length c -> content v' h = Some (slice c skip n)
                         | None => False
                         end
  | OWrite h bs => match buf v h with
                   | Some (_, l) => NoDup l -> content v' h = option_map (fun c => map Some bs ++ skipn (length bs) c) (content v h)
                   | None => content v' h = None
                   end
  | ORawTake | ORawRelease _ => True
  end.

(* variables that get another value, variables whose container changes *)
Definition assigned (op : bop) : list nat :=
  match op with
  | OTake h _ | OTakeReq h _ | OCreate h _ | OMakeEmpty h _ | OAssign h _ | ORelease h | ODup h _ | OCut h _ | OSetTotal h _ | OPart h _ _ _ => [h]
  | OMove h h2 => [h; h2]
  | OInsert h _ h2 mv | OAppend h h2 mv | OPrepend h h2 mv => if mv then [h; h2] else [h]
  | OWrite _ _ | ORawTake | ORawRelease _ => []
  end.
Definition changed (op : bop) : list nat :=
  match op with
  | OCut h _ | OSetTotal h _ => [h]
  | OInsert h _ h2 mv | OAppend h h2 mv | OPrepend h h2 mv => if mv then [h; h2] else [h]
  | _ => []
  end.
(* every other variable reads the same bytes as before *)
Definition content_frame (v : view) (op : bop) (v' : view) : Prop :=
  match op with OWrite _ _ => True | _ =>
    forall g, ~ In g (assigned op) -> (forall t, In t (changed op) -> handle v t = None \/ handle v g <> handle v t) ->
      content v' g = content v g
  end.
End S.
Arguments bop : clear implicits.
Arguments view : clear implicits.
