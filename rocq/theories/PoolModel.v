(* Model of dabc::MemoryPool and dabc::Buffer as a state machine:
   /repo/base/src/MemoryPool.cxx, /repo/base/src/Buffer.cxx,
   /repo/base/dabc/Buffer.h.

   A Buffer is a reference to a BufferContainer (shared by assignment); handles
   are the Buffer variables of the user.  Memory objects 0 .. n-1 are the pool
   blocks, later ones come from Buffer::CreateBuffer.

   Simplifications: one pool, allocated from the beginning; sizes and reference
   counters are unbounded; calls are atomic (a Buffer belongs to one
   thread, the pool functions lock its mutex); exceptions thrown out of
   destructors and by consistency checks are the outcome UB. *)
From Verif Require Import Common BufferSpec BufferModel PoolSpec.

(* fPool of a container: the pool, a MemoryContainer (Buffer.cxx:29-49) or nothing *)
Inductive owner := OPool | OExt (e : nat) | ONone.
Definition is_pool (o : owner) : bool := match o with OPool => true | _ => false end.

(* BufferContainer, Buffer.h:69-100: fSegm (fCapacity entries), fNumSegments, fPool *)
Record cont := mkC { c_arr : list seg; c_num : nat; c_owner : owner }.
Definition c_segs (c : cont) : list seg := firstn (c_num c) (c_arr c).
Definition c_cap (c : cont) : nat := length (c_arr c).

Section M.
Context {B : Type}.

(* s_size, s_refs: Entry::size and Entry::refcnt, MemoryPool.cxx:30-42; s_free: fFree;
   s_raw: ids taken by TakeRawBuffer and not yet given back *)
Record st := mkS {
  s_size : list nat; s_refs : list nat; s_free : list nat; s_raw : list nat;
  s_mem : memory B; s_conts : list (option cont); s_handles : list (option nat) }.

Definition with_pool (s : st) (refs free : list nat) : st :=
  mkS (s_size s) refs free (s_raw s) (s_mem s) (s_conts s) (s_handles s).
Definition with_mem (s : st) (m : memory B) : st :=
  mkS (s_size s) (s_refs s) (s_free s) (s_raw s) m (s_conts s) (s_handles s).
Definition with_conts (s : st) (c : list (option cont)) : st :=
  mkS (s_size s) (s_refs s) (s_free s) (s_raw s) (s_mem s) c (s_handles s).
Definition with_handles (s : st) (h : list (option nat)) : st :=
  mkS (s_size s) (s_refs s) (s_free s) (s_raw s) (s_mem s) (s_conts s) h.

(* Allocate, MemoryPool.cxx:76-105: all blocks free, in order *)
Definition init (blocks : list (list B)) (nh : nat) : st :=
  mkS (map (@length B) blocks) (repeat 0 (length blocks)) (seq 0 (length blocks)) []
      (map Some blocks) [] (repeat None nh).

(* IncreaseSegmRefs, 423-440.  "id > fNumber" lets id = fNumber pass: beyond the array *)
Fixpoint inc_refs (refs : list nat) (ids : list nat) : res (list nat) :=
  match ids with
  | [] => Ok refs
  | i :: r => match nth_error refs i with
              | Some n => inc_refs (upd refs i (n + 1)) r
              | None => UB
              end
  end.

(* DecreaseSegmRefs, 462-480 *)
Fixpoint dec_refs (refs free : list nat) (ids : list nat) : res (list nat * list nat) :=
  match ids with
  | [] => Ok (refs, free)
  | i :: r => match nth_error refs i with
              | Some (S n) => dec_refs (upd refs i n) (if n =? 0 then free ++ [i] else free) r
              | _ => UB
              end
  end.

(* first loop of _TakeBuffer, 355-366: number of blocks needed *)
Fixpoint take_count (sizes fr : list nat) (size sum : nat) : res (option nat) :=
  if sum <? size then
    match fr with
    | [] => Ok None
    | id :: r => match nth_error sizes id with
                 | None => UB
                 | Some z => do x <- take_count sizes r size (sum + z); Ok (option_map S x)
                 end
    end
  else Ok (Some 0).

(* second loop, 374-397 *)
Fixpoint take_pop (sizes refs fr : list nat) (size sum : nat) : res (list seg * list nat * list nat) :=
  if sum <? size then
    match fr with
    | [] => UB
    | id :: r =>
      match nth_error refs id, nth_error sizes id with
      | Some O, Some z =>
        do (segs, refs1, fr1) <- take_pop sizes (upd refs id 1) r size (sum + z);
        Ok (mkSeg id id 0 (if size - sum <? z then size - sum else z) :: segs, refs1, fr1)
      | _, _ => UB
      end
    end
  else Ok ([], refs, fr).

(* _TakeBuffer, 333-406, with reserve_memory: None = nothing available.
   Result: container of the new buffer *)
Definition take (s : st) (size : nat) : res (option (st * cont)) :=
  match s_free s with
  | [] => Ok None
  | f :: _ =>
    match (if size =? 0 then nth_error (s_size s) f else Some size) with
    | None => UB
    | Some size =>
      do c <- take_count (s_size s) (s_free s) size 0;
      match c with
      | None => Ok None
      | Some cnt =>
        do (segs, refs, free) <- take_pop (s_size s) (s_refs s) (s_free s) size 0;
        Ok (Some (with_pool s refs free,
                  mkC (segs ++ repeat seg0 ((if cnt <? 8 then 8 else cnt) - length segs)) (length segs) OPool))
      end
    end
  end.

(* ---- references ---- *)
Definition hnd (s : st) (h : nat) : option nat := nth h (s_handles s) None.
Definition getc (s : st) (k : nat) : option cont := nth k (s_conts s) None.

Definition owned_by (e : nat) (c : option cont) : bool :=
  match c with Some c => match c_owner c with OExt e' => e =? e' | _ => false end | None => false end.

(* ~BufferContainer, Buffer.cxx:53-72, and ~MemoryContainer, 42-48, with the last user *)
Definition destroy (s : st) (k : nat) : res st :=
  match getc s k with
  | None => UB
  | Some c =>
    let s1 := with_conts s (upd (s_conts s) k None) in
    match c_owner c with
    | OPool => do (refs, free) <- dec_refs (s_refs s) (s_free s) (map g_id (c_segs c)); Ok (with_pool s1 refs free)
    | OExt e => Ok (if existsb (owned_by e) (s_conts s1) then s1 else with_mem s1 (upd (s_mem s1) e None))
    | ONone => Ok s1
    end
  end.

(* Reference::Release, Reference.cxx:138-152: last reference destroys the container *)
Definition release (s : st) (h : nat) : res st :=
  match hnd s h with
  | None => Ok s
  | Some k => let s1 := with_handles s (upd (s_handles s) h None) in
              if refers (s_handles s1) k then Ok s1 else destroy s1 k
  end.

(* Reference::operator=, 64-73 *)
Definition set_handle (s : st) (h : nat) (k : option nat) : res st :=
  do s1 <- release s h; Ok (with_handles s1 (upd (s_handles s1) h k)).

(* AllocateContainer, Buffer.cxx:462-478, result assigned to a handle *)
Definition put_new (s : st) (h : nat) (c : cont) : res st :=
  set_handle (with_conts s (s_conts s ++ [Some c])) h (Some (length (s_conts s))).

Definition set_cont (s : st) (k : nat) (c : cont) : st := with_conts s (upd (s_conts s) k (Some c)).

(* ---- Buffer ---- *)
(* SetTotalSize, 99-136.  The cast of fPool to MemoryPool is not checked: a
   MemoryContainer is used as a pool *)
Definition set_total (s : st) (h len : nat) : res (st * bout) :=
  if len =? 0 then do s1 <- release s h; Ok (s1, RDone) else
  match hnd s h with
  | None => Ok (s, RDone)
  | Some k =>
    match getc s k with
    | None => UB
    | Some c =>
      if total (c_segs c) <? len then Ok (s, RThrown)
      else if len =? total (c_segs c) then Ok (s, RDone)
      else
        let (nseg, npos) := locate (c_segs c) len in
        if c_num c <=? nseg then Ok (s, RThrown) else
        let g := nth nseg (c_arr c) seg0 in
        let arr := if 0 <? npos then upd (c_arr c) nseg (mkSeg (g_id g) (g_obj g) (g_off g) npos) else c_arr c in
        let nseg := if 0 <? npos then S nseg else nseg in
        if nseg <? c_num c then
          do (refs, free) <- match c_owner c with
                             | OPool => dec_refs (s_refs s) (s_free s) (map g_id (skipn nseg (firstn (c_num c) arr)))
                             | OExt _ => UB
                             | ONone => Ok (s_refs s, s_free s)
                             end;
          Ok (set_cont (with_pool s refs free) k (mkC arr nseg (c_owner c)), RDone)
        else Ok (set_cont s k (mkC arr (c_num c) (c_owner c)), RDone)
    end
  end.

(* shift of the array, 155-156 *)
Fixpoint arr_shift (arr : list seg) (d : nat) (ns : list nat) : list seg :=
  match ns with
  | [] => arr
  | n :: r => arr_shift (upd arr n (nth (n + d) arr seg0)) d r
  end.

(* CutFromBegin, 139-169 *)
Definition cut (s : st) (h len : nat) : res (st * bout) :=
  if len =? 0 then Ok (s, RDone) else
  match hnd s h with
  | None => Ok (s, RDone)
  | Some k =>
    match getc s k with
    | None => UB
    | Some c =>
      if total (c_segs c) <=? len then do s1 <- release s h; Ok (s1, RDone) else
      let (nseg, npos) := locate (c_segs c) len in
      if c_num c <=? nseg then Ok (s, RThrown) else
      do (refs, free) <- (if (0 <? nseg) && is_pool (c_owner c)
                          then dec_refs (s_refs s) (s_free s) (map g_id (firstn nseg (c_arr c)))
                          else Ok (s_refs s, s_free s));
      let arr := if 0 <? nseg then arr_shift (c_arr c) nseg (seq 0 (c_num c - nseg)) else c_arr c in
      let g := nth 0 arr seg0 in
      let arr := if 0 <? npos then upd arr 0 (mkSeg (g_id g) (g_obj g) (g_off g + npos) (g_len g - npos)) else arr in
      Ok (set_cont (with_pool s refs free) k (mkC arr (c_num c - nseg) (c_owner c)), RDone)
    end
  end.

(* Duplicate, 192-212: the new container, nothing for a null buffer *)
Definition duplicate (s : st) (h2 : nat) : res (option (st * cont)) :=
  match hnd s h2 with
  | None => Ok None
  | Some k =>
    match getc s k with
    | None => UB
    | Some c =>
      do refs <- (if is_pool (c_owner c) then inc_refs (s_refs s) (map g_id (c_segs c)) else Ok (s_refs s));
      Ok (Some (with_pool s refs (s_free s),
                mkC (c_segs c ++ repeat seg0 (c_cap c - c_num c)) (c_num c) (c_owner c)))
    end
  end.

(* Insert, 225-314.  Loop 262-271, k segments from index lo on are moved by d *)
Fixpoint ins_move (k : nat) (arr : list seg) (lo d : nat) : list seg :=
  match k with
  | O => arr
  | S k => let n := lo + k in
           ins_move k (upd (upd arr (n + d) (nth n arr seg0)) n seg0) lo d
  end.
(* loop 275-278; [own] = None: the source is the target container itself *)
Fixpoint ins_copy (arr : list seg) (own : option (list seg)) (t : nat) (ns : list nat) : list seg :=
  match ns with
  | [] => arr
  | n :: r => ins_copy (upd arr (t + n) (nth n (match own with Some a => a | None => arr end) seg0)) own t r
  end.

(* array of the target after 255-294 *)
Definition ins_array (c : cont) (own : option (list seg)) (onum tgtseg tgtpos : nat) : list seg :=
  let e := if 0 <? tgtpos then 1 else 0 in
  let need := c_num c + onum + e in
  let arr := ins_move (c_num c - (tgtseg + e)) (c_arr c) (tgtseg + e) (need - c_num c) in
  let arr := ins_copy arr own (tgtseg + e) (seq 0 onum) in
  if 0 <? tgtpos then
    let g := nth tgtseg arr seg0 in
    let g2 := nth (tgtseg + onum + 1) arr seg0 in
    let arr := upd arr (tgtseg + onum + 1) (mkSeg (g_id g) (g_obj g) (g_off g + tgtpos) (g_len g - tgtpos)) in
    upd arr tgtseg (mkSeg (g_id g) (g_obj g) (g_off g) tgtpos)
  else arr.

(* ownbuf of Insert: a new container (deep copy or duplicate) or the one of src *)
Inductive ownbuf := OwnNew (c : cont) | OwnSrc.

Definition insert (s : st) (h pos h2 : nat) (mv : bool) : res (st * bout) :=
  match hnd s h2 with
  | None => Ok (s, RDone)
  | Some k2 =>
    match getc s k2 with
    | None => UB
    | Some c2 =>
      if total (c_segs c2) =? 0 then Ok (s, RDone) else
      match hnd s h with
      | None =>
        if mv then Ok (with_handles s (upd (upd (s_handles s) h2 None) h (Some k2)), RDone)
        else do d <- duplicate s h2;
             match d with Some (s1, c) => do s2 <- put_new s1 h c; Ok (s2, RDone) | None => UB end
      | Some k =>
        match getc s k with
        | None => UB
        | Some c =>
          do own <-
            (if is_pool (c_owner c) && negb (is_pool (c_owner c2)) then
               do t <- take s (total (c_segs c2));
               match t with
               | None => Ok None                   (* exception in TakeBuffer, a throw() function *)
               | Some (s1, oc) =>
                 do (m, _) <- copyfrom (s_mem s1) (ptr_buf (c_segs oc)) (ptr_buf (c_segs c2)) (total (c_segs c2));
                 Ok (Some (with_mem s1 m, OwnNew oc))
               end
             else if negb mv then
               do d <- duplicate s h2;
               match d with Some (s1, oc) => Ok (Some (s1, OwnNew oc)) | None => UB end
             else Ok (Some (s, OwnSrc)));
          match own with
          | None => Ok (s, RTerminate)
          | Some (s1, own) =>
            let oc := match own with OwnNew oc => oc | OwnSrc => c2 end in
            let oarr := match own with OwnNew oc => Some (c_arr oc) | OwnSrc => if k =? k2 then None else Some (c_arr c2) end in
            let (tgtseg, tgtpos) := locate (c_segs c) pos in
            let need := c_num c + c_num oc + (if 0 <? tgtpos then 1 else 0) in
            if c_cap c <? need then
              match own with
              | OwnNew oc =>
                if is_pool (c_owner oc)
                then do (refs, free) <- dec_refs (s_refs s1) (s_free s1) (map g_id (c_segs oc)); Ok (with_pool s1 refs free, RThrown)
                else Ok (s1, RThrown)
              | OwnSrc => Ok (s1, RThrown)
              end
            else
              let arr := ins_array c oarr (c_num oc) tgtseg tgtpos in
              do refs <- (if (0 <? tgtpos) && is_pool (c_owner c) then inc_refs (s_refs s1) [g_id (nth tgtseg (c_arr c) seg0)]
                          else Ok (s_refs s1));
              let s2 := set_cont (with_pool s1 refs (s_free s1)) k (mkC arr need (c_owner c)) in
              do s3 <-
                match own with
                | OwnNew oc =>     (* segments forgotten in a pool target, else released with ownbuf *)
                  if negb (is_pool (c_owner c)) && is_pool (c_owner oc)
                  then do (refs, free) <- dec_refs (s_refs s2) (s_free s2) (map g_id (c_segs oc)); Ok (with_pool s2 refs free)
                  else Ok s2
                | OwnSrc =>
                  if is_pool (c_owner c)
                  then match getc s2 k2 with
                       | Some c2' => Ok (set_cont s2 k2 (mkC (c_arr c2') 0 (c_owner c2')))
                       | None => UB
                       end
                  else Ok s2
                end;
              do s4 <- (if mv then release s3 h2 else Ok s3);
              Ok (s4, RDone)
          end
        end
      end
    end
  end.

(* an exception leaving a throw() function ends the process *)
Definition nothrow (x : res (st * bout)) : res (st * bout) :=
  do (s, o) <- x; Ok (s, match o with RThrown => RTerminate | _ => o end).

(* GetNextPart, 349-415, of a buffer other than null: pointer and container.
   The part gets a reference on the memory only if it is a pool: memory of
   CreateBuffer is used without ownership. *)
Definition next_part (s : st) (c : cont) (p : ptr) (len : nat) : res (st * ptr * option cont) :=
  do (q, r) <- get_next_part (c_segs c) p len true;
  match r with
  | None => Ok (s, q, None)
  | Some (first, cnt, segs) =>
    do refs <- (if is_pool (c_owner c) then inc_refs (s_refs s) (map g_id (firstn cnt (skipn first (c_arr c)))) else Ok (s_refs s));
    Ok (with_pool s refs (s_free s), q,
        Some (mkC (segs ++ repeat seg0 (c_cap c - length segs)) (length segs) (if is_pool (c_owner c) then OPool else ONone)))
  end.

Definition part (s : st) (h h2 skip len : nat) : res (st * bout) :=
  match hnd s h2 with
  | None => do s1 <- set_handle s h None; Ok (s1, RNothing)
  | Some k =>
    match getc s k with
    | None => UB
    | Some c =>
      let p := ptr_buf (c_segs c) in
      do (s1, p1) <-
        (if skip =? 0 then Ok (s, p)
         else do (s1, q, d) <- next_part s c p skip;      (* this part is released again *)
              match d with
              | Some d => if is_pool (c_owner d)
                          then do (refs, free) <- dec_refs (s_refs s1) (s_free s1) (map g_id (c_segs d)); Ok (with_pool s1 refs free, q)
                          else Ok (s1, q)
              | None => Ok (s1, q)
              end);
      do (s2, _, d) <- next_part s1 c p1 len;
      match d with
      | Some d => do s3 <- put_new s2 h d; Ok (s3, RDone)
      | None => do s3 <- set_handle s2 h None; Ok (s3, RNothing)
      end
    end
  end.

(* CopyFrom(Buffer(bs)): the source bytes live in an object of their own during the call *)
Definition write (s : st) (h : nat) (bs : list B) : res (st * bout) :=
  match hnd s h with
  | None => Ok (s, RDone)
  | Some k =>
    match getc s k with
    | None => UB
    | Some c =>
      if length bs =? 0 then Ok (s, RDone) else
      do (m, _) <- copyfrom (s_mem s ++ [Some bs]) (ptr_buf (c_segs c)) (ptr_mem (length (s_mem s), 0) (length bs)) (length bs);
      Ok (with_mem s (firstn (length (s_mem s)) m), RDone)
    end
  end.

Definition step (s : st) (op : bop B) : res (st * bout) :=
  match op with
  | OTake h n =>                           (* TakeBuffer, 409-420 *)
      do t <- take s n;
      match t with Some (s1, c) => do s2 <- put_new s1 h c; Ok (s2, RDone) | None => Ok (s, RTerminate) end
  | OTakeReq h n =>                        (* RecheckRequests, 551-557 *)
      do t <- take s n;
      match t with Some (s1, c) => do s2 <- put_new s1 h c; Ok (s2, RDone)
                 | None => do s1 <- set_handle s h None; Ok (s1, RNothing) end
  | OCreate h bs =>                        (* CreateBuffer, Buffer.cxx:424-448 *)
      let e := length (s_mem s) in
      do s1 <- put_new (with_mem s (s_mem s ++ [Some bs])) h
                 (mkC (mkSeg 0 e 0 (length bs) :: repeat seg0 7) 1 (OExt e));
      Ok (s1, RDone)
  | OMakeEmpty h cap =>                    (* MakeEmpty, Buffer.h:216 *)
      do s1 <- put_new s h (mkC (repeat seg0 cap) 0 ONone); Ok (s1, RDone)
  | OAssign h h2 => do s1 <- set_handle s h (hnd s h2); Ok (s1, RDone)
  | OMove h h2 =>                          (* operator<<, Reference.cxx:88-100 *)
      do s1 <- set_handle s h (hnd s h2); Ok (with_handles s1 (upd (s_handles s1) h2 None), RDone)
  | ORelease h => do s1 <- release s h; Ok (s1, RDone)
  | ODup h h2 =>
      do d <- duplicate s h2;
      match d with Some (s1, c) => do s2 <- put_new s1 h c; Ok (s2, RDone)
                 | None => do s1 <- set_handle s h None; Ok (s1, RDone) end
  | OCut h n => cut s h n
  | OSetTotal h n => set_total s h n
  | OInsert h pos h2 mv => insert s h pos h2 mv
  | OAppend h h2 mv =>                     (* 215-218 *)
      let len := match hnd s h with Some k => match getc s k with Some c => total (c_segs c) | None => 0 end | None => 0 end in
      nothrow (insert s h len h2 mv)
  | OPrepend h h2 mv => nothrow (insert s h 0 h2 mv)      (* 220-223 *)
  | OPart h h2 skip n => part s h h2 skip n
  | OWrite h bs => write s h bs
  | ORawTake =>                            (* TakeRawBuffer, MemoryPool.cxx:318-324 *)
      match s_free s with
      | [] => Ok (s, RNothing)
      | i :: r => Ok (mkS (s_size s) (s_refs s) r (s_raw s ++ [i]) (s_mem s) (s_conts s) (s_handles s), RDone)
      end
  | ORawRelease i =>                       (* ReleaseRawBuffer, 326-330 *)
      Ok (mkS (s_size s) (s_refs s) (s_free s ++ [i]) (remove Nat.eq_dec i (s_raw s)) (s_mem s) (s_conts s) (s_handles s), RDone)
  end.

(* a history of calls; it stops when the process ends *)
Fixpoint run (s : st) (ops : list (bop B)) : res (st * list bout) :=
  match ops with
  | [] => Ok (s, [])
  | op :: r =>
    do (s1, o) <- step s op;
    match o with
    | RTerminate => Ok (s1, [o])
    | _ => do (s2, os) <- run s1 r; Ok (s2, o :: os)
    end
  end.

(* what the user sees *)
Definition view_of (s : st) : view B :=
  mkV (s_handles s)
      (map (option_map (fun c => (is_pool (c_owner c), locs_of (c_segs c)))) (s_conts s))
      (mget (s_mem s)).
End M.
Arguments st : clear implicits.
