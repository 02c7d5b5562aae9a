(* Model of dabc::MemSegment lists and dabc::Pointer:
   /repo/base/dabc/Buffer.h, /repo/base/src/Buffer.cxx,
   /repo/base/dabc/Pointer.h, /repo/base/src/Pointer.cxx.

   Simplifications: sizes are unbounded numbers (trusted: no buffer reaches
   2^32 bytes); unsigned underflow of a size and the end of the process by an
   exception leaving a throw() function are the outcome UB. *)
From Verif Require Import Common BufferSpec.

(* MemSegment, Buffer.h:53-63; "buffer" is an object and an offset in it *)
Record seg := mkSeg { g_id : nat; g_obj : nat; g_off : nat; g_len : nat }.
Definition seg0 := mkSeg 0 0 0 0.

(* GetTotalSize, Buffer.cxx:91-97 *)
Fixpoint total (l : list seg) : nat := match l with [] => 0 | g :: r => g_len g + total r end.

(* all byte locations of a segment list, in order *)
Definition locs_of (l : list seg) : list loc := flat_map (fun g => range (g_obj g) (g_off g) (g_len g)) l.

(* Locate, 172-189: segment index and shift inside it; p is the distance p - curr *)
Fixpoint locate_from (l : list seg) (i p : nat) : nat * nat :=
  match l with
  | [] => (i, 0)
  | g :: r => if 0 <? p
              then (if g_len g <=? p then locate_from r (S i) (p - g_len g) else (i, p))
              else (i, 0)
  end.
Definition locate (l : list seg) (p : nat) : nat * nat := locate_from l 0 p.

Section Mem.
Context {B : Type}.
Notation memory := (memory B).

(* n bytes at (o, f); None when outside of a live object *)
Definition mread (m : memory) (a : loc) (n : nat) : option (list B) :=
  match nth_error m (fst a) with
  | Some (Some l) => if snd a + n <=? length l then Some (slice l (snd a) n) else None
  | _ => None
  end.
Definition mwrite (m : memory) (a : loc) (bs : list B) : option memory :=
  match nth_error m (fst a) with
  | Some (Some l) => if snd a + length bs <=? length l
                     then Some (upd m (fst a) (Some (firstn (snd a) l ++ bs ++ skipn (snd a + length bs) l)))
                     else None
  | _ => None
  end.

(* memcpy: overlapping areas are undefined *)
Definition overlap (a b : loc) (n : nat) : bool :=
  (fst a =? fst b) && (snd a <? snd b + n) && (snd b <? snd a + n).
Definition memcpy (m : memory) (tgt src : option loc) (n : nat) : res memory :=
  if n =? 0 then Ok m else
  match tgt, src with
  | Some t, Some s =>
    if overlap t s n then UB else
    match mread m s n with
    | None => UB
    | Some bs => match mwrite m t bs with Some m1 => Ok m1 | None => UB end
    end
  | _, _ => UB
  end.

End Mem.

(* Pointer, Pointer.h:39-43; p_segs is the segment list of fBuf, None = no buffer *)
Record ptr := mkPtr { p_segs : option (list seg); p_seg : nat; p_at : option loc; p_raw : nat; p_full : nat }.

(* reset(), Pointer.h:136-143 *)
Definition ptr_null := mkPtr None 0 None 0 0.
(* Pointer(void*, size), 57-64 *)
Definition ptr_mem (a : loc) (sz : nat) := mkPtr None 0 (Some a) sz sz.
(* Pointer(Buffer), 77-97, and reset(Buffer), 119-134, without position *)
Definition ptr_buf (l : list seg) : ptr :=
  if 0 <? total l
  then match l with
       | g :: _ => mkPtr (Some l) 0 (Some (g_obj g, g_off g)) (g_len g) (total l)
       | [] => mkPtr (Some l) 0 None 0 0
       end
  else mkPtr (Some l) 0 None 0 0.

Definition bufsegs (p : ptr) : list seg := match p_segs p with Some l => l | None => [] end.

Definition move (a : option loc) (n : nat) : option loc :=
  match a with Some (o, f) => Some (o, f + n) | None => None end.

(* loop of long_shift, Pointer.cxx:40-44, over the segments from index k on *)
Fixpoint ls_loop (l : list seg) (k len full : nat) : res (option seg * nat * nat * nat) :=
  match l with
  | [] => Ok (None, k, len, full)
  | g :: r => if g_len g <? len
              then (if full <? g_len g then UB else ls_loop r (S k) (len - g_len g) (full - g_len g))
              else Ok (Some g, k, len, full)
  end.

(* long_shift, Pointer.cxx:25-52 *)
Definition long_shift (p : ptr) (len : nat) : res ptr :=
  if p_full p =? len then Ok (mkPtr (p_segs p) (p_seg p) (move (p_at p) len) 0 0)
  else if (p_full p <? p_raw p) || (len <? p_raw p) then UB
  else
    do (g, k, len1, full1) <- ls_loop (skipn (S (p_seg p)) (bufsegs p)) (S (p_seg p)) (len - p_raw p) (p_full p - p_raw p);
    match g with
    | None => UB                        (* exception out of a throw() function *)
    | Some g => if full1 <? len1 then UB
                else Ok (mkPtr (p_segs p) k (Some (g_obj g, g_off g + len1)) (g_len g - len1) (full1 - len1))
    end.

(* shift, Pointer.h:153-166: new pointer and the returned number *)
Definition shift (p : ptr) (sz : nat) : res (ptr * nat) :=
  if sz <? p_raw p then
    if p_full p <? sz then UB
    else Ok (mkPtr (p_segs p) (p_seg p) (move (p_at p) sz) (p_raw p - sz) (p_full p - sz), sz)
  else if p_full p <? sz then Ok (ptr_null, p_full p)
  else do q <- long_shift p sz; Ok (q, sz).

(* setfullsize, Pointer.h:168-174 *)
Definition setfullsize (p : ptr) (sz : nat) : ptr :=
  if sz <? p_full p then mkPtr (p_segs p) (p_seg p) (p_at p) (if sz <? p_raw p then sz else p_raw p) sz else p.

Section Copy.
Context {B : Type}.

(* loop of copyfrom, Pointer.cxx:77-88; every turn copies at least one byte *)
Fixpoint copy_loop (fuel : nat) (m : memory B) (tgt src : ptr) (sz rs : nat) : res (memory B * nat) :=
  if sz =? 0 then Ok (m, rs)
  else match fuel with
  | O => Loop
  | S fuel =>
    let n0 := if p_raw tgt <? p_raw src then p_raw tgt else p_raw src in
    let n := if sz <? n0 then sz else n0 in
    if n =? 0 then Ok (m, rs)
    else
      do m1 <- memcpy m (p_at tgt) (p_at src) n;
      do (tgt1, _) <- shift tgt n;
      do (src1, _) <- shift src n;
      copy_loop fuel m1 tgt1 src1 (sz - n) (rs + n)
  end.

(* copyfrom(Pointer, sz), Pointer.cxx:54-91 *)
Definition copyfrom (m : memory B) (tgt src : ptr) (sz : nat) : res (memory B * nat) :=
  let sz := if sz =? 0 then p_full src else sz in
  if (sz <=? p_raw tgt) && (sz <=? p_raw src)
  then do m1 <- memcpy m (p_at tgt) (p_at src) sz; Ok (m1, sz)
  else
    let sz := if p_full src <? sz then p_full src else sz in
    let sz := if p_full tgt <? sz then p_full tgt else sz in
    copy_loop sz m tgt src sz 0.

(* copyto(void*, sz), Pointer.cxx:98-108 *)
Definition copyto_mem (m : memory B) (src : ptr) (a : loc) (sz : nat) : res (memory B * nat) :=
  if sz =? 0 then Ok (m, 0)
  else if sz <=? p_raw src then do m1 <- memcpy m (Some a) (p_at src) sz; Ok (m1, sz)
  else copyfrom m (ptr_mem a sz) src sz.

End Copy.

(* GetNextPart, Buffer.cxx:349-415.
   Loop 355-358 for parts that must not be segmented. *)
Fixpoint gnp_skip (fuel : nat) (p : ptr) (len : nat) : res ptr :=
  if len <=? p_raw p then Ok p
  else match fuel with
  | O => Loop
  | S fuel => do (q, _) <- shift p (p_raw p);
              if p_full q <? len then Ok q else gnp_skip fuel q len
  end.

(* first segment, its pointer and length, last segment and length *)
Record gnp := mkG { n_first : nat; n_ptr : option loc; n_flen : nat; n_last : nat; n_llen : nat }.

(* loop 366-382 *)
Fixpoint gnp_loop (fuel : nat) (nseg : nat) (p : ptr) (len : nat) (r : gnp) : res (ptr * nat * gnp) :=
  if (0 <? len) && (p_seg p <? nseg) then
    match fuel with
    | O => Loop
    | S fuel =>
      let part := if p_raw p <? len then p_raw p else len in
      if part =? 0 then Ok (p, len, r)
      else
        let r1 := match n_ptr r with
                  | None => mkG (p_seg p) (p_at p) part (p_seg p) part
                  | Some _ => mkG (n_first r) (n_ptr r) (n_flen r) (p_seg p) part
                  end in
        do (q, _) <- shift p part;
        gnp_loop fuel nseg q (len - part) r1
    end
  else Ok (p, len, r).

(* 392-404: copied segment descriptors, first and last adjusted.
   A part of length 0 keeps the descriptor of segment 0 with length 0. *)
Definition gnp_segs (segs : list seg) (r : gnp) : list seg :=
  map (fun n =>
         let g := nth n segs seg0 in
         let g := if n =? n_first r
                  then match n_ptr r with
                       | Some (o, f) => mkSeg (g_id g) o f (n_flen r)
                       | None => mkSeg (g_id g) (g_obj g) (g_off g) (n_flen r)
                       end
                  else g in
         if n =? n_last r then mkSeg (g_id g) (g_obj g) (g_off g) (n_llen r) else g)
      (seq (n_first r) (n_last r + 1 - n_first r)).

(* new pointer and, when a part is delivered, the range of used segments of
   the source and the segments of the part *)
Definition get_next_part (segs : list seg) (p : ptr) (len : nat) (allowseg : bool)
  : res (ptr * option (nat * nat * list seg)) :=
  if p_full p <? len then Ok (p, None)
  else
    do p1 <- (if allowseg then Ok p else gnp_skip (S (length segs)) p len);
    if p_full p1 <? len then Ok (p1, None)
    else
      do (p2, rest, r) <- gnp_loop (S (length segs)) (length segs) p1 len (mkG 0 None 0 0 0);
      if 0 <? rest then Ok (p2, None)
      else Ok (p2, Some (n_first r, n_last r + 1 - n_first r, gnp_segs segs r)).

(* a user takes consecutive parts: one pointer, a list of lengths *)
Fixpoint take_parts (segs : list seg) (p : ptr) (lens : list nat) (allowseg : bool) : res (ptr * list (option (list seg))) :=
  match lens with
  | [] => Ok (p, [])
  | n :: r =>
    do (q, o) <- get_next_part segs p n allowseg;
    do (q2, os) <- take_parts segs q r allowseg;
    Ok (q2, option_map (fun x => snd x) o :: os)
  end.

(* a user moves a pointer: shift(n) or setfullsize(n) *)
Fixpoint run_moves (p : ptr) (l : list pmove) : res ptr :=
  match l with
  | [] => Ok p
  | MShift n :: r => do (q, _) <- shift p n; run_moves q r
  | MLimit n :: r => run_moves (setfullsize p n) r
  end.
