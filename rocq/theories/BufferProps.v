(* Properties C16, C17: parts of segmented buffers, pointer access. *)
From Verif Require Import Common ListFacts BufferSpec BufferModel BufferProofs BufferRuns.

(* C16.  Missing for the full property: empty segments and length 0 (refuted below).
   Any segmentation without empty segments, any list of positive lengths: the
   parts are exactly the successive pieces of the source, a request that does not
   fit delivers nothing and takes nothing. *)
Theorem C16_parts_tile_partial :
  forall (segs : list seg) (lens : list nat),
    Forall (fun g => 0 < g_len g) segs -> Forall (fun n => 0 < n) lens ->
    exists q out, take_parts segs (ptr_buf segs) lens true = Ok (q, out) /\
      map (option_map locs_of) out = fst (parts_of (locs_of segs) lens) /\
      p_full q = length (snd (parts_of (locs_of segs) lens)).
Proof. exact parts_tile. Qed.
Print Assumptions C16_parts_tile_partial.

(* hence without refused requests the parts put together are the source *)
Theorem C16_parts_cover_partial :
  forall (segs : list seg) (lens : list nat),
    Forall (fun g => 0 < g_len g) segs -> Forall (fun n => 0 < n) lens ->
    list_sum lens = length (locs_of segs) ->
    exists q out, take_parts segs (ptr_buf segs) lens true = Ok (q, map Some out) /\
      concat (map locs_of out) = locs_of segs /\ map total out = lens /\ p_full q = 0.
Proof. exact parts_cover. Qed.
Print Assumptions C16_parts_cover_partial.

(* parts that must be contiguous: every part is one segment, taken in order;
   bytes in front of it are skipped only where no contiguous stretch of the requested
   length begins *)
Theorem C16_contiguous_part_partial :
  forall (segs : list seg) (lens : list nat) (n : nat),
    Forall (fun g => 0 < g_len g) segs -> Forall (fun n => 0 < n) lens -> 0 < n ->
    exists q out P, take_parts segs (ptr_buf segs) lens false = Ok (q, out) /\
      P + p_full q = length (locs_of segs) /\
      exists q' o P', get_next_part segs q n false = Ok (q', o) /\ P <= P' /\
        (forall x, P <= x < P' -> 
             ~ exists pre g post i, segs = pre ++ g :: post /\ x = total pre + i /\ i + n <= g_len g) /\
        match o with
        | Some (_, _, part) => exists g, part = [g] /\ g_len g = n /\ locs_of part = slice (locs_of segs) P' n /\
                                 P' + n + p_full q' = length (locs_of segs)
        | None => length (locs_of segs) - P' < n
        end.
Proof. exact contiguous_part. Qed.
Print Assumptions C16_contiguous_part_partial.

Example C16_case :
  let segs := [mkSeg 3 3 0 4; mkSeg 7 7 2 5; mkSeg 3 3 6 2] in
  match take_parts segs (ptr_buf segs) [3; 5; 9; 3] true with
  | Ok (q, out) => map (option_map (map (fun g => (g_id g, g_off g, g_len g)))) out
                   = [Some [(3, 0, 3)]; Some [(3, 3, 1); (7, 2, 4)]; None; Some [(7, 6, 1); (3, 6, 2)]] /\ p_full q = 0
  | _ => False
  end /\
  match take_parts segs (ptr_buf segs) [3; 3; 2] false with
  | Ok (q, out) => map (option_map (map (fun g => (g_id g, g_off g, g_len g)))) out
                   = [Some [(3, 0, 3)]; Some [(7, 2, 3)]; Some [(7, 5, 2)]] /\ p_full q = 2
  | _ => False
  end.
Proof. vm_compute. auto. Qed.

(* both restrictions are needed.  An empty segment in the middle: a request
   that fits is refused ("not full length covered") although it moved the pointer *)
Theorem C16_empty_segment_refuted :
  exists segs lens, list_sum lens = length (locs_of segs) /\ Forall (fun n => 0 < n) lens /\
    exists q, take_parts segs (ptr_buf segs) lens true = Ok (q, [None]) /\ 0 < p_full q < length (locs_of segs).
Proof.
  exists [mkSeg 0 0 0 4; mkSeg 1 1 0 0; mkSeg 2 2 0 4], [8]. split; [reflexivity|]. split; [repeat constructor|].
  eexists. split; [vm_compute; reflexivity|]. cbn. lia.
Qed.
Print Assumptions C16_empty_segment_refuted.

(* length 0 is documented (Buffer.h:278) as "rest size of current segment"; the
   part delivered is empty and does not move the pointer *)
Theorem C16_length_zero_refuted :
  exists segs q part, take_parts segs (ptr_buf segs) [0] true = Ok (q, [Some part]) /\
    locs_of part = [] /\ p_raw q = 4 /\ Forall (fun g => 0 < g_len g) segs.
Proof.
  exists [mkSeg 0 0 0 4; mkSeg 1 1 0 4]. eexists _, _. split; [vm_compute; reflexivity|]. repeat constructor; cbn; lia.
Qed.
Print Assumptions C16_length_zero_refuted.

(* C17.  Copy between two pointers, each standing where a sequence of shift and
   setfullsize calls brought it: exactly the n bytes at the positions are
   transferred, every other byte stays.  Missing for the full property: shifts
   that end on a segment end behind the current segment, and empty
   segments (refuted below). *)
Theorem C17_pointer_copy_partial :
  forall (B : Type) (m : memory B) (ts ss : list seg) (tm sm : list pmove) (P P' F F' n : nat),
    Forall (fun g => 0 < g_len g) ts -> Forall (fun g => 0 < g_len g) ss ->
    position (map g_len ts) 0 (total ts) tm = Some (P, F) -> position (map g_len ss) 0 (total ss) sm = Some (P', F') ->
    0 < n <= F -> n <= F' ->
    NoDup (slice (locs_of ts) P n) ->
    (forall a, In a (slice (locs_of ts) P n) -> ~ In a (slice (locs_of ss) P' n)) ->
    (forall a, In a (slice (locs_of ts) P n) \/ In a (slice (locs_of ss) P' n) -> mget m a <> None) ->
    exists pt ps m', run_moves (ptr_buf ts) tm = Ok pt /\ run_moves (ptr_buf ss) sm = Ok ps /\
      copyfrom m pt ps n = Ok (m', n) /\
      map (mget m') (slice (locs_of ts) P n) = map (mget m) (slice (locs_of ss) P' n) /\
      (forall a, ~ In a (slice (locs_of ts) P n) -> mget m' a = mget m a).
Proof. exact @pointer_copy. Qed.
Print Assumptions C17_pointer_copy_partial.

(* the same for reading into plain memory, copyto(void*, n) *)
Theorem C17_pointer_read_partial :
  forall (B : Type) (m : memory B) (ss : list seg) (sm : list pmove) (P F n o f : nat),
    Forall (fun g => 0 < g_len g) ss -> position (map g_len ss) 0 (total ss) sm = Some (P, F) -> n <= F ->
    (forall a, In a (range o f n) -> ~ In a (slice (locs_of ss) P n)) ->
    (forall a, In a (range o f n) \/ In a (slice (locs_of ss) P n) -> mget m a <> None) ->
    exists ps m', run_moves (ptr_buf ss) sm = Ok ps /\ copyto_mem m ps (o, f) n = Ok (m', n) /\
      map (mget m') (range o f n) = map (mget m) (slice (locs_of ss) P n) /\
      (forall a, ~ In a (range o f n) -> mget m' a = mget m a).
Proof. exact @pointer_read. Qed.
Print Assumptions C17_pointer_read_partial.

Example C17_case :
  let m := [Some [1;2;3;4]; Some [5;6;7;8]; Some [9;10;11;12]; Some [0;0;0]; Some [0;0;0;0]] in
  let ss := [mkSeg 0 0 0 4; mkSeg 1 1 0 4; mkSeg 2 2 0 4] in
  let ts := [mkSeg 3 3 0 3; mkSeg 4 4 0 4] in
  position (map g_len ss) 0 12 [MShift 3; MLimit 8; MShift 2] = Some (5, 6) /\
  position (map g_len ts) 0 7 [MShift 1] = Some (1, 6) /\
  match run_moves (ptr_buf ts) [MShift 1], run_moves (ptr_buf ss) [MShift 3; MLimit 8; MShift 2] with
  | Ok pt, Ok ps => copyfrom m pt ps 5 =
      Ok ([Some [1;2;3;4]; Some [5;6;7;8]; Some [9;10;11;12]; Some [0;6;7]; Some [8;9;10;0]], 5)
  | _, _ => False
  end.
Proof. vm_compute. auto. Qed.

(* three segments of 4 bytes: after shift(8) 4 bytes are left, but reading them
   copies nothing; shift(4); shift(4) in its place reads them *)
Theorem C17_border_refuted :
  exists (m : memory nat) (segs : list seg),
    Forall (fun g => 0 < g_len g) segs /\
    (exists p, run_moves (ptr_buf segs) [MShift 8] = Ok p /\ p_full p = 4 /\ copyto_mem m p (3, 0) 4 = Ok (m, 0)) /\
    (exists p m', run_moves (ptr_buf segs) [MShift 4; MShift 4] = Ok p /\ p_full p = 4 /\ copyto_mem m p (3, 0) 4 = Ok (m', 4) /\ m' <> m).
Proof.
  exists [Some [1;2;3;4]; Some [5;6;7;8]; Some [9;10;11;12]; Some [0;0;0;0]], [mkSeg 0 0 0 4; mkSeg 1 1 0 4; mkSeg 2 2 0 4].
  split; [repeat constructor|]. split.
  - eexists. vm_compute. auto.
  - eexists _, _. split; [vm_compute; reflexivity|]. split; [reflexivity|]. split; [vm_compute; reflexivity|]. discriminate.
Qed.
Print Assumptions C17_border_refuted.

(* the limit of setfullsize is lost at a border: with 2 of 6 bytes left, 3
   bytes are copied, and a shift by 3 makes the size wrap around *)
Theorem C17_limit_refuted :
  exists (m : memory nat) (segs : list seg) p m',
    Forall (fun g => 0 < g_len g) segs /\
    run_moves (ptr_buf segs) [MLimit 6; MShift 4] = Ok p /\ p_full p = 2 /\
    copyto_mem m p (2, 0) 3 = Ok (m', 3) /\ shift p 3 = UB.
Proof.
  exists [Some [1;2;3;4]; Some [5;6;7;8]; Some [0;0;0]], [mkSeg 0 0 0 4; mkSeg 1 1 0 4]. eexists _, _.
  split; [repeat constructor|]. split; [vm_compute; reflexivity|]. vm_compute. auto.
Qed.
Print Assumptions C17_limit_refuted.

(* an empty segment in front: nothing is copied *)
Theorem C17_empty_segment_refuted :
  exists (m : memory nat) (segs : list seg),
    p_full (ptr_buf segs) = 4 /\ copyto_mem m (ptr_buf segs) (2, 0) 4 = Ok (m, 0).
Proof. exists [Some []; Some [5;6;7;8]; Some [0;0;0;0]], [mkSeg 0 0 0 0; mkSeg 1 1 0 4]. vm_compute. auto. Qed.
Print Assumptions C17_empty_segment_refuted.
