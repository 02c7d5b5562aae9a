(* Properties C13, C14, C15: memory pool, composition of buffers. *)
From Verif Require Import Common ListFacts BufferSpec BufferModel PoolSpec PoolModel PoolRuns PoolContent PoolFinal.
Require Import Permutation.

(* [reach blocks nh s]: state reached from a pool with the given blocks and nh buffer
   variables, by calls covered by op_ok (PoolSpec.v). *)

(* C13.  Missing for the full property: insertions into buffers that do not belong
   to the pool, moving insertions of a container into itself, parts of buffers
   that do not belong to the pool (refuted below).
   A block is free (once) or lent as raw buffer exactly if no existing buffer uses a byte of it;
   its reference counter is the number of buffer segments on it; free and lent blocks
   are the blocks with counter 0. *)
Theorem C13_accounting_partial :
  forall (B : Type) (blocks : list (list B)) (nh : nat) (s : st B),
    Forall (fun b => b <> []) blocks -> reach blocks nh s ->
    NoDup (s_free s ++ s_raw s) /\
    (forall i, In i (s_free s ++ s_raw s) <-> i < length blocks /\ ~ exists f, used (view_of s) (i, f)) /\
    (forall i, nth i (s_refs s) 0 = list_sum (map (fun x => match x with
        | Some c => if is_pool (c_owner c) then count_occ Nat.eq_dec (map g_id (c_segs c)) i else 0
        | None => 0 end) (s_conts s))) /\
    Permutation (s_free s ++ s_raw s) (filter (fun i => nth i (s_refs s) 0 =? 0) (seq 0 (length blocks))).
Proof. exact @accounting. Qed.
Print Assumptions C13_accounting_partial.

(* Every covered call is free of undefined behaviour.  It ends the process only for a
   reason given by [ends]; otherwise it has the effect of step_rel - new memory is
   not used by any existing buffer - and leaves no dangling memory, no dangling handle
   and no container without handle. *)
Theorem C13_calls_partial :
  forall (B : Type) (blocks : list (list B)) (nh : nat) (s : st B) (op : bop B),
    Forall (fun b => b <> []) blocks -> reach blocks nh s -> op_ok (view_of s) (s_raw s) op ->
    exists s' o, step s op = Ok (s', o) /\
      ((o = RTerminate /\ ends s op) \/ (sound (view_of s') /\ step_rel (view_of s) op o (view_of s'))).
Proof. exact @step_total. Qed.
Print Assumptions C13_calls_partial.

Ltac fwd x R :=
  eapply reach_step with (op := x) (o := RDone) in R;
  [|vm_compute; repeat split; try lia; try discriminate|vm_compute; reflexivity|discriminate].

(* two blocks, three variables: a buffer over both, a duplicate, a part of it *)
Definition pool2 : list (list nat) := [[1; 2; 3]; [4; 5; 6; 7]].
Definition hist1 : list (bop nat) := [OTake 0 5; ODup 1 0; OPart 2 1 2 2; OCut 1 4; ORelease 0].
Example C13_case : exists s os, run (init pool2 3) hist1 = Ok (s, os) /\ reach pool2 3 s /\
  s_free s = [] /\ s_refs s = [1; 2] /\
  content (view_of s) 1 = Some [Some 5] /\ content (view_of s) 2 = Some [Some 3; Some 4].
Proof.
  pose proof (reach_init pool2 3) as R.
  fwd (@OTake nat 0 5) R. fwd (@ODup nat 1 0) R. fwd (@OPart nat 2 1 2 2) R. fwd (@OCut nat 1 4) R. fwd (@ORelease nat 0) R.
  eexists _, _. split; [vm_compute; reflexivity|]. split; [exact R|vm_compute; auto].
Qed.

(* Refuted for the way of use recommended in Buffer.h (MakeEmpty, then Append): the container has no pool, so
   the blocks go back to the pool while the composed buffer still uses them,
   and are handed out again. *)
Theorem C13_make_empty_refuted :
  exists (ops : list (bop nat)) s os, run (init pool2 4) ops = Ok (s, os) /\ ~ In RTerminate os /\ ~ In RThrown os /\
    (forall op, In op ops -> match op with OTake _ _ | OMakeEmpty _ _ | OAppend _ _ true => True | _ => False end) /\
    exists l1 l3 a, buf (view_of s) 1 = Some (false, l1) /\ buf (view_of s) 3 = Some (true, l3) /\ In a l1 /\ In a l3.
Proof.
  exists [OTake 0 3; OMakeEmpty 1 8; OAppend 1 0 true; OTake 2 4; OTake 3 3]. eexists _, _.
  split; [vm_compute; reflexivity|]. split; [cbn; intuition discriminate|]. split; [cbn; intuition discriminate|].
  split. { intros op [<-|[<-|[<-|[<-|[<-|[]]]]]]; exact I. }
  eexists _, _, (0, 0). vm_compute. auto.
Qed.
Print Assumptions C13_make_empty_refuted.

(* Refuted: a buffer appended to itself with its references moved: the block is lost. *)
Theorem C13_self_append_refuted :
  exists (ops : list (bop nat)) s os, run (init pool2 1) ops = Ok (s, os) /\ ~ In RTerminate os /\
    buf (view_of s) 0 = None /\ s_conts s = [None] /\ s_free s = [1] /\ s_raw s = [].
Proof.
  exists [OTake 0 3; OAppend 0 0 true]. eexists _, _. split; [vm_compute; reflexivity|]. split; [cbn; intuition discriminate|]. vm_compute. auto.
Qed.
Print Assumptions C13_self_append_refuted.

(* C14.  What the pool delivers, for any state and any positive size: exactly n bytes from the first
   blocks of the free list, not used by any buffer, or nothing at all, and
   then the free blocks together are smaller than n.  Memory below 2^32 bytes. *)
Theorem C14_take_size_partial :
  forall (B : Type) (blocks : list (list B)) (nh : nat) (s : st B) (n : nat),
    Forall (fun b => b <> []) blocks -> reach blocks nh s -> 0 < n ->
    exists o, take s n = Ok o /\
      match o with
      | None => list_sum (map (fun i => length (nth i blocks [])) (s_free s)) < n
      | Some (s1, c) => n <= list_sum (map (fun i => length (nth i blocks [])) (s_free s)) /\
          length (locs_of (c_segs c)) = n /\ fresh (view_of s) (locs_of (c_segs c)) /\ s_free s = map g_id (c_segs c) ++ s_free s1 /\
          s1 = with_pool s (s_refs s1) (s_free s1)
      end.
Proof. exact @take_exact. Qed.
Print Assumptions C14_take_size_partial.

Example C14_case :
  (exists s c, take (init pool2 1) 5 = Ok (Some (s, c)) /\ locs_of (c_segs c) = [(0, 0); (0, 1); (0, 2); (1, 0); (1, 1)]) /\
  take (init pool2 1) 8 = Ok None.
Proof. split; [eexists _, _; split; vm_compute; reflexivity|vm_compute; reflexivity]. Qed.

(* Refuted for TakeBuffer: the missing memory is reported by an exception, but
   the function is declared throw(), so the process ends. *)
Theorem C14_take_buffer_refuted :
  exists s : st nat, step (init pool2 1) (OTake 0 8) = Ok (s, RTerminate).
Proof. eexists. vm_compute. reflexivity. Qed.
Print Assumptions C14_take_buffer_refuted.

(* C15.  Same restrictions as C13.  A successful call has the effect of content_rel on
   the bytes read through its target, and every variable that is not assigned
   and shares no container with the target reads the same bytes as before. *)
Theorem C15_content_partial :
  forall (B : Type) (blocks : list (list B)) (nh : nat) (s s' : st B) (op : bop B),
    Forall (fun b => b <> []) blocks -> reach blocks nh s -> op_ok (view_of s) (s_raw s) op -> step s op = Ok (s', RDone) ->
    content_rel (view_of s) op (view_of s') /\ content_frame (view_of s) op (view_of s').
Proof. exact @content_after. Qed.
Print Assumptions C15_content_partial.

(* Append of pool buffers succeeds whenever the target container has place for the segments *)
Theorem C15_append_fits_partial :
  forall (B : Type) (blocks : list (list B)) (nh : nat) (s : st B) h h2 mv k k2 c c2,
    Forall (fun b => b <> []) blocks -> reach blocks nh s ->
    h < nh -> h2 < nh -> hnd s h = Some k -> hnd s h2 = Some k2 -> getc s k = Some c -> getc s k2 = Some c2 ->
    c_owner c = OPool -> c_owner c2 = OPool -> (mv = true -> k <> k2) -> c_num c + c_num c2 <= c_cap c ->
    exists s', step s (OAppend h h2 mv) = Ok (s', RDone).
Proof. exact @append_fits. Qed.
Print Assumptions C15_append_fits_partial.

(* insertion in the middle of a block, from the pool and from other memory *)
Definition hist2 : list (bop nat) := [OTake 0 3; OTake 1 2; OInsert 0 1 1 true].
Example C15_case : exists s os, run (init pool2 3) hist2 = Ok (s, os) /\ reach pool2 3 s /\
  content (view_of s) 0 = Some [Some 1; Some 4; Some 5; Some 2; Some 3] /\ content (view_of s) 1 = None /\ s_refs s = [2; 1].
Proof.
  pose proof (reach_init pool2 3) as R. fwd (@OTake nat 0 3) R. fwd (@OTake nat 1 2) R. fwd (@OInsert nat 0 1 1 true) R.
  eexists _, _. split; [vm_compute; reflexivity|]. split; [exact R|vm_compute; auto].
Qed.
Example C15_case_copy : exists s os, run (init pool2 3) [OTake 0 3; OCreate 1 [8; 9]; OPrepend 0 1 false; OWrite 1 [0; 0]] = Ok (s, os) /\
  content (view_of s) 0 = Some [Some 8; Some 9; Some 1; Some 2; Some 3].
Proof. eexists _, _. split; vm_compute; reflexivity. Qed.

(* Refuted for buffers outside of a pool: the appended bytes belong to the source only
   and are gone when it is released ... *)
Theorem C15_foreign_append_refuted :
  exists (ops : list (bop nat)) s os, run (init pool2 2) ops = Ok (s, os) /\ ~ In RTerminate os /\
    content (view_of s) 0 = Some [Some 8; None].
Proof. exists [OCreate 0 [8]; OCreate 1 [9]; OAppend 0 1 false; ORelease 1]. eexists _, _. vm_compute. split; [reflexivity|]. split; [intuition discriminate|reflexivity]. Qed.
Print Assumptions C15_foreign_append_refuted.

(* ... the same for a part of such a buffer ... *)
Theorem C15_foreign_part_refuted :
  exists (ops : list (bop nat)) s os, run (init pool2 2) ops = Ok (s, os) /\ ~ In RTerminate os /\
    content (view_of s) 1 = Some [None; None].
Proof. exists [OCreate 0 [7; 8; 9]; OPart 1 0 1 2; ORelease 0]. eexists _, _. vm_compute. split; [reflexivity|]. split; [intuition discriminate|reflexivity]. Qed.
Print Assumptions C15_foreign_part_refuted.

(* ... and shortening it uses its MemoryContainer as if it were a MemoryPool *)
Theorem C15_foreign_shorten_refuted :
  exists (ops : list (bop nat)), run (init pool2 2) ops = UB.
Proof. exists [OCreate 0 [8]; OCreate 1 [9]; OAppend 0 1 false; OSetTotal 0 1]. vm_compute. reflexivity. Qed.
Print Assumptions C15_foreign_shorten_refuted.

(* Refuted: Append into a full container ends the process (exception out of a throw() function) *)
Theorem C15_append_full_refuted :
  exists (ops : list (bop nat)) s os, run (init (repeat [1] 9) 2) ops = Ok (s, os) /\ In RTerminate os /\
     (forall op, In op ops -> match op with OTake _ _ | OAppend _ _ true => True | _ => False end).
Proof.
  exists [OTake 0 8; OTake 1 1; OAppend 0 1 true]. eexists _, _. split; [vm_compute; reflexivity|]. split; [vm_compute; auto|].
  intros op [<-|[<-|[<-|[]]]]; exact I.
Qed.
Print Assumptions C15_append_full_refuted.
