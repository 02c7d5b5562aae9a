(* Specification of the binary file format, independent of the model: what a file
   holding a list of buffers looks like, and which buffers are complete in the
   first bytes of it. *)
From Verif Require Import Common Bytes.
Open Scope N_scope.

(* a buffer: type and content *)
Definition fbuf : Type := N * bytes.

(* one buffer in the file: 64-bit length, 64-bit type, content *)
Definition encode_buf (b : fbuf) : bytes := le 8 (lenN (snd b)) ++ le 8 (fst b) ++ snd b.
Definition encode_bufs (l : list fbuf) : bytes := concat (map encode_buf l).
(* the file: magic value 1237, version 2, buffers *)
Definition encode_file (l : list fbuf) : bytes := le 8 1237 ++ le 8 2 ++ encode_bufs l.

(* the buffers which lie completely in the first [n] bytes after the file header *)
Fixpoint complete (n : N) (l : list fbuf) : list fbuf :=
  match l with
  | [] => []
  | b :: r => if 16 + lenN (snd b) <=? n then b :: complete (n - (16 + lenN (snd b))) r else []
  end.

(* buffers which can be stored: not empty, size and type representable *)
Definition storable (b : fbuf) : Prop := 0 < lenN (snd b) <= 0xFFFFFFF0 /\ fst b < 2^64.

Definition payload (l : list fbuf) : N := lenN (concat (map snd l)).

(* a buffer in memory: type and segments; its content is what the segments hold *)
Definition flat (b : N * list bytes) : fbuf := (fst b, concat (snd b)).
Definition good (b : N * list bytes) : Prop := Forall (fun s => s <> []) (snd b) /\ storable (flat b).

(* disk space which is sufficient for the buffers, even when each gets its own file *)
Definition room_for (l : list (N * list bytes)) : N :=
  fold_right (fun b n => 32 + lenN (snd (flat b)) + n) 16 l.

(* a file obeys the size limit (in MB, 0: no limit); a buffer larger than the
   limit gets a file of its own *)
Definition fits (limit : N) (g : list fbuf) : Prop :=
  limit = 0 \/ payload g <= limit * 1048576 \/ length g = 1%nat.
