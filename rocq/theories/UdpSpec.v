(* Specification of what the HADAQ UDP receiver shall do with a datagram,
   independent of the model. *)
From Verif Require Import Common Bytes.
Open Scope N_scope.

(* The size announced by the first eight bytes: the first word in the byte order
   that the top byte of the second word tells (zero: little-endian). *)
Definition announced (p : bytes) : N :=
  if nth 7 p 0 =? 0 then unle (takeN 4 p) else unle (rev (takeN 4 p)).
(* ... rounded up to a multiple of eight, the length of the unit *)
Definition unit_len (p : bytes) : N := (announced p + 7) / 8 * 8.

(* A consistent datagram: the unit followed by a copy of its first 32 bytes. *)
Definition consistent (p : bytes) : Prop :=
  lenN p = unit_len p + 32 /\ takeN 32 p = dropN (unit_len p) p.
Definition consistent_dec (p : bytes) : {consistent p} + {~ consistent p}.
Proof.
  unfold consistent. destruct (N.eq_dec (lenN p) (unit_len p + 32)) as [H1|H1]; [|right; tauto].
  destruct (list_eq_dec N.eq_dec (takeN 32 p) (dropN (unit_len p) p)) as [H2|H2]; [left; tauto|right; tauto].
Defined.
(* its unit part *)
Definition unit_part (p : bytes) : bytes := takeN (unit_len p) p.

Definition only_consistent (l : list bytes) : list bytes :=
  filter (fun p => if consistent_dec p then true else false) l.
(* units one after the other *)
Definition glue (l : list bytes) : bytes := concat (map unit_part l).

(* where a datagram that was read from the socket went: into a buffer of the memory
   pool, into the spare buffer because there was no other, dropped on request of the
   user, or it had no bytes *)
Inductive fate := FPool | FSpare | FLost | FEmpty.
Definition is_pool (f : fate) : bool := match f with FPool => true | _ => false end.
Definition in_pool (l : list (fate * bytes)) : list bytes := map snd (filter (fun x => is_pool (fst x)) l).

(* A datagram that the receiver can judge without leaving the memory: shorter than
   a header, at least as long as the trailer, or announcing a size that does not
   come near 2^32. *)
Definition harmless (p : bytes) : Prop := lenN p < 8 \/ 32 <= lenN p \/ unit_len p + 32 < 2^32.

(* ---- statistic ---- *)
(* datagrams whose header was looked at *)
Definition judged (l : list (fate * bytes)) : list bytes :=
  map snd (filter (fun x => match fst x with FPool | FSpare => true | _ => false end) l).
Definition dropped (l : list (fate * bytes)) : list bytes :=
  map snd (filter (fun x => match fst x with FLost => true | _ => false end) l).
Definition total_len (l : list bytes) : N := fold_right (fun p n => lenN p + n) 0 l.
(* right length, wrong trailer *)
Definition bad_trailer (p : bytes) : bool :=
  (lenN p =? unit_len p + 32) && negb (if list_eq_dec N.eq_dec (takeN 32 p) (dropN (unit_len p) p) then true else false).
(* 32 bytes that announce more than 2^32 - 8 bytes: rounded up to 2^32, that is 0 *)
Definition wrapped (p : bytes) : bool := (lenN p =? 32) && (2^32 - 8 <? announced p).
