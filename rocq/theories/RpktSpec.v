(* Packets between two nodes: what goes in and what comes out. *)
From Verif Require Import Common Bytes.
Local Open Scope N_scope.

(* memory cell: byte, or nothing written yet *)
Definition cells := list (option N).

(* what the receiver gives on: a packet with its kind, timeout, command and raw data;
   a connection request for another device *)
Inductive seen :=
| Got (kind timeout : N) (cmd raw : cells)
| Redirect (request : cells).

(* message to be sent *)
Record msg := mkM { m_kind : N; m_timeout : N; m_cmd : bytes; m_raw : bytes }.
Definition received (m : msg) : seen := Got (m_kind m) (m_timeout m) (map Some (m_cmd m)) (map Some (m_raw m)).

(* the six numbers of a header, 24 bytes *)
Definition field (i : nat) (h : bytes) : N := unle (firstn 4 (skipn (4 * i) h)).
(* sizes of a header which fit together: command and raw data are within the data *)
Definition fits (h : bytes) : Prop := field 4 h + field 5 h <= field 3 h /\ field 3 h < 2 ^ 31.
(* [x] stands in [s] *)
Definition within {A} (x s : list A) : Prop := exists a b, s = a ++ x ++ b.
