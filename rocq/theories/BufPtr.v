(* dabc::Pointer into a one-segment buffer, shared by the HADAQ and MBS models. *)
From Verif Require Import Common ListFacts Bytes.
Open Scope N_scope.

(* ---- dabc::Pointer into a one-segment buffer (base/dabc/Pointer.h) ---- *)

(* fPtr as offset ([None]: null) and fFullSize *)
Record ptr : Type := mkP { p_off : option N; p_full : N }.
Definition pnull : ptr := mkP None 0.
(* null() Pointer.h:147 *)
Definition is_null (p : ptr) : bool := match p_off p with None => true | Some _ => p_full p =? 0 end.
(* shift Pointer.h:153-166 with long_shift Pointer.cxx:25-32 *)
Definition shift (p : ptr) (n : N) : ptr :=
  if p_full p <? n then pnull
  else mkP (match p_off p with Some o => Some (o + n) | None => None end) (p_full p - n).
(* setfullsize Pointer.h:168-174; reset(src, 0, fullsz) Pointer.h:108-117 ignores fullsz = 0 *)
Definition limit_to (p : ptr) (n : N) : ptr :=
  if (0 <? n) && (n <? p_full p) then mkP (p_off p) n else p.
(* address of a non-null pointer; dereferencing a null pointer is undefined *)
Definition addr (p : ptr) : res N := match p_off p with Some o => Ok o | None => UB end.

Lemma is_null_at o n : 0 < n -> is_null (mkP (Some o) n) = false.
Proof. intros H. unfold is_null. cbn. apply N.eqb_neq. lia. Qed.
Lemma shift_at o n k : k <= n -> shift (mkP (Some o) n) k = mkP (Some (o + k)) (n - k).
Proof. intros H. unfold shift. cbn [p_full p_off]. destruct (N.ltb_spec n k); [lia|]. reflexivity. Qed.
Lemma limit_at o n k : 0 < k -> k <= n -> limit_to (mkP (Some o) n) k = mkP (Some o) k.
Proof.
  intros P H. unfold limit_to. cbn [p_full p_off]. destruct (N.ltb_spec 0 k); [|lia].
  destruct (N.ltb_spec k n); [reflexivity|]. cbn [andb]. f_equal. lia.
Qed.

