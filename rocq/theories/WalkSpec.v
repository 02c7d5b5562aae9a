(* Walks over a tree of objects.  Objects are numbers, [kids o] are the children of [o] in their
   order.  The place of an object is the list of child indices on the way from the top object. *)
From Verif Require Import Common.

Definition place := list nat.
Fixpoint object_at (kids : N -> list N) (o : N) (p : place) : option N :=
  match p with
  | [] => Some o
  | i :: p => match nth_error (kids o) i with Some c => object_at kids c p | None => None end
  end.
Definition exists_at kids top p := object_at kids top p <> None.

(* order of a document: a parent before its children, a child and all below it before the next child *)
Fixpoint before (p q : place) : Prop :=
  match p, q with
  | [], _ :: _ => True
  | i :: p, j :: q => i < j \/ (i = j /\ before p q)
  | _, [] => False
  end.
Definition below (p q : place) := exists i r, q = p ++ i :: r.

(* places the walk may go to from [p]: later in the document, not deeper than the limit (a negative
   limit is none), and not below [p] when the caller does not want to go inside *)
Definition within (limit : Z) (q : place) := (limit < 0)%Z \/ (Z.of_nat (length q) <= limit)%Z.
Definition open (limit : Z) (p : place) (inside : bool) (q : place) :=
  before p q /\ within limit q /\ (inside = false -> ~ below p q).
(* the first of them *)
Definition first_open kids top limit p inside q :=
  exists_at kids top q /\ open limit p inside q /\ forall r, exists_at kids top r -> open limit p inside r -> r = q \/ before q r.
Definition none_open kids top limit p inside := forall r, exists_at kids top r -> ~ open limit p inside r.

(* What one call reports: object, level, and the objects above it; nothing at the end. *)
Definition report := option (N * nat * list N).
Definition report_at kids top (p : place) (r : report) :=
  exists o l, r = Some (o, length p, l) /\ object_at kids top p = Some o /\ length l = length p /\
    forall i, i < length p -> nth_error l i = object_at kids top (firstn i p).

(* A walk is a list of calls; every call finds the children as they are at that time and has the
   argument of the caller.  [walks top limit at calls reports]: the reports are right when the walk
   stands at [at] (nothing: a new walk begins). *)
Definition call := ((N -> list N) * bool)%type.
Inductive walks (top : N) (limit : Z) : option place -> list call -> list report -> Prop :=
| W_end : forall w, walks top limit w [] []
| W_top : forall kids g cs r rs, report_at kids top [] r -> walks top limit (Some []) cs rs ->
    walks top limit None ((kids, g) :: cs) (r :: rs)
| W_next : forall p kids g cs q r rs, first_open kids top limit p g q -> report_at kids top q r -> walks top limit (Some q) cs rs ->
    walks top limit (Some p) ((kids, g) :: cs) (r :: rs)
| W_stop : forall p kids g cs rs, none_open kids top limit p g -> walks top limit None cs rs ->
    walks top limit (Some p) ((kids, g) :: cs) (None :: rs).

(* Between two calls children may only be added behind the others. *)
Definition grows (k k' : N -> list N) := forall o, exists l, k' o = k o ++ l.
Inductive growing : list call -> Prop :=
| G_nil : growing []
| G_one : forall c, growing [c]
| G_cons : forall k g k' g' cs, grows k k' -> growing ((k', g') :: cs) -> growing ((k, g) :: (k', g') :: cs).

(* A finite tree: a list of all places. *)
Definition all_places kids top l := NoDup l /\ forall p, In p l <-> exists_at kids top p.
