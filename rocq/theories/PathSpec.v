(* Names of objects as paths.  Characters: / 47, . 46, # 35. *)
From Verif Require Import Common Bytes DecStr.
Local Open Scope N_scope.

(* objects are numbers: children in their order, name, parent; numbers from [w_next] on are free *)
Record world := mkW { w_kids : N -> list N; w_name : N -> bytes; w_up : N -> option N; w_next : N }.

(* A tree: children and parents belong together; [depth] is the number of objects above. *)
Definition proper (w : world) (depth : N -> nat) :=
  (forall o c, In c (w_kids w o) -> w_up w c = Some o) /\
  (forall o c, w_up w c = Some o -> In c (w_kids w o) /\ depth c = S (depth o) /\ o < w_next w /\ c < w_next w).

Fixpoint split_slash (l : bytes) : list bytes :=
  match l with
  | [] => [[]]
  | x :: l => if x =? 47 then [] :: split_slash l else match split_slash l with [] => [[x]] | a :: r => (x :: a) :: r end
  end.
Definition is_empty (l : bytes) : bool := match l with [] => true | _ => false end.
(* the parts of a path: what is between the slashes, empty ones left out *)
Definition parts (path : bytes) : list bytes := filter (fun c => negb (is_empty c)) (split_slash path).

Definition child (w : world) (o : N) (c : bytes) : option N := find (fun k => bytes_eqb (w_name w k) c) (w_kids w o).
Definition step (w : world) (o : N) (c : bytes) : option N :=
  if bytes_eqb c [46; 46] then w_up w o else if bytes_eqb c [46] then Some o else child w o c.
Fixpoint follow (w : world) (o : N) (l : list bytes) : option N :=
  match l with
  | [] => Some o
  | c :: l => match step w o c with Some o' => follow w o' l | None => None end
  end.

Inductive top_of (w : world) : N -> N -> Prop :=
| Top_here : forall o, w_up w o = None -> top_of w o o
| Top_up : forall o p t, w_up w o = Some p -> top_of w p t -> top_of w o t.

(* what a path stands for when it starts at [o] *)
Definition leads (w : world) (o : N) (path : bytes) (r : option N) :=
  if hd 0 path =? 47 then exists t, top_of w o t /\ follow w t (parts path) = r
  else follow w o (parts path) = r.

(* a name which can be part of a path *)
Definition plain (c : bytes) := c <> [] /\ ~ In 47 c /\ c <> [46] /\ c <> [46; 46].
(* [way w o l r]: from [o] down to [r] over the children with the names [l], each the first of its name *)
Inductive way (w : world) : N -> list bytes -> N -> Prop :=
| Way_here : forall o, way w o [] o
| Way_down : forall o c k l r, child w o c = Some k -> plain c -> way w k l r -> way w o (c :: l) r.
Definition join (l : list bytes) : bytes := match l with [] => [] | c :: l => c ++ concat (map (fun d => 47 :: d) l) end.

(* nothing is lost: children only added behind others, names and parents kept *)
Definition extends (w w' : world) := w_next w <= w_next w' /\
  (forall o, exists l, w_kids w' o = w_kids w o ++ l /\ forall c, In c l -> w_next w <= c) /\
  (forall o, o < w_next w -> w_name w' o = w_name w o /\ w_up w' o = w_up w o).
