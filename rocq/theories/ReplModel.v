(* Model of dabc::replace_all (base/src/string.cxx:237-251) and of the names of a list of
   connections in the default application (base/src/Application.cxx:351-364).
   Not modelled: resolving of variables in the templates (C33), the connections themselves. *)
From Verif Require Import Common Bytes DecStr ReplSpec.

Fixpoint starts (m s : bytes) : bool :=
  match m, s with [], _ => true | x :: m, y :: s => N.eqb x y && starts m s | _ :: _, [] => false end.
(* std::string::find, from position [last] *)
Fixpoint find_at (m s : bytes) : option nat :=
  if starts m s then Some O else match s with [] => None | _ :: r => match find_at m r with Some i => Some (S i) | None => None end end.
Definition find (m s : bytes) (last : nat) : option nat :=
  if (last <=? length s)%nat then match find_at m (skipn last s) with Some i => Some (last + i)%nat | None => None end else None.
(* replace_all, string.cxx:237-251: erase and insert at the place found, then on behind it *)
Fixpoint replace_loop (fuel : nat) (m r s : bytes) (last : nat) : res bytes :=
  match fuel with
  | O => Loop
  | S f =>
      match find m s last with
      | None => Ok s
      | Some pos =>
          let s1 := firstn pos s ++ skipn (pos + length m) s in
          let s2 := firstn pos s1 ++ r ++ skipn pos s1 in
          replace_loop f m r s2 (pos + length r)
      end
  end.
Definition replace_all (s m r : bytes) : res bytes :=
  match m with [] => Ok s | _ => replace_loop (S (length s)) m r s 0 end.

Definition t_name : bytes := [37; 110; 97; 109; 101; 37]%N.  (* %name% *)
Definition t_id : bytes := [37; 105; 100; 37]%N.  (* %id% *)
(* end of connection [n] of the list, Application.cxx:355-359: the name first, then the number *)
Definition conn_name (tmpl name : bytes) (n : N) : res bytes :=
  do a <- replace_all tmpl t_name name; replace_all a t_id (dec n).
