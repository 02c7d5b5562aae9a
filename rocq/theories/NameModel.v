(* Object::NameMatch and NameMatchM, Object.cxx:1004-1058. *)
From Verif Require Import Common Bytes DecStr UrlModel.
Open Scope N_scope.

(* fnmatch(mask, name, FNM_NOESCAPE) of the C library, for masks without bracket
   expressions: back-tracking over the texts a star may stand for *)
Fixpoint fnmatch (m : bytes) : bytes -> bool :=
  match m with
  | [] => fun s => match s with [] => true | _ => false end
  | c :: m' =>
    if c =? 42 then fix try (s : bytes) : bool := fnmatch m' s || match s with [] => false | _ :: r => try r end
    else if c =? 63 then fun s => match s with [] => false | _ :: r => fnmatch m' r end
    else fun s => match s with [] => false | d :: r => (c =? d) && fnmatch m' r end
  end.

Definition has (c : N) (l : bytes) : bool := existsb (N.eqb c) l.

(* NameMatch 1004-1026.  With a semicolon in the mask the do-while of 1011-1016 does not
   change its variable and does not end. *)
Definition name_match (name mask : bytes) : res bool :=
  if (length mask =? 0)%nat || (length name =? 0)%nat then Ok (length name =? length mask)%nat
  else if has 59 mask then Loop
  else if negb (has 42 mask || has 63 mask) then Ok (bytes_eqb name mask)
  else if bytes_eqb mask [42] then Ok true
  else Ok (fnmatch (c_str mask) (c_str name)).

(* the loop of NameMatchM 1036-1055; [rest] is the mask from lastsepar on *)
Fixpoint m_loop (fuel : nat) (name rest : bytes) : res bool :=
  match fuel with
  | O => Loop
  | S k =>
    let sub := match find_sub [58] rest with None => rest | Some i => firstn i rest end in
    do b <- (match sub with [] => Ok false | _ => name_match name sub end);
    if b then Ok true
    else match find_sub [58] rest with None => Ok false | Some i => m_loop k name (skipn (i + 1) rest) end
  end.
(* NameMatchM 1028-1058 *)
Definition name_match_m (name mask : bytes) : res bool :=
  match find_sub [58] mask with
  | None => name_match name mask
  | Some _ => m_loop (S (length mask)) name mask
  end.
