(* Command::ReadFromCmdString, Command.cxx:261-331.  int narg does not overflow (a line has
   fewer than 2^31 arguments).  The result is the command, None when false is returned. *)
From Verif Require Import Common Bytes DecStr CmdStrSpec.
Open Scope N_scope.

(* find_symbol 261-275, from the given position on *)
Fixpoint find_sym (q : bool) (l : bytes) (c : N) : nat :=
  match l with
  | [] => O
  | x :: r => let q := if x =? 34 then negb q else q in
              if negb q && (x =? c) then O else S (find_sym q r c)
  end.
(* remove_quotes 277-290 *)
Definition remove_quotes (l : bytes) : bytes :=
  if (length l <? 2)%nat then l
  else if negb (nth 0 l 0 =? nth (length l - 1) l 0) then l
  else if nth 0 l 0 =? 34 then firstn (length l - 2) (skipn 1 l) else l.

(* the loop 299-326: rest of the string, command so far, narg *)
Fixpoint read_loop (fuel : nat) (l : bytes) (c : option cmdrec) (narg : N) : res (option (option cmdrec * N)) :=
  match fuel with
  | O => Loop
  | S k =>
    match l with
    | [] => Ok (Some (c, narg))
    | x :: r =>
      if x =? 32 then read_loop k r c narg
      else
        let next := find_sym false l 32 in
        let part := firstn next l in
        let rest := skipn next l in
        match c with
        | None => read_loop k rest (Some (mkCR part [])) narg
        | Some c =>
          let separ := find_sym false part 61 in
          if (separ =? length part)%nat then read_loop k rest (Some (mkCR (cr_name c) (put (cr_fields c) (arg_key narg) (VStr part)))) (narg + 1)
          else if (separ =? 0)%nat then Ok None
          else read_loop k rest (Some (mkCR (cr_name c) (put (cr_fields c) (firstn (separ - 1) part) (VStr (remove_quotes (skipn (separ + 1) part)))))) narg
        end
    end
  end.
(* ReadFromCmdString 292-331; SetInt on a null command does nothing *)
Definition read_cmd (l : bytes) : res (option (option cmdrec)) :=
  do x <- read_loop (S (length l)) l None 0;
  Ok (match x with
      | None => None
      | Some (c, narg) => Some (match c with Some c => Some (if 0 <? narg then mkCR (cr_name c) (put (cr_fields c) num_key (VInt narg)) else c) | None => None end)
      end).
