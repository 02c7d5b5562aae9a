(* mbs::SlowControlData (plugins/mbs/mbs/SlowControlData.h). *)
From Verif Require Import Common Bytes WordMem DecStr SlowSpec.
Open Scope N_scope.

(* SlowControlData.h:35-44: event id and time, names and values of the integer records,
   names and values of the floating records.  A value is its 8-byte pattern. *)
Record slow : Type := mkS { s_id : N; s_time : N; s_lnames : list bytes; s_lvals : list N; s_dnames : list bytes; s_dvals : list N }.
(* Clear SlowControlData.h:87-96 *)
Definition s_clear : slow := mkS 0 0 [] [] [] [].

(* AddLong SlowControlData.h:107-118 and AddDouble 121-131 *)
Fixpoint replace_first (name : bytes) (v : N) (names : list bytes) (vals : list N) : option (list N) :=
  match names, vals with
  | n :: ns, x :: xs => if bytes_eqb n name then Some (v :: xs)
                        else match replace_first name v ns xs with Some l => Some (x :: l) | None => None end
  | _, _ => None
  end.
Definition add_rec (names : list bytes) (vals : list N) (name : bytes) (v : N) (check : bool) : list bytes * list N :=
  match (if check then replace_first name v names vals else None) with
  | Some l => (names, l)
  | None => (names ++ [name], vals ++ [v])
  end.
Definition add_long (s : slow) (name : bytes) (v : N) (check : bool) : slow :=
  let (n, l) := add_rec (s_lnames s) (s_lvals s) name v check in mkS (s_id s) (s_time s) n l (s_dnames s) (s_dvals s).
Definition add_double (s : slow) (name : bytes) (v : N) (check : bool) : slow :=
  let (n, l) := add_rec (s_dnames s) (s_dvals s) name v check in mkS (s_id s) (s_time s) (s_lnames s) (s_lvals s) n l.

(* BuildDescriptor SlowControlData.h:46-69 *)
Definition append_names (l : list bytes) : bytes := fold_left (fun d n => (d ++ n) ++ [0]) l [].
Definition descriptor (s : slow) : bytes :=
  let d := (dec (lenN (s_lnames s) mod 2^32) ++ [32]) ++ [0] in
  let d := d ++ append_names (s_lnames s) in
  let d := (d ++ (dec (lenN (s_dnames s) mod 2^32) ++ [32])) ++ [0] in
  let d := d ++ append_names (s_dnames s) in
  d ++ repeat 0 (N.to_nat ((4 - lenN d mod 4) mod 4)).
(* GetRawSize SlowControlData.h:142-153: an unsigned int *)
Definition raw_size (s : slow) : N :=
  (4 + 4 + 8 + lenN (s_lvals s) * 8 + 8 + lenN (s_dvals s) * 8 + lenN (descriptor s)) mod 2^32.

(* Write SlowControlData.h:155-188 into the memory [m] of the given length *)
Fixpoint put_vals (m : bytes) (o : N) (l : list N) : res (bytes * N) :=
  match l with
  | [] => Ok (m, o)
  | v :: l => do m <- setb m o (le 8 v); put_vals m (o + 8) l
  end.
Definition s_write (s : slow) (m : bytes) : res (bytes * N) :=
  let size := raw_size s in
  if lenN m <? size then Ok (m, 0)
  else
    do m <- setb m 0 (le 4 (s_id s)); do m <- setb m 4 (le 4 (s_time s)); do m <- setb m 8 (le 8 (lenN (s_lvals s)));
    do (m, o) <- put_vals m 16 (s_lvals s);
    do m <- setb m o (le 8 (lenN (s_dvals s)));
    do (m, o) <- put_vals m (o + 8) (s_dvals s);
    do m <- setb m o (descriptor s);
    Ok (m, size).

(* the loops SlowControlData.h:206-210 and 215-219.  The reserve() before them throws for
   counts beyond the possible; here the loop then leaves the memory. *)
Fixpoint get_vals (fuel : nat) (m : bytes) (o n : N) : res (list N * N) :=
  match fuel with
  | O => Loop
  | S k =>
    if n =? 0 then Ok ([], o)
    else do b <- getb m o 8; do (l, o2) <- get_vals k m (o + 8) (n - 1); Ok (unle b :: l, o2)
  end.
(* the loops SlowControlData.h:233-240 and 254-261: the names read, the position, and
   whether the end was not met *)
Fixpoint get_names (n : nat) (m : bytes) (o : N) : res (list bytes * N * bool) :=
  match n with
  | O => Ok ([], o, true)
  | S k =>
    if lenN m <=? o then Ok ([], o, false)
    else do s <- cstr m o; do (l, o2, ok) <- get_names k m (o + lenN s + 1); Ok (s :: l, o2, ok)
  end.
(* Read SlowControlData.h:190-264 from the memory [m] of the given length *)
Definition s_read (s0 : slow) (m : bytes) : res (slow * bool) :=
  if lenN m <? 24 then Ok (s0, false)
  else
    do id <- getb m 0 4; do tm <- getb m 4 4; do n <- getb m 8 8;
    do (lv, o) <- get_vals (S (length m)) m 16 (unle n);
    do n <- getb m o 8;
    do (dv, o) <- get_vals (S (length m)) m (o + 8) (unle n);
    let ret ln dn ok := Ok (mkS (unle id) (unle tm) ln lv dn dv, ok) in
    do t <- cstr m o; do num <- scan_u t;
    match num with
    | None => ret [] [] false
    | Some num =>
      if negb (num =? lenN lv) then ret [] [] false
      else
        do (ln, o, ok) <- get_names (N.to_nat num) m (o + lenN t + 1);
        if negb ok then ret ln [] false
        else
          do t <- cstr m o; do num <- scan_u t;
          match num with
          | None => ret ln [] false
          | Some num =>
            if negb (num =? lenN dv) then ret ln [] false
            else
              do (dn, o, ok) <- get_names (N.to_nat num) m (o + lenN t + 1);
              ret ln dn ok
          end
    end.

(* an object filled with SetEventId, SetEventTime and a sequence of calls *)
Definition s_call (s : slow) (c : scall) : slow :=
  match c with AddLong n v b => add_long s n v b | AddDouble n v b => add_double s n v b end.
Definition s_build (id tm : N) (l : list scall) : slow := fold_left s_call l (mkS id tm [] [] [] []).
