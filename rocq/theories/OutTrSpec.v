(* What a DataOutput object and the input port of an OutputTransport get to see
   (base/dabc/DataIO.h:153-234), and the order of calls a DataOutput may rely on. *)
From Verif Require Import Common.

(* buffer: type (mbt_EOF, mbt_EOL or any other, Buffer.h:36-52) and an identity *)
Inductive bkind := KData | KEof | KEol.
Definition buf : Type := bkind * N.

(* DataOutputCodes, DataIO.h:141-149; any other number *)
Inductive code := COk | CSkip | CRepeat | CRepeatTimeOut | CCallBack | CError | CClose | COther.

Inductive obs :=
| OCheck (c : code)          (* Write_Check() returned c *)
| OFlush                     (* Write_Flush() *)
| OTake (b : buf)            (* buffer taken out of the input port *)
| OWrite (b : buf) (c : code)(* Write_Buffer(b) returned c *)
| OComplete (c : code)       (* Write_Complete() returned c *)
| ORetry (ok : bool)         (* Write_Retry() returned ok *)
| OInit (ok : bool)          (* Write_Init() returned ok *)
| ODelete                    (* DataOutput object given up *)
| OClose (err : bool)        (* CloseTransport(err) *)
| OFailed                    (* call-back with an argument other than do_Ok *)
| ODevice                    (* device of the transport was found destroyed *).

(* The rules, as an automaton over the observations.  [Idle]: nothing under way. *)
Inductive ph :=
| Idle
| Checked                    (* Write_Check said do_Ok: a buffer must be taken and written *)
| SkipNext                   (* Write_Check said do_Skip: a buffer must be thrown away *)
| Flushed                    (* the mbt_EOL buffer must be taken *)
| Hand (b : buf)             (* taken, must be given to Write_Buffer *)
| Started                    (* Write_Buffer started: only Write_Complete may follow *)
| Failed                     (* an operation failed: retry or give up *)
| Waiting                    (* for Write_Init *)
| Closing                    (* only giving up may follow *)
| Gone                       (* object given up *)
| Done                       (* transport closed: no call any more *)
| Broken.                    (* rule violated *)

Definition kind_eqb (a b : bkind) : bool :=
  match a, b with KData, KData | KEof, KEof | KEol, KEol => true | _, _ => false end.
Definition buf_eqb (a b : buf) : bool := kind_eqb (fst a) (fst b) && (snd a =? snd b)%N.

Definition after_end (c : code) : ph :=
  match c with COk => Idle | CClose => Closing | _ => Failed end.

Definition delta (p : ph) (o : obs) : ph :=
  match p, o with
  | Broken, _ => Broken
  | Done, (OClose _ | OFailed) => Done
  | Done, _ => Broken
  | Gone, OClose _ => Done
  | Gone, _ => Broken
  | Closing, ODelete => Gone
  | Closing, _ => Broken
  | (Idle | Started | Waiting), OFailed => Failed
  | (Idle | Started | Waiting), ODevice => Closing
  | Idle, OCheck c =>
      match c with
      | COk => Checked | CSkip => SkipNext
      | CRepeat | CRepeatTimeOut | CCallBack => Idle
      | CClose => Closing | CError | COther => Failed
      end
  | Idle, OFlush => Flushed
  | Idle, OTake (KEof, _) => Closing
  | Flushed, OTake (KEol, _) => Idle
  | SkipNext, OTake (KData, _) => Idle
  | Checked, OTake (KData, n) => Hand (KData, n)
  | Hand b, OWrite b' c =>
      if buf_eqb b b' then
        match c with COk | CCallBack => Started | CSkip => Idle | CClose => Closing | _ => Failed end
      else Broken
  | Started, OComplete c => after_end c
  | Failed, ORetry true => Waiting
  | Failed, ORetry false => Closing
  | Failed, ODelete => Gone
  | Waiting, OInit ok => if ok then Idle else Waiting
  | _, _ => Broken
  end.

(* logs are kept newest first *)
Fixpoint phase (l : list obs) : ph :=
  match l with [] => Idle | o :: r => delta (phase r) o end.

(* buffers taken from the port, oldest first *)
Fixpoint taken (l : list obs) : list buf :=
  match l with [] => [] | OTake b :: r => taken r ++ [b] | _ :: r => taken r end.

(* ... those of them taken right after Write_Check had answered do_Ok *)
Fixpoint to_write (l : list obs) : list buf :=
  match l with
  | [] => []
  | OTake b :: r => to_write r ++ (match r with OCheck COk :: _ => [b] | _ => [] end)
  | _ :: r => to_write r
  end.

(* buffers given to Write_Buffer, oldest first *)
Fixpoint written (l : list obs) : list buf :=
  match l with [] => [] | OWrite b _ :: r => written r ++ [b] | _ :: r => written r end.

(* number of Write_Complete calls; number of writes reported as begun *)
Fixpoint completed (l : list obs) : nat :=
  match l with [] => 0 | OComplete _ :: r => S (completed r) | _ :: r => completed r end.
Fixpoint begun (l : list obs) : nat :=
  match l with [] => 0 | OWrite _ (COk | CCallBack) :: r => S (begun r) | _ :: r => begun r end.

(* what happens to the transport *)
Inductive oev :=
| EvArrive (b : buf)     (* the sending module puts a buffer into the queue of the port *)
| EvInput                (* evntInput / evntInputReinj processed *)
| EvTimer                (* the timeout of the module expired *)
| EvCall (c : code)      (* Write_CallBack(c) *)
| EvStart | EvStop       (* module on the other side started / stopped *)
| EvDevice               (* the device gets destroyed *).

Fixpoint arrived (l : list oev) : list buf :=
  match l with [] => [] | EvArrive b :: r => b :: arrived r | _ :: r => arrived r end.

(* events that report no failure *)
Definition calm (e : oev) : Prop :=
  match e with EvCall COk => True | EvCall _ => False | EvDevice => False | _ => True end.
