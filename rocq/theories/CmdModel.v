(* Commands on their way between workers: callers of a command, Submit, Assign, synchronous
   execution, processing of the two command events, replies, halting and cleanup of workers
   (Command.cxx, Worker.cxx, Thread.cxx).  One step is one section under a mutex or one call
   of user code.  Commands and workers are numbers.
   Not modelled: direct execution by a worker without thread (Worker.cxx:857-863), workers
   given as null pointer to AddCaller, time-outs as such (a synchronous call may give up at
   any moment), arguments of commands. *)
From Verif Require Import Common CmdQSpec CmdQModel.
Open Scope nat_scope.

(* CallerRec Command.h:62-75: worker and, for a synchronous call, its variable exe_ready *)
Definition clr : Type := nat * option nat.
Definition clr_eqb (a b : clr) : bool :=
  (fst a =? fst b) && match snd a, snd b with Some x, Some y => x =? y | None, None => true | _, _ => false end.
(* fCallers (the last one first), result field, fCanceled *)
Record cmd : Type := mkC { c_call : list clr; c_res : option Z; c_cancel : bool }.
(* a worker: fWorkerCommands; fThread not null; fWorkerActive; object in normal state;
   commands inside ProcessCommand (their number is fWorkerCommandsLevel); inside the
   processing of evntSubmitCommand *)
Record wk : Type := mkW { w_q : cq; w_thr : bool; w_act : bool; w_norm : bool; w_stack : list nat; w_loop : bool }.
Definition new_wk : wk := mkW (empty KNone) true true true [] false.
Definition dead_wk : wk := mkW (empty KNone) false false false [] false.
Inductive evc := EvSubmit | EvReply.
(* evs: fired command events not yet processed (worker, code, id).  hands: commands held by
   user code which has to reply them or to pass them on.  fly: a caller was taken by Reply
   but not yet informed.  sync: running synchronous calls (variable, worker, command).
   For the statements: lost, commands dropped without reply; added, told, gone: callers
   registered; informed (variable set, or ReplyCommand called); not informed because they
   refused or were removed. *)
Record sys : Type := mkSy {
  cmds : list cmd; wks : list wk; evs : list (nat * evc * N); hands : list nat; fly : list (nat * clr);
  sync : list (nat * nat * nat); lost : list nat; added : list (nat * clr); told : list (nat * clr); gone : list (nat * clr) }.

Definition worker (s : sys) (w : nat) : wk := nth w (wks s) dead_wk.
Definition command (s : sys) (c : nat) : cmd := nth c (cmds s) (mkC [] None false).
Definition with_w (s : sys) (w : nat) (x : wk) : sys :=
  mkSy (cmds s) (upd (wks s) w x) (evs s) (hands s) (fly s) (sync s) (lost s) (added s) (told s) (gone s).
Definition with_c (s : sys) (c : nat) (x : cmd) : sys :=
  mkSy (upd (cmds s) c x) (wks s) (evs s) (hands s) (fly s) (sync s) (lost s) (added s) (told s) (gone s).
Definition with_evs (s : sys) (e : list (nat * evc * N)) : sys :=
  mkSy (cmds s) (wks s) e (hands s) (fly s) (sync s) (lost s) (added s) (told s) (gone s).
Definition with_hands (s : sys) (h : list nat) : sys :=
  mkSy (cmds s) (wks s) (evs s) h (fly s) (sync s) (lost s) (added s) (told s) (gone s).
Definition with_fly (s : sys) (f : list (nat * clr)) : sys :=
  mkSy (cmds s) (wks s) (evs s) (hands s) f (sync s) (lost s) (added s) (told s) (gone s).
Definition with_sync (s : sys) (y : list (nat * nat * nat)) : sys :=
  mkSy (cmds s) (wks s) (evs s) (hands s) (fly s) y (lost s) (added s) (told s) (gone s).
Definition lose (s : sys) (c : nat) : sys :=
  mkSy (cmds s) (wks s) (evs s) (hands s) (fly s) (sync s) (c :: lost s) (added s) (told s) (gone s).
Definition with_log (s : sys) (a t g : list (nat * clr)) : sys :=
  mkSy (cmds s) (wks s) (evs s) (hands s) (fly s) (sync s) (lost s) a t g.

Definition set_q (s : sys) (w : nat) (q : cq) : sys :=
  let x := worker s w in with_w s w (mkW q (w_thr x) (w_act x) (w_norm x) (w_stack x) (w_loop x)).
Definition set_flags (s : sys) (w : nat) (t a n : bool) : sys :=
  let x := worker s w in with_w s w (mkW (w_q x) t a n (w_stack x) (w_loop x)).
Definition set_run (s : sys) (w : nat) (st : list nat) (l : bool) : sys :=
  let x := worker s w in with_w s w (mkW (w_q x) (w_thr x) (w_act x) (w_norm x) st l).
Definition set_call (s : sys) (c : nat) (l : list clr) : sys :=
  let x := command s c in with_c s c (mkC l (c_res x) (c_cancel x)).
Definition set_res (s : sys) (c : nat) (r : Z) : sys :=
  let x := command s c in with_c s c (mkC (c_call x) (Some r) (c_cancel x)).
Definition set_cancel (s : sys) (c : nat) : sys :=
  let x := command s c in with_c s c (mkC (c_call x) (c_res x) true).

Fixpoint remove1 (c : nat) (l : list nat) : list nat :=
  match l with [] => [] | x :: l => if x =? c then l else x :: remove1 c l end.
Fixpoint remove_nth {A} (n : nat) (l : list A) : list A :=
  match l, n with [], _ => [] | _ :: l, O => l | x :: l, S n => x :: remove_nth n l end.
Definition has (c : nat) (l : list nat) : bool := existsb (Nat.eqb c) l.
Definition trip_eqb (a b : nat * nat * nat) : bool := (fst (fst a) =? fst (fst b)) && (snd (fst a) =? snd (fst b)) && (snd a =? snd b).
Definition running (s : sys) (f w c : nat) : bool := existsb (trip_eqb (f, w, c)) (sync s).

(* AddCaller Command.cxx:68-76 *)
Definition add_caller (s : sys) (c : nat) (r : clr) : sys :=
  let s := set_call s c (r :: c_call (command s c)) in with_log s ((c, r) :: added s) (told s) (gone s).
(* RemoveCaller 78-94, exe_ready = 0 removes all of the worker *)
Definition remove_caller (s : sys) (c : nat) (w : nat) (f : option nat) : sys :=
  let hit (r : clr) := (fst r =? w) && match f with None => true | Some _ => clr_eqb r (w, f) end in
  let s1 := set_call s c (filter (fun r => negb (hit r)) (c_call (command s c))) in
  with_log s1 (added s) (told s) (map (fun r => (c, r)) (filter hit (c_call (command s c))) ++ gone s).
(* one turn of the loop in Reply, section 236-245: the last caller is taken *)
Definition pop_call (s : sys) (c : nat) : sys :=
  match c_call (command s c) with
  | [] => s
  | r :: l => with_fly (set_call s c l) (fly s ++ [(c, r)])
  end.
(* Reply 225-229 and first section *)
Definition reply (s : sys) (c : nat) (res : Z) : sys :=
  pop_call (if (0 <=? res)%Z then set_res s c res else s) c.
(* GetCommandReply Worker.cxx:996-1024, and the rest of the turn of the loop in Reply *)
Definition notify (s : sys) (c : nat) (r : clr) : res sys :=
  let w := fst r in
  let x := worker s w in
  let on := w_thr x && w_act x in
  match snd r with
  | Some f =>
    if on then
      if running s f w c then Ok (with_hands (with_log s (added s) ((c, r) :: told s) (gone s)) (c :: hands s))
      else UB
    else Ok (pop_call (with_log s (added s) (told s) ((c, r) :: gone s)) c)
  | None =>
    let (q, id) := chkind (w_q x) c KReply in
    if on then Ok (with_evs (set_q s w q) (evs s ++ [(w, EvReply, id)]))
    else let (q, _) := pop_id q id in Ok (pop_call (with_log (set_q s w q) (added s) (told s) ((c, r) :: gone s)) c)
  end.

(* IsLastCallerSync Command.cxx:96-106 *)
Definition last_sync (x : cmd) : bool := match c_call x with (_, Some _) :: _ => true | _ => false end.
(* ProcessCommand Worker.cxx:449-497 until the user code is called *)
Definition process (s : sys) (w c : nat) : sys :=
  let x := worker s w in
  if negb (w_norm x) then lose s c
  else if c_cancel (command s c) then reply s c (-5)
  else if negb (match w_stack x with [] => true | _ => false end) && negb (last_sync (command s c)) then
    set_q s w (fst (push (w_q x) c KPost))
  else with_hands (set_run s w (c :: w_stack x) (w_loop x)) (c :: hands s).

Inductive op : Type :=
| New                            (* a new command *)
| Assign (w c : nat)             (* Worker.cxx:902-920 *)
| AddSync (w f c : nat)          (* RunCommandInTheThread Thread.cxx:551 *)
| Submit (w c : nat) (magic : bool)   (* Worker.cxx:960-994; magic: priorityMagic *)
| Reply (c : nat) (res : Z)      (* Command.cxx:225-258 called by user code *)
| Cancel (c : nat)               (* Command.cxx:203-212 *)
| Remove (w f c : nat)           (* end of RunCommandInTheThread Thread.cxx:600-606 *)
| Notify (n : nat)               (* second part of a turn in Reply *)
| Deliver (n : nat)              (* ProcessCoreEvent Worker.cxx:392-447 *)
| Finish (w : nat) (res : Z)     (* user code returns; rest of ProcessCommand 483-496 *)
| Next (w : nat)                 (* loop over postponed commands Worker.cxx:411-418 *)
| Halt (w : nat)                 (* CheckWorkerCanBeHalted Thread.cxx:941-950 *)
| Detach (w : nat)               (*  ... 956-989, ClearThreadRef Worker.cxx:213-236 *)
| Destroy (w : nat)              (* the object leaves the normal state *)
| Clean (w : nat).               (* ObjectCleanup Worker.cxx:238-275 *)

Definition is_nil {A} (l : list A) : bool := match l with [] => true | _ => false end.
Definition my_event (w : nat) (e : nat * evc * N) : bool := fst (fst e) =? w.
(* CancelCommands Worker.cxx:1026-1029: Cleanup of the queue, CommandsQueue.cxx:19-52; the
   commands submitted and postponed were passed to ProcessCommand before (264-269) *)
Fixpoint clean_loop (l : list qrec) (s : sys) (w : nat) : sys :=
  match l with
  | [] => s
  | e :: l => clean_loop l (match q_kind e with
                            | KAssign => remove_caller s (q_cmd e) w None
                            | KReply => let s1 := with_log s (added s) (told s) ((q_cmd e, (w, None)) :: gone s) in reply s1 (q_cmd e) (-4)
                            | KNone => s
                            | _ => lose s (q_cmd e)
                            end) w
  end.

(* With [polite] a synchronous call does not end between the two parts of a turn of Reply
   which concern it.  A step which cannot happen changes nothing. *)
Definition step (polite : bool) (s : sys) (o : op) : res sys :=
  let isw w := w <? length (wks s) in
  match o with
  | New => Ok (with_hands (mkSy (cmds s ++ [mkC [] None false]) (wks s) (evs s) (hands s) (fly s) (sync s) (lost s) (added s) (told s) (gone s)) (length (cmds s) :: hands s))
  | Assign w c =>
      if isw w && has c (hands s) && w_thr (worker s w) then
        Ok (add_caller (set_q s w (fst (push (w_q (worker s w)) c KAssign))) c (w, None))
      else Ok s
  | AddSync w f c =>
      if isw w && has c (hands s) && negb (running s f w c) then
        let s := add_caller s c (w, Some f) in Ok (with_sync s ((f, w, c) :: sync s))
      else Ok s
  | Submit w c magic =>
      if isw w && has c (hands s) then
        let s := with_hands s (remove1 c (hands s)) in
        if w_thr (worker s w) && (w_act (worker s w) || magic) then
          let (q, id) := push (w_q (worker s w)) c KSubmit in
          Ok (with_evs (set_q s w q) (evs s ++ [(w, EvSubmit, id)]))
        else Ok (reply s c 0)
      else Ok s
  | Reply c res => if has c (hands s) then Ok (reply (with_hands s (remove1 c (hands s))) c res) else Ok s
  | Cancel c => Ok (set_cancel s c)
  | Remove w f c =>
      if running s f w c && negb (polite && existsb (fun x => (fst x =? c) && clr_eqb (snd x) (w, Some f)) (fly s)) then
        let s := remove_caller s c w (Some f) in Ok (with_sync s (filter (fun x => negb (trip_eqb (f, w, c) x)) (sync s)))
      else Ok s
  | Notify n =>
      match nth_error (fly s) n with
      | None => Ok s
      | Some (c, r) => notify (with_fly s (remove_nth n (fly s))) c r
      end
  | Deliver n =>
      match nth_error (evs s) n with
      | None => Ok s
      | Some (w, e, id) =>
        if w_loop (worker s w) && is_nil (w_stack (worker s w)) then Ok s else
        let (q, x) := pop_id (w_q (worker s w)) id in
        let s := with_evs (set_q s w q) (remove_nth n (evs s)) in
        match e, x with
        | EvSubmit, None => Ok s
        | EvSubmit, Some r => Ok (process (set_run s w (w_stack (worker s w)) true) w (q_cmd r))
        | EvReply, None => Ok s
        | EvReply, Some r => Ok (with_hands (with_log s (added s) ((q_cmd r, (w, None)) :: told s) (gone s)) (q_cmd r :: hands s))
        end
      end
  | Finish w res =>
      match w_stack (worker s w) with
      | [] => Ok s
      | c :: st =>
        if (res =? -3)%Z then Ok (set_run s w st (w_loop (worker s w)))
        else if has c (hands s) then
          let s := with_hands (set_run s w st (w_loop (worker s w))) (remove1 c (hands s)) in
          Ok (reply s c (if (res =? -2)%Z then 0 else res))
        else Ok s
      end
  | Next w =>
      if w_loop (worker s w) && is_nil (w_stack (worker s w)) then
        let (q, x) := pop_kind (w_q (worker s w)) KPost in
        match x with
        | None => Ok (set_run s w [] false)
        | Some r => Ok (process (set_q s w q) w (q_cmd r))
        end
      else Ok s
  | Halt w => let x := worker s w in Ok (set_flags s w (w_thr x) false (w_norm x))
  | Detach w =>
      let x := worker s w in
      if negb (w_act x) && negb (w_loop x) && is_nil (w_stack x) && negb (existsb (my_event w) (evs s)) then
        Ok (set_flags s w false false (w_norm x))
      else Ok s
  | Destroy w => let x := worker s w in Ok (set_flags s w (w_thr x) (w_act x) false)
  | Clean w =>
      let x := worker s w in
      if isw w && negb (w_thr x) && negb (w_norm x) && negb (w_loop x) then
        Ok (clean_loop (q_list (w_q x)) (set_q s w (mkCQ [] (q_dflt (w_q x)) (q_cnt (w_q x)))) w)
      else Ok s
  end.
Fixpoint run (polite : bool) (s : sys) (l : list op) : res sys :=
  match l with [] => Ok s | o :: l => do s <- step polite s o; run polite s l end.
Definition init (n : nat) : sys := mkSy [] (repeat new_wk n) [] [] [] [] [] [] [] [].
