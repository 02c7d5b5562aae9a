(* Model of the commands between two nodes: dabc::SocketCommandClient
   (base/src/SocketCommandChannel.cxx:27-520) on both ends of one connection, with
   dabc::CommandsQueue (base/src/CommandsQueue.cxx:14-126).

   A packet (header and data, written at once) is one element of a list; that bytes arrive in
   their order is C70, that the record in it is read back is C20.  A command is its number at its
   node and the bytes of its fields.  The number is not sent; it is kept in the packets only to
   say which command is meant.  Not modelled: the commands of the channel itself (AcceptClient,
   ConfigureMaster, redirection of connects), disconnect packets, damaged packets, raw data, and
   the clocks (a deadline passes by an event). *)
From Verif Require Import Common Bytes RcmdSpec.
Local Open Scope N_scope.

(* SocketCmdPacket and its kinds, base/dabc/SocketCommandChannel.h:30-45 and 70-75 *)
Inductive kind := KCommand | KReply | KCancel.
Record packet := mkP { p_kind : kind; p_id : N; p_tag : nat; p_data : bytes }.

(* entry of fSendQueue: own command, or reply to a command of the other node *)
Inductive item := Own (t : nat) (arg : bytes) | Rep (id : N) (t : nat) (r : bytes).
(* command of the other node which is executed here: field __send_cmdid__, command *)
Record job := mkJ { j_id : N; j_tag : nat; j_arg : bytes }.

(* SocketCommandClient, SocketCommandChannel.h:92-119.  The last five fields are records of
   what happened: submitted, answered, accepted for execution, executed, numbers given *)
Record side := mkS {
  s_up : bool;                  (* I/O object assigned *)
  s_act : bool;                 (* fSendingActive *)
  s_q : list item;              (* fSendQueue *)
  s_wait : list (N * nat);      (* fWaitQueue *)
  s_cnt : N;                    (* its fIdCounter *)
  s_late : list nat;            (* own commands behind their deadline *)
  s_canc : list nat;            (* own commands which are cancelled *)
  s_jobs : list job;
  s_jlate : list nat;           (* commands of the other node behind their deadline *)
  s_sub : list bytes; s_done : list (nat * answer); s_exec : list (nat * bytes); s_fin : list (nat * bytes);
  s_ids : list (N * nat) }.

Definition with_q (q : list item) (s : side) : side :=
  mkS (s_up s) (s_act s) q (s_wait s) (s_cnt s) (s_late s) (s_canc s) (s_jobs s) (s_jlate s) (s_sub s) (s_done s) (s_exec s) (s_fin s) (s_ids s).
Definition with_act (a : bool) (s : side) : side :=
  mkS (s_up s) a (s_q s) (s_wait s) (s_cnt s) (s_late s) (s_canc s) (s_jobs s) (s_jlate s) (s_sub s) (s_done s) (s_exec s) (s_fin s) (s_ids s).
Definition with_wait (w : list (N * nat)) (d : list (nat * answer)) (s : side) : side :=
  mkS (s_up s) (s_act s) (s_q s) w (s_cnt s) (s_late s) (s_canc s) (s_jobs s) (s_jlate s) (s_sub s) (s_done s ++ d) (s_exec s) (s_fin s) (s_ids s).
Definition member (t : nat) (l : list nat) : bool := existsb (Nat.eqb t) l.

(* CommandsQueue::Push, CommandsQueue.cxx:71-85: the number given, zero excluded *)
Definition next_id (c : N) : N := let i := (c + 1) mod 2^32 in if i =? 0 then 1 else i.
(* CommandsQueue::PopWithId, CommandsQueue.cxx:114-126 *)
Fixpoint pop_id (id : N) (l : list (N * nat)) : option (nat * list (N * nat)) :=
  match l with
  | [] => None
  | (i, t) :: r => if i =? id then Some (t, r) else match pop_id id r with Some (u, r') => Some (u, (i, t) :: r') | None => None end
  end.

(* SendCommand, SocketCommandChannel.cxx:432-493.  Without I/O object the command stays in the
   queue of waiting commands, and CloseClient starts the connection again *)
Definition send_one (i : item) (s : side) : side * list packet :=
  match i with
  | Own t arg =>
      if member t (s_late s) then (with_wait (s_wait s) [(t, Timedout)] s, [])
      else
        let id := next_id (s_cnt s) in
        let s' := mkS (s_up s) (s_up s) (s_q s) (s_wait s ++ [(id, t)]) id (s_late s) (s_canc s) (s_jobs s) (s_jlate s) (s_sub s) (s_done s) (s_exec s) (s_fin s) (s_ids s ++ [(id, t)]) in
        (s', if s_up s then [mkP (if member t (s_canc s) then KCancel else KCommand) id t arg] else [])
  | Rep id t r => (with_act (s_up s) s, if s_up s then [mkP KReply id t r] else [])
  end.
(* data_timeout in the header, SocketCommandChannel.cxx:452: the cast to unsigned comes before the
   multiplication; time in milliseconds.  Zero means no timeout at the receiver (lines 247-249) *)
Definition wire_timeout (ms : N) : N := ms / 1000 * 1000.
(* SendSubmittedCommands, SocketCommandChannel.cxx:424-430, with the queue [q] *)
Fixpoint send_all (q : list item) (s : side) : side * list packet :=
  match q with
  | [] => (with_q [] s, [])
  | i :: r => if s_act s then (with_q q s, []) else let '(s1, p1) := send_one i s in let '(s2, p2) := send_all r s1 in (s2, p1 ++ p2)
  end.
(* AddCommand, SocketCommandChannel.cxx:416-421 *)
Definition add (i : item) (s : side) : side * list packet := send_all (s_q s ++ [i]) s.

(* ProcessRecvPacket, SocketCommandChannel.cxx:210-295 *)
Definition process (p : packet) (s : side) : side :=
  match p_kind p with
  | KCommand =>
      mkS (s_up s) (s_act s) (s_q s) (s_wait s) (s_cnt s) (s_late s) (s_canc s) (s_jobs s ++ [mkJ (p_id p) (p_tag p) (p_data p)]) (s_jlate s)
        (s_sub s) (s_done s) (s_exec s ++ [(p_tag p, p_data p)]) (s_fin s) (s_ids s)
  | k =>
      match pop_id (p_id p) (s_wait s) with
      | None => s
      | Some (t, w) => with_wait w [(t, match k with KCancel => Timedout | _ => Result (p_data p) end)] s
      end
  end.

Fixpoint pop_job (t : nat) (l : list job) : option (job * list job) :=
  match l with
  | [] => None
  | j :: r => if (j_tag j =? t)%nat then Some (j, r) else match pop_job t r with Some (k, r') => Some (k, j :: r') | None => None end
  end.
(* CommandsQueue::ReplyTimedout, CommandsQueue.cxx:56-68, for both queues as called in
   SocketCommandChannel.cxx:515-517.  A reply has no caller any more, it is dropped *)
Definition expired (s : side) (i : item) : bool := match i with Own t _ => member t (s_late s) | Rep _ t _ => member t (s_jlate s) end.
Definition timer (s : side) : side :=
  let dead := map (fun e => (snd e, Timedout)) (filter (fun e => member (snd e) (s_late s)) (s_wait s)) in
  let dead2 := flat_map (fun i => match i with Own t _ => [(t, Timedout)] | Rep _ _ _ => [] end) (filter (expired s) (s_q s)) in
  with_q (filter (fun i => negb (expired s i)) (s_q s)) (with_wait (filter (fun e => negb (member (snd e) (s_late s))) (s_wait s)) (dead ++ dead2) s).

(* one event at one end: [inn] are the packets on the way to it; result with the packets sent *)
Definition local (o : op) (s : side) (inn : list packet) : side * list packet * list packet :=
  match o with
  | Submit arg =>
      let s1 := mkS (s_up s) (s_act s) (s_q s) (s_wait s) (s_cnt s) (s_late s) (s_canc s) (s_jobs s) (s_jlate s) (s_sub s ++ [arg]) (s_done s) (s_exec s) (s_fin s) (s_ids s) in
      let '(s2, out) := add (Own (length (s_sub s)) arg) s1 in (s2, inn, out)
  | SendDone =>  (* ProcessEvent, SocketCommandChannel.cxx:314-321 *)
      if s_up s && s_act s then let '(s2, out) := send_all (s_q s) (with_act false s) in (s2, inn, out) else (s, inn, [])
  | Recv => match inn with [] => (s, [], []) | p :: r => (process p s, r, []) end
  | Finish t r =>  (* ReplyCommand, SocketCommandChannel.cxx:297-308 *)
      match pop_job t (s_jobs s) with
      | None => (s, inn, [])
      | Some (j, l) =>
          let s1 := mkS (s_up s) (s_act s) (s_q s) (s_wait s) (s_cnt s) (s_late s) (s_canc s) l (s_jlate s) (s_sub s) (s_done s) (s_exec s) (s_fin s ++ [(t, r)]) (s_ids s) in
          let '(s2, out) := add (Rep (j_id j) t r) s1 in (s2, inn, out)
      end
  | Late t => (mkS (s_up s) (s_act s) (s_q s) (s_wait s) (s_cnt s) (t :: s_late s) (s_canc s) (s_jobs s) (s_jlate s) (s_sub s) (s_done s) (s_exec s) (s_fin s) (s_ids s), inn, [])
  | FarLate t => (mkS (s_up s) (s_act s) (s_q s) (s_wait s) (s_cnt s) (s_late s) (s_canc s) (s_jobs s) (t :: s_jlate s) (s_sub s) (s_done s) (s_exec s) (s_fin s) (s_ids s), inn, [])
  | Cancel t => (mkS (s_up s) (s_act s) (s_q s) (s_wait s) (s_cnt s) (s_late s) (t :: s_canc s) (s_jobs s) (s_jlate s) (s_sub s) (s_done s) (s_exec s) (s_fin s) (s_ids s), inn, [])
  | Timer => (timer s, inn, [])
  end.

(* both ends and the packets from client to server and back *)
Record world := mkW { w_c : side; w_s : side; w_cs : list packet; w_sc : list packet }.
Definition fresh : side := mkS true false [] [] 0 [] [] [] [] [] [] [] [] [].
Definition start : world := mkW fresh fresh [] [].

(* CloseClient, SocketCommandChannel.cxx:109-127: the client keeps all but the I/O object and
   connects again; at the server the object is destroyed with its queues.  The destructor
   (CommandsQueue.cxx:14-53) answers the commands of the send queue; the waiting ones are of
   kindNone and are not answered.  Both ends notice the break at the same time, and all packets
   on the way are lost *)
Definition close_client (s : side) : side :=
  mkS false (s_act s) (s_q s) (s_wait s) (s_cnt s) (s_late s) (s_canc s) (s_jobs s) (s_jlate s) (s_sub s) (s_done s) (s_exec s) (s_fin s) (s_ids s).
Definition close_server (s : side) : side :=
  mkS false false [] [] 0 (s_late s) (s_canc s) [] (s_jlate s) (s_sub s)
    (s_done s ++ flat_map (fun i => match i with Own t _ => [(t, Failed)] | Rep _ _ _ => [] end) (s_q s)) (s_exec s) (s_fin s) [].
(* "SocketConnect", SocketCommandChannel.cxx:130-182; a new object at the server
   (SocketCommandChannel.cxx:605-632) *)
Definition open_server (s : side) : side :=
  mkS true (s_act s) (s_q s) (s_wait s) (s_cnt s) (s_late s) (s_canc s) (s_jobs s) (s_jlate s) (s_sub s) (s_done s) (s_exec s) (s_fin s) (s_ids s).
Definition step (w : world) (v : event) : world :=
  match v with
  | At Client o => let '(c, inn, out) := local o (w_c w) (w_sc w) in mkW c (w_s w) (w_cs w ++ out) inn
  | At Server o =>
      if s_up (w_s w) then let '(s, inn, out) := local o (w_s w) (w_cs w) in mkW (w_c w) s inn (w_sc w ++ out) else w
  | Lost => if s_up (w_c w) then mkW (close_client (w_c w)) (close_server (w_s w)) [] [] else w
  | Again =>
      if s_up (w_c w) then w
      else let '(c, out) := send_all (s_q (w_c w)) (with_act false (open_server (w_c w))) in mkW c (open_server (w_s w)) out []
  end.
Definition run (l : list event) (w : world) : world := fold_left step l w.
Definition at_end (e : end_) (w : world) : side := match e with Client => w_c w | Server => w_s w end.
(* no packet on the way or being written, no command being executed *)
Definition rest (w : world) : Prop := w_cs w = [] /\ w_sc w = [] /\ s_jobs (w_c w) = [] /\ s_jobs (w_s w) = [] /\ s_act (w_c w) = false /\ s_act (w_s w) = false.
