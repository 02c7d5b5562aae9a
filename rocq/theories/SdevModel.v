(* Model of the connection protocol of dabc::SocketDevice (base/src/SocketDevice.cxx:33-184 and
   255-564).

   Records and protocols are numbered as they are made; a pointer is the number.  A record which
   is not in fConnRecs any more is deleted (each removal is followed by DestroyRec), using it is
   UB.  Not modelled: addresses used again for new records, the mutex (each event is one step of
   the thread of the device), the delay of DeleteWorker, sockets and the transport itself. *)
From Verif Require Import Common Bytes SdevSpec.
Local Open Scope N_scope.

(* headerConnect and ProtocolMsgSize, base/dabc/SocketDevice.h:71-72 *)
Definition header_connect : N := 175404571.
(* request of a client, OnThreadAssigned, SocketDevice.cxx:128-138: strncpy fills 95 bytes behind
   the header, the last byte of the message is not written *)
Definition request (id : bytes) : cells :=
  map Some (le 4 header_connect ++ firstn 95 id ++ repeat 0 (95 - length id)) ++ [None].
(* inmsg+sizeof(uint32_t) as C string, SocketDevice.cxx:496 *)
Fixpoint cstr (m : cells) : res bytes :=
  match m with
  | [] | None :: _ => UB
  | Some b :: r => if b =? 0 then Ok [] else do s <- cstr r; Ok (b :: s)
  end.
Fixpoint written (m : cells) : res bytes :=
  match m with [] => Ok [] | None :: _ => UB | Some b :: r => do s <- written r; Ok (b :: s) end.
(* id in a request, SocketDevice.cxx:486-496; None: wrong header *)
Definition names (m : cells) : res (option bytes) :=
  do h <- written (firstn 4 m);
  if unle h =? header_connect then do s <- cstr (skipn 4 m); Ok (Some s) else Ok None.

(* SocketProtocolAddon, SocketDevice.cxx:73-104: server or client, request received, fRec *)
Record proc := mkP { p_no : nat; p_server : bool; p_asked : bool; p_rec : option nat }.
(* SocketDevice: fConnRecs with the ids; all protocols.  The last three fields are records of what
   happened: orders made, replies to their commands, transports made *)
Record dev := mkD { d_recs : list (nat * bytes); d_procs : list proc; d_nproc : nat;
  d_nrec : nat; d_ans : list (nat * bool); d_made : list (nat * nat) }.
Definition start : dev := mkD [] [] 0 0 [] [].

Definition same (a b : bytes) : bool := if list_eq_dec N.eq_dec a b then true else false.
(* _FindRec, SocketDevice.cxx:279-288 *)
Definition find_rec (id : bytes) (d : dev) : option nat := match find (fun e => same (snd e) id) (d_recs d) with Some e => Some (fst e) | None => None end.
Definition alive (r : nat) (d : dev) : bool := existsb (fun e => (fst e =? r)%nat) (d_recs d).
Definition find_proc (p : nat) (d : dev) : option proc := find (fun x => (p_no x =? p)%nat) (d_procs d).
Definition drop (p : nat) (d : dev) : dev :=
  mkD (d_recs d) (filter (fun x => negb (p_no x =? p)%nat) (d_procs d)) (d_nproc d) (d_nrec d) (d_ans d) (d_made d).
(* removal from fConnRecs and DestroyRec, SocketDevice.cxx:268-277 *)
Definition destroy (r : nat) (ok : bool) (d : dev) : res dev :=
  if alive r d then Ok (mkD (filter (fun e => negb (fst e =? r)%nat) (d_recs d)) (d_procs d) (d_nproc d) (d_nrec d) (d_ans d ++ [(r, ok)]) (d_made d)) else UB.
(* RemoveProtocolAddon, SocketDevice.cxx:548-564, and the end of the protocol *)
Definition remove_protocol (x : proc) (ok : bool) (d : dev) : res dev :=
  match p_rec x with None => Ok (drop (p_no x) d) | Some r => destroy r ok (drop (p_no x) d) end.
(* ProtocolCompleted, SocketDevice.cxx:508-546 *)
Definition completed (x : proc) (ok mk : bool) (d : dev) : res dev :=
  match p_rec x with
  | None => Ok (drop (p_no x) d)
  | Some r =>
      if negb (alive r d) then Ok (drop (p_no x) d)
      else
        let d' := if ok && mk then mkD (d_recs d) (d_procs d) (d_nproc d) (d_nrec d) (d_ans d) (d_made d ++ [(r, p_no x)]) else d in
        remove_protocol x (ok && mk) d'
  end.
Definition new_proc (server : bool) (r : option nat) (d : dev) : dev :=
  mkD (d_recs d) (d_procs d ++ [mkP (d_nproc d) server false r]) (S (d_nproc d)) (d_nrec d) (d_ans d) (d_made d).
Definition asked (p : nat) (r : option nat) (d : dev) : dev :=
  mkD (d_recs d) (map (fun x => if (p_no x =? p)%nat then mkP (p_no x) (p_server x) true r else x) (d_procs d)) (d_nproc d) (d_nrec d) (d_ans d) (d_made d).

Definition step (d : dev) (v : event) : res dev :=
  match v with
  | Order id =>  (* AddRec, SocketDevice.cxx:255-266 *)
      Ok (mkD (d_recs d ++ [(d_nrec d, id)]) (d_procs d) (d_nproc d) (S (d_nrec d)) (d_ans d) (d_made d))
  | Connected id =>  (* SocketDevice.cxx:423-442 *)
      match find_rec id d with None => Ok d | Some r => Ok (new_proc false (Some r) d) end
  | Failed id =>  (* SocketDevice.cxx:443-459 *)
      match find_rec id d with None => Ok d | Some r => destroy r false d end
  | Accepted => Ok (new_proc true None d)  (* SocketDevice.cxx:413-422 and 462-474 *)
  | Begin p =>  (* SocketDevice.cxx:118-148, a client takes the id from the record *)
      match find_proc p d with Some (mkP _ false _ (Some r)) => if alive r d then Ok d else UB | _ => Ok d end
  | Request p m =>  (* ServerProtocolRequest, SocketDevice.cxx:482-506 *)
      match find_proc p d with
      | Some (mkP _ true false _) =>
          do i <- names m;
          Ok (asked p (match i with Some id => find_rec id d | None => None end) d)
      | _ => Ok d
      end
  | Sent p mk =>  (* OnSendCompleted, SocketDevice.cxx:150-166 *)
      match find_proc p d with Some x => if p_server x && p_asked x then completed x true mk d else Ok d | None => Ok d end
  | Reply p ok mk =>  (* OnRecvCompleted, SocketDevice.cxx:168-183 *)
      match find_proc p d with Some x => if p_server x then Ok d else completed x ok mk d | None => Ok d end
  | Broken p =>  (* OnSocketError and FinishWork, SocketDevice.cxx:106-116 *)
      match find_proc p d with Some x => remove_protocol x false d | None => Ok d end
  | Expire r =>  (* CleanupRecs, SocketDevice.cxx:290-320 *)
      if alive r d then destroy r false d else Ok d
  end.
Fixpoint run (l : list event) (d : dev) : res dev := match l with [] => Ok d | v :: r => do e <- step d v; run r e end.
