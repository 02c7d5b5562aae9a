(* SocketTransport.cxx and the stream part of SocketIOAddon (SocketThread.cxx), one direction
   of a connection: packing of packets, sending and receiving in pieces.  The socket is a
   queue of bytes; a write takes and a read gives any number of bytes.  Queues of operations
   are not limited (they are in NetModel.v).  A closed transport does nothing.  Datagram
   sockets are not modelled. *)
From Verif Require Import Common Bytes SockSpec.
Local Open Scope nat_scope.

(* NetworkTransport.cxx:82-83, NetworkTransport.h:67-74 *)
Definition inline_size : nat := 32.
Definition header_size : nat := 16 + inline_size.
(* NetworkTransport.h:76-80, Buffer.h:43 *)
Definition netot_Send : N := 1.
Definition netot_HdrSend : N := 4.
Definition mbt_AcknCounter : N := 4.
Definition header (kind typ size : N) : bytes := le 4 123 ++ le 4 kind ++ le 4 typ ++ le 4 size.

(* PackHeader, NetworkTransport.cxx:185-217, with the two ways of sending,
   SocketTransport.cxx:134-137: list of the pieces to be sent *)
Definition pack (m : message) (stale : bytes) : list bytes :=
  match m with
  | MNull => [header netot_Send 0 0 ++ stale]
  | MAck n => [header netot_HdrSend mbt_AcknCounter n ++ stale]
  | MBuf t segs =>
    let d := concat segs in
    if (0 <? length d) && (length d <=? inline_size)
    then [header netot_Send t (lenN d) ++ d ++ skipn (length d) stale]
    else (header netot_Send t (lenN d) ++ stale) :: segs
  end.

Record node : Type := mkNode {
  s_status : bool;             (* fSendStatus *)
  s_iov : list bytes;          (* fSendIOV from fSendIOVFirst *)
  s_queue : list (message * bytes);  (* fSendQueue *)
  wire : bytes;                (* in the socket *)
  r_status : nat;              (* fRecvStatus *)
  r_iov : list nat;            (* lengths in fRecvIOV from fRecvIOVFirst *)
  r_got : bytes;               (* received by the current operation *)
  r_header : bytes;            (* header of the current record *)
  r_buf : list nat;            (* buffer of the current record *)
  r_queue : list (list nat);   (* fRecvQueue *)
  out : list item;             (* delivered *)
  closed : bool
}.
Definition init : node := mkNode false [] [] [] 0 [] [] [] [] [] [] false.
Definition close (n : node) : node :=
  mkNode (s_status n) (s_iov n) (s_queue n) (wire n) (r_status n) (r_iov n) (r_got n) (r_header n) (r_buf n) (r_queue n) (out n) true.
Definition set_send (n : node) (st : bool) (iov : list bytes) (q : list (message * bytes)) (w : bytes) : node :=
  mkNode st iov q w (r_status n) (r_iov n) (r_got n) (r_header n) (r_buf n) (r_queue n) (out n) (closed n).
Definition set_recv (n : node) (st : nat) (iov : list nat) (got hdr : bytes) (buf : list nat) (q : list (list nat)) (o : list item) : node :=
  mkNode (s_status n) (s_iov n) (s_queue n) (wire n) st iov got hdr buf q o (closed n).

(* OnSendCompleted, SocketTransport.cxx:94-139 *)
Definition on_send_completed (n : node) : node :=
  match s_queue n with
  | [] => set_send n false [] [] (wire n)
  | (m, stale) :: q => set_send n true (pack m stale) q (wire n)
  end.
(* SubmitSend, SocketTransport.cxx:67-73 *)
Definition submit_send (n : node) (m : message) (stale : bytes) : node :=
  let n := set_send n (s_status n) (s_iov n) (s_queue n ++ [(m, stale)]) (wire n) in
  if (length (s_queue n) =? 1) && negb (s_status n) then on_send_completed n else n.

(* the loop after sendmsg and recvmsg, SocketThread.cxx:723-747, 630-657: [k] bytes are done;
   None: all pieces are complete *)
Fixpoint advance {A} (size : A -> nat) (cut : nat -> A -> A) (iov : list A) (k : nat) : option (list A) :=
  if k =? 0 then Some iov
  else match iov with
  | [] => None
  | x :: r => if size x <=? k then match r with [] => None | _ => advance size cut r (k - size x) end else Some (cut k x :: r)
  end.
Definition total (l : list nat) : nat := list_sum l.
(* evntSocketWrite, SocketThread.cxx:665-753 *)
Definition write (n : node) (k : nat) : node :=
  match s_iov n with
  | [] => n
  | _ =>
    let all := concat (s_iov n) in
    let k := Nat.min k (length all) in
    if length all =? 0 then close n
    else
      let w := wire n ++ firstn k all in
      match advance (@length N) (@skipn N) (s_iov n) k with
      | None => on_send_completed (set_send n (s_status n) [] (s_queue n) w)
      | Some iov => set_send n (s_status n) iov (s_queue n) w
      end
  end.

(* fields of the header, NetworkTransport.h:67-74 *)
Definition h_chkword (h : bytes) : N := unle (firstn 4 h).
Definition h_kind (h : bytes) : N := unle (firstn 4 (skipn 4 h)).
Definition h_typid (h : bytes) : N := unle (firstn 4 (skipn 8 h)).
Definition h_size (h : bytes) : N := unle (firstn 4 (skipn 12 h)).
Definition inline (h : bytes) : bytes := skipn 16 h.
Definition is_hdrsend (h : bytes) : bool := negb (N.land (h_kind h) netot_HdrSend =? 0)%N.
(* ProcessRecvCompl, NetworkTransport.cxx:362-420: the first bytes of the buffer are [got],
   its old content is not modelled (zero).  None: closed *)
Definition process_recv (h got : bytes) : option item :=
  if negb (h_chkword h =? 123)%N then None
  else if is_hdrsend h then Some (ICredit (h_size h))
  else
    let size := N.to_nat (h_size h) in
    if size =? 0 then Some (INull (h_typid h))
    else
      let d := firstn size (got ++ repeat 0%N (size - length got)) in
      Some (IBuf (h_typid h) (if size <=? inline_size then firstn size (inline h) else d)).
(* StartNetRecv, SocketThread.cxx:459-501: lengths of the pieces *)
Fixpoint recv_iov (segs : list nat) (size : nat) : list nat :=
  match segs with
  | [] => []
  | x :: r => let x := Nat.min x size in if x =? 0 then [] else x :: recv_iov r (size - x)
  end.
(* the second part of OnRecvCompleted, SocketTransport.cxx:200-223 *)
Definition start_recv (n : node) : node :=
  match r_queue n with
  | [] => set_recv n 0 [] [] [] [] [] (out n)
  | b :: q => set_recv n 1 [header_size] [] [] b q (out n)
  end.
(* OnRecvCompleted with fRecvStatus 2, SocketTransport.cxx:154-160 *)
Definition complete (n : node) (h got : bytes) : node :=
  match process_recv h got with
  | None => close n
  | Some i => start_recv (set_recv n 0 [] [] [] [] (r_queue n) (out n ++ [i]))
  end.
(* OnRecvCompleted, SocketTransport.cxx:141-224.  A record without buffer does not occur:
   receive operations are posted with buffers.  StartRecv fails only for null buffers. *)
Definition on_recv_completed (n : node) : node :=
  match r_status n with
  | 2 => complete n (r_header n) (r_got n)
  | 1 =>
    let h := r_got n in
    if is_hdrsend h then complete n h []
    else if (N.of_nat (total (r_buf n)) <? h_size h)%N then close n
    else set_recv n 2 (recv_iov (r_buf n) (N.to_nat (h_size h))) [] h (r_buf n) (r_queue n) (out n)
  | _ => start_recv n
  end.
(* SubmitRecv, SocketTransport.cxx:75-83 *)
Definition submit_recv (n : node) (b : list nat) : node :=
  let n := set_recv n (r_status n) (r_iov n) (r_got n) (r_header n) (r_buf n) (r_queue n ++ [b]) (out n) in
  if (length (r_queue n) =? 1) && (r_status n =? 0) then on_recv_completed n else n.
(* evntSocketRead, SocketThread.cxx:544-663: nothing is expected, nothing has arrived, or
   some bytes are read *)
Definition read (n : node) (k : nat) : node :=
  match r_iov n with
  | [] => n
  | _ =>
    let k := Nat.min k (Nat.min (length (wire n)) (total (r_iov n))) in
    let got := r_got n ++ firstn k (wire n) in
    let n1 := set_send n (s_status n) (s_iov n) (s_queue n) (skipn k (wire n)) in
    match advance (fun x => x) (fun k x => x - k) (r_iov n) k with
    | None => on_recv_completed (set_recv n1 (r_status n) [] got (r_header n) (r_buf n) (r_queue n) (out n))
    | Some iov => set_recv n1 (r_status n) iov got (r_header n) (r_buf n) (r_queue n) (out n)
    end
  end.

Definition step (n : node) (e : event) : node :=
  if closed n then n
  else match e with
  | ESend m stale => submit_send n m stale
  | EPost b => submit_recv n b
  | EWrite k => write n k
  | ERead k => read n k
  end.
Definition run (l : list event) : node := fold_left step l init.
