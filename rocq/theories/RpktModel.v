(* Model of the packets of the command channel: SendCommand and the receiving part of
   dabc::SocketCommandClient (base/src/SocketCommandChannel.cxx:81-107, 210-295, 323-398 and
   432-493).

   The stream is given byte by byte: a receive operation is completed when its last byte has
   come (C70 shows it for the socket).  The buffer fRecvBuf is a list of cells, empty when there
   is none.  [decodes] says which bytes are a command (C20), [known] for which replies there is a
   waiting command, [redirect] if the channel has a device for connections.  Not modelled: failing
   memory allocations, what is done with the commands (C83), and failures of the socket. *)
From Verif Require Import Common Bytes RpktSpec.
Local Open Scope N_scope.

(* headerDabc SocketCommandChannel.h:66-68; headerConnect and ProtocolMsgSize, SocketDevice.h:71-72 *)
Definition header_dabc : N := 123707321.
Definition header_connect : N := 175404571.
Definition msg_size : N := 100.

(* SendCommand, SocketCommandChannel.cxx:450-490, from the encoded command and the segments of the
   raw data: the pointer is the one of the first segment, the size that of all *)
Definition header (kind timeout cmdsize rawsize : N) : bytes :=
  le 4 header_dabc ++ le 4 kind ++ le 4 timeout ++ le 4 (cmdsize + rawsize) ++ le 4 cmdsize ++ le 4 rawsize.
Definition copy {A} (buf : list A) (off n : N) : res (list A) :=
  if off + n <=? lenN buf then Ok (takeN n (dropN off buf)) else UB.
Definition send (kind timeout : N) (cmd : bytes) (raw : list bytes) : res bytes :=
  let rawsize := lenN (concat raw) in
  do r <- (if 0 <? rawsize then copy (hd [] raw) 0 rawsize else Ok []);
  Ok (header kind timeout (lenN cmd) rawsize ++ cmd ++ r).

(* EnsureRecvBuffer, SocketCommandChannel.cxx:81-107, not for zero: the size is an unsigned
   number and doubled until it is larger than wanted *)
Fixpoint grow (fuel : nat) (size want : N) : res N :=
  match fuel with
  | O => Loop
  | S f => if size <=? want then grow f ((size * 2) mod 2 ^ 32) want else Ok size
  end.
Definition ensure (want : N) (buf : cells) : res cells :=
  if want <? lenN buf then Ok buf else do n <- grow 64 2048 want; Ok (repeat None (N.to_nat n)).

(* ERecvState, SocketCommandChannel.h:85-90, with the header of the packet; Closed: no I/O object *)
Inductive rstate := WantHdr | WantData (h : bytes) | WantDev | Closed.
Record rx := mkR { x_st : rstate; x_got : bytes; x_buf : cells }.
Definition want (st : rstate) : N :=
  match st with WantHdr => 24 | WantData h => field 3 h | WantDev => msg_size - 24 | Closed => 0 end.
Definition close (buf : cells) : res (rx * list seen) := Ok (mkR Closed [] buf, []).

Section Receiver.
  Context (decodes known : cells -> bool) (redirect : bool).

  (* ProcessRecvPacket, SocketCommandChannel.cxx:210-295.  Other kinds are ignored *)
  Definition process (h : bytes) (buf : cells) : res (rx * list seen) :=
    let kind := field 1 h in let cmdsize := field 4 h in let rawsize := field 5 h in
    let next := mkR WantHdr [] buf in
    if kind =? 4 then close buf
    else if cmdsize =? 0 then close buf
    else
      do cmd <- copy buf 0 cmdsize;
      if negb (decodes cmd) then close buf
      else if kind =? 1 then
        do raw <- (if 0 <? rawsize then copy buf cmdsize rawsize else Ok []);
        Ok (next, [Got 1 (field 2 h) cmd raw])
      else if kind =? 2 then
        if known cmd then
          do raw <- (if 0 <? rawsize then copy buf cmdsize rawsize else Ok []);
          Ok (next, [Got 2 0 cmd raw])
        else Ok (next, [])
      else if kind =? 3 then Ok (next, if known cmd then [Got 3 0 cmd []] else [])
      else Ok (next, []).

  (* evntSocketRecvInfo, SocketCommandChannel.cxx:323-399: all bytes of the operation are there *)
  Definition complete (st : rstate) (g : bytes) (buf : cells) : res (rx * list seen) :=
    match st with
    | Closed => close buf
    | WantHdr =>
        if field 0 g =? header_connect then
          if redirect then do b <- ensure msg_size buf; Ok (mkR WantDev [] (map Some g ++ dropN 24 b), []) else close buf
        else if negb (field 0 g =? header_dabc) then close buf
        else if field 3 g =? 0 then process g buf
        else do b <- ensure (field 3 g) buf; Ok (mkR (WantData g) [] b, [])
    | WantData h => process h (map Some g ++ dropN (lenN g) buf)
    | WantDev =>
        let b := takeN 24 buf ++ map Some g ++ dropN (24 + lenN g) buf in
        do r <- copy b 0 msg_size; Ok (mkR Closed [] b, [Redirect r])
    end.

  (* one byte of the stream *)
  Definition feed (x : rx) (b : N) : res (rx * list seen) :=
    match x_st x with
    | Closed => Ok (x, [])
    | st => let g := x_got x ++ [b] in if lenN g <? want st then Ok (mkR st g (x_buf x), []) else complete st g (x_buf x)
    end.
  Fixpoint run (s : bytes) (x : rx) : res (rx * list seen) :=
    match s with
    | [] => Ok (x, [])
    | b :: r => do y <- feed x b; do z <- run r (fst y); Ok (fst z, snd y ++ snd z)
    end.
End Receiver.

(* a new connection, SocketCommandChannel.cxx:145-158: the buffer stays *)
Definition connect (x : rx) : rx := mkR WantHdr [] (x_buf x).
Definition fresh : rx := mkR WantHdr [] [].
