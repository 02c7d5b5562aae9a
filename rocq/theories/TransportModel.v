(* Model of dabc::BuffersQueue (/repo/base/dabc/BuffersQueue.h,
   /repo/base/src/BuffersQueue.cxx), dabc::LocalTransport
   (/repo/base/dabc/LocalTransport.h, /repo/base/src/LocalTransport.cxx) and of
   the event loops of dabc::ModuleAsync that drive it
   (/repo/base/src/ModuleAsync.cxx).

   A buffer is an arbitrary value of type [X]; a dabc::Buffer variable is an
   [option X], [None] being the null buffer. *)
From Verif Require Import Common TransportSpec.

Section BQ.
Context {X : Type}.

(* BuffersQueue members, BuffersQueue.h:42-46 *)
Record bq := mkB { b_vect : list (option X); b_front : nat; b_tail : nat; b_size : nat }.

(* BuffersQueue(capacity), BuffersQueue.h:49-57 *)
Definition bq_new (cap : nat) : bq := mkB (repeat None cap) 0 0 0.

Definition b_cap (b : bq) : nat := length (b_vect b).

(* Full, Empty: BuffersQueue.h:83-85 *)
Definition b_full (b : bq) : bool := b_size b =? b_cap b.
Definition b_empty (b : bq) : bool := b_size b =? 0.

(* PushBuffer, BuffersQueue.h:61-68.  Results: success flag, the queue, the
   caller's buffer afterwards ("vect[tail] << buf" leaves it null), and the
   buffer released because it was overwritten. *)
Definition bq_push (b : bq) (x : option X) : bool * bq * option X * option X :=
  if b_size b =? length (b_vect b) then (false, b, x, None)
  else
    let old := nth (b_tail b) (b_vect b) None in
    (true,
     mkB (upd (b_vect b) (b_tail b) x) (b_front b) ((b_tail b + 1) mod length (b_vect b)) (S (b_size b)),
     None, old).

(* PopBuffer, BuffersQueue.h:70-77 *)
Definition bq_pop (b : bq) : bool * bq * option X :=
  if b_size b =? 0 then (false, b, None)
  else
    (true,
     mkB (upd (b_vect b) (b_front b) None) ((b_front b + 1) mod length (b_vect b)) (b_tail b) (b_size b - 1),
     nth (b_front b) (b_vect b) None).

(* Item, BuffersQueue.h:92-95 (x % 0 is UB) *)
Definition bq_item (b : bq) (n : nat) : res (option X) :=
  if length (b_vect b) =? 0 then UB
  else Ok (nth ((n + b_front b) mod length (b_vect b)) (b_vect b) None).

(* Cleanup(), BuffersQueue.cxx:20-27; returns the released buffers in order *)
Fixpoint bq_cleanup (fuel : nat) (b : bq) : res (list (option X) * bq) :=
  if b_size b =? 0 then Ok ([], b)
  else match fuel with
       | O => Loop
       | S f => let '(_, b1, x) := bq_pop b in
                do (l, b2) <- bq_cleanup f b1; Ok (x :: l, b2)
       end.

(* Cleanup(Mutex* ), BuffersQueue.cxx:29-42: stops when no (or a null) buffer
   was taken *)
Fixpoint bq_cleanup_m (fuel : nat) (b : bq) : res (list (option X) * bq) :=
  match fuel with
  | O => Loop
  | S f =>
    let '(_, b1, x) := bq_pop b in
    match x with
    | None => Ok ([], b1)
    | Some _ => do (l, b2) <- bq_cleanup_m f b1; Ok (x :: l, b2)
    end
  end.

(* sequence of calls *)
Definition b_step (o : bop X) (b : bq) : res (bout X * bq) :=
  match o with
  | BPush x => let '(ok, b1, mine, lost) := bq_push b x in Ok (OPush ok mine lost, b1)
  | BPop => let '(ok, b1, x) := bq_pop b in Ok (OPop ok x, b1)
  | BItem n => do x <- bq_item b n; Ok (OItem x, b)
  | BSize => Ok (ONat (b_size b), b)
  | BFull => Ok (OBool (b_full b), b)
  | BEmpty => Ok (OBool (b_empty b), b)
  | BCleanup => do (l, b1) <- bq_cleanup (S (b_size b)) b; Ok (OReleased l, b1)
  | BCleanupM => do (l, b1) <- bq_cleanup_m (S (S (b_size b))) b; Ok (OReleased l, b1)
  end.

Fixpoint b_run (ops : list (bop X)) (b : bq) : res (list (bout X) * bq) :=
  match ops with
  | [] => Ok ([], b)
  | o :: r => do (x, b1) <- b_step o b; do (xs, b2) <- b_run r b1; Ok (x :: xs, b2)
  end.

End BQ.
Arguments bq : clear implicits.

(* signalling kinds, Port.h:58-64 *)
Inductive sigkind := SignalNone | SignalConfirm | SignalOperation | SignalEvery.

Section LT.
Context {X : Type}.

(* LocalTransport members, LocalTransport.h:43-62 *)
Record lt := mkLT {
  t_q : bq X;
  t_outkind : sigkind;  t_sigout : nat;    (* fOutSignKind, fSignalOut *)
  t_inpkind : sigkind;  t_siginp : nat;    (* fInpSignKind, fSignalInp *)
  t_inpconn : bool;  t_outconn : bool;     (* bits of fConnected *)
  t_block_unconn : bool;                   (* fBlockWhenUnconnected *)
  t_block_conn : bool                      (* fBlockWhenConnected *)
}.

(* constructor, LocalTransport.cxx:20-34, flags set by ConnectPorts 395-431 *)
Definition lt_new (cap : nat) (ko ki : sigkind) (bu bc : bool) : lt :=
  mkLT (bq_new cap) ko 3 ki 3 true true bu bc.

(* "(fConnected == MaskConn) ? fBlockWhenConnected : fBlockWhenUnconnected" *)
Definition t_blocking (t : lt) : bool :=
  if t_inpconn t && t_outconn t then t_block_conn t else t_block_unconn t.

(* NumCanSend, LocalTransport.h:86-92 *)
Definition num_can_send (t : lt) : nat :=
  if negb (b_full (t_q t)) then b_cap (t_q t) - b_size (t_q t)
  else if t_blocking t then 0 else 1.

(* CanSend, CanRecv, LocalTransport.h:97-101 *)
Definition can_send (t : lt) : bool := 0 <? num_can_send t.
Definition can_recv (t : lt) : bool := negb (b_empty (t_q t)).

Definition set_q (t : lt) (q : bq X) : lt :=
  mkLT q (t_outkind t) (t_sigout t) (t_inpkind t) (t_siginp t) (t_inpconn t) (t_outconn t) (t_block_unconn t) (t_block_conn t).
Definition set_sigout (t : lt) (v : nat) : lt :=
  mkLT (t_q t) (t_outkind t) v (t_inpkind t) (t_siginp t) (t_inpconn t) (t_outconn t) (t_block_unconn t) (t_block_conn t).
Definition set_siginp (t : lt) (v : nat) : lt :=
  mkLT (t_q t) (t_outkind t) (t_sigout t) (t_inpkind t) v (t_inpconn t) (t_outconn t) (t_block_unconn t) (t_block_conn t).
Definition set_conn (t : lt) (i o : bool) : lt :=
  mkLT (t_q t) (t_outkind t) (t_sigout t) (t_inpkind t) (t_siginp t) i o (t_block_unconn t) (t_block_conn t).

(* the switch over fInpSignKind, LocalTransport.cxx:105-121 *)
Definition signal_inp (t : lt) : lt * bool :=
  if t_inpconn t then
    match t_inpkind t with
    | SignalNone => (t, false)
    | SignalConfirm => if t_siginp t =? 3 then (set_siginp t 1, true) else (t, false)
    | SignalOperation => if t_siginp t =? 3 then (set_siginp t 2, true) else (t, false)
    | SignalEvery => (t, true)
    end
  else (t, false).

(* the switch over fOutSignKind, LocalTransport.cxx:157-172 *)
Definition signal_out (t : lt) : lt * bool :=
  match t_outkind t with
  | SignalNone => (t, false)
  | SignalConfirm => if t_sigout t =? 3 then (set_sigout t 1, true) else (t, false)
  | SignalOperation => if t_sigout t =? 3 then (set_sigout t 2, true) else (t, false)
  | SignalEvery => (t, true)
  end.

(* Send, LocalTransport.cxx:56-139, of a non-null buffer: the part under the
   mutex.  [None]: the process is ended by exit(3) (line 98).  Otherwise the
   new state, the buffer skipped from the queue, and whether an input event
   has to be fired after the mutex is released. *)
Definition lt_send (t : lt) (x : X) : option (lt * option X * bool) :=
  let '(q1, skip) :=
    if b_full (t_q t) && negb (t_blocking t)
    then let '(_, q, s) := bq_pop (t_q t) in (q, s) else (t_q t, None) in
  let '(_, q2, mine, _) := bq_push q1 (Some x) in
  match mine with
  | Some _ => None
  | None =>
    let t1 := set_q t q2 in
    let t2 := if t_sigout t1 =? 2 then set_sigout t1 3 else t1 in
    let '(t3, fire) := signal_inp t2 in
    Some (t3, skip, fire)
  end.

(* Recv, LocalTransport.cxx:141-187, with a null buffer variable (Port.cxx:323
   always passes a fresh one): state, received buffer, fire output event *)
Definition lt_recv (t : lt) : lt * option X * bool :=
  let '(_, q1, x) := bq_pop (t_q t) in
  let t1 := set_q t q1 in
  let t2 := if t_siginp t1 =? 2 then set_siginp t1 3 else t1 in
  let '(t3, fire) := signal_out t2 in
  (t3, x, fire).

(* ConfirmEvent, LocalTransport.cxx:248-275, called through Port::ConfirmEvent
   (Port.h:94-95) only for the SignalConfirm kind *)
Definition lt_confirm (t : lt) (fromout : bool) : lt :=
  if fromout then
    match t_outkind t with
    | SignalConfirm => set_sigout t (if b_full (t_q t) then 3 else 2)
    | _ => t
    end
  else
    match t_inpkind t with
    | SignalConfirm => set_siginp t (if b_empty (t_q t) then 3 else 2)
    | _ => t
    end.

End LT.
Arguments lt : clear implicits.

(* ------------------------------------------------------------------ *)
(* Two threads using one transport: the sender calls CanSend and, when it was
   true, Send; the receiver calls Recv.  The environment may connect or
   disconnect the input side (SetConnected / Disconnect). *)
Section Pair.
Context {X : Type}.

Record pstate := mkP {
  p_t : lt X;
  p_ok : bool;             (* last CanSend() was true and not used yet *)
  p_sent : list X;         (* buffers for which Send returned *)
  p_recv : list X;         (* buffers returned by Recv *)
  p_skip : list X          (* buffers thrown away by Send *)
}.

Inductive pres := PRun (s : pstate) | PExit.   (* PExit: exit(3) called *)

Definition opt_list {A} (o : option A) : list A := match o with Some a => [a] | None => [] end.

Definition p_step (s : pstate) (a : pact X) : pres :=
  match a with
  | PCheck => PRun (mkP (p_t s) (can_send (p_t s)) (p_sent s) (p_recv s) (p_skip s))
  | PSend x =>
    if p_ok s then
      match lt_send (p_t s) x with
      | None => PExit
      | Some (t1, sk, _) => PRun (mkP t1 false (p_sent s ++ [x]) (p_recv s) (p_skip s ++ opt_list sk))
      end
    else PRun s
  | PRecv =>
    let '(t1, x, _) := lt_recv (p_t s) in
    PRun (mkP t1 (p_ok s) (p_sent s) (p_recv s ++ opt_list x) (p_skip s))
  | PConn on => PRun (mkP (set_conn (p_t s) on (t_outconn (p_t s))) (p_ok s) (p_sent s) (p_recv s) (p_skip s))
  end.

Fixpoint p_run (s : pstate) (l : list (pact X)) : pres :=
  match l with
  | [] => PRun s
  | a :: r => match p_step s a with PRun s1 => p_run s1 r | PExit => PExit end
  end.

Definition p_init (cap : nat) (ko ki : sigkind) (bu bc : bool) : pstate :=
  mkP (lt_new cap ko ki bu bc) false [] [] [].

(* the buffers in flight, oldest first, as Item(0..Size-1) shows them *)
Definition p_flight (s : pstate) : list (option X) :=
  map (fun n => nth ((n + b_front (t_q (p_t s))) mod b_cap (t_q (p_t s))) (b_vect (t_q (p_t s))) None)
      (seq 0 (b_size (t_q (p_t s)))).

End Pair.
Arguments pstate : clear implicits.
Arguments pres : clear implicits.

(* ------------------------------------------------------------------ *)
(* Two asynchronous modules in two threads, connected by one transport.
   Receiving module: ModuleAsync::ProcessItemEvent / ProcessInputEvent
   (ModuleAsync.cxx:49-83, 110-125), its ProcessRecv takes one buffer and
   returns true.  Sending module: ProcessOutputEvent (135-150), its ProcessSend
   sends one buffer and returns true.  Every mutex-protected section, every
   FireEvent and every event extraction is one atomic step; the scheduler
   chooses which thread makes the next step.  Buffers carry no content here. *)
Section Wake.

Inductive pc :=
| Idle                       (* waiting for an event of this port *)
| Confirm                    (* evntInput / evntOutput taken *)
| Check (cnt : Z)            (* at the loop condition CanRecv() / CanSend() *)
| Work (cnt : Z)             (* condition was true: about to Recv() / Send() *)
| Fire (b : bool) (cnt : Z)  (* after the mutex: fire event to the other side? *)
| Next (cnt : Z)             (* after ProcessRecv/ProcessSend returned true *)
| Reinj                      (* about to FireEvent(evnt...Reinj) *).

Record mdl := mkM {
  m_pc : pc;
  m_ev : nat;      (* evntInput (evntOutput) events in the thread queue for this port *)
  m_re : nat;      (* evntInputReinj (evntOutputReinj) events *)
  m_run : bool     (* IsRunning() *)
}.

Record wsys := mkW { w_t : lt unit; w_rcv : mdl; w_snd : mdl; w_loopr : nat; w_loops : nat }.

(* GetMaxLoopLength, Port.cxx:173-184; fMaxLoopLength 0 means queue capacity *)
Definition max_loop (k : sigkind) (len cap : nat) : Z :=
  match k with
  | SignalNone => 0%Z
  | SignalConfirm | SignalOperation => if len =? 0 then Z.of_nat cap else Z.of_nat len
  | SignalEvery => (-1)%Z
  end.

Inductive who := Rcv | Snd.
Inductive wact :=
| TakeEv (w : who)      (* thread extracts an evntInput / evntOutput event *)
| TakeRe (w : who)      (* thread extracts a re-injected event *)
| Go (w : who)          (* thread makes the next step of its running loop *)
| Stop (w : who)        (* DoStop, Module.cxx:586-605, while the thread is idle *)
| Start (w : who)       (* DoStart, ModuleAsync.cxx:85-100, while idle *).

Definition set_pc (m : mdl) (p : pc) : mdl := mkM p (m_ev m) (m_re m) (m_run m).
Definition add_ev (m : mdl) (n : nat) : mdl := mkM (m_pc m) (n + m_ev m) (m_re m) (m_run m).

Definition upd_mdl (s : wsys) (w : who) (m : mdl) : wsys :=
  match w with
  | Rcv => mkW (w_t s) m (w_snd s) (w_loopr s) (w_loops s)
  | Snd => mkW (w_t s) (w_rcv s) m (w_loopr s) (w_loops s)
  end.
Definition get_mdl (s : wsys) (w : who) : mdl := match w with Rcv => w_rcv s | Snd => w_snd s end.
Definition upd_t (s : wsys) (t : lt unit) : wsys := mkW t (w_rcv s) (w_snd s) (w_loopr s) (w_loops s).
Definition other (w : who) : who := match w with Rcv => Snd | Snd => Rcv end.

(* GetMaxLoopLength of the port of that side *)
Definition loop_of (s : wsys) (w : who) : Z :=
  match w with
  | Rcv => max_loop (t_inpkind (w_t s)) (w_loopr s) (b_cap (t_q (w_t s)))
  | Snd => max_loop (t_outkind (w_t s)) (w_loops s) (b_cap (t_q (w_t s)))
  end.

(* the loop condition of ProcessInputEvent / ProcessOutputEvent *)
Definition loop_cond (s : wsys) (w : who) : bool :=
  match w with Rcv => can_recv (w_t s) | Snd => can_send (w_t s) end.

(* NumStartEvents, Port.cxx:305-318 and 364-377 *)
Definition start_events (s : wsys) (w : who) : nat :=
  match w with
  | Rcv => match t_inpkind (w_t s) with
           | SignalNone => 0
           | SignalEvery => b_size (t_q (w_t s))
           | _ => if can_recv (w_t s) then 1 else 0
           end
  | Snd => match t_outkind (w_t s) with
           | SignalNone => 0
           | SignalEvery => num_can_send (w_t s)
           | _ => if can_send (w_t s) then 1 else 0
           end
  end.

(* [None]: the action is not possible in this state *)
Definition w_step (s : wsys) (a : wact) : option wsys :=
  match a with
  | TakeEv w =>
    let m := get_mdl s w in
    match m_pc m, m_ev m with
    | Idle, S n =>
      (* Module::ProcessEvent, Module.cxx:822-833: dropped unless running *)
      Some (upd_mdl s w (mkM (if m_run m then Confirm else Idle) n (m_re m) (m_run m)))
    | _, _ => None
    end
  | TakeRe w =>
    let m := get_mdl s w in
    match m_pc m, m_re m with
    | Idle, S n => Some (upd_mdl s w (mkM (if m_run m then Check (loop_of s w) else Idle) (m_ev m) n (m_run m)))
    | _, _ => None
    end
  | Stop w =>
    let m := get_mdl s w in
    match m_pc m with Idle => Some (upd_mdl s w (mkM Idle (m_ev m) (m_re m) false)) | _ => None end
  | Start w =>
    let m := get_mdl s w in
    match m_pc m with
    | Idle => if m_run m then Some s
              else Some (upd_mdl s w (mkM Idle (start_events s w + m_ev m) (m_re m) true))
    | _ => None
    end
  | Go w =>
    let m := get_mdl s w in
    match m_pc m with
    | Idle => None
    | Confirm =>
      Some (upd_mdl (upd_t s (lt_confirm (w_t s) (match w with Snd => true | Rcv => false end)))
                    w (set_pc m (Check (loop_of s w))))
    | Check c =>
      Some (upd_mdl s w (set_pc m (if loop_cond s w then Work c else Idle)))
    | Work c =>
      match w with
      | Rcv => let '(t1, _, f) := lt_recv (w_t s) in Some (upd_mdl (upd_t s t1) w (set_pc m (Fire f c)))
      | Snd => match lt_send (w_t s) tt with
               | None => None
               | Some (t1, _, f) => Some (upd_mdl (upd_t s t1) w (set_pc m (Fire f c)))
               end
      end
    | Fire f c =>
      let s1 := upd_mdl s w (set_pc m (Next c)) in
      if f then Some (upd_mdl s1 (other w) (add_ev (get_mdl s1 (other w)) 1)) else Some s1
    | Next c =>
      (* "if (cnt<0) return; if (cnt-- == 0) { FireEvent(reinj); return; }" *)
      Some (upd_mdl s w (set_pc m
        (if (c <? 0)%Z then Idle else if (c =? 0)%Z then Reinj else Check (c - 1)%Z)))
    | Reinj => Some (upd_mdl s w (mkM Idle (m_ev m) (S (m_re m)) (m_run m)))
    end
  end.

(* a schedule; impossible actions are skipped *)
Fixpoint w_run (s : wsys) (l : list wact) : wsys :=
  match l with
  | [] => s
  | a :: r => w_run (match w_step s a with Some s1 => s1 | None => s end) r
  end.

(* counting what a schedule does: executed steps of the two threads, buffers
   sent, buffers received *)
Definition is_work (s : wsys) (w : who) (a : wact) : nat :=
  match a with
  | Go w' => match w, w' with
             | Rcv, Rcv | Snd, Snd => match m_pc (get_mdl s w) with Work _ => 1 | _ => 0 end
             | _, _ => 0
             end
  | _ => 0
  end.
Definition is_thread_step (a : wact) : nat := match a with Stop _ | Start _ => 0 | _ => 1 end.

Fixpoint w_count (s : wsys) (l : list wact) : nat * nat * nat :=
  match l with
  | [] => (0, 0, 0)
  | a :: r =>
    match w_step s a with
    | None => w_count s r
    | Some s1 =>
      let '(n, sn, rc) := w_count s1 r in
      (is_thread_step a + n, is_work s Snd a + sn, is_work s Rcv a + rc)
    end
  end.

(* both modules connected and started on an empty queue *)
Definition w_init (cap : nat) (ko ki : sigkind) (bu bc : bool) (lr ls : nat) : wsys :=
  let t := lt_new cap ko ki bu bc in
  let s0 := mkW t (mkM Idle 0 0 true) (mkM Idle 0 0 true) lr ls in
  mkW t (mkM Idle (start_events s0 Rcv) 0 true) (mkM Idle (start_events s0 Snd) 0 true) lr ls.

End Wake.
