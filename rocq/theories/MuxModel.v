(* dabc::MultiplexerModule (MultiplexerModule.cxx) with any number of inputs and outputs,
   each connected by a LocalTransport (TransportModel.v) to a module of another thread.
   Every mutex-protected section, every FireEvent and every event extraction is one step.
   The events of the module are one first-in-first-out list (ThreadModel.v), fQueue is a list
   (QueueModel.v, C01).  All ports stay connected; ports without connection are not modelled.
   A buffer is a value of [X]: Duplicate gives the same value. *)
From Verif Require Import Common TransportSpec TransportModel MuxSpec.
Local Open Scope nat_scope.

Section M.
Context {X : Type}.

Inductive xev := EvIn (i : nat) | EvOut (o : nat).
Inductive xpc :=
| XIdle
| XConfirm (o : nat)                          (* evntOutput taken, ModuleAsync.cxx:62-66 *)
| XCheck (n : nat)                            (* CanSendToAllOutputs at output n *)
| XRecv (i : nat)                             (* about to Recv(i) *)
| XFlag (n : nat) (fl : list bool) (p : nat * X)  (* SendToAllOutputs: CanSend of output n *)
| XSend (n : nat) (fl : list bool) (p : nat * X)  (* SendToAllOutputs: Send to output n *).

Record mux := mkX {
  x_inp : list (lt X);
  x_out : list (lt X);
  x_q : list nat;                 (* fQueue *)
  x_ev : list xev;                (* events of the module *)
  x_win : list nat;               (* input events which senders are going to fire *)
  x_wout : list nat;              (* output events which receivers are going to fire *)
  x_pc : xpc;
  x_run : bool;
  x_exit : bool;                  (* exit() was called *)
  (* what happened so far *)
  x_arrived : list (nat * X);     (* accepted buffers with their input *)
  x_fired : list nat;             (* inputs in the order of their events *)
  x_done : list (nat * X);        (* buffers for which SendToAllOutputs was called *)
  x_taken : list (list X)         (* received from each output *)
}.

Definition set_ev (s : mux) ev win wout fired := mkX (x_inp s) (x_out s) (x_q s) ev win wout (x_pc s) (x_run s) (x_exit s) (x_arrived s) fired (x_done s) (x_taken s).
Definition set_h (s : mux) q pc := mkX (x_inp s) (x_out s) q (x_ev s) (x_win s) (x_wout s) pc (x_run s) (x_exit s) (x_arrived s) (x_fired s) (x_done s) (x_taken s).
Definition set_out (s : mux) out wout taken := mkX (x_inp s) out (x_q s) (x_ev s) (x_win s) wout (x_pc s) (x_run s) (x_exit s) (x_arrived s) (x_fired s) (x_done s) taken.
Definition set_inp (s : mux) inp win arr := mkX inp (x_out s) (x_q s) (x_ev s) win (x_wout s) (x_pc s) (x_run s) (x_exit s) arr (x_fired s) (x_done s) (x_taken s).
Definition set_done (s : mux) d := mkX (x_inp s) (x_out s) (x_q s) (x_ev s) (x_win s) (x_wout s) (x_pc s) (x_run s) (x_exit s) (x_arrived s) (x_fired s) d (x_taken s).
Definition set_exit (s : mux) := mkX (x_inp s) (x_out s) (x_q s) (x_ev s) (x_win s) (x_wout s) (x_pc s) (x_run s) true (x_arrived s) (x_fired s) (x_done s) (x_taken s).
Definition set_run (s : mux) r := mkX (x_inp s) (x_out s) (x_q s) (x_ev s) (x_win s) (x_wout s) (x_pc s) r (x_exit s) (x_arrived s) (x_fired s) (x_done s) (x_taken s).

Definition remove_at {A} (k : nat) (l : list A) : list A := firstn k l ++ skipn (S k) l.

(* NumStartEvents of inputs and outputs, Port.cxx:306-318, 365-377 *)
Definition in_start (t : lt X) : nat :=
  match t_inpkind t with SignalNone => 0 | SignalEvery => b_size (t_q t) | _ => if can_recv t then 1 else 0 end.
Definition out_start (t : lt X) : nat :=
  match t_outkind t with SignalNone => 0 | SignalEvery => num_can_send t | _ => if can_send t then 1 else 0 end.
Fixpoint numbered {A B} (f : nat -> A -> list B) (n : nat) (l : list A) : list B :=
  match l with [] => [] | x :: r => f n x ++ numbered f (S n) r end.
(* DoStart, ModuleAsync.cxx:85-101: events produced for inputs, then for outputs *)
Definition start_in (s : mux) : list nat := numbered (fun n t => repeat n (in_start t)) 0 (x_inp s).
Definition start_out (s : mux) : list nat := numbered (fun n t => repeat n (out_start t)) 0 (x_out s).
Definition start (s : mux) : mux :=
  set_run (set_ev s (x_ev s ++ map EvIn (start_in s) ++ map EvOut (start_out s)) (x_win s) (x_wout s) (x_fired s ++ start_in s)) true.

(* module created with the ports connected: inputs have SignalEvery
   (MultiplexerModule.cxx:29-30), transports block (LocalTransport.cxx:417-420), then started *)
Definition mux_new (icaps : list nat) (outs : list (nat * sigkind)) (ikind : sigkind) : mux :=
  mkX (map (fun c => lt_new c SignalConfirm ikind false true) icaps)
      (map (fun c => lt_new (fst c) (snd c) SignalConfirm false true) outs)
      [] [] [] [] XIdle false false [] [] [] (map (fun _ => []) outs).

(* one step of the thread of the module *)
Definition go (s : mux) : mux :=
  match x_pc s with
  | XIdle => s
  | XConfirm o =>
    (* ConfirmEvent, ModuleAsync.cxx:63; ProcessOutputEvent, MultiplexerModule.cxx:49-52 *)
    match nth_error (x_out s) o with
    | Some t => set_h (set_out s (upd (x_out s) o (lt_confirm t true)) (x_wout s) (x_taken s)) (x_q s) (XCheck 0)
    | None => s
    end
  | XCheck n =>
    (* CheckDataSending, MultiplexerModule.cxx:54-61; CanSendToAllOutputs, Module.cxx:932-940 *)
    match nth_error (x_out s) n with
    | Some t => if can_send t then set_h s (x_q s) (XCheck (S n)) else set_h s (x_q s) XIdle
    | None => match x_q s with [] => set_h s [] XIdle | i :: q => set_h s q (XRecv i) end
    end
  | XRecv i =>
    (* MultiplexerModule.cxx:62-74: a wrong number is taken as 0 *)
    let i := if i <? length (x_inp s) then i else 0 in
    match nth_error (x_inp s) i with
    | Some t =>
      let '(t1, x, _) := lt_recv t in
      let s1 := set_inp s (upd (x_inp s) i t1) (x_win s) (x_arrived s) in
      match x with
      | None => set_h s1 (x_q s) (XCheck 0)
      | Some b => set_h s1 (x_q s) (XFlag 0 [] (i, b))
      end
    | None => s
    end
  | XFlag n fl p =>
    (* SendToAllOutputs, Module.cxx:946-951 *)
    match nth_error (x_out s) n with
    | Some t => set_h s (x_q s) (XFlag (S n) (fl ++ [can_send t]) p)
    | None => set_h (set_done s (x_done s ++ [p])) (x_q s) (XSend 0 fl p)
    end
  | XSend n fl p =>
    (* Module.cxx:953-965 *)
    match nth_error (x_out s) n with
    | Some t =>
      if nth n fl false then
        match lt_send t (snd p) with
        | None => set_exit s
        | Some (t1, _, _) => set_h (set_out s (upd (x_out s) n t1) (x_wout s) (x_taken s)) (x_q s) (XSend (S n) fl p)
        end
      else set_h s (x_q s) (XSend (S n) fl p)
    | None => set_h s (x_q s) (XCheck 0)
    end
  end.

Definition step (s : mux) (a : xact X) : mux :=
  if x_exit s then s
  else match a with
  | AArrive i x =>
    match nth_error (x_inp s) i with
    | Some t =>
      if can_send t then
        match lt_send t x with
        | None => set_exit s
        | Some (t1, _, f) => set_inp s (upd (x_inp s) i t1) (x_win s ++ (if f then [i] else [])) (x_arrived s ++ [(i, x)])
        end
      else s
    | None => s
    end
  | AFireIn k =>
    match nth_error (x_win s) k with
    | Some i => set_ev s (x_ev s ++ [EvIn i]) (remove_at k (x_win s)) (x_wout s) (x_fired s ++ [i])
    | None => s
    end
  | ATake o =>
    match nth_error (x_out s) o with
    | Some t =>
      let '(t1, x, f) := lt_recv t in
      set_out s (upd (x_out s) o t1) (x_wout s ++ (if f then [o] else []))
        (upd (x_taken s) o (nth o (x_taken s) [] ++ match x with Some b => [b] | None => [] end))
    | None => s
    end
  | AFireOut k =>
    match nth_error (x_wout s) k with
    | Some o => set_ev s (x_ev s ++ [EvOut o]) (x_win s) (remove_at k (x_wout s)) (x_fired s)
    | None => s
    end
  | AEvent =>
    (* Module.cxx:822-833: only while running *)
    match x_pc s, x_ev s with
    | XIdle, e :: r =>
      let s1 := set_ev s r (x_win s) (x_wout s) (x_fired s) in
      if x_run s then
        match e with
        | EvIn i => set_h s1 (x_q s ++ [i]) (XCheck 0)   (* MultiplexerModule.cxx:39-47 *)
        | EvOut o => set_h s1 (x_q s) (XConfirm o)
        end
      else s1
    | _, _ => s
    end
  | AGo => go s
  | AStop => match x_pc s with XIdle => set_run s false | _ => s end
  | AStart => match x_pc s with XIdle => if x_run s then s else start s | _ => s end
  end.
Definition run (s : mux) (l : list (xact X)) : mux := fold_left step l s.

(* buffers in a transport, oldest first *)
Definition content (t : lt X) : list (option X) :=
  map (fun n => nth ((n + b_front (t_q t)) mod b_cap (t_q t)) (b_vect (t_q t)) None) (seq 0 (b_size (t_q t))).
End M.
Arguments mux : clear implicits.
Arguments xpc : clear implicits.
