(* What is said about the commands system. *)
From Verif Require Import Common CmdQSpec CmdQModel CmdModel.
Open Scope nat_scope.

Definition clr_dec (a b : clr) : {a = b} + {a <> b}.
Proof. decide equality; [decide equality|]; apply Nat.eq_dec. Defined.
Definition call_dec (a b : nat * clr) : {a = b} + {a <> b}.
Proof. decide equality; [apply clr_dec|apply Nat.eq_dec]. Defined.
(* how often (command, caller) is in a list *)
Definition times (x : nat * clr) (l : list (nat * clr)) : nat := count_occ call_dec l x.
(* replies for the caller in the queue of its worker, not yet processed *)
Definition waiting (s : sys) (c : nat) (r : clr) : nat :=
  match snd r with
  | None => length (filter (fun e => (q_cmd e =? c) && kind_eqb (q_kind e) KReply) (q_list (w_q (worker s (fst r)))))
  | Some _ => 0
  end.
(* the worker of the caller does not take the reply *)
Definition refuses (s : sys) (r : clr) : bool := negb (w_thr (worker s (fst r)) && w_act (worker s (fst r))).

(* the steps by which commands and replies reach their destination: no new command, no new
   caller, no change of the workers *)
Definition delivery (o : op) : bool := match o with Notify _ | Deliver _ | Next _ | Reply _ _ | Finish _ _ => true | _ => false end.
(* nothing is on its way and nobody holds a command *)
Definition quiet (s : sys) : Prop := hands s = [] /\ fly s = [] /\ evs s = [] /\ forall w, w_stack (worker s w) = [] /\ w_loop (worker s w) = false.
Definition normal (s : sys) : Prop := forall w, w < length (wks s) -> w_norm (worker s w) = true.
(* GetResult Command.h:174 *)
Definition result (s : sys) (c : nat) : Z := match c_res (command s c) with Some r => r | None => 0%Z end.
(* a is contained in b in this order *)
Inductive sub {A} : list A -> list A -> Prop :=
| sub_nil : forall b, sub [] b
| sub_keep : forall x a b, sub a b -> sub (x :: a) (x :: b)
| sub_skip : forall x a b, sub a b -> sub a (x :: b).
