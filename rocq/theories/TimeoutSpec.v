(* Time-outs of workers, as a user sees them.  Times are integers (ticks). *)
From Verif Require Import Common.
Local Open Scope Z_scope.

(* what a worker does inside ProcessTimeout *)
Inductive cbop :=
| CAct (slot : nat) (now tm : Z)   (* calls ActivateTimeout(tm) of some worker *)
| CEvent (slot : nat)              (* runs a nested event loop which takes the activation event of a slot *).

(* reaction of slot [i] to ProcessTimeout(last_diff): actions and returned interval *)
Definition reaction := nat -> Z -> list cbop * Z.

Inductive kact :=
| KAct (slot : nat) (now tm : Z)              (* ActivateTimeout(tm) called at time now *)
| KEvent (slot : nat) (now : Z) (cb : reaction)  (* the loop processes the activation event *)
| KCheck (now : Z) (cb : reaction)            (* the loop makes its regular time-out check *)
| KRemove (slot : nat)                        (* the worker leaves the thread *)
| KAdd                                        (* a worker enters the thread *).

(* ProcessTimeout(last) called for slot at time now *)
Record deliv := mkD { d_slot : nat; d_now : Z; d_last : Z }.

Record sslot := mkSS {
  ss_alive : bool;
  ss_req : option (Z * Z);   (* activation not yet seen by the loop: time, interval *)
  ss_dl : option Z;          (* when ProcessTimeout is due *)
  ss_prev : option Z         (* reference point for last_diff *)
}.
Definition ss_new := mkSS true None None None.
Definition ss_dead := mkSS false None None None.

Definition ss_get (l : list sslot) (i : nat) : sslot := nth i l ss_dead.

Definition ss_act (l : list sslot) (i : nat) (now tm : Z) : list sslot :=
  let s := ss_get l i in upd l i (mkSS (ss_alive s) (Some (now, tm)) (ss_dl s) (ss_prev s)).

Definition ss_cb (l : list sslot) (o : cbop) : list sslot :=
  match o with CAct i now tm => ss_act l i now tm | CEvent _ => l end.

(* one slot is looked at at time [now]: due exactly when the time lies after its deadline *)
Definition ss_check1 (l : list sslot) (i : nat) (now : Z) (cb : reaction) : list sslot * list deliv :=
  let s := ss_get l i in
  match (if ss_alive s then ss_dl s else None) with
  | None => (l, [])
  | Some d =>
    if d <? now then
      let last := match ss_prev s with None => 0 | Some p => now - p end in
      let '(ops, dist) := cb i last in
      let l1 := fold_left ss_cb ops l in
      let s1 := ss_get l1 i in
      (upd l1 i (if 0 <=? dist then mkSS (ss_alive s1) (ss_req s1) (Some (now + dist)) (Some now)
                 else mkSS (ss_alive s1) (ss_req s1) None None),
       [mkD i now last])
    else (l, [])
  end.

Fixpoint ss_checks (idx : list nat) (l : list sslot) (now : Z) (cb : reaction) : list sslot * list deliv :=
  match idx with
  | [] => (l, [])
  | i :: r => let '(l1, o1) := ss_check1 l i now cb in
              let '(l2, o2) := ss_checks r l1 now cb in (l2, o1 ++ o2)
  end.

Definition ss_check (l : list sslot) (now : Z) (cb : reaction) := ss_checks (seq 0 (length l)) l now cb.

Definition ss_step (l : list sslot) (a : kact) : list sslot * list deliv :=
  match a with
  | KAct i now tm => (ss_act l i now tm, [])
  | KCheck now cb => ss_check l now cb
  | KRemove i => (upd l i ss_dead, [])
  | KAdd => (l ++ [ss_new], [])
  | KEvent i now cb =>
    let s := ss_get l i in
    if ss_alive s then
      match ss_req s with
      | None => (l, [])
      | Some (m, v) =>
        if v <? 0 then (upd l i (mkSS true None None None), [])
        else ss_check (upd l i (mkSS true None (Some (m + v))
                         (match ss_prev s with None => if 0 <? v then Some m else None | p => p end))) now cb
      end
    else (l, [])
  end.

Fixpoint ss_run (l : list sslot) (acts : list kact) : list sslot * list deliv :=
  match acts with
  | [] => (l, [])
  | a :: r => let '(l1, o1) := ss_step l a in let '(l2, o2) := ss_run l1 r in (l2, o1 ++ o2)
  end.

(* a clock that runs forward, and reactions that do not nest event loops *)
Definition cb_ok (t : Z) (cb : reaction) : Prop :=
  forall i ld, Forall (fun o => match o with CAct _ now _ => t <= now | CEvent _ => False end) (fst (cb i ld)).
Definition act_time (a : kact) : option Z :=
  match a with KAct _ t _ | KEvent _ t _ | KCheck t _ => Some t | _ => None end.
Fixpoint clock_ok (t0 : Z) (l : list kact) : Prop :=
  match l with
  | [] => True
  | a :: r => match act_time a with
              | None => clock_ok t0 r
              | Some t => t0 <= t /\ match a with KEvent _ _ cb | KCheck _ cb => cb_ok t cb | _ => True end /\ clock_ok t r
              end
  end.

(* slot [i] is left alone: not activated, not removed *)
Definition cb_leaves (i : nat) (cb : reaction) : Prop :=
  forall j ld, Forall (fun o => match o with CAct k _ _ => k <> i | CEvent _ => True end) (fst (cb j ld)).
Definition leaves (i : nat) (a : kact) : Prop :=
  match a with
  | KAct j _ _ | KRemove j => j <> i
  | KEvent _ _ cb | KCheck _ cb => cb_leaves i cb
  | KAdd => True
  end.
(* the action happens at or before time t *)
Definition not_after (t : Z) (a : kact) : Prop := match act_time a with Some x => x <= t | None => True end.
(* deliveries to slot [i] *)
Definition delivered (i : nat) (o : list deliv) : list deliv := filter (fun d => Nat.eqb (d_slot d) i) o.
