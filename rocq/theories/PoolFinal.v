(* Content effects on reachable states. *)
From Verif Require Import Common BufferSpec BufferModel PoolSpec PoolModel PoolProofs PoolRuns PoolContent.

Lemma content_after {B} (blocks : list (list B)) nh (s s' : st B) op :
  Forall (fun b => b <> []) blocks -> reach blocks nh s -> op_ok (view_of s) (s_raw s) op -> step s op = Ok (s', RDone) ->
  content_rel (view_of s) op (view_of s') /\ content_frame (view_of s) op (view_of s').
Proof.
  intros H R OK E. destruct (reach_inv blocks nh s H R) as (I & _). destruct (step_total blocks nh s op H R OK) as (s2 & o & E2 & D).
  rewrite E in E2. injection E2 as <- <-. destruct D as [[D _]|[_ D]]; [discriminate|]. eapply step_content; eauto. apply Inv_sound. auto.
Qed.
