(* C27, C28: references and vectors of references. *)
From Verif Require Import Common RefSpec RefModel RefProofs.

Definition start (nvars nvecs : nat) : spec := mkSp [] (repeat None nvars) (repeat [] nvecs).
Definition spec_run (nvars nvecs : nat) (l : list rop) : spec := fold_left spec_step l (start nvars nvecs).

Lemma run_start nvars nvecs l : ops_ok (start nvars nvecs) l -> exists s, run (init nvars nvecs) l = Ok s /\ R (spec_run nvars nvecs l) s.
Proof. intros H. exact (run_ok l _ _ (R_init nvars nvecs) H). Qed.

(* C27.  For any sequence of operations in which no reference is assigned or moved to itself
   (and none is given a pointer on the object it already refers to) the references are those
   of the specification, every existing object counts exactly the references to it, and an
   object is deleted exactly when nothing refers to it and it is under automatic destruction
   or was asked to go.  Never undefined behaviour, hence never a use after deletion and never
   a second deletion.  Missing for the full property: self assignment, refuted below.
   Objects with childs, with an own thread or registered for the manager's cleanup are not
   covered (C26). *)
Theorem C27_reference_counts_partial nvars nvecs l : ops_ok (start nvars nvecs) l ->
  let sp := spec_run nvars nvecs l in
  exists s, run (init nvars nvecs) l = Ok s /\
    vars s = sp_vars sp /\
    (forall o x, nth_error (heap s) o = Some (Some x) -> o_cnt x = uses sp o) /\
    (forall o, o < length (sp_objs sp) -> ((exists x, nth_error (heap s) o = Some (Some x)) <-> alive sp o)).
Proof.
  intros H. cbv zeta. destruct (run_start nvars nvecs l H) as (s & M & Rr). exists s. split; [exact M|]. split; [apply Rr|]. split.
  - intros o x E0. rewrite <- (R_uses _ _ o Rr). destruct Rr as ((L & I) & _). specialize (I o).
    destruct (nth_error (sp_objs (spec_run nvars nvecs l)) o) as [f|] eqn:Q.
    + rewrite E0 in I. unfold shows in I. destruct ((total [] s o =? 0) && (fst f || snd f)); [discriminate|]. injection I as ->. reflexivity.
    + apply nth_error_None in Q. assert (o < length (heap s)) by (apply nth_error_Some; congruence). lia.
  - intros o Lo. apply iff_sym. apply (R_alive _ _ o Rr).
Qed.
Print Assumptions C27_reference_counts_partial.

(* a = new auto object; b = a; c = new object; vector: Add(b); Destroy c; d << a; RemoveAt 0; Release d *)
Definition ops27 : list rop := [New 0 true; Assign 1 0; New 2 false; Assign 4 2; Add 0 1; Destroy 2; Move 3 0; RemoveAt 0 0; Release 3].
Example C27_case : ops_ok (start 5 1) ops27 /\
  run (init 5 1) ops27 = Ok (mkSt [None; Some (mkO 1 WaitDestr false)] [None; None; None; None; Some 1] [[]]) /\
  run (init 5 1) (firstn 7 ops27) = Ok (mkSt [Some (mkO 2 Normal true); Some (mkO 1 WaitDestr false)] [None; None; None; Some 0; Some 1] [[Some 0]]).
Proof. split; [|split; reflexivity]. cbn. repeat split; lia. Qed.

(* An object assigned to itself is released instead: the reference becomes null, and an
   object under automatic destruction is deleted although it is referenced. *)
Theorem C27_self_assignment_refuted :
  run (init 1 0) [New 0 true] = Ok (mkSt [Some (mkO 1 Normal true)] [Some 0] []) /\
  run (init 1 0) [New 0 true; Assign 0 0] = Ok (mkSt [None] [None] []) /\
  run (init 2 0) [New 0 false; Assign 1 0; Assign 0 0] = Ok (mkSt [Some (mkO 1 Normal false)] [None; Some 0] []).
Proof. repeat split; reflexivity. Qed.
Print Assumptions C27_self_assignment_refuted.
(* This is the case for every reference, whatever else is there. *)
Theorem C27_self_assignment_clears_refuted nvars nvecs l v s s' : ops_ok (start nvars nvecs) l -> run (init nvars nvecs) l = Ok s -> v < nvars ->
  (step s (Assign v v) = Ok s' \/ step s (Move v v) = Ok s') -> nth_error (vars s') v = Some None.
Proof.
  intros H M Lv Hs. destruct (run_start nvars nvecs l H) as (s0 & M0 & Rr). rewrite M in M0. injection M0 as <-.
  assert (Lv' : v < length (vars s)).
  { destruct Rr as (_ & -> & _). clear H M Hs. assert (K : forall ll sp, length (sp_vars (fold_left spec_step ll sp)) = length (sp_vars sp)).
    { induction ll as [|c ll IH]; intros sp; [reflexivity|]. cbn [fold_left]. rewrite IH. destruct c; cbn [spec_step]; repeat match goal with |- context [match ?x with Some _ => _ | None => _ end] => destruct x | |- context [if ?x then _ else _] => destruct x end;
        rewrite ?fold_request; cbn [set_var set_vec request sp_vars]; rewrite ?upd_length; reflexivity. }
    unfold spec_run. rewrite K. cbn [start sp_vars]. rewrite repeat_length. exact Lv. }
  destruct (get_valid s (V v) Lv') as (x & G). destruct (rel_ok [] _ s false (V v) x (proj1 Rr) G) as (h & Mr & _).
  assert (Gn : get (hset (set s (V v) None) h) (V v) = Ok None) by (rewrite get_hset; apply (get_set_same _ _ _ _ G)).
  destruct Hs as [Hs|Hs]; cbn [step] in Hs; [unfold assign in Hs|unfold move in Hs]; rewrite Mr in Hs; cbn [bind] in Hs; rewrite Gn in Hs; cbn [bind] in Hs; injection Hs as <-; cbn; rewrite ?upd_upd; apply nth_error_upd_same; rewrite ?upd_length; exact Lv'.
Qed.
Print Assumptions C27_self_assignment_clears_refuted.
(* Giving the last reference a pointer on its own object uses the deleted object. *)
Theorem C27_own_pointer_refuted : run (init 1 0) [New 0 true; Point 0 0] = UB /\ run (init 1 0) [New 0 true; SetObj 0 0] = UB /\
  alive (spec_run 1 0 [New 0 true]) 0.
Proof. split; [reflexivity|]. split; [reflexivity|]. split; [cbn; lia|]. left. cbn. lia. Qed.
Print Assumptions C27_own_pointer_refuted.

(* C28.  Vectors act like lists of objects; every entry is a non-null reference and counts
   as one use of its object. *)
Theorem C28_vectors_are_lists nvars nvecs l : ops_ok (start nvars nvecs) l ->
  let sp := spec_run nvars nvecs l in
  exists s, run (init nvars nvecs) l = Ok s /\
    vecs s = map (map Some) (sp_vecs sp) /\
    (forall o x, nth_error (heap s) o = Some (Some x) ->
       o_cnt x = count_occ option_eq_dec (vars s) (Some o) + count_occ Nat.eq_dec (concat (sp_vecs sp)) o) /\
    (forall k o, In o (vec sp k) -> exists x, nth_error (heap s) o = Some (Some x)).
Proof.
  intros H. cbv zeta. destruct (run_start nvars nvecs l H) as (s & M & Rr). destruct (C27_reference_counts_partial _ _ _ H) as (s1 & M1 & Q1 & C1 & A1).
  rewrite M in M1. injection M1 as <-. exists s. split; [exact M|]. split; [apply Rr|]. split.
  - intros o x E0. rewrite Q1. apply C1. exact E0.
  - intros k o Hin. apply (proj1 (R_alive _ _ o Rr)). unfold vec in Hin. set (sp := spec_run nvars nvecs l) in *.
    assert (U : 0 < uses sp o).
    { unfold uses. assert (P : In o (concat (sp_vecs sp))).
      { apply in_concat. exists (nth k (sp_vecs sp) []). split; [|exact Hin]. apply nth_In. destruct (Nat.lt_ge_cases k (length (sp_vecs sp))); [assumption|]. rewrite nth_overflow in Hin by assumption. destruct Hin. }
      apply (count_occ_In Nat.eq_dec) in P. lia. }
    split; [|left; exact U]. assert (Ts := R_uses _ _ o Rr). fold sp in Ts. destruct (Nat.lt_ge_cases o (length (sp_objs sp))) as [|Lo]; [assumption|].
    destruct Rr as ((_ & I) & _). specialize (I o). fold sp in I. rewrite (proj2 (nth_error_None _ _) Lo) in I. lia.
Qed.
Print Assumptions C28_vectors_are_lists.
(* Nothing else is kept alive: a vector cleared or an entry removed releases exactly one
   reference per entry; here the same object is stored twice and removed by value. *)
Definition ops28 : list rop := [New 0 true; Assign 1 0; Assign 2 0; New 3 true; Add 0 0; Add 0 3; AddAt 0 1 0; AddAt 0 2 2; Remove 0 0].
Example C28_case : ops_ok (start 4 1) ops28 /\
  run (init 4 1) (firstn 8 ops28) = Ok (mkSt [Some (mkO 3 Normal true); Some (mkO 1 Normal true)] [None; None; None; None] [[Some 0; Some 0; Some 0; Some 1]]) /\
  run (init 4 1) ops28 = Ok (mkSt [None; Some (mkO 1 Normal true)] [None; None; None; None] [[Some 1]]) /\
  run (init 4 1) (ops28 ++ [Extract 0 0 2; New 0 false; Add 0 0; Clear 0 true]) = Ok (mkSt [None; Some (mkO 1 Normal true); None] [None; None; Some 1; None] [[]]).
Proof. split; [|repeat split; reflexivity]. cbn. repeat split; lia. Qed.
