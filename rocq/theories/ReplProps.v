(* C86: all places of a text are replaced, from the left and once, and the ends of the
   connections of a list get their names. *)
From Verif Require Import Common ListFacts Bytes DecStr ReplSpec ReplModel ReplProofs.

(* replacement ends, and its result is the one of the specification and no other *)
Theorem C86_replace m r s : m <> [] -> exists u, replace_all s m r = Ok u /\ replaced m r s u /\ forall u', replaced m r s u' -> u' = u.
Proof.
  intros N. destruct (loop_ok m r N (S (length s)) [] s ltac:(lia)) as (u & E & R). cbn [app length] in E. exists u.
  split; [unfold replace_all; destruct m; [congruence|exact E]|]. split; [exact R|]. intros u' R'. symmetry. eapply replaced_unique; eauto.
Qed.
Print Assumptions C86_replace.
Theorem C86_empty r s : replace_all s [] r = Ok s.
Proof. reflexivity. Qed.
Print Assumptions C86_empty.

(* a template with both marks *)
Theorem C86_names_partial a b c name n : plain a -> plain b -> plain c -> plain name ->
  conn_name (a ++ t_name ++ b ++ t_id ++ c) name n = Ok (a ++ name ++ b ++ dec n ++ c).
Proof.
  intros Pa Pb Pc Pn. unfold conn_name. rewrite (replace_all_is t_name name _ (a ++ name ++ b ++ t_id ++ c)); [|discriminate|].
  - cbn [bind]. apply replace_all_is; [discriminate|]. rewrite !(app_assoc a), !(app_assoc (a ++ name)). apply replaced_skip; [rewrite !plain_app; auto|]. apply replaced_first, none. intros i. apply plain_none. exact Pc.
  - apply replaced_skip; [exact Pa|]. apply replaced_first, none. intros i. apply no_name; auto.
Qed.
Print Assumptions C86_names_partial.

(* templates with any number of marks in any order, when the text after a mark is not the word of the mark of names *)
Theorem C86_template_partial l c name n : plain c -> plain name -> Forall (fun e => plain (fst e) /\ fst e <> word) l ->
  conn_name (filled t_name t_id l c) name n = Ok (filled name (dec n) l c).
Proof.
  intros Pc Pn F. unfold conn_name. rewrite (replace_all_is t_name name _ (filled name t_id l c)); [|discriminate|apply pass_name; auto].
  cbn [bind]. apply replace_all_is; [discriminate|]. apply pass_id; auto. eapply Forall_impl; [|exact F]. cbn. tauto.
Qed.
Print Assumptions C86_template_partial.

(* the ends of a list with numbers are different from each other, whatever the names in the list *)
Theorem C86_distinct_partial a c name name' n n' : plain a -> plain c -> n <> n' -> conn_name (a ++ t_id ++ c) name n <> conn_name (a ++ t_id ++ c) name' n'.
Proof.
  intros Pa Pc D. assert (E : forall nm k, conn_name (a ++ t_id ++ c) nm k = Ok (a ++ dec k ++ c)).
  { intros nm k. unfold conn_name. rewrite (replace_all_is t_name nm _ (a ++ t_id ++ c)); [|discriminate|apply none; intros i; apply no_name; auto]. cbn [bind].
    apply replace_all_is; [discriminate|]. apply replaced_skip; [exact Pa|]. apply replaced_first, none. intros i. apply plain_none. exact Pc. }
  rewrite !E. intros [= F]. apply app_inv_head, app_inv_tail in F. apply D. rewrite <- (dec_val n), <- (dec_val n'), F. reflexivity.
Qed.
Print Assumptions C86_distinct_partial.

(* ---- concrete cases ---- *)
Example case_replace : replace_all [1; 1; 1; 2; 1; 1]%N [1; 1]%N [1; 1; 3]%N = Ok [1; 1; 3; 1; 2; 1; 1; 3]%N.
Proof. vm_compute. reflexivity. Qed.
Example case_name : conn_name ([77; 47] ++ t_name ++ [47; 73] ++ t_id ++ []) [65; 66] 12 = Ok [77; 47; 65; 66; 47; 73; 49; 50]%N.
Proof. vm_compute. reflexivity. Qed.
Example case_plain : plain [77; 47]%N /\ plain [65; 66]%N.
Proof. split; intros H; cbn in H; intuition discriminate. Qed.

Example case_template : let l := [([77], Mid); ([], Mname); ([47; 110; 97; 109; 101], Mid); ([105; 100], Mid)]%N in
  Forall (fun e => plain (fst e) /\ fst e <> word) l /\ conn_name (filled t_name t_id l [47]%N) [105; 100]%N 3 = Ok [77; 51; 105; 100; 47; 110; 97; 109; 101; 51; 105; 100; 51; 47]%N.
Proof. split; [|vm_compute; reflexivity]. repeat constructor; try discriminate; intros H; cbn in H; intuition discriminate. Qed.

(* ---- what does not hold ---- *)
(* marks which come with a name of the list are replaced too *)
Theorem C86_nested_refuted : exists name n, conn_name ([77] ++ t_name) name n <> Ok ([77]%N ++ name).
Proof. exists t_id, 5%N. vm_compute. discriminate. Qed.
Print Assumptions C86_nested_refuted.
(* the end of a mark and the begin of the next are taken for another one *)
Theorem C86_overlap_refuted : exists lit name n, plain lit /\ plain name /\ conn_name (t_id ++ lit ++ t_id) name n <> Ok (dec n ++ lit ++ dec n).
Proof. exists [110; 97; 109; 101]%N, [66]%N, 5%N. split; [intros H; cbn in H; intuition discriminate|]. split; [intros H; cbn in H; intuition discriminate|]. vm_compute. discriminate. Qed.
Print Assumptions C86_overlap_refuted.
