(* C75: configuration variables are replaced by their values.
   CfgVarSpec.v says what a text with variables stands for.  [resolve_env m c id arg] is the call of
   ResolveEnv with the variables [c]; [m] bounds the number of steps. *)
From Coq Require Import String Ascii.
From Verif Require Import Common ListFacts Bytes DecStr UrlModel CfgVarSpec CfgVarModel CfgVarProofs.
Local Open Scope N_scope.

(* When the definitions do not depend on each other in a circle, and the text can be read in one
   way only, the result is what the text stands for. *)
Theorem C75_values_partial : forall c rank val id l, values c rank val -> clear val id [] l ->
  exists k, forall m, (k <= m)%nat -> resolve_env m c id (text l) = Ok (expand val id l) /\ io_resolve m c id (text l) = Ok (expand val id l).
Proof.
  intros c rank val id l V Cl. destruct (all_values c rank val l V) as (k & K). exists (k + S (length l))%nat. intros m Hm.
  assert (V0 : val [] = []) by apply V. assert (Vd : forall n, ~ In 36 (val n)) by (intros [|x n]; [rewrite V0; intros []|apply V; discriminate]).
  pose proof (resolve_whole c val id (text l) V0 Vd l k Cl K) as R. pose proof (resolve_more _ m _ _ _ _ _ R Hm) as R'.
  assert (A : resolve_env m c id (text l) = Ok (expand val id l)). { unfold resolve_env. destruct (text l) eqn:E; [|exact R']. destruct m; [discriminate|exact R']. }
  split; [exact A|]. unfold io_resolve. destruct (text l) as [|x t] eqn:E; [exact A|]. destruct (find_sub [36; 123] (x :: t)) eqn:F; [exact A|].
  destruct m; [discriminate|]. cbn [resolve] in R'. rewrite F in R'. exact R'.
Qed.
Print Assumptions C75_values_partial.

(* Text without ${ stays as it is. *)
Theorem C75_plain_partial : forall c id t m, (forall a b, t <> a ++ [36; 123] ++ b) -> (0 < m)%nat ->
  resolve_env m c id t = Ok t /\ io_resolve m c id t = Ok t.
Proof.
  intros c id t m H Hm. destruct (find_sub [36; 123] t) as [i|] eqn:F; [exfalso; exact (H _ _ (UrlProofs.find_sub_spec _ _ _ F))|].
  destruct m as [|m]; [lia|]. unfold io_resolve, resolve_env. destruct t as [|x t]; [auto|]. cbn [resolve]. rewrite F. auto.
Qed.
Print Assumptions C75_plain_partial.

(* Without the closing bracket nothing is replaced, also not the variables before. *)
Theorem C75_unclosed_partial : forall c rank val id l rest, values c rank val -> clear val id [] l -> ~ In 125 rest ->
  let t := text l ++ [36; 123] ++ rest in exists k, forall m, (k <= m)%nat -> resolve_env m c id t = Ok t.
Proof.
  intros c rank val id l rest V Cl Hr t. destruct (all_values c rank val l V) as (k & K).
  assert (V0 : val [] = []) by apply V. assert (Vd : forall n, ~ In 36 (val n)) by (intros [|x n]; [rewrite V0; intros []|apply V; discriminate]).
  assert (K' : all_known c val (S k) l) by (intros n I J; apply (known_more c k); [apply K; auto|lia]).
  destruct (resolve_text c val id t ([36; 123] ++ rest) V0 Vd ltac:(cbn; discriminate) l (S k) [] ltac:(intros []) Cl K') as (m & Hm & R). cbn [app] in R. fold t in R.
  assert (E : resolve (S k) c id t (expand val id l ++ 36 :: 123 :: rest) = Ok t).
  { cbn [resolve]. change (36 :: 123 :: rest) with (36 :: [123] ++ rest). rewrite (UrlProofs.find_first 36 [123] (expand val id l) rest) by (eapply expand_dollar; eauto).
    rewrite skipn_app, skipn_all, Nat.sub_diag. cbn [app skipn]. rewrite UrlProofs.find1_none; [reflexivity|]. intros [H|[H|H]]; [discriminate..|auto]. }
  exists m. intros m' Hm'. assert (Nt : t <> []) by (unfold t; destruct (text l); discriminate). unfold resolve_env. destruct t eqn:Et; [congruence|].
  eapply resolve_more; [|exact Hm']. rewrite <- Et in *. unfold t at 2. cbn [app]. rewrite R. exact E.
Qed.
Print Assumptions C75_unclosed_partial.

(* Every text, well formed or not: when no definition and no known value contains a $, the call
   returns, and what it returns has no variable left unless it is the text itself. *)
Theorem C75_ends_partial : forall c id arg,
  Forall (fun x => ~ In 36 (snd x)) (v_cmd c ++ v_file c ++ v_builtin c) -> (forall n, ~ In 36 (v_env c n)) ->
  exists out, (forall m, (length arg + 2 <= m)%nat -> resolve_env m c id arg = Ok out) /\
    (out = arg \/ forall a b, out <> a ++ [36; 123] ++ b).
Proof.
  intros c id arg H He. apply Forall_app in H. destruct H as [Hc H]. apply Forall_app in H. destruct H as [Hf Hb].
  destruct (resolve_simple c Hc Hf Hb He id arg (S (length arg)) arg) as (out & R & O); [pose proof (dollars_len arg); lia|].
  exists out. split; auto. intros m Hm. unfold resolve_env. destruct arg as [|x ar]; [cbn in R; injection R as <-; reflexivity|].
  eapply resolve_more; [exact R|]. lia.
Qed.
Print Assumptions C75_ends_partial.

(* entries of a list written with commas *)
Theorem C75_entries_partial : forall els, els <> [] -> els <> [[]] -> Forall (fun x => ~ In 44 x) els ->
  entries ([91] ++ concat (map (fun x => x ++ [44]) (removelast els)) ++ last els [] ++ [93]) = els.
Proof.
  intros els H1 H2 H3. cbn [app entries]. rewrite app_assoc. set (body := concat _ ++ last els []). cbn [N.eqb Pos.eqb andb].
  rewrite last_last, removelast_last. cbn [N.eqb Pos.eqb].
  assert (Sp : split_comma body = els).
  { unfold body. clear body H2. induction els as [|x els IH]; [congruence|]. inversion H3 as [|? ? Hx Hr]; subst.
    assert (S0 : forall z r, ~ In 44 z -> split_comma (z ++ r) = match split_comma r with [] => [z] | a :: q => (z ++ a) :: q end).
    { induction z as [|y z IHz]; intros r Hz; cbn [app].
      - pose proof (split_len r). destruct (split_comma r); [discriminate|reflexivity].
      - cbn [split_comma]. destruct (N.eqb_spec y 44); [exfalso; apply Hz; left; auto|]. rewrite IHz by (intros I; apply Hz; right; auto).
        pose proof (split_len r). destruct (split_comma r); [discriminate|reflexivity]. }
    destruct els as [|y els].
    - cbn [removelast map concat last app]. rewrite <- (app_nil_r x) at 1. rewrite S0 by auto. cbn. rewrite app_nil_r. reflexivity.
    - change (removelast (x :: y :: els)) with (x :: removelast (y :: els)). cbn [map concat]. change (last (x :: y :: els) []) with (last (y :: els) []).
      rewrite <- !app_assoc. rewrite S0 by auto. cbn [app split_comma N.eqb Pos.eqb]. rewrite IH by (auto; discriminate). rewrite app_nil_r. reflexivity. }
  destruct body eqn:E; [|exact Sp]. exfalso. cbn in Sp. congruence.
Qed.
Print Assumptions C75_entries_partial.

(* ---- where it fails ---- *)
Definition b (s : string) : bytes := map N_of_ascii (list_ascii_of_string s).
Definition no_env (n : bytes) : bytes := [].

(* A definition which uses itself: the call never returns (endless recursion, ConfigBase.cxx:466-468, 289). *)
Theorem C75_circle_refuted : exists c arg, forall id m, resolve_env m c id arg = Loop.
Proof.
  exists (mkV [] [(b "a", b "x${a}")] [] no_env), (b "${a}"). intros id m. unfold resolve_env. cbn [b list_ascii_of_string map N_of_ascii].
  set (c := mkV _ _ _ _). assert (G : forall m, resolve m c None (b "x${a}") (b "x${a}") = Loop).
  { induction m0 as [|k IH]; [reflexivity|]. cbn in IH |- *. rewrite IH. reflexivity. }
  destruct m as [|m]; [reflexivity|]. cbn in G |- *. rewrite G. reflexivity.
Qed.
Print Assumptions C75_circle_refuted.

(* An environment variable of the process with its own name in the value: an endless loop. *)
Theorem C75_environment_refuted : exists c arg, v_cmd c = [] /\ v_file c = [] /\ forall m, resolve_env m c None arg = Loop.
Proof.
  exists (mkV [] [] [] (fun n => if bytes_eqb n (b "PATH") then b "${PATH}" else [])), (b "${PATH}"). split; [reflexivity|]. split; [reflexivity|]. intros m.
  change (resolve_env m (mkV [] [] [] (fun n => if bytes_eqb n (b "PATH") then b "${PATH}" else [])) None (b "${PATH}")) with
    (resolve m (mkV [] [] [] (fun n => if bytes_eqb n (b "PATH") then b "${PATH}" else [])) None (b "${PATH}") (b "${PATH}")).
  induction m as [|m IH]; [reflexivity|]. cbn in IH |- *. exact IH.
Qed.
Print Assumptions C75_environment_refuted.

(* An entry of a variable which is not defined: the # stays in the text (ConfigBase.cxx:492). *)
Theorem C75_no_entry_refuted : exists c n, definition c n = None /\ otherwise c n = [] /\ ~ In 125 n /\
  resolve_env 9 c (Some 0%nat) (text [Elem n]) = Ok [35] /\ expand (fun _ => []) (Some 0%nat) [Elem n] = [].
Proof. exists (mkV [] [] [] no_env), (b "list"). vm_compute. repeat split; auto. intuition discriminate. Qed.
Print Assumptions C75_no_entry_refuted.

(* The empty list has one entry (ConfigBase.cxx:485). *)
Theorem C75_empty_list_refuted : exists c n, definition c n = Some (b "[]") /\ entries (b "[]") = [] /\
  resolve_env 9 c None (text [Count n]) = Ok (b "1").
Proof. exists (mkV [] [(b "list", b "[]")] [] no_env), (b "list"). vm_compute. auto. Qed.
Print Assumptions C75_empty_list_refuted.

(* A value which ends with $ makes a variable of the text behind it. *)
Theorem C75_joined_refuted : exists c n t, definition c n = Some (b "$") /\ ~ In 36 t /\
  resolve_env 9 c None (text [Val n; Lit t]) = Ok (b "secret") /\ text [Val n; Lit t] = b "${cur}{x}".
Proof. exists (mkV [] [(b "cur", b "$"); (b "x", b "secret")] [] no_env), (b "cur"), (b "{x}"). vm_compute. repeat split; auto. intuition discriminate. Qed.
Print Assumptions C75_joined_refuted.

(* ---- cases meeting the hypotheses ---- *)
Definition case_vars : vars :=
  mkV [(b "run", b "9")] [(b "dir", b "/data/${USER}"); (b "hosts", b "[n1,n2,n3]"); (b "run", b "1"); (b "empty", b "${nothing}")]
      [(b "DABCNODEID", b "2"); (b "empty", b "e")] (fun n => if bytes_eqb n (b "USER") then b "joe" else []).
Definition case_val (n : bytes) : bytes :=
  if bytes_eqb n (b "run") then b "9" else if bytes_eqb n (b "dir") then b "/data/joe" else if bytes_eqb n (b "hosts") then b "[n1,n2,n3]"
  else if bytes_eqb n (b "empty") then b "e" else if bytes_eqb n (b "DABCNODEID") then b "2" else if bytes_eqb n (b "USER") then b "joe" else [].
Definition case_rank (n : bytes) : nat := if bytes_eqb n (b "dir") || bytes_eqb n (b "empty") then 1 else 0.
Definition case_text : list seg := [Val (b "dir"); Lit (b "/run"); Val (b "run"); Lit (b "_"); Count (b "hosts"); Lit (b "_"); Elem (b "hosts"); Lit (b ".hld"); Val (b "empty")].
Lemma case_values : values case_vars case_rank case_val.
Proof.
  split; [reflexivity|]. intros n Nn. assert (Lo : forall k, ~ In 36 (b k) <-> forallb (fun x => negb (x =? 36)) (b k) = true).
  { intros k. rewrite forallb_forall. split; [intros H x I; destruct (N.eqb_spec x 36); [subst; contradiction|reflexivity]|]. intros H I. specialize (H _ I). discriminate. }
  unfold definition, otherwise, lookup, case_val. cbn [case_vars v_cmd v_file v_builtin v_env find fst].
  assert (Sy : forall k, bytes_eqb k n = bytes_eqb n k). { intros k. destruct (bytes_eqb_spec k n), (bytes_eqb_spec n k); congruence. }
  rewrite !Sy. destruct (bytes_eqb_spec n (b "run")) as [->|N1].
  { cbn [option_map snd]. split; [apply Lo; reflexivity|]. exists [Lit (b "9")]. split; [reflexivity|]. split; [cbn; intuition discriminate|]. split; [intros m []|reflexivity]. }
  destruct (bytes_eqb_spec n (b "dir")) as [->|N2].
  { cbn [option_map snd]. split; [apply Lo; reflexivity|]. exists [Lit (b "/data/"); Val (b "USER")]. split; [reflexivity|]. split; [cbn; intuition discriminate|]. split; [intros m [<-|[]]; cbv; lia|reflexivity]. }
  destruct (bytes_eqb_spec n (b "hosts")) as [->|N3].
  { cbn [option_map snd]. split; [apply Lo; reflexivity|]. exists [Lit (b "[n1,n2,n3]")]. split; [reflexivity|]. split; [cbn; intuition discriminate|]. split; [intros m []|reflexivity]. }
  destruct (bytes_eqb_spec n (b "empty")) as [->|N4].
  { cbn [option_map snd]. split; [apply Lo; reflexivity|]. exists [Val (b "nothing")]. split; [reflexivity|]. split; [cbn; intuition discriminate|]. split; [intros m [<-|[]]; cbv; lia|reflexivity]. }
  cbn [option_map]. destruct (bytes_eqb_spec n (b "DABCNODEID")) as [->|N5]; [split; [apply Lo; reflexivity|reflexivity]|].
  destruct (bytes_eqb_spec n (b "USER")) as [->|N6]; [split; [apply Lo; reflexivity|reflexivity]|]. split; [intros []|reflexivity].
Qed.
Example C75_case : clear case_val (Some 1%nat) [] case_text /\ text case_text = b "${dir}/run${run}_#${hosts}_${hosts}#.hld${empty}" /\
  resolve_env 20 case_vars (Some 1%nat) (text case_text) = Ok (b "/data/joe/run9_3_n2.hlde").
Proof. split; [|vm_compute; auto]. cbn. intuition discriminate. Qed.
Example C75_case_unclosed : resolve_env 20 case_vars None (b "${dir}/${run") = Ok (b "${dir}/${run").
Proof. reflexivity. Qed.
Example C75_case_ends : resolve_env 20 (mkV [] [(b "b", b "x")] [] no_env) None (b "$$${b}${a${b}}$") = Ok (b "$$x}$").
Proof. reflexivity. Qed.
