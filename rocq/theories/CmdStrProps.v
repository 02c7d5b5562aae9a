(* C32: command lines. *)
From Verif Require Import Common ListFacts Bytes DecStr CmdStrSpec CmdStrModel.
Open Scope N_scope.

(* reading ends for every text *)
Lemma find_sym_pos l c q : (find_sym q l c <= length l)%nat.
Proof. revert q. induction l as [|x l IH]; intros q; cbn [find_sym length]; [lia|]. cbv zeta. destruct (negb _ && _); [lia|]. specialize (IH (if x =? 34 then negb q else q)). lia. Qed.
Lemma read_loop_ok f : forall l c n, (length l < f)%nat -> exists x, read_loop f l c n = Ok x.
Proof.
  induction f as [|f IH]; intros l c n H; [lia|]. cbn [read_loop]. destruct l as [|x r]; [eexists; reflexivity|]. cbn [length] in H. destruct (N.eqb_spec x 32) as [E|E]; [apply IH; lia|]. cbv zeta.
  assert (P : (1 <= find_sym false (x :: r) 32)%nat). { cbn [find_sym]. cbv zeta. destruct (N.eqb_spec x 32); [contradiction|]. rewrite andb_false_r. lia. }
  set (n0 := find_sym false (x :: r) 32) in *. assert (L : (length (skipn n0 (x :: r)) < f)%nat) by (rewrite skipn_length; cbn [length]; lia).
  destruct c as [c|]; [|apply IH; exact L]. destruct (_ =? length _)%nat; [apply IH; exact L|]. destruct (_ =? 0)%nat; [eexists; reflexivity|]. apply IH; exact L.
Qed.
Theorem C32_terminates l : exists x, read_cmd l = Ok x.
Proof. unfold read_cmd. destruct (read_loop_ok (S (length l)) l None 0 ltac:(lia)) as (x & E). rewrite E. eexists; reflexivity. Qed.

(* finding the end of a part *)
Lemma find_free l c q rest : free 34 l -> (q = true \/ free c l) -> find_sym q (l ++ rest) c = (length l + find_sym q rest c)%nat.
Proof.
  revert q. induction l as [|x l IH]; intros q Hq Hc; [reflexivity|]. cbn [app find_sym length]. cbv zeta. assert (X : x <> 34) by (intros ->; apply Hq; left; reflexivity). destruct (N.eqb_spec x 34); [contradiction|].
  assert (Y : negb q && (x =? c) = false). { destruct Hc as [->|Hc]; [reflexivity|]. destruct (N.eqb_spec x c) as [->|]; [|apply andb_false_r]. exfalso. apply Hc. left. reflexivity. }
  rewrite Y, IH; [lia|intros H; apply Hq; right; exact H|]. destruct Hc as [->|Hc]; [left; reflexivity|right; intros H; apply Hc; right; exact H].
Qed.
Lemma find_quote c q rest : c <> 34 -> find_sym q (34 :: rest) c = S (find_sym (negb q) rest c).
Proof. intros N. cbn [find_sym]. rewrite N.eqb_refl. cbv zeta. destruct (N.eqb_spec 34 c); [congruence|]. rewrite andb_false_r. reflexivity. Qed.
Lemma find_here c rest : c <> 34 -> find_sym false (c :: rest) c = 0%nat.
Proof. intros N. cbn [find_sym]. cbv zeta. destruct (N.eqb_spec c 34); [contradiction|]. rewrite N.eqb_refl. reflexivity. Qed.
Lemma find_plain x c rest : x <> 34 -> x <> c -> find_sym false (x :: rest) c = S (find_sym false rest c).
Proof. intros N M. cbn [find_sym]. cbv zeta. destruct (N.eqb_spec x 34); [contradiction|]. destruct (N.eqb_spec x c); [contradiction|]. rewrite andb_false_r. reflexivity. Qed.
Lemma find_quoted v c rest (q : bool) : c <> 34 -> free 34 v -> (q = false -> free c v) -> find_sym false (quoted q v ++ rest) c = (length (quoted q v) + find_sym false rest c)%nat.
Proof.
  intros N H1 H2. destruct q; cbn [quoted]; [|apply find_free; auto]. cbn [app]. rewrite find_quote, <- app_assoc, find_free by auto. cbn [app negb]. rewrite find_quote by exact N. cbn [negb length]. rewrite app_length. cbn [length]. lia.
Qed.
Lemma text_space a rest : wf a -> find_sym false (text a ++ rest) 32 = (length (text a) + find_sym false rest 32)%nat.
Proof.
  destruct a as [n v q|p q]; intros H; cbn [text].
  - destruct H as ((H0 & H1 & H2) & H3 & H4 & H5). rewrite <- !app_assoc, find_free by auto. cbn [app]. rewrite find_plain, find_quoted by (auto; discriminate). rewrite !app_length. cbn [length]. lia.
  - destruct H as (H1 & H2). apply find_quoted; auto; [discriminate|]. intros E. apply (H2 E).
Qed.
Lemma find_end rest c : (match rest with [] => True | x :: _ => x = c end) -> c <> 34 -> find_sym false rest c = 0%nat.
Proof. destruct rest as [|x r]; [reflexivity|]. intros -> N. apply find_here. exact N. Qed.
Lemma unquote v (q : bool) : free 34 v -> remove_quotes (quoted q v) = v.
Proof.
  intros H. unfold remove_quotes. destruct q; cbn [quoted].
  - cbn [app length]. rewrite app_length. cbn [length]. destruct (Nat.ltb_spec (S (length v + 1)) 2); [lia|]. cbn [nth]. replace (S (length v + 1) - 1)%nat with (S (length v)) by lia. cbn [nth]. rewrite app_nth2, Nat.sub_diag by lia. cbn [nth]. rewrite N.eqb_refl. cbn [negb skipn]. replace (S (length v + 1) - 2)%nat with (length v) by lia. rewrite firstn_app, firstn_all, Nat.sub_diag. apply app_nil_r.
  - destruct (_ <? 2)%nat eqn:E; [reflexivity|]. destruct (negb _); [reflexivity|]. destruct (N.eqb_spec (nth 0 v 0) 34) as [E2|]; [|reflexivity]. exfalso. apply H. rewrite <- E2. apply nth_In. apply Nat.ltb_ge in E. lia.
Qed.
Lemma firstn_len {A} (a b : list A) : firstn (length a) (a ++ b) = a.
Proof. rewrite firstn_app, firstn_all, Nat.sub_diag. apply app_nil_r. Qed.
Lemma skipn_len {A} (a b : list A) : skipn (length a) (a ++ b) = b.
Proof. rewrite skipn_app, skipn_all, Nat.sub_diag. reflexivity. Qed.
Lemma text_start a rest : wf a -> exists x r, text a ++ rest = x :: r /\ x <> 32.
Proof.
  destruct a as [n v q|p q]; intros H; cbn [text].
  - destruct H as ((H0 & H1 & _) & _). destruct n as [|x n]; [contradiction|]. exists x. eexists. split; [reflexivity|]. intros ->. apply H1. left. reflexivity.
  - destruct q; cbn [quoted]; [eexists; eexists; split; [reflexivity|discriminate]|]. destruct H as (_ & H2). destruct (H2 eq_refl) as (H0 & H1 & _). destruct p as [|x p]; [contradiction|]. exists x. eexists. split; [reflexivity|]. intros ->. apply H1. left. reflexivity.
Qed.
(* one part *)
Definition next_fields (a : arg) (c : cmdrec) (n : N) : cmdrec * N :=
  match a with
  | Named k v _ => (mkCR (cr_name c) (put (cr_fields c) (removelast k) (VStr v)), n)
  | Plain p q => (mkCR (cr_name c) (put (cr_fields c) (arg_key n) (VStr (quoted q p))), n + 1)
  end.
Lemma loop_part f a rest c n : wf a -> (match rest with [] => True | x :: _ => x = 32 end) -> read_loop (S f) (text a ++ rest) (Some c) n = read_loop f rest (Some (fst (next_fields a c n))) (snd (next_fields a c n)).
Proof.
  intros W R. assert (T := text_space a rest W). rewrite (find_end rest 32 R ltac:(discriminate)), Nat.add_0_r in T. destruct (text_start a rest W) as (x & r & E & Nx). cbn [read_loop]. rewrite E. destruct (N.eqb_spec x 32); [contradiction|]. cbv zeta. rewrite <- E, T, firstn_len, skipn_len.
  destruct a as [k v q|p q]; cbn [text next_fields fst snd].
  - destruct W as ((W0 & W1 & W2) & W3 & W4 & W5). rewrite find_free by auto. cbn [app]. rewrite find_here by discriminate. rewrite Nat.add_0_r, app_length. cbn [length]. destruct (Nat.eqb_spec (length k) (length k + S (length (quoted q v)))); [lia|]. destruct (Nat.eqb_spec (length k) 0) as [E0|_]; [destruct k; [contradiction|discriminate]|].
    replace (length k + 1)%nat with (length (k ++ [61])) by (rewrite app_length; cbn [length]; lia). change (k ++ 61 :: quoted q v) with (k ++ [61] ++ quoted q v). rewrite (app_assoc k [61]), skipn_len, unquote by exact W4. rewrite <- app_assoc, firstn_app. replace (length k - 1 - length k)%nat with 0%nat by lia. cbn [firstn]. rewrite app_nil_r, (removelast_firstn_len k). replace (Nat.pred (length k)) with (length k - 1)%nat by lia. reflexivity.
  - destruct W as (W1 & W2). assert (F := find_quoted p 61 [] q ltac:(discriminate) W1 (fun E => proj2 (proj2 (W2 E)))). rewrite app_nil_r in F. cbn [find_sym] in F. rewrite Nat.add_0_r in F. rewrite F, Nat.eqb_refl. reflexivity.
Qed.
Lemma loop_spaces f k : forall rest c n, read_loop (k + f) (repeat 32 k ++ rest) c n = read_loop f rest c n.
Proof. induction k as [|k IH]; intros rest c n; [reflexivity|]. cbn [repeat app Nat.add read_loop]. apply IH. Qed.
Lemma more_fuel f : forall g l c n x, read_loop f l c n = Ok x -> (f <= g)%nat -> read_loop g l c n = Ok x.
Proof.
  induction f as [|f IH]; intros g l c n x H L; [discriminate|]. destruct g as [|g]; [lia|]. cbn [read_loop] in *. destruct l as [|y r]; [exact H|]. destruct (y =? 32); [apply (IH g); [exact H|lia]|]. cbv zeta in *. destruct c as [c|]; [|apply (IH g); [exact H|lia]]. destruct (_ =? length _)%nat; [apply (IH g); [exact H|lia]|]. destruct (_ =? 0)%nat; [exact H|apply (IH g); [exact H|lia]].
Qed.
(* spaces: at least one before each argument *)
Definition spaced (l : list (nat * arg)) : Prop := Forall (fun x => (1 <= fst x)%nat /\ wf (snd x)) l.
Definition parts (l : list (nat * arg)) : list (nat * bytes) := map (fun x => (fst x, text (snd x))) l.
Lemma line_start l t : spaced l -> match line (parts l) t with [] => True | x :: _ => x = 32 end.
Proof. intros H. destruct l as [|[k a] l]; cbn [parts map line fst snd]; [destruct t; [exact I|reflexivity]|]. inversion H as [|? ? (H1 & _) _]; subst. cbn [fst] in H1. destruct k; [lia|reflexivity]. Qed.
Lemma loop_args l : forall t c n f, spaced l -> (length (line (parts l) t) < f)%nat ->
  exists c' m, read_loop f (line (parts l) t) (Some c) n = Ok (Some (Some c', m)) /\ cr_name c' = cr_name c /\ (if 0 <? m then put (cr_fields c') num_key (VInt m) else cr_fields c') = fields (@removelast N) (map snd l) n (cr_fields c).
Proof.
  induction l as [|[k a] l IH]; intros t c n f Sp L.
  - cbn [parts map line] in *. rewrite repeat_length in L. exists c, n. split; [|split; reflexivity]. apply (more_fuel (t + 1)); [|lia]. rewrite <- (app_nil_r (repeat 32 t)), loop_spaces. reflexivity.
  - inversion Sp as [|? ? (K & W) Sp']; subst. cbn [fst snd] in *. cbn [parts map line fst snd] in *. fold (parts l) in *. rewrite !app_length, repeat_length in L.
    assert (T1 : (1 <= length (text a))%nat) by (destruct (text_start a [] W) as (x & r & E & _); rewrite app_nil_r in E; rewrite E; cbn [length]; lia).
    destruct (IH t (fst (next_fields a c n)) (snd (next_fields a c n)) (f - k - 1)%nat Sp') as (c' & m & E & E1 & E2); [lia|].
    exists c', m. split; [|split].
    + replace f with (k + S (f - k - 1))%nat by lia. rewrite loop_spaces, loop_part; [exact E|exact W|apply line_start; exact Sp'].
    + rewrite E1. destruct a; reflexivity.
    + rewrite E2. destruct a; reflexivity.
Qed.
(* Every line made of a name and arguments, with any number of spaces: the command has the
   name, positional arguments are numbered, and each name=value gives a field with the
   value, quotes removed.  Missing in the claim: the field's name is the argument's name
   without its last character. *)
Theorem C32_parse_partial k0 name l tail : word name -> spaced l ->
  read_cmd (repeat 32 k0 ++ name ++ line (parts l) tail) = Ok (Some (Some (mkCR name (fields (@removelast N) (map snd l) 0 [])))).
Proof.
  intros (N0 & N1 & N2) Sp. unfold read_cmd. set (f := S (length (repeat 32 k0 ++ name ++ line (parts l) tail))).
  assert (E : exists c m, read_loop f (repeat 32 k0 ++ name ++ line (parts l) tail) None 0 = Ok (Some (Some c, m)) /\ cr_name c = name /\ (if 0 <? m then put (cr_fields c) num_key (VInt m) else cr_fields c) = fields (@removelast N) (map snd l) 0 []).
  { assert (Lf : f = S (k0 + (length name + length (line (parts l) tail)))) by (unfold f; rewrite !app_length, repeat_length; reflexivity). clearbody f.
    assert (Ln : (1 <= length name)%nat) by (destruct name; [contradiction|cbn [length]; lia]).
    destruct (loop_args l tail (mkCR name []) 0 (f - k0 - 1)%nat Sp) as (c & m & E & E1 & E2); [lia|]. exists c, m. split; [|split; assumption].
    replace f with (k0 + S (f - k0 - 1))%nat by lia. rewrite loop_spaces. assert (T : find_sym false (name ++ line (parts l) tail) 32 = length name). { rewrite find_free by auto. rewrite (find_end _ 32 (line_start l tail Sp)) by discriminate. lia. }
    cbn [read_loop]. destruct name as [|x name]; [contradiction|]. assert (Nx : x <> 32) by (intros ->; apply N1; left; reflexivity). cbn [app]. destruct (N.eqb_spec x 32); [contradiction|]. cbv zeta. change (x :: name ++ line (parts l) tail) with ((x :: name) ++ line (parts l) tail). rewrite T, firstn_len, skipn_len. exact E. }
  destruct E as (c & m & E & E1 & E2). rewrite E. cbn [bind]. rewrite <- E1, <- E2. destruct c as [cn cf]. cbn [cr_name cr_fields]. destruct (0 <? m); reflexivity.
Qed.
(* An argument which begins with '=' is refused. *)
Theorem C32_wrong_refused k0 name k v tail : word name -> free 32 v -> free 34 v ->
  read_cmd (repeat 32 k0 ++ name ++ line [(S k, 61 :: v)] tail) = Ok None.
Proof.
  intros (N0 & N1 & N2) V1 V2. unfold read_cmd. cbn [line].
  assert (Ht : forall t, match repeat 32 t with [] => True | x :: _ => x = 32 end) by (intros [|t]; [exact I|reflexivity]).
  assert (E : read_loop (k0 + S (S k + 1)) (repeat 32 k0 ++ name ++ repeat 32 (S k) ++ (61 :: v) ++ repeat 32 tail) None 0 = Ok None).
  { rewrite loop_spaces. set (R := repeat 32 (S k) ++ (61 :: v) ++ repeat 32 tail). assert (T : find_sym false (name ++ R) 32 = length name) by (rewrite find_free by auto; unfold R; cbn [repeat app]; rewrite find_here by discriminate; lia).
    destruct name as [|x name]; [contradiction|]. assert (Nx : x <> 32) by (intros ->; apply N1; left; reflexivity). remember (S k + 1)%nat as g eqn:Eg. cbn [read_loop app]. destruct (N.eqb_spec x 32); [contradiction|]. cbv zeta. change (x :: name ++ R) with ((x :: name) ++ R). rewrite T, firstn_len, skipn_len. subst g. unfold R. rewrite loop_spaces. cbn [app read_loop]. destruct (N.eqb_spec 61 32); [discriminate|]. cbv zeta.
    assert (T2 : find_sym false (61 :: v ++ repeat 32 tail) 32 = length (61 :: v)) by (rewrite find_plain, find_free by (auto; discriminate); rewrite (find_end _ 32 (Ht tail)) by discriminate; cbn [length]; lia). rewrite T2. change (61 :: v ++ repeat 32 tail) with ((61 :: v) ++ repeat 32 tail). rewrite firstn_len, find_here by discriminate. reflexivity. }
  rewrite (more_fuel _ _ _ _ _ _ E); [reflexivity|]. rewrite !app_length, !repeat_length. cbn [length]. destruct name; [contradiction|]. cbn [length]. lia.
Qed.

Lemma free_b x l : forallb (fun y => negb (N.eqb y x)) l = true -> free x l.
Proof. intros H Hi. rewrite forallb_forall in H. specialize (H x Hi). rewrite N.eqb_refl in H. discriminate. Qed.
Ltac wfs := repeat (match goal with |- free _ _ => apply free_b; reflexivity | |- _ /\ _ => split | |- _ <> _ => discriminate | |- (1 <= _)%nat => lia | |- true = false -> _ => discriminate | |- _ = _ -> _ => intros _ end).
(* "Cmd ab=1  xy="2 3" file" *)
Definition ex_line : list (nat * arg) := [(1%nat, Named [97; 98] [49] false); (2%nat, Named [120; 121] [50; 32; 51] true); (1%nat, Plain [102; 105; 108; 101] false)].
Example C32_case : word [67; 109; 100] /\ spaced ex_line /\
  [67; 109; 100] ++ line (parts ex_line) 0 = [67;109;100; 32; 97;98;61;49; 32;32; 120;121;61;34;50;32;51;34; 32; 102;105;108;101] /\
  read_cmd ([67; 109; 100] ++ line (parts ex_line) 0) = Ok (Some (Some (mkCR [67; 109; 100] [([97], VStr [49]); ([120], VStr [50; 32; 51]); (arg_key 0, VStr [102; 105; 108; 101]); (num_key, VInt 1)]))).
Proof. split; [unfold word; wfs|]. split; [|split; vm_compute; reflexivity]. unfold spaced, ex_line. repeat (apply Forall_cons); try apply Forall_nil; cbn [fst snd wf]; unfold word; wfs. Qed.
(* The claim itself is false: "C ab=1" has no argument "ab" ... *)
Theorem C32_name_cut_refuted : exists name n v c, word name /\ wf (Named n v false) /\ read_cmd (name ++ line (parts [(1%nat, Named n v false)]) 0) = Ok (Some (Some c)) /\ get (cr_fields c) n = None.
Proof. exists [67], [97; 98], [49]. eexists. split; [unfold word; wfs|]. split; [cbn [wf]; unfold word; wfs|]. split; vm_compute; reflexivity. Qed.
(* ... and of "C a1=1 a2=2" only one argument remains *)
Theorem C32_argument_lost_refuted : exists c, read_cmd ([67] ++ line (parts [(1%nat, Named [97; 49] [49] false); (1%nat, Named [97; 50] [50] false)]) 0) = Ok (Some (Some c)) /\ cr_fields c = [([97], VStr [50])].
Proof. eexists. split; vm_compute; reflexivity. Qed.

Print Assumptions C32_terminates.
Print Assumptions C32_parse_partial.
Print Assumptions C32_wrong_refused.
Print Assumptions C32_name_cut_refuted.
Print Assumptions C32_argument_lost_refuted.
