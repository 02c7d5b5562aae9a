(* C82: numbered output files: no file is written twice, and the files are read in the order in
   which they were written. *)
From Coq Require Import Sorting.Permutation Sorting.Sorted.
From Verif Require Import Common ListFacts Bytes DecStr UrlSpec NameSpec NameModel NameProps FnumSpec FnumModel FnumProofs.
Local Open Scope Z_scope.

(* name for an output: [base] before the number, no bracket expression, no slash in the
   extension, not a hidden file *)
Definition usable (name ext base : bytes) : Prop := stem name ext base /\ free 91 (base ++ ext) /\ free 47 ext /\ ~ hidden (base ++ [95%N]).

Lemma not_hidden base x : free 47 x -> ~ hidden (base ++ [95%N]) -> ~ hidden (base ++ 95%N :: x).
Proof.
  intros F H (r & E). apply H. assert (F1 : free 47 [95%N]) by (intros [D|[]]; discriminate).
  assert (F2 : free 47 (95%N :: x)) by (intros [D|D]; [discriminate|exact (F D)]).
  unfold hidden. rewrite item_after in *. rewrite after_app in * by assumption. destruct (after_slash base) as [|c t]; [discriminate|]. injection E as -> _. eexists. reflexivity.
Qed.
Lemma own_found fs name ext base n : usable name ext base -> In (file_name base ext n) fs -> In (file_name base ext n) (fmatch fs (base ++ [42%N] ++ ext)).
Proof.
  intros (_ & _ & Fe & Hh) Hin. unfold file_name in *. change (95%N :: number n ++ ext) with ((95%N :: number n) ++ ext) in *.
  apply found; auto using number_noslash. apply (not_hidden base (number n ++ ext)); auto.
  intros D. apply in_app_or in D as [D|D]; [|exact (Fe D)]. apply (number_noslash n). right. exact D.
Qed.

(* the names: extension put or kept at the end, at least four digits *)
Theorem C82_names_partial name ext base n :
  stem name ext base -> (length name + 1)%nat <> length ext -> n < max_int ->
  new_file name ext n = Ok (Some (file_name base ext n, n + 1)).
Proof.
  intros H L M. unfold new_file. unfold max_int in M. destruct (Z.eqb_spec n 2147483647); [lia|]. rewrite (produce_ok _ _ base) by auto. rewrite fmt4_number. reflexivity.
Qed.
Print Assumptions C82_names_partial.

(* no number from the one chosen on belongs to a file which is there *)
Theorem C82_fresh_partial name ext base fs start c n :
  usable name ext base -> write_init fs name ext start = Ok (Some c) -> c <= n -> ~ In (file_name base ext n) fs.
Proof.
  intros U W L Hin. unfold write_init in W. destruct (Nat.eq_dec (length name + 1) (length ext)) as [E|E]; [rewrite produce_throws in W by auto; discriminate|].
  rewrite (produce_ok _ _ base) in W by (auto; apply U). destruct (max_no ext _ (-1)) as [M| |] eqn:Em; cbn [bind] in W; try discriminate.
  destruct (max_bound _ _ _ _ Em) as (_ & B & _). destruct (B _ (own_found fs name ext base n U Hin)) as (o & Eo & Ho). rewrite number_of in Eo.
  destruct (Z.ltb_spec max_int (Z.abs n)); [discriminate|]. injection Eo as <-. destruct (Z.leb_spec start M).
  - destruct (M =? 2147483647); [discriminate|]. injection W as <-. lia.
  - injection W as <-. lia.
Qed.
Print Assumptions C82_fresh_partial.

(* over any sequence of runs of the output, with any start numbers and counts of files, all
   files have different names and no file which was there is touched *)
Lemma files_ok name ext base k : forall n l, stem name ext base -> (length name + 1)%nat <> length ext -> files name ext n k = Ok (Some l) ->
  NoDup l /\ forall f, In f l -> exists m, n <= m /\ f = file_name base ext m.
Proof.
  induction k as [|k IH]; intros n l S0 L H; cbn [files] in H.
  - injection H as <-. split; [constructor|intros f []].
  - unfold new_file in H. destruct (n =? 2147483647); cbn [bind] in H; [discriminate|]. rewrite (produce_ok _ _ base) in H by auto. rewrite fmt4_number in H.
    destruct (files name ext (n + 1) k) as [[r|]| |] eqn:Er; cbn [bind] in H; try discriminate. injection H as <-. destruct (IH _ _ S0 L Er) as (N1 & N2).
    change (base ++ (95%N :: number n) ++ ext) with (file_name base ext n). split.
    + constructor; [|exact N1]. intros Hi. destruct (N2 _ Hi) as (m & Lm & Em). apply file_name_inj in Em. lia.
    + intros f [<-|Hf]; [exists n; split; [lia|reflexivity]|]. destruct (N2 _ Hf) as (m & Lm & Em). exists m. split; [lia|exact Em].
Qed.
Theorem C82_sessions_partial name ext base l : forall fs fs',
  usable name ext base -> NoDup fs -> sessions fs name ext l = Ok (Some fs') -> NoDup fs' /\ exists new, fs' = fs ++ new.
Proof.
  induction l as [|(s & k) l IH]; intros fs fs' U D H; cbn [sessions] in H.
  - injection H as <-. split; [exact D|]. exists []. symmetry. apply app_nil_r.
  - unfold session in H. destruct (write_init fs name ext s) as [[c|]| |] eqn:W; cbn [bind] in H; try discriminate.
    destruct (files name ext c k) as [[r|]| |] eqn:F; cbn [bind] in H; try discriminate.
    destruct (Nat.eq_dec (length name + 1) (length ext)) as [E|E].
    + unfold write_init in W. rewrite produce_throws in W by auto. discriminate.
    + destruct (files_ok name ext base k c r (proj1 U) E F) as (N1 & N2).
      destruct (IH (fs ++ r) fs' U) as (D' & new & En); auto.
      * apply NoDup_app_iff. split; [exact D|]. split; [exact N1|]. intros f Hf Hr. destruct (N2 f Hr) as (m & Lm & ->). exact (C82_fresh_partial name ext base fs s c m U W Lm Hf).
      * split; [exact D'|]. exists (r ++ new). rewrite En, app_assoc. reflexivity.
Qed.
Print Assumptions C82_sessions_partial.

(* when all files in the way of the output have been written with numbers below the limit, the
   start succeeds with the number behind the last file, or the one asked for if it is larger *)
Theorem C82_init_partial name ext base fs start :
  usable name ext base -> (length name + 1)%nat <> length ext ->
  (forall f, In f fs -> exists n, 0 <= n < max_int /\ f = file_name base ext n) ->
  exists c, write_init fs name ext start = Ok (Some c) /\ start <= c /\
    (forall n, In (file_name base ext n) fs -> n < c) /\ (c = start \/ c = 0 \/ In (file_name base ext (c - 1)) fs).
Proof.
  intros U L H. unfold write_init. rewrite (produce_ok _ _ base) by (auto; apply U).
  assert (Sub : forall f, In f (fmatch fs (base ++ [42%N] ++ ext)) -> In f fs) by (intros f Hf; unfold fmatch in Hf; apply in_sort, filter_In in Hf; apply Hf).
  destruct (max_total ext (fmatch fs (base ++ [42%N] ++ ext))) with (m := -1) as (M & Em).
  { intros f Hf. destruct (H f (Sub f Hf)) as (n & Ln & ->). rewrite number_of. destruct (Z.ltb_spec max_int (Z.abs n)); [lia|]. eauto. }
  rewrite Em. cbn [bind]. destruct (max_bound _ _ _ _ Em) as (Lo & B & C).
  assert (Hb : forall n, In (file_name base ext n) fs -> n <= M).
  { intros n Hn. destruct (B _ (own_found fs name ext base n U Hn)) as (o & Eo & Ho). rewrite number_of in Eo. destruct (max_int <? Z.abs n); [discriminate|]. injection Eo as <-. lia. }
  assert (Hm : M = -1 \/ (0 <= M < max_int /\ In (file_name base ext M) fs)).
  { destruct C as [->|(f & Hf & Ef)]; [left; reflexivity|right]. destruct (H f (Sub f Hf)) as (n & Ln & ->). rewrite number_of in Ef. destruct (max_int <? Z.abs n); [discriminate|].
    injection Ef as <-. rewrite Z.abs_eq by lia. split; [lia|]. apply Sub. exact Hf. }
  unfold max_int in *. destruct (Z.leb_spec start M).
  - destruct (Z.eqb_spec M 2147483647); [lia|]. exists (M + 1). split; [reflexivity|]. split; [lia|]. split; [intros k Hk; specialize (Hb k Hk); lia|].
    destruct Hm as [->|(_ & Hm)]; [right; left; reflexivity|]. right. right. replace (M + 1 - 1) with M by lia. exact Hm.
  - exists start. split; [reflexivity|]. split; [lia|]. split; [intros k Hk; specialize (Hb k Hk); lia|left; reflexivity].
Qed.
Print Assumptions C82_init_partial.

(* an input with the mask of the output reads files with numbers below 10000 in the order of
   their numbers, in whatever order the directory holds them *)
Theorem C82_order_partial name ext base l fs :
  usable name ext base -> Forall (fun n => 0 <= n < 10000) l -> StronglySorted Z.lt l ->
  Permutation fs (map (file_name base ext) l) ->
  fmatch fs (base ++ [42%N] ++ ext) = map (file_name base ext) l.
Proof.
  intros U F S0 P. unfold fmatch. apply sorted_unique; [apply sort_sorted|apply names_sorted; auto|]. rewrite sort_perm, filter_all; [exact P|].
  intros f Hf. assert (Hn := Permutation_in _ P Hf). apply in_map_iff in Hn as (n & <- & _).
  assert (G := own_found [file_name base ext n] name ext base n U (or_introl eq_refl)). unfold fmatch in G. apply in_sort, filter_In in G. apply G.
Qed.
Print Assumptions C82_order_partial.

(* ---- concrete cases: /d/run.lmd ---- *)
Definition lmd : bytes := [46; 108; 109; 100]%N.
Definition run_lmd : bytes := [47; 100; 47; 114; 117; 110]%N ++ lmd.
Definition run_base : bytes := [47; 100; 47; 114; 117; 110]%N.
Example usable_case : usable run_lmd lmd run_base.
Proof.
  split; [left; reflexivity|]. split; [intros H; cbn in H; intuition discriminate|]. split; [intros H; cbn in H; intuition discriminate|].
  intros (r & E). discriminate.
Qed.
Example session_case :
  sessions [file_name run_base lmd 7; file_name run_base lmd 3; run_base ++ lmd] run_lmd lmd [(0, 2%nat); (5, 0%nat); (20, 1%nat); (1, 2%nat)]
  = Ok (Some ([file_name run_base lmd 7; file_name run_base lmd 3; run_base ++ lmd] ++ map (file_name run_base lmd) [8; 9; 20; 21; 22])).
Proof. vm_compute. reflexivity. Qed.
Example order_case :
  fmatch (map (file_name run_base lmd) [12; 3; 0; 9999]) (run_base ++ [42%N] ++ lmd) = map (file_name run_base lmd) [0; 3; 12; 9999].
Proof. vm_compute. reflexivity. Qed.

(* a name which is one character shorter than the extension, without it: exception at the start *)
Theorem C82_short_refuted : exists name, length name = 3%nat /\ ~ hidden name /\ forall fs start n, n <> max_int -> write_init fs name lmd start = Ok None /\ new_file name lmd n = Ok None.
Proof.
  exists [114; 117; 110]%N. split; [reflexivity|]. split; [intros (r & E); discriminate|]. intros fs start n H. split; [reflexivity|].
  unfold new_file. unfold max_int in H. destruct (Z.eqb_spec n 2147483647); [contradiction|]. reflexivity.
Qed.
Print Assumptions C82_short_refuted.

(* a file in the current directory whose name has only digits: access before the begin of the name *)
Theorem C82_digits_refuted : exists name fs, name = [55]%N ++ lmd /\ fs = [name] /\ write_init fs name lmd 0 = UB.
Proof. exists ([55]%N ++ lmd), [[55]%N ++ lmd]. split; [reflexivity|]. split; vm_compute; reflexivity. Qed.
Print Assumptions C82_digits_refuted.

(* a file with a date and time behind the name of the output: the number does not fit *)
Theorem C82_date_refuted : exists fs, fs = [run_base ++ [95]%N ++ dec 20201116123000 ++ lmd] /\ write_init fs run_lmd lmd 0 = UB.
Proof. eexists. split; [reflexivity|]. vm_compute. reflexivity. Qed.
Print Assumptions C82_date_refuted.

(* hidden files are not found, and written again *)
Theorem C82_hidden_refuted : exists name base fs c, name = base ++ lmd /\ base = [46; 114]%N /\ fs = [file_name base lmd 0] /\
  write_init fs name lmd 0 = Ok (Some c) /\ In (file_name base lmd c) fs.
Proof. exists ([46; 114]%N ++ lmd), [46; 114]%N, [file_name [46; 114]%N lmd 0], 0. repeat split. left. reflexivity. Qed.
Print Assumptions C82_hidden_refuted.

(* from number 10000 on the files are read in another order than written *)
Theorem C82_order_refuted : exists fs, fs = map (file_name run_base lmd) [9998; 9999; 10000; 10001] /\
  fmatch fs (run_base ++ [42%N] ++ lmd) = map (file_name run_base lmd) [10000; 10001; 9998; 9999].
Proof. eexists. split; [reflexivity|]. vm_compute. reflexivity. Qed.
Print Assumptions C82_order_refuted.
