(* C50: name masks. *)
From Verif Require Import Common ListFacts Bytes DecStr UrlSpec UrlModel UrlProofs NameSpec NameModel.
Open Scope N_scope.

Lemma fnmatch_ok m : forall s, fnmatch m s = true <-> matches m s.
Proof.
  induction m as [|c m IH]; intros s; cbn [fnmatch].
  - split; [destruct s; [intros _; constructor|discriminate]|inversion 1; reflexivity].
  - destruct (N.eqb_spec c 42) as [E|E]; [subst c|].
    + split.
      * induction s as [|x s IHs]; intros H; apply orb_prop in H; destruct H as [H|H].
        -- apply (M_star m [] []). apply IH. exact H.
        -- discriminate.
        -- apply (M_star m [] (x :: s)). apply IH. exact H.
        -- apply IHs in H. inversion H as [|m' a s' H1| |]; subst; [|congruence]. apply (M_star m (x :: a) s'). exact H1.
      * intros H. inversion H as [|m' a s' H1| |]; subst; [|congruence]. clear H. apply IH in H1. induction a as [|x a IHa]; cbn [app].
        -- destruct s' as [|y s']; cbn in H1 |- *; rewrite H1; reflexivity.
        -- rewrite IHa. apply orb_true_r.
    + destruct (N.eqb_spec c 63) as [E'|E']; [subst c|].
      * destruct s as [|x s]; [split; [discriminate|inversion 1; congruence]|]. rewrite IH. split; [intros H; constructor; exact H|inversion 1; subst; [assumption|congruence]].
      * destruct s as [|x s]; [split; [discriminate|inversion 1; congruence]|]. rewrite andb_true_iff, IH, N.eqb_eq. split; [intros (<- & H); constructor; assumption|inversion 1; subst; try congruence; auto].
Qed.
Lemma has_in c l : has c l = true <-> In c l.
Proof. unfold has. rewrite existsb_exists. split; [intros (x & H & E); apply N.eqb_eq in E; subst; exact H|intros H; exists c; rewrite N.eqb_refl; auto]. Qed.
Lemma has_not c l : has c l = false <-> free c l.
Proof. unfold free. rewrite <- has_in. destruct (has c l); split; congruence. Qed.
Lemma matches_literal m : free 42 m -> free 63 m -> forall s, matches m s <-> s = m.
Proof.
  induction m as [|c m IH]; intros H1 H2 s; [split; [inversion 1; reflexivity|intros ->; constructor]|].
  apply free_cons in H1. apply free_cons in H2. destruct H1 as (N1 & H1), H2 as (N2 & H2). split.
  - inversion 1; subst; try congruence. f_equal. apply IH; assumption.
  - intros ->. constructor; auto. apply IH; auto.
Qed.
Lemma matches_star s : matches [42] s.
Proof. rewrite <- (app_nil_r s). apply M_star. constructor. Qed.

Lemma name_match_ok name mask : name <> [] -> free 0 name -> plain mask -> exists b, name_match name mask = Ok b /\ (b = true <-> matches mask name).
Proof.
  intros Nn Hn (P1 & P2 & P3). unfold name_match. destruct name as [|x name]; [congruence|]. destruct mask as [|y mask].
  - exists false. split; [reflexivity|]. split; [discriminate|inversion 1].
  - cbn [length Nat.eqb orb]. apply has_not in P1. rewrite P1. destruct (has 42 (y :: mask) || has 63 (y :: mask)) eqn:W; cbn [negb].
    + destruct (bytes_eqb_spec (y :: mask) [42]) as [E|E].
      * exists true. split; [reflexivity|]. rewrite E. split; auto. intros _. apply matches_star.
      * rewrite !c_str_free by assumption. eexists. split; [reflexivity|]. apply fnmatch_ok.
    + apply orb_false_elim in W. destruct W as (W1 & W2). apply has_not in W1, W2. eexists. split; [reflexivity|].
      rewrite (matches_literal _ W1 W2). destruct (bytes_eqb_spec (x :: name) (y :: mask)) as [E|E]; split; congruence.
Qed.

(* For a name that is not empty and a mask without semicolon and bracket, the answer is
   whether the name matches the mask.  What is missing: masks with character sets (left to
   fnmatch, not modelled), and the cases refuted below. *)
Theorem C50_match_partial : forall name mask, name <> [] -> free 0 name -> plain mask ->
  exists b, name_match name mask = Ok b /\ (b = true <-> matches mask name).
Proof. exact name_match_ok. Qed.
Print Assumptions C50_match_partial.

Lemma plain_app a b : plain (a ++ b) <-> plain a /\ plain b.
Proof. unfold plain. rewrite !free_app. tauto. Qed.
Lemma join_cons m r : r <> [] -> join (m :: r) = m ++ 58 :: join r.
Proof. destruct r; [congruence|reflexivity]. Qed.

Lemma sub_ok name m : free 0 name -> name <> [] -> plain m -> exists b, match m with [] => Ok false | _ => name_match name m end = Ok b /\ (b = true <-> m <> [] /\ matches m name).
Proof.
  intros H1 H2 H3. destruct m as [|x m]; [exists false; split; [reflexivity|]; split; [discriminate|intros (H & _); congruence]|].
  destruct (name_match_ok name (x :: m) H2 H1 H3) as (b & E & B). exists b. split; [exact E|]. rewrite B. split; [intros; split; auto; discriminate|tauto].
Qed.
Lemma m_loop_ok name (H1 : free 0 name) (H2 : name <> []) : forall subs fuel, (length subs <= fuel)%nat -> subs <> [] -> Forall (fun m => plain m /\ free 58 m) subs ->
  exists b, m_loop fuel name (join subs) = Ok b /\ (b = true <-> Exists (fun m => m <> [] /\ matches m name) subs).
Proof.
  induction subs as [|m r IH]; intros fuel L Nn F; [congruence|]. destruct fuel as [|k]; [cbn in L; lia|]. inversion F as [|? ? (P & Fc) F']; subst.
  destruct (sub_ok name m H1 H2 P) as (b & E & B). cbn [m_loop]. destruct r as [|m' r'] eqn:R.
  - cbn [join]. rewrite (find1_none 58 m Fc). rewrite E. cbn [bind]. exists b. split; [destruct b; reflexivity|]. rewrite B. split; [intros; constructor; auto|inversion 1 as [? ? K|? ? K]; subst; [exact K|inversion K]].
  - rewrite join_cons by discriminate. rewrite (find1_at 58 m _ Fc). rewrite firstn_len. rewrite E. cbn [bind]. destruct b.
    + exists true. split; [reflexivity|]. split; [intros _; constructor; apply B; reflexivity|reflexivity].
    + rewrite skipn_len1. destruct (IH k) as (b & E2 & B2); [cbn in L |- *; lia|discriminate|exact F'|]. exists b. split; [exact E2|]. rewrite B2.
      split; [intros; apply Exists_cons_tl; assumption|inversion 1 as [? ? K|? ? K]; subst; [apply B in K; discriminate|exact K]].
Qed.
Lemma join_len subs : (length subs <= S (length (join subs)))%nat.
Proof.
  induction subs as [|m r IH]; [cbn; lia|]. destruct r as [|m' r'] eqn:R; [cbn; lia|]. rewrite join_cons by discriminate. rewrite app_length. cbn [length] in IH |- *. lia.
Qed.

(* A list of masks separated by colons: the answer is whether one of them, other than the
   empty one, matches. *)
Theorem C50_list_partial : forall name subs, name <> [] -> free 0 name -> subs <> [] -> Forall (fun m => plain m /\ free 58 m) subs ->
  exists b, name_match_m name (join subs) = Ok b /\ (b = true <-> Exists (fun m => m <> [] /\ matches m name) subs).
Proof.
  intros name subs H1 H2 H3 F. unfold name_match_m. destruct (find_sub [58] (join subs)) eqn:E.
  - apply m_loop_ok; auto. apply join_len.
  - destruct subs as [|m [|m' r]]; [congruence| |].
    + cbn [join]. inversion F as [|? ? (P & Fc) _]; subst. destruct (name_match_ok name m H1 H2 P) as (b & E2 & B). exists b. split; [exact E2|]. rewrite B.
      split; [intros M; constructor; split; [intros ->; inversion M; subst; congruence|exact M]|inversion 1 as [? ? K|? ? K]; subst; [tauto|inversion K]].
    + rewrite join_cons in E by discriminate. inversion F as [|? ? (P & Fc) _]; subst. rewrite (find1_at 58 m _ Fc) in E. discriminate.
Qed.
Print Assumptions C50_list_partial.

(* The name Mod12 against Mod*2, M?d1? and x:Mod*; and Mod1 against Mod?? *)
Example C50_case :
  name_match [77;111;100;49;50] [77;111;100;42;50] = Ok true /\ name_match [77;111;100;49;50] [77;63;100;49;63] = Ok true /\
  name_match_m [77;111;100;49;50] (join [[120]; [77;111;100;42]]) = Ok true /\ name_match [77;111;100;49] [77;111;100;63;63] = Ok false /\
  plain [77;111;100;42;50] /\ Forall (fun m => plain m /\ free 58 m) [[120]; [77;111;100;42]].
Proof.
  repeat apply conj; try (vm_compute; reflexivity); try (apply free_b; reflexivity).
  repeat constructor; apply free_b; reflexivity.
Qed.

(* An empty name does not match the mask *, though * stands for any text. *)
Theorem C50_empty_refuted : exists mask, matches mask [] /\ name_match [] mask = Ok false.
Proof. exists [42]. split; [apply matches_star|reflexivity]. Qed.
Print Assumptions C50_empty_refuted.

(* With a semicolon in the mask the call does not return. *)
Theorem C50_semicolon_refuted : forall name mask, name <> [] -> In 59 mask -> name_match name mask = Loop.
Proof.
  intros name mask H1 H2. unfold name_match. destruct name; [congruence|]. destruct mask; [destruct H2|]. cbn [length Nat.eqb orb].
  apply has_in in H2. rewrite H2. reflexivity.
Qed.
Print Assumptions C50_semicolon_refuted.

(* ... and it returns for every other mask. *)
Theorem C50_terminates : forall name mask, free 59 mask -> exists b, name_match name mask = Ok b.
Proof.
  intros name mask H. apply has_not in H. unfold name_match. destruct (_ || _)%bool; [eauto|]. rewrite H. destruct (negb _); [eauto|]. destruct (bytes_eqb mask [42]); eauto.
Qed.
Print Assumptions C50_terminates.
