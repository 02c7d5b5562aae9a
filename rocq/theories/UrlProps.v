(* C35: item addresses; C36: URL options; C67: parts of a URL. *)
From Coq Require Import ZArith.
From Verif Require Import Common ListFacts Bytes DecStr UrlSpec UrlModel UrlProofs.
Open Scope N_scope.

Ltac frees := repeat match goal with |- free _ (_ ++ _) => apply free_app; split end; try assumption; try (apply dec_free; reflexivity); try (apply free_b; reflexivity).

Definition port_text (p : option N) : bytes := match p with None => [] | Some p => [58] ++ dec p end.
Definition dflt {A} (d : A) (o : option A) : A := match o with Some x => x | None => d end.
Lemma split_opts a (o : option bytes) : free 63 a -> free 37 (dflt [] o) -> split_query (a ++ opt_part [63] (option_map encode o)) = Ok (dflt [] o, a).
Proof.
  intros H1 H2. unfold split_query. destruct o as [o|]; cbn [option_map opt_part dflt app] in *.
  - rewrite find1_at by exact H1. rewrite skipn_len1, decode_encode by exact H2. cbn [bind]. rewrite firstn_len. reflexivity.
  - rewrite app_nil_r, find1_none by exact H1. reflexivity.
Qed.
Lemma split_file h (f : option bytes) : h <> [] -> free 47 h -> split_host (h ++ opt_part [47] f) = (h, dflt [] f).
Proof.
  intros H0 H1. unfold split_host. destruct f as [f|]; cbn [opt_part dflt app].
  - rewrite find1_at by exact H1. destruct (Nat.eqb_spec (length h) 0) as [L|_]; [destruct h; [contradiction|discriminate]|]. rewrite firstn_len, skipn_len1. reflexivity.
  - rewrite app_nil_r, find1_none by exact H1. reflexivity.
Qed.
Lemma split_proto_at proto r : free 58 proto -> split_proto (proto ++ [58; 47; 47] ++ r) = (proto, r).
Proof.
  intros H. unfold split_proto. change (proto ++ [58; 47; 47] ++ r) with (proto ++ 58 :: [47; 47] ++ r). rewrite (find_first 58 [47; 47]) by exact H. rewrite firstn_len. f_equal. replace (length proto + 3)%nat with (length (proto ++ [58; 47; 47])) by (rewrite app_length; reflexivity). change (proto ++ 58 :: [47; 47] ++ r) with (proto ++ [58; 47; 47] ++ r). rewrite app_assoc. apply skipn_len.
Qed.
Lemma url_core s0 proto s host port file opts :
  s0 <> [] -> split_proto s0 = (proto, s) ->
  s = host ++ port_text port ++ opt_part [47] file ++ opt_part [63] (option_map encode opts) ->
  host <> [] -> free 47 host -> free 63 host -> free 58 host -> (forall p, port = Some p -> p < 2^31) -> free 63 (dflt [] file) -> free 37 (dflt [] opts) ->
  set_url s0 = Ok (mkUrl true proto host (Z.of_N (dflt 0 port)) (dflt [] file) (dflt [] opts)).
Proof.
  intros N0 E Es Hh H47 H63 H58 Hp Hf Ho. unfold set_url. destruct (Nat.eqb_spec (length s0) 0) as [L|_]; [destruct s0; [contradiction|discriminate]|]. rewrite E.
  assert (Ns : s <> []) by (subst s; destruct host; [contradiction|discriminate]). destruct (Nat.eqb_spec (length s) 0) as [L|_]; [destruct s; [contradiction|discriminate]|].
  replace s with ((host ++ port_text port ++ opt_part [47] file) ++ opt_part [63] (option_map encode opts)) by (rewrite <- !app_assoc; symmetry; exact Es).
  rewrite split_opts; [|destruct port, file; cbn [port_text opt_part dflt] in *; frees|exact Ho]. cbn [bind snd fst]. rewrite app_assoc.
  rewrite split_file; [|destruct host; [contradiction|discriminate]|destruct port; cbn [port_text]; frees].
  unfold split_port. destruct port as [p|]; cbn [port_text dflt app].
  - rewrite find1_at by exact H58. rewrite skipn_len1, firstn_len, str_to_int_exact by (apply Hp; reflexivity). reflexivity.
  - rewrite app_nil_r, find1_none by exact H58. reflexivity.
Qed.
(* A URL made of its parts is split into these parts: protocol://host:port/file?options,
   where port, file and options may be absent, and the options are encoded. *)
Theorem C67_parts_partial proto host port file opts : free 58 proto ->
  host <> [] -> free 47 host -> free 63 host -> free 58 host -> (forall p, port = Some p -> p < 2^31) -> free 63 (dflt [] file) -> free 37 (dflt [] opts) ->
  set_url (proto ++ [58; 47; 47] ++ host ++ port_text port ++ opt_part [47] file ++ opt_part [63] (option_map encode opts))
  = Ok (mkUrl true proto host (Z.of_N (dflt 0 port)) (dflt [] file) (dflt [] opts)).
Proof.
  intros Hpr Hh H47 H63 H58 Hp Hf Ho. eapply url_core; try eassumption; [destruct proto; discriminate| |reflexivity].
  apply split_proto_at. exact Hpr.
Qed.
(* Without protocol, when no colon is in file and options. *)
Lemma find_no_proto a b : free 58 a -> free 58 b -> (match b with x :: _ => x <> 47 | [] => True end) -> find_sub [58; 47; 47] (a ++ 58 :: b) = None.
Proof.
  intros Ha Hb Hx. induction a as [|x a IH].
  - cbn [app find_sub is_prefix]. rewrite N.eqb_refl. destruct b as [|y b]; [reflexivity|]. destruct (N.eqb_spec 47 y); [congruence|]. cbn [andb]. rewrite find_absent by exact Hb. reflexivity.
  - apply free_cons in Ha. destruct Ha as (A & B). cbn [app find_sub is_prefix]. destruct (N.eqb_spec 58 x); [congruence|]. cbn [andb]. rewrite IH by exact B. reflexivity.
Qed.
Theorem C67_no_protocol host port file opts :
  host <> [] -> free 47 host -> free 63 host -> free 58 host -> (forall p, port = Some p -> p < 2^31) -> free 63 (dflt [] file) -> free 37 (dflt [] opts) ->
  free 58 (dflt [] file) -> free 58 (encode (dflt [] opts)) ->
  set_url (host ++ port_text port ++ opt_part [47] file ++ opt_part [63] (option_map encode opts))
  = Ok (mkUrl true [] host (Z.of_N (dflt 0 port)) (dflt [] file) (dflt [] opts)).
Proof.
  intros Hh H47 H63 H58 Hp Hf Ho Hf2 Ho2. assert (F : free 58 (opt_part [47] file ++ opt_part [63] (option_map encode opts))) by (destruct file, opts; cbn [opt_part option_map dflt] in *; frees; intros []).
  eapply url_core; try eassumption; [destruct host; [contradiction|discriminate]| |reflexivity].
  remember (opt_part [47] file ++ opt_part [63] (option_map encode opts)) as r. unfold split_proto. destruct port as [p|]; cbn [port_text app].
  - rewrite find_no_proto; [reflexivity|exact H58|frees|]. assert (Nn := dec_nonnil p). assert (D := dec_digit p). destruct (dec p) as [|y t]; [congruence|]. cbn [app]. apply Forall_inv in D. intros ->. discriminate.
  - rewrite find_absent; [reflexivity|frees].
Qed.
(* splitting a text always ends; the result may only be missing for a port number which
   does not fit *)
Lemma query_ends s : exists o, split_query s = Ok o.
Proof.
  unfold split_query. destruct (find_sub [63] s) as [i|]; [|eexists; reflexivity]. destruct (replace_special_ends special_symbols) with (s := skipn (i + 1) s) as (r & E); [unfold special_symbols; repeat constructor|]. rewrite E. eexists; reflexivity.
Qed.
Lemma int_ends l : str_to_int l <> Loop.
Proof.
  unfold str_to_int. destruct (skip_blank (c_str l)) as [|x t] eqn:El; [discriminate|]. rewrite <- El. destruct (_ && _).
  - unfold scan_x. destruct (scan_sign _). destruct (scan_hex _ _ _). destruct (negb _); [discriminate|]. destruct (_ <=? _); discriminate.
  - destruct (existsb _ _); [discriminate|]. unfold scan_d. destruct (scan_sign _) as [[|] ?]; destruct (scan_digits _ _ _) as [[? ?] ?]; destruct (negb _); try discriminate; [destruct (_ <? _)|destruct (_ <=? _)]; discriminate.
Qed.
Theorem C67_terminates s : set_url s <> Loop.
Proof.
  unfold set_url. destruct (_ =? 0)%nat; [discriminate|]. destruct (split_proto s) as (proto & s1). destruct (_ =? 0)%nat; [discriminate|].
  destruct (query_ends s1) as (o & Ho). rewrite Ho. cbn [bind]. destruct (split_host _) as (h & f). unfold split_port. destruct (find_sub [58] h) as [i|]; [|discriminate]. assert (Hs := int_ends (skipn (i + 1) h)). destruct (str_to_int _); [discriminate|discriminate|contradiction].
Qed.
(* "http://h:80/f/g?a=%22x%22" *)
Example C67_case : set_url ([104;116;116;112] ++ [58; 47; 47] ++ [104] ++ port_text (Some 80) ++ opt_part [47] (Some [102; 47; 103]) ++ opt_part [63] (option_map encode (Some [97; 61; 34; 120; 34])))
  = Ok (mkUrl true [104;116;116;112] [104] 80 [102; 47; 103] [97; 61; 34; 120; 34]).
Proof. apply (C67_parts_partial [104;116;116;112] [104] (Some 80) (Some [102; 47; 103]) (Some [97; 61; 34; 120; 34])); cbn [dflt]; try (apply free_b; reflexivity); [discriminate|]. intros p [= <-]. reflexivity. Qed.
(* Without protocol a "://" in the options is taken for the end of the protocol: "h/f?a=b://c" *)
Theorem C67_colon_refuted : exists host file opts, host <> [] /\ free 47 host /\ free 63 host /\ free 58 host /\ free 63 file /\ free 58 file /\ free 37 opts /\
  set_url (host ++ [47] ++ file ++ [63] ++ opts) = Ok (mkUrl true (host ++ [47] ++ file ++ [63] ++ [97; 61; 98]) [99] 0 [] []).
Proof. exists [104], [102], [97; 61; 98; 58; 47; 47; 99]. split; [discriminate|]. repeat (split; [apply free_b; reflexivity|]). vm_compute. reflexivity. Qed.
(* Texts which are no URL at all: a port which is no number makes the URL invalid. *)
Theorem C67_bad_port proto host word : free 58 proto -> host <> [] -> free 47 host -> free 63 host -> free 58 host -> (match word with x :: _ => 97 <= x <= 122 | [] => False end) -> free 47 word -> free 63 word -> free 0 word ->
  exists u, set_url (proto ++ [58; 47; 47] ++ host ++ [58] ++ word) = Ok u /\ u_valid u = false.
Proof.
  intros Hpr Hh H47 H63 H58 Hw W47 W63 W0. assert (T : str_to_int word = Ok None).
  { unfold str_to_int. rewrite c_str_free by exact W0. destruct word as [|x w]; [destruct Hw|]. cbn [skip_blank]. destruct (N.eqb_spec x 32); [lia|]. assert (X : is_0x (x :: w) = false) by (unfold is_0x; destruct w; [reflexivity|]; destruct (N.eqb_spec x 48); [lia|reflexivity]). rewrite X, andb_false_r. destruct (existsb _ _); [reflexivity|].
    unfold scan_d. cbn [skip_space]. assert (Sp : is_space x = false) by (unfold is_space; destruct (N.eqb_spec x 32); [lia|]; destruct (N.leb_spec x 13); [lia|]; rewrite andb_false_r; reflexivity). rewrite Sp. unfold scan_sign. destruct (N.eqb_spec x 45); [lia|]. destruct (N.eqb_spec x 43); [lia|]. cbn [scan_digits]. assert (Dg : is_digit x = false) by (unfold is_digit; destruct (N.leb_spec x 57); [lia|]; apply andb_false_r). rewrite Dg. reflexivity. }
  unfold set_url. destruct (Nat.eqb_spec (length (proto ++ [58; 47; 47] ++ host ++ [58] ++ word)) 0) as [L|_]; [rewrite app_length in L; cbn [app length] in L; lia|].
  rewrite split_proto_at by exact Hpr. destruct (Nat.eqb_spec (length (host ++ [58] ++ word)) 0) as [L|_]; [rewrite app_length in L; cbn [app length] in L; lia|]. unfold split_query. rewrite find1_none by frees. cbn [bind snd fst]. unfold split_host. rewrite find1_none by frees. unfold split_port. cbn [app]. rewrite find1_at by exact H58. rewrite skipn_len1, T. cbn [bind]. eexists. split; reflexivity.
Qed.

(* C35: decomposing what was composed gives the same node and name, when the name contains
   no question mark (and, as it is printed as a C string, no zero). *)
Lemma decompose_at n name : n < 2^31 -> free 63 name ->
  decompose (dabc_s ++ [58; 47; 47] ++ node_s ++ dec n ++ [47] ++ name) = Ok (Some (Z.of_N n, name)).
Proof.
  intros Hn H63. unfold decompose. assert (U := C67_parts_partial dabc_s (node_s ++ dec n) None (Some name) None). cbn [port_text opt_part option_map dflt] in U. rewrite <- !app_assoc, !app_nil_l, app_nil_r in U.
  rewrite U; clear U; [|apply free_b; reflexivity|discriminate|frees|frees|frees|discriminate|exact H63|intros []].
  cbn [bind u_valid negb u_proto u_host u_file length Nat.eqb dabc_s node_s app firstn skipn bytes_eqb]. rewrite !N.eqb_refl. cbn [andb negb]. rewrite str_to_int_exact by exact Hn. cbn [bind]. destruct (Z.ltb_spec (Z.of_N n) 0); [lia|reflexivity].
Qed.
Theorem C35_compose_partial node name : (0 <= node < 2^31)%Z -> free 63 name -> free 0 name ->
  decompose (compose_item node name) = Ok (Some (node, name)).
Proof.
  intros Hn H63 H0. unfold compose_item. destruct (Z.ltb_spec node 0); [lia|]. rewrite c_str_free by exact H0. rewrite decompose_at; [rewrite Z2N.id by lia; reflexivity|lia|exact H63].
Qed.
(* the same for a port, the number added to the name *)
Theorem C35_port node name port : (0 <= node < 2^31)%Z -> name <> [] -> free 63 name -> free 0 name ->
  decompose (compose_port node name port) = Ok (Some (node, name ++ (if (0 <=? port)%Z then dec (Z.to_N port) else []))).
Proof.
  intros Hn Hne H63 H0. unfold compose_port, compose_item. destruct (Z.ltb_spec node 0); [lia|]. destruct (Nat.eqb_spec (length name) 0) as [L|_]; [destruct name; [contradiction|discriminate]|]. cbn [orb]. rewrite c_str_free by exact H0.
  rewrite <- !app_assoc. rewrite decompose_at; [rewrite Z2N.id by lia; reflexivity|lia|]. destruct (0 <=? port)%Z; frees.
Qed.
Example C35_case : decompose (compose_port 3 [77; 47; 79; 117; 116] 2) = Ok (Some (3%Z, [77; 47; 79; 117; 116; 50])) /\ compose_port 3 [77; 47; 79; 117; 116] 2 = [100; 97; 98; 99; 58; 47; 47; 110; 111; 100; 101; 51; 47; 77; 47; 79; 117; 116; 50].
Proof. vm_compute. split; reflexivity. Qed.
Theorem C35_question_refuted : exists node name, (0 <= node < 2^31)%Z /\ free 0 name /\ decompose (compose_item node name) <> Ok (Some (node, name)).
Proof. exists 1%Z, [97; 63; 98]. split; [lia|]. split; [apply free_b; reflexivity|]. vm_compute. discriminate. Qed.

(* A node is only found in a text beginning with dabc://node, and a decimal number there is
   never taken for another one. *)
Lemma cut_after c a r : free c a -> exists r', (match find_sub [c] (a ++ r) with Some i => firstn i (a ++ r) | None => a ++ r end) = a ++ r' /\ is_prefix r' r = true /\ (forall i, find_sub [c] (a ++ r) = Some i -> (length a <= i)%nat).
Proof.
  intros H. assert (F : find_sub [c] (a ++ r) = match find_sub [c] r with Some i => Some (length a + i)%nat | None => None end).
  { induction a as [|x a IH]; [cbn [app length]; destruct (find_sub [c] r); reflexivity|]. apply free_cons in H. destruct H as (A & B). cbn [app find_sub is_prefix length]. destruct (N.eqb_spec c x); [congruence|]. cbn [andb]. rewrite IH by exact B. destruct (find_sub [c] r); reflexivity. }
  rewrite F. destruct (find_sub [c] r) as [i|].
  - exists (firstn i r). split; [rewrite firstn_app; replace (length a + i - length a)%nat with i by lia; rewrite firstn_all2 by lia; reflexivity|]. split; [|intros j [= <-]; lia]. clear. revert i. induction r as [|x r IH]; intros [|i]; try reflexivity. cbn [firstn is_prefix]. rewrite N.eqb_refl. apply IH.
  - exists r. split; [reflexivity|]. split; [|discriminate]. rewrite <- (app_nil_r r) at 2. apply is_prefix_app.
Qed.
Lemma prefix_trans a b c : is_prefix a b = true -> is_prefix b c = true -> is_prefix a c = true.
Proof. intros A B. apply is_prefix_spec in A, B. rewrite B, A, <- app_assoc. apply is_prefix_app. Qed.
(* where the host comes from *)
Lemma host_after a r u s : split_proto s = (u_proto u, a ++ r) -> s <> [] -> a <> [] -> free 63 a -> free 47 a -> free 58 a -> set_url s = Ok u -> exists t, u_host u = a ++ t /\ is_prefix t r = true.
Proof.
  intros Hp Hs Ha H1 H2 H3. unfold set_url. destruct (Nat.eqb_spec (length s) 0) as [L|_]; [destruct s; [contradiction|discriminate]|]. rewrite Hp. destruct (Nat.eqb_spec (length (a ++ r)) 0) as [L|_]; [destruct a; [contradiction|discriminate]|].
  destruct (query_ends (a ++ r)) as ([o s2] & Ho). rewrite Ho. cbn [bind snd fst].
  assert (E2 : exists r2, s2 = a ++ r2 /\ is_prefix r2 r = true). { destruct (cut_after 63 a r H1) as (r2 & A & B & _). exists r2. split; [|exact B]. unfold split_query in Ho. destruct (find_sub [63] (a ++ r)) as [i|]; [|injection Ho as _ <-; exact A]. destruct (replace_special _ _); try discriminate. injection Ho as _ <-. exact A. }
  destruct E2 as (r2 & -> & P2). destruct (split_host (a ++ r2)) as (h & f) eqn:Eh.
  assert (E3 : exists r3, h = a ++ r3 /\ is_prefix r3 r = true). { destruct (cut_after 47 a r2 H2) as (r3 & A & B & C). exists r3. split; [|exact (prefix_trans _ _ _ B P2)]. unfold split_host in Eh. destruct (find_sub [47] (a ++ r2)) as [i|]; [|injection Eh as <- _; exact A]. specialize (C i eq_refl). destruct (Nat.eqb_spec i 0) as [Ei|_]; [destruct a; [contradiction|cbn [length] in C; lia]|]. injection Eh as <- _. exact A. }
  destruct E3 as (r3 & -> & P3). destruct (split_port (a ++ r3)) as [[h2 p]| |] eqn:Ep; try discriminate. cbn [bind fst snd].
  assert (E4 : exists r4, h2 = a ++ r4 /\ is_prefix r4 r = true). { destruct (cut_after 58 a r3 H3) as (r4 & A & B & _). exists r4. split; [|exact (prefix_trans _ _ _ B P3)]. unfold split_port in Ep. destruct (find_sub [58] (a ++ r3)) as [i|]; [|injection Ep as <- _; exact A]. destruct (str_to_int _); try discriminate. injection Ep as <- _. exact A. }
  intros H. injection H as <-. destruct p; exact E4.
Qed.
(* protocol of the result *)
Lemma proto_of s u : set_url s = Ok u -> s <> [] -> u_proto u = fst (split_proto s).
Proof.
  unfold set_url. destruct (Nat.eqb_spec (length s) 0) as [L|_]; [destruct s; [contradiction|discriminate]|]. destruct (split_proto s) as (p & t). intros H _. cbn [fst]. destruct (length t =? 0)%nat; [injection H as <-; reflexivity|]. destruct (split_query t) as [[o s2]| |]; try discriminate. cbn [bind snd fst] in H. destruct (split_host s2) as (h & f). destruct (split_port h) as [[h2 q]| |]; try discriminate. cbn [bind snd fst] in H. injection H as <-. destruct q; reflexivity.
Qed.
(* the host is the beginning of what follows the protocol *)
Lemma host_prefix s u : set_url s = Ok u -> s <> [] -> is_prefix (u_host u) (snd (split_proto s)) = true.
Proof.
  unfold set_url. destruct (Nat.eqb_spec (length s) 0) as [L|_]; [destruct s; [contradiction|discriminate]|]. destruct (split_proto s) as (p & t). intros H _. cbn [snd]. destruct (length t =? 0)%nat; [injection H as <-; reflexivity|].
  assert (Z : forall c, free c []) by (intros c []).
  destruct (cut_after 63 [] t (Z 63)) as (r2 & A2 & B2 & _). cbn [app] in A2.
  assert (E2 : forall o s2, split_query t = Ok (o, s2) -> s2 = r2) by (unfold split_query; intros o s2; destruct (find_sub [63] t) as [i|]; [destruct (replace_special _ _); try discriminate|]; intros [= _ <-]; exact A2).
  destruct (split_query t) as [[o s2]| |]; try discriminate. specialize (E2 o s2 eq_refl). subst s2. cbn [bind snd fst] in H.
  assert (E3 : forall h f, split_host r2 = (h, f) -> is_prefix h t = true). { destruct (cut_after 47 [] r2 (Z 47)) as (r3 & A3 & B3 & _). cbn [app] in A3. intros h f. unfold split_host. destruct (find_sub [47] r2) as [i|]; [destruct (i =? 0)%nat; intros [= <- _]; [reflexivity|rewrite A3; exact (prefix_trans _ _ _ B3 B2)]|]. intros [= <- _]. exact B2. }
  destruct (split_host r2) as (h & f). specialize (E3 h f eq_refl). destruct (cut_after 58 [] h (Z 58)) as (r4 & A4 & B4 & _). cbn [app] in A4.
  assert (E4 : forall h2 q, split_port h = Ok (h2, q) -> h2 = r4) by (unfold split_port; intros h2 q; destruct (find_sub [58] h) as [i|]; [destruct (str_to_int _); try discriminate|]; intros [= <- _]; exact A4).
  destruct (split_port h) as [[h2 q]| |]; try discriminate. specialize (E4 h2 q eq_refl). subst h2. cbn [bind snd fst] in H. injection H as <-. destruct q; cbn [u_host]; exact (prefix_trans _ _ _ B4 E3).
Qed.
Theorem C35_node_address s n f : decompose s = Ok (Some (n, f)) -> (0 <= n)%Z -> exists t, s = dabc_s ++ [58; 47; 47] ++ node_s ++ t.
Proof.
  unfold decompose. destruct (set_url s) as [u| |] eqn:U; try discriminate. cbn [bind]. destruct (negb (u_valid u)); [discriminate|]. destruct (Nat.eqb_spec (length (u_proto u)) 0) as [L|L]; [intros [= <- <-]; lia|].
  destruct (bytes_eqb_spec (u_proto u) dabc_s) as [E|]; [|discriminate]. cbn [negb]. destruct (bytes_eqb_spec (firstn 4 (u_host u)) node_s) as [E2|]; [|discriminate]. intros _ _.
  assert (Ns : s <> []) by (intros ->; injection U as <-; apply L; reflexivity). assert (P := proto_of s u U Ns). assert (Q := host_prefix s u U Ns). unfold split_proto in P, Q. destruct (find_sub [58; 47; 47] s) as [i|] eqn:F; [|cbn [fst] in P; rewrite P in E; discriminate].
  cbn [fst snd] in P, Q. assert (Es := find_sub_spec _ _ _ F). cbn [length] in Es. rewrite Es, <- P, E. rewrite <- (firstn_skipn 4 (u_host u)), E2 in Q. apply is_prefix_spec in Q. eexists. rewrite Q, <- app_assoc. reflexivity.
Qed.
Theorem C35_node_number m r n f : stops r -> no_x r -> decompose (dabc_s ++ [58; 47; 47] ++ node_s ++ dec m ++ r) = Ok (Some (n, f)) -> n = Z.of_N m.
Proof.
  intros Hs Hx. unfold decompose. destruct (set_url _) as [u| |] eqn:U; try discriminate. cbn [bind].
  assert (P := split_proto_at dabc_s (node_s ++ dec m ++ r) ltac:(apply free_b; reflexivity)). assert (Ns : dabc_s ++ [58; 47; 47] ++ node_s ++ dec m ++ r <> []) by discriminate. assert (E := proto_of _ u U Ns). rewrite P in E. cbn [fst] in E.
  assert (Na : node_s ++ dec m <> []) by discriminate. assert (F1 : free 63 (node_s ++ dec m)) by frees. assert (F2 : free 47 (node_s ++ dec m)) by frees. assert (F3 : free 58 (node_s ++ dec m)) by frees.
  assert (P' : split_proto (dabc_s ++ [58; 47; 47] ++ node_s ++ dec m ++ r) = (u_proto u, (node_s ++ dec m) ++ r)) by (rewrite E, <- app_assoc; exact P). destruct (host_after (node_s ++ dec m) r u _ P' Ns Na F1 F2 F3 U) as (t & Eh & Pt).
  destruct (negb (u_valid u)); [discriminate|]. rewrite E, Eh. cbn [dabc_s length Nat.eqb]. change (negb (bytes_eqb [100; 97; 98; 99] [100; 97; 98; 99])) with false. cbv iota. unfold node_s. cbn [app firstn skipn]. change (negb (bytes_eqb [110; 111; 100; 101] [110; 111; 100; 101])) with false. cbv iota.
  assert (Q : stops t /\ no_x t). { destruct t as [|y t]; [split; exact I|]. destruct r as [|z r]; [discriminate|]. cbn [is_prefix] in Pt. apply andb_prop in Pt. destruct Pt as (Pt & _). apply N.eqb_eq in Pt. subst. split; assumption. }
  destruct Q as (Ht & Hxt). rewrite str_to_int_dec by assumption. destruct (existsb _ _); [discriminate|]. destruct (_ <=? _); [discriminate|]. cbn [bind]. destruct (_ <? 0)%Z; [discriminate|]. intros H. injection H as <- _. reflexivity.
Qed.
(* What follows the number is ignored: "dabc://node5abc/x" is node 5; and a number which does
   not fit is undefined behaviour. *)
Theorem C35_malformed_refuted : exists t, free 47 t /\ t <> [] /\ stops t /\ decompose (dabc_s ++ [58; 47; 47] ++ node_s ++ dec 5 ++ t ++ [47; 120]) = Ok (Some (5%Z, [120])).
Proof. exists [97; 98; 99]. split; [apply free_b; reflexivity|]. split; [discriminate|]. split; [reflexivity|]. vm_compute. reflexivity. Qed.
Theorem C35_overflow_refuted : decompose (dabc_s ++ [58; 47; 47] ++ node_s ++ dec 4294967297 ++ [47; 120]) = UB.
Proof. vm_compute. reflexivity. Qed.

(* C36: an option is found by its name, with the value of its first occurrence, and not found
   when there is none; values may be quoted and then contain anything else. *)
Theorem C36_option_partial l name : Forall wf_opt l -> wf_key name -> name <> [] -> get_option (opts_text l) name = Ok (first_value l name).
Proof.
  intros Wl Wn Ne. unfold get_option. destruct (Nat.eqb_spec (length name) 0) as [L|_]; [destruct name; [contradiction|discriminate]|]. apply opt_loop_spec; [exact Wn|exact Ne|exact Wl|lia].
Qed.
(* the number-th part of the options *)
Theorem C36_part l n o : Forall wf_opt l -> nth_error l n = Some o -> opt_text o <> [] -> part_loop (S (length (opts_text l))) (opts_text l) n = Ok (Some (opt_text o)).
Proof.
  intros Wl E Ne. rewrite part_loop_spec by (assumption || lia). rewrite E. destruct (Nat.eqb_spec (length (opt_text o)) 0) as [L|_]; [destruct (opt_text o); [contradiction|discriminate]|]. reflexivity.
Qed.
(* from the text of the URL *)
Theorem C36_from_url proto host file l name : free 58 proto -> host <> [] -> free 47 host -> free 63 host -> free 58 host -> free 63 file ->
  Forall wf_opt l -> free 37 (opts_text l) -> wf_key name -> name <> [] ->
  exists u, set_url (proto ++ [58; 47; 47] ++ host ++ [47] ++ file ++ [63] ++ encode (opts_text l)) = Ok u /\ get_option (u_opts u) name = Ok (first_value l name).
Proof.
  intros Hpr Hh H47 H63 H58 Hf Wl H37 Wn Ne. exists (mkUrl true proto host 0 file (opts_text l)). split; [|cbn [u_opts]; apply C36_option_partial; assumption].
  assert (U := C67_parts_partial proto host None (Some file) (Some (opts_text l)) Hpr Hh H47 H63 H58 ltac:(discriminate) Hf H37). cbn [port_text opt_part option_map dflt] in U. rewrite app_nil_l, <- app_assoc in U. exact U.
Qed.
(* a=1&ab&b='x&y=2'&a=3: prefixes, missing and quoted values *)
Definition ex_opts : list opt := [mkOpt [97] (Some (NoQuote, [49])); mkOpt [97; 98] None; mkOpt [98] (Some (Single, [120; 38; 121; 61; 50])); mkOpt [97] (Some (NoQuote, [51]))].
Example C36_case : Forall wf_opt ex_opts /\ opts_text ex_opts = [97;61;49;38;97;98;38;98;61;39;120;38;121;61;50;39;38;97;61;51] /\
  get_option (opts_text ex_opts) [97] = Ok (Some [49]) /\ get_option (opts_text ex_opts) [98] = Ok (Some [120; 38; 121; 61; 50]) /\ get_option (opts_text ex_opts) [97; 98] = Ok (Some []) /\ get_option (opts_text ex_opts) [121] = Ok None.
Proof. split; [|vm_compute; repeat split]. unfold ex_opts. repeat constructor; try (apply free_b; reflexivity). Qed.
(* Backslashes do not protect a quote: in a='x\'&b=1' the text of the value is taken for
   option b ... *)
Theorem C36_escape_refuted : get_option ([97; 61; 39; 120; 92; 39; 38; 98; 61; 49; 39]) [98] = Ok (Some [49; 39]).
Proof. vm_compute. reflexivity. Qed.
(* ... and as the text is decoded before it is split, an encoded quote in one value hides
   the following options: a=%27&b=1 *)
Theorem C36_encoded_quote_refuted : exists u, set_url ([104; 47; 102; 63] ++ [97; 61; 37; 50; 55; 38; 98; 61; 49]) = Ok u /\ get_option (u_opts u) [98] = Ok None.
Proof. eexists. split; vm_compute; reflexivity. Qed.
(* search always ends *)
Theorem C36_terminates opts name : exists r, get_option opts name = Ok r.
Proof.
  unfold get_option. destruct (_ =? 0)%nat; [eexists; reflexivity|]. assert (K : forall f l, (length l < f)%nat -> exists r, opt_loop f l name = Ok r); [|apply K; lia].
  induction f as [|f IH]; intros l H; [lia|]. cbn [opt_loop]. destruct l as [|x l]; [eexists; reflexivity|]. cbv zeta. remember (x :: l) as l1 eqn:El. assert (N : exists r, opt_loop f (skipn (scan_sep false false false l1 + 1) l1) name = Ok r) by (apply IH; rewrite skipn_length; subst l1; cbn [length] in *; lia).
  destruct (_ && _); [|exact N]. destruct (skipn (length name) _) as [|y v]; [eexists; reflexivity|]. destruct (y =? 61); [eexists; reflexivity|exact N].
Qed.

Print Assumptions C35_compose_partial.
Print Assumptions C35_port.
Print Assumptions C35_node_address.
Print Assumptions C35_node_number.
Print Assumptions C35_question_refuted.
Print Assumptions C35_malformed_refuted.
Print Assumptions C35_overflow_refuted.
Print Assumptions C36_option_partial.
Print Assumptions C36_part.
Print Assumptions C36_from_url.
Print Assumptions C36_escape_refuted.
Print Assumptions C36_encoded_quote_refuted.
Print Assumptions C36_terminates.
Print Assumptions C67_parts_partial.
Print Assumptions C67_no_protocol.
Print Assumptions C67_terminates.
Print Assumptions C67_bad_port.
Print Assumptions C67_colon_refuted.
