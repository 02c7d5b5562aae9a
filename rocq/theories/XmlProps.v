(* Property C80: the parser gives the nodes which the text of the file describes. *)
From Verif Require Import Common Bytes XmlSpec XmlModel XmlStream XmlProofs XmlTotal.
Local Open Scope N_scope.

(* A file with any nodes, any white space between them and any length, each attribute below
   24998 characters: the nodes with their names, attributes, texts and order. *)
Theorem C80_reads_partial ns t : document 24998 ns t -> parse_file buffer_size t = Ok (Some ns).
Proof. intros H. apply (parse_ok buffer_size 24998); auto; unfold buffer_size; lia. Qed.
Print Assumptions C80_reads_partial.

(* The same for every size of the buffer: attributes may take a quarter of it. *)
Theorem C80_buffers_partial size lim ns t : 8 <= size -> 4 * lim + 6 <= size -> document lim ns t -> parse_file size t = Ok (Some ns).
Proof. intros H8 HB H. apply (parse_ok size lim); auto. Qed.
Print Assumptions C80_buffers_partial.

(* So no text describes two documents. *)
Theorem C80_unique_partial a b t : document 24998 a t -> document 24998 b t -> a = b.
Proof. intros Ha Hb. apply C80_reads_partial in Ha, Hb. congruence. Qed.
Print Assumptions C80_unique_partial.

(* For every text, also one which is no document, parsing ends; it keeps to defined behaviour
   when the file is smaller than the buffer. *)
Theorem C80_total_partial t : parse_file buffer_size t <> Loop /\ (lenN t < 100000 -> exists r, parse_file buffer_size t = Ok r).
Proof.
  pose proof (t_file buffer_size t ltac:(unfold buffer_size; lia)) as H. destruct (parse_file buffer_size t) as [r| |].
  - split; [discriminate|]. eauto.
  - split; [discriminate|]. unfold buffer_size in H. lia.
  - contradiction.
Qed.
Print Assumptions C80_total_partial.

(* The configuration is the first element, when the file begins with the xml header. *)
Theorem C80_root_partial h l hk before n a ks after t :
  document 24998 (Nd KInstr h l hk :: before ++ Nd KElem n a ks :: after) t -> Forall (fun x => n_kind x = KInstr \/ n_kind x = KComment) before ->
  exists ns, parse_file buffer_size t = Ok (Some ns) /\ root_element ns = Some (Nd KElem n a ks).
Proof.
  intros D F. exists (Nd KInstr h l hk :: before ++ Nd KElem n a ks :: after). split; [apply C80_reads_partial; auto|].
  destruct D as (sp & tn & _ & W & _). inversion W as [|? ? ? ? ? Hh _ _]; subst. inversion Hh as [| | |? ? ? ? Hi| ]; subst.
  unfold root_element, get_child. destruct h as [|c h]; [contradiction|]. cbn [empty_name]. clear - F.
  induction F as [|x before K F IH]; [reflexivity|]. cbn [app find]. unfold is_elem at 1. destruct K as [-> | ->]; exact IH.
Qed.
Print Assumptions C80_root_partial.

(* ---- a file ---- *)
Definition n_xml : bytes := [120; 109; 108].
Definition n_dabc : bytes := [100; 97; 98; 99].
Definition n_A : bytes := [65].
Definition n_v : bytes := [118].
(* <?xml v="1"?> <dabc v="2"> <!-- - --> <A>a&lt;b <v/></A> </dabc> *)
Definition file : bytes :=
  [60; 63; 120; 109; 108; 32; 118; 61; 34; 49; 34; 63; 62; 10; 60; 100; 97; 98; 99; 32; 118; 61; 34; 50; 34; 62; 10;
   60; 33; 45; 45; 32; 45; 32; 45; 45; 62; 32; 60; 65; 62; 97; 38; 108; 116; 59; 98; 32; 60; 118; 47; 62; 60; 47; 65; 62; 10;
   60; 47; 100; 97; 98; 99; 62].
Definition dabc_node : node :=
  Nd KElem n_dabc [(n_v, [50])] [Nd KComment [32; 45; 32] [] []; Nd KElem n_A [] [Nd KText [97; 60; 98; 32] [] []; Nd KElem n_v [] []]].
Definition nodes : list node := [Nd KInstr n_xml [(n_v, [49])] []; dabc_node].

Ltac idn := cbn; repeat (split || constructor); reflexivity.
Ltac bl := unfold blanks, blank; repeat apply Forall_cons; try apply Forall_nil; lia.
Lemma v_attr c : 48 <= c <= 57 -> attributes 24998 [(n_v, [c])] ([32] ++ n_v ++ [61; 34] ++ [c] ++ [34]).
Proof.
  intros H. apply (at_cons 24998 32 [] n_v [c] [c] [] []); [left; auto|constructor|idn| | | |constructor].
  - intros (E & _). discriminate.
  - constructor; try lia. constructor.
  - cbn. lia.
Qed.
Example C80_file_document : document 24998 nodes file.
Proof.
  exists [], file. split; [constructor|]. split; [|split; [discriminate|reflexivity]].
  apply (ws_cons 24998 _ ([60; 63] ++ n_xml ++ ([32] ++ n_v ++ [61; 34] ++ [49] ++ [34]) ++ [] ++ [63; 62]) [10] [dabc_node]
    (([60] ++ n_dabc ++ ([32] ++ n_v ++ [61; 34] ++ [50] ++ [34]) ++ [] ++ [62] ++ [10] ++
      [60; 33; 45; 45; 32; 45; 32; 45; 45; 62; 32; 60; 65; 62; 97; 38; 108; 116; 59; 98; 32; 60; 118; 47; 62; 60; 47; 65; 62; 10] ++
      [60; 47] ++ n_dabc ++ [] ++ [62]) ++ [] ++ [])).
  - apply wr_instr; [idn|apply v_attr; lia|constructor].
  - bl.
  - apply ws_cons; [|constructor|constructor]. apply wr_nodes; [idn|apply v_attr; lia|constructor|bl|constructor|].
    apply (ws_cons 24998 _ ([60; 33; 45; 45] ++ [32; 45; 32] ++ [45; 45; 62]) [32] _
      (([60] ++ n_A ++ [] ++ [] ++ [62] ++ [] ++ (97 :: [38; 108; 116; 59; 98; 32]) ++ (([60] ++ n_v ++ [] ++ [] ++ [47; 62]) ++ [] ++ []) ++ [60; 47] ++ n_A ++ [] ++ [62]) ++ [10] ++ [])).
    + apply wr_comment. cbn. lia.
    + bl.
    + apply ws_cons; [|bl|constructor]. apply wr_text; [idn|constructor|constructor|constructor|constructor| |unfold printed; lia|].
      * constructor; try lia. apply (cd_lt [98; 32] [98; 32]). constructor; try lia. constructor; try lia. constructor.
      * apply ws_cons; [apply wr_short; [idn|constructor|constructor]|constructor|constructor].
Qed.
Example C80_case_file : parse_file buffer_size file = Ok (Some nodes) /\ root_element nodes = Some dabc_node.
Proof. vm_compute. auto. Qed.
(* the file is longer than a small buffer: stream moved on and buffer enlarged on the way *)
Example C80_case_small : parse_file 40 file = Ok (Some nodes).
Proof. vm_compute. reflexivity. Qed.

Lemma doc_of lim ns t : writtens lim ns t -> ns <> [] -> document lim ns t.
Proof. intros W N. exists [], t. repeat split; auto. constructor. Qed.

(* A closing tag need only be the begin of the name: <dabc></d>. *)
Theorem C80_closing_refuted : exists n m, ident n /\ ident m /\ n <> m /\
  parse_file buffer_size ([60] ++ n ++ [62; 60; 47] ++ m ++ [62]) = Ok (Some [Nd KElem n [] []]).
Proof. exists n_dabc, [100]. split; [idn|]. split; [idn|]. split; [discriminate|]. vm_compute. reflexivity. Qed.
Print Assumptions C80_closing_refuted.

(* Characters outside ASCII at the begin of a text count as white space and are lost. *)
Theorem C80_text_refuted : exists v n, coded v v /\ ident n /\
  parse_file buffer_size ([60] ++ n ++ [62] ++ v ++ [60; 47] ++ n ++ [62]) = Ok (Some [Nd KElem n [] [Nd KText (skipn 2 v) [] []]]).
Proof. exists [195; 164; 98], n_A. split; [repeat (constructor; try lia)|]. split; [idn|]. vm_compute. reflexivity. Qed.
Print Assumptions C80_text_refuted.

(* Without the header the first element is not found. *)
Theorem C80_header_refuted : exists n t, document 24998 [Nd KElem n [] []] t /\ parse_file buffer_size t = Ok (Some [Nd KElem n [] []]) /\
  root_element [Nd KElem n [] []] = None.
Proof.
  exists n_dabc, (([60] ++ n_dabc ++ [] ++ [] ++ [47; 62]) ++ [] ++ []). split; [|split; vm_compute; reflexivity].
  apply doc_of; [|discriminate]. apply ws_cons; [apply wr_short; [idn|constructor|constructor]|constructor|constructor].
Qed.
Print Assumptions C80_header_refuted.

(* An empty comment as first child of an element: its content is read behind the memory of
   the comment: <A><!----></A>. *)
Theorem C80_content_refuted : exists t n, document 24998 [n] t /\ parse_file buffer_size t = Ok (Some [n]) /\ node_content n = UB.
Proof.
  exists (([60] ++ n_A ++ [] ++ [] ++ [62] ++ [] ++ (([60; 33; 45; 45] ++ [] ++ [45; 45; 62]) ++ [] ++ []) ++ [60; 47] ++ n_A ++ [] ++ [62]) ++ [] ++ []),
    (Nd KElem n_A [] [Nd KComment [] [] []]). split; [|split; vm_compute; reflexivity].
  apply doc_of; [|discriminate]. apply ws_cons; [|constructor|constructor].
  apply wr_nodes; [idn|constructor|constructor|constructor|constructor|]. apply ws_cons; [|constructor|constructor]. apply wr_comment. cbn. lia.
Qed.
Print Assumptions C80_content_refuted.

(* An attribute longer than that behind the first part of a large file: the buffer is moved
   while the end of the value is searched, and the old address used afterwards. *)
Lemma coded_repeat c n : 0 < c < 256 -> c <> 38 -> c <> 60 -> c <> 34 -> coded (repeat c n) (repeat c n).
Proof. intros. induction n; cbn; constructor; auto. Qed.
Theorem C80_buffer_refuted : exists ns t, document 40000 ns t /\ lenN t < 104000 /\ parse_file buffer_size t = UB.
Proof.
  set (big := repeat 120 (N.to_nat 73000)). set (value := repeat 121 (N.to_nat 30000)).
  exists [Nd KElem n_A [] [Nd KText (120 :: big) [] []; Nd KElem n_v [(n_A, value)] []]],
    (([60] ++ n_A ++ [] ++ [] ++ [62] ++ [] ++ (120 :: big) ++
      (([60] ++ n_v ++ (32 :: [] ++ n_A ++ [61; 34] ++ value ++ [34] ++ []) ++ [] ++ [47; 62]) ++ [] ++ []) ++ [60; 47] ++ n_A ++ [] ++ [62]) ++ [] ++ []).
  split; [|split; vm_compute; reflexivity].
  apply doc_of; [|discriminate]. apply ws_cons; [|constructor|constructor].
  apply wr_text; [idn|constructor|constructor|constructor|constructor| |unfold printed; lia|].
  - constructor; try lia. apply coded_repeat; lia.
  - apply ws_cons; [|constructor|constructor]. apply wr_short; [idn| |constructor].
    apply at_cons; [left; auto|constructor|idn| |apply coded_repeat; lia| |constructor].
    + intros (E & _). discriminate.
    + vm_compute. reflexivity.
Qed.
Print Assumptions C80_buffer_refuted.
