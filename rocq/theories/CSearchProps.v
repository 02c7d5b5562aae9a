(* C78: what the configuration file says about an object is found *)
From Verif Require Import Common CSearchSpec CSearchModel CSearchProofs.
Local Open Scope string_scope.

(* A single value: the search ends, and gives the value of the first place of the file which belongs to the
   object and has one: first the places below the selected context which fit exactly, then all which fit with
   wildcards, in the order of the file. *)
Theorem C78_value : forall glob vars vars_id doc m ch below_mgr sel s name fields, selected_is doc sel s ->
  exists n, forall f, n <= f -> exists g,
    read_record_field glob vars vars_id doc m ch below_mgr f sel true name fields
      = Ok (match g_value g with Some _ => true | None => false end, g) /\
    g_fields g = fields /\
    g_value g = match descriptions ch below_mgr with
                | None => None
                | Some ds => first (value_at vars_id name) (all_places glob vars m ds s doc)
                end.
Proof.
  intros glob vars vars_id doc m ch below_mgr sel s name fields SEL.
  destruct (read_all glob vars vars_id doc m ch below_mgr sel s true name fields SEL) as (k & K).
  exists k. intros f F. rewrite (K f F). destruct (descriptions ch below_mgr) as [ds|]; [|exists (mkG None fields false); repeat split; reflexivity].
  rewrite vall_single. cbn [g_fields g_any]. destruct (first (value_at vars_id name) (all_places glob vars m ds s doc)) as [v|].
  - exists (mkG (Some v) fields false). repeat split; reflexivity.
  - exists (mkG None fields false). repeat split; reflexivity.
Qed.
Print Assumptions C78_value.

(* A record: the fields of all places are put together, what was there before and what comes first wins; the
   result tells if any place has the record. *)
Theorem C78_record : forall glob vars vars_id doc m ch below_mgr sel s name fields, selected_is doc sel s ->
  exists n, forall f, n <= f -> exists g,
    let ps := match descriptions ch below_mgr with None => [] | Some ds => all_places glob vars m ds s doc end in
    read_record_field glob vars vars_id doc m ch below_mgr f sel false name fields
      = Ok (existsb (fun p => match below p (split name) with Some _ => true | None => false end) ps, g) /\
    g_value g = None /\
    forall a, lookup (g_fields g) a = lookup (fields ++ flat_map (fields_at vars_id name) ps)%list a.
Proof.
  intros glob vars vars_id doc m ch below_mgr sel s name fields SEL.
  destruct (read_all glob vars vars_id doc m ch below_mgr sel s false name fields SEL) as (k & K).
  exists k. intros f F. rewrite (K f F). destruct (descriptions ch below_mgr) as [ds|].
  2: { exists (mkG None fields false). repeat split. intro a. cbn. rewrite app_nil_r. reflexivity. }
  pose proof (vall_map vars_id name (all_places glob vars m ds s doc) (mkG None fields false)) as V.
  destruct (vall vars_id false name _ _) as [o g]. destruct V as (-> & V2 & V3 & V4). exists g. cbn zeta. split; [|split; [exact V2|exact V4]].
  cbn [orb]. rewrite V3. reflexivity.
Qed.
Print Assumptions C78_record.

(* When the selected context has a value under exact names, the wildcards and the rest of the file do not matter. *)
Theorem C78_selected : forall glob glob' vars vars_id doc doc' m m' ch below_mgr sel sel' s name fields ds v,
  selected_is doc sel (Some s) -> selected_is doc' sel' (Some s) ->
  descriptions ch below_mgr = Some ds -> ds <> [] -> first (value_at vars_id name) (places (fun _ _ => false) vars true ds s) = Some v ->
  exists n, forall f, n <= f -> exists g g',
    read_record_field glob vars vars_id doc m ch below_mgr f sel true name fields = Ok (true, g) /\
    read_record_field glob' vars vars_id doc' m' ch below_mgr f sel' true name fields = Ok (true, g') /\
    g_value g = Some v /\ g_value g' = Some v.
Proof.
  intros glob glob' vars vars_id doc doc' m m' ch below_mgr sel sel' s name fields ds v SEL SEL' D DS V.
  assert (A : forall gl m doc, first (value_at vars_id name) (all_places gl vars m ds (Some s) doc) = Some v).
  { intros gl m0 d0. unfold all_places. destruct ds as [|d ds]; [congruence|].
    assert (E : forall l n, places gl vars true l n = places (fun _ _ => false) vars true l n).
    { induction l as [|[x|] l IH]; intro n; cbn [places]; auto. apply flat_map_ext. intro k. rewrite IH. reflexivity. }
    rewrite E. revert V. generalize (places (fun _ _ => false) vars true (d :: ds) s). intro l. induction l as [|x l IHl]; cbn [app first]; [discriminate|].
    destruct (value_at vars_id name x); [auto|exact IHl]. }
  destruct (C78_value glob vars vars_id doc m ch below_mgr sel (Some s) name fields SEL) as (n1 & N1).
  destruct (C78_value glob' vars vars_id doc' m' ch below_mgr sel' (Some s) name fields SEL') as (n2 & N2).
  exists (n1 + n2). intros f F. destruct (N1 f ltac:(lia)) as (g & G1 & _ & G3). destruct (N2 f ltac:(lia)) as (g' & G1' & _ & G3').
  rewrite D, A in G3, G3'. rewrite G3 in G1. rewrite G3' in G1'. exists g, g'. auto.
Qed.
Print Assumptions C78_selected.

(* Comments do not matter as long as no comment has just a name which is looked for as its text. *)
Theorem C78_comments_partial : forall glob vars vars_id doc m ch below_mgr sel sel' s single name fields ds,
  selected_is doc sel s -> selected_is (strip doc) sel' (option_map strip s) ->
  descriptions ch below_mgr = Some ds -> quiet (names_used m ds name) doc ->
  exists n, forall f, n <= f -> exists r,
    read_record_field glob vars vars_id doc m ch below_mgr f sel single name fields = Ok r /\
    read_record_field glob vars vars_id (strip doc) m ch below_mgr f sel' single name fields = Ok r.
Proof.
  intros glob vars vars_id doc m ch below_mgr sel sel' s single name fields ds SEL SEL' D Q.
  destruct (read_all glob vars vars_id doc m ch below_mgr sel s single name fields SEL) as (k1 & K1).
  destruct (read_all glob vars vars_id (strip doc) m ch below_mgr sel' (option_map strip s) single name fields SEL') as (k2 & K2).
  exists (k1 + k2). intros f F. rewrite K1, K2 by lia. rewrite D.
  assert (W : forall n, s = Some n -> within n doc).
  { intros n ->. destruct sel as [p|]; [|discriminate SEL]. destruct SEL as [_ E]. exact (node_within doc p n E). }
  destruct (all_places_strip glob vars m ds name s doc Q W) as [A1 A2]. rewrite A1.
  assert (U1 : forall a, In a (looked (split name)) -> In a (names_used m ds name)) by (intros a I; do 3 right; apply in_or_app; left; exact I).
  rewrite (vall_strip vars_id (names_used m ds name) name U1 ltac:(right; left; reflexivity) ltac:(do 2 right; left; reflexivity) single _ A2).
  destruct (vall vars_id single name (all_places glob vars m ds s doc) _) as [o g]. eexists. split; reflexivity.
Qed.
Print Assumptions C78_comments_partial.

(* ---- concrete cases ---- *)
Definition star (p v : string) : bool := String.eqb p "*".
Definition id (s : string) := s.
Definition el name attrs kids := Node false name attrs kids.
Definition app_m : mgr := mkM "h" "ctx".
Definition ex_mod := el "Module" [("name", "m"); ("speed", "3")]
  [el "Num" [("value", "4")] []; el "List" [] [el "item" [("value", "a")] []; Node true "item" [] []; el "item" [("value", "b")] []]].
Definition ex_ctx := el "Context" [("host", "h"); ("name", "ctx")]
  [Node false "" [] []; el "Module" [("name", "x")] [el "Num" [("value", "1")] []]; ex_mod].
Definition ex_any := el "Context" []
  [el "Module" [("name", "x")] [el "Buf" [("value", "2")] []]; el "Module" [("name", "*")] [el "Num" [("value", "7")] []; el "Buf" [("value", "8"); ("unit", "kB")] []];
   el "Module" [] [el "Buf" [("value", "9"); ("max", "5")] [el "dabc:field" [("name", "unit"); ("value", "MB")] []; el "dabc:field" [("name", "min"); ("value", "1")] []]]].
Definition ex_doc := el "dabc" [("version", "2")] [ex_any; ex_ctx].
Definition ex_obj := [mkO Module "m" false].

Example C78_case :
  let read single name fields := read_record_field star id id ex_doc app_m ex_obj true 100 (Some [1]) single name fields in
  selected_is ex_doc (Some [1]) (Some ex_ctx) /\
  descriptions ex_obj true = Some [Some ("Module", [("name", "m")])] /\
  (* exact name in the selected context before the wildcard *)
  read true "Num" [] = Ok (true, mkG (Some (Text "4")) [] false) /\
  read true "List" [] = Ok (true, mkG (Some (Texts ["a"; "b"])) [] false) /\
  read true "speed" [] = Ok (true, mkG (Some (Text "3")) [] false) /\
  (* only with wildcards *)
  read true "Buf" [] = Ok (true, mkG (Some (Text "8")) [] false) /\
  read true "Other" [] = Ok (false, mkG None [] false) /\
  (* a record from two places *)
  read false "Buf" [("max", "1")] = Ok (true, mkG None [("max", "1"); ("value", "8"); ("unit", "kB"); ("min", "1")] true) /\
  first (value_at id "Num") (all_places star id app_m [Some ("Module", [("name", "m")])] (Some ex_ctx) ex_doc) = Some (Text "4").
Proof. vm_compute. repeat split; congruence. Qed.

(* an object inside of another one; sub items *)
Example C78_case_inner :
  let doc := el "dabc" [] [el "Context" [] [el "Module" [("name", "a")] []; el "Module" [("name", "m")] [el "Input0" [] [el "Q" [] [el "Len" [("value", "5")] []]]]]] in
  read_record_field star id id doc app_m [mkO Plain "Input0" false; mkO Module "m" false] true 100 (Some [0]) true "Q/Len" []
    = Ok (true, mkG (Some (Text "5")) [] false) /\
  read_record_field star id id doc app_m [mkO Plain "Input0" false; mkO Module "m" true; mkO Plain "Folder" false] false 100 None true "Q/Len" []
    = Ok (true, mkG (Some (Text "5")) [] false) /\
  (* an object without parents is not found *)
  read_record_field star id id doc app_m [mkO Module "m" false] false 100 (Some [0]) true "Input0/Q/Len" []
    = Ok (false, mkG None [] false).
Proof. vm_compute. repeat split. Qed.

(* The selected context decides: the same context in another file gives the same value. *)
Example C78_case_selected :
  selected_is ex_doc (Some [1]) (Some ex_ctx) /\ selected_is (el "dabc" [] [ex_ctx]) (Some [0]) (Some ex_ctx) /\
  first (value_at id "Num") (places (fun _ _ => false) id true [Some ("Module", [("name", "m")])] ex_ctx) = Some (Text "4").
Proof. vm_compute. repeat split; congruence. Qed.

(* A file with a comment which is never taken for a node. *)
Definition com_doc := el "dabc" [] [el "Context" [] [el "Module" [("name", "m")] [Node true " number " [] []; el "Num" [("value", "4")] []]]].
Example C78_case_comments : quiet (names_used app_m [Some ("Module", [("name", "m")])] "Num") com_doc /\
  strip com_doc <> com_doc /\
  read_record_field star id id com_doc app_m ex_obj true 100 (Some [0]) true "Num" [] = Ok (true, mkG (Some (Text "4")) [] false).
Proof.
  split; [|split; [discriminate|vm_compute; reflexivity]]. split.
  - vm_compute. intuition discriminate.
  - intros k W C.
    assert (G : In k [com_doc; el "Context" [] [el "Module" [("name", "m")] [Node true " number " [] []; el "Num" [("value", "4")] []]];
              el "Module" [("name", "m")] [Node true " number " [] []; el "Num" [("value", "4")] []]; Node true " number " [] []; el "Num" [("value", "4")] []]).
    { inversion W; subst; [left; reflexivity|]. cbn in H. destruct H as [<-|[]].
      inversion H0; subst; [right; left; reflexivity|]. cbn in H. destruct H as [<-|[]].
      inversion H1; subst; [do 2 right; left; reflexivity|]. cbn in H. destruct H as [<-|[<-|[]]].
      - inversion H2; subst; [do 3 right; left; reflexivity|]. destruct H.
      - inversion H2; subst; [do 4 right; left; reflexivity|]. destruct H. }
    cbn [In] in G. destruct G as [<-|[<-|[<-|[<-|[<-|[]]]]]]; try discriminate C.
    intro I. vm_compute in I. repeat (destruct I as [I|I]; [discriminate I|]). exact I.
Qed.

(* Comments are nodes with their text as name: <!--Num--> in front of <Num value="4"/> hides the value. *)
Theorem C78_comment_refuted : exists doc, 
  (exists g, read_record_field star id id doc app_m ex_obj true 100 (Some [0]) true "Num" [] = Ok (false, g) /\ g_value g = None) /\
  (exists g, read_record_field star id id (strip doc) app_m ex_obj true 100 (Some [0]) true "Num" [] = Ok (true, g) /\ g_value g = Some (Text "4")).
Proof.
  exists (el "dabc" [] [el "Context" [] [el "Module" [("name", "m")] [Node true "Num" [] []; el "Num" [("value", "4")] []]]]).
  split; eexists; vm_compute; split; reflexivity.
Qed.
Print Assumptions C78_comment_refuted.

(* A node with the exact name does not always win over a node with a wildcard: when any node on the way (here the
   application, written without its class) does not fit exactly, the first one in the file is taken. *)
Theorem C78_exact_refuted : exists any exact,
  attr any "name" = Some "*" /\ attr exact "name" = Some "m" /\ value_at id "Num" exact = Some (Text "4") /\
  let doc := el "dabc" [] [el "Context" [("host", "h"); ("name", "ctx")] [el "Application" [] [any; exact]]] in
  exists g, read_record_field star id id doc app_m [mkO Module "m" false; mkO (Application "App") "App" false] true 100 (Some [0]) true "Num" []
              = Ok (true, g) /\ g_value g = Some (Text "7").
Proof.
  exists (el "Module" [("name", "*")] [el "Num" [("value", "7")] []]), (el "Module" [("name", "m")] [el "Num" [("value", "4")] []]).
  repeat split. eexists. vm_compute. split; reflexivity.
Qed.
Print Assumptions C78_exact_refuted.
