From Verif Require Import Common CSearchSpec CSearchModel.
Local Open Scope string_scope.
Local Open Scope nat_scope.

Definition dfits glob vars strict (d : option (string * list (string * string))) (n : xml) : bool :=
  match d with Some d => fits glob vars strict d n | None => false end.

Fixpoint first_idx (P : xml -> bool) (l : list xml) (i : nat) : option nat :=
  match l with [] => None | k :: l => if P k then Some i else first_idx P l (S i) end.

Lemma skipn_cons {A} (l : list A) i k : nth_error l i = Some k -> skipn i l = k :: skipn (S i) l.
Proof.
  revert i. induction l as [|a l IH]; intros [|i] H; cbn in *; try discriminate.
  - congruence.
  - destruct l; [destruct i; discriminate|]. exact (IH i H).
Qed.

Lemma skipn_none {A} (l : list A) i : nth_error l i = None -> skipn i l = [].
Proof. intro H. apply nth_error_None in H. apply skipn_all2. lia. Qed.

Lemma first_idx_some P (l : list xml) : forall i j ks, l = skipn i ks -> first_idx P l i = Some j ->
  exists k, nth_error ks j = Some k /\ P k = true /\ i <= j.
Proof.
  induction l as [|a l IH]; intros i j ks E H; cbn in H; [discriminate|].
  destruct (nth_error ks i) as [k|] eqn:K.
  - rewrite (skipn_cons _ _ _ K) in E. injection E as -> E. destruct (P k) eqn:PK.
    + injection H as <-. eauto.
    + destruct (IH (S i) j ks E H) as (k' & ? & ? & ?). exists k'. repeat split; auto; lia.
  - rewrite (skipn_none _ _ K) in E. discriminate.
Qed.

Lemma first_idx_refine a b (ks l : list xml) : forall i, l = skipn i ks ->
  first_idx (fun k => a k && b k) l i =
  match first_idx a l i with
  | None => None
  | Some j => match nth_error ks j with
              | Some k => if b k then Some j else first_idx (fun k => a k && b k) (skipn (S j) ks) (S j)
              | None => None
              end
  end.
Proof.
  induction l as [|x l IH]; intros i E; cbn [first_idx]; [reflexivity|].
  destruct (nth_error ks i) as [k|] eqn:K.
  - rewrite (skipn_cons _ _ _ K) in E. injection E as -> E. destruct (a k) eqn:A; cbn [andb].
    + rewrite K. destruct (b k); [reflexivity|]. rewrite E. reflexivity.
    + apply IH; auto.
  - rewrite (skipn_none _ _ K) in E. discriminate.
Qed.

Lemma first_idx_ext P Q l : (forall k, P k = Q k) -> forall i, first_idx P l i = first_idx Q l i.
Proof. intro E. induction l; intro i; cbn; [reflexivity|]. rewrite E, IHl. reflexivity. Qed.

Section D.
  Context (doc : xml).
  Notation node_at := (node_at doc).
  Notation wide := (wide doc).

  Lemma size_kid n k : In k (x_kids n) -> size k < size n.
  Proof.
    destruct n as [c s a ks]. cbn [x_kids]. intro H. cbn [size].
    apply Nat.lt_succ_r. induction ks as [|x ks IH]; [destruct H|]. cbn. destruct H as [->|H]; [lia|]. specialize (IH H). unfold list_sum in IH. lia.
  Qed.
  Lemma kids_size n : List.length (x_kids n) < size n.
  Proof.
    destruct n as [c s a ks]. cbn [x_kids size]. apply Nat.lt_succ_r.
    induction ks as [|x ks IH]; [cbn; lia|]. cbn. destruct x; cbn [size]. unfold list_sum in IH. lia.
  Qed.
  Lemma size_at p n : node_at p = Some n -> size n <= size doc.
  Proof.
    revert n. induction p as [|i p IH]; intros n H; cbn in H.
    - injection H as <-. lia.
    - destruct (node_at p) as [q|] eqn:Q; [|discriminate]. apply nth_error_In in H. apply size_kid in H. specialize (IH q eq_refl). lia.
  Qed.
  Lemma kids_wide p n : node_at p = Some n -> S (List.length (x_kids n)) < wide.
  Proof. intro H. apply size_at in H. pose proof (kids_size n). unfold CSearchModel.wide. lia. Qed.

  Definition at_idx (n : xml) (p : path) (i : nat) : option path :=
    match nth_error (x_kids n) i with Some _ => Some (i :: p) | None => None end.
  Definition start (n : xml) : nat := match x_kids n with k :: _ => if String.eqb (x_name k) "" then 1 else 0 | [] => 0 end.

  Lemma shown_skip n : shown n = skipn (start n) (x_kids n).
  Proof. unfold shown, start. destruct (x_kids n); [reflexivity|]. destruct (_ =? _)%string; reflexivity. Qed.
  Lemma node_kid p n i : node_at p = Some n -> node_at (i :: p) = nth_error (x_kids n) i.
  Proof. intro H. cbn. rewrite H. reflexivity. Qed.
  Lemma get_next_at p n i : node_at p = Some n -> get_next doc (i :: p) = Ok (at_idx n p (S i)).
  Proof. intro H. unfold get_next. rewrite (node_kid p n _ H). unfold at_idx. destruct (nth_error _ _); reflexivity. Qed.
  Lemma get_child_at p n : node_at p = Some n -> get_child doc (Some p) = at_idx n p (start n).
  Proof.
    intro H. unfold get_child, at_idx, start. rewrite H. destruct (x_kids n) as [|k r]; [reflexivity|].
    destruct (_ =? _)%string; [|reflexivity]. destruct r; reflexivity.
  Qed.

  Lemma scan_at p n name : node_at p = Some n -> forall f i, List.length (x_kids n) < f + i ->
    scan doc f (at_idx n p i) name =
    Ok (option_map (fun j => j :: p) (first_idx (fun k => String.eqb (x_name k) name) (skipn i (x_kids n)) i)).
  Proof.
    intro H. induction f as [|f IH]; intros i L.
    - unfold at_idx. destruct (nth_error (x_kids n) i) eqn:K; [apply nth_error_Some_lt in K || (assert (i < List.length (x_kids n)) by (apply nth_error_Some; congruence)); lia|].
      rewrite (skipn_none _ _ K). reflexivity.
    - destruct (nth_error (x_kids n) i) as [k|] eqn:K.
      + assert (E : at_idx n p i = Some (i :: p)) by (unfold at_idx; rewrite K; reflexivity). rewrite E. cbn [scan].
        assert (N : name_at doc (i :: p) = x_name k) by (unfold name_at; rewrite (node_kid p n i H), K; reflexivity).
        rewrite N, (skipn_cons _ _ _ K). cbn [first_idx]. destruct (x_name k =? name)%string; [reflexivity|].
        rewrite (get_next_at p n i H). cbn [bind]. apply IH. lia.
      + unfold at_idx. rewrite K. rewrite (skipn_none _ _ K). reflexivity.
  Qed.

  (* the state which goes on with child [i] of the node at [p] *)
  Definition ready (n : xml) (p : path) (st : cur) (i : nat) : Prop :=
    (st = mkC (Some p) None /\ i = start n) \/ (exists j, st = mkC (Some p) (Some (j :: p)) /\ i = S j).
  Definition found (p : path) (r : option nat) : cur * bool :=
    match r with Some j => (mkC (Some (j :: p)) None, true) | None => (mkC (Some p) None, false) end.

  Lemma find_item_at p n st i name : node_at p = Some n -> ready n p st i ->
    find_item doc st name = Ok (found p (first_idx (fun k => String.eqb (x_name k) name) (skipn i (x_kids n)) i)).
  Proof.
    intros H R. pose proof (kids_wide p n H) as W. unfold find_item.
    destruct R as [[-> ->]|(j & -> & ->)]; cbn [c_item c_chld bind].
    - rewrite (get_child_at p n H). rewrite (scan_at p n name H) by lia. cbn [bind]. destruct (first_idx _ _ _); reflexivity.
    - rewrite (get_next_at p n j H). cbn [bind]. rewrite (scan_at p n name H) by lia. cbn [bind]. destruct (first_idx _ _ _); reflexivity.
  Qed.

End D.

Lemma flat_map_nil_f {A B} (f : A -> list B) l : (forall x, f x = []) -> flat_map f l = [].
Proof. intro E. induction l; cbn; [reflexivity|]. rewrite E, IHl. reflexivity. Qed.

Section P.
  Context (glob : string -> string -> bool) (vars : string -> string) (doc : xml).
  Notation node_at := (node_at doc).
  Notation wide := (wide doc).
  Notation kids_wide := (kids_wide doc).
  Notation node_kid := (node_kid doc).
  Notation find_item_at := (find_item_at doc).

  Lemma check_attr_at strict p n j k a v : node_at p = Some n -> nth_error (x_kids n) j = Some k ->
    check_attr glob vars doc strict (mkC (Some (j :: p)) None) a v =
    Ok (if agrees glob vars strict k (a, v) then (mkC (Some (j :: p)) None, true) else (mkC (Some p) (Some (j :: p)), false)).
  Proof.
    intros H K. unfold check_attr. cbn [c_chld c_item get_attr]. rewrite (node_kid p n j H), K. unfold agrees. cbn [fst snd].
    destruct (attr k a) as [t|]; destruct strict; cbn [get_parent bind].
    - destruct (vars t =? "")%string eqn:E; cbn [negb andb]; [reflexivity|]. destruct (vars t =? v)%string; reflexivity.
    - destruct (vars t =? "")%string eqn:E; cbn [orb]; [reflexivity|]. destruct (vars t =? v)%string; [reflexivity|]. cbn [orb]. destruct (glob (vars t) v); reflexivity.
    - reflexivity.
    - reflexivity.
  Qed.

  (* the common shape of the Find methods *)
  Section L.
    Context (strict : bool) (tag : string) (checks : list (string * string))
            (check : cur -> res (cur * bool)) (loop : nat -> cur -> res (cur * bool)).
    Context (LOOP : forall f st, loop (S f) st =
      do r <- find_item doc st tag;
      let '(st1, ok) := r in
      if ok then do r <- check st1; let '(st2, ok) := r in if ok then Ok (st2, true) else loop f st2
      else Ok (st1, false)).
    Context (CHECK : forall p n j k, node_at p = Some n -> nth_error (x_kids n) j = Some k ->
      check (mkC (Some (j :: p)) None) =
      Ok (if forallb (agrees glob vars strict k) checks then (mkC (Some (j :: p)) None, true)
          else (mkC (Some p) (Some (j :: p)), false))).

    Lemma loop_at p n : node_at p = Some n -> forall f st i, ready n p st i -> List.length (x_kids n) < f + i -> 0 < f ->
      loop f st = Ok (found p (first_idx (fits glob vars strict (tag, checks)) (skipn i (x_kids n)) i)).
    Proof.
      intro H. induction f as [|f IH]; intros st i R L F; [lia|].
      rewrite LOOP, (find_item_at p n st i tag H R). cbn [bind].
      set (A := fun k => (x_name k =? tag)%string). set (B := fun k => forallb (agrees glob vars strict k) checks).
      change (fits glob vars strict (tag, checks)) with (fun k => A k && B k).
      rewrite (first_idx_refine A B (x_kids n) _ i eq_refl).
      destruct (first_idx A (skipn i (x_kids n)) i) as [j|] eqn:E; cbn [found].
      - destruct (first_idx_some A _ i j (x_kids n) eq_refl E) as (k & K & _ & IJ).
        rewrite (CHECK p n j k H K). cbn [bind]. rewrite K. fold (B k). destruct (B k); cbn [found]; [reflexivity|].
        assert (j < List.length (x_kids n)) by (apply nth_error_Some; congruence).
        destruct f as [|f]; [lia|]. apply IH; [right; eauto|lia|lia].
      - reflexivity.
    Qed.
  End L.

  Lemma find_named_at strict p n st i tag name : node_at p = Some n -> ready n p st i ->
    find_named glob vars doc wide strict st tag name =
    Ok (found p (first_idx (fits glob vars strict (tag, [("name", name)])) (skipn i (x_kids n)) i)).
  Proof.
    intros H R. pose proof (kids_wide p n H).
    apply (loop_at strict tag [("name", name)] (fun st => check_attr glob vars doc strict st "name" name)
             (fun f st => find_named glob vars doc f strict st tag name)); auto; try lia.
    intros p' n' j k H' K. rewrite (check_attr_at strict p' n' j k _ _ H' K). cbn [forallb]. rewrite andb_true_r. reflexivity.
  Qed.

  Lemma find_app_at strict p n st i class name top : node_at p = Some n -> ready n p st i ->
    find_app glob vars doc wide strict st class =
    Ok (found p (first_idx (fits glob vars strict (described (mkO (Application class) name top))) (skipn i (x_kids n)) i)).
  Proof.
    intros H R. pose proof (kids_wide p n H).
    apply (loop_at strict "Application" (if (class =? "Application")%string then [] else [("class", class)])
             (fun st => if (class =? "Application")%string then Ok (st, true) else check_attr glob vars doc strict st "class" class)
             (fun f st => find_app glob vars doc f strict st class)); auto; try lia.
    - intros f s. cbn [find_app]. destruct (find_item doc s "Application") as [[st1 ok]| |]; cbn [bind]; [|reflexivity|reflexivity].
      destruct ok; [|reflexivity]. destruct (class =? "Application")%string; reflexivity.
    - intros p' n' j k H' K. destruct (class =? "Application")%string; [reflexivity|].
      rewrite (check_attr_at strict p' n' j k _ _ H' K). cbn [forallb]. rewrite andb_true_r. reflexivity.
  Qed.

  Lemma find_mgr_at strict p n st i m : node_at p = Some n -> ready n p st i ->
    find_mgr glob vars doc wide strict st m =
    Ok (found p (first_idx (fits glob vars strict (described_mgr m)) (skipn i (x_kids n)) i)).
  Proof.
    intros H R. pose proof (kids_wide p n H).
    apply (loop_at strict "Context" (snd (described_mgr m))
             (fun st1 =>
               do r <- (if (m_host m =? "")%string then Ok (st1, true) else check_attr glob vars doc strict st1 "host" (m_host m));
               let '(st2, ok) := r in
               if ok then (if (m_host m =? m_name m)%string then Ok (st2, true) else check_attr glob vars doc strict st2 "name" (m_name m))
               else Ok (st2, false))
             (fun f st => find_mgr glob vars doc f strict st m)); auto; try lia.
    - intros f s. cbn [find_mgr]. destruct (find_item doc s "Context") as [[st1 ok]| |]; cbn [bind]; [|reflexivity|reflexivity].
      destruct ok; [|reflexivity].
      destruct (if (m_host m =? "")%string then _ else _) as [[st2 [|]]| |]; cbn [bind]; try reflexivity.
    - intros p' n' j k H' K. unfold described_mgr. cbn [snd].
      destruct (m_host m =? "")%string; cbn [bind app].
      + destruct (m_host m =? m_name m)%string; [reflexivity|].
        rewrite (check_attr_at strict p' n' j k _ _ H' K). cbn [forallb]. rewrite andb_true_r. reflexivity.
      + rewrite (check_attr_at strict p' n' j k _ _ H' K). cbn [bind forallb].
        destruct (agrees glob vars strict k ("host", m_host m)); cbn [andb]; [|reflexivity].
        destruct (m_host m =? m_name m)%string; [reflexivity|].
        rewrite (check_attr_at strict p' n' j k _ _ H' K). cbn [forallb]. rewrite andb_true_r. reflexivity.
  Qed.

  Lemma fits_plain strict name : forall k, fits glob vars strict (name, []) k = (x_name k =? name)%string.
  Proof. intro k. unfold fits. cbn. apply andb_true_r. Qed.

  Lemma first_idx_false (l : list xml) : forall i, first_idx (fun _ => false) l i = None.
  Proof. induction l; intros; cbn; auto. Qed.

  (* the description of a target *)
  Definition tdesc (m : mgr) (t : target) : option (string * list (string * string)) :=
    match t with TMgr => Some (described_mgr m) | TObj o up => seen o up end.
  Definition tfind strict (m : mgr) (st : cur) (t : target) : res (cur * bool) :=
    match t with TMgr => find_mgr glob vars doc wide strict st m | TObj o u => find_obj glob vars doc strict st o u end.

  (* a search which finds nothing: the state may keep the child only when nothing was searched *)
  Lemma tfind_at strict m t p n st i : node_at p = Some n -> ready n p st i -> (tdesc m t <> None \/ c_chld st = None) ->
    tfind strict m st t = Ok (found p (first_idx (dfits glob vars strict (tdesc m t)) (skipn i (x_kids n)) i)).
  Proof.
    intros H R D. destruct t as [|[k name top] up]; cbn [tfind tdesc].
    - apply find_mgr_at; auto.
    - assert (NO : D = D -> c_chld st = None -> Ok (st, false) = Ok (found p (first_idx (fun _ => false) (skipn i (x_kids n)) i))).
      { intros _ C. rewrite first_idx_false. cbn [found]. destruct R as [[-> _]|(j & -> & _)]; [reflexivity|discriminate C]. }
      unfold find_obj, seen in *. cbn [o_kind o_name] in *.
      destruct k; cbn [needs_parent andb] in *; try destruct up; cbn [negb tdesc] in *;
        try (destruct D as [D|D]; [exfalso; apply D; reflexivity|]; exact (NO eq_refl D)).
      + rewrite (find_item_at p n st i name H R). do 2 f_equal. apply first_idx_ext. intro k. symmetry. exact (fits_plain strict name k).
      + apply find_named_at; auto.
      + apply find_named_at; auto.
      + apply find_named_at; auto.
      + apply find_named_at; auto.
      + apply find_named_at; auto.
      + apply find_named_at; auto.
      + apply find_app_at; auto.
      + apply find_app_at; auto.
  Qed.
End P.

(* ---- what is read at a place ---- *)
Definition addall (l fs : list (string * string)) : list (string * string) :=
  fold_left (fun l p => match lookup l (fst p) with Some _ => l | None => l ++ [p] end)%list fs l.

Lemma cut_split s : match cut s with
                    | (a, None) => a = s /\ split s = [s]
                    | (a, Some r) => split s = a :: split r /\ String.length r < String.length s
                    end.
Proof.
  induction s as [|c s IH]; cbn [cut split]; [auto|].
  destruct (Ascii.eqb c "/")%char; [split; [reflexivity|cbn; lia]|].
  destruct (cut s) as [a [r|]]; destruct IH as [A B].
  - rewrite A. cbn. split; [reflexivity|lia].
  - subst a. rewrite B. auto.
Qed.
Lemma split_nil s : split s <> [].
Proof.
  induction s as [|c s IH]; cbn; [discriminate|]. destruct (Ascii.eqb c "/")%char; [discriminate|].
  destruct (split s); [exact IH|discriminate].
Qed.

Lemma find_first_idx P l : forall i ks, l = skipn i ks ->
  find P l = match first_idx P l i with Some j => nth_error ks j | None => None end.
Proof.
  induction l as [|x l IH]; intros i ks E; cbn; [reflexivity|].
  destruct (nth_error ks i) as [k|] eqn:K.
  - rewrite (skipn_cons _ _ _ K) in E. injection E as -> E. destruct (P k); [auto|]. apply IH; auto.
  - rewrite (skipn_none _ _ K) in E. discriminate.
Qed.

Section V.
  Context (glob : string -> string -> bool) (vars vars_id : string -> string) (doc : xml).
  Notation node_at := (node_at doc).
  Notation wide := (wide doc).

  Definition node_opt (q : option path) : option xml := match q with Some q => node_at q | None => None end.

  Lemma scan_part p n a : node_at p = Some n ->
    exists q, scan doc wide (get_child doc (Some p)) a = Ok q /\ node_opt q = part n a /\ (q = None <-> part n a = None).
  Proof.
    intro H. rewrite (get_child_at doc p n H). rewrite (scan_at doc p n a H) by (pose proof (kids_wide doc p n H); lia).
    eexists. split; [reflexivity|]. unfold part. rewrite shown_skip.
    rewrite (find_first_idx _ _ (start n) (x_kids n) eq_refl).
    destruct (first_idx _ _ _) as [j|] eqn:E; cbn [option_map node_opt]; [|tauto].
    destruct (first_idx_some _ _ _ j (x_kids n) eq_refl E) as (k & K & _). rewrite (node_kid doc p n j H), K.
    split; [reflexivity|split; discriminate].
  Qed.

  Lemma below_single n s : s <> "" -> below n [s] = part n s.
  Proof. intro S. cbn. destruct s; [congruence|]. destruct (part n _); reflexivity. Qed.
  Lemma below_more n a l : l <> [] -> below n (a :: l) = match part n a with Some k => below k l | None => None end.
  Proof. intro L. destruct l; [congruence|]. destruct a; reflexivity. Qed.

  Lemma sub_item f : forall p n name, node_at p = Some n -> String.length name < f ->
    exists q, find_sub_item doc f (Some p) name = Ok q /\ node_opt q = below n (split name) /\ (q = None <-> below n (split name) = None).
  Proof.
    induction f as [|f IH]; intros p n name H L; [lia|]. cbn [find_sub_item].
    destruct (name =? "")%string eqn:E.
    { apply String.eqb_eq in E. subst name. cbn. exists (Some p). repeat split; auto; discriminate. }
    apply String.eqb_neq in E. pose proof (cut_split name) as C. destruct (cut name) as [a [r|]]; destruct C as [C1 C2].
    - destruct (scan_part p n a H) as (q & Q1 & Q2 & Q3). rewrite Q1. cbn [bind]. rewrite C1, (below_more n a _ (split_nil r)).
      destruct (part n a) as [k|] eqn:PK.
      + destruct q as [q|]; [|discriminate Q2]. apply IH; [exact Q2|lia].
      + destruct q as [q|]; [discriminate (proj2 Q3 eq_refl)|]. exists None. destruct f; cbn; repeat split; auto.
    - rewrite C2, (below_single n name E). apply scan_part; auto.
  Qed.

  Lemma collect_at p n : node_at p = Some n -> forall f i, List.length (x_kids n) < f + i ->
    collect vars_id doc f (at_idx n p i) =
    Ok (flat_map (fun k => match attr k "value" with Some t => [vars_id t] | None => [] end)
                 (filter (fun k => String.eqb (x_name k) "item") (skipn i (x_kids n)))).
  Proof.
    intro H. induction f as [|f IH]; intros i L; destruct (nth_error (x_kids n) i) as [k|] eqn:K.
    - assert (i < List.length (x_kids n)) by (apply nth_error_Some; congruence). lia.
    - unfold at_idx. rewrite K, (skipn_none _ _ K). reflexivity.
    - assert (E : at_idx n p i = Some (i :: p)) by (unfold at_idx; rewrite K; reflexivity). rewrite E. cbn [collect].
      rewrite (get_next_at doc p n i H). cbn [bind]. rewrite IH by lia. cbn [bind].
      assert (N : name_at doc (i :: p) = x_name k) by (unfold name_at; rewrite (node_kid doc p n i H), K; reflexivity).
      assert (A : forall a, get_attr doc (Some (i :: p)) a = attr k a) by (intro a; unfold get_attr; rewrite (node_kid doc p n i H), K; reflexivity).
      rewrite N, A, (skipn_cons _ _ _ K). cbn [filter]. destruct (x_name k =? "item")%string; cbn [flat_map]; [|reflexivity].
      destruct (attr k "value"); reflexivity.
    - unfold at_idx. rewrite K, (skipn_none _ _ K). reflexivity.
  Qed.

  Definition sub_fields (ks : list xml) : list (string * string) :=
    flat_map (fun k => match attr k "name", attr k "value" with
                       | Some a, Some t => [(a, vars_id t)] | _, _ => [] end)
             (filter (fun k => String.eqb (x_name k) "dabc:field") ks).
  Lemma children_at p n : node_at p = Some n -> forall f i l, List.length (x_kids n) < f + i ->
    add_children vars_id doc f (at_idx n p i) l = Ok (addall l (sub_fields (skipn i (x_kids n)))).
  Proof.
    intro H. induction f as [|f IH]; intros i l L; destruct (nth_error (x_kids n) i) as [k|] eqn:K.
    - assert (i < List.length (x_kids n)) by (apply nth_error_Some; congruence). lia.
    - unfold at_idx. rewrite K, (skipn_none _ _ K). reflexivity.
    - assert (E : at_idx n p i = Some (i :: p)) by (unfold at_idx; rewrite K; reflexivity). rewrite E. cbn [add_children].
      rewrite (get_next_at doc p n i H). cbn [bind]. rewrite IH by lia.
      assert (N : name_at doc (i :: p) = x_name k) by (unfold name_at; rewrite (node_kid doc p n i H), K; reflexivity).
      assert (A : forall a, get_attr doc (Some (i :: p)) a = attr k a) by (intro a; unfold get_attr; rewrite (node_kid doc p n i H), K; reflexivity).
      rewrite N, !A, (skipn_cons _ _ _ K). f_equal. unfold sub_fields. cbn [filter].
      destruct (x_name k =? "dabc:field")%string; cbn [flat_map]; [|reflexivity].
      destruct (attr k "name"), (attr k "value"); reflexivity.
    - unfold at_idx. rewrite K, (skipn_none _ _ K). reflexivity.
  Qed.

  Definition visit_node (single : bool) (name : string) (n : xml) (g : got) : bool * got :=
    if single then
      match value_at vars_id name n with
      | Some v => (true, mkG (Some v) (g_fields g) (g_any g))
      | None => (false, g)
      end
    else
      match below n (split name) with
      | Some _ => (false, mkG (g_value g) (addall (g_fields g) (fields_at vars_id name n)) true)
      | None => (false, g)
      end.

  Lemma addall_app l a b : addall l (a ++ b)%list = addall (addall l a) b.
  Proof. apply fold_left_app. Qed.
  Lemma addall_map l a : addall l (map (fun p => (fst p, vars_id (snd p))) a)
                         = fold_left (fun l q => add_field vars_id l (fst q) (snd q)) a l.
  Proof. revert l. induction a as [|x a IH]; intro l; [reflexivity|]. exact (IH _). Qed.

  Lemma visit_at single name p n g : node_at p = Some n ->
    visit vars_id doc single name (Some p) g = Ok (visit_node single name n g).
  Proof.
    intro H. unfold visit, visit_node.
    destruct (sub_item (S (String.length name)) p n name H) as (q & Q1 & Q2 & Q3); [lia|]. rewrite Q1. cbn [bind].
    destruct single.
    - unfold value_at.
      assert (A : get_attr doc q "value" = match below n (split name) with Some i => attr i "value" | None => None end).
      { destruct q as [q|]; cbn [get_attr node_opt] in *; rewrite <- Q2; reflexivity. }
      assert (B : get_attr doc (Some p) name = attr n name) by (cbn [get_attr]; rewrite H; reflexivity).
      rewrite A, B. destruct (match below n (split name) with Some i => attr i "value" | None => None end); [reflexivity|].
      destruct (attr n name); [reflexivity|].
      destruct q as [q|]; cbn [node_opt] in Q2.
      + destruct (node_at q) as [i|] eqn:I; [|discriminate (proj2 Q3 (eq_sym Q2))]. rewrite <- Q2.
        rewrite (get_child_at doc q i I). rewrite (collect_at q i I) by (pose proof (kids_wide doc q i I); lia).
        cbn [bind]. rewrite shown_skip. destruct (flat_map _ _); reflexivity.
      + rewrite <- Q2. cbn. reflexivity.
    - destruct q as [q|]; cbn [node_opt] in Q2.
      + unfold fields_at. destruct (node_at q) as [i|] eqn:I; [|discriminate (proj2 Q3 (eq_sym Q2))]. rewrite <- Q2.
        rewrite (get_child_at doc q i I). rewrite (children_at q i I) by (pose proof (kids_wide doc q i I); lia).
        cbn [bind]. rewrite addall_app, addall_map, shown_skip. reflexivity.
      + rewrite <- Q2. reflexivity.
  Qed.

  Fixpoint vall (single : bool) (name : string) (l : list xml) (g : got) : bool * got :=
    match l with
    | [] => (false, g)
    | n :: l => let '(o, g1) := visit_node single name n g in if o then (true, g1) else vall single name l g1
    end.
  Lemma vall_app single name a b g : vall single name (a ++ b)%list g =
    let '(o, g1) := vall single name a g in if o then (true, g1) else vall single name b g1.
  Proof.
    revert g. induction a as [|n a IH]; intro g; cbn [vall app]; [destruct (vall _ _ b g); reflexivity|].
    destruct (visit_node single name n g) as [[|] g1]; [reflexivity|]. apply IH.
  Qed.

  (* ---- the loop over the levels ---- *)
  Context (m : mgr) (ch : list obj) (below_mgr : bool) (strict single : bool) (name : string) (maxlevel depth : nat).
  Notation search := (search glob vars vars_id doc m ch below_mgr).
  Context (T : nat -> target).
  Context (HT : forall l, l < depth -> (if l =? maxlevel then Some TMgr else obj_parent ch below_mgr l) = Some (T l)).

  Fixpoint RN (l : nat) (ks : list xml) : list xml :=
    flat_map (fun k => if dfits glob vars strict (tdesc m (T l)) k
                       then match l with O => [k] | S l => RN l (shown k) end else []) ks.
  Definition inner (l : nat) (k : xml) : list xml := match l with O => [k] | S l => RN l (shown k) end.
  Lemma RN_eq l ks : RN l ks = flat_map (fun k => if dfits glob vars strict (tdesc m (T l)) k then inner l k else []) ks.
  Proof. destruct l; reflexivity. Qed.

  Lemma RN_first l ks : forall i, RN l (skipn i ks) =
    match first_idx (dfits glob vars strict (tdesc m (T l))) (skipn i ks) i with
    | Some j => match nth_error ks j with Some k => inner l k ++ RN l (skipn (S j) ks) | None => [] end
    | None => []
    end%list.
  Proof.
    intro i. rewrite RN_eq. assert (G : forall lst i, lst = skipn i ks ->
      flat_map (fun k => if dfits glob vars strict (tdesc m (T l)) k then inner l k else []) lst =
      match first_idx (dfits glob vars strict (tdesc m (T l))) lst i with
      | Some j => match nth_error ks j with Some k => inner l k ++ RN l (skipn (S j) ks) | None => [] end
      | None => []
      end%list); [|exact (G _ i eq_refl)].
    clear i. induction lst as [|x lst IH]; intros i E; [reflexivity|]. cbn [flat_map first_idx].
    destruct (nth_error ks i) as [k|] eqn:K.
    - rewrite (skipn_cons _ _ _ K) in E. injection E as -> E. destruct (dfits _ _ _ _ k).
      + rewrite K. replace (skipn (S i) ks) with lst by exact E. rewrite RN_eq. reflexivity.
      + apply IH; auto.
    - rewrite (skipn_none _ _ K) in E. discriminate.
  Qed.

  Definition climb (f next : nat) (p : path) (g : got) : res (option bool * got) :=
    if depth <=? next then Ok (None, g)
    else do q <- get_parent p; search f strict single name maxlevel depth next (mkC (Some q) (Some p)) g.

  Lemma search_eq f l st g : l < depth ->
    search (S f) strict single name maxlevel depth l st g =
    do r <- tfind glob vars doc strict m st (T l);
    let '(st1, fnd) := r in
    if fnd then
      match l with
      | S l => search f strict single name maxlevel depth l st1 g
      | O => do v <- visit vars_id doc single name (c_item st1) g;
             let '(over, g1) := v in
             if over then Ok (Some true, g1)
             else match c_item st1 with Some p => climb f O p g1 | None => Ok (None, g1) end
      end
    else if negb (same (c_item st) (c_item st1)) || match c_chld st1 with None => false | Some _ => true end
    then Ok (None, g)
    else match c_item st1 with Some p => climb f (S l) p g | None => Ok (None, g) end.
  Proof.
    intro L. cbn [CSearchModel.search]. rewrite (HT l L). unfold climb.
    assert (CL : forall nxt (st : cur) (g : got), (if depth <=? nxt then Ok (None, g) else match c_item st with
               | None => Ok (None, g)
               | Some p => do q <- get_parent p; search f strict single name maxlevel depth nxt (mkC (Some q) (Some p)) g
               end) = match c_item st with Some p => climb f nxt p g | None => Ok (None, g) end).
    { intros nxt s g'. unfold climb. destruct (c_item s); destruct (depth <=? nxt); reflexivity. }
    unfold climb in CL. unfold tfind.
    destruct (T l) as [|o u].
    - destruct (find_mgr glob vars doc wide strict st m) as [[st1 [|]]| |]; cbn [bind]; try reflexivity.
      + destruct l; [|reflexivity]. destruct (visit vars_id doc single name (c_item st1) g) as [[[|] g1]| |]; cbn [bind]; try reflexivity. exact (CL 0 (mkC (c_item st1) None) g1).
      + destruct (negb _ || _); [reflexivity|]. apply CL.
    - destruct (find_obj glob vars doc strict st o u) as [[st1 [|]]| |]; cbn [bind]; try reflexivity.
      + destruct l; [|reflexivity]. destruct (visit vars_id doc single name (c_item st1) g) as [[[|] g1]| |]; cbn [bind]; try reflexivity. exact (CL 0 (mkC (c_item st1) None) g1).
      + destruct (negb _ || _); [reflexivity|]. apply CL.
  Qed.

  Lemma same_refl p : same (Some p) (Some p) = true.
  Proof. cbn. destruct (list_eq_dec Nat.eq_dec p p); congruence. Qed.

  Lemma search_at l : l < depth -> forall d p n st i g, node_at p = Some n -> ready n p st i ->
    (tdesc m (T l) <> None \/ c_chld st = None) -> List.length (x_kids n) - i < d ->
    exists k, forall f, search (k + f) strict single name maxlevel depth l st g =
      let '(o, g1) := vall single name (RN l (skipn i (x_kids n))) g in
      if o then Ok (Some true, g1) else climb f (S l) p g1.
  Proof.
    induction l as [|l IHl]; intros Hl d; induction d as [|d IHd]; intros p n st i g H R D L; try lia.
    - pose proof (tfind_at glob vars doc strict m (T 0) p n st i H R D) as F.
      pose proof (RN_first 0 (x_kids n) i) as RNF. cbn [inner] in RNF.
      destruct (first_idx _ _ _) as [j|] eqn:E; cbn [found] in F.
      + destruct (first_idx_some _ _ _ j (x_kids n) eq_refl E) as (k & K & FK & IJ). rewrite K in RNF. rewrite RNF.
        assert (HK : node_at (j :: p) = Some k) by (rewrite (node_kid doc p n j H); exact K).
        assert (LJ : j < List.length (x_kids n)) by (apply nth_error_Some; congruence).
        assert (D' : tdesc m (T 0) <> None) by (intro N; rewrite N in FK; discriminate).
        cbn [app vall]. destruct (visit_node single name k g) as [[|] g1] eqn:V.
        * exists 1. intro f. cbn [Nat.add]. rewrite (search_eq _ _ _ _ Hl), F. cbn [bind c_item]. assert (VA : visit vars_id doc single name (@Some path (j :: p)) g = Ok (visit_node single name k g)) by exact (visit_at single name (j :: p) k g HK).
          match goal with |- bind ?v _ = _ => change v with (visit vars_id doc single name (@Some path (j :: p)) g) end. rewrite VA, V. reflexivity.
        * destruct (IHd p n (mkC (Some p) (Some (j :: p))) (S j) g1 H) as (k' & IH); [right; eauto|left; exact D'|lia|].
          exists (S k'). intro f. cbn [Nat.add]. rewrite (search_eq _ _ _ _ Hl), F. cbn [bind c_item]. assert (VA : visit vars_id doc single name (@Some path (j :: p)) g = Ok (visit_node single name k g)) by exact (visit_at single name (j :: p) k g HK).
          match goal with |- bind ?v _ = _ => change v with (visit vars_id doc single name (@Some path (j :: p)) g) end. rewrite VA, V. cbn [bind].
          unfold climb at 1. destruct (depth <=? 0) eqn:DE; [apply Nat.leb_le in DE; lia|]. cbn [get_parent bind]. apply IH.
      + rewrite RNF. cbn [vall]. exists 1. intro f. cbn [Nat.add]. rewrite (search_eq _ _ _ _ Hl), F. cbn [bind c_item c_chld].
        assert (CI : c_item st = Some p) by (destruct R as [[-> _]|(j & -> & _)]; reflexivity). rewrite CI, same_refl. reflexivity.
    - pose proof (tfind_at glob vars doc strict m (T (S l)) p n st i H R D) as F.
      pose proof (RN_first (S l) (x_kids n) i) as RNF. cbn [inner] in RNF.
      destruct (first_idx _ _ _) as [j|] eqn:E; cbn [found] in F.
      + destruct (first_idx_some _ _ _ j (x_kids n) eq_refl E) as (k & K & FK & IJ). rewrite K in RNF. rewrite RNF.
        assert (HK : node_at (j :: p) = Some k) by (rewrite (node_kid doc p n j H); exact K).
        assert (LJ : j < List.length (x_kids n)) by (apply nth_error_Some; congruence).
        assert (D' : tdesc m (T (S l)) <> None) by (intro N; rewrite N in FK; discriminate).
        rewrite vall_app.
        destruct (IHl (Nat.lt_succ_l _ _ Hl) (S (List.length (x_kids k))) (j :: p) k (mkC (Some (j :: p)) None) (start k) g HK) as (k1 & IH1);
          [left; auto|right; reflexivity|lia|]. rewrite <- shown_skip in IH1.
        destruct (vall single name (RN l (shown k)) g) as [[|] g1] eqn:V.
        * exists (S k1). intro f. cbn [Nat.add]. rewrite (search_eq _ _ _ _ Hl), F. cbn [bind]. apply IH1.
        * destruct (IHd p n (mkC (Some p) (Some (j :: p))) (S j) g1 H) as (k' & IH); [right; eauto|left; exact D'|lia|].
          exists (S (k1 + k')). intro f. cbn [Nat.add]. rewrite (search_eq _ _ _ _ Hl), F. cbn [bind]. rewrite <- Nat.add_assoc, IH1.
          unfold climb at 1. destruct (depth <=? S l) eqn:DE; [apply Nat.leb_le in DE; lia|]. cbn [get_parent bind]. apply IH.
      + rewrite RNF. cbn [vall]. exists 1. intro f. cbn [Nat.add]. rewrite (search_eq _ _ _ _ Hl), F. cbn [bind c_item c_chld].
        assert (CI : c_item st = Some p) by (destruct R as [[-> _]|(j & -> & _)]; reflexivity). rewrite CI, same_refl. reflexivity.
  Qed.

  (* a pass over the levels from a node of the file *)
  Lemma pass_at l p n g : S l = depth -> node_at p = Some n ->
    exists k, forall f, k <= f -> search f strict single name maxlevel depth l (mkC (Some p) None) g =
      let '(o, g1) := vall single name (RN l (shown n)) g in Ok (if o then Some true else None, g1).
  Proof.
    intros DL H. destruct (search_at l ltac:(lia) (S (List.length (x_kids n))) p n (mkC (Some p) None) (start n) g H) as (k & K);
      [left; auto|right; reflexivity|lia|].
    exists k. intros f F. replace f with (k + (f - k)) by lia. rewrite K, <- shown_skip.
    destruct (vall single name (RN l (shown n)) g) as [[|] g1]; [reflexivity|]. unfold climb. rewrite (proj2 (Nat.leb_le depth (S l))) by lia. reflexivity.
  Qed.
  (* a pass without selected context *)
  Lemma pass_none l g : S l = depth ->
    forall f, 1 <= f -> search f strict single name maxlevel depth l (mkC None None) g = Ok (None, g).
  Proof.
    intros DL [|f] F; [lia|]. rewrite search_eq by lia.
    assert (E : tfind glob vars doc strict m (mkC None None) (T l) = Ok (mkC None None, false)).
    { unfold tfind. pose proof (eq_refl : wide = S (size doc)) as W. destruct (T l) as [|[k nm tp] u]; [rewrite W; reflexivity|].
      unfold find_obj. cbn [o_kind]. rewrite W. destruct k, u; reflexivity. }
    rewrite E. reflexivity.
  Qed.
End V.

(* ---- levels and descriptions ---- *)
Section W.
  Context (glob : string -> string -> bool) (vars vars_id : string -> string) (doc : xml).
  Context (m : mgr) (ch : list obj) (below_mgr : bool).

  Definition tgt (maxlevel l : nat) : target :=
    if l =? maxlevel then TMgr else match obj_parent ch below_mgr l with Some t => t | None => TMgr end.
  Definition dlist (T : nat -> target) (k : nat) := rev (map (fun l => tdesc m (T l)) (seq 0 k)).
  Lemma dlist_S T k : dlist T (S k) = tdesc m (T k) :: dlist T k.
  Proof. unfold dlist. rewrite seq_S, map_app, rev_app_distr. reflexivity. Qed.

  Lemma places_RN strict T l : forall n, places glob vars strict (dlist T (S l)) n = RN glob vars m strict T l (shown n).
  Proof.
    induction l as [|l IH]; intro n; rewrite dlist_S, RN_eq; cbn [places].
    - destruct (tdesc m (T 0)) as [d|]; [|symmetry; apply flat_map_nil_f; reflexivity]. apply flat_map_ext. reflexivity.
    - destruct (tdesc m (T (S l))) as [d|]; [|symmetry; apply flat_map_nil_f; reflexivity]. apply flat_map_ext. intro k. unfold dfits. cbn [inner]. rewrite IH. reflexivity.
  Qed.

  Lemma dlist_ext T T' k : (forall l, l < k -> tdesc m (T l) = tdesc m (T' l)) -> dlist T k = dlist T' k.
  Proof.
    intro E. unfold dlist. f_equal. apply map_ext_in. intros l L. apply in_seq in L. apply E. lia.
  Qed.

  Lemma max_level_line : (List.length ch =? 1) && negb below_mgr = false ->
    forall suf pre f, ch = (pre ++ suf)%list -> List.length suf < f ->
    match line suf below_mgr with
    | None => max_level ch below_mgr f (List.length pre) = Ok None
    | Some l => max_level ch below_mgr f (List.length pre) = Ok (Some (List.length pre + List.length l)) /\
        forall i, i < List.length l -> exists o u, obj_parent ch below_mgr (List.length pre + i) = Some (TObj o u) /\ nth_error (rev l) i = Some (seen o u)
    end.
  Proof.
    intro NH. induction suf as [|o suf IH]; intros pre f E F; (destruct f as [|f]; [lia|]); cbn [line max_level].
    - assert (OP : obj_parent ch below_mgr (List.length pre) = if below_mgr then Some TMgr else None).
      { unfold obj_parent. rewrite NH. cbn [andb]. rewrite E, app_nil_r, Nat.eqb_refl. rewrite (proj2 (nth_error_None pre (List.length pre))) by lia. reflexivity. }
      rewrite OP. destruct below_mgr; cbn; [|reflexivity]. split; [rewrite Nat.add_0_r; reflexivity|lia].
    - assert (OP : obj_parent ch below_mgr (List.length pre) = Some (TObj o (below_mgr || match suf with [] => false | _ => true end))).
      { unfold obj_parent. rewrite NH. cbn [andb]. rewrite E at 1. rewrite nth_error_app2, Nat.sub_diag by lia. cbn [nth_error].
        do 2 f_equal. rewrite E, app_length. cbn [List.length]. destruct suf; cbn [List.length].
        - rewrite (proj2 (Nat.ltb_ge _ _)) by lia. destruct below_mgr; reflexivity.
        - rewrite (proj2 (Nat.ltb_lt _ _)) by lia. destruct below_mgr; reflexivity. }
      rewrite OP. destruct (o_top o).
      + split; [f_equal; f_equal; cbn [List.length]; lia|]. cbn [List.length rev app]. intros i I. assert (i = 0) by lia. subst i. rewrite Nat.add_0_r. eauto.
      + specialize (IH (pre ++ [o])%list f). rewrite <- app_assoc in IH. specialize (IH E). cbn [List.length] in F. specialize (IH ltac:(lia)).
        rewrite app_length in IH. cbn [List.length] in IH. replace (List.length pre + 1) with (S (List.length pre)) in IH by lia.
        destruct (line suf below_mgr) as [l|]; cbn [option_map]; [|exact IH]. destruct IH as [IH1 IH2]. split.
        * rewrite IH1, app_length. cbn [List.length]. f_equal. f_equal. lia.
        * intros i I. rewrite app_length in I. cbn [List.length] in I. rewrite rev_app_distr. cbn [rev app]. destruct i as [|i].
          { rewrite Nat.add_0_r. cbn [nth_error]. eauto. }
          cbn [nth_error]. replace (List.length pre + S i) with (S (List.length pre) + i) by lia. apply IH2. lia.
  Qed.

  Lemma levels : match descriptions ch below_mgr with
                 | None => max_level ch below_mgr (S (S (List.length ch))) 0 = Ok None
                 | Some ds => exists ml, max_level ch below_mgr (S (S (List.length ch))) 0 = Ok (Some ml) /\ ml = List.length ds /\
                     (forall l, l < ml -> obj_parent ch below_mgr l = Some (tgt ml l)) /\ ds = dlist (tgt ml) ml
                 end.
  Proof.
    destruct ((List.length ch =? 1) && negb below_mgr) eqn:NH.
    - apply andb_true_iff in NH. destruct NH as [L1 B]. apply Nat.eqb_eq in L1. apply negb_true_iff in B.
      destruct ch as [|o [|? ?]] eqn:EC; try discriminate. unfold descriptions. rewrite B.
      exists 1. assert (OP : obj_parent [o] false 0 = Some (TObj o false)) by reflexivity.
      repeat split.
      + cbn [List.length max_level]. rewrite OP. destruct (o_top o); reflexivity.
      + intros l Hl. assert (l = 0) by lia. subst l. unfold tgt. rewrite EC, B. reflexivity.
      + unfold dlist, tgt. rewrite EC, B. reflexivity.
    - assert (DL : descriptions ch below_mgr = line ch below_mgr).
      { unfold descriptions. destruct ch as [|o [|? ?]]; try reflexivity. destruct below_mgr; [reflexivity|discriminate NH]. }
      rewrite DL. pose proof (max_level_line NH ch [] (S (S (List.length ch))) eq_refl ltac:(lia)) as ML. cbn [List.length Nat.add] in ML.
      destruct (line ch below_mgr) as [l|]; [|exact ML]. destruct ML as [M1 M2]. exists (List.length l). split; [exact M1|]. split; [reflexivity|].
      assert (TG : forall i, i < List.length l -> obj_parent ch below_mgr i = Some (tgt (List.length l) i)).
      { intros i I. destruct (M2 i I) as (o & u & O & _). unfold tgt. rewrite (proj2 (Nat.eqb_neq i (List.length l))) by lia. rewrite O. reflexivity. }
      split; [exact TG|]. unfold dlist. rewrite <- (rev_involutive l) at 1. f_equal. apply list_eq_nth_error. intro i.
      destruct (lt_dec i (List.length l)) as [I|I].
      + destruct (M2 i I) as (o & u & O & N). rewrite N, (nth_error_seq_map (fun l0 => tdesc m (tgt (List.length l) l0)) _ _ I).
        pose proof (TG i I) as E. rewrite O in E. injection E as E. rewrite <- E. reflexivity.
      + transitivity (@None (option (string * list (string * string)))); [|symmetry]; apply nth_error_None; rewrite ?rev_length, ?map_length, ?seq_length; lia.
  Qed.

  Notation selected_is := (selected_is doc).

  Lemma read_all sel s single name fields : selected_is sel s ->
    exists k, forall f, k <= f ->
      read_record_field glob vars vars_id doc m ch below_mgr f sel single name fields =
      match descriptions ch below_mgr with
      | None => Ok (false, mkG None fields false)
      | Some ds => let '(o, g) := vall vars_id single name (all_places glob vars m ds s doc) (mkG None fields false) in
                   Ok (o || g_any g, g)
      end.
  Proof.
    intro SEL. pose proof levels as LV. unfold read_record_field. destruct (descriptions ch below_mgr) as [ds|].
    2: { exists 0. intros f _. rewrite LV. reflexivity. }
    destruct LV as (ml & M1 & M2 & M3 & M4). rewrite M1. cbn [bind].
    assert (HT : forall d l, l < d -> d <= S ml -> (if l =? ml then Some TMgr else obj_parent ch below_mgr l) = Some (tgt ml l)).
    { intros d l L D. destruct (l =? ml) eqn:E; [unfold tgt; rewrite E; reflexivity|]. apply Nat.eqb_neq in E. apply M3. lia. }
    set (g0 := mkG None fields false).
    assert (P1 : exists k, forall f, k <= f ->
       match ml with
       | O => Ok (None, g0)
       | S l => search glob vars vars_id doc m ch below_mgr f true single name ml ml l (mkC sel None) g0
       end = let '(o, g1) := vall vars_id single name (match ds, s with [], _ => [] | _, None => [] | _, Some s => places glob vars true ds s end) g0 in
             Ok (if o then Some true else None, g1)).
    { destruct ml as [|l] eqn:ML.
      - exists 0. intros f _. destruct ds; [reflexivity|discriminate].
      - assert (DS : ds <> []) by (intro X; rewrite X in M2; discriminate).
        destruct sel as [p|].
        + destruct SEL as [S1 S2]. destruct s as [n|]; [|congruence].
          destruct (pass_at glob vars vars_id doc m ch below_mgr true single name (S l) (S l) (tgt (S l)) (fun l0 L0 => HT (S l) l0 L0 (Nat.le_succ_diag_r _)) l p n g0 eq_refl S2) as (k & K).
          exists k. intros f F. rewrite (K f F). rewrite <- places_RN, <- M4. destruct ds; [congruence|reflexivity].
        + cbn in SEL. subst s. exists 1. intros f F.
          rewrite (pass_none glob vars vars_id doc m ch below_mgr true single name (S l) (S l) (tgt (S l)) (fun l0 L0 => HT (S l) l0 L0 (Nat.le_succ_diag_r _)) l g0 eq_refl f F).
          destruct ds; [congruence|reflexivity]. }
    destruct P1 as (k1 & P1).
    assert (P2 : forall g, exists k, forall f, k <= f -> search glob vars vars_id doc m ch below_mgr f false single name ml (S ml) ml (mkC (Some []) None) g
       = let '(o, g1) := vall vars_id single name (places glob vars false (Some (described_mgr m) :: ds) doc) g in Ok (if o then Some true else None, g1)).
    { intro g. destruct (pass_at glob vars vars_id doc m ch below_mgr false single name ml (S ml) (tgt ml) (fun l0 L0 => HT (S ml) l0 L0 (le_n _)) ml [] doc g eq_refl eq_refl) as (k & K).
      exists k. intros f F. etransitivity; [exact (K f F)|]. rewrite <- places_RN, dlist_S, <- M4. replace (tdesc m (tgt ml ml)) with (Some (described_mgr m)); [reflexivity|].
      unfold tgt. rewrite Nat.eqb_refl. reflexivity. }
    unfold all_places.
    destruct (vall vars_id single name (match ds, s with [], _ => [] | _, None => [] | _, Some s => places glob vars true ds s end) g0) as [o1 g1] eqn:V1.
    destruct (P2 g1) as (k2 & P2'). exists (k1 + k2). intros f F. rewrite P1 by lia. cbn [bind]. rewrite vall_app, V1. destruct o1; [reflexivity|].
    rewrite P2' by lia. destruct (vall vars_id single name (places glob vars false (Some (described_mgr m) :: ds) doc) g1) as [[|] g2]; reflexivity.
  Qed.
End W.

Lemma vall_single vars_id name l g : vall vars_id true name l g =
  match first (value_at vars_id name) l with
  | Some v => (true, mkG (Some v) (g_fields g) (g_any g))
  | None => (false, g)
  end.
Proof.
  revert g. induction l as [|n l IH]; intro g; cbn [vall first]; [reflexivity|]. unfold visit_node.
  destruct (value_at vars_id name n); [reflexivity|]. apply IH.
Qed.

Lemma lookup_app l l' a : lookup (l ++ l')%list a = match lookup l a with Some t => Some t | None => lookup l' a end.
Proof. unfold lookup. induction l as [|x l IH]; cbn; [destruct (find _ l'); reflexivity|]. destruct (fst x =? a)%string; [reflexivity|exact IH]. Qed.
Lemma lookup_addall fs : forall l a, lookup (addall l fs) a = lookup (l ++ fs)%list a.
Proof.
  induction fs as [|x fs IH]; intros l a; [rewrite app_nil_r; reflexivity|].
  change (addall l (x :: fs)) with (addall (match lookup l (fst x) with Some _ => l | None => l ++ [x] end)%list fs).
  rewrite IH. destruct (lookup l (fst x)) as [t|] eqn:E.
  - rewrite !lookup_app. destruct (lookup l a) eqn:EA; [reflexivity|]. unfold lookup. cbn [find].
    destruct (fst x =? a)%string eqn:XA; [|reflexivity]. apply String.eqb_eq in XA. congruence.
  - rewrite <- app_assoc. reflexivity.
Qed.

Definition has_item (name : string) (n : xml) : bool := match below n (split name) with Some _ => true | None => false end.
Lemma vall_map vars_id name l : forall g,
  let '(o, g1) := vall vars_id false name l g in
  o = false /\ g_value g1 = g_value g /\ g_any g1 = g_any g || existsb (has_item name) l /\
  forall a, lookup (g_fields g1) a = lookup (g_fields g ++ flat_map (fields_at vars_id name) l)%list a.
Proof.
  induction l as [|n l IH]; intro g; cbn [vall].
  - cbn. rewrite orb_false_r, app_nil_r. auto.
  - unfold visit_node. cbn [existsb flat_map]. unfold has_item at 1. destruct (below n (split name)) as [i|] eqn:B.
    + specialize (IH (mkG (g_value g) (addall (g_fields g) (fields_at vars_id name n)) true)).
      destruct (vall vars_id false name l _) as [o g1]. destruct IH as (I1 & I2 & I3 & I4). cbn [g_value g_any g_fields] in *.
      repeat split; auto.
      * rewrite I3. cbn. rewrite orb_true_r. reflexivity.
      * intro a. rewrite I4, !lookup_app, lookup_addall, lookup_app. destruct (lookup (g_fields g) a); reflexivity.
    + specialize (IH g). destruct (vall vars_id false name l g) as [o g1]. cbn [orb].
      assert (F : fields_at vars_id name n = []) by (unfold fields_at; rewrite B; reflexivity). rewrite F. exact IH.
Qed.

(* ---- comments ---- *)
Section Q.
  Context (glob : string -> string -> bool) (vars vars_id : string -> string) (U : list string).
  Definition kept (ks : list xml) : list xml := flat_map (fun k => if x_comment k then [] else [strip k]) ks.
  Lemma kids_strip n : x_kids (strip n) = kept (x_kids n). Proof. destruct n. reflexivity. Qed.
  Lemma name_strip n : x_name (strip n) = x_name n. Proof. destruct n. reflexivity. Qed.
  Lemma attrs_strip n : x_attrs (strip n) = x_attrs n. Proof. destruct n. reflexivity. Qed.
  Lemma attr_strip n a : attr (strip n) a = attr n a. Proof. unfold attr. rewrite attrs_strip. reflexivity. Qed.
  Lemma fits_strip strict d n : fits glob vars strict d (strip n) = fits glob vars strict d n.
  Proof.
    unfold fits. rewrite name_strip. f_equal. induction (snd d) as [|w l IH]; [reflexivity|]. cbn [forallb]. rewrite IH. unfold agrees. rewrite attr_strip. reflexivity.
  Qed.

  Lemma quiet_kid n k : quiet U n -> In k (x_kids n) -> quiet U k /\ (x_comment k = true -> ~ In (x_name k) U).
  Proof.
    intros [E Q] I. split; [split; [exact E|]|]; intros.
    - apply Q; auto. eapply W_kid; eauto.
    - apply Q; auto. eapply W_kid; [exact I|constructor].
  Qed.

  Lemma named a b : In b U -> (x_name a =? b)%string = true -> In (x_name a) U.
  Proof. intros I E. apply String.eqb_eq in E. rewrite E. exact I. Qed.

  Lemma shown_flat {B} (P : xml -> bool) (F : xml -> list B) n : (forall k, x_name k = "" -> P k = false) ->
    flat_map (fun k => if P k then F k else []) (shown n) = flat_map (fun k => if P k then F k else []) (x_kids n).
  Proof.
    intro E. unfold shown. destruct (x_kids n) as [|k r]; [reflexivity|]. destruct (x_name k =? "")%string eqn:X; [|reflexivity].
    apply String.eqb_eq in X. cbn [flat_map]. rewrite (E k X). reflexivity.
  Qed.
  Lemma shown_find P n : (forall k, x_name k = "" -> P k = false) -> find P (shown n) = find P (x_kids n).
  Proof.
    intro E. unfold shown. destruct (x_kids n) as [|k r]; [reflexivity|]. destruct (x_name k =? "")%string eqn:X; [|reflexivity].
    apply String.eqb_eq in X. cbn [find]. rewrite (E k X). reflexivity.
  Qed.
  Lemma shown_filter P n : (forall k, x_name k = "" -> P k = false) -> filter P (shown n) = filter P (x_kids n).
  Proof.
    intro E. unfold shown. destruct (x_kids n) as [|k r]; [reflexivity|]. destruct (x_name k =? "")%string eqn:X; [|reflexivity].
    apply String.eqb_eq in X. cbn [filter]. rewrite (E k X). reflexivity.
  Qed.

  Lemma empty_name b : ~ In "" U -> In b U -> forall k, x_name k = "" -> (x_name k =? b)%string = false.
  Proof. intros E I k X. rewrite X. apply String.eqb_neq. intro Y. apply E. rewrite Y. exact I. Qed.

  Lemma places_strip strict ds : (forall d, In (Some d) ds -> In (fst d) U) -> forall n, quiet U n ->
    places glob vars strict ds (strip n) = map strip (places glob vars strict ds n).
  Proof.
    induction ds as [|[d|] ds IH]; intros D n Q; cbn [places]; [reflexivity| |reflexivity].
    assert (DU : In (fst d) U) by (apply D; left; reflexivity).
    assert (E : forall k, x_name k = "" -> fits glob vars strict d k = false).
    { intros k X. unfold fits. rewrite (empty_name (fst d) (proj1 Q) DU k X). reflexivity. }
    rewrite !shown_flat by exact E. rewrite kids_strip.
    assert (G : forall ks, (forall k, In k ks -> In k (x_kids n)) ->
      flat_map (fun k => if fits glob vars strict d k then places glob vars strict ds k else []) (kept ks)
      = map strip (flat_map (fun k => if fits glob vars strict d k then places glob vars strict ds k else []) ks));
      [|apply G; auto].
    induction ks as [|k ks IHk]; intro K; [reflexivity|]. cbn [kept flat_map]. rewrite map_app, <- IHk by (intros; apply K; right; auto).
    destruct (quiet_kid n k Q (K k (or_introl eq_refl))) as [QK CK]. destruct (x_comment k) eqn:C.
    - replace (fits glob vars strict d k) with false; [reflexivity|]. symmetry. unfold fits. destruct (x_name k =? fst d)%string eqn:N; [|reflexivity].
      destruct (CK eq_refl (named _ _ DU N)).
    - cbn [app flat_map]. rewrite fits_strip. destruct (fits glob vars strict d k); [|reflexivity].
      rewrite IH; [reflexivity| |exact QK]. intros d' I. apply D. right. exact I.
  Qed.

  Lemma find_kept b n : quiet U n -> In b U -> forall ks, (forall k, In k ks -> In k (x_kids n)) ->
    find (fun k => (x_name k =? b)%string) (kept ks) = option_map strip (find (fun k => (x_name k =? b)%string) ks).
  Proof.
    intros Q B. induction ks as [|k ks IH]; intro K; [reflexivity|]. cbn [kept flat_map find].
    destruct (quiet_kid n k Q (K k (or_introl eq_refl))) as [_ CK]. destruct (x_comment k) eqn:C.
    - destruct (x_name k =? b)%string eqn:N; [destruct (CK eq_refl (named _ _ B N))|]. apply IH. intros; apply K; right; auto.
    - cbn [app find]. rewrite name_strip. destruct (x_name k =? b)%string; [reflexivity|]. apply IH. intros; apply K; right; auto.
  Qed.
  Lemma filter_kept b n : quiet U n -> In b U -> forall ks, (forall k, In k ks -> In k (x_kids n)) ->
    filter (fun k => (x_name k =? b)%string) (kept ks) = map strip (filter (fun k => (x_name k =? b)%string) ks).
  Proof.
    intros Q B. induction ks as [|k ks IH]; intro K; [reflexivity|]. cbn [kept flat_map filter].
    destruct (quiet_kid n k Q (K k (or_introl eq_refl))) as [_ CK]. destruct (x_comment k) eqn:C.
    - destruct (x_name k =? b)%string eqn:N; [destruct (CK eq_refl (named _ _ B N))|]. apply IH. intros; apply K; right; auto.
    - cbn [app filter]. rewrite name_strip. unfold kept in IH. rewrite IH by (intros; apply K; right; auto). destruct (x_name k =? b)%string; reflexivity.
  Qed.

  Lemma part_strip a n : quiet U n -> In a U -> part (strip n) a = option_map strip (part n a).
  Proof.
    intros Q A. unfold part. rewrite !shown_find by (apply empty_name; [exact (proj1 Q)|exact A]). rewrite kids_strip. apply (find_kept a n); auto.
  Qed.
  Lemma part_quiet a n k : quiet U n -> part n a = Some k -> quiet U k.
  Proof.
    intros Q P. apply find_some in P. destruct P as [P _]. apply (quiet_kid n k Q). unfold shown in P. destruct (x_kids n) as [|x r]; [destruct P|].
    destruct (x_name x =? "")%string; [right; exact P|exact P].
  Qed.
  Lemma below_strip l : (forall a, In a (looked l) -> In a U) -> forall n, quiet U n ->
    below (strip n) l = option_map strip (below n l) /\ forall i, below n l = Some i -> quiet U i.
  Proof.
    induction l as [|a l IH]; intros D n Q; [cbn; split; [reflexivity|]; intros i E; injection E as <-; exact Q|].
    assert (C : (a = "" /\ l = []) \/ (looked (a :: l) = a :: looked l /\ forall k, below k (a :: l) = match part k a with Some k => below k l | None => None end)).
    { destruct a, l; auto. }
    destruct C as [[-> ->]|[C1 C2]]; [cbn; split; [reflexivity|]; intros i E; injection E as <-; exact Q|].
    rewrite !C2. rewrite C1 in D. rewrite (part_strip a n Q (D a (or_introl eq_refl))). destruct (part n a) as [k|] eqn:P; cbn [option_map]; [|split; [reflexivity|discriminate]].
    apply IH; [|eapply part_quiet; eauto]. intros b I. apply D. right. exact I.
  Qed.

  Context (name : string) (DN : forall a, In a (looked (split name)) -> In a U) (IU : In "item" U) (FU : In "dabc:field" U).
  Lemma value_strip n : quiet U n -> value_at vars_id name (strip n) = value_at vars_id name n.
  Proof.
    intro Q. unfold value_at. destruct (below_strip (split name) DN n Q) as [B BQ]. rewrite B, attr_strip.
    destruct (below n (split name)) as [i|]; cbn [option_map]; [|reflexivity]. rewrite attr_strip.
    destruct (attr i "value"); [reflexivity|]. destruct (attr n name); [reflexivity|].
    pose proof (BQ i eq_refl) as QI. rewrite !shown_filter by (apply empty_name; [exact (proj1 Q)|exact IU]).
    rewrite kids_strip, (filter_kept "item" i QI IU (x_kids i)) by auto.
    assert (G : forall ks, flat_map (fun k => match attr k "value" with Some t => [vars_id t] | None => [] end) (map strip ks)
               = flat_map (fun k => match attr k "value" with Some t => [vars_id t] | None => [] end) ks).
    { induction ks; [reflexivity|]. cbn [map flat_map]. rewrite attr_strip, IHks. reflexivity. }
    rewrite G. reflexivity.
  Qed.
  Lemma fields_strip n : quiet U n -> fields_at vars_id name (strip n) = fields_at vars_id name n.
  Proof.
    intro Q. unfold fields_at. destruct (below_strip (split name) DN n Q) as [B BQ]. rewrite B.
    destruct (below n (split name)) as [i|]; cbn [option_map]; [|reflexivity]. rewrite attrs_strip. f_equal.
    pose proof (BQ i eq_refl) as QI. rewrite !shown_filter by (apply empty_name; [exact (proj1 Q)|exact FU]).
    rewrite kids_strip, (filter_kept "dabc:field" i QI FU (x_kids i)) by auto.
    induction (filter _ (x_kids i)) as [|k ks IH]; [reflexivity|]. cbn [map flat_map]. rewrite !attr_strip, IH. reflexivity.
  Qed.
  Lemma item_strip n : quiet U n -> has_item name (strip n) = has_item name n.
  Proof. intro Q. unfold has_item. destruct (below_strip (split name) DN n Q) as [B _]. rewrite B. destruct (below n (split name)); reflexivity. Qed.
  Lemma visit_strip single n g : quiet U n -> visit_node vars_id single name (strip n) g = visit_node vars_id single name n g.
  Proof.
    intro Q. unfold visit_node. rewrite (value_strip n Q), (fields_strip n Q). destruct (below_strip (split name) DN n Q) as [B _]. rewrite B.
    destruct (below n (split name)); reflexivity.
  Qed.
  Lemma vall_strip single l : (forall n, In n l -> quiet U n) -> forall g, vall vars_id single name (map strip l) g = vall vars_id single name l g.
  Proof.
    induction l as [|n l IH]; intros Q g; [reflexivity|]. cbn [map vall]. rewrite visit_strip by (apply Q; left; reflexivity).
    destruct (visit_node vars_id single name n g) as [[|] g1]; [reflexivity|]. apply IH. intros; apply Q; right; auto.
  Qed.

  Lemma quiet_shown n k : quiet U n -> In k (shown n) -> quiet U k.
  Proof.
    intros Q P. apply (quiet_kid n k Q). unfold shown in P. destruct (x_kids n) as [|x r]; [destruct P|].
    destruct (x_name x =? "")%string; [right; exact P|exact P].
  Qed.
  Lemma places_quiet strict ds : forall n, quiet U n -> forall k, In k (places glob vars strict ds n) -> quiet U k.
  Proof.
    induction ds as [|[d|] ds IH]; intros n Q k I; cbn [places] in I.
    - destruct I as [<-|[]]. exact Q.
    - apply in_flat_map in I. destruct I as (x & X & I). destruct (fits glob vars strict d x); [|destruct I].
      apply (IH x); [eapply quiet_shown; eauto|exact I].
    - destruct I.
  Qed.
End Q.

Lemma within_trans a b c : within a b -> within b c -> within a c.
Proof. intros A B. induction B; [exact A|]. eapply W_kid; eauto. Qed.
Lemma node_within doc p n : node_at doc p = Some n -> within n doc.
Proof.
  revert n. induction p as [|i p IH]; intros n H; cbn in H; [injection H as <-; constructor|].
  destruct (node_at doc p) as [q|]; [|discriminate]. apply nth_error_In in H. apply (within_trans n q); [|apply IH; reflexivity].
  eapply W_kid; [exact H|constructor].
Qed.

Lemma all_places_strip glob vars m ds name s doc : quiet (names_used m ds name) doc ->
  (forall n, s = Some n -> within n doc) ->
  all_places glob vars m ds (option_map strip s) (strip doc) = map strip (all_places glob vars m ds s doc) /\
  forall n, In n (all_places glob vars m ds s doc) -> quiet (names_used m ds name) n.
Proof.
  intros Q W.
  assert (D : forall d, In (Some d) ds -> In (fst d) (names_used m ds name)).
  { intros d I. do 3 right. apply in_or_app. right. apply in_flat_map. exists (Some d). split; [exact I|left; reflexivity]. }
  assert (D' : forall d, In (Some d) (Some (described_mgr m) :: ds) -> In (fst d) (names_used m ds name)).
  { intros d [E|I]; [injection E as <-; left; reflexivity|apply D; exact I]. }
  assert (QS : forall n, s = Some n -> quiet (names_used m ds name) n).
  { intros n E. destruct Q as [Q1 Q2]. split; [exact Q1|]. intros k K. apply Q2. apply (within_trans k n); auto. }
  unfold all_places. split.
  - rewrite map_app, (places_strip glob vars (names_used m ds name) false _ D' doc Q). f_equal.
    destruct ds as [|d ds']; [reflexivity|]. destruct s as [n|]; [|reflexivity]. cbn [option_map]. apply (places_strip glob vars (names_used m (d :: ds') name) true (d :: ds') D n (QS n eq_refl)).
  - intros n I. apply in_app_or in I. destruct I as [I|I].
    + destruct ds as [|d ds']; [destruct I|]. destruct s as [x|]; [|destruct I]. exact (places_quiet glob vars _ true (d :: ds') x (QS x eq_refl) n I).
    + exact (places_quiet glob vars _ false (Some (described_mgr m) :: ds) doc Q n I).
Qed.
