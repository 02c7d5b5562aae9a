(* Sequences of GetNextPart calls and pointer moves. *)
From Verif Require Import Common ListFacts BufferSpec BufferModel BufferProofs.

Lemma parts_run segs : nonempty segs -> forall lens p P F, Forall (fun n => 0 < n) lens -> PR segs p P F -> P + F = total segs ->
  exists q out P', take_parts segs p lens true = Ok (q, out) /\
    map (option_map locs_of) out = fst (parts_of (skipn P (locs_of segs)) lens) /\
    snd (parts_of (skipn P (locs_of segs)) lens) = skipn P' (locs_of segs) /\ P <= P' /\ P' + p_full q = total segs.
Proof.
  intros NE. induction lens as [|n lens IH]; intros p P F Hl R HF.
  - exists p, [], P. cbn. rewrite (pr_full _ _ _ _ R). auto 6.
  - inversion Hl; subst. cbn [take_parts parts_of]. rewrite skipn_length, locs_of_length.
    replace (total segs - P) with F by lia.
    pose proof (get_next_part_ok segs NE p P F n R H1) as G. destruct (Nat.ltb_spec F n).
    + rewrite G. cbn [bind]. destruct (IH p P F H2 R HF) as (q & out & P' & E & A1 & A2 & A3 & A4). rewrite E. cbn [bind].
      destruct (parts_of (skipn P (locs_of segs)) lens) as [ps e] eqn:Ep. cbn [fst snd] in *.
      exists q, (None :: out), P'. cbn [option_map map]. rewrite A1. auto.
    + destruct G as (q1 & r & E1 & Q & G). rewrite E1. cbn [bind option_map snd].
      destruct (IH q1 (P + n) (F - n) H2 Q ltac:(lia)) as (q & out & P' & E & A1 & A2 & A3 & A4). rewrite E. cbn [bind].
      rewrite skipn_skipn. destruct (parts_of (skipn (P + n) (locs_of segs)) lens) as [ps e] eqn:Ep. cbn [fst snd] in *.
      exists q, (Some (gnp_segs segs r) :: out), P'. cbn [option_map map]. rewrite A1, (gr_locs _ _ _ _ G).
      replace (P + n - P) with n by lia. unfold slice. split; auto. split; auto. split; auto. split; [lia|auto].
Qed.

Lemma parts_tile (segs : list seg) (lens : list nat) :
    Forall (fun g => 0 < g_len g) segs -> Forall (fun n => 0 < n) lens ->
    exists q out, take_parts segs (ptr_buf segs) lens true = Ok (q, out) /\
      map (option_map locs_of) out = fst (parts_of (locs_of segs) lens) /\
      p_full q = length (snd (parts_of (locs_of segs) lens)).
Proof.
  intros NE Hl. destruct (parts_run segs NE lens _ 0 _ Hl (ptr_buf_ok segs NE) eq_refl) as (q & out & P' & E & A1 & A2 & A3 & A4).
  exists q, out. cbn [skipn] in *. split; auto. split; auto. rewrite A2, skipn_length, locs_of_length. lia.
Qed.

Lemma parts_of_cover {A} (lens : list nat) : forall l : list A, list_sum lens = length l ->
  exists ps, fst (parts_of l lens) = map Some ps /\ concat ps = l /\ map (@length A) ps = lens /\ snd (parts_of l lens) = [].
Proof.
  induction lens as [|n lens IH]; intros l H; cbn [list_sum fold_right parts_of] in *.
  - destruct l; [|discriminate]. exists []. auto.
  - change (fold_right Nat.add 0 lens) with (list_sum lens) in H. destruct (Nat.ltb_spec (length l) n); [lia|].
    destruct (IH (skipn n l)) as (ps & A1 & A2 & A3 & A4); [rewrite skipn_length; lia|].
    destruct (parts_of (skipn n l) lens) as [x y]. cbn [fst snd] in *. subst x y.
    exists (firstn n l :: ps). cbn [map concat]. rewrite A2, A3, firstn_skipn, firstn_length_le by lia. auto.
Qed.

Lemma parts_cover (segs : list seg) (lens : list nat) :
    Forall (fun g => 0 < g_len g) segs -> Forall (fun n => 0 < n) lens ->
    list_sum lens = length (locs_of segs) ->
    exists q out, take_parts segs (ptr_buf segs) lens true = Ok (q, map Some out) /\
      concat (map locs_of out) = locs_of segs /\ map total out = lens /\ p_full q = 0.
Proof.
  intros NE Hl HS. destruct (parts_tile segs lens NE Hl) as (q & out & E & A1 & A2).
  destruct (parts_of_cover lens _ HS) as (ps & B1 & B2 & B3 & B4). rewrite B1 in A1. rewrite B4 in A2.
  assert (X : exists out', out = map Some out' /\ map locs_of out' = ps).
  { clear - A1. revert ps A1. induction out as [|[o|] out IH]; intros [|x ps] H; cbn in H; try discriminate.
    - exists []. auto.
    - inversion H; subst. destruct (IH ps H2) as (o' & -> & <-). exists (o :: o'). auto. }
  destruct X as (out' & -> & <-). exists q, out'. split; auto. split; auto. split; auto.
  rewrite <- B3, map_map. apply map_ext. intros. symmetry. apply locs_of_length.
Qed.

Lemma contig_iff segs x n : 0 < n -> (exists pre g post i, segs = pre ++ g :: post /\ x = total pre + i /\ i + n <= g_len g) -> contig segs x n.
Proof.
  intros Hn (pre & g & post & i & -> & -> & H). exists (length pre), g.
  rewrite nth_error_app2, Nat.sub_diag by auto. unfold seg_start. rewrite firstn_app, firstn_all, Nat.sub_diag, firstn_O, app_nil_r.
  split; auto. lia.
Qed.

Lemma unseg_run segs : nonempty segs -> forall lens p P F, Forall (fun n => 0 < n) lens -> PR segs p P F -> P + F = total segs ->
  exists q out P', take_parts segs p lens false = Ok (q, out) /\ PR segs q P' (total segs - P') /\ P <= P' <= total segs.
Proof.
  intros NE. induction lens as [|n lens IH]; intros p P F Hl R HF.
  - exists p, [], P. cbn. replace (total segs - P) with F by lia. split; auto. split; auto. lia.
  - inversion Hl; subst. cbn [take_parts].
    destruct (get_next_part_unseg_ok segs NE p P F n R H1) as (P' & q & A1 & A2 & A3 & G).
    destruct (Nat.ltb_spec (P + F - P') n).
    + destruct G as [E1 Q]. rewrite E1. cbn [bind].
      destruct (IH q P' (P + F - P') H2 Q ltac:(lia)) as (q2 & out & P2 & E & B1 & B2). rewrite E. cbn [bind].
      eexists q2, _, P2. split; [reflexivity|]. split; auto. lia.
    + destruct G as (r & E1 & Q & _). rewrite E1. cbn [bind].
      destruct (IH q (P' + n) (P + F - P' - n) H2 Q ltac:(lia)) as (q2 & out & P2 & E & B1 & B2). rewrite E. cbn [bind].
      eexists q2, _, P2. split; [reflexivity|]. split; auto. lia.
Qed.

Lemma contiguous_part (segs : list seg) (lens : list nat) (n : nat) :
    Forall (fun g => 0 < g_len g) segs -> Forall (fun n => 0 < n) lens -> 0 < n ->
    exists q out P, take_parts segs (ptr_buf segs) lens false = Ok (q, out) /\
      P + p_full q = length (locs_of segs) /\
      exists q' o P', get_next_part segs q n false = Ok (q', o) /\ P <= P' /\
        (forall x, P <= x < P' ->
             ~ exists pre g post i, segs = pre ++ g :: post /\ x = total pre + i /\ i + n <= g_len g) /\
        match o with
        | Some (_, _, part) => exists g, part = [g] /\ g_len g = n /\ locs_of part = slice (locs_of segs) P' n /\
                                 P' + n + p_full q' = length (locs_of segs)
        | None => length (locs_of segs) - P' < n
        end.
Proof.
  intros NE Hl Hn. destruct (unseg_run segs NE lens _ 0 _ Hl (ptr_buf_ok segs NE) eq_refl) as (q & out & P & E & R & HP).
  exists q, out, P. split; auto. rewrite (pr_full _ _ _ _ R), locs_of_length. split; [lia|].
  destruct (get_next_part_unseg_ok segs NE q P _ n R Hn) as (P' & q' & A1 & A2 & A3 & G).
  destruct (Nat.ltb_spec (P + (total segs - P) - P') n).
  - destruct G as [E1 Q]. exists q', None, P'. split; auto. split; [lia|]. split; [|lia].
    intros x Hx C. apply (A3 x Hx). apply contig_iff; auto.
  - destruct G as (r & E1 & Q & G & L). exists q', (Some (n_first r, 1, gnp_segs segs r)), P'. split; auto. split; [lia|].
    split. { intros x Hx C. apply (A3 x Hx). apply contig_iff; auto. }
    assert (X : exists g, gnp_segs segs r = [g]).
    { unfold gnp_segs. replace (n_last r + 1 - n_first r) with 1 by lia. cbn [seq map]. eauto. }
    destruct X as [g X]. exists g. split; auto.
    pose proof (gr_locs _ _ _ _ G) as GL. replace (P' + n - P') with n in GL by lia. split.
    + apply (f_equal (@length _)) in GL. rewrite X, locs_of_length, slice_length in GL by (rewrite locs_of_length; lia). cbn [total] in GL. lia.
    + split; auto. rewrite (pr_full _ _ _ _ Q). lia.
Qed.

(* ---- pointer moves ---- *)
Lemma list_sum_total segs k : list_sum (firstn k (map g_len segs)) = seg_start segs k.
Proof. unfold seg_start. rewrite firstn_map. induction (firstn k segs) as [|g l IH]; cbn in *; auto. Qed.
Lemma lands_spec segs P sz : lands_on_endb (map g_len segs) P sz = false -> ~ lands_on_end segs P sz.
Proof.
  intros H (k & A1 & A2 & A3). assert (X : lands_on_endb (map g_len segs) P sz = true); [|congruence].
  apply existsb_exists. exists k. split; [apply in_seq; rewrite map_length; lia|]. rewrite !list_sum_total. apply andb_true_iff. split; [apply Nat.ltb_lt|apply Nat.eqb_eq]; auto.
Qed.

Lemma setfull_any segs p P F n : PR segs p P F -> PR segs (setfullsize p n) P (Nat.min n F).
Proof.
  intros R. replace (Nat.min n F) with (if n <? F then n else F) by (destruct (Nat.ltb_spec n F); lia). destruct (Nat.ltb_spec n F).
  - apply (setfullsize_ok segs p P F n R). lia.
  - unfold setfullsize. rewrite (pr_full _ _ _ _ R). destruct (Nat.ltb_spec n F); [lia|auto].
Qed.

Lemma moves_ok segs : nonempty segs -> forall l p P F P' F', PR segs p P F -> position (map g_len segs) P F l = Some (P', F') ->
  exists q, run_moves p l = Ok q /\ PR segs q P' F'.
Proof.
  intros NE. induction l as [|[n|n] l IH]; intros p P F P' F' R H; cbn [position run_moves] in *.
  - injection H as <- <-. eauto.
  - destruct (Nat.leb_spec n F); cbn [andb] in H; [|discriminate].
    destruct ((n =? F) || negb (lands_on_endb (map g_len segs) P n)) eqn:E; [|discriminate].
    destruct (shift_ok segs p P F n NE R ltac:(lia)) as (q & E1 & Q & _).
    { apply orb_true_iff in E as [E|E]; [left; apply Nat.eqb_eq; auto|right; apply lands_spec; apply negb_true_iff; auto]. }
    rewrite E1. cbn [bind]. eapply IH; eauto.
  - eapply IH; [|eauto]. apply setfull_any. auto.
Qed.

Section C.
Context {B : Type}.
Lemma pointer_copy (m : memory B) (ts ss : list seg) (tm sm : list pmove) (P P' F F' n : nat) :
    Forall (fun g => 0 < g_len g) ts -> Forall (fun g => 0 < g_len g) ss ->
    position (map g_len ts) 0 (total ts) tm = Some (P, F) -> position (map g_len ss) 0 (total ss) sm = Some (P', F') ->
    0 < n <= F -> n <= F' ->
    NoDup (slice (locs_of ts) P n) ->
    (forall a, In a (slice (locs_of ts) P n) -> ~ In a (slice (locs_of ss) P' n)) ->
    (forall a, In a (slice (locs_of ts) P n) \/ In a (slice (locs_of ss) P' n) -> mget m a <> None) ->
    exists pt ps m', run_moves (ptr_buf ts) tm = Ok pt /\ run_moves (ptr_buf ss) sm = Ok ps /\
      copyfrom m pt ps n = Ok (m', n) /\
      map (mget m') (slice (locs_of ts) P n) = map (mget m) (slice (locs_of ss) P' n) /\
      (forall a, ~ In a (slice (locs_of ts) P n) -> mget m' a = mget m a).
Proof.
  intros N1 N2 M1 M2 Hn Hn' ND D V.
  destruct (moves_ok ts N1 tm _ _ _ _ _ (ptr_buf_ok ts N1) M1) as (pt & E1 & R1).
  destruct (moves_ok ss N2 sm _ _ _ _ _ (ptr_buf_ok ss N2) M2) as (ps & E2 & R2).
  destruct (copyfrom_ok ts ss m pt ps P P' F F' n N1 N2 R1 R2) as (m' & E & _ & C1 & C2); auto; try lia.
  - apply Forall_forall. auto.
  - apply Forall_forall. auto.
  - exists pt, ps, m'. auto.
Qed.

Lemma pointer_read (m : memory B) (ss : list seg) (sm : list pmove) (P F n o f : nat) :
    Forall (fun g => 0 < g_len g) ss -> position (map g_len ss) 0 (total ss) sm = Some (P, F) -> n <= F ->
    (forall a, In a (range o f n) -> ~ In a (slice (locs_of ss) P n)) ->
    (forall a, In a (range o f n) \/ In a (slice (locs_of ss) P n) -> mget m a <> None) ->
    exists ps m', run_moves (ptr_buf ss) sm = Ok ps /\ copyto_mem m ps (o, f) n = Ok (m', n) /\
      map (mget m') (range o f n) = map (mget m) (slice (locs_of ss) P n) /\
      (forall a, ~ In a (range o f n) -> mget m' a = mget m a).
Proof.
  intros N2 M2 Hn D V. destruct (moves_ok ss N2 sm _ _ _ _ _ (ptr_buf_ok ss N2) M2) as (ps & E2 & R2).
  destruct (copyto_mem_ok ss m ps P F o f n N2 R2 Hn) as (m' & E & _ & C1 & C2); auto.
  - apply Forall_forall. auto.
  - apply Forall_forall. auto.
  - exists ps, m'. auto.
Qed.
End C.
