(* Invariant of the object's life. *)
From Verif Require Import Common ListFacts Sums LifeModel.

Definition Sh (s : st) : nat := sumf t_h (thrs s).
Definition Ph (f : phase -> nat) (s : st) : nat := sumf (fun t => f (t_ph t)) (thrs s).
Definition is_rd (k : nat) (r : option nat) : nat := match r with Some n => if n =? k then 1 else 0 | None => 0 end.
Definition Rd (k : nat) (s : st) : nat := sumf (fun t => is_rd k (t_rd t)) (thrs s).
Definition via (p : phase) : nat := match p with Via => 1 | _ => 0 end.
Definition cln (p : phase) : nat := match p with Clean0 | Clean _ => 1 | _ => 0 end.
Definition cl1 (p : phase) : nat := match p with Clean _ => 1 | _ => 0 end.
Definition hnd (p : phase) : nat := match p with Hand => 1 | _ => 0 end.
Definition del (p : phase) : nat := match p with Del => 1 | _ => 0 end.
Definition slots (l : list kid) : nat := sumf (fun k => b2n (k_slot k)) l.
Definition lists (l : list kid) : nat := sumf (fun k => b2n (k_list k)) l.
Lemma nlist_lists l : nlist l = lists l.
Proof. unfold nlist, lists. induction l as [|k l IH]; cbn [filter sumf]; [reflexivity|]. destruct (k_list k); cbn [length b2n]; lia. Qed.

Definition free (l : list kid) (k : nat) : bool := k_slot (nth k l (mkK false false)) && negb (k_list (nth k l (mkK false false))).
Definition early (o : ostate) : Prop := o = Normal \/ o = WaitThread.

Record inv (s : st) : Prop := mkInv {
  i_cnt : cnt s = Sh s + slots (kids s) + b2n (duty s) + Ph via s + Ph hnd s;
  i_clean : Ph cln s = match ost s with DoingDestroy => 1 | _ => 0 end;
  i_wait : Ph via s + b2n (duty s) = match ost s with WaitThread => 1 | _ => 0 end;
  i_del : Ph del s = match ost s with Destructor => 1 | _ => 0 end;
  i_hand : 0 < Ph hnd s -> ost s = WaitDestr;
  i_dcnt : ost s = Destructor -> cnt s = 0;
  i_list : Forall (fun k => k_list k = true -> k_slot k = true) (kids s);
  i_norm : early (ost s) -> Forall (fun k => k_slot k = true -> k_list k = true) (kids s);
  i_ext : ost s = Normal -> auto s = true -> 0 < Sh s;
  i_ask1 : ost s <> Normal -> auto s || asked s = true;
  i_ask2 : asked s = true -> ost s <> Normal;
  i_rd : forall k, Rd k s <= b2n (free (kids s) k);
  i_late : late s = false -> (ost s = WaitDestr \/ ost s = Destructor \/ 0 < Ph cl1 s) -> lists (kids s) = 0;
  i_wd : late s = false -> ost s = WaitDestr -> 0 < cnt s }.
(* after the deletion nobody is left *)
Record gone (s : st) : Prop := mkGone {
  g_h : Sh s = 0; g_slots : slots (kids s) = 0; g_duty : duty s = false;
  g_ph : Forall (fun t => t_ph t = Idle) (thrs s); g_rd : forall k, Rd k s = 0;
  g_ask : auto s || asked s = true }.
Definition good (s : st) : Prop := if deleted s then gone s else inv s.

(* sums after the elementary writes *)
Section W.
Variables (s : st) (i : nat).
Hypothesis L : i < length (thrs s).
Lemma th_sum f y : sumf f (upd (thrs s) i y) + f (thread s i) = sumf f (thrs s) + f y.
Proof. apply sumf_upd. exact L. Qed.
Lemma Sh_add : Sh (add_h s i) = S (Sh s).
Proof. unfold Sh, add_h. cbn [thrs w_thr]. assert (H := th_sum t_h (mkT (S (t_h (thread s i))) (t_ph (thread s i)) (t_rd (thread s i)))). cbn [t_h] in H. lia. Qed.
Lemma Ph_add f : Ph f (add_h s i) = Ph f s.
Proof. unfold Ph, add_h. cbn [thrs w_thr]. assert (H := th_sum (fun t => f (t_ph t)) (mkT (S (t_h (thread s i))) (t_ph (thread s i)) (t_rd (thread s i)))). cbn [t_ph] in H. lia. Qed.
Lemma Rd_add k : Rd k (add_h s i) = Rd k s.
Proof. unfold Rd, add_h. cbn [thrs w_thr]. assert (H := th_sum (fun t => is_rd k (t_rd t)) (mkT (S (t_h (thread s i))) (t_ph (thread s i)) (t_rd (thread s i)))). cbn [t_rd] in H. lia. Qed.
Lemma Sh_sub : 0 < t_h (thread s i) -> S (Sh (sub_h s i)) = Sh s.
Proof. unfold Sh, sub_h. cbn [thrs w_thr]. assert (H := th_sum t_h (mkT (t_h (thread s i) - 1) (t_ph (thread s i)) (t_rd (thread s i)))). cbn [t_h] in H. lia. Qed.
Lemma Ph_sub f : Ph f (sub_h s i) = Ph f s.
Proof. unfold Ph, sub_h. cbn [thrs w_thr]. assert (H := th_sum (fun t => f (t_ph t)) (mkT (t_h (thread s i) - 1) (t_ph (thread s i)) (t_rd (thread s i)))). cbn [t_ph] in H. lia. Qed.
Lemma Rd_sub k : Rd k (sub_h s i) = Rd k s.
Proof. unfold Rd, sub_h. cbn [thrs w_thr]. assert (H := th_sum (fun t => is_rd k (t_rd t)) (mkT (t_h (thread s i) - 1) (t_ph (thread s i)) (t_rd (thread s i)))). cbn [t_rd] in H. lia. Qed.
Lemma Sh_ph p : Sh (set_ph s i p) = Sh s.
Proof. unfold Sh, set_ph. cbn [thrs w_thr]. assert (H := th_sum t_h (mkT (t_h (thread s i)) p (t_rd (thread s i)))). cbn [t_h] in H. lia. Qed.
Lemma Ph_ph f p : Ph f (set_ph s i p) + f (t_ph (thread s i)) = Ph f s + f p.
Proof. unfold Ph, set_ph. cbn [thrs w_thr]. exact (th_sum (fun t => f (t_ph t)) (mkT (t_h (thread s i)) p (t_rd (thread s i)))). Qed.
Lemma Rd_ph k p : Rd k (set_ph s i p) = Rd k s.
Proof. unfold Rd, set_ph. cbn [thrs w_thr]. assert (H := th_sum (fun t => is_rd k (t_rd t)) (mkT (t_h (thread s i)) p (t_rd (thread s i)))). cbn [t_rd] in H. lia. Qed.
Lemma Sh_rd r : Sh (set_rd s i r) = Sh s.
Proof. unfold Sh, set_rd. cbn [thrs w_thr]. assert (H := th_sum t_h (mkT (t_h (thread s i)) (t_ph (thread s i)) r)). cbn [t_h] in H. lia. Qed.
Lemma Ph_rd f r : Ph f (set_rd s i r) = Ph f s.
Proof. unfold Ph, set_rd. cbn [thrs w_thr]. assert (H := th_sum (fun t => f (t_ph t)) (mkT (t_h (thread s i)) (t_ph (thread s i)) r)). cbn [t_ph] in H. lia. Qed.
Lemma Rd_rd k r : Rd k (set_rd s i r) + is_rd k (t_rd (thread s i)) = Rd k s + is_rd k r.
Proof. unfold Rd, set_rd. cbn [thrs w_thr]. exact (th_sum (fun t => is_rd k (t_rd t)) (mkT (t_h (thread s i)) (t_ph (thread s i)) r)). Qed.
Lemma Ph_ge f : f (t_ph (thread s i)) <= Ph f s.
Proof. exact (sumf_in (fun t => f (t_ph t)) (mkT 0 Idle None) (thrs s) i L). Qed.
Lemma Rd_ge k : is_rd k (t_rd (thread s i)) <= Rd k s.
Proof. exact (sumf_in (fun t => is_rd k (t_rd t)) (mkT 0 Idle None) (thrs s) i L). Qed.
Lemma Sh_ge : t_h (thread s i) <= Sh s.
Proof. exact (sumf_in t_h (mkT 0 Idle None) (thrs s) i L). Qed.
End W.
(* childs *)
Lemma slots_lists_early l : Forall (fun k => k_list k = true -> k_slot k = true) l -> Forall (fun k => k_slot k = true -> k_list k = true) l -> slots l = lists l.
Proof.
  intros A B. apply sumf_eq. intros k Hk. rewrite Forall_forall in A, B. specialize (A k Hk). specialize (B k Hk). destruct (k_list k), (k_slot k); intuition congruence.
Qed.
Lemma slots_pos l k : free l k = true -> 0 < slots l.
Proof.
  unfold free, slots. destruct (Nat.lt_ge_cases k (length l)) as [H|H].
  - assert (I := sumf_in (fun x => b2n (k_slot x)) (mkK false false) l k H). cbn beta in I. destruct (k_slot _); [cbn [b2n] in I; lia|discriminate].
  - rewrite nth_overflow by exact H. discriminate.
Qed.
Lemma Rd_length k s : Rd k s = 0 \/ 0 < Rd k s. Proof. lia. Qed.
Lemma reading_Rd s k : reading s k = false -> Rd k s = 0.
Proof.
  unfold reading, Rd. intros H. apply sumf_zero. apply Forall_forall. intros t Ht. unfold is_rd. destruct (t_rd t) as [n|] eqn:E; [|reflexivity].
  destruct (n =? k) eqn:E2; [|reflexivity]. assert (X : existsb (fun t => match t_rd t with Some n => n =? k | None => false end) (thrs s) = true); [|congruence].
  apply existsb_exists. exists t. rewrite E, E2. auto.
Qed.

Lemma len_add s i : length (thrs (add_h s i)) = length (thrs s). Proof. apply upd_length. Qed.
Lemma len_sub s i : length (thrs (sub_h s i)) = length (thrs s). Proof. apply upd_length. Qed.
Lemma len_ph s i p : length (thrs (set_ph s i p)) = length (thrs s). Proof. apply upd_length. Qed.
Lemma len_rd s i r : length (thrs (set_rd s i r)) = length (thrs s). Proof. apply upd_length. Qed.
Lemma thread_upd s i t : i < length (thrs s) -> nth i (upd (thrs s) i t) (mkT 0 Idle None) = t.
Proof. intros H. apply nth_error_nth. apply nth_error_upd_same. exact H. Qed.
Lemma ph_sub s i : i < length (thrs s) -> t_ph (thread (sub_h s i) i) = t_ph (thread s i).
Proof. intros H. unfold thread at 1, sub_h. cbn [thrs w_thr]. rewrite thread_upd by exact H. reflexivity. Qed.
Lemma ph_rd s i r : i < length (thrs s) -> t_ph (thread (set_rd s i r) i) = t_ph (thread s i).
Proof. intros H. unfold thread at 1, set_rd. cbn [thrs w_thr]. rewrite thread_upd by exact H. reflexivity. Qed.
Lemma ph_add_same s i j : i < length (thrs s) -> t_ph (thread (add_h s j) i) = t_ph (thread s i).
Proof.
  intros H. unfold thread at 1, add_h. cbn [thrs w_thr]. rewrite nth_upd_eq. destruct (Nat.eqb_spec i j) as [->|N]; cbn [andb]; [|reflexivity].
  destruct (Nat.ltb_spec j (length (thrs s))); [reflexivity|lia].
Qed.

Ltac bools := repeat match goal with
  | H : _ && _ = true |- _ => apply andb_true_iff in H; destruct H
  | H : (_ <? _) = true |- _ => apply Nat.ltb_lt in H
  | H : negb _ = true |- _ => apply negb_true_iff in H
  end.


(* the invariant while the executing thread has [r] references in its hands; [ask]: it is
   about to ask for the destruction *)
Record invd (r : nat) (ask : bool) (s : st) : Prop := mkInvd {
  j_cnt : cnt s = Sh s + slots (kids s) + b2n (duty s) + Ph via s + Ph hnd s + r;
  j_clean : Ph cln s = match ost s with DoingDestroy => 1 | _ => 0 end;
  j_wait : Ph via s + b2n (duty s) = match ost s with WaitThread => 1 | _ => 0 end;
  j_del : Ph del s = match ost s with Destructor => 1 | _ => 0 end;
  j_hand : 0 < Ph hnd s -> ost s = WaitDestr;
  j_dcnt : ost s = Destructor -> cnt s = 0;
  j_list : Forall (fun k => k_list k = true -> k_slot k = true) (kids s);
  j_norm : early (ost s) -> Forall (fun k => k_slot k = true -> k_list k = true) (kids s);
  j_ext : ost s = Normal -> auto s = true -> 0 < Sh s + r;
  j_ask1 : ost s <> Normal -> auto s || asked s = true;
  j_ask2 : asked s = true -> ost s <> Normal \/ ask = true;
  j_ask3 : ask = true -> asked s = true;
  j_rd : forall k, Rd k s <= b2n (free (kids s) k);
  j_late : late s = false -> (ost s = WaitDestr \/ ost s = Destructor \/ 0 < Ph cl1 s) -> lists (kids s) = 0;
  j_wd : late s = false -> ost s = WaitDestr -> 0 < cnt s }.
Lemma can_clean r ask s i : invd r ask s -> i < length (thrs s) -> in_clean (t_ph (thread s i)) = true -> ost s = DoingDestroy.
Proof.
  intros I L C. assert (G := Ph_ge s i L cln). assert (E := j_clean r ask s I). destruct (t_ph (thread s i)); try discriminate; cbn [cln] in G; destruct (ost s); try lia; reflexivity.
Qed.

Ltac proj := cbn [cnt ost auto hasthr cleanup deleted asked late duty kids thrs set_ph set_rd add_h sub_h w_thr w_obj w_asked w_kids w_late w_duty w_flags w_deleted] in *.
(* reading of the counter, then of the state, for the thread after the first section *)
Lemma dec_ok s i ask dd : invd (b2n dd) ask s -> i < length (thrs s) -> is_idle (t_ph (thread s i)) || in_clean (t_ph (thread s i)) = true ->
  exists s' o, dec s ask dd false = Ok (s', o) /\ exists s2, continue s' i o = Ok s2 /\ inv s2 /\ deleted s2 = deleted s.
Proof.
  intros I L Hp. assert (Cc := can_clean _ _ s i I L). destruct I as [C Cl Wt Dl Hd Dc Li No Ex A1 A2 A3 Rr La Wd].
  assert (E1 : exists c, cnt s = c + b2n dd /\ c = Sh s + slots (kids s) + b2n (duty s) + Ph via s + Ph hnd s) by (eexists; split; [exact C|reflexivity]).
  destruct E1 as (c & Ec & C'). unfold dec.
  assert (M : forall (X : res (st * outcome)), match dd, cnt s with true, O => UB | _, _ => X end = X) by (intros X; rewrite Ec; destruct dd; cbn [b2n]; [rewrite Nat.add_1_r|]; reflexivity).
  rewrite M. clear M. replace (if dd then cnt s - 1 else cnt s) with c by (rewrite Ec; destruct dd; cbn [b2n]; lia). cbv zeta.
  assert (Kp : forall c o q f, Ph f (set_ph (w_obj s c o) i q) + f (t_ph (thread s i)) = Ph f s + f q) by (intros c0 o0 q f; exact (Ph_ph (w_obj s c0 o0) i L f q)).
  assert (Ks : forall c o q, Sh (set_ph (w_obj s c o) i q) = Sh s) by (intros c0 o0 q; exact (Sh_ph (w_obj s c0 o0) i L q)).
  assert (Kr : forall c o q k, Rd k (set_ph (w_obj s c o) i q) = Rd k s) by (intros c0 o0 q k; exact (Rd_ph (w_obj s c0 o0) i L k q)).
  assert (Go : forall c' o q, t_ph (thread s i) = Idle -> match o with OVia => Via | OClean => Clean0 | _ => Del end = q -> o <> Ret -> forall x, continue (w_obj s c' x) i o = Ok (set_ph (w_obj s c' x) i q)).
  { intros c0 o0 q Hi Hq Hr x. unfold continue. change (thread (w_obj s c0 x) i) with (thread s i). rewrite Hi. destruct o0; [congruence| | |]; rewrite <- Hq; unfold set_ph; reflexivity. }
  assert (Hi : ost s <> DoingDestroy -> t_ph (thread s i) = Idle) by (intros N; destruct (t_ph (thread s i)); try reflexivity; try discriminate; cbn [in_clean] in Cc; specialize (Cc eq_refl); congruence).
  assert (Hn : ost s <> WaitDestr -> Ph hnd s = 0) by (intros N; destruct (Nat.eq_dec (Ph hnd s) 0); [assumption|exfalso; apply N; apply Hd; lia]).
  destruct (ost s) eqn:Eo.
  - specialize (Hn ltac:(discriminate)). specialize (Hi ltac:(discriminate)). destruct (ask || auto s && (c =? 0) || dd && (c =? nlist (kids s)) && auto s) eqn:Ak.
    + assert (Aa : auto s || asked s = true).
      { apply orb_true_iff in Ak. destruct Ak as [Ak|Ak]; [apply orb_true_iff in Ak; destruct Ak as [Ak|Ak]|]; [rewrite A3 by exact Ak; apply orb_true_r| |]; bools; destruct (auto s); try discriminate; reflexivity. }
      destruct (hasthr s); do 2 eexists; (split; [reflexivity|]).
      * rewrite (Go _ OVia Via) by (auto; discriminate). eexists. split; [reflexivity|]. split; [|reflexivity].
        assert (Kv := Kp (S c) WaitThread Via via). assert (Kh := Kp (S c) WaitThread Via hnd). assert (Kc := Kp (S c) WaitThread Via cln). assert (Kd := Kp (S c) WaitThread Via del). assert (K1 := Kp (S c) WaitThread Via cl1). specialize (Ks (S c) WaitThread Via).
        rewrite Hi in *. cbn [via hnd cln del cl1] in *. constructor; change (kids (set_ph (w_obj s (S c) WaitThread) i Via)) with (kids s); change (ost (set_ph (w_obj s (S c) WaitThread) i Via)) with WaitThread; change (cnt (set_ph (w_obj s (S c) WaitThread) i Via)) with (S c); change (duty (set_ph (w_obj s (S c) WaitThread) i Via)) with (duty s); cbv iota; try lia; try discriminate; auto.
        -- intros _. apply No. left. reflexivity.
        -- intros k. rewrite Kr. apply Rr.
        -- intros Lt [X|[X|X]]; try discriminate. apply (La Lt). right. right. lia.
      * rewrite (Go _ OClean Clean0) by (auto; discriminate). eexists. split; [reflexivity|]. split; [|reflexivity].
        assert (Kv := Kp c DoingDestroy Clean0 via). assert (Kh := Kp c DoingDestroy Clean0 hnd). assert (Kc := Kp c DoingDestroy Clean0 cln). assert (Kd := Kp c DoingDestroy Clean0 del). assert (K1 := Kp c DoingDestroy Clean0 cl1). specialize (Ks c DoingDestroy Clean0).
        rewrite Hi in *. cbn [via hnd cln del cl1] in *. constructor; change (kids (set_ph (w_obj s c DoingDestroy) i Clean0)) with (kids s); change (ost (set_ph (w_obj s c DoingDestroy) i Clean0)) with DoingDestroy; change (cnt (set_ph (w_obj s c DoingDestroy) i Clean0)) with c; change (duty (set_ph (w_obj s c DoingDestroy) i Clean0)) with (duty s); cbv iota; try lia; try discriminate; auto.
        -- intros [X|X]; discriminate.
        -- intros k. rewrite Kr. apply Rr.
        -- intros Lt [X|[X|X]]; try discriminate. apply (La Lt). right. right. lia.
    + do 2 eexists. split; [reflexivity|]. eexists. split; [reflexivity|]. split; [|reflexivity]. constructor; try change (Sh (w_obj s c Normal)) with (Sh s) in *; proj; try change (Ph ?f (w_obj s c Normal)) with (Ph f s) in *; try assumption; try discriminate.
      * intros _ Ha. rewrite Ha in Ak. rewrite andb_true_l, andb_true_r in Ak. destruct ask; [discriminate|]. cbn [orb] in Ak. apply orb_false_iff in Ak. destruct Ak as (Ak1 & Ak2). apply Nat.eqb_neq in Ak1.
        rewrite nlist_lists in Ak2. rewrite <- (slots_lists_early (kids s) Li (No (or_introl eq_refl))) in Ak2.
        destruct dd; cbn [b2n andb] in *; [apply Nat.eqb_neq in Ak2|specialize (Ex eq_refl Ha); lia].
        destruct (Nat.eq_dec (Sh s) 0) as [Z|]; [|lia]. exfalso. assert (Hh : Ph hnd s = 0 \/ 0 < Ph hnd s) by lia. destruct Hh as [Hh|Hh]; [lia|]. specialize (Hd Hh). discriminate.
      * intros Ha. destruct (A2 Ha) as [X|X]; [exact X|]. rewrite X in Ak. cbn [orb] in Ak. discriminate.
  - do 2 eexists. split; [reflexivity|]. eexists. split; [reflexivity|]. split; [|reflexivity].
    constructor; try change (Sh (w_obj s c WaitThread)) with (Sh s) in *; proj; try change (Ph ?f (w_obj s c WaitThread)) with (Ph f s) in *; try assumption; try discriminate; try (intros _; discriminate).
  - do 2 eexists. split; [reflexivity|]. eexists. split; [reflexivity|]. split; [|reflexivity].
    constructor; try change (Sh (w_obj s c DoingDestroy)) with (Sh s) in *; proj; try change (Ph ?f (w_obj s c DoingDestroy)) with (Ph f s) in *; try assumption; try discriminate; try (intros _; discriminate).
  - specialize (Hi ltac:(discriminate)). destruct (Nat.eqb_spec c 0) as [Z|Z].
    + do 2 eexists. split; [reflexivity|]. rewrite (Go _ ODel Del) by (auto; discriminate). eexists. split; [reflexivity|]. split; [|reflexivity].
      assert (Kv := Kp c Destructor Del via). assert (Kh := Kp c Destructor Del hnd). assert (Kc := Kp c Destructor Del cln). assert (Kd := Kp c Destructor Del del). assert (K1 := Kp c Destructor Del cl1). specialize (Ks c Destructor Del).
      rewrite Hi in *. cbn [via hnd cln del cl1] in *. constructor; change (kids (set_ph (w_obj s c Destructor) i Del)) with (kids s); change (ost (set_ph (w_obj s c Destructor) i Del)) with Destructor; change (cnt (set_ph (w_obj s c Destructor) i Del)) with c; change (duty (set_ph (w_obj s c Destructor) i Del)) with (duty s); cbv iota; try lia; try discriminate; auto.
      -- intros [X|X]; discriminate.
      -- intros _. apply A1. discriminate.
      -- intros k. rewrite Kr. apply Rr.
    + do 2 eexists. split; [reflexivity|]. eexists. split; [reflexivity|]. split; [|reflexivity].
      constructor; try change (Sh (w_obj s c WaitDestr)) with (Sh s) in *; proj; try change (Ph ?f (w_obj s c WaitDestr)) with (Ph f s) in *; try assumption; try discriminate; try (intros; lia); try (intros _; discriminate).
  - do 2 eexists. split; [reflexivity|]. eexists. split; [reflexivity|]. split; [|reflexivity].
    constructor; try change (Sh (w_obj s c Destructor)) with (Sh s) in *; proj; try change (Ph ?f (w_obj s c Destructor)) with (Ph f s) in *; try assumption; try discriminate.
    + intros _. specialize (Dc eq_refl). lia.
Qed.
Lemma inv_invd s : inv s -> invd 0 false s.
Proof. intros [C Cl Wt Dl Hd Dc Li No Ex A1 A2 Rr La Wd]. constructor; auto; try lia; try discriminate. Qed.
Lemma release_ok s i ask : inv s -> deleted s = false -> i < length (thrs s) -> 0 < t_h (thread s i) -> is_idle (t_ph (thread s i)) || in_clean (t_ph (thread s i)) = true ->
  exists s', step s (Release i ask) = Ok s' /\ inv s' /\ deleted s' = false.
Proof.
  intros I D L Hh Hp. unfold step. rewrite D. destruct I as [C Cl Wt Dl Hd Dc Li No Ex A1 A2 Rr La Wd].
  set (s1 := sub_h (w_asked s (asked s || ask)) i).
  assert (K1 : S (Sh s1) = Sh s) by exact (Sh_sub (w_asked s (asked s || ask)) i L Hh).
  assert (K2 : forall f, Ph f s1 = Ph f s) by (intros f; exact (Ph_sub (w_asked s (asked s || ask)) i L f)).
  assert (K3 : forall k, Rd k s1 = Rd k s) by (intros k; exact (Rd_sub (w_asked s (asked s || ask)) i L k)).
  assert (I1 : invd (b2n true) ask s1).
  { constructor; rewrite ?K2; change (kids s1) with (kids s); change (ost s1) with (ost s); change (cnt s1) with (cnt s); change (duty s1) with (duty s); change (auto s1) with (auto s); change (late s1) with (late s); change (asked s1) with (asked s || ask); cbn [b2n]; auto; try lia.
    - intros N. specialize (A1 N). rewrite orb_assoc. rewrite A1. reflexivity.
    - intros H. apply orb_true_iff in H. destruct H as [H|H]; auto.
    - intros ->. apply orb_true_r.
    - intros k. rewrite K3. apply Rr. }
  assert (L1 : i < length (thrs s1)) by (unfold s1; rewrite len_sub; exact L).
  assert (P1 : t_ph (thread s1 i) = t_ph (thread s i)) by exact (ph_sub (w_asked s (asked s || ask)) i L).
  destruct (dec_ok s1 i ask true I1 L1) as (s' & o & E1 & s2 & E2 & I2 & D2); [rewrite P1; exact Hp|].
  assert (E3 : dec (w_asked s (asked s || ask)) ask true false = Ok (w_obj (w_asked s (asked s || ask)) (cnt s') (ost s'), o) /\ sub_h (w_obj (w_asked s (asked s || ask)) (cnt s') (ost s')) i = s').
  { clear -E1. unfold s1 in E1. unfold dec in *. cbn [cnt ost auto hasthr kids sub_h w_asked w_thr] in *. destruct (cnt s) as [|c]; [discriminate|]. cbv zeta in *.
    repeat match type of E1 with context [match ?x with _ => _ end] => match x with ost s => destruct (ost s) | _ => destruct x eqn:? end end; injection E1 as <- <-; split; reflexivity. }
  destruct E3 as (-> & E4). cbn [bind]. rewrite E4, E2. exists s2. split; [reflexivity|]. split; [exact I2|]. rewrite D2. exact D.
Qed.
Lemma askraw_ok s i : inv s -> deleted s = false -> i < length (thrs s) -> 0 < t_h (thread s i) -> is_idle (t_ph (thread s i)) || in_clean (t_ph (thread s i)) = true ->
  exists s', step s (AskRaw i) = Ok s' /\ inv s' /\ deleted s' = false.
Proof.
  intros I D L Hh Hp. unfold step. rewrite D. destruct I as [C Cl Wt Dl Hd Dc Li No Ex A1 A2 Rr La Wd].
  assert (I1 : invd (b2n false) true (w_asked s true)).
  { assert (K2 : forall f, Ph f (w_asked s true) = Ph f s) by reflexivity.
    constructor; rewrite ?K2; change (Sh (w_asked s true)) with (Sh s); proj; cbn [b2n]; rewrite ?Nat.add_0_r; auto; try (intros; apply orb_true_r). }
  destruct (dec_ok (w_asked s true) i true false I1 L Hp) as (s' & o & E1 & s2 & E2 & I2 & D2). rewrite E1. cbn [bind]. rewrite E2. exists s2. split; [reflexivity|]. split; [exact I2|]. rewrite D2. exact D.
Qed.
Lemma kid_nth l k : nth k l (mkK false false) = nth k l (mkK false false). Proof. reflexivity. Qed.
Lemma free_upd l k n x : k < length l -> free (upd l k x) n = if n =? k then k_slot x && negb (k_list x) else free l n.
Proof. intros H. unfold free. rewrite nth_upd_eq. destruct (n =? k); cbn [andb]; [|reflexivity]. destruct (Nat.ltb_spec k (length l)); [reflexivity|lia]. Qed.
Lemma Forall_upd {A} (P : A -> Prop) l i x : Forall P l -> P x -> Forall P (upd l i x).
Proof. revert i. induction l as [|y l IH]; intros [|i] F H; cbn [upd]; auto; inversion F; subst; constructor; auto. Qed.
Lemma free_lt l k : free l k = true -> k < length l.
Proof. intros H. destruct (Nat.lt_ge_cases k (length l)); [assumption|]. unfold free in H. rewrite nth_overflow in H by assumption. discriminate. Qed.
Lemma kdec_ok s i : inv s -> deleted s = false -> i < length (thrs s) -> (exists k, t_rd (thread s i) = Some k) -> is_idle (t_ph (thread s i)) || in_clean (t_ph (thread s i)) = true ->
  exists s', step s (KDec i) = Ok s' /\ inv s' /\ deleted s' = false.
Proof.
  intros I D L (k & Hk) Hp. unfold step. rewrite D, Hk. destruct I as [C Cl Wt Dl Hd Dc Li No Ex A1 A2 Rr La Wd].
  assert (Gk := Rd_ge s i L k). rewrite Hk in Gk. cbn [is_rd] in Gk. rewrite Nat.eqb_refl in Gk. assert (Fk := Rr k).
  assert (Fr : free (kids s) k = true) by (destruct (free (kids s) k); [reflexivity|cbn [b2n] in Fk; lia]). assert (Lk := free_lt _ _ Fr).
  assert (Fr' := Fr). unfold free in Fr'. apply andb_true_iff in Fr'. destruct Fr' as (Fs & Fl). apply negb_true_iff in Fl.
  set (nk := mkK (k_list (kid_at s k)) false).
  set (s1 := set_rd (w_kids s (upd (kids s) k nk)) i None).
  assert (K1 : Sh s1 = Sh s) by exact (Sh_rd (w_kids s (upd (kids s) k nk)) i L None).
  assert (K2 : forall f, Ph f s1 = Ph f s) by (intros f; exact (Ph_rd (w_kids s (upd (kids s) k nk)) i L f None)).
  assert (K3 : forall n, Rd n s1 + is_rd n (Some k) = Rd n s) by (intros n; assert (X := Rd_rd (w_kids s (upd (kids s) k nk)) i L n None); change (thread (w_kids s (upd (kids s) k nk)) i) with (thread s i) in X; rewrite Hk in X; cbn [is_rd] in X |- *; fold s1 in X; change (Rd n (w_kids s (upd (kids s) k nk))) with (Rd n s) in X; lia).
  assert (Ks : S (slots (upd (kids s) k nk)) = slots (kids s)).
  { assert (X := sumf_upd (fun x => b2n (k_slot x)) (mkK false false) (kids s) k nk Lk). unfold slots. cbn beta in X. rewrite Fs in X. cbn [k_slot nk b2n] in X. lia. }
  assert (Kl : lists (upd (kids s) k nk) = lists (kids s)).
  { assert (X := sumf_upd (fun x => b2n (k_list x)) (mkK false false) (kids s) k nk Lk). unfold lists. cbn beta in X. unfold nk in X at 2. cbn [k_list] in X. unfold kid_at in X. lia. }
  assert (Nn : ~ early (ost s)).
  { intros E. specialize (No E). rewrite Forall_forall in No. specialize (No (nth k (kids s) (mkK false false)) (nth_In _ _ Lk) Fs). congruence. }
  assert (I1 : invd (b2n true) false s1).
  { constructor; rewrite ?K1, ?K2; change (kids s1) with (upd (kids s) k nk); change (ost s1) with (ost s); change (cnt s1) with (cnt s); change (duty s1) with (duty s); change (auto s1) with (auto s); change (late s1) with (late s); change (asked s1) with (asked s); cbn [b2n]; rewrite ?Kl; cbv iota; auto; try lia; try discriminate.
    - apply Forall_upd; [exact Li|]. intros X. cbn [k_list nk] in X. unfold kid_at in X. congruence.
    - intros E. destruct (Nn E).
    - intros n. specialize (Rr n). specialize (K3 n). cbn [is_rd] in K3. rewrite free_upd by exact Lk. destruct (Nat.eqb_spec n k) as [->|N].
      + rewrite Nat.eqb_refl in K3. rewrite Fr in Rr. cbn [k_slot nk andb b2n] in *. lia.
      + destruct (Nat.eqb_spec k n); [congruence|]. lia. }
  assert (L1 : i < length (thrs s1)) by (unfold s1; rewrite len_rd; exact L).
  assert (P1 : t_ph (thread s1 i) = t_ph (thread s i)) by exact (ph_rd (w_kids s (upd (kids s) k nk)) i None L).
  destruct (dec_ok s1 i false true I1 L1) as (s' & o & E1 & s2 & E2 & I2 & D2); [rewrite P1; exact Hp|].
  (* the number of listed childs is not affected *)
  assert (Nl : nlist (kids s1) = nlist (kids s)) by (rewrite !nlist_lists; exact Kl).
  assert (E3 : dec s false true false = Ok (w_obj s (cnt s') (ost s'), o) /\ set_rd (w_kids (w_obj s (cnt s') (ost s')) (upd (kids s) k nk)) i None = s').
  { unfold dec in *. rewrite Nl in E1. clear -E1. unfold s1 in E1. cbn [cnt ost auto hasthr kids set_rd w_kids w_thr] in *. destruct (cnt s) as [|c]; [discriminate|]. cbv zeta in *.
    repeat match type of E1 with context [match ?x with _ => _ end] => match x with ost s => destruct (ost s) | _ => destruct x eqn:? end end; injection E1 as <- <-; split; reflexivity. }
  destruct E3 as (-> & E4). cbn [bind].
  change (upd (kids (w_obj s (cnt s') (ost s'))) k (mkK (k_list (kid_at (w_obj s (cnt s') (ost s')) k)) false)) with (upd (kids s) k nk).
  rewrite E4, E2. exists s2. split; [reflexivity|]. split; [exact I2|]. rewrite D2. exact D.
Qed.
Lemma not_destr s : inv s -> 0 < cnt s -> ost s <> Destructor.
Proof. intros I H E. assert (X := i_dcnt s I E). lia. Qed.
(* a state with the same object, childs and flags *)
Lemma inv_same s s' : inv s -> cnt s' = cnt s + (Sh s' - Sh s) -> Sh s <= Sh s' -> ost s' = ost s -> auto s' = auto s -> asked s' = asked s -> late s' = late s -> duty s' = duty s -> kids s' = kids s ->
  (ost s <> Destructor \/ Sh s' = Sh s) -> (forall f, (forall t u, f (Clean t) = f (Clean u)) -> Ph f s' = Ph f s) -> (forall k, Rd k s' = Rd k s) -> inv s'.
Proof.
  intros [C Cl Wt Dl Hd Dc Li No Ex A1 A2 Rr La Wd] E1 E2 E3 E4 E5 E6 E7 E8 E9 P R. assert (P1 := P via (fun _ _ => eq_refl)). assert (P2 := P cln (fun _ _ => eq_refl)). assert (P3 := P del (fun _ _ => eq_refl)). assert (P4 := P hnd (fun _ _ => eq_refl)). assert (P5 := P cl1 (fun _ _ => eq_refl)).
  constructor; rewrite ?P1, ?P2, ?P3, ?P4, ?P5, ?E3, ?E4, ?E5, ?E6, ?E7, ?E8; auto; try lia.
  all: try (intros H; specialize (Dc H); destruct E9; [congruence|lia]).
  all: try (intros k; rewrite R; apply Rr).
  all: intros H1 H2; try (specialize (Ex H1 H2); lia); specialize (Wd H1 H2); lia.
Qed.
Lemma copy_ok s i j : inv s -> deleted s = false -> i < length (thrs s) -> 0 < t_h (thread s i) -> j < length (thrs s) ->
  exists s', step s (Copy i j) = Ok s' /\ inv s' /\ deleted s' = false.
Proof.
  intros I D L Hh Lj. unfold step. rewrite D. assert (G := Sh_ge s i L). assert (C := i_cnt s I). assert (Nd := not_destr s I ltac:(lia)).
  unfold inc. destruct (ost s) eqn:E; try congruence; (eexists; split; [reflexivity|]; split; [|exact D]);
    match goal with |- inv (add_h ?x j) => assert (X := Sh_add x j Lj); change (Sh x) with (Sh s) in X; apply (inv_same s); auto; try (intros f _; exact (Ph_add x j Lj f)); try (intros k; exact (Rd_add x j Lj k)); proj; try lia; try (left; congruence) end.
Qed.
Lemma give_ok s i j : inv s -> deleted s = false -> i < length (thrs s) -> 0 < t_h (thread s i) -> j < length (thrs s) ->
  exists s', step s (Give i j) = Ok s' /\ inv s' /\ deleted s' = false.
Proof.
  intros I D L Hh Lj. unfold step. rewrite D. eexists. split; [reflexivity|]. split; [|exact D].
  assert (Lj' : j < length (thrs (sub_h s i))) by (rewrite len_sub; exact Lj).
  assert (X := Sh_sub s i L Hh). assert (Y := Sh_add (sub_h s i) j Lj'). apply (inv_same s); auto; try lia.
  - change (cnt (add_h (sub_h s i) j)) with (cnt s). lia.
  - intros f _. rewrite (Ph_add _ j Lj'), (Ph_sub s i L). reflexivity.
  - intros k. rewrite (Rd_add _ j Lj'), (Rd_sub s i L). reflexivity.
Qed.
Lemma flags_ok s h c : inv s -> inv (w_flags s h c).
Proof. intros I. apply (inv_same s); auto; proj; change (Sh (w_flags s h c)) with (Sh s); try lia. Qed.

Ltac pose_ph s i L p :=
  let Kv := fresh "Kv" in let Kh := fresh "Kh" in let Kc := fresh "Kc" in let Kd := fresh "Kd" in let K1 := fresh "K1" in let Ks := fresh "Ks" in let Kr := fresh "Kr" in
  assert (Kv := Ph_ph s i L via p); assert (Kh := Ph_ph s i L hnd p); assert (Kc := Ph_ph s i L cln p); assert (Kd := Ph_ph s i L del p); assert (K1 := Ph_ph s i L cl1 p);
  assert (Ks := Sh_ph s i L p); assert (Kr := fun k => Rd_ph s i L k p).
Ltac same_ph s0 s := change (Ph via s0) with (Ph via s) in *; change (Ph hnd s0) with (Ph hnd s) in *; change (Ph cln s0) with (Ph cln s) in *; change (Ph del s0) with (Ph del s) in *; change (Ph cl1 s0) with (Ph cl1 s) in *; change (Sh s0) with (Sh s) in *.
Lemma bythread_ok s i acc : inv s -> deleted s = false -> i < length (thrs s) -> t_ph (thread s i) = Via -> exists s', step s (ByThread i acc) = Ok s' /\ inv s' /\ deleted s' = false.
Proof.
  intros I D L Hp. unfold step. rewrite D. assert (Gv := Ph_ge s i L via). rewrite Hp in Gv. cbn [via] in Gv. destruct I as [C Cl Wt Dl Hd Dc Li No Ex A1 A2 Rr La Wd].
  assert (Eo : ost s = WaitThread) by (destruct (ost s); try lia; reflexivity). rewrite Eo in *. assert (Dz : b2n (duty s) = 0) by lia.
  assert (Hn : Ph hnd s = 0) by (destruct (Nat.eq_dec (Ph hnd s) 0); [assumption|assert (X : WaitThread = WaitDestr) by (apply Hd; lia); discriminate]).
  destruct acc; (eexists; split; [reflexivity|]; split; [|exact D]).
  - pose_ph s i L Idle. rewrite Hp in *. cbn [via hnd cln del cl1] in *. set (s1 := set_ph s i Idle) in *.
    constructor; change (Ph ?f (w_duty s1 true)) with (Ph f s1); change (Sh (w_duty s1 true)) with (Sh s1); change (Rd ?k (w_duty s1 true)) with (Rd k s1); change (kids (w_duty s1 true)) with (kids s); change (ost (w_duty s1 true)) with (ost s); change (cnt (w_duty s1 true)) with (cnt s); change (duty (w_duty s1 true)) with true; change (auto (w_duty s1 true)) with (auto s); change (asked (w_duty s1 true)) with (asked s); change (late (w_duty s1 true)) with (late s); rewrite ?Eo; cbn [b2n]; cbv iota; auto; try lia; try discriminate.
    + intros k. change (Rd k (w_duty s1 true)) with (Rd k s1). rewrite Kr. apply Rr.
    + intros Lt [X|[X|X]]; try discriminate. apply (La Lt). right. right. lia.
  - pose_ph (w_obj s (cnt s - 1) DoingDestroy) i L Clean0. same_ph (w_obj s (cnt s - 1) DoingDestroy) s. change (thread (w_obj s (cnt s - 1) DoingDestroy) i) with (thread s i) in *. rewrite Hp in *. cbn [via hnd cln del cl1] in *.
    set (s1 := set_ph (w_obj s (cnt s - 1) DoingDestroy) i Clean0) in *.
    constructor; change (kids s1) with (kids s); change (ost s1) with DoingDestroy; change (cnt s1) with (cnt s - 1); change (duty s1) with (duty s); change (auto s1) with (auto s); change (asked s1) with (asked s); change (late s1) with (late s); cbv iota; auto; try lia; try discriminate.
    + intros [X|X]; discriminate.
    + intros _. apply A1. discriminate.
    + intros k. rewrite Kr. apply Rr.
    + intros Lt [X|[X|X]]; try discriminate. apply (La Lt). right. right. lia.
Qed.
Lemma fromthread_ok s i : inv s -> deleted s = false -> i < length (thrs s) -> t_ph (thread s i) = Idle -> duty s = true -> exists s', step s (FromThread i) = Ok s' /\ inv s' /\ deleted s' = false.
Proof.
  intros I D L Hp Hd'. unfold step. rewrite D. destruct I as [C Cl Wt Dl Hd Dc Li No Ex A1 A2 Rr La Wd]. rewrite Hd' in *. cbn [b2n] in *.
  assert (Eo : ost s = WaitThread) by (destruct (ost s); try lia; reflexivity).
  unfold dec. cbn [w_duty cnt ost auto hasthr kids]. rewrite Eo in *. destruct (cnt s) as [|c] eqn:Ec; [lia|]. cbn [Nat.sub]. rewrite Nat.sub_0_r. cbn [bind].
  unfold continue. cbv zeta. change (thread (w_obj (w_duty s false) c DoingDestroy) i) with (thread s i). rewrite Hp.
  eexists. split; [reflexivity|]. split; [|exact D].
  assert (Hn : Ph hnd s = 0) by (destruct (Nat.eq_dec (Ph hnd s) 0); [assumption|assert (X : WaitThread = WaitDestr) by (apply Hd; lia); discriminate]).
  set (s0 := w_obj (w_duty s false) c DoingDestroy). assert (Hp0 : t_ph (thread s0 i) = Idle) by exact Hp. pose_ph s0 i L Clean0. same_ph s0 s. rewrite Hp0 in *. cbn [via hnd cln del cl1] in *.
  change (w_thr s0 i (mkT (t_h (thread s i)) Clean0 (t_rd (thread s i)))) with (set_ph s0 i Clean0). set (s1 := set_ph s0 i Clean0) in *.
  constructor; change (kids s1) with (kids s); change (ost s1) with DoingDestroy; change (cnt s1) with c; change (duty s1) with false; change (auto s1) with (auto s); change (asked s1) with (asked s); change (late s1) with (late s); cbn [b2n]; cbv iota; auto; try lia; try discriminate.
  + intros [X|X]; discriminate.
  + intros _. apply A1. discriminate.
  + intros k. rewrite Kr. apply Rr.
  + intros Lt [X|[X|X]]; try discriminate. apply (La Lt). right. right. lia.
Qed.
Lemma steal_lists l : lists (map (fun k => mkK false (k_slot k)) l) = 0.
Proof. unfold lists. induction l as [|k l IH]; cbn [map sumf]; auto. Qed.
Lemma steal_slots l : slots (map (fun k => mkK false (k_slot k)) l) = slots l.
Proof. unfold slots. induction l as [|k l IH]; cbn [map sumf k_slot]; auto. Qed.
Lemma steal_free l k : b2n (free l k) <= b2n (free (map (fun k => mkK false (k_slot k)) l) k).
Proof.
  unfold free. change (mkK false false) with ((fun k => mkK false (k_slot k)) (mkK false false)) at 3 4. rewrite !map_nth. cbn [k_list k_slot negb].
  change (mkK false (k_slot (mkK false false))) with (mkK false false). destruct (k_slot (nth k l (mkK false false))), (k_list (nth k l (mkK false false))); cbn; lia.
Qed.
Lemma steal_ok s i : inv s -> deleted s = false -> i < length (thrs s) -> t_ph (thread s i) = Clean0 -> exists s', step s (Steal i) = Ok s' /\ inv s' /\ deleted s' = false.
Proof.
  intros I D L Hp. unfold step. rewrite D. assert (G := Ph_ge s i L cln). rewrite Hp in G. cbn [cln] in G. destruct I as [C Cl Wt Dl Hd Dc Li No Ex A1 A2 Rr La Wd].
  assert (Eo : ost s = DoingDestroy) by (destruct (ost s); try lia; reflexivity). rewrite Eo in *. eexists. split; [reflexivity|]. split; [|exact D].
  assert (Hn : Ph hnd s = 0) by (destruct (Nat.eq_dec (Ph hnd s) 0); [assumption|assert (X : DoingDestroy = WaitDestr) by (apply Hd; lia); discriminate]).
  set (s0 := w_kids s (map (fun k => mkK false (k_slot k)) (kids s))). assert (Hp0 : t_ph (thread s0 i) = Clean0) by exact Hp. remember (Clean (listed (kids s) 0)) as p eqn:Ep. pose_ph s0 i L p. same_ph s0 s. rewrite Hp0 in *.
  assert (V1 : via p = 0 /\ hnd p = 0 /\ cln p = 1 /\ del p = 0 /\ cl1 p = 1) by (rewrite Ep; auto). destruct V1 as (V1 & V2 & V3 & V4 & V5). rewrite V1, V2, V3, V4, V5 in *. cbn [via hnd cln del cl1] in *.
  set (s1 := set_ph s0 i p) in *.
  constructor; change (kids s1) with (map (fun k => mkK false (k_slot k)) (kids s)); change (ost s1) with (ost s); change (cnt s1) with (cnt s); change (duty s1) with (duty s); change (auto s1) with (auto s); change (asked s1) with (asked s); change (late s1) with (late s); rewrite ?Eo, ?steal_slots; cbv iota; auto; try lia; try discriminate.
  + apply Forall_forall. intros k Hk. apply in_map_iff in Hk. destruct Hk as (x & <- & _). discriminate.
  + intros [X|X]; discriminate.
  + intros k. rewrite Kr. change (Rd k s0) with (Rd k s). eapply Nat.le_trans; [apply Rr|apply steal_free].
  + intros _ _. apply steal_lists.
Qed.
Lemma skip_ok s i k t : inv s -> deleted s = false -> i < length (thrs s) -> t_ph (thread s i) = Clean (k :: t) -> exists s', step s (Skip i) = Ok s' /\ inv s' /\ deleted s' = false.
Proof.
  intros I D L Hp. unfold step. rewrite D, Hp. eexists. split; [reflexivity|]. split; [|exact D]. apply (inv_same s); auto.
  - rewrite (Sh_ph s i L). change (cnt (set_ph s i (Clean t))) with (cnt s). lia.
  - rewrite (Sh_ph s i L). lia.
  - right. apply (Sh_ph s i L).
  - intros f Hf. assert (X := Ph_ph s i L f (Clean t)). rewrite Hp in X.
    apply Nat.add_cancel_r with (p := f (Clean (k :: t))). rewrite X. f_equal. auto.
  - intros n. apply (Rd_ph s i L).
Qed.
Lemma kread_ok s i k : inv s -> deleted s = false -> i < length (thrs s) -> free (kids s) k = true -> t_rd (thread s i) = None -> Rd k s = 0 ->
  exists s', step s (KRead i k) = Ok s' /\ inv s' /\ deleted s' = false.
Proof.
  intros I D L F Hr R0. unfold step. rewrite D. eexists. split; [reflexivity|]. split; [|exact D].
  assert (Ks := Sh_rd s i L (Some k)). assert (Kp := fun f => Ph_rd s i L f (Some k)). assert (Kr := fun n => Rd_rd s i L n (Some k)). rewrite Hr in Kr.
  destruct I as [C Cl Wt Dl Hd Dc Li No Ex A1 A2 Rr La Wd]. set (s1 := set_rd s i (Some k)) in *.
  constructor; rewrite ?Kp, ?Ks; change (kids s1) with (kids s); change (ost s1) with (ost s); change (cnt s1) with (cnt s); change (duty s1) with (duty s); change (auto s1) with (auto s); change (asked s1) with (asked s); change (late s1) with (late s); auto.
  intros n. specialize (Kr n). specialize (Rr n). cbn [is_rd] in Kr. destruct (Nat.eqb_spec k n) as [->|N]; [|lia]. rewrite F in *. cbn [b2n]. lia.
Qed.
Lemma kremove_ok s k : inv s -> deleted s = false -> k < length (kids s) -> k_list (kid_at s k) = true -> k_slot (kid_at s k) = true ->
  exists s', step s (KRemove k) = Ok s' /\ inv s' /\ deleted s' = false.
Proof.
  intros I D Lk Hl Hs. unfold step. rewrite D. eexists. split; [reflexivity|]. split; [|exact D]. unfold kid_at in *.
  destruct I as [C Cl Wt Dl Hd Dc Li No Ex A1 A2 Rr La Wd].
  assert (X := sumf_upd (fun x => b2n (k_slot x)) (mkK false false) (kids s) k (mkK false false) Lk). cbn beta in X. rewrite Hs in X. cbn [k_slot b2n] in X. fold (slots (kids s)) in X. fold (slots (upd (kids s) k (mkK false false))) in X.
  assert (Y := sumf_upd (fun x => b2n (k_list x)) (mkK false false) (kids s) k (mkK false false) Lk). cbn beta in Y. rewrite Hl in Y. cbn [k_list b2n] in Y. fold (lists (kids s)) in Y. fold (lists (upd (kids s) k (mkK false false))) in Y.
  assert (Ec : (if 1 <? cnt s then cnt s - 1 else 0) = cnt s - 1) by (destruct (Nat.ltb_spec 1 (cnt s)); lia). rewrite Ec.
  set (s1 := w_obj (w_kids s (upd (kids s) k (mkK false false))) (cnt s - 1) (ost s)).
  constructor; change (Sh s1) with (Sh s); change (Ph cln s1) with (Ph cln s); change (Ph via s1) with (Ph via s); change (Ph hnd s1) with (Ph hnd s); change (Ph del s1) with (Ph del s); change (Ph cl1 s1) with (Ph cl1 s); change (kids s1) with (upd (kids s) k (mkK false false)); change (ost s1) with (ost s); change (cnt s1) with (cnt s - 1); change (duty s1) with (duty s); change (auto s1) with (auto s); change (asked s1) with (asked s); change (late s1) with (late s); auto; try lia.
  - apply Forall_upd; [exact Li|]. discriminate.
  - intros E. apply Forall_upd; [exact (No E)|]. discriminate.
  - intros n. change (Rd n s1) with (Rd n s). specialize (Rr n). rewrite free_upd by exact Lk. destruct (Nat.eqb_spec n k) as [->|N]; [|exact Rr]. unfold free in Rr. rewrite Hl, Hs in Rr. cbn in *. lia.
  - intros Lt Q. specialize (La Lt (or_introl Q)). lia.
Qed.
Lemma addkid_ok s i : inv s -> deleted s = false -> i < length (thrs s) -> 0 < t_h (thread s i) -> exists s', step s (AddKid i) = Ok s' /\ inv s' /\ deleted s' = false.
Proof.
  intros I D L Hh. unfold step. rewrite D. assert (G := Sh_ge s i L). cbv zeta.
  destruct I as [C Cl Wt Dl Hd Dc Li No Ex A1 A2 Rr La Wd].
  assert (Sa : slots (kids s ++ [mkK true true]) = S (slots (kids s))) by (unfold slots; rewrite sumf_app; cbn [sumf k_slot b2n]; lia).
  assert (Fa : forall n, free (kids s ++ [mkK true true]) n = free (kids s) n).
  { intros n. unfold free. destruct (Nat.lt_ge_cases n (length (kids s))) as [Ln|Ln]; [rewrite app_nth1 by exact Ln; reflexivity|]. rewrite app_nth2 by exact Ln. rewrite (nth_overflow (kids s)) by exact Ln.
    destruct (n - length (kids s)) as [|[|m]]; reflexivity. }
  assert (La1 : Forall (fun k => k_list k = true -> k_slot k = true) (kids s ++ [mkK true true])) by (apply Forall_app; split; [exact Li|repeat constructor]).
  assert (La2 : early (ost s) -> Forall (fun k => k_slot k = true -> k_list k = true) (kids s ++ [mkK true true])) by (intros E; apply Forall_app; split; [exact (No E)|repeat constructor]).
  set (s0 := match ost s with Normal | WaitThread => s | _ => w_late s true end). exists (w_obj (w_kids s0 (kids s0 ++ [mkK true true])) (S (cnt s0)) (ost s0)). split; [reflexivity|].
  assert (F : kids s0 = kids s /\ cnt s0 = cnt s /\ ost s0 = ost s /\ auto s0 = auto s /\ asked s0 = asked s /\ duty s0 = duty s /\ Sh s0 = Sh s /\ deleted s0 = deleted s /\ (forall f, Ph f s0 = Ph f s) /\ (forall k, Rd k s0 = Rd k s) /\ (late s0 = false -> late s = false /\ early (ost s))).
  { unfold s0. destruct (ost s) eqn:E; rewrite <- ?E; repeat (split; [reflexivity|]); intros; try discriminate; split; auto; rewrite E; [left|right]; reflexivity. }
  destruct F as (F1 & F2 & F3 & F4 & F5 & F6 & F7 & F8 & F9 & F10 & F11). rewrite F1, F2, F3. split; [|cbn; rewrite F8; exact D].
  set (s1 := w_obj (w_kids s0 (kids s ++ [mkK true true])) (S (cnt s)) (ost s)).
  assert (P1 : forall f, Ph f s1 = Ph f s) by exact F9. assert (R1 : forall k, Rd k s1 = Rd k s) by exact F10.
  constructor; rewrite ?P1; change (Sh s1) with (Sh s0); change (kids s1) with (kids s ++ [mkK true true]); change (ost s1) with (ost s); change (cnt s1) with (S (cnt s)); change (duty s1) with (duty s0); change (auto s1) with (auto s0); change (asked s1) with (asked s0); change (late s1) with (late s0); rewrite ?F4, ?F5, ?F6, ?F7; auto; try lia.
  - intros n. rewrite R1, Fa. apply Rr.
  - intros Lt Q. destruct (F11 Lt) as (_ & E). exfalso. destruct Q as [Q|[Q|Q]]; [destruct E as [E|E]; congruence|destruct E as [E|E]; congruence|].
    assert (X : Ph cl1 s <= Ph cln s) by (apply sumf_le; intros t _; destruct (t_ph t); cbn; lia). destruct E as [E|E]; rewrite E in Cl; lia.
Qed.
Lemma done_ok s i : inv s -> deleted s = false -> i < length (thrs s) -> t_ph (thread s i) = Clean [] -> exists s', step s (Done i) = Ok s' /\ inv s' /\ deleted s' = false.
Proof.
  intros I D L Hp. unfold step. rewrite D. assert (G := Ph_ge s i L cln). rewrite Hp in G. assert (G1 := Ph_ge s i L cl1). rewrite Hp in G1. cbn [cln cl1] in G, G1. destruct I as [C Cl Wt Dl Hd Dc Li No Ex A1 A2 Rr La Wd].
  assert (Eo : ost s = DoingDestroy) by (destruct (ost s); try lia; reflexivity). rewrite Eo in *.
  assert (Hn : Ph hnd s = 0) by (destruct (Nat.eq_dec (Ph hnd s) 0); [assumption|assert (X : DoingDestroy = WaitDestr) by (apply Hd; lia); discriminate]).
  assert (Go : forall c o p, inv (set_ph (w_obj s c o) i p) -> exists s', Ok (set_ph (w_obj s c o) i p) = Ok s' /\ inv s' /\ deleted s' = false) by (intros c o p J; eexists; split; [reflexivity|]; split; [exact J|exact D]).
  destruct (cleanup s); [|destruct (Nat.eqb_spec (cnt s) 0) as [Z|Z]]; apply Go;
    match goal with |- inv (set_ph (w_obj s ?c ?o) i ?p) => set (s0 := w_obj s c o); assert (Hp0 : t_ph (thread s0 i) = Clean []) by exact Hp; pose_ph s0 i L p; same_ph s0 s; rewrite Hp0 in *; cbn [via hnd cln del cl1] in *;
      set (s1 := set_ph s0 i p) in *; change (Ph cl1 s0) with (Ph cl1 s) in *;
      constructor; change (kids s1) with (kids s); change (ost s1) with o; change (cnt s1) with c; change (duty s1) with (duty s); change (auto s1) with (auto s); change (asked s1) with (asked s); change (late s1) with (late s); cbv iota; auto; try lia; try discriminate; try (intros [X|X]; discriminate); try (intros _; apply A1; discriminate); try (intros _; discriminate); try (intros k; rewrite Kr; apply Rr); try (intros Lt _; apply (La Lt); right; right; lia) end.
Qed.
Lemma tomanager_ok s i m : inv s -> deleted s = false -> i < length (thrs s) -> m < length (thrs s) -> t_ph (thread s i) = Hand -> exists s', step s (ToManager i m) = Ok s' /\ inv s' /\ deleted s' = false.
Proof.
  intros I D L Lm Hp. unfold step. rewrite D. assert (G := Ph_ge s i L hnd). rewrite Hp in G. cbn [hnd] in G. destruct I as [C Cl Wt Dl Hd Dc Li No Ex A1 A2 Rr La Wd].
  assert (Eo : ost s = WaitDestr) by (apply Hd; lia). unfold inc. rewrite Eo in *. eexists. split; [reflexivity|]. split; [|exact D].
  set (s0 := w_obj s (S (cnt s)) WaitDestr). set (s2 := add_h s0 m). assert (L2 : i < length (thrs s2)) by (unfold s2; rewrite len_add; exact L). set (s3 := add_h s2 i). assert (L3 : i < length (thrs s3)) by (unfold s3; rewrite len_add; exact L2).
  assert (Hp3 : t_ph (thread s3 i) = Hand) by (unfold s3; rewrite ph_add_same by exact L2; unfold s2; rewrite ph_add_same by exact L; exact Hp).
  assert (S2 : Sh s3 = S (S (Sh s))) by (unfold s3; rewrite Sh_add by exact L2; unfold s2; rewrite Sh_add by exact Lm; reflexivity).
  assert (P2 : forall f, Ph f s3 = Ph f s) by (intros f; unfold s3; rewrite Ph_add by exact L2; unfold s2; rewrite Ph_add by exact Lm; reflexivity).
  assert (R2 : forall k, Rd k s3 = Rd k s) by (intros k; unfold s3; rewrite Rd_add by exact L2; unfold s2; rewrite Rd_add by exact Lm; reflexivity).
  pose_ph s3 i L3 Idle. rewrite Hp3 in *. rewrite P2 in *. cbn [via hnd cln del cl1] in *. set (s1 := set_ph s3 i Idle) in *.
  constructor; change (kids s1) with (kids s); change (ost s1) with WaitDestr; change (cnt s1) with (S (cnt s)); change (duty s1) with (duty s); change (auto s1) with (auto s); change (asked s1) with (asked s); change (late s1) with (late s); cbv iota; auto; try lia; try discriminate.
  - intros k. rewrite Kr, R2. apply Rr.
Qed.
Lemma delete_ok s i : inv s -> deleted s = false -> i < length (thrs s) -> t_ph (thread s i) = Del -> exists s', step s (Delete i) = Ok s' /\ deleted s' = true /\ gone s'.
Proof.
  intros I D L Hp. unfold step. rewrite D. assert (G := Ph_ge s i L del). rewrite Hp in G. cbn [del] in G. destruct I as [C Cl Wt Dl Hd Dc Li No Ex A1 A2 Rr La Wd].
  assert (Eo : ost s = Destructor) by (destruct (ost s); try lia; reflexivity). rewrite Eo in *. specialize (Dc eq_refl). eexists. split; [reflexivity|]. split; [reflexivity|].
  pose_ph s i L Idle. rewrite Hp in *. cbn [via hnd cln del cl1] in *. set (s1 := set_ph s i Idle) in *.
  constructor; change (kids (w_deleted s1)) with (kids s); change (duty (w_deleted s1)) with (duty s); change (auto (w_deleted s1)) with (auto s); change (asked (w_deleted s1)) with (asked s); try lia.
  - change (Sh (w_deleted s1)) with (Sh s1). lia.
  - destruct (duty s); [cbn [b2n] in *; lia|reflexivity].
  - change (thrs (w_deleted s1)) with (thrs s1). unfold Ph in *. assert (Z1 : sumf (fun t => cln (t_ph t)) (thrs s1) = 0) by lia. assert (Z2 : sumf (fun t => via (t_ph t)) (thrs s1) = 0) by lia. assert (Z3 : sumf (fun t => hnd (t_ph t)) (thrs s1) = 0) by lia. assert (Z4 : sumf (fun t => del (t_ph t)) (thrs s1) = 0) by lia.
    apply sumf_zero in Z1, Z2, Z3, Z4. rewrite Forall_forall in *. intros t Ht. specialize (Z1 t Ht). specialize (Z2 t Ht). specialize (Z3 t Ht). specialize (Z4 t Ht). cbn beta in *. destruct (t_ph t); try discriminate; reflexivity.
  - intros k. change (Rd k (w_deleted s1)) with (Rd k s1). rewrite Kr. specialize (Rr k). destruct (free (kids s) k) eqn:F; [|cbn [b2n] in Rr; lia]. assert (X := slots_pos _ _ F). lia.
  - apply A1. discriminate.
Qed.

(* no step is possible after the deletion *)
Lemma gone_blocks s o b : gone s -> deleted s = true -> enabled b s o = false.
Proof.
  intros [Gh Gs Gd Gp Gr _] D.
  assert (T : forall i, i < length (thrs s) -> t_h (thread s i) = 0 /\ t_ph (thread s i) = Idle /\ t_rd (thread s i) = None).
  { intros i L. assert (X := Sh_ge s i L). split; [lia|]. split; [rewrite Forall_forall in Gp; apply Gp; apply nth_In; exact L|]. destruct (t_rd (thread s i)) as [k|] eqn:E; [|reflexivity].
    assert (Y := Rd_ge s i L k). rewrite E, Gr in Y. cbn [is_rd] in Y. rewrite Nat.eqb_refl in Y. lia. }
  assert (K : forall k, k_slot (kid_at s k) = false).
  { intros k. unfold kid_at. destruct (Nat.lt_ge_cases k (length (kids s))) as [L|L]; [|rewrite nth_overflow by exact L; reflexivity].
    assert (X := sumf_in (fun x => b2n (k_slot x)) (mkK false false) (kids s) k L). cbn beta in X. fold (slots (kids s)) in X. destruct (k_slot (nth k (kids s) (mkK false false))); [cbn [b2n] in X; lia|reflexivity]. }
  destruct o; cbn [enabled]; rewrite ?D, ?Gd, ?K, ?andb_false_r; cbn [andb negb]; try reflexivity;
    match goal with |- context [?x <? length (thrs s)] => destruct (Nat.ltb_spec x (length (thrs s))) as [L|L]; cbn [andb]; [|try reflexivity]; destruct (T x L) as (E1 & E2 & E3); rewrite ?E1, ?E2, ?E3; cbn [andb Nat.ltb Nat.leb is_idle in_clean orb]; rewrite ?andb_false_r; try reflexivity end.
Qed.

Theorem step_good s o : inv s -> deleted s = false -> enabled true s o = true -> exists s', step s o = Ok s' /\ good s'.
Proof.
  intros I D E. assert (Y : forall (x : res st), (exists s', x = Ok s' /\ inv s' /\ deleted s' = false) -> exists s', x = Ok s' /\ good s') by (intros x (s' & H1 & H2 & H3); exists s'; split; [exact H1|]; unfold good; rewrite H3; exact H2).
  destruct o; cbn [enabled] in E.
  - bools. apply Y. apply copy_ok; auto.
  - bools. apply Y. apply give_ok; auto.
  - bools. apply Y. apply release_ok; auto.
  - bools. apply Y. apply askraw_ok; auto.
  - apply Y. unfold step. rewrite D. eexists. split; [reflexivity|]. split; [apply flags_ok; exact I|exact D].
  - apply Y. unfold step. rewrite D. eexists. split; [reflexivity|]. split; [apply flags_ok; exact I|exact D].
  - bools. apply Y. apply bythread_ok; auto. destruct (t_ph (thread s i)); try discriminate; reflexivity.
  - bools. apply Y. apply fromthread_ok; auto. destruct (t_ph (thread s i)); try discriminate; reflexivity.
  - bools. apply Y. apply steal_ok; auto. destruct (t_ph (thread s i)); try discriminate; reflexivity.
  - bools. apply Y. destruct (t_ph (thread s i)) as [| | |[|k t]| |] eqn:Ep; try discriminate. eapply skip_ok; eauto.
  - bools. apply Y. apply kread_ok; auto.
    + unfold free. change (nth k (kids s) (mkK false false)) with (kid_at s k). repeat match goal with H : _ (kid_at s k) = _ |- _ => rewrite H; clear H end. reflexivity.
    + destruct (t_rd (thread s i)); [discriminate|reflexivity].
    + apply reading_Rd. assumption.
  - bools. apply Y. apply kdec_ok; auto. destruct (t_rd (thread s i)); [eauto|discriminate].
  - bools. apply Y. apply kremove_ok; auto.
  - bools. apply Y. apply (addkid_ok s i); auto.
  - bools. apply Y. apply done_ok; auto. destruct (t_ph (thread s i)) as [| | |[|k t]| |]; try discriminate. reflexivity.
  - bools. apply Y. apply tomanager_ok; auto. destruct (t_ph (thread s i)); try discriminate; reflexivity.
  - bools. destruct (delete_ok s i I D H) as (s' & H1 & H2 & H3); [destruct (t_ph (thread s i)); try discriminate; reflexivity|]. exists s'. split; [exact H1|]. unfold good. rewrite H2. exact H3.
Qed.
Theorem run_good l : forall s, good s -> exists s', run true s l = Ok s' /\ good s'.
Proof.
  induction l as [|o l IH]; intros s G; cbn [run]; [eauto|]. destruct (enabled true s o) eqn:E; [|auto].
  unfold good in G. destruct (deleted s) eqn:D; [rewrite (gone_blocks s o true G D) in E; discriminate|].
  destruct (step_good s o G D E) as (s' & -> & G'). cbn [bind]. auto.
Qed.
Lemma init_good au n : good (init au n).
Proof.
  unfold good. cbn [init deleted]. assert (Z : forall f : thr -> nat, f (mkT 0 Idle None) = 0 -> sumf f (repeat (mkT 0 Idle None) n) = 0) by (intros f H; induction n; cbn [repeat sumf]; lia).
  constructor; unfold Sh, Ph, Rd; cbn [init cnt thrs kids duty ost auto asked late sumf t_h t_ph t_rd]; rewrite ?Z by reflexivity; cbn; auto; try discriminate; try congruence; try lia.
  intros k. rewrite Z by reflexivity. lia.
Qed.

(* ---- progress: nobody gets stuck half way ---- *)
Definition todo (p : phase) : list nat := match p with Clean t => t | _ => [] end.
Definition tidy (s : st) : Prop :=
  Forall (fun t => Forall (fun k => k < length (kids s) /\ k_list (kid_at s k) = false) (todo (t_ph t))) (thrs s).
Definition keeps (a b : list kid) : Prop :=
  length a <= length b /\ forall k, k < length a -> k_list (nth k a (mkK false false)) = false -> k_list (nth k b (mkK false false)) = false.
Lemma keeps_refl a : keeps a a. Proof. split; auto. Qed.
Lemma keeps_upd a k x : k_list x = false \/ k_list x = k_list (nth k a (mkK false false)) -> keeps a (upd a k x).
Proof.
  intros H. split; [rewrite upd_length; lia|]. intros n L Hn. rewrite nth_upd_eq. destruct (Nat.eqb_spec n k) as [->|N]; cbn [andb]; [|exact Hn].
  destruct (_ <? _); [|exact Hn]. destruct H as [H|H]; congruence.
Qed.
Lemma tidy_keep s s' : tidy s -> keeps (kids s) (kids s') ->
  Forall (fun t => todo (t_ph t) = [] \/ exists t', In t' (thrs s) /\ incl (todo (t_ph t)) (todo (t_ph t'))) (thrs s') -> tidy s'.
Proof.
  intros T (K1 & K2) H. unfold tidy in *. rewrite Forall_forall in *. intros t Ht. destruct (H t Ht) as [E|(t' & I1 & I2)]; [rewrite E; constructor|].
  apply Forall_forall. intros k Hk. specialize (T t' I1). rewrite Forall_forall in T. specialize (T k (I2 k Hk)). destruct T as (T1 & T2). split; [lia|]. apply K2; assumption.
Qed.
Lemma in_upd {A} (l : list A) i y x : In x (upd l i y) -> x = y \/ In x l.
Proof. revert i. induction l as [|a l IH]; intros [|i]; cbn [upd In]; intros H; auto; destruct H as [H|H]; auto. destruct (IH i H); auto. Qed.
Definition same_todo (l l' : list thr) : Prop :=
  Forall (fun t => todo (t_ph t) = [] \/ exists t', In t' l /\ incl (todo (t_ph t)) (todo (t_ph t'))) l'.
Lemma same_refl l : same_todo l l.
Proof. apply Forall_forall. intros t H. right. exists t. split; [exact H|]. apply incl_refl. Qed.
Lemma same_upd l l' i h p r : same_todo l l' -> (todo p = [] \/ exists t', In t' l /\ incl (todo p) (todo (t_ph t'))) -> same_todo l (upd l' i (mkT h p r)).
Proof. intros H Hp. unfold same_todo in *. rewrite Forall_forall in *. intros t Ht. apply in_upd in Ht. destruct Ht as [->|Ht]; [exact Hp|auto]. Qed.
Lemma same_self l l' i : same_todo l l' -> todo (t_ph (nth i l' (mkT 0 Idle None))) = [] \/ exists t', In t' l /\ incl (todo (t_ph (nth i l' (mkT 0 Idle None)))) (todo (t_ph t')).
Proof. intros H. unfold same_todo in H. rewrite Forall_forall in H. destruct (Nat.lt_ge_cases i (length l')) as [L|L]; [apply H; apply nth_In; exact L|]. rewrite nth_overflow by exact L. left. reflexivity. Qed.
Lemma dec_frame s a d f s' o : dec s a d f = Ok (s', o) -> kids s' = kids s /\ thrs s' = thrs s.
Proof.
  unfold dec. intros H. destruct d; [destruct (cnt s); [discriminate|]|]; destruct (ost s); repeat match type of H with context [if ?c then _ else _] => destruct c end; injection H as <- <-; split; reflexivity.
Qed.
Lemma continue_frame s i o s' l : continue s i o = Ok s' -> same_todo l (thrs s) -> kids s' = kids s /\ same_todo l (thrs s').
Proof.
  unfold continue. intros H Hs. destruct o; [injection H as <-; auto|..]; (destruct (t_ph (thread s i)); try discriminate; injection H as <-; split; [reflexivity|]; apply same_upd; auto).
Qed.
Lemma tidy_step s o s' : tidy s -> step s o = Ok s' -> tidy s'.
Proof.
  intros T H. unfold step in H. destruct (deleted s); [discriminate|].
  assert (R0 := same_refl (thrs s)). assert (Ra : forall s1 i, same_todo (thrs s) (thrs s1) -> same_todo (thrs s) (thrs (add_h s1 i))) by (intros s1 i0 Q; apply same_upd; [exact Q|]; apply same_self; exact Q).
  assert (Rs : forall s1 i, same_todo (thrs s) (thrs s1) -> same_todo (thrs s) (thrs (sub_h s1 i))) by (intros s1 i0 Q; apply same_upd; [exact Q|]; apply same_self; exact Q).
  assert (Rr : forall s1 i r, same_todo (thrs s) (thrs s1) -> same_todo (thrs s) (thrs (set_rd s1 i r))) by (intros s1 i0 r Q; apply same_upd; [exact Q|]; apply same_self; exact Q).
  assert (Rp : forall s1 i p, todo p = [] -> same_todo (thrs s) (thrs s1) -> same_todo (thrs s) (thrs (set_ph s1 i p))) by (intros s1 i0 p E Q; apply same_upd; auto).
  assert (Fin : forall s1, keeps (kids s) (kids s1) -> same_todo (thrs s) (thrs s1) -> tidy s1) by (intros; eapply tidy_keep; eauto).
  destruct o.
  - unfold inc in H. destruct (ost s); try discriminate; injection H as <-; apply Fin; [apply keeps_refl|apply (Ra (w_obj s _ _)); exact R0|apply keeps_refl|apply (Ra (w_obj s _ _)); exact R0|apply keeps_refl|apply (Ra (w_obj s _ _)); exact R0|apply keeps_refl|apply (Ra (w_obj s _ _)); exact R0].
  - injection H as <-. apply Fin; [apply keeps_refl|]. apply Ra, Rs, R0.
  - destruct (dec _ _ _ _) as [[s1 o1]| |] eqn:E; try discriminate. cbn [bind] in H. apply dec_frame in E. destruct E as (E1 & E2). apply (continue_frame _ _ _ _ (thrs s)) in H; [|apply Rs; rewrite E2; exact R0]. destruct H as (H1 & H2). apply Fin; [|exact H2]. rewrite H1. cbn [sub_h w_thr kids]. rewrite E1. apply keeps_refl.
  - destruct (dec _ _ _ _) as [[s1 o1]| |] eqn:E; try discriminate. cbn [bind] in H. apply dec_frame in E. destruct E as (E1 & E2). apply (continue_frame _ _ _ _ (thrs s)) in H; [|rewrite E2; exact R0]. destruct H as (H1 & H2). apply Fin; [|exact H2]. rewrite H1, E1. apply keeps_refl.
  - injection H as <-. apply Fin; [apply keeps_refl|exact R0].
  - injection H as <-. apply Fin; [apply keeps_refl|exact R0].
  - destruct accept; injection H as <-; apply Fin; try apply keeps_refl; [apply (Rp s); auto|apply (Rp (w_obj s _ _)); auto].
  - destruct (dec _ _ _ _) as [[s1 o1]| |] eqn:E; try discriminate. cbn [bind] in H. apply dec_frame in E. destruct E as (E1 & E2). apply (continue_frame _ _ _ _ (thrs s)) in H; [|rewrite E2; exact R0]. destruct H as (H1 & H2). apply Fin; [|exact H2]. rewrite H1, E1. apply keeps_refl.
  - injection H as <-. unfold tidy. apply Forall_forall. intros t Ht. apply in_upd in Ht. cbn [set_ph w_thr w_kids kids thrs kid_at] in *.
    assert (Kl : forall k, k < length (kids s) -> k < length (map (fun k0 => mkK false (k_slot k0)) (kids s)) /\ k_list (nth k (map (fun k0 => mkK false (k_slot k0)) (kids s)) (mkK false false)) = false).
    { intros k Lk. split; [rewrite map_length; exact Lk|]. change (mkK false false) with ((fun k0 => mkK false (k_slot k0)) (mkK false false)). rewrite map_nth. reflexivity. }
    destruct Ht as [->|Ht].
    + cbn [t_ph todo]. assert (X : forall l n k, In k (listed l n) -> n <= k < n + length l).
      { induction l as [|a l IH]; intros n k Hk; cbn [listed length] in *; [destruct Hk|]. destruct (k_list a); cbn [app In] in Hk; [destruct Hk as [<-|Hk]; [lia|]|]; specialize (IH _ _ Hk); lia. }
      apply Forall_forall. intros k Hk. specialize (X _ _ _ Hk). apply Kl. lia.
    + unfold tidy in T. rewrite Forall_forall in T. specialize (T t Ht). eapply Forall_impl; [|exact T]. cbn beta. intros k (Lk & _). apply Kl. exact Lk.
  - destruct (t_ph (thread s i)) as [| | |[|k t]| |] eqn:Ep; try discriminate. injection H as <-. apply Fin; [apply keeps_refl|]. apply same_upd; [exact R0|]. right. exists (thread s i).
    assert (L : i < length (thrs s)) by (destruct (Nat.lt_ge_cases i (length (thrs s))) as [L|L]; [exact L|]; unfold thread in Ep; rewrite nth_overflow in Ep by exact L; discriminate).
    split; [apply nth_In; exact L|]. rewrite Ep. cbn [todo]. apply incl_tl, incl_refl.
  - injection H as <-. apply Fin; [apply keeps_refl|apply Rr, R0].
  - destruct (t_rd (thread s i)) as [k|]; [|discriminate]. destruct (dec _ _ _ _) as [[s1 o1]| |] eqn:E; try discriminate. cbn [bind] in H. apply dec_frame in E. destruct E as (E1 & E2). apply (continue_frame _ _ _ _ (thrs s)) in H.
    + destruct H as (H1 & H2). apply Fin; [|exact H2]. rewrite H1. cbn [set_rd w_thr w_kids kids]. rewrite E1. apply keeps_upd. right. unfold kid_at. rewrite E1. reflexivity.
    + apply Rr. cbn [w_kids thrs]. rewrite E2. exact R0.
  - injection H as <-. apply Fin; [|exact R0]. apply keeps_upd. left. reflexivity.
  - cbv zeta in H. assert (X : exists s0, kids s0 = kids s /\ thrs s0 = thrs s /\ s' = w_obj (w_kids s0 (kids s0 ++ [mkK true true])) (S (cnt s0)) (ost s0)) by (destruct (ost s); injection H as <-; [exists s|exists s|exists (w_late s true)..]; auto).
    destruct X as (s0 & X1 & X2 & ->). apply Fin; cbn [w_obj w_kids kids thrs]; rewrite ?X1, ?X2; [|exact R0]. split; [rewrite app_length; lia|]. intros k Lk Hk. rewrite app_nth1 by exact Lk. exact Hk.
  - destruct (cleanup s); [|destruct (cnt s =? 0)]; injection H as <-; apply Fin; try apply keeps_refl; apply (Rp (w_obj s _ _)); auto.
  - unfold inc in H. destruct (ost s); try discriminate; injection H as <-; (apply Fin; [apply keeps_refl|]); apply Rp; auto; apply Ra, (Ra (w_obj s _ _)); exact R0.
  - injection H as <-. apply Fin; [apply keeps_refl|]. apply (Rp s); auto.
Qed.
Lemma tidy_run l : forall s s', tidy s -> run true s l = Ok s' -> tidy s'.
Proof.
  induction l as [|o l IH]; intros s s' T H; cbn [run] in H; [injection H as <-; exact T|]. destruct (enabled true s o); [|eauto].
  destruct (step s o) as [s1| |] eqn:E; try discriminate. cbn [bind] in H. eapply IH; [|exact H]. eapply tidy_step; eauto.
Qed.
Lemma tidy_init au n : tidy (init au n).
Proof. constructor; [constructor|]. apply Forall_forall. intros t Ht. apply repeat_spec in Ht. subst t. constructor. Qed.
