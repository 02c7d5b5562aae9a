From Verif Require Import Common TrigModel.
Open Scope Z_scope.
Lemma s32_small z : -2^31 <= z < 2^31 -> s32 (u32 z) = z.
Proof. intros H. unfold s32, u32. change (2^31) with 2147483648 in *. change (2^32) with 4294967296. lia. Qed.
Lemma s32_id z : -2^31 <= z < 2^31 -> s32 z = z.
Proof. intros H. unfold s32. change (2^31) with 2147483648 in *. change (2^32) with 4294967296. lia. Qed.

Lemma trig_diff_eq max prev next : 0 < max < 2^31 -> 0 <= prev < max -> 0 <= next < max ->
  trig_diff max prev next =
  if max / 2 <? next - prev then next - prev - max
  else if next - prev <? - (max / 2) then next - prev + max else next - prev.
Proof.
  intros M P N. unfold trig_diff. cbv zeta. rewrite (s32_small (next - prev)) by lia. rewrite (s32_id max) by lia.
  rewrite Z.quot_div_nonneg by lia. replace (-2) with (-(2)) by lia. rewrite Z.quot_opp_r by lia. rewrite Z.quot_div_nonneg by lia.
  destruct (Z.ltb_spec (max / 2) (next - prev)); [apply s32_small; lia|].
  destruct (Z.ltb_spec (next - prev) (- (max / 2))); [apply s32_small; lia|reflexivity].
Qed.

Lemma trig_diff_spec max prev next : 0 < max < 2^31 -> 0 <= prev < max -> 0 <= next < max ->
  (exists k, trig_diff max prev next = next - prev + k * max) /\ 2 * Z.abs (trig_diff max prev next) <= max.
Proof.
  intros M P N. rewrite trig_diff_eq by auto.
  destruct (Z.ltb_spec (max / 2) (next - prev)); [split; [exists (-1); lia|lia]|].
  destruct (Z.ltb_spec (next - prev) (- (max / 2))); [split; [exists 1; lia|lia]|].
  split; [exists 0; lia|lia].
Qed.
Lemma trig_diff_min max prev next k : 0 < max < 2^31 -> 0 <= prev < max -> 0 <= next < max ->
  Z.abs (trig_diff max prev next) <= Z.abs (next - prev + k * max).
Proof.
  intros M P N. destruct (trig_diff_spec max prev next M P N) as ((j & E) & B). rewrite E in *.
  assert (C : k = j \/ k < j \/ j < k) by lia. destruct C as [-> |[C|C]]; [lia| |].
  - assert (next - prev + k * max <= next - prev + j * max - max) by nia. lia.
  - assert (next - prev + j * max + max <= next - prev + k * max) by nia. lia.
Qed.
Lemma trig_diff_anti max prev next : 0 < max < 2^31 -> 0 <= prev < max -> 0 <= next < max ->
  trig_diff max next prev = - trig_diff max prev next.
Proof.
  intros M P N. rewrite !trig_diff_eq by auto.
  destruct (Z.ltb_spec (max / 2) (next - prev)); destruct (Z.ltb_spec (next - prev) (- (max / 2)));
  destruct (Z.ltb_spec (max / 2) (prev - next)); destruct (Z.ltb_spec (prev - next) (- (max / 2))); lia.
Qed.
