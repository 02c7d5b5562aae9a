(* Trigger number arithmetic: CombinerModule::CalcTrigNumDiff
   plugins/hadaq/src/CombinerModule.cxx:612-618 and SorterModule::Diff
   plugins/hadaq/hadaq/SorterModule.h:86-92. *)
From Verif Require Import Common.
Open Scope Z_scope.

(* conversion of an integer to 32-bit int and to uint32_t *)
Definition s32 (z : Z) : Z := (z + 2^31) mod 2^32 - 2^31.
Definition u32 (z : Z) : Z := z mod 2^32.

(* [(int) next - prev] is computed as uint32_t and converted to int, as are the
   corrections by the unsigned range; [(int) max / 2] and [/ -2] are int divisions *)
Definition trig_diff (max prev next : Z) : Z :=
  let res := s32 (u32 (next - prev)) in
  if Z.quot (s32 max) 2 <? res then s32 (u32 (res - max))
  else if res <? Z.quot (s32 max) (-2) then s32 (u32 (res + max))
  else res.
