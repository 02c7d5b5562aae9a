(* dabc::Average, statistic.h:118-143, statistic.cxx:301-372: number, sums, minimum, maximum
   and histogram of a sequence of values.  The code calculates with doubles; the model is
   written for any arithmetic, with two instances: exact rational numbers, and IEEE binary64
   (SpecFloat of the standard library, rounding to nearest even).  Counters (long) do not
   overflow. *)
From Coq Require Import SpecFloat.
From Verif Require Import Common HistSpec.
Local Open Scope Z_scope.

Record arith : Type := mkA {
  T : Type;
  lt : T -> T -> bool;
  le : T -> T -> bool;
  zero : T; half : T;
  add : T -> T -> T; sub : T -> T -> T; mul : T -> T -> T; div : T -> T -> T;
  of_Z : Z -> T;
  lrint : T -> option Z            (* None: the result is not specified *)
}.

(* rounding of p/d to the nearest integer, the even one of two *)
Definition rne (p d : Z) : Z :=
  let q := p / d in let r := p mod d in
  if 2 * r <? d then q else if d <? 2 * r then q + 1 else if Z.even q then q else q + 1.
Definition exact : arith := {|
  T := Q;
  lt x y := negb (Qle_bool y x);
  le := Qle_bool;
  zero := 0%Q; half := (1 # 2)%Q;
  add := Qplus; sub := Qminus; mul := Qmult; div := Qdiv;
  of_Z := inject_Z;
  lrint q := Some (rne (Qnum q) (Zpos (Qden q)))
|}.
(* lrint with a long of 64 bits *)
Definition d_lrint (x : spec_float) : option Z :=
  match x with
  | S754_zero _ => Some 0
  | S754_infinity _ | S754_nan => None
  | S754_finite s m e =>
    let p := if s then Zneg m else Zpos m in
    let z := if 0 <=? e then p * 2 ^ e else rne p (2 ^ (- e)) in
    if (- 2 ^ 63 <=? z) && (z <? 2 ^ 63) then Some z else None
  end.
Definition double : arith := {|
  T := spec_float;
  lt := SFltb;
  le := SFleb;
  zero := S754_zero false; half := S754_finite false 4503599627370496 (-53);
  add := SFadd 53 1024; sub := SFsub 53 1024; mul := SFmul 53 1024; div := SFdiv 53 1024;
  of_Z z := binary_normalize 53 1024 z 0 false;
  lrint := d_lrint
|}.

Section Average.
Variable A : arith.

Record average : Type := mkAv {
  num : Z; sum1 : T A; sum2 : T A; min : T A; max : T A;
  hist : list Z;                   (* empty: null pointer *)
  nhist : Z; hist_min : T A; hist_max : T A
}.
(* Average, statistic.cxx:301-308 *)
Definition init : average := mkAv 0 (zero A) (zero A) (zero A) (zero A) [] 0 (zero A) (of_Z A 1).

(* AllocateHist, statistic.cxx:316-327; nbins+2 is an int *)
Definition allocate (a : average) (nbins : Z) (xmin xmax : T A) : res average :=
  let a := if (length (hist a) =? 0)%nat then a
           else mkAv (num a) (sum1 a) (sum2 a) (min a) (max a) [] 0 (hist_min a) (hist_max a) in
  if (0 <? nbins) && lt A xmin xmax then
    if 2 ^ 31 <=? nbins + 2 then UB
    else Ok (mkAv (num a) (sum1 a) (sum2 a) (min a) (max a) (repeat 0 (Z.to_nat (nbins + 2))) nbins xmin xmax)
  else Ok a.

(* Reset, statistic.cxx:330-340 *)
Definition reset (a : average) : average :=
  mkAv 0 (zero A) (zero A) (zero A) (zero A) (map (fun _ => 0) (hist a)) (nhist a) (hist_min a) (hist_max a).

(* hist[i]++ *)
Definition incr (h : list Z) (i : Z) : res (list Z) :=
  if i <? 0 then UB
  else match nth_error h (Z.to_nat i) with None => UB | Some c => Ok (upd h (Z.to_nat i) (c + 1)) end.
(* the argument of lrint, statistic.cxx:361 *)
Definition position (a : average) (z : T A) : T A :=
  add A (mul A (div A (sub A z (hist_min a)) (sub A (hist_max a) (hist_min a))) (of_Z A (nhist a))) (half A).
(* lines 357-365 *)
Definition fill_hist (a : average) (z : T A) : res (list Z) :=
  if (length (hist a) =? 0)%nat || (nhist a =? 0) then Ok (hist a)
  else if lt A z (hist_min a) then incr (hist a) 0
  else if le A (hist_max a) z then incr (hist a) (nhist a + 1)
  else match lrint A (position a z) with
       | None => UB                                                 (* any value *)
       | Some bin => if (0 <? bin) && (bin <=? nhist a) then incr (hist a) bin else Ok (hist a)
       end.
(* Fill, statistic.cxx:343-366 *)
Definition fill (a : average) (z : T A) : res average :=
  let mn := if num a =? 0 then z else if lt A (max a) z then min a else if lt A z (min a) then z else min a in
  let mx := if num a =? 0 then z else if lt A (max a) z then z else max a in
  do h <- fill_hist a z;
  Ok (mkAv (num a + 1) (add A (sum1 a) z) (add A (sum2 a) (mul A z z)) mn mx h (nhist a) (hist_min a) (hist_max a)).

(* Mean, statistic.h:127 *)
Definition mean (a : average) : T A := if 0 <? num a then div A (sum1 a) (of_Z A (num a)) else zero A.
(* Dev, statistic.cxx:368-372: the number under the root, None when there is no root *)
Definition dev_square (a : average) : option (T A) :=
  if num a <=? 1 then None
  else Some (sub A (div A (sum2 a) (of_Z A (num a))) (mul A (mean a) (mean a))).

Definition step (a : average) (o : op (T A)) : res average :=
  match o with
  | OAlloc n lo hi => allocate a n lo hi
  | OReset => Ok (reset a)
  | OFill z => fill a z
  end.
Fixpoint run (a : average) (l : list (op (T A))) : res average :=
  match l with [] => Ok a | o :: r => do a <- step a o; run a r end.
End Average.
Arguments init {A}. Arguments num {A}. Arguments sum1 {A}. Arguments sum2 {A}. Arguments min {A}. Arguments max {A}.
Arguments hist {A}. Arguments nhist {A}. Arguments hist_min {A}. Arguments hist_max {A}. Arguments mkAv {A}.
Arguments allocate {A}. Arguments reset {A}. Arguments fill {A}. Arguments mean {A}. Arguments dev_square {A}. Arguments run {A}. Arguments step {A}.
Arguments fill_hist {A}. Arguments position {A}.
