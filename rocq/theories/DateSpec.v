(* The calendar and the texts of dates and times. *)
From Coq Require Import ZArith.
From Verif Require Import Common Bytes DecStr.
Open Scope Z_scope.

(* Gregorian calendar *)
Definition leap (y : Z) : bool := (y mod 4 =? 0) && (negb (y mod 100 =? 0) || (y mod 400 =? 0)).
Definition month_len (y m : Z) : Z :=
  if m =? 2 then (if leap y then 29 else 28)
  else if (m =? 4) || (m =? 6) || (m =? 9) || (m =? 11) then 30 else 31.
Definition year_len (y : Z) : Z := if leap y then 366 else 365.
(* days before the month *)
Definition month_start (y m : Z) : Z :=
  (if m <=? 1 then 0 else if m =? 2 then 31 else if m =? 3 then 59 else if m =? 4 then 90 else if m =? 5 then 120 else if m =? 6 then 151
   else if m =? 7 then 181 else if m =? 8 then 212 else if m =? 9 then 243 else if m =? 10 then 273 else if m =? 11 then 304 else 334)
  + (if (2 <? m) && leap y then 1 else 0).
(* days from 1970-01-01 to the first day of a year *)
Definition year_start (y : Z) : Z := 365 * (y - 1970) + ((y - 1) / 4 - (y - 1) / 100 + (y - 1) / 400 - 477).
Definition day_number (y m d : Z) : Z := year_start y + month_start y m + (d - 1).
Record date : Type := mkDate { d_year : Z; d_mon : Z; d_day : Z }.
Definition is_date (x : date) : Prop := 1 <= d_mon x <= 12 /\ 1 <= d_day x <= month_len (d_year x) (d_mon x).

(* a number with at least [w] digits *)
Definition pad (w : nat) (n : N) : bytes := repeat 48%N (w - length (dec n)) ++ dec n.
(* yyyy-mm-dd and hh:mm:ss of a second of the day *)
Definition date_text (x : date) : bytes := dec (Z.to_N (d_year x)) ++ [45%N] ++ pad 2 (Z.to_N (d_mon x)) ++ [45%N] ++ pad 2 (Z.to_N (d_day x)).
Definition time_text (s : Z) : bytes := pad 2 (Z.to_N (s / 3600)) ++ [58%N] ++ pad 2 (Z.to_N (s / 60 mod 60)) ++ [58%N] ++ pad 2 (Z.to_N (s mod 60)).
(* fraction with n digits, nothing when it is zero *)
Definition frac_text (n : nat) (f : Z) : bytes := if f =? 0 then [] else [46%N] ++ pad n (Z.to_N f).

(* the text of r units of 10^-n seconds since 1970 *)
Definition text_of (sep tail : bytes) (n : nat) (r : Z) (s : bytes) : Prop :=
  exists x, is_date x /\ day_number (d_year x) (d_mon x) (d_day x) = r / 10 ^ Z.of_nat n / 86400 /\
  s = date_text x ++ sep ++ time_text (r / 10 ^ Z.of_nat n mod 86400) ++ frac_text n (r mod 10 ^ Z.of_nat n) ++ tail.
