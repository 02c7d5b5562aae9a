(* dabc::DateTime, timing.h:190-258 and timing.cxx:158-330, in GMT.  gmtime_r, timegm,
   strftime and sscanf are modelled after their documentation; localtime is not modelled.
   time_t has 64 bit, unsigned and int 32. *)
From Coq Require Import ZArith.
From Verif Require Import Common Bytes DecStr DateSpec.
Open Scope Z_scope.

Record dt : Type := mkDT { t_sec : Z; t_nsec : Z }.
(* timing.h:210 *)
Definition is_null (t : dt) : bool := (t_sec t =? 0) && (t_nsec t =? 0).
(* AsJSDate, timing.cxx:158-161, uint64_t *)
Definition as_js (t : dt) : Z := (t_sec t * 1000 + t_nsec t / 1000000) mod 2^64.
(* SetJSDate, timing.h:224-228 *)
Definition set_js (j : Z) : dt := mkDT ((j / 1000) mod 2^32) (((j mod 1000) * 1000000) mod 2^32).

(* struct tm as used here: year, month 1.., day, hour, minute, second *)
Record tm : Type := mkTM { m_date : date; m_hour : Z; m_min : Z; m_sec : Z }.
(* gmtime_r: the year and then the month are searched *)
Fixpoint find_year (fuel : nat) (y days : Z) : Z * Z :=
  match fuel with O => (y, days) | S k => if days <? year_len y then (y, days) else find_year k (y + 1) (days - year_len y) end.
Fixpoint find_month (fuel : nat) (y m days : Z) : Z * Z :=
  match fuel with O => (m, days) | S k => if days <? month_len y m then (m, days) else find_month k y (m + 1) (days - month_len y m) end.
Definition civil (days : Z) : date :=
  let (y, r) := find_year (S (Z.to_nat (days / 365))) 1970 days in
  let (m, r) := find_month 12 y 1 r in mkDate y m (r + 1).
Definition gmtime (t : Z) : tm := mkTM (civil (t / 86400)) (t mod 86400 / 3600) (t mod 86400 / 60 mod 60) (t mod 60).
(* timegm: days outside of the month are carried *)
Definition timegm (x : tm) : Z :=
  day_number (d_year (m_date x)) (d_mon (m_date x)) (d_day (m_date x)) * 86400 + m_hour x * 3600 + m_min x * 60 + m_sec x.
(* strftime %Y-%m-%d and %H:%M:%S *)
Definition fmt_date (sep : bytes) (x : tm) : bytes := dec (Z.to_N (d_year (m_date x))) ++ sep ++ pad 2 (Z.to_N (d_mon (m_date x))) ++ sep ++ pad 2 (Z.to_N (d_day (m_date x))).
Definition fmt_time (sep : bytes) (x : tm) : bytes := pad 2 (Z.to_N (m_hour x)) ++ sep ++ pad 2 (Z.to_N (m_min x)) ++ sep ++ pad 2 (Z.to_N (m_sec x)).

(* the rounding loop 176-181; both values *)
Fixpoint round_loop (steps : nat) (frac maxfrac : Z) : Z * Z :=
  match steps with
  | O => (frac, maxfrac)
  | S k => round_loop k (frac / 10 + (if 5 <=? frac mod 10 then 1 else 0)) (maxfrac / 10)
  end.
(* 168-183: seconds and fraction *)
Definition rounded (t : dt) (nd : nat) : Z * Z :=
  if (0 <? nd)%nat && (0 <? t_nsec t) then
    let '(frac, maxfrac) := round_loop (9 - nd) (t_nsec t) 1000000000 in
    if maxfrac <=? frac then (t_sec t + 1, 0) else (t_sec t, frac)
  else (t_sec t, 0).
(* ndecimal is limited, 172 *)
Definition limit (nd : nat) : nat := if (9 <? nd)%nat then 9 else nd.
(* AsString 164-204; the text always fits in the 50 bytes for years of four digits: 19
   characters, so that remain is 31 *)
Definition as_string (t : dt) (nd : nat) : bytes :=
  if is_null t then []
  else
    let nd := limit nd in
    let '(src, frac) := rounded t nd in
    let text := fmt_date [45%N] (gmtime src) ++ [32%N] ++ fmt_time [58%N] (gmtime src) in
    text ++ (if (0 <? frac) && (nd + 1 <? 50 - length text)%nat then [46%N] ++ pad nd (Z.to_N frac) else []).
(* AsJSString 212-254 *)
Definition as_js_string (t : dt) (nd : nat) : bytes :=
  if is_null t then []
  else
    let nd := limit nd in
    let '(src, frac) := rounded t nd in
    let text := fmt_date [45%N] (gmtime src) ++ [84%N] ++ fmt_time [58%N] (gmtime src) in
    let rlen := length text in
    let text := text ++ (if (0 <? frac) && (nd + 1 + rlen <? 50 - rlen)%nat then [46%N] ++ pad nd (Z.to_N frac) else []) in
    if (49 <=? length text)%nat then [] else text ++ [90%N].

(* OnlyDateAsString 257-271 and OnlyTimeAsString 273-287 with the default separators *)
Definition only_date (t : dt) : bytes := if is_null t then [] else fmt_date [45%N] (gmtime (t_sec t)).
Definition only_time (t : dt) : bytes := if is_null t then [] else fmt_time [58%N] (gmtime (t_sec t)).

(* sscanf %<w>u: white space is skipped, then at most w characters; the value of so few
   digits fits; after a minus it is negated *)
Fixpoint scan_n (w : nat) (l : bytes) (v : N) (any : bool) : N * bool * bytes :=
  match w with
  | O => (v, any, l)
  | S w => match l with
           | c :: r => if is_digit c then scan_n w r (10 * v + (c - 48))%N true else (v, any, l)
           | [] => (v, any, l)
           end
  end.
Definition scan_w (w : nat) (l : bytes) : option (N * bytes) :=
  let l := skip_space l in
  let '(neg, w, l) := match l with
                      | c :: r => if (c =? 45)%N then (true, (w - 1)%nat, r) else if (c =? 43)%N then (false, (w - 1)%nat, r) else (false, w, l)
                      | [] => (false, w, l)
                      end in
  let '(v, any, r) := scan_n w l 0 false in
  if any then Some ((if neg : bool then (2^32 - v) mod 2^32 else v)%N, r) else None.
(* a literal character of the format *)
Definition expect (c : N) (l : bytes) : option bytes := match l with x :: r => if (x =? c)%N then Some r else None | [] => None end.
Definition scan3 (w : nat) (c : N) (l : bytes) : option (N * N * N) :=
  match scan_w w l with
  | None => None
  | Some (a, l) =>
    match expect c l with
    | None => None
    | Some l =>
      match scan_w 2 l with
      | None => None
      | Some (b, l) =>
        match expect c l with
        | None => None
        | Some l => match scan_w 2 l with None => None | Some (d, _) => Some (a, b, d) end
        end
      end
    end
  end.
(* SetOnlyDate 289-306: None when false is returned *)
Definition set_only_date (t : dt) (s : bytes) : option dt :=
  if negb (length s =? 10)%nat then None
  else match scan3 4 45 s with
       | None => None
       | Some (y, m, d) =>
         if (Z.of_N y <? 1970) || (2100 <? Z.of_N y) || (12 <? Z.of_N m) || (Z.of_N m =? 0) || (31 <? Z.of_N d) || (Z.of_N d =? 0) then None
         else let x := gmtime (t_sec t) in
              Some (mkDT (timegm (mkTM (mkDate (Z.of_N y) (Z.of_N m) (Z.of_N d)) (m_hour x) (m_min x) (m_sec x)) mod 2^32) (t_nsec t))
       end.
(* SetOnlyTime 308-330; the cleared struct tm is year 1900, January, day 0 *)
Definition set_only_time (t : dt) (s : bytes) : option dt :=
  if negb (length s =? 8)%nat then None
  else match scan3 2 58 s with
       | None => None
       | Some (h, m, sec) =>
         if (23 <? Z.of_N h) || (59 <? Z.of_N m) || (59 <? Z.of_N sec) then None
         else let x := if is_null t then mkTM (mkDate 1900 1 0) 0 0 0 else gmtime (t_sec t) in
              Some (mkDT (timegm (mkTM (m_date x) (Z.of_N h) (Z.of_N m) (Z.of_N sec)) mod 2^32) (t_nsec t))
       end.
