(** Independent specification of civil time: the proleptic Gregorian calendar
    counted day by day, and instants in microseconds. *)
From Verif Require Import PyMath M_time.
From Coq Require Import Znumtheory.
Open Scope Z_scope.

(** Gregorian rule: every fourth year, except centuries not divisible by 400. *)
Definition leap_year (y : Z) : bool :=
  if Zdivide_dec 400 y then true
  else if Zdivide_dec 100 y then false
  else if Zdivide_dec 4 y then true else false.
Definition year_length (y : Z) : Z := if leap_year y then 366 else 365.
Definition month_length (y m : Z) : Z :=
  match m with
  | 2 => if leap_year y then 29 else 28
  | 4 | 6 | 9 | 11 => 30
  | _ => 31
  end.
(** Days in the years 1..n and in the months 1..n of year y. *)
Fixpoint days_of_years (n : nat) : Z :=
  match n with O => 0 | S k => days_of_years k + year_length (Z.of_nat (S k)) end.
Fixpoint days_of_months (y : Z) (n : nat) : Z :=
  match n with O => 0 | S k => days_of_months y k + month_length y (Z.of_nat (S k)) end.
(** 1 January of year 1 is day 1. *)
Definition day_number (y m d : Z) : Z :=
  days_of_years (Z.to_nat (y - 1)) + days_of_months y (Z.to_nat (m - 1)) + d.

(** Field ranges enforced by the datetime constructor. *)
Definition valid_dt (t : datetime) : Prop :=
  1 <= year t <= 9999 /\ 1 <= month t <= 12 /\ 1 <= day t <= month_length (year t) (month t) /\
  0 <= hour t <= 23 /\ 0 <= minute t <= 59 /\ 0 <= second t <= 59 /\
  0 <= microsecond t <= 999999 /\
  match tzinfo t with None => True | Some o => - 86400000000 < o < 86400000000 end.

(** UTC instant in microseconds; a datetime without timezone is UTC. *)
Definition instant (t : datetime) : Z :=
  (((day_number (year t) (month t) (day t) * 24 + hour t) * 60 + minute t) * 60 + second t)
    * 1000000 + microsecond t
  - match tzinfo t with None => 0 | Some o => o end.

Definition utc_at (y m d hh mm ss us : Z) : datetime := mkdatetime y m d hh mm ss us (Some 0).
(** The instants representable as UTC datetimes. *)
Definition first_instant : Z := instant (utc_at 1 1 1 0 0 0 0).
Definition last_instant : Z := instant (utc_at 9999 12 31 23 59 59 999999).

(** Dates (year, month) on whose first day a leap second had just been
    inserted, after the initial 10 s of 1 January 1972 (IERS Bulletin C). *)
Definition leap_second_dates : list (Z * Z) :=
  [(1972,7); (1973,1); (1974,1); (1975,1); (1976,1); (1977,1); (1978,1); (1979,1); (1980,1);
   (1981,7); (1982,7); (1983,7); (1985,7); (1988,1); (1990,1); (1991,1); (1992,7); (1993,7);
   (1994,7); (1996,1); (1997,7); (1999,1); (2006,1); (2009,1); (2012,7); (2015,7); (2017,1)].
(** TAI - UTC in seconds at a UTC instant: 10 plus one for each insertion so far. *)
Definition tai_minus_utc (i : Z) : Z :=
  10 + Z.of_nat (List.length (filter (fun '(y, m) => instant (utc_at y m 1 0 0 0 0) <=? i)
                                leap_second_dates)).
