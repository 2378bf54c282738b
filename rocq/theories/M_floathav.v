(** Angular separation (haversine.py) in IEEE binary64 arithmetic; conventions of M_float.v and
    M_floatenu.v. *)
From Coq Require Import Reals.
From Verif Require Import PyMath M_float M_floatenu M_floatgeo.
Open Scope R_scope.

(** numpy.arcsin (mathfun.py:10-33), besides those of [libm2]. *)
Record libm3 := { l_two : libm2; l_asin : R -> R }.

Section Fl.
Variable k : libm3.
Let m := l_base (l_two k).
(** haversine.py:124-143 *)
Definition fl_haversine (theta : R) : R := fl_div (fl_sub 1 (l_cos m theta)) 2.
(** haversine.py:26-72.  [None]: the argument of sqrt or asin is outside the domain, for which
    NumPy returns nan and the math module raises ValueError. *)
Definition fl_anglesep_meeus (lon0 lat0 lon1 lat1 : R) (deg : bool) : option R :=
  let lon0 := fl_rad m deg lon0 in
  let lat0 := fl_rad m deg lat0 in
  let lon1 := fl_rad m deg lon1 in
  let lat1 := fl_rad m deg lat1 in
  let s := fl_add (fl_haversine (fl_sub lat0 lat1))
             (fl_mul (fl_mul (l_cos m lat0) (l_cos m lat1)) (fl_haversine (fl_sub lon0 lon1))) in
  if Rlt_dec s 0 then None else
  let r := fl_sqrt s in
  if Rlt_dec 1 r then None else
  let sep_rad := fl_mul 2 (l_asin k r) in
  Some (if deg then l_degrees (l_two k) sep_rad else sep_rad).
(** haversine.py:75-121, without astropy. *)
Definition fl_anglesep (lon0 lat0 lon1 lat1 : R) (deg : bool) : option R :=
  let lon0 := fl_rad m deg lon0 in
  let lat0 := fl_rad m deg lat0 in
  let lon1 := fl_rad m deg lon1 in
  let lat1 := fl_rad m deg lat1 in
  match fl_anglesep_meeus lon0 lat0 lon1 lat1 false with
  | Some sep_rad => Some (if deg then l_degrees (l_two k) sep_rad else sep_rad)
  | None => None
  end.
End Fl.
