(** ECEF to geodetic coordinates (ecef.py) in IEEE binary64 arithmetic; conventions of
    M_float.v and M_floatenu.v.  The array version evaluates the same expressions (its
    special cases near the axis are not modelled here). *)
From Coq Require Import Reals.
From Verif Require Import PyMath M_ellipsoid M_ecef M_float M_floatenu.
Open Scope R_scope.

(** numpy.arctan, arctan2, tan, degrees (mathfun.py:10-33), besides those of [libm]. *)
Record libm2 := { l_base : libm; l_atan : R -> R; l_atan2 : R -> R -> R; l_tan : R -> R; l_degrees : R -> R }.

Section Fl.
Variable k : libm2.
Let m := l_base k.
(** sqrt is correctly rounded (IEEE 754). *)
Definition fl_sqrt (x : R) : R := rnd (sqrt x).

(** ecef.py:130-132 *)
Definition fl_E (e : Ellipsoid) : R :=
  fl_sqrt (fl_sub (l_sq m (rnd (semimajor_axis e))) (l_sq m (rnd (semiminor_axis e)))).
(** ecef.py:130-135 *)
Definition fl_u (e : Ellipsoid) (x y z : R) : R :=
  let r := fl_sqrt (fl_add (fl_add (l_sq m x) (l_sq m y)) (l_sq m z)) in
  let E := fl_E e in
  let d := fl_sub (l_sq m r) (l_sq m E) in
  fl_sqrt (fl_add (fl_mul (1 / 2) d) (fl_mul (1 / 2) (l_hypot m d (fl_mul (fl_mul 2 E) z)))).
(** ecef.py:212-228; a division by zero raises and leads to the [except] branch. *)
Definition fl_beta (e : Ellipsoid) (x y z : R) : R :=
  let a := rnd (semimajor_axis e) in
  let b := rnd (semiminor_axis e) in
  let E := fl_E e in
  let u := fl_u e x y z in
  let hxy := l_hypot m x y in
  let huE := l_hypot m u E in
  let pole := if isclose0 z then 0 else if Rlt_dec 0 z then rnd (rnd PI / 2) else - rnd (rnd PI / 2) in
  if Req_EM_T u 0 then pole else
  if Req_EM_T hxy 0 then pole else
  let Beta := l_atan k (fl_div (fl_mul (fl_div huE u) z) hxy) in
  if Req_EM_T (l_cos m Beta) 0 then pole else
  let den := fl_sub (fl_div (fl_mul (fl_mul a huE) 1) (l_cos m Beta)) (fl_mul (l_sq m E) (l_cos m Beta)) in
  if Req_EM_T den 0 then pole else
  fl_add Beta
    (fl_div (fl_mul (fl_add (fl_sub (fl_mul b u) (fl_mul a huE)) (l_sq m E)) (l_sin m Beta)) den).
(** ecef.py:149-156 *)
Definition fl_inside (e : Ellipsoid) (x y z : R) : bool :=
  let a2 := l_sq m (rnd (semimajor_axis e)) in
  let b2 := l_sq m (rnd (semiminor_axis e)) in
  if Rlt_dec (fl_add (fl_add (fl_div (l_sq m x) a2) (fl_div (l_sq m y) a2)) (fl_div (l_sq m z) b2)) 1 then true else false.
(** ecef.py:230-253 *)
Definition fl_ecef2geodetic (x y z : R) (ell : option Ellipsoid) (deg : bool) : vec3 :=
  let e := resolve_ellipsoid ell in
  let a := rnd (semimajor_axis e) in
  let b := rnd (semiminor_axis e) in
  let Beta := fl_beta e x y z in
  let lat := l_atan k (fl_mul (fl_div a b) (l_tan k Beta)) in
  let alt := l_hypot m (fl_sub z (fl_mul b (l_sin m Beta))) (fl_sub (l_hypot m x y) (fl_mul a (l_cos m Beta))) in
  let alt := if fl_inside e x y z then - alt else alt in
  let lon := l_atan2 k y x in
  (if deg then l_degrees k lat else lat, if deg then l_degrees k lon else lon, alt).
End Fl.
