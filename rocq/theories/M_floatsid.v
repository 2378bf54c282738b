(** Apparent sidereal time (earth_orientation.py, sidereal.py) in IEEE binary64 arithmetic; conventions of M_float.v.
    [m] is the C library's sine and cosine, [sq] and [cube] its pow with exponents 2.0 and 3.0. *)
From Coq Require Import Reals ZArith.
From Verif Require Import PyMath M_time M_earth M_float M_floatenu M_floattime.
Open Scope R_scope.

(** math.pi is the double nearest to pi. *)
Definition fl_pi : R := rnd PI.
(** earth_orientation.py:8 *)
Definition fl_ARCSEC2RAD : R := fl_div fl_pi 648000.
Section Fl.
Variable m : libm.
Variables sq cube : R -> R.
(** earth_orientation.py:150-154 *)
Definition fl_mean_obliquity (ttt : R) : R :=
  let eps_arcsec := fl_add (fl_sub (fl_sub (rnd 84381.448) (fl_mul (rnd 46.8150) ttt)) (fl_mul (rnd 0.00059) (sq ttt)))
                      (fl_mul (rnd 0.001813) (cube ttt)) in
  fl_mul eps_arcsec fl_ARCSEC2RAD.
(** earth_orientation.py:171-173: degrees to radians *)
Definition fl_torad (x : R) : R := fl_div (fl_mul x fl_pi) 180.
(** earth_orientation.py:157-188 *)
Definition fl_nutation_short (ttt : R) : R * R :=
  let L := fl_mod (fl_add (rnd 280.4665) (fl_mul (rnd 36000.7698) ttt)) 360 in
  let Lp := fl_mod (fl_add (rnd 218.3165) (fl_mul (rnd 481267.8813) ttt)) 360 in
  let omega := fl_mod (fl_add (fl_add (fl_sub (rnd 125.04452) (fl_mul (rnd 1934.136261) ttt)) (fl_mul (rnd 0.0020708) (sq ttt)))
                         (fl_div (cube ttt) 450000)) 360 in
  let L := fl_torad L in
  let Lp := fl_torad Lp in
  let omega := fl_torad omega in
  let dpsi_arcsec := fl_add (fl_sub (fl_sub (fl_mul (- rnd 17.20) (l_sin m omega)) (fl_mul (rnd 1.32) (l_sin m (fl_mul 2 L))))
                               (fl_mul (rnd 0.23) (l_sin m (fl_mul 2 Lp))))
                       (fl_mul (rnd 0.21) (l_sin m (fl_mul 2 omega))) in
  let deps_arcsec := fl_sub (fl_add (fl_add (fl_mul (rnd 9.20) (l_cos m omega)) (fl_mul (rnd 0.57) (l_cos m (fl_mul 2 L))))
                               (fl_mul (rnd 0.10) (l_cos m (fl_mul 2 Lp))))
                       (fl_mul (rnd 0.09) (l_cos m (fl_mul 2 omega))) in
  (fl_mul dpsi_arcsec fl_ARCSEC2RAD, fl_mul deps_arcsec fl_ARCSEC2RAD).
(** earth_orientation.py:191-195 *)
Definition fl_equation_of_equinoxes (ttt : R) : R :=
  let '(dpsi, deps) := fl_nutation_short ttt in
  fl_mul dpsi (l_cos m (fl_add (fl_mean_obliquity ttt) deps)).
(** earth_orientation.py:198-203 *)
Definition fl_apparent_sidereal_time (jd_ut1 jd_tt : R) : R :=
  let ttt := fl_julian_centuries jd_tt in
  let gast := fl_add (fl_greenwichsrt sq cube jd_ut1) (fl_equation_of_equinoxes ttt) in
  fl_mod gast fl_tau.
(** sidereal.py:71-74 with 89-99; the offsets are added to the integer microseconds of the datetime. *)
Definition fl_datetime2sidereal (time : datetime) (lon_radians delta_ut1 : R) : result R :=
  bind (bind (utc_with_offset time delta_ut1) fl_juliandate) (fun jd_ut1 =>
  bind (bind (utc_to_tt time) fl_juliandate) (fun jd_tt =>
  let gst := fl_apparent_sidereal_time jd_ut1 jd_tt in
  Ok (fl_mod (fl_add gst lon_radians) fl_tau))).
End Fl.
