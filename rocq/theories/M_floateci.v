(** The ECI/ECEF rotation (earth_orientation.py, eci.py) in IEEE binary64 arithmetic; conventions of M_float.v and M_floatsid.v.
    [sum] is Python's built-in sum of three floats: plain left-to-right additions before Python 3.12, compensated since. *)
From Coq Require Import Reals ZArith.
From Verif Require Import PyMath M_time M_frames M_earth M_float M_floatenu M_floattime M_floatsid.
Open Scope R_scope.

Section Fl.
Variable m : libm.
Variables sq cube : R -> R.
Variable sum : R -> R -> R -> R.
(** earth_orientation.py:206-221 *)
Definition fl_rotation_x (angle : R) : mat3 :=
  let c := l_cos m angle in let s := l_sin m angle in
  ((1, 0, 0), (0, c, s), (0, - s, c)).
Definition fl_rotation_y (angle : R) : mat3 :=
  let c := l_cos m angle in let s := l_sin m angle in
  ((c, 0, - s), (0, 1, 0), (s, 0, c)).
Definition fl_rotation_z (angle : R) : mat3 :=
  let c := l_cos m angle in let s := l_sin m angle in
  ((c, s, 0), (- s, c, 0), (0, 0, 1)).
(** earth_orientation.py:224-229 *)
Definition fl_matmul3 (a b : mat3) : mat3 :=
  tup3 (fun i => tup3 (fun j => sum (fl_mul (m_at a i 0) (m_at b 0 j)) (fl_mul (m_at a i 1) (m_at b 1 j)) (fl_mul (m_at a i 2) (m_at b 2 j)))).
(** earth_orientation.py:244-247 *)
Definition fl_matvec3 (a : mat3) (v : vec3) : vec3 :=
  tup3 (fun i => sum (fl_mul (m_at a i 0) (v_at v 0)) (fl_mul (m_at a i 1) (v_at v 1)) (fl_mul (m_at a i 2) (v_at v 2))).
(** earth_orientation.py:256-267 *)
Definition fl_precession_matrix (ttt : R) : mat3 :=
  let zeta := fl_mul (fl_add (fl_add (fl_mul (rnd 2306.2181) ttt) (fl_mul (rnd 0.30188) (sq ttt))) (fl_mul (rnd 0.017998) (cube ttt))) fl_ARCSEC2RAD in
  let theta := fl_mul (fl_sub (fl_sub (fl_mul (rnd 2004.3109) ttt) (fl_mul (rnd 0.42665) (sq ttt))) (fl_mul (rnd 0.041833) (cube ttt))) fl_ARCSEC2RAD in
  let zed := fl_mul (fl_add (fl_add (fl_mul (rnd 2306.2181) ttt) (fl_mul (rnd 1.09468) (sq ttt))) (fl_mul (rnd 0.018203) (cube ttt))) fl_ARCSEC2RAD in
  fl_matmul3 (fl_rotation_z (- zed)) (fl_matmul3 (fl_rotation_y theta) (fl_rotation_z (- zeta))).
(** earth_orientation.py:270-277 *)
Definition fl_nutation_matrix (ttt : R) : mat3 :=
  let '(dpsi, deps) := fl_nutation_short m sq cube ttt in
  let eps0 := fl_mean_obliquity sq cube ttt in
  let eps := fl_add eps0 deps in
  fl_matmul3 (fl_rotation_x (- eps)) (fl_matmul3 (fl_rotation_z (- dpsi)) (fl_rotation_x eps0)).
(** earth_orientation.py:280-285 *)
Definition fl_polar_motion_matrix (xp_arcsec yp_arcsec : R) : mat3 :=
  let xp := fl_mul xp_arcsec fl_ARCSEC2RAD in
  let yp := fl_mul yp_arcsec fl_ARCSEC2RAD in
  fl_matmul3 (fl_rotation_y xp) (fl_rotation_x yp).
(** earth_orientation.py:288-314 *)
Definition fl_eci_to_ecef_matrix (time : datetime) (delta_ut1 xp yp : R) : result mat3 :=
  bind (bind (utc_with_offset time delta_ut1) fl_juliandate) (fun jd_ut1 =>
  bind (bind (utc_to_tt time) fl_juliandate) (fun jd_tt =>
  let ttt := fl_julian_centuries jd_tt in
  let p := fl_precession_matrix ttt in
  let n := fl_nutation_matrix ttt in
  let st := fl_rotation_z (fl_apparent_sidereal_time m sq cube jd_ut1 jd_tt) in
  let pm := fl_polar_motion_matrix xp yp in
  Ok (fl_matmul3 pm (fl_matmul3 st (fl_matmul3 n p))))).
(** eci.py:27-79 with 99-116 and 394-416, scalar arguments, astropy absent: NumPy only packs and unpacks the coordinates. *)
Definition fl_eci2ecef (x y z : R) (time : datetime) (delta_ut1 xp yp : R) : result vec3 :=
  bind (fl_eci_to_ecef_matrix time delta_ut1 xp yp) (fun rotation =>
  Ok (fl_matvec3 rotation (x, y, z))).
(** eci.py:119-170 with 184-199; transposing does no arithmetic. *)
Definition fl_ecef2eci (x y z : R) (time : datetime) (delta_ut1 xp yp : R) : result vec3 :=
  bind (fl_eci_to_ecef_matrix time delta_ut1 xp yp) (fun m =>
  Ok (fl_matvec3 (eo_transpose3 m) (x, y, z))).
(** earth_orientation.py:232-241 *)
Definition fl_matsub3 (a b : mat3) : mat3 :=
  tup3 (fun i => tup3 (fun j => fl_sub (m_at a i j) (m_at b i j))).
Definition fl_matscale3 (a : mat3) (scale : R) : mat3 :=
  tup3 (fun i => tup3 (fun j => fl_mul scale (m_at a i j))).
(** earth_orientation.py:317-335 with the default dt_seconds = 0.5 *)
Definition fl_eci_to_ecef_matrix_rate (time : datetime) (delta_ut1 xp yp : R) : result mat3 :=
  let dt := timedelta_seconds 0.5 in
  bind (bind (dt_add time dt) (fun t => fl_eci_to_ecef_matrix t delta_ut1 xp yp)) (fun c_plus =>
  bind (bind (dt_add time (- dt)) (fun t => fl_eci_to_ecef_matrix t delta_ut1 xp yp)) (fun c_minus =>
  Ok (fl_matscale3 (fl_matsub3 c_plus c_minus) (fl_div 1 (fl_mul 2 0.5))))).
(** eci.py:202-239 with 268-295 and 495-499, scalar arguments *)
Definition fl_eci2ecef_state (p v : vec3) (t : datetime) (delta_ut1 xp yp : R) : result (vec3 * vec3) :=
  bind (fl_eci_to_ecef_matrix t delta_ut1 xp yp) (fun rotation =>
  bind (fl_eci_to_ecef_matrix_rate t delta_ut1 xp yp) (fun rotation_rate =>
  let position := fl_matvec3 rotation p in
  let spin := fl_matvec3 rotation_rate p in
  let rotated_velocity := fl_matvec3 rotation v in
  let velocity := tup3 (fun i => fl_add (v_at rotated_velocity i) (v_at spin i)) in
  Ok (position, velocity))).
(** eci.py:298-335 with 364-391 and 487-493, scalar arguments *)
Definition fl_ecef2eci_state (p v : vec3) (t : datetime) (delta_ut1 xp yp : R) : result (vec3 * vec3) :=
  bind (fl_eci_to_ecef_matrix t delta_ut1 xp yp) (fun rotation =>
  bind (fl_eci_to_ecef_matrix_rate t delta_ut1 xp yp) (fun rotation_rate =>
  let position := fl_matvec3 (eo_transpose3 rotation) p in
  let coriolis := fl_matvec3 rotation_rate position in
  let velocity := fl_matvec3 (eo_transpose3 rotation)
    (fl_sub (v_at v 0) (v_at coriolis 0), fl_sub (v_at v 1) (v_at coriolis 1), fl_sub (v_at v 2) (v_at coriolis 2)) in
  Ok (position, velocity))).
End Fl.
