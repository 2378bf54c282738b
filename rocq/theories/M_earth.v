(** Model of src/pymap3d/earth_orientation.py *)
From Verif Require Import PyMath M_time M_frames.
Open Scope R_scope.

(** earth_orientation.py:8 *)
Definition ARCSEC2RAD : R := PI / 648000.

(** datetime(y, m, d, tzinfo=timezone.utc) *)
Definition utc_date (y m d : Z) : datetime := mkdatetime y m d 0 0 0 0 (Some 0%Z).

(** earth_orientation.py:12-41 *)
Definition LEAP_SECONDS : list (datetime * Z) := [
  (utc_date 1972 1 1, 10%Z); (utc_date 1972 7 1, 11%Z); (utc_date 1973 1 1, 12%Z);
  (utc_date 1974 1 1, 13%Z); (utc_date 1975 1 1, 14%Z); (utc_date 1976 1 1, 15%Z);
  (utc_date 1977 1 1, 16%Z); (utc_date 1978 1 1, 17%Z); (utc_date 1979 1 1, 18%Z);
  (utc_date 1980 1 1, 19%Z); (utc_date 1981 7 1, 20%Z); (utc_date 1982 7 1, 21%Z);
  (utc_date 1983 7 1, 22%Z); (utc_date 1985 7 1, 23%Z); (utc_date 1988 1 1, 24%Z);
  (utc_date 1990 1 1, 25%Z); (utc_date 1991 1 1, 26%Z); (utc_date 1992 7 1, 27%Z);
  (utc_date 1993 7 1, 28%Z); (utc_date 1994 7 1, 29%Z); (utc_date 1996 1 1, 30%Z);
  (utc_date 1997 7 1, 31%Z); (utc_date 1999 1 1, 32%Z); (utc_date 2006 1 1, 33%Z);
  (utc_date 2009 1 1, 34%Z); (utc_date 2012 7 1, 35%Z); (utc_date 2015 7 1, 36%Z);
  (utc_date 2017 1 1, 37%Z) ].

(** earth_orientation.py:44-50 *)
Definition ensure_utc (time : datetime) : result datetime :=
  match tzinfo time with
  | None => Ok (replace_utc time)
  | Some off => astimezone_utc time off
  end.

(** earth_orientation.py:53-56 *)
Definition utc_with_offset (time : datetime) (seconds : R) : result datetime :=
  bind (ensure_utc time) (fun u => dt_add u (timedelta_seconds seconds)).

(** earth_orientation.py:65-69, the loop with its [break] *)
Fixpoint leap_loop (utc : datetime) (leaps : Z) (table : list (datetime * Z)) : Z :=
  match table with
  | [] => leaps
  | (effective, total) :: rest =>
      if dt_ge utc effective then leap_loop utc total rest else leaps
  end.
(** earth_orientation.py:59-71 *)
Definition leap_seconds (time : datetime) : result Z :=
  bind (ensure_utc time) (fun utc =>
  Ok (leap_loop utc (snd (hd (utc_date 1 1 1, 0%Z) LEAP_SECONDS)) LEAP_SECONDS)).

(** earth_orientation.py:74-77 *)
Definition utc_to_tt (time : datetime) : result datetime :=
  bind (leap_seconds time) (fun n => utc_with_offset time (IZR n + 32.184)).

(** earth_orientation.py:80-121 *)
Definition juliandate (time : datetime) : result R :=
  bind (ensure_utc time) (fun time =>
  let '(yy, mm) := if (month time <? 3)%Z then (year time - 1, month time + 12)%Z
                   else (year time, month time) in
  let A := py_int (IZR yy / 100) in
  let B := (2 - A + py_int (IZR A / 4))%Z in
  let C := (((IZR (second time) + IZR (microsecond time) / 1000000) / 60
             + IZR (minute time)) / 60 + IZR (hour time)) / 24 in
  Ok (IZR (py_int (365.25 * (IZR yy + 4716))) + IZR (py_int (30.6001 * (IZR mm + 1)))
      + IZR (day time) + IZR B - 1524.5 + C)).

(** earth_orientation.py:124-127 *)
Definition julian_centuries (jd : R) : R := (jd - 2451545.0) / 36525.0.

(** earth_orientation.py:130-141 *)
Definition greenwich_mean_sidereal_time (jd_ut1 : R) : R :=
  let t_ut1 := julian_centuries jd_ut1 in
  let gmst_sec := 67310.54841 + (876600 * 3600 + 8640184.812866) * t_ut1
                  + 0.093104 * t_ut1 ^ 2 - 0.0000062 * t_ut1 ^ 3 in
  py_mod (gmst_sec * tau / 86400.0) tau.

(** earth_orientation.py:144-147 *)
Definition earth_rotation_angle (jd_ut1 : R) : R :=
  py_mod (tau * (0.7790572732640 + 1.00273781191135448 * (jd_ut1 - 2451545.0))) tau.

(** earth_orientation.py:150-154 *)
Definition mean_obliquity (ttt : R) : R :=
  let eps_arcsec := 84381.448 - 46.8150 * ttt - 0.00059 * ttt ^ 2 + 0.001813 * ttt ^ 3 in
  eps_arcsec * ARCSEC2RAD.

(** earth_orientation.py:157-188 *)
Definition nutation_short (ttt : R) : R * R :=
  let L := py_mod (280.4665 + 36000.7698 * ttt) 360.0 in
  let Lp := py_mod (218.3165 + 481267.8813 * ttt) 360.0 in
  let omega := py_mod (125.04452 - 1934.136261 * ttt + 0.0020708 * ttt ^ 2
                       + ttt ^ 3 / 450000.0) 360.0 in
  let L := L * PI / 180.0 in
  let Lp := Lp * PI / 180.0 in
  let omega := omega * PI / 180.0 in
  let dpsi_arcsec := -17.20 * sin omega - 1.32 * sin (2.0 * L) - 0.23 * sin (2.0 * Lp)
                     + 0.21 * sin (2.0 * omega) in
  let deps_arcsec := 9.20 * cos omega + 0.57 * cos (2.0 * L) + 0.10 * cos (2.0 * Lp)
                     - 0.09 * cos (2.0 * omega) in
  (dpsi_arcsec * ARCSEC2RAD, deps_arcsec * ARCSEC2RAD).

(** earth_orientation.py:191-195 *)
Definition equation_of_equinoxes (ttt : R) : R :=
  let '(dpsi, deps) := nutation_short ttt in
  dpsi * cos (mean_obliquity ttt + deps).

(** earth_orientation.py:198-203 *)
Definition greenwich_apparent_sidereal_time (jd_ut1 jd_tt : R) : R :=
  let ttt := julian_centuries jd_tt in
  let gast := greenwich_mean_sidereal_time jd_ut1 + equation_of_equinoxes ttt in
  py_mod gast tau.

(** earth_orientation.py:206-221.  These are passive rotations, the
    transposes of the ones in frames.py. *)
Definition eo_rotation_x (angle : R) : mat3 :=
  let c := cos angle in let s := sin angle in
  ((1, 0, 0), (0, c, s), (0, - s, c)).
Definition eo_rotation_y (angle : R) : mat3 :=
  let c := cos angle in let s := sin angle in
  ((c, 0, - s), (0, 1, 0), (s, 0, c)).
Definition eo_rotation_z (angle : R) : mat3 :=
  let c := cos angle in let s := sin angle in
  ((c, s, 0), (- s, c, 0), (0, 0, 1)).

(** earth_orientation.py:224-253 *)
Definition eo_matmul3 (a b : mat3) : mat3 :=
  tup3 (fun i => tup3 (fun j => sum3 (fun k => m_at a i k * m_at b k j))).
Definition eo_matsub3 (a b : mat3) : mat3 :=
  tup3 (fun i => tup3 (fun j => m_at a i j - m_at b i j)).
Definition eo_matscale3 (a : mat3) (scale : R) : mat3 :=
  tup3 (fun i => tup3 (fun j => scale * m_at a i j)).
Definition eo_matvec3 (a : mat3) (v : vec3) : vec3 :=
  tup3 (fun i => sum3 (fun k => m_at a i k * v_at v k)).
Definition eo_transpose3 (a : mat3) : mat3 :=
  tup3 (fun i => tup3 (fun j => m_at a j i)).

(** earth_orientation.py:256-267 *)
Definition precession_matrix (ttt : R) : mat3 :=
  let zeta := (2306.2181 * ttt + 0.30188 * ttt ^ 2 + 0.017998 * ttt ^ 3) * ARCSEC2RAD in
  let theta := (2004.3109 * ttt - 0.42665 * ttt ^ 2 - 0.041833 * ttt ^ 3) * ARCSEC2RAD in
  let zed := (2306.2181 * ttt + 1.09468 * ttt ^ 2 + 0.018203 * ttt ^ 3) * ARCSEC2RAD in
  eo_matmul3 (eo_rotation_z (- zed)) (eo_matmul3 (eo_rotation_y theta) (eo_rotation_z (- zeta))).

(** earth_orientation.py:270-277 *)
Definition nutation_matrix (ttt : R) : mat3 :=
  let '(dpsi, deps) := nutation_short ttt in
  let eps0 := mean_obliquity ttt in
  let eps := eps0 + deps in
  eo_matmul3 (eo_rotation_x (- eps)) (eo_matmul3 (eo_rotation_z (- dpsi)) (eo_rotation_x eps0)).

(** earth_orientation.py:280-285 *)
Definition polar_motion_matrix (xp_arcsec yp_arcsec : R) : mat3 :=
  let xp := xp_arcsec * ARCSEC2RAD in
  let yp := yp_arcsec * ARCSEC2RAD in
  eo_matmul3 (eo_rotation_y xp) (eo_rotation_x yp).

(** earth_orientation.py:288-314 *)
Definition eci_to_ecef_matrix (time : datetime) (delta_ut1 xp yp : R) : result mat3 :=
  bind (bind (utc_with_offset time delta_ut1) juliandate) (fun jd_ut1 =>
  bind (bind (utc_to_tt time) juliandate) (fun jd_tt =>
  let ttt := julian_centuries jd_tt in
  let p := precession_matrix ttt in
  let n := nutation_matrix ttt in
  let st := eo_rotation_z (greenwich_apparent_sidereal_time jd_ut1 jd_tt) in
  let pm := polar_motion_matrix xp yp in
  Ok (eo_matmul3 pm (eo_matmul3 st (eo_matmul3 n p))))).

(** earth_orientation.py:317-335; dt_seconds keeps its default 0.5 because no
    caller passes it. *)
Definition eci_to_ecef_matrix_rate (time : datetime) (delta_ut1 xp yp dt_seconds : R)
  : result mat3 :=
  let dt := timedelta_seconds dt_seconds in
  bind (bind (dt_add time dt) (fun t => eci_to_ecef_matrix t delta_ut1 xp yp)) (fun c_plus =>
  bind (bind (dt_add time (- dt)) (fun t => eci_to_ecef_matrix t delta_ut1 xp yp)) (fun c_minus =>
  Ok (eo_matscale3 (eo_matsub3 c_plus c_minus) (1 / (2 * dt_seconds))))).
