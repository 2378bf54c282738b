(** Independent specification of the IAU-76/FK5 reduction with the short IAU-80
    nutation series, angles not reduced modulo a turn. *)
From Verif Require Import PyMath.
Open Scope R_scope.

Definition arcsec (x : R) : R := x / 3600 * PI / 180.
Definition degree (x : R) : R := x * PI / 180.
(** Coordinates of v in axes turned by the angle t about the x, y, z axis
    (right-handed). *)
Definition axes_x (t : R) (v : vec3) : vec3 :=
  let '(x, y, z) := v in (x, y * cos t + z * sin t, z * cos t - y * sin t).
Definition axes_y (t : R) (v : vec3) : vec3 :=
  let '(x, y, z) := v in (x * cos t - z * sin t, y, z * cos t + x * sin t).
Definition axes_z (t : R) (v : vec3) : vec3 :=
  let '(x, y, z) := v in (x * cos t + y * sin t, y * cos t - x * sin t, z).

(** Mean obliquity (IAU 1980): 23 deg 26' 21".448 - 46".8150 T - ... *)
Definition iau_obliquity (T : R) : R :=
  degree 23 + arcsec (26 * 60) + arcsec (21.448 - 46.8150 * T - 0.00059 * T ^ 2 + 0.001813 * T ^ 3).
(** Mean longitudes of the Sun, of the Moon, and of the Moon's ascending node. *)
Definition sun_L (T : R) : R := degree (280.4665 + 36000.7698 * T).
Definition moon_L (T : R) : R := degree (218.3165 + 481267.8813 * T).
Definition moon_node (T : R) : R :=
  degree (125.04452 - 1934.136261 * T + 0.0020708 * T ^ 2 + T ^ 3 / 450000).
(** Nutation in longitude and obliquity (Meeus, Astronomical Algorithms, ch. 22). *)
Definition nut_psi (T : R) : R :=
  arcsec (- 17.20 * sin (moon_node T) - 1.32 * sin (2 * sun_L T) - 0.23 * sin (2 * moon_L T)
          + 0.21 * sin (2 * moon_node T)).
Definition nut_eps (T : R) : R :=
  arcsec (9.20 * cos (moon_node T) + 0.57 * cos (2 * sun_L T) + 0.10 * cos (2 * moon_L T)
          - 0.09 * cos (2 * moon_node T)).
(** Precession angles (IAU 1976). *)
Definition prec_zeta (T : R) : R := arcsec (2306.2181 * T + 0.30188 * T ^ 2 + 0.017998 * T ^ 3).
Definition prec_z (T : R) : R := arcsec (2306.2181 * T + 1.09468 * T ^ 2 + 0.018203 * T ^ 3).
Definition prec_theta (T : R) : R := arcsec (2004.3109 * T - 0.42665 * T ^ 2 - 0.041833 * T ^ 3).
(** Greenwich mean sidereal time (IAU 1982): seconds of time, with the length
    of a Julian century 876600 h. *)
Definition gmst_seconds (Tu : R) : R :=
  67310.54841 + (876600 * 3600 + 8640184.812866) * Tu + 0.093104 * Tu ^ 2 - 0.0000062 * Tu ^ 3.
Definition gast (Tu T : R) : R :=
  gmst_seconds Tu / 86400 * (2 * PI) + nut_psi T * cos (iau_obliquity T + nut_eps T).

(** From the mean equator and equinox of J2000.0 to the Earth-fixed axes:
    precession, nutation, rotation by apparent sidereal time; then the code's
    polar motion. *)
Definition reduce (Tu T xp yp : R) (v : vec3) : vec3 :=
  let mean := axes_z (- prec_z T) (axes_y (prec_theta T) (axes_z (- prec_zeta T) v)) in
  let true_ := axes_x (- (iau_obliquity T + nut_eps T))
                 (axes_z (- nut_psi T) (axes_x (iau_obliquity T) mean)) in
  let pef := axes_z (gast Tu T) true_ in
  axes_y (arcsec xp) (axes_x (arcsec yp) pef).
(** Julian centuries of 36525 days since 2000 January 1, 12h, from an instant
    in microseconds (see Spec_time: day 1 is 0001-01-01). *)
Definition centuries (micros : R) : R := (micros / 86400000000 - 730120.5) / 36525.
