(** Model of src/pymap3d/rcurve.py *)
From Verif Require Import PyMath M_ellipsoid.
Open Scope R_scope.

(** rcurve.py:13-34 *)
Definition geocentric_radius (geodetic_lat : R) (ell : option Ellipsoid) (deg : bool) : R :=
  let e := resolve_ellipsoid ell in
  let lat := rad_in deg geodetic_lat in
  let a := semimajor_axis e in
  let b := semiminor_axis e in
  sqrt (((a ^ 2 * cos lat) ^ 2 + (b ^ 2 * sin lat) ^ 2)
        / ((a * cos lat) ^ 2 + (b * sin lat) ^ 2)).

(** rcurve.py:94-121 *)
Definition transverse (lat : R) (ell : option Ellipsoid) (deg : bool) : R :=
  let e := resolve_ellipsoid ell in
  let lat := rad_in deg lat in
  semimajor_axis e / sqrt (1 - (eccentricity e * sin lat) ^ 2).

(** rcurve.py:37-61 *)
Definition parallel (lat : R) (ell : option Ellipsoid) (deg : bool) : R :=
  let lat := rad_in deg lat in
  cos lat * transverse lat ell false.

(** rcurve.py:64-91 *)
Definition meridian (lat : R) (ell : option Ellipsoid) (deg : bool) : R :=
  let e := resolve_ellipsoid ell in
  let lat := rad_in deg lat in
  let f1 := semimajor_axis e * (1 - eccentricity e ^ 2) in
  let f2 := 1 - (eccentricity e * sin lat) ^ 2 in
  f1 / sqrt (f2 ^ 3).
