(** Model of src/pymap3d/rsphere.py ([euler] is in M_euler.v) *)
From Verif Require Import PyMath M_ellipsoid M_rcurve.
Open Scope R_scope.
Open Scope string_scope.

(** rsphere.py:23-41 *)
Definition eqavol (ell : option Ellipsoid) : R :=
  let e := resolve_ellipsoid ell in
  let f := flattening e in
  (semimajor_axis e * (1 - f / 3 - f ^ 2 / 9))%R.

(** rsphere.py:44-68 *)
Definition authalic (ell : option Ellipsoid) : R :=
  let el := resolve_ellipsoid ell in
  let e := eccentricity el in
  if Rlt_dec 0 e then
    let f1 := (semimajor_axis el ^ 2 / 2)%R in
    let f2 := ((1 - e ^ 2) / (2 * e))%R in
    let f3 := ln ((1 + e) / (1 - e)) in
    sqrt (f1 * (1 + f2 * f3))
  else semimajor_axis el.

(** rsphere.py:71-87; x ** y is [Rpower] (positive bases only). *)
Definition rectifying (ell : option Ellipsoid) : R :=
  let e := resolve_ellipsoid ell in
  Rpower ((Rpower (semimajor_axis e) (3 / 2) + Rpower (semiminor_axis e) (3 / 2)) / 2) (2 / 3).

(** rsphere.py:141-173 *)
Definition curve (lat : R) (ell : option Ellipsoid) (deg : bool) (method : string) : result R :=
  let lat := rad_in deg lat in
  let rho := meridian lat ell false in
  let nu := transverse lat ell false in
  if String.eqb method "mean" then Ok ((rho + nu) / 2)%R
  else if String.eqb method "norm" then Ok (sqrt (rho * nu))
  else Raise ValueError.

(** rsphere.py:176-199 *)
Definition triaxial (ell : option Ellipsoid) (method : string) : result R :=
  let e := resolve_ellipsoid ell in
  if String.eqb method "mean" then Ok ((2 * semimajor_axis e + semiminor_axis e) / 3)%R
  else if String.eqb method "norm" then Ok (Rpower (semimajor_axis e ^ 2 * semiminor_axis e) (1 / 3))
  else Raise ValueError.

(** rsphere.py:202-225 *)
Definition biaxial (ell : option Ellipsoid) (method : string) : result R :=
  let e := resolve_ellipsoid ell in
  if String.eqb method "mean" then Ok ((semimajor_axis e + semiminor_axis e) / 2)%R
  else if String.eqb method "norm" then Ok (sqrt (semimajor_axis e * semiminor_axis e))
  else Raise ValueError.
