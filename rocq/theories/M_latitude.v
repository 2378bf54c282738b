(** Model of src/pymap3d/latitude.py *)
From Verif Require Import PyMath M_ellipsoid M_rcurve.
Open Scope R_scope.

(** Results that may be infinite. *)
Inductive xreal := Fin (x : R) | PInf | MInf.

(** [atan(k * tan(t))]: where cos t = 0 the float tan is about 1.6e16 and the
    result rounds to +-pi/2; Coq's tan would be 0 there.  [k] is positive in
    every use on valid inputs. *)
Definition atan_ktan (k t : R) : R :=
  if Req_EM_T (cos t) 0 then PI / 2 * sign (sin t) else atan (k * tan t).

(** latitude.py:48-96 *)
Definition geoc2geod (geocentric_lat geocentric_distance : R) (ell : option Ellipsoid)
    (deg : bool) : R :=
  let e := resolve_ellipsoid ell in
  let geocentric_lat := rad_in deg geocentric_lat in
  let r := geocentric_distance / semimajor_axis e in
  let geodetic_lat :=
    geocentric_lat
    + (sin (2 * geocentric_lat) / r) * flattening e
    + ((1 / r ^ 2 + 1 / (4 * r)) * sin (4 * geocentric_lat)) * flattening e ^ 2 in
  deg_out deg geodetic_lat.

(** latitude.py:99-140 ([geod2geoc] is an alias) *)
Definition geodetic2geocentric (geodetic_lat alt_m : R) (ell : option Ellipsoid) (deg : bool) : R :=
  let e := resolve_ellipsoid ell in
  let geodetic_lat := rad_in deg geodetic_lat in
  let r := transverse geodetic_lat ell false in
  let geocentric_lat := atan_ktan (1 - eccentricity e ^ 2 * (r / (r + alt_m))) geodetic_lat in
  deg_out deg geocentric_lat.
Definition geod2geoc := geodetic2geocentric.

(** latitude.py:143-181 *)
Definition geocentric2geodetic (geocentric_lat alt_m : R) (ell : option Ellipsoid) (deg : bool) : R :=
  let e := resolve_ellipsoid ell in
  let geocentric_lat := rad_in deg geocentric_lat in
  let r := transverse geocentric_lat ell false in
  let geodetic_lat := atan_ktan (/ (1 - eccentricity e ^ 2 * (r / (r + alt_m)))) geocentric_lat in
  deg_out deg geodetic_lat.

(** latitude.py:28 *)
Definition COS_EPS : R := 1 / 1000000000.

(** degrees() of a possibly infinite value *)
Definition xdeg_out (deg : bool) (x : xreal) : xreal :=
  match x with Fin v => Fin (deg_out deg v) | y => y end.

(** latitude.py:184-241.  [sign(lat) * inf] where |cos lat| <= COS_EPS. *)
Definition geodetic2isometric (geodetic_lat : R) (ell : option Ellipsoid) (deg : bool) : xreal :=
  let el := resolve_ellipsoid ell in
  let lat := rad_in deg geodetic_lat in
  let e := eccentricity el in
  let isometric_lat := asinh (tan lat) - e * atanh (e * sin lat) in
  let coslat := cos lat in
  xdeg_out deg
    (if Rle_dec (Rabs coslat) COS_EPS then (if Rlt_dec lat 0 then MInf else PInf)
     else Fin isometric_lat).

(** latitude.py:280-326 *)
Definition conformal2geodetic (conformal_lat : R) (ell : option Ellipsoid) (deg : bool) : R :=
  let el := resolve_ellipsoid ell in
  let conformal_lat := rad_in deg conformal_lat in
  let e := eccentricity el in
  let f1 := e ^ 2 / 2 + 5 * e ^ 4 / 24 + e ^ 6 / 12 + 13 * e ^ 8 / 360 in
  let f2 := 7 * e ^ 4 / 48 + 29 * e ^ 6 / 240 + 811 * e ^ 8 / 11520 in
  let f3 := 7 * e ^ 6 / 120 + 81 * e ^ 8 / 1120 in
  let f4 := 4279 * e ^ 8 / 161280 in
  let geodetic_lat :=
    conformal_lat + f1 * sin (2 * conformal_lat) + f2 * sin (4 * conformal_lat)
    + f3 * sin (6 * conformal_lat) + f4 * sin (8 * conformal_lat) in
  deg_out deg geodetic_lat.

(** latitude.py:244-277; exp(+-inf) is inf / 0 and atan(inf) is pi/2. *)
Definition isometric2geodetic (isometric_lat : xreal) (ell : option Ellipsoid) (deg : bool) : R :=
  let conformal_lat :=
    match isometric_lat with
    | Fin v => 2 * atan (exp (rad_in deg v)) - PI / 2
    | PInf => 2 * (PI / 2) - PI / 2
    | MInf => 2 * atan 0 - PI / 2
    end in
  let geodetic_lat := conformal2geodetic conformal_lat ell false in
  deg_out deg geodetic_lat.

(** latitude.py:361-371: the expression inside [try]; f3 = 0 is the division
    error. [x ** e] with x > 0 is [Rpower x e]. *)
Definition conformal_expr (e lat : R) : R :=
  let f1 := 1 - e * sin lat in
  let f2 := 1 + e * sin lat in
  let f3 := 1 - sin lat in
  let f4 := 1 + sin lat in
  2 * atan (sqrt ((f4 / f3) * Rpower (f1 / f2) e)) - PI / 2.
(** latitude.py:329-375, Python float argument *)
Definition geodetic2conformal (geodetic_lat : R) (ell : option Ellipsoid) (deg : bool) : R :=
  let el := resolve_ellipsoid ell in
  let lat := rad_in deg geodetic_lat in
  let e := eccentricity el in
  let conformal_lat := if Req_EM_T (1 - sin lat) 0 then PI / 2 else conformal_expr e lat in
  deg_out deg conformal_lat.
(** latitude.py:329-375, array argument: the division warning of one element
    replaces the whole array by the scalar pi/2. *)
Definition geodetic2conformal_array (lats : list R) (ell : option Ellipsoid) (deg : bool)
  : list R + R :=
  let el := resolve_ellipsoid ell in
  let lats := map (rad_in deg) lats in
  let e := eccentricity el in
  if existsb (fun lat => if Req_EM_T (1 - sin lat) 0 then true else false) lats
  then inr (deg_out deg (PI / 2))
  else inl (map (fun lat => deg_out deg (conformal_expr e lat)) lats).

(** latitude.py:379-427 *)
Definition geodetic2rectifying (geodetic_lat : R) (ell : option Ellipsoid) (deg : bool) : R :=
  let geodetic_lat := rad_in deg geodetic_lat in
  let n := thirdflattening (resolve_ellipsoid ell) in
  let f1 := 3 * n / 2 - 9 * n ^ 3 / 16 in
  let f2 := 15 * n ^ 2 / 16 - 15 * n ^ 4 / 32 in
  let f3 := 35 * n ^ 3 / 48 in
  let f4 := 315 * n ^ 4 / 512 in
  let rectifying_lat :=
    geodetic_lat - f1 * sin (2 * geodetic_lat) + f2 * sin (4 * geodetic_lat)
    - f3 * sin (6 * geodetic_lat) + f4 * sin (8 * geodetic_lat) in
  deg_out deg rectifying_lat.

(** latitude.py:430-476 *)
Definition rectifying2geodetic (rectifying_lat : R) (ell : option Ellipsoid) (deg : bool) : R :=
  let rectifying_lat := rad_in deg rectifying_lat in
  let n := thirdflattening (resolve_ellipsoid ell) in
  let f1 := 3 * n / 2 - 27 * n ^ 3 / 32 in
  let f2 := 21 * n ^ 2 / 16 - 55 * n ^ 4 / 32 in
  let f3 := 151 * n ^ 3 / 96 in
  let f4 := 1097 * n ^ 4 / 512 in
  let geodetic_lat :=
    rectifying_lat + f1 * sin (2 * rectifying_lat) + f2 * sin (4 * rectifying_lat)
    + f3 * sin (6 * rectifying_lat) + f4 * sin (8 * rectifying_lat) in
  deg_out deg geodetic_lat.

(** latitude.py:480-524 *)
Definition geodetic2authalic (geodetic_lat : R) (ell : option Ellipsoid) (deg : bool) : R :=
  let geodetic_lat := rad_in deg geodetic_lat in
  let e := eccentricity (resolve_ellipsoid ell) in
  let f1 := e ^ 2 / 3 + 31 * e ^ 4 / 180 + 59 * e ^ 6 / 560 in
  let f2 := 17 * e ^ 4 / 360 + 61 * e ^ 6 / 1260 in
  let f3 := 383 * e ^ 6 / 45360 in
  let authalic_lat :=
    geodetic_lat - f1 * sin (2 * geodetic_lat) + f2 * sin (4 * geodetic_lat)
    - f3 * sin (6 * geodetic_lat) in
  deg_out deg authalic_lat.

(** latitude.py:527-571 *)
Definition authalic2geodetic (authalic_lat : R) (ell : option Ellipsoid) (deg : bool) : R :=
  let authalic_lat := rad_in deg authalic_lat in
  let e := eccentricity (resolve_ellipsoid ell) in
  let f1 := e ^ 2 / 3 + 31 * e ^ 4 / 180 + 517 * e ^ 6 / 5040 in
  let f2 := 23 * e ^ 4 / 360 + 251 * e ^ 6 / 3780 in
  let f3 := 761 * e ^ 6 / 45360 in
  let geodetic_lat :=
    authalic_lat + f1 * sin (2 * authalic_lat) + f2 * sin (4 * authalic_lat)
    + f3 * sin (6 * authalic_lat) in
  deg_out deg geodetic_lat.

(** latitude.py:575-609 *)
Definition geodetic2parametric (geodetic_lat : R) (ell : option Ellipsoid) (deg : bool) : R :=
  let e := resolve_ellipsoid ell in
  let geodetic_lat := rad_in deg geodetic_lat in
  deg_out deg (atan_ktan (sqrt (1 - eccentricity e ^ 2)) geodetic_lat).

(** latitude.py:612-646 *)
Definition parametric2geodetic (parametric_lat : R) (ell : option Ellipsoid) (deg : bool) : R :=
  let e := resolve_ellipsoid ell in
  let parametric_lat := rad_in deg parametric_lat in
  deg_out deg (atan_ktan (/ sqrt (1 - eccentricity e ^ 2)) parametric_lat).
