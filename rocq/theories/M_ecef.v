(** Model of src/pymap3d/ecef.py (the ECI entry points are in M_eci.v). *)
From Verif Require Import PyMath M_ellipsoid.
Open Scope R_scope.

(** ecef.py:35-88 *)
Definition geodetic2ecef (lat lon alt : R) (ell : option Ellipsoid) (deg : bool) : vec3 :=
  let lat := rad_in deg lat in
  let lon := rad_in deg lon in
  let e := resolve_ellipsoid ell in
  let a := semimajor_axis e in
  let b := semiminor_axis e in
  let N := a ^ 2 / hypot (a * cos lat) (b * sin lat) in
  let x := (N + alt) * cos lat * cos lon in
  let y := (N + alt) * cos lat * sin lon in
  let z := (N * (b / a) ^ 2 + alt) * sin lat in
  (x, y, z).

(** ecef.py:128-138: linear eccentricity E, u (eqn. 4a), hxy, huE. *)
Definition you_E (e : Ellipsoid) : R := sqrt (semimajor_axis e ^ 2 - semiminor_axis e ^ 2).
Definition you_u (e : Ellipsoid) (x y z : R) : R :=
  let r := sqrt (x ^ 2 + y ^ 2 + z ^ 2) in
  let E := you_E e in
  sqrt (0.5 * (r ^ 2 - E ^ 2) + 0.5 * hypot (r ^ 2 - E ^ 2) (2 * E * z)).

(** ecef.py:216-219: eqn. 4b followed by eqn. 13, for u <> 0 and hxy <> 0. *)
Definition you_beta (e : Ellipsoid) (x y z : R) : R :=
  let a := semimajor_axis e in
  let b := semiminor_axis e in
  let E := you_E e in
  let u := you_u e x y z in
  let hxy := hypot x y in
  let huE := hypot u E in
  let Beta := atan (huE / u * z / hxy) in
  Beta + ((b * u - a * huE + E ^ 2) * sin Beta)
         / (a * huE * 1 / cos Beta - E ^ 2 * cos Beta).

(** ecef.py:212-228: the try/except of [_beta_scalar].  The division warnings
    turned into errors are exactly u = 0 or hxy = 0. *)
Definition beta_scalar (e : Ellipsoid) (x y z : R) : R :=
  if Req_EM_T (you_u e x y z) 0 then
    (if isclose0 z then 0 else if Rlt_dec 0 z then PI / 2 else - PI / 2)
  else if Req_EM_T (hypot x y) 0 then
    (if isclose0 z then 0 else if Rlt_dec 0 z then PI / 2 else - PI / 2)
  else you_beta e x y z.

(** ecef.py:140-147, 149-156: [_inside_*] *)
Definition inside_dec (e : Ellipsoid) (x y z : R) : bool :=
  if Rlt_dec (x ^ 2 / semimajor_axis e ^ 2 + y ^ 2 / semimajor_axis e ^ 2
              + z ^ 2 / semiminor_axis e ^ 2) 1 then true else false.

(** ecef.py:230-239 (eqn. 4c, eqn. 7) *)
Definition lat_of_beta (e : Ellipsoid) (Beta : R) : R :=
  atan (semimajor_axis e / semiminor_axis e * tan Beta).
Definition alt_of_beta (e : Ellipsoid) (x y z Beta cosBeta : R) : R :=
  let alt := hypot (z - semiminor_axis e * sin Beta)
                   (hypot x y - semimajor_axis e * cosBeta) in
  if inside_dec e x y z then - alt else alt.

(** ecef.py:91-253 for Python float arguments ([_beta_scalar] path).
    Note: where cos Beta = 0, Coq's [tan] is sin/0 = 0 whereas the float
    tan(pi/2) is about 1.6e16 and [atan] of it is pi/2: [lat_scalar] uses the
    limit +-pi/2 there. *)
Definition lat_scalar (e : Ellipsoid) (Beta : R) : R :=
  if Req_EM_T (cos Beta) 0 then PI / 2 * sign (sin Beta) else lat_of_beta e Beta.

Definition ecef2geodetic (x y z : R) (ell : option Ellipsoid) (deg : bool) : vec3 :=
  let e := resolve_ellipsoid ell in
  let Beta := beta_scalar e x y z in
  let lat := lat_scalar e Beta in
  let alt := alt_of_beta e x y z Beta (cos Beta) in
  let lon := atan2 y x in
  (deg_out deg lat, deg_out deg lon, alt).

(** numpy.finfo(float64).eps *)
Definition eps64 : R := / 2 ^ 52.

(** ecef.py:158-209 for one element of an array argument ([_beta_numpy] and
    [_lat_alt_numpy]); all operations there are element-wise.
    [isclose(u,0) | isclose(hxy,0)] replaces the exception. *)
Definition beta_numpy (e : Ellipsoid) (x y z : R) : R :=
  if (isclose0 (you_u e x y z) || isclose0 (hypot x y))%bool then
    (if isclose0 z then 0 else if Rlt_dec 0 z then PI / 2 else - PI / 2)
  else you_beta e x y z.
Definition ecef2geodetic_lane (x y z : R) (ell : option Ellipsoid) (deg : bool) : vec3 :=
  let e := resolve_ellipsoid ell in
  let Beta := beta_numpy e x y z in
  let lim_pi2 := PI / 2 - eps64 in
  let lat := lat_scalar e Beta in
  let lat := if Rle_dec lim_pi2 Beta then PI / 2 else lat in
  let lat := if Rle_dec Beta (- lim_pi2) then - PI / 2 else lat in
  let cosBeta := cos Beta in
  let cosBeta := if Rle_dec lim_pi2 Beta then 0 else cosBeta in
  let cosBeta := if Rle_dec Beta (- lim_pi2) then 0 else cosBeta in
  let alt := alt_of_beta e x y z Beta cosBeta in
  let lon := atan2 y x in
  (deg_out deg lat, deg_out deg lon, alt).
Definition ecef2geodetic_array (pts : list vec3) (ell : option Ellipsoid) (deg : bool)
  : list vec3 :=
  map (fun '(x, y, z) => ecef2geodetic_lane x y z ell deg) pts.

(** ecef.py:256-295 *)
Definition ecef2enuv (u v w lat0 lon0 : R) (deg : bool) : vec3 :=
  let lat0 := rad_in deg lat0 in
  let lon0 := rad_in deg lon0 in
  let t := cos lon0 * u + sin lon0 * v in
  let uEast := - sin lon0 * u + cos lon0 * v in
  let wUp := cos lat0 * t + sin lat0 * w in
  let vNorth := - sin lat0 * t + cos lat0 * w in
  (uEast, vNorth, wUp).

(** ecef.py:398-442 *)
Definition uvw2enu (u v w lat0 lon0 : R) (deg : bool) : vec3 :=
  let lat0 := rad_in deg lat0 in
  let lon0 := rad_in deg lon0 in
  let t := cos lon0 * u + sin lon0 * v in
  let East := - sin lon0 * u + cos lon0 * v in
  let Up := cos lat0 * t + sin lat0 * w in
  let North := - sin lat0 * t + cos lat0 * w in
  (East, North, Up).

(** ecef.py:298-341 *)
Definition ecef2enu (x y z lat0 lon0 h0 : R) (ell : option Ellipsoid) (deg : bool) : vec3 :=
  let '(x0, y0, z0) := geodetic2ecef lat0 lon0 h0 ell deg in
  uvw2enu (x - x0) (y - y0) (z - z0) lat0 lon0 deg.

(** ecef.py:344-395 *)
Definition enu2uvw (east north up lat0 lon0 : R) (deg : bool) : vec3 :=
  let lat0 := rad_in deg lat0 in
  let lon0 := rad_in deg lon0 in
  let t := cos lat0 * up - sin lat0 * north in
  let w := sin lat0 * up + cos lat0 * north in
  let u := cos lon0 * t - sin lon0 * east in
  let v := sin lon0 * t + cos lon0 * east in
  (u, v, w).

(** ecef.py:555-602 *)
Definition enu2ecef (e1 n1 u1 lat0 lon0 h0 : R) (ell : option Ellipsoid) (deg : bool) : vec3 :=
  let '(x0, y0, z0) := geodetic2ecef lat0 lon0 h0 ell deg in
  let '(u, v, w) := enu2uvw e1 n1 u1 lat0 lon0 deg in
  (x0 + u, y0 + v, z0 + w).
