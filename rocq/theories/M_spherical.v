(** Model of src/pymap3d/spherical.py *)
From Verif Require Import PyMath M_ellipsoid.
Open Scope R_scope.

(** mathfun.py: cube_root (numpy.cbrt, or copysign(abs(x)**(1/3), x)): the real
    cube root. *)
Definition cube_root (x : R) : R :=
  if Rlt_dec 0 x then Rpower x (1 / 3)
  else if Rlt_dec x 0 then - Rpower (- x) (1 / 3) else 0.

(** spherical.py:20-91 *)
Definition geodetic2spherical (lat lon alt : R) (ell : option Ellipsoid) (deg : bool) : vec3 :=
  let e := resolve_ellipsoid ell in
  let lat := rad_in deg lat in
  let lon := rad_in deg lon in
  let sinlat := sin lat in
  let coslat := sqrt (1 - sinlat ^ 2) in
  let N := semimajor_axis e ^ 2 / hypot (semimajor_axis e * coslat) (semiminor_axis e * sinlat) in
  let xy_projection := (alt + N) * coslat in
  let z_cartesian := (alt + (1 - eccentricity e ^ 2) * N) * sinlat in
  let radius := hypot xy_projection z_cartesian in
  let slat := asin (z_cartesian / radius) in
  (deg_out deg slat, deg_out deg lon, radius).

(** spherical.py:94-163.  Divisions by r_0^3, t_0, v_0, k and k + e^2 are real
    divisions; the code's behaviour where one of them is 0 is not modelled. *)
Definition spherical2geodetic (lat lon radius : R) (ell : option Ellipsoid) (deg : bool) : vec3 :=
  let e := resolve_ellipsoid ell in
  let lat := rad_in deg lat in
  let lon := rad_in deg lon in
  let sinlat := sin lat in
  let coslat := sqrt (1 - sinlat ^ 2) in
  let Z := radius * sinlat in
  let p_0 := radius ^ 2 * coslat ^ 2 / semimajor_axis e ^ 2 in
  let q_0 := (1 - eccentricity e ^ 2) / semimajor_axis e ^ 2 * Z ^ 2 in
  let r_0 := (p_0 + q_0 - eccentricity e ^ 4) / 6 in
  let s_0 := eccentricity e ^ 4 * p_0 * q_0 / 4 / r_0 ^ 3 in
  let t_0 := cube_root (1 + s_0 + sqrt (2 * s_0 + s_0 ^ 2)) in
  let u_0 := r_0 * (1 + t_0 + 1 / t_0) in
  let v_0 := sqrt (u_0 ^ 2 + q_0 * eccentricity e ^ 4) in
  let w_0 := eccentricity e ^ 2 * (u_0 + v_0 - q_0) / 2 / v_0 in
  let k := sqrt (u_0 + v_0 + w_0 ^ 2) - w_0 in
  let D := k * radius * coslat / (k + eccentricity e ^ 2) in
  let hypotDZ := hypot D Z in
  let glat := 2 * atan2 Z (D + hypotDZ) in
  let alt := (k + eccentricity e ^ 2 - 1) / k * hypotDZ in
  (deg_out deg glat, deg_out deg lon, alt).
