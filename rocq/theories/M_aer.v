(** Model of src/pymap3d/aer.py (eci2aer/aer2eci are in M_eci.v) *)
From Verif Require Import PyMath M_ellipsoid M_ecef M_enu.
Open Scope R_scope.

(** aer.py:21-68 *)
Definition ecef2aer (x y z lat0 lon0 h0 : R) (ell : option Ellipsoid) (deg : bool) : vec3 :=
  let '(xEast, yNorth, zUp) := ecef2enu x y z lat0 lon0 h0 ell deg in
  enu2aer xEast yNorth zUp deg.
(** aer.py:71-116 *)
Definition geodetic2aer (lat lon h lat0 lon0 h0 : R) (ell : option Ellipsoid) (deg : bool) : vec3 :=
  let '(e, n, u) := geodetic2enu lat lon h lat0 lon0 h0 ell deg in
  enu2aer e n u deg.
(** aer.py:291-347 *)
Definition aer2ecef (az el srange lat0 lon0 alt0 : R) (ell : option Ellipsoid) (deg : bool) : vec3 :=
  let '(x0, y0, z0) := geodetic2ecef lat0 lon0 alt0 ell deg in
  let '(e1, n1, u1) := aer2enu az el srange deg in
  let '(dx, dy, dz) := enu2uvw e1 n1 u1 lat0 lon0 deg in
  (x0 + dx, y0 + dy, z0 + dz).
(** aer.py:119-166 *)
Definition aer2geodetic (az el srange lat0 lon0 h0 : R) (ell : option Ellipsoid) (deg : bool) : vec3 :=
  let '(x, y, z) := aer2ecef az el srange lat0 lon0 h0 ell deg in
  ecef2geodetic x y z ell deg.
