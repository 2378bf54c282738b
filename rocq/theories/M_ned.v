(** Model of src/pymap3d/ned.py *)
From Verif Require Import PyMath M_ellipsoid M_ecef M_enu M_frames.
Open Scope R_scope.

(** ned.py:28-55 *)
Definition aer2ned (az elev slantRange : R) (deg : bool) : vec3 :=
  let '(e, n, u) := aer2enu az elev slantRange deg in (n, e, - u).
(** ned.py:58-85 *)
Definition ned2aer (n e d : R) (deg : bool) : vec3 := enu2aer e n (- d) deg.
(** ned.py:88-133 *)
Definition ned2geodetic (n e d lat0 lon0 h0 : R) (ell : option Ellipsoid) (deg : bool) : vec3 :=
  let '(x, y, z) := enu2ecef e n (- d) lat0 lon0 h0 ell deg in
  ecef2geodetic x y z ell deg.
(** ned.py:136-179 *)
Definition ned2ecef (n e d lat0 lon0 h0 : R) (ell : option Ellipsoid) (deg : bool) : vec3 :=
  enu2ecef e n (- d) lat0 lon0 h0 ell deg.
(** ned.py:182-227 *)
Definition ecef2ned (x y z lat0 lon0 h0 : R) (ell : option Ellipsoid) (deg : bool) : vec3 :=
  let '(e, n, u) := ecef2enu x y z lat0 lon0 h0 ell deg in (n, e, - u).
(** ned.py:230-276 *)
Definition geodetic2ned (lat lon h lat0 lon0 h0 : R) (ell : option Ellipsoid) (deg : bool) : vec3 :=
  let '(e, n, u) := geodetic2enu lat lon h lat0 lon0 h0 ell deg in (n, e, - u).
(** ned.py:279-314 *)
Definition ecef2nedv (x y z lat0 lon0 : R) (deg : bool) : vec3 :=
  let '(e, n, u) := ecef2enuv x y z lat0 lon0 deg in (n, e, - u).
(** ned.py:317-330 *)
Definition ecef2ned_matrix := ecef2ned_rotation.
Definition ned2ecef_matrix := ned2ecef_rotation.
