(** Model of src/pymap3d/nwu.py *)
From Verif Require Import PyMath M_ellipsoid M_ecef M_enu M_frames.
Open Scope R_scope.

(** nwu.py:24-30 *)
Definition aer2nwu (az elev slantRange : R) (deg : bool) : vec3 :=
  let '(e, n, u) := aer2enu az elev slantRange deg in (n, - e, u).
(** nwu.py:33-38 *)
Definition nwu2aer (n w u : R) (deg : bool) : vec3 := enu2aer (- w) n u deg.
(** nwu.py:41-55 *)
Definition nwu2geodetic (n w u lat0 lon0 h0 : R) (ell : option Ellipsoid) (deg : bool) : vec3 :=
  enu2geodetic (- w) n u lat0 lon0 h0 ell deg.
(** nwu.py:58-72 *)
Definition nwu2ecef (n w u lat0 lon0 h0 : R) (ell : option Ellipsoid) (deg : bool) : vec3 :=
  enu2ecef (- w) n u lat0 lon0 h0 ell deg.
(** nwu.py:75-80 *)
Definition nwu2ecefv (n w u lat0 lon0 : R) (deg : bool) : vec3 :=
  enu2ecefv (- w) n u lat0 lon0 deg.
(** nwu.py:83-98 *)
Definition ecef2nwu (x y z lat0 lon0 h0 : R) (ell : option Ellipsoid) (deg : bool) : vec3 :=
  let '(e, n, u) := ecef2enu x y z lat0 lon0 h0 ell deg in (n, - e, u).
(** nwu.py:101-107 *)
Definition ecef2nwuv (x y z lat0 lon0 : R) (deg : bool) : vec3 :=
  let '(e, n, u) := ecef2enuv x y z lat0 lon0 deg in (n, - e, u).
(** nwu.py:110-125 *)
Definition geodetic2nwu (lat lon h lat0 lon0 h0 : R) (ell : option Ellipsoid) (deg : bool) : vec3 :=
  let '(e, n, u) := geodetic2enu lat lon h lat0 lon0 h0 ell deg in (n, - e, u).
(** nwu.py:128-141 *)
Definition ecef2nwu_matrix := ecef2nwu_rotation.
Definition nwu2ecef_matrix := nwu2ecef_rotation.
