(** Model of src/pymap3d/dca.py *)
From Verif Require Import PyMath M_ellipsoid M_ecef M_enu.
Open Scope R_scope.

(** dca.py:47-58 *)
Definition enu2dca (e n u heading : R) (deg : bool) : vec3 :=
  let heading := rad_in deg heading in
  let dr := e * sin heading + n * cos heading in
  let cr := - e * cos heading + n * sin heading in
  (dr, cr, u).
(** dca.py:61-72 *)
Definition dca2enu (dr cr above heading : R) (deg : bool) : vec3 :=
  let heading := rad_in deg heading in
  let e := dr * sin heading - cr * cos heading in
  let n := dr * cos heading + cr * sin heading in
  (e, n, above).
(** dca.py:75-80 *)
Definition dca2ned (dr cr above heading : R) (deg : bool) : vec3 :=
  let '(e, n, u) := dca2enu dr cr above heading deg in (n, e, - u).
(** dca.py:83-88 *)
Definition ned2dca (n e d heading : R) (deg : bool) : vec3 :=
  let '(dr, cr, above) := enu2dca e n (- d) heading deg in (dr, cr, above).
(** dca.py:91-107 *)
Definition ecef2dca (x y z lat0 lon0 h0 heading : R) (ell : option Ellipsoid) (deg : bool) : vec3 :=
  let '(e, n, u) := ecef2enu x y z lat0 lon0 h0 ell deg in enu2dca e n u heading deg.
(** dca.py:110-126 *)
Definition dca2ecef (dr cr above lat0 lon0 h0 heading : R) (ell : option Ellipsoid) (deg : bool) : vec3 :=
  let '(e, n, u) := dca2enu dr cr above heading deg in enu2ecef e n u lat0 lon0 h0 ell deg.
(** dca.py:129-144 *)
Definition geodetic2dca (lat lon h lat0 lon0 h0 heading : R) (ell : option Ellipsoid) (deg : bool) : vec3 :=
  let '(e, n, u) := geodetic2enu lat lon h lat0 lon0 h0 ell deg in enu2dca e n u heading deg.
(** dca.py:147-162 *)
Definition dca2geodetic (dr cr above lat0 lon0 h0 heading : R) (ell : option Ellipsoid) (deg : bool) : vec3 :=
  let '(e, n, u) := dca2enu dr cr above heading deg in enu2geodetic e n u lat0 lon0 h0 ell deg.
(** dca.py:165-170 *)
Definition aer2dca (az el srange heading : R) (deg : bool) : vec3 :=
  let '(e, n, u) := aer2enu az el srange deg in enu2dca e n u heading deg.
(** dca.py:173-178 *)
Definition dca2aer (dr cr above heading : R) (deg : bool) : vec3 :=
  let '(e, n, u) := dca2enu dr cr above heading deg in enu2aer e n u deg.
