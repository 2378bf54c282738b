(** Model of src/pymap3d/body.py *)
From Verif Require Import PyMath M_ellipsoid M_ecef M_enu M_ned M_nwu M_sez M_frames.
Open Scope R_scope.

(** body.py:52-109 *)
Definition body_matrix := ned2body_rotation.
Definition ned2body_matrix := ned2body_rotation.
Definition body2ned_matrix := body2ned_rotation.
Definition enu2body_matrix := enu2body_rotation.
Definition body2enu_matrix := body2enu_rotation.
Definition sez2body_matrix := sez2body_rotation.
Definition body2sez_matrix := body2sez_rotation.
Definition nwu2body_matrix := nwu2body_rotation.
Definition body2nwu_matrix := body2nwu_rotation.

(** body.py:112-157 *)
Definition ned2body (n e d yaw pitch roll : R) (sequence : string) (deg : bool) : result vec3 :=
  rmap (fun m => matvec3 m (n, e, d)) (ned2body_matrix yaw pitch roll sequence deg).
Definition body2ned (xb yb zb yaw pitch roll : R) (sequence : string) (deg : bool) : result vec3 :=
  rmap (fun m => matvec3 m (xb, yb, zb)) (body2ned_matrix yaw pitch roll sequence deg).
Definition enu2body (e n u yaw pitch roll : R) (sequence : string) (deg : bool) : result vec3 :=
  rmap (fun m => matvec3 m (e, n, u)) (enu2body_matrix yaw pitch roll sequence deg).
Definition body2enu (xb yb zb yaw pitch roll : R) (sequence : string) (deg : bool) : result vec3 :=
  rmap (fun m => matvec3 m (xb, yb, zb)) (body2enu_matrix yaw pitch roll sequence deg).
Definition sez2body (s e z yaw pitch roll : R) (sequence : string) (deg : bool) : result vec3 :=
  rmap (fun m => matvec3 m (s, e, z)) (sez2body_matrix yaw pitch roll sequence deg).
Definition body2sez (xb yb zb yaw pitch roll : R) (sequence : string) (deg : bool) : result vec3 :=
  rmap (fun m => matvec3 m (xb, yb, zb)) (body2sez_matrix yaw pitch roll sequence deg).
Definition nwu2body (n w u yaw pitch roll : R) (sequence : string) (deg : bool) : result vec3 :=
  rmap (fun m => matvec3 m (n, w, u)) (nwu2body_matrix yaw pitch roll sequence deg).
Definition body2nwu (xb yb zb yaw pitch roll : R) (sequence : string) (deg : bool) : result vec3 :=
  rmap (fun m => matvec3 m (xb, yb, zb)) (body2nwu_matrix yaw pitch roll sequence deg).

(** body.py:160-190 *)
Definition ecef2body (x y z lat0 lon0 h0 yaw pitch roll : R) (ell : option Ellipsoid)
    (frame sequence : string) (deg : bool) : result vec3 :=
  if String.eqb frame "ned" then
    let '(n, e, d) := ecef2ned x y z lat0 lon0 h0 ell deg in
    ned2body n e d yaw pitch roll sequence deg
  else if String.eqb frame "enu" then
    let '(e, n, u) := ecef2enu x y z lat0 lon0 h0 ell deg in
    enu2body e n u yaw pitch roll sequence deg
  else if String.eqb frame "sez" then
    let '(s, e, z) := ecef2sez x y z lat0 lon0 h0 ell deg in
    sez2body s e z yaw pitch roll sequence deg
  else if String.eqb frame "nwu" then
    let '(n, w, u) := ecef2nwu x y z lat0 lon0 h0 ell deg in
    nwu2body n w u yaw pitch roll sequence deg
  else Raise ValueError.

(** body.py:193-223 *)
Definition body2ecef (xb yb zb lat0 lon0 h0 yaw pitch roll : R) (ell : option Ellipsoid)
    (frame sequence : string) (deg : bool) : result vec3 :=
  if String.eqb frame "ned" then
    rmap (fun '(n, e, d) => ned2ecef n e d lat0 lon0 h0 ell deg)
         (body2ned xb yb zb yaw pitch roll sequence deg)
  else if String.eqb frame "enu" then
    rmap (fun '(e, n, u) => enu2ecef e n u lat0 lon0 h0 ell deg)
         (body2enu xb yb zb yaw pitch roll sequence deg)
  else if String.eqb frame "sez" then
    rmap (fun '(s, e, z) => sez2ecef s e z lat0 lon0 h0 ell deg)
         (body2sez xb yb zb yaw pitch roll sequence deg)
  else if String.eqb frame "nwu" then
    rmap (fun '(n, w, u) => nwu2ecef n w u lat0 lon0 h0 ell deg)
         (body2nwu xb yb zb yaw pitch roll sequence deg)
  else Raise ValueError.

(** body.py:226-265 *)
Definition ecef2bodyv (x y z lat0 lon0 yaw pitch roll : R) (frame sequence : string)
    (deg : bool) : result vec3 :=
  rmap (fun m => matvec3 m (x, y, z))
       (ecef2body_rotation lat0 lon0 yaw pitch roll sequence frame deg).
Definition body2ecefv (xb yb zb lat0 lon0 yaw pitch roll : R) (frame sequence : string)
    (deg : bool) : result vec3 :=
  rmap (fun m => matvec3 m (xb, yb, zb))
       (body2ecef_rotation lat0 lon0 yaw pitch roll sequence frame deg).

(** body.py:268-298 *)
Definition geodetic2body (lat lon h lat0 lon0 h0 yaw pitch roll : R) (ell : option Ellipsoid)
    (frame sequence : string) (deg : bool) : result vec3 :=
  if String.eqb frame "ned" then
    let '(n, e, d) := geodetic2ned lat lon h lat0 lon0 h0 ell deg in
    ned2body n e d yaw pitch roll sequence deg
  else if String.eqb frame "enu" then
    let '(e, n, u) := geodetic2enu lat lon h lat0 lon0 h0 ell deg in
    enu2body e n u yaw pitch roll sequence deg
  else if String.eqb frame "sez" then
    let '(s, e, z) := geodetic2sez lat lon h lat0 lon0 h0 ell deg in
    sez2body s e z yaw pitch roll sequence deg
  else if String.eqb frame "nwu" then
    let '(n, w, u) := geodetic2nwu lat lon h lat0 lon0 h0 ell deg in
    nwu2body n w u yaw pitch roll sequence deg
  else Raise ValueError.

(** body.py:301-331 *)
Definition body2geodetic (xb yb zb lat0 lon0 h0 yaw pitch roll : R) (ell : option Ellipsoid)
    (frame sequence : string) (deg : bool) : result vec3 :=
  if String.eqb frame "ned" then
    rmap (fun '(n, e, d) => ned2geodetic n e d lat0 lon0 h0 ell deg)
         (body2ned xb yb zb yaw pitch roll sequence deg)
  else if String.eqb frame "enu" then
    rmap (fun '(e, n, u) => enu2geodetic e n u lat0 lon0 h0 ell deg)
         (body2enu xb yb zb yaw pitch roll sequence deg)
  else if String.eqb frame "sez" then
    rmap (fun '(s, e, z) => sez2geodetic s e z lat0 lon0 h0 ell deg)
         (body2sez xb yb zb yaw pitch roll sequence deg)
  else if String.eqb frame "nwu" then
    rmap (fun '(n, w, u) => nwu2geodetic n w u lat0 lon0 h0 ell deg)
         (body2nwu xb yb zb yaw pitch roll sequence deg)
  else Raise ValueError.
