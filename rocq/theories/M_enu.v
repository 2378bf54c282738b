(** Model of src/pymap3d/enu.py *)
From Verif Require Import PyMath M_ellipsoid M_ecef M_frames.
Open Scope R_scope.

(** enu.py:54-62: values smaller than 1 mm in magnitude become 0. *)
Definition zero_trim (v : R) : R := if Rlt_dec (Rabs v) (1 / 1000) then 0 else v.

(** enu.py:25-78, Python float arguments. *)
Definition enu2aer (e n u : R) (deg : bool) : vec3 :=
  let e := zero_trim e in
  let n := zero_trim n in
  let u := zero_trim u in
  let r := hypot e n in
  let slantRange := hypot r u in
  let elev := atan2 u r in
  let az := py_mod (atan2 e n) tau in
  (deg_out deg az, deg_out deg elev, slantRange).

(** enu.py:54-58,65: array arguments.  [x[abs(x) < 1e-3] = 0.0] writes into the
    caller's arrays; the second component is the contents of the three argument
    arrays after the call. *)
Definition enu2aer_array (es ns us : list R) (deg : bool)
  : list vec3 * (list R * list R * list R) :=
  let es' := map zero_trim es in
  let ns' := map zero_trim ns in
  let us' := map zero_trim us in
  (map (fun '(e, (n, u)) => enu2aer e n u deg) (combine es' (combine ns' us')),
   (es', ns', us')).

(** enu.py:81-112 *)
Definition aer2enu (az el srange : R) (deg : bool) : vec3 :=
  let el := rad_in deg el in
  let az := rad_in deg az in
  let r := srange * cos el in
  (r * sin az, r * cos az, srange * sin el).

(** enu.py:115-160 *)
Definition enu2geodetic (e n u lat0 lon0 h0 : R) (ell : option Ellipsoid) (deg : bool) : vec3 :=
  let '(x, y, z) := enu2ecef e n u lat0 lon0 h0 ell deg in
  ecef2geodetic x y z ell deg.

(** enu.py:163-206 *)
Definition geodetic2enu (lat lon h lat0 lon0 h0 : R) (ell : option Ellipsoid) (deg : bool) : vec3 :=
  let '(x1, y1, z1) := geodetic2ecef lat lon h ell deg in
  let '(x2, y2, z2) := geodetic2ecef lat0 lon0 h0 ell deg in
  uvw2enu (x1 - x2) (y1 - y2) (z1 - z2) lat0 lon0 deg.

(** enu.py:209-248 *)
Definition enu2ecefv (e n u lat0 lon0 : R) (deg : bool) : vec3 :=
  let lat0 := rad_in deg lat0 in
  let lon0 := rad_in deg lon0 in
  let x := - sin lon0 * e - sin lat0 * cos lon0 * n + cos lat0 * cos lon0 * u in
  let y := cos lon0 * e - sin lat0 * sin lon0 * n + cos lat0 * sin lon0 * u in
  let z := cos lat0 * n + sin lat0 * u in
  (x, y, z).

(** enu.py:251-264 *)
Definition ecef2enu_matrix := ecef2enu_rotation.
Definition enu2ecef_matrix := enu2ecef_rotation.
