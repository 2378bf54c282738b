(** Model of src/pymap3d/eci.py and of the ECI entry points of ecef.py and
    aer.py, on the path that does not use astropy (astropy not importable, or
    force_non_astropy=True where the function has that argument). *)
From Verif Require Import PyMath M_ellipsoid M_ecef M_aer M_time M_frames M_earth.
Open Scope R_scope.

(** eci.py:27-79 with 99-116 for scalar arguments: [_apply_rotation] wraps the
    scalars in length-1 arrays and [_squeeze_xyz] unwraps them. *)
Definition eci2ecef (x y z : R) (time : datetime) (delta_ut1 xp yp : R) : result vec3 :=
  bind (eci_to_ecef_matrix time delta_ut1 xp yp) (fun rotation =>
  Ok (eo_matvec3 rotation (x, y, z))).
(** eci.py:119-170 with 184-199 *)
Definition ecef2eci (x y z : R) (time : datetime) (delta_ut1 xp yp : R) : result vec3 :=
  bind (eci_to_ecef_matrix time delta_ut1 xp yp) (fun m =>
  let rotation := eo_transpose3 m in
  Ok (eo_matvec3 rotation (x, y, z))).

(** eci.py:474-501 *)
Definition apply_state_rotation_scalar (rotation rotation_rate : mat3)
    (p v : vec3) (inverse : bool) : vec3 * vec3 :=
  if inverse then
    let position := eo_matvec3 (eo_transpose3 rotation) p in
    let coriolis := eo_matvec3 rotation_rate position in
    let velocity := eo_matvec3 (eo_transpose3 rotation)
      (v_at v 0 - v_at coriolis 0, v_at v 1 - v_at coriolis 1, v_at v 2 - v_at coriolis 2) in
    (position, velocity)
  else
    let position := eo_matvec3 rotation p in
    let spin := eo_matvec3 rotation_rate p in
    let rotated_velocity := eo_matvec3 rotation v in
    let velocity := tup3 (fun i => v_at rotated_velocity i + v_at spin i) in
    (position, velocity).

(** eci.py:202-239 with 268-295 / 298-335 with 364-391, scalar arguments. *)
Definition state_numpy (p v : vec3) (t : datetime) (delta_ut1 xp yp : R) (inverse : bool)
  : result (vec3 * vec3) :=
  bind (eci_to_ecef_matrix t delta_ut1 xp yp) (fun rotation =>
  bind (eci_to_ecef_matrix_rate t delta_ut1 xp yp 0.5) (fun rotation_rate =>
  Ok (apply_state_rotation_scalar rotation rotation_rate p v inverse))).
Definition eci2ecef_state (p v : vec3) (t : datetime) (delta_ut1 xp yp : R) :=
  state_numpy p v t delta_ut1 xp yp false.
Definition ecef2eci_state (p v : vec3) (t : datetime) (delta_ut1 xp yp : R) :=
  state_numpy p v t delta_ut1 xp yp true.

(** A NumPy array: shape and row-major data. *)
Record ndarray := mknd { shape : list nat; data : list R }.
Definition size_of (s : list nat) : nat := fold_right Nat.mul 1%nat s.
(** ndarray.reshape *)
Definition reshape (l : list R) (s : list nat) : result ndarray :=
  if Nat.eqb (size_of s) (List.length l) then Ok (mknd s l) else Raise ValueError.
(** ndarray.squeeze *)
Definition squeeze (a : ndarray) : ndarray :=
  mknd (filter (fun n => negb (Nat.eqb n 1)) (shape a)) (data a).
Definition same_shape (a b : ndarray) : bool :=
  if list_eq_dec Nat.eq_dec (shape a) (shape b) then true else false.
(** numpy.column_stack((x.ravel(), y.ravel(), z.ravel())) as a list of rows *)
Definition rows3 (x y z : ndarray) : list vec3 :=
  map (fun '(a, (b, c)) => (a, b, c)) (combine (data x) (combine (data y) (data z))).
Definition col (k : nat) (rows : list vec3) : list R := map (fun r => v_at r k) rows.

(** eci.py:394-416 (arguments already at least one-dimensional), then
    [_squeeze_xyz] (eci.py:504-510). *)
Definition apply_rotation_array (rotation : mat3) (x y z : ndarray)
  : result (ndarray * ndarray * ndarray) :=
  if negb (same_shape x y && same_shape y z) then Raise AssertionError
  else
    let vout := map (eo_matvec3 rotation) (rows3 x y z) in
    bind (reshape (col 0 vout) (shape x)) (fun xo =>
    bind (reshape (col 1 vout) (shape y)) (fun yo =>
    bind (reshape (col 2 vout) (shape z)) (fun zo =>
    Ok (squeeze xo, squeeze yo, squeeze zo)))).
Definition eci2ecef_array (x y z : ndarray) (time : datetime) (delta_ut1 xp yp : R) :=
  bind (eci_to_ecef_matrix time delta_ut1 xp yp) (fun m => apply_rotation_array m x y z).
Definition ecef2eci_array (x y z : ndarray) (time : datetime) (delta_ut1 xp yp : R) :=
  bind (eci_to_ecef_matrix time delta_ut1 xp yp)
       (fun m => apply_rotation_array (eo_transpose3 m) x y z).

(** eci.py:438-471 then [_squeeze_state].  The loop assigns to x, y, z, vx, vy,
    vz, so that after at least one iteration [x.shape] etc. are the shape () of
    NumPy scalars; [shp] is the value of [x.shape] (and of the others) read on
    lines 465-470. *)
Definition apply_state_rotation_array (rotation rotation_rate : mat3)
    (x y z vx vy vz : ndarray) (inverse : bool)
  : result (ndarray * ndarray * ndarray * (ndarray * ndarray * ndarray)) :=
  if negb (same_shape x y && same_shape y z && same_shape z vx && same_shape vx vy
           && same_shape vy vz) then Raise AssertionError
  else
    let rows := combine (rows3 x y z) (rows3 vx vy vz) in
    let out := map (fun '(p, v) =>
      apply_state_rotation_scalar rotation rotation_rate p v inverse) rows in
    let shp := match rows with [] => shape x | _ :: _ => [] end in
    bind (reshape (col 0 (map fst out)) shp) (fun xo =>
    bind (reshape (col 1 (map fst out)) shp) (fun yo =>
    bind (reshape (col 2 (map fst out)) shp) (fun zo =>
    bind (reshape (col 0 (map snd out)) shp) (fun vxo =>
    bind (reshape (col 1 (map snd out)) shp) (fun vyo =>
    bind (reshape (col 2 (map snd out)) shp) (fun vzo =>
    Ok (squeeze xo, squeeze yo, squeeze zo, (squeeze vxo, squeeze vyo, squeeze vzo)))))))).
Definition state_array (x y z vx vy vz : ndarray) (t : datetime) (delta_ut1 xp yp : R)
    (inverse : bool) :=
  bind (eci_to_ecef_matrix t delta_ut1 xp yp) (fun rotation =>
  bind (eci_to_ecef_matrix_rate t delta_ut1 xp yp 0.5) (fun rotation_rate =>
  apply_state_rotation_array rotation rotation_rate x y z vx vy vz inverse)).

(** ecef.py:445-497 *)
Definition eci2geodetic (x y z : R) (t : datetime) (ell : option Ellipsoid) (deg : bool)
    (delta_ut1 xp yp : R) : result vec3 :=
  bind (eci2ecef x y z t delta_ut1 xp yp) (fun '(xecef, yecef, zecef) =>
  Ok (ecef2geodetic xecef yecef zecef ell deg)).
(** ecef.py:500-552; line 552 calls [ecef2eci(x, y, z, t)] without the Earth
    orientation arguments. *)
Definition geodetic2eci (lat lon alt : R) (t : datetime) (ell : option Ellipsoid) (deg : bool)
    (delta_ut1 xp yp : R) : result vec3 :=
  let '(x, y, z) := geodetic2ecef lat lon alt ell deg in
  ecef2eci x y z t 0 0 0.
(** aer.py:169-225 (no [ell] argument: WGS-84) *)
Definition eci2aer (x y z lat0 lon0 h0 : R) (t : datetime) (deg : bool)
    (delta_ut1 xp yp : R) : result vec3 :=
  bind (eci2ecef x y z t delta_ut1 xp yp) (fun '(xe, ye, ze) =>
  Ok (ecef2aer xe ye ze lat0 lon0 h0 None deg)).
(** aer.py:228-288 *)
Definition aer2eci (az el srange lat0 lon0 h0 : R) (t : datetime) (ell : option Ellipsoid)
    (deg : bool) (delta_ut1 xp yp : R) : result vec3 :=
  let '(x, y, z) := aer2ecef az el srange lat0 lon0 h0 ell deg in
  ecef2eci x y z t delta_ut1 xp yp.
