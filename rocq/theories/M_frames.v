(** Model of src/pymap3d/frames.py *)
From Verif Require Import PyMath.
Open Scope R_scope.

(** A Python tuple of three row tuples. *)
Definition mat3 : Type := (vec3 * vec3 * vec3)%type.

(** m[i][j] *)
Definition v_at (v : vec3) (j : nat) : R :=
  let '(v0, v1, v2) := v in match j with 0%nat => v0 | 1%nat => v1 | _ => v2 end.
Definition m_at (m : mat3) (i j : nat) : R :=
  let '(r0, r1, r2) := m in v_at (match i with 0%nat => r0 | 1%nat => r1 | _ => r2 end) j.
(** tuple(f(i) for i in range(3)) *)
Definition tup3 {A} (f : nat -> A) : A * A * A := (f 0%nat, f 1%nat, f 2%nat).
(** sum(f(k) for k in range(3)) *)
Definition sum3 (f : nat -> R) : R := f 0%nat + f 1%nat + f 2%nat.

(** frames.py:8-13 *)
Definition matmul3 (a b : mat3) : mat3 :=
  tup3 (fun i => tup3 (fun j => sum3 (fun k => m_at a i k * m_at b k j))).
(** frames.py:16-19 *)
Definition transpose3 (m : mat3) : mat3 :=
  tup3 (fun i => tup3 (fun j => m_at m j i)).
(** frames.py:22-25 *)
Definition matvec3 (m : mat3) (v : vec3) : vec3 :=
  tup3 (fun i => sum3 (fun j => m_at m i j * v_at v j)).

(** frames.py:28-37 *)
Definition rotation_x (angle : R) : mat3 :=
  let c := cos angle in let s := sin angle in
  ((1, 0, 0), (0, c, - s), (0, s, c)).
(** frames.py:40-49 *)
Definition rotation_y (angle : R) : mat3 :=
  let c := cos angle in let s := sin angle in
  ((c, 0, s), (0, 1, 0), (- s, 0, c)).
(** frames.py:52-61 *)
Definition rotation_z (angle : R) : mat3 :=
  let c := cos angle in let s := sin angle in
  ((c, - s, 0), (s, c, 0), (0, 0, 1)).

(** frames.py:244-260 *)
Definition ENU2NED : mat3 := ((0, 1, 0), (1, 0, 0), (0, 0, -1)).
Definition ENU2SEZ : mat3 := ((0, -1, 0), (1, 0, 0), (0, 0, 1)).
Definition ENU2NWU : mat3 := ((0, 1, 0), (-1, 0, 0), (0, 0, 1)).

(** frames.py:64-80 *)
Definition ecef2enu_rotation (lat0 lon0 : R) (deg : bool) : mat3 :=
  let lat0 := rad_in deg lat0 in
  let lon0 := rad_in deg lon0 in
  let sin_lat := sin lat0 in let cos_lat := cos lat0 in
  let sin_lon := sin lon0 in let cos_lon := cos lon0 in
  ((- sin_lon, cos_lon, 0),
   (- sin_lat * cos_lon, - sin_lat * sin_lon, cos_lat),
   (cos_lat * cos_lon, cos_lat * sin_lon, sin_lat)).
(** frames.py:83-122 *)
Definition enu2ecef_rotation (lat0 lon0 : R) (deg : bool) : mat3 :=
  transpose3 (ecef2enu_rotation lat0 lon0 deg).
Definition ecef2ned_rotation (lat0 lon0 : R) (deg : bool) : mat3 :=
  matmul3 ENU2NED (ecef2enu_rotation lat0 lon0 deg).
Definition ned2ecef_rotation (lat0 lon0 : R) (deg : bool) : mat3 :=
  transpose3 (ecef2ned_rotation lat0 lon0 deg).
Definition ecef2sez_rotation (lat0 lon0 : R) (deg : bool) : mat3 :=
  matmul3 ENU2SEZ (ecef2enu_rotation lat0 lon0 deg).
Definition sez2ecef_rotation (lat0 lon0 : R) (deg : bool) : mat3 :=
  transpose3 (ecef2sez_rotation lat0 lon0 deg).
Definition ecef2nwu_rotation (lat0 lon0 : R) (deg : bool) : mat3 :=
  matmul3 ENU2NWU (ecef2enu_rotation lat0 lon0 deg).
Definition nwu2ecef_rotation (lat0 lon0 : R) (deg : bool) : mat3 :=
  transpose3 (ecef2nwu_rotation lat0 lon0 deg).

(** frames.py:125-143 *)
Definition ned2body_rotation (yaw pitch roll : R) (sequence : string) (deg : bool)
  : result mat3 :=
  if negb (String.eqb sequence "zyx") then Raise ValueError
  else
    let yaw := rad_in deg yaw in
    let pitch := rad_in deg pitch in
    let roll := rad_in deg roll in
    let body2ned := matmul3 (rotation_z yaw) (matmul3 (rotation_y pitch) (rotation_x roll)) in
    Ok (transpose3 body2ned).
Definition rmap {A B} (f : A -> B) (r : result A) : result B :=
  bind r (fun a => Ok (f a)).
(** frames.py:146-149 *)
Definition body2ned_rotation yaw pitch roll sequence deg : result mat3 :=
  rmap transpose3 (ned2body_rotation yaw pitch roll sequence deg).
(** frames.py:152-155 *)
Definition enu2body_rotation yaw pitch roll sequence deg : result mat3 :=
  rmap (fun m => matmul3 m ENU2NED) (ned2body_rotation yaw pitch roll sequence deg).
(** frames.py:158-161 *)
Definition body2enu_rotation yaw pitch roll sequence deg : result mat3 :=
  rmap transpose3 (enu2body_rotation yaw pitch roll sequence deg).
(** frames.py:164-167 *)
Definition sez2body_rotation yaw pitch roll sequence deg : result mat3 :=
  rmap (fun m => matmul3 m (transpose3 ENU2SEZ)) (enu2body_rotation yaw pitch roll sequence deg).
(** frames.py:170-173 *)
Definition body2sez_rotation yaw pitch roll sequence deg : result mat3 :=
  rmap transpose3 (sez2body_rotation yaw pitch roll sequence deg).
(** frames.py:176-179 *)
Definition nwu2body_rotation yaw pitch roll sequence deg : result mat3 :=
  rmap (fun m => matmul3 m (transpose3 ENU2NWU)) (enu2body_rotation yaw pitch roll sequence deg).
(** frames.py:182-185 *)
Definition body2nwu_rotation yaw pitch roll sequence deg : result mat3 :=
  rmap transpose3 (nwu2body_rotation yaw pitch roll sequence deg).

(** frames.py:188-215 *)
Definition ecef2body_rotation (lat0 lon0 yaw pitch roll : R) (sequence frame : string)
    (deg : bool) : result mat3 :=
  if String.eqb frame "ned" then
    rmap (fun m => matmul3 m (ecef2ned_rotation lat0 lon0 deg))
         (ned2body_rotation yaw pitch roll sequence deg)
  else if String.eqb frame "enu" then
    rmap (fun m => matmul3 m (ecef2enu_rotation lat0 lon0 deg))
         (enu2body_rotation yaw pitch roll sequence deg)
  else if String.eqb frame "sez" then
    rmap (fun m => matmul3 m (ecef2sez_rotation lat0 lon0 deg))
         (sez2body_rotation yaw pitch roll sequence deg)
  else if String.eqb frame "nwu" then
    rmap (fun m => matmul3 m (ecef2nwu_rotation lat0 lon0 deg))
         (nwu2body_rotation yaw pitch roll sequence deg)
  else Raise ValueError.
(** frames.py:218-241 *)
Definition body2ecef_rotation lat0 lon0 yaw pitch roll sequence frame deg : result mat3 :=
  rmap transpose3 (ecef2body_rotation lat0 lon0 yaw pitch roll sequence frame deg).
