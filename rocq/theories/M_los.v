(** Model of src/pymap3d/los.py *)
From Verif Require Import PyMath M_ellipsoid M_ecef M_enu.
Open Scope R_scope.

(** los.py:77-110, the numeric part for one element: the slant range and the
    ECEF intersection point, or [None] where the code computes NaN (los.py:96-107:
    negative radical, negative distance).  los.py:80 calls geodetic2ecef without
    [ell]: the observer is always placed with WGS-84. *)
Definition los_hit (lat0 lon0 h0 az tilt : R) (ell : option Ellipsoid) (deg : bool)
  : option (R * vec3) :=
  let e := resolve_ellipsoid ell in
  let a := semimajor_axis e in
  let b := semimajor_axis e in
  let c := semiminor_axis e in
  let el := if deg then tilt - 90 else tilt - PI / 2 in
  let '(e1, n1, u1) := aer2enu az el 1 deg in
  let '(u, v, w) := enu2uvw e1 n1 u1 lat0 lon0 deg in
  let '(x, y, z) := geodetic2ecef lat0 lon0 h0 None deg in
  let value := - a ^ 2 * b ^ 2 * w * z - a ^ 2 * c ^ 2 * v * y - b ^ 2 * c ^ 2 * u * x in
  let radical :=
    a ^ 2 * b ^ 2 * w ^ 2 + a ^ 2 * c ^ 2 * v ^ 2 - a ^ 2 * v ^ 2 * z ^ 2
    + 2 * a ^ 2 * v * w * y * z - a ^ 2 * w ^ 2 * y ^ 2 + b ^ 2 * c ^ 2 * u ^ 2
    - b ^ 2 * u ^ 2 * z ^ 2 + 2 * b ^ 2 * u * w * x * z - b ^ 2 * w ^ 2 * x ^ 2
    - c ^ 2 * u ^ 2 * y ^ 2 + 2 * c ^ 2 * u * v * x * y - c ^ 2 * v ^ 2 * x ^ 2 in
  let magnitude := a ^ 2 * b ^ 2 * w ^ 2 + a ^ 2 * c ^ 2 * v ^ 2 + b ^ 2 * c ^ 2 * u ^ 2 in
  if Rlt_dec radical 0 then None else
  let d := (value - a * b * c * sqrt radical) / magnitude in
  if Rlt_dec d 0 then None else
  Some (d, (x + d * u, y + d * v, z + d * w)).

(** los.py:15-117, Python float arguments; [Ok None] stands for the triple
    (NaN, NaN, NaN).  los.py:113 calls ecef2geodetic without [ell]. *)
Definition lookAtSpheroid (lat0 lon0 h0 az tilt : R) (ell : option Ellipsoid) (deg : bool)
  : result (option vec3) :=
  if Rlt_dec h0 0 then Raise ValueError else
  Ok (match los_hit lat0 lon0 h0 az tilt ell deg with
      | None => None
      | Some (d, (x, y, z)) =>
          let '(lat, lon, _) := ecef2geodetic x y z None deg in Some (lat, lon, d)
      end).

(** los.py:62-68: [(h0 < 0).any()] *)
Definition any_negative (hs : list R) : bool :=
  existsb (fun h => if Rlt_dec h 0 then true else false) hs.

(** los.py:15-117 for array arguments of one common length: each element is
    (lat0, lon0, h0, az, tilt); the masks of los.py:96-107 act per element. *)
Definition lookAtSpheroid_array (obs : list (R * R * R * R * R)) (ell : option Ellipsoid) (deg : bool)
  : result (list (option vec3)) :=
  if any_negative (map (fun '(_, _, h0, _, _) => h0) obs) then Raise ValueError else
  Ok (map (fun '(lat0, lon0, h0, az, tilt) =>
        match los_hit lat0 lon0 h0 az tilt ell deg with
        | None => None
        | Some (d, (x, y, z)) =>
            let '(lat, lon, _) := ecef2geodetic_lane x y z None deg in Some (lat, lon, d)
        end) obs).
