(** Model of src/pymap3d/lox.py (scalar arguments; all operations are
    element-wise for arrays except [meanm], which takes arrays).

    A NaN or infinite coordinate in a result is [None]. *)
From Verif Require Import PyMath M_ellipsoid M_rcurve M_rsphere M_latitude M_utils M_nvector.
Open Scope R_scope.

(** lox.py:37 *)
Definition LOX_COS_EPS : R := 1 / 1000000000.

(** lox.py:61-91 *)
Definition meridian_arc (lat1 lat2 : R) (ell : option Ellipsoid) (deg : bool) : R :=
  let lat1 := rad_in deg lat1 in
  let lat2 := rad_in deg lat2 in
  let rlat1 := geodetic2rectifying lat1 ell false in
  let rlat2 := geodetic2rectifying lat2 ell false in
  rectifying ell * Rabs (rlat2 - rlat1).

(** lox.py:40-58 *)
Definition meridian_dist (lat : R) (ell : option Ellipsoid) (deg : bool) : R :=
  meridian_arc 0 lat ell deg.

(** lox.py:271-307; mathfun.minimum is the smaller of two numbers. *)
Definition departure (lon1 lon2 lat : R) (ell : option Ellipsoid) (deg : bool) : R :=
  let lon1 := rad_in deg lon1 in
  let lon2 := rad_in deg lon2 in
  let lat := rad_in deg lat in
  let dlon := py_mod (lon2 - lon1) (2 * PI) in
  let dlon := Rmin dlon (2 * PI - dlon) in
  let adist := parallel lat ell false in
  adist * dlon.

(** Float subtraction of two possibly infinite numbers; None is NaN. *)
Definition xsub (x y : xreal) : option xreal :=
  match x, y with
  | Fin a, Fin b => Some (Fin (a - b))
  | Fin _, PInf => Some MInf
  | Fin _, MInf => Some PInf
  | PInf, PInf => None
  | PInf, _ => Some PInf
  | MInf, MInf => None
  | MInf, _ => Some MInf
  end.
(** atan2(y, x) with x possibly infinite (y is finite here). *)
Definition xatan2 (y : R) (x : xreal) : R :=
  match x with
  | Fin v => atan2 y v
  | PInf => 0
  | MInf => if Rle_dec 0 y then PI else - PI
  end.

(** lox.py:94-180.  None: both results are NaN (both points at the same pole). *)
Definition loxodrome_inverse (lat1 lon1 lat2 lon2 : R) (ell : option Ellipsoid) (deg : bool)
  : option (R * R) :=
  let lat1 := rad_in deg lat1 in
  let lon1 := rad_in deg lon1 in
  let lat2 := rad_in deg lat2 in
  let lon2 := rad_in deg lon2 in
  match xsub (geodetic2isometric lat2 ell false) (geodetic2isometric lat1 ell false) with
  | None => None
  | Some disolat =>
      let dlon := lon2 - lon1 in
      let az12 := xatan2 dlon disolat in
      let aux := Rabs (cos az12) in
      let dist := meridian_arc lat2 lat1 ell false / aux in
      let dist := if Rlt_dec aux LOX_COS_EPS then departure lon2 lon1 lat1 ell false else dist in
      let az12 := if deg then py_mod (degrees az12) 360 else az12 in
      Some (dist, az12)
  end.

(** lox.py:252,260: [tan(a12) * (newiso - iso)] is NaN or infinite unless both
    isometric latitudes are finite. *)
Definition lox_dlon (t : R) (newiso iso : xreal) : option R :=
  match newiso, iso with
  | Fin x, Fin y => Some (t * (x - y))
  | _, _ => None
  end.

(** lox.py:183-268.  [parallel] is 0 at the poles, where the division on line
    255/258 gives an infinite or NaN longitude. *)
Definition loxodrome_direct (lat1 lon1 rng a12 : R) (ell : option Ellipsoid) (deg : bool)
  : result (R * option R) :=
  let lat1 := rad_in deg lat1 in
  let lon1 := rad_in deg lon1 in
  let a12 := rad_in deg a12 in
  let a12 := py_mod a12 tau in
  if Rlt_dec (PI / 2) (Rabs lat1) then Raise ValueError
  else if Rlt_dec rng 0 then Raise ValueError
  else
    let reclat := geodetic2rectifying lat1 ell false in
    let cosaz := cos a12 in
    let lat2 := reclat + (rng / rectifying ell) * cosaz in
    let lat2 := rectifying2geodetic lat2 ell false in
    let newiso := geodetic2isometric lat2 ell false in
    let iso := geodetic2isometric lat1 ell false in
    let dlon :=
      if Rlt_dec (Rabs (cos a12)) LOX_COS_EPS then
        (if Req_EM_T (parallel lat1 ell false) 0 then None
         else Some (sign (PI - a12) * rng / parallel lat1 ell false))
      else lox_dlon (tan a12) newiso iso in
    let lon2 := match dlon with None => None | Some d => Some (lon1 + d) end in
    Ok (deg_out deg lat2, match lon2 with None => None | Some l => Some (deg_out deg l) end).

(** lox.py:310-344 *)
Definition meanm (lats lons : list R) (ell : option Ellipsoid) (deg : bool) : R * R :=
  let lats := map (rad_in deg) lats in
  let lons := map (rad_in deg) lons in
  let lats := map (fun l => geodetic2authalic l ell false) lats in
  let pts := map (fun '(lon, lat) => sph2cart lon lat 1) (combine lons lats) in
  let x := py_sum (map (fun '(x, _, _) => x) pts) in
  let y := py_sum (map (fun '(_, y, _) => y) pts) in
  let z := py_sum (map (fun '(_, _, z) => z) pts) in
  let '(lonbar, latbar, _) := cart2sph x y z in
  let latbar := authalic2geodetic latbar ell false in
  (deg_out deg latbar, deg_out deg lonbar).
