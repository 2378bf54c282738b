(** Model of src/pymap3d/haversine.py *)
From Verif Require Import PyMath.
Open Scope R_scope.

(** haversine.py:124-143 *)
Definition haversine (theta : R) : R := (1 - cos theta) / 2.

(** haversine.py:26-72 *)
Definition anglesep_meeus (lon0 lat0 lon1 lat1 : R) (deg : bool) : R :=
  let lon0 := rad_in deg lon0 in
  let lat0 := rad_in deg lat0 in
  let lon1 := rad_in deg lon1 in
  let lat1 := rad_in deg lat1 in
  let sep_rad :=
    2 * asin (sqrt (haversine (lat0 - lat1) + cos lat0 * cos lat1 * haversine (lon0 - lon1))) in
  deg_out deg sep_rad.

(** haversine.py:75-121.  [astropy] is astropy's [angular_separation] when that
    package is loaded ("astropy" in sys.modules), an external function. *)
Definition anglesep (astropy : option (R -> R -> R -> R -> R))
    (lon0 lat0 lon1 lat1 : R) (deg force_non_astropy : bool) : R :=
  let lon0 := rad_in deg lon0 in
  let lat0 := rad_in deg lat0 in
  let lon1 := rad_in deg lon1 in
  let lat1 := rad_in deg lat1 in
  let sep_rad :=
    match astropy, force_non_astropy with
    | Some angular_separation, false => angular_separation lon0 lat0 lon1 lat1
    | _, _ => anglesep_meeus lon0 lat0 lon1 lat1 false
    end in
  deg_out deg sep_rad.
