(** NumPy array arguments of the functions that write into arrays in place, with the
    contents of the caller's arrays after the call.

    The other in-place writes of the package (ecef.py:176-202, eci.py:410-462,
    latitude.py:233, los.py:101-109, lox.py:169,255, vincenty.py:137,174-175,244,252,436)
    target arrays the function itself has just created. *)
From Verif Require Import PyMath M_ellipsoid M_enu M_vincenty.
Open Scope R_scope.

(** ned.py:59-85 on arrays: [enu2aer(e, n, -d)] hands over the caller's e and n, and a new
    array for -d.  Result and final contents of (n, e, d). *)
Definition ned2aer_array (ns es ds : list R) (deg : bool) : list vec3 * (list R * list R * list R) :=
  let '(r, (es', ns', _)) := enu2aer_array es ns (map Ropp ds) deg in (r, (ns', es', ds)).
(** nwu.py:33-38: [enu2aer(-w, n, u)].  Final contents of (n, w, u). *)
Definition nwu2aer_array (ns ws us : list R) (deg : bool) : list vec3 * (list R * list R * list R) :=
  let '(r, (_, ns', us')) := enu2aer_array (map Ropp ws) ns us deg in (r, (ns', ws, us')).
(** sez.py:33-38: [enu2aer(e, -s, z)].  Final contents of (s, e, z). *)
Definition sez2aer_array (ss es zs : list R) (deg : bool) : list vec3 * (list R * list R * list R) :=
  let '(r, (es', _, zs')) := enu2aer_array es (map Ropp ss) zs deg in (r, (ss, es', zs')).
(** vincenty.py:337-358 on an array of start latitudes: its contents after vreckon's guard
    and pole adjustment (nothing later writes to it).  [None]: the guard raised ValueError. *)
Definition vreckon_lat1_after (lat1s : list R) (deg : bool) : option (list R) :=
  if existsb lat_out_of_range (map (rad_in deg) lat1s) then None
  else Some (if deg then lat1s else map nudge_pole lat1s).
