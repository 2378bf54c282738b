(** Model of src/pymap3d/sidereal.py and src/pymap3d/vallado.py on the path
    without astropy; times are datetime objects (str2dt is the identity on
    them; ISO strings and numpy.datetime64 are not modelled). *)
From Verif Require Import PyMath M_time M_earth.
Open Scope R_scope.

(** sidereal.py:71-74 with 89-99 *)
Definition datetime2sidereal (time : datetime) (lon_radians delta_ut1 : R) : result R :=
  bind (bind (utc_with_offset time delta_ut1) juliandate) (fun jd_ut1 =>
  bind (bind (utc_to_tt time) juliandate) (fun jd_tt =>
  let gst := greenwich_apparent_sidereal_time jd_ut1 jd_tt in
  Ok (py_mod (gst + lon_radians) tau))).

(** [list comprehension] over calls that may raise: the first exception wins. *)
Fixpoint map_result {A B} (f : A -> result B) (l : list A) : result (list B) :=
  match l with
  | [] => Ok []
  | x :: l' => bind (f x) (fun y => bind (map_result f l') (fun ys => Ok (y :: ys)))
  end.
(** sidereal.py:60-69 *)
Definition datetime2sidereal_list (times : list datetime) (lon_radians delta_ut1 : R) :=
  map_result (fun t => datetime2sidereal t lon_radians delta_ut1) times.
(** sidereal.py:121-122 *)
Definition juliandate_list (times : list datetime) := map_result juliandate times.
(** sidereal.py:127-148 *)
Definition greenwichsrt (Jdate : R) : R := greenwich_mean_sidereal_time Jdate.
Definition greenwichsrt_list (l : list R) : list R := map greenwichsrt l.

(** vallado.py:21-78 *)
Definition azel2radec (az_deg el_deg lat_deg lon_deg : R) (time : datetime) (delta_ut1 : R)
  : result (R * R) :=
  if Rlt_dec 90 (Rabs lat_deg) then Raise ValueError
  else
    let az := radians az_deg in
    let el := radians el_deg in
    let lat := radians lat_deg in
    let lon := radians lon_deg in
    let dec := asin (sin el * sin lat + cos el * cos lat * cos az) in
    let lha := atan2 (- (sin az * cos el) / cos dec)
                     ((sin el - sin lat * sin dec) / (cos dec * cos lat)) in
    bind (datetime2sidereal time lon delta_ut1) (fun lst =>
    Ok (py_mod (degrees (lst - lha)) 360, degrees dec)).

(** vallado.py:81-138 *)
Definition radec2azel (ra_deg dec_deg lat_deg lon_deg : R) (time : datetime) (delta_ut1 : R)
  : result (R * R) :=
  if Rlt_dec 90 (Rabs lat_deg) then Raise ValueError
  else
    let ra := radians ra_deg in
    let dec := radians dec_deg in
    let lat := radians lat_deg in
    let lon := radians lon_deg in
    bind (datetime2sidereal time lon delta_ut1) (fun lst =>
    let lha := lst - ra in
    let el := asin (sin lat * sin dec + cos lat * cos dec * cos lha) in
    let az := atan2 (- sin lha * cos dec / cos el)
                    ((sin dec - sin el * sin lat) / (cos el * cos lat)) in
    Ok (py_mod (degrees az) 360, degrees el)).
