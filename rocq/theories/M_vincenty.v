(** Model of src/pymap3d/vincenty.py and of rsphere.euler (which calls vdist). *)
From Verif Require Import PyMath M_ellipsoid M_rcurve.
Open Scope R_scope.

(** vincenty.py:109-128, 345-358: the test |lat| > pi/2, and the pole adjustment. *)
Definition lat_out_of_range (lat : R) : bool := if Rlt_dec (PI / 2) (Rabs lat) then true else false.
Definition nudge_pole (lat : R) : R :=
  if Rlt_dec (Rabs (PI / 2 - Rabs lat)) (1 / 10 ^ 10) then sign lat * (PI / 2 - 1 / 10 ^ 10) else lat.

(** vincenty.py:130-131 *)
Definition reduced_lat (f lat : R) : R := atan ((1 - f) * tan lat).
(** vincenty.py:132-140 *)
Definition lon_gap (lon1 lon2 : R) : R :=
  let L := Rabs (py_mod lon2 (2 * PI) - py_mod lon1 (2 * PI)) in
  if Rlt_dec PI L then 2 * PI - L else L.

(** vincenty.py:157-166 *)
Definition v_sigma (U1 U2 lamb : R) : R :=
  let sinsigma := sqrt ((cos U2 * sin lamb) ^ 2 + (cos U1 * sin U2 - sin U1 * cos U2 * cos lamb) ^ 2) in
  let cossigma := sin U1 * sin U2 + cos U1 * cos U2 * cos lamb in
  atan2 sinsigma cossigma.
(** vincenty.py:168-190, float arguments: the assignments [alpha[...] = ...] raise
    TypeError on scalars, so this branch always decides.  The division raises only
    when sin(sigma) = 0. *)
Definition v_sinAlpha (U1 U2 lamb : R) : R :=
  if Req_EM_T (sin (v_sigma U1 U2 lamb)) 0 then 0
  else cos U1 * cos U2 * sin lamb / sin (v_sigma U1 U2 lamb).
Definition v_alpha (sinAlpha : R) : R :=
  if Rlt_dec 1 sinAlpha then PI / 2
  else if Rlt_dec (Rabs (sinAlpha - 1)) (1 / 10 ^ 16) then PI / 2
  else asin sinAlpha.
(** vincenty.py:192.  For alpha = pi/2 the float cos(alpha) is 6e-17 and the
    quotient is 0 for points on the equator; Coq's x / 0 = 0 gives the same. *)
Definition v_cos2sigmam (U1 U2 lamb alpha : R) : R :=
  cos (v_sigma U1 U2 lamb) - 2 * sin U1 * sin U2 / cos alpha ^ 2.
(** vincenty.py:194-198 *)
Definition v_C (f alpha : R) : R := f / 16 * cos alpha ^ 2 * (4 + f * (4 - 3 * cos alpha ^ 2)).
Definition v_lamb (f L sigma alpha cos2sigmam : R) : R :=
  let C := v_C f alpha in
  L + (1 - C) * f * sin alpha *
    (sigma + C * sin sigma * (cos2sigmam + C * cos sigma * (-1 + 2 * cos2sigmam ^ 2))).

(** The loop state used after the loop: sigma, alpha, cos2sigmam. *)
Definition vstate : Type := (R * R * R)%type.

(** vincenty.py:142-217, the while loop.  [n] is the number of iterations still
    allowed: the code gives up when itercount exceeds 50 and sets lamb = pi. *)
Fixpoint vdist_loop (n : nat) (f L U1 U2 lamb : R) (last : vstate) : R * vstate :=
  match n with
  | O => (PI, last)
  | S n' =>
      let sigma := v_sigma U1 U2 lamb in
      let alpha := v_alpha (v_sinAlpha U1 U2 lamb) in
      let c2 := v_cos2sigmam U1 U2 lamb alpha in
      let lamb' := v_lamb f L sigma alpha c2 in
      if Rlt_dec PI lamb' then (PI, (sigma, alpha, c2))
      else if Rlt_dec (1 / 10 ^ 12) (Rabs (lamb' - lamb)) then vdist_loop n' f L U1 U2 lamb' (sigma, alpha, c2)
      else (lamb', (sigma, alpha, c2))
  end.

(** vincenty.py:220-221 (also 371-372) *)
Definition vin_A (u2 : R) : R := 1 + u2 / 16384 * (4096 + u2 * (-768 + u2 * (320 - 175 * u2))).
Definition vin_B (u2 : R) : R := u2 / 1024 * (256 + u2 * (-128 + u2 * (74 - 47 * u2))).
(** vincenty.py:222-234 (also 390-406) *)
Definition vin_deltasigma (B sinsig cossig c2 : R) : R :=
  B * sinsig * (c2 + B / 4 * (cossig * (-1 + 2 * c2 ^ 2)
    - B / 6 * c2 * (-3 + 4 * sinsig ^ 2) * (-3 + 4 * c2 ^ 2))).
(** vincenty.py:219-236 *)
Definition vdist_length (a b : R) (s : vstate) : R :=
  let '(sigma, alpha, c2) := s in
  let u2 := cos alpha ^ 2 * (a ^ 2 - b ^ 2) / b ^ 2 in
  b * vin_A u2 * (sigma - vin_deltasigma (vin_B u2) (sin sigma) (cos sigma) c2).
(** vincenty.py:240-252 *)
Definition vdist_azimuth (U1 U2 lon1 lon2 lamb : R) : R :=
  let lamb := Rabs lamb in
  let lamb := if Rlt_dec (sign (sin (py_mod lon2 (2 * PI) - py_mod lon1 (2 * PI))) * sign (sin lamb)) 0 then - lamb else lamb in
  py_mod (atan2 (cos U2 * sin lamb) (cos U1 * sin U2 - sin U1 * cos U2 * cos lamb)) tau.

(** vincenty.py:25-257, Python float arguments. *)
Definition vdist (lat1 lon1 lat2 lon2 : R) (ell : option Ellipsoid) (deg : bool) : result (R * R) :=
  let e := resolve_ellipsoid ell in
  let f := flattening e in
  let lat1 := rad_in deg lat1 in
  let lon1 := rad_in deg lon1 in
  let lat2 := rad_in deg lat2 in
  let lon2 := rad_in deg lon2 in
  if (lat_out_of_range lat1 || lat_out_of_range lat2)%bool then Raise ValueError else
  let U1 := reduced_lat f (nudge_pole lat1) in
  let U2 := reduced_lat f (nudge_pole lat2) in
  let L := lon_gap lon1 lon2 in
  let '(lamb, s) := vdist_loop 50 f L U1 U2 L (0, 0, 0) in
  Ok (vdist_length (semimajor_axis e) (semiminor_axis e) s,
      deg_out deg (vdist_azimuth U1 U2 lon1 lon2 lamb)).

(** vincenty.py:168-190 for arrays: when any element has sin(sigma) = 0 the
    division (one array expression) warns, the warning is an error, and the handler sets the one number
    sinAlpha = 0.0 for the whole array. *)
Definition any_sin0 (lanes : list (R * R * R)) (lambs : list R) : bool :=
  existsb (fun '((U1, U2, _), lamb) => if Req_EM_T (sin (v_sigma U1 U2 lamb)) 0 then true else false)
    (combine lanes lambs).
(** One iteration on all elements; a lane is (U1, U2, L). *)
Definition vdist_step (f : R) (zero_alpha : bool) (ln : (R * R * R) * R) : R * vstate :=
  let '((U1, U2, L), lamb) := ln in
  let sigma := v_sigma U1 U2 lamb in
  let alpha := if zero_alpha then 0 else v_alpha (v_sinAlpha U1 U2 lamb) in
  let c2 := v_cos2sigmam U1 U2 lamb alpha in
  (v_lamb f L sigma alpha c2, (sigma, alpha, c2)).
(** vincenty.py:142-217 for arrays.  [inl]: the loop ended with an array of
    longitudes; [inr]: it ended with the one number lamb = pi (an element above pi,
    or 50 iterations used up). *)
Fixpoint vdist_loop_array (n : nat) (f : R) (lanes : list (R * R * R)) (lambs : list R) (last : list vstate)
  : (list R + unit) * list vstate :=
  match n with
  | O => (inr tt, last)
  | S n' =>
      let r := map (vdist_step f (any_sin0 lanes lambs)) (combine lanes lambs) in
      let lambs' := map fst r in
      let st := map snd r in
      if existsb (fun l => if Rlt_dec PI l then true else false) lambs' then (inr tt, st)
      else if existsb (fun '(l', l) => if Rlt_dec (1 / 10 ^ 12) (Rabs (l' - l)) then true else false) (combine lambs' lambs)
      then vdist_loop_array n' f lanes lambs' st
      else (inl lambs', st)
  end.
(** vincenty.py:25-257 for 1-D array arguments of equal length: pairs
    (lat1, lon1, lat2, lon2).  With lamb a single float, [lamb[i] = ...] raises
    TypeError and the handler's [if array < 0] is a ValueError unless the array
    has exactly one element (vincenty.py:242-247).
    The second component is the contents of the caller's lat1 and lat2 arrays after
    the call: with deg=False the pole adjustment (vincenty.py:116-128) writes into them. *)
Definition vdist_array (pts : list (R * R * R * R)) (ell : option Ellipsoid) (deg : bool)
  : result (list (R * R)) * (list R * list R) :=
  let e := resolve_ellipsoid ell in
  let f := flattening e in
  let lat1s := map (fun '(lat1, _, _, _) => rad_in deg lat1) pts in
  let lat2s := map (fun '(_, _, lat2, _) => rad_in deg lat2) pts in
  let orig := (map (fun '(lat1, _, _, _) => lat1) pts, map (fun '(_, _, lat2, _) => lat2) pts) in
  if (existsb lat_out_of_range lat1s || existsb lat_out_of_range lat2s)%bool then (Raise ValueError, orig) else
  let after := if deg then orig else (map nudge_pole lat1s, map nudge_pole lat2s) in
  let lanes := map (fun '(lat1, lon1, lat2, lon2) =>
      (reduced_lat f (nudge_pole (rad_in deg lat1)), reduced_lat f (nudge_pole (rad_in deg lat2)),
       lon_gap (rad_in deg lon1) (rad_in deg lon2))) pts in
  let lambs := map (fun '(_, _, L) => L) lanes in
  let az := fun '((lat1, lon1, lat2, lon2), lamb) =>
      deg_out deg (vdist_azimuth (reduced_lat f (nudge_pole (rad_in deg lat1)))
        (reduced_lat f (nudge_pole (rad_in deg lat2))) (rad_in deg lon1) (rad_in deg lon2) lamb) in
  let len := fun s => vdist_length (semimajor_axis e) (semiminor_axis e) s in
  match vdist_loop_array 50 f lanes lambs [] with
  | (inl ls, st) => (Ok (combine (map len st) (map az (combine pts ls))), after)
  | (inr _, st) =>
      match pts with
      | [p] => (Ok (combine (map len st) [az (p, PI)]), after)
      | _ => (Raise ValueError, after)
      end
  end.

(** ** vreckon *)
(** vincenty.py:360-372: the quantities fixed before the loop, from the start
    latitude (radians, pole-adjusted) and azimuth. *)
Record vreck := mkVreck {
  r_sinAlpha1 : R; r_cosAlpha1 : R; r_cosU1 : R; r_sinU1 : R; r_sigma1 : R;
  r_sinAlpha : R; r_cosSqAlpha : R; r_A : R; r_B : R }.
Definition vreck_init (a b f lat1 azim : R) : vreck :=
  let tanU1 := (1 - f) * tan lat1 in
  let cosU1 := 1 / sqrt (1 + tanU1 ^ 2) in
  let sinU1 := tanU1 * cosU1 in
  let sinAlpha := cosU1 * sin azim in
  let cosSqAlpha := 1 - sinAlpha * sinAlpha in
  let uSq := cosSqAlpha * (a ^ 2 - b ^ 2) / b ^ 2 in
  mkVreck (sin azim) (cos azim) cosU1 sinU1 (atan2 tanU1 (cos azim)) sinAlpha cosSqAlpha (vin_A uSq) (vin_B uSq).

(** vincenty.py:387-408: one pass of the loop, sigma -> new sigma. *)
Definition vreck_next (k : vreck) (base sigma : R) : R :=
  base + vin_deltasigma (r_B k) (sin sigma) (cos sigma) (cos (2 * r_sigma1 k + sigma)).

(** vincenty.py:374-412.  The while loop has no iteration limit: [fuel] bounds the
    model's recursion, [None] means the loop did not end within it.  The result is
    the last sigmaP (whose sine and cosine are used afterwards) and the last sigma. *)
Fixpoint vreck_loop (fuel : nat) (k : vreck) (base sigma : R) : option (R * R) :=
  match fuel with
  | O => None
  | S n =>
      let sigma' := vreck_next k base sigma in
      if Rlt_dec (1 / 10 ^ 12) (Rabs (sigma' - sigma)) then vreck_loop n k base sigma'
      else Some (sigma, sigma')
  end.

(** vincenty.py:414-436: the end point from sigmaP (sinSigma, cosSigma,
    cos2SigmaM) and sigma. *)
Definition vreck_end (f lon1 : R) (k : vreck) (sigmaP sigma : R) : R * R :=
  let sinSigma := sin sigmaP in
  let cosSigma := cos sigmaP in
  let cos2SigmaM := cos (2 * r_sigma1 k + sigmaP) in
  let tmp := r_sinU1 k * sinSigma - r_cosU1 k * cosSigma * r_cosAlpha1 k in
  let lat2 := atan2 (r_sinU1 k * cosSigma + r_cosU1 k * sinSigma * r_cosAlpha1 k)
                    ((1 - f) * sqrt (r_sinAlpha k * r_sinAlpha k + tmp ^ 2)) in
  let lamb := atan2 (sinSigma * r_sinAlpha1 k)
                    (r_cosU1 k * cosSigma - r_sinU1 k * sinSigma * r_cosAlpha1 k) in
  let C := f / 16 * r_cosSqAlpha k * (4 + f * (4 - 3 * r_cosSqAlpha k)) in
  let L := lamb - f * (1 - C) * r_sinAlpha k *
    (sigma + C * sinSigma * (cos2SigmaM + C * cosSigma * (-1 + 2 * cos2SigmaM * cos2SigmaM))) in
  (lat2, py_mod (lon1 + L) tau).

(** vincenty.py:260-442, Python float arguments.  Outer [None]: loop still running
    after [fuel] passes.  Inner [None]: (NaN, NaN), because the loop body is never
    entered when |rng/(b A) - 2 pi| <= 1e-12 (vincenty.py:374-386). *)
Definition vreckon (fuel : nat) (lat1 lon1 rng azim : R) (ell : option Ellipsoid) (deg : bool)
  : option (result (option (R * R))) :=
  if Rlt_dec rng 0 then Some (Raise ValueError) else
  let e := resolve_ellipsoid ell in
  let a := semimajor_axis e in
  let b := semiminor_axis e in
  let f := flattening e in
  let lat1 := rad_in deg lat1 in
  let lon1 := rad_in deg lon1 in
  let azim := rad_in deg azim in
  if lat_out_of_range lat1 then Some (Raise ValueError) else
  let k := vreck_init a b f (nudge_pole lat1) azim in
  let base := rng / (b * r_A k) in
  if Rlt_dec (1 / 10 ^ 12) (Rabs (base - 2 * PI)) then
    match vreck_loop fuel k base base with
    | None => None
    | Some (sP, s) => let '(lat2, lon2) := vreck_end f lon1 k sP s in
                      Some (Ok (Some (deg_out deg lat2, deg_out deg lon2)))
    end
  else Some (Ok None).

(** vincenty.py:374-412 for an array of ranges: all elements iterate until every
    one has settled. *)
Fixpoint vreck_loop_array (fuel : nat) (k : vreck) (bases sigmas : list R) : option (list (R * R)) :=
  match fuel with
  | O => None
  | S n =>
      let sigmas' := map (fun '(b, s) => vreck_next k b s) (combine bases sigmas) in
      if existsb (fun '(s', s) => if Rlt_dec (1 / 10 ^ 12) (Rabs (s' - s)) then true else false) (combine sigmas' sigmas)
      then vreck_loop_array n k bases sigmas'
      else Some (combine sigmas sigmas')
  end.
(** vincenty.py:260-442 with a scalar start and an array of ranges (the call in
    track2), radians. *)
Definition vreckon_ranges (fuel : nat) (lat1 lon1 : R) (rngs : list R) (azim : R) (ell : option Ellipsoid)
  : option (result (option (list (R * R)))) :=
  if existsb (fun r => if Rlt_dec r 0 then true else false) rngs then Some (Raise ValueError) else
  let e := resolve_ellipsoid ell in
  let a := semimajor_axis e in
  let b := semiminor_axis e in
  let f := flattening e in
  if lat_out_of_range lat1 then Some (Raise ValueError) else
  let k := vreck_init a b f (nudge_pole lat1) azim in
  let bases := map (fun r => r / (b * r_A k)) rngs in
  if existsb (fun s => if Rlt_dec (1 / 10 ^ 12) (Rabs (s - 2 * PI)) then true else false) bases then
    match vreck_loop_array fuel k bases bases with
    | None => None
    | Some l => Some (Ok (Some (map (fun '(sP, s) => vreck_end f lon1 k sP s) l)))
    end
  else Some (Ok None).

(** mathfun.py:62-68 (numpy.linspace computes start + i*step, the last element
    being stop). *)
Definition linspace (start stop : R) (num : nat) : list R :=
  map (fun i => start + INR i * ((stop - start) / (INR num - 1))) (seq 0 num).

(** vincenty.py:498-500 *)
Definition gc_arclen (lat1 lon1 lat2 lon2 : R) : R :=
  2 * asin (sqrt (sin ((lat1 - lat2) / 2) ^ 2 + cos lat1 * cos lat2 * sin ((lon1 - lon2) / 2) ^ 2)).

(** vincenty.py:445-516 *)
Definition track2 (fuel : nat) (lat1 lon1 lat2 lon2 : R) (ell : option Ellipsoid) (npts : nat) (deg : bool)
  : option (result (option (list (R * R)))) :=
  if Nat.ltb npts 2 then Some (Raise ValueError) else
  if Nat.eqb npts 2 then Some (Ok (Some [(lat1, lon1); (lat2, lon2)])) else
  let lat1 := rad_in deg lat1 in
  let lon1 := rad_in deg lon1 in
  let lat2 := rad_in deg lat2 in
  let lon2 := rad_in deg lon2 in
  if Rlt_dec (Rabs (gc_arclen lat1 lon1 lat2 lon2 - PI)) (1 / 10 ^ 12) then Some (Raise ValueError) else
  match vdist lat1 lon1 lat2 lon2 ell false with
  | Raise e => Some (Raise e)
  | Ok (distance, azimuth) =>
      match vreckon_ranges fuel lat1 lon1 (linspace 0 distance npts) azimuth ell with
      | None => None
      | Some (Raise e) => Some (Raise e)
      | Some (Ok None) => Some (Ok None)
      | Some (Ok (Some l)) => Some (Ok (Some (map (fun '(la, lo) => (deg_out deg la, deg_out deg lo)) l)))
      end
  end.

(** rsphere.py:90-138 *)
Definition euler (lat1 lon1 lat2 lon2 : R) (ell : option Ellipsoid) (deg : bool) : result R :=
  let d := fun x => if deg then x else degrees x in
  let lat1 := d lat1 in
  let lon1 := d lon1 in
  let lat2 := d lat2 in
  let lon2 := d lon2 in
  let latmid := lat1 + (lat2 - lat1) / 2 in
  bind (vdist lat1 lon1 lat2 lon2 ell true) (fun '(_, az) =>
  let rho := meridian latmid ell true in
  let nu := transverse latmid ell true in
  let az := radians az in
  Ok (rho * nu / (rho * sin az ^ 2 + nu * cos az ^ 2))).
