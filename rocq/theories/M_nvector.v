(** Model of src/pymap3d/nvector.py.  A division by zero gives NaN components
    in NumPy; that outcome is [None]. *)
From Verif Require Import PyMath M_ellipsoid M_ecef M_rsphere.
Open Scope R_scope.

(** nvector.py:19-48 *)
Definition geodetic2nvector (lat lon : R) (deg : bool) : vec3 :=
  let lat := rad_in deg lat in
  let lon := rad_in deg lon in
  (cos lat * cos lon, cos lat * sin lon, sin lat).

(** nvector.py:51-75 *)
Definition nvector2geodetic (n : vec3) (deg : bool) : R * R :=
  let '(n1, n2, n3) := n in
  let lat := asin n3 in
  let lon := atan2 n2 n1 in
  (deg_out deg lat, deg_out deg lon).

(** nvector.py:78-98 *)
Definition ecef2nvector (x y z : R) (ell : option Ellipsoid) (deg : bool) : vec3 :=
  let '(lat, lon, _) := ecef2geodetic x y z ell deg in
  geodetic2nvector lat lon deg.

(** nvector.py:101-127 *)
Definition nvector2ecef (n : vec3) (alt : R) (ell : option Ellipsoid) (deg : bool) : vec3 :=
  let '(lat, lon) := nvector2geodetic n deg in
  geodetic2ecef lat lon alt ell deg.

(** nvector.py:133-135 *)
Definition dot3 (a b : vec3) : R :=
  let '(a1, a2, a3) := a in let '(b1, b2, b3) := b in a1 * b1 + a2 * b2 + a3 * b3.
(** nvector.py:138-140 *)
Definition cross3 (a b : vec3) : vec3 :=
  let '(a1, a2, a3) := a in let '(b1, b2, b3) := b in
  (a2 * b3 - a3 * b2, a3 * b1 - a1 * b3, a1 * b2 - a2 * b1).
(** nvector.py:143-146 *)
Definition norm3 (a : vec3) : option vec3 :=
  let '(a1, a2, a3) := a in
  let r := sqrt (a1 * a1 + a2 * a2 + a3 * a3) in
  if Req_EM_T r 0 then None else Some (a1 / r, a2 / r, a3 / r).

(** nvector.py:152-156 *)
Definition default_radius : R := eqavol None.
Definition radius_of (radius : option R) : R :=
  match radius with None => default_radius | Some r => r end.

(** nvector.py:159-186 *)
Definition nvector_distance (p q : vec3) (radius : option R) : R :=
  let radius := radius_of radius in
  let '(cx, cy, cz) := cross3 p q in
  let cross_mag := sqrt (cx * cx + cy * cy + cz * cz) in
  let dot := dot3 p q in
  radius * atan2 cross_mag dot.

(** nvector.py:189-228.  In exact arithmetic sin(pi) = 0, so antipodal end
    points divide by zero (with doubles sin(pi) is 1.2e-16). *)
Definition lincomb3 (a : R) (p : vec3) (b : R) (q : vec3) : vec3 :=
  let '(p1, p2, p3) := p in let '(q1, q2, q3) := q in
  (a * p1 + b * q1, a * p2 + b * q2, a * p3 + b * q3).
Definition nvector_interpolate (p q : vec3) (fraction : R) : option vec3 :=
  let dot := dot3 p q in
  let dot := Rmax (-1) (Rmin 1 dot) in
  let omega := acos dot in
  if Rlt_dec (Rabs omega) (1 / 10000000000) then
    norm3 (lincomb3 (1 - fraction) p fraction q)
  else
    let s := sin omega in
    if Req_EM_T s 0 then None else
    let a := sin ((1 - fraction) * omega) / s in
    let b := sin (fraction * omega) / s in
    norm3 (lincomb3 a p b q).

(** nvector.py:231-251; [sum] of a list *)
Definition py_sum (l : list R) : R := fold_left Rplus l 0.
Definition nvector_mean (n1s n2s n3s : list R) : option vec3 :=
  norm3 (py_sum n1s, py_sum n2s, py_sum n3s).

(** nvector.py:254-288 *)
Definition nvector_cross_track_distance (p q np : vec3) (radius : option R) : option R :=
  let radius := radius_of radius in
  match norm3 (cross3 p q) with
  | None => None
  | Some c => Some (radius * asin (dot3 c np))
  end.

(** nvector.py:291-336 *)
Definition nvector_intersection (p1 p2 p3 p4 : vec3) : option vec3 :=
  let c1 := cross3 p1 p2 in
  let c2 := cross3 p3 p4 in
  match norm3 (cross3 c1 c2) with
  | None => None
  | Some (i1, i2, i3) =>
      let '(a1, a2, a3) := p1 in let '(b1, b2, b3) := p2 in
      let '(d1, d2, d3) := p3 in let '(f1, f2, f3) := p4 in
      let m := (a1 + b1 + d1 + f1, a2 + b2 + d2 + f2, a3 + b3 + d3 + f3) in
      if Rlt_dec (dot3 (i1, i2, i3) m) 0 then Some (- i1, - i2, - i3) else Some (i1, i2, i3)
  end.
