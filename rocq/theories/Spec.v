(** Independent specifications.  Nothing here refers to the model's functions;
    only to the record of ellipsoid parameters and to plain geometry. *)
From Verif Require Import PyMath M_ellipsoid.
Open Scope R_scope.

(** Euclidean geometry of triples. *)
Definition vdot (p q : vec3) : R :=
  let '(p1, p2, p3) := p in let '(q1, q2, q3) := q in p1 * q1 + p2 * q2 + p3 * q3.
Definition vnorm (p : vec3) : R := sqrt (vdot p p).
Definition vsub (p q : vec3) : vec3 :=
  let '(p1, p2, p3) := p in let '(q1, q2, q3) := q in (p1 - q1, p2 - q2, p3 - q3).
Definition vadd (p q : vec3) : vec3 :=
  let '(p1, p2, p3) := p in let '(q1, q2, q3) := q in (p1 + q1, p2 + q2, p3 + q3).
Definition vscale (k : R) (p : vec3) : vec3 :=
  let '(p1, p2, p3) := p in (k * p1, k * p2, k * p3).
Definition vdist3 (p q : vec3) : R := vnorm (vsub p q).
Definition vcross (p q : vec3) : vec3 :=
  let '(p1, p2, p3) := p in let '(q1, q2, q3) := q in
  (p2 * q3 - p3 * q2, p3 * q1 - p1 * q3, p1 * q2 - p2 * q1).

(** 3x3 matrices as triples of rows. *)
Definition smat : Type := (vec3 * vec3 * vec3)%type.
Definition smulv (m : smat) (v : vec3) : vec3 :=
  let '(r1, r2, r3) := m in (vdot r1 v, vdot r2 v, vdot r3 v).
Definition sid : smat := ((1, 0, 0), (0, 1, 0), (0, 0, 1)).
Definition sdet (m : smat) : R := let '(r1, r2, r3) := m in vdot r1 (vcross r2 r3).
(** Rotation: orthonormal rows and determinant +1. *)
Definition is_rotation (m : smat) : Prop :=
  let '(r1, r2, r3) := m in
  vdot r1 r1 = 1 /\ vdot r2 r2 = 1 /\ vdot r3 r3 = 1 /\
  vdot r1 r2 = 0 /\ vdot r1 r3 = 0 /\ vdot r2 r3 = 0 /\ sdet m = 1.

(** An ellipsoid with consistent parameters and 0 < b <= a: what
    [Ellipsoid(a, b)] without overrides builds (theorem ellipsoid_init_valid). *)
Definition valid_ell (e : Ellipsoid) : Prop :=
  let a := semimajor_axis e in
  let b := semiminor_axis e in
  0 < b /\ b <= a /\
  flattening e = (a - b) / a /\
  thirdflattening e = (a - b) / (a + b) /\
  0 <= eccentricity e /\
  eccentricity e ^ 2 = 1 - b ^ 2 / a ^ 2.

(** The body selected by the optional argument [ell]: WGS-84 when absent. *)
Definition ell_ok (ell : option Ellipsoid) : Prop :=
  match ell with None => True | Some e => valid_ell e end.
Definition ell_a (ell : option Ellipsoid) : R :=
  match ell with None => 6378137 | Some e => semimajor_axis e end.
Definition ell_b (ell : option Ellipsoid) : R :=
  match ell with None => 635675231424518 / 100000000 | Some e => semiminor_axis e end.

(** The ellipsoid surface as a set of points. *)
Definition on_ellipsoid (a b : R) (p : vec3) : Prop :=
  let '(x, y, z) := p in x ^ 2 / a ^ 2 + y ^ 2 / a ^ 2 + z ^ 2 / b ^ 2 = 1.

(** Angle given in degrees ([deg = true]) or radians. *)
Definition as_rad (deg : bool) (x : R) : R := if deg then x * PI / 180 else x.
(** A quarter, half and full turn in the selected unit. *)
Definition quarter (deg : bool) : R := if deg then 90 else PI / 2.
Definition half (deg : bool) : R := if deg then 180 else PI.
Definition full (deg : bool) : R := if deg then 360 else 2 * PI.

(** Unit vector with latitude phi and longitude lam: the geodetic normal. *)
Definition unit_normal (phi lam : R) : vec3 :=
  (cos phi * cos lam, cos phi * sin lam, sin phi).

(** Outward normal direction of the surface at a point (gradient of the
    defining quadratic form, up to the positive factor 2). *)
Definition gradient (a b : R) (p : vec3) : vec3 :=
  let '(x, y, z) := p in (x / a ^ 2, y / a ^ 2, z / b ^ 2).

(** Local level axes at geodetic latitude phi, longitude lam (radians). *)
Definition east_axis (phi lam : R) : vec3 := (- sin lam, cos lam, 0).
Definition north_axis (phi lam : R) : vec3 :=
  (- (sin phi * cos lam), - (sin phi * sin lam), cos phi).
Definition up_axis (phi lam : R) : vec3 := unit_normal phi lam.

(** Componentwise distance bound. *)
Definition within (eps : R) (p q : vec3) : Prop :=
  let '(p1, p2, p3) := p in let '(q1, q2, q3) := q in
  Rabs (p1 - q1) < eps /\ Rabs (p2 - q2) < eps /\ Rabs (p3 - q3) < eps.
(** A component that a 1 mm trim would leave alone. *)
Definition not_tiny (x : R) : Prop := x = 0 \/ 1 / 1000 <= Rabs x.
Definition not_tiny3 (p : vec3) : Prop :=
  let '(x, y, z) := p in not_tiny x /\ not_tiny y /\ not_tiny z.

(** An auxiliary-latitude map: odd, fixing the equator and both poles
    ([q] is the latitude of the pole in the unit in use). *)
Definition odd_fixing (q : R) (f : R -> R) : Prop :=
  (forall x, - q <= x <= q -> f (- x) = - f x) /\ f 0 = 0 /\ f q = q /\ f (- q) = - q.
Definition increasing_on (lo hi : R) (f : R -> R) : Prop :=
  forall x y, lo <= x -> x < y -> y <= hi -> f x < f y.

(** Unit vectors and the angle between two of them, in [0, pi]. *)
Definition is_unit (p : vec3) : Prop := vdot p p = 1.
Definition unit_angle (p q : vec3) : R := acos (vdot p q).
Definition vopp (p : vec3) : vec3 := let '(p1, p2, p3) := p in (- p1, - p2, - p3).
(** The great circle through p and q: unit vectors in their plane. *)
Definition on_great_circle (p q g : vec3) : Prop := is_unit g /\ vdot g (vcross p q) = 0.
