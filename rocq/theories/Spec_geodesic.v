(** Geodesics of an ellipsoid of revolution, independently of any series. *)
From Coq Require Import Reals.
From Verif Require Import PyMath Spec.
Open Scope R_scope.

(** The derivative of a curve in space, component by component. *)
Definition vderive (c : R -> vec3) (s : R) (v : vec3) : Prop :=
  derivable_pt_lim (fun x => fst (fst (c x))) s (fst (fst v)) /\
  derivable_pt_lim (fun x => snd (fst (c x))) s (snd (fst v)) /\
  derivable_pt_lim (fun x => snd (c x)) s (snd v).

(** [c] is a geodesic of the spheroid with semi-axes a, a, b, followed at unit
    speed, [t] being its tangent: the curve stays on the surface and its
    acceleration has no component along the surface (it is a multiple of the
    surface normal). *)
Definition unit_geodesic (a b : R) (c t : R -> vec3) : Prop :=
  forall s, on_ellipsoid a b (c s) /\ vderive c s (t s) /\ is_unit (t s) /\
            exists k, vderive t s (vscale k (gradient a b (c s))).

(** The point of the surface with geodetic latitude [phi] and longitude [lam]:
    the one whose outward normal is [unit_normal phi lam]. *)
Definition surface_point (a b phi lam : R) : vec3 :=
  let N := a ^ 2 / sqrt ((a * cos phi) ^ 2 + (b * sin phi) ^ 2) in
  (N * cos phi * cos lam, N * cos phi * sin lam, (b / a) ^ 2 * N * sin phi).

(** The horizontal unit vector of azimuth [az] (clockwise from north) there. *)
Definition heading_vector (phi lam az : R) : vec3 :=
  vadd (vscale (cos az) (north_axis phi lam)) (vscale (sin az) (east_axis phi lam)).
