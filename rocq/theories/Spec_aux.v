(** Lengths, areas and lines of constant azimuth on a spheroid with semi-axes
    a, a, b, independently of any series. *)
From Coq Require Import Reals.
From Verif Require Import PyMath Spec Spec_geodesic.
Open Scope R_scope.

(** The third flattening. *)
Definition third (a b : R) : R := (a - b) / (a + b).
(** [s phi] is the (signed) length of the meridian from the equator to the
    geodetic latitude [phi]: it grows at the speed of the surface point. *)
Definition meridian_length (a b : R) (s : R -> R) : Prop :=
  s 0 = 0 /\ forall phi, - PI / 2 <= phi <= PI / 2 ->
    exists v, vderive (fun p => surface_point a b p 0) phi v /\ derivable_pt_lim s phi (vnorm v).
(** [S phi] is the (signed) area of the zone between the equator and the
    parallel of latitude [phi]: it grows at the rate (circumference of the
    parallel) times (speed of the point of the meridian); the distance from
    the axis is the x coordinate on the meridian of longitude 0. *)
Definition zone_area (a b : R) (S : R -> R) : Prop :=
  S 0 = 0 /\ forall phi, - PI / 2 <= phi <= PI / 2 ->
    exists v, vderive (fun p => surface_point a b p 0) phi v /\
    derivable_pt_lim S phi (2 * PI * fst (fst (surface_point a b phi 0)) * vnorm v).
(** The rectifying latitude is proportional to the meridian length, and pi/2 at the pole. *)
Definition rectifying_latitude (s : R -> R) (phi : R) : R := PI / 2 * (s phi / s (PI / 2)).
(** The authalic latitude: on the sphere of the same area, the zone up to it
    has the same area, i.e. its sine is the fraction of the hemisphere. *)
Definition authalic_latitude (S : R -> R) (phi : R) : R := asin (S phi / S (PI / 2)).
(** [(phi, lam)] follows, at unit speed for path lengths in [s1, s2], a line that keeps the azimuth [az]. *)
Definition rhumb_line (a b az : R) (phi lam : R -> R) (s1 s2 : R) : Prop :=
  forall s, s1 <= s <= s2 -> - PI / 2 < phi s < PI / 2 /\
    (exists p' l', derivable_pt_lim phi s p' /\ derivable_pt_lim lam s l') /\
    vderive (fun x => surface_point a b (phi x) (lam x)) s (heading_vector (phi s) (lam s) az).
