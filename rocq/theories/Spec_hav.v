(** Specification for C97. *)
From Coq Require Import Reals.
From Verif Require Import PyMath Spec M_float M_floatenu M_floatgeo M_floathav Spec_float.
Open Scope R_scope.

(** Besides [libm2_ok]: cosine correctly rounded (for arguments up to 13), the radians of at
    most 90 degrees at most a quarter turn, arcsine within 4u on [0, 1] and 0 at 0. *)
Definition libm3_ok (k : libm3) : Prop :=
  libm2_ok (l_two k) /\
  (forall x, double x -> Rabs x <= 13 -> l_cos (l_base (l_two k)) x = rnd (cos x)) /\
  (forall x, double x -> Rabs x <= 90 -> Rabs (l_radians (l_base (l_two k)) x) <= PI / 2) /\
  (forall x, double x -> 0 <= x <= 1 -> Rabs (l_asin k x - asin x) <= 4 * uu) /\
  l_asin k 0 = 0.
(** A direction: doubles, latitude up to a quarter turn and longitude up to a full turn
    either way. *)
Definition direction (lon lat : R) (deg : bool) : Prop :=
  double lon /\ double lat /\ Rabs lat <= quarter deg /\ Rabs lon <= full deg.
