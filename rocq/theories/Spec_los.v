(** Specification vocabulary for line-of-sight intersection. *)
From Verif Require Import PyMath Spec.
Open Scope R_scope.

(** Unit vector with azimuth [az] (clockwise from north) and angle [tilt] from
    the nadir, at geodetic latitude phi, longitude lam (all radians). *)
Definition sight (phi lam az tilt : R) : vec3 :=
  vadd (vscale (sin tilt * sin az) (east_axis phi lam))
    (vadd (vscale (sin tilt * cos az) (north_axis phi lam))
          (vscale (- cos tilt) (up_axis phi lam))).

(** The point at distance t along the ray from p in direction d. *)
Definition ray (p d : vec3) (t : R) : vec3 := vadd p (vscale t d).
