(** IEEE binary64 arithmetic in the angle helpers and in Python's [%].

    A finite double is a real in Flocq's format FLT(emin = -1074, precision 53); every
    operation is the exact one followed by rounding to nearest, ties to even.  Overflow is
    not modelled (the format has no largest number), and +0.0 and -0.0 are one value. *)
From Coq Require Import Reals ZArith.
From Flocq Require Import Core.
From Verif Require Import M_karney.
Open Scope R_scope.

(** The finite doubles. *)
Definition fexp64 : Z -> Z := FLT_exp (-1074) 53.
Definition double (x : R) : Prop := generic_format radix2 fexp64 x.
(** Rounding to the nearest double. *)
Definition rnd (x : R) : R := round radix2 fexp64 ZnearestE x.
Definition fl_add (x y : R) : R := rnd (x + y).
Definition fl_sub (x y : R) : R := rnd (x - y).

(** karney.py:49-55 *)
Definition fl_sum_error (u v : R) : R * R :=
  let s := fl_add u v in
  let up := fl_sub s v in
  let vpp := fl_sub s up in
  let up := fl_sub up u in
  let vpp := fl_sub vpp v in
  (s, - fl_add up vpp).
(** C's fmod (mathfun.py: math.fmod): the remainder of the truncated quotient, rounded. *)
Definition fl_fmod (x m : R) : R := rnd (x - m * IZR (Ztrunc (x / m))).
(** karney.py:58-64 *)
Definition fl_AngNormalize (x : R) : R :=
  let y := fl_fmod x 360 in
  if Rle_dec y (-180) then fl_add y 360
  else if Rlt_dec 180 y then fl_sub y 360
  else y.
(** karney.py:67-73 *)
Definition fl_AngRound (x : R) : R :=
  let z := 1 / 16 in
  let y := Rabs x in
  let y := if Rlt_dec y z then fl_sub z (fl_sub z y) else y in
  copysign y x.
(** karney.py:76-80 *)
Definition fl_AngDiff (x y : R) : R * R :=
  let '(d, t) := fl_sum_error (- x) y in
  let d := fl_AngNormalize d in
  fl_sum_error (if Req_EM_T (Rabs d) 180 then copysign 180 (- t) else d) t.
(** CPython Objects/floatobject.c float_rem: the [%] of enu.py:72, lox.py:223,
    vincenty.py:132-133,252, sidereal.py:99, earth_orientation.py:141,147,203, ... *)
Definition fl_mod (x m : R) : R :=
  let r := fl_fmod x m in
  if Req_EM_T r 0 then 0
  else if Rlt_dec r 0 then (if Rlt_dec m 0 then r else fl_add r m)
  else (if Rlt_dec m 0 then fl_add r m else r).
