(** Numeric primitives of Python's [math] / NumPy as used by pymap3d
    (re-exported by src/pymap3d/mathfun.py:7-33), read as real functions.

    Simplifications (all files): IEEE doubles are read as real numbers, so
    rounding, overflow, NaN, infinities and the sign of zero are absent here.
    Places where the Python code produces or tests NaN/inf are modelled with
    explicit constructors in the module concerned. *)
From Coq Require Export Reals Lra ZArith List Bool String.
Export ListNotations.
Open Scope R_scope.

(** Python exceptions that the modelled code can raise. *)
Inductive exn :=
| ValueError | AssertionError | ZeroDivisionError | KeyError | TypeError | IndexError
| OverflowError | AttributeError.

(** Result of a call: a value or an exception. *)
Inductive result (A : Type) :=
| Ok (a : A)
| Raise (e : exn).
Arguments Ok {A} a.
Arguments Raise {A} e.

Definition bind {A B} (r : result A) (k : A -> result B) : result B :=
  match r with Ok a => k a | Raise e => Raise e end.

(** A Python triple of numbers. *)
Definition vec3 : Type := (R * R * R)%type.

(** numpy.radians / numpy.degrees (mathfun.py:17,26). *)
Definition radians (x : R) : R := x * PI / 180.
Definition degrees (x : R) : R := x * 180 / PI.

(** The idiom [if deg: v = radians(v)] at the head of most functions, and
    [if deg: v = degrees(v)] at their end. *)
Definition rad_in (deg : bool) (x : R) : R := if deg then radians x else x.
Definition deg_out (deg : bool) (x : R) : R := if deg then degrees x else x.

(** numpy.hypot (mathfun.py:20). *)
Definition hypot (x y : R) : R := sqrt (x ^ 2 + y ^ 2).

(** numpy.arctan2 (mathfun.py:11) away from signed zeros:
    the value in (-pi, pi], and 0 at the origin. *)
Definition atan2 (y x : R) : R :=
  if Rlt_dec 0 x then atan (y / x)
  else if Rlt_dec x 0 then
    (if Rle_dec 0 y then atan (y / x) + PI else atan (y / x) - PI)
  else if Rlt_dec 0 y then PI / 2
  else if Rlt_dec y 0 then - PI / 2
  else 0.

(** Python's float [%] with a positive right operand: x - m*floor(x/m). *)
Definition py_mod (x m : R) : R := x - m * IZR (Int_part (x / m)).

(** Python's math.tau *)
Definition tau : R := 2 * PI.

(** numpy.sign (mathfun.py:29) and the fallback sign (mathfun.py:75-84). *)
Definition sign (x : R) : R :=
  if Rlt_dec x 0 then -1 else if Rlt_dec 0 x then 1 else 0.

(** numpy.isclose(x, 0) with the default atol = 1e-8 (the rtol term is
    multiplied by |0|). *)
Definition isclose0 (x : R) : bool :=
  if Rle_dec (Rabs x) (1 / 100000000) then true else false.

(** numpy.arctanh / numpy.arcsinh (mathfun.py:9,12), closed forms. *)
Definition atanh (x : R) : R := / 2 * ln ((1 + x) / (1 - x)).
Definition asinh (x : R) : R := ln (x + sqrt (x ^ 2 + 1)).
