(** Model of src/pymap3d/utils.py and of the non-NumPy fallbacks in mathfun.py *)
From Verif Require Import PyMath.
Open Scope R_scope.

(** utils.py:14-33 *)
Definition cart2pol (x y : R) : R * R := (atan2 y x, hypot x y).
(** utils.py:36-55 *)
Definition pol2cart (theta rho : R) : R * R := (rho * cos theta, rho * sin theta).
(** utils.py:58-85 *)
Definition cart2sph (x y z : R) : vec3 :=
  let hxy := hypot x y in
  let r := hypot hxy z in
  let el := atan2 z hxy in
  let az := atan2 y x in
  (az, el, r).
(** utils.py:88-115 *)
Definition sph2cart (az el r : R) : vec3 :=
  let rcos_theta := r * cos el in
  let x := rcos_theta * cos az in
  let y := rcos_theta * sin az in
  let z := r * sin el in
  (x, y, z).

(** mathfun.py:64-70, fallback [linspace]: num = 1 divides by zero. *)
Definition linspace (start stop : R) (num : Z) : result (list R) :=
  if Z.eqb (num - 1) 0 then Raise ZeroDivisionError
  else
    let step := (stop - start) / IZR (num - 1) in
    Ok (map (fun i => start + INR i * step) (seq 0 (Z.to_nat num))).

(** mathfun.py:75-84, fallback [sign]. *)
Definition sign_fallback (x : R) : R :=
  if Rlt_dec x 0 then -1 else if Rlt_dec 0 x then 1 else 0.

(** mathfun.py:114-122, [cube_root] fallback branch; Python's
    [pow(x, 1/3)] is [Rpower x (1/3)] for x > 0 and 0 for x = 0. *)
Definition py_pow_third (x : R) : R := if Req_EM_T x 0 then 0 else Rpower x (1 / 3).
Definition cube_root (x : R) : R :=
  if Rlt_dec x 0 then - py_pow_third (- x) else py_pow_third x.
