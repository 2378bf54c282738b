(** Julian dates (earth_orientation.py) in IEEE binary64 arithmetic; conventions of M_float.v.
    Python integers are exact, and converted to the nearest double when they meet a float. *)
From Coq Require Import Reals ZArith.
From Verif Require Import PyMath M_time M_earth M_float M_floatenu.
Open Scope R_scope.

(** earth_orientation.py:98-112 *)
Definition fl_day_fraction (hour minute second microsecond : Z) : R :=
  fl_div (fl_add (fl_div (fl_add (fl_div (fl_add (rnd (IZR second)) (fl_div (rnd (IZR microsecond)) 1000000)) 60)
                            (rnd (IZR minute))) 60)
            (rnd (IZR hour))) 24.
(** earth_orientation.py:80-121 *)
Definition fl_juliandate (time : datetime) : result R :=
  bind (ensure_utc time) (fun time =>
  let '(yy, mm) := if (month time <? 3)%Z then (year time - 1, month time + 12)%Z
                   else (year time, month time) in
  let A := py_int (fl_div (rnd (IZR yy)) 100) in
  let B := (2 - A + py_int (fl_div (rnd (IZR A)) 4))%Z in
  let C := fl_day_fraction (hour time) (minute time) (second time) (microsecond time) in
  let days := (py_int (fl_mul (rnd 365.25) (rnd (IZR (yy + 4716))))
               + py_int (fl_mul (rnd 30.6001) (rnd (IZR (mm + 1)))) + day time + B)%Z in
  Ok (fl_add (fl_sub (rnd (IZR days)) (rnd 1524.5)) C)).

(** math.tau is the double nearest to 2 pi. *)
Definition fl_tau : R := rnd (2 * PI).
(** earth_orientation.py:124-127 *)
Definition fl_julian_centuries (jd : R) : R := fl_div (fl_sub jd 2451545) 36525.
(** earth_orientation.py:130-141, and sidereal.py greenwichsrt; [sq] and [cube] are C's pow with
    exponents 2.0 and 3.0; 876600 * 3600 is a Python integer. *)
Definition fl_greenwichsrt (sq cube : R -> R) (jd_ut1 : R) : R :=
  let t_ut1 := fl_julian_centuries jd_ut1 in
  let gmst_sec := fl_sub (fl_add (fl_add (rnd 67310.54841) (fl_mul (fl_add (rnd 3155760000) (rnd 8640184.812866)) t_ut1))
                            (fl_mul (rnd 0.093104) (sq t_ut1)))
                    (fl_mul (rnd 0.0000062) (cube t_ut1)) in
  fl_mod (fl_div (fl_mul gmst_sec fl_tau) 86400) fl_tau.
(** earth_orientation.py:144-147 *)
Definition fl_earth_rotation_angle (jd_ut1 : R) : R :=
  fl_mod (fl_mul fl_tau (fl_add (rnd 0.7790572732640) (fl_mul (rnd 1.00273781191135448) (fl_sub jd_ut1 2451545)))) fl_tau.
