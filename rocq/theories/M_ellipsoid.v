(** Model of src/pymap3d/ellipsoid.py (class, model table, resolve).
    The caches are modelled in M_caches.v. *)
From Verif Require Import PyMath.
Open Scope R_scope.
Open Scope string_scope.

(** ellipsoid.py:21-66, the dataclass fields. *)
Record Ellipsoid := mkEllipsoid {
  ell_name : string;
  ell_model : string;
  semimajor_axis : R;
  semiminor_axis : R;
  flattening : R;
  thirdflattening : R;
  eccentricity : R
}.

(** Python's [/] on floats. *)
Definition py_div (x y : R) : result R :=
  if Req_EM_T y 0 then Raise ZeroDivisionError else Ok (x / y).

(** [math.sqrt] raises ValueError on negatives (ellipsoid.py:4 imports it from math). *)
Definition math_sqrt (x : R) : result R :=
  if Rlt_dec x 0 then Raise ValueError else Ok (sqrt x).

(** ellipsoid.py:68-117, [Ellipsoid.__init__], in evaluation order:
    flattening (89-93), assert (95), third flattening (97-101),
    eccentricity (103-107). *)
Definition Ellipsoid_init (a b : R) (name model : string)
    (flat third ecc : option R) : result Ellipsoid :=
  bind (match flat with Some f => Ok f | None => py_div (a - b) a end) (fun f =>
  if Rlt_dec f 0 then Raise AssertionError else
  bind (match third with Some n => Ok n | None => py_div (a - b) (a + b) end) (fun n =>
  bind (match ecc with Some e => Ok e | None => math_sqrt (2 * f - f ^ 2) end) (fun e =>
  Ok (mkEllipsoid name model a b f n e)))).

(** ellipsoid.py:119-187: the table [models] (short name, printed name, a, b);
    axes in units of 1e-8 m are written as decimal numerals.  The two Cyrillic
    printed names are transliterated. *)
Definition models : list (string * (string * R * R)) := [
  ("maupertuis", ("Maupertuis (1738)", 6397300.0, 6363806.283));
  ("plessis", ("Plessis (1817)", 6376523.0, 6355862.9333));
  ("everest1830", ("Everest (1830)", 6377299.365, 6356098.359));
  ("everest1830m", ("Everest 1830 Modified (1967)", 6377304.063, 6356103.039));
  ("everest1967", ("Everest 1830 (1967 Definition)", 6377298.556, 6356097.55));
  ("airy", ("Airy (1830)", 6377563.396, 6356256.909));
  ("bessel", ("Bessel (1841)", 6377397.155, 6356078.963));
  ("clarke1866", ("Clarke (1866)", 6378206.4, 6356583.8));
  ("clarke1878", ("Clarke (1878)", 6378190.0, 6356456.0));
  ("clarke1860", ("Clarke (1880)", 6378249.145, 6356514.87));
  ("helmert", ("Helmert (1906)", 6378200.0, 6356818.17));
  ("hayford", ("Hayford (1910)", 6378388.0, 6356911.946));
  ("international1924", ("International (1924)", 6378388.0, 6356911.946));
  ("krassovsky1940", ("Krassovsky (1940)", 6378245.0, 6356863.019));
  ("wgs66", ("WGS66 (1966)", 6378145.0, 6356759.769));
  ("australian", ("Australian National (1966)", 6378160.0, 6356774.719));
  ("international1967", ("New International (1967)", 6378157.5, 6356772.2));
  ("grs67", ("GRS-67 (1967)", 6378160.0, 6356774.516));
  ("sa1969", ("South American (1969)", 6378160.0, 6356774.719));
  ("wgs72", ("WGS-72 (1972)", 6378135.0, 6356750.52001609));
  ("grs80", ("GRS-80 (1979)", 6378137.0, 6356752.31414036));
  ("wgs84", ("WGS-84 (1984)", 6378137.0, 6356752.31424518));
  ("wgs84_mean", ("WGS-84 (1984) Mean", 6371008.7714, 6371008.7714));
  ("iers1989", ("IERS (1989)", 6378136.0, 6356751.302));
  ("pz90.11", ("PZ-90 (2011)", 6378136.0, 6356751.3618));
  ("iers2003", ("IERS (2003)", 6378136.6, 6356751.9));
  ("gsk2011", ("GSK (2011)", 6378136.5, 6356751.758));
  ("mercury", ("Mercury", 2440500.0, 2438300.0));
  ("venus", ("Venus", 6051800.0, 6051800.0));
  ("moon", ("Moon", 1738100.0, 1736000.0));
  ("mars", ("Mars", 3396900.0, 3376097.80585952));
  ("jupiter", ("Jupiter", 71492000.0, 66770054.3475922));
  ("io", ("Io", 1829.7, 1815.8));
  ("saturn", ("Saturn", 60268000.0, 54364301.5271271));
  ("uranus", ("Uranus", 25559000.0, 24973000.0));
  ("neptune", ("Neptune", 24764000.0, 24341000.0));
  ("pluto", ("Pluto", 1188000.0, 1188000.0));
  (* ellipsoid.py:190 *)
  ("jupyter", ("Jupiter", 71492000.0, 66770054.3475922))
].

(** dict lookup [models[name]]; a missing key raises KeyError. *)
Fixpoint lookup_model (l : list (string * (string * R * R))) (name : string)
  : result (string * R * R) :=
  match l with
  | [] => Raise KeyError
  | (k, v) :: l' => if String.eqb k name then Ok v else lookup_model l' name
  end.

(** ellipsoid.py:192-210, [Ellipsoid.from_name] / [_from_name_cached] without
    the cache (see M_caches.v for the cache). *)
Definition from_name (name : string) : result Ellipsoid :=
  bind (lookup_model models name) (fun '(pname, a, b) =>
  Ellipsoid_init a b pname name None None None).

(** The object that [from_name "wgs84"] builds (that it does is theorem
    [wgs84_from_name] in P_ellipsoid.v). *)
Definition wgs84 : Ellipsoid :=
  let a := 6378137.0 in
  let b := 6356752.31424518 in
  let f := (a - b) / a in
  mkEllipsoid "WGS-84 (1984)" "wgs84" a b f ((a - b) / (a + b)) (sqrt (2 * f - f ^ 2)).

(** ellipsoid.py:213-215 *)
Definition resolve_ellipsoid (ell : option Ellipsoid) : Ellipsoid :=
  match ell with None => wgs84 | Some e => e end.
