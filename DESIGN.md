# Formal model of geospace-code/pymap3d in Rocq (Coq 8.16.1)

## 1. Approach

The model is *shallow*: every Python function that is modelled becomes a Gallina
function of the same name with the same branch structure, citing file and lines
of `/repo/src/pymap3d`.  Exceptions are values (`result A := Ok a | Raise exn`);
loops are structural recursion on explicit fuel (out-of-fuel is a separate
constructor/`None`, never a normal-looking value); functions that mutate their
array arguments return the new array contents beside the result.

### Layers (directory `rocq/theories`)

| file pattern | content |
|---|---|
| `PyMath.v` | the Python/NumPy numeric primitives that the code calls (`radians`, `degrees`, `atan2`, `hypot`, `%`, `sign`, `isclose`, ...) as real functions, `result` |
| `M_<module>.v` | the model, one file per Python module; **no proofs** |
| `Spec.v` | small independent specifications (points of the ellipsoid, unit normals, inner products, angles, rotations, ...), not using the model |
| `L_<topic>.v` | lemmas and proofs |
| `P_<topic>.v` | the property theorems `Cnn_...`, the few specification definitions they need, each group with an `Example` that meets its hypotheses |
| `Spec_<topic>.v` | further independent specifications (calendar, Earth orientation, line of sight, command line, geodesics) |

### Numbers

Python floats are modelled by the reals `R` (ideal arithmetic): rounding,
overflow, signed zero and subnormals are *not* modelled, with two exceptions:
`C56`, `C92`, `C93`, `C95`, `C96`, `C97`, `C98` and `C99` are about IEEE binary64 and use Flocq, and NaN/inf are modelled by an
explicit constructor at those places where the code itself produces or branches
on them (`lookAtSpheroid`, `vreckon`, isometric latitude, n-vector
interpolation).  Division by zero: Coq's `/` is total, so wherever the Python
code divides by something that can be 0 the model either tests for it and
returns the `ZeroDivisionError`/the `except` branch as the code does, or the
theorem carries the guard that excludes it and says so.

Datetimes are modelled by their integer fields (year, month, day, h, m, s, us and
UTC offset in microseconds) with the calendar arithmetic of CPython's `datetime`
written out over `Z`.

Scalars versus arrays: NumPy broadcasting of a straight-line formula is the
element-wise application of the scalar formula, so the scalar formula is what is
modelled.  Where the array code path differs from the scalar one (masks,
in-place mutation, whole-array branches) the array path is modelled separately
over `list R`.

## 2. Trusted base

* Coq 8.16.1's kernel (and `coqchk`).
* The axioms that `Print Assumptions` lists under the theorems.  They all belong
  to the Coq standard library's real numbers: `ClassicalDedekindReals.sig_forall_dec`,
  `ClassicalDedekindReals.sig_not_dec`, `FunctionalExtensionality.functional_extensionality_dep`,
  and, where Coquelicot/Flocq lemmas are used, `Classical_Prop.classic` (and
  for some Coquelicot integrals nothing else).  No axiom is added by this
  development.  `ASSUMPTIONS.md` lists the axioms of every theorem of the manifest (output of `Print Assumptions`).
* The reading of the Python code: the model is hand-written, nothing is extracted
  from or executed against the code.
* The idealisation float -> R described above and the reading of libm/NumPy
  functions as the mathematical functions they approximate.

## 3. Properties: what is modelled and how it is proved

(Status of each is in `MANIFEST.json`; deviations found are in section 4.)

| id | model | proof |
|---|---|---|
| C01 | `ecef.geodetic2ecef`, `Ellipsoid` | algebra: `N = a^2/sqrt(a^2cos^2+b^2 sin^2)`; normal is the normalised gradient |
| C02 | same | convexity of the ellipsoid: `(q-p).n_p <= 0` for surface points, equality only at p |
| C03 | `ecef2geodetic` scalar path | on the surface `u=b`, `huE=a`, the correction term vanishes; `atan(tan)` |
| C04 | same | `E=0` |
| C05 | same | exact parts (equator plane, polar axis, sphere, surface) => `_partial`; exactness elsewhere refuted by a witness if a tractable one is found |
| C06 | scalar and array path | range of `atan`/`atan2`, case analysis incl. division-by-zero branches |
| C07 | scalar path | rotation invariance of r, hxy; oddness of atan |
| C08 | `uvw2enu, enu2uvw, ecef2enu, enu2ecef, ecef2enuv, enu2ecefv` | ring with `sin^2+cos^2=1` |
| C09 | `frames`, `enu/ned/nwu/sez` matrices | explicit 3x3 algebra |
| C10 | `ned, nwu, sez` | unfolding to ENU + C08, C12 |
| C11 | `geodetic2enu` | algebra |
| C12 | `enu2aer, aer2enu` with trim | polar/spherical coordinates lemmas for `atan2` |
| C13 | `ecef2aer, geodetic2aer` | C08 isometry + range formula |
| C14 | `aer2ecef, ecef2aer` | C08 + C12 |
| C15 | `frames._*2body`, `body.*` | products of rotations, transposes; frame independence by matrix identities |
| C16 | `_ned2body_rotation` | explicit columns |
| C17 | `dca` | 2x2 rotation |
| C18 | `earth_orientation` matrices, `eci` pure path | rotation group closure, quantified over all angle values |
| C19 | state transforms | linear algebra, rate matrix arbitrary |
| C20 | `geodetic2eci`, `eci2geodetic` | refutation expected: EOP dropped |
| C21 | `_apply_state_rotation` array path | refutation expected: loop variable shadows the array |
| C22 | `juliandate` | Euclidean division arithmetic over Z |
| C23 | `leap_seconds`, `utc_to_tt` | induction over sorted table |
| C24 | `sidereal`, `gmst`, `gast` | `py_mod` lemmas |
| C25 | `azel2radec`, `radec2azel` | spherical trigonometry |
| C26 | `haversine.anglesep_meeus`, `anglesep`, `haversine` | half-angle formula |
| C27 | `utils` | atan2 lemmas |
| C28 | `nvector` conversions | algebra |
| C29 | `nvector_distance` | `acos` of dot; triangle inequality through Gram determinant |
| C30 | `nvector_interpolate` | SLERP trigonometry |
| C31 | `nvector_mean`, `cross_track`, `intersection` | algebra, permutation invariance |
| C32 | `rcurve` | algebra + Coquelicot derivative of the embedding |
| C33 | `rcurve` | algebra |
| C34 | `rsphere` | Coquelicot `RInt` for the area; algebra and calculus for bounds |
| C35-C37 | `latitude` | trigonometry, monotonicity of atan/tan |
| C38 | `geodetic2isometric`, `geodetic2conformal` | gudermannian identities; array bug refutation |
| C39-C41 | `lox` | algebra; refutation of wrap invariance |
| C42 | `los` | quadratic equation; refutation for non-WGS84 `ell` |
| C43-C45 | `vincenty.vdist`, `vreckon` | loop with fuel; sphere case exact; contraction for termination; array path refutation |
| C46 | `track2`, `geodesic_line` | list lemmas; end point of `geodesic_line` by C83 |
| C47,C48 | `karney` helpers | Z/R floor arithmetic; induction on Clenshaw recurrence |
| C49 | `karney._Direct` on f=0, s12=0 | series vanish for n=0 |
| C50 | `geodesic_area` | oracle for inverse; the area as total change of course (induction over the vertex list), antisymmetry under reversal (permutation of the corners, `L_area.v`); refutation of the sign/size and deg=False |
| C51 | `ellipsoid` caches | state machine refinement, induction over histories |
| C52 | `Ellipsoid.__init__`, table | algebra; finite table |
| C53 | array paths that mutate | refutation for `enu2aer`, `vdist`, `vreckon`; purity of the rest is by construction of the model |
| C54 | `__main__` | string functions; refutation for None defaults |
| C55 | `spherical` | Vermeille's formula verified as root of quartic |
| C56 | `_sum_error`, `%` | Flocq |
| C57 | `mathfun` fallbacks | induction / algebra |
| C58 | `geoc2geod` | refutation: sign of a coefficient |
| C59,C60 | all models | by unfolding |
| C61-C64 | `earth_orientation`, `eci` with EOP | Rodrigues rotations, sign conventions, `Spec_eop.v` |
| C65 | `lox.meanm` | vector sum on the authalic sphere |
| C66 | `rsphere.euler` | Euler's formula, uses `vdist` |
| C67,C68 | `karney._Inverse` | canonical form of the pair; sphere and equator branches solved in closed form |
| C69 | `__main__` | refutation (None becomes the text "None") |
| C70 | `karney._Direct` | `Spec_geodesic.v` defines geodesics by their differential property. Existence by an explicit curve over the auxiliary great circle (`L_geodesic1,2,6`), uniqueness by a Groenwall estimate (`L_geodesic3`), truncation errors of the three series by Taylor models over the rationals (`L_poly`, `L_series1-3`), assembled in `L_geodesic4,5` |
| C71 | `karney._Inverse`, `_Lambda12`, `_InverseStart` | each evaluation of `_Lambda12` is shown to describe an exact geodesic whose longitude differs from the target by the value it returns, up to the series errors (`L_geodesic9.lambda_geodesic`); reversal and mirror images of geodesics (`L_geodesic8`) carry this over to all hemispheres and orders of the points (`L_geodesic10,11`). Convergence: the returned longitude is increasing in the first azimuth with a derivative within a factor of the true one, so every bracket keeps the root, and Newton's step contracts (`L_newton1..5`); hence the iteration stops by its own test within 31 rounds whenever the points are at most 2.65 rad (152 deg) apart on an Earth-like ellipsoid, 1.85 rad for flattening up to 1/100 (`P_converge`). Missing (partial): points closer than that to antipodal |
| C72 | `karney._Inverse` meridian and equator branches | sign of the reduced length from the second-order series (`L_geodesic12.meridian_taken`), then as C71 with no iteration; equator: `L_geodesic13.equator_conn` |
| C73 | `ecef.ecef2geodetic` | You's step is one Newton-like step on the foot-point equation from the confocal reduced latitude; the defect it leaves is computed exactly and bounded (`L_ecefacc.foot_step`), then turned into position, latitude and altitude errors (`L_ecefacc2`) |
| C74 | the `*2geodetic` functions of every frame | local frames are exact inverses over ECEF (C08, C10, C12, C15, C17, C18), so the error is that of C73 |
| C75 | `vincenty.vreckon` | both truncated series differentiated and compared with the exact integrands by Taylor models (`L_vin1`), the end formulas are spherical trigonometry on the auxiliary sphere (`L_vin2`), so the result is an exact geodesic point displaced by the loop residual and the truncation |
| C76 | `vincenty.vdist`, `track2` | the correction of one pass is Lipschitz in the longitude (`L_vin3`), so the loop contracts and stops by itself (`L_vin4`); the returned azimuth belongs to the last longitude, for which course and length are exact up to truncation (`L_vin5`, `L_vin6`); arrays and angle bookkeeping in `L_vin7` |
| C77 | `latitude.geodetic2rectifying`, `rectifying2geodetic`, `lox.meridian_arc`, `meridian_dist`, `rsphere.rectifying` | `Spec_aux.v` defines the meridian length by its derivative (speed of the surface point). The code's series are differentiated and compared with the exact integrand by Taylor models in n (`L_aux1,2`); the inverse series by composing with the derivative of the true function; the radius by cubing (`L_aux8`). |
| C78 | `latitude.geodetic2authalic`, `authalic2geodetic`, `lox.meanm` | zone area by its derivative; arcsine of a ratio compared through derivatives, with care at the poles (`L_aux3`, `L_aux4`); the code uses powers of e, rewritten in n with remainder (`L_aux6`) |
| C79 | `latitude.geodetic2conformal`, `conformal2geodetic`, isometric pair | derivative of the composition of the Gudermannian of the isometric latitude with the series (`L_aux5`); off the pole the isometric path is the conformal one (`L_latitude3`) |
| C80 | `lox.loxodrome_inverse`, `loxodrome_direct` | `Spec_aux.rhumb_line` is a unit-speed curve whose tangent keeps the azimuth. Its rates give: meridian length grows at rate cos az, Mercator triangle (`L_aux9`). Existence by inverting the meridian length (`L_aux10`); the code is compared through C77. |
| C81 | `__main__._emit_result`, `_format_scalar`, `_to_jsonable` | digit strings by induction on the number of places (`L_cliout.v`), rounding by the nearest-integer lemma; reading back through the C54 numeral grammar (`Spec_cli.v`, `Spec_cliout.v`) |
| C82 | `karney._Inverse`, `_Lengths` | the distance integral is monotone in the arc and the arc is in [0, pi]: bounds on the series at the two ends (`L_dist1.v`); chord: a unit-speed curve is 1-Lipschitz |
| C83 | `geodesic_direct` after `geodesic_inverse` | both describe the same true geodesic (C70, C71), the arc is below half a turn by C82 |
| C84 | `karney._Inverse` with a pole | closed form of the result from a pole for every longitude (`L_pole1.canon_pole`), the meridian through the pole as a geodesic (`L_pole2.pole_conn`); the refutations follow from the closed form |
| C85 | `karney._Inverse`; `Spec_geodesic.unit_geodesic`; paths: Lipschitz curves on the surface (`surface_walk`) | geodesics from a point in terms of the auxiliary sphere (`L_short1`), existence and uniqueness of the geodesic to each point by a contraction (`L_short3`), first variation of its length (`L_short4`), hence the length of the geodesic to a moving point grows no faster than the path (`L_short5`, `L_short6`); `L_short7` joins paths and handles nearby ends; with C71 |
| C86 | same | paths joined end to end and reversed; C85 both ways |
| C87 | `geodesic_direct` then `geodesic_inverse` | C70 + C85: both lengths are the shortest one; azimuths: two geodesics from one point with ends close together have close directions at both ends, since the turn of the auxiliary sphere is a contraction of the end point (`L_short8`, `L_short9`; also gives uniqueness of the geodesic, C85) |
| C88 | `ellipsoid.Ellipsoid.models`, `from_name` | table of published radii and inverse flattenings in `P_models.v`, compared entry by entry for every accepted name; `io` refuted |
| C89 | `vdist` / `geodesic_inverse`, `vreckon` / `geodesic_direct` | C75 and C70 bound both direct solvers against the same geodesic; C76, C71, C85 and the stability of directions (`L_short9`) compare the inverse ones (`P_agree.v`) |
| C90 | `loxodrome_inverse`, `departure`, `meridian_arc` against `geodesic_inverse` | rhumb lines and parallels are surface walks, so C85 applies; meridians are shown to be unit geodesics, so they are shortest (`P_agree2.v`) |
| C91 | `geodesic_inverse`, `geodesic_direct` | exact: both orders of the points reach the same canonical problem; signs of the outputs (`P_reverse.v`) |
| C92 | `geodetic2ecef`, `enu2uvw`, `uvw2enu`, `enu2ecef`, `ecef2enu`, `geodetic2enu`, `aer2enu`, `aer2ecef`, slant range, in binary64 | forward error calculus over Flocq's rounding, library functions as a record with accuracy bounds (`M_floatenu.v`, `L_float.v`, `P_rounding.v`) |
| C93 | `ecef2geodetic` (scalar path) in binary64, and after `geodetic2ecef` | relative-error calculus through each step of the closed formula (`M_floatgeo.v`, `L_float2.v`, `L_floatgeo.v`), up to the axis because a double below a quarter turn is at least 5e-17 below it, combined with C73 (formula error), C92 and C94; domain and library assumptions in `Spec_float.v`; the polar axis itself separately, from the double nearest pi (Machin's series) (`L_floatpole.v`, `P_roundpole.v`) |
| C94 | `geodetic2ecef` as a map, two positions | support inequality of the ellipsoid and strong monotonicity of the offset map by Cauchy-Schwarz (`P_stable.v`); existence by the foot-point equation |
| C95 | `enu2aer`, `geodetic2aer` in binary64 | polar-angle perturbation by chords (`P_lookangles.v`) on top of C92; CPython/NumPy `%` as in C56; refutation by the gap below the double nearest 2 pi (`M_floataer.v`) |
| C96 | `enu2geodetic`, `ned2geodetic`, `aer2geodetic` in binary64 | C92 (position) composed with C93_everywhere_near_earth (coordinates of a perturbed position, on the axis too) (`P_roundaer.v`) |
| C97 | `anglesep`, `anglesep_meeus` in binary64 | half-ulp bounds for each operation: the sum under the root is below 1 + 3 half-ulps, so it rounds to at most 1 + 2, whose root rounds to 1; sin(t/2)^2 is turned into the angle by the product formula (`M_floathav.v`, `L_floathav.v`, `P_roundhav.v`; assumptions in `Spec_hav.v`) |
| C98 | `juliandate` in binary64 | the three truncated products are shown to truncate to the exact integers (exhaustively over months, by division with remainder over years), everything before the day fraction is exact in quarters of a day, and the day fraction is bounded and monotone operation by operation (`M_floattime.v`, `P_roundtime.v`) |
| C99 | `greenwichsrt`, `earth_rotation_angle`, nutation, apparent sidereal time, `datetime2sidereal`, the ECI-to-ECEF matrix, `eci2ecef`, `ecef2eci`, `eci2ecef_state` and `ecef2eci_state`, `geodetic2eci`, `aer2eci`, `eci2geodetic` and `eci2aer` in binary64, composed with `juliandate` | the same forward error calculus as C92, with the exactness of the float remainder from C56; Lipschitz bound of the exact polynomial (`M_floattime.v`, `M_floatsid.v`, `P_roundsid.v`, `P_roundsid2.v`, `M_floateci.v`, `P_roundeci.v`: entrywise error propagation through products of rotations, once around the exact angles and once around the computed ones (round trip); assumptions on pow, sin, cos and the built-in sum: `pow_ok`, `trig_ok`, `sum_ok`, the last one proved of both CPython algorithms; `M_floateci2.v`, `P_roundeci2.v`, `P_roundeci3.v`, `P_roundeci4.v`: compositions with C92, C93_everywhere_near_earth and C95_direction) |

## 4. Findings (places where the code violates the stated property)

Each is a theorem (named in brackets) unless marked as an observation.

* `ecef2geodetic` is not exact off the surface (C05), geodetic<->geocentric latitude is never a round trip off the surface (C35).
* `geoc2geod`: the 1/(4r) term has the wrong sign: error of order f^2 (C58).
* `geodetic2conformal` with an array containing +90 collapses to a scalar (C38).
* `Ellipsoid.from_name("io")` has its radii in kilometres, so Io is 1000 times too small (C88).
* The docstrings of `geodesic_inverse` and `geodesic_direct` call `azi2` the back-azimuth; it is the course of arrival, half a turn away (C91).
* `geodetic2eci` ignores `delta_ut1`, `xp`, `yp` (C20); the polar motion matrix has the opposite sign of the documented convention (C62); `eci2ecef_state`/`ecef2eci_state` raise ValueError for every time array with two or more elements (C21). `eci2aer` has no `ell` parameter (observation).
* `enu2aer` (and through it `ned2aer`, `nwu2aer`, `sez2aer`) overwrites elements below 1 mm in the arrays of the caller; `vdist`/`vreckon` with `deg=False` move pole latitudes in the arrays of the caller (C53).
* `lookAtSpheroid` uses WGS-84 for the observer and the result whatever `ell` is (C42); `h0 = 0` looking up gives NaN.
* `loxodrome_inverse`: longitude difference is not reduced: same parallel gives the short distance with the long-way azimuth; same pole gives NaN; the radians azimuth is not reduced while the degrees one is (C40, C41, C59). `loxodrome_direct` overshoots the pole.
* `vdist` on arrays: one coincident pair resets a variable for all lanes (error above 15 km on WGS-84), an antipodal pair raises ValueError for all (C45). `vreckon` gives NaN for ranges within 1e-12 of a full turn (C44). `track2(npts=2)` skips the antipodal check.
* `karney`: `_tiny` is sqrt(machine epsilon), so positions within 0.1 m of the poles are displaced and zero distance from a pole is not the identity (C49); distances from a pole vary by 18 cm with the longitude and a pole is 18 cm from itself (C84). `geodesic_area`: counterclockwise areas come out as area - 2 pi c^2, radians mode disagrees with degrees (C50).
* `Ellipsoid.from_name` returns a shared mutable object: assigning to it changes later calls (C51).
* Command line: `None` defaults arrive as the text "None" (C69).
* `enu2aer` can return an azimuth equal to the full turn (C95).
* `anglesep` returns 0 for distinct directions up to 2^-27 rad apart, although its docstring says "stable all the way to exactly 0 deg" (C97).
* `juliandate` accepts microseconds but returns the same double for distinct instants (20 microseconds apart in C98_strict_refuted), so its result cannot be used to order or difference times at that resolution (C98).
* `linspace(num=1)` of the non-NumPy fallback divides by zero (C57). Float `%` can return its modulus (C56).
* Ellipsoid table: "io" is given in kilometres, all others in metres (observation).

## 5. What is modelled and what is not

Modelled, function by function (each definition cites file and lines): `ellipsoid.py` (construction, table, caches, `resolve_ellipsoid`, `from_name`), `ecef.py` (geodetic2ecef, ecef2geodetic scalar and array path, ecef2enu/enu2ecef/uvw, vectors, `_ecef2eci` compositions), `enu.py`, `aer.py`, `ned.py`, `nwu.py`, `sez.py`, `dca.py`, `body.py`, `frames.py`, `rcurve.py`, `rsphere.py`, `latitude.py`, `lox.py`, `los.py`, `haversine.py`, `nvector.py`, `spherical.py`, `utils.py`, `vincenty.py`, `karney.py`, `timeconv.py` (calendar part), `sidereal.py` (pure-Python path), `eci.py`, `earth_orientation.py`, `azelradec.py`/`vallado.py`, `mathfun.py` (fallbacks), `__main__.py` (argument handling and printing).

Not modelled:

* floating-point rounding except in the angle helpers (C56), the ECEF/ENU/NED/AER functions (C92, C95), ecef2geodetic (C93, C96), anglesep (C97), juliandate (C98), greenwichsrt, earth_rotation_angle, datetime2sidereal, eci2ecef, ecef2eci, eci2ecef_state, ecef2eci_state, geodetic2eci, aer2eci, eci2geodetic and eci2aer (C99); overflow and signed zeros;
* the optional astropy path of `azelradec`, `eci`, `sidereal` (calls into an external library);
* `str2dt` string parsing (dateutil), NumPy dtype coercion;
* CPython's shortest float representation (`str`, JSON numerals): parameters of the printing model `M_cliout.v`;
* performance, type stubs, examples, the MATLAB/Octave comparison scripts, `tests/`.
* Newton's iteration inside `karney._Inverse` is bounded by the code itself (a fixed number of passes), so the model is total; that it converges within those passes is proved for all points except near-antipodal ones (C71).
