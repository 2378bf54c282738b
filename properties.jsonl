{"id": "C01", "title": "geodetic2ecef is the geodetic coordinate map", "statement": "geodetic2ecef(lat,lon,0) is a point of the ellipsoid x^2/a^2+y^2/a^2+z^2/b^2=1, and geodetic2ecef(lat,lon,h) is that point displaced by h along the outward unit ellipsoid normal whose direction is (cos lat cos lon, cos lat sin lon, sin lat).", "quantifier": "every lat, lon, h, every oblate ellipsoid, degrees or radians", "why_tests_cant": "the inputs range over a continuum; tests sample finitely many points", "anchors": ["src/pymap3d/ecef.py:geodetic2ecef"]}
{"id": "C02", "title": "geodetic2ecef is injective at non-negative altitude", "statement": "Two geodetic triples with altitude >= 0 map to the same ECEF point only if they are the same geographic point: equal altitude and equal unit normal (equal lat/lon away from the poles).", "quantifier": "every pair of geodetic triples with h>=0, every oblate ellipsoid", "why_tests_cant": "the inputs range over a continuum; tests sample finitely many points", "anchors": ["src/pymap3d/ecef.py:geodetic2ecef"]}
{"id": "C03", "title": "ecef2geodetic inverts geodetic2ecef on the surface", "statement": "For altitude 0, ecef2geodetic(geodetic2ecef(lat,lon,0)) = (lat,lon,0) in exact arithmetic, on any oblate ellipsoid.", "quantifier": "every lat in (-90,90) (and both poles), lon in (-180,180], every ellipsoid", "why_tests_cant": "the inputs range over a continuum; tests sample finitely many points", "anchors": ["src/pymap3d/ecef.py:ecef2geodetic", "src/pymap3d/ecef.py:geodetic2ecef"]}
{"id": "C04", "title": "ecef2geodetic inverts geodetic2ecef on spheres", "statement": "On a spherical body the round trip is exact at every altitude above the centre.", "quantifier": "every lat/lon/alt > -a, every radius", "why_tests_cant": "the inputs range over a continuum; tests sample finitely many points", "anchors": ["src/pymap3d/ecef.py:ecef2geodetic"]}
{"id": "C05", "title": "ecef2geodetic round trip off the surface", "statement": "ecef2geodetic(geodetic2ecef(lat,lon,h)) = (lat,lon,h) for every h; exact on the equator plane and on the polar axis, approximate elsewhere.", "quantifier": "every lat, lon, altitude and ellipsoid", "why_tests_cant": "the inputs range over a continuum; tests sample finitely many points", "anchors": ["src/pymap3d/ecef.py:ecef2geodetic"]}
{"id": "C06", "title": "ecef2geodetic output ranges and sign of altitude", "statement": "Every ECEF point, including the centre, the axis and the focal disc, gets lat in [-90,90], lon in (-180,180], and altitude < 0 only for points strictly inside the ellipsoid, >= 0 outside.", "quantifier": "every (x,y,z), every ellipsoid", "why_tests_cant": "the inputs range over a continuum; tests sample finitely many points", "anchors": ["src/pymap3d/ecef.py:ecef2geodetic"]}
{"id": "C07", "title": "Symmetries of ecef2geodetic", "statement": "Rotating the input about the polar axis changes only longitude; mirroring in the equator negates latitude only.", "quantifier": "every (x,y,z) and rotation angle", "why_tests_cant": "the inputs range over a continuum; tests sample finitely many points", "anchors": ["src/pymap3d/ecef.py:ecef2geodetic"]}
{"id": "C08", "title": "ENU and ECEF are exact inverses and isometric", "statement": "ecef2enu/enu2ecef and uvw2enu/enu2uvw are mutual inverses and preserve Euclidean length and dot products.", "quantifier": "every vector, observer and ellipsoid", "why_tests_cant": "the inputs range over a continuum; tests sample finitely many points", "anchors": ["src/pymap3d/ecef.py:ecef2enu", "src/pymap3d/ecef.py:enu2ecef", "src/pymap3d/ecef.py:uvw2enu", "src/pymap3d/ecef.py:enu2uvw"]}
{"id": "C09", "title": "Rotation matrices agree with the vector functions", "statement": "The published *_matrix functions are rotations (orthonormal, determinant +1) and multiplying by them equals the corresponding vector function, for ENU, NED, SEZ and NWU.", "quantifier": "every observer latitude/longitude, degrees or radians", "why_tests_cant": "the inputs range over a continuum; tests sample finitely many points", "anchors": ["src/pymap3d/frames.py", "src/pymap3d/enu.py:ecef2enu_matrix", "src/pymap3d/ned.py:ecef2ned_matrix", "src/pymap3d/sez.py:ecef2sez_matrix", "src/pymap3d/nwu.py:ecef2nwu_matrix"]}
{"id": "C10", "title": "NED, NWU, SEZ are relabelled ENU", "statement": "Each frame's conversion to/from ECEF, geodetic and AER equals the ENU conversion with components permuted and negated as named, and its round trips are exact.", "quantifier": "every vector, observer, ellipsoid", "why_tests_cant": "the inputs range over a continuum; tests sample finitely many points", "anchors": ["src/pymap3d/ned.py", "src/pymap3d/nwu.py", "src/pymap3d/sez.py"]}
{"id": "C11", "title": "Local frames are anchored at the observer", "statement": "The observer itself has ENU coordinates (0,0,0); a target at the same lat/lon and altitude h has ENU (0,0,h-h0).", "quantifier": "every observer, altitude, ellipsoid", "why_tests_cant": "the inputs range over a continuum; tests sample finitely many points", "anchors": ["src/pymap3d/enu.py:geodetic2enu"]}
{"id": "C12", "title": "AER/ENU round trip and ranges", "statement": "enu2aer returns az in [0,360), el in [-90,90], range >= 0; aer2enu(enu2aer(v)) = v up to the documented 1 mm per-component trim (exact when no component is smaller than 1 mm); enu2aer(aer2enu(a)) = a for nondegenerate a.", "quantifier": "every ENU vector, every az/el/range", "why_tests_cant": "the inputs range over a continuum; tests sample finitely many points", "anchors": ["src/pymap3d/enu.py:enu2aer", "src/pymap3d/enu.py:aer2enu"]}
{"id": "C13", "title": "Slant range is Euclidean distance", "statement": "The range reported by ecef2aer/geodetic2aer is the ECEF distance between observer and target (within the 1 mm trim), hence symmetric in observer and target.", "quantifier": "every observer/target pair, ellipsoid", "why_tests_cant": "the inputs range over a continuum; tests sample finitely many points", "anchors": ["src/pymap3d/aer.py:ecef2aer", "src/pymap3d/aer.py:geodetic2aer"]}
{"id": "C14", "title": "aer2ecef and ecef2aer are inverse", "statement": "ecef2aer(aer2ecef(az,el,r)) = (az,el,r) for nondegenerate directions and aer2ecef(ecef2aer(p)) = p, for every observer.", "quantifier": "every az in [0,360), |el|<90, r, observer (components not below the trim)", "why_tests_cant": "the inputs range over a continuum; tests sample finitely many points", "anchors": ["src/pymap3d/aer.py:aer2ecef", "src/pymap3d/aer.py:ecef2aer"]}
{"id": "C15", "title": "Body frame conversions are rotations and mutually inverse", "statement": "body_matrix is a rotation; *2body and body2* are inverse; ecef2body/body2ecef are inverse; results do not depend on which local frame is selected; an unsupported sequence or frame raises ValueError.", "quantifier": "every attitude, point, observer, frame name and sequence string", "why_tests_cant": "the inputs range over a continuum; tests sample finitely many points", "anchors": ["src/pymap3d/body.py", "src/pymap3d/frames.py"]}
{"id": "C16", "title": "Body axes have the documented aerospace signs", "statement": "At zero attitude body=NED; positive yaw turns right, positive pitch raises the nose, positive roll lowers the right wing.", "quantifier": "every yaw, pitch, roll angle", "why_tests_cant": "the inputs range over a continuum; tests sample finitely many points", "anchors": ["src/pymap3d/frames.py:_ned2body_rotation"]}
{"id": "C17", "title": "DCA is ENU rotated by heading", "statement": "enu2dca/dca2enu are mutual inverses and isometries that keep Above; the downrange axis points along heading.", "quantifier": "every vector and heading", "why_tests_cant": "the inputs range over a continuum; tests sample finitely many points", "anchors": ["src/pymap3d/dca.py"]}
{"id": "C18", "title": "ECI/ECEF (pure Python path) is a rotation", "statement": "For every time and EOP input, eci2ecef and ecef2eci are mutual inverses and preserve length and handedness.", "quantifier": "every position, datetime, delta_ut1, xp, yp", "why_tests_cant": "the inputs range over a continuum; tests sample finitely many points; also every instant", "anchors": ["src/pymap3d/eci.py", "src/pymap3d/earth_orientation.py:eci_to_ecef_matrix"]}
{"id": "C19", "title": "State transforms are mutual inverses", "statement": "ecef2eci_state inverts eci2ecef_state on position and velocity, and its position part equals ecef2eci.", "quantifier": "every state vector, datetime, EOP", "why_tests_cant": "the inputs range over a continuum; tests sample finitely many points", "anchors": ["src/pymap3d/eci.py:_apply_state_rotation_scalar"]}
{"id": "C20", "title": "EOP arguments are honoured by every ECI entry point", "statement": "eci2geodetic(geodetic2eci(p,t,eop),t,eop) = p and geodetic2eci(...,eop) = ecef2eci(geodetic2ecef(...),t,eop).", "quantifier": "every point, time, EOP", "why_tests_cant": "the inputs range over a continuum; tests sample finitely many points", "anchors": ["src/pymap3d/ecef.py:geodetic2eci", "src/pymap3d/ecef.py:eci2geodetic"]}
{"id": "C21", "title": "State transforms accept arrays", "statement": "eci2ecef_state applied to equal-length arrays returns per-element results of the same shape.", "quantifier": "every array length", "why_tests_cant": "every length, tests only use scalars", "anchors": ["src/pymap3d/eci.py:_apply_state_rotation"]}
{"id": "C22", "title": "juliandate is the exact proleptic Gregorian day count", "statement": "juliandate(t2)-juliandate(t1) is the elapsed UTC time in days for all datetimes, it is strictly increasing, and does not depend on the timezone in which the instant is expressed.", "quantifier": "every pair of datetimes in years 1..9999, every UTC offset", "why_tests_cant": "3.6 million days times all times of day; century/leap rules only bite at rare dates", "anchors": ["src/pymap3d/earth_orientation.py:juliandate", "src/pymap3d/earth_orientation.py:ensure_utc"]}
{"id": "C23", "title": "leap_seconds looks up the last entry in force", "statement": "leap_seconds(t) is the total of the latest table entry effective at or before t (10 before 1972), it is non-decreasing in t; utc_to_tt adds exactly that plus 32.184 s and is strictly increasing.", "quantifier": "every instant", "why_tests_cant": "every instant including the microseconds around each boundary", "anchors": ["src/pymap3d/earth_orientation.py:leap_seconds", "src/pymap3d/earth_orientation.py:utc_to_tt"]}
{"id": "C24", "title": "Sidereal time range and longitude law", "statement": "datetime2sidereal returns a value in [0,2pi) and moving the observer by dlon changes it by dlon modulo 2pi; greenwichsrt is in [0,2pi).", "quantifier": "every time, longitude, delta_ut1", "why_tests_cant": "the inputs range over a continuum; tests sample finitely many points", "anchors": ["src/pymap3d/sidereal.py", "src/pymap3d/earth_orientation.py:greenwich_apparent_sidereal_time"]}
{"id": "C25", "title": "azel2radec and radec2azel are inverse", "statement": "For any sidereal time, radec2azel(azel2radec(az,el)) = (az,el) off the singularities; ra, az in [0,360), dec, el in [-90,90]; |lat|>90 raises ValueError.", "quantifier": "every az/el, latitude, longitude, time", "why_tests_cant": "the inputs range over a continuum; tests sample finitely many points", "anchors": ["src/pymap3d/vallado.py"]}
{"id": "C26", "title": "anglesep is the spherical angle metric", "statement": "anglesep is the angle between the two unit vectors: in [0,180], symmetric, zero for equal points, cosine equal to the dot product.", "quantifier": "every pair of directions", "why_tests_cant": "the inputs range over a continuum; tests sample finitely many points", "anchors": ["src/pymap3d/haversine.py"]}
{"id": "C27", "title": "Cartesian/polar/spherical utilities round trip", "statement": "pol2cart(cart2pol(v)) = v, sph2cart(cart2sph(v)) = v for every v including 0; the reverse holds for normalised inputs.", "quantifier": "every vector", "why_tests_cant": "the inputs range over a continuum; tests sample finitely many points", "anchors": ["src/pymap3d/utils.py"]}
{"id": "C28", "title": "n-vectors round trip", "statement": "geodetic2nvector returns a unit vector equal to the ellipsoid normal; nvector2geodetic inverts it; nvector2ecef agrees with geodetic2ecef.", "quantifier": "every lat, lon", "why_tests_cant": "the inputs range over a continuum; tests sample finitely many points", "anchors": ["src/pymap3d/nvector.py"]}
{"id": "C29", "title": "nvector_distance is a metric", "statement": "For unit n-vectors it is radius times the angle: symmetric, zero iff equal, at most pi*radius, triangle inequality.", "quantifier": "every pair/triple of unit vectors, radius", "why_tests_cant": "the inputs range over a continuum; tests sample finitely many points", "anchors": ["src/pymap3d/nvector.py:nvector_distance"]}
{"id": "C30", "title": "nvector_interpolate is constant-speed great-circle interpolation", "statement": "Result is a unit vector in the plane of the end points, fraction 0/1 return the end points, and the distance from n1 is fraction times the total.", "quantifier": "every non-antipodal pair, fraction in [0,1]", "why_tests_cant": "the inputs range over a continuum; tests sample finitely many points", "anchors": ["src/pymap3d/nvector.py:nvector_interpolate"]}
{"id": "C31", "title": "n-vector mean, cross-track, intersection", "statement": "The mean is unit and independent of input order; the cross-track distance is the signed angular distance to the great circle; the intersection is a unit vector on both great circles on the centroid side.", "quantifier": "every list/tuple of n-vectors", "why_tests_cant": "every list length and order", "anchors": ["src/pymap3d/nvector.py"]}
{"id": "C32", "title": "Radii of curvature match the ECEF embedding", "statement": "parallel(lat) is the distance of geodetic2ecef(lat,lon,0) from the axis, geocentric_radius its distance from the centre, meridian its speed per radian of latitude, transverse the normal length to the axis.", "quantifier": "every latitude, ellipsoid", "why_tests_cant": "the inputs range over a continuum; tests sample finitely many points", "anchors": ["src/pymap3d/rcurve.py"]}
{"id": "C33", "title": "Bounds on radii of curvature", "statement": "b^2/a <= meridian <= transverse <= a^2/b, with equality only at poles/sphere; all positive.", "quantifier": "every latitude, ellipsoid", "why_tests_cant": "the inputs range over a continuum; tests sample finitely many points", "anchors": ["src/pymap3d/rcurve.py"]}
{"id": "C34", "title": "Auxiliary sphere radii", "statement": "authalic() gives the sphere of the same surface area as the ellipsoid; eqavol() matches equal volume to O(f^3); every radius lies in [b,a]; unknown method raises ValueError.", "quantifier": "every ellipsoid", "why_tests_cant": "the inputs range over a continuum; tests sample finitely many points", "anchors": ["src/pymap3d/rsphere.py"]}
{"id": "C35", "title": "Parametric and geocentric latitude round trips", "statement": "geodetic2parametric/parametric2geodetic and geodetic2geocentric/geocentric2geodetic are mutual inverses.", "quantifier": "every latitude, altitude, ellipsoid", "why_tests_cant": "the inputs range over a continuum; tests sample finitely many points", "anchors": ["src/pymap3d/latitude.py"]}
{"id": "C36", "title": "geodetic2geocentric agrees with ECEF", "statement": "geodetic2geocentric(lat,h) is the angle of geodetic2ecef(lat,lon,h) above the equator plane.", "quantifier": "every latitude, altitude, ellipsoid", "why_tests_cant": "the inputs range over a continuum; tests sample finitely many points", "anchors": ["src/pymap3d/latitude.py:geodetic2geocentric"]}
{"id": "C37", "title": "Auxiliary latitudes are odd, monotone and fix equator and poles", "statement": "Each geodetic2X / X2geodetic is odd, maps 0 to 0 and +-90 to +-90, and is strictly increasing for near-spherical bodies.", "quantifier": "every latitude, ellipsoid (small flattening for monotonicity)", "why_tests_cant": "the inputs range over a continuum; tests sample finitely many points", "anchors": ["src/pymap3d/latitude.py"]}
{"id": "C38", "title": "Isometric and conformal latitude", "statement": "geodetic2isometric is the inverse Gudermannian of geodetic2conformal, +-inf at the poles; conformal latitude lies in [-90,90]; an array result is the element-wise scalar result.", "quantifier": "every latitude/array, ellipsoid", "why_tests_cant": "the inputs range over a continuum; tests sample finitely many points", "anchors": ["src/pymap3d/latitude.py:geodetic2isometric", "src/pymap3d/latitude.py:geodetic2conformal"]}
{"id": "C39", "title": "meridian_arc and departure are distances", "statement": "Both are symmetric, non-negative, zero on coincident arguments; meridian_arc is additive along a meridian; departure is invariant under adding 360 degrees and at most half the parallel.", "quantifier": "every latitude/longitude, ellipsoid", "why_tests_cant": "the inputs range over a continuum; tests sample finitely many points", "anchors": ["src/pymap3d/lox.py:meridian_arc", "src/pymap3d/lox.py:departure"]}
{"id": "C40", "title": "loxodrome_inverse", "statement": "Distance is symmetric, invariant under adding 360 degrees to a longitude, equals meridian_arc along a meridian and departure along a parallel; azimuth in [0,360).", "quantifier": "every pair of points", "why_tests_cant": "the inputs range over a continuum; tests sample finitely many points", "anchors": ["src/pymap3d/lox.py:loxodrome_inverse"]}
{"id": "C41", "title": "loxodrome_direct", "statement": "Bad latitude or negative range raise ValueError; range 0 returns the start; due east/west keeps latitude and moves by rng/parallel; due north/south keeps longitude.", "quantifier": "every start, range, azimuth", "why_tests_cant": "the inputs range over a continuum; tests sample finitely many points", "anchors": ["src/pymap3d/lox.py:loxodrome_direct"]}
{"id": "C42", "title": "lookAtSpheroid returns the first intersection", "statement": "When the ray from the observer meets the chosen ellipsoid, d is the smallest non-negative intersection distance and (lat,lon) are those of the intersection point; otherwise NaN; negative altitude raises ValueError.", "quantifier": "every observer, direction, ellipsoid", "why_tests_cant": "the inputs range over a continuum; tests sample finitely many points", "anchors": ["src/pymap3d/los.py"]}
{"id": "C43", "title": "vdist", "statement": "Latitudes outside [-90,90] raise ValueError; the iteration always stops within 50 rounds; distance is symmetric, 0 for coincident points; on a sphere it is the great-circle distance; azimuth in [0,360).", "quantifier": "every pair of points, ellipsoid", "why_tests_cant": "the inputs range over a continuum; tests sample finitely many points; termination must hold for every input", "anchors": ["src/pymap3d/vincenty.py:vdist"]}
{"id": "C44", "title": "vreckon", "statement": "Negative range or bad latitude raise ValueError; the loop terminates for every near-spherical ellipsoid; a finite (lat,lon) with lat in [-90,90], lon in [0,360) is returned; range 0 returns the start point.", "quantifier": "every start, range, azimuth", "why_tests_cant": "non-termination and rare NaN inputs cannot be excluded by sampling", "anchors": ["src/pymap3d/vincenty.py:vreckon"]}
{"id": "C45", "title": "Array calls of vdist are element-wise", "statement": "vdist on arrays returns, per element, what the scalar call returns.", "quantifier": "every array of pairs", "why_tests_cant": "interference between lanes appears only for special combinations", "anchors": ["src/pymap3d/vincenty.py:vdist"]}
{"id": "C46", "title": "track2 and geodesic_line sample the path", "statement": "npts points are returned, the first is the start point; npts<2 (track2) and antipodal end points raise ValueError.", "quantifier": "every pair, npts", "why_tests_cant": "the inputs range over a continuum; tests sample finitely many points", "anchors": ["src/pymap3d/vincenty.py:track2", "src/pymap3d/karney.py:geodesic_line"]}
{"id": "C47", "title": "Angle reduction helpers of the Karney solver", "statement": "Azimuths and longitudes returned by geodesic_direct/inverse are reduced to (-180,180] and congruent to the exact angle modulo 360; the degree-based sine/cosine equal the true ones.", "quantifier": "every angle", "why_tests_cant": "the inputs range over a continuum; tests sample finitely many points", "anchors": ["src/pymap3d/karney.py:_AngNormalize", "src/pymap3d/karney.py:_sincosd", "src/pymap3d/karney.py:_atan2d"]}
{"id": "C48", "title": "Series evaluation is exact for every order", "statement": "The Clenshaw summation equals sum_{k=1..n} c_k sin(2kx) (or the cosine series), Horner evaluation equals the polynomial.", "quantifier": "every order n, coefficients, angle", "why_tests_cant": "must hold for all n and coefficients", "anchors": ["src/pymap3d/karney.py:_SinCosSeries", "src/pymap3d/karney.py:_polyval"]}
{"id": "C49", "title": "Karney direct problem on the sphere and at zero distance", "statement": "On a sphere geodesic_direct is great-circle motion; distance 0 returns the start point and azimuth on any ellipsoid.", "quantifier": "every start, azimuth, distance", "why_tests_cant": "the inputs range over a continuum; tests sample finitely many points", "anchors": ["src/pymap3d/karney.py:_Direct"]}
{"id": "C50", "title": "geodesic_area", "statement": "Fewer than 3 vertices raise ValueError; the result is signed area, CCW positive, and does not depend on whether angles are given in degrees or radians.", "quantifier": "every polygon", "why_tests_cant": "the inputs range over a continuum; tests sample finitely many points", "anchors": ["src/pymap3d/karney.py:geodesic_area"]}
{"id": "C51", "title": "Caches are transparent", "statement": "For every history of from_name, construction, geodesic lookups and clear_ellipsoid_caches, the values obtained equal those computed without any cache.", "quantifier": "every finite history of operations", "why_tests_cant": "every history", "anchors": ["src/pymap3d/ellipsoid.py:_from_name_cached", "src/pymap3d/ellipsoid.py:get_cached_geodesic", "src/pymap3d/ellipsoid.py:clear_ellipsoid_caches"]}
{"id": "C52", "title": "Ellipsoid construction", "statement": "Every constructed ellipsoid with positive axes and no overrides has b<=a, consistent flattening, third flattening and eccentricity; prolate axes are rejected; every named model constructs.", "quantifier": "every axis pair, every name", "why_tests_cant": "the inputs range over a continuum; tests sample finitely many points", "anchors": ["src/pymap3d/ellipsoid.py:Ellipsoid"]}
{"id": "C53", "title": "Functions do not modify their array arguments", "statement": "No conversion changes the arrays the caller passed in.", "quantifier": "every array content", "why_tests_cant": "only visible for particular element values", "anchors": ["src/pymap3d/enu.py:enu2aer", "src/pymap3d/vincenty.py:vdist", "src/pymap3d/vincenty.py:vreckon"]}
{"id": "C54", "title": "CLI passes on what was typed", "statement": "For every command and command line that is accepted: exactly the function's parameters are passed; the chosen ellipsoid is passed as ell; a boolean parameter gets the last of its --name/--no-name flags or its default; numeric text becomes the number it denotes, comma-separated numbers a list, times an ISO datetime; parameters not mentioned get a value equal to their declared default if that is a boolean, number or word (None: see C69). A command line is accepted exactly when the required words are all there and every option is the function's.", "quantifier": "every command, argument vector", "why_tests_cant": "every argument text", "anchors": ["src/pymap3d/__main__.py"]}
{"id": "C55", "title": "Geodetic/spherical conversion is exact", "statement": "geodetic2spherical equals the spherical form of geodetic2ecef and spherical2geodetic inverts it exactly outside the evolute.", "quantifier": "every point, ellipsoid", "why_tests_cant": "the inputs range over a continuum; tests sample finitely many points", "anchors": ["src/pymap3d/spherical.py"]}
{"id": "C56", "title": "Floating-point facts the code relies on", "statement": "In IEEE binary64 round-to-nearest (no overflow): the compensated sum of two angles is error-free; reduction of an angle to (-180,180] is exact; the two-part difference of two angles is exact modulo whole turns; rounding of small angles moves an angle by at most 2^-58 degree and leaves nothing nonzero below 2^-57; Python x % m (m > 0) is the correctly rounded remainder, lies in [0,m], and does reach m.", "quantifier": "every pair of finite doubles", "why_tests_cant": "2^128 pairs", "anchors": ["src/pymap3d/karney.py:_sum_error", "src/pymap3d/karney.py:_AngNormalize", "src/pymap3d/karney.py:_AngRound", "src/pymap3d/karney.py:_AngDiff", "src/pymap3d/enu.py:enu2aer"]}
{"id": "C57", "title": "Fallback math functions", "statement": "The non-NumPy linspace returns num evenly spaced points including both ends, sign and cube_root agree with their mathematical meaning.", "quantifier": "every argument, num>=2", "why_tests_cant": "the inputs range over a continuum; tests sample finitely many points", "anchors": ["src/pymap3d/mathfun.py"]}
{"id": "C58", "title": "geoc2geod is second-order accurate", "statement": "geoc2geod agrees with the exact geodetic latitude of the surface point up to O(f^3).", "quantifier": "every latitude, flattening", "why_tests_cant": "the inputs range over a continuum; tests sample finitely many points", "anchors": ["src/pymap3d/latitude.py:geoc2geod"]}
{"id": "C59", "title": "Degrees and radians modes agree", "statement": "Every function called with deg=True on degrees returns what deg=False returns on radians, converted.", "quantifier": "every function and argument", "why_tests_cant": "the inputs range over a continuum; tests sample finitely many points", "anchors": ["src/pymap3d/*.py"]}
{"id": "C60", "title": "ell=None means WGS84", "statement": "Every function taking ell behaves identically for None and Ellipsoid.from_name('wgs84').", "quantifier": "every function and argument", "why_tests_cant": "the inputs range over a continuum; tests sample finitely many points", "anchors": ["src/pymap3d/ellipsoid.py:resolve_ellipsoid"]}
{"id": "C61", "title": "Earth rotation in eci2ecef is the apparent sidereal time", "statement": "With zero polar motion, changing UT1 rotates the ECEF image of an inertially fixed point about the z axis by exactly the change of datetime2sidereal(t, 0), keeping height and axis distance; apparent and mean sidereal time differ by at most 18.96 arcsec.", "quantifier": "every position, instant, delta_ut1", "why_tests_cant": "the inputs range over a continuum of instants and vectors; tests sample finitely many", "anchors": ["src/pymap3d/eci.py:eci2ecef", "src/pymap3d/sidereal.py:datetime2sidereal", "src/pymap3d/earth_orientation.py:greenwich_apparent_sidereal_time"]}
{"id": "C62", "title": "Polar motion follows the IERS sign convention", "statement": "With xp, yp > 0 the rotation pole has ECEF components of sign (+, -) (to first order (xp, -yp, 1)).", "quantifier": "every instant, xp, yp", "why_tests_cant": "the inputs range over a continuum of instants and vectors; tests sample finitely many", "anchors": ["src/pymap3d/earth_orientation.py:polar_motion_matrix", "src/pymap3d/earth_orientation.py:eci_to_ecef_matrix"]}
{"id": "C63", "title": "Precession and nutation are the published reductions", "statement": "The precession matrix is the IAU 1976 reduction of equatorial coordinates from J2000 to date (identity at J2000); nutation shifts ecliptic longitude by dpsi and obliquity by deps with |dpsi|<=18.96 arcsec and |deps|<=9.96 arcsec.", "quantifier": "every instant and direction", "why_tests_cant": "the inputs range over a continuum of instants and vectors; tests sample finitely many", "anchors": ["src/pymap3d/earth_orientation.py:precession_matrix", "src/pymap3d/earth_orientation.py:nutation_matrix", "src/pymap3d/earth_orientation.py:nutation_short"]}
{"id": "C64", "title": "eci2geodetic, eci2aer and aer2eci honour the EOP arguments", "statement": "eci2geodetic inverts ecef2eci after geodetic2ecef with the same EOP; eci2aer inverts aer2eci with the same EOP.", "quantifier": "every surface point / look direction, instant, EOP", "why_tests_cant": "the inputs range over a continuum of instants and vectors; tests sample finitely many", "anchors": ["src/pymap3d/ecef.py:eci2geodetic", "src/pymap3d/aer.py:eci2aer", "src/pymap3d/aer.py:aer2eci"]}
{"id": "C65", "title": "meanm is the direction of the vector sum on the authalic sphere", "statement": "meanm(lats, lons) points in the direction of the sum of the unit vectors with the points' authalic latitudes and longitudes, converted back to a geodetic latitude; the order of the points does not matter; on a sphere the mean of one point is that point.", "quantifier": "every list of points, ellipsoid, and angle unit", "why_tests_cant": "point lists of every length and order, over a continuum of coordinates", "anchors": ["src/pymap3d/lox.py:meanm"]}
{"id": "C66", "title": "Euler radius of curvature", "statement": "rsphere.euler returns the radius of curvature of the ellipsoid at the middle latitude in the direction of the geodesic (1/R = cos^2(az)/meridian + sin^2(az)/transverse), lies between the two principal radii, gives the same value in degrees and radians, and rejects latitudes beyond the poles.", "quantifier": "every pair of points and ellipsoid", "why_tests_cant": "the inputs range over a continuum; tests sample finitely many points", "anchors": ["src/pymap3d/rsphere.py:euler", "src/pymap3d/vincenty.py:vdist", "src/pymap3d/rcurve.py:meridian", "src/pymap3d/rcurve.py:transverse"]}
{"id": "C67", "title": "Symmetries of geodesic_inverse", "statement": "On every ellipsoid the distance returned by geodesic_inverse is symmetric in its two points, unchanged when both longitudes turn by the same angle and any whole turns, unchanged by mirroring east-west or north-south; the east-west mirror negates the azimuths; coincident points are at distance 0.", "quantifier": "every pair of points, every ellipsoid, degrees and radians", "why_tests_cant": "the inputs range over a continuum; tests sample finitely many points", "anchors": ["src/pymap3d/karney.py:geodesic_inverse", "src/pymap3d/karney.py:_Inverse"]}
{"id": "C68", "title": "geodesic_inverse on spheres and along the equator", "statement": "On a sphere geodesic_inverse returns the great-circle distance, the departure bearing and the arrival course, and geodesic_direct with its answer returns to the target (also for coincident and antipodal points); along the equator of any ellipsoid the path is the equator.", "quantifier": "every pair of points farther than 0.1 m (2^-26 radii) from the poles; every equatorial pair up to (1-f) half turns apart", "why_tests_cant": "the inputs range over a continuum; tests sample finitely many points", "anchors": ["src/pymap3d/karney.py:geodesic_inverse", "src/pymap3d/karney.py:geodesic_direct"]}
{"id": "C69", "title": "CLI keeps None defaults", "statement": "A parameter whose declared default is None and which is not mentioned on the command line reaches the function as None.", "quantifier": "every command with such a parameter, every command line", "why_tests_cant": "every argument text", "anchors": ["src/pymap3d/__main__.py:_add_parameter_arg", "src/pymap3d/nvector.py:nvector_distance"]}
{"id": "C70", "title": "geodesic_direct follows the true geodesic", "statement": "The position and azimuth returned by geodesic_direct are those reached by following, for the given distance, the geodesic of the ellipsoid (the unit-speed surface curve whose acceleration is normal to the surface) that leaves the start point with the given azimuth, with an error of seventh order in the third flattening n: at most a n^7 (300 + 80 s/b) in position and n^7 (300 + 80 s/b) in direction; below a nanometre on the Earth for distances up to 100 000 km.", "quantifier": "every ellipsoid of flattening at most 1/100, every start point farther than 2^-26 radii from the poles, every azimuth and distance", "why_tests_cant": "an error bound over a continuum of starts, azimuths, distances and ellipsoids; reference values exist only for finitely many points", "anchors": ["src/pymap3d/karney.py:geodesic_direct", "src/pymap3d/karney.py:_Direct"]}
{"id": "C71", "title": "The answer of geodesic_inverse is a true geodesic between the two points", "statement": "geodesic_inverse(lat1,lon1,lat2,lon2) returns a distance s and azimuths az1, az2 such that the true geodesic of the ellipsoid leaving point 1 with azimuth az1 is, after the distance s, at point 2 with azimuth az2, up to the truncation error of the series (seventh order in the third flattening) plus the residual longitude at which the iteration stopped. A user can verify the answer with geodesic_direct: the true end point is at most as far from the target as the point geodesic_direct returns, plus geodesic_direct's own error.", "quantifier": "every pair of points off the poles not both on the equator, every oblate ellipsoid with flattening at most 1/100, degrees or radians, every run of the iteration", "why_tests_cant": "The claim compares the code with a solution of a differential equation for a continuum of pairs; tests compare with other implementations of the same series at sample points.", "anchors": ["src/pymap3d/karney.py:_Inverse", "src/pymap3d/karney.py:_Lambda12", "src/pymap3d/karney.py:_InverseStart", "src/pymap3d/karney.py:geodesic_inverse"]}
{"id": "C72", "title": "geodesic_inverse along meridians and along the equator", "statement": "For two points on the same or on opposite meridians (longitudes differing by a multiple of half a turn), off the poles and not both on the equator, geodesic_inverse needs no iteration and its distance and azimuths are those of the true geodesic along the meridian, with error of seventh order in the third flattening (on the Earth: within a nanometre). For two points of the equator up to (1-f) half turns apart its answer is exactly the equatorial geodesic.", "quantifier": "every such pair of points, every oblate ellipsoid with flattening at most 1/100 (equator: every oblate ellipsoid), degrees or radians", "why_tests_cant": "The branch that accepts the meridian depends on the sign of the reduced length; it must be right for every pair of latitudes.", "anchors": ["src/pymap3d/karney.py:_Inverse", "src/pymap3d/karney.py:_Lengths", "src/pymap3d/karney.py:geodesic_inverse"]}
{"id": "C73", "title": "Accuracy of ecef2geodetic off the surface", "statement": "ecef2geodetic(geodetic2ecef(lat,lon,h)) returns the same longitude exactly, and a latitude, altitude and position off by at most an explicit error that is zero on the surface, grows with the fourth power of the height near it and at most linearly far away: at most a nanometre from 1 km below to 10 km above the WGS-84 surface and 1.3 mm up to 400 km. Equally geodetic2ecef(ecef2geodetic(x,y,z)) is within that error of (x,y,z) for every exterior point off the axis.", "quantifier": "every latitude off the poles, longitude, height above -b/8, every ellipsoid with a^2 <= 2 b^2, degrees or radians", "why_tests_cant": "The closed form is inexact; only a bound over the whole continuum of positions says how inexact. Tests compare a few points with a tolerance.", "anchors": ["src/pymap3d/ecef.py:ecef2geodetic", "src/pymap3d/ecef.py:geodetic2ecef"]}
{"id": "C74", "title": "Geodetic coordinates survive every local and inertial frame", "statement": "Converting geodetic coordinates to ENU, NED, NWU, SEZ, DCA, AER (target more than 1 mm away along each axis), body axes or ECI and back returns the original coordinates with exactly the error of ecef2geodetic alone: no other loss, for any observer, attitude, heading or instant.", "quantifier": "every target in the domain of C73, every observer position, attitude, heading, instant, ellipsoid and unit", "why_tests_cant": "the composition ranges over up to nine continuous parameters", "anchors": ["src/pymap3d/enu.py:enu2geodetic", "src/pymap3d/ned.py:ned2geodetic", "src/pymap3d/nwu.py:nwu2geodetic", "src/pymap3d/sez.py:sez2geodetic", "src/pymap3d/dca.py:dca2geodetic", "src/pymap3d/aer.py:aer2geodetic", "src/pymap3d/body.py:body2geodetic", "src/pymap3d/eci.py", "src/pymap3d/ecef.py:eci2geodetic", "src/pymap3d/ecef.py:geodetic2eci"]}
{"id": "C75", "title": "Accuracy of vreckon", "statement": "The position vreckon returns is the point at the requested distance along the geodesic of the ellipsoid that leaves the start with the requested azimuth, up to a(1.03e-12 + f^4/5 (rng/b + 1)): within a millimetre on the Earth up to half its circumference.", "quantifier": "every start at least 1e-10 rad off the poles, every azimuth and range, every oblate ellipsoid with flattening at most 1/100, degrees or radians", "why_tests_cant": "The truncated series and the stopping rule must be compared with a curve defined by a differential equation, for a four-dimensional continuum of arguments.", "anchors": ["src/pymap3d/vincenty.py:vreckon"]}
{"id": "C76", "title": "Accuracy of vdist, vreckon o vdist and track2", "statement": "The geodesic of the ellipsoid that leaves the first point with the azimuth vdist returns passes, after the distance vdist returns, within a(2e-12 + 3 f^4/5) of the second point (0.6 mm on the Earth), for all points up to 160 degrees apart; vreckon started with these values returns the second point up to the sum of the two errors; track2 returns npts points equally spaced along one geodesic from the first to the second point up to the same errors.", "quantifier": "every pair of points at least 1e-10 rad off the poles whose normals are at most 2.8 rad apart, every oblate ellipsoid with flattening at most 1/100, degrees or radians, every npts >= 3", "why_tests_cant": "Needs convergence of the iteration for every pair (a contraction argument) and truncation bounds; tests sample a few pairs.", "anchors": ["src/pymap3d/vincenty.py:vdist", "src/pymap3d/vincenty.py:vreckon", "src/pymap3d/vincenty.py:track2"]}
{"id": "C77", "title": "Accuracy of rectifying latitude and meridian arcs", "statement": "geodetic2rectifying is the true rectifying latitude (the fraction of the quadrant of the meridian, as an angle) up to n^5(1.1+2n+30000n^3) and rectifying2geodetic inverts it up to n^5(7.1+13n+67000n^2), n the third flattening; they are inverse to each other in both orders to order n^5; meridian_arc and meridian_dist are the true lengths of the meridian up to a relative error n^4(1/64+11n+21n^2+9000n^4) (3e-13 on the Earth), and the quadrant of the sphere of rsphere.rectifying is the quadrant of the ellipsoid up to the same relative error.", "quantifier": "every latitude, every oblate ellipsoid with flattening at most 1/10 (all named ones), degrees or radians", "why_tests_cant": "A truncated series must be compared with an integral, for every latitude and every flattening.", "anchors": ["src/pymap3d/latitude.py:geodetic2rectifying", "src/pymap3d/latitude.py:rectifying2geodetic", "src/pymap3d/lox.py:meridian_arc", "src/pymap3d/lox.py:meridian_dist", "src/pymap3d/rsphere.py:rectifying"]}
{"id": "C78", "title": "Accuracy of authalic latitude", "statement": "geodetic2authalic is the true authalic latitude (its sine is the fraction of the area of the hemisphere) up to n^4(33+230n), authalic2geodetic inverts it up to n^4(40+630n); they are inverse to each other in both orders up to n^4(85+1050n); meanm of a single point is that point up to the same error.", "quantifier": "every latitude, every oblate ellipsoid with flattening at most 1/10, degrees or radians", "why_tests_cant": "A truncated series must be compared with an integral, for every latitude and every flattening.", "anchors": ["src/pymap3d/latitude.py:geodetic2authalic", "src/pymap3d/latitude.py:authalic2geodetic", "src/pymap3d/lox.py:meanm"]}
{"id": "C79", "title": "Conformal and isometric latitude are inverted", "statement": "conformal2geodetic o geodetic2conformal and geodetic2conformal o conformal2geodetic are the identity to order n^5; isometric2geodetic o geodetic2isometric likewise off the poles, and within 1.7e-9 rad where cos(lat) <= 1e-9.", "quantifier": "every latitude, every oblate ellipsoid with flattening at most 1/10, degrees or radians", "why_tests_cant": "A truncated series must be compared with an integral, for every latitude and every flattening.", "anchors": ["src/pymap3d/latitude.py:geodetic2conformal", "src/pymap3d/latitude.py:conformal2geodetic", "src/pymap3d/latitude.py:geodetic2isometric", "src/pymap3d/latitude.py:isometric2geodetic"]}
{"id": "C80", "title": "Loxodromes follow true rhumb lines", "statement": "For the curve of constant azimuth on the ellipsoid that joins two points, loxodrome_inverse returns its azimuth exactly and its length up to the relative error of meridian_arc (4e-9 within 1e-9 of due east or west, the short way round); loxodrome_direct returns a latitude right to order n^4, and a point exactly on the rhumb line (longitude to 1e-9 of the distance within 1e-9 of due east or west) at a path length off by at most the latitude error divided by |cos(azimuth)|.", "quantifier": "every rhumb line, every start, range and end with cos(lat) > 1e-9, every oblate ellipsoid with flattening at most 1/10, degrees or radians", "why_tests_cant": "The curve is defined by a differential equation and the code by truncated series; the arguments form a four-dimensional continuum.", "anchors": ["src/pymap3d/lox.py:loxodrome_inverse", "src/pymap3d/lox.py:loxodrome_direct"]}
{"id": "C81", "title": "Printed results of the command line", "statement": "With --precision p (p >= 0) every float a command returns is printed as a decimal numeral with exactly p digits after the point that is the nearest multiple of 10^-p (ties to even), signed, hence within half a unit of the last place; the components of a tuple or list appear in order separated by single blanks, so that splitting recovers them, and reading one back as an argument of another command gives a number within half a unit; a negative precision is a ValueError and prints nothing. --output json ignores the precision, prints tuples as lists and times as ISO text, and fails with TypeError on results json does not know (arrays).", "quantifier": "every result and every precision", "why_tests_cant": "any float and any number of places; rounding ties and signs of tiny negatives are a measure-zero set tests do not hit", "anchors": ["src/pymap3d/__main__.py:_emit_result", "src/pymap3d/__main__.py:_format_scalar", "src/pymap3d/__main__.py:_to_jsonable"]}
{"id": "C82", "title": "The distance of geodesic_inverse is a distance on the ellipsoid", "statement": "For any two points away from the poles, antipodal or not, the distance geodesic_inverse returns is between 0 and half the equator, pi a, up to a relative 10 n^7 (1 nm on the Earth), whatever its iteration did; and wherever the line it describes reaches the target it is no shorter than the straight line through the Earth, up to the same error.", "quantifier": "every ellipsoid with flattening at most 1/100, every pair of points off the poles", "why_tests_cant": "near the antipode the iteration may end anywhere; no finite set of pairs rules out a negative or oversize result", "anchors": ["src/pymap3d/karney.py:geodesic_inverse", "src/pymap3d/karney.py:_Inverse", "src/pymap3d/karney.py:_Lengths"]}
{"id": "C83", "title": "geodesic_direct undoes geodesic_inverse", "statement": "Starting at the first point, going the distance and direction geodesic_inverse returned, geodesic_direct ends at the second point with the final azimuth geodesic_inverse returned: within 15 nm and 2e-15 rad on the Earth for points at most 2.65 rad apart, and in general within the error of the inverse plus 620 n^7.", "quantifier": "every pair of points off the poles", "why_tests_cant": "composition of two series expansions and an iteration, over a continuum of pairs", "anchors": ["src/pymap3d/karney.py:geodesic_inverse", "src/pymap3d/karney.py:geodesic_direct"]}
{"id": "C84", "title": "geodesic_inverse at a pole", "statement": "From or to a pole the result is the meridian: the distance is that along the meridian and the azimuths those of the meridian, at every longitude; all points of a parallel are equally far from the pole, and a pole is at distance zero from itself whatever longitudes name it.", "quantifier": "every ellipsoid with flattening at most 1/100, every point farther than 2^-25 a from the poles, every longitude", "why_tests_cant": "the singular points of the chart; the error depends on the longitude difference and is below the tolerance of ordinary tests", "anchors": ["src/pymap3d/karney.py:_Inverse", "src/pymap3d/karney.py:_Lengths"]}
{"id": "C85", "title": "geodesic_inverse returns the shortest distance and its azimuths", "statement": "The distance geodesic_inverse returns is the length of the shortest path on the ellipsoid: no path on the surface from the first point to the second, however irregular, is shorter than it, and some path is no longer, up to a few times the error of C71 (40 nm on the Earth). Two points of the equator: exactly. That shortest path is the only geodesic up to 2.7 a long between the points, and the azimuths returned are its azimuths at the two ends.", "quantifier": "every ellipsoid with flattening at most 1/100, every two points off the poles whose normals and meridians are at most 2.65 rad (151 degrees) apart on the Earth, every path", "why_tests_cant": "quantifies over all paths on the surface; a test compares with another geodesic code that has the same notion of geodesic", "anchors": ["src/pymap3d/karney.py:geodesic_inverse", "src/pymap3d/karney.py:_Inverse", "src/pymap3d/karney.py:_Lambda12"]}
{"id": "C86", "title": "Distances of geodesic_inverse are symmetric and obey the triangle inequality", "statement": "Going through a third point is never shorter: distance(1,3) <= distance(1,2) + distance(2,3); and distance(1,2) = distance(2,1); both up to a few times the error of C71 (0.1 micrometre on the Earth).", "quantifier": "every three points off the poles, pairwise at most 151 degrees apart on the Earth", "why_tests_cant": "a statement about every triple of points; random triples essentially never come near equality", "anchors": ["src/pymap3d/karney.py:geodesic_inverse", "src/pymap3d/karney.py:_Inverse"]}
{"id": "C87", "title": "geodesic_inverse recovers the distance and azimuths of geodesic_direct", "statement": "If geodesic_direct goes the distance s, up to 2.7 a (17 200 km on the Earth), then geodesic_inverse from the starting point to the point reached returns s again (within 40 nm on the Earth), the azimuth of departure and the azimuth of arrival (within 20 micrometres sideways, 2e-11 rad at 1000 km).", "quantifier": "every starting point, azimuth and distance such that the end points are well apart as in C85", "why_tests_cant": "holds only because no other geodesic between the points is shorter, which no set of examples shows", "anchors": ["src/pymap3d/karney.py:geodesic_direct", "src/pymap3d/karney.py:geodesic_inverse"]}
{"id": "C88", "title": "Named ellipsoids have the published dimensions, in metres", "statement": "Every name accepted by Ellipsoid.from_name gives a body with its published size and shape, in metres: for the Earth models the published equatorial radius exactly and the polar radius that the published inverse flattening gives, to the printed precision; for other bodies the published equatorial and polar radii within 0.2 per cent; and every published name is accepted.", "quantifier": "every name", "why_tests_cant": "ranges over the whole table against independent data (inverse flattening, IAU radii); tests use one or two names", "anchors": ["src/pymap3d/ellipsoid.py:Ellipsoid.models", "src/pymap3d/ellipsoid.py:Ellipsoid.from_name"]}
{"id": "C89", "title": "Vincenty's formulas and Karney's give the same answers", "statement": "For one pair of points vdist and geodesic_inverse return the same distance (to 2 mm on the Earth) and the same azimuth, and for one start, azimuth and distance vreckon and geodesic_direct reach the same place (to 2 mm on the Earth).", "quantifier": "every start point, azimuth and distance up to half a turn (direct); every pair of points less than about 151 degrees apart (inverse); both angle units; every ellipsoid with flattening at most 1/100", "why_tests_cant": "the two implementations share no code and no series; agreement over a continuum of points cannot be sampled", "anchors": ["src/pymap3d/vincenty.py:vdist", "src/pymap3d/vincenty.py:vreckon", "src/pymap3d/karney.py:geodesic_inverse", "src/pymap3d/karney.py:geodesic_direct"]}
{"id": "C90", "title": "No rhumb line, parallel or meridian arc is shorter than the geodesic", "statement": "The distance of geodesic_inverse is never more (beyond a stated rounding of the series: 0.01 mm on the Earth) than the length of loxodrome_inverse, of departure along a parallel, or of meridian_arc; on one meridian it equals meridian_arc and on the equator departure.", "quantifier": "every pair of points less than about 151 degrees apart, both angle units, every ellipsoid with flattening at most 1/100", "why_tests_cant": "three modules with independent series, compared for all points", "anchors": ["src/pymap3d/karney.py:geodesic_inverse", "src/pymap3d/lox.py:loxodrome_inverse", "src/pymap3d/lox.py:meridian_arc", "src/pymap3d/lox.py:departure"]}
{"id": "C91", "title": "The second azimuth is the course of arrival; exchanging the points reverses it", "statement": "geodesic_inverse from B to A returns the same distance as from A to B, and its azimuths are those of A to B turned by half a turn and exchanged. So azi2 is the direction in which the path arrives, not the back-azimuth that the docstrings of geodesic_inverse and geodesic_direct announce.", "quantifier": "all pairs of points whose latitudes differ in size and whose longitudes do not differ by a multiple of half a turn, every ellipsoid, both units, neither azimuth exactly due north", "why_tests_cant": "an exact symmetry between two runs of an iterative algorithm, for all inputs", "anchors": ["src/pymap3d/karney.py:geodesic_inverse", "src/pymap3d/karney.py:geodesic_direct", "src/pymap3d/karney.py:_Geodesic._Inverse"]}
{"id": "C92", "title": "Rounding in double precision costs the local-frame conversions less than a micrometre", "statement": "Evaluated in binary64 in the order the code writes it, with a C library of stated accuracy, geodetic2ecef, enu2uvw, uvw2enu, enu2ecef, ecef2enu, geodetic2enu, aer2enu, aer2ecef, ned2ecef and ecef2ned return their real-number values within a stated multiple of 2^-53 times the size of the inputs: on the Earth 0.1 micrometre for geodetic2ecef, 1 micrometre for geodetic2enu. ENU to ECEF to ENU and back in floating point returns its input with the same accuracy, the observer itself comes out as exactly zero, and the slant range of geodetic2aer is within 2 mm of the straight-line distance (3 micrometres when nothing is trimmed).", "quantifier": "all double inputs (latitude within a quarter turn, longitude within a whole turn either way, any altitude or displacement), both angle units, every ellipsoid at most a tenth flatter than a sphere, every C library with sine and cosine within 4 half-ulps, hypot within 4, squares within 2, radians within 3", "why_tests_cant": "rounding errors depend on every bit of every input; tests sample a handful against a tolerance", "anchors": ["src/pymap3d/ecef.py:geodetic2ecef", "src/pymap3d/ecef.py:enu2uvw", "src/pymap3d/ecef.py:uvw2enu", "src/pymap3d/ecef.py:enu2ecef", "src/pymap3d/ecef.py:ecef2enu", "src/pymap3d/enu.py:geodetic2enu", "src/pymap3d/enu.py:aer2enu", "src/pymap3d/enu.py:enu2aer", "src/pymap3d/aer.py:aer2ecef", "src/pymap3d/aer.py:geodetic2aer", "src/pymap3d/ned.py:ned2ecef", "src/pymap3d/ned.py:ecef2ned"]}
{"id": "C93", "title": "ecef2geodetic in double precision is good to half a micrometre, and geodetic2ecef followed by it too", "statement": "Evaluated in binary64 in the order the code writes it, with a C library of stated accuracy, ecef2geodetic returns the latitude within 280 and the longitude within 20 times 2^-53 radians of the formula's real value, and the height within 420 times 2^-53 of the distance from the centre (its sign may differ only for points on the ellipsoid to within rounding). Compared with the true geodetic coordinates of a point within -1 to 10 km of the Earth's surface the errors are at most 3.2e-14 rad, 2.3e-15 rad and 0.34 micrometre. Converting a position to ECEF and back in binary64 returns latitude to 5e-14 rad, height to 0.5 micrometre and, at least a millimetre from the axis, longitude, up to whole turns, to 0.1 micrometre divided by the distance from the axis. For points exactly on the polar axis the latitude is a quarter turn to 10 times 2^-53 radians, the longitude zero to 9, and the height |z| - b to 20 times 2^-53 of |z|.", "quantifier": "all double points at least 0.85 a from the centre (up to 10^40 m), on or off the polar axis, coordinates zero or at least 10^-80, both angle units, every ellipsoid at most a tenth flatter than a sphere and not a sphere to within rounding unless exactly one, every C library with the stated accuracy", "why_tests_cant": "cancellation in the closed formula could amplify rounding anywhere; tests sample a handful of points", "anchors": ["src/pymap3d/ecef.py:ecef2geodetic", "src/pymap3d/ecef.py:geodetic2ecef"]}
{"id": "C94", "title": "Geodetic coordinates are stable: nearby positions have nearby latitude, longitude and height", "statement": "Two positions a distance d apart have heights differing by at most d, verticals and latitudes differing by at most d over the smallest radius of curvature (at the mean height), longitudes differing by at most about d over their distance from the polar axis. Every position off the polar axis has geodetic coordinates, with height not negative outside the ellipsoid and at most 2a times the amount by which the ellipsoid equation is missed. On the Earth latitudes move by less than d/6318 km.", "quantifier": "all pairs of geodetic positions above the evolute (height at least minus the smallest radius of curvature), every distance between them, both angle units, all valid ellipsoids (existence: a^2 <= 3/2 b^2)", "why_tests_cant": "a bound on the effect of every perturbation of every position", "anchors": ["src/pymap3d/ecef.py:geodetic2ecef", "src/pymap3d/ecef.py:ecef2geodetic"]}
{"id": "C95", "title": "Look angles in double precision: a micrometre across the line of sight", "statement": "Evaluated in binary64, enu2aer returns azimuth (up to whole turns) within 42, elevation within 18 and range within 9 units of 2^-53 of those of its arguments, unless a coordinate is below 1 mm. geodetic2aer on the Earth returns the azimuth, elevation and range of the target within 1.5 micrometres divided by the horizontal distance, 2 micrometres divided by the range, and 2 micrometres (a thousand times more when a local coordinate of the target is below 1.1 mm and may be trimmed to zero). The azimuth is between 0 and the double nearest a full turn, a value it can take: an azimuth strictly below a full turn is not guaranteed.", "quantifier": "all double displacements up to 10^20 m, all pairs of sites within 1000 km of the Earth's surface, both angle units, every C library with the stated accuracy", "why_tests_cant": "rounding and trimming interact differently for every direction and distance", "anchors": ["src/pymap3d/enu.py:enu2aer", "src/pymap3d/aer.py:geodetic2aer"]}
{"id": "C96", "title": "Positions computed from local coordinates are good to half a micrometre in double precision", "statement": "Evaluated in binary64, enu2geodetic, ned2geodetic and aer2geodetic return the geodetic coordinates of the place they describe: latitude to 6.4e-14 rad, height to 0.55 micrometre, longitude (up to whole turns), at least a millimetre from the polar axis, to 0.2 micrometre divided by the distance from it.", "quantifier": "all observers on or near the Earth (altitude up to 10 km either way), all displacements or slant ranges up to 1000 km, targets between -999 m and 9999 m of altitude, the polar axis included, whose computed coordinates are zero or at least 10^-80, both angle units, every C library with the stated accuracy", "why_tests_cant": "composition of three rounded conversions; tests sample a handful", "anchors": ["src/pymap3d/enu.py:enu2geodetic", "src/pymap3d/ned.py:ned2geodetic", "src/pymap3d/aer.py:aer2geodetic"]}
{"id": "C97", "title": "Angular separation in double precision: always defined, symmetric, accurate", "statement": "Evaluated in binary64, anglesep never leaves the domain of sqrt and asin (no nan or ValueError, antipodal points included), gives the same value to the last bit when the points are exchanged and 0 for a point and itself; its error is at most 1.5e-7 rad, and at most 3e-14 rad divided by the sine of the separation. The docstring's claim that the method is 'stable all the way to exactly 0 deg' (distinct points have positive separation).", "quantifier": "all pairs of double directions (latitude up to a quarter turn, longitude up to a full turn either way), both angle units, every C library whose cosine is correctly rounded and whose other functions have the stated accuracy", "why_tests_cant": "rounding may push the argument of asin above one for some pair among 2^250; tests sample a handful", "anchors": ["src/pymap3d/haversine.py:anglesep", "src/pymap3d/haversine.py:anglesep_meeus", "src/pymap3d/haversine.py:haversine"]}
{"id": "C98", "title": "Julian dates in double precision", "statement": "Evaluated in binary64, juliandate is defined for the same datetimes as in exact arithmetic; the result is within 40.3 microseconds of the exact Julian date (20.2 before the year 6771), never decreases as time passes, is the same double for the same instant whatever the time zone, is exact at 0, 6, 12 and 18 h UTC, and distinguishes instants 81 microseconds apart (41 before 6771). It does not distinguish all distinct instants: 20 microseconds after midnight of 2024-01-01 has the Julian date of midnight.", "quantifier": "all datetimes of the years 1 to 9999, naive or with any UTC offset", "why_tests_cant": "the truncations int(y/100), int(365.25*..), int(30.6001*..) could go wrong for a single month or century, and monotonicity is about all pairs of microseconds in 10000 years", "anchors": ["src/pymap3d/earth_orientation.py:juliandate", "src/pymap3d/earth_orientation.py:ensure_utc"]}
{"id": "C99", "title": "Sidereal time, Earth rotation angle and the ECI/ECEF rotation in double precision", "statement": "Evaluated in binary64, greenwichsrt returns a double between 0 and math.tau (both included) whose direction is within 3.2e-10 rad per century from J2000 (counting at least one century) of the exact value of the formula; fed with the binary64 Julian date of a datetime, it is within 3e-9 rad more (1.5e-9 before the year 6771) of the exact sidereal time of that instant. earth_rotation_angle likewise, within 1.8e-10 rad per century. datetime2sidereal (local apparent sidereal time of a datetime at a longitude up to one turn either way) is defined exactly when it is in exact arithmetic, and within 3e-9 rad (1.5e-9 before the year 6770) plus 3.3e-10 rad per century of its exact value. eci2ecef and ecef2eci return a result in binary64 whenever they do in exact arithmetic, and every coordinate is within 9.1e-9 (4.6e-9 before the year 6770) plus 9.7e-10 per century times |x|+|y|+|z| (counting at least 1 m) of the exact one; eci2ecef_state likewise, its velocity being off by at most as much of the velocity plus, per second, twice as much of the position (the errors at half a second before and after). Converting with either function and back with the other, both in binary64, returns every coordinate to within 5.5e-13 times |x|+|y|+|z| (counting at least 1 m). eci2ecef_state followed by ecef2eci_state returns the position as closely, and the velocity to within 6e-13 of itself plus 6e-12 per second of the position. geodetic2eci and aer2eci add to the error of ecef2eci only that of the Earth-fixed position: each coordinate is within 3 times the above relative error plus 114 (176) units of 2^-53 of the exact one, times 10/9 of the semi-major axis plus the height (plus three times the slant range). eci2geodetic of an inertial position whose height is between -990 and 9990 m returns latitude, longitude (up to whole turns, away from the axis) and height to within 2e7 m times that relative error, so 0.11 m within a century of J2000; geodetic2eci followed by eci2geodetic (no Earth orientation arguments) to within 11 micrometres. eci2aer of a target at a given azimuth, elevation and distance D of the site returns them within about delta across and along the line of sight, delta being twice that relative error times |x|+|y|+|z| plus 10/9 of the semi-major axis plus the height, plus the millimetre that enu2aer trims (0.23 m in all for a target at 7000 km, within a century of J2000): azimuth, up to whole turns, to 42 units of 2^-53 plus 1.5 delta / (D cos el), elevation to 18 units plus 2 delta / D (both once 20 delta is below the denominator), range to 9 units of 2^-53 of D plus 2 delta.", "quantifier": "all Julian dates within 81 centuries of J2000, all datetimes of the years 1 to 9999 with any UTC offset, every C library whose pow, sin and cos are within the stated accuracy, every position up to 1e14 m, polar motion up to 1e5 arcsec, both summation algorithms of CPython", "why_tests_cant": "the formula multiplies a number of seconds of order 1e11 by 2 pi and reduces it by a rounded 2 pi up to three million times; a sample of dates cannot bound the loss", "anchors": ["src/pymap3d/sidereal.py:greenwichsrt", "src/pymap3d/sidereal.py:datetime2sidereal", "src/pymap3d/earth_orientation.py:greenwich_apparent_sidereal_time", "src/pymap3d/earth_orientation.py:equation_of_equinoxes", "src/pymap3d/earth_orientation.py:nutation_short", "src/pymap3d/earth_orientation.py:mean_obliquity", "src/pymap3d/earth_orientation.py:greenwich_mean_sidereal_time", "src/pymap3d/earth_orientation.py:julian_centuries", "src/pymap3d/earth_orientation.py:earth_rotation_angle", "src/pymap3d/earth_orientation.py:juliandate", "src/pymap3d/earth_orientation.py:eci_to_ecef_matrix", "src/pymap3d/earth_orientation.py:precession_matrix", "src/pymap3d/earth_orientation.py:nutation_matrix", "src/pymap3d/earth_orientation.py:polar_motion_matrix", "src/pymap3d/earth_orientation.py:matmul3", "src/pymap3d/earth_orientation.py:eci_to_ecef_matrix_rate", "src/pymap3d/eci.py:eci2ecef", "src/pymap3d/eci.py:ecef2eci", "src/pymap3d/eci.py:eci2ecef_state", "src/pymap3d/eci.py:ecef2eci_state", "src/pymap3d/ecef.py:geodetic2eci", "src/pymap3d/ecef.py:eci2geodetic", "src/pymap3d/aer.py:aer2eci", "src/pymap3d/aer.py:eci2aer"]}
