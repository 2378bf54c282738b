(** Property C59 (degrees and radians agree) and C60 (ell=None is WGS84), for every
    modelled function with a [deg] or [ell] parameter. *)
From Coq Require Import Lia.
From Verif Require Import PyMath M_ellipsoid M_ecef M_frames M_enu M_aer M_ned M_nwu M_sez M_dca M_body M_rcurve M_latitude M_rsphere M_haversine M_nvector M_time M_earth M_eci M_lox M_los M_spherical M_vincenty M_karney Spec.
From Verif Require M_utils L_PyMath L_aer L_utils L_lox L_karney3 L_karney9 P_karney.
Open Scope R_scope.

(** ** Specification: a result given in radians, rewritten in degrees.  The letters name
    the components: a angle, l length; r result-or-exception, o optional. *)
Definition to_degrees_a (x : R) : R := degrees x.
Definition to_degrees_aa '((x, y) : R * R) : R * R := (degrees x, degrees y).
Definition to_degrees_aal '((x, y, z) : vec3) : vec3 := (degrees x, degrees y, z).
Definition to_degrees_aaa '((x, y, z) : vec3) : vec3 := (degrees x, degrees y, degrees z).
Definition to_degrees_laa '((x, y, z) : vec3) : vec3 := (x, degrees y, degrees z).
Definition on_ok {A B} (f : A -> B) (r : result A) : result B := match r with Ok x => Ok (f x) | Raise e => Raise e end.
Definition to_degrees_raal : result vec3 -> result vec3 := on_ok to_degrees_aal.
Definition to_degrees_xa (x : xreal) : xreal := match x with Fin v => Fin (degrees v) | PInf => PInf | MInf => MInf end.
Definition x_radians (x : xreal) : xreal := match x with Fin v => Fin (radians v) | PInf => PInf | MInf => MInf end.
Definition to_degrees_rla : result (R * R) -> result (R * R) := on_ok (fun '(d, a) => (d, degrees a)).
Definition to_degrees_rloa : result (R * option R) -> result (R * option R) := on_ok (fun '(d, a) => (degrees d, option_map degrees a)).
Definition to_degrees_roaal : result (option vec3) -> result (option vec3) := on_ok (option_map to_degrees_aal).
Definition to_degrees_oroaa : option (result (option (R * R))) -> option (result (option (R * R))) := option_map (on_ok (option_map to_degrees_aa)).
Definition to_degrees_orolaa : option (result (option (list (R * R)))) -> option (result (option (list (R * R)))) := option_map (on_ok (option_map (map to_degrees_aa))).

(** ** C59: each call in degrees is the call on radians, rewritten in degrees *)
(** ecef.py *)
Theorem C59_ecef :
  (forall (lat : R) (lon : R) (alt : R) (ell : option Ellipsoid), geodetic2ecef lat lon alt ell true = geodetic2ecef (radians lat) (radians lon) alt ell false) /\
  (forall (x : R) (y : R) (z : R) (ell : option Ellipsoid), ecef2geodetic x y z ell true = to_degrees_aal (ecef2geodetic x y z ell false)) /\
  (forall (u : R) (v : R) (w : R) (lat0 : R) (lon0 : R), ecef2enuv u v w lat0 lon0 true = ecef2enuv u v w (radians lat0) (radians lon0) false) /\
  (forall (u : R) (v : R) (w : R) (lat0 : R) (lon0 : R), uvw2enu u v w lat0 lon0 true = uvw2enu u v w (radians lat0) (radians lon0) false) /\
  (forall (e : R) (n : R) (u : R) (lat0 : R) (lon0 : R), enu2uvw e n u lat0 lon0 true = enu2uvw e n u (radians lat0) (radians lon0) false) /\
  (forall (x : R) (y : R) (z : R) (lat0 : R) (lon0 : R) (h0 : R) (ell : option Ellipsoid), ecef2enu x y z lat0 lon0 h0 ell true = ecef2enu x y z (radians lat0) (radians lon0) h0 ell false) /\
  (forall (e : R) (n : R) (u : R) (lat0 : R) (lon0 : R) (h0 : R) (ell : option Ellipsoid), enu2ecef e n u lat0 lon0 h0 ell true = enu2ecef e n u (radians lat0) (radians lon0) h0 ell false).
Proof.
  split. { intros. reflexivity. }
  split. { intros. reflexivity. }
  split. { intros. reflexivity. }
  split. { intros. reflexivity. }
  split. { intros. reflexivity. }
  split. { intros. reflexivity. }
  intros. reflexivity.
Qed.
(** enu.py *)
Theorem C59_enu :
  (forall (e : R) (n : R) (u : R), enu2aer e n u true = to_degrees_aal (enu2aer e n u false)) /\
  (forall (az : R) (el : R) (r : R), aer2enu az el r true = aer2enu (radians az) (radians el) r false) /\
  (forall (e : R) (n : R) (u : R) (lat0 : R) (lon0 : R) (h0 : R) (ell : option Ellipsoid), enu2geodetic e n u lat0 lon0 h0 ell true = to_degrees_aal (enu2geodetic e n u (radians lat0) (radians lon0) h0 ell false)) /\
  (forall (lat : R) (lon : R) (h : R) (lat0 : R) (lon0 : R) (h0 : R) (ell : option Ellipsoid), geodetic2enu lat lon h lat0 lon0 h0 ell true = geodetic2enu (radians lat) (radians lon) h (radians lat0) (radians lon0) h0 ell false) /\
  (forall (e : R) (n : R) (u : R) (lat0 : R) (lon0 : R), enu2ecefv e n u lat0 lon0 true = enu2ecefv e n u (radians lat0) (radians lon0) false).
Proof.
  split. { intros. reflexivity. }
  split. { intros. reflexivity. }
  split. { intros. reflexivity. }
  split. { intros. reflexivity. }
  intros. reflexivity.
Qed.
(** aer.py *)
Theorem C59_aer :
  (forall (x : R) (y : R) (z : R) (lat0 : R) (lon0 : R) (h0 : R) (ell : option Ellipsoid), ecef2aer x y z lat0 lon0 h0 ell true = to_degrees_aal (ecef2aer x y z (radians lat0) (radians lon0) h0 ell false)) /\
  (forall (lat : R) (lon : R) (h : R) (lat0 : R) (lon0 : R) (h0 : R) (ell : option Ellipsoid), geodetic2aer lat lon h lat0 lon0 h0 ell true = to_degrees_aal (geodetic2aer (radians lat) (radians lon) h (radians lat0) (radians lon0) h0 ell false)) /\
  (forall (az : R) (el : R) (r : R) (lat0 : R) (lon0 : R) (h0 : R) (ell : option Ellipsoid), aer2ecef az el r lat0 lon0 h0 ell true = aer2ecef (radians az) (radians el) r (radians lat0) (radians lon0) h0 ell false) /\
  (forall (az : R) (el : R) (r : R) (lat0 : R) (lon0 : R) (h0 : R) (ell : option Ellipsoid), aer2geodetic az el r lat0 lon0 h0 ell true = to_degrees_aal (aer2geodetic (radians az) (radians el) r (radians lat0) (radians lon0) h0 ell false)).
Proof.
  split. { intros. reflexivity. }
  split. { intros. reflexivity. }
  split. { intros. reflexivity. }
  intros. reflexivity.
Qed.
(** ned.py *)
Theorem C59_ned :
  (forall (az : R) (el : R) (r : R), aer2ned az el r true = aer2ned (radians az) (radians el) r false) /\
  (forall (n : R) (e : R) (d : R), ned2aer n e d true = to_degrees_aal (ned2aer n e d false)) /\
  (forall (n : R) (e : R) (d : R) (lat0 : R) (lon0 : R) (h0 : R) (ell : option Ellipsoid), ned2geodetic n e d lat0 lon0 h0 ell true = to_degrees_aal (ned2geodetic n e d (radians lat0) (radians lon0) h0 ell false)) /\
  (forall (n : R) (e : R) (d : R) (lat0 : R) (lon0 : R) (h0 : R) (ell : option Ellipsoid), ned2ecef n e d lat0 lon0 h0 ell true = ned2ecef n e d (radians lat0) (radians lon0) h0 ell false) /\
  (forall (x : R) (y : R) (z : R) (lat0 : R) (lon0 : R) (h0 : R) (ell : option Ellipsoid), ecef2ned x y z lat0 lon0 h0 ell true = ecef2ned x y z (radians lat0) (radians lon0) h0 ell false) /\
  (forall (x : R) (y : R) (z : R) (lat0 : R) (lon0 : R), ecef2nedv x y z lat0 lon0 true = ecef2nedv x y z (radians lat0) (radians lon0) false) /\
  (forall (lat : R) (lon : R) (h : R) (lat0 : R) (lon0 : R) (h0 : R) (ell : option Ellipsoid), geodetic2ned lat lon h lat0 lon0 h0 ell true = geodetic2ned (radians lat) (radians lon) h (radians lat0) (radians lon0) h0 ell false).
Proof.
  split. { intros. reflexivity. }
  split. { intros. reflexivity. }
  split. { intros. reflexivity. }
  split. { intros. reflexivity. }
  split. { intros. reflexivity. }
  split. { intros. reflexivity. }
  intros. reflexivity.
Qed.
(** nwu.py *)
Theorem C59_nwu :
  (forall (az : R) (el : R) (r : R), aer2nwu az el r true = aer2nwu (radians az) (radians el) r false) /\
  (forall (n : R) (w : R) (u : R), nwu2aer n w u true = to_degrees_aal (nwu2aer n w u false)) /\
  (forall (n : R) (w : R) (u : R) (lat0 : R) (lon0 : R) (h0 : R) (ell : option Ellipsoid), nwu2geodetic n w u lat0 lon0 h0 ell true = to_degrees_aal (nwu2geodetic n w u (radians lat0) (radians lon0) h0 ell false)) /\
  (forall (n : R) (w : R) (u : R) (lat0 : R) (lon0 : R) (h0 : R) (ell : option Ellipsoid), nwu2ecef n w u lat0 lon0 h0 ell true = nwu2ecef n w u (radians lat0) (radians lon0) h0 ell false) /\
  (forall (x : R) (y : R) (z : R) (lat0 : R) (lon0 : R) (h0 : R) (ell : option Ellipsoid), ecef2nwu x y z lat0 lon0 h0 ell true = ecef2nwu x y z (radians lat0) (radians lon0) h0 ell false) /\
  (forall (x : R) (y : R) (z : R) (lat0 : R) (lon0 : R), ecef2nwuv x y z lat0 lon0 true = ecef2nwuv x y z (radians lat0) (radians lon0) false) /\
  (forall (lat : R) (lon : R) (h : R) (lat0 : R) (lon0 : R) (h0 : R) (ell : option Ellipsoid), geodetic2nwu lat lon h lat0 lon0 h0 ell true = geodetic2nwu (radians lat) (radians lon) h (radians lat0) (radians lon0) h0 ell false) /\
  (forall (n : R) (w : R) (u : R) (lat0 : R) (lon0 : R), nwu2ecefv n w u lat0 lon0 true = nwu2ecefv n w u (radians lat0) (radians lon0) false).
Proof.
  split. { intros. reflexivity. }
  split. { intros. reflexivity. }
  split. { intros. reflexivity. }
  split. { intros. reflexivity. }
  split. { intros. reflexivity. }
  split. { intros. reflexivity. }
  split. { intros. reflexivity. }
  intros. reflexivity.
Qed.
(** sez.py *)
Theorem C59_sez :
  (forall (az : R) (el : R) (r : R), aer2sez az el r true = aer2sez (radians az) (radians el) r false) /\
  (forall (s : R) (e : R) (z : R), sez2aer s e z true = to_degrees_aal (sez2aer s e z false)) /\
  (forall (s : R) (e : R) (z : R) (lat0 : R) (lon0 : R) (h0 : R) (ell : option Ellipsoid), sez2geodetic s e z lat0 lon0 h0 ell true = to_degrees_aal (sez2geodetic s e z (radians lat0) (radians lon0) h0 ell false)) /\
  (forall (s : R) (e : R) (z : R) (lat0 : R) (lon0 : R) (h0 : R) (ell : option Ellipsoid), sez2ecef s e z lat0 lon0 h0 ell true = sez2ecef s e z (radians lat0) (radians lon0) h0 ell false) /\
  (forall (x : R) (y : R) (z : R) (lat0 : R) (lon0 : R) (h0 : R) (ell : option Ellipsoid), ecef2sez x y z lat0 lon0 h0 ell true = ecef2sez x y z (radians lat0) (radians lon0) h0 ell false) /\
  (forall (x : R) (y : R) (z : R) (lat0 : R) (lon0 : R), ecef2sezv x y z lat0 lon0 true = ecef2sezv x y z (radians lat0) (radians lon0) false) /\
  (forall (lat : R) (lon : R) (h : R) (lat0 : R) (lon0 : R) (h0 : R) (ell : option Ellipsoid), geodetic2sez lat lon h lat0 lon0 h0 ell true = geodetic2sez (radians lat) (radians lon) h (radians lat0) (radians lon0) h0 ell false) /\
  (forall (s : R) (e : R) (z : R) (lat0 : R) (lon0 : R), sez2ecefv s e z lat0 lon0 true = sez2ecefv s e z (radians lat0) (radians lon0) false).
Proof.
  split. { intros. reflexivity. }
  split. { intros. reflexivity. }
  split. { intros. reflexivity. }
  split. { intros. reflexivity. }
  split. { intros. reflexivity. }
  split. { intros. reflexivity. }
  split. { intros. reflexivity. }
  intros. reflexivity.
Qed.
(** dca.py *)
Theorem C59_dca :
  (forall (e : R) (n : R) (u : R) (hd : R), enu2dca e n u hd true = enu2dca e n u (radians hd) false) /\
  (forall (d : R) (c : R) (u : R) (hd : R), dca2enu d c u hd true = dca2enu d c u (radians hd) false) /\
  (forall (d : R) (c : R) (u : R) (hd : R), dca2ned d c u hd true = dca2ned d c u (radians hd) false) /\
  (forall (n : R) (e : R) (d : R) (hd : R), ned2dca n e d hd true = ned2dca n e d (radians hd) false) /\
  (forall (x : R) (y : R) (z : R) (lat0 : R) (lon0 : R) (h0 : R) (hd : R) (ell : option Ellipsoid), ecef2dca x y z lat0 lon0 h0 hd ell true = ecef2dca x y z (radians lat0) (radians lon0) h0 (radians hd) ell false) /\
  (forall (d : R) (c : R) (u : R) (lat0 : R) (lon0 : R) (h0 : R) (hd : R) (ell : option Ellipsoid), dca2ecef d c u lat0 lon0 h0 hd ell true = dca2ecef d c u (radians lat0) (radians lon0) h0 (radians hd) ell false) /\
  (forall (lat : R) (lon : R) (h : R) (lat0 : R) (lon0 : R) (h0 : R) (hd : R) (ell : option Ellipsoid), geodetic2dca lat lon h lat0 lon0 h0 hd ell true = geodetic2dca (radians lat) (radians lon) h (radians lat0) (radians lon0) h0 (radians hd) ell false) /\
  (forall (d : R) (c : R) (u : R) (lat0 : R) (lon0 : R) (h0 : R) (hd : R) (ell : option Ellipsoid), dca2geodetic d c u lat0 lon0 h0 hd ell true = to_degrees_aal (dca2geodetic d c u (radians lat0) (radians lon0) h0 (radians hd) ell false)) /\
  (forall (az : R) (el : R) (r : R) (hd : R), aer2dca az el r hd true = aer2dca (radians az) (radians el) r (radians hd) false) /\
  (forall (d : R) (c : R) (u : R) (hd : R), dca2aer d c u hd true = to_degrees_aal (dca2aer d c u (radians hd) false)).
Proof.
  split. { intros. reflexivity. }
  split. { intros. reflexivity. }
  split. { intros. reflexivity. }
  split. { intros. reflexivity. }
  split. { intros. reflexivity. }
  split. { intros. reflexivity. }
  split. { intros. reflexivity. }
  split. { intros. reflexivity. }
  split. { intros. reflexivity. }
  intros. reflexivity.
Qed.
(** body.py *)
Theorem C59_body :
  (forall (x : R) (y : R) (z : R) (yaw : R) (pitch : R) (roll : R) (sq : string), ned2body x y z yaw pitch roll sq true = ned2body x y z (radians yaw) (radians pitch) (radians roll) sq false) /\
  (forall (x : R) (y : R) (z : R) (yaw : R) (pitch : R) (roll : R) (sq : string), body2ned x y z yaw pitch roll sq true = body2ned x y z (radians yaw) (radians pitch) (radians roll) sq false) /\
  (forall (x : R) (y : R) (z : R) (yaw : R) (pitch : R) (roll : R) (sq : string), enu2body x y z yaw pitch roll sq true = enu2body x y z (radians yaw) (radians pitch) (radians roll) sq false) /\
  (forall (x : R) (y : R) (z : R) (yaw : R) (pitch : R) (roll : R) (sq : string), body2enu x y z yaw pitch roll sq true = body2enu x y z (radians yaw) (radians pitch) (radians roll) sq false) /\
  (forall (x : R) (y : R) (z : R) (yaw : R) (pitch : R) (roll : R) (sq : string), sez2body x y z yaw pitch roll sq true = sez2body x y z (radians yaw) (radians pitch) (radians roll) sq false) /\
  (forall (x : R) (y : R) (z : R) (yaw : R) (pitch : R) (roll : R) (sq : string), body2sez x y z yaw pitch roll sq true = body2sez x y z (radians yaw) (radians pitch) (radians roll) sq false) /\
  (forall (x : R) (y : R) (z : R) (yaw : R) (pitch : R) (roll : R) (sq : string), nwu2body x y z yaw pitch roll sq true = nwu2body x y z (radians yaw) (radians pitch) (radians roll) sq false) /\
  (forall (x : R) (y : R) (z : R) (yaw : R) (pitch : R) (roll : R) (sq : string), body2nwu x y z yaw pitch roll sq true = body2nwu x y z (radians yaw) (radians pitch) (radians roll) sq false) /\
  (forall (x : R) (y : R) (z : R) (lat0 : R) (lon0 : R) (h0 : R) (yaw : R) (pitch : R) (roll : R) (ell : option Ellipsoid) (fr : string) (sq : string), ecef2body x y z lat0 lon0 h0 yaw pitch roll ell fr sq true = ecef2body x y z (radians lat0) (radians lon0) h0 (radians yaw) (radians pitch) (radians roll) ell fr sq false) /\
  (forall (x : R) (y : R) (z : R) (lat0 : R) (lon0 : R) (h0 : R) (yaw : R) (pitch : R) (roll : R) (ell : option Ellipsoid) (fr : string) (sq : string), body2ecef x y z lat0 lon0 h0 yaw pitch roll ell fr sq true = body2ecef x y z (radians lat0) (radians lon0) h0 (radians yaw) (radians pitch) (radians roll) ell fr sq false) /\
  (forall (x : R) (y : R) (z : R) (lat0 : R) (lon0 : R) (yaw : R) (pitch : R) (roll : R) (fr : string) (sq : string), ecef2bodyv x y z lat0 lon0 yaw pitch roll fr sq true = ecef2bodyv x y z (radians lat0) (radians lon0) (radians yaw) (radians pitch) (radians roll) fr sq false) /\
  (forall (x : R) (y : R) (z : R) (lat0 : R) (lon0 : R) (yaw : R) (pitch : R) (roll : R) (fr : string) (sq : string), body2ecefv x y z lat0 lon0 yaw pitch roll fr sq true = body2ecefv x y z (radians lat0) (radians lon0) (radians yaw) (radians pitch) (radians roll) fr sq false) /\
  (forall (lat : R) (lon : R) (h : R) (lat0 : R) (lon0 : R) (h0 : R) (yaw : R) (pitch : R) (roll : R) (ell : option Ellipsoid) (fr : string) (sq : string), geodetic2body lat lon h lat0 lon0 h0 yaw pitch roll ell fr sq true = geodetic2body (radians lat) (radians lon) h (radians lat0) (radians lon0) h0 (radians yaw) (radians pitch) (radians roll) ell fr sq false) /\
  (forall (x : R) (y : R) (z : R) (lat0 : R) (lon0 : R) (h0 : R) (yaw : R) (pitch : R) (roll : R) (ell : option Ellipsoid) (fr : string) (sq : string), body2geodetic x y z lat0 lon0 h0 yaw pitch roll ell fr sq true = to_degrees_raal (body2geodetic x y z (radians lat0) (radians lon0) h0 (radians yaw) (radians pitch) (radians roll) ell fr sq false)).
Proof.
  split. { intros. reflexivity. }
  split. { intros. reflexivity. }
  split. { intros. reflexivity. }
  split. { intros. reflexivity. }
  split. { intros. reflexivity. }
  split. { intros. reflexivity. }
  split. { intros. reflexivity. }
  split. { intros. reflexivity. }
  split. { intros. reflexivity. }
  split. { intros. reflexivity. }
  split. { intros. reflexivity. }
  split. { intros. reflexivity. }
  split. { intros. reflexivity. }
  intros. assert (B : forall (F G : vec3 -> vec3) (r r' : result vec3), r = r' -> (forall v, F v = to_degrees_aal (G v)) -> rmap F r = to_degrees_raal (rmap G r')) by (intros F G r r' <- FG; destruct r as [v|]; [cbn; now rewrite FG|reflexivity]). unfold body2geodetic. repeat (destruct (String.eqb _ _); [apply B; [reflexivity|intros [[p q] s]; reflexivity]|]). reflexivity.
Qed.
(** frames.py *)
Theorem C59_frames :
  (forall (lat0 : R) (lon0 : R), ecef2ned_rotation lat0 lon0 true = ecef2ned_rotation (radians lat0) (radians lon0) false) /\
  (forall (lat0 : R) (lon0 : R), ned2ecef_rotation lat0 lon0 true = ned2ecef_rotation (radians lat0) (radians lon0) false) /\
  (forall (yaw : R) (pitch : R) (roll : R) (sq : string), ned2body_rotation yaw pitch roll sq true = ned2body_rotation (radians yaw) (radians pitch) (radians roll) sq false) /\
  (forall (yaw : R) (pitch : R) (roll : R) (sq : string), body2ned_rotation yaw pitch roll sq true = body2ned_rotation (radians yaw) (radians pitch) (radians roll) sq false) /\
  (forall (lat0 : R) (lon0 : R), ecef2enu_rotation lat0 lon0 true = ecef2enu_rotation (radians lat0) (radians lon0) false) /\
  (forall (lat0 : R) (lon0 : R), enu2ecef_rotation lat0 lon0 true = enu2ecef_rotation (radians lat0) (radians lon0) false) /\
  (forall (yaw : R) (pitch : R) (roll : R) (sq : string), enu2body_rotation yaw pitch roll sq true = enu2body_rotation (radians yaw) (radians pitch) (radians roll) sq false) /\
  (forall (yaw : R) (pitch : R) (roll : R) (sq : string), body2enu_rotation yaw pitch roll sq true = body2enu_rotation (radians yaw) (radians pitch) (radians roll) sq false) /\
  (forall (lat0 : R) (lon0 : R), ecef2sez_rotation lat0 lon0 true = ecef2sez_rotation (radians lat0) (radians lon0) false) /\
  (forall (lat0 : R) (lon0 : R), sez2ecef_rotation lat0 lon0 true = sez2ecef_rotation (radians lat0) (radians lon0) false) /\
  (forall (yaw : R) (pitch : R) (roll : R) (sq : string), sez2body_rotation yaw pitch roll sq true = sez2body_rotation (radians yaw) (radians pitch) (radians roll) sq false) /\
  (forall (yaw : R) (pitch : R) (roll : R) (sq : string), body2sez_rotation yaw pitch roll sq true = body2sez_rotation (radians yaw) (radians pitch) (radians roll) sq false) /\
  (forall (lat0 : R) (lon0 : R), ecef2nwu_rotation lat0 lon0 true = ecef2nwu_rotation (radians lat0) (radians lon0) false) /\
  (forall (lat0 : R) (lon0 : R), nwu2ecef_rotation lat0 lon0 true = nwu2ecef_rotation (radians lat0) (radians lon0) false) /\
  (forall (yaw : R) (pitch : R) (roll : R) (sq : string), nwu2body_rotation yaw pitch roll sq true = nwu2body_rotation (radians yaw) (radians pitch) (radians roll) sq false) /\
  (forall (yaw : R) (pitch : R) (roll : R) (sq : string), body2nwu_rotation yaw pitch roll sq true = body2nwu_rotation (radians yaw) (radians pitch) (radians roll) sq false) /\
  (forall (lat0 : R) (lon0 : R) (yaw : R) (pitch : R) (roll : R) (sq : string) (fr : string), ecef2body_rotation lat0 lon0 yaw pitch roll sq fr true = ecef2body_rotation (radians lat0) (radians lon0) (radians yaw) (radians pitch) (radians roll) sq fr false) /\
  (forall (lat0 : R) (lon0 : R) (yaw : R) (pitch : R) (roll : R) (sq : string) (fr : string), body2ecef_rotation lat0 lon0 yaw pitch roll sq fr true = body2ecef_rotation (radians lat0) (radians lon0) (radians yaw) (radians pitch) (radians roll) sq fr false).
Proof.
  split. { intros. reflexivity. }
  split. { intros. reflexivity. }
  split. { intros. reflexivity. }
  split. { intros. reflexivity. }
  split. { intros. reflexivity. }
  split. { intros. reflexivity. }
  split. { intros. reflexivity. }
  split. { intros. reflexivity. }
  split. { intros. reflexivity. }
  split. { intros. reflexivity. }
  split. { intros. reflexivity. }
  split. { intros. reflexivity. }
  split. { intros. reflexivity. }
  split. { intros. reflexivity. }
  split. { intros. reflexivity. }
  split. { intros. reflexivity. }
  split. { intros. reflexivity. }
  intros. reflexivity.
Qed.
(** haversine.py (the built-in formula) *)
Theorem C59_haversine :
  (forall (lon0 : R) (lat0 : R) (lon1 : R) (lat1 : R), anglesep_meeus lon0 lat0 lon1 lat1 true = to_degrees_a (anglesep_meeus (radians lon0) (radians lat0) (radians lon1) (radians lat1) false)).
Proof.
  intros. reflexivity.
Qed.
(** karney.py *)
Theorem C59_karney :
  (forall (lat1 : R) (lon1 : R) (lat2 : R) (lon2 : R) (ell : option Ellipsoid), geodesic_inverse lat1 lon1 lat2 lon2 ell true = to_degrees_laa (geodesic_inverse (radians lat1) (radians lon1) (radians lat2) (radians lon2) ell false)) /\
  (forall (lat1 : R) (lon1 : R) (azi1 : R) (s : R) (ell : option Ellipsoid), geodesic_direct lat1 lon1 azi1 s ell true = to_degrees_aaa (geodesic_direct (radians lat1) (radians lon1) (radians azi1) s ell false)).
Proof.
  split. { intros. unfold geodesic_inverse. rewrite !L_karney3.deg_rad. destruct (Inverse _ _ _ _ _) as [[p q] s]. cbn [to_degrees_laa]. now rewrite !L_karney3.deg_rad. }
  intros. unfold geodesic_direct. rewrite !L_karney3.deg_rad. destruct (Direct _ _ _ _ _) as [[p q] t]. cbn [to_degrees_aaa]. now rewrite !L_karney3.deg_rad.
Qed.
(** latitude.py *)
Theorem C59_latitude :
  (forall (lat : R) (r : R) (ell : option Ellipsoid), geoc2geod lat r ell true = to_degrees_a (geoc2geod (radians lat) r ell false)) /\
  (forall (lat : R) (h : R) (ell : option Ellipsoid), geodetic2geocentric lat h ell true = to_degrees_a (geodetic2geocentric (radians lat) h ell false)) /\
  (forall (lat : R) (h : R) (ell : option Ellipsoid), geocentric2geodetic lat h ell true = to_degrees_a (geocentric2geodetic (radians lat) h ell false)) /\
  (forall (lat : R) (ell : option Ellipsoid), geodetic2isometric lat ell true = to_degrees_xa (geodetic2isometric (radians lat) ell false)) /\
  (forall (lat : xreal) (ell : option Ellipsoid), isometric2geodetic lat ell true = to_degrees_a (isometric2geodetic (x_radians lat) ell false)) /\
  (forall (lat : R) (ell : option Ellipsoid), conformal2geodetic lat ell true = to_degrees_a (conformal2geodetic (radians lat) ell false)) /\
  (forall (lat : R) (ell : option Ellipsoid), geodetic2conformal lat ell true = to_degrees_a (geodetic2conformal (radians lat) ell false)) /\
  (forall (lat : R) (ell : option Ellipsoid), geodetic2rectifying lat ell true = to_degrees_a (geodetic2rectifying (radians lat) ell false)) /\
  (forall (lat : R) (ell : option Ellipsoid), rectifying2geodetic lat ell true = to_degrees_a (rectifying2geodetic (radians lat) ell false)) /\
  (forall (lat : R) (ell : option Ellipsoid), geodetic2authalic lat ell true = to_degrees_a (geodetic2authalic (radians lat) ell false)) /\
  (forall (lat : R) (ell : option Ellipsoid), authalic2geodetic lat ell true = to_degrees_a (authalic2geodetic (radians lat) ell false)) /\
  (forall (lat : R) (ell : option Ellipsoid), geodetic2parametric lat ell true = to_degrees_a (geodetic2parametric (radians lat) ell false)) /\
  (forall (lat : R) (ell : option Ellipsoid), parametric2geodetic lat ell true = to_degrees_a (parametric2geodetic (radians lat) ell false)).
Proof.
  split. { intros. reflexivity. }
  split. { intros. reflexivity. }
  split. { intros. reflexivity. }
  split. { intros. unfold geodetic2isometric. cbn [rad_in]. destruct (Rle_dec _ _); [destruct (Rlt_dec _ _)|]; reflexivity. }
  split. { intros. destruct lat as [v| |]; reflexivity. }
  split. { intros. reflexivity. }
  split. { intros. reflexivity. }
  split. { intros. reflexivity. }
  split. { intros. reflexivity. }
  split. { intros. reflexivity. }
  split. { intros. reflexivity. }
  split. { intros. reflexivity. }
  intros. reflexivity.
Qed.
(** lox.py (except loxodrome_inverse, below) *)
Theorem C59_lox :
  (forall (lat1 : R) (lat2 : R) (ell : option Ellipsoid), meridian_arc lat1 lat2 ell true = meridian_arc (radians lat1) (radians lat2) ell false) /\
  (forall (lat : R) (ell : option Ellipsoid), meridian_dist lat ell true = meridian_dist (radians lat) ell false) /\
  (forall (lon1 : R) (lon2 : R) (lat : R) (ell : option Ellipsoid), departure lon1 lon2 lat ell true = departure (radians lon1) (radians lon2) (radians lat) ell false) /\
  (forall (lat1 : R) (lon1 : R) (r : R) (a12 : R) (ell : option Ellipsoid), loxodrome_direct lat1 lon1 r a12 ell true = to_degrees_rloa (loxodrome_direct (radians lat1) (radians lon1) r (radians a12) ell false)) /\
  (forall (lats : list R) (lons : list R) (ell : option Ellipsoid), meanm lats lons ell true = to_degrees_aa (meanm (map radians lats) (map radians lons) ell false)).
Proof.
  split. { intros. reflexivity. }
  split. { intros. unfold meridian_dist, meridian_arc. cbn [rad_in]. replace (radians 0) with 0 by (unfold radians; field). reflexivity. }
  split. { intros. reflexivity. }
  split. { intros. unfold loxodrome_direct. cbn [rad_in deg_out]. destruct (Rlt_dec _ _); [reflexivity|]. destruct (Rlt_dec _ _); [reflexivity|]. cbn [to_degrees_rloa on_ok]. match goal with |- context [option_map degrees (match ?d with Some _ => _ | None => _ end)] => destruct d; reflexivity end. }
  intros. unfold meanm, to_degrees_aa. assert (M : forall l, map (rad_in true) l = map (rad_in false) (map radians l)) by (intros l; rewrite map_map; reflexivity). rewrite (M lats), (M lons). destruct (M_utils.cart2sph _ _ _) as [[p q] t]. reflexivity.
Qed.
(** nvector.py *)
Theorem C59_nvector :
  (forall (lat : R) (lon : R), geodetic2nvector lat lon true = geodetic2nvector (radians lat) (radians lon) false) /\
  (forall (n : vec3), nvector2geodetic n true = to_degrees_aa (nvector2geodetic n false)) /\
  (forall (x : R) (y : R) (z : R) (ell : option Ellipsoid), ecef2nvector x y z ell true = ecef2nvector x y z ell false) /\
  (forall (n : vec3) (alt : R) (ell : option Ellipsoid), nvector2ecef n alt ell true = nvector2ecef n alt ell false).
Proof.
  split. { intros. reflexivity. }
  split. { intros. destruct n as [[x y] z]. reflexivity. }
  split. { intros. unfold ecef2nvector. change (ecef2geodetic x y z ell true) with (to_degrees_aal (ecef2geodetic x y z ell false)). destruct (ecef2geodetic x y z ell false) as [[p q] t]. cbn [to_degrees_aal]. unfold geodetic2nvector. cbn [rad_in]. now rewrite !L_karney3.rad_deg. }
  intros. destruct n as [[x y] z]. unfold nvector2ecef, nvector2geodetic. cbn [deg_out]. unfold geodetic2ecef. cbn [rad_in]. now rewrite !L_karney3.rad_deg.
Qed.
(** rcurve.py *)
Theorem C59_rcurve :
  (forall (lat : R) (ell : option Ellipsoid), geocentric_radius lat ell true = geocentric_radius (radians lat) ell false) /\
  (forall (lat : R) (ell : option Ellipsoid), transverse lat ell true = transverse (radians lat) ell false) /\
  (forall (lat : R) (ell : option Ellipsoid), parallel lat ell true = parallel (radians lat) ell false) /\
  (forall (lat : R) (ell : option Ellipsoid), meridian lat ell true = meridian (radians lat) ell false).
Proof.
  split. { intros. reflexivity. }
  split. { intros. reflexivity. }
  split. { intros. reflexivity. }
  intros. reflexivity.
Qed.
(** rsphere.py *)
Theorem C59_rsphere :
  (forall (lat : R) (ell : option Ellipsoid) (m : string), curve lat ell true m = curve (radians lat) ell false m).
Proof.
  intros. reflexivity.
Qed.
(** spherical.py *)
Theorem C59_spherical :
  (forall (lat : R) (lon : R) (h : R) (ell : option Ellipsoid), geodetic2spherical lat lon h ell true = to_degrees_aal (geodetic2spherical (radians lat) (radians lon) h ell false)) /\
  (forall (lat : R) (lon : R) (r : R) (ell : option Ellipsoid), spherical2geodetic lat lon r ell true = to_degrees_aal (spherical2geodetic (radians lat) (radians lon) r ell false)).
Proof.
  split. { intros. reflexivity. }
  intros. reflexivity.
Qed.
(** los.py *)
Theorem C59_los :
  (forall (lat0 : R) (lon0 : R) (h0 : R) (az : R) (tilt : R) (ell : option Ellipsoid), lookAtSpheroid lat0 lon0 h0 az tilt ell true = to_degrees_roaal (lookAtSpheroid (radians lat0) (radians lon0) h0 (radians az) (radians tilt) ell false)).
Proof.
  intros. unfold lookAtSpheroid, to_degrees_roaal. assert (H : los_hit lat0 lon0 h0 az tilt ell true = los_hit (radians lat0) (radians lon0) h0 (radians az) (radians tilt) ell false). { unfold los_hit. assert (A : aer2enu az (tilt - 90) 1 true = aer2enu (radians az) (radians tilt - PI / 2) 1 false) by (unfold aer2enu; cbn [rad_in]; replace (radians (tilt - 90)) with (radians tilt - PI / 2) by (unfold radians; field); reflexivity). rewrite A. reflexivity. } rewrite H. clear H. destruct (Rlt_dec _ _); [reflexivity|]. cbn [on_ok]. destruct (los_hit _ _ _ _ _ _ _) as [[dd [[p q] t]]|]; reflexivity.
Qed.
(** vincenty.py and rsphere.euler *)
Theorem C59_vincenty :
  (forall (lat1 : R) (lon1 : R) (lat2 : R) (lon2 : R) (ell : option Ellipsoid), vdist lat1 lon1 lat2 lon2 ell true = to_degrees_rla (vdist (radians lat1) (radians lon1) (radians lat2) (radians lon2) ell false)) /\
  (forall (lat1 : R) (lon1 : R) (lat2 : R) (lon2 : R) (ell : option Ellipsoid), euler lat1 lon1 lat2 lon2 ell true = euler (radians lat1) (radians lon1) (radians lat2) (radians lon2) ell false) /\
  (forall (fuel : nat) (lat1 : R) (lon1 : R) (r : R) (az : R) (ell : option Ellipsoid), vreckon fuel lat1 lon1 r az ell true = to_degrees_oroaa (vreckon fuel (radians lat1) (radians lon1) r (radians az) ell false)) /\
  (forall (fuel : nat) (lat1 : R) (lon1 : R) (lat2 : R) (lon2 : R) (ell : option Ellipsoid) (npts : nat), track2 fuel lat1 lon1 lat2 lon2 ell npts true = to_degrees_orolaa (track2 fuel (radians lat1) (radians lon1) (radians lat2) (radians lon2) ell npts false)).
Proof.
  split. { intros. unfold vdist. cbn [rad_in deg_out]. destruct (_ || _)%bool; [reflexivity|]. destruct (vdist_loop _ _ _ _ _ _ _) as [la st]. reflexivity. }
  split. { intros. unfold euler. now rewrite !L_karney3.deg_rad. }
  split. { intros. unfold vreckon. cbn [rad_in deg_out]. destruct (Rlt_dec _ _); [reflexivity|]. destruct (lat_out_of_range _); [reflexivity|]. destruct (Rlt_dec _ _); [|reflexivity]. destruct (vreck_loop _ _ _ _) as [[sp st]|]; [|reflexivity]. destruct (vreck_end _ _ _ _ _) as [p q]. reflexivity. }
  intros. unfold track2. cbn [rad_in]. destruct (Nat.ltb _ _); [reflexivity|]. destruct (Nat.eqb _ _). { cbn. now rewrite !L_karney3.deg_rad. }
    destruct (Rlt_dec _ _); [reflexivity|]. destruct (vdist _ _ _ _ _ _) as [[dd q]|]; [|reflexivity]. destruct (vreckon_ranges _ _ _ _ _ _) as [[[l|]|]|]; try reflexivity.
    cbn [to_degrees_orolaa option_map on_ok]. rewrite map_map. do 3 f_equal. apply map_ext. intros [p t]. reflexivity.
Qed.
(** eci.py *)
Theorem C59_eci :
  (forall (x : R) (y : R) (z : R) (t : datetime) (ell : option Ellipsoid) (dut : R) (xp : R) (yp : R), eci2geodetic x y z t ell true dut xp yp = to_degrees_raal (eci2geodetic x y z t ell false dut xp yp)) /\
  (forall (lat : R) (lon : R) (h : R) (t : datetime) (ell : option Ellipsoid) (dut : R) (xp : R) (yp : R), geodetic2eci lat lon h t ell true dut xp yp = geodetic2eci (radians lat) (radians lon) h t ell false dut xp yp) /\
  (forall (x : R) (y : R) (z : R) (lat0 : R) (lon0 : R) (h0 : R) (t : datetime) (dut : R) (xp : R) (yp : R), eci2aer x y z lat0 lon0 h0 t true dut xp yp = to_degrees_raal (eci2aer x y z (radians lat0) (radians lon0) h0 t false dut xp yp)) /\
  (forall (az : R) (el : R) (r : R) (lat0 : R) (lon0 : R) (h0 : R) (t : datetime) (ell : option Ellipsoid) (dut : R) (xp : R) (yp : R), aer2eci az el r lat0 lon0 h0 t ell true dut xp yp = aer2eci (radians az) (radians el) r (radians lat0) (radians lon0) h0 t ell false dut xp yp).
Proof.
  split. { intros. unfold eci2geodetic. destruct (eci2ecef _ _ _ _ _ _ _) as [[[p q] s]|]; reflexivity. }
  split. { intros. reflexivity. }
  split. { intros. unfold eci2aer. destruct (eci2ecef _ _ _ _ _ _ _) as [[[p q] s]|]; reflexivity. }
  intros. reflexivity.
Qed.
(** karney.py: geodesic_line *)
Theorem C59_geodesic_line : forall lat1 lon1 lat2 lon2 ell npts,
  geodesic_line lat1 lon1 lat2 lon2 ell npts true =
  (let '(lats, lons) := geodesic_line (radians lat1) (radians lon1) (radians lat2) (radians lon2) ell npts false in (map degrees lats, map degrees lons)).
Proof.
  intros. unfold geodesic_line. destruct C59_karney as [KI KD]. rewrite KI. destruct (geodesic_inverse _ _ _ _ _ _) as [[d az] az2]. cbn [to_degrees_laa].
  rewrite !map_map. f_equal; apply map_ext; intros i; rewrite KD, L_karney3.rad_deg; destruct (geodesic_direct _ _ _ _ _ _) as [[p q] t]; reflexivity.
Qed.
(** loxodrome_inverse: the distances agree; the azimuth is reduced to [0, 360) in degrees
    but left in (-pi, pi] in radians, so the two answers agree only up to whole turns. *)
Theorem C59_loxodrome_inverse_partial : forall lat1 lon1 lat2 lon2 ell,
  loxodrome_inverse lat1 lon1 lat2 lon2 ell true =
  option_map (fun '(d, a) => (d, py_mod (degrees a) 360)) (loxodrome_inverse (radians lat1) (radians lon1) (radians lat2) (radians lon2) ell false).
Proof. intros. unfold loxodrome_inverse. cbn [rad_in]. destruct (xsub _ _); reflexivity. Qed.
(** Finding: one degree due west along the equator is 270 in degrees but -pi/2 in radians. *)
Theorem C59_loxodrome_azimuth_refuted : forall ell, exists d,
  loxodrome_inverse 0 1 0 0 ell true = Some (d, 270) /\
  loxodrome_inverse (radians 0) (radians 1) (radians 0) (radians 0) ell false = Some (d, - PI / 2) /\ degrees (- PI / 2) <> 270.
Proof.
  intros ell. pose proof PI_RGT_0 as P.
  assert (E : exists d, loxodrome_inverse (radians 0) (radians 1) (radians 0) (radians 0) ell false = Some (d, - PI / 2)).
  { unfold loxodrome_inverse. cbn [rad_in]. assert (Z : radians 0 = 0) by (unfold radians; field). rewrite !Z.
    assert (I : exists v, geodetic2isometric 0 ell false = Fin v).
    { unfold geodetic2isometric. cbn [rad_in]. rewrite cos_0. destruct (Rle_dec _ _) as [L|]; [|eexists; reflexivity]. exfalso. revert L. unfold COS_EPS. rewrite Rabs_R1. lra. }
    destruct I as [v ->]. cbn [xsub xatan2]. rewrite Rminus_0_l, Rminus_diag_eq by reflexivity.
    assert (A : atan2 (- radians 1) 0 = - PI / 2).
    { unfold atan2. assert (0 < radians 1) by (unfold radians; lra). destruct (Rlt_dec 0 0); [lra|]. destruct (Rlt_dec 0 (- radians 1)); [lra|]. destruct (Rlt_dec (- radians 1) 0); [reflexivity|lra]. }
    rewrite A. eexists. reflexivity. }
  destruct E as [d E]. exists d. split; [|split; [exact E|]].
  - rewrite C59_loxodrome_inverse_partial, E. cbn [option_map]. do 2 f_equal. replace (degrees (- PI / 2)) with (270 + IZR (-1) * 360) by (unfold degrees; field; lra).
    rewrite L_PyMath.py_mod_plus by lra. apply L_PyMath.py_mod_small. lra.
  - replace (degrees (- PI / 2)) with (-90) by (unfold degrees; field; lra). lra.
Qed.
(** geodesic_area does not agree either, not even in sign. *)
Theorem C59_geodesic_area_refuted : forall ell, ell_ok ell -> ell_a ell = ell_b ell ->
  exists area p area' p', geodesic_area [(0, 0); (0, 90); (45, 45)] ell true = Ok (area, p) /\
    geodesic_area (map (fun '(la, lo) => (radians la, radians lo)) [(0, 0); (0, 90); (45, 45)]) ell false = Ok (area', p') /\ area <> area'.
Proof.
  intros ell H E. destruct (P_karney.C50_radians_refuted ell H E) as (a & p & a' & p' & A & B & N). exists a, p, a', p'. split; [exact A|]. split; [|exact N].
  rewrite <- B. cbn [map]. do 2 f_equal; [|f_equal; [|f_equal]]; apply f_equal2; unfold radians; field.
Qed.

(** ** C60: ell=None is Ellipsoid.from_name("wgs84") *)
Theorem C60_default_object : from_name "wgs84" = Ok wgs84.
Proof. exact L_utils.wgs84_from_name. Qed.
(** ecef.py *)
Theorem C60_ecef :
  (forall (lat : R) (lon : R) (alt : R) (deg : bool), geodetic2ecef lat lon alt None deg = geodetic2ecef lat lon alt (Some wgs84) deg) /\
  (forall (x : R) (y : R) (z : R) (deg : bool), ecef2geodetic x y z None deg = ecef2geodetic x y z (Some wgs84) deg) /\
  (forall (x : R) (y : R) (z : R) (lat0 : R) (lon0 : R) (h0 : R) (deg : bool), ecef2enu x y z lat0 lon0 h0 None deg = ecef2enu x y z lat0 lon0 h0 (Some wgs84) deg) /\
  (forall (e : R) (n : R) (u : R) (lat0 : R) (lon0 : R) (h0 : R) (deg : bool), enu2ecef e n u lat0 lon0 h0 None deg = enu2ecef e n u lat0 lon0 h0 (Some wgs84) deg) /\
  (forall (pts : list vec3) (deg : bool), ecef2geodetic_array pts None deg = ecef2geodetic_array pts (Some wgs84) deg).
Proof. split; [intros; reflexivity|]. split; [intros; reflexivity|]. split; [intros; reflexivity|]. split; [intros; reflexivity|]. intros; reflexivity. Qed.
(** enu.py *)
Theorem C60_enu :
  (forall (e : R) (n : R) (u : R) (lat0 : R) (lon0 : R) (h0 : R) (deg : bool), enu2geodetic e n u lat0 lon0 h0 None deg = enu2geodetic e n u lat0 lon0 h0 (Some wgs84) deg) /\
  (forall (lat : R) (lon : R) (h : R) (lat0 : R) (lon0 : R) (h0 : R) (deg : bool), geodetic2enu lat lon h lat0 lon0 h0 None deg = geodetic2enu lat lon h lat0 lon0 h0 (Some wgs84) deg).
Proof. split; [intros; reflexivity|]. intros; reflexivity. Qed.
(** aer.py *)
Theorem C60_aer :
  (forall (x : R) (y : R) (z : R) (lat0 : R) (lon0 : R) (h0 : R) (deg : bool), ecef2aer x y z lat0 lon0 h0 None deg = ecef2aer x y z lat0 lon0 h0 (Some wgs84) deg) /\
  (forall (lat : R) (lon : R) (h : R) (lat0 : R) (lon0 : R) (h0 : R) (deg : bool), geodetic2aer lat lon h lat0 lon0 h0 None deg = geodetic2aer lat lon h lat0 lon0 h0 (Some wgs84) deg) /\
  (forall (az : R) (el : R) (r : R) (lat0 : R) (lon0 : R) (h0 : R) (deg : bool), aer2ecef az el r lat0 lon0 h0 None deg = aer2ecef az el r lat0 lon0 h0 (Some wgs84) deg) /\
  (forall (az : R) (el : R) (r : R) (lat0 : R) (lon0 : R) (h0 : R) (deg : bool), aer2geodetic az el r lat0 lon0 h0 None deg = aer2geodetic az el r lat0 lon0 h0 (Some wgs84) deg).
Proof. split; [intros; reflexivity|]. split; [intros; reflexivity|]. split; [intros; reflexivity|]. intros; reflexivity. Qed.
(** ned.py *)
Theorem C60_ned :
  (forall (n : R) (e : R) (d : R) (lat0 : R) (lon0 : R) (h0 : R) (deg : bool), ned2geodetic n e d lat0 lon0 h0 None deg = ned2geodetic n e d lat0 lon0 h0 (Some wgs84) deg) /\
  (forall (n : R) (e : R) (d : R) (lat0 : R) (lon0 : R) (h0 : R) (deg : bool), ned2ecef n e d lat0 lon0 h0 None deg = ned2ecef n e d lat0 lon0 h0 (Some wgs84) deg) /\
  (forall (x : R) (y : R) (z : R) (lat0 : R) (lon0 : R) (h0 : R) (deg : bool), ecef2ned x y z lat0 lon0 h0 None deg = ecef2ned x y z lat0 lon0 h0 (Some wgs84) deg) /\
  (forall (lat : R) (lon : R) (h : R) (lat0 : R) (lon0 : R) (h0 : R) (deg : bool), geodetic2ned lat lon h lat0 lon0 h0 None deg = geodetic2ned lat lon h lat0 lon0 h0 (Some wgs84) deg).
Proof. split; [intros; reflexivity|]. split; [intros; reflexivity|]. split; [intros; reflexivity|]. intros; reflexivity. Qed.
(** nwu.py *)
Theorem C60_nwu :
  (forall (n : R) (w : R) (u : R) (lat0 : R) (lon0 : R) (h0 : R) (deg : bool), nwu2geodetic n w u lat0 lon0 h0 None deg = nwu2geodetic n w u lat0 lon0 h0 (Some wgs84) deg) /\
  (forall (n : R) (w : R) (u : R) (lat0 : R) (lon0 : R) (h0 : R) (deg : bool), nwu2ecef n w u lat0 lon0 h0 None deg = nwu2ecef n w u lat0 lon0 h0 (Some wgs84) deg) /\
  (forall (x : R) (y : R) (z : R) (lat0 : R) (lon0 : R) (h0 : R) (deg : bool), ecef2nwu x y z lat0 lon0 h0 None deg = ecef2nwu x y z lat0 lon0 h0 (Some wgs84) deg) /\
  (forall (lat : R) (lon : R) (h : R) (lat0 : R) (lon0 : R) (h0 : R) (deg : bool), geodetic2nwu lat lon h lat0 lon0 h0 None deg = geodetic2nwu lat lon h lat0 lon0 h0 (Some wgs84) deg).
Proof. split; [intros; reflexivity|]. split; [intros; reflexivity|]. split; [intros; reflexivity|]. intros; reflexivity. Qed.
(** sez.py *)
Theorem C60_sez :
  (forall (s : R) (e : R) (z : R) (lat0 : R) (lon0 : R) (h0 : R) (deg : bool), sez2geodetic s e z lat0 lon0 h0 None deg = sez2geodetic s e z lat0 lon0 h0 (Some wgs84) deg) /\
  (forall (s : R) (e : R) (z : R) (lat0 : R) (lon0 : R) (h0 : R) (deg : bool), sez2ecef s e z lat0 lon0 h0 None deg = sez2ecef s e z lat0 lon0 h0 (Some wgs84) deg) /\
  (forall (x : R) (y : R) (z : R) (lat0 : R) (lon0 : R) (h0 : R) (deg : bool), ecef2sez x y z lat0 lon0 h0 None deg = ecef2sez x y z lat0 lon0 h0 (Some wgs84) deg) /\
  (forall (lat : R) (lon : R) (h : R) (lat0 : R) (lon0 : R) (h0 : R) (deg : bool), geodetic2sez lat lon h lat0 lon0 h0 None deg = geodetic2sez lat lon h lat0 lon0 h0 (Some wgs84) deg).
Proof. split; [intros; reflexivity|]. split; [intros; reflexivity|]. split; [intros; reflexivity|]. intros; reflexivity. Qed.
(** dca.py *)
Theorem C60_dca :
  (forall (x : R) (y : R) (z : R) (lat0 : R) (lon0 : R) (h0 : R) (hd : R) (deg : bool), ecef2dca x y z lat0 lon0 h0 hd None deg = ecef2dca x y z lat0 lon0 h0 hd (Some wgs84) deg) /\
  (forall (d : R) (c : R) (u : R) (lat0 : R) (lon0 : R) (h0 : R) (hd : R) (deg : bool), dca2ecef d c u lat0 lon0 h0 hd None deg = dca2ecef d c u lat0 lon0 h0 hd (Some wgs84) deg) /\
  (forall (lat : R) (lon : R) (h : R) (lat0 : R) (lon0 : R) (h0 : R) (hd : R) (deg : bool), geodetic2dca lat lon h lat0 lon0 h0 hd None deg = geodetic2dca lat lon h lat0 lon0 h0 hd (Some wgs84) deg) /\
  (forall (d : R) (c : R) (u : R) (lat0 : R) (lon0 : R) (h0 : R) (hd : R) (deg : bool), dca2geodetic d c u lat0 lon0 h0 hd None deg = dca2geodetic d c u lat0 lon0 h0 hd (Some wgs84) deg).
Proof. split; [intros; reflexivity|]. split; [intros; reflexivity|]. split; [intros; reflexivity|]. intros; reflexivity. Qed.
(** body.py *)
Theorem C60_body :
  (forall (x : R) (y : R) (z : R) (lat0 : R) (lon0 : R) (h0 : R) (yaw : R) (pitch : R) (roll : R) (fr : string) (sq : string) (deg : bool), ecef2body x y z lat0 lon0 h0 yaw pitch roll None fr sq deg = ecef2body x y z lat0 lon0 h0 yaw pitch roll (Some wgs84) fr sq deg) /\
  (forall (x : R) (y : R) (z : R) (lat0 : R) (lon0 : R) (h0 : R) (yaw : R) (pitch : R) (roll : R) (fr : string) (sq : string) (deg : bool), body2ecef x y z lat0 lon0 h0 yaw pitch roll None fr sq deg = body2ecef x y z lat0 lon0 h0 yaw pitch roll (Some wgs84) fr sq deg) /\
  (forall (lat : R) (lon : R) (h : R) (lat0 : R) (lon0 : R) (h0 : R) (yaw : R) (pitch : R) (roll : R) (fr : string) (sq : string) (deg : bool), geodetic2body lat lon h lat0 lon0 h0 yaw pitch roll None fr sq deg = geodetic2body lat lon h lat0 lon0 h0 yaw pitch roll (Some wgs84) fr sq deg) /\
  (forall (x : R) (y : R) (z : R) (lat0 : R) (lon0 : R) (h0 : R) (yaw : R) (pitch : R) (roll : R) (fr : string) (sq : string) (deg : bool), body2geodetic x y z lat0 lon0 h0 yaw pitch roll None fr sq deg = body2geodetic x y z lat0 lon0 h0 yaw pitch roll (Some wgs84) fr sq deg).
Proof. split; [intros; reflexivity|]. split; [intros; reflexivity|]. split; [intros; reflexivity|]. intros; reflexivity. Qed.
(** karney.py *)
Theorem C60_karney :
  (forall (lat1 : R) (lon1 : R) (lat2 : R) (lon2 : R) (deg : bool), geodesic_inverse lat1 lon1 lat2 lon2 None deg = geodesic_inverse lat1 lon1 lat2 lon2 (Some wgs84) deg) /\
  (forall (lat1 : R) (lon1 : R) (azi1 : R) (s : R) (deg : bool), geodesic_direct lat1 lon1 azi1 s None deg = geodesic_direct lat1 lon1 azi1 s (Some wgs84) deg) /\
  (forall (lat1 : R) (lon1 : R) (lat2 : R) (lon2 : R) (npts : nat) (deg : bool), geodesic_line lat1 lon1 lat2 lon2 None npts deg = geodesic_line lat1 lon1 lat2 lon2 (Some wgs84) npts deg) /\
  (forall (vs : list (R * R)) (deg : bool), geodesic_area vs None deg = geodesic_area vs (Some wgs84) deg).
Proof. split; [intros; reflexivity|]. split; [intros; reflexivity|]. split; [intros; reflexivity|]. intros; reflexivity. Qed.
(** latitude.py *)
Theorem C60_latitude :
  (forall (lat : R) (r : R) (deg : bool), geoc2geod lat r None deg = geoc2geod lat r (Some wgs84) deg) /\
  (forall (lat : R) (h : R) (deg : bool), geodetic2geocentric lat h None deg = geodetic2geocentric lat h (Some wgs84) deg) /\
  (forall (lat : R) (h : R) (deg : bool), geocentric2geodetic lat h None deg = geocentric2geodetic lat h (Some wgs84) deg) /\
  (forall (lat : R) (deg : bool), geodetic2isometric lat None deg = geodetic2isometric lat (Some wgs84) deg) /\
  (forall (lat : xreal) (deg : bool), isometric2geodetic lat None deg = isometric2geodetic lat (Some wgs84) deg) /\
  (forall (lat : R) (deg : bool), conformal2geodetic lat None deg = conformal2geodetic lat (Some wgs84) deg) /\
  (forall (lat : R) (deg : bool), geodetic2conformal lat None deg = geodetic2conformal lat (Some wgs84) deg) /\
  (forall (lat : R) (deg : bool), geodetic2rectifying lat None deg = geodetic2rectifying lat (Some wgs84) deg) /\
  (forall (lat : R) (deg : bool), rectifying2geodetic lat None deg = rectifying2geodetic lat (Some wgs84) deg) /\
  (forall (lat : R) (deg : bool), geodetic2authalic lat None deg = geodetic2authalic lat (Some wgs84) deg) /\
  (forall (lat : R) (deg : bool), authalic2geodetic lat None deg = authalic2geodetic lat (Some wgs84) deg) /\
  (forall (lat : R) (deg : bool), geodetic2parametric lat None deg = geodetic2parametric lat (Some wgs84) deg) /\
  (forall (lat : R) (deg : bool), parametric2geodetic lat None deg = parametric2geodetic lat (Some wgs84) deg) /\
  (forall (lats : list R) (deg : bool), geodetic2conformal_array lats None deg = geodetic2conformal_array lats (Some wgs84) deg).
Proof. split; [intros; reflexivity|]. split; [intros; reflexivity|]. split; [intros; reflexivity|]. split; [intros; reflexivity|]. split; [intros; reflexivity|]. split; [intros; reflexivity|]. split; [intros; reflexivity|]. split; [intros; reflexivity|]. split; [intros; reflexivity|]. split; [intros; reflexivity|]. split; [intros; reflexivity|]. split; [intros; reflexivity|]. split; [intros; reflexivity|]. intros; reflexivity. Qed.
(** lox.py *)
Theorem C60_lox :
  (forall (lat1 : R) (lat2 : R) (deg : bool), meridian_arc lat1 lat2 None deg = meridian_arc lat1 lat2 (Some wgs84) deg) /\
  (forall (lat : R) (deg : bool), meridian_dist lat None deg = meridian_dist lat (Some wgs84) deg) /\
  (forall (lon1 : R) (lon2 : R) (lat : R) (deg : bool), departure lon1 lon2 lat None deg = departure lon1 lon2 lat (Some wgs84) deg) /\
  (forall (lat1 : R) (lon1 : R) (lat2 : R) (lon2 : R) (deg : bool), loxodrome_inverse lat1 lon1 lat2 lon2 None deg = loxodrome_inverse lat1 lon1 lat2 lon2 (Some wgs84) deg) /\
  (forall (lat1 : R) (lon1 : R) (r : R) (a12 : R) (deg : bool), loxodrome_direct lat1 lon1 r a12 None deg = loxodrome_direct lat1 lon1 r a12 (Some wgs84) deg) /\
  (forall (lats : list R) (lons : list R) (deg : bool), meanm lats lons None deg = meanm lats lons (Some wgs84) deg).
Proof. split; [intros; reflexivity|]. split; [intros; reflexivity|]. split; [intros; reflexivity|]. split; [intros; reflexivity|]. split; [intros; reflexivity|]. intros; reflexivity. Qed.
(** nvector.py *)
Theorem C60_nvector :
  (forall (x : R) (y : R) (z : R) (deg : bool), ecef2nvector x y z None deg = ecef2nvector x y z (Some wgs84) deg) /\
  (forall (n : vec3) (alt : R) (deg : bool), nvector2ecef n alt None deg = nvector2ecef n alt (Some wgs84) deg).
Proof. split; [intros; reflexivity|]. intros; reflexivity. Qed.
(** rcurve.py *)
Theorem C60_rcurve :
  (forall (lat : R) (deg : bool), geocentric_radius lat None deg = geocentric_radius lat (Some wgs84) deg) /\
  (forall (lat : R) (deg : bool), transverse lat None deg = transverse lat (Some wgs84) deg) /\
  (forall (lat : R) (deg : bool), parallel lat None deg = parallel lat (Some wgs84) deg) /\
  (forall (lat : R) (deg : bool), meridian lat None deg = meridian lat (Some wgs84) deg).
Proof. split; [intros; reflexivity|]. split; [intros; reflexivity|]. split; [intros; reflexivity|]. intros; reflexivity. Qed.
(** rsphere.py *)
Theorem C60_rsphere :
  (forall (lat : R) (deg : bool) (m : string), curve lat None deg m = curve lat (Some wgs84) deg m) /\
  (eqavol None = eqavol (Some wgs84)) /\
  (authalic None = authalic (Some wgs84)) /\
  (M_rsphere.rectifying None = M_rsphere.rectifying (Some wgs84)) /\
  (forall (m : string), triaxial None m = triaxial (Some wgs84) m) /\
  (forall (m : string), biaxial None m = biaxial (Some wgs84) m).
Proof. split; [intros; reflexivity|]. split; [intros; reflexivity|]. split; [intros; reflexivity|]. split; [intros; reflexivity|]. split; [intros; reflexivity|]. intros; reflexivity. Qed.
(** spherical.py *)
Theorem C60_spherical :
  (forall (lat : R) (lon : R) (h : R) (deg : bool), geodetic2spherical lat lon h None deg = geodetic2spherical lat lon h (Some wgs84) deg) /\
  (forall (lat : R) (lon : R) (r : R) (deg : bool), spherical2geodetic lat lon r None deg = spherical2geodetic lat lon r (Some wgs84) deg).
Proof. split; [intros; reflexivity|]. intros; reflexivity. Qed.
(** los.py *)
Theorem C60_los :
  (forall (lat0 : R) (lon0 : R) (h0 : R) (az : R) (tilt : R) (deg : bool), lookAtSpheroid lat0 lon0 h0 az tilt None deg = lookAtSpheroid lat0 lon0 h0 az tilt (Some wgs84) deg) /\
  (forall (obs : list (R * R * R * R * R)) (deg : bool), lookAtSpheroid_array obs None deg = lookAtSpheroid_array obs (Some wgs84) deg).
Proof. split; [intros; reflexivity|]. intros; reflexivity. Qed.
(** vincenty.py and rsphere.euler *)
Theorem C60_vincenty :
  (forall (lat1 : R) (lon1 : R) (lat2 : R) (lon2 : R) (deg : bool), vdist lat1 lon1 lat2 lon2 None deg = vdist lat1 lon1 lat2 lon2 (Some wgs84) deg) /\
  (forall (lat1 : R) (lon1 : R) (lat2 : R) (lon2 : R) (deg : bool), euler lat1 lon1 lat2 lon2 None deg = euler lat1 lon1 lat2 lon2 (Some wgs84) deg) /\
  (forall (fuel : nat) (lat1 : R) (lon1 : R) (r : R) (az : R) (deg : bool), vreckon fuel lat1 lon1 r az None deg = vreckon fuel lat1 lon1 r az (Some wgs84) deg) /\
  (forall (fuel : nat) (lat1 : R) (lon1 : R) (lat2 : R) (lon2 : R) (npts : nat) (deg : bool), track2 fuel lat1 lon1 lat2 lon2 None npts deg = track2 fuel lat1 lon1 lat2 lon2 (Some wgs84) npts deg) /\
  (forall (pts : list (R * R * R * R)) (deg : bool), vdist_array pts None deg = vdist_array pts (Some wgs84) deg).
Proof. split; [intros; reflexivity|]. split; [intros; reflexivity|]. split; [intros; reflexivity|]. split; [intros; reflexivity|]. intros; reflexivity. Qed.
(** eci.py *)
Theorem C60_eci :
  (forall (x : R) (y : R) (z : R) (t : datetime) (deg : bool) (dut : R) (xp : R) (yp : R), eci2geodetic x y z t None deg dut xp yp = eci2geodetic x y z t (Some wgs84) deg dut xp yp) /\
  (forall (lat : R) (lon : R) (h : R) (t : datetime) (deg : bool) (dut : R) (xp : R) (yp : R), geodetic2eci lat lon h t None deg dut xp yp = geodetic2eci lat lon h t (Some wgs84) deg dut xp yp) /\
  (forall (az : R) (el : R) (r : R) (lat0 : R) (lon0 : R) (h0 : R) (t : datetime) (deg : bool) (dut : R) (xp : R) (yp : R), aer2eci az el r lat0 lon0 h0 t None deg dut xp yp = aer2eci az el r lat0 lon0 h0 t (Some wgs84) deg dut xp yp).
Proof. split; [intros; reflexivity|]. split; [intros; reflexivity|]. intros; reflexivity. Qed.
