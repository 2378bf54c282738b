(** Lemmas on body axes, DCA and the relabelled frames. *)
From Coq Require Import Lia Psatz.
From Verif Require Import PyMath L_PyMath M_ellipsoid M_ecef M_frames M_enu M_aer M_ned M_nwu M_sez
  M_body M_dca Spec L_ell L_frames L_aer.
Open Scope R_scope.
Open Scope string_scope.

Lemma ned2body_ok yaw pitch roll deg :
  exists m, ned2body_rotation yaw pitch roll "zyx" deg = Ok m /\ is_rotation m.
Proof.
  unfold ned2body_rotation. cbn [String.eqb Ascii.eqb Bool.eqb negb]. eexists; split; [reflexivity|].
  apply transpose_rotation. apply matmul_rotation; [apply rotation_z_rot|].
  apply matmul_rotation; [apply rotation_y_rot | apply rotation_x_rot].
Qed.
Lemma ned2body_bad yaw pitch roll s deg : s <> "zyx" ->
  ned2body_rotation yaw pitch roll s deg = Raise ValueError.
Proof.
  intros H. unfold ned2body_rotation. apply String.eqb_neq in H. now rewrite H.
Qed.

Definition mid (v : vec3) : vec3 := v.
(** All the *2body matrices: M * P where P is a fixed rotation to NED. *)
Lemma enu2body_ok yaw pitch roll deg :
  exists m, enu2body_rotation yaw pitch roll "zyx" deg = Ok m /\ is_rotation m.
Proof.
  unfold enu2body_rotation. destruct (ned2body_ok yaw pitch roll deg) as (m & -> & H).
  eexists; split; [reflexivity|]. apply matmul_rotation; [assumption|apply ENU2NED_rot].
Qed.
Lemma sez2body_ok yaw pitch roll deg :
  exists m, sez2body_rotation yaw pitch roll "zyx" deg = Ok m /\ is_rotation m.
Proof.
  unfold sez2body_rotation. destruct (enu2body_ok yaw pitch roll deg) as (m & -> & H).
  eexists; split; [reflexivity|].
  apply matmul_rotation; [assumption|apply transpose_rotation, ENU2SEZ_rot].
Qed.
Lemma nwu2body_ok yaw pitch roll deg :
  exists m, nwu2body_rotation yaw pitch roll "zyx" deg = Ok m /\ is_rotation m.
Proof.
  unfold nwu2body_rotation. destruct (enu2body_ok yaw pitch roll deg) as (m & -> & H).
  eexists; split; [reflexivity|].
  apply matmul_rotation; [assumption|apply transpose_rotation, ENU2NWU_rot].
Qed.

(** local -> body -> local and back, for any of the matrix pairs *)
Lemma pair_inv (M : result mat3) m v :
  M = Ok m -> is_rotation m ->
  rmap (fun m => matvec3 m v) M = Ok (matvec3 m v) /\
  rmap (fun m' => matvec3 m' (matvec3 m v)) (rmap transpose3 M) = Ok v /\
  rmap (fun m' => matvec3 m' v) (rmap transpose3 M) = Ok (matvec3 (transpose3 m) v) /\
  rmap (fun m' => matvec3 m' (matvec3 (transpose3 m) v)) M = Ok v.
Proof.
  intros -> H. cbn. repeat split.
  - now rewrite rot_transpose_vec.
  - now rewrite transpose_rot_vec.
Qed.

Lemma ned_body_ned n e d yaw pitch roll deg :
  bind (ned2body n e d yaw pitch roll "zyx" deg)
    (fun '(x, y, z) => body2ned x y z yaw pitch roll "zyx" deg) = Ok (n, e, d).
Proof.
  unfold ned2body, body2ned, ned2body_matrix, body2ned_matrix, body2ned_rotation.
  destruct (ned2body_ok yaw pitch roll deg) as (m & E & H).
  destruct (pair_inv _ m (n, e, d) E H) as (A & B & _). rewrite A. cbn [bind].
  destruct (matvec3 m (n, e, d)) as [[x y] z]. exact B.
Qed.
Lemma body_ned_body x y z yaw pitch roll deg :
  bind (body2ned x y z yaw pitch roll "zyx" deg)
    (fun '(n, e, d) => ned2body n e d yaw pitch roll "zyx" deg) = Ok (x, y, z).
Proof.
  unfold ned2body, body2ned, ned2body_matrix, body2ned_matrix, body2ned_rotation.
  destruct (ned2body_ok yaw pitch roll deg) as (m & E & H).
  destruct (pair_inv _ m (x, y, z) E H) as (_ & _ & A & B). rewrite A. cbn [bind].
  destruct (matvec3 (transpose3 m) (x, y, z)) as [[n e] d]. exact B.
Qed.
Lemma enu_body_enu e n u yaw pitch roll deg :
  bind (enu2body e n u yaw pitch roll "zyx" deg)
    (fun '(x, y, z) => body2enu x y z yaw pitch roll "zyx" deg) = Ok (e, n, u).
Proof.
  unfold enu2body, body2enu, enu2body_matrix, body2enu_matrix, body2enu_rotation.
  destruct (enu2body_ok yaw pitch roll deg) as (m & E & H).
  destruct (pair_inv _ m (e, n, u) E H) as (A & B & _). rewrite A. cbn [bind].
  destruct (matvec3 m (e, n, u)) as [[x y] z]. exact B.
Qed.
Lemma body_enu_body x y z yaw pitch roll deg :
  bind (body2enu x y z yaw pitch roll "zyx" deg)
    (fun '(e, n, u) => enu2body e n u yaw pitch roll "zyx" deg) = Ok (x, y, z).
Proof.
  unfold enu2body, body2enu, enu2body_matrix, body2enu_matrix, body2enu_rotation.
  destruct (enu2body_ok yaw pitch roll deg) as (m & E & H).
  destruct (pair_inv _ m (x, y, z) E H) as (_ & _ & A & B). rewrite A. cbn [bind].
  destruct (matvec3 (transpose3 m) (x, y, z)) as [[n e] d]. exact B.
Qed.
Lemma sez_body_sez s e z0 yaw pitch roll deg :
  bind (sez2body s e z0 yaw pitch roll "zyx" deg)
    (fun '(x, y, z) => body2sez x y z yaw pitch roll "zyx" deg) = Ok (s, e, z0).
Proof.
  unfold sez2body, body2sez, sez2body_matrix, body2sez_matrix, body2sez_rotation.
  destruct (sez2body_ok yaw pitch roll deg) as (m & E & H).
  destruct (pair_inv _ m (s, e, z0) E H) as (A & B & _). rewrite A. cbn [bind].
  destruct (matvec3 m (s, e, z0)) as [[x y] z]. exact B.
Qed.
Lemma body_sez_body x y z yaw pitch roll deg :
  bind (body2sez x y z yaw pitch roll "zyx" deg)
    (fun '(s, e, z0) => sez2body s e z0 yaw pitch roll "zyx" deg) = Ok (x, y, z).
Proof.
  unfold sez2body, body2sez, sez2body_matrix, body2sez_matrix, body2sez_rotation.
  destruct (sez2body_ok yaw pitch roll deg) as (m & E & H).
  destruct (pair_inv _ m (x, y, z) E H) as (_ & _ & A & B). rewrite A. cbn [bind].
  destruct (matvec3 (transpose3 m) (x, y, z)) as [[n e] d]. exact B.
Qed.
Lemma nwu_body_nwu n w u yaw pitch roll deg :
  bind (nwu2body n w u yaw pitch roll "zyx" deg)
    (fun '(x, y, z) => body2nwu x y z yaw pitch roll "zyx" deg) = Ok (n, w, u).
Proof.
  unfold nwu2body, body2nwu, nwu2body_matrix, body2nwu_matrix, body2nwu_rotation.
  destruct (nwu2body_ok yaw pitch roll deg) as (m & E & H).
  destruct (pair_inv _ m (n, w, u) E H) as (A & B & _). rewrite A. cbn [bind].
  destruct (matvec3 m (n, w, u)) as [[x y] z]. exact B.
Qed.
Lemma body_nwu_body x y z yaw pitch roll deg :
  bind (body2nwu x y z yaw pitch roll "zyx" deg)
    (fun '(n, w, u) => nwu2body n w u yaw pitch roll "zyx" deg) = Ok (x, y, z).
Proof.
  unfold nwu2body, body2nwu, nwu2body_matrix, body2nwu_matrix, body2nwu_rotation.
  destruct (nwu2body_ok yaw pitch roll deg) as (m & E & H).
  destruct (pair_inv _ m (x, y, z) E H) as (_ & _ & A & B). rewrite A. cbn [bind].
  destruct (matvec3 (transpose3 m) (x, y, z)) as [[n e] d]. exact B.
Qed.

(** The other local frames in terms of NED. *)
Lemma enu2body_ned e n u yaw pitch roll s deg :
  enu2body e n u yaw pitch roll s deg = ned2body n e (- u) yaw pitch roll s deg.
Proof.
  unfold enu2body, ned2body, enu2body_matrix, ned2body_matrix, enu2body_rotation.
  destruct (ned2body_rotation yaw pitch roll s deg) as [m|ex]; [|reflexivity]. cbn [rmap bind].
  rewrite matmul_vec. do 3 f_equal. unmat. apply pair3_eq; ring.
Qed.
Lemma sez2body_ned s e z yaw pitch roll sq deg :
  sez2body s e z yaw pitch roll sq deg = ned2body (- s) e (- z) yaw pitch roll sq deg.
Proof.
  unfold sez2body, ned2body, sez2body_matrix, ned2body_matrix, sez2body_rotation, enu2body_rotation.
  destruct (ned2body_rotation yaw pitch roll sq deg) as [m|ex]; [|reflexivity]. cbn [rmap bind].
  rewrite !matmul_vec. do 3 f_equal. unmat. apply pair3_eq; ring.
Qed.
Lemma nwu2body_ned n w u yaw pitch roll sq deg :
  nwu2body n w u yaw pitch roll sq deg = ned2body n (- w) (- u) yaw pitch roll sq deg.
Proof.
  unfold nwu2body, ned2body, nwu2body_matrix, ned2body_matrix, nwu2body_rotation, enu2body_rotation.
  destruct (ned2body_rotation yaw pitch roll sq deg) as [m|ex]; [|reflexivity]. cbn [rmap bind].
  rewrite !matmul_vec. do 3 f_equal. unmat. apply pair3_eq; ring.
Qed.
Ltac tmat m := destruct m as [[[[?a ?b] ?c] [[?d ?e] ?f]] [[?g ?h] ?i]].
Lemma body2enu_ned x y z yaw pitch roll s deg :
  body2enu x y z yaw pitch roll s deg
  = rmap (fun '(n, e, d) => (e, n, - d)) (body2ned x y z yaw pitch roll s deg).
Proof.
  unfold body2enu, body2ned, body2enu_matrix, body2ned_matrix, body2enu_rotation,
    body2ned_rotation, enu2body_rotation.
  destruct (ned2body_rotation yaw pitch roll s deg) as [m|ex]; [|reflexivity]. cbn [rmap bind].
  f_equal. tmat m. unmat. apply pair3_eq; ring.
Qed.
Lemma body2sez_ned x y z yaw pitch roll s deg :
  body2sez x y z yaw pitch roll s deg
  = rmap (fun '(n, e, d) => (- n, e, - d)) (body2ned x y z yaw pitch roll s deg).
Proof.
  unfold body2sez, body2ned, body2sez_matrix, body2ned_matrix, body2sez_rotation,
    body2ned_rotation, sez2body_rotation, enu2body_rotation.
  destruct (ned2body_rotation yaw pitch roll s deg) as [m|ex]; [|reflexivity]. cbn [rmap bind].
  f_equal. tmat m. unmat. apply pair3_eq; ring.
Qed.
Lemma body2nwu_ned x y z yaw pitch roll s deg :
  body2nwu x y z yaw pitch roll s deg
  = rmap (fun '(n, e, d) => (n, - e, - d)) (body2ned x y z yaw pitch roll s deg).
Proof.
  unfold body2nwu, body2ned, body2nwu_matrix, body2ned_matrix, body2nwu_rotation,
    body2ned_rotation, nwu2body_rotation, enu2body_rotation.
  destruct (ned2body_rotation yaw pitch roll s deg) as [m|ex]; [|reflexivity]. cbn [rmap bind].
  f_equal. tmat m. unmat. apply pair3_eq; ring.
Qed.

Definition frames4 : list string := ["ned"; "enu"; "sez"; "nwu"].

Lemma ecef2body_frame x y z lat0 lon0 h0 yaw pitch roll ell frame s deg : In frame frames4 ->
  ecef2body x y z lat0 lon0 h0 yaw pitch roll ell frame s deg
  = ecef2body x y z lat0 lon0 h0 yaw pitch roll ell "ned" s deg.
Proof.
  unfold ecef2body, ecef2ned, ecef2sez, ecef2nwu.
  intros [<-|[<-|[<-|[<-|[]]]]]; cbn [String.eqb Ascii.eqb Bool.eqb]; [reflexivity| | |];
  destruct (ecef2enu x y z lat0 lon0 h0 ell deg) as [[e n] u].
  - apply enu2body_ned.
  - rewrite sez2body_ned. f_equal. ring.
  - rewrite nwu2body_ned. f_equal; ring.
Qed.
Lemma geodetic2body_frame lat lon h lat0 lon0 h0 yaw pitch roll ell frame s deg : In frame frames4 ->
  geodetic2body lat lon h lat0 lon0 h0 yaw pitch roll ell frame s deg
  = geodetic2body lat lon h lat0 lon0 h0 yaw pitch roll ell "ned" s deg.
Proof.
  unfold geodetic2body, geodetic2ned, geodetic2sez, geodetic2nwu.
  intros [<-|[<-|[<-|[<-|[]]]]]; cbn [String.eqb Ascii.eqb Bool.eqb]; [reflexivity| | |];
  destruct (geodetic2enu lat lon h lat0 lon0 h0 ell deg) as [[e n] u].
  - apply enu2body_ned.
  - rewrite sez2body_ned. f_equal. ring.
  - rewrite nwu2body_ned. f_equal; ring.
Qed.
Lemma body2ecef_frame x y z lat0 lon0 h0 yaw pitch roll ell frame s deg : In frame frames4 ->
  body2ecef x y z lat0 lon0 h0 yaw pitch roll ell frame s deg
  = body2ecef x y z lat0 lon0 h0 yaw pitch roll ell "ned" s deg.
Proof.
  unfold body2ecef, ned2ecef, sez2ecef, nwu2ecef.
  intros [<-|[<-|[<-|[<-|[]]]]]; cbn [String.eqb Ascii.eqb Bool.eqb]; [reflexivity| | |].
  - rewrite body2enu_ned. now destruct (body2ned x y z yaw pitch roll s deg) as [[[n e] d]|].
  - rewrite body2sez_ned. destruct (body2ned x y z yaw pitch roll s deg) as [[[n e] d]|]; [|reflexivity].
    cbn [rmap bind]. do 2 f_equal. ring.
  - rewrite body2nwu_ned. destruct (body2ned x y z yaw pitch roll s deg) as [[[n e] d]|]; [|reflexivity].
    cbn [rmap bind]. do 2 f_equal; ring.
Qed.
Lemma body2geodetic_frame x y z lat0 lon0 h0 yaw pitch roll ell frame s deg : In frame frames4 ->
  body2geodetic x y z lat0 lon0 h0 yaw pitch roll ell frame s deg
  = body2geodetic x y z lat0 lon0 h0 yaw pitch roll ell "ned" s deg.
Proof.
  unfold body2geodetic, ned2geodetic, sez2geodetic, nwu2geodetic, enu2geodetic.
  intros [<-|[<-|[<-|[<-|[]]]]]; cbn [String.eqb Ascii.eqb Bool.eqb]; [reflexivity| | |].
  - rewrite body2enu_ned. now destruct (body2ned x y z yaw pitch roll s deg) as [[[n e] d]|].
  - rewrite body2sez_ned. destruct (body2ned x y z yaw pitch roll s deg) as [[[n e] d]|]; [|reflexivity].
    cbn [rmap bind]. replace (- - n)%R with n by ring. reflexivity.
  - rewrite body2nwu_ned. destruct (body2ned x y z yaw pitch roll s deg) as [[[n e] d]|]; [|reflexivity].
    cbn [rmap bind]. replace (- - e)%R with e by ring. reflexivity.
Qed.

Lemma ecef_ned_ecef x y z lat0 lon0 h0 ell deg :
  let '(n, e, d) := ecef2ned x y z lat0 lon0 h0 ell deg in
  ned2ecef n e d lat0 lon0 h0 ell deg = (x, y, z).
Proof.
  unfold ecef2ned, ned2ecef. pose proof (ecef_enu_ecef x y z lat0 lon0 h0 ell deg) as H.
  destruct (ecef2enu x y z lat0 lon0 h0 ell deg) as [[e n] u].
  replace (- - u)%R with u by ring. exact H.
Qed.
Lemma ned_ecef_ned n e d lat0 lon0 h0 ell deg :
  let '(x, y, z) := ned2ecef n e d lat0 lon0 h0 ell deg in
  ecef2ned x y z lat0 lon0 h0 ell deg = (n, e, d).
Proof.
  unfold ecef2ned, ned2ecef. pose proof (enu_ecef_enu e n (-d) lat0 lon0 h0 ell deg) as H.
  destruct (enu2ecef e n (-d) lat0 lon0 h0 ell deg) as [[x y] z]. rewrite H.
  apply pair3_eq; ring.
Qed.
Lemma ecef_nwu_ecef x y z lat0 lon0 h0 ell deg :
  let '(n, w, u) := ecef2nwu x y z lat0 lon0 h0 ell deg in
  nwu2ecef n w u lat0 lon0 h0 ell deg = (x, y, z).
Proof.
  unfold ecef2nwu, nwu2ecef. pose proof (ecef_enu_ecef x y z lat0 lon0 h0 ell deg) as H.
  destruct (ecef2enu x y z lat0 lon0 h0 ell deg) as [[e n] u].
  replace (- - e)%R with e by ring. exact H.
Qed.
Lemma nwu_ecef_nwu n w u lat0 lon0 h0 ell deg :
  let '(x, y, z) := nwu2ecef n w u lat0 lon0 h0 ell deg in
  ecef2nwu x y z lat0 lon0 h0 ell deg = (n, w, u).
Proof.
  unfold ecef2nwu, nwu2ecef. pose proof (enu_ecef_enu (-w) n u lat0 lon0 h0 ell deg) as H.
  destruct (enu2ecef (-w) n u lat0 lon0 h0 ell deg) as [[x y] z]. rewrite H.
  apply pair3_eq; ring.
Qed.
Lemma ecef_sez_ecef x y z lat0 lon0 h0 ell deg :
  let '(s, e, zz) := ecef2sez x y z lat0 lon0 h0 ell deg in
  sez2ecef s e zz lat0 lon0 h0 ell deg = (x, y, z).
Proof.
  unfold ecef2sez, sez2ecef. pose proof (ecef_enu_ecef x y z lat0 lon0 h0 ell deg) as H.
  destruct (ecef2enu x y z lat0 lon0 h0 ell deg) as [[e n] u].
  replace (- - n)%R with n by ring. exact H.
Qed.
Lemma sez_ecef_sez s e z0 lat0 lon0 h0 ell deg :
  let '(x, y, z) := sez2ecef s e z0 lat0 lon0 h0 ell deg in
  ecef2sez x y z lat0 lon0 h0 ell deg = (s, e, z0).
Proof.
  unfold ecef2sez, sez2ecef. pose proof (enu_ecef_enu e (-s) z0 lat0 lon0 h0 ell deg) as H.
  destruct (enu2ecef e (-s) z0 lat0 lon0 h0 ell deg) as [[x y] z]. rewrite H.
  apply pair3_eq; ring.
Qed.
Lemma ecef_body_ecef x y z lat0 lon0 h0 yaw pitch roll ell frame deg : In frame frames4 ->
  bind (ecef2body x y z lat0 lon0 h0 yaw pitch roll ell frame "zyx" deg)
    (fun '(xb, yb, zb) => body2ecef xb yb zb lat0 lon0 h0 yaw pitch roll ell frame "zyx" deg)
  = Ok (x, y, z).
Proof.
  intros Hf. rewrite ecef2body_frame by assumption.
  unfold ecef2body. cbn [String.eqb Ascii.eqb Bool.eqb].
  pose proof (ecef_ned_ecef x y z lat0 lon0 h0 ell deg) as K.
  destruct (ecef2ned x y z lat0 lon0 h0 ell deg) as [[n e] d].
  pose proof (ned_body_ned n e d yaw pitch roll deg) as H.
  destruct (ned2body n e d yaw pitch roll "zyx" deg) as [[[xb yb] zb]|ex]; [|discriminate].
  cbn [bind] in *. rewrite body2ecef_frame by assumption.
  unfold body2ecef. cbn [String.eqb Ascii.eqb Bool.eqb]. rewrite H. cbn [rmap bind]. now rewrite K.
Qed.
Lemma body_ecef_body xb yb zb lat0 lon0 h0 yaw pitch roll ell frame deg : In frame frames4 ->
  bind (body2ecef xb yb zb lat0 lon0 h0 yaw pitch roll ell frame "zyx" deg)
    (fun '(x, y, z) => ecef2body x y z lat0 lon0 h0 yaw pitch roll ell frame "zyx" deg)
  = Ok (xb, yb, zb).
Proof.
  intros Hf. rewrite body2ecef_frame by assumption.
  unfold body2ecef. cbn [String.eqb Ascii.eqb Bool.eqb].
  pose proof (body_ned_body xb yb zb yaw pitch roll deg) as H.
  destruct (body2ned xb yb zb yaw pitch roll "zyx" deg) as [[[n e] d]|ex]; [|discriminate].
  cbn [rmap bind] in *.
  pose proof (ned_ecef_ned n e d lat0 lon0 h0 ell deg) as K.
  destruct (ned2ecef n e d lat0 lon0 h0 ell deg) as [[x y] z].
  rewrite ecef2body_frame by assumption.
  unfold ecef2body. cbn [String.eqb Ascii.eqb Bool.eqb]. now rewrite K.
Qed.

Lemma ecef2body_rotation_frame lat0 lon0 yaw pitch roll s frame deg : In frame frames4 ->
  ecef2body_rotation lat0 lon0 yaw pitch roll s frame deg
  = ecef2body_rotation lat0 lon0 yaw pitch roll s "ned" deg.
Proof.
  unfold ecef2body_rotation.
  intros [<-|[<-|[<-|[<-|[]]]]]; cbn [String.eqb Ascii.eqb Bool.eqb]; [reflexivity| | |];
  unfold nwu2body_rotation, sez2body_rotation, enu2body_rotation;
  destruct (ned2body_rotation yaw pitch roll s deg) as [m|ex]; try reflexivity;
  cbn [rmap bind]; f_equal; tmat m; unmat;
  (apply f_equal2; [apply f_equal2|]); apply pair3_eq; ring.
Qed.
Lemma ecef2body_rotation_ok lat0 lon0 yaw pitch roll frame deg : In frame frames4 ->
  exists m, ecef2body_rotation lat0 lon0 yaw pitch roll "zyx" frame deg = Ok m /\ is_rotation m.
Proof.
  intros Hf. rewrite ecef2body_rotation_frame by assumption.
  unfold ecef2body_rotation. cbn [String.eqb Ascii.eqb Bool.eqb].
  destruct (ned2body_ok yaw pitch roll deg) as (m & -> & H). eexists. split; [reflexivity|].
  apply matmul_rotation; [assumption|apply ecef2ned_rot].
Qed.
Lemma ecef_bodyv_ecef x y z lat0 lon0 yaw pitch roll frame deg : In frame frames4 ->
  bind (ecef2bodyv x y z lat0 lon0 yaw pitch roll frame "zyx" deg)
    (fun '(xb, yb, zb) => body2ecefv xb yb zb lat0 lon0 yaw pitch roll frame "zyx" deg)
  = Ok (x, y, z).
Proof.
  intros Hf. unfold ecef2bodyv, body2ecefv, body2ecef_rotation.
  destruct (ecef2body_rotation_ok lat0 lon0 yaw pitch roll frame deg Hf) as (m & E & H).
  destruct (pair_inv _ m (x, y, z) E H) as (A & B & _). rewrite A. cbn [bind].
  destruct (matvec3 m (x, y, z)) as [[a b] c]. exact B.
Qed.
Lemma body_ecefv_body x y z lat0 lon0 yaw pitch roll frame deg : In frame frames4 ->
  bind (body2ecefv x y z lat0 lon0 yaw pitch roll frame "zyx" deg)
    (fun '(xb, yb, zb) => ecef2bodyv xb yb zb lat0 lon0 yaw pitch roll frame "zyx" deg)
  = Ok (x, y, z).
Proof.
  intros Hf. unfold ecef2bodyv, body2ecefv, body2ecef_rotation.
  destruct (ecef2body_rotation_ok lat0 lon0 yaw pitch roll frame deg Hf) as (m & E & H).
  destruct (pair_inv _ m (x, y, z) E H) as (_ & _ & A & B). rewrite A. cbn [bind].
  destruct (matvec3 (transpose3 m) (x, y, z)) as [[a b] c]. exact B.
Qed.

(** unsupported inputs *)
Lemma not_in4 frame : ~ In frame frames4 ->
  String.eqb frame "ned" = false /\ String.eqb frame "enu" = false /\
  String.eqb frame "sez" = false /\ String.eqb frame "nwu" = false.
Proof.
  intros H. repeat split; apply String.eqb_neq; intros E; apply H; subst; cbn; tauto.
Qed.
Lemma bad_frame frame : ~ In frame frames4 -> forall x y z lat0 lon0 h0 yaw pitch roll ell s deg,
  ecef2body x y z lat0 lon0 h0 yaw pitch roll ell frame s deg = Raise ValueError /\
  body2ecef x y z lat0 lon0 h0 yaw pitch roll ell frame s deg = Raise ValueError /\
  geodetic2body x y z lat0 lon0 h0 yaw pitch roll ell frame s deg = Raise ValueError /\
  body2geodetic x y z lat0 lon0 h0 yaw pitch roll ell frame s deg = Raise ValueError /\
  ecef2bodyv x y z lat0 lon0 yaw pitch roll frame s deg = Raise ValueError /\
  body2ecefv x y z lat0 lon0 yaw pitch roll frame s deg = Raise ValueError.
Proof.
  intros H. intros. apply not_in4 in H. destruct H as (H1 & H2 & H3 & H4).
  unfold ecef2body, body2ecef, geodetic2body, body2geodetic, ecef2bodyv, body2ecefv,
    body2ecef_rotation, ecef2body_rotation. rewrite H1, H2, H3, H4. repeat split; reflexivity.
Qed.
Lemma bad_sequence s : s <> "zyx" -> forall x y z lat0 lon0 h0 yaw pitch roll ell frame deg,
  ecef2body x y z lat0 lon0 h0 yaw pitch roll ell frame s deg = Raise ValueError /\
  body2ecef x y z lat0 lon0 h0 yaw pitch roll ell frame s deg = Raise ValueError /\
  geodetic2body x y z lat0 lon0 h0 yaw pitch roll ell frame s deg = Raise ValueError /\
  body2geodetic x y z lat0 lon0 h0 yaw pitch roll ell frame s deg = Raise ValueError /\
  ecef2bodyv x y z lat0 lon0 yaw pitch roll frame s deg = Raise ValueError /\
  body2ecefv x y z lat0 lon0 yaw pitch roll frame s deg = Raise ValueError.
Proof.
  intros H. intros. pose proof (ned2body_bad yaw pitch roll s deg H) as B.
  unfold ecef2body, body2ecef, geodetic2body, body2geodetic, ecef2bodyv, body2ecefv,
    body2ecef_rotation, ecef2body_rotation, ned2body, enu2body, sez2body, nwu2body,
    body2ned, body2enu, body2sez, body2nwu, ned2body_matrix, enu2body_matrix, sez2body_matrix,
    nwu2body_matrix, body2ned_matrix, body2enu_matrix, body2sez_matrix, body2nwu_matrix,
    body2ned_rotation, body2enu_rotation, body2sez_rotation, body2nwu_rotation,
    nwu2body_rotation, sez2body_rotation, enu2body_rotation.
  rewrite B. cbn [rmap bind].
  destruct (ecef2ned x y z lat0 lon0 h0 ell deg) as [[? ?] ?].
  destruct (ecef2enu x y z lat0 lon0 h0 ell deg) as [[? ?] ?].
  destruct (ecef2sez x y z lat0 lon0 h0 ell deg) as [[? ?] ?].
  destruct (ecef2nwu x y z lat0 lon0 h0 ell deg) as [[? ?] ?].
  destruct (geodetic2ned x y z lat0 lon0 h0 ell deg) as [[? ?] ?].
  destruct (geodetic2enu x y z lat0 lon0 h0 ell deg) as [[? ?] ?].
  destruct (geodetic2sez x y z lat0 lon0 h0 ell deg) as [[? ?] ?].
  destruct (geodetic2nwu x y z lat0 lon0 h0 ell deg) as [[? ?] ?].
  destruct (String.eqb frame "ned"), (String.eqb frame "enu"), (String.eqb frame "sez"),
    (String.eqb frame "nwu"); repeat split; reflexivity.
Qed.

(** ** C16 *)
Lemma body2ned_val x y z yaw pitch roll deg :
  let Y := as_rad deg yaw in let P := as_rad deg pitch in let Q := as_rad deg roll in
  body2ned x y z yaw pitch roll "zyx" deg
  = Ok (vadd (vscale x (cos P * cos Y, cos P * sin Y, - sin P))
        (vadd (vscale y (vadd (vscale (cos Q) (- sin Y, cos Y, 0))
                              (vscale (sin Q) (sin P * cos Y, sin P * sin Y, cos P))))
              (vscale z (vadd (vscale (- sin Q) (- sin Y, cos Y, 0))
                              (vscale (cos Q) (sin P * cos Y, sin P * sin Y, cos P)))))).
Proof.
  cbv zeta. rewrite (as_rad_rad_in deg yaw), (as_rad_rad_in deg pitch), (as_rad_rad_in deg roll).
  unfold body2ned, body2ned_matrix, body2ned_rotation, ned2body_rotation.
  cbn [String.eqb Ascii.eqb Bool.eqb negb rmap bind]. f_equal.
  set (Y := rad_in deg yaw). set (P := rad_in deg pitch). set (Q := rad_in deg roll).
  unmat. unfold vadd, vscale. apply pair3_eq; ring.
Qed.

(** ** DCA *)
Lemma enu_dca_enu e n u h deg :
  let '(d, c, a) := enu2dca e n u h deg in dca2enu d c a h deg = (e, n, u).
Proof. unfold enu2dca, dca2enu. set (t := rad_in deg h). apply pair3_eq; tring1 t. Qed.
Lemma dca_enu_dca d c a h deg :
  let '(e, n, u) := dca2enu d c a h deg in enu2dca e n u h deg = (d, c, a).
Proof. unfold enu2dca, dca2enu. set (t := rad_in deg h). apply pair3_eq; tring1 t. Qed.
Lemma enu2dca_spec e n u h deg :
  let t := as_rad deg h in
  enu2dca e n u h deg
  = (vdot (sin t, cos t, 0) (e, n, u), vdot (- cos t, sin t, 0) (e, n, u), u).
Proof.
  cbv zeta. rewrite (as_rad_rad_in deg h). unfold enu2dca, vdot. apply pair3_eq; ring.
Qed.
Lemma enu2dca_dot e n u e' n' u' h deg :
  vdot (enu2dca e n u h deg) (enu2dca e' n' u' h deg) = vdot (e, n, u) (e', n', u').
Proof. unfold enu2dca, vdot. set (t := rad_in deg h). tring1 t. Qed.
Lemma ned_dca_ned n e d h deg :
  let '(x, c, a) := ned2dca n e d h deg in dca2ned x c a h deg = (n, e, d).
Proof.
  unfold ned2dca, dca2ned. pose proof (enu_dca_enu e n (-d) h deg) as H.
  destruct (enu2dca e n (-d) h deg) as [[x y] z]. rewrite H.
  apply pair3_eq; ring.
Qed.
Lemma dca_ned_dca d c a h deg :
  let '(n, e, dn) := dca2ned d c a h deg in ned2dca n e dn h deg = (d, c, a).
Proof.
  unfold ned2dca, dca2ned. pose proof (dca_enu_dca d c a h deg) as H.
  destruct (dca2enu d c a h deg) as [[e n] u]. rewrite Ropp_involutive. now rewrite H.
Qed.
Lemma ecef_dca_ecef a b c lat0 lon0 h0 heading ell deg :
  let '(d, cr, ab) := ecef2dca a b c lat0 lon0 h0 heading ell deg in
  dca2ecef d cr ab lat0 lon0 h0 heading ell deg = (a, b, c).
Proof.
  unfold ecef2dca, dca2ecef. pose proof (ecef_enu_ecef a b c lat0 lon0 h0 ell deg) as K.
  destruct (ecef2enu a b c lat0 lon0 h0 ell deg) as [[e n] u].
  pose proof (enu_dca_enu e n u heading deg) as H.
  destruct (enu2dca e n u heading deg) as [[x y] z]. now rewrite H.
Qed.
Lemma dca_ecef_dca a b c lat0 lon0 h0 heading ell deg :
  let '(x, y, z) := dca2ecef a b c lat0 lon0 h0 heading ell deg in
  ecef2dca x y z lat0 lon0 h0 heading ell deg = (a, b, c).
Proof.
  unfold ecef2dca, dca2ecef. pose proof (dca_enu_dca a b c heading deg) as H.
  destruct (dca2enu a b c heading deg) as [[e n] u].
  pose proof (enu_ecef_enu e n u lat0 lon0 h0 ell deg) as K.
  destruct (enu2ecef e n u lat0 lon0 h0 ell deg) as [[x y] z]. now rewrite K.
Qed.
Lemma geodetic_dca_ecef lat lon h lat0 lon0 h0 heading ell deg :
  geodetic2dca lat lon h lat0 lon0 h0 heading ell deg
    = (let '(x, y, z) := geodetic2ecef lat lon h ell deg in
       ecef2dca x y z lat0 lon0 h0 heading ell deg).
Proof.
  unfold geodetic2dca, ecef2dca. rewrite geodetic2enu_ecef2enu.
  destruct (geodetic2ecef lat lon h ell deg) as [[x y] z]. reflexivity.
Qed.
Lemma dca_geodetic_ecef d c a lat0 lon0 h0 heading ell deg :
  dca2geodetic d c a lat0 lon0 h0 heading ell deg
    = (let '(x, y, z) := dca2ecef d c a lat0 lon0 h0 heading ell deg in
       ecef2geodetic x y z ell deg).
Proof.
  unfold dca2geodetic, dca2ecef, enu2geodetic.
  destruct (dca2enu d c a heading deg) as [[e n] u]. reflexivity.
Qed.
Lemma dca_aer_dca d c a heading deg :
  let '(az, el, r) := dca2aer d c a heading deg in
  not_tiny3 (dca2enu d c a heading deg) -> aer2dca az el r heading deg = (d, c, a).
Proof.
  unfold dca2aer, aer2dca. pose proof (dca_enu_dca d c a heading deg) as H.
  destruct (dca2enu d c a heading deg) as [[e n] u].
  pose proof (aer2enu_enu2aer_trim e n u deg) as K.
  destruct (enu2aer e n u deg) as [[az el] r]. intros (T1 & T2 & T3).
  rewrite !trim_not_tiny in K by assumption. now rewrite K.
Qed.
