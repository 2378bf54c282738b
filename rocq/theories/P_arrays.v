(** Property C53: what happens to the caller's NumPy arrays. *)
From Coq Require Import Lia.
From Verif Require Import PyMath M_ellipsoid M_enu M_ned M_nwu M_sez M_vincenty M_arrays.
From Verif Require L_vincenty.
Open Scope R_scope.

(** ** Specification *)
(** Element-wise use of a scalar function on three arrays of one length. *)
Definition elementwise (f : R -> R -> R -> vec3) (xs ys zs : list R) : list vec3 :=
  map (fun '(x, (y, z)) => f x y z) (combine xs (combine ys zs)).
(** The array survives the 1 mm rounding. *)
Definition no_tiny (xs : list R) : Prop := forall x, In x xs -> x = 0 \/ 1 / 1000 <= Rabs x.
(** No latitude (radians) is within 1e-10 of a pole, except at the very distance 1e-10. *)
Definition no_pole (xs : list R) : Prop := forall x, In x xs -> Rabs (PI / 2 - Rabs x) < 1 / 10 ^ 10 -> False.

Lemma trim_idem v : zero_trim (zero_trim v) = zero_trim v.
Proof. unfold zero_trim at 2 3. destruct (Rlt_dec (Rabs v) _); unfold zero_trim; [rewrite Rabs_R0; destruct (Rlt_dec _ _); reflexivity|]. destruct (Rlt_dec _ _); [contradiction|reflexivity]. Qed.
Lemma map_fix {A} (f : A -> A) l : map f l = l <-> forall x, In x l -> f x = x.
Proof.
  split.
  - induction l as [|y l IH]; intros E x; [intros []|]. cbn in E. injection E as E1 E2. intros [<-|H]; [exact E1|now apply IH].
  - intros H. rewrite <- (map_id l) at 2. apply map_ext_in. exact H.
Qed.
Lemma trim_fix l : map zero_trim l = l <-> no_tiny l.
Proof.
  rewrite map_fix. split; intros H x Hx; specialize (H x Hx); unfold zero_trim in *; destruct (Rlt_dec _ _) as [L|L]; try tauto.
  - left. congruence. - right. lra. - destruct H as [->|H]; [reflexivity|lra].
Qed.
Lemma enu2aer_trim e n u deg : enu2aer (zero_trim e) (zero_trim n) (zero_trim u) deg = enu2aer e n u deg.
Proof. unfold enu2aer. now rewrite !trim_idem. Qed.
Lemma combine_map {A B C D} (f : A -> C) (g : B -> D) l : forall l', combine (map f l) (map g l') = map (fun '(a, b) => (f a, g b)) (combine l l').
Proof. induction l as [|a l IH]; intros [|b l']; cbn; try reflexivity. now rewrite IH. Qed.

(** ** C53 *)
(** The answers are those of the scalar calls on the original elements. *)
Theorem C53_enu2aer_values : forall es ns us deg, fst (enu2aer_array es ns us deg) = elementwise (fun e n u => enu2aer e n u deg) es ns us.
Proof.
  intros. unfold enu2aer_array, elementwise. cbn [fst]. rewrite combine_map, combine_map, map_map. apply map_ext. intros [e [n u]]. apply enu2aer_trim.
Qed.
(** The caller's arrays come back unchanged exactly when no element is nonzero and below
    one millimetre. *)
Theorem C53_enu2aer_unchanged_iff_partial : forall es ns us deg,
  snd (enu2aer_array es ns us deg) = (es, ns, us) <-> no_tiny es /\ no_tiny ns /\ no_tiny us.
Proof. intros. unfold enu2aer_array. cbn [snd]. rewrite <- !trim_fix, !pair_equal_spec. tauto. Qed.
(** Lengths never change, and each element either stays or becomes 0. *)
Theorem C53_enu2aer_changes_only_tiny : forall es ns us deg es' ns' us', snd (enu2aer_array es ns us deg) = (es', ns', us') ->
  Forall2 (fun x x' => x' = x \/ (Rabs x < 1 / 1000 /\ x' = 0)) es es' /\
  Forall2 (fun x x' => x' = x \/ (Rabs x < 1 / 1000 /\ x' = 0)) ns ns' /\
  Forall2 (fun x x' => x' = x \/ (Rabs x < 1 / 1000 /\ x' = 0)) us us'.
Proof.
  intros es ns us deg es' ns' us' E. unfold enu2aer_array in E. cbn [snd] in E. apply pair_equal_spec in E. destruct E as [E <-]. apply pair_equal_spec in E. destruct E as [<- <-].
  assert (G : forall l, Forall2 (fun x x' => x' = x \/ (Rabs x < 1 / 1000 /\ x' = 0)) l (map zero_trim l)); [|auto].
  induction l as [|x l IH]; cbn; constructor; [|exact IH]. unfold zero_trim. destruct (Rlt_dec _ _); [right|left]; auto.
Qed.
(** Finding: a caller's half-millimetre is overwritten with 0. *)
Theorem C53_enu2aer_refuted : snd (enu2aer_array [1 / 2000] [1] [1] true) = ([0], [1], [1]) /\ ([0], [1], [1]) <> ([1 / 2000], [1], [1]).
Proof.
  split; [|intros E; injection E; lra]. unfold enu2aer_array. cbn [snd map]. unfold zero_trim. rewrite Rabs_R1, (Rabs_right (1 / 2000)) by lra.
  destruct (Rlt_dec 1 _); [lra|]. destruct (Rlt_dec _ _); [reflexivity|lra].
Qed.
(** ned2aer, nwu2aer and sez2aer pass two of their three arrays on; the negated one is safe. *)
Theorem C53_ned2aer : forall ns es ds deg, fst (ned2aer_array ns es ds deg) = elementwise (fun n e d => ned2aer n e d deg) ns es ds /\
  (snd (ned2aer_array ns es ds deg) = (ns, es, ds) <-> no_tiny ns /\ no_tiny es) /\ snd (snd (ned2aer_array ns es ds deg)) = ds.
Proof.
  intros. unfold ned2aer_array. pose proof (C53_enu2aer_values es ns (map Ropp ds) deg) as V. unfold enu2aer_array in *. cbn [fst snd] in *. split; [|split; [|reflexivity]].
  - rewrite V. unfold elementwise. clear V. revert ns ds. induction es as [|e es IH]; intros [|n ns] [|d ds]; cbn; try reflexivity. rewrite IH. reflexivity.
  - rewrite <- !trim_fix, !pair_equal_spec. tauto.
Qed.
Theorem C53_nwu2aer : forall ns ws us deg, fst (nwu2aer_array ns ws us deg) = elementwise (fun n w u => nwu2aer n w u deg) ns ws us /\
  (snd (nwu2aer_array ns ws us deg) = (ns, ws, us) <-> no_tiny ns /\ no_tiny us) /\ snd (fst (snd (nwu2aer_array ns ws us deg))) = ws.
Proof.
  intros. unfold nwu2aer_array. pose proof (C53_enu2aer_values (map Ropp ws) ns us deg) as V. unfold enu2aer_array in *. cbn [fst snd] in *. split; [|split; [|reflexivity]].
  - rewrite V. unfold elementwise. clear V. revert ns us. induction ws as [|w ws IH]; intros [|n ns] [|u us]; cbn; try reflexivity. rewrite IH. reflexivity.
  - rewrite <- !trim_fix, !pair_equal_spec. tauto.
Qed.
Theorem C53_sez2aer : forall ss es zs deg, fst (sez2aer_array ss es zs deg) = elementwise (fun s e z => sez2aer s e z deg) ss es zs /\
  (snd (sez2aer_array ss es zs deg) = (ss, es, zs) <-> no_tiny es /\ no_tiny zs) /\ fst (fst (snd (sez2aer_array ss es zs deg))) = ss.
Proof.
  intros. unfold sez2aer_array. pose proof (C53_enu2aer_values es (map Ropp ss) zs deg) as V. unfold enu2aer_array in *. cbn [fst snd] in *. split; [|split; [|reflexivity]].
  - rewrite V. unfold elementwise. clear V. revert ss zs. induction es as [|e es IH]; intros [|s ss] [|z zs]; cbn; try reflexivity. rewrite IH. reflexivity.
  - rewrite <- !trim_fix, !pair_equal_spec. tauto.
Qed.
Lemma nudge_fix l : (forall x, In x l -> - (PI/2) <= x <= PI/2) -> map nudge_pole l = l <-> no_pole l.
Proof.
  intros B. rewrite map_fix. pose proof L_vincenty.pi_gt3 as P3. pose proof L_vincenty.ten10 as T. split; intros H x Hx; specialize (H x Hx); specialize (B x Hx).
  - intros L. unfold nudge_pole in H. destruct (Rlt_dec _ _); [|contradiction]. unfold sign in H.
    destruct (Rlt_dec x 0); [|destruct (Rlt_dec 0 x)].
    + rewrite (Rabs_left x) in L by lra. rewrite <- H in L. rewrite Rabs_right in L by lra. lra.
    + rewrite (Rabs_right x) in L by lra. rewrite <- H in L. rewrite Rabs_right in L by lra. lra.
    + replace x with 0 in L by lra. rewrite Rabs_R0, Rabs_right in L by lra. lra.
  - unfold nudge_pole. destruct (Rlt_dec _ _) as [L|]; [destruct (H L)|reflexivity].
Qed.
Lemma lat_range x : lat_out_of_range x = false -> - (PI/2) <= x <= PI/2.
Proof. unfold lat_out_of_range. destruct (Rlt_dec _ _) as [L|L]; [discriminate|]. intros _. pose proof PI_RGT_0. unfold Rabs in L. destruct (Rcase_abs x); lra. Qed.
Lemma exists_false {A} (f : A -> bool) l : existsb f l = false -> forall x, In x l -> f x = false.
Proof. intros E x Hx. destruct (f x) eqn:F; [|reflexivity]. rewrite <- E. symmetry. apply existsb_exists. eauto. Qed.
Lemma map_radF (l : list R) : map (rad_in false) l = l.
Proof. exact (map_id l). Qed.
Lemma vdist_after pts ell deg : snd (vdist_array pts ell deg) =
  let lat1s := map (fun '(lat1, _, _, _) => lat1) pts in let lat2s := map (fun '(_, _, lat2, _) => lat2) pts in
  if (existsb lat_out_of_range (map (rad_in deg) lat1s) || existsb lat_out_of_range (map (rad_in deg) lat2s))%bool then (lat1s, lat2s)
  else if deg then (lat1s, lat2s) else (map nudge_pole lat1s, map nudge_pole lat2s).
Proof.
  unfold vdist_array. cbv zeta.
  assert (M1 : map (fun '(lat1, _, _, _) => rad_in deg lat1) pts = map (rad_in deg) (map (fun '(lat1, _, _, _) => lat1) pts)) by (rewrite map_map; apply map_ext; intros [[[a b] c] d]; reflexivity).
  assert (M2 : map (fun '(_, _, lat2, _) => rad_in deg lat2) pts = map (rad_in deg) (map (fun '(_, _, lat2, _) => lat2) pts)) by (rewrite map_map; apply map_ext; intros [[[a b] c] d]; reflexivity).
  rewrite M1, M2. destruct (_ || _)%bool; [reflexivity|].
  destruct (vdist_loop_array _ _ _ _ _) as [[ls|x] st].
  - cbn [snd]. destruct deg; [reflexivity|]. now rewrite !map_radF.
  - destruct pts as [|p [|p' pts]]; cbn [snd]; (destruct deg; [reflexivity|]); now rewrite !map_radF.
Qed.
(** Degrees: vdist copies (through radians()) and never writes to the caller's arrays. *)
Theorem C53_vdist_degrees_unchanged : forall pts ell,
  snd (vdist_array pts ell true) = (map (fun '(lat1, _, _, _) => lat1) pts, map (fun '(_, _, lat2, _) => lat2) pts).
Proof. intros. rewrite vdist_after. cbv zeta. destruct (_ || _)%bool; reflexivity. Qed.
(** Radians: unchanged exactly when no latitude is at a pole (within 1e-10). *)
Theorem C53_vdist_radians_unchanged_iff : forall pts ell,
  (forall lat1 lon1 lat2 lon2, In (lat1, lon1, lat2, lon2) pts -> Rabs lat1 <= PI/2 /\ Rabs lat2 <= PI/2) ->
  let lat1s := map (fun '(lat1, _, _, _) => lat1) pts in let lat2s := map (fun '(_, _, lat2, _) => lat2) pts in
  snd (vdist_array pts ell false) = (lat1s, lat2s) <-> no_pole lat1s /\ no_pole lat2s.
Proof.
  intros pts ell H lat1s lat2s. rewrite vdist_after. cbv zeta. fold lat1s lat2s. rewrite !map_radF.
  assert (B1 : forall x, In x lat1s -> - (PI/2) <= x <= PI/2).
  { intros x Hx. apply in_map_iff in Hx. destruct Hx as [[[[a b] c] d] [<- Hx]]. apply H in Hx. destruct Hx as [Hx _]. unfold Rabs in Hx. destruct (Rcase_abs a); lra. }
  assert (B2 : forall x, In x lat2s -> - (PI/2) <= x <= PI/2).
  { intros x Hx. apply in_map_iff in Hx. destruct Hx as [[[[a b] c] d] [<- Hx]]. apply H in Hx. destruct Hx as [_ Hx]. unfold Rabs in Hx. destruct (Rcase_abs c); lra. }
  assert (N : forall l, (forall x, In x l -> - (PI/2) <= x <= PI/2) -> existsb lat_out_of_range l = false).
  { intros l Bl. destruct (existsb _ _) eqn:E; [|reflexivity]. apply existsb_exists in E. destruct E as (x & Hx & E). apply Bl in Hx. unfold lat_out_of_range in E.
    destruct (Rlt_dec _ _) as [L|L]; [|discriminate]. unfold Rabs in L. destruct (Rcase_abs x); lra. }
  rewrite (N _ B1), (N _ B2). cbn [orb]. rewrite pair_equal_spec, (nudge_fix _ B1), (nudge_fix _ B2). reflexivity.
Qed.
(** Finding: in radians a pole passed as an array element is moved by 1e-10 in the
    caller's own array. *)
Theorem C53_vdist_radians_refuted : forall ell lon1 lat2 lon2, Rabs lat2 <= PI / 2 - 1 / 10 ^ 10 ->
  snd (vdist_array [(PI / 2, lon1, lat2, lon2)] ell false) = ([PI / 2 - 1 / 10 ^ 10], [lat2]).
Proof.
  intros ell lon1 lat2 lon2 H. pose proof PI_RGT_0 as P. pose proof L_vincenty.ten10 as T. rewrite vdist_after. cbv zeta. cbn [map rad_in existsb].
  assert (B : lat_out_of_range (PI/2) = false) by (unfold lat_out_of_range; rewrite Rabs_right by lra; destruct (Rlt_dec _ _); [lra|reflexivity]).
  assert (B2 : lat_out_of_range lat2 = false) by (unfold lat_out_of_range; destruct (Rlt_dec _ _); [lra|reflexivity]).
  rewrite B, B2. cbn [orb]. rewrite (L_vincenty.nudge_id lat2 H). f_equal. f_equal. unfold nudge_pole. rewrite (Rabs_right (PI/2)), Rminus_diag_eq, Rabs_R0 by lra.
  destruct (Rlt_dec 0 _); [|lra]. unfold sign. destruct (Rlt_dec (PI/2) 0); [lra|]. destruct (Rlt_dec 0 (PI/2)); [ring|lra].
Qed.
(** vreckon's array of start latitudes, likewise. *)
Theorem C53_vreckon_degrees_unchanged : forall lats lats', vreckon_lat1_after lats true = Some lats' -> lats' = lats.
Proof. intros lats lats'. unfold vreckon_lat1_after. destruct (existsb _ _); [discriminate|]. congruence. Qed.
Theorem C53_vreckon_radians_unchanged_iff : forall lats lats', vreckon_lat1_after lats false = Some lats' -> (lats' = lats <-> no_pole lats).
Proof.
  intros lats lats'. unfold vreckon_lat1_after. rewrite map_radF. destruct (existsb _ _) eqn:E; [discriminate|]. intros X. injection X as <-.
  apply nudge_fix. intros x Hx. apply lat_range. now apply (exists_false _ _ E).
Qed.
Example C53_hypotheses_met : no_tiny [0; 5; -2] /\ ~ no_tiny [1 / 2000] /\ no_pole [0; 1] /\ ~ no_pole [PI / 2].
Proof.
  pose proof L_vincenty.pi_gt3 as P. pose proof L_vincenty.ten10 as T. split; [|split; [|split]].
  - intros x [<-|[<-|[<-|[]]]]; [left; reflexivity|right|right]; unfold Rabs; destruct (Rcase_abs _); lra.
  - intros H. destruct (H (1 / 2000)) as [E|E]; [now left|lra|]. rewrite Rabs_right in E by lra. lra.
  - intros x [<-|[<-|[]]]; [rewrite Rabs_R0|rewrite Rabs_R1]; rewrite Rabs_right by lra; lra.
  - intros H. apply (H (PI/2)); [now left|]. rewrite (Rabs_right (PI/2)), Rminus_diag_eq, Rabs_R0 by lra. lra.
Qed.
