(** Unit-speed geodesics: existence, Lipschitz bounds, uniqueness. *)
From Coq Require Import Reals Lra Lia Psatz.
From Coquelicot Require Import Coquelicot.
From Verif Require Import PyMath M_karney L_PyMath L_series1 L_series3 Spec Spec_geodesic L_aer L_geodesic1.
From Verif Require L_ecef.
Open Scope R_scope.

Definition px (p : vec3) : R := fst (fst p).
Definition py (p : vec3) : R := snd (fst p).
Definition pz (p : vec3) : R := snd p.
Lemma vdot_xyz p q : vdot p q = px p * px q + py p * py q + pz p * pz q.
Proof. destruct p as [[? ?] ?], q as [[? ?] ?]. reflexivity. Qed.
Lemma vderive_dot c d s v w : vderive c s v -> vderive d s w ->
  is_derive (fun x => vdot (c x) (d x)) s (vdot v (d s) + vdot (c s) w).
Proof.
  intros (C1 & C2 & C3) (D1 & D2 & D3). apply is_derive_ext with (f := fun x => px (c x) * px (d x) + py (c x) * py (d x) + pz (c x) * pz (d x)).
  { intros x. now rewrite vdot_xyz. }
  apply is_derive_Reals. replace (vdot v (d s) + vdot (c s) w) with ((px v * px (d s) + px (c s) * px w) + (py v * py (d s) + py (c s) * py w) + (pz v * pz (d s) + pz (c s) * pz w)) by (rewrite !vdot_xyz; ring).
  apply (derivable_pt_lim_plus (fun x => px (c x) * px (d x) + py (c x) * py (d x)) (fun x => pz (c x) * pz (d x))).
  - apply (derivable_pt_lim_plus (fun x => px (c x) * px (d x)) (fun x => py (c x) * py (d x))).
    + exact (derivable_pt_lim_mult _ _ _ _ _ C1 D1).
    + exact (derivable_pt_lim_mult _ _ _ _ _ C2 D2).
  - exact (derivable_pt_lim_mult _ _ _ _ _ C3 D3).
Qed.
Lemma vderive_const p s : vderive (fun _ => p) s (0, 0, 0).
Proof. repeat split; cbn; apply derivable_pt_lim_const. Qed.
Lemma vderive_sub c d s v w : vderive c s v -> vderive d s w -> vderive (fun x => vsub (c x) (d x)) s (vsub v w).
Proof.
  destruct v as [[v1 v2] v3], w as [[w1 w2] w3]. intros (C1 & C2 & C3) (D1 & D2 & D3). cbn [vsub fst snd] in *. apply vderive_is; cbn [fst snd].
  - apply is_derive_ext with (f := fun x => fst (fst (c x)) - fst (fst (d x))). { intros x. destruct (c x) as [[? ?] ?], (d x) as [[? ?] ?]. reflexivity. }
    apply is_derive_Reals. exact (derivable_pt_lim_minus _ _ _ _ _ C1 D1).
  - apply is_derive_ext with (f := fun x => snd (fst (c x)) - snd (fst (d x))). { intros x. destruct (c x) as [[? ?] ?], (d x) as [[? ?] ?]. reflexivity. }
    apply is_derive_Reals. exact (derivable_pt_lim_minus _ _ _ _ _ C2 D2).
  - apply is_derive_ext with (f := fun x => snd (c x) - snd (d x)). { intros x. destruct (c x) as [[? ?] ?], (d x) as [[? ?] ?]. reflexivity. }
    apply is_derive_Reals. exact (derivable_pt_lim_minus _ _ _ _ _ C3 D3).
Qed.
Lemma vderive_comp c h s v d : vderive c (h s) v -> is_derive h s d -> vderive (fun x => c (h x)) s (vscale d v).
Proof.
  intros (C1 & C2 & C3) H. apply is_derive_Reals in H. destruct v as [[v1 v2] v3]. cbn in *.
  repeat split; cbn; rewrite Rmult_comm.
  - exact (derivable_pt_lim_comp h (fun x => fst (fst (c x))) s _ _ H C1).
  - exact (derivable_pt_lim_comp h (fun x => snd (fst (c x))) s _ _ H C2).
  - exact (derivable_pt_lim_comp h (fun x => snd (c x)) s _ _ H C3).
Qed.
Lemma vscale_vscale x y p : vscale x (vscale y p) = vscale (x * y) p.
Proof. destruct p as [[? ?] ?]. cbn. apply f_equal2; [apply f_equal2|]; ring. Qed.
Lemma vscale_1 p : vscale 1 p = p.
Proof. destruct p as [[? ?] ?]. cbn. apply f_equal2; [apply f_equal2|]; ring. Qed.

(** A curve of bounded speed moves at most that far. *)
Lemma speed_bound c v K : (forall s, vderive c s (v s)) -> (forall s, vnorm (v s) <= K) -> forall x y, vdist3 (c x) (c y) <= K * Rabs (x - y).
Proof.
  intros HD HK x y. set (d := vsub (c x) (c y)). unfold vdist3. fold d. set (N := vnorm d).
  destruct (MVT_gen (fun s => vdot (c s) d) y x (fun s => vdot (v s) d + vdot (c s) (0, 0, 0))) as (z & _ & E).
  - intros t _. apply (vderive_dot c (fun _ => d)); [apply HD|apply vderive_const].
  - intros t _. apply derivable_continuous_pt. eexists. apply is_derive_Reals. apply (vderive_dot c (fun _ => d)); [apply HD|apply vderive_const].
  - assert (Z0 : vdot (c z) (0, 0, 0) = 0) by (rewrite vdot_xyz; cbn; ring). rewrite Z0, Rplus_0_r in E.
    assert (L : vdot (c x) d - vdot (c y) d = N * N). { unfold N. rewrite vnorm_sq. unfold d. rewrite !vdot_xyz. destruct (c x) as [[? ?] ?], (c y) as [[? ?] ?]. cbn. ring. }
    rewrite L in E. assert (Np : 0 <= N) by apply vnorm_nonneg. pose proof (vnorm_nonneg (v z)) as Vp. pose proof (HK z) as Kz.
    assert (B : Rabs (vdot (v z) d) <= K * N).
    { apply Rabs_le. split.
      - pose proof (vcauchy (vscale (-1) (v z)) d) as Q. assert (vnorm (vscale (-1) (v z)) = vnorm (v z)) as Qn. { unfold vnorm. f_equal. destruct (v z) as [[? ?] ?]. cbn. ring. }
        rewrite Qn in Q. assert (vdot (vscale (-1) (v z)) d = - vdot (v z) d) as Qd by (destruct (v z) as [[? ?] ?], d as [[? ?] ?]; cbn; ring). rewrite Qd in Q. fold N in Q. nra.
      - pose proof (vcauchy (v z) d) as Q. fold N in Q. nra. }
    destruct (Req_dec N 0) as [->|Nz]; [apply Rmult_le_pos; [lra|apply Rabs_pos]|].
    assert (E' : N * N = Rabs (vdot (v z) d) * Rabs (x - y)). { rewrite <- Rabs_mult, <- E. rewrite Rabs_right; [reflexivity|]. apply Rle_ge. nra. }
    pose proof (Rabs_pos (x - y)). apply Rmult_le_reg_r with N; [lra|]. rewrite E'. nra.
Qed.
Lemma unit_norm p : is_unit p -> vnorm p = 1.
Proof. unfold is_unit, vnorm. intros ->. apply sqrt_1. Qed.

(** ** existence: the reparametrised curve of L_geodesic1 *)
Section Exist.
Variables (a f x1 y1 z1 x2 y2 z2 c0 s1 : R).
Hypothesis Ha : 0 < a.
Hypothesis Hf : 0 <= f < 1.
Hypothesis U1 : x1 ^ 2 + y1 ^ 2 + z1 ^ 2 = 1.
Hypothesis U2 : x2 ^ 2 + y2 ^ 2 + z2 ^ 2 = 1.
Hypothesis U12 : x1 * x2 + y1 * y2 + z1 * z2 = 0.
Hypothesis HZ1 : z1 = c0 * sin s1.
Hypothesis HZ2 : z2 = c0 * cos s1.
Let pos := c_pos a f x1 y1 z1 x2 y2 z2 c0 s1.
Let tan := c_tan f x1 y1 z1 x2 y2 z2 c0 s1.
Let len := c_len a f c0 s1.
Let w := fun s => a * c_u f c0 s1 s.
Lemma ex_b : 0 < a * (1 - f). Proof. nra. Qed.
Lemma ex_w s : a * (1 - f) <= w s.
Proof. unfold w. pose proof (c_u_pos f c0 s1 Hf s). nra. Qed.
Lemma ex_len s : is_derive len s (w s).
Proof. apply (c_len_derive a f c0 s1 Hf). Qed.
Lemma ex_cont s : continuous w s.
Proof.
  apply (ex_derive_continuous w). unfold w. pose proof (c_u_derive f z1 z2 c0 s1 Hf HZ1 HZ2 s) as D. auto_derive. eexists; exact D.
Qed.
Definition ex_h : R -> R := inv_of len w (a * (1 - f)) ex_b ex_len ex_w.
Lemma ex_h_val s : len (ex_h s) = s.
Proof. apply inv_val. Qed.
Lemma ex_h_len s : ex_h (len s) = s.
Proof. apply (inv_inj len w (a * (1 - f)) ex_b ex_len ex_w). apply ex_h_val. Qed.
Theorem geodesic_exists : unit_geodesic a (a * (1 - f)) (fun s => pos (ex_h s)) (fun s => tan (ex_h s)).
Proof.
  intros s. pose proof (inv_derive len w (a * (1 - f)) ex_b ex_len ex_w ex_cont s) as D. change (inv_of len w (a * (1 - f)) ex_b ex_len ex_w) with ex_h in D.
  pose proof (ex_w (ex_h s)) as W. pose proof ex_b as B. split; [|split; [|split]].
  - apply c_on; assumption.
  - replace (tan (ex_h s)) with (vscale (/ w (ex_h s)) (vscale (w (ex_h s)) (tan (ex_h s)))).
    + apply vderive_comp; [|exact D]. apply (c_pos_derive a f x1 y1 z1 x2 y2 z2 c0 s1 Hf (ex_h s)).
    + rewrite vscale_vscale, Rinv_l by lra. apply vscale_1.
  - apply (c_unit f x1 y1 z1 x2 y2 z2 c0 s1); assumption.
  - eexists. rewrite <- vscale_vscale. apply (vderive_comp tan ex_h s _ _); [|exact D].
    apply (c_tan_derive a f x1 y1 z1 x2 y2 z2 c0 s1 Ha Hf U1 U2 U12 HZ1 HZ2 (ex_h s)).
Qed.
End Exist.
