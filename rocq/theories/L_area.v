(** Reversed courses of geodesic_inverse, and sums of turning angles. *)
From Coq Require Import Lia Psatz List Permutation.
From Verif Require Import PyMath L_PyMath M_ellipsoid M_karney Spec L_karney L_karney2 L_karney3 L_karney4 L_karney5 L_karney6.
From Verif Require L_geodesic10 L_ell L_rsphere M_rsphere L_karney9.
Import ListNotations.
Open Scope R_scope.
Local Notation length := List.length.

(** ** The azimuths of the canonical problem are never the degenerate pair (0, 0) *)
Lemma loop_last (P : lambda12 -> Prop) eval (He : forall sa ca d, 0 < sa -> P (eval sa ca d)) :
  forall fuel s last, L_geodesic10.st_ok s -> P last -> P (snd (newton_loop fuel eval s last)).
Proof.
  induction fuel as [|k IH]; intros s last H Pl; [exact Pl|]. cbn [newton_loop]. cbv zeta.
  set (e := Nat.ltb _ _). set (Lm := eval _ _ _). assert (PL : P Lm) by (apply He; apply H). destruct (orb _ _); [exact PL|].
  pose proof (L_geodesic10.bracket_ok e (l_lam12 Lm) s H) as H'. destruct (newton _ _ _ _) as [s'|] eqn:E.
  - apply IH; [now apply (L_geodesic10.newton_ok _ _ _ _ _ H' E)|exact PL].
  - pose proof (L_geodesic10.bisect_ok _ H') as H2. destruct (bisect _) as [s' st]. cbn [fst] in H2. destruct st; [exact PL|]. now apply IH.
Qed.
Lemma loop_last_S (P : lambda12 -> Prop) eval (He : forall sa ca d, 0 < sa -> P (eval sa ca d)) :
  forall k s last, L_geodesic10.st_ok s -> P (snd (newton_loop (S k) eval s last)).
Proof.
  intros k s last H. cbn [newton_loop]. cbv zeta.
  set (e := Nat.ltb _ _). set (Lm := eval _ _ _). assert (PL : P Lm) by (apply He; apply H). destruct (orb _ _); [exact PL|].
  pose proof (L_geodesic10.bracket_ok e (l_lam12 Lm) s H) as H'. destruct (newton _ _ _ _) as [s'|] eqn:E.
  - apply loop_last; [exact He|now apply (L_geodesic10.newton_ok _ _ _ _ _ H' E)|exact PL].
  - pose proof (L_geodesic10.bisect_ok _ H') as H2. destruct (bisect _) as [s' st]. cbn [fst] in H2. destruct st; [exact PL|]. now apply loop_last.
Qed.
Lemma lambda_salp2 g sb1 cb1 dn1 sb2 cb2 dn2 sa ca sl cl d : 0 < cb1 -> 0 < cb2 -> 0 < sa ->
  0 < l_salp2 (Lambda12 g sb1 cb1 dn1 sb2 cb2 dn2 sa ca sl cl d).
Proof.
  intros H1 H2 Ha. unfold Lambda12. cbv zeta. destruct (norm2 sb1 _) as [p q].
  destruct (norm2 sb2 _) as [p' q']. cbn [l_salp2].
  destruct (Req_EM_T cb2 cb1); [exact Ha|]. apply Rdiv_lt_0_compat; [now apply Rmult_lt_0_compat|exact H2].
Qed.
Definition nondeg (p : R * R) : Prop := fst p <> 0 \/ snd p <> 0.
Lemma core_nondeg g lat1 sb1 cb1 sb2 cb2 l12 l12s lam : 0 < cb1 -> 0 < cb2 ->
  let r := Inverse_core g lat1 sb1 cb1 sb2 cb2 l12 l12s lam (sin lam) (cos lam) in
  nondeg (snd (fst r)) /\ nondeg (snd r).
Proof.
  intros H1 H2 r. subst r. unfold Inverse_core. cbv zeta.
  assert (U : sin lam <> 0 \/ cos lam <> 0). { destruct (Req_dec (sin lam) 0) as [Z|]; [right|now left]. intros C. pose proof (sin2_cos2 lam) as Q. rewrite Z, C in Q. unfold Rsqr in Q. lra. }
  match goal with |- context [match ?m with Some r => r | None => _ end] => destruct m as [r|] eqn:E end.
  - destruct (if Req_EM_T lat1 (-90) then true else _); [|discriminate]. destruct (Lengths_out _ _ _ _ _ _ _ _ _ _ _) as [[[[x y] z] w] v].
    destruct (if Rlt_dec _ _ then true else _); [|discriminate]. apply (f_equal (fun o => match o with Some q => q | None => r end)) in E. subst r. cbn [fst snd]. split; [exact U|]. right. cbn [snd]. lra.
  - destruct (if Req_EM_T sb1 0 then _ else false); [cbn [fst snd]; split; left; cbn [fst]; lra|].
    match goal with |- context [InverseStart ?a ?b ?c ?d ?e ?f ?h ?i ?j ?k] => pose proof (L_geodesic10.start_ok a b c d e f h i j k) as P; destruct (InverseStart a b c d e f h i j k) as [sa ca] end.
    destruct P as [P Q].
    match goal with |- context [newton_loop k_maxit2 ?ev ?s ?l] =>
      assert (OK : L_geodesic10.st_ok s) by (pose proof tiny_pos; repeat split; assumption);
      pose proof (L_geodesic10.loop_ok ev k_maxit2 s l OK) as A;
      pose proof (loop_last_S (fun L => 0 < l_salp2 L) ev (fun x y d Hx => lambda_salp2 _ _ _ _ _ _ _ _ _ _ _ _ H1 H2 Hx) 30 s l OK) as B;
      change (newton_loop 31 ev s l) with (newton_loop k_maxit2 ev s l) in B;
      destruct (newton_loop k_maxit2 ev s l) as [[sa' ca'] Lm] end.
    cbn [snd] in B. cbv beta in B. destruct A as [A _]. destruct (Lengths_out _ _ _ _ _ _ _ _ _ _ _) as [[[[x y] z] w] v]. cbn [fst snd]. split; left; cbn [fst]; apply Rgt_not_eq; assumption.
Qed.
Lemma canon_nondeg g A B L : nondeg (snd (fst (canon g A B L))) /\ nondeg (snd (canon g A B L)).
Proof.
  unfold canon. assert (RP : forall x, 0 < snd (reduced g x)).
  { intros x. unfold reduced. destruct (sincosd x) as [s c]. destruct (norm2 _ _) as [s' c']. cbn [snd]. pose proof tiny_pos. pose proof (Rmax_l k_tiny c'). lra. }
  pose proof (RP A) as HA. pose proof (RP B) as HB. destruct (reduced g A) as [sb1 cb1]. destruct (reduced g B) as [sb2 cb2]. cbn [snd] in *.
  now apply core_nondeg.
Qed.
(** ** Swapping the end points turns the course around *)
Definition turned (x y : R) : Prop := exists k : Z, y = x + 180 + IZR k * 360.
Lemma turned_sym x y : turned x y -> turned y x.
Proof. intros [k E]. exists (- k - 1)%Z. rewrite E, minus_IZR, opp_IZR. simpl. lra. Qed.
Lemma reverse_azi g lat1 lon1 lat2 lon2 : -90 <= lat1 <= 90 -> -90 <= lat2 <= 90 -> Rabs lat1 <> Rabs lat2 ->
  AngNormalize (lon2 - lon1) <> 0 -> AngNormalize (lon2 - lon1) <> 180 ->
  turned (iaz2 (Inverse g lat1 lon1 lat2 lon2)) (iaz1 (Inverse g lat2 lon2 lat1 lon1)) /\
  turned (iaz1 (Inverse g lat1 lon1 lat2 lon2)) (iaz2 (Inverse g lat2 lon2 lat1 lon1)).
Proof.
  intros H1 H2 N N0 N1. rewrite (Inverse_eq g lat1 lon1 lat2 lon2 H1), (Inverse_eq g lat2 lon2 lat1 lon1 H2). cbv zeta.
  replace (lon1 - lon2) with (- (lon2 - lon1)) by ring. rewrite norm_opp. destruct (Req_EM_T _ _) as [|_]; [contradiction|]. rewrite Rabs_Ropp, (lpos_opp _ N0).
  set (d := AngNormalize _) in *.
  assert (M : forall y x e n, (y <> 0 \/ x <> 0) -> (e = 1 \/ e = -1) -> (n = 1 \/ n = -1) -> turned (atan2d (y * e) (x * n)) (atan2d (y * - e) (- (x * n)))).
  { intros y x e n D He Hn. replace (y * - e) with (- (y * e)) by ring. apply atan2d_reverse. destruct D as [D|D]; [left|right]; intros Z; apply D; destruct He as [-> | ->], Hn as [-> | ->]; lra. }
  assert (M' : forall y x e n, (y <> 0 \/ x <> 0) -> (e = 1 \/ e = -1) -> (n = 1 \/ n = -1) -> turned (atan2d (y * e) (- (x * n))) (atan2d (y * - e) (x * n))).
  { intros y x e n D He Hn. apply turned_sym. pose proof (M y x (- e) n D ltac:(lra) Hn) as Q. now rewrite Ropp_involutive in Q. }
  destruct (Rlt_dec (Rabs lat1) (Rabs lat2)), (Rlt_dec (Rabs lat2) (Rabs lat1)); try lra.
  - pose proof (canon_nondeg g (lat2 * lneg lat2) (lat1 * lneg lat2) (Rabs d)) as [D1 D2]. destruct (canon _ _ _ _) as [[s [sa1 ca1]] [sa2 ca2]]. unfold nondeg in D1, D2. unfold iaz1, iaz2, out; cbn [fst snd] in *.
    split; apply M'; try assumption; try apply lpos_cases; apply lneg_cases.
  - pose proof (canon_nondeg g (lat1 * lneg lat1) (lat2 * lneg lat1) (Rabs d)) as [D1 D2]. destruct (canon _ _ _ _) as [[s [sa1 ca1]] [sa2 ca2]]. unfold nondeg in D1, D2. unfold iaz1, iaz2, out; cbn [fst snd] in *.
    split; apply M; try assumption; try apply lpos_cases; apply lneg_cases.
Qed.

(** ** Sums over the vertices *)
Definition rsum (l : list R) : R := fold_right Rplus 0 l.
Lemma rsum_perm l l' : Permutation l l' -> rsum l = rsum l'.
Proof. induction 1; unfold rsum in *; cbn [fold_right]; lra. Qed.
Definition az1_of (e : R * R * R) : R := snd (fst e).
Definition az2_of (e : R * R * R) : R := snd e.
Definition rot {A} (l : list A) : list A := tl l ++ firstn 1 l.
Lemma area_loop_sum es : forall a b p s, snd (area_loop es a b p s) =
  s + rsum (map (fun '(x, y) => AngNormalize (y - x)) (combine (a :: map az2_of es) (map az1_of es ++ [b]))).
Proof.
  induction es as [|[[d z1] z2] es IH]; intros; cbn [area_loop]; rewrite AngDiff_eq; cbn [fst].
  - cbn. ring.
  - rewrite IH. unfold rsum. cbn [map app combine fold_right az1_of az2_of fst snd]. ring.
Qed.
Lemma nth_rot {A} (l : list A) d i : (i < length l)%nat -> nth i (rot l) d = nth ((i + 1) mod length l) l d.
Proof.
  destruct l as [|x l]; cbn [length]; [lia|]. intros H. unfold rot. cbn [tl firstn]. destruct (Nat.eq_dec i (length l)) as [->|N].
  - replace ((length l + 1) mod S (length l))%nat with 0%nat by (rewrite Nat.add_1_r, Nat.mod_same; lia). rewrite app_nth2, Nat.sub_diag by lia. reflexivity.
  - rewrite Nat.mod_small by lia. rewrite app_nth1 by lia. rewrite Nat.add_1_r. reflexivity.
Qed.
Lemma rot_length {A} (l : list A) : length (rot l) = length l.
Proof. destruct l; [reflexivity|]. unfold rot. cbn [tl firstn]. rewrite app_length. cbn. lia. Qed.
Lemma map_rot {A B} (f : A -> B) l : map f (rot l) = rot (map f l).
Proof. destruct l; [reflexivity|]. unfold rot. cbn [tl firstn map]. now rewrite map_app. Qed.
Lemma nth_indep' {A} (l : list A) n d d' : (n < length l)%nat -> nth n l d = nth n l d'.
Proof. apply nth_indep. Qed.
Lemma rsum_seq (l : list R) : rsum l = rsum (map (fun i => nth i l 0) (seq 0 (length l))).
Proof.
  f_equal. symmetry. apply (nth_ext _ _ 0 0); [now rewrite map_length, seq_length|]. intros i Hi. rewrite map_length, seq_length in Hi.
  set (f := fun j => nth j l 0). rewrite (nth_indep' _ _ 0 (f 0%nat)) by (now rewrite map_length, seq_length). rewrite map_nth, seq_nth by exact Hi. reflexivity.
Qed.
(** The turns of a closed path of edges. *)
Definition turns_of (E : list (R * R * R)) : list R :=
  map (fun '(x, y) => AngNormalize (y - x)) (combine (map az2_of E) (rot (map az1_of E))).
Lemma turns_length E : length (turns_of E) = length E.
Proof. unfold turns_of. rewrite map_length, combine_length, rot_length, !map_length. apply Nat.min_id. Qed.
Lemma turns_nth E i d : (i < length E)%nat ->
  nth i (turns_of E) 0 = AngNormalize (az1_of (nth ((i + 1) mod length E) E d) - az2_of (nth i E d)).
Proof.
  intros H. unfold turns_of. set (f := fun '(x, y) => AngNormalize (y - x)).
  rewrite (nth_indep' _ _ 0 (f (az2_of d, az1_of d))) by (rewrite map_length, combine_length, rot_length, !map_length, Nat.min_id; exact H).
  rewrite map_nth, combine_nth by (now rewrite rot_length, !map_length). rewrite map_nth, <- map_rot, map_nth. rewrite nth_rot by exact H. reflexivity.
Qed.
Definition reduce_area (A T : R) : R := if Rlt_dec (A / 2) (Rabs T) then T - copysign A T else T.
Lemma area_turns vs ell deg : (3 <= length vs)%nat ->
  exists p, geodesic_area vs ell deg = Ok (reduce_area (4 * PI * gd_c2 (get_geodesic ell)) (gd_c2 (get_geodesic ell) * radians (rsum (turns_of (edges vs ell deg)))), p).
Proof.
  intros Hn. unfold geodesic_area. destruct (Nat.ltb_spec (List.length vs) 3); [lia|]. destruct (edges vs ell deg) as [|[[d z1] z2] es] eqn:Ee.
  { exfalso. apply (f_equal (@List.length _)) in Ee. unfold edges in Ee. destruct vs as [|v vs]; [cbn in Hn; lia|]. rewrite map_length, combine_length, app_length in Ee. cbn [List.length] in Ee. lia. }
  pose proof (area_loop_sum es z2 z1 (0.0 + d) 0.0) as Q. destruct (area_loop es z2 z1 (0.0 + d) 0.0) as [p s]. cbn [snd] in Q. exists p.
  assert (S : s = rsum (turns_of ((d, z1, z2) :: es))) by (rewrite Q; unfold turns_of, rot; cbn [map az1_of az2_of tl firstn fst snd]; lra).
  rewrite S. replace 4.0 with 4 by lra. unfold reduce_area. reflexivity.
Qed.
Lemma reduce_odd A T : 0 < A -> reduce_area A (- T) = - reduce_area A T.
Proof.
  intros H. unfold reduce_area. rewrite Rabs_Ropp. destruct (Rlt_dec _ _) as [X|]; [|reflexivity]. unfold copysign.
  destruct (Rlt_dec T 0) as [Y|Y], (Rlt_dec (- T) 0) as [Z|Z]; try lra. exfalso. assert (T = 0) as -> by lra. rewrite Rabs_R0 in X. lra.
Qed.
Lemma edges_length vs ell deg : length (edges vs ell deg) = length vs.
Proof. unfold edges. destruct vs as [|v vs]; [reflexivity|]. rewrite map_length, combine_length, app_length. cbn [length]. lia. Qed.
Lemma edges_nth vs ell deg i d dv : (i < length vs)%nat ->
  nth i (edges vs ell deg) d = (let '(la, lo) := nth i vs dv in let '(la', lo') := nth ((i + 1) mod length vs) vs dv in geodesic_inverse la lo la' lo' ell deg).
Proof.
  intros H. unfold edges. set (f := fun '((la, lo), (la', lo')) => geodesic_inverse la lo la' lo' ell deg).
  assert (R : match vs with nil => nil | v :: vs' => (vs' ++ [v])%list end = rot vs) by (destruct vs; reflexivity). rewrite R.
  rewrite (nth_indep' _ _ d (f (dv, dv))) by (rewrite map_length, combine_length, rot_length, Nat.min_id; exact H).
  rewrite map_nth, combine_nth by now rewrite rot_length. rewrite nth_rot by exact H. subst f. cbv beta. destruct (nth i vs dv). destruct (nth _ vs dv). reflexivity.
Qed.
(** Reversing the order of the vertices. *)
Definition back (n i : nat) : nat := (if Nat.leb (i + 3) n then n - 3 - i else 2 * n - 3 - i)%nat.
Lemma nodup_map_in {A B} (f : A -> B) l : (forall x y, In x l -> In y l -> f x = f y -> x = y) -> NoDup l -> NoDup (map f l).
Proof.
  intros Hf. induction 1 as [|x l N D IH]; cbn [map]; [constructor|]. constructor.
  - intros Hx. apply in_map_iff in Hx. destruct Hx as (y & E & Hy). assert (y = x) as -> by (apply Hf; [now right|now left|exact E]). contradiction.
  - apply IH. intros; apply Hf; try (now right); assumption.
Qed.
Lemma back_perm n : (3 <= n)%nat -> Permutation (map (back n) (seq 0 n)) (seq 0 n).
Proof.
  intros H. apply NoDup_Permutation_bis.
  - apply nodup_map_in.
    + intros i j Hi Hj. apply in_seq in Hi. apply in_seq in Hj. unfold back. destruct (Nat.leb_spec (i + 3) n), (Nat.leb_spec (j + 3) n); lia.
    + apply seq_NoDup.
  - rewrite map_length. lia.
  - intros x Hx. apply in_map_iff in Hx. destruct Hx as (i & <- & Hi). apply in_seq in Hi. apply in_seq. unfold back. destruct (Nat.leb_spec (i + 3) n); lia.
Qed.
Lemma rsum_neg l : rsum (map Ropp l) = - rsum l.
Proof. unfold rsum. induction l; cbn [map fold_right]; [ring|]. rewrite IHl. ring. Qed.
Lemma mod_succ n i : (i < n)%nat -> ((i + 1) mod n = if Nat.eqb (i + 1) n then 0 else i + 1)%nat.
Proof. intros H. destruct (Nat.eqb_spec (i + 1) n) as [->|]; [apply Nat.mod_same; lia|apply Nat.mod_small; lia]. Qed.
Lemma c2_area ell : ell_ok ell -> gd_c2 (get_geodesic ell) = M_rsphere.authalic ell ^ 2.
Proof.
  intros H. destruct (L_ell.ell_pos ell H) as [Hb Ha]. destruct (Rle_lt_or_eq_dec _ _ Ha) as [Lt|Eq].
  - pose proof (L_ell.ell_e2 ell H) as E2. pose proof (L_ell.ell_e_nonneg ell H) as En. unfold get_geodesic, geodesic_init. cbn [gd_c2]. unfold M_rsphere.authalic.
    destruct (Rlt_dec 0 (eccentricity _)) as [X|X].
    2: { exfalso. apply X. now apply L_rsphere.ecc_pos_iff. }
    pose proof (L_rsphere.ecc_lt1 ell H) as X1. set (e := eccentricity (resolve_ellipsoid ell)) in *.
    rewrite (L_ell.ell_f ell H), L_ell.resolve_a. set (a := ell_a ell) in *. set (b := ell_b ell) in *.
    replace 2.0 with 2 by lra. replace 1.0 with 1 by lra.
    assert (Ee : (a - b) / a * (2 - (a - b) / a) = e ^ 2) by (rewrite E2; field; lra). rewrite Ee.
    destruct (Req_EM_T (e ^ 2) 0) as [Z|_]; [exfalso; nra|]. destruct (Rlt_dec 0 (e ^ 2)) as [_|Z]; [|exfalso; nra].
    rewrite sqrt_pow2 by lra. pose proof (L_rsphere.atanh_bounds e (conj X X1)) as HB.
    assert (B : b = a * (1 - (a - b) / a)) by (field; lra). rewrite <- B.
    assert (B2 : b ^ 2 = a ^ 2 * (1 - e ^ 2)) by (rewrite E2; field; lra). rewrite B2. unfold atanh.
    rewrite pow2_sqrt; [field; lra|].
    assert (0 < a ^ 2) by (apply pow_lt; lra). apply Rmult_le_pos; [lra|]. assert (0 <= (1 - e ^ 2) / (2 * e) * ln ((1 + e) / (1 - e))); [|lra].
    apply Rmult_le_pos; [|lra]. apply Rmult_le_pos; [nra|]. left. apply Rinv_0_lt_compat. lra.
  - rewrite L_karney9.sphere_c2 by (auto; lra). unfold M_rsphere.authalic. rewrite L_ell.resolve_a.
    destruct (Rlt_dec 0 _) as [X|_]; [|reflexivity]. apply (L_rsphere.ecc_pos_iff ell H) in X. lra.
Qed.
(** The rotation angle that a reversed path makes. *)
Lemma turn_opp x y : AngNormalize x <> 180 -> (exists k : Z, y = - x + IZR k * 360) -> AngNormalize y = - AngNormalize x.
Proof.
  intros N [k ->]. rewrite AngNormalize_shift, norm_opp. destruct (Req_EM_T _ _); [contradiction|reflexivity].
Qed.
Lemma nth_back {A} (l : list A) d i : (3 <= length l)%nat -> (i < length l)%nat ->
  let n := length l in let j := back n i in
  nth i (rev l) d = nth ((j + 2) mod n) l d /\ nth ((i + 1) mod n) (rev l) d = nth ((j + 1) mod n) l d /\
  nth (((i + 1) mod n + 1) mod n) (rev l) d = nth j l d.
Proof.
  intros H Hi n j. assert (Hj : (j < n)%nat) by (unfold j, back; destruct (Nat.leb_spec (i + 3) n); lia).
  assert (S2 : ((j + 2) mod n = if Nat.ltb (j + 2) n then j + 2 else j + 2 - n)%nat).
  { destruct (Nat.ltb_spec (j + 2) n); [apply Nat.mod_small; lia|]. replace (j + 2)%nat with (j + 2 - n + 1 * n)%nat at 1 by lia. rewrite Nat.mod_add by lia. apply Nat.mod_small. lia. }
  rewrite S2, (mod_succ n i Hi), (mod_succ n j Hj).
  assert (Hk : ((if Nat.eqb (i + 1) n then 0 else i + 1) < n)%nat) by (destruct (Nat.eqb_spec (i + 1) n); lia).
  rewrite (mod_succ n _ Hk). rewrite !rev_nth by (fold n; destruct (Nat.eqb_spec (i + 1) n); repeat match goal with |- context [Nat.eqb ?x ?y] => destruct (Nat.eqb_spec x y) end; lia).
  fold n. unfold j, back in *. destruct (Nat.leb_spec (i + 3) n).
  - destruct (Nat.eqb_spec (i + 1) n); repeat split; f_equal; repeat match goal with |- context [Nat.eqb ?x ?y] => destruct (Nat.eqb_spec x y) | |- context [Nat.ltb ?x ?y] => destruct (Nat.ltb_spec x y) end; lia.
  - destruct (Nat.eqb_spec (i + 1) n); repeat split; f_equal; repeat match goal with |- context [Nat.eqb ?x ?y] => destruct (Nat.eqb_spec x y) | |- context [Nat.ltb ?x ?y] => destruct (Nat.ltb_spec x y) end; lia.
Qed.
