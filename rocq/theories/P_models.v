(** Property C88: the named ellipsoids have the published dimensions. *)
From Coq Require Import String List Reals Lra Lia Psatz.
From Verif Require Import PyMath M_ellipsoid.
From Verif Require L_utils.
Import ListNotations.
Open Scope R_scope.

(** ** Specification *)
(** A reference ellipsoid of the Earth as published: equatorial radius in metres,
    inverse flattening, and how far the polar radius of the table may be from the one
    these two give (the table has it to the millimetre; to 10 nm for WGS-72, GRS-80 and
    WGS-84; to the decimetre for IERS 2003). *)
Definition earth (name : string) (A F tol : R) : string * (R * R) * (R * R) := (name, (A, 0), (A * (1 - / F), tol)).
(** Another body: equatorial and polar radius in kilometres, as given by the IAU; the
    table may differ by 0.2 per cent, as do different determinations. *)
Definition body (name : string) (A B : R) : string * (R * R) * (R * R) :=
  (name, (1000 * A, 2 / 1000 * (1000 * A)), (1000 * B, 2 / 1000 * (1000 * B))).
Definition mm : R := 6 / 10000.
Definition published : list (string * (R * R) * (R * R)) := [
  earth "maupertuis" 6397300 191 mm; earth "plessis" 6376523 308.64 mm;
  earth "everest1830" 6377299.365 300.80172554 mm; earth "everest1830m" 6377304.063 300.8017 mm;
  earth "everest1967" 6377298.556 300.8017 mm; earth "airy" 6377563.396 299.3249646 mm;
  earth "bessel" 6377397.155 299.1528128 mm; earth "clarke1866" 6378206.4 294.9786982 mm;
  earth "clarke1878" 6378190 293.465998 mm; earth "clarke1860" 6378249.145 293.465 mm;
  earth "helmert" 6378200 298.3 mm; earth "hayford" 6378388 297 mm;
  earth "international1924" 6378388 297 mm; earth "krassovsky1940" 6378245 298.3 mm;
  earth "wgs66" 6378145 298.25 mm; earth "australian" 6378160 298.25 mm;
  earth "international1967" 6378157.5 298.24961539 mm; earth "grs67" 6378160 298.247167427 mm;
  earth "sa1969" 6378160 298.25 mm; earth "wgs72" 6378135 298.26 (1 / 100000000);
  earth "grs80" 6378137 298.257222101 (1 / 100000000); earth "wgs84" 6378137 298.257223563 (1 / 100000000);
  earth "iers1989" 6378136 298.257 mm; earth "pz90.11" 6378136 298.25784 mm;
  earth "iers2003" 6378136.6 298.25642 (5 / 100); earth "gsk2011" 6378136.5 298.2564151 mm;
  body "mercury" 2440.5 2438.3; body "venus" 6051.8 6051.8; body "moon" 1738.1 1736;
  body "mars" 3396.19 3376.2; body "jupiter" 71492 66854; body "jupyter" 71492 66854;
  body "saturn" 60268 54364; body "uranus" 25559 24973; body "neptune" 24764 24341; body "pluto" 1188.3 1188.3;
  body "io" 1829.4 1815.7 ].
(** The mean radius (2 a + b) / 3. *)
Definition mean_radius (e : Ellipsoid) : R := (2 * semimajor_axis e + semiminor_axis e) / 3.

Definition fits (e : Ellipsoid) (r : (R * R) * (R * R)) : Prop :=
  Rabs (semimajor_axis e - fst (fst r)) <= snd (fst r) /\ Rabs (semiminor_axis e - fst (snd r)) <= snd (snd r).
Lemma within x y t : y - t <= x <= y + t -> Rabs (x - y) <= t.
Proof. intros H. apply Rabs_le. lra. Qed.
Lemma axes name pn a b e : from_name name = Ok e -> lookup_model models name = Ok (pn, a, b) -> semimajor_axis e = a /\ semiminor_axis e = b.
Proof.
  intros E L. unfold from_name in E. rewrite L in E. cbn [bind] in E. unfold Ellipsoid_init in E. revert E. unfold bind, py_div, math_sqrt.
  repeat (match goal with |- context [if ?c then _ else _] => destruct c end; try discriminate); intros E; injection E as <-; cbn [semimajor_axis semiminor_axis]; split; reflexivity.
Qed.
Lemma table : Forall (fun m => fst m = "io"%string \/ fst m = "wgs84_mean"%string \/
  exists k r s, nth_error published k = Some (fst m, r, s) /\ Rabs (snd (fst (snd m)) - fst r) <= snd r /\ Rabs (snd (snd m) - fst s) <= snd s) models.
Proof.
  unfold models. repeat (apply Forall_cons; [first [left; reflexivity|right; left; reflexivity|right; right]|]); [..|apply Forall_nil].
  all: match goal with |- exists k r s, nth_error published k = Some (fst (?n, _), r, s) /\ _ =>
    let rec go l k := match l with (?x :: ?l')%list => match x with context [n] => exists k; do 2 eexists; split; [reflexivity|] | _ => go l' (S k) end end in
    let l := eval unfold published in published in go l O end.
  all: cbn [fst snd]; unfold mm; split; apply within; lra.
Qed.
(** Every name of the table, Io excepted: published size and shape. *)
Theorem C88_dimensions_partial : forall name e, from_name name = Ok e -> name <> "io"%string -> name <> "wgs84_mean"%string ->
  exists r s, In (name, r, s) published /\ fits e (r, s).
Proof.
  intros name e E N1 N2. destruct (lookup_model models name) as [[[pn a] b]|] eqn:L; [|unfold from_name in E; rewrite L in E; discriminate].
  destruct (axes name pn a b e E L) as [Qa Qb]. apply L_utils.lookup_in in L. pose proof table as T. rewrite Forall_forall in T. destruct (T _ L) as [X|[X|(k & r & s & X & A & B)]]; cbn [fst snd] in *; [contradiction|contradiction|].
  exists r, s. split; [apply (nth_error_In _ _ X)|]. unfold fits. rewrite Qa, Qb. split; assumption.
Qed.
Lemma incl_names name : In name (map (fun x => fst (fst x)) published) -> In name (map fst models).
Proof.
  intros I. assert (Q : forallb (fun n => existsb (String.eqb n) (map fst models)) (map (fun x => fst (fst x)) published) = true) by reflexivity.
  rewrite forallb_forall in Q. specialize (Q _ I). apply existsb_exists in Q. destruct Q as (m & M & E). apply String.eqb_eq in E. now subst.
Qed.
(** Every published name is available. *)
Theorem C88_names_available : forall name r s, In (name, r, s) published -> exists e, from_name name = Ok e.
Proof.
  intros name r s I. assert (J : In name (map fst models)).
  { apply (in_map (fun x => fst (fst x))) in I. cbn [fst] in I. apply (incl_names name). exact I. }
  destruct (L_utils.from_name_ok name J) as (_ & _ & _ & e & _ & E & _). now exists e.
Qed.
(** wgs84_mean: the sphere with the mean radius of WGS-84, to 0.1 mm. *)
Theorem C88_wgs84_mean : forall e w, from_name "wgs84_mean" = Ok e -> from_name "wgs84" = Ok w -> semimajor_axis e = semiminor_axis e /\ Rabs (semimajor_axis e - mean_radius w) <= 1 / 10000.
Proof.
  intros e w E W. rewrite L_utils.wgs84_from_name in W. injection W as <-. unfold mean_radius, wgs84. cbn [semimajor_axis semiminor_axis].
  destruct (axes "wgs84_mean" _ _ _ e E eq_refl) as [Ea Eb]. rewrite Ea, Eb. split; [reflexivity|apply within; lra].
Qed.
(** Finding: Io has its radii in kilometres where every other body has them in metres,
    so it is a thousand times too small. *)
Theorem C88_io_refuted : forall e, from_name "io" = Ok e -> forall r s, In ("io"%string, r, s) published -> 999 / 1000 * fst r <= 1000 * semimajor_axis e <= 1001 / 1000 * fst r /\ ~ fits e (r, s).
Proof.
  intros e E r s I. destruct (axes "io" _ _ _ e E eq_refl) as [Ea _].
  assert (P : fst r = 1000 * 1829.4 /\ snd r = 2 / 1000 * (1000 * 1829.4)). { unfold published, earth, body in I. cbn [In] in I. repeat (destruct I as [I|I]; [first [discriminate|injection I as <- _; split; reflexivity]|]). destruct I. }
  destruct P as [P1 P2]. rewrite Ea, P1. split; [lra|]. intros [F _]. cbn [fst snd] in F. rewrite Ea, P1, P2 in F. revert F. unfold Rabs. destruct (Rcase_abs _); lra.
Qed.
Example C88_example : exists e, from_name "gsk2011" = Ok e /\ exists r s, In ("gsk2011"%string, r, s) published /\ fits e (r, s).
Proof.
  assert (I : In "gsk2011"%string (map fst models)) by (simpl; tauto). destruct (L_utils.from_name_ok _ I) as (_ & _ & _ & e & _ & E & _). exists e. split; [exact E|]. apply (C88_dimensions_partial _ _ E); discriminate.
Qed.
