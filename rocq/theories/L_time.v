(** Lemmas about the calendar model. *)
From Verif Require Import PyMath M_time Spec_time.
From Coq Require Import Lia Znumtheory.
Open Scope Z_scope.

Lemma leap_year_is_leap : forall y, leap_year y = is_leap y.
Proof.
  intros y. unfold leap_year, is_leap.
  destruct (Zdivide_dec 400 y) as [D|D].
  - destruct D as [k ->].
    replace (k * 400 mod 4) with 0 by (symmetry; apply Z.mod_divide; [lia|exists (k*100); ring]).
    replace (k * 400 mod 400) with 0 by (symmetry; apply Z.mod_divide; [lia|exists k; ring]).
    rewrite Bool.orb_true_r. reflexivity.
  - assert (H400 : (y mod 400 =? 0) = false).
    { apply Z.eqb_neq. intros E. apply D. apply Z.mod_divide; [lia|exact E]. }
    rewrite H400, Bool.orb_false_r.
    destruct (Zdivide_dec 100 y) as [E|E].
    + apply (Z.mod_divide y 100) in E; [|lia]. rewrite E. cbn. rewrite Bool.andb_false_r. reflexivity.
    + assert (H100 : (y mod 100 =? 0) = false).
      { apply Z.eqb_neq. intros F. apply E. apply Z.mod_divide; [lia|exact F]. }
      rewrite H100. cbn [negb]. rewrite Bool.andb_true_r.
      destruct (Zdivide_dec 4 y) as [F|F].
      * apply (Z.mod_divide y 4) in F; [|lia]. rewrite F. reflexivity.
      * symmetry. apply Z.eqb_neq. intros G. apply F. apply Z.mod_divide; [lia|exact G].
Qed.

Lemma is_leap_step : forall y, 
  y / 4 - y / 100 + y / 400 - ((y - 1) / 4 - (y - 1) / 100 + (y - 1) / 400) = if is_leap y then 1 else 0.
Proof.
  intros y. unfold is_leap.
  destruct (Z.eqb_spec (y mod 4) 0); destruct (Z.eqb_spec (y mod 100) 0); destruct (Z.eqb_spec (y mod 400) 0);
    cbn [andb orb negb]; Z.to_euclidean_division_equations; lia.
Qed.

Lemma year_length_step : forall y, year_length y = days_before_year (y + 1) - days_before_year y.
Proof.
  intros y. unfold year_length, days_before_year. rewrite leap_year_is_leap.
  replace (y + 1 - 1) with y by ring. pose proof (is_leap_step y). destruct (is_leap y); lia.
Qed.
Lemma days_of_years_closed : forall n, days_of_years n = days_before_year (Z.of_nat n + 1).
Proof.
  induction n as [|n IH]; [reflexivity|]. cbn [days_of_years]. rewrite IH, year_length_step.
  replace (Z.of_nat (S n)) with (Z.of_nat n + 1) by lia. lia.
Qed.
Lemma month_cases : forall m, 1 <= m <= 12 -> m = 1 \/ m = 2 \/ m = 3 \/ m = 4 \/ m = 5 \/ m = 6 \/ m = 7
  \/ m = 8 \/ m = 9 \/ m = 10 \/ m = 11 \/ m = 12.
Proof. intros. lia. Qed.
Ltac months H := apply month_cases in H; destruct H as [->|[->|[->|[->|[->|[->|[->|[->|[->|[->|[->| ->]]]]]]]]]]].

Lemma days_of_months_closed : forall y m, 1 <= m <= 12 ->
  days_of_months y (Z.to_nat (m - 1)) = days_before_month y m.
Proof.
  intros y m H. unfold days_before_month. rewrite <- leap_year_is_leap.
  months H; cbv -[leap_year]; try destruct (leap_year y); reflexivity.
Qed.
Lemma month_length_eq : forall y m, 1 <= m <= 12 -> month_length y m = days_in_month y m.
Proof.
  intros y m H. unfold days_in_month. rewrite <- leap_year_is_leap.
  months H; cbv -[leap_year]; try destruct (leap_year y); reflexivity.
Qed.
Lemma ymd2ord_day_number : forall y m d, 1 <= y -> 1 <= m <= 12 -> ymd2ord y m d = day_number y m d.
Proof.
  intros y m d Hy Hm. unfold ymd2ord, day_number. rewrite days_of_years_closed, days_of_months_closed by assumption.
  replace (Z.of_nat (Z.to_nat (y - 1)) + 1) with y by lia. reflexivity.
Qed.

(** Month within a year: checked for every day of both kinds of year. *)
Definition md_of (leap : bool) (n : Z) : Z * Z :=
  let month := (n + 50) / 32 in
  let preceding := DAYS_BEFORE_MONTH month + (if (2 <? month) && leap then 1 else 0) in
  if n <? preceding then
    let month := month - 1 in
    let preceding := preceding - (DAYS_IN_MONTH month + (if (month =? 2) && leap then 1 else 0)) in
    (month, n - preceding + 1)
  else (month, n - preceding + 1).
Definition md_check (leap : bool) (n : Z) : bool :=
  let '(m, d) := md_of leap n in
  (1 <=? m) && (m <=? 12) && (1 <=? d) && (d <=? (if (m =? 2) && leap then 29 else DAYS_IN_MONTH m))
  && (DAYS_BEFORE_MONTH m + (if (2 <? m) && leap then 1 else 0) + d =? n + 1).
Lemma md_all : forall leap, forallb (md_check leap) (map Z.of_nat (seq 0 (if leap then 366 else 365))) = true.
Proof. intros []; vm_compute; reflexivity. Qed.
Lemma md_ok : forall leap n, 0 <= n < (if leap : bool then 366 else 365) -> md_check leap n = true.
Proof.
  intros leap n H. pose proof (md_all leap) as A. rewrite forallb_forall in A. apply A.
  apply in_map_iff. exists (Z.to_nat n). split; [lia|]. apply in_seq. destruct leap; lia.
Qed.

(** The cycle decomposition of a day number finds the right year. *)
Lemma year_part : forall n y r (leap : bool), 1 <= y -> leap = is_leap y ->
  n = days_before_year y + r -> 0 <= r < (if leap then 366 else 365) ->
  let '(m, d) := md_of leap r in
  1 <= m <= 12 /\ 1 <= d <= days_in_month y m /\ ymd2ord y m d = n + 1.
Proof.
  intros n y r leap Hy Hl Hn Hr. pose proof (md_ok leap r Hr) as C. unfold md_check in C.
  destruct (md_of leap r) as [m d]. rewrite !Bool.andb_true_iff in C. destruct C as ((((C1 & C2) & C3) & C4) & C5).
  rewrite Z.leb_le in *. apply Z.eqb_eq in C5. subst leap. unfold days_in_month, ymd2ord, days_before_month. lia.
Qed.

Lemma ord2ymd_spec : forall n, 1 <= n ->
  let '(y, m, d) := ord2ymd n in
  1 <= y /\ 1 <= m <= 12 /\ 1 <= d <= days_in_month y m /\ ymd2ord y m d = n.
Proof.
  intros n Hn. unfold ord2ymd. set (k := n - 1).
  set (n400 := k / 146097). set (k1 := k mod 146097).
  set (n100 := k1 / 36524). set (k2 := k1 mod 36524).
  set (n4 := k2 / 1461). set (k3 := k2 mod 1461).
  set (n1 := k3 / 365). set (k4 := k3 mod 365).
  assert (E0 : k = 146097 * n400 + k1) by (apply Z.div_mod; lia).
  assert (E1 : k1 = 36524 * n100 + k2) by (apply Z.div_mod; lia).
  assert (E2 : k2 = 1461 * n4 + k3) by (apply Z.div_mod; lia).
  assert (E3 : k3 = 365 * n1 + k4) by (apply Z.div_mod; lia).
  assert (B1 : 0 <= k1 < 146097) by (apply Z.mod_pos_bound; lia).
  assert (B2 : 0 <= k2 < 36524) by (apply Z.mod_pos_bound; lia).
  assert (B3 : 0 <= k3 < 1461) by (apply Z.mod_pos_bound; lia).
  assert (B4 : 0 <= k4 < 365) by (apply Z.mod_pos_bound; lia).
  clearbody n400 k1 n100 k2 n4 k3 n1 k4.
  assert (0 <= n400) by lia. assert (0 <= n100 <= 4) by lia. assert (0 <= n4 <= 24) by lia. assert (0 <= n1 <= 4) by lia.
  set (Y := n400 * 400 + 1 + (n100 * 100 + n4 * 4 + n1)).
  destruct (Z.eqb_spec n1 4) as [Q|Q]; [|destruct (Z.eqb_spec n100 4) as [Q'|Q']].
  - (* last day of a 4-year cycle *)
    assert (k4 = 0) by lia. subst n1 k4. assert (n4 = 24 -> False) by lia.
    cbn [orb]. 
    pose proof (year_part k (Y - 1) 365 true ltac:(lia)) as P. 
    assert (L : true = is_leap (Y - 1)).
    { unfold is_leap, Y. symmetry. 
      destruct (Z.eqb_spec ((n400 * 400 + 1 + (n100 * 100 + n4 * 4 + 4) - 1) mod 4) 0); [|Z.to_euclidean_division_equations; lia].
      destruct (Z.eqb_spec ((n400 * 400 + 1 + (n100 * 100 + n4 * 4 + 4) - 1) mod 100) 0); [exfalso; Z.to_euclidean_division_equations; lia|reflexivity]. }
    specialize (P L). change (md_of true 365) with (12, 31) in P. cbv iota beta zeta in P. destruct P as (P1 & P2 & P3); [|lia|].
    + unfold days_before_year, Y. Z.to_euclidean_division_equations; lia.
    + unfold k in *. split; [lia|]. split; [lia|]. split; [exact P2|]. rewrite P3. lia.
  - assert (k2 = 0) by lia. assert (n4 = 0) by lia. assert (n1 = 0) by lia. subst n100 n4 n1. cbn [orb].
    pose proof (year_part k (Y - 1) 365 true ltac:(lia)) as P. 
    assert (L : true = is_leap (Y - 1)).
    { unfold is_leap, Y. symmetry.
      destruct (Z.eqb_spec ((n400 * 400 + 1 + (4 * 100 + 0 * 4 + 0) - 1) mod 4) 0); [|Z.to_euclidean_division_equations; lia].
      destruct (Z.eqb_spec ((n400 * 400 + 1 + (4 * 100 + 0 * 4 + 0) - 1) mod 400) 0); [|exfalso; Z.to_euclidean_division_equations; lia].
      rewrite Bool.orb_true_r. reflexivity. }
    specialize (P L). change (md_of true 365) with (12, 31) in P. cbv iota beta zeta in P. destruct P as (P1 & P2 & P3); [|lia|].
    + unfold days_before_year, Y. Z.to_euclidean_division_equations; lia.
    + unfold k in *. split; [lia|]. split; [lia|]. split; [exact P2|]. rewrite P3. lia.
  - cbn [orb]. set (leap := (n1 =? 3) && (negb (n4 =? 24) || (n100 =? 3))).
    assert (L : leap = is_leap Y).
    { unfold leap, is_leap, Y.
      destruct (Z.eqb_spec n1 3); destruct (Z.eqb_spec n4 24); destruct (Z.eqb_spec n100 3);
      destruct (Z.eqb_spec ((n400 * 400 + 1 + (n100 * 100 + n4 * 4 + n1)) mod 4) 0);
      destruct (Z.eqb_spec ((n400 * 400 + 1 + (n100 * 100 + n4 * 4 + n1)) mod 100) 0);
      destruct (Z.eqb_spec ((n400 * 400 + 1 + (n100 * 100 + n4 * 4 + n1)) mod 400) 0); cbn; try reflexivity;
      exfalso; Z.to_euclidean_division_equations; lia. }
    pose proof (year_part k Y k4 leap ltac:(lia) L) as P.
    assert (HE : k = days_before_year Y + k4).
    { unfold days_before_year, Y. Z.to_euclidean_division_equations; lia. }
    specialize (P HE). assert (HR : 0 <= k4 < (if leap then 366 else 365)) by (destruct leap; lia). specialize (P HR).
    fold (md_of leap k4) in *. unfold md_of in P.
    destruct (k4 <? _) eqn:T; destruct P as (P1 & P2 & P3); (split; [lia|]; split; [exact P1|]; split; [exact P2|]; rewrite P3; unfold k; lia).
Qed.

Definition DAYUS := DAY_US.
Lemma wall_instant : forall t, valid_dt t ->
  wall_us t = instant t + match tzinfo t with None => 0 | Some o => o end.
Proof.
  intros t (Hy & Hm & _). unfold wall_us, instant. rewrite ymd2ord_day_number by lia. unfold DAY_US. lia.
Qed.
Lemma day_number_lo : forall y m d, 1 <= y -> 1 <= m <= 12 -> 1 <= d -> 1 <= day_number y m d.
Proof.
  intros y m d Hy Hm Hd. rewrite <- ymd2ord_day_number by assumption. unfold ymd2ord.
  assert (0 <= days_before_year y) by (unfold days_before_year; Z.to_euclidean_division_equations; lia).
  assert (0 <= days_before_month y m).
  { unfold days_before_month. destruct (_ && _); months Hm; cbv; congruence. }
  lia.
Qed.
Lemma day_number_hi : forall y m d, 1 <= y <= 9999 -> 1 <= m <= 12 -> d <= month_length y m ->
  day_number y m d <= MAXORDINAL.
Proof.
  intros y m d Hy Hm Hd. rewrite <- ymd2ord_day_number by lia. unfold ymd2ord.
  rewrite month_length_eq in Hd by assumption.
  assert (days_before_month y m + days_in_month y m <= if is_leap y then 366 else 365).
  { unfold days_before_month, days_in_month. destruct (is_leap y); months Hm; cbv; congruence. }
  assert (days_before_year y + (if is_leap y then 366 else 365) <= MAXORDINAL).
  { pose proof (year_length_step y) as S. unfold year_length in S. rewrite leap_year_is_leap in S.
    assert (days_before_year (y + 1) <= MAXORDINAL); [|lia].
    unfold days_before_year, MAXORDINAL. Z.to_euclidean_division_equations; lia. }
  lia.
Qed.
Lemma wall_range : forall t, valid_dt t -> DAY_US <= wall_us t < (MAXORDINAL + 1) * DAY_US.
Proof.
  intros t (Hy & Hm & Hd & Hh & Hi & Hs & Hu & _). unfold wall_us. rewrite ymd2ord_day_number by lia.
  pose proof (day_number_lo (year t) (month t) (day t)). pose proof (day_number_hi (year t) (month t) (day t)).
  unfold DAY_US, MAXORDINAL in *. nia.
Qed.

Lemma dt_add_spec : forall t us, valid_dt t ->
  match dt_add t us with
  | Ok u => valid_dt u /\ tzinfo u = tzinfo t /\ wall_us u = wall_us t + us /\
            DAY_US <= wall_us t + us < (MAXORDINAL + 1) * DAY_US
  | Raise e => e = OverflowError /\ ~ (DAY_US <= wall_us t + us < (MAXORDINAL + 1) * DAY_US)
  end.
Proof.
  intros t us V. unfold dt_add. set (n := wall_us t + us).
  assert (E : n = DAY_US * (n / DAY_US) + n mod DAY_US) by (apply Z.div_mod; unfold DAY_US; lia).
  assert (B : 0 <= n mod DAY_US < DAY_US) by (apply Z.mod_pos_bound; unfold DAY_US; lia).
  set (q := n / DAY_US) in *. set (r := n mod DAY_US) in *. clearbody q r.
  destruct ((0 <? q) && (q <=? MAXORDINAL)) eqn:G.
  - apply Bool.andb_true_iff in G. destruct G as [G1 G2]. apply Z.ltb_lt in G1. apply Z.leb_le in G2.
    pose proof (ord2ymd_spec q ltac:(lia)) as S. destruct (ord2ymd q) as [[y m] d].
    destruct S as (S1 & S2 & S3 & S4).
    assert (S5 : y <= 9999).
    { destruct (Z_le_gt_dec y 9999) as [|K]; [assumption|exfalso]. unfold ymd2ord in S4.
      assert (0 <= days_before_month y m).
      { unfold days_before_month. destruct (_ && _); months S2; cbv; congruence. }
      assert (MAXORDINAL <= days_before_year y).
      { unfold days_before_year, MAXORDINAL. Z.to_euclidean_division_equations; lia. }
      lia. }
    split; [|split; [reflexivity|split]].
    + unfold valid_dt. cbn [year month day hour minute second microsecond tzinfo]. rewrite month_length_eq by assumption.
      repeat (split; [try lia|]); try (unfold DAY_US in *; Z.to_euclidean_division_equations; lia).
      apply V.
    + unfold wall_us at 1. cbn [year month day hour minute second microsecond]. rewrite S4. rewrite E.
      unfold DAY_US in *. Z.to_euclidean_division_equations; lia.
    + unfold DAY_US, MAXORDINAL in *. lia.
  - split; [reflexivity|]. intros [H1 H2]. apply Bool.andb_false_iff in G.
    destruct G as [G|G]; [apply Z.ltb_ge in G|apply Z.leb_gt in G]; unfold DAY_US, MAXORDINAL in *; lia.
Qed.

Lemma first_instant_eq : first_instant = DAY_US.
Proof. vm_compute. reflexivity. Qed.
Lemma utc_range_lo : forall i, first_instant <= i <-> DAY_US <= i.
Proof. intros. rewrite first_instant_eq. reflexivity. Qed.
Lemma last_instant_eq : last_instant = (MAXORDINAL + 1) * DAY_US - 1.
Proof.
  unfold last_instant, instant, utc_at. cbn [year month day hour minute second microsecond tzinfo].
  rewrite <- ymd2ord_day_number by lia. vm_compute. reflexivity.
Qed.

Lemma valid_replace : forall t, valid_dt t -> valid_dt (replace_utc t).
Proof. intros t V. unfold valid_dt in *. cbn. intuition lia. Qed.
Lemma wall_replace : forall t, wall_us (replace_utc t) = wall_us t.
Proof. reflexivity. Qed.
