(** Lemmas about earth_orientation.py: time scales. *)
From Verif Require Import PyMath L_PyMath M_time M_frames M_earth Spec_time L_time.
From Coq Require Import Lia Znumtheory Sorted.
Open Scope Z_scope.

Definition in_range (i : Z) : Prop := first_instant <= i <= last_instant.

Lemma ensure_utc_spec : forall t, valid_dt t ->
  match ensure_utc t with
  | Ok u => valid_dt u /\ tzinfo u = Some 0 /\ instant u = instant t /\ in_range (instant t)
  | Raise e => e = OverflowError /\ ~ in_range (instant t)
  end.
Proof.
  intros t V. unfold ensure_utc, in_range. rewrite first_instant_eq, last_instant_eq.
  pose proof (wall_instant t V) as W. destruct (tzinfo t) as [off|] eqn:Z0.
  - unfold astimezone_utc. pose proof (dt_add_spec t (- off) V) as D. destruct (dt_add t (- off)) as [u|e]; cbn [bind].
    + destruct D as (D1 & D2 & D3 & D4). pose proof (valid_replace _ D1) as VR.
      split; [exact VR|]. split; [reflexivity|].
      pose proof (wall_instant _ VR) as W2. rewrite wall_replace in W2. cbn [replace_utc tzinfo] in W2. split; lia.
    + destruct D as [-> D]. split; [reflexivity|]. lia.
  - pose proof (valid_replace _ V) as VR. split; [exact VR|]. split; [reflexivity|].
    pose proof (wall_instant _ VR) as W2. rewrite wall_replace in W2. cbn [replace_utc tzinfo] in W2.
    pose proof (wall_range t V). split; lia.
Qed.

Lemma utc_with_offset_spec : forall t s, valid_dt t -> in_range (instant t) ->
  match utc_with_offset t s with
  | Ok u => valid_dt u /\ tzinfo u = Some 0 /\ instant u = instant t + timedelta_seconds s
            /\ in_range (instant u)
  | Raise e => e = OverflowError /\ ~ in_range (instant t + timedelta_seconds s)
  end.
Proof.
  intros t s V Rg. unfold utc_with_offset. pose proof (ensure_utc_spec t V) as S.
  destruct (ensure_utc t) as [u|e]; cbn [bind]; [|destruct S; contradiction].
  destruct S as (S1 & S2 & S3 & S4). pose proof (dt_add_spec u (timedelta_seconds s) S1) as D.
  pose proof (wall_instant u S1) as W. rewrite S2 in W. unfold in_range in *. rewrite first_instant_eq, last_instant_eq in *.
  destruct (dt_add u (timedelta_seconds s)) as [v|e].
  - destruct D as (D1 & D2 & D3 & D4). pose proof (wall_instant v D1) as W2. rewrite D2, S2 in W2.
    split; [exact D1|]. split; [congruence|]. split; lia.
  - destruct D as [-> D]. split; [reflexivity|]. lia.
Qed.

(** Truncation to an integer of rational arguments. *)
Lemma Int_part_div : forall a b, 0 < b -> Int_part (IZR a / IZR b) = a / b.
Proof.
  intros a b Hb. assert (HbR : (0 < IZR b)%R) by (apply IZR_lt; exact Hb).
  apply Int_part_unique.
  assert (E : a = b * (a / b) + a mod b) by (apply Z.div_mod; lia).
  pose proof (Z.mod_pos_bound a b Hb) as B. 
  assert (ER : (IZR a = IZR b * IZR (a / b) + IZR (a mod b))%R) by (rewrite <- mult_IZR, <- plus_IZR; f_equal; exact E).
  assert (B1 : (0 <= IZR (a mod b))%R) by (apply IZR_le; lia).
  assert (B2 : (IZR (a mod b) < IZR b)%R) by (apply IZR_lt; lia).
  rewrite ER. replace ((IZR b * IZR (a / b) + IZR (a mod b)) / IZR b)%R with (IZR (a / b) + IZR (a mod b) / IZR b)%R by (field; lra).
  assert (0 <= IZR (a mod b) / IZR b)%R by (apply Rmult_le_pos; [lra|left; apply Rinv_0_lt_compat; lra]).
  assert (IZR (a mod b) / IZR b < 1)%R.
  { apply (Rmult_lt_reg_r (IZR b)); [lra|]. unfold Rdiv. rewrite Rmult_assoc, Rinv_l by lra. lra. }
  split; lra.
Qed.
Lemma py_int_div : forall a b, 0 <= a -> 0 < b -> py_int (IZR a / IZR b) = a / b.
Proof.
  intros a b Ha Hb. unfold py_int. assert (HbR : (0 < IZR b)%R) by (apply IZR_lt; exact Hb).
  assert (0 <= IZR a / IZR b)%R by (apply Rmult_le_pos; [apply IZR_le; lia|left; apply Rinv_0_lt_compat; lra]).
  destruct (Rle_dec 0 (IZR a / IZR b)); [|lra]. apply Int_part_div. exact Hb.
Qed.

(** The integer part of the Julian date formula is the day count. *)
Lemma jd_integer : forall y m d, 1 <= y -> 1 <= m <= 12 ->
  let '(yy, mm) := if m <? 3 then (y - 1, m + 12) else (y, m) in
  (1461 * (yy + 4716)) / 4 + (306001 * (mm + 1)) / 10000 + d + (2 - yy / 100 + yy / 100 / 4)
  = ymd2ord y m d + 1722949.
Proof.
  intros y m d Hy Hm. unfold ymd2ord, days_before_year, days_before_month.
  pose proof (is_leap_step y) as L.
  months Hm; match goal with |- context [if ?b then _ else _] => let v := eval compute in b in change b with v end;
    cbv iota zeta; rewrite Zdiv_Zdiv by lia; change (100 * 4) with 400;
    match goal with |- context [DAYS_BEFORE_MONTH ?k] => let v := eval compute in (DAYS_BEFORE_MONTH k) in change (DAYS_BEFORE_MONTH k) with v end;
    match goal with |- context [?b && is_leap y] => let v := eval compute in b in change b with v end;
    cbn [andb]; destruct (is_leap y); Z.to_euclidean_division_equations; lia.
Qed.

Lemma juliandate_spec : forall t, valid_dt t ->
  match juliandate t with
  | Ok jd => in_range (instant t) /\ (jd = 1721424.5 + IZR (instant t) / 86400000000)%R
  | Raise e => e = OverflowError /\ ~ in_range (instant t)
  end.
Proof.
  intros t V. unfold juliandate. pose proof (ensure_utc_spec t V) as S.
  destruct (ensure_utc t) as [u|e]; cbn [bind]; [|exact S].
  destruct S as (S1 & S2 & S3 & S4). destruct S1 as (Hy & Hm & Hd & Hh & Hi & Hs & Hu & _).
  pose proof (jd_integer (year u) (month u) (day u) ltac:(lia) Hm) as J.
  assert (Hyy : forall yy mm, (if month u <? 3 then (year u - 1, month u + 12) else (year u, month u)) = (yy, mm) ->
    0 <= yy /\ 0 <= mm).
  { intros yy mm E. destruct (month u <? 3); injection E as <- <-; lia. }
  destruct (if month u <? 3 then (year u - 1, month u + 12) else (year u, month u)) as [yy mm].
  destruct (Hyy yy mm eq_refl) as [Hyy0 Hmm0]. split; [exact S4|].
  replace (365.25 * (IZR yy + 4716))%R with (IZR (1461 * (yy + 4716)) / IZR 4)%R
    by (rewrite mult_IZR, plus_IZR; lra).
  replace (30.6001 * (IZR mm + 1))%R with (IZR (306001 * (mm + 1)) / IZR 10000)%R
    by (rewrite mult_IZR, plus_IZR; lra).
  rewrite !py_int_div by lia.
  rewrite (py_int_div (yy / 100) 4) by (try lia; apply Z.div_pos; lia).
  rewrite <- S3. unfold instant. rewrite S2. rewrite ymd2ord_day_number in J by lia.
  set (D := day_number (year u) (month u) (day u)) in *.
  apply (f_equal IZR) in J. repeat rewrite ?plus_IZR, ?minus_IZR, ?mult_IZR in J.
  repeat rewrite ?plus_IZR, ?minus_IZR, ?mult_IZR. lra.
Qed.

(** Leap seconds. *)
Lemma dt_ge_instant : forall t u, valid_dt t -> valid_dt u -> dt_ge t u = (instant u <=? instant t).
Proof.
  intros t u Vt Vu. unfold dt_ge. rewrite (wall_instant t Vt), (wall_instant u Vu).
  f_equal; lia.
Qed.
Fixpoint leap_loop_i (i leaps : Z) (table : list (Z * Z)) : Z :=
  match table with
  | [] => leaps
  | (effective, total) :: rest => if effective <=? i then leap_loop_i i total rest else leaps
  end.
Lemma leap_loop_instant : forall table u leaps, valid_dt u -> Forall (fun '(e, _) => valid_dt e) table ->
  leap_loop u leaps table = leap_loop_i (instant u) leaps (map (fun '(e, n) => (instant e, n)) table).
Proof.
  induction table as [|[e n] table IH]; intros u leaps V F; [reflexivity|].
  inversion F as [|? ? F1 F2]; subst. cbn [leap_loop leap_loop_i map]. rewrite dt_ge_instant by assumption.
  destruct (instant e <=? instant u); [apply IH; assumption|reflexivity].
Qed.
(** Counting the effective dates of a sorted table whose totals step by one. *)
Lemma leap_loop_count : forall dates i leaps,
  (forall k, StronglySorted Z.le dates -> 
   k = List.length (filter (fun e => e <=? i) dates) ->
   leap_loop_i i leaps (combine dates (map (fun j => leaps + 1 + Z.of_nat j) (seq 0 (List.length dates)))) = leaps + Z.of_nat k).
Proof.
  induction dates as [|e dates IH]; intros i leaps k S ->; [cbn; lia|].
  inversion S as [|? ? S1 S2]; subst. cbn [List.length seq map combine leap_loop_i filter].
  destruct (e <=? i) eqn:E.
  - replace (map (fun j : nat => leaps + 1 + Z.of_nat j) (seq 1 (List.length dates)))
      with (map (fun j : nat => (leaps + 1) + 1 + Z.of_nat j) (seq 0 (List.length dates))).
    + replace (leaps + 1 + Z.of_nat 0) with (leaps + 1) by lia. rewrite (IH i (leaps + 1) _ S1 eq_refl). cbn [List.length]. lia.
    + rewrite <- seq_shift, map_map. apply map_ext. intros; lia.
  - apply Z.leb_gt in E. replace (filter (fun e0 : Z => e0 <=? i) dates) with (@nil Z); [cbn; lia|].
    symmetry. clear - S2 E. induction S2 as [|x l Hx HF IH]; [reflexivity|]. cbn [filter].
    destruct (Z.leb_spec x i); [lia|exact IH].
Qed.

Definition leap_dates_i : list Z := map (fun '(y, m) => ymd2ord y m 1 * DAY_US) leap_second_dates.
Lemma utc_date_instant : forall y m, 1 <= y -> 1 <= m <= 12 ->
  instant (utc_date y m 1) = ymd2ord y m 1 * DAY_US.
Proof. intros y m Hy Hm. unfold instant, utc_date. cbn. rewrite ymd2ord_day_number by assumption. unfold DAY_US. lia. Qed.
Lemma utc_date_valid : forall y m, 1 <= y <= 9999 -> 1 <= m <= 12 -> valid_dt (utc_date y m 1).
Proof.
  intros y m Hy Hm. unfold valid_dt, utc_date. cbn [year month day hour minute second microsecond tzinfo].
  rewrite month_length_eq by assumption.
  assert (1 <= days_in_month y m) by (unfold days_in_month; destruct (is_leap y); months Hm; cbv; congruence). lia.
Qed.
Lemma leap_table_i : map (fun '(e, n) => (instant e, n)) LEAP_SECONDS =
  (ymd2ord 1972 1 1 * DAY_US, 10) ::
  combine leap_dates_i (map (fun j => 10 + 1 + Z.of_nat j) (seq 0 (List.length leap_dates_i))).
Proof.
  unfold LEAP_SECONDS. cbn [map]. rewrite !utc_date_instant by lia. reflexivity.
Qed.
Lemma leap_table_valid : Forall (fun '(e, _) => valid_dt e) LEAP_SECONDS.
Proof. unfold LEAP_SECONDS. repeat (constructor; [apply utc_date_valid; lia|]). constructor. Qed.
Lemma leap_dates_sorted : StronglySorted Z.le leap_dates_i.
Proof.
  apply Sorted_StronglySorted; [intros x y z; lia|].
  let v := eval vm_compute in leap_dates_i in change leap_dates_i with v.
  repeat (constructor; [|try constructor; lia]). constructor.
Qed.
Lemma leap_dates_after : Forall (fun e => ymd2ord 1972 1 1 * DAY_US < e) leap_dates_i.
Proof.
  let v := eval vm_compute in (ymd2ord 1972 1 1 * DAY_US) in change (ymd2ord 1972 1 1 * DAY_US) with v.
  let v := eval vm_compute in leap_dates_i in change leap_dates_i with v.
  repeat (constructor; [lia|]). constructor.
Qed.
Lemma tai_count : forall i, tai_minus_utc i = 10 + Z.of_nat (List.length (filter (fun e => e <=? i) leap_dates_i)).
Proof.
  intros i. unfold tai_minus_utc, leap_dates_i.
  cut (List.length (filter (fun '(y, m) => instant (utc_at y m 1 0 0 0 0) <=? i) leap_second_dates)
    = List.length (filter (fun e => e <=? i) (map (fun '(y, m) => ymd2ord y m 1 * DAY_US) leap_second_dates))); [intros ->; reflexivity|].
  assert (F : Forall (fun '(y, m) => 1 <= y /\ 1 <= m <= 12) leap_second_dates).
  { unfold leap_second_dates. repeat (constructor; [lia|]). constructor. }
  induction F as [|[y m] l H F IH]; [reflexivity|]. cbn [filter map].
  rewrite <- utc_date_instant by lia. unfold utc_date, utc_at in *.
  destruct (instant _ <=? i); cbn [List.length]; rewrite IH; reflexivity.
Qed.
Lemma filter_len : forall (f : Z -> bool) l, (List.length (filter f l) <= List.length l)%nat.
Proof. intros f l. induction l as [|x l IH]; cbn; [lia|]. destruct (f x); cbn; lia. Qed.
Lemma leap_dates_length : List.length leap_dates_i = 27%nat. Proof. reflexivity. Qed.
Lemma tai_bounds : forall i, 10 <= tai_minus_utc i <= 37.
Proof.
  intros i. rewrite (tai_count i). pose proof (filter_len (fun e => e <=? i) leap_dates_i) as F.
  rewrite leap_dates_length in F. lia.
Qed.
Opaque leap_dates_i tai_minus_utc.
Lemma leap_seconds_spec : forall t, valid_dt t ->
  match leap_seconds t with
  | Ok n => in_range (instant t) /\ n = tai_minus_utc (instant t)
  | Raise e => e = OverflowError /\ ~ in_range (instant t)
  end.
Proof.
  intros t V. unfold leap_seconds. pose proof (ensure_utc_spec t V) as S.
  destruct (ensure_utc t) as [u|e]; cbn [bind]; [|exact S]. destruct S as (S1 & S2 & S3 & S4).
  split; [exact S4|]. rewrite (leap_loop_instant _ _ _ S1 leap_table_valid), S3, leap_table_i. rewrite (tai_count (instant t)).
  cbn [leap_loop_i]. destruct (Z.leb_spec (ymd2ord 1972 1 1 * DAY_US) (instant t)) as [L|L].
  - apply leap_loop_count; [exact leap_dates_sorted|reflexivity].
  - replace (filter (fun e => e <=? instant t) leap_dates_i) with (@nil Z); [reflexivity|].
    symmetry. pose proof leap_dates_after as A. induction A as [|e l He A IH]; [reflexivity|]. cbn [filter].
    destruct (Z.leb_spec e (instant t)); [lia|exact IH].
Qed.

(** timedelta(seconds=n + 32.184) is exact. *)
Lemma round_half_even_int : forall n, round_half_even (IZR n) = n.
Proof.
  intros n. unfold round_half_even. rewrite (Int_part_unique (IZR n) n) by lra.
  destruct (Rlt_dec _ _) as [H|H]; [reflexivity|]. exfalso. lra.
Qed.
Lemma tt_offset : forall n, timedelta_seconds (IZR n + 32.184) = n * 1000000 + 32184000.
Proof.
  intros n. unfold timedelta_seconds.
  replace ((IZR n + 32.184) * 1000000)%R with (IZR (n * 1000000 + 32184000)) by (rewrite plus_IZR, mult_IZR; lra).
  apply round_half_even_int.
Qed.
Lemma round_half_even_near : forall x, (Rabs (x - IZR (round_half_even x)) <= 1 / 2)%R.
Proof.
  intros x. unfold round_half_even. destruct (base_Int_part x) as [B1 B2].
  repeat destruct (Rlt_dec _ _); try destruct (Z.even _); try rewrite plus_IZR; apply Rabs_le; lra.
Qed.
Lemma tai_mono : forall i j, i <= j -> tai_minus_utc i <= tai_minus_utc j.
Proof.
  intros i j H. rewrite (tai_count i), (tai_count j).
  assert (forall l : list Z, (List.length (filter (fun e => Z.leb e i) l) <= List.length (filter (fun e => Z.leb e j) l))%nat).
  { induction l as [|e l IH]; [reflexivity|]. cbn [filter]. destruct (Z.leb_spec e i); destruct (Z.leb_spec e j); cbn [List.length]; lia. }
  specialize (H0 leap_dates_i). lia.
Qed.
Lemma utc_to_tt_spec : forall t, valid_dt t ->
  match utc_to_tt t with
  | Ok u => in_range (instant t) /\ valid_dt u /\ tzinfo u = Some 0 /\
            instant u = instant t + tai_minus_utc (instant t) * 1000000 + 32184000 /\ in_range (instant u)
  | Raise e => e = OverflowError /\
      ~ (in_range (instant t) /\ in_range (instant t + tai_minus_utc (instant t) * 1000000 + 32184000))
  end.
Proof.
  intros t V. unfold utc_to_tt. pose proof (leap_seconds_spec t V) as S.
  destruct (leap_seconds t) as [n|e]; cbn [bind]; [|destruct S as [-> S]; split; [reflexivity|tauto]].
  destruct S as [S ->]. pose proof (utc_with_offset_spec t (IZR (tai_minus_utc (instant t)) + 32.184) V S) as U.
  rewrite tt_offset in U. rewrite Z.add_assoc in U. destruct (utc_with_offset t _) as [u|e].
  - destruct U as (U1 & U2 & U3 & U4). exact (conj S (conj U1 (conj U2 (conj U3 U4)))).
  - destruct U as [-> U]. split; [reflexivity|tauto].
Qed.
