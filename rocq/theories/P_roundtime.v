(** Property C98: Julian dates in binary64. *)
From Coq Require Import Reals ZArith Lra Lia Psatz.
From Flocq Require Import Core.
From Verif Require Import PyMath M_time M_earth M_float M_floatenu M_floattime Spec_time Spec_float P_float L_float L_floathav P_time.
From Verif Require L_earth L_time.
Open Scope R_scope.
#[local] Instance prec53 : Prec_gt_0 53 := eq_refl.
#[local] Instance vexp : Valid_exp fexp64 := FLT_exp_valid (-1074) 53.

Lemma int_d z : (Z.abs z < 2 ^ 53)%Z -> rnd (IZR z) = IZR z.
Proof. intros H. apply rnd_id, double_int, H. Qed.
Lemma quarter_d z : (Z.abs z < 2 ^ 53)%Z -> double (IZR z / 4).
Proof.
  intros H. unfold double. replace (IZR z / 4) with (F2R (Float radix2 z (-2))) by (unfold F2R; cbn [Fnum Fexp]; change (bpow radix2 (-2)) with (/ 4); reflexivity). apply generic_format_FLT. exists (Float radix2 z (-2)); cbn [Fnum Fexp]; [reflexivity|exact H|lia].
Qed.
Lemma py_int_of x n : (0 <= n)%Z -> IZR n <= x < IZR n + 1 -> py_int x = n.
Proof.
  intros N H. rewrite trunc_py_int. rewrite Ztrunc_floor by (apply Rle_trans with (IZR n); [now apply IZR_le|lra]). apply Zfloor_imp. rewrite plus_IZR. lra.
Qed.
Lemma int_stable x n : (0 <= n <= 8000000)%Z -> IZR n <= x <= IZR n + 1 - / 1000 -> py_int (rnd x) = n.
Proof.
  intros N H. apply py_int_of; [lia|]. destruct N as [N1 N2]. apply IZR_le in N1, N2. assert (E : Rabs (rnd x - x) <= uu / 2 * bpow radix2 23) by (apply rnd_pow; [lia|change (bpow radix2 23) with 8388608; apply Rabs_le; lra]). change (bpow radix2 23) with 8388608 in E. apply Rabs_le_inv in E. pose proof uu_small. split; [|lra].
  rewrite <- (int_d n) by (apply le_IZR in N1, N2; lia). apply rnd_le. lra.
Qed.
Lemma century y : (0 <= y <= 9999)%Z -> py_int (fl_div (rnd (IZR y)) 100) = py_int (IZR y / 100) /\ (0 <= py_int (IZR y / 100) <= 99)%Z.
Proof.
  intros H. rewrite int_d by lia. pose proof (Z.div_mod y 100 ltac:(lia)) as D. pose proof (Z.mod_pos_bound y 100 ltac:(lia)) as B. set (q := (y / 100)%Z) in *. set (r := (y mod 100)%Z) in *. assert (Q : (0 <= q <= 99)%Z) by lia.
  assert (E : IZR y / 100 = IZR q + IZR r / 100) by (rewrite D, plus_IZR, mult_IZR; field). assert (R0 : 0 <= IZR r <= 99) by (split; apply IZR_le; lia).
  assert (E1 : py_int (IZR y / 100) = q) by (apply py_int_of; [lia|rewrite E; lra]). rewrite E1. split; [|exact Q]. unfold fl_div. apply int_stable; [lia|]. rewrite E. lra.
Qed.
Lemma quarter_c a : (0 <= a <= 99)%Z -> py_int (fl_div (rnd (IZR a)) 4) = py_int (IZR a / 4).
Proof. intros H. rewrite int_d by lia. unfold fl_div. rewrite rnd_id by (apply quarter_d; lia). reflexivity. Qed.
Lemma years y : (0 <= y <= 9999)%Z -> fl_mul (rnd 365.25) (rnd (IZR (y + 4716))) = 365.25 * (IZR y + 4716).
Proof.
  intros H. rewrite int_d by lia. assert (D : double 365.25) by (replace 365.25 with (IZR 1461 / 4) by lra; apply quarter_d; reflexivity). rewrite (rnd_id _ D). unfold fl_mul. rewrite plus_IZR. replace (365.25 * (IZR y + 4716)) with (IZR (1461 * (y + 4716)) / 4) by (rewrite mult_IZR, plus_IZR; lra). apply rnd_id, quarter_d. lia.
Qed.
Lemma months m : (3 <= m <= 14)%Z -> py_int (fl_mul (rnd 30.6001) (rnd (IZR (m + 1)))) = py_int (30.6001 * (IZR m + 1)).
Proof.
  intros H. rewrite int_d by lia. assert (E : Rabs (rnd 30.6001 - 30.6001) <= uu / 2 * bpow radix2 5) by (apply rnd_pow; [lia|change (bpow radix2 5) with 32; rewrite Rabs_pos_eq; lra]). change (bpow radix2 5) with 32 in E. apply Rabs_le_inv in E. pose proof uu_small as U. set (c := rnd 30.6001) in *. clearbody c. rewrite plus_IZR.
  assert (C : (m = 3 \/ m = 4 \/ m = 5 \/ m = 6 \/ m = 7 \/ m = 8 \/ m = 9 \/ m = 10 \/ m = 11 \/ m = 12 \/ m = 13 \/ m = 14)%Z) by lia.
  assert (G : forall k n, (0 <= n <= 8000000)%Z -> 0 <= k <= 20 -> IZR n + / 10000 <= 30.6001 * k <= IZR n + 1 - / 100 -> py_int (fl_mul c k) = py_int (30.6001 * k)).
  { intros k n Hn Hk K. rewrite (py_int_of (30.6001 * k) n) by (lia || lra). unfold fl_mul. apply int_stable; [exact Hn|]. assert (- (16 * uu * 20) <= (c - 30.6001) * k <= 16 * uu * 20) by nra. lra. }
  destruct C as [->|[->|[->|[->|[->|[->|[->|[->|[->|[->|[->| ->]]]]]]]]]]]; [apply (G _ 122%Z)|apply (G _ 153%Z)|apply (G _ 183%Z)|apply (G _ 214%Z)|apply (G _ 244%Z)|apply (G _ 275%Z)|apply (G _ 306%Z)|apply (G _ 336%Z)|apply (G _ 367%Z)|apply (G _ 397%Z)|apply (G _ 428%Z)|apply (G _ 459%Z)]; try lia; try lra.
Qed.

(** The exact fraction of the day. *)
Definition day_fraction (h m s us : Z) : R := IZR (((h * 60 + m) * 60 + s) * 1000000 + us) / 86400000000.
Section Day.
Variables h m s us : Z.
Hypothesis Hh : (0 <= h <= 23)%Z. Hypothesis Hm : (0 <= m <= 59)%Z. Hypothesis Hs : (0 <= s <= 59)%Z. Hypothesis Hu : (0 <= us <= 999999)%Z.
Let us1 := fl_div (rnd (IZR us)) 1000000.
Let sec := fl_add (rnd (IZR s)) us1.
Let mi0 := fl_div sec 60.
Let mi := fl_add mi0 (rnd (IZR m)).
Let ho0 := fl_div mi 60.
Let ho := fl_add ho0 (rnd (IZR h)).
Lemma zr z b : (0 <= z <= b)%Z -> 0 <= IZR z <= IZR b. Proof. intros [A B]. split; now apply IZR_le. Qed.
Lemma step x n b : (0 <= n <= b)%Z -> (b < 1000)%Z -> 0 <= x <= 1 -> IZR n <= fl_add x (rnd (IZR n)) <= IZR n + 1.
Proof.
  intros N B X. rewrite int_d by lia. unfold fl_add. split; [rewrite <- (int_d n) at 1 by lia; apply rnd_le; lra|]. replace (IZR n + 1) with (IZR (n + 1)) by (rewrite plus_IZR; reflexivity). rewrite <- (int_d (n + 1)) by lia. apply rnd_le. rewrite plus_IZR. lra.
Qed.
Lemma u1_r : 0 <= us1 <= 1. Proof. unfold us1, fl_div. rewrite int_d by lia. apply rnd_01. pose proof (zr us 999999 Hu). lra. Qed.
Lemma sec_r : IZR s <= sec <= IZR s + 1. Proof. unfold sec. pose proof (step us1 s 59 Hs ltac:(lia) u1_r) as S. unfold fl_add in *. rewrite Rplus_comm. exact S. Qed.
Lemma mi0_r : 0 <= mi0 <= 1. Proof. unfold mi0, fl_div. apply rnd_01. pose proof (zr s 59 Hs). pose proof sec_r. lra. Qed.
Lemma mi_r : IZR m <= mi <= IZR m + 1. Proof. unfold mi. apply (step mi0 m 59 Hm ltac:(lia) mi0_r). Qed.
Lemma ho0_r : 0 <= ho0 <= 1. Proof. unfold ho0, fl_div. apply rnd_01. pose proof (zr m 59 Hm). pose proof mi_r. lra. Qed.
Lemma ho_r : IZR h <= ho <= IZR h + 1. Proof. unfold ho. apply (step ho0 h 23 Hh ltac:(lia) ho0_r). Qed.
Lemma frac_eq : fl_day_fraction h m s us = fl_div ho 24. Proof. reflexivity. Qed.
Lemma frac_r : 0 <= fl_day_fraction h m s us <= 1. Proof. rewrite frac_eq. unfold fl_div. apply rnd_01. pose proof (zr h 23 Hh). pose proof ho_r. lra. Qed.
Lemma frac_err : Rabs (fl_day_fraction h m s us - day_fraction h m s us) <= 2 * uu.
Proof.
  pose proof uu_pos as U. pose proof (zr h 23 Hh) as ZH. pose proof (zr m 59 Hm) as ZM. pose proof (zr s 59 Hs) as ZS. pose proof (zr us 999999 Hu) as ZU. pose proof u1_r. pose proof sec_r. pose proof mi0_r. pose proof mi_r. pose proof ho0_r. pose proof ho_r.
  assert (R6 : forall v, Rabs v <= 64 -> Rabs (rnd v - v) <= 32 * uu) by (intros v V; pose proof (rnd_pow 6 v ltac:(lia)) as P; change (bpow radix2 6) with 64 in P; specialize (P V); lra).
  assert (E1 : Rabs (us1 - IZR us / 1000000) <= uu / 2) by (unfold us1, fl_div; rewrite int_d by lia; apply rnd_1, Rabs_le; lra).
  assert (E2 : Rabs (sec - (IZR s + us1)) <= 32 * uu) by (unfold sec, fl_add; rewrite int_d by lia; apply R6, Rabs_le; lra).
  assert (E3 : Rabs (mi0 - sec / 60) <= uu / 2) by (unfold mi0, fl_div; apply rnd_1, Rabs_le; lra).
  assert (E4 : Rabs (mi - (mi0 + IZR m)) <= 32 * uu) by (unfold mi, fl_add; rewrite int_d by lia; apply R6, Rabs_le; lra).
  assert (E5 : Rabs (ho0 - mi / 60) <= uu / 2) by (unfold ho0, fl_div; apply rnd_1, Rabs_le; lra).
  assert (E6 : Rabs (ho - (ho0 + IZR h)) <= 32 * uu) by (unfold ho, fl_add; rewrite int_d by lia; apply R6, Rabs_le; lra).
  assert (E7 : Rabs (fl_day_fraction h m s us - ho / 24) <= uu / 2) by (rewrite frac_eq; unfold fl_div; apply rnd_1, Rabs_le; lra).
  unfold day_fraction. rewrite plus_IZR, mult_IZR, plus_IZR, mult_IZR, plus_IZR, mult_IZR. apply Rabs_le_inv in E1, E2, E3, E4, E5, E6, E7. apply Rabs_le. lra.
Qed.
End Day.
(** Later in the day, no smaller fraction. *)
Lemma frac_mono h m s us h' m' s' us' : (0 <= h <= 23)%Z -> (0 <= m <= 59)%Z -> (0 <= s <= 59)%Z -> (0 <= us <= 999999)%Z ->
  (0 <= h' <= 23)%Z -> (0 <= m' <= 59)%Z -> (0 <= s' <= 59)%Z -> (0 <= us' <= 999999)%Z ->
  (((h * 60 + m) * 60 + s) * 1000000 + us <= ((h' * 60 + m') * 60 + s') * 1000000 + us')%Z -> fl_day_fraction h m s us <= fl_day_fraction h' m' s' us'.
Proof.
  intros Hh Hm Hs Hu Hh' Hm' Hs' Hu' L.
  assert (DM : forall x y c, 0 < c -> x <= y -> fl_div x c <= fl_div y c) by (intros x y c C X; unfold fl_div; apply rnd_le; unfold Rdiv; apply Rmult_le_compat_r; [left; now apply Rinv_0_lt_compat|exact X]).
  assert (LI : forall a b : Z, (a < b)%Z -> IZR a + 1 <= IZR b) by (intros a b A; replace (IZR a + 1) with (IZR (a + 1)) by (rewrite plus_IZR; reflexivity); apply IZR_le; lia).
  rewrite !frac_eq. apply DM; [lra|]. assert (C1 : (h < h' \/ h = h' /\ (m * 60 + s) * 1000000 + us <= (m' * 60 + s') * 1000000 + us')%Z) by lia. destruct C1 as [C1|(-> & L1)].
  { pose proof (ho_r h m s us Hh Hm Hs Hu). pose proof (ho_r h' m' s' us' Hh' Hm' Hs' Hu'). apply LI in C1. lra. }
  unfold fl_add at 1 4. apply rnd_le. apply Rplus_le_compat_r. apply DM; [lra|]. assert (C2 : (m < m' \/ m = m' /\ s * 1000000 + us <= s' * 1000000 + us')%Z) by lia. destruct C2 as [C2|(-> & L2)].
  { pose proof (mi_r m s us Hm Hs Hu). pose proof (mi_r m' s' us' Hm' Hs' Hu'). apply LI in C2. lra. }
  unfold fl_add at 1 3. apply rnd_le. apply Rplus_le_compat_r. apply DM; [lra|]. assert (C3 : (s < s' \/ s = s' /\ us <= us')%Z) by lia. destruct C3 as [C3|(-> & L3)].
  { pose proof (sec_r s us Hs Hu). pose proof (sec_r s' us' Hs' Hu'). apply LI in C3. lra. }
  unfold fl_add. apply rnd_le. apply Rplus_le_compat_l. apply DM; [lra|]. rewrite !int_d by lia. now apply IZR_le.
Qed.

(** The shape of the result: midnight exact, then one rounding. *)
Lemma jd_shape t jd : valid_dt t -> fl_juliandate t = Ok jd -> exists u, ensure_utc t = Ok u /\ valid_dt u /\ tzinfo u = Some 0%Z /\ instant u = instant t /\
  let dn := day_number (year u) (month u) (day u) in
  jd = rnd (IZR dn + 1721424.5 + fl_day_fraction (hour u) (minute u) (second u) (microsecond u)) /\ (0 <= dn <= 3700000)%Z.
Proof.
  intros V E. unfold fl_juliandate in E. pose proof (L_earth.ensure_utc_spec t V) as S. destruct (ensure_utc t) as [u|e] eqn:EU; [|discriminate]. destruct S as (VU & TU & IU & RG). exists u. split; [reflexivity|]. split; [exact VU|]. split; [exact TU|]. split; [exact IU|]. cbn [bind] in E.
  pose proof VU as (Hy & Hm & Hd & Hh & Hi & Hs & Hu & _).
  pose proof (L_earth.jd_integer (year u) (month u) (day u) ltac:(lia) Hm) as J. rewrite L_time.ymd2ord_day_number in J by lia.
  assert (DN : (0 <= day_number (year u) (month u) (day u) <= 3700000)%Z).
  { unfold L_earth.in_range in RG. rewrite L_time.first_instant_eq, L_time.last_instant_eq in RG. rewrite <- IU in RG. unfold instant in RG. rewrite TU in RG. unfold DAY_US, MAXORDINAL in RG. lia. }
  cbv zeta. split; [|exact DN]. set (D := day_number (year u) (month u) (day u)) in *. clearbody D.
  assert (Hyy : forall yy mm, (if month u <? 3 then (year u - 1, month u + 12) else (year u, month u))%Z = (yy, mm) -> (0 <= yy <= 9999 /\ 3 <= mm <= 14)%Z).
  { intros yy mm Q. destruct (Z.ltb_spec (month u) 3); injection Q as <- <-; lia. }
  destruct (if month u <? 3 then (year u - 1, month u + 12) else (year u, month u))%Z as [yy mm]. destruct (Hyy yy mm eq_refl) as [Y M]. clear Hyy.
  destruct (century yy Y) as [E1 E2]. rewrite E1 in E. rewrite quarter_c in E by exact E2. rewrite years in E by exact Y. rewrite months in E by exact M.
  replace (365.25 * (IZR yy + 4716)) with (IZR (1461 * (yy + 4716)) / IZR 4) in E by (rewrite mult_IZR, plus_IZR; lra).
  replace (30.6001 * (IZR mm + 1)) with (IZR (306001 * (mm + 1)) / IZR 10000) in E by (rewrite mult_IZR, plus_IZR; lra).
  rewrite !L_earth.py_int_div in E by lia. rewrite (L_earth.py_int_div (yy / 100) 4) in E by (try lia; apply Z.div_pos; lia).
  cbv zeta in J. rewrite J in E. injection E as <-. rewrite int_d by lia. replace (rnd 1524.5) with 1524.5 by (symmetry; apply rnd_id; replace 1524.5 with (IZR 6098 / 4) by lra; apply quarter_d; reflexivity).
  unfold fl_sub. replace (IZR (D + 1722949) - 1524.5) with (IZR D + 1721424.5) by (rewrite plus_IZR; lra).
  rewrite (rnd_id (IZR D + 1721424.5)); [reflexivity|]. replace (IZR D + 1721424.5) with (IZR (4 * D + 6885698) / 4) by (rewrite plus_IZR, mult_IZR; lra). apply quarter_d. lia.
Qed.
(** The microseconds of the day in UTC, and the exact Julian date. *)
Lemma instant_split u : tzinfo u = Some 0%Z -> instant u = (day_number (year u) (month u) (day u) * 86400000000 + (((hour u * 60 + minute u) * 60 + second u) * 1000000 + microsecond u))%Z.
Proof. intros T. unfold instant. rewrite T. ring. Qed.
Lemma exact_split t u j : valid_dt t -> juliandate t = Ok j -> tzinfo u = Some 0%Z -> instant u = instant t ->
  j = IZR (day_number (year u) (month u) (day u)) + 1721424.5 + day_fraction (hour u) (minute u) (second u) (microsecond u).
Proof.
  intros V E T I. pose proof (L_earth.juliandate_spec t V) as S. rewrite E in S. destruct S as [_ ->]. rewrite <- I, (instant_split u T). unfold day_fraction. rewrite plus_IZR, mult_IZR. lra.
Qed.
Lemma defined_same t : (exists j, juliandate t = Ok j) <-> (exists j, fl_juliandate t = Ok j).
Proof.
  unfold juliandate, fl_juliandate. destruct (ensure_utc t) as [u|e]; cbn [bind]; [|split; intros [j H]; discriminate].
  destruct (if (month u <? 3)%Z then (year u - 1, month u + 12)%Z else (year u, month u)). split; intros _; eexists; reflexivity.
Qed.

(** ** C98 *)
(** Executed in binary64, the Julian date exists for the same datetimes, and is within 40.3 microseconds of the exact one; within 20.2 microseconds of it
    for dates before the year 6771 (JD 4194304 = 2^22). *)
Theorem C98_defined : forall t, valid_dt t -> ((exists jf, fl_juliandate t = Ok jf) <-> (first_instant <= instant t <= last_instant)%Z).
Proof.
  intros t V. rewrite <- defined_same. split; [|apply C22_defined; exact V]. intros [j E]. pose proof (L_earth.juliandate_spec t V) as S. rewrite E in S. exact (proj1 S).
Qed.
Theorem C98_accuracy : forall t j jf, valid_dt t -> juliandate t = Ok j -> fl_juliandate t = Ok jf ->
  86400000000 * Rabs (jf - j) <= 40.3 /\ (j <= 4194303 -> 86400000000 * Rabs (jf - j) <= 20.2).
Proof.
  intros t j jf V E F. destruct (jd_shape t jf V F) as (u & _ & VU & TU & IU & -> & B). pose proof (exact_split t u j V E TU IU) as EJ. destruct VU as (Hy & Hm & Hd & Hh & Hi & Hs & Hu & _).
  pose proof (frac_r (hour u) (minute u) (second u) (microsecond u) Hh Hi Hs Hu) as FR. pose proof (frac_err (hour u) (minute u) (second u) (microsecond u) Hh Hi Hs Hu) as FE.
  set (f := fl_day_fraction _ _ _ _) in *. set (d := IZR (day_number _ _ _)) in *. set (g := day_fraction _ _ _ _) in *.
  assert (BD : 0 <= d <= 3700000) by (unfold d; split; apply IZR_le; lia). clearbody f d g. pose proof uu_small as U. pose proof uu_pos as U0.
  assert (K : forall c, Rabs (rnd (d + 1721424.5 + f) - (d + 1721424.5 + f)) <= c -> Rabs (rnd (d + 1721424.5 + f) - j) <= c + 2 * uu) by (intros c C; apply Rabs_le_inv in C, FE; apply Rabs_le; lra).
  split.
  - pose proof (rnd_pow 23 (d + 1721424.5 + f) ltac:(lia)) as P. change (bpow radix2 23) with 8388608 in P. specialize (P ltac:(rewrite Rabs_pos_eq; lra)). apply K in P. unfold uu in *. lra.
  - intros J. pose proof (rnd_pow 22 (d + 1721424.5 + f) ltac:(lia)) as P. change (bpow radix2 22) with 4194304 in P. apply Rabs_le_inv in FE. specialize (P ltac:(rewrite Rabs_pos_eq; lra)). apply K in P. unfold uu in *. lra.
Qed.
(** Later datetimes never get smaller Julian dates, whatever the time zones... *)
Theorem C98_monotone : forall t1 t2 j1 j2, valid_dt t1 -> valid_dt t2 -> fl_juliandate t1 = Ok j1 -> fl_juliandate t2 = Ok j2 ->
  (instant t1 <= instant t2)%Z -> j1 <= j2.
Proof.
  intros t1 t2 j1 j2 V1 V2 F1 F2 L. destruct (jd_shape t1 j1 V1 F1) as (u & _ & VU & TU & IU & -> & B). destruct (jd_shape t2 j2 V2 F2) as (v & _ & VV & TV & IV & -> & B2).
  rewrite <- IU, <- IV, (instant_split u TU), (instant_split v TV) in L. destruct VU as (_ & _ & _ & Hh & Hi & Hs & Hu & _). destruct VV as (_ & _ & _ & Hh' & Hi' & Hs' & Hu' & _).
  apply rnd_le. set (d := day_number (year u) _ _) in *. set (e := day_number (year v) _ _) in *.
  assert (C : (d < e \/ d = e /\ ((hour u * 60 + minute u) * 60 + second u) * 1000000 + microsecond u <= ((hour v * 60 + minute v) * 60 + second v) * 1000000 + microsecond v)%Z) by lia.
  destruct C as [C|[-> C]].
  - pose proof (frac_r (hour u) (minute u) (second u) (microsecond u) Hh Hi Hs Hu). pose proof (frac_r (hour v) (minute v) (second v) (microsecond v) Hh' Hi' Hs' Hu'). assert (IZR d + 1 <= IZR e) by (replace (IZR d + 1) with (IZR (d + 1)) by (rewrite plus_IZR; reflexivity); apply IZR_le; lia). lra.
  - apply Rplus_le_compat_l. apply frac_mono; assumption.
Qed.
(** ...so two datetimes for the same instant get the same double... *)
Theorem C98_timezone_independent : forall t1 t2 j1 j2, valid_dt t1 -> valid_dt t2 -> fl_juliandate t1 = Ok j1 -> fl_juliandate t2 = Ok j2 ->
  instant t1 = instant t2 -> j1 = j2.
Proof. intros t1 t2 j1 j2 V1 V2 F1 F2 E. apply Rle_antisym; [apply (C98_monotone t1 t2)|apply (C98_monotone t2 t1)]; try assumption; lia. Qed.
(** ...and instants at least 81 microseconds apart (41 before the year 6771) are told apart, in the right order. *)
Theorem C98_resolution : forall t1 t2 j1 j2, valid_dt t1 -> valid_dt t2 -> fl_juliandate t1 = Ok j1 -> fl_juliandate t2 = Ok j2 ->
  (instant t1 + 81 <= instant t2 \/ instant t1 + 41 <= instant t2 /\ instant t2 <= instant (utc_at 6770 12 31 23 59 59 0))%Z -> j1 < j2.
Proof.
  intros t1 t2 j1 j2 V1 V2 F1 F2 L.
  destruct (proj2 (defined_same t1) (ex_intro _ j1 F1)) as [e1 E1]. destruct (proj2 (defined_same t2) (ex_intro _ j2 F2)) as [e2 E2].
  destruct (C98_accuracy t1 e1 j1 V1 E1 F1) as [A1 A2]. destruct (C98_accuracy t2 e2 j2 V2 E2 F2) as [B1 B2].
  pose proof (L_earth.juliandate_spec t1 V1) as S1. rewrite E1 in S1. destruct S1 as [_ S1]. pose proof (L_earth.juliandate_spec t2 V2) as S2. rewrite E2 in S2. destruct S2 as [_ S2].
  destruct L as [L|[L M]].
  - apply IZR_le in L. rewrite plus_IZR in L. assert (P1 : Rabs (j1 - e1) <= 40.3 / 86400000000) by lra. assert (P2 : Rabs (j2 - e2) <= 40.3 / 86400000000) by lra. apply Rabs_le_inv in P1, P2. lra.
  - assert (IM : instant (utc_at 6770 12 31 23 59 59 0) = 213640588799000000%Z) by (unfold instant, utc_at; cbn [year month day hour minute second microsecond tzinfo]; rewrite <- L_time.ymd2ord_day_number by lia; vm_compute; reflexivity).
    rewrite IM in M. apply IZR_le in L, M. rewrite plus_IZR in L. specialize (A2 ltac:(lra)). specialize (B2 ltac:(lra)). assert (P1 : Rabs (j1 - e1) <= 20.2 / 86400000000) by lra. assert (P2 : Rabs (j2 - e2) <= 20.2 / 86400000000) by lra. apply Rabs_le_inv in P1, P2. lra.
Qed.
(** At midnight, 6 h, noon and 18 h UTC the double is the exact Julian date. *)
Lemma frac_quarters k : (k = 0 \/ k = 6 \/ k = 12 \/ k = 18)%Z -> fl_day_fraction k 0 0 0 = day_fraction k 0 0 0.
Proof.
  assert (Z0 : double (IZR 0)) by (apply (double_int 0); reflexivity). assert (H0 : (((fl_add (fl_div (fl_add (fl_div (fl_add (rnd (IZR 0)) (fl_div (rnd (IZR 0)) 1000000)) 60) (rnd (IZR 0))) 60) (rnd (IZR k))) = rnd (rnd (IZR k))))).
  { unfold fl_add, fl_div. rewrite (rnd_id _ Z0). replace (0 / 1000000) with 0 by lra. rewrite (rnd_id _ Z0), Rplus_0_l, (rnd_id _ Z0). replace (0 / 60) with 0 by lra. rewrite (rnd_id _ Z0), Rplus_0_l, (rnd_id _ Z0). replace (0 / 60) with 0 by lra. rewrite (rnd_id _ Z0), Rplus_0_l. reflexivity. }
  intros K. unfold fl_day_fraction. rewrite H0. assert (DK : double (IZR k)) by (apply double_int; destruct K as [->|[->|[->| ->]]]; reflexivity). rewrite !(rnd_id _ DK). unfold fl_div, day_fraction.
  replace (IZR (((k * 60 + 0) * 60 + 0) * 1000000 + 0) / 86400000000) with (IZR k / 24) by (rewrite !Z.add_0_r, !mult_IZR; lra).
  apply rnd_id. destruct K as [->|[->|[->| ->]]]; [replace (0 / 24) with (IZR 0 / 4) by lra|replace (6 / 24) with (IZR 1 / 4) by lra|replace (12 / 24) with (IZR 2 / 4) by lra|replace (18 / 24) with (IZR 3 / 4) by lra]; apply quarter_d; reflexivity.
Qed.
Theorem C98_exact_quarters : forall t, valid_dt t -> (instant t mod 21600000000 = 0)%Z -> fl_juliandate t = juliandate t.
Proof.
  intros t V M. destruct (fl_juliandate t) as [jf|e] eqn:F.
  - destruct (proj2 (defined_same t) (ex_intro _ jf F)) as [j E]. rewrite E. f_equal. destruct (jd_shape t jf V F) as (u & _ & VU & TU & IU & -> & B). rewrite (exact_split t u j V E TU IU). rewrite <- IU, (instant_split u TU) in M. destruct VU as (_ & _ & _ & Hh & Hi & Hs & Hu & _).
    set (d := day_number _ _ _) in *. clearbody d. apply Z.mod_divide in M; [|lia]. destruct M as [q M].
    assert (K : (minute u = 0 /\ second u = 0 /\ microsecond u = 0 /\ (hour u = 0 \/ hour u = 6 \/ hour u = 12 \/ hour u = 18))%Z).
    { set (r := (q - 4 * d)%Z). assert (Q : (((hour u * 60 + minute u) * 60 + second u) * 1000000 + microsecond u = r * 21600000000)%Z) by (unfold r; lia). assert (RR : (r = 0 \/ r = 1 \/ r = 2 \/ r = 3)%Z) by lia. clear M. destruct RR as [->|[->|[->| ->]]]; lia. }
    destruct K as (-> & -> & -> & K). rewrite (frac_quarters _ K). apply rnd_id.
    assert (G : exists z, (Z.abs z < 2 ^ 53)%Z /\ IZR d + 1721424.5 + day_fraction (hour u) 0 0 0 = IZR z / 4).
    { exists (4 * d + 6885698 + hour u / 6)%Z. split; [Z.to_euclidean_division_equations; lia|]. assert (DF : day_fraction (hour u) 0 0 0 = IZR (hour u / 6) / 4) by (destruct K as [->|[->|[->| ->]]]; unfold day_fraction; match goal with |- IZR ?a / _ = IZR ?b / _ => let a' := eval vm_compute in a in let b' := eval vm_compute in b in change (IZR a' / 86400000000 = IZR b' / 4) end; lra). rewrite DF, !plus_IZR, mult_IZR. lra. }
    destruct G as (z & Z1 & ->). apply quarter_d, Z1.
  - pose proof (defined_same t) as D. unfold juliandate, fl_juliandate in *. destruct (ensure_utc t) as [u|e']; cbn [bind] in *; [|congruence]. destruct (if (month u <? 3)%Z then (year u - 1, month u + 12)%Z else (year u, month u)). discriminate.
Qed.
(** Against a claim of strict monotonicity (C22_strictly_increasing holds of exact arithmetic): 2024-01-01 00:00 UTC and 20 microseconds later get the same double. *)
Theorem C98_strict_refuted : exists t1 t2 j, valid_dt t1 /\ valid_dt t2 /\ (instant t1 + 20 = instant t2)%Z /\ fl_juliandate t1 = Ok j /\ fl_juliandate t2 = Ok j.
Proof.
  set (t1 := utc_at 2024 1 1 0 0 0 0). set (t2 := utc_at 2024 1 1 0 0 0 20).
  assert (V1 : valid_dt t1) by (vm_compute; intuition congruence). assert (V2 : valid_dt t2) by (vm_compute; intuition congruence).
  assert (I1 : instant t1 = 63839750400000000%Z) by (unfold t1, instant, utc_at; cbn [year month day hour minute second microsecond tzinfo]; rewrite <- L_time.ymd2ord_day_number by lia; vm_compute; reflexivity).
  assert (I2 : instant t2 = 63839750400000020%Z) by (unfold t2, instant, utc_at; cbn [year month day hour minute second microsecond tzinfo]; rewrite <- L_time.ymd2ord_day_number by lia; vm_compute; reflexivity).
  assert (RG : forall i, (63839750400000000 <= i <= 63839750400000020)%Z -> (first_instant <= i <= last_instant)%Z) by (intros i Hi; rewrite L_time.first_instant_eq, L_time.last_instant_eq; unfold DAY_US, MAXORDINAL; lia).
  destruct (proj2 (C98_defined t1 V1)) as [j1 F1]; [apply RG; lia|]. destruct (proj2 (C98_defined t2 V2)) as [j2 F2]; [apply RG; lia|].
  assert (L : j1 <= j2) by (apply (C98_monotone t1 t2); try assumption; lia).
  assert (J1 : j1 = 2460310.5). { pose proof (C98_exact_quarters t1 V1) as Q. rewrite I1 in Q. specialize (Q eq_refl). rewrite F1 in Q. pose proof (L_earth.juliandate_spec t1 V1) as S. rewrite <- Q in S. destruct S as [_ ->]. rewrite I1. lra. }
  assert (J2 : j2 = 2460310.5).
  { destruct (jd_shape t2 j2 V2 F2) as (u & _ & VU & TU & IU & EJ & B). destruct VU as (_ & _ & _ & Hh & Hi & Hs & Hu & _). rewrite (instant_split u TU), I2 in IU.
    pose proof (frac_r _ _ _ _ Hh Hi Hs Hu) as FR. pose proof (frac_err _ _ _ _ Hh Hi Hs Hu) as FE. apply Rabs_le_inv in FE. unfold day_fraction in FE.
    set (d := day_number _ _ _) in *. set (w := (((hour u * 60 + minute u) * 60 + second u) * 1000000 + microsecond u)%Z) in *. assert (W : (0 <= w < 86400000000)%Z) by (unfold w; lia). assert (DW : (d = 738886 /\ w = 20)%Z) by lia. destruct DW as [D1 W1]. rewrite D1 in EJ. rewrite W1 in FE. pose proof uu_pos as U0.
    set (f := fl_day_fraction _ _ _ _) in *. clearbody f. clear - EJ FR FE U0. rewrite EJ. unfold uu in *.
    unfold rnd. unfold round, scaled_mantissa, cexp. rewrite (mag_unique_pos radix2 (738886 + 1721424.5 + f) 22) by (change (bpow radix2 (22 - 1)) with 2097152; change (bpow radix2 22) with 4194304; lra).
    change (fexp64 22) with (-31)%Z. change (- -31)%Z with 31%Z. change (bpow radix2 31) with 2147483648.
    rewrite (Znearest_imp _ _ 5283476567752704%Z) by (apply Rabs_lt; lra). unfold F2R. cbn [Fnum Fexp]. change (bpow radix2 (-31)) with (/ 2147483648). lra. }
  exists t1, t2, 2460310.5. split; [exact V1|]. split; [exact V2|]. split; [lia|]. split; [rewrite F1, J1|rewrite F2, J2]; reflexivity.
Qed.
(** 2024-02-29 23:30 in a zone 5 h 30 min ahead of UTC is 18:00 UTC. *)
Example C98_hypotheses_met : let t := mkdatetime 2024 2 29 23 30 0 0 (Some 19800000000%Z) in valid_dt t /\ fl_juliandate t = Ok 2460370.25 /\ juliandate t = Ok 2460370.25.
Proof.
  cbv zeta. destruct C22_hypotheses_met as (V & V' & I & E). cbv zeta in *. split; [exact V|].
  assert (J : juliandate (mkdatetime 2024 2 29 23 30 0 0 (Some 19800000000%Z)) = Ok 2460370.25) by (rewrite <- E; apply C22_timezone_independent; assumption). split; [|exact J]. rewrite <- J. apply C98_exact_quarters; [exact V|].
  rewrite I. unfold instant, utc_at. cbn [year month day hour minute second microsecond tzinfo]. rewrite <- L_time.ymd2ord_day_number by lia. vm_compute. reflexivity.
Qed.
