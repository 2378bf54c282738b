(** Model of src/pymap3d/karney.py.

    Numbers are reals: fmod, the two-sum of [_sum_error] and the rounding trick
    of [_AngRound] are exact here (their floating-point counterparts are treated
    in M_float.v), there is no negative zero (copysign with a zero second
    argument is positive, which is what the code produces wherever it can be
    reached with +0.0), and inputs are finite (the isnan tests are false).
    The coefficient arrays C1a, C2a, C3a the code passes around and overwrites
    are returned by the functions that fill them. *)
From Verif Require Import PyMath M_ellipsoid M_time.
Open Scope R_scope.

(** karney.py:26-38.  2.220446049250313e-16 is 2^-52, whose root is 2^-26. *)
Definition k_tol0 : R := / 2 ^ 52.
Definition k_tiny : R := sqrt k_tol0.
Definition k_tol1 : R := 200 * k_tol0.
Definition k_tol2 : R := sqrt k_tol0.
Definition k_xthresh : R := 1000 * k_tol2.
Definition k_maxit1 : nat := 20.
Definition k_maxit2 : nat := (k_maxit1 + 10 + 1)%nat.
Definition nC1 : nat := 6.
Definition nC2 : nat := 6.
Definition nC3 : nat := 6.
Definition nC4 : nat := 6.

(** mathfun.copysign (numpy.copysign / math.copysign) on reals *)
Definition copysign (x y : R) : R := if Rlt_dec y 0 then - Rabs x else Rabs x.
(** mathfun.fmod: remainder with the sign of x *)
Definition fmod (x m : R) : R := x - m * IZR (py_int (x / m)).

(** karney.py:49-55 *)
Definition sum_error (u v : R) : R * R :=
  let s := u + v in
  let up := s - v in
  let vpp := s - up in
  let up := up - u in
  let vpp := vpp - v in
  (s, - (up + vpp)).

(** karney.py:58-64 *)
Definition AngNormalize (x : R) : R :=
  let y := fmod x 360.0 in
  if Rle_dec y (-180) then y + 360.0
  else if Rlt_dec 180 y then y - 360.0
  else y.

(** karney.py:67-73 *)
Definition AngRound (x : R) : R :=
  let z := 1 / 16.0 in
  let y := Rabs x in
  let y := if Rlt_dec y z then let y := z - y in z - y else y in
  copysign y x.

(** karney.py:76-80 *)
Definition AngDiff (x y : R) : R * R :=
  let '(d, t) := sum_error (- x) y in
  let d := AngNormalize d in
  sum_error (if Req_EM_T (Rabs d) 180 then copysign 180.0 (- t) else d) t.

(** karney.py:83-100; the last two tests only turn -0.0 into 0.0 *)
Definition sincosd (x : R) : R * R :=
  let r := fmod x 360.0 in
  let q := round_half_even (r / 90.0) in
  let r := r - 90.0 * IZR q in
  let r := radians r in
  let s := sin r in
  let c := cos r in
  let q := (q mod 4)%Z in
  if (q =? 1)%Z then (c, - s)
  else if (q =? 2)%Z then (- s, - c)
  else if (q =? 3)%Z then (- c, s)
  else (s, c).

(** karney.py:103-118 *)
Definition atan2d (y x : R) : R :=
  let sw := if Rlt_dec (Rabs x) (Rabs y) then true else false in
  let x' := if sw then y else x in
  let y' := if sw then x else y in
  let ng := if Rlt_dec x' 0 then true else false in
  let x'' := if ng then - x' else x' in
  let ang := degrees (atan2 y' x'') in
  match sw, ng with
  | false, false => ang
  | false, true => copysign 180.0 y' - ang
  | true, false => 90.0 - ang
  | true, true => -90.0 + ang
  end.

(** karney.py:121-123; r = 0 does not occur for finite inputs on the paths that
    are executed *)
Definition norm2 (x y : R) : R * R := let r := hypot x y in (x / r, y / r).

(** karney.py:126-130 *)
Fixpoint polyval_loop (count : nat) (p : nat -> R) (i : nat) (x y : R) : R :=
  match count with
  | O => y
  | S k => polyval_loop k p (S i) x (y * x + p i)
  end.
Definition polyval (N : nat) (p : nat -> R) (s : nat) (x : R) : R :=
  polyval_loop N p (S s) x (p s).

(** karney.py:136-209 *)
Definition A1coeff : list Z := [1; 4; 64; 0; 256]%Z.
Definition C1coeff : list Z :=
  [-1; 6; -16; 32;
   -9; 64; -128; 2048;
   9; -16; 768;
   3; -5; 512;
   -7; 1280;
   -7; 2048]%Z.
Definition C1pcoeff : list Z :=
  [205; -432; 768; 1536;
   4005; -4736; 3840; 12288;
   -225; 116; 384;
   -7173; 2695; 7680;
   3467; 7680;
   38081; 61440]%Z.
Definition A2coeff : list Z := [-11; -28; -192; 0; 256]%Z.
Definition C2coeff : list Z :=
  [1; 2; 16; 32;
   35; 64; 384; 2048;
   15; 80; 768;
   7; 35; 512;
   63; 1280;
   77; 2048]%Z.
Definition A3coeff : list Z :=
  [-3; 128;
   -2; -3; 64;
   -1; -3; -1; 16;
   3; -1; -2; 8;
   1; -1; 2;
   1; 1]%Z.
Definition C3coeff : list Z :=
  [3; 128;
   2; 5; 128;
   -1; 3; 3; 64;
   -1; 0; 1; 8;
   -1; 1; 4;
   5; 256;
   1; 3; 128;
   -3; -2; 3; 64;
   1; -3; 2; 32;
   7; 512;
   -10; 9; 384;
   5; -9; 5; 192;
   7; 512;
   -14; 7; 512;
   21; 2560]%Z.
Definition C4coeff : list Z :=
  [97; 15015;
   1088; 156; 45045;
   -224; -4784; 1573; 45045;
   -10656; 14144; -4576; -858; 45045;
   64; 624; -4576; 6864; -3003; 15015;
   100; 208; 572; 3432; -12012; 30030; 45045;
   1; 9009;
   -2944; 468; 135135;
   5792; 1040; -1287; 135135;
   5952; -11648; 9152; -2574; 135135;
   -64; -624; 4576; -6864; 3003; 135135;
   8; 10725;
   1856; -936; 225225;
   -8448; 4992; -1144; 225225;
   -1440; 4160; -4576; 1716; 225225;
   -136; 63063;
   1024; -208; 105105;
   3584; -3328; 1144; 315315;
   -128; 135135;
   -2560; 832; 405405;
   128; 99099]%Z.
Definition tbl (t : list Z) (i : nat) : R := IZR (nth i t 0%Z).
Definition arr (l : list R) (i : nat) : R := nth i l 0.

(** karney.py:212-215, 240-243 *)
Definition A1m1f (eps : R) : R :=
  let eps2 := eps * eps in
  let t := polyval 3 (tbl A1coeff) 0 eps2 / tbl A1coeff 4 in
  (t + eps) / (1 - eps).
Definition A2m1f (eps : R) : R :=
  let eps2 := eps * eps in
  let t := polyval 3 (tbl A2coeff) 0 eps2 / tbl A2coeff 4 in
  (t - eps) / (1 + eps).

(** karney.py:218-226, 229-237, 246-254: the loop over l = n-count+1 .. n; the
    result is the array with c[0] = 0.0 in front *)
Fixpoint series_loop (count n : nat) (t : list Z) (o : nat) (d eps eps2 : R) : list R :=
  match count with
  | O => nil
  | S k =>
      let l := (n - k)%nat in
      let m := ((n - l) / 2)%nat in
      (d * polyval m (tbl t) o eps2 / tbl t (o + m + 1))
        :: series_loop k n t (o + (m + 2)) (d * eps) eps eps2
  end.
Definition series_coeffs (n : nat) (t : list Z) (eps : R) : list R :=
  0 :: series_loop n n t 0 eps eps (eps * eps).
Definition C1f (eps : R) : list R := series_coeffs nC1 C1coeff eps.
Definition C1pf (eps : R) : list R := series_coeffs nC1 C1pcoeff eps.
Definition C2f (eps : R) : list R := series_coeffs nC2 C2coeff eps.

(** karney.py:257-273.  [pairs] is n // 2 once n has been made even. *)
Fixpoint clenshaw_loop (pairs : nat) (ar : R) (c : nat -> R) (y0 y1 : R) : R * R :=
  match pairs with
  | O => (y0, y1)
  | S k =>
      let n := (2 * pairs)%nat in
      let y1 := ar * y0 - y1 + c n in
      let y0 := ar * y1 - y0 + c (n - 1)%nat in
      clenshaw_loop k ar c y0 y1
  end.
Definition SinCosSeries (sinp : bool) (sinx cosx : R) (c : nat -> R) (n : nat) : R :=
  let ar := 2.0 * (cosx - sinx) * (cosx + sinx) in
  let '(y0, y1) := if Nat.odd n then (c n, 0.0) else (0.0, 0.0) in
  let '(y0, y1) := clenshaw_loop (n / 2) ar c y0 y1 in
  if sinp then 2.0 * sinx * cosx * y0 else cosx * (y0 - y1).

(** x ** (1.0 / 3.0) for x >= 0 *)
Definition cbrt (x : R) : R := if Req_EM_T x 0 then 0 else Rpower x (1 / 3).
(** karney.py:276-300 *)
Definition Astroid (x y : R) : R :=
  let p := x * x in
  let q := y * y in
  let r := (p + q - 1.0) / 6.0 in
  if (if Req_EM_T q 0 then if Rle_dec r 0 then true else false else false) then 0.0
  else
    let S := p * q / 4.0 in
    let r2 := r * r in
    let r3 := r * r2 in
    let disc := S * (S + 2.0 * r3) in
    let u := r in
    let u :=
      if Rle_dec 0 disc then
        let T3 := S + r3 in
        let T3 := T3 + (if Rlt_dec T3 0 then - sqrt disc else sqrt disc) in
        let T := if Rle_dec 0 T3 then cbrt T3 else - cbrt (- T3) in
        u + (T + (if Req_EM_T T 0 then 0.0 else r2 / T))
      else
        let ang := atan2 (sqrt (- disc)) (- (S + r3)) in
        u + 2.0 * r * cos (ang / 3.0) in
    let v := sqrt (u * u + q) in
    let uv := if Rle_dec 0 u then u + v else q / (v - u) in
    let w := (uv - q) / (2.0 * v) in
    uv / (sqrt (uv + w * w) + w).

(** karney.py:306-367: the fields of [_Geodesic] that are read *)
Record Geodesic := mkGeodesic {
  gd_a : R; gd_f : R; gd_f1 : R; gd_e2 : R; gd_ep2 : R; gd_n : R; gd_b : R; gd_c2 : R;
  gd_A3x : list R; gd_C3x : list R; gd_C4x : list R }.

(** karney.py:334-367: one entry per row of the table, rows of m + 2 numbers *)
Fixpoint table_rows (t : list Z) (ms : list nat) (o : nat) (x : R) : list R :=
  match ms with
  | nil => nil
  | m :: ms' => (polyval m (tbl t) o x / tbl t (o + m + 1)) :: table_rows t ms' (o + (m + 2)) x
  end.
(** range(hi - 1, lo - 1, -1) *)
Definition down_range (hi lo : nat) : list nat := rev (seq lo (hi - lo)).
Definition compute_A3x (n : R) : list R :=
  table_rows A3coeff (map (fun j => Nat.min (nC3 - j - 1) j) (down_range nC3 0)) 0 n.
Definition compute_C3x (n : R) : list R :=
  table_rows C3coeff
    (flat_map (fun l => map (fun j => Nat.min (nC3 - j - 1) j) (down_range nC3 l)) (seq 1 (nC3 - 1))) 0 n.
Definition compute_C4x (n : R) : list R :=
  table_rows C4coeff (flat_map (fun l => map (fun j => (nC4 - j - 1)%nat) (down_range nC4 l)) (seq 0 nC4)) 0 n.

(** karney.py:308-332 *)
Definition geodesic_init (a f : R) : Geodesic :=
  let f1 := 1.0 - f in
  let e2 := f * (2.0 - f) in
  let ep2 := e2 / f1 ^ 2 in
  let n := f / (2.0 - f) in
  let b := a * f1 in
  let c2 :=
    if Req_EM_T e2 0 then a ^ 2
    else if Rlt_dec 0 e2 then
      let e := sqrt e2 in (a ^ 2 + b ^ 2 * atanh e / e) / 2.0
    else
      let e := sqrt (- e2) in (a ^ 2 + b ^ 2 * atan e / e) / 2.0 in
  mkGeodesic a f f1 e2 ep2 n b c2 (compute_A3x n) (compute_C3x n) (compute_C4x n).
(** karney.py:831-832 (the cache itself is modelled in M_caches.v) *)
Definition get_geodesic (ell : option Ellipsoid) : Geodesic :=
  let e := resolve_ellipsoid ell in geodesic_init (semimajor_axis e) (flattening e).

(** karney.py:369-388 *)
Definition A3f (g : Geodesic) (eps : R) : R := polyval (nC3 - 1) (arr (gd_A3x g)) 0 eps.
Fixpoint C3f_loop (count l : nat) (x : list R) (o : nat) (mult eps : R) : list R :=
  match count with
  | O => nil
  | S k =>
      let mult := mult * eps in
      let m := (nC3 - 1 - l)%nat in
      (mult * polyval m (arr x) o eps) :: C3f_loop k (S l) x (o + (m + 1)) mult eps
  end.
Definition C3f (g : Geodesic) (eps : R) : list R := 0 :: C3f_loop (nC3 - 1) 1 (gd_C3x g) 0 1.0 eps.
Fixpoint C4f_loop (count l : nat) (x : list R) (o : nat) (mult eps : R) : list R :=
  match count with
  | O => nil
  | S k =>
      let m := (nC4 - l - 1)%nat in
      (mult * polyval m (arr x) o eps) :: C4f_loop k (S l) x (o + (m + 1)) (mult * eps) eps
  end.
Definition C4f (g : Geodesic) (eps : R) : list R := C4f_loop nC4 0 (gd_C4x g) 0 1.0 eps.

(** karney.py:390-427 with outmask = _OUT: (s12b, m12b, m0, M12, M21) *)
Definition Lengths_out (g : Geodesic) (eps sig12 ssig1 csig1 dn1 ssig2 csig2 dn2 cbet1 cbet2 : R)
  : R * R * R * R * R :=
  let A1 := A1m1f eps in
  let C1a := arr (C1f eps) in
  let A2 := A2m1f eps in
  let C2a := arr (C2f eps) in
  let m0x := A1 - A2 in
  let A2 := 1.0 + A2 in
  let A1 := 1.0 + A1 in
  let B1 := SinCosSeries true ssig2 csig2 C1a nC1 - SinCosSeries true ssig1 csig1 C1a nC1 in
  let s12b := A1 * (sig12 + B1) in
  let B2 := SinCosSeries true ssig2 csig2 C2a nC2 - SinCosSeries true ssig1 csig1 C2a nC2 in
  let J12 := m0x * sig12 + (A1 * B1 - A2 * B2) in
  let m0 := m0x in
  let m12b := dn2 * (csig1 * ssig2) - dn1 * (ssig1 * csig2) - csig1 * csig2 * J12 in
  let csig12 := csig1 * csig2 + ssig1 * ssig2 in
  let t := gd_ep2 g * (cbet1 - cbet2) * (cbet1 + cbet2) / (dn1 + dn2) in
  let M12 := csig12 + (t * ssig2 - csig2 * J12) * ssig1 / dn1 in
  let M21 := csig12 - (t * ssig1 - csig1 * J12) * ssig2 / dn2 in
  (s12b, m12b, m0, M12, M21).
(** karney.py:390-427 with outmask = _REDUCEDLENGTH: (m12b, m0) *)
Definition Lengths_reduced (eps sig12 ssig1 csig1 dn1 ssig2 csig2 dn2 : R) : R * R :=
  let A1 := A1m1f eps in
  let C1a := arr (C1f eps) in
  let A2 := A2m1f eps in
  let C2a := arr (C2f eps) in
  let m0x := A1 - A2 in
  let A2 := 1.0 + A2 in
  let A1 := 1.0 + A1 in
  let C2b := fun l => A1 * C1a l - A2 * C2a l in
  let J12 := m0x * sig12 + (SinCosSeries true ssig2 csig2 C2b nC1 - SinCosSeries true ssig1 csig1 C2b nC1) in
  (dn2 * (csig1 * ssig2) - dn1 * (ssig1 * csig2) - csig1 * csig2 * J12, m0x).

(** karney.py:467, 546, 757 *)
Definition eps_of (k2 : R) : R := k2 / (2.0 * (1.0 + sqrt (1.0 + k2)) + k2).

(** karney.py:429-507.  Only salp1 and calp1 of the returned tuple depend on
    anything: sig12 is always -1.0 and salp2, calp2 are nan. *)
Definition InverseStart (g : Geodesic) (sbet1 cbet1 dn1 sbet2 cbet2 dn2 lam12 slam12 clam12 : R)
  : R * R :=
  let f := gd_f g in
  let sbet12 := sbet2 * cbet1 - cbet2 * sbet1 in
  let cbet12 := cbet2 * cbet1 + sbet2 * sbet1 in
  let sbet12a := sbet2 * cbet1 + cbet2 * sbet1 in
  let shortline :=
    if Rle_dec 0 cbet12 then
      if Rlt_dec sbet12 0.5 then if Rlt_dec (cbet2 * lam12) 0.5 then true else false else false
    else false in
  let '(somg12, comg12) :=
    if shortline : bool then
      let sbetm2 := (sbet1 + sbet2) ^ 2 in
      let sbetm2 := sbetm2 / (sbetm2 + (cbet1 + cbet2) ^ 2) in
      let dnm := sqrt (1.0 + gd_ep2 g * sbetm2) in
      let omg12 := lam12 / (gd_f1 g * dnm) in
      (sin omg12, cos omg12)
    else (slam12, clam12) in
  let salp1 := cbet2 * somg12 in
  let calp1 :=
    if Rle_dec 0 comg12 then sbet12 + cbet2 * sbet1 * somg12 ^ 2 / (1.0 + comg12)
    else sbet12a - cbet2 * sbet1 * somg12 ^ 2 / (1.0 - comg12) in
  let ssig12 := hypot salp1 calp1 in
  let csig12 := sbet1 * sbet2 + cbet1 * cbet2 * comg12 in
  let ok := if Rle_dec 0 csig12 then true
            else if Rle_dec (6 * Rabs f * PI * cbet1 ^ 2) ssig12 then true else false in
  let '(salp1, calp1) :=
    if ok : bool then (salp1, calp1)
    else
      let '(x, y, lamscale) :=
        if Rle_dec 0 f then
          let k2 := sbet1 ^ 2 * gd_ep2 g in
          let eps := eps_of k2 in
          let lamscale := f * cbet1 * A3f g eps * PI in
          let betscale := lamscale * cbet1 in
          ((lam12 - PI) / lamscale, sbet12a / betscale, lamscale)
        else
          let cbet12a := cbet2 * cbet1 - sbet2 * sbet1 in
          let bet12a := atan2 sbet12a cbet12a in
          let '(m12b, m0) := Lengths_reduced (gd_n g) (PI + bet12a) sbet1 (- cbet1) dn1 sbet2 cbet2 dn2 in
          let x := -1.0 + m12b / (cbet1 * cbet2 * m0 * PI) in
          let betscale := if Rlt_dec x (-0.01) then sbet12a / x else - f * cbet1 ^ 2 * PI in
          let lamscale := betscale / cbet1 in
          (x, (lam12 - PI) / lamscale, lamscale) in
      if (if Rlt_dec y (- k_tol1) then if Rlt_dec (-1.0 - k_xthresh) x then true else false else false) then
        if Rle_dec 0 f then
          let salp1 := Rmin 1.0 (- x) in
          (salp1, - sqrt (1.0 - salp1 ^ 2))
        else
          let calp1 := Rmax (-1.0) x in
          (sqrt (1.0 - calp1 ^ 2), calp1)
      else
        let k := Astroid x y in
        let omg12a := lamscale * (if Rle_dec 0 f then - x * k / (1.0 + k) else - y * (1.0 + k) / k) in
        let somg12 := sin omg12a in
        let comg12 := - cos omg12a in
        (cbet2 * somg12, sbet12a - cbet2 * sbet1 * somg12 ^ 2 / (1.0 - comg12)) in
  if Rlt_dec 0 salp1 then norm2 salp1 calp1 else (1.0, 0.0).

(** Result of [_Lambda12]; [l_dlam12] is meaningful only when diffp. *)
Record lambda12 := mkLambda12 {
  l_lam12 : R; l_salp2 : R; l_calp2 : R; l_sig12 : R;
  l_ssig1 : R; l_csig1 : R; l_ssig2 : R; l_csig2 : R; l_eps : R;
  l_somg12 : R; l_comg12 : R; l_dlam12 : R }.
(** karney.py:509-566.  dlam12 is nan when diffp is false; it is not read then. *)
Definition Lambda12 (g : Geodesic) (sbet1 cbet1 dn1 sbet2 cbet2 dn2 salp1 calp1 slam120 clam120 : R)
    (diffp : bool) : lambda12 :=
  let calp1 := if Req_EM_T sbet1 0 then if Req_EM_T calp1 0 then - k_tiny else calp1 else calp1 in
  let salp0 := salp1 * cbet1 in
  let calp0 := hypot calp1 (salp1 * sbet1) in
  let somg1 := salp0 * sbet1 in
  let comg1 := calp1 * cbet1 in
  let '(ssig1, csig1) := norm2 sbet1 comg1 in
  let salp2 := if Req_EM_T cbet2 cbet1 then salp1 else salp0 / cbet2 in
  let calp2 :=
    if Req_EM_T cbet2 cbet1 then
      (if Req_EM_T (Rabs sbet2) (- sbet1) then Rabs calp1
       else sqrt ((calp1 * cbet1) ^ 2 + (sbet1 - sbet2) * (sbet1 + sbet2)) / cbet2)
    else sqrt ((calp1 * cbet1) ^ 2 + (cbet2 - cbet1) * (cbet1 + cbet2)) / cbet2 in
  let somg2 := salp0 * sbet2 in
  let comg2 := calp2 * cbet2 in
  let '(ssig2, csig2) := norm2 sbet2 comg2 in
  let sig12 := atan2 (Rmax 0.0 (csig1 * ssig2 - ssig1 * csig2)) (csig1 * csig2 + ssig1 * ssig2) in
  let somg12 := Rmax 0.0 (comg1 * somg2 - somg1 * comg2) in
  let comg12 := comg1 * comg2 + somg1 * somg2 in
  let eta := atan2 (somg12 * clam120 - comg12 * slam120) (comg12 * clam120 + somg12 * slam120) in
  let k2 := calp0 ^ 2 * gd_ep2 g in
  let eps := eps_of k2 in
  let C3a := arr (C3f g eps) in
  let B312 := SinCosSeries true ssig2 csig2 C3a (nC3 - 1) - SinCosSeries true ssig1 csig1 C3a (nC3 - 1) in
  let A3 := A3f g eps in
  let domg12 := - gd_f g * A3 * salp0 * (sig12 + B312) in
  let lam12 := eta + domg12 in
  let dlam12 :=
    if diffp then
      if Req_EM_T calp2 0 then -2.0 * gd_f1 g * dn1 / sbet1
      else fst (Lengths_reduced eps sig12 ssig1 csig1 dn1 ssig2 csig2 dn2) * (gd_f1 g / (calp2 * cbet2))
    else 0 in
  mkLambda12 lam12 salp2 calp2 sig12 ssig1 csig1 ssig2 csig2 eps somg12 comg12 dlam12.

(** karney.py:671-712: state (salp1, calp1, salp1a, calp1a, salp1b, calp1b, tripb);
    [fuel] = 31 - numit.  The result is the last (salp1, calp1) used or computed
    and the last [_Lambda12] result. *)
Record nstate := mkNstate {
  n_salp1 : R; n_calp1 : R; n_salp1a : R; n_calp1a : R; n_salp1b : R; n_calp1b : R; n_tripb : bool }.
(** karney.py:688-693 *)
Definition bracket (early : bool) (v : R) (s : nstate) : nstate :=
  let t := n_calp1 s / n_salp1 s in
  if (if Rlt_dec 0 v then (early || if Rlt_dec (n_calp1b s / n_salp1b s) t then true else false)%bool else false) then
    mkNstate (n_salp1 s) (n_calp1 s) (n_salp1a s) (n_calp1a s) (n_salp1 s) (n_calp1 s) (n_tripb s)
  else if (if Rlt_dec v 0 then (early || if Rlt_dec t (n_calp1a s / n_salp1a s) then true else false)%bool else false) then
    mkNstate (n_salp1 s) (n_calp1 s) (n_salp1 s) (n_calp1 s) (n_salp1b s) (n_calp1b s) (n_tripb s)
  else s.
(** karney.py:695-705: the Newton step, if it is taken *)
Definition newton (early : bool) (v dlam12 : R) (s : nstate) : option nstate :=
  if (early && if Req_EM_T dlam12 0 then false else true)%bool then
    let dalp1 := - v / dlam12 in
    let sdalp1 := sin dalp1 in
    let cdalp1 := cos dalp1 in
    let nsalp1 := n_salp1 s * cdalp1 + n_calp1 s * sdalp1 in
    if Rlt_dec 0 nsalp1 then
      let calp1 := n_calp1 s * cdalp1 - n_salp1 s * sdalp1 in
      let '(salp1, calp1) := norm2 nsalp1 calp1 in
      Some (mkNstate salp1 calp1 (n_salp1a s) (n_calp1a s) (n_salp1b s) (n_calp1b s)
              (if Rle_dec (Rabs v) (16 * k_tol0) then true else false))
    else None
  else None.
(** karney.py:707-712: the bisection step and its exit test *)
Definition bisect (s : nstate) : nstate * bool :=
  let salp1 := (n_salp1a s + n_salp1b s) / 2.0 in
  let calp1 := (n_calp1a s + n_calp1b s) / 2.0 in
  let '(salp1, calp1) := norm2 salp1 calp1 in
  (mkNstate salp1 calp1 (n_salp1a s) (n_calp1a s) (n_salp1b s) (n_calp1b s) false,
   if Rlt_dec (Rabs (n_salp1a s - n_salp1b s)) k_tol0 then
     if Rlt_dec (Rabs (n_calp1a s - n_calp1b s)) k_tol0 then true else false
   else false).
Fixpoint newton_loop (fuel : nat) (eval : R -> R -> bool -> lambda12) (s : nstate) (last : lambda12)
  : R * R * lambda12 :=
  match fuel with
  | O => (n_salp1 s, n_calp1 s, last)
  | S k =>
      let numit := (k_maxit2 - fuel)%nat in
      let early := Nat.ltb numit k_maxit1 in
      let L := eval (n_salp1 s) (n_calp1 s) early in
      let v := l_lam12 L in
      if (n_tripb s || if Rle_dec ((if early then 8 else 1) * k_tol0) (Rabs v) then false else true)%bool
      then (n_salp1 s, n_calp1 s, L)
      else
        let s := bracket early v s in
        match newton early v (l_dlam12 L) s with
        | Some s' => newton_loop k eval s' L
        | None =>
            let '(s', stop) := bisect s in
            if stop : bool then (n_salp1 s', n_calp1 s', L) else newton_loop k eval s' L
        end
  end.
Definition no_lambda : lambda12 := mkLambda12 0 0 0 0 0 0 0 0 0 0 0 0.

(** karney.py:592-604: reduced latitude pair *)
Definition reduced (g : Geodesic) (lat : R) : R * R :=
  let '(sbet, cbet) := sincosd lat in
  let sbet := sbet * gd_f1 g in
  let '(sbet, cbet) := norm2 sbet cbet in
  (sbet, Rmax k_tiny cbet).

(** karney.py:606-719: the canonical problem (|lat2| <= -lat1, lon12 >= 0):
    (s12x, salp1, calp1, salp2, calp2) *)
Definition Inverse_core (g : Geodesic) (lat1 sbet1 cbet1 sbet2 cbet2 lon12 lon12s lam12 slam12 clam12 : R)
  : R * (R * R) * (R * R) :=
  let dn1 := sqrt (1.0 + gd_ep2 g * sbet1 ^ 2) in
  let dn2 := sqrt (1.0 + gd_ep2 g * sbet2 ^ 2) in
  let meridian := if Req_EM_T lat1 (-90) then true else if Req_EM_T slam12 0 then true else false in
  let mres :=
    if meridian : bool then
      let calp1 := clam12 in
      let salp1 := slam12 in
      let calp2 := 1.0 in
      let salp2 := 0.0 in
      let ssig1 := sbet1 in
      let csig1 := calp1 * cbet1 in
      let ssig2 := sbet2 in
      let csig2 := calp2 * cbet2 in
      let sig12 := atan2 (Rmax 0.0 (csig1 * ssig2 - ssig1 * csig2)) (csig1 * csig2 + ssig1 * ssig2) in
      let '(s12x, m12x, _, _, _) :=
        Lengths_out g (gd_n g) sig12 ssig1 csig1 dn1 ssig2 csig2 dn2 cbet1 cbet2 in
      if (if Rlt_dec sig12 1 then true else if Rle_dec 0 m12x then true else false)
      then Some (s12x * gd_b g, (salp1, calp1), (salp2, calp2))
      else None
    else None in
  match mres with
  | Some r => r
  | None =>
      if (if Req_EM_T sbet1 0 then
            if Rle_dec (gd_f g) 0 then true else if Rle_dec (gd_f g * 180) lon12s then true else false
          else false)
      then (gd_a g * lam12, (1.0, 0.0), (1.0, 0.0))
      else
        let '(salp1, calp1) := InverseStart g sbet1 cbet1 dn1 sbet2 cbet2 dn2 lam12 slam12 clam12 in
        let '(salp1, calp1, L) :=
          newton_loop k_maxit2
            (fun salp1 calp1 diffp => Lambda12 g sbet1 cbet1 dn1 sbet2 cbet2 dn2 salp1 calp1 slam12 clam12 diffp)
            (mkNstate salp1 calp1 k_tiny 1.0 k_tiny (-1.0) false) no_lambda in
        let '(s12x, _, _, _, _) :=
          Lengths_out g (l_eps L) (l_sig12 L) (l_ssig1 L) (l_csig1 L) dn1 (l_ssig2 L) (l_csig2 L) dn2 cbet1 cbet2 in
        (s12x * gd_b g, (salp1, calp1), (l_salp2 L, l_calp2 L))
  end.

(** karney.py:568-604, 721-733 *)
Definition Inverse (g : Geodesic) (lat1 lon1 lat2 lon2 : R) : R * R * R :=
  let '(lon12, lon12s) := AngDiff lon1 lon2 in
  let lonsign := if Rle_dec 0 lon12 then 1.0 else -1.0 in
  let lon12 := lonsign * AngRound lon12 in
  let lon12s := AngRound ((180.0 - lon12) - lonsign * lon12s) in
  let lam12 := radians lon12 in
  let '(slam12, clam12) :=
    if Rlt_dec 90 lon12 then let '(s, c) := sincosd lon12s in (s, - c) else sincosd lon12 in
  let lat1 := AngRound (AngNormalize lat1) in
  let lat2 := AngRound lat2 in
  let swapp := if Rlt_dec (Rabs lat1) (Rabs lat2) then -1.0 else 1.0 in
  let lonsign := if Rlt_dec swapp 0 then lonsign * -1.0 else lonsign in
  let '(lat1, lat2) := if Rlt_dec swapp 0 then (lat2, lat1) else (lat1, lat2) in
  let latsign := if Rlt_dec lat1 0 then 1.0 else -1.0 in
  let lat1 := lat1 * latsign in
  let lat2 := lat2 * latsign in
  let '(sbet1, cbet1) := reduced g lat1 in
  let '(sbet2, cbet2) := reduced g lat2 in
  let sbet2 := if Rlt_dec cbet1 (- sbet1) then
                 if Req_EM_T cbet2 cbet1 then (if Rlt_dec sbet2 0 then sbet1 else - sbet1) else sbet2
               else sbet2 in
  let '(s12x, (salp1, calp1), (salp2, calp2)) :=
    Inverse_core g lat1 sbet1 cbet1 sbet2 cbet2 lon12 lon12s lam12 slam12 clam12 in
  let '(salp1, salp2) := if Rlt_dec swapp 0 then (salp2, salp1) else (salp1, salp2) in
  let '(calp1, calp2) := if Rlt_dec swapp 0 then (calp2, calp1) else (calp1, calp2) in
  let salp1 := salp1 * (swapp * lonsign) in
  let calp1 := calp1 * (swapp * latsign) in
  let salp2 := salp2 * (swapp * lonsign) in
  let calp2 := calp2 * (swapp * latsign) in
  (s12x, atan2d salp1 calp1, atan2d salp2 calp2).

(** karney.py:759-791: arc length on the auxiliary sphere *)
Definition Direct_sig12 (g : Geodesic) (k2 eps ssig1 csig1 s12 : R) : R :=
  let A1 := A1m1f eps in
  let C1a := arr (C1f eps) in
  let C1pa := arr (C1pf eps) in
  let A1p1 := 1.0 + A1 in
  let B11 := SinCosSeries true ssig1 csig1 C1a nC1 in
  let s_B11 := sin B11 in
  let c_B11 := cos B11 in
  let stau1 := ssig1 * c_B11 + csig1 * s_B11 in
  let ctau1 := csig1 * c_B11 - ssig1 * s_B11 in
  let tau12 := s12 / (gd_b g * A1p1) in
  let s_tau12 := sin tau12 in
  let c_tau12 := cos tau12 in
  let stau2 := stau1 * c_tau12 + ctau1 * s_tau12 in
  let ctau2 := ctau1 * c_tau12 - stau1 * s_tau12 in
  let B12 := - SinCosSeries true stau2 ctau2 C1pa nC1 in
  let sig12 := tau12 - (B12 - B11) in
  let ssig12 := sin sig12 in
  let csig12 := cos sig12 in
  if Rlt_dec 0.01 (Rabs (gd_f g)) then
    let ssig2 := ssig1 * csig12 + csig1 * ssig12 in
    let csig2 := csig1 * csig12 - ssig1 * ssig12 in
    let B12 := SinCosSeries true ssig2 csig2 C1a nC1 in
    let serr := (1.0 + A1) * (sig12 + (B12 - B11)) - s12 / gd_b g in
    sig12 - serr / sqrt (1.0 + k2 * ssig2 ^ 2)
  else sig12.

(** karney.py:782-825: the end point *)
Definition Direct_end (g : Geodesic) (lon1 eps salp0 calp0 ssig1 csig1 somg1 comg1 sig12 : R) : R * R * R :=
  let ssig12 := sin sig12 in
  let csig12 := cos sig12 in
  let ssig2 := ssig1 * csig12 + csig1 * ssig12 in
  let csig2 := csig1 * csig12 - ssig1 * ssig12 in
  let sbet2 := calp0 * ssig2 in
  let cbet2 := hypot salp0 (calp0 * csig2) in
  let zero := if Req_EM_T cbet2 0 then true else false in
  let cbet2 := if zero : bool then k_tiny else cbet2 in
  let csig2 := if zero : bool then k_tiny else csig2 in
  let salp2 := salp0 in
  let calp2 := calp0 * csig2 in
  let somg2 := salp0 * ssig2 in
  let comg2 := csig2 in
  let C3a := arr (C3f g eps) in
  let A3c := A3f g eps in
  let B31 := SinCosSeries true ssig1 csig1 C3a (nC3 - 1) in
  let B32 := SinCosSeries true ssig2 csig2 C3a (nC3 - 1) in
  let E := copysign 1.0 salp0 in
  let omg12 := E * (sig12 - (atan2 ssig2 csig2 - atan2 ssig1 csig1)
                    + (atan2 (E * somg2) comg2 - atan2 (E * somg1) comg1)) in
  let lam12 := omg12 - gd_f g * A3c * salp0 * (sig12 + (B32 - B31)) in
  let lon12 := degrees lam12 in
  let lat2 := atan2d sbet2 (gd_f1 g * cbet2) in
  let lon2 := AngNormalize (lon1 + lon12) in
  let azi2 := atan2d salp2 calp2 in
  (lat2, lon2, azi2).

(** karney.py:749-754: (0, 1) instead of norm2(0, 0) *)
Definition sig_pair (ssig1 csig1 : R) : R * R :=
  if (if Req_EM_T ssig1 0 then if Req_EM_T csig1 0 then true else false else false)
  then (0.0, 1.0) else norm2 ssig1 csig1.

(** karney.py:735-757 *)
Definition Direct (g : Geodesic) (lat1 lon1 azi1 s12 : R) : R * R * R :=
  let '(salp1, calp1) := sincosd (AngNormalize azi1) in
  let '(sbet1, cbet1) := reduced g (AngRound lat1) in
  let salp0 := salp1 * cbet1 in
  let calp0 := hypot calp1 (salp1 * sbet1) in
  let somg1 := salp0 * sbet1 in
  let comg1 := calp1 * cbet1 in
  let '(ssig1, csig1) := sig_pair sbet1 comg1 in
  let k2 := calp0 ^ 2 * gd_ep2 g in
  let eps := eps_of k2 in
  let sig12 := Direct_sig12 g k2 eps ssig1 csig1 s12 in
  Direct_end g lon1 eps salp0 calp0 ssig1 csig1 somg1 comg1 sig12.

(** karney.py:838-879 *)
Definition geodesic_inverse (lat1 lon1 lat2 lon2 : R) (ell : option Ellipsoid) (deg : bool) : R * R * R :=
  let g := get_geodesic ell in
  if deg then Inverse g lat1 lon1 lat2 lon2
  else
    let '(dist, azi1, azi2) := Inverse g (degrees lat1) (degrees lon1) (degrees lat2) (degrees lon2) in
    (dist, radians azi1, radians azi2).

(** karney.py:882-923 *)
Definition geodesic_direct (lat1 lon1 azi1 dist : R) (ell : option Ellipsoid) (deg : bool) : R * R * R :=
  let g := get_geodesic ell in
  if deg then Direct g lat1 lon1 azi1 dist
  else
    let '(lat2, lon2, azi2) := Direct g (degrees lat1) (degrees lon1) (degrees azi1) dist in
    (radians lat2, radians lon2, radians azi2).

(** karney.py:926-961 *)
Definition geodesic_line (lat1 lon1 lat2 lon2 : R) (ell : option Ellipsoid) (npts : nat) (deg : bool)
  : list R * list R :=
  let '(dist, azi, _) := geodesic_inverse lat1 lon1 lat2 lon2 ell deg in
  let pts := map (fun i =>
    let frac := if Nat.ltb 1 npts then INR i / (INR npts - 1) else 0.0 in
    let '(lat, lon, _) := geodesic_direct lat1 lon1 azi (dist * frac) ell deg in (lat, lon)) (seq 0 npts) in
  (map fst pts, map snd pts).

(** karney.py:992-1021.  A list of vertices stands for the two sequences.
    [azs] are the (dist, azi1, azi2) of the n edges in order. *)
Definition edges (vs : list (R * R)) (ell : option Ellipsoid) (deg : bool) : list (R * R * R) :=
  map (fun '((la, lo), (la', lo')) => geodesic_inverse la lo la' lo' ell deg)
      (combine vs (match vs with nil => nil | v :: vs' => vs' ++ [v] end)).
Fixpoint area_loop (es : list (R * R * R)) (azi2_prev azi1_first perimeter area_sum : R) : R * R :=
  match es with
  | nil => (perimeter, area_sum + fst (AngDiff azi2_prev azi1_first))
  | (d, azi1, azi2) :: es' =>
      area_loop es' azi2 azi1_first (perimeter + d) (area_sum + fst (AngDiff azi2_prev azi1))
  end.
Definition geodesic_area (vs : list (R * R)) (ell : option Ellipsoid) (deg : bool) : result (R * R) :=
  if Nat.ltb (List.length vs) 3 then Raise ValueError
  else
    let g := get_geodesic ell in
    match edges vs ell deg with
    | nil => Raise ValueError
    | (d, azi1, azi2) :: es =>
        let '(perimeter, area_sum) := area_loop es azi2 azi1 (0.0 + d) 0.0 in
        let area := gd_c2 g * radians area_sum in
        let area0 := 4.0 * PI * gd_c2 g in
        let area := if Rlt_dec (area0 / 2) (Rabs area) then area - copysign area0 area else area in
        Ok (area, perimeter)
    end.
