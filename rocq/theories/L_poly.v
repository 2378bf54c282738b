(** Bounds for multivariate polynomials with rational coefficients, by computation.

    A polynomial in x0, x1, ... is normalised to a list of monomials; when every
    monomial carries at least the [k]-th power of x0, its absolute value is at most
    x0^k times an explicit rational, for 0 <= x0 <= m and |xi| <= 1 (i >= 1). *)
From Coq Require Import ZArith Reals QArith Qreals List Lia Lra Bool.
Import ListNotations.
Open Scope R_scope.

Inductive pexp :=
| PC (q : Q) | PV (i : nat) | PA (a b : pexp) | PS (a b : pexp) | PM (a b : pexp) | PN (a : pexp) | PP (a : pexp) (n : nat).
Fixpoint peval (v : nat -> R) (e : pexp) : R :=
  match e with
  | PC q => Q2R q | PV i => v i
  | PA a b => peval v a + peval v b | PS a b => peval v a - peval v b | PM a b => peval v a * peval v b
  | PN a => - peval v a | PP a n => peval v a ^ n
  end.

(** monomials: exponents of x0, x1, ... and a coefficient *)
Definition mono := list nat.
Definition poly := list (mono * Q).
Fixpoint mval (v : nat -> R) (i : nat) (m : mono) : R :=
  match m with [] => 1 | e :: m' => v i ^ e * mval v (S i) m' end.
Definition tval (v : nat -> R) (t : mono * Q) : R := Q2R (snd t) * mval v 0 (fst t).
Fixpoint pval (v : nat -> R) (p : poly) : R := match p with [] => 0 | t :: p' => tval v t + pval v p' end.

Fixpoint mcmp (a b : mono) : comparison :=
  match a, b with
  | [], [] => Eq | [], _ :: _ => Lt | _ :: _, [] => Gt
  | x :: a', y :: b' => match Nat.compare x y with Eq => mcmp a' b' | c => c end
  end.
Lemma mcmp_eq a : forall b, mcmp a b = Eq -> a = b.
Proof.
  induction a as [|x a IH]; intros [|y b]; cbn; try discriminate; [reflexivity|].
  destruct (Nat.compare_spec x y); try discriminate. intros E. subst. now rewrite (IH _ E).
Qed.
(** sum of two sorted polynomials *)
Fixpoint padd (p : poly) : poly -> poly :=
  fix go (q : poly) : poly :=
  match p, q with
  | [], _ => q
  | _, [] => p
  | (m, a) :: p', (n, b) :: q' =>
      match mcmp m n with
      | Lt => (m, a) :: padd p' q
      | Gt => (n, b) :: go q'
      | Eq => let c := Qred (a + b) in if Qeq_bool c 0 then padd p' q' else (m, c) :: padd p' q'
      end
  end.
Fixpoint mmul (a b : mono) : mono :=
  match a, b with [], _ => b | _, [] => a | x :: a', y :: b' => (x + y)%nat :: mmul a' b' end.
Definition tmul (t : mono * Q) (p : poly) : poly := map (fun u => (mmul (fst t) (fst u), Qred (snd t * snd u))) p.
Fixpoint pmul (p q : poly) : poly := match p with [] => [] | t :: p' => padd (tmul t q) (pmul p' q) end.
Definition pneg (p : poly) : poly := map (fun t => (fst t, Qopp (snd t))) p.
Fixpoint ppow (p : poly) (n : nat) : poly := match n with O => [([], 1%Q)] | S k => pmul p (ppow p k) end.
Fixpoint mvar (i : nat) : mono := match i with O => [1%nat] | S k => 0%nat :: mvar k end.
Fixpoint norm (e : pexp) : poly :=
  match e with
  | PC q => if Qeq_bool q 0 then [] else [([], q)]
  | PV i => [(mvar i, 1%Q)]
  | PA a b => padd (norm a) (norm b)
  | PS a b => padd (norm a) (pneg (norm b))
  | PM a b => pmul (norm a) (norm b)
  | PN a => pneg (norm a)
  | PP a n => ppow (norm a) n
  end.

Section Val.
Variable v : nat -> R.
Lemma Q2R_red q : Q2R (Qred q) = Q2R q.
Proof. apply Qeq_eqR, Qred_correct. Qed.
Lemma padd_val p : forall q, pval v (padd p q) = pval v p + pval v q.
Proof.
  induction p as [|[m a] p IH]; intros q; [destruct q; cbn; ring|].
  induction q as [|[n b] q IHq]; [cbn; ring|]. cbn [padd]. destruct (mcmp m n) eqn:E.
  - apply mcmp_eq in E. subst n. cbn zeta. destruct (Qeq_bool (Qred (a + b)) 0) eqn:Z.
    + rewrite IH. cbn [pval tval fst snd]. apply Qeq_bool_eq, Qeq_eqR in Z. rewrite Q2R_red, Q2R_plus in Z.
      replace (Q2R 0) with 0 in Z by (unfold Q2R; cbn; lra). unfold tval; cbn [fst snd]. replace (Q2R b) with (- Q2R a) by lra. ring.
    + cbn [pval]. rewrite IH. unfold tval; cbn [fst snd]. rewrite Q2R_red, Q2R_plus. ring.
  - cbn [pval]. rewrite IH. cbn [pval]. ring.
  - cbn [pval]. change ((fix go (q0 : poly) : poly := _) q) with (padd ((m, a) :: p) q). rewrite IHq. cbn [pval]. ring.
Qed.
Lemma mmul_val a : forall b i, mval v i (mmul a b) = mval v i a * mval v i b.
Proof. induction a as [|x a IH]; intros [|y b] i; cbn [mmul mval]; try ring. rewrite IH, pow_add. ring. Qed.
Lemma tmul_val t p : pval v (tmul t p) = tval v t * pval v p.
Proof.
  induction p as [|u p IH]; cbn [tmul map pval]; [ring|]. unfold tmul in IH. rewrite IH. unfold tval; cbn [fst snd].
  rewrite mmul_val, Q2R_red, Q2R_mult. ring.
Qed.
Lemma pmul_val p q : pval v (pmul p q) = pval v p * pval v q.
Proof. induction p as [|t p IH]; cbn [pmul pval]; [ring|]. rewrite padd_val, tmul_val, IH. ring. Qed.
Lemma pneg_val p : pval v (pneg p) = - pval v p.
Proof. induction p as [|t p IH]; cbn [pneg map pval]; [ring|]. unfold pneg in IH. rewrite IH. unfold tval; cbn [fst snd]. rewrite Q2R_opp. ring. Qed.
Lemma mvar_val i : forall j, mval v j (mvar i) = v (j + i)%nat.
Proof. induction i as [|i IH]; intros j; cbn [mvar mval]; [rewrite Nat.add_0_r; ring|]. rewrite IH. replace (S j + i)%nat with (j + S i)%nat by lia. ring. Qed.
Lemma one_val : pval v [([], 1%Q)] = 1.
Proof. cbn. unfold tval; cbn. unfold Q2R; cbn. lra. Qed.
Theorem norm_val e : pval v (norm e) = peval v e.
Proof.
  induction e; cbn [norm peval].
  - destruct (Qeq_bool q 0) eqn:Z; cbn [pval]; unfold tval; cbn [fst snd mval]; [|ring]. apply Qeq_bool_eq, Qeq_eqR in Z. rewrite Z. unfold Q2R; cbn; lra.
  - cbn [pval]. unfold tval; cbn [fst snd]. rewrite mvar_val. unfold Q2R; cbn [Qnum Qden Nat.add]. lra.
  - now rewrite padd_val, IHe1, IHe2. - rewrite padd_val, pneg_val, IHe1, IHe2. ring.
  - now rewrite pmul_val, IHe1, IHe2. - now rewrite pneg_val, IHe.
  - rewrite <- IHe. induction n as [|n IH]; cbn [ppow pow]; [apply one_val|]. now rewrite pmul_val, IH.
Qed.
End Val.

(** ** the bound *)
Definition Qabs' (q : Q) : Q := if Qle_bool 0 q then q else Qopp q.
Fixpoint Qpow (q : Q) (n : nat) : Q := match n with O => 1%Q | S k => Qred (q * Qpow q k) end.
Definition tbound (m : Q) (k : nat) (t : mono * Q) : option Q :=
  let e := match fst t with [] => 0%nat | e :: _ => e end in
  if Nat.leb k e then Some (Qred (Qabs' (snd t) * Qpow m (e - k))) else None.
Fixpoint pbound (m : Q) (k : nat) (p : poly) : option Q :=
  match p with
  | [] => Some 0%Q
  | t :: p' => match tbound m k t, pbound m k p' with Some a, Some b => Some (Qred (a + b)) | _, _ => None end
  end.
Lemma Qabs'_abs q : Q2R (Qabs' q) = Rabs (Q2R q).
Proof.
  unfold Qabs'. destruct (Qle_bool 0 q) eqn:E.
  - apply Qle_bool_iff, Qle_Rle in E. replace (Q2R 0) with 0 in E by (unfold Q2R; cbn; lra). now rewrite Rabs_right by lra.
  - assert (N : ~ (0 <= q)%Q) by (intros H; apply Qle_bool_iff in H; congruence). apply Qnot_le_lt, Qlt_Rlt in N.
    replace (Q2R 0) with 0 in N by (unfold Q2R; cbn; lra). rewrite Q2R_opp, Rabs_left by lra. reflexivity.
Qed.
Lemma Qpow_val q n : Q2R (Qpow q n) = Q2R q ^ n.
Proof. induction n as [|n IH]; cbn [Qpow pow]; [unfold Q2R; cbn; lra|]. now rewrite Q2R_red, Q2R_mult, IH. Qed.
Lemma mval_bound v m : (forall i, (1 <= i)%nat -> Rabs (v i) <= 1) -> forall i, (1 <= i)%nat -> Rabs (mval v i m) <= 1.
Proof.
  intros H. induction m as [|e m IH]; intros i Hi; cbn [mval]; [rewrite Rabs_R1; lra|]. rewrite Rabs_mult, <- RPow_abs.
  assert (A : 0 <= Rabs (v i) ^ e <= 1).
  { split; [apply pow_le, Rabs_pos|]. rewrite <- (pow1 e). apply pow_incr. split; [apply Rabs_pos|now apply H]. }
  pose proof (IH (S i) ltac:(lia)) as B. pose proof (Rabs_pos (mval v (S i) m)).
  apply Rle_trans with (1 * 1); [apply Rmult_le_compat; lra|lra].
Qed.
Lemma some_inj {A} (x y : A) : Some x = Some y -> x = y.
Proof. now intros [= ->]. Qed.
Lemma tbound_ok v m k t B : 0 <= v 0%nat <= Q2R m -> (forall i, (1 <= i)%nat -> Rabs (v i) <= 1) -> tbound m k t = Some B ->
  Rabs (tval v t) <= v 0%nat ^ k * Q2R B.
Proof.
  intros H0 H. unfold tbound, tval. destruct t as [es q]. cbn [fst snd].
  assert (Q0 : 0 <= Rabs (Q2R q)) by apply Rabs_pos.
  set (e := match es with [] => 0%nat | e :: _ => e end). destruct (Nat.leb_spec k e) as [L|L]; [|discriminate]. intros E. apply some_inj in E. subst B.
  rewrite Q2R_red, Q2R_mult, Qabs'_abs, Qpow_val.
  assert (ME : exists r, mval v 0 es = v 0%nat ^ e * r /\ Rabs r <= 1).
  { destruct es as [|e0 es]; [exists 1; cbn; rewrite Rabs_R1; lra|]. exists (mval v 1 es). split; [reflexivity|]. apply mval_bound; [exact H|lia]. }
  destruct ME as (r & -> & M). rewrite !Rabs_mult. rewrite (Rabs_right (v 0%nat ^ e)) by (apply Rle_ge, pow_le; lra).
  replace e with (k + (e - k))%nat at 1 by lia. rewrite pow_add.
  assert (P1 : 0 <= v 0%nat ^ k) by (apply pow_le; lra). assert (P2 : 0 <= v 0%nat ^ (e - k) <= Q2R m ^ (e - k)) by (split; [apply pow_le; lra|apply pow_incr; lra]).
  pose proof (Rabs_pos r).
  apply Rle_trans with (Rabs (Q2R q) * (v 0%nat ^ k * Q2R m ^ (e - k) * 1)); [|lra].
  apply Rmult_le_compat_l; [lra|]. apply Rmult_le_compat; [nra|lra| |lra]. apply Rmult_le_compat_l; lra.
Qed.
Lemma pbound_ok v m k : 0 <= v 0%nat <= Q2R m -> (forall i, (1 <= i)%nat -> Rabs (v i) <= 1) -> forall p B, pbound m k p = Some B ->
  Rabs (pval v p) <= v 0%nat ^ k * Q2R B.
Proof.
  intros H0 H. induction p as [|t p IH]; intros B; cbn [pbound pval].
  - intros E. apply some_inj in E. subst B. rewrite Rabs_R0. unfold Q2R; cbn. lra.
  - destruct (tbound m k t) as [a|] eqn:Et; [|discriminate]. destruct (pbound m k p) as [b|]; [|discriminate]. intros E. apply some_inj in E. subst B.
    rewrite Q2R_red, Q2R_plus. pose proof (tbound_ok v m k t a H0 H Et). pose proof (IH b eq_refl). pose proof (Rabs_triang (tval v t) (pval v p)). lra.
Qed.
Definition checks (e : pexp) (m : Q) (k : nat) (B : Q) : bool :=
  match pbound m k (norm e) with Some b => Qle_bool b B | None => false end.
Theorem poly_bound e m k B v : checks e m k B = true -> 0 <= v 0%nat <= Q2R m -> (forall i, (1 <= i)%nat -> Rabs (v i) <= 1) ->
  Rabs (peval v e) <= Q2R B * v 0%nat ^ k.
Proof.
  unfold checks. destruct (pbound m k (norm e)) as [b|] eqn:E; [|discriminate]. intros L H0 H.
  pose proof (pbound_ok v m k H0 H _ _ E) as P. rewrite norm_val in P. apply Qle_bool_iff, Qle_Rle in L.
  assert (0 <= v 0%nat ^ k) by (apply pow_le; lra). nra.
Qed.
(** the variables as a list *)
Definition vars (l : list R) : nat -> R := fun i => nth i l 0.
Lemma vars_ok x l : Forall (fun y => Rabs y <= 1) l -> forall i, (1 <= i)%nat -> Rabs (vars (x :: l) i) <= 1.
Proof.
  intros F i Hi. destruct i as [|i]; [lia|]. unfold vars. cbn [nth]. destruct (nth_in_or_default i l 0) as [I| ->]; [|rewrite Rabs_R0; lra].
  rewrite Forall_forall in F. now apply F.
Qed.
Theorem poly_bound' e m k B x l : checks e m k B = true -> 0 <= x <= Q2R m -> Forall (fun y => Rabs y <= 1) l ->
  Rabs (peval (vars (x :: l)) e) <= Q2R B * x ^ k.
Proof. intros C H F. apply (poly_bound e m k B (vars (x :: l)) C H). now apply vars_ok. Qed.

(** ** truncated normal form

    A polynomial in x0 of degree below [K], with coefficients that are polynomials in
    the bounded variables x1, x2, ..., over a common denominator, and a bound on the
    rest over x0^K.  Polynomials are nested coefficient lists. *)
Fixpoint mp (n : nat) : Type := match n with O => Z | S n => list (mp n) end.
Fixpoint nmval (v : nat -> R) (n : nat) : nat -> mp n -> R :=
  match n with
  | O => fun _ z => IZR z
  | S n => fun i => fix go (l : list (mp n)) : R := match l with [] => 0 | a :: l' => nmval v n (S i) a + v i * go l' end
  end.
Definition nmzero (n : nat) : mp n := match n with O => 0%Z | S n => [] end.
Definition nmconst (z : Z) : forall n, mp n := fix go n := match n with O => z | S n => [go n] end.
Fixpoint nmvar (n : nat) : nat -> mp n :=
  match n with
  | O => fun _ => 0%Z
  | S n => fun i => match i with O => [nmzero n; nmconst 1 n] | S i => [nmvar n i] end
  end.
Definition laddl {A} (add : A -> A -> A) : list A -> list A -> list A :=
  fix go p q := match p, q with [], _ => q | _, [] => p | a :: p', b :: q' => add a b :: go p' q' end.
Fixpoint nmadd (n : nat) : mp n -> mp n -> mp n :=
  match n with O => Z.add | S n => laddl (nmadd n) end.
Fixpoint nmscale (n : nat) (z : Z) : mp n -> mp n :=
  match n with O => Z.mul z | S n => map (nmscale n z) end.
Definition lmul {A} (zero : A) (isz : A -> bool) (add mul : A -> A -> A) : list A -> list A -> list A :=
  fix go p q := match p with
  | [] => []
  | a :: p' => if isz a then match p' with [] => [] | _ => zero :: go p' q end else laddl add (map (mul a) q) (zero :: go p' q)
  end.
Definition nmisz (n : nat) : mp n -> bool := match n with O => Z.eqb 0 | S n => fun l => match l with [] => true | _ => false end end.
Fixpoint nmmul (n : nat) : mp n -> mp n -> mp n :=
  match n with O => Z.mul | S n => lmul (nmzero n) (nmisz n) (nmadd n) (nmmul n) end.
(** sum of the absolute values of the coefficients *)
Fixpoint nmabs (n : nat) : mp n -> Z :=
  match n with O => Z.abs | S n => fix go (l : list (mp n)) : Z := match l with [] => 0%Z | a :: l' => (nmabs n a + go l')%Z end end.
(** common divisor of the coefficients and [g]; division by it *)
Fixpoint nmgcd (n : nat) : Z -> mp n -> Z :=
  match n with
  | O => fun g z => if Z.eqb g 1 then 1%Z else Z.gcd g z
  | S n => fix go g (l : list (mp n)) : Z := match l with [] => g | a :: l' => go (nmgcd n g a) l' end
  end.
Fixpoint nmdiv (n : nat) (g : Z) : mp n -> mp n :=
  match n with O => fun z => Z.div z g | S n => map (nmdiv n g) end.

Section Mp.
Variable v : nat -> R.
Lemma nmval_cons n i a l : nmval v (S n) i (a :: l) = nmval v n (S i) a + v i * nmval v (S n) i l.
Proof. reflexivity. Qed.
Lemma nmzero_val n i : nmval v n i (nmzero n) = 0.
Proof. destruct n; reflexivity. Qed.
Lemma nmconst_val z n : forall i, nmval v n i (nmconst z n) = IZR z.
Proof. induction n as [|n IH]; intros i; [reflexivity|]. change (nmconst z (S n)) with [nmconst z n]. rewrite nmval_cons, IH. cbn. ring. Qed.
Lemma nmvar_val n : forall i j, (forall k, (i + n <= k)%nat -> v k = 0) -> nmval v n i (nmvar n j) = v (i + j)%nat.
Proof.
  induction n as [|n IH]; intros i j H.
  - cbn. symmetry. apply H. lia.
  - cbn [nmvar]. destruct j as [|j].
    + rewrite !nmval_cons, nmzero_val, nmconst_val. cbn. rewrite Nat.add_0_r. ring.
    + rewrite nmval_cons, IH by (intros k Hk; apply H; lia). cbn. replace (i + S j)%nat with (S (i + j)) by lia. ring.
Qed.
Lemma nmadd_val n : forall i p q, nmval v n i (nmadd n p q) = nmval v n i p + nmval v n i q.
Proof.
  induction n as [|n IH]; intros i p q; [apply plus_IZR|].
  revert q. induction p as [|a p IHp]; intros q; cbn [nmadd laddl]; [cbn [nmval]; ring|]. destruct q as [|b q]; [cbn [nmval]; ring|].
  rewrite !nmval_cons, IH. change (laddl (nmadd n) p q) with (nmadd (S n) p q). rewrite IHp. ring.
Qed.
Lemma nmscale_val n z : forall i p, nmval v n i (nmscale n z p) = IZR z * nmval v n i p.
Proof.
  induction n as [|n IH]; intros i p; [apply mult_IZR|].
  induction p as [|a p IHp]; [cbn; ring|]. cbn [nmscale map]. rewrite !nmval_cons, IH. change (map (nmscale n z) p) with (nmscale (S n) z p). rewrite IHp. ring.
Qed.
Lemma nmisz_val n i a : nmisz n a = true -> nmval v n i a = 0.
Proof. destruct n; cbn [nmisz]; [intros H; apply Z.eqb_eq in H; subst; reflexivity|]. destruct a; [reflexivity|discriminate]. Qed.
Lemma nmmul_val n : forall i p q, nmval v n i (nmmul n p q) = nmval v n i p * nmval v n i q.
Proof.
  induction n as [|n IH]; intros i p q; [apply mult_IZR|].
  assert (M : forall a q, nmval v (S n) i (map (nmmul n a) q) = nmval v n (S i) a * nmval v (S n) i q).
  { intros a. induction q0 as [|b q0 IHq]; [cbn; ring|]. cbn [map]. rewrite !nmval_cons, IH, IHq. ring. }
  induction p as [|a p IHp]; [cbn; ring|]. cbn [nmmul lmul]. rewrite nmval_cons. destruct (nmisz n a) eqn:Z.
  - rewrite (nmisz_val n (S i) a Z). destruct p as [|b p]; [cbn; ring|].
    rewrite nmval_cons, nmzero_val. match goal with |- _ + _ * nmval v (S n) i ?t = _ => change t with (nmmul (S n) (b :: p) q) end. rewrite IHp. ring.
  - change (laddl (nmadd n)) with (nmadd (S n)). rewrite nmadd_val, M, nmval_cons, nmzero_val.
    match goal with |- _ + (_ + _ * nmval v (S n) i ?t) = _ => change t with (nmmul (S n) p q) end. rewrite IHp. ring.
Qed.
Lemma nmabs_nonneg n : forall p, (0 <= nmabs n p)%Z.
Proof. induction n as [|n IH]; intros p; [apply Z.abs_nonneg|]. induction p as [|a p IHp]; cbn [nmabs]; [lia|]. pose proof (IH a). cbn [nmabs] in IHp. lia. Qed.
Lemma nmabs_val n : forall i p, (forall k, (i <= k)%nat -> Rabs (v k) <= 1) -> Rabs (nmval v n i p) <= IZR (nmabs n p).
Proof.
  induction n as [|n IH]; intros i p H; [cbn; rewrite abs_IZR; lra|].
  induction p as [|a p IHp]; [cbn; rewrite Rabs_R0; lra|]. rewrite nmval_cons. cbn [nmabs]. rewrite plus_IZR.
  eapply Rle_trans; [apply Rabs_triang|]. apply Rplus_le_compat; [apply IH; intros k Hk; apply H; lia|].
  rewrite Rabs_mult. change ((fix go (l : list (mp n)) : Z := match l with [] => 0%Z | a0 :: l' => (nmabs n a0 + go l')%Z end) p) with (nmabs (S n) p).
  pose proof (H i (Nat.le_refl i)). pose proof (Rabs_pos (v i)). pose proof (Rabs_pos (nmval v (S n) i p)).
  apply Rle_trans with (1 * Rabs (nmval v (S n) i p)); [apply Rmult_le_compat_r; lra|lra].
Qed.
Fixpoint nmdvd (n : nat) (g : Z) : mp n -> Prop :=
  match n with O => fun z => (g | z)%Z | S n => fix go (l : list (mp n)) : Prop := match l with [] => True | a :: l' => nmdvd n g a /\ go l' end end.
Lemma nmdvd_trans n g h : (h | g)%Z -> forall p, nmdvd n g p -> nmdvd n h p.
Proof.
  intros D. induction n as [|n IH]; intros p H; [now apply Z.divide_trans with g|].
  induction p as [|a p IHp]; [exact I|]. destruct H as [A B]. split; [now apply IH|now apply IHp].
Qed.
Lemma nmgcd_dvd n : forall p g, (nmgcd n g p | g)%Z /\ nmdvd n (nmgcd n g p) p.
Proof.
  induction n as [|n IH]; intros p g.
  - cbn [nmgcd nmdvd]. destruct (Z.eqb_spec g 1) as [->|]; [split; [apply Z.divide_1_l|apply Z.divide_1_l]|]. split; [apply Z.gcd_divide_l|apply Z.gcd_divide_r].
  - revert g. induction p as [|a p IHp]; intros g; [split; [apply Z.divide_refl|exact I]|].
    cbn [nmgcd]. destruct (IH a g) as [A B]. destruct (IHp (nmgcd n g a)) as [C D]. cbn [nmgcd] in C, D. split; [now apply Z.divide_trans with (nmgcd n g a)|].
    split; [apply (nmdvd_trans n (nmgcd n g a)); assumption|exact D].
Qed.
Lemma nmdiv_val n g : g <> 0%Z -> forall i p, nmdvd n g p -> IZR g * nmval v n i (nmdiv n g p) = nmval v n i p.
Proof.
  intros G. induction n as [|n IH]; intros i p H.
  - cbn in *. rewrite <- mult_IZR. f_equal. symmetry. now apply Z_div_exact_full_2, Z.mod_divide.
  - induction p as [|a p IHp]; [cbn; ring|]. destruct H as [A B]. cbn [nmdiv map]. rewrite !nmval_cons. change (map (nmdiv n g) p) with (nmdiv (S n) g p).
    rewrite Rmult_plus_distr_l, IH by exact A. rewrite <- IHp by exact B. ring.
Qed.
End Mp.

(** *** bounds: non-negative numbers z / 2^30, rounded upwards *)
Definition FX (z : Z) : R := IZR z / 2 ^ 30.
Definition fmul (a b : Z) : Z := if Z.eqb a 0 then 0%Z else if Z.eqb b 0 then 0%Z else (Z.shiftr (a * b) 30 + 1)%Z.
Definition fdiv (z d : Z) : Z := if Z.eqb z 0 then 0%Z else (Z.div (Z.shiftl z 30) d + 1)%Z.
Lemma p30 : 2 ^ 30 = 1073741824. Proof. lra. Qed.
Lemma z30 : (2 ^ 30 = 1073741824)%Z. Proof. reflexivity. Qed.
Lemma FX_0 : FX 0 = 0. Proof. unfold FX. lra. Qed.
Lemma FX_add a b : FX (a + b) = FX a + FX b.
Proof. unfold FX. rewrite plus_IZR. lra. Qed.
Lemma FX_pos a : (0 <= a)%Z -> 0 <= FX a.
Proof. intros H. unfold FX. apply IZR_le in H. rewrite p30. lra. Qed.
Lemma fmul_pos a b : (0 <= a)%Z -> (0 <= b)%Z -> (0 <= fmul a b)%Z.
Proof.
  intros A B. unfold fmul. destruct (Z.eqb_spec a 0); [lia|]. destruct (Z.eqb_spec b 0); [lia|].
  assert (0 <= Z.shiftr (a * b) 30)%Z by (apply Z.shiftr_nonneg; nia). lia.
Qed.
Lemma fmul_ok a b : FX a * FX b <= FX (fmul a b).
Proof.
  unfold fmul. destruct (Z.eqb_spec a 0) as [->|]; [rewrite FX_0; lra|]. destruct (Z.eqb_spec b 0) as [->|]; [rewrite FX_0; lra|].
  rewrite Z.shiftr_div_pow2, z30 by lia. pose proof (Z.mod_pos_bound (a * b) 1073741824 ltac:(lia)). pose proof (Z.div_mod (a * b) 1073741824 ltac:(lia)) as D.
  assert (L : (a * b <= 1073741824 * (a * b / 1073741824 + 1))%Z) by lia. apply IZR_le in L. rewrite !mult_IZR in L.
  unfold FX. rewrite p30. set (q := IZR (a * b / 1073741824 + 1)) in *. unfold Rdiv. replace (IZR a * / 1073741824 * (IZR b * / 1073741824)) with (IZR a * IZR b * / 1073741824 * / 1073741824) by ring. lra.
Qed.
Lemma fmul_le a b x y : (0 <= a)%Z -> (0 <= b)%Z -> 0 <= x <= FX a -> 0 <= y <= FX b -> x * y <= FX (fmul a b).
Proof. intros. eapply Rle_trans; [|apply fmul_ok]. apply Rmult_le_compat; lra. Qed.
Lemma fdiv_pos z d : (0 <= z)%Z -> (0 < d)%Z -> (0 <= fdiv z d)%Z.
Proof. intros A B. unfold fdiv. destruct (Z.eqb_spec z 0); [lia|]. assert (0 <= Z.shiftl z 30 / d)%Z by (apply Z.div_pos; [apply Z.shiftl_nonneg; lia|lia]). lia. Qed.
Lemma fdiv_ok z d : (0 < d)%Z -> IZR z / IZR d <= FX (fdiv z d).
Proof.
  intros D. unfold fdiv. assert (D' : 0 < IZR d) by (apply IZR_lt in D; lra). destruct (Z.eqb_spec z 0) as [->|]; [rewrite FX_0; lra|].
  rewrite Z.shiftl_mul_pow2, z30 by lia. pose proof (Z.mod_pos_bound (z * 1073741824) d D). pose proof (Z.div_mod (z * 1073741824) d ltac:(lia)) as E.
  assert (L : (z * 1073741824 <= d * (z * 1073741824 / d + 1))%Z) by lia. apply IZR_le in L. rewrite !mult_IZR in L.
  unfold FX. rewrite p30. set (q := IZR (z * 1073741824 / d + 1)) in *. apply Rmult_le_reg_r with (IZR d * 1073741824); [lra|].
  replace (IZR z / IZR d * (IZR d * 1073741824)) with (IZR z * 1073741824) by (field; lra). lra.
Qed.
Definition lval (x : R) : list Z -> R := fix go l := match l with [] => 0 | a :: l' => FX a + x * go l' end.
Definition lup (m : Z) : list Z -> Z := fix go l := match l with [] => 0%Z | a :: l' => (a + fmul m (go l'))%Z end.
Fixpoint fpow (m : Z) (n : nat) : Z := match n with O => (2 ^ 30)%Z | S n => fmul m (fpow m n) end.
Definition lpos (l : list Z) : Prop := Forall (fun z => (0 <= z)%Z) l.
Lemma lup_pos m l : (0 <= m)%Z -> lpos l -> (0 <= lup m l)%Z.
Proof. intros M. induction 1 as [|a l A L IH]; cbn [lup]; [lia|]. pose proof (fmul_pos m (lup m l) M IH). lia. Qed.
Lemma lval_pos x l : 0 <= x -> lpos l -> 0 <= lval x l.
Proof. intros X. induction 1 as [|a l A L IH]; cbn [lval]; [lra|]. pose proof (FX_pos a A). pose proof (Rmult_le_pos _ _ X IH). fold (lval x l). lra. Qed.
Lemma lup_ok m x l : (0 <= m)%Z -> 0 <= x <= FX m -> lpos l -> lval x l <= FX (lup m l).
Proof.
  intros M X. induction 1 as [|a l A L IH]; cbn [lup lval]; [rewrite FX_0; lra|]. fold (lval x l). fold (lup m l). rewrite FX_add.
  pose proof (fmul_le m (lup m l) x (lval x l) M (lup_pos m l M L) X (conj (lval_pos x l (proj1 X) L) IH)). lra.
Qed.
Lemma fpow_pos m n : (0 <= m)%Z -> (0 <= fpow m n)%Z.
Proof. intros M. induction n; cbn [fpow]; [rewrite z30; lia|]. now apply fmul_pos. Qed.
Lemma fpow_ok m x n : (0 <= m)%Z -> 0 <= x <= FX m -> x ^ n <= FX (fpow m n).
Proof.
  intros M X. induction n as [|n IH]; cbn [fpow pow]; [unfold FX; rewrite z30, p30; lra|].
  apply fmul_le; [exact M|now apply fpow_pos|exact X|]. split; [apply pow_le; lra|exact IH].
Qed.

(** *** models *)
Record tmodel (n : nat) := mktm { tp : list (mp n); td : Z; tr : Z }.
Arguments mktm {n}. Arguments tp {n}. Arguments td {n}. Arguments tr {n}.
Definition mags {n} (p : list (mp n)) (d : Z) : list Z := map (fun a => fdiv (nmabs n a) d) p.
(** product below degree K *)
Fixpoint mulK (n : nat) (K : nat) (p q : list (mp n)) : list (mp n) :=
  match K, p with
  | S K', a :: p' => if nmisz n a then nmzero n :: mulK n K' p' q else laddl (nmadd n) (map (nmmul n a) (firstn K q)) (nmzero n :: mulK n K' p' q)
  | _, _ => []
  end.
(** and a bound on what it leaves out, over x0^K *)
Fixpoint over (m : Z) (K : nat) (P Q : list Z) : Z :=
  match K, P with
  | S K', a :: P' => (fmul a (lup m (skipn K Q)) + over m K' P' Q)%Z
  | _, _ => fmul (lup m P) (lup m Q)
  end.
Definition treduce {n} (t : tmodel n) : tmodel n :=
  let g := nmgcd (S n) (td t) (tp t) in if Z.ltb 1 g then mktm (nmdiv (S n) g (tp t)) (Z.div (td t) g) (tr t) else t.
Definition tadd {n} (a b : tmodel n) : tmodel n :=
  if Z.eqb (td a) (td b) then mktm (nmadd (S n) (tp a) (tp b)) (td a) (tr a + tr b)
  else let g := Z.gcd (td a) (td b) in
    let x := Z.div (td a) g in let y := Z.div (td b) g in
    mktm (nmadd (S n) (nmscale (S n) y (tp a)) (nmscale (S n) x (tp b))) (x * (y * g)) (tr a + tr b).
Definition tneg {n} (a : tmodel n) : tmodel n := mktm (nmscale (S n) (-1) (tp a)) (td a) (tr a).
Definition tmult {n} (m : Z) (K : nat) (a b : tmodel n) : tmodel n :=
  let P := mags (tp a) (td a) in let Q := mags (tp b) (td b) in
  treduce (mktm (mulK n K (tp a) (tp b)) (td a * td b)
    (over m K P Q + (fmul (tr a) (lup m Q) + fmul (tr b) (lup m P) + fmul (fmul (tr a) (tr b)) (fpow m K))))%Z.
Fixpoint tpow {n} (m : Z) (K : nat) (a : tmodel n) (k : nat) : tmodel n :=
  match k with O => mktm [nmconst 1 n] 1 0 | S O => a | S k => tmult m K a (tpow m K a k) end.
Fixpoint tnorm (n : nat) (m : Z) (K : nat) (e : pexp) : tmodel n :=
  match e with
  | PC q => mktm [nmconst (Qnum q) n] (Zpos (Qden q)) 0
  | PV i => mktm (nmvar (S n) i) 1 0
  | PA a b => tadd (tnorm n m K a) (tnorm n m K b)
  | PS a b => tadd (tnorm n m K a) (tneg (tnorm n m K b))
  | PM a b => tmult m K (tnorm n m K a) (tnorm n m K b)
  | PN a => tneg (tnorm n m K a)
  | PP a k => tpow m K (tnorm n m K a) k
  end.
Section Tm.
Variables (v : nat -> R) (n : nat) (m : Z) (K : nat).
Hypothesis M0 : (0 <= m)%Z.
Hypothesis H0 : 0 <= v 0%nat <= FX m.
Hypothesis H1 : forall i, (1 <= i)%nat -> Rabs (v i) <= 1.
Hypothesis H2 : forall i, (S n <= i)%nat -> v i = 0.
Notation X := (v 0%nat).
Definition represents (t : tmodel n) (x : R) : Prop :=
  (0 < td t)%Z /\ (0 <= tr t)%Z /\ Rabs (x - nmval v (S n) 0 (tp t) / IZR (td t)) <= X ^ K * FX (tr t).
Lemma mags_pos p d : (0 < d)%Z -> lpos (@mags n p d).
Proof. intros D. unfold mags, lpos. apply Forall_forall. intros z Hz. apply in_map_iff in Hz. destruct Hz as (a & <- & _). apply fdiv_pos; [apply nmabs_nonneg|exact D]. Qed.
Lemma coef_bound a d : (0 < d)%Z -> Rabs (nmval v n 1 a / IZR d) <= FX (fdiv (nmabs n a) d).
Proof.
  intros D. assert (D' : 0 < IZR d) by (apply IZR_lt in D; lra). unfold Rdiv. rewrite Rabs_mult, (Rabs_right (/ IZR d)) by (apply Rle_ge, Rlt_le, Rinv_0_lt_compat; lra).
  eapply Rle_trans; [|apply fdiv_ok; exact D]. unfold Rdiv. apply Rmult_le_compat_r; [apply Rlt_le, Rinv_0_lt_compat; lra|]. now apply nmabs_val.
Qed.
Lemma mags_ok p d : (0 < d)%Z -> Rabs (nmval v (S n) 0 p / IZR d) <= lval X (mags p d).
Proof.
  intros D. induction p as [|a p IH]; [cbn; unfold Rdiv; rewrite Rmult_0_l, Rabs_R0; lra|]. rewrite nmval_cons. cbn [mags map lval]. fold (lval X (mags p d)). fold (mags p d).
  replace ((nmval v n 1 a + X * nmval v (S n) 0 p) / IZR d) with (nmval v n 1 a / IZR d + X * (nmval v (S n) 0 p / IZR d)) by (unfold Rdiv; ring).
  eapply Rle_trans; [apply Rabs_triang|]. apply Rplus_le_compat; [now apply coef_bound|]. rewrite Rabs_mult, (Rabs_right X) by lra. apply Rmult_le_compat_l; lra.
Qed.
Lemma mags_up p d : (0 < d)%Z -> Rabs (nmval v (S n) 0 p / IZR d) <= FX (lup m (mags p d)).
Proof. intros D. eapply Rle_trans; [now apply mags_ok|]. apply lup_ok; [exact M0|exact H0|now apply mags_pos]. Qed.
Lemma split_at j : forall p : list (mp n), nmval v (S n) 0 p = nmval v (S n) 0 (firstn j p) + X ^ j * nmval v (S n) 0 (skipn j p).
Proof.
  induction j as [|j IH]; intros p; [cbn [firstn skipn pow]; cbn [nmval]; ring|]. destruct p as [|a p]; [cbn; ring|].
  cbn [firstn skipn pow]. rewrite !nmval_cons, (IH p). ring.
Qed.
Lemma skipn_mags j p d : skipn j (@mags n p d) = mags (skipn j p) d.
Proof. unfold mags. revert p. induction j as [|j IH]; intros p; [reflexivity|]. destruct p; [reflexivity|]. cbn [skipn map]. apply IH. Qed.
Lemma mul_coef a q : nmval v (S n) 0 (map (nmmul n a) q) = nmval v n 1 a * nmval v (S n) 0 q.
Proof. induction q as [|b q IH]; [cbn; ring|]. cbn [map]. rewrite !nmval_cons, nmmul_val, IH. ring. Qed.
Lemma over_pos k : forall P Q, lpos P -> lpos Q -> (0 <= over m k P Q)%Z.
Proof.
  induction k as [|k IH]; intros P Q HP HQ; [cbn [over]; apply fmul_pos; now apply lup_pos|]. destruct HP as [|a P A HP]; cbn [over].
  - apply fmul_pos; [cbn; lia|now apply lup_pos].
  - pose proof (IH P Q HP HQ). assert (lpos (skipn (S k) Q)). { clear - HQ. revert HQ. generalize (S k). intros j. revert Q. induction j as [|j IH]; intros Q HQ; [exact HQ|]. destruct HQ as [|b Q B HQ]; [constructor|]. now apply IH. }
    pose proof (fmul_pos a (lup m (skipn (S k) Q)) A (lup_pos _ _ M0 H3)). lia.
Qed.
Lemma mulK_ok d e q : (0 < d)%Z -> (0 < e)%Z -> forall k p,
  Rabs (nmval v (S n) 0 p / IZR d * (nmval v (S n) 0 q / IZR e) - nmval v (S n) 0 (mulK n k p q) / IZR (d * e)) <= X ^ k * FX (over m k (mags p d) (mags q e)).
Proof.
  intros D E. assert (D' : 0 < IZR d) by (apply IZR_lt in D; lra). assert (E' : 0 < IZR e) by (apply IZR_lt in E; lra). rewrite mult_IZR.
  assert (BASE : forall p, Rabs (nmval v (S n) 0 p / IZR d * (nmval v (S n) 0 q / IZR e) - 0 / (IZR d * IZR e)) <= FX (fmul (lup m (mags p d)) (lup m (mags q e)))).
  { intros p. replace (nmval v (S n) 0 p / IZR d * (nmval v (S n) 0 q / IZR e) - 0 / (IZR d * IZR e)) with (nmval v (S n) 0 p / IZR d * (nmval v (S n) 0 q / IZR e)) by (unfold Rdiv; ring).
    rewrite Rabs_mult. apply fmul_le; try (apply lup_pos; [exact M0|now apply mags_pos]); (split; [apply Rabs_pos|now apply mags_up]). }
  induction k as [|k IH]; intros p.
  - cbn [mulK over pow]. rewrite Rmult_1_l. apply BASE.
  - destruct p as [|a p].
    + cbn [mulK over mags map lup]. cbn [nmval]. unfold fmul. cbn [Z.eqb]. rewrite FX_0. unfold Rdiv. rewrite !Rmult_0_l, Rminus_0_r, Rabs_R0. lra.
    + assert (SP : nmval v (S n) 0 (mulK n (S k) (a :: p) q) = nmval v n 1 a * nmval v (S n) 0 (firstn (S k) q) + X * nmval v (S n) 0 (mulK n k p q)).
      { cbn [mulK]. destruct (nmisz n a) eqn:Z; [rewrite nmval_cons, nmzero_val, (nmisz_val v n 1 a Z); ring|].
        change (laddl (nmadd n)) with (nmadd (S n)). rewrite nmadd_val, mul_coef, nmval_cons, nmzero_val. rewrite Rplus_0_l. reflexivity. }
      rewrite SP. rewrite nmval_cons. pose proof (split_at (S k) q) as SQ. set (Aq := nmval v (S n) 0 (firstn (S k) q)) in *. set (Bq := nmval v (S n) 0 (skipn (S k) q)) in *.
      specialize (IH p). set (pv := nmval v (S n) 0 p) in *. set (qv := nmval v (S n) 0 q) in *. set (r := nmval v (S n) 0 (mulK n k p q)) in *. set (av := nmval v n 1 a) in *.
      assert (ID : forall x xk av pv qv Aq Bq r : R, qv = Aq + xk * Bq ->
        (av + x * pv) / IZR d * (qv / IZR e) - (av * Aq + x * r) / (IZR d * IZR e) = xk * (av / IZR d * (Bq / IZR e)) + x * (pv / IZR d * (qv / IZR e) - r / (IZR d * IZR e))).
      { intros x0 xk av0 pv0 qv0 Aq0 Bq0 r0 ->. field. split; lra. }
      rewrite (ID X (X ^ S k) av pv qv Aq Bq r SQ). clear ID.
      
      eapply Rle_trans; [apply Rabs_triang|]. rewrite !Rabs_mult. cbn [over mags map]. fold (@mags n p d). rewrite FX_add, Rmult_plus_distr_l.
      assert (XP : 0 <= X ^ S k) by (apply pow_le; lra). rewrite (Rabs_right (X ^ S k)), (Rabs_right X) by lra.
      apply Rplus_le_compat.
      * apply Rmult_le_compat_l; [exact XP|]. rewrite skipn_mags. apply fmul_le; [apply fdiv_pos; [apply nmabs_nonneg|exact D]|apply lup_pos; [exact M0|now apply mags_pos]| |].
        -- split; [apply Rabs_pos|now apply coef_bound]. -- split; [apply Rabs_pos|now apply mags_up].
      * change (X ^ S k) with (X * X ^ k). rewrite Rmult_assoc. apply Rmult_le_compat_l; [lra|exact IH].
Qed.
Lemma treduce_ok t x : represents t x -> represents (treduce t) x.
Proof.
  unfold represents, treduce. intros (D & R & B). set (g := nmgcd (S n) (td t) (tp t)). destruct (Z.ltb_spec 1 g) as [G|G]; [|repeat split; assumption].
  cbn [tp td tr]. destruct (nmgcd_dvd (S n) (tp t) (td t)) as [A C]. fold g in A, C. destruct A as [h A].
  assert (Hh : (td t / g = h)%Z) by (rewrite A; apply Z.div_mul; lia). rewrite Hh. assert (0 < h)%Z by nia. repeat split; [assumption..|].
  assert (E : nmval v (S n) 0 (tp t) / IZR (td t) = nmval v (S n) 0 (nmdiv (S n) g (tp t)) / IZR h).
  { rewrite <- (nmdiv_val v (S n) g ltac:(lia) 0 (tp t) C). rewrite A, mult_IZR. assert (0 < IZR g) by (apply (IZR_lt 0); lia). assert (0 < IZR h) by (apply (IZR_lt 0); lia). field. split; lra. }
  rewrite <- E. exact B.
Qed.
Lemma tadd_ok a b x y : represents a x -> represents b y -> represents (tadd a b) (x + y).
Proof.
  unfold represents, tadd. intros (D & R & B) (D' & R' & B'). set (p := nmval v (S n) 0 (tp a)) in *. set (q := nmval v (S n) 0 (tp b)) in *.
  assert (Pd : 0 < IZR (td a)) by (apply IZR_lt in D; lra). assert (Pd' : 0 < IZR (td b)) by (apply IZR_lt in D'; lra).
  assert (TRI : forall z, z = p / IZR (td a) + q / IZR (td b) -> Rabs (x + y - z) <= X ^ K * FX (tr a + tr b)).
  { intros z ->. rewrite FX_add, Rmult_plus_distr_l. replace (x + y - (p / IZR (td a) + q / IZR (td b))) with ((x - p / IZR (td a)) + (y - q / IZR (td b))) by ring.
    eapply Rle_trans; [apply Rabs_triang|]. lra. }
  destruct (Z.eqb_spec (td a) (td b)) as [E|E]; cbn [tp td tr]; (split; [|split; [lia|apply TRI]]).
  - exact D. - rewrite nmadd_val. fold p q. rewrite <- E. unfold Rdiv. ring.
  - destruct (Z.gcd_divide_l (td a) (td b)) as [u Hu]. destruct (Z.gcd_divide_r (td a) (td b)) as [w Hw]. set (g := Z.gcd (td a) (td b)) in *.
    assert (G : (0 < g)%Z). { pose proof (Z.gcd_nonneg (td a) (td b)) as G0. destruct (Z.eq_dec g 0) as [G1|G1]; [apply Z.gcd_eq_0_l in G1; lia|unfold g in *; lia]. } assert (Eu : (td a / g = u)%Z) by (rewrite Hu; apply Z.div_mul; lia). assert (Ew : (td b / g = w)%Z) by (rewrite Hw; apply Z.div_mul; lia). rewrite Eu, Ew. clear - Hu Hw G D D'. nia.
  - destruct (Z.gcd_divide_l (td a) (td b)) as [u Hu]. destruct (Z.gcd_divide_r (td a) (td b)) as [w Hw]. set (g := Z.gcd (td a) (td b)) in *.
    assert (G : (0 < g)%Z). { pose proof (Z.gcd_nonneg (td a) (td b)) as G0. destruct (Z.eq_dec g 0) as [G1|G1]; [apply Z.gcd_eq_0_l in G1; lia|unfold g in *; lia]. }
    assert (Eu : (td a / g = u)%Z) by (rewrite Hu; apply Z.div_mul; lia). assert (Ew : (td b / g = w)%Z) by (rewrite Hw; apply Z.div_mul; lia).
    rewrite Eu, Ew, nmadd_val, !nmscale_val. fold p q. rewrite Hu, Hw, !mult_IZR. assert (0 < u)%Z by (clear - Hu G D; nia). assert (0 < w)%Z by (clear - Hw G D'; nia).
    assert (0 < IZR g) by (apply (IZR_lt 0); lia). assert (0 < IZR u) by (apply (IZR_lt 0); lia). assert (0 < IZR w) by (apply (IZR_lt 0); lia). field. repeat split; lra.
Qed.
Lemma tneg_ok a x : represents a x -> represents (tneg a) (- x).
Proof.
  unfold represents, tneg. cbn [tp td tr]. intros (D & R & B). repeat split; [assumption..|]. rewrite nmscale_val.
  set (p := nmval v (S n) 0 (tp a)) in *. replace (- x - -1 * p / IZR (td a)) with (- (x - p / IZR (td a))) by (unfold Rdiv; ring). now rewrite Rabs_Ropp.
Qed.
Lemma tmult_ok a b x y : represents a x -> represents b y -> represents (tmult m K a b) (x * y).
Proof.
  intros (D & R & B) (D' & R' & B'). apply treduce_ok. unfold represents. cbn [tp td tr].
  pose proof (mags_up (tp a) (td a) D) as Ma. pose proof (mags_up (tp b) (td b) D') as Mb. pose proof (mulK_ok (td a) (td b) (tp b) D D' K (tp a)) as MK.
  pose proof (mags_pos (tp a) (td a) D) as La. pose proof (mags_pos (tp b) (td b) D') as Lb.
  pose proof (lup_pos m _ M0 La) as La'. pose proof (lup_pos m _ M0 Lb) as Lb'. pose proof (over_pos K _ _ La Lb) as Op.
  set (P := mags (tp a) (td a)) in *. set (Q := mags (tp b) (td b)) in *. set (p := nmval v (S n) 0 (tp a) / IZR (td a)) in *. set (q := nmval v (S n) 0 (tp b) / IZR (td b)) in *.
  set (r := nmval v (S n) 0 (mulK n K (tp a) (tp b)) / IZR (td a * td b)) in *.
  pose proof (fmul_pos _ _ R Lb'). pose proof (fmul_pos _ _ R' La'). pose proof (fmul_pos _ _ R R') as RR. pose proof (fmul_pos _ _ RR (fpow_pos m K M0)).
  split; [nia|split; [lia|]]. rewrite !FX_add.
  assert (PK : 0 <= X ^ K) by (apply pow_le; lra).
  replace (x * y - r) with ((p * q - r) + (((x - p) * q + (y - q) * p) + (x - p) * (y - q))) by ring.
  eapply Rle_trans; [apply Rabs_triang|]. rewrite Rmult_plus_distr_l. apply Rplus_le_compat; [exact MK|].
  eapply Rle_trans; [apply Rabs_triang|]. rewrite Rmult_plus_distr_l. apply Rplus_le_compat; [eapply Rle_trans; [apply Rabs_triang|]; rewrite Rmult_plus_distr_l; apply Rplus_le_compat|].
  - rewrite Rabs_mult. apply Rle_trans with (X ^ K * (FX (tr a) * FX (lup m Q))); [|apply Rmult_le_compat_l; [exact PK|apply fmul_ok]].
    rewrite <- Rmult_assoc. apply Rmult_le_compat; try apply Rabs_pos; assumption.
  - rewrite Rabs_mult. apply Rle_trans with (X ^ K * (FX (tr b) * FX (lup m P))); [|apply Rmult_le_compat_l; [exact PK|apply fmul_ok]].
    rewrite <- Rmult_assoc. apply Rmult_le_compat; try apply Rabs_pos; assumption.
  - rewrite Rabs_mult. apply Rle_trans with ((X ^ K * FX (tr a)) * (X ^ K * FX (tr b))); [apply Rmult_le_compat; try apply Rabs_pos; assumption|].
    replace (X ^ K * FX (tr a) * (X ^ K * FX (tr b))) with (X ^ K * ((FX (tr a) * FX (tr b)) * X ^ K)) by ring. apply Rmult_le_compat_l; [exact PK|].
    apply fmul_le; [exact RR|now apply fpow_pos| |split; [exact PK|now apply fpow_ok]].
    split; [apply Rmult_le_pos; now apply FX_pos|apply fmul_ok].
Qed.
Lemma exact_ok t x : (0 < td t)%Z -> tr t = 0%Z -> x = nmval v (S n) 0 (tp t) / IZR (td t) -> represents t x.
Proof. intros D R E. unfold represents. rewrite R, E, FX_0. repeat split; [exact D|lia|]. unfold Rminus. rewrite Rplus_opp_r, Rabs_R0. lra. Qed.
Lemma tnorm_ok e : represents (tnorm n m K e) (peval v e).
Proof.
  induction e; cbn [tnorm peval].
  - apply exact_ok; cbn [tp td tr]; [lia|reflexivity|]. rewrite nmval_cons, nmconst_val. cbn [nmval]. unfold Q2R. unfold Rdiv. ring.
  - apply exact_ok; cbn [tp td tr]; [lia|reflexivity|]. rewrite nmvar_val by (intros k Hk; apply H2; lia). cbn [Nat.add]. field.
  - now apply tadd_ok. - unfold Rminus. apply tadd_ok; [assumption|now apply tneg_ok].
  - now apply tmult_ok. - now apply tneg_ok.
  - induction n0 as [|k IH]; [apply exact_ok; cbn [tpow tp td tr]; [lia|reflexivity|rewrite nmval_cons, nmconst_val; cbn; field]|].
    destruct k as [|k]; [cbn [tpow pow]; rewrite Rmult_1_r; exact IHe|]. change (tpow m K (tnorm n m K e) (S (S k))) with (tmult m K (tnorm n m K e) (tpow m K (tnorm n m K e) (S k))).
    change (peval v e ^ S (S k)) with (peval v e * peval v e ^ S k). now apply tmult_ok.
Qed.
End Tm.
(** the bound over x0^k, when no monomial is of lower degree *)
Definition tlow {n} (k : nat) (p : list (mp n)) : bool := forallb (fun a => Z.eqb (nmabs n a) 0) (firstn k p).
Definition tbest (n : nat) (e : pexp) (m : Z) (K k : nat) : option Z :=
  let t := tnorm n m K e in
  if tlow k (tp t) then Some (lup m (mags (skipn k (tp t)) (td t)) + fmul (tr t) (fpow m (K - k)))%Z else None.
(** [m] rounded upwards *)
Definition qup (q : Q) : Z := fdiv (Qnum q) (Zpos (Qden q)).
Definition tchecks (n : nat) (e : pexp) (m : Q) (K k : nat) (B : Q) : bool :=
  (Qle_bool 0 m && match tbest n e (qup m) K k with Some b => Z.leb (b * Zpos (Qden B)) (Qnum B * 2 ^ 30) | None => false end)%bool.
Theorem tm_bound e m K k B x l : tchecks (List.length l) e m K k B = true -> (k <= K)%nat -> 0 <= x <= Q2R m -> Forall (fun y => Rabs y <= 1) l ->
  Rabs (peval (vars (x :: l)) e) <= Q2R B * x ^ k.
Proof.
  unfold tchecks, tbest. set (n := List.length l). cbv zeta. intros C HK H F. apply andb_prop in C. destruct C as [C0 C].
  destruct (tlow k (tp (tnorm n (qup m) K e))) eqn:E; [|discriminate].
  pose proof (vars_ok x l F) as V. assert (N : forall i, (S n <= i)%nat -> vars (x :: l) i = 0) by (intros i Hi; unfold vars; apply nth_overflow; cbn; unfold n in Hi; lia).
  assert (M0 : (0 <= qup m)%Z). { unfold qup. apply fdiv_pos; [|lia]. apply Qle_bool_iff in C0. unfold Qle in C0. cbn in C0. lia. }
  assert (M1 : Q2R m <= FX (qup m)) by (unfold qup, Q2R; apply fdiv_ok; lia).
  assert (X0 : 0 <= vars (x :: l) 0%nat <= FX (qup m)) by (change (vars (x :: l) 0%nat) with x; lra).
  destruct (tnorm_ok _ n (qup m) K M0 X0 V N e) as (D & R & T). set (t := tnorm n (qup m) K e) in *. change (vars (x :: l) 0%nat) with x in *.
  assert (LOW : nmval (vars (x :: l)) (S n) 0 (tp t) = x ^ k * nmval (vars (x :: l)) (S n) 0 (skipn k (tp t))).
  { rewrite (split_at (vars (x :: l)) n k (tp t)). change (vars (x :: l) 0%nat) with x. assert (Z : nmval (vars (x :: l)) (S n) 0 (firstn k (tp t)) = 0); [|rewrite Z; ring].
    unfold tlow in E. revert E. generalize (firstn k (tp t)). induction l0 as [|a p IH]; [reflexivity|]. cbn [forallb]. intros E. apply andb_prop in E. destruct E as [E1 E2].
    rewrite nmval_cons, (IH E2). apply Z.eqb_eq in E1. pose proof (nmabs_val (vars (x :: l)) n 1 a V) as A. rewrite E1 in A. pose proof (Rabs_pos (nmval (vars (x :: l)) n 1 a)).
    assert (Za : Rabs (nmval (vars (x :: l)) n 1 a) = 0) by lra. destruct (Req_dec (nmval (vars (x :: l)) n 1 a) 0) as [->|Nz]; [ring|]. apply Rabs_no_R0 in Nz. contradiction. }
  rewrite LOW in T. set (p := nmval _ (S n) 0 (skipn k (tp t))) in *.
  pose proof (mags_up _ n (qup m) M0 X0 V (skipn k (tp t)) (td t) D) as P. fold p in P. set (b := lup _ _) in *. set (r := tr t) in *.
  assert (Xk : 0 <= x ^ k) by (apply pow_le; lra). pose proof (fpow_ok (qup m) x (K - k) M0 ltac:(lra)) as FP. pose proof (fmul_ok r (fpow (qup m) (K - k))) as FM. pose proof (FX_pos r R) as Fr.
  assert (CB : FX (b + fmul r (fpow (qup m) (K - k))) <= Q2R B).
  { apply Z.leb_le, IZR_le in C. rewrite !mult_IZR in C. unfold FX, Q2R. rewrite p30. assert (0 < IZR (Z.pos (Qden B))) by (apply IZR_lt; lia).
    apply Rmult_le_reg_r with (IZR (Z.pos (Qden B)) * 1073741824); [lra|].
    match goal with |- ?z / _ * _ <= _ => replace (z / 1073741824 * (IZR (Z.pos (Qden B)) * 1073741824)) with (z * IZR (Z.pos (Qden B))) by field end.
    replace (IZR (Qnum B) * / IZR (Z.pos (Qden B)) * (IZR (Z.pos (Qden B)) * 1073741824)) with (IZR (Qnum B) * 1073741824) by (field; lra). exact C. }
  rewrite FX_add in CB. set (y := peval _ e) in *.
  replace y with (x ^ k * p / IZR (td t) + (y - x ^ k * p / IZR (td t))) by ring. eapply Rle_trans; [apply Rabs_triang|].
  replace (x ^ k * p / IZR (td t)) with (x ^ k * (p / IZR (td t))) in * by (unfold Rdiv; ring). rewrite Rabs_mult, (Rabs_right (x ^ k)) by lra.
  assert (E1 : x ^ K * FX r <= x ^ k * FX (fmul r (fpow (qup m) (K - k)))).
  { replace K with (k + (K - k))%nat at 1 by lia. rewrite pow_add, Rmult_assoc. apply Rmult_le_compat_l; [exact Xk|]. rewrite Rmult_comm. eapply Rle_trans; [|exact FM]. apply Rmult_le_compat_l; lra. }
  assert (E2 : x ^ k * Rabs (p / IZR (td t)) <= x ^ k * FX b) by (apply Rmult_le_compat_l; assumption).
  assert (E3 : x ^ k * (FX b + FX (fmul r (fpow (qup m) (K - k)))) <= x ^ k * Q2R B) by (apply Rmult_le_compat_l; assumption). lra.
Qed.

(** ** reification *)
Ltac var_index x l := lazymatch l with
  | x :: _ => constr:(O)
  | _ :: ?l' => let i := var_index x l' in constr:(S i)
  end.
Ltac is_zconst z := lazymatch z with Z0 => idtac | Zpos _ => idtac | Zneg _ => idtac end.
Ltac qconst e := lazymatch e with
  | IZR ?z => let _ := match goal with _ => is_zconst z end in constr:(inject_Z z)
  | - ?a => let q := qconst a in constr:(Qopp q)
  | ?a + ?b => let q := qconst a in let r := qconst b in constr:(Qplus q r)
  | ?a - ?b => let q := qconst a in let r := qconst b in constr:(Qminus q r)
  | ?a * ?b => let q := qconst a in let r := qconst b in constr:(Qmult q r)
  | ?a / ?b => let q := qconst a in let r := qconst b in constr:(Qdiv q r)
  | / ?b => let r := qconst b in constr:(Qinv r)
  | Q2R ?q => q
  end.
Ltac preify l e := match e with
  | _ => let i := var_index e l in constr:(PV i)
  | _ => let q := qconst e in let q := eval vm_compute in (Qred q) in constr:(PC q)
  | ?a + ?b => let x := preify l a in let y := preify l b in constr:(PA x y)
  | ?a - ?b => let x := preify l a in let y := preify l b in constr:(PS x y)
  | ?a * ?b => let x := preify l a in let y := preify l b in constr:(PM x y)
  | ?a / ?b => let x := preify l a in let q := qconst b in let q := eval vm_compute in (Qred (Qinv q)) in constr:(PM x (PC q))
  | - ?a => let x := preify l a in constr:(PN x)
  | ?a ^ ?n => let x := preify l a in constr:(PP x n)
  end.
(** the bound that [checks] would accept *)
Definition best (e : pexp) (m : Q) (k : nat) : option Q := pbound m k (norm e).

(** [poly_le l m k B]: prove a goal |expr| <= B * x^k, with l = x :: bounded variables;
    leaves 0 <= x <= m and the |y| <= 1. *)
Ltac qside := unfold Q2R; cbn [Qnum Qden]; lra.
Ltac peq := lazymatch goal with
  | |- ?x = ?x => reflexivity
  | |- Q2R _ = _ => unfold Q2R; cbn [Qnum Qden]; lra
  | |- _ + _ = _ + _ => apply (f_equal2 Rplus); peq
  | |- _ - _ = _ - _ => apply (f_equal2 Rminus); peq
  | |- _ * _ = _ * _ => apply (f_equal2 Rmult); peq
  | |- _ * _ = _ / _ => unfold Rdiv at 1; apply (f_equal2 Rmult); peq
  | |- - _ = - _ => apply (f_equal Ropp); peq
  | |- _ ^ _ = _ ^ _ => apply (f_equal2 pow); [peq|reflexivity]
  | |- _ => reflexivity
  end.
Ltac poly_le l m k B :=
  lazymatch goal with |- Rabs ?e <= _ =>
    let p := preify l e in
    let x := lazymatch l with ?x :: _ => x end in
    let r := lazymatch l with _ :: ?r => r end in
    let H := fresh in
    assert (H : Rabs (peval (vars l) p) <= Q2R B * x ^ k);
    [apply (poly_bound' p m k B x r); [vm_compute; reflexivity| |repeat first [apply Forall_nil|apply Forall_cons]]
    |replace e with (peval (vars l) p); [eapply Rle_trans; [exact H|]; try (apply Req_le; apply f_equal2; [unfold Q2R; cbn [Qnum Qden]; lra|reflexivity])
     |cbn [peval vars nth]; peq]]
  end.
(** the same through the truncated form, with cut-off degree [K] *)
Ltac tm_le l m K k B :=
  lazymatch goal with |- Rabs ?e <= _ =>
    let p := preify l e in
    let x := lazymatch l with ?x :: _ => x end in
    let r := lazymatch l with _ :: ?r => r end in
    let H := fresh in
    assert (H : Rabs (peval (vars l) p) <= Q2R B * x ^ k);
    [apply (tm_bound p m K k B x r); [vm_compute; reflexivity|lia| |repeat first [apply Forall_nil|apply Forall_cons]]
    |replace e with (peval (vars l) p); [eapply Rle_trans; [exact H|]; try (apply Req_le; apply f_equal2; [unfold Q2R; cbn [Qnum Qden]; lra|reflexivity])
     |cbn [peval vars nth]; peq]]
  end.
Ltac tm_show l m K k :=
  lazymatch goal with |- Rabs ?e <= _ => let p := preify l e in let n := (eval cbv in (pred (List.length l))) in let r := eval vm_compute in (tbest n p (qup m) K k) in lazymatch r with Some ?b => let q := eval vm_compute in (Z.div (b * 10000) (2 ^ 30) + 1)%Z in idtac q "/ 10000" | None => idtac "low" end end.
