(** Lemmas about printed results. *)
From Coq Require Import ZArith String Ascii Bool Lia Lra List.
From Verif Require Import PyMath M_time M_cli M_cliout Spec_cli Spec_cliout L_cli.
From Verif Require L_earth.
Import ListNotations.
Open Scope string_scope.

Lemma digits_text_snoc ds d : digits_text (ds ++ [d]) = digits_text ds ++ String (ascii_of_nat (48 + d)) "".
Proof. induction ds as [|a ds IH]; [reflexivity|]. cbn [List.app digits_text fold_right append]. f_equal. exact IH. Qed.
Lemma digits_value_snoc ds d : digits_value (ds ++ [d]) = (digits_value ds * 10 + Z.of_nat d)%Z.
Proof. unfold digits_value. rewrite fold_left_app. reflexivity. Qed.
Lemma last_digits_spec p : forall n, (0 <= n)%Z -> exists ds, last_digits p n = digits_text ds /\ Forall digit ds /\ List.length ds = p /\ digits_value ds = (n mod 10 ^ Z.of_nat p)%Z.
Proof.
  induction p as [|p IH]; intros n Hn.
  - exists []. repeat split; [constructor|]. cbn. now rewrite Z.mod_1_r.
  - destruct (IH (n / 10)%Z) as (ds & E & F & L & V); [apply Z.div_pos; lia|]. exists (ds ++ [Z.to_nat (n mod 10)])%list. cbn [last_digits]. rewrite E, digits_text_snoc, digits_value_snoc, V.
    pose proof (Z.mod_pos_bound n 10 ltac:(lia)) as B. split; [reflexivity|]. split; [apply Forall_app; split; [exact F|]; constructor; [unfold digit; lia|constructor]|].
    split; [rewrite app_length, L; cbn; lia|]. rewrite Z2Nat.id by lia. rewrite Nat2Z.inj_succ, Z.pow_succ_r by lia.
    rewrite Z.rem_mul_r by lia. lia.
Qed.
Lemma even_tie x : (Rabs (x - IZR (round_half_even x)) = 1 / 2)%R -> Z.even (round_half_even x) = true.
Proof.
  unfold round_half_even. destruct (base_Int_part x) as [B1 B2]. set (f := Int_part x) in *. destruct (Rlt_dec _ _) as [A|A].
  - rewrite Rabs_right by lra. lra.
  - destruct (Rlt_dec _ _) as [C|C].
    + rewrite plus_IZR. simpl IZR. rewrite Rabs_left by lra. lra.
    + intros _. destruct (Z.even f) eqn:E; [exact E|]. rewrite Z.even_add, E. reflexivity.
Qed.
Lemma round_nonneg x : (0 <= x)%R -> (0 <= round_half_even x)%Z.
Proof.
  intros H. unfold round_half_even. destruct (base_Int_part x) as [B1 B2]. set (f := Int_part x) in *.
  assert (0 <= f)%Z. { assert (-1 < f)%Z; [apply lt_IZR; lra|lia]. } destruct (Rlt_dec _ _); [lia|]. destruct (Rlt_dec _ _); [lia|]. destruct (Z.even f); lia.
Qed.
Lemma str_nonneg z : (0 <= z)%Z -> exists ds, Forall digit ds /\ ds <> [] /\ str_of_Z z = digits_text ds /\ digits_value ds = z.
Proof.
  intros H. unfold str_of_Z. pose proof (DecimalZ.of_to z) as V. destruct z as [|q|q]; [| |lia].
  - exists [0%nat]. repeat split; try discriminate. repeat constructor.
  - cbn [Z.to_int] in *. cbn [Z.of_int] in V. rewrite uint_value in V. set (u := Pos.to_uint q) in *.
    exists (uint_digits u). split; [apply uint_digits_ok|]. split; [intros E; rewrite E in V; discriminate|]. split; [|exact V].
    cbn [DecimalString.NilZero.string_of_int]. unfold DecimalString.NilZero.string_of_uint. destruct u; try (rewrite uint_text; reflexivity). discriminate.
Qed.
Lemma fixed_printed p x : exists d, fixed p x = decimal_text d /\ printed p x d.
Proof.
  assert (T : (0 < 10 ^ p)%R) by (apply pow_lt; lra). assert (NN : (0 <= Rabs x * 10 ^ p)%R) by (apply Rmult_le_pos; [apply Rabs_pos|lra]).
  unfold fixed. set (n := round_half_even (Rabs x * 10 ^ p)). pose proof (round_nonneg _ NN) as Hn. fold n in Hn.
  assert (P10 : (0 < 10 ^ Z.of_nat p)%Z) by (apply Z.pow_pos_nonneg; lia).
  destruct (str_nonneg (n / 10 ^ Z.of_nat p)) as (di & F1 & N1 & -> & V1); [apply Z.div_pos; lia|].
  destruct (last_digits_spec p n Hn) as (df & E2 & F2 & L2 & V2).
  set (sg := if Rlt_dec x 0 then SMinus else SNone).
  exists (mkDec sg di (match p with O => None | S _ => Some df end) None). split.
  - unfold decimal_text. cbn [d_sign d_int d_frac d_exp]. unfold sg. rewrite E2. destruct p; destruct (Rlt_dec x 0); cbn [sign_text]; rewrite ?app_nil_s; reflexivity.
  - assert (FD : frac_digits (mkDec sg di (match p with O => None | S _ => Some df end) None) = df) by (destruct p; [destruct df; [reflexivity|discriminate]|reflexivity]).
    split; [|split; [reflexivity|]].
    + unfold decimal_ok. rewrite FD. cbn [d_int d_exp]. split; [exact F1|]. split; [exact F2|]. split; [|exact I]. destruct di; [congruence|discriminate].
    + split; [cbn [d_sign]; unfold sg; destruct (Rlt_dec x 0); split; intros; try reflexivity; try assumption; try discriminate; contradiction|].
      split; [cbn [d_sign]; unfold sg; destruct (Rlt_dec x 0); discriminate|]. split; [exact N1|].
      split; [cbn [d_frac]; destruct p; [reflexivity|split; [now symmetry|discriminate]]|]. exists n. split; [|split].
      * assert (AV : Rabs (decimal_value (mkDec sg di (match p with O => None | S _ => Some df end) None)) = (IZR (digits_value di) + IZR (digits_value df) / 10 ^ p)%R).
        { unfold decimal_value. rewrite FD, L2. cbn [d_sign d_int d_exp]. rewrite Rmult_1_r.
          assert (Q : (0 <= IZR (digits_value di) + IZR (digits_value df) / 10 ^ p)%R).
          { rewrite V1, V2. apply Rplus_le_le_0_compat; [apply IZR_le, Z.div_pos; lia|]. apply Rmult_le_pos; [apply IZR_le, Z.mod_pos_bound; lia|]. left. now apply Rinv_0_lt_compat. }
          unfold sg. destruct (Rlt_dec x 0); rewrite Rabs_mult, (Rabs_right (_ + _)) by lra.
          - replace (-1)%R with (- (1))%R by lra. rewrite Rabs_Ropp, Rabs_R1. ring.
          - rewrite Rabs_R1. ring. }
        rewrite AV, V1, V2. replace ((IZR (n / 10 ^ Z.of_nat p) + IZR (n mod 10 ^ Z.of_nat p) / 10 ^ p) * 10 ^ p)%R with (IZR (n / 10 ^ Z.of_nat p) * 10 ^ p + IZR (n mod 10 ^ Z.of_nat p))%R by (field; lra).
        rewrite pow_IZR, <- mult_IZR, <- plus_IZR. f_equal. rewrite (Z.div_mod n (10 ^ Z.of_nat p)) at 3 by lia. lia.
      * apply L_earth.round_half_even_near.
      * apply even_tie.
Qed.
Lemma printed_close p x d : printed p x d -> (Rabs (decimal_value d - x) <= / 10 ^ p / 2)%R.
Proof.
  intros (O & Ee & Sg & Sp & _ & _ & N & EN & C & _). assert (T : (0 < 10 ^ p)%R) by (apply pow_lt; lra). rewrite <- EN in C. clear EN N.
  assert (A : (Rabs (Rabs x - Rabs (decimal_value d)) <= / 10 ^ p / 2)%R).
  { apply Rmult_le_reg_r with (10 ^ p)%R; [exact T|]. rewrite <- (Rabs_right (10 ^ p)) at 1 by lra. rewrite <- Rabs_mult, Rmult_minus_distr_r. replace (/ 10 ^ p / 2 * 10 ^ p)%R with (1 / 2)%R by (field; lra). exact C. }
  assert (Q : (0 <= IZR (digits_value (d_int d)) + IZR (digits_value (frac_digits d)) / 10 ^ List.length (frac_digits d))%R).
  { assert (DV : forall ds, (0 <= digits_value ds)%Z). { intros ds. unfold digits_value. assert (G : forall a, (0 <= a)%Z -> (0 <= fold_left (fun a d => (a * 10 + Z.of_nat d)%Z) ds a)%Z); [|apply G; lia]. induction ds as [|k ds IH]; intros a Ha; [exact Ha|]. cbn [fold_left]. apply IH. lia. }
    apply Rplus_le_le_0_compat; [apply IZR_le, DV|]. apply Rmult_le_pos; [apply IZR_le, DV|]. left. apply Rinv_0_lt_compat, pow_lt. lra. }
  assert (V : decimal_value d = (match d_sign d with SMinus => -1 | _ => 1 end * (IZR (digits_value (d_int d)) + IZR (digits_value (frac_digits d)) / 10 ^ List.length (frac_digits d)))%R) by (unfold decimal_value; rewrite Ee; ring).
  set (m := (_ + _)%R) in Q, V. clearbody m. destruct (d_sign d) eqn:Es.
  - assert (~ (x < 0)%R) by (intros X; apply Sg in X; discriminate). rewrite V in *. rewrite Rmult_1_l in *. rewrite (Rabs_right x), (Rabs_right m) in A by lra. rewrite Rabs_minus_sym. exact A.
  - congruence.
  - assert (x < 0)%R by now apply Sg. rewrite V in *. replace (-1 * m)%R with (- m)%R in * by ring. rewrite Rabs_Ropp, (Rabs_left x), (Rabs_right m) in A by lra. replace (- m - x)%R with (- x - m)%R by ring. exact A.
Qed.
Definition no_blank (s : string) : Prop := all_chars (fun c => (c =? " ")%char = false) s.
Lemma split_one s : no_blank s -> split_blank s = [s].
Proof. induction s as [|c s IH]; [reflexivity|]. intros [H A]. cbn [split_blank]. now rewrite H, IH. Qed.
Lemma split_app s t : no_blank s -> split_blank (s ++ " " ++ t) = s :: split_blank t.
Proof. induction s as [|c s IH]; [reflexivity|]. intros [H A]. cbn [append split_blank]. rewrite H. change (s ++ String " " t) with (s ++ " " ++ t). now rewrite IH. Qed.
Lemma split_joined l : l <> [] -> Forall no_blank l -> split_blank (M_cliout.join " " l) = l.
Proof.
  intros N F. induction F as [|s l H F IH]; [congruence|]. cbn [M_cliout.join]. destruct l as [|s' l']; [now apply split_one|].
  rewrite split_app by exact H. now rewrite IH.
Qed.
Lemma numchar_no_blank s : all_chars numchar s -> no_blank s.
Proof. apply all_chars_imp. intros c [H _]. destruct (c =? " ")%char eqn:E; [|reflexivity]. apply Ascii.eqb_eq in E. subst c. exfalso. revert H. cbn. discriminate. Qed.
Lemma decimal_no_blank d : decimal_ok d -> no_blank (decimal_text d).
Proof. intros H. now apply numchar_no_blank, decimal_numchar. Qed.
