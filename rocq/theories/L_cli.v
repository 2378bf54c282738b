(** Lemmas about the command line model. *)
From Coq Require Import ZArith String Ascii Bool Lia Lra List DecimalString DecimalZ.
From Verif Require Import PyMath M_ellipsoid M_time M_cli Spec_cli.
Open Scope string_scope.

Lemma app_assoc_s (a b c : string) : (a ++ b) ++ c = a ++ (b ++ c).
Proof. induction a as [|x a IH]; cbn; [reflexivity|now rewrite IH]. Qed.
Lemma app_nil_s (a : string) : a ++ "" = a.
Proof. induction a as [|x a IH]; cbn; [reflexivity|now rewrite IH]. Qed.
Lemma all_chars_app P a b : all_chars P (a ++ b) <-> all_chars P a /\ all_chars P b.
Proof. induction a as [|x a IH]; cbn; [tauto|]. rewrite IH. tauto. Qed.
Lemma all_chars_imp (P Q : ascii -> Prop) s : (forall c, P c -> Q c) -> all_chars P s -> all_chars Q s.
Proof. intros H. induction s as [|x s IH]; cbn; [auto|]. intros [A B]. auto. Qed.
Definition sp (c : ascii) : Prop := is_space c = true.
Definition nsp (c : ascii) : Prop := is_space c = false.
Lemma blank_sp c : blank c -> sp c.
Proof. intros [->|[->|[->| ->]]]; reflexivity. Qed.
Lemma lstrip_blank l s : all_chars sp l -> lstrip (l ++ s) = lstrip s.
Proof. induction l as [|c l IH]; [reflexivity|]. intros [H A]. cbn. rewrite H. auto. Qed.
Lemma rstrip_blank r : all_chars sp r -> rstrip r = "".
Proof. induction r as [|c r IH]; [reflexivity|]. intros [H A]. cbn. now rewrite IH, H. Qed.
Lemma rstrip_text t r : all_chars nsp t -> all_chars sp r -> rstrip (t ++ r) = t.
Proof.
  intros Ht Hr. induction t as [|c t IH]; cbn [append]; [now apply rstrip_blank|]. destruct Ht as [H A]. cbn [rstrip]. rewrite (IH A). destruct t; [now rewrite H|reflexivity].
Qed.
Lemma lstrip_text t r : all_chars nsp t -> t <> "" -> lstrip (t ++ r) = t ++ r.
Proof. destruct t as [|c t]; [congruence|]. intros [H A] _. cbn. now rewrite H. Qed.
Lemma strip_padded t s : padded t s -> all_chars nsp t -> t <> "" -> strip s = t.
Proof.
  intros (l & r & Hl & Hr & ->) Ht Hn. unfold strip. apply (all_chars_imp _ _ _ blank_sp) in Hl. apply (all_chars_imp _ _ _ blank_sp) in Hr.
  rewrite lstrip_blank, lstrip_text by assumption. now apply rstrip_text.
Qed.
Lemma lstrip_idem s : lstrip (lstrip s) = lstrip s.
Proof. induction s as [|c s IH]; [reflexivity|]. cbn. destruct (is_space c) eqn:E; [exact IH|]. cbn. now rewrite E. Qed.
Lemma rstrip_idem s : rstrip (rstrip s) = rstrip s.
Proof.
  induction s as [|c s IH]; [reflexivity|]. cbn. destruct (rstrip s) as [|c' s'] eqn:E; [destruct (is_space c) eqn:F; [reflexivity|cbn; now rewrite F]|].
  cbn [rstrip] in *. rewrite IH. reflexivity.
Qed.
Lemma strip_comm s : lstrip (rstrip s) = rstrip (lstrip s).
Proof.
  induction s as [|c s IH]; [reflexivity|]. cbn [lstrip]. destruct (is_space c) eqn:E.
  - rewrite <- IH. cbn [rstrip]. rewrite E. destruct (rstrip s) eqn:F; [reflexivity|]. cbn [lstrip]. now rewrite E.
  - cbn [rstrip]. rewrite E. destruct (rstrip s) eqn:F; cbn [lstrip]; now rewrite E.
Qed.
Lemma strip_strip s : strip (strip s) = strip s.
Proof. unfold strip. now rewrite strip_comm, rstrip_idem, lstrip_idem. Qed.
Lemma strip_lstrip s : strip (lstrip s) = strip s.
Proof. unfold strip. now rewrite lstrip_idem. Qed.
Lemma strip_rstrip s : strip (rstrip s) = strip s.
Proof. unfold strip. now rewrite strip_comm, rstrip_idem. Qed.
Lemma comma_nsp : is_space "," = false. Proof. reflexivity. Qed.
Lemma has_comma_lstrip s : has_comma (lstrip s) = has_comma s.
Proof. induction s as [|c s IH]; [reflexivity|]. cbn. destruct (is_space c) eqn:E; [|reflexivity]. rewrite IH. destruct (Ascii.eqb_spec c ","); [subst; discriminate|reflexivity]. Qed.
Lemma has_comma_rstrip s : has_comma (rstrip s) = has_comma s.
Proof.
  induction s as [|c s IH]; [reflexivity|]. cbn [rstrip has_comma]. rewrite <- IH. destruct (rstrip s) as [|c' s'] eqn:F; [|reflexivity]. destruct (is_space c) eqn:E; [|reflexivity].
  destruct (Ascii.eqb_spec c ","); [subst; discriminate|reflexivity].
Qed.
Lemma has_comma_strip s : has_comma (strip s) = has_comma s.
Proof. unfold strip. now rewrite has_comma_rstrip, has_comma_lstrip. Qed.
Lemma split_nonempty s : split_comma s <> [].
Proof. destruct s; [discriminate|]. cbn. destruct (Ascii.eqb _ _); [discriminate|]. destruct (split_comma s); discriminate. Qed.
Lemma strip_cons_space c s : is_space c = true -> strip (String c s) = strip s.
Proof. intros E. unfold strip. cbn [lstrip]. now rewrite E. Qed.
Lemma split_lstrip s : map strip (split_comma (lstrip s)) = map strip (split_comma s).
Proof.
  induction s as [|c s IH]; [reflexivity|]. cbn [lstrip]. destruct (is_space c) eqn:E; [|reflexivity]. rewrite IH. cbn [split_comma].
  destruct (Ascii.eqb_spec c ","); [subst; discriminate|]. destruct (split_comma s) as [|h l] eqn:F; [now destruct (split_nonempty s)|]. cbn [map]. now rewrite strip_cons_space.
Qed.
Lemma strip_cons_tail c a b : rstrip a = rstrip b -> strip (String c a) = strip (String c b).
Proof. intros E. rewrite <- (strip_rstrip (String c a)), <- (strip_rstrip (String c b)). f_equal. cbn [rstrip]. now rewrite E. Qed.
Lemma split_rstrip s : Forall2 (fun a b => rstrip a = rstrip b) (split_comma (rstrip s)) (split_comma s).
Proof.
  induction s as [|c s IH]; [repeat constructor|]. cbn [rstrip split_comma].
  destruct (rstrip s) as [|c' s'] eqn:F.
  - (* only blanks follow *) cbn [split_comma] in IH. destruct (split_comma s) as [|y l'] eqn:G; inversion IH as [|? ? ? ? H1 H2]; subst. inversion H2; subst. cbn [rstrip] in H1.
    destruct (is_space c) eqn:E.
    + destruct (Ascii.eqb_spec c ","); [subst; discriminate|]. repeat constructor. cbn [rstrip]. rewrite <- H1. now rewrite E.
    + cbn [split_comma]. destruct (Ascii.eqb_spec c ",").
      * repeat constructor. exact H1.
      * repeat constructor. cbn [rstrip]. rewrite <- H1. reflexivity.
  - rewrite <- F in *. clear F. change (split_comma (String c (rstrip s))) with (if (c =? ",")%char then EmptyString :: split_comma (rstrip s) else match split_comma (rstrip s) with h :: l => String c h :: l | [] => [String c EmptyString] end).
    destruct (Ascii.eqb c ","); [constructor; [reflexivity|exact IH]|].
    destruct IH as [|a b l l' H1 H2]; [repeat constructor|]. constructor; [|exact H2]. cbn [rstrip]. now rewrite H1.
Qed.
Lemma strip_of_rstrip a b : rstrip a = rstrip b -> strip a = strip b.
Proof. intros E. rewrite <- (strip_rstrip a), <- (strip_rstrip b). now rewrite E. Qed.
Lemma split_strip s : map strip (split_comma (strip s)) = map strip (split_comma s).
Proof.
  unfold strip at 2. rewrite <- (split_lstrip s). pose proof (split_rstrip (lstrip s)) as H. induction H; cbn [map]; [reflexivity|]. f_equal; [now apply strip_of_rstrip|assumption].
Qed.
Lemma split_nocomma s : has_comma s = false -> split_comma s = [s].
Proof. induction s as [|c s IH]; [reflexivity|]. cbn. intros H. apply orb_false_iff in H. destruct H as [-> H]. now rewrite IH. Qed.
Lemma split_app s t : has_comma s = false -> split_comma (s ++ "," ++ t) = s :: split_comma t.
Proof. induction s as [|c s IH]; [reflexivity|]. intros H. cbn in H. apply orb_false_iff in H. destruct H as [E H]. cbn [append split_comma]. rewrite E. cbn [append] in IH. now rewrite IH. Qed.
Lemma split_join l : l <> [] -> Forall (fun s => has_comma s = false) l -> split_comma (comma_join l) = l.
Proof.
  intros N H. induction H as [|s l H F IH]; [congruence|]. destruct l as [|t l]; [now apply split_nocomma|].
  change (comma_join (s :: t :: l)) with (s ++ "," ++ comma_join (t :: l)). rewrite split_app by assumption. now rewrite IH.
Qed.
Lemma has_comma_join s t l : has_comma (comma_join (s :: t :: l)) = true.
Proof.
  change (comma_join (s :: t :: l)) with (s ++ "," ++ comma_join (t :: l)). induction s as [|c s IH]; [reflexivity|]. cbn [append has_comma] in *. rewrite IH. apply orb_true_r.
Qed.
Lemma has_comma_app a b : has_comma (a ++ b) = (has_comma a || has_comma b)%bool.
Proof. induction a as [|c a IH]; [reflexivity|]. cbn. now rewrite IH, orb_assoc. Qed.

(** ** Numerals *)
Definition numchar (c : ascii) : Prop := is_space c = false /\ (c =? ",")%char = false.
Lemma digit_cases (P : nat -> Prop) : P 0%nat -> P 1%nat -> P 2%nat -> P 3%nat -> P 4%nat -> P 5%nat -> P 6%nat -> P 7%nat -> P 8%nat -> P 9%nat -> forall d, digit d -> P d.
Proof. intros. unfold digit in *. do 10 (destruct d as [|d]; [assumption|]). lia. Qed.
Lemma digit_numchar d : digit d -> numchar (ascii_of_nat (48 + d)).
Proof. revert d. apply digit_cases; split; reflexivity. Qed.
Lemma digit_of_digit d : digit d -> digit_of (ascii_of_nat (48 + d)) = Some (Z.of_nat d).
Proof. revert d. apply digit_cases; reflexivity. Qed.
Lemma digits_numchar ds : Forall digit ds -> all_chars numchar (digits_text ds).
Proof. induction 1; cbn; [exact I|]. split; [now apply digit_numchar|assumption]. Qed.
Lemma sign_numchar s : all_chars numchar (sign_text s).
Proof. destruct s; repeat split. Qed.
Lemma decimal_numchar d : decimal_ok d -> all_chars numchar (decimal_text d).
Proof.
  intros (H1 & H2 & _ & H3). unfold decimal_text. rewrite !all_chars_app. split; [apply sign_numchar|]. split; [now apply digits_numchar|]. split.
  - unfold frac_digits in H2. destruct (d_frac d); [|exact I]. cbn. split; [split; reflexivity|]. now apply digits_numchar.
  - destruct (d_exp d) as [[s l]|]; [|exact I]. cbn. split; [split; reflexivity|]. rewrite all_chars_app. split; [apply sign_numchar|]. now apply digits_numchar.
Qed.
Lemma numchar_nocomma s : all_chars numchar s -> has_comma s = false.
Proof. induction s as [|c s IH]; [reflexivity|]. intros [[_ H] A]. cbn. now rewrite H, IH. Qed.
Lemma blank_nocomma s : all_chars blank s -> has_comma s = false.
Proof. induction s as [|c s IH]; [reflexivity|]. intros [H A]. cbn. rewrite (IH A), orb_false_r. destruct H as [->|[->|[->| ->]]]; reflexivity. Qed.
(** Characters that end a run of digits. *)
Definition stops (s : string) : Prop := match s with "" => True | String c _ => digit_of c = None /\ (c =? "_")%char = false end.
Lemma take_digits_text ds : forall acc n rest, Forall digit ds -> stops rest ->
  take_digits acc n (digits_text ds ++ rest) = (fold_left (fun a d => (a * 10 + Z.of_nat d)%Z) ds acc, (n + List.length ds)%nat, rest).
Proof.
  induction ds as [|d ds IH]; intros acc n rest F S.
  - cbn. rewrite Nat.add_0_r. destruct rest as [|c rest]; [reflexivity|]. destruct S as [S1 S2]. cbn. now rewrite S1, S2.
  - inversion F; subst. cbn [digits_text fold_right append take_digits]. rewrite digit_of_digit by assumption. fold (digits_text ds). rewrite IH by assumption. cbn [fold_left List.length]. now rewrite Nat.add_succ_r.
Qed.
Lemma fold_digits_acc ds : forall a, fold_left (fun a d => (a * 10 + Z.of_nat d)%Z) ds a = (a * 10 ^ Z.of_nat (List.length ds) + digits_value ds)%Z.
Proof.
  unfold digits_value. induction ds as [|d ds IH]; intros a; cbn [fold_left List.length]; [cbn; lia|]. rewrite IH, (IH (0 * 10 + _)%Z). rewrite Nat2Z.inj_succ, Z.pow_succ_r by lia. lia.
Qed.
Lemma digits_value_nonneg ds : (0 <= digits_value ds)%Z.
Proof.
  unfold digits_value. assert (H : forall l a, (0 <= a)%Z -> (0 <= fold_left (fun a d => (a * 10 + Z.of_nat d)%Z) l a)%Z); [|now apply H].
  induction l; intros; cbn; [assumption|]. apply IHl. lia.
Qed.
Definition exp_text (e : option (sgn * list nat)) : string := match e with Some (s, l) => "e" ++ sign_text s ++ digits_text l | None => "" end.
Definition exp_val (e : option (sgn * list nat)) : R :=
  match e with Some (SMinus, l) => / 10 ^ Z.to_nat (digits_value l) | Some (_, l) => 10 ^ Z.to_nat (digits_value l) | None => 1 end%R.
Lemma powerRZ_pos_nat z : (0 <= z)%Z -> powerRZ 10 z = (10 ^ Z.to_nat z)%R.
Proof. intros H. rewrite <- (Z2Nat.id z) at 1 by assumption. now rewrite pow_powerRZ. Qed.
Lemma powerRZ_neg_nat z : (0 <= z)%Z -> powerRZ 10 (- z) = (/ 10 ^ Z.to_nat z)%R.
Proof. intros H. now rewrite powerRZ_neg', powerRZ_pos_nat. Qed.
Lemma exp_stops e : stops (exp_text e).
Proof. destruct e as [[s l]|]; cbn; auto. Qed.
Lemma take_sign_text s l rest : Forall digit l -> l <> [] -> take_sign (sign_text s ++ digits_text l ++ rest) = (match s with SMinus => true | _ => false end, digits_text l ++ rest).
Proof.
  intros H N. destruct s; try reflexivity. destruct l as [|d l]; [congruence|]. inversion H; subst. clear H N. revert d H2.
  apply digit_cases; reflexivity.
Qed.
Lemma take_exponent_text neg m k e : match e with Some (_, l) => Forall digit l /\ l <> [] | None => True end ->
  take_exponent neg m k (exp_text e) = Some (Fin (signedR neg (IZR m * powerRZ 10 k * exp_val e))).
Proof.
  destruct e as [[s l]|]; [|intros _; cbn; do 3 f_equal; ring]. intros [H N]. cbn [exp_text append take_exponent]. change ((("e" =? "e")%char || ("e" =? "E")%char)%bool) with true. cbn iota.
  rewrite <- (app_nil_s (digits_text l)). rewrite take_sign_text by assumption. rewrite take_digits_text by (auto; exact I). fold (digits_value l).
  destruct l as [|d l]; [congruence|]. cbn [List.length Nat.add]. cbn iota. f_equal. f_equal. f_equal. pose proof (digits_value_nonneg (d :: l)) as P.
  destruct s; cbn [exp_val]; cbn iota; rewrite powerRZ_add by lra; rewrite ?(powerRZ_neg_nat (digits_value (d :: l))), ?(powerRZ_pos_nat (digits_value (d :: l))) by assumption; ring.
Qed.
Lemma app_inv_empty s t : s ++ t = "" -> s = "" /\ t = "". Proof. destruct s; cbn; [auto|discriminate]. Qed.

Definition numstart (s : string) : Prop := match s with "" => False | String c _ => (exists d, digit d /\ c = ascii_of_nat (48 + d)) \/ c = "."%char end.
Lemma take_sign_start s b : numstart b -> take_sign (sign_text s ++ b) = (match s with SMinus => true | _ => false end, b).
Proof.
  intros H. destruct s; try reflexivity. destruct b as [|c b]; [destruct H|]. cbn [sign_text append]. destruct H as [(d & Hd & ->)| ->]; [|reflexivity]. revert d Hd. apply digit_cases; reflexivity.
Qed.
Lemma numstart_special b : numstart b -> (lower b =? "inf") = false /\ (lower b =? "infinity") = false /\ (lower b =? "nan") = false.
Proof.
  destruct b as [|c b]; [intros []|]. intros [(d & Hd & ->)| ->]; [|repeat split]. cbn [lower]. revert d Hd. apply digit_cases; repeat split.
Qed.
Lemma body_start d : decimal_ok d -> numstart (digits_text (d_int d) ++ match d_frac d with Some l => "." ++ digits_text l | None => "" end ++ exp_text (d_exp d)).
Proof.
  intros (H1 & H2 & H3 & H4). unfold frac_digits in *. destruct (d_int d) as [|k l].
  - destruct (d_frac d) as [l|]; [|now destruct H3]. cbn. now right.
  - inversion H1; subst. cbn. left. exists k. auto.
Qed.
Lemma fold_frac m l : fold_left (fun a d => (a * 10 + Z.of_nat d)%Z) l m = (m * 10 ^ Z.of_nat (List.length l) + digits_value l)%Z.
Proof. apply fold_digits_acc. Qed.
Lemma frac_value m l : (IZR (m * 10 ^ Z.of_nat (List.length l) + digits_value l) * powerRZ 10 (- Z.of_nat (List.length l)) = IZR m + IZR (digits_value l) / 10 ^ List.length l)%R.
Proof.
  rewrite powerRZ_neg', <- pow_powerRZ, plus_IZR, mult_IZR, <- pow_IZR. assert (10 ^ List.length l <> 0)%R by (apply pow_nonzero; lra). field. assumption.
Qed.
Lemma nonspace_numchar s : all_chars numchar s -> all_chars nsp s.
Proof. apply all_chars_imp. intros c [H _]. exact H. Qed.
Lemma decimal_text_nonempty d : decimal_ok d -> decimal_text d <> "".
Proof.
  intros H E. unfold decimal_text in E. apply app_inv_empty in E. destruct E as [_ E]. apply body_start in H. change (match d_exp d with Some (s, l) => "e" ++ sign_text s ++ digits_text l | None => "" end) with (exp_text (d_exp d)) in E.
  rewrite E in H. exact H.
Qed.
Lemma padded_refl s : padded s s.
Proof. exists "", "". repeat split. cbn. now rewrite app_nil_s. Qed.
Theorem float_of_decimal d t : decimal_ok d -> padded (decimal_text d) t -> float_of_text t = Some (Fin (decimal_value d)).
Proof.
  intros H Hp. unfold float_of_text. rewrite (strip_padded _ _ Hp) by (try apply nonspace_numchar; try apply decimal_numchar; try apply decimal_text_nonempty; assumption).
  unfold decimal_text. change (match d_exp d with Some (s, l) => "e" ++ sign_text s ++ digits_text l | None => "" end) with (exp_text (d_exp d)).
  pose proof (body_start d H) as B. rewrite take_sign_start by exact B. destruct (numstart_special _ B) as (-> & -> & ->). cbn [orb]. clear B.
  destruct H as (H1 & H2 & H3 & H4). unfold frac_digits, decimal_value in *. unfold frac_digits.
  set (neg := match d_sign d with SMinus => true | _ => false end).
  assert (Hs : forall x, signedR neg x = ((match d_sign d with SMinus => -1 | _ => 1 end) * x)%R) by (intros x; unfold neg; destruct (d_sign d); unfold signedR; ring).
  change (match d_exp d with Some (SMinus, l) => (/ 10 ^ Z.to_nat (digits_value l))%R | Some (_, l) => (10 ^ Z.to_nat (digits_value l))%R | None => 1%R end) with (exp_val (d_exp d)).
  assert (Hs2 : forall x, Some (Fin (signedR neg x)) = Some (Fin ((match d_sign d with SMinus => -1 | _ => 1 end) * x)%R)) by (intros x; now rewrite Hs).
  destruct (d_frac d) as [l|].
  - rewrite take_digits_text by (auto; split; reflexivity). cbn [append]. change (("." =? ".")%char) with true. cbn iota. rewrite take_digits_text by (auto; apply exp_stops). fold (digits_value (d_int d)). cbn [Nat.add].
    destruct (List.length (d_int d) + List.length l)%nat eqn:E; [destruct H3; apply length_zero_iff_nil; rewrite app_length; exact E|].
    rewrite take_exponent_text by exact H4. rewrite Hs2. rewrite fold_frac, frac_value. do 2 f_equal. ring.
  - cbn [append]. rewrite take_digits_text by (auto; apply exp_stops). fold (digits_value (d_int d)). cbn [Nat.add].
    rewrite app_nil_r in H3. destruct (List.length (d_int d)) eqn:E; [destruct H3; now apply length_zero_iff_nil|].
    assert (G : take_exponent neg (digits_value (d_int d)) 0 (exp_text (d_exp d)) = Some (Fin (signedR neg (IZR (digits_value (d_int d)) * powerRZ 10 0 * exp_val (d_exp d))))) by (apply take_exponent_text; exact H4).
    assert (G2 : Some (Fin (signedR neg (IZR (digits_value (d_int d)) * powerRZ 10 0 * exp_val (d_exp d)))) = Some (Fin ((match d_sign d with SMinus => -1 | _ => 1 end) * (IZR (digits_value (d_int d)) + IZR (digits_value []) / 10 ^ List.length (@nil nat)) * exp_val (d_exp d)))%R).
    { rewrite Hs2. do 2 f_equal. cbn. field. }
    rewrite <- G2, <- G. destruct (d_exp d) as [[s l]|]; reflexivity.
Qed.

(** ** Printing integers *)
Fixpoint uint_digits (u : Decimal.uint) : list nat :=
  match u with
  | Decimal.Nil => [] | Decimal.D0 l => 0%nat :: uint_digits l | Decimal.D1 l => 1%nat :: uint_digits l | Decimal.D2 l => 2%nat :: uint_digits l
  | Decimal.D3 l => 3%nat :: uint_digits l | Decimal.D4 l => 4%nat :: uint_digits l | Decimal.D5 l => 5%nat :: uint_digits l
  | Decimal.D6 l => 6%nat :: uint_digits l | Decimal.D7 l => 7%nat :: uint_digits l | Decimal.D8 l => 8%nat :: uint_digits l | Decimal.D9 l => 9%nat :: uint_digits l
  end.
Lemma uint_digits_ok u : Forall digit (uint_digits u).
Proof. induction u; cbn; repeat constructor; assumption. Qed.
Lemma uint_text u : DecimalString.NilEmpty.string_of_uint u = digits_text (uint_digits u).
Proof. induction u; cbn; [reflexivity|..]; now rewrite IHu. Qed.
Lemma uint_acc_value u : forall acc, Z.pos (Pos.of_uint_acc u acc) = fold_left (fun a d => (a * 10 + Z.of_nat d)%Z) (uint_digits u) (Z.pos acc).
Proof. induction u; intros acc; cbn [Pos.of_uint_acc uint_digits fold_left]; [reflexivity|..]; rewrite IHu; f_equal; lia. Qed.
Lemma uint_value u : Z.of_uint u = digits_value (uint_digits u).
Proof.
  unfold Z.of_uint, digits_value. induction u; cbn [Pos.of_uint uint_digits fold_left Z.of_N]; [reflexivity|exact IHu|..]; apply uint_acc_value.
Qed.
Lemma int_decimal z : exists s ds, Forall digit ds /\ ds <> [] /\ s <> SPlus /\ str_of_Z z = sign_text s ++ digits_text ds /\
  IZR z = ((match s with SMinus => -1 | _ => 1 end) * IZR (digits_value ds))%R.
Proof.
  unfold str_of_Z. pose proof (DecimalZ.of_to z) as V. pose proof (DecimalZ.to_of (Z.to_int z)) as T. rewrite V in T. destruct (Z.to_int z) as [u|u].
  - exists SNone, (match uint_digits u with [] => [0%nat] | l => l end). pose proof (uint_digits_ok u) as O. cbn [Z.of_int] in V. rewrite uint_value in V.
    assert (X : NilZero.string_of_uint u = digits_text (match uint_digits u with [] => [0%nat] | l => l end)).
    { unfold NilZero.string_of_uint. destruct u; try reflexivity; rewrite uint_text; reflexivity. }
    split; [destruct (uint_digits u); [repeat constructor|exact O]|]. split; [destruct (uint_digits u); discriminate|]. split; [discriminate|]. split; [exact X|].
    rewrite <- V. destruct (uint_digits u); cbn [digits_value fold_left]; rewrite Rmult_1_l; reflexivity.
  - exists SMinus, (match uint_digits u with [] => [0%nat] | l => l end). pose proof (uint_digits_ok u) as O. cbn [Z.of_int] in V. rewrite uint_value in V.
    assert (X : NilZero.string_of_uint u = digits_text (match uint_digits u with [] => [0%nat] | l => l end)).
    { unfold NilZero.string_of_uint. destruct u; try reflexivity; rewrite uint_text; reflexivity. }
    split; [destruct (uint_digits u); [repeat constructor|exact O]|]. split; [destruct (uint_digits u); discriminate|]. split; [discriminate|]. split; [cbn [NilZero.string_of_int sign_text append]; now rewrite X|].
    assert (Y : digits_value (match uint_digits u with [] => [0%nat] | l => l end) = digits_value (uint_digits u)) by (destruct (uint_digits u); reflexivity). rewrite <- V, opp_IZR, Y. ring.
Qed.
Lemma float_of_int z : float_of_text (str_of_Z z) = Some (Fin (IZR z)).
Proof.
  destruct (int_decimal z) as (s & ds & H1 & H2 & H3 & -> & ->). set (d := mkDec s ds None None).
  assert (O : decimal_ok d) by (repeat split; cbn; auto; rewrite app_nil_r; assumption).
  rewrite (float_of_decimal d) by (auto; unfold decimal_text; cbn; rewrite app_nil_s; apply padded_refl). do 2 f_equal. unfold d, decimal_value, frac_digits. cbn [d_sign d_int d_frac d_exp List.length]. change (digits_value []) with 0%Z. change (digits_value [0%nat]) with 0%Z. field.
Qed.
Lemma float_of_intpoint z : float_of_text (str_of_Z z ++ ".0") = Some (Fin (IZR z)).
Proof.
  destruct (int_decimal z) as (s & ds & H1 & H2 & H3 & -> & ->). set (d := mkDec s ds (Some [0%nat]) None).
  assert (O : decimal_ok d) by (split; [exact H1|]; split; [repeat constructor|]; split; [destruct ds; discriminate|exact I]).
  rewrite (float_of_decimal d) by (auto; unfold decimal_text; cbn; rewrite app_assoc_s; apply padded_refl). do 2 f_equal. unfold d, decimal_value, frac_digits. cbn [d_sign d_int d_frac d_exp List.length]. change (digits_value []) with 0%Z. change (digits_value [0%nat]) with 0%Z. field.
Qed.
Lemma int_numchar z s : all_chars numchar s -> all_chars numchar (str_of_Z z ++ s).
Proof. intros H. destruct (int_decimal z) as (g & ds & H1 & _ & _ & -> & _). rewrite !all_chars_app. repeat split; [apply sign_numchar|now apply digits_numchar|exact H]. Qed.

(** ** Words *)
Lemma letter_facts c : letter c -> is_space c = false /\ (c =? ",")%char = false /\ (c =? "+")%char = false /\ (c =? "-")%char = false /\ (c =? ".")%char = false /\ digit_of c = None /\ (c =? "_")%char = false.
Proof.
  intros H. unfold letter in H. assert (E : forall b : ascii, (nat_of_ascii b < 65)%nat \/ (90 < nat_of_ascii b < 97)%nat -> (c =? b)%char = false).
  { intros b Hb. destruct (Ascii.eqb_spec c b); [|reflexivity]. subst. lia. }
  rewrite !E by (vm_compute; lia). unfold is_space, digit_of. repeat split.
  - apply orb_false_iff. split; apply andb_false_iff; right; apply Nat.leb_gt; lia.
  - replace ((48 <=? nat_of_ascii c) && (nat_of_ascii c <=? 57))%nat%bool with false; [reflexivity|]. symmetry. apply andb_false_iff. right. apply Nat.leb_gt. lia.
Qed.
Lemma word_not_float s : all_chars letter s -> s <> "" -> lower s <> "inf" -> lower s <> "infinity" -> lower s <> "nan" ->
  strip s = s /\ has_comma s = false /\ float_of_text s = None.
Proof.
  intros A N N1 N2 N3. assert (A1 : all_chars nsp s) by (revert A; apply all_chars_imp; intros c Hc; apply (letter_facts c Hc)).
  assert (St : strip s = s) by (apply (strip_padded s s); [apply padded_refl|assumption|assumption]). split; [exact St|]. split.
  - clear - A. induction s as [|c s IH]; [reflexivity|]. destruct A as [H A]. cbn. destruct (letter_facts c H) as (_ & -> & _). now apply IH.
  - unfold float_of_text. rewrite St. destruct s as [|c s]; [congruence|]. destruct A as [H A]. destruct (letter_facts c H) as (_ & _ & F1 & F2 & F3 & F4 & F5).
    cbn [take_sign]. rewrite F1, F2. apply String.eqb_neq in N1, N2, N3. rewrite N1, N2, N3. cbn [orb take_digits]. rewrite F4, F5. cbn [andb]. rewrite F3. reflexivity.
Qed.

(** ** The option tables *)
Definition opts_of (a : argument) : list string := match a with Positional _ => [] | StoreOpt o _ _ => [o] | FlagOpt o _ _ _ => [o] end.
Definition option_strings (sig : list param) : list string := flat_map opts_of (arguments sig).
Definition dashless (s : string) : Prop := replace_char "-" "_" s = s.
Definition well_formed (sig : list param) : Prop :=
  NoDup (map pname sig) /\ (forall p, In p sig -> dashless (pname p)) /\ NoDup (option_strings sig).
Definition long_option (name : string) : string := "--" ++ replace_char "_" "-" name.
Definition no_option (name : string) : string := "--no-" ++ replace_char "_" "-" name.

Lemma find_flag_in args o d v : find_flag args o = Some (d, v) -> exists x, In (FlagOpt o d v x) args.
Proof.
  induction args as [|a args IH]; [discriminate|]. cbn. destruct a; try (intros H; destruct (IH H) as [x ?]; exists x; now right).
  destruct (String.eqb_spec o opt); [subst; intros E; injection E as <- <-; eexists; left; reflexivity|]. intros H. destruct (IH H) as [x ?]. exists x. now right.
Qed.
Lemma find_store_in args o d : find_store args o = Some d -> exists x, In (StoreOpt o d x) args.
Proof.
  induction args as [|a args IH]; [discriminate|]. cbn. destruct a; try (intros H; destruct (IH H) as [x ?]; exists x; now right).
  destruct (String.eqb_spec o opt); [subst; intros E; injection E as <-; eexists; left; reflexivity|]. intros H. destruct (IH H) as [x ?]. exists x. now right.
Qed.
Lemma find_flag_of args o d v x : NoDup (flat_map opts_of args) -> In (FlagOpt o d v x) args -> find_flag args o = Some (d, v).
Proof.
  induction args as [|a args IH]; [intros _ []|]. cbn [flat_map]. intros N [->|H].
  - cbn. now rewrite String.eqb_refl.
  - assert (I : In o (flat_map opts_of args)) by (apply in_flat_map; eexists; split; [exact H|now left]).
    destruct a; cbn in *; [now apply IH| |]; inversion N; subst; [now apply IH|]. destruct (String.eqb_spec o opt); [subst; contradiction|]. now apply IH.
Qed.
Lemma find_store_of args o d x : NoDup (flat_map opts_of args) -> In (StoreOpt o d x) args -> find_store args o = Some d.
Proof.
  induction args as [|a args IH]; [intros _ []|]. cbn [flat_map]. intros N [->|H].
  - cbn. now rewrite String.eqb_refl.
  - assert (I : In o (flat_map opts_of args)) by (apply in_flat_map; eexists; split; [exact H|now left]).
    destruct a; cbn in *; [now apply IH| |]; inversion N; subst; [|now apply IH]. destruct (String.eqb_spec o opt); [subst; contradiction|]. now apply IH.
Qed.
(** Where an argument comes from. *)
Lemma args_origin sig a : In a (arguments sig) -> exists p, In p sig /\ pname p <> "ell" /\ In a (add_parameter_arg p).
Proof.
  unfold arguments. rewrite in_flat_map. intros (p & H & I). exists p. split; [exact H|]. split; [|exact I].
  intros E. unfold add_parameter_arg in I. rewrite E in I. destruct I.
Qed.
Lemma same_param sig p q : NoDup (map pname sig) -> In p sig -> In q sig -> pname p = pname q -> p = q.
Proof.
  intros N. induction sig as [|r sig IH]; [intros []|]. cbn in N. inversion N; subst. intros [<-|Hp] [<-|Hq] E; [reflexivity| | |now apply IH].
  - destruct H1. rewrite E. now apply in_map.
  - destruct H1. rewrite <- E. now apply in_map.
Qed.
Section Sig.
Variable sig : list param.
Hypothesis WF : well_formed sig.
Lemma dest_name p : In p sig -> normalize_dest (pname p) = pname p.
Proof. destruct WF as (_ & H & _). apply H. Qed.
Lemma arg_case p : pname p <> "ell" -> add_parameter_arg p =
  match pdefault p with
  | Some (DBool d) => [FlagOpt (long_option (pname p)) (normalize_dest (pname p)) true d; FlagOpt (no_option (pname p)) (normalize_dest (pname p)) false true]
  | Some d => [StoreOpt (long_option (pname p)) (normalize_dest (pname p)) (default_str d)]
  | None => [Positional (pname p)] end.
Proof. intros H. unfold add_parameter_arg. destruct (String.eqb_spec (pname p) "ell"); [contradiction|reflexivity]. Qed.
Lemma arg_in p a : In p sig -> In a (add_parameter_arg p) -> In a (arguments sig).
Proof. intros. unfold arguments. apply in_flat_map. eauto. Qed.
Lemma flag_origin o d v : find_flag (arguments sig) o = Some (d, v) -> exists p b, In p sig /\ pname p <> "ell" /\ pdefault p = Some (DBool b) /\ d = pname p /\
  ((o = long_option (pname p) /\ v = true) \/ (o = no_option (pname p) /\ v = false)).
Proof.
  intros H. apply find_flag_in in H. destruct H as [x H]. apply args_origin in H. destruct H as (p & Hp & Hn & H). rewrite arg_case, (dest_name p Hp) in H by assumption. exists p.
  destruct (pdefault p) as [[]|]; cbn in H; try (exfalso; repeat (destruct H as [H|H]; try discriminate H); exact H).
  exists b. destruct H as [H|[H|[]]]; injection H as <- <- <- <-; auto 10.
Qed.
Lemma store_origin o d : find_store (arguments sig) o = Some d -> exists p df, In p sig /\ pname p <> "ell" /\ pdefault p = Some df /\ (forall b, df <> DBool b) /\ d = pname p /\ o = long_option (pname p).
Proof.
  intros H. apply find_store_in in H. destruct H as [x H]. apply args_origin in H. destruct H as (p & Hp & Hn & H). rewrite arg_case, (dest_name p Hp) in H by assumption. exists p.
  destruct (pdefault p) as [df|]; [exists df|exfalso; destruct H as [H|[]]; discriminate].
  destruct df; cbn in H; try (exfalso; destruct H as [H|[H|[]]]; discriminate); destruct H as [H|[]]; injection H as <- <- <-; repeat split; auto; discriminate.
Qed.
Lemma pos_origin d : In d (positionals (arguments sig)) -> exists p, In p sig /\ pname p <> "ell" /\ pdefault p = None /\ d = pname p.
Proof.
  intros H. assert (I : In (Positional d) (arguments sig)).
  { clear WF. revert H. induction (arguments sig) as [|a l IH]; [intros []|]. destruct a; cbn; [intros [->|H]; auto| |]; auto. }
  apply args_origin in I. destruct I as (p & Hp & Hn & I). rewrite arg_case in I by assumption. exists p. destruct (pdefault p) as [[]|]; cbn in I; try (exfalso; repeat (destruct I as [I|I]; try discriminate I); exact I).
  destruct I as [I|[]]. injection I as <-. auto.
Qed.
Lemma flag_known p b : In p sig -> pname p <> "ell" -> pdefault p = Some (DBool b) ->
  find_flag (arguments sig) (long_option (pname p)) = Some (pname p, true) /\ find_flag (arguments sig) (no_option (pname p)) = Some (pname p, false).
Proof.
  intros Hp Hn Hd. destruct WF as (_ & _ & N). pose proof (arg_in p) as A. rewrite arg_case, Hd, (dest_name p Hp) in A by assumption.
  split; eapply find_flag_of; try exact N; apply A; auto; cbn; auto.
Qed.
Lemma store_known p df : In p sig -> pname p <> "ell" -> pdefault p = Some df -> (forall b, df <> DBool b) -> find_store (arguments sig) (long_option (pname p)) = Some (pname p).
Proof.
  intros Hp Hn Hd Nb. destruct WF as (_ & _ & N). pose proof (arg_in p) as A. rewrite arg_case, Hd, (dest_name p Hp) in A by assumption.
  destruct df as [|b|z|z|t]; try (now destruct (Nb b)); (eapply find_store_of; [exact N|]; apply A; [exact Hp|]; now left).
Qed.
End Sig.

(** ** The namespace after parsing *)
(** The last of the flags [on], [off] given, or [b]. *)
Definition last_flag (on off : string) (ts : list token) (b : bool) : bool :=
  fold_left (fun b t => match t with TFlag o => if o =? on then true else if o =? off then false else b | _ => b end) ts b.
(** The last value given for the option [o], or [v]. *)
Definition last_option (o : string) (ts : list token) (v : string) : string :=
  fold_left (fun v t => match t with TOption o' s => if o' =? o then s else v | _ => v end) ts v.
Fixpoint words (ts : list token) : list string :=
  match ts with [] => [] | TWord s :: l => s :: words l | _ :: l => words l end.
Lemma ns_set_same ns k v : ns_set ns k v k = Some v.
Proof. unfold ns_set. now rewrite String.eqb_refl. Qed.
Lemma ns_set_other ns k v x : x <> k -> ns_set ns k v x = ns x.
Proof. intros H. unfold ns_set. apply String.eqb_neq in H. now rewrite H. Qed.
Lemma append_inj a b c : a ++ b = a ++ c -> b = c.
Proof. induction a; cbn; [auto|]. intros H. injection H as H. auto. Qed.
Section Sig2.
Variable sig : list param.
Hypothesis WF : well_formed sig.
Lemma parse_bool p b0 : In p sig -> pname p <> "ell" -> pdefault p = Some (DBool b0) -> forall ts pos ns ns' b,
  (forall d, In d pos -> In d (positionals (arguments sig))) ->
  parse_tokens (arguments sig) pos ns ts = Some ns' -> ns (pname p) = Some (RBool b) ->
  ns' (pname p) = Some (RBool (last_flag (long_option (pname p)) (no_option (pname p)) ts b)).
Proof.
  intros Hp Hn Hd. pose proof WF as (ND & _ & _).
  induction ts as [|t ts IH]; intros pos ns ns' b HP E Hb; cbn [parse_tokens] in E.
  - destruct pos; [|discriminate]. injection E as <-. exact Hb.
  - unfold last_flag. cbn [fold_left]. fold (last_flag (long_option (pname p)) (no_option (pname p)) ts). destruct t as [s|o|o s].
    + destruct pos as [|d pos]; [discriminate|]. eapply IH; [|exact E|]; [intros; apply HP; now right|]. rewrite ns_set_other; [exact Hb|].
      destruct (pos_origin sig d (HP d (or_introl eq_refl))) as (q & Hq & _ & Dq & ->). intros X. assert (p = q) by (apply (same_param sig); auto). subst. congruence.
    + destruct (find_flag (arguments sig) o) as [[d v]|] eqn:F; [|discriminate]. destruct (flag_origin sig WF _ _ _ F) as (q & b' & Hq & Nq & Dq & -> & V).
      destruct (flag_known sig WF p b0 Hp Hn Hd) as [K1 K2].
      destruct (string_dec (pname p) (pname q)) as [X|X].
      * assert (p = q) by (apply (same_param sig); auto). subst q.
        assert (G : (if o =? long_option (pname p) then true else if o =? no_option (pname p) then false else b) = v).
        { destruct V as [[-> ->]|[-> ->]]; [now rewrite String.eqb_refl|]. destruct (String.eqb_spec (no_option (pname p)) (long_option (pname p))) as [Y|Y]; [rewrite Y, K1 in F; congruence|]. now rewrite String.eqb_refl. }
        rewrite G. eapply IH; [exact HP|exact E|]. apply ns_set_same.
      * assert (G : (if o =? long_option (pname p) then true else if o =? no_option (pname p) then false else b) = b).
        { destruct (String.eqb_spec o (long_option (pname p))) as [->|]; [congruence|]. destruct (String.eqb_spec o (no_option (pname p))) as [->|]; [congruence|reflexivity]. }
        rewrite G. eapply IH; [exact HP|exact E|]. rewrite ns_set_other; [exact Hb|exact X].
    + destruct (find_store (arguments sig) o) as [d|] eqn:F; [|discriminate]. destruct (store_origin sig WF _ _ F) as (q & df & Hq & Nq & Dq & Nb & -> & ->).
      eapply IH; [exact HP|exact E|]. rewrite ns_set_other; [exact Hb|]. intros X. assert (p = q) by (apply (same_param sig); auto). subst. rewrite Hd in Dq. injection Dq as <-. now destruct (Nb b0).
Qed.
Lemma parse_store p df : In p sig -> pname p <> "ell" -> pdefault p = Some df -> (forall b, df <> DBool b) -> forall ts pos ns ns' v,
  (forall d, In d pos -> In d (positionals (arguments sig))) ->
  parse_tokens (arguments sig) pos ns ts = Some ns' -> ns (pname p) = Some (RText v) ->
  ns' (pname p) = Some (RText (last_option (long_option (pname p)) ts v)).
Proof.
  intros Hp Hn Hd Nb. pose proof WF as (ND & _ & _).
  induction ts as [|t ts IH]; intros pos ns ns' b HP E Hb; cbn [parse_tokens] in E.
  - destruct pos; [|discriminate]. injection E as <-. exact Hb.
  - unfold last_option. cbn [fold_left]. fold (last_option (long_option (pname p)) ts). destruct t as [s|o|o s].
    + destruct pos as [|d pos]; [discriminate|]. eapply IH; [|exact E|]; [intros; apply HP; now right|]. rewrite ns_set_other; [exact Hb|].
      destruct (pos_origin sig d (HP d (or_introl eq_refl))) as (q & Hq & _ & Dq & ->). intros X. assert (p = q) by (apply (same_param sig); auto). subst. congruence.
    + destruct (find_flag (arguments sig) o) as [[d v]|] eqn:F; [|discriminate]. destruct (flag_origin sig WF _ _ _ F) as (q & b' & Hq & Nq & Dq & -> & V).
      eapply IH; [exact HP|exact E|]. rewrite ns_set_other; [exact Hb|]. intros X. assert (p = q) by (apply (same_param sig); auto). subst. rewrite Hd in Dq. injection Dq as ->. now destruct (Nb b').
    + destruct (find_store (arguments sig) o) as [d|] eqn:F; [|discriminate]. destruct (store_origin sig WF _ _ F) as (q & df' & Hq & Nq & Dq & Nb' & -> & ->).
      destruct (string_dec (pname p) (pname q)) as [X|X].
      * assert (p = q) by (apply (same_param sig); auto). subst q. rewrite String.eqb_refl. eapply IH; [exact HP|exact E|]. apply ns_set_same.
      * destruct (String.eqb_spec (long_option (pname q)) (long_option (pname p))) as [Y|Y].
        -- rewrite Y, (store_known sig WF p df Hp Hn Hd Nb) in F. congruence.
        -- eapply IH; [exact HP|exact E|]. rewrite ns_set_other; [exact Hb|exact X].
Qed.
(** A name not among the remaining positionals keeps its text. *)
Lemma parse_pos_keep p : In p sig -> pname p <> "ell" -> pdefault p = None -> forall ts pos ns ns' v,
  ~ In (pname p) pos -> parse_tokens (arguments sig) pos ns ts = Some ns' -> ns (pname p) = v -> ns' (pname p) = v.
Proof.
  intros Hp Hn Hd. pose proof WF as (ND & _ & _).
  induction ts as [|t ts IH]; intros pos ns ns' v HP E Hb; cbn [parse_tokens] in E.
  - destruct pos; [|discriminate]. injection E as <-. exact Hb.
  - destruct t as [s|o|o s].
    + destruct pos as [|d pos]; [discriminate|]. eapply IH; [|exact E|]; [intros X; apply HP; now right|]. rewrite ns_set_other; [exact Hb|]. intros X. apply HP. now left.
    + destruct (find_flag (arguments sig) o) as [[d w]|] eqn:F; [|discriminate]. destruct (flag_origin sig WF _ _ _ F) as (q & b' & Hq & Nq & Dq & -> & V).
      eapply IH; [exact HP|exact E|]. rewrite ns_set_other; [exact Hb|]. intros X. assert (p = q) by (apply (same_param sig); auto). subst. congruence.
    + destruct (find_store (arguments sig) o) as [d|] eqn:F; [|discriminate]. destruct (store_origin sig WF _ _ F) as (q & df' & Hq & Nq & Dq & Nb' & -> & ->).
      eapply IH; [exact HP|exact E|]. rewrite ns_set_other; [exact Hb|]. intros X. assert (p = q) by (apply (same_param sig); auto). subst. congruence.
Qed.
Lemma parse_pos p : In p sig -> pname p <> "ell" -> pdefault p = None -> forall ts pos ns ns' i,
  NoDup pos -> nth_error pos i = Some (pname p) ->
  parse_tokens (arguments sig) pos ns ts = Some ns' -> exists s, nth_error (words ts) i = Some s /\ ns' (pname p) = Some (RText s).
Proof.
  intros Hp Hn Hd. induction ts as [|t ts IH]; intros pos ns ns' i HN Hi E; cbn [parse_tokens] in E.
  - destruct pos; [|discriminate]. destruct i; discriminate.
  - destruct t as [s|o|o s].
    + destruct pos as [|d pos]; [discriminate|]. inversion HN; subst. cbn [words]. destruct i as [|i]; cbn in Hi.
      * injection Hi as ->. exists s. split; [reflexivity|]. eapply parse_pos_keep; eauto. apply ns_set_same.
      * cbn. eapply IH; eauto.
    + destruct (find_flag (arguments sig) o) as [[d w]|]; [|discriminate]. cbn [words]. eapply IH; eauto.
    + destruct (find_store (arguments sig) o) as [d|]; [|discriminate]. cbn [words]. eapply IH; eauto.
Qed.
End Sig2.
Lemma parse_count args : forall ts pos ns ns', parse_tokens args pos ns ts = Some ns' -> List.length (words ts) = List.length pos.
Proof.
  induction ts as [|t ts IH]; intros pos ns ns' E; cbn [parse_tokens] in E; [now destruct pos|]. destruct t as [s|o|o s]; cbn [words].
  - destruct pos; [discriminate|]. cbn. f_equal. eapply IH; eauto.
  - destruct (find_flag args o) as [[]|]; [|discriminate]. eapply IH; eauto.
  - destruct (find_store args o); [|discriminate]. eapply IH; eauto.
Qed.
Lemma defaults_other p l : pname p <> "ell" -> forall x, x <> pname p -> normalize_dest (pname p) = pname p ->
  ns_defaults (add_parameter_arg p ++ l)%list x = ns_defaults l x.
Proof.
  intros Hn x Hx Hd. rewrite arg_case, Hd by assumption. destruct (pdefault p) as [[]|]; cbn [app ns_defaults]; rewrite ?ns_set_other by assumption; reflexivity.
Qed.
Lemma defaults_value sig : NoDup (map pname sig) -> (forall p, In p sig -> dashless (pname p)) -> forall p d, In p sig -> pname p <> "ell" -> pdefault p = Some d ->
  ns_defaults (arguments sig) (pname p) = Some (match d with DBool b => RBool b | _ => RText (default_str d) end).
Proof.
  induction sig as [|q sig IH]; [intros _ _ p d []|]; intros N D p d [->|Hp] Hn Hd.
  - unfold arguments. cbn [flat_map]. rewrite arg_case, Hd by assumption. unfold normalize_dest. rewrite (D p (or_introl eq_refl)). destruct d; cbn [app ns_defaults]; apply ns_set_same.
  - unfold arguments. cbn [flat_map]. fold (arguments sig). cbn in N. inversion N; subst.
    assert (X : pname p <> pname q) by (intros E; apply H1; rewrite <- E; now apply in_map).
    destruct (string_dec (pname q) "ell") as [E|E].
    + unfold add_parameter_arg. rewrite E. cbn [String.eqb app]. change ("ell" =? "ell") with true. cbn iota. cbn [app]. apply IH; auto. intros; apply D; now right.
    + rewrite defaults_other; auto; [apply IH; auto; intros; apply D; now right|]. apply D. now left.
Qed.
Definition required (sig : list param) : list string :=
  map pname (filter (fun p => match pdefault p with None => negb (pname p =? "ell") | Some _ => false end) sig).
Lemma positionals_app l l' : positionals (l ++ l')%list = (positionals l ++ positionals l')%list.
Proof. induction l as [|a l IH]; [reflexivity|]. destruct a; cbn; now rewrite IH. Qed.
Lemma positionals_required sig : positionals (arguments sig) = required sig.
Proof.
  unfold required, arguments. induction sig as [|p sig IH]; [reflexivity|]. cbn [flat_map filter]. rewrite positionals_app, IH. unfold add_parameter_arg.
  destruct (pname p =? "ell"); [destruct (pdefault p); reflexivity|]. destruct (pdefault p) as [[]|]; reflexivity.
Qed.
Lemma required_nodup sig : NoDup (map pname sig) -> NoDup (required sig).
Proof.
  unfold required. induction sig as [|p sig IH]; cbn; [auto|]. intros N. inversion N; subst. destruct (match pdefault p with None => _ | Some _ => _ end); [|auto].
  cbn. constructor; [|auto]. intros I. apply H1. apply in_map_iff in I. destruct I as (q & E & I). apply filter_In in I. rewrite <- E. apply in_map. tauto.
Qed.
Lemma kwargs_spec iso ell ns : forall sig kw, call_kwargs iso sig ns ell = Ok kw ->
  map fst kw = map pname sig /\
  forall p, In p sig -> (pname p = "ell" -> In (pname p, VEll ell) kw) /\
    (pname p <> "ell" -> exists r v, ns (normalize_dest (pname p)) = Some r /\ coerce_value iso r p = Ok v /\ In (pname p, v) kw).
Proof.
  induction sig as [|q sig IH]; intros kw E; cbn [call_kwargs] in E.
  - injection E as <-. split; [reflexivity|]. intros p [].
  - destruct (if pname q =? "ell" then _ else _) as [v|] eqn:V; [|discriminate]. cbn [bind] in E. destruct (call_kwargs iso sig ns ell) as [kw'|] eqn:K; [|discriminate]. cbn [bind] in E. injection E as <-.
    destruct (IH kw' eq_refl) as [F G]. split; [cbn; now rewrite F|]. intros p [<-|Hp].
    + destruct (String.eqb_spec (pname q) "ell") as [X|X].
      * injection V as <-. split; [intros _; now left|contradiction].
      * split; [contradiction|]. intros _. destruct (ns (normalize_dest (pname q))) as [r|]; [|discriminate]. exists r, v. split; [reflexivity|]. split; [exact V|now left].
    + destruct (G p Hp) as [G1 G2]. split; [intros Y; right; auto|]. intros Y. destruct (G2 Y) as (r & w & ? & ? & ?). exists r, w. repeat split; auto. now right.
Qed.
Lemma nodup_unique {A} (kw : list (string * A)) k v w : NoDup (map fst kw) -> In (k, v) kw -> In (k, w) kw -> v = w.
Proof.
  induction kw as [|[k' u] kw IH]; [intros _ []|]. cbn. intros N. inversion N; subst. intros [E|H] [F|G].
  - congruence. - injection E as -> ->. destruct H1. apply (in_map fst) in G. exact G. - injection F as -> ->. destruct H1. apply (in_map fst) in H. exact H. - auto.
Qed.
