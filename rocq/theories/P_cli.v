(** Property C54: the command line passes on exactly what was typed, and the declared
    defaults otherwise. *)
From Coq Require Import ZArith String Ascii Bool Lia Lra List.
From Verif Require Import PyMath M_ellipsoid M_time M_cli Spec_cli L_cli.
From Verif Require L_utils.
Open Scope string_scope.

(** ** Specification *)
(** The value a typed text stands for (parameters other than times). *)
Inductive means : string -> pyval -> Prop :=
| means_number d s : decimal_ok d -> padded (decimal_text d) s -> means s (VFloat (Fin (decimal_value d)))
| means_list ds ss : (2 <= List.length ds)%nat -> Forall2 (fun d s => decimal_ok d /\ padded (decimal_text d) s) ds ss ->
    means (comma_join ss) (VList (map (fun d => Fin (decimal_value d)) ds))
| means_word w s : all_chars letter w -> w <> "" -> lower w <> "inf" -> lower w <> "infinity" -> lower w <> "nan" -> padded w s -> means s (VStr w).
(** Python's [==] between a default and what arrives: an int equals the float of that value. *)
Definition py_equal (v w : pyval) : Prop := v = w \/ exists z, v = VInt z /\ w = VFloat (Fin (IZR z)).
(** Defaults that are booleans, numbers, or words such as 'zyx'. *)
Definition plain_default (d : dflt) : Prop :=
  match d with
  | DNone => False
  | DBool _ | DInt _ | DFloat _ => True
  | DStr s => all_chars letter s /\ s <> "" /\ lower s <> "inf" /\ lower s <> "infinity" /\ lower s <> "nan"
  end.
(** Whether the command line mentions the option of this name. *)
Definition mentioned (name : string) (ts : list token) : Prop :=
  exists t, In t ts /\ match t with TWord _ => False | TFlag o => o = long_option name \/ o = no_option name | TOption o _ => o = long_option name end.

Lemma coerce_means iso s v p : is_datetime_param p = false -> means s v -> coerce_value iso (RText s) p = Ok v.
Proof.
  intros Hp M. cbn [coerce_value]. rewrite Hp. rewrite has_comma_strip. destruct M as [d s O Pd|ds ss L F|w s A N N1 N2 N3 Pd].
  - assert (C : has_comma s = false).
    { destruct Pd as (l & r & Hl & Hr & ->). rewrite !has_comma_app, (blank_nocomma _ Hl), (blank_nocomma _ Hr), (numchar_nocomma _ (decimal_numchar _ O)). reflexivity. }
    rewrite C. rewrite (strip_padded _ _ Pd) by (try apply nonspace_numchar; try apply decimal_numchar; try apply decimal_text_nonempty; assumption).
    rewrite (float_of_decimal d) by (auto; apply padded_refl). reflexivity.
  - destruct F as [|d0 s0 ds ss H0 F]; [cbn in L; lia|]. destruct F as [|d1 s1 ds ss H1 F]; [cbn in L; lia|].
    rewrite has_comma_join. assert (G : Forall2 (fun d s => decimal_ok d /\ padded (decimal_text d) s) (d0 :: d1 :: ds) (s0 :: s1 :: ss)) by (repeat constructor; try apply H0; try apply H1; assumption).
    clear H0 H1 F L. remember (d0 :: d1 :: ds) as dl. remember (s0 :: s1 :: ss) as sl. assert (N : sl <> []) by (subst; discriminate). clear Heqdl Heqsl d0 d1 ds s0 s1 ss.
    rewrite <- (map_map strip float_of_text), split_strip, split_join; [|exact N|].
    + rewrite map_map. clear N. assert (E : all_some (map (fun x => float_of_text (strip x)) sl) = Some (map (fun d => Fin (decimal_value d)) dl)); [|now rewrite E].
      induction G as [|d s dl sl [O Pd] G IH]; [reflexivity|]. cbn [map all_some]. rewrite IH.
      rewrite (strip_padded _ _ Pd) by (try apply nonspace_numchar; try apply decimal_numchar; try apply decimal_text_nonempty; assumption).
      now rewrite (float_of_decimal d) by (auto; apply padded_refl).
    + clear N. induction G as [|d s dl sl [O (l & r & Hl & Hr & ->)] G IH]; constructor; [|exact IH].
      now rewrite !has_comma_app, (blank_nocomma _ Hl), (blank_nocomma _ Hr), (numchar_nocomma _ (decimal_numchar _ O)).
  - destruct (word_not_float w A N N1 N2 N3) as (S & C & F).
    assert (C' : has_comma s = false) by (destruct Pd as (l & r & Hl & Hr & ->); now rewrite !has_comma_app, (blank_nocomma _ Hl), (blank_nocomma _ Hr), C).
    rewrite C'. rewrite (strip_padded w s Pd); [now rewrite F| |exact N]. revert A. apply all_chars_imp. intros c Hc. apply (letter_facts c Hc).
Qed.
Lemma coerce_default iso d p : is_datetime_param p = false -> plain_default d -> (forall b, d <> DBool b) -> exists v, coerce_value iso (RText (default_str d)) p = Ok v /\ py_equal (default_value d) v.
Proof.
  intros Hp Hd Nb. destruct d as [|b|z|z|s]; [destruct Hd|now destruct (Nb b)| | |].
  - exists (VFloat (Fin (IZR z))). split; [|right; now exists z]. cbn [coerce_value default_str]. rewrite Hp. pose proof (int_numchar z "" I) as N. rewrite app_nil_s in N.
    rewrite has_comma_strip, (numchar_nocomma _ N). rewrite (strip_padded (str_of_Z z) (str_of_Z z)); [now rewrite float_of_int|apply padded_refl|now apply nonspace_numchar|].
    intros E. pose proof (float_of_int z) as F. rewrite E in F. discriminate.
  - exists (VFloat (Fin (IZR z))). split; [|now left]. cbn [coerce_value default_str]. rewrite Hp. pose proof (int_numchar z ".0" ltac:(repeat split)) as N.
    rewrite has_comma_strip, (numchar_nocomma _ N). rewrite (strip_padded (str_of_Z z ++ ".0") (str_of_Z z ++ ".0")); [now rewrite float_of_intpoint|apply padded_refl|now apply nonspace_numchar|].
    destruct (str_of_Z z); discriminate.
  - exists (VStr s). split; [|now left]. cbn in Hd. destruct Hd as (A & N & N1 & N2 & N3). apply coerce_means; [exact Hp|]. apply means_word; auto. apply padded_refl.
Qed.
Lemma last_flag_unmentioned name ts b : ~ mentioned name ts -> last_flag (long_option name) (no_option name) ts b = b.
Proof.
  unfold last_flag. revert b. induction ts as [|t ts IH]; intros b H; [reflexivity|]. cbn [fold_left]. rewrite IH by (intros (x & Hx & M); apply H; exists x; split; [now right|exact M]).
  destruct t as [s|o|o s]; try reflexivity. destruct (String.eqb_spec o (long_option name)) as [->|]; [destruct H; exists (TFlag (long_option name)); cbn; auto|].
  destruct (String.eqb_spec o (no_option name)) as [->|]; [destruct H; exists (TFlag (no_option name)); cbn; auto|reflexivity].
Qed.
Lemma last_option_unmentioned name ts v : ~ mentioned name ts -> last_option (long_option name) ts v = v.
Proof.
  unfold last_option. revert v. induction ts as [|t ts IH]; intros v H; [reflexivity|]. cbn [fold_left]. rewrite IH by (intros (x & Hx & M); apply H; exists x; split; [now right|exact M]).
  destruct t as [s|o|o s]; try reflexivity. destruct (String.eqb_spec o (long_option name)) as [->|]; [destruct H; exists (TOption (long_option name) s); cbn; auto|reflexivity].
Qed.
Lemma call_ok iso en sig ts kw : cli_call iso en sig ts = Some (Ok kw) -> exists ns e, parse_args sig ts = Some ns /\ from_name en = Ok e /\ call_kwargs iso sig ns e = Ok kw.
Proof.
  unfold cli_call. destruct (existsb _ _); [|discriminate]. destruct (parse_args sig ts) as [ns|]; [|discriminate]. destruct (from_name en) as [e|]; cbn [bind]; [|discriminate].
  intros H. injection H as H. eauto.
Qed.

(** ** C54 *)
Section C54.
Variable iso : string -> option datetime.
(** Exactly the parameters of the function are passed, each once, and [ell] is the ellipsoid
    named on the command line. *)
Theorem C54_names_and_ellipsoid : forall en sig ts kw, well_formed sig -> cli_call iso en sig ts = Some (Ok kw) ->
  map fst kw = map pname sig /\ NoDup (map fst kw) /\
  (forall v, In ("ell", v) kw -> exists e, from_name en = Ok e /\ v = VEll e).
Proof.
  intros en sig ts kw WF H. destruct (call_ok _ _ _ _ _ H) as (ns & e & _ & E & K). destruct (kwargs_spec _ _ _ _ _ K) as [F G]. pose proof WF as (ND & _ & _).
  assert (N : NoDup (map fst kw)) by (now rewrite F). split; [exact F|]. split; [exact N|]. intros v Hv. exists e. split; [exact E|].
  pose proof (in_map fst _ _ Hv) as I. rewrite F in I. apply in_map_iff in I. destruct I as (p & Ep & Hp). destruct (G p Hp) as [G1 _]. cbn in Ep. specialize (G1 Ep). rewrite Ep in G1. eapply nodup_unique; eauto.
Qed.
(** A boolean parameter gets the last of its two flags, or its default. *)
Theorem C54_flags : forall en sig ts kw p b, well_formed sig -> cli_call iso en sig ts = Some (Ok kw) ->
  In p sig -> pname p <> "ell" -> pdefault p = Some (DBool b) ->
  In (pname p, VBool (last_flag (long_option (pname p)) (no_option (pname p)) ts b)) kw.
Proof.
  intros en sig ts kw p b WF H Hp Hn Hd. destruct (call_ok _ _ _ _ _ H) as (ns & e & A & E & K). destruct (kwargs_spec _ _ _ _ _ K) as [_ G]. destruct (G p Hp) as [_ G2].
  destruct (G2 Hn) as (r & v & R1 & R2 & R3). rewrite (dest_name sig WF p Hp) in R1. unfold parse_args in A. pose proof WF as (ND & DL & _).
  pose proof (parse_bool sig WF p b Hp Hn Hd ts _ _ _ b (fun d h => h) A (defaults_value sig ND DL p _ Hp Hn Hd)) as X. rewrite R1 in X. injection X as ->. cbn in R2. injection R2 as <-. exact R3.
Qed.
(** A required parameter gets the value of the word in its place. *)
Theorem C54_positional : forall en sig ts kw p i s v, well_formed sig -> cli_call iso en sig ts = Some (Ok kw) ->
  In p sig -> nth_error (required sig) i = Some (pname p) -> nth_error (words ts) i = Some s ->
  is_datetime_param p = false -> means s v -> In (pname p, v) kw.
Proof.
  intros en sig ts kw p i s v WF H Hp Hi Hw Hdt M. destruct (call_ok _ _ _ _ _ H) as (ns & e & A & E & K). destruct (kwargs_spec _ _ _ _ _ K) as [_ G]. destruct (G p Hp) as [_ G2].
  pose proof WF as (ND & DL & _). pose proof (nth_error_In _ _ Hi) as Hr. unfold required in Hr. apply in_map_iff in Hr. destruct Hr as (q & Eq & Hq). apply filter_In in Hq. destruct Hq as [Hq F].
  assert (q = p) by (apply (same_param sig); auto). subst q. destruct (pdefault p) eqn:Hd; [discriminate|]. apply negb_true_iff, String.eqb_neq in F.
  destruct (G2 F) as (r & w & R1 & R2 & R3). rewrite (dest_name sig WF p Hp) in R1. unfold parse_args in A. rewrite positionals_required in A.
  destruct (parse_pos sig WF p Hp F Hd ts _ _ _ i (required_nodup sig ND) Hi A) as (s' & S1 & S2). rewrite Hw in S1. injection S1 as <-. rewrite R1 in S2. injection S2 as ->.
  rewrite (coerce_means iso s v p Hdt M) in R2. injection R2 as <-. exact R3.
Qed.
(** Times go through ISO parsing. *)
Theorem C54_times : forall en sig ts kw p i s, well_formed sig -> cli_call iso en sig ts = Some (Ok kw) ->
  In p sig -> nth_error (required sig) i = Some (pname p) -> nth_error (words ts) i = Some s ->
  pname p = "t" \/ pname p = "time" -> exists t, iso s = Some t /\ In (pname p, VTime t) kw.
Proof.
  intros en sig ts kw p i s WF H Hp Hi Hw Ht. destruct (call_ok _ _ _ _ _ H) as (ns & e & A & E & K). destruct (kwargs_spec _ _ _ _ _ K) as [_ G]. destruct (G p Hp) as [_ G2].
  pose proof WF as (ND & DL & _). pose proof (nth_error_In _ _ Hi) as Hr. unfold required in Hr. apply in_map_iff in Hr. destruct Hr as (q & Eq & Hq). apply filter_In in Hq. destruct Hq as [Hq F].
  assert (q = p) by (apply (same_param sig); auto). subst q. destruct (pdefault p) eqn:Hd; [discriminate|]. apply negb_true_iff, String.eqb_neq in F.
  destruct (G2 F) as (r & w & R1 & R2 & R3). rewrite (dest_name sig WF p Hp) in R1. unfold parse_args in A. rewrite positionals_required in A.
  destruct (parse_pos sig WF p Hp F Hd ts _ _ _ i (required_nodup sig ND) Hi A) as (s' & S1 & S2). rewrite Hw in S1. injection S1 as <-. rewrite R1 in S2. injection S2 as ->.
  cbn [coerce_value] in R2. assert (X : is_datetime_param p = true) by (unfold is_datetime_param; destruct Ht as [-> | ->]; reflexivity). rewrite X in R2.
  destruct (iso s) as [t|]; [|discriminate]. injection R2 as <-. eauto.
Qed.
(** An option given as [--name value] sets exactly its parameter; the last one counts. *)
Theorem C54_options : forall en sig ts kw p d v, well_formed sig -> cli_call iso en sig ts = Some (Ok kw) ->
  In p sig -> pname p <> "ell" -> pdefault p = Some d -> (forall b, d <> DBool b) -> is_datetime_param p = false ->
  means (last_option (long_option (pname p)) ts (default_str d)) v -> In (pname p, v) kw.
Proof.
  intros en sig ts kw p d v WF H Hp Hn Hd Nb Hdt M. destruct (call_ok _ _ _ _ _ H) as (ns & e & A & E & K). destruct (kwargs_spec _ _ _ _ _ K) as [_ G]. destruct (G p Hp) as [_ G2].
  destruct (G2 Hn) as (r & w & R1 & R2 & R3). rewrite (dest_name sig WF p Hp) in R1. unfold parse_args in A. pose proof WF as (ND & DL & _).
  pose proof (defaults_value sig ND DL p _ Hp Hn Hd) as D. assert (D' : ns_defaults (arguments sig) (pname p) = Some (RText (default_str d))) by (rewrite D; destruct d; try reflexivity; now destruct (Nb b)).
  pose proof (parse_store sig WF p d Hp Hn Hd Nb ts _ _ _ _ (fun d h => h) A D') as X. rewrite R1 in X. injection X as ->.
  rewrite (coerce_means iso _ v p Hdt M) in R2. injection R2 as <-. exact R3.
Qed.
(** A parameter that is not mentioned reaches the function with (a value equal to) its
    declared default, if that default is a boolean, a number or a word. *)
Theorem C54_plain_defaults : forall en sig ts kw p d, well_formed sig -> cli_call iso en sig ts = Some (Ok kw) ->
  In p sig -> pname p <> "ell" -> pdefault p = Some d -> plain_default d -> is_datetime_param p = false -> ~ mentioned (pname p) ts ->
  exists v, In (pname p, v) kw /\ py_equal (default_value d) v.
Proof.
  intros en sig ts kw p d WF H Hp Hn Hd Pd Hdt Nm. destruct (match d with DBool _ => true | _ => false end) eqn:B.
  - destruct d as [|b|z|z|s]; try discriminate. exists (VBool b). split; [|now left]. pose proof (C54_flags en sig ts kw p b WF H Hp Hn Hd) as X. rewrite last_flag_unmentioned in X by exact Nm. exact X.
  - assert (Nb : forall b, d <> DBool b) by (intros b ->; discriminate). destruct (call_ok _ _ _ _ _ H) as (ns & e & A & E & K). destruct (kwargs_spec _ _ _ _ _ K) as [_ G]. destruct (G p Hp) as [_ G2].
    destruct (G2 Hn) as (r & w & R1 & R2 & R3). rewrite (dest_name sig WF p Hp) in R1. unfold parse_args in A. pose proof WF as (ND & DL & _).
    pose proof (defaults_value sig ND DL p _ Hp Hn Hd) as D. assert (D' : ns_defaults (arguments sig) (pname p) = Some (RText (default_str d))) by (rewrite D; destruct d; try reflexivity; now destruct (Nb b)).
    pose proof (parse_store sig WF p d Hp Hn Hd Nb ts _ _ _ _ (fun d h => h) A D') as X. rewrite R1 in X. injection X as ->. rewrite last_option_unmentioned in R2 by exact Nm.
    destruct (coerce_default iso d p Hdt Pd Nb) as (v & V1 & V2). rewrite V1 in R2. injection R2 as <-. eauto.
Qed.
(** Finding: a default of None arrives as the text "None". *)
Theorem C69_none_default_becomes_text : forall en sig ts kw p, well_formed sig -> cli_call iso en sig ts = Some (Ok kw) ->
  In p sig -> pname p <> "ell" -> pdefault p = Some DNone -> is_datetime_param p = false -> ~ mentioned (pname p) ts ->
  In (pname p, VStr "None") kw.
Proof.
  intros en sig ts kw p WF H Hp Hn Hd Hdt Nm. eapply C54_options; eauto; [discriminate|]. rewrite last_option_unmentioned by exact Nm. cbn [default_str].
  apply means_word; [|discriminate..|apply padded_refl]. cbn. unfold letter. cbn. lia.
Qed.
(** The command line is accepted exactly when the words fill the required parameters and
    every option is one of the function's. *)
Theorem C54_accepted : forall en sig ts, In en (map fst models) -> well_formed sig ->
  (cli_call iso en sig ts <> None <->
   List.length (words ts) = List.length (required sig) /\
   forall t, In t ts -> match t with
     | TWord _ => True
     | TFlag o => exists p b, In p sig /\ pname p <> "ell" /\ pdefault p = Some (DBool b) /\ (o = long_option (pname p) \/ o = no_option (pname p))
     | TOption o _ => exists p d, In p sig /\ pname p <> "ell" /\ pdefault p = Some d /\ (forall b, d <> DBool b) /\ o = long_option (pname p)
     end).
Proof.
  intros en sig ts Hen WF. unfold cli_call. assert (X : existsb (fun '(k, _) => lower k =? en) models = true).
  { apply in_map_iff in Hen. destruct Hen as ([k v] & E & I). cbn in E. subst k. apply existsb_exists. exists (en, v). split; [exact I|].
    apply String.eqb_eq. unfold models in I. repeat (destruct I as [I|I]; [injection I as <- _; reflexivity|]). destruct I. }
  rewrite X. unfold parse_args. rewrite positionals_required.
  assert (G : forall pos ns, (parse_tokens (arguments sig) pos ns ts <> None <-> List.length (words ts) = List.length pos /\
   forall t, In t ts -> match t with
     | TWord _ => True
     | TFlag o => exists p b, In p sig /\ pname p <> "ell" /\ pdefault p = Some (DBool b) /\ (o = long_option (pname p) \/ o = no_option (pname p))
     | TOption o _ => exists p d, In p sig /\ pname p <> "ell" /\ pdefault p = Some d /\ (forall b, d <> DBool b) /\ o = long_option (pname p)
     end)).
  { induction ts as [|t ts IH]; intros pos ns; cbn [parse_tokens].
    - destruct pos; cbn; split; try congruence; [intros _; split; [reflexivity|intros t []]|intros [L _]; discriminate].
    - destruct t as [s|o|o s]; cbn [words].
      + destruct pos as [|d pos]; [cbn; split; [congruence|intros [L _]; discriminate]|]. rewrite IH. cbn [List.length]. split; intros [L M]; split; try lia.
        * intros t [<-|Ht]; [exact I|now apply M]. * intros t Ht. apply M. now right.
      + destruct (find_flag (arguments sig) o) as [[d v]|] eqn:F.
        * rewrite IH. split; intros [L M]; split; auto; [|intros t Ht; apply M; now right]. intros t [<-|Ht]; [|now apply M].
          destruct (flag_origin sig WF _ _ _ F) as (p & b & ? & ? & ? & ? & V). exists p, b. tauto.
        * split; [congruence|]. intros [_ M]. destruct (M _ (or_introl eq_refl)) as (p & b & Hp & Hn & Hd & V). destruct (flag_known sig WF p b Hp Hn Hd) as [K1 K2]. destruct V as [-> | ->]; congruence.
      + destruct (find_store (arguments sig) o) as [d|] eqn:F.
        * rewrite IH. split; intros [L M]; split; auto; [|intros t Ht; apply M; now right]. intros t [<-|Ht]; [|now apply M].
          destruct (store_origin sig WF _ _ F) as (p & df & ? & ? & ? & ? & ? & ?). exists p, df. auto.
        * split; [congruence|]. intros [_ M]. destruct (M _ (or_introl eq_refl)) as (p & df & Hp & Hn & Hd & Nb & ->). rewrite (store_known sig WF p df Hp Hn Hd Nb) in F. congruence. }
  specialize (G (required sig) (ns_defaults (arguments sig))). destruct (parse_tokens _ _ _ _); [split; [intros _; apply G; discriminate|discriminate]|]. split; [congruence|]. intros Y. apply G in Y. congruence.
Qed.
End C54.

(** ** The actual commands *)
Fixpoint nodup_b (l : list string) : bool := match l with [] => true | x :: l' => negb (existsb (String.eqb x) l') && nodup_b l' end.
Lemma nodup_b_ok l : nodup_b l = true -> NoDup l.
Proof.
  induction l as [|x l IH]; [constructor|]. cbn. intros H. apply andb_true_iff in H. destruct H as [H1 H2]. constructor; [|auto]. intros I. apply negb_true_iff in H1.
  assert (existsb (String.eqb x) l = true) by (apply existsb_exists; exists x; split; [exact I|apply String.eqb_refl]). congruence.
Qed.
Definition well_formed_b (sig : list param) : bool :=
  nodup_b (map pname sig) && forallb (fun p => replace_char "-" "_" (pname p) =? pname p) sig
  && nodup_b (option_strings sig).
Theorem C54_commands_well_formed : forall name sig, In (name, sig) commands -> well_formed sig.
Proof.
  assert (E : forallb (fun c => well_formed_b (snd c)) commands = true) by (vm_compute; reflexivity).
  intros name sig I. rewrite forallb_forall in E. specialize (E _ I). cbn in E. unfold well_formed_b in E. apply andb_true_iff in E. destruct E as [E E3]. apply andb_true_iff in E. destruct E as [E1 E2].
  split; [now apply nodup_b_ok|]. split; [|now apply nodup_b_ok].
  intros p Hp. rewrite forallb_forall in E2. apply String.eqb_eq. now apply E2.
Qed.
(** Every default of every command is plain, except None: for [ell], which the front end
    supplies, and for the [radius] of nvector_distance and nvector_cross_track_distance. *)
Definition letter_b (c : ascii) : bool := let n := nat_of_ascii c in ((65 <=? n) && (n <=? 90) || (97 <=? n) && (n <=? 122))%nat%bool.
Fixpoint word_b (s : string) : bool := match s with "" => true | String c s' => letter_b c && word_b s' end.
Lemma word_b_ok s : word_b s = true -> all_chars letter s.
Proof.
  induction s as [|c s IH]; [exact (fun _ => I)|]. cbn. intros H. apply andb_true_iff in H. destruct H as [H1 H2]. split; [|auto]. unfold letter_b in H1. unfold letter.
  apply orb_true_iff in H1. destruct H1 as [H|H]; apply andb_true_iff in H; destruct H as [A B]; apply Nat.leb_le in A, B; auto.
Qed.
Definition plain_b (d : dflt) : bool :=
  match d with DNone => false | DStr s => word_b s && negb (s =? "") && negb (lower s =? "inf") && negb (lower s =? "infinity") && negb (lower s =? "nan") | _ => true end.
Lemma plain_b_ok d : plain_b d = true -> plain_default d.
Proof.
  destruct d as [|b|z|z|s]; cbn; auto; [discriminate|]. intros H. repeat (apply andb_true_iff in H; destruct H as [H ?]).
  repeat match goal with X : negb _ = true |- _ => apply negb_true_iff, String.eqb_neq in X end. split; [now apply word_b_ok|]. auto.
Qed.
Theorem C54_command_defaults : forall name sig p d, In (name, sig) commands -> In p sig -> pdefault p = Some d ->
  plain_default d \/ (d = DNone /\ (pname p = "ell" \/ (pname p = "radius" /\ (name = "nvector_distance" \/ name = "nvector_cross_track_distance")))).
Proof.
  assert (E : forallb (fun c => forallb (fun p => match pdefault p with
      | None => true
      | Some d => plain_b d || match d with DNone => (pname p =? "ell") || ((pname p =? "radius") && ((fst c =? "nvector_distance") || (fst c =? "nvector_cross_track_distance"))) | _ => false end
      end) (snd c)) commands = true) by (vm_compute; reflexivity).
  intros name sig p d I Hp Hd. rewrite forallb_forall in E. specialize (E _ I). cbn [fst snd] in E. rewrite forallb_forall in E. specialize (E _ Hp). rewrite Hd in E. apply orb_true_iff in E. destruct E as [E|E].
  - left. now apply plain_b_ok.
  - right. destruct d; try discriminate. split; [reflexivity|]. apply orb_true_iff in E. destruct E as [E|E]; [left; now apply String.eqb_eq|]. right. apply andb_true_iff in E. destruct E as [E1 E2]. split; [now apply String.eqb_eq|].
    apply orb_true_iff in E2. destruct E2; [left|right]; now apply String.eqb_eq.
Qed.
Lemma command_in name c : find (fun c => fst c =? name) commands = Some c -> In c commands.
Proof. intros H. apply find_some in H. apply H. Qed.
(** Finding: without [--radius], nvector_distance never receives its default. *)
Theorem C69_radius_default_refuted : exists sig, In ("nvector_distance", sig) commands /\ forall iso en ts kw,
  cli_call iso en sig ts = Some (Ok kw) -> ~ mentioned "radius" ts -> In ("radius", VStr "None") kw /\ ~ In ("radius", VNone) kw.
Proof.
  set (sig := [P "n1_1" None; P "n1_2" None; P "n1_3" None; P "n2_1" None; P "n2_2" None; P "n2_3" None; P "radius" (Some DNone)]).
  assert (I : In ("nvector_distance", sig) commands) by (apply (command_in "nvector_distance"); vm_compute; reflexivity).
  exists sig. split; [exact I|]. intros iso en ts kw H Nm. pose proof (C54_commands_well_formed _ _ I) as WF.
  assert (X : In ("radius", VStr "None") kw).
  { apply (C69_none_default_becomes_text iso en _ ts kw (P "radius" (Some DNone)) WF H); [unfold sig; cbn; auto 12|discriminate|reflexivity|reflexivity|exact Nm]. }
  split; [exact X|]. intros Y. destruct (C54_names_and_ellipsoid iso en _ ts kw WF H) as (_ & N & _). pose proof (nodup_unique kw _ _ _ N X Y). discriminate.
Qed.
(** The hypotheses are met: a complete command line for aer2enu with radians. *)
Example C54_hypotheses_met : forall iso, exists sig kw, In ("aer2enu", sig) commands /\ cli_call iso "wgs84" sig [TWord "33.5"; TWord " 70"; TFlag "--no-deg"; TWord "1e3"] = Some (Ok kw) /\ In ("deg", VBool false) kw.
Proof.
  intros iso. set (sig := [P "az" None; P "el" None; P "srange" None; P "deg" (Some (DBool true))]).
  assert (I : In ("aer2enu", sig) commands) by (apply (command_in "aer2enu"); vm_compute; reflexivity).
  assert (C : cli_call iso "wgs84" sig [TWord "33.5"; TWord " 70"; TFlag "--no-deg"; TWord "1e3"] <> None).
  { apply C54_accepted; [unfold models; cbn [map fst]; repeat ((left; reflexivity) || right)|now apply (C54_commands_well_formed "aer2enu")|].
    split; [reflexivity|]. intros t [<-|[<-|[<-|[<-|[]]]]]; try exact Logic.I. exists (P "deg" (Some (DBool true))), true. repeat split; [cbn; auto 10|discriminate|right; reflexivity]. }
  destruct (cli_call _ _ _ _) as [[kw|e]|] eqn:E; [| |congruence].
  - exists sig, kw. split; [exact I|]. split; [exact E|].
    apply (C54_flags iso "wgs84" sig _ kw (P "deg" (Some (DBool true))) true (C54_commands_well_formed _ _ I) E); [cbn; auto 10|discriminate|reflexivity].
  - exfalso. unfold cli_call in E. rewrite L_utils.wgs84_from_name in E. destruct (existsb _ _); [|discriminate]. vm_compute in E. discriminate.
Qed.
