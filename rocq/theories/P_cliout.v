(** Property C81: what the command line prints. *)
From Coq Require Import ZArith String Ascii Bool Lia Lra List.
From Verif Require Import PyMath M_time M_cli M_cliout Spec_cli Spec_cliout.
From Verif Require L_cli L_cliout P_cli.
Import ListNotations.
Open Scope string_scope.

(** One float with --precision p: the numeral described by [printed], which is within
    half a unit of the last place. *)
Theorem C81_precision : forall str p x, (0 <= p)%Z -> exists d,
  format_scalar str (OFloat (Fin x)) (Some p) = Ok (decimal_text d) /\ printed (Z.to_nat p) x d /\
  (Rabs (decimal_value d - x) <= / 10 ^ Z.to_nat p / 2)%R.
Proof.
  intros str p x H. destruct (L_cliout.fixed_printed (Z.to_nat p) x) as (d & E & D). exists d.
  split; [|split; [exact D|now apply L_cliout.printed_close]]. cbn [format_scalar]. unfold format_fixed. destruct (Z.ltb_spec p 0); [lia|]. now rewrite E.
Qed.
(** Infinities and not-a-number, and the other results, whatever the precision. *)
Theorem C81_special : forall str p, (0 <= p)%Z ->
  format_scalar str (OFloat (Inf false)) (Some p) = Ok "inf" /\ format_scalar str (OFloat (Inf true)) (Some p) = Ok "-inf" /\
  format_scalar str (OFloat NaN) (Some p) = Ok "nan" /\
  (forall v, format_scalar str v None = Ok (str v)) /\ (forall v, (forall x, v <> OFloat x) -> forall q, format_scalar str v q = Ok (str v)).
Proof.
  intros str p H. cbn [format_scalar]. unfold format_fixed. destruct (Z.ltb_spec p 0); [lia|]. repeat split; try reflexivity.
  intros v N q. destruct q; [|reflexivity]. destruct v; try reflexivity. now destruct (N x).
Qed.
(** Results with several components (tuple or list): one numeral per component, in
    order; splitting the printed line at blanks gives them back. *)
Theorem C81_fields : forall str jf jt iso jo xs p, (0 <= p)%Z -> xs <> [] ->
  exists line ds, (forall r, r = OTuple (map (fun x => OFloat (Fin x)) xs) \/ r = OList (map (fun x => OFloat (Fin x)) xs) ->
    emit_result str jf jt iso jo r "text" (Some p) = Ok line) /\
  split_blank line = map decimal_text ds /\ Forall2 (printed (Z.to_nat p)) xs ds.
Proof.
  intros str jf jt iso jo xs p H N.
  assert (F : exists ds, format_all str (map (fun x => OFloat (Fin x)) xs) (Some p) = Ok (map decimal_text ds) /\ Forall2 (printed (Z.to_nat p)) xs ds).
  { clear N. induction xs as [|x xs (ds & IH & F)]; [exists []; split; [reflexivity|constructor]|]. destruct (C81_precision str p x H) as (d & E & D & _).
    exists (d :: ds). split; [|now constructor]. cbn [map format_all]. rewrite E, IH. reflexivity. }
  destruct F as (ds & E & F). exists (M_cliout.join " " (map decimal_text ds)), ds. split; [|split; [|exact F]].
  - intros r [-> | ->]; unfold emit_result; cbn [String.eqb Ascii.eqb Bool.eqb]; rewrite E; reflexivity.
  - apply L_cliout.split_joined.
    + destruct F; [congruence|discriminate].
    + clear - F. induction F as [|x d xs ds [O _] F IH]; constructor; [now apply L_cliout.decimal_no_blank|exact IH].
Qed.
(** A single float prints as the numeral alone. *)
Theorem C81_single : forall str jf jt iso jo x p, (0 <= p)%Z -> exists d,
  emit_result str jf jt iso jo (OFloat (Fin x)) "text" (Some p) = Ok (decimal_text d) /\ printed (Z.to_nat p) x d.
Proof. intros str jf jt iso jo x p H. destruct (C81_precision str p x H) as (d & E & D & _). exists d. split; [exact E|exact D]. Qed.
(** Feeding a printed component to another command: it is read as a number within half
    a unit of the last printed place of the original. *)
Theorem C81_reads_back : forall str iso x p prm t, (0 <= p)%Z -> is_datetime_param prm = false ->
  format_scalar str (OFloat (Fin x)) (Some p) = Ok t ->
  exists y, coerce_value iso (RText t) prm = Ok (VFloat (Fin y)) /\ (Rabs (y - x) <= / 10 ^ Z.to_nat p / 2)%R.
Proof.
  intros str iso x p prm t H Hp E. destruct (C81_precision str p x H) as (d & E' & D & C). rewrite E in E'. injection E' as ->.
  exists (decimal_value d). split; [|exact C]. apply P_cli.coerce_means; [exact Hp|]. apply P_cli.means_number; [apply D|apply L_cli.padded_refl].
Qed.
(** A negative precision is refused as soon as a float has to be printed; nothing is
    printed then. *)
Theorem C81_negative_precision : forall str jf jt iso jo l p x, (p < 0)%Z -> In (OFloat x) l ->
  emit_result str jf jt iso jo (OTuple l) "text" (Some p) = Raise ValueError /\
  emit_result str jf jt iso jo (OList l) "text" (Some p) = Raise ValueError /\
  emit_result str jf jt iso jo (OFloat x) "text" (Some p) = Raise ValueError.
Proof.
  intros str jf jt iso jo l p x H I.
  assert (S : forall y, format_scalar str (OFloat y) (Some p) = Raise ValueError) by (intros y; cbn [format_scalar]; unfold format_fixed; destruct (Z.ltb_spec p 0); [reflexivity|lia]).
  assert (A : format_all str l (Some p) = Raise ValueError).
  { induction l as [|v l IH]; [destruct I|]. cbn [format_all]. destruct I as [-> | I]; [now rewrite S|]. rewrite (IH I). destruct v; try rewrite S; reflexivity. }
  unfold emit_result; cbn [String.eqb Ascii.eqb Bool.eqb]. rewrite A. repeat split. apply S.
Qed.
(** JSON: the precision plays no part, a tuple prints as the list of the same components,
    and a time as its ISO text. *)
Theorem C81_json_precision_ignored : forall str jf jt iso jo r p q,
  emit_result str jf jt iso jo r "json" p = emit_result str jf jt iso jo r "json" q.
Proof. reflexivity. Qed.
Theorem C81_json_tuple_is_list : forall str jf jt iso jo l p,
  emit_result str jf jt iso jo (OTuple l) "json" p = emit_result str jf jt iso jo (OList l) "json" p.
Proof. reflexivity. Qed.
Theorem C81_json_numbers : forall str jf jt iso jo xs p,
  emit_result str jf jt iso jo (OTuple (map OFloat xs)) "json" p = Ok ("[" ++ M_cliout.join ", " (map jf xs) ++ "]") /\
  forall x, emit_result str jf jt iso jo (OFloat x) "json" p = Ok (jf x).
Proof.
  intros str jf jt iso jo xs p. split; [|reflexivity]. unfold emit_result. cbn [String.eqb Ascii.eqb Bool.eqb to_jsonable dumps]. rewrite map_map. cbn [to_jsonable].
  assert (A : forall l, (fix all (l : list outval) : result (list string) := match l with [] => Ok [] | v :: l' => bind (dumps jf jt jo v) (fun s => bind (all l') (fun r => Ok (s :: r))) end) (map (fun x => OFloat x) l) = Ok (map jf l)).
  { induction l as [|x l IH]; [reflexivity|]. cbn [map dumps bind]. rewrite IH. reflexivity. }
  rewrite A. reflexivity.
Qed.
Theorem C81_json_times : forall str jf jt iso jo t p, emit_result str jf jt iso jo (OTime t) "json" p = Ok (jt (iso t)).
Proof. reflexivity. Qed.
(** Results the json module does not know, such as NumPy arrays, cannot be printed as JSON. *)
Theorem C81_json_arrays_refused : forall str jf jt iso jo i p, jo i = None ->
  emit_result str jf jt iso jo (OOther i) "json" p = Raise TypeError /\
  forall l l', (forall v, In v l -> exists x, v = OFloat x) -> emit_result str jf jt iso jo (OTuple (l ++ OOther i :: l')) "json" p = Raise TypeError.
Proof.
  intros str jf jt iso jo i p N. split; [unfold emit_result; cbn [String.eqb Ascii.eqb Bool.eqb to_jsonable dumps]; now rewrite N|].
  intros l l' H. unfold emit_result. cbn [String.eqb Ascii.eqb Bool.eqb to_jsonable dumps]. rewrite map_app. cbn [map to_jsonable].
  match goal with |- bind (?f _) _ = _ => set (all := f) end.
  assert (A : forall m, (forall v, In v m -> exists x, v = OFloat x) -> all (map (to_jsonable iso) m ++ OOther i :: map (to_jsonable iso) l')%list = Raise TypeError).
  { induction m as [|v m IH]; intros Hm.
    - cbn [map List.app]. unfold all. cbn [dumps]. now rewrite N.
    - destruct (Hm v (or_introl eq_refl)) as [x ->]. cbn [map List.app to_jsonable]. specialize (IH (fun v Hv => Hm v (or_intror Hv))). unfold all in *. cbn [dumps bind]. rewrite IH. reflexivity. }
  rewrite (A l H). reflexivity.
Qed.
(** Ties go to the even digit, and a negative number that rounds to zero keeps its sign. *)
Example C81_hypotheses_met : (0 <= 2)%Z /\ [1%R; 2%R] <> [] /\ is_datetime_param (P "lat" None) = false /\ (-1 < 0)%Z /\
  printed 2 (1 / 8)%R (mkDec SNone [0%nat] (Some [1%nat; 2%nat]) None) /\ printed 1 (- (1 / 100))%R (mkDec SMinus [0%nat] (Some [0%nat]) None).
Proof.
  split; [lia|]. split; [discriminate|]. split; [reflexivity|]. split; [lia|].
  assert (NS : SNone <> SPlus /\ SMinus <> SPlus) by (split; discriminate).
  split.
  - split; [repeat constructor; discriminate|]. split; [reflexivity|]. cbn [d_sign d_int d_frac]. split; [split; [discriminate|lra]|]. split; [apply NS|]. split; [discriminate|]. split; [split; [reflexivity|discriminate]|].
    exists 12%Z. unfold decimal_value. cbn [d_sign d_int d_frac d_exp frac_digits digits_value fold_left List.length Z.of_nat Z.mul Z.add Pos.mul Pos.add Pos.of_succ_nat Pos.succ].
    split; [rewrite Rabs_right by lra; lra|]. rewrite (Rabs_right (1 / 8)) by lra. split; [apply Rabs_le; lra|reflexivity].
  - split; [repeat constructor; discriminate|]. split; [reflexivity|]. cbn [d_sign d_int d_frac]. split; [split; [lra|reflexivity]|]. split; [apply NS|]. split; [discriminate|]. split; [split; [reflexivity|discriminate]|].
    exists 0%Z. unfold decimal_value. cbn [d_sign d_int d_frac d_exp frac_digits digits_value fold_left List.length Z.of_nat Z.mul Z.add Pos.mul Pos.add Pos.of_succ_nat Pos.succ].
    replace (-1 * (0 + 0 / 10 ^ 1) * 1)%R with 0%R by field. rewrite Rabs_R0. split; [ring|]. rewrite Rabs_Ropp, (Rabs_right (1 / 100)) by lra. split; [apply Rabs_le; lra|reflexivity].
Qed.
