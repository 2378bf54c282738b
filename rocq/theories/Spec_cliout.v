(** Specification of printed results (property C81); nothing here refers to the model's
    formatting functions. *)
From Coq Require Import ZArith String Ascii Reals List.
From Verif Require Import Spec_cli.
Import ListNotations.
Open Scope string_scope.

(** [d] is what [x] prints as with [p] places: exactly [p] digits after the point (no point
    if there are none), minus sign exactly for negative [x], and in units of the last
    place the nearest whole number, the even one if two are equally near. *)
Definition printed (p : nat) (x : R) (d : decimal) : Prop :=
  decimal_ok d /\ d_exp d = None /\ (d_sign d = SMinus <-> (x < 0)%R) /\ d_sign d <> SPlus /\ d_int d <> [] /\
  match d_frac d with None => p = 0%nat | Some l => p = List.length l /\ p <> 0%nat end /\
  exists N : Z, (Rabs (decimal_value d) * 10 ^ p = IZR N)%R /\ (Rabs (Rabs x * 10 ^ p - IZR N) <= 1 / 2)%R /\
    ((Rabs (Rabs x * 10 ^ p - IZR N) = 1 / 2)%R -> Z.even N = true).
(** Splitting at single blanks. *)
Fixpoint split_blank (s : string) : list string :=
  match s with
  | "" => [""]
  | String c s' => if (c =? " ")%char then "" :: split_blank s'
                   else match split_blank s' with h :: l => String c h :: l | [] => [String c ""] end
  end.
