(** Specification side of the command line (property C54): decimal numerals, and what a user
    means by a command line.  Nothing here refers to the model's parsing functions. *)
From Coq Require Import ZArith String Ascii Reals List.
Import ListNotations.
Open Scope string_scope.

(** A decimal numeral: sign, digits before the point, digits after it, exponent. *)
Inductive sgn := SNone | SPlus | SMinus.
Record decimal := mkDec {
  d_sign : sgn;
  d_int : list nat;
  d_frac : option (list nat);
  d_exp : option (sgn * list nat)
}.
Definition digit (d : nat) : Prop := (d < 10)%nat.
Definition frac_digits (d : decimal) : list nat := match d_frac d with Some l => l | None => [] end.
Definition decimal_ok (d : decimal) : Prop :=
  Forall digit (d_int d) /\ Forall digit (frac_digits d) /\ (d_int d ++ frac_digits d)%list <> [] /\
  match d_exp d with Some (_, l) => Forall digit l /\ l <> [] | None => True end.
(** How it is written. *)
Definition sign_text (s : sgn) : string := match s with SNone => "" | SPlus => "+" | SMinus => "-" end.
Definition digits_text (ds : list nat) : string := fold_right (fun d s => String (ascii_of_nat (48 + d)) s) "" ds.
Definition decimal_text (d : decimal) : string :=
  sign_text (d_sign d) ++ digits_text (d_int d) ++
  match d_frac d with Some l => "." ++ digits_text l | None => "" end ++
  match d_exp d with Some (s, l) => "e" ++ sign_text s ++ digits_text l | None => "" end.
(** What it means. *)
Definition digits_value (ds : list nat) : Z := fold_left (fun a d => (a * 10 + Z.of_nat d)%Z) ds 0%Z.
Definition decimal_value (d : decimal) : R :=
  ((match d_sign d with SMinus => -1 | _ => 1 end)
   * (IZR (digits_value (d_int d)) + IZR (digits_value (frac_digits d)) / 10 ^ List.length (frac_digits d))
   * match d_exp d with
     | Some (SMinus, l) => / 10 ^ Z.to_nat (digits_value l)
     | Some (_, l) => 10 ^ Z.to_nat (digits_value l)
     | None => 1
     end)%R.
(** Blanks around it. *)
Definition blank (c : ascii) : Prop := c = " "%char \/ c = ascii_of_nat 9 \/ c = ascii_of_nat 10 \/ c = ascii_of_nat 13.
Fixpoint all_chars (P : ascii -> Prop) (s : string) : Prop :=
  match s with "" => True | String c s' => P c /\ all_chars P s' end.
Definition padded (s t : string) : Prop := exists l r, all_chars blank l /\ all_chars blank r /\ t = l ++ s ++ r.
(** Comma-separated items. *)
Fixpoint comma_join (l : list string) : string :=
  match l with [] => "" | [s] => s | s :: l' => s ++ "," ++ comma_join l' end.
(** A word made of letters only. *)
Definition letter (c : ascii) : Prop :=
  (65 <= nat_of_ascii c <= 90 \/ 97 <= nat_of_ascii c <= 122)%nat.
