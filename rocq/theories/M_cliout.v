(** Printing of results by the command line front end, src/pymap3d/__main__.py:169-203.

    Simplifications: the floats are reals (no negative zero); [str] of a value other
    than through a precision, and the JSON numerals, are parameters, since they are
    CPython's shortest representation; --precision is not larger than a C int. *)
From Coq Require Import ZArith String Ascii Bool List DecimalString.
From Verif Require Import PyMath M_time M_cli.
Import ListNotations.
Open Scope string_scope.

(** What a command can return: a float; text; a time; a tuple; a list; or anything else
    (NumPy arrays, booleans, None), of which only its [str] and whether the json module
    accepts it matter here. *)
Inductive outval :=
| OFloat (x : pyfloat) | OText (s : string) | OTime (t : datetime)
| OTuple (l : list outval) | OList (l : list outval) | OOther (id : nat).

(** [f"{value:.{precision}f}"] (__main__.py:171) for precision [p] >= 0: the sign, then
    the nearest multiple of 10^-p, ties to even, with exactly [p] digits after the point. *)
Fixpoint last_digits (p : nat) (n : Z) : string :=
  match p with
  | O => ""
  | S p' => last_digits p' (n / 10) ++ String (ascii_of_nat (48 + Z.to_nat (n mod 10))) ""
  end.
Definition fixed (p : nat) (x : R) : string :=
  let n := round_half_even (Rabs x * 10 ^ p) in
  (if Rlt_dec x 0 then "-" else "") ++ str_of_Z (n / 10 ^ Z.of_nat p) ++
  match p with O => "" | S _ => "." ++ last_digits p n end.
Definition format_fixed (precision : Z) (x : pyfloat) : result string :=
  if (precision <? 0)%Z then Raise ValueError
  else Ok match x with
          | Fin x => fixed (Z.to_nat precision) x
          | Inf neg => if neg then "-inf" else "inf"
          | NaN => "nan"
          end.

Section Out.
(** Python's [str(value)]; [json.dumps] of a float, a text, another object ([None]: TypeError). *)
Variables (str : outval -> string) (json_float : pyfloat -> string) (json_text : string -> string)
  (isoformat : datetime -> string) (json_other : nat -> option string).

(** __main__.py:169-173 *)
Definition format_scalar (value : outval) (precision : option Z) : result string :=
  match precision, value with
  | Some p, OFloat x => format_fixed p x
  | _, _ => Ok (str value)
  end.
(** [" ".join(_format_scalar(x, precision) for x in result)] *)
Fixpoint format_all (l : list outval) (precision : option Z) : result (list string) :=
  match l with
  | [] => Ok []
  | v :: l' => bind (format_scalar v precision) (fun s => bind (format_all l' precision) (fun r => Ok (s :: r)))
  end.
Fixpoint join (sep : string) (l : list string) : string :=
  match l with
  | [] => ""
  | [s] => s
  | s :: l' => s ++ sep ++ join sep l'
  end.
(** __main__.py:176-186: tuples and lists become lists, times become their ISO text. *)
Fixpoint to_jsonable (value : outval) : outval :=
  match value with
  | OTuple l => OList (map to_jsonable l)
  | OList l => OList (map to_jsonable l)
  | OTime t => OText (isoformat t)
  | v => v
  end.
(** [json.dumps], default separators; a time or a tuple no longer occurs. *)
Fixpoint dumps (value : outval) : result string :=
  match value with
  | OFloat x => Ok (json_float x)
  | OText s => Ok (json_text s)
  | OTime _ => Raise TypeError
  | OTuple l | OList l =>
      bind ((fix all (l : list outval) : result (list string) :=
               match l with
               | [] => Ok []
               | v :: l' => bind (dumps v) (fun s => bind (all l') (fun r => Ok (s :: r)))
               end) l) (fun ss => Ok ("[" ++ join ", " ss ++ "]"))
  | OOther i => match json_other i with Some s => Ok s | None => Raise TypeError end
  end.
(** __main__.py:189-203: what is printed (without the final newline). *)
Definition emit_result (result0 : outval) (output_mode : string) (precision : option Z) : result string :=
  if output_mode =? "json" then dumps (to_jsonable result0)
  else match result0 with
       | OTuple l | OList l => bind (format_all l precision) (fun ss => Ok (join " " ss))
       | v => format_scalar v precision
       end.
End Out.
