(** Command line front end, src/pymap3d/__main__.py.

    Simplifications: text is a list of 8-bit characters and only ASCII white space is
    stripped; argparse's recognition of options against positionals is taken as done (the
    input is a list of recognised tokens), and abbreviated option names, [--opt=value] and
    [--help] are not modelled; the floats of the results are reals; printing
    (__main__.py:169-203) is in M_cliout.v. *)
From Coq Require Import ZArith String Ascii Bool DecimalString.
From Verif Require Import PyMath M_ellipsoid M_time.
Open Scope string_scope.

(** A Python float, including the special values that [float("inf")] can give. *)
Inductive pyfloat := Fin (x : R) | Inf (neg : bool) | NaN.
(** The values a parameter can hold. *)
Inductive pyval :=
| VNone | VBool (b : bool) | VInt (z : Z) | VFloat (x : pyfloat) | VStr (s : string)
| VTime (t : datetime) | VList (l : list pyfloat) | VEll (e : Ellipsoid).

(** ** Python text functions *)
(** [str.strip()]'s white space (ASCII part). *)
Definition is_space (c : ascii) : bool :=
  let n := nat_of_ascii c in ((9 <=? n) && (n <=? 13) || (28 <=? n) && (n <=? 32))%nat%bool.
Fixpoint lstrip (s : string) : string :=
  match s with String c s' => if is_space c then lstrip s' else s | EmptyString => s end.
Fixpoint rstrip (s : string) : string :=
  match s with
  | EmptyString => s
  | String c s' => match rstrip s' with
                   | EmptyString => if is_space c then EmptyString else String c EmptyString
                   | r => String c r
                   end
  end.
Definition strip (s : string) : string := rstrip (lstrip s).
(** ["," in text] *)
Fixpoint has_comma (s : string) : bool :=
  match s with EmptyString => false | String c s' => (c =? ",")%char || has_comma s' end.
(** [text.split(",")] *)
Fixpoint split_comma (s : string) : list string :=
  match s with
  | EmptyString => [EmptyString]
  | String c s' => if (c =? ",")%char then EmptyString :: split_comma s'
                   else match split_comma s' with
                        | h :: l => String c h :: l
                        | [] => [String c EmptyString]
                        end
  end.
(** [name.replace("_", "-")] and [name.replace("-", "_")] (__main__.py:28,71,104) *)
Fixpoint replace_char (old new : ascii) (s : string) : string :=
  match s with
  | EmptyString => s
  | String c s' => String (if (c =? old)%char then new else c) (replace_char old new s')
  end.
(** ASCII lower case, for [float]'s "inf" and "nan" spellings and [name.lower()]. *)
Definition lower_char (c : ascii) : ascii :=
  let n := nat_of_ascii c in if ((65 <=? n) && (n <=? 90))%nat then ascii_of_nat (n + 32) else c.
Fixpoint lower (s : string) : string :=
  match s with EmptyString => s | String c s' => String (lower_char c) (lower s') end.

(** ** [float(text)] of the Python language reference *)
Definition digit_of (c : ascii) : option Z :=
  let n := nat_of_ascii c in if ((48 <=? n) && (n <=? 57))%nat then Some (Z.of_nat n - 48)%Z else None.
(** digit (["_"] digit)*: value so far [acc], number of digits so far [n]. *)
Fixpoint take_digits (acc : Z) (n : nat) (s : string) : Z * nat * string :=
  match s with
  | EmptyString => (acc, n, s)
  | String c s' =>
      match digit_of c with
      | Some d => take_digits (acc * 10 + d)%Z (S n) s'
      | None =>
          if ((c =? "_")%char && negb (Nat.eqb n 0))%bool then
            match s' with
            | String c' s'' => match digit_of c' with
                               | Some d => take_digits (acc * 10 + d)%Z (S n) s''
                               | None => (acc, n, s)
                               end
            | EmptyString => (acc, n, s)
            end
          else (acc, n, s)
      end
  end.
Definition take_sign (s : string) : bool * string :=
  match s with
  | String c s' => if (c =? "-")%char then (true, s') else if (c =? "+")%char then (false, s') else (false, s)
  | EmptyString => (false, s)
  end.
Definition signedR (neg : bool) (x : R) : R := if neg then (- x)%R else x.
(** The exponent part: [m] times 10 to the power [k], then an optional exponent. *)
Definition take_exponent (neg : bool) (m k : Z) (s : string) : option pyfloat :=
  match s with
  | EmptyString => Some (Fin (signedR neg (IZR m * powerRZ 10 k)%R))
  | String c s' =>
      if ((c =? "e")%char || (c =? "E")%char)%bool then
        let '(eneg, s2) := take_sign s' in
        match take_digits 0 0 s2 with
        | (e, S _, EmptyString) => Some (Fin (signedR neg (IZR m * powerRZ 10 (k + if eneg then - e else e)%Z)%R))
        | _ => None
        end
      else None
  end.
Definition float_of_text (text : string) : option pyfloat :=
  let '(neg, s) := take_sign (strip text) in
  if ((lower s =? "inf") || (lower s =? "infinity"))%bool then Some (Inf neg)
  else if lower s =? "nan" then Some NaN
  else
    let '(m, n, s1) := take_digits 0 0 s in
    match s1 with
    | String c s2 =>
        if (c =? ".")%char then
          let '(m2, n2, s3) := take_digits m 0 s2 in
          match (n + n2)%nat with
          | O => None
          | S _ => take_exponent neg m2 (- Z.of_nat n2)%Z s3
          end
        else match n with O => None | S _ => take_exponent neg m 0%Z s1 end
    | EmptyString => match n with O => None | S _ => take_exponent neg m 0%Z s1 end
    end.

(** ** Signatures *)
(** The kinds of default value that occur; [DFloat z] is the float of integral value [z]. *)
Inductive dflt := DNone | DBool (b : bool) | DInt (z : Z) | DFloat (z : Z) | DStr (s : string).
Definition default_value (d : dflt) : pyval :=
  match d with
  | DNone => VNone | DBool b => VBool b | DInt z => VInt z | DFloat z => VFloat (Fin (IZR z)) | DStr s => VStr s
  end.
(** [str(default)] (__main__.py:106); floats of integral value below 1e16 print as "z.0". *)
Definition str_of_Z (z : Z) : string := NilZero.string_of_int (Z.to_int z).
Definition default_str (d : dflt) : string :=
  match d with
  | DNone => "None" | DBool b => if b then "True" else "False" | DInt z => str_of_Z z
  | DFloat z => str_of_Z z ++ ".0" | DStr s => s
  end.
(** [inspect.Parameter]: name and default.  Every module of the package postpones
    annotations, so [param.annotation] is a string and [ann is datetime] never holds. *)
Record param := P { pname : string; pdefault : option dflt }.
(** __main__.py:20-24 *)
Definition is_datetime_param (p : param) : bool := (lower (pname p) =? "t") || (lower (pname p) =? "time").
(** __main__.py:27-28 *)
Definition normalize_dest (name : string) : string := replace_char "-" "_" name.

(** ** argparse *)
(** What argparse stores under a destination. *)
Inductive raw := RText (s : string) | RBool (b : bool).
Definition namespace := string -> option raw.
Definition ns_empty : namespace := fun _ => None.
Definition ns_set (ns : namespace) (k : string) (v : raw) : namespace :=
  fun x => if x =? k then Some v else ns x.
(** One [add_argument] call. *)
Inductive argument :=
| Positional (dest : string)
| StoreOpt (opt dest : string) (default : string)
| FlagOpt (opt dest : string) (value default : bool).
(** __main__.py:59-110; a store_false option without [default=] has the default True. *)
Definition add_parameter_arg (p : param) : list argument :=
  let name := pname p in let dest := normalize_dest name in
  if name =? "ell" then []
  else match pdefault p with
       | Some (DBool d) =>
           let flag := replace_char "_" "-" name in
           [FlagOpt ("--" ++ flag) dest true d; FlagOpt ("--no-" ++ flag) dest false true]
       | Some d => [StoreOpt ("--" ++ replace_char "_" "-" name) dest (default_str d)]
       | None => [Positional name]
       end.
Definition arguments (sig : list param) : list argument := flat_map add_parameter_arg sig.
(** parse_args: the defaults; the first argument registered for a destination sets it. *)
Fixpoint ns_defaults (args : list argument) : namespace :=
  match args with
  | [] => ns_empty
  | Positional _ :: l => ns_defaults l
  | StoreOpt _ d v :: l => ns_set (ns_defaults l) d (RText v)
  | FlagOpt _ d _ v :: l => ns_set (ns_defaults l) d (RBool v)
  end.
(** The words of the command line after the command's name. *)
Inductive token := TWord (s : string) | TFlag (opt : string) | TOption (opt value : string).
Fixpoint find_flag (args : list argument) (o : string) : option (string * bool) :=
  match args with
  | [] => None
  | FlagOpt opt d v _ :: l => if o =? opt then Some (d, v) else find_flag l o
  | _ :: l => find_flag l o
  end.
Fixpoint find_store (args : list argument) (o : string) : option string :=
  match args with
  | [] => None
  | StoreOpt opt d _ :: l => if o =? opt then Some d else find_store l o
  | _ :: l => find_store l o
  end.
Fixpoint positionals (args : list argument) : list string :=
  match args with [] => [] | Positional d :: l => d :: positionals l | _ :: l => positionals l end.
(** The words, left to right; [pos] are the positionals still to fill.  [None]: argparse
    reports a usage error and exits. *)
Fixpoint parse_tokens (args : list argument) (pos : list string) (ns : namespace) (ts : list token) : option namespace :=
  match ts with
  | [] => match pos with [] => Some ns | _ :: _ => None end
  | TWord s :: ts' => match pos with
                      | d :: pos' => parse_tokens args pos' (ns_set ns d (RText s)) ts'
                      | [] => None
                      end
  | TFlag o :: ts' => match find_flag args o with
                      | Some (d, v) => parse_tokens args pos (ns_set ns d (RBool v)) ts'
                      | None => None
                      end
  | TOption o s :: ts' => match find_store args o with
                          | Some d => parse_tokens args pos (ns_set ns d (RText s)) ts'
                          | None => None
                          end
  end.
Definition parse_args (sig : list param) (ts : list token) : option namespace :=
  let args := arguments sig in parse_tokens args (positionals args) (ns_defaults args) ts.

(** ** Building the call *)
Section Cli.
(** [datetime.fromisoformat] (timeconv.py:31, the [str] case of str2dt); [None]: ValueError. *)
Variable fromisoformat : string -> option datetime.
Fixpoint all_some {A} (l : list (option A)) : option (list A) :=
  match l with
  | [] => Some []
  | None :: _ => None
  | Some x :: l' => match all_some l' with Some r => Some (x :: r) | None => None end
  end.
(** __main__.py:31-56.  Only texts and booleans reach it from argparse; str2dt of a boolean
    cannot occur because the boolean test comes first. *)
Definition coerce_value (r : raw) (p : param) : result pyval :=
  match r with
  | RBool b => Ok (VBool b)
  | RText s =>
      if is_datetime_param p then
        match fromisoformat s with Some t => Ok (VTime t) | None => Raise ValueError end
      else
        let text := strip s in
        if has_comma text then
          match all_some (map (fun x => float_of_text (strip x)) (split_comma text)) with
          | Some l => Ok (VList l)
          | None => Ok (VStr text)
          end
        else match float_of_text text with Some x => Ok (VFloat x) | None => Ok (VStr text) end
  end.
(** __main__.py:146-166: the keyword arguments of the call, in signature order. *)
Fixpoint call_kwargs (sig : list param) (ns : namespace) (ell : Ellipsoid) : result (list (string * pyval)) :=
  match sig with
  | [] => Ok []
  | p :: sig' =>
      bind (if pname p =? "ell" then Ok (VEll ell)
            else match ns (normalize_dest (pname p)) with
                 | Some r => coerce_value r p
                 | None => Raise AttributeError
                 end) (fun v =>
      bind (call_kwargs sig' ns ell) (fun kw => Ok ((pname p, v) :: kw)))
  end.
(** __main__.py:206-242 up to the call: [--ellipsoid] has been validated against the lower
    case model names (215).  [None]: usage error. *)
Definition cli_call (ellipsoid : string) (sig : list param) (ts : list token) : option (result (list (string * pyval))) :=
  if existsb (fun '(k, _) => lower k =? ellipsoid) models then
    match parse_args sig ts with
    | None => None
    | Some ns => Some (bind (from_name ellipsoid) (fun ell => call_kwargs sig ns ell))
    end
  else None.
End Cli.

(** __init__.py:161-294 with the signatures of the functions named (__main__.py:113-143):
    the commands and their parameters.  geod2geoc is latitude.py:140's alias. *)
Definition commands : list (string * list param) := [
  (* dca.py:165 *) ("aer2dca", [P "az" None; P "el" None; P "srange" None; P "heading" None; P "deg" (Some (DBool true))]);
  (* aer.py:291 *) ("aer2ecef", [P "az" None; P "el" None; P "srange" None; P "lat0" None; P "lon0" None; P "alt0" None; P "ell" (Some DNone); P "deg" (Some (DBool true))]);
  (* aer.py:228 *) ("aer2eci", [P "az" None; P "el" None; P "srange" None; P "lat0" None; P "lon0" None; P "h0" None; P "t" None; P "ell" (Some DNone); P "deg" (Some (DBool true)); P "delta_ut1" (Some (DFloat 0)); P "xp" (Some (DFloat 0)); P "yp" (Some (DFloat 0))]);
  (* enu.py:81 *) ("aer2enu", [P "az" None; P "el" None; P "srange" None; P "deg" (Some (DBool true))]);
  (* aer.py:119 *) ("aer2geodetic", [P "az" None; P "el" None; P "srange" None; P "lat0" None; P "lon0" None; P "h0" None; P "ell" (Some DNone); P "deg" (Some (DBool true))]);
  (* ned.py:28 *) ("aer2ned", [P "az" None; P "elev" None; P "slantRange" None; P "deg" (Some (DBool true))]);
  (* nwu.py:24 *) ("aer2nwu", [P "az" None; P "elev" None; P "slantRange" None; P "deg" (Some (DBool true))]);
  (* sez.py:24 *) ("aer2sez", [P "az" None; P "elev" None; P "slantRange" None; P "deg" (Some (DBool true))]);
  (* latitude.py:527 *) ("authalic2geodetic", [P "authalic_lat" None; P "ell" (Some DNone); P "deg" (Some (DBool true))]);
  (* azelradec.py:24 *) ("azel2radec", [P "az_deg" None; P "el_deg" None; P "lat_deg" None; P "lon_deg" None; P "time" None; P "force_non_astropy" (Some (DBool false)); P "delta_ut1" (Some (DFloat 0))]);
  (* body.py:193 *) ("body2ecef", [P "xb" None; P "yb" None; P "zb" None; P "lat0" None; P "lon0" None; P "h0" None; P "yaw" None; P "pitch" None; P "roll" None; P "ell" (Some DNone); P "frame" (Some (DStr "ned")); P "sequence" (Some (DStr "zyx")); P "deg" (Some (DBool true))]);
  (* body.py:247 *) ("body2ecefv", [P "xb" None; P "yb" None; P "zb" None; P "lat0" None; P "lon0" None; P "yaw" None; P "pitch" None; P "roll" None; P "frame" (Some (DStr "ned")); P "sequence" (Some (DStr "zyx")); P "deg" (Some (DBool true))]);
  (* body.py:130 *) ("body2enu", [P "xb" None; P "yb" None; P "zb" None; P "yaw" None; P "pitch" None; P "roll" None; P "sequence" (Some (DStr "zyx")); P "deg" (Some (DBool true))]);
  (* body.py:82 *) ("body2enu_matrix", [P "yaw" None; P "pitch" None; P "roll" None; P "sequence" (Some (DStr "zyx")); P "deg" (Some (DBool true))]);
  (* body.py:301 *) ("body2geodetic", [P "xb" None; P "yb" None; P "zb" None; P "lat0" None; P "lon0" None; P "h0" None; P "yaw" None; P "pitch" None; P "roll" None; P "ell" (Some DNone); P "frame" (Some (DStr "ned")); P "sequence" (Some (DStr "zyx")); P "deg" (Some (DBool true))]);
  (* body.py:118 *) ("body2ned", [P "xb" None; P "yb" None; P "zb" None; P "yaw" None; P "pitch" None; P "roll" None; P "sequence" (Some (DStr "zyx")); P "deg" (Some (DBool true))]);
  (* body.py:70 *) ("body2ned_matrix", [P "yaw" None; P "pitch" None; P "roll" None; P "sequence" (Some (DStr "zyx")); P "deg" (Some (DBool true))]);
  (* body.py:154 *) ("body2nwu", [P "xb" None; P "yb" None; P "zb" None; P "yaw" None; P "pitch" None; P "roll" None; P "sequence" (Some (DStr "zyx")); P "deg" (Some (DBool true))]);
  (* body.py:106 *) ("body2nwu_matrix", [P "yaw" None; P "pitch" None; P "roll" None; P "sequence" (Some (DStr "zyx")); P "deg" (Some (DBool true))]);
  (* body.py:142 *) ("body2sez", [P "xb" None; P "yb" None; P "zb" None; P "yaw" None; P "pitch" None; P "roll" None; P "sequence" (Some (DStr "zyx")); P "deg" (Some (DBool true))]);
  (* body.py:94 *) ("body2sez_matrix", [P "yaw" None; P "pitch" None; P "roll" None; P "sequence" (Some (DStr "zyx")); P "deg" (Some (DBool true))]);
  (* body.py:52 *) ("body_matrix", [P "yaw" None; P "pitch" None; P "roll" None; P "sequence" (Some (DStr "zyx")); P "deg" (Some (DBool true))]);
  (* latitude.py:280 *) ("conformal2geodetic", [P "conformal_lat" None; P "ell" (Some DNone); P "deg" (Some (DBool true))]);
  (* sidereal.py:31 *) ("datetime2sidereal", [P "time" None; P "lon_radians" None; P "force_non_astropy" (Some (DBool false)); P "delta_ut1" (Some (DFloat 0))]);
  (* dca.py:173 *) ("dca2aer", [P "dr" None; P "cr" None; P "above" None; P "heading" None; P "deg" (Some (DBool true))]);
  (* dca.py:110 *) ("dca2ecef", [P "dr" None; P "cr" None; P "above" None; P "lat0" None; P "lon0" None; P "h0" None; P "heading" None; P "ell" (Some DNone); P "deg" (Some (DBool true))]);
  (* dca.py:61 *) ("dca2enu", [P "dr" None; P "cr" None; P "above" None; P "heading" None; P "deg" (Some (DBool true))]);
  (* dca.py:147 *) ("dca2geodetic", [P "dr" None; P "cr" None; P "above" None; P "lat0" None; P "lon0" None; P "h0" None; P "heading" None; P "ell" (Some DNone); P "deg" (Some (DBool true))]);
  (* dca.py:75 *) ("dca2ned", [P "dr" None; P "cr" None; P "above" None; P "heading" None; P "deg" (Some (DBool true))]);
  (* aer.py:21 *) ("ecef2aer", [P "x" None; P "y" None; P "z" None; P "lat0" None; P "lon0" None; P "h0" None; P "ell" (Some DNone); P "deg" (Some (DBool true))]);
  (* body.py:160 *) ("ecef2body", [P "x" None; P "y" None; P "z" None; P "lat0" None; P "lon0" None; P "h0" None; P "yaw" None; P "pitch" None; P "roll" None; P "ell" (Some DNone); P "frame" (Some (DStr "ned")); P "sequence" (Some (DStr "zyx")); P "deg" (Some (DBool true))]);
  (* body.py:226 *) ("ecef2bodyv", [P "x" None; P "y" None; P "z" None; P "lat0" None; P "lon0" None; P "yaw" None; P "pitch" None; P "roll" None; P "frame" (Some (DStr "ned")); P "sequence" (Some (DStr "zyx")); P "deg" (Some (DBool true))]);
  (* dca.py:91 *) ("ecef2dca", [P "x" None; P "y" None; P "z" None; P "lat0" None; P "lon0" None; P "h0" None; P "heading" None; P "ell" (Some DNone); P "deg" (Some (DBool true))]);
  (* eci.py:119 *) ("ecef2eci", [P "x" None; P "y" None; P "z" None; P "time" None; P "force_non_astropy" (Some (DBool false)); P "delta_ut1" (Some (DFloat 0)); P "xp" (Some (DFloat 0)); P "yp" (Some (DFloat 0))]);
  (* eci.py:298 *) ("ecef2eci_state", [P "x" None; P "y" None; P "z" None; P "vx" None; P "vy" None; P "vz" None; P "time" None; P "force_non_astropy" (Some (DBool false)); P "delta_ut1" (Some (DFloat 0)); P "xp" (Some (DFloat 0)); P "yp" (Some (DFloat 0))]);
  (* ecef.py:298 *) ("ecef2enu", [P "x" None; P "y" None; P "z" None; P "lat0" None; P "lon0" None; P "h0" None; P "ell" (Some DNone); P "deg" (Some (DBool true))]);
  (* enu.py:251 *) ("ecef2enu_matrix", [P "lat0" None; P "lon0" None; P "deg" (Some (DBool true))]);
  (* ecef.py:256 *) ("ecef2enuv", [P "u" None; P "v" None; P "w" None; P "lat0" None; P "lon0" None; P "deg" (Some (DBool true))]);
  (* ecef.py:91 *) ("ecef2geodetic", [P "x" None; P "y" None; P "z" None; P "ell" (Some DNone); P "deg" (Some (DBool true))]);
  (* ned.py:182 *) ("ecef2ned", [P "x" None; P "y" None; P "z" None; P "lat0" None; P "lon0" None; P "h0" None; P "ell" (Some DNone); P "deg" (Some (DBool true))]);
  (* ned.py:317 *) ("ecef2ned_matrix", [P "lat0" None; P "lon0" None; P "deg" (Some (DBool true))]);
  (* ned.py:279 *) ("ecef2nedv", [P "x" None; P "y" None; P "z" None; P "lat0" None; P "lon0" None; P "deg" (Some (DBool true))]);
  (* nvector.py:78 *) ("ecef2nvector", [P "x" None; P "y" None; P "z" None; P "ell" (Some DNone); P "deg" (Some (DBool true))]);
  (* nwu.py:83 *) ("ecef2nwu", [P "x" None; P "y" None; P "z" None; P "lat0" None; P "lon0" None; P "h0" None; P "ell" (Some DNone); P "deg" (Some (DBool true))]);
  (* nwu.py:128 *) ("ecef2nwu_matrix", [P "lat0" None; P "lon0" None; P "deg" (Some (DBool true))]);
  (* nwu.py:101 *) ("ecef2nwuv", [P "x" None; P "y" None; P "z" None; P "lat0" None; P "lon0" None; P "deg" (Some (DBool true))]);
  (* sez.py:83 *) ("ecef2sez", [P "x" None; P "y" None; P "z" None; P "lat0" None; P "lon0" None; P "h0" None; P "ell" (Some DNone); P "deg" (Some (DBool true))]);
  (* sez.py:128 *) ("ecef2sez_matrix", [P "lat0" None; P "lon0" None; P "deg" (Some (DBool true))]);
  (* sez.py:101 *) ("ecef2sezv", [P "x" None; P "y" None; P "z" None; P "lat0" None; P "lon0" None; P "deg" (Some (DBool true))]);
  (* aer.py:169 *) ("eci2aer", [P "x" None; P "y" None; P "z" None; P "lat0" None; P "lon0" None; P "h0" None; P "t" None; P "deg" (Some (DBool true)); P "delta_ut1" (Some (DFloat 0)); P "xp" (Some (DFloat 0)); P "yp" (Some (DFloat 0))]);
  (* eci.py:27 *) ("eci2ecef", [P "x" None; P "y" None; P "z" None; P "time" None; P "force_non_astropy" (Some (DBool false)); P "delta_ut1" (Some (DFloat 0)); P "xp" (Some (DFloat 0)); P "yp" (Some (DFloat 0))]);
  (* eci.py:202 *) ("eci2ecef_state", [P "x" None; P "y" None; P "z" None; P "vx" None; P "vy" None; P "vz" None; P "time" None; P "force_non_astropy" (Some (DBool false)); P "delta_ut1" (Some (DFloat 0)); P "xp" (Some (DFloat 0)); P "yp" (Some (DFloat 0))]);
  (* ecef.py:445 *) ("eci2geodetic", [P "x" None; P "y" None; P "z" None; P "t" None; P "ell" (Some DNone); P "deg" (Some (DBool true)); P "delta_ut1" (Some (DFloat 0)); P "xp" (Some (DFloat 0)); P "yp" (Some (DFloat 0))]);
  (* enu.py:25 *) ("enu2aer", [P "e" None; P "n" None; P "u" None; P "deg" (Some (DBool true))]);
  (* body.py:124 *) ("enu2body", [P "e" None; P "n" None; P "u" None; P "yaw" None; P "pitch" None; P "roll" None; P "sequence" (Some (DStr "zyx")); P "deg" (Some (DBool true))]);
  (* body.py:76 *) ("enu2body_matrix", [P "yaw" None; P "pitch" None; P "roll" None; P "sequence" (Some (DStr "zyx")); P "deg" (Some (DBool true))]);
  (* dca.py:47 *) ("enu2dca", [P "e" None; P "n" None; P "u" None; P "heading" None; P "deg" (Some (DBool true))]);
  (* ecef.py:555 *) ("enu2ecef", [P "e1" None; P "n1" None; P "u1" None; P "lat0" None; P "lon0" None; P "h0" None; P "ell" (Some DNone); P "deg" (Some (DBool true))]);
  (* enu.py:259 *) ("enu2ecef_matrix", [P "lat0" None; P "lon0" None; P "deg" (Some (DBool true))]);
  (* enu.py:209 *) ("enu2ecefv", [P "e" None; P "n" None; P "u" None; P "lat0" None; P "lon0" None; P "deg" (Some (DBool true))]);
  (* enu.py:115 *) ("enu2geodetic", [P "e" None; P "n" None; P "u" None; P "lat0" None; P "lon0" None; P "h0" None; P "ell" (Some DNone); P "deg" (Some (DBool true))]);
  (* ecef.py:344 *) ("enu2uvw", [P "east" None; P "north" None; P "up" None; P "lat0" None; P "lon0" None; P "deg" (Some (DBool true))]);
  (* latitude.py:48 *) ("geoc2geod", [P "geocentric_lat" None; P "geocentric_distance" None; P "ell" (Some DNone); P "deg" (Some (DBool true))]);
  (* latitude.py:143 *) ("geocentric2geodetic", [P "geocentric_lat" None; P "alt_m" None; P "ell" (Some DNone); P "deg" (Some (DBool true))]);
  (* rcurve.py:13 *) ("geocentric_radius", [P "geodetic_lat" None; P "ell" (Some DNone); P "deg" (Some (DBool true))]);
  (* latitude.py:99 *) ("geod2geoc", [P "geodetic_lat" None; P "alt_m" None; P "ell" (Some DNone); P "deg" (Some (DBool true))]);
  (* aer.py:71 *) ("geodetic2aer", [P "lat" None; P "lon" None; P "h" None; P "lat0" None; P "lon0" None; P "h0" None; P "ell" (Some DNone); P "deg" (Some (DBool true))]);
  (* latitude.py:480 *) ("geodetic2authalic", [P "geodetic_lat" None; P "ell" (Some DNone); P "deg" (Some (DBool true))]);
  (* body.py:268 *) ("geodetic2body", [P "lat" None; P "lon" None; P "h" None; P "lat0" None; P "lon0" None; P "h0" None; P "yaw" None; P "pitch" None; P "roll" None; P "ell" (Some DNone); P "frame" (Some (DStr "ned")); P "sequence" (Some (DStr "zyx")); P "deg" (Some (DBool true))]);
  (* latitude.py:329 *) ("geodetic2conformal", [P "geodetic_lat" None; P "ell" (Some DNone); P "deg" (Some (DBool true))]);
  (* dca.py:129 *) ("geodetic2dca", [P "lat" None; P "lon" None; P "h" None; P "lat0" None; P "lon0" None; P "h0" None; P "heading" None; P "ell" (Some DNone); P "deg" (Some (DBool true))]);
  (* ecef.py:35 *) ("geodetic2ecef", [P "lat" None; P "lon" None; P "alt" None; P "ell" (Some DNone); P "deg" (Some (DBool true))]);
  (* ecef.py:500 *) ("geodetic2eci", [P "lat" None; P "lon" None; P "alt" None; P "t" None; P "ell" (Some DNone); P "deg" (Some (DBool true)); P "delta_ut1" (Some (DFloat 0)); P "xp" (Some (DFloat 0)); P "yp" (Some (DFloat 0))]);
  (* enu.py:163 *) ("geodetic2enu", [P "lat" None; P "lon" None; P "h" None; P "lat0" None; P "lon0" None; P "h0" None; P "ell" (Some DNone); P "deg" (Some (DBool true))]);
  (* latitude.py:99 *) ("geodetic2geocentric", [P "geodetic_lat" None; P "alt_m" None; P "ell" (Some DNone); P "deg" (Some (DBool true))]);
  (* latitude.py:184 *) ("geodetic2isometric", [P "geodetic_lat" None; P "ell" (Some DNone); P "deg" (Some (DBool true))]);
  (* ned.py:230 *) ("geodetic2ned", [P "lat" None; P "lon" None; P "h" None; P "lat0" None; P "lon0" None; P "h0" None; P "ell" (Some DNone); P "deg" (Some (DBool true))]);
  (* nvector.py:19 *) ("geodetic2nvector", [P "lat" None; P "lon" None; P "deg" (Some (DBool true))]);
  (* nwu.py:110 *) ("geodetic2nwu", [P "lat" None; P "lon" None; P "h" None; P "lat0" None; P "lon0" None; P "h0" None; P "ell" (Some DNone); P "deg" (Some (DBool true))]);
  (* latitude.py:575 *) ("geodetic2parametric", [P "geodetic_lat" None; P "ell" (Some DNone); P "deg" (Some (DBool true))]);
  (* latitude.py:379 *) ("geodetic2rectifying", [P "geodetic_lat" None; P "ell" (Some DNone); P "deg" (Some (DBool true))]);
  (* sez.py:110 *) ("geodetic2sez", [P "lat" None; P "lon" None; P "h" None; P "lat0" None; P "lon0" None; P "h0" None; P "ell" (Some DNone); P "deg" (Some (DBool true))]);
  (* spherical.py:20 *) ("geodetic2spherical", [P "lat" None; P "lon" None; P "alt" None; P "ell" (Some DNone); P "deg" (Some (DBool true))]);
  (* sidereal.py:127 *) ("greenwichsrt", [P "Jdate" None]);
  (* latitude.py:244 *) ("isometric2geodetic", [P "isometric_lat" None; P "ell" (Some DNone); P "deg" (Some (DBool true))]);
  (* rcurve.py:64 *) ("meridian", [P "lat" None; P "ell" (Some DNone); P "deg" (Some (DBool true))]);
  (* ned.py:58 *) ("ned2aer", [P "n" None; P "e" None; P "d" None; P "deg" (Some (DBool true))]);
  (* body.py:112 *) ("ned2body", [P "n" None; P "e" None; P "d" None; P "yaw" None; P "pitch" None; P "roll" None; P "sequence" (Some (DStr "zyx")); P "deg" (Some (DBool true))]);
  (* body.py:64 *) ("ned2body_matrix", [P "yaw" None; P "pitch" None; P "roll" None; P "sequence" (Some (DStr "zyx")); P "deg" (Some (DBool true))]);
  (* dca.py:83 *) ("ned2dca", [P "n" None; P "e" None; P "d" None; P "heading" None; P "deg" (Some (DBool true))]);
  (* ned.py:136 *) ("ned2ecef", [P "n" None; P "e" None; P "d" None; P "lat0" None; P "lon0" None; P "h0" None; P "ell" (Some DNone); P "deg" (Some (DBool true))]);
  (* ned.py:325 *) ("ned2ecef_matrix", [P "lat0" None; P "lon0" None; P "deg" (Some (DBool true))]);
  (* ned.py:88 *) ("ned2geodetic", [P "n" None; P "e" None; P "d" None; P "lat0" None; P "lon0" None; P "h0" None; P "ell" (Some DNone); P "deg" (Some (DBool true))]);
  (* nvector.py:101 *) ("nvector2ecef", [P "n1" None; P "n2" None; P "n3" None; P "alt" (Some (DInt 0)); P "ell" (Some DNone); P "deg" (Some (DBool true))]);
  (* nvector.py:51 *) ("nvector2geodetic", [P "n1" None; P "n2" None; P "n3" None; P "deg" (Some (DBool true))]);
  (* nvector.py:254 *) ("nvector_cross_track_distance", [P "n1_1" None; P "n1_2" None; P "n1_3" None; P "n2_1" None; P "n2_2" None; P "n2_3" None; P "np_1" None; P "np_2" None; P "np_3" None; P "radius" (Some DNone)]);
  (* nvector.py:159 *) ("nvector_distance", [P "n1_1" None; P "n1_2" None; P "n1_3" None; P "n2_1" None; P "n2_2" None; P "n2_3" None; P "radius" (Some DNone)]);
  (* nvector.py:189 *) ("nvector_interpolate", [P "n1_1" None; P "n1_2" None; P "n1_3" None; P "n2_1" None; P "n2_2" None; P "n2_3" None; P "fraction" None]);
  (* nvector.py:291 *) ("nvector_intersection", [P "n1_1" None; P "n1_2" None; P "n1_3" None; P "n2_1" None; P "n2_2" None; P "n2_3" None; P "n3_1" None; P "n3_2" None; P "n3_3" None; P "n4_1" None; P "n4_2" None; P "n4_3" None]);
  (* nvector.py:231 *) ("nvector_mean", [P "n1s" None; P "n2s" None; P "n3s" None]);
  (* nwu.py:33 *) ("nwu2aer", [P "n" None; P "w" None; P "u" None; P "deg" (Some (DBool true))]);
  (* body.py:148 *) ("nwu2body", [P "n" None; P "w" None; P "u" None; P "yaw" None; P "pitch" None; P "roll" None; P "sequence" (Some (DStr "zyx")); P "deg" (Some (DBool true))]);
  (* body.py:100 *) ("nwu2body_matrix", [P "yaw" None; P "pitch" None; P "roll" None; P "sequence" (Some (DStr "zyx")); P "deg" (Some (DBool true))]);
  (* nwu.py:58 *) ("nwu2ecef", [P "n" None; P "w" None; P "u" None; P "lat0" None; P "lon0" None; P "h0" None; P "ell" (Some DNone); P "deg" (Some (DBool true))]);
  (* nwu.py:136 *) ("nwu2ecef_matrix", [P "lat0" None; P "lon0" None; P "deg" (Some (DBool true))]);
  (* nwu.py:75 *) ("nwu2ecefv", [P "n" None; P "w" None; P "u" None; P "lat0" None; P "lon0" None; P "deg" (Some (DBool true))]);
  (* nwu.py:41 *) ("nwu2geodetic", [P "n" None; P "w" None; P "u" None; P "lat0" None; P "lon0" None; P "h0" None; P "ell" (Some DNone); P "deg" (Some (DBool true))]);
  (* rcurve.py:37 *) ("parallel", [P "lat" None; P "ell" (Some DNone); P "deg" (Some (DBool true))]);
  (* latitude.py:612 *) ("parametric2geodetic", [P "parametric_lat" None; P "ell" (Some DNone); P "deg" (Some (DBool true))]);
  (* azelradec.py:85 *) ("radec2azel", [P "ra_deg" None; P "dec_deg" None; P "lat_deg" None; P "lon_deg" None; P "time" None; P "force_non_astropy" (Some (DBool false)); P "delta_ut1" (Some (DFloat 0))]);
  (* latitude.py:430 *) ("rectifying2geodetic", [P "rectifying_lat" None; P "ell" (Some DNone); P "deg" (Some (DBool true))]);
  (* sez.py:33 *) ("sez2aer", [P "s" None; P "e" None; P "z" None; P "deg" (Some (DBool true))]);
  (* body.py:136 *) ("sez2body", [P "s" None; P "e" None; P "z" None; P "yaw" None; P "pitch" None; P "roll" None; P "sequence" (Some (DStr "zyx")); P "deg" (Some (DBool true))]);
  (* body.py:88 *) ("sez2body_matrix", [P "yaw" None; P "pitch" None; P "roll" None; P "sequence" (Some (DStr "zyx")); P "deg" (Some (DBool true))]);
  (* sez.py:58 *) ("sez2ecef", [P "s" None; P "e" None; P "z" None; P "lat0" None; P "lon0" None; P "h0" None; P "ell" (Some DNone); P "deg" (Some (DBool true))]);
  (* sez.py:136 *) ("sez2ecef_matrix", [P "lat0" None; P "lon0" None; P "deg" (Some (DBool true))]);
  (* sez.py:75 *) ("sez2ecefv", [P "s" None; P "e" None; P "z" None; P "lat0" None; P "lon0" None; P "deg" (Some (DBool true))]);
  (* sez.py:41 *) ("sez2geodetic", [P "s" None; P "e" None; P "z" None; P "lat0" None; P "lon0" None; P "h0" None; P "ell" (Some DNone); P "deg" (Some (DBool true))]);
  (* spherical.py:94 *) ("spherical2geodetic", [P "lat" None; P "lon" None; P "radius" None; P "ell" (Some DNone); P "deg" (Some (DBool true))]);
  (* timeconv.py:12 *) ("str2dt", [P "time" None]);
  (* rcurve.py:94 *) ("transverse", [P "lat" None; P "ell" (Some DNone); P "deg" (Some (DBool true))]);
  (* ecef.py:398 *) ("uvw2enu", [P "u" None; P "v" None; P "w" None; P "lat0" None; P "lon0" None; P "deg" (Some (DBool true))])
].
