(** The part of Python's standard library [datetime] that
    src/pymap3d/earth_orientation.py uses, after CPython's Lib/_pydatetime.py.
    A [tzinfo] is represented by the UTC offset it reports, in microseconds
    (for a zone with daylight saving this is the offset at that wall time;
    [fold] is not modelled). *)
From Verif Require Import PyMath.
Open Scope Z_scope.

(** datetime.datetime *)
Record datetime := mkdatetime {
  year : Z; month : Z; day : Z; hour : Z; minute : Z; second : Z; microsecond : Z;
  tzinfo : option Z
}.

(** _pydatetime._is_leap, _days_in_month, _days_before_month, _days_before_year *)
Definition is_leap (y : Z) : bool :=
  (y mod 4 =? 0) && (negb (y mod 100 =? 0) || (y mod 400 =? 0)).
Definition DAYS_IN_MONTH (m : Z) : Z :=
  nth (Z.to_nat m) [-1; 31; 28; 31; 30; 31; 30; 31; 31; 30; 31; 30; 31] 0.
Definition DAYS_BEFORE_MONTH (m : Z) : Z :=
  nth (Z.to_nat m) [-1; 0; 31; 59; 90; 120; 151; 181; 212; 243; 273; 304; 334] 0.
Definition days_in_month (y m : Z) : Z :=
  if (m =? 2) && is_leap y then 29 else DAYS_IN_MONTH m.
Definition days_before_month (y m : Z) : Z :=
  DAYS_BEFORE_MONTH m + (if (2 <? m) && is_leap y then 1 else 0).
Definition days_before_year (y : Z) : Z :=
  let y := y - 1 in y * 365 + y / 4 - y / 100 + y / 400.

(** _pydatetime._ymd2ord = date.toordinal *)
Definition ymd2ord (y m d : Z) : Z := days_before_year y + days_before_month y m + d.

(** _pydatetime._ord2ymd = date.fromordinal *)
Definition ord2ymd (n : Z) : Z * Z * Z :=
  let n := n - 1 in
  let n400 := n / 146097 in let n := n mod 146097 in
  let year := n400 * 400 + 1 in
  let n100 := n / 36524 in let n := n mod 36524 in
  let n4 := n / 1461 in let n := n mod 1461 in
  let n1 := n / 365 in let n := n mod 365 in
  let year := year + (n100 * 100 + n4 * 4 + n1) in
  if (n1 =? 4) || (n100 =? 4) then (year - 1, 12, 31)
  else
    let leapyear := (n1 =? 3) && (negb (n4 =? 24) || (n100 =? 3)) in
    let month := (n + 50) / 32 in
    let preceding := DAYS_BEFORE_MONTH month + (if (2 <? month) && leapyear then 1 else 0) in
    if n <? preceding then
      let month := month - 1 in
      let preceding := preceding - (DAYS_IN_MONTH month + (if (month =? 2) && leapyear then 1 else 0)) in
      (year, month, n - preceding + 1)
    else (year, month, n - preceding + 1).

Definition MAXORDINAL : Z := 3652059.
Definition DAY_US : Z := 86400000000.

(** Wall-clock microseconds: timedelta(self.toordinal(), hours=..., ...). *)
Definition wall_us (t : datetime) : Z :=
  ymd2ord (year t) (month t) (day t) * DAY_US
  + ((hour t * 60 + minute t) * 60 + second t) * 1000000 + microsecond t.

(** datetime.__add__(timedelta of [us] microseconds): keeps tzinfo, raises
    OverflowError outside years 1..9999. *)
Definition dt_add (t : datetime) (us : Z) : result datetime :=
  let n := wall_us t + us in
  let days := n / DAY_US in
  let rest := n mod DAY_US in
  if (0 <? days) && (days <=? MAXORDINAL) then
    let '(y, m, d) := ord2ymd days in
    let micro := rest mod 1000000 in
    let secs := rest / 1000000 in
    let hh := secs / 3600 in
    let rem := secs mod 3600 in
    Ok (mkdatetime y m d hh (rem / 60) (rem mod 60) micro (tzinfo t))
  else Raise OverflowError.

(** datetime.replace(tzinfo=timezone.utc) *)
Definition replace_utc (t : datetime) : datetime :=
  mkdatetime (year t) (month t) (day t) (hour t) (minute t) (second t) (microsecond t) (Some 0).
(** datetime.astimezone(timezone.utc) of an aware datetime with offset [off] *)
Definition astimezone_utc (t : datetime) (off : Z) : result datetime :=
  bind (dt_add t (- off)) (fun u => Ok (replace_utc u)).

(** [t >= u] for two aware datetimes: compare the UTC instants. *)
Definition dt_ge (t u : datetime) : bool :=
  let off x := match tzinfo x with Some o => o | None => 0 end in
  (wall_us u - off u <=? wall_us t - off t).

(** Python's [round] to the nearest integer, ties to even, used by
    [timedelta(seconds=x)] to get whole microseconds. *)
Definition round_half_even (x : R) : Z :=
  let f := Int_part x in
  let d := (x - IZR f)%R in
  if Rlt_dec d (1 / 2) then f
  else if Rlt_dec (1 / 2) d then f + 1
  else if Z.even f then f else f + 1.
(** timedelta(seconds=x), in microseconds *)
Definition timedelta_seconds (x : R) : Z := round_half_even (x * 1000000).

(** Python's [int] on a float: truncation towards zero. *)
Definition py_int (x : R) : Z := if Rle_dec 0 x then Int_part x else - Int_part (- x).
