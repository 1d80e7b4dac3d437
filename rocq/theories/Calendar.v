(** The proleptic Gregorian calendar as implemented by Python's [datetime] / [calendar]
    modules, which asyncz/triggers/cron relies on ([monthrange], [weekday], [isocalendar],
    [datetime(...)], comparison and subtraction of datetimes).
    Years are integers (Python: 1..9999); everything is on [Z]. *)
From Verif Require Import Prelude.
Open Scope Z_scope.

Record civil := MkCivil { cy : Z; cmo : Z; cd : Z; ch : Z; cmi : Z; cs : Z }.

(** calendar.isleap *)
Definition leap (y : Z) : bool :=
  ((y mod 4 =? 0) && (negb (y mod 100 =? 0) || (y mod 400 =? 0)))%bool.

(** days in month [m] of year [y]: calendar.monthrange(y, m)[1] *)
Definition mdays (y m : Z) : Z :=
  if m =? 2 then (if leap y then 29 else 28)
  else if (m =? 4) || (m =? 6) || (m =? 9) || (m =? 11) then 30 else 31.

(** days before month [m] in year [y] (datetime.py: _days_before_month) *)
Definition dbm (y m : Z) : Z :=
  let l := if leap y then 1 else 0 in
  if m <=? 1 then 0 else if m =? 2 then 31 else if m =? 3 then 59 + l
  else if m =? 4 then 90 + l else if m =? 5 then 120 + l else if m =? 6 then 151 + l
  else if m =? 7 then 181 + l else if m =? 8 then 212 + l else if m =? 9 then 243 + l
  else if m =? 10 then 273 + l else if m =? 11 then 304 + l else if m =? 12 then 334 + l
  else 365 + l.

(** days before 1 January of year [y] (datetime.py: _days_before_year) *)
Definition dby (y : Z) : Z :=
  let p := y - 1 in p * 365 + p / 4 - p / 100 + p / 400.

(** proleptic ordinal, 1 January of year 1 is 1 (datetime.py: _ymd2ord) *)
Definition ymd2ord (y m d : Z) : Z := dby y + dbm y m + d.

(** ordinal of 1970-01-01 *)
Definition epoch_ord : Z := 719163.

(** weekday of an ordinal, Monday = 0 (date.weekday) *)
Definition ord_weekday (n : Z) : Z := (n + 6) mod 7.
Definition weekday (c : civil) : Z := ord_weekday (ymd2ord (cy c) (cmo c) (cd c)).

(** calendar.monthrange(y, m)[0] *)
Definition month_first_weekday (y m : Z) : Z := ord_weekday (ymd2ord y m 1).

(** ordinal of the Monday starting ISO week 1 (datetime.py: _isoweek1monday) *)
Definition isoweek1monday (y : Z) : Z :=
  let firstday := ymd2ord y 1 1 in
  let firstweekday := (firstday + 6) mod 7 in
  let w1 := firstday - firstweekday in
  if 3 <? firstweekday then w1 + 7 else w1.

(** date.isocalendar()[1] (datetime.py: date.isocalendar) *)
Definition isoweek (c : civil) : Z :=
  let today := ymd2ord (cy c) (cmo c) (cd c) in
  let w := (today - isoweek1monday (cy c)) / 7 in
  if w <? 0 then (today - isoweek1monday (cy c - 1)) / 7 + 1
  else if (52 <=? w) && (isoweek1monday (cy c + 1) <=? today) then 1
  else w + 1.

(** seconds since the epoch of a naive civil datetime read as UTC *)
Definition civ_secs (c : civil) : Z :=
  (ymd2ord (cy c) (cmo c) (cd c) - epoch_ord) * 86400 + ch c * 3600 + cmi c * 60 + cs c.

(** well-formed civil datetimes: what [datetime(...)] accepts, without the year bounds *)
Definition valid (c : civil) : bool :=
  (1 <=? cmo c) && (cmo c <=? 12) && (1 <=? cd c) && (cd c <=? mdays (cy c) (cmo c))
  && (0 <=? ch c) && (ch c <=? 23) && (0 <=? cmi c) && (cmi c <=? 59) && (0 <=? cs c) && (cs c <=? 59).

(** inverse: ordinal to (year, month, day).  Python's _ord2ymd uses nested 400/100/4/1-year
    cycles; this is a direct definition of the same function, proved inverse to [ymd2ord]. *)
Definition ord_year (n : Z) : Z :=
  let y := (n * 400) / 146097 in
  if n <=? dby y then y - 1
  else if n <=? dby (y + 1) then y
  else if n <=? dby (y + 2) then y + 1
  else y + 2.
Fixpoint find_month (k : nat) (y m r : Z) : Z :=
  match k with
  | O => m
  | S k' => if r <=? dbm y (m + 1) then m else find_month k' y (m + 1) r
  end.
Definition secs_civil (t : Z) : civil :=
  let n := t / 86400 + epoch_ord in
  let s := t mod 86400 in
  let y := ord_year n in
  let r := n - dby y in
  let m := find_month 11 y 1 r in
  MkCivil y m (r - dbm y m) (s / 3600) (s mod 3600 / 60) (s mod 60).
