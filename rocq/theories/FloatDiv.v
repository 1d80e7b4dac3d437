(** IEEE-754 binary64 quotients, as Python computes them, by integer arithmetic only.

    A float is a pair (p, q), q > 0, standing for p/q.  [frnd n d] is n/d correctly rounded to
    53 significant bits, ties to even.  Exponent range (overflow, subnormals) is not modelled:
    the magnitudes used by the scheduler are between 1e-18 and 1e18. *)
From Verif Require Import Prelude.
Open Scope Z_scope.

(** nearest integer to a/b (a >= 0, b > 0), ties to even *)
Definition rhe (a b : Z) : Z :=
  let k := a / b in
  let r := 2 * (a mod b) in
  if r <? b then k else if b <? r then k + 1 else if Z.even k then k else k + 1.

Definition scaled (n d e : Z) : Z * Z :=
  if 0 <=? e then (n, d * 2 ^ e) else (n * 2 ^ (- e), d).

Definition frnd_pos (n d : Z) : Z * Z :=
  let l := Z.log2 n - Z.log2 d in
  let e := let (a, b) := scaled n d l in if b <=? a then l - 52 else l - 53 in
  let (a, b) := scaled n d e in
  let m := rhe a b in
  if 0 <=? e then (m * 2 ^ e, 1) else (m, 2 ^ (- e)).

Definition frnd (n d : Z) : Z * Z :=
  if n =? 0 then (0, 1)
  else if n <? 0 then let (p, q) := frnd_pos (- n) d in (- p, q)
  else frnd_pos n d.

(** asyncz/utils.py:208-212 timedelta_seconds, on a duration in microseconds:
    [delta.days*24*60*60 + delta.seconds] is an int (floor of the seconds),
    [delta.microseconds / 1000000.0] a float, the sum a float. *)
Definition td_float (delta : Z) : Z * Z :=
  let (p, q) := frnd (delta mod 1000000) 1000000 in
  frnd (delta / 1000000 * q + p) q.

(** float / float for a non-zero divisor *)
Definition fdiv (x y : Z * Z) : Z * Z :=
  let n := fst x * snd y in
  let d := snd x * fst y in
  if d <? 0 then frnd (- n) (- d) else frnd n d.

(** math.ceil of a float *)
Definition fceil (x : Z * Z) : Z := - ((- fst x) / snd x).

(** asyncz/triggers/interval.py:91-92:
    [int(ceil(timedelta_seconds(now - start_at) / self.interval_size))] *)
Definition interval_number (diff iv : Z) : Z := fceil (fdiv (td_float diff) (td_float iv)).

(** the mathematically exact value *)
Definition ceil_div (a b : Z) : Z := - ((- a) / b).
