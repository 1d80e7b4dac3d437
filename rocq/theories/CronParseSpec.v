(** What cron text means, stated without the parser: forms, limits, defaults (C12, C58). *)
From Verif Require Import Prelude Text Calendar Cron.
Open Scope Z_scope.

(** decimal numerals *)
Definition digit (k : Z) (a : ascii) : Prop := 0 <= k /\ String.get (Z.to_nat k) "0123456789" = Some a.
Inductive numeral : string -> Z -> Prop :=
| num_one k a : digit k a -> numeral (String a EmptyString) k
| num_more d n k a : numeral d n -> digit k a -> numeral (d ++ String a EmptyString)%string (10 * n + k).

(** fields in the order of the constructor: year, month, day, week, day of week, hour, minute, second *)
Definition limits : list (Z * Z) := [(1970, 9999); (1, 12); (1, 31); (1, 53); (0, 6); (0, 23); (0, 59); (0, 59)].
Definition has_limits (f lo hi : Z) : Prop := 0 <= f /\ nth_error limits (Z.to_nat f) = Some (lo, hi).

(** numeric forms, for every field *)
Inductive numeric : string -> cexpr -> Prop :=
| n_all : numeric "*" (EAll None)
| n_every d n : numeral d n -> numeric ("*/" ++ d) (EAll (Some n))
| n_one d a : numeral d a -> numeric d (ERange a (Some a) None)
| n_range d1 d2 a b : numeral d1 a -> numeral d2 b -> numeric (d1 ++ "-" ++ d2) (ERange a (Some b) None)
| n_from d1 d3 a n : numeral d1 a -> numeral d3 n -> numeric (d1 ++ "/" ++ d3) (ERange a None (Some n))
| n_range_every d1 d2 d3 a b n : numeral d1 a -> numeral d2 b -> numeral d3 n ->
    numeric (d1 ++ "-" ++ d2 ++ "/" ++ d3) (ERange a (Some b) (Some n)).
(** [w] is the [i]-th name, in upper or lower case *)
Definition names (l : list string) (w : string) (i : Z) : Prop := 0 <= i /\ nth_error l (Z.to_nat i) = Some (lower w).
Definition weekdays : list string := ["mon"; "tue"; "wed"; "thu"; "fri"; "sat"; "sun"]%string.
Definition months : list string := ["jan"; "feb"; "mar"; "apr"; "may"; "jun"; "jul"; "aug"; "sep"; "oct"; "nov"; "dec"]%string.
Definition positions : list string := ["1st"; "2nd"; "3rd"; "4th"; "5th"; "last"]%string.
Fixpoint blanks (n : nat) : string := match n with O => EmptyString | S n' => String " " (blanks n') end.
(** forms with names: months (field 1), days of the week (field 4), positions in the month (field 2) *)
Inductive named (f : Z) : string -> cexpr -> Prop :=
| n_month w i : f = 1 -> names months w i -> named f w (ERange (i + 1) (Some (i + 1)) None)
| n_months w1 w2 i j : f = 1 -> names months w1 i -> names months w2 j -> named f (w1 ++ "-" ++ w2) (ERange (i + 1) (Some (j + 1)) None)
| n_wday w i : f = 4 -> names weekdays w i -> named f w (ERange i (Some i) None)
| n_wdays w1 w2 i j : f = 4 -> names weekdays w1 i -> names weekdays w2 j -> named f (w1 ++ "-" ++ w2) (ERange i (Some j) None)
| n_pos o n w k i : f = 2 -> names positions o k -> names weekdays w i -> named f (o ++ blanks (S n) ++ w) (EWeekdayPos k i)
| n_last w : f = 2 -> lower w = "last"%string -> named f w ELastDay.
Definition written (f : Z) (s : string) (e : cexpr) : Prop := numeric s e \/ named f s e.

(** which of them are accepted: the numbers are in the limits of the field, in order, and a step is
    no longer than what it divides.  (An upper end of 0 counts as absent for that last check.) *)
Definition acceptable (lo hi : Z) (e : cexpr) : Prop :=
  match e with
  | EAll None => True
  | EAll (Some n) => 1 <= n <= hi - lo
  | ERange a (Some b) None => lo <= a <= b /\ b <= hi
  | ERange a (Some b) (Some n) => lo <= a <= b /\ b <= hi /\ 1 <= n <= hi - lo /\ (n <= b - a \/ (b = 0 /\ n <= hi - a))
  | ERange a None (Some n) => lo <= a /\ 1 <= n <= hi - lo /\ n <= hi - a
  | ERange a None None => False
  | EWeekdayPos _ _ | ELastDay => True
  end.

(** *** defaults.  The text of field [f] when the fields [given] are written *)
Definition written_for (given : list (Z * string)) (f : Z) (s : string) : Prop :=
  exists l1 l2, given = l1 ++ (f, s) :: l2 /\ ~ In f (map fst l1).
Definition minimum_text : list string := ["*"; "1"; "1"; "*"; "*"; "0"; "0"; "0"]%string.
Inductive text_of (given : list (Z * string)) (f : Z) : string -> Prop :=
| t_given s : written_for given f s -> text_of given f s
| t_after s : given <> [] -> (forall g, In g (map fst given) -> g < f) -> nth_error minimum_text (Z.to_nat f) = Some s -> text_of given f s
| t_before : ~ In f (map fst given) -> given = [] \/ (exists g, In g (map fst given) /\ f < g) -> text_of given f "*".

(** *** comma lists and white space *)
Definition no_comma (s : string) : Prop := forall u v, s <> (u ++ String "," v)%string.
Fixpoint spaces (s : string) : Prop := match s with EmptyString => True | String a s' => is_space a = true /\ spaces s' end.
Fixpoint solid (s : string) : Prop := match s with EmptyString => True | String a s' => is_space a = false /\ solid s' end.
(** a word of a comma list: begins and ends with something visible *)
Definition tidy (w : string) : Prop :=
  no_comma w /\ (exists a u, w = String a u /\ is_space a = false) /\ (exists u a, w = (u ++ String a EmptyString)%string /\ is_space a = false).
Inductive listed : list string -> string -> Prop :=
| l_one w : listed [w] w
| l_more w ws s m n : listed ws s -> listed (w :: ws) (w ++ blanks m ++ "," ++ blanks n ++ s).
(** [s] is the words [ws] separated, and maybe surrounded, by white space *)
Inductive spaced : list string -> string -> Prop :=
| s_none p : spaces p -> spaced [] p
| s_word p w ws s : spaces p -> solid w -> w <> ""%string -> spaced ws s -> (s = ""%string \/ exists a s', s = String a s' /\ is_space a = true) ->
    spaced (w :: ws) (p ++ w ++ s).
