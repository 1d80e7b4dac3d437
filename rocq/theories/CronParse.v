(** The textual front end of CronTrigger: asyncz/triggers/cron/{fields,expressions,trigger}.py.
    Text is ASCII (the digits and letters of the regular expressions also cover other alphabets).
    Field values are strings: the code applies [str] first, and [str] of a non-negative int is its
    numeral. *)
From Verif Require Import Prelude Text Calendar Cron.
Open Scope Z_scope.

Definition code_of (a : ascii) : Z := Z.of_nat (nat_of_ascii a).
(** \d, [a-z] with IGNORECASE, \w *)
Definition is_digit (a : ascii) : bool := (48 <=? code_of a) && (code_of a <=? 57).
Definition is_alpha (a : ascii) : bool := let n := code_of (lower_ascii a) in (97 <=? n) && (n <=? 122).
Definition is_word (a : ascii) : bool := is_digit a || is_alpha a || (code_of a =? 95).
(** the longest prefix of characters in [p] *)
Fixpoint span (p : ascii -> bool) (s : string) : string * string :=
  match s with
  | EmptyString => (EmptyString, EmptyString)
  | String a s' => if p a then let (u, v) := span p s' in (String a u, v) else (EmptyString, s)
  end.
(** int() of a string of digits (utils.py:44-50 to_int) *)
Fixpoint dec_from (acc : Z) (s : string) : Z := match s with EmptyString => acc | String a s' => dec_from (10 * acc + (code_of a - 48)) s' end.
Definition dec (s : string) : Z := dec_from 0 s.
(** [(?:c(\d+))?]: the number, if any, and what follows *)
Definition opt_number (c : ascii) (s : string) : option Z * string :=
  match s with
  | String a s' => if Ascii.eqb a c then match span is_digit s' with (EmptyString, _) => (None, s) | (d, r) => (Some (dec d), r) end else (None, s)
  | EmptyString => (None, s)
  end.
(** [$]: the end, or a final newline *)
Definition at_end (s : string) : bool :=
  match s with EmptyString => true | String a EmptyString => code_of a =? 10 | _ => false end.

(** expressions.py:21 *)
Definition match_all (s : string) : option (option Z) :=
  match s with
  | String a s' => if Ascii.eqb a "*" then let (st, r) := opt_number "/" s' in if at_end r then Some st else None else None
  | EmptyString => None
  end.
(** expressions.py:64-66 *)
Definition match_range (s : string) : option (Z * option Z * option Z) :=
  match span is_digit s with
  | (EmptyString, _) => None
  | (d, r) => let (last, r1) := opt_number "-" r in let (st, r2) := opt_number "/" r1 in
              if at_end r2 then Some (dec d, last, st) else None
  end.
(** expressions.py:153-155, 198-200: no [$] *)
Definition match_names (s : string) : option (string * option string) :=
  match span is_alpha s with
  | (EmptyString, _) => None
  | (w, String a r) => if Ascii.eqb a "-" then match span is_alpha r with (EmptyString, _) => Some (w, None) | (w2, _) => Some (w, Some w2) end
                       else Some (w, None)
  | (w, EmptyString) => Some (w, None)
  end.
(** constants.py:32-34 *)
Definition WEEKDAYS : list string := ["mon"; "tue"; "wed"; "thu"; "fri"; "sat"; "sun"]%string.
Definition MONTHS : list string := ["jan"; "feb"; "mar"; "apr"; "may"; "jun"; "jul"; "aug"; "sep"; "oct"; "nov"; "dec"]%string.
Definition OPTIONS : list string := ["1st"; "2nd"; "3rd"; "4th"; "5th"; "last"]%string.
(** list.index *)
Fixpoint index_from (k : Z) (s : string) (l : list string) : option Z :=
  match l with [] => None | x :: l' => if String.eqb x s then Some k else index_from (k + 1) s l' end.
Definition index (s : string) (l : list string) : option Z := index_from 0 s l.
(** the first [o] of [l] that [s] begins with, ignoring case, and what follows it *)
Fixpoint drop (n : nat) (s : string) : string := match n, s with O, _ => s | S n', String _ s' => drop n' s' | S _, EmptyString => EmptyString end.
Fixpoint match_option (k : Z) (l : list string) (s : string) : option (Z * string) :=
  match l with
  | [] => None
  | o :: l' => if starts_with o (lower s) then Some (k, drop (String.length o) s) else match_option (k + 1) l' s
  end.
Definition is_blank (a : ascii) : bool := code_of a =? 32.
(** expressions.py:240-243: no [$] either; the two alternatives are tried in order *)
Definition match_pos (s : string) : option (Z * string) :=
  match match_option 0 OPTIONS s with
  | None => None
  | Some (k, r) =>
      match span is_blank r with
      | (EmptyString, _) => None
      | (_, r1) => match span is_digit r1 with
                   | (EmptyString, _) => match span is_word r1 with (EmptyString, _) => None | (w, _) => Some (k, w) end
                   | (d, _) => Some (k, d)
                   end
      end
  end.

(** expressions.py:22-34: AllExpression(step), then validate_range *)
Definition mk_all (f : Z) (step : option Z) : result cexpr :=
  match step with
  | Some n => if n <=? 0 then Err ValueError else if n >? fmax_const f - fmin f then Err ValueError else Ok (EAll step)
  | None => Ok (EAll None)
  end.
(** expressions.py:68-108: RangeExpression(first, last, step), then validate_range *)
Definition mk_range (f first : Z) (last step : option Z) : result cexpr :=
  if match step with Some n => n <=? 0 | None => false end then Err ValueError
  else
    let last := match last, step with None, None => Some first | _, _ => last end in
    if match last with Some l => first >? l | None => false end then Err ValueError
    else if match step with Some n => n >? fmax_const f - fmin f | None => false end then Err ValueError
    else if first <? fmin f then Err ValueError
    else if match last with Some l => l >? fmax_const f | None => false end then Err ValueError
    else
      let top := match last with Some l => if l =? 0 then fmax_const f else l | None => fmax_const f end in
      if match step with Some n => n >? top - first | None => false end then Err ValueError
      else Ok (ERange first last step).
(** expressions.py:158-183 and 202-225: names to numbers, [base] is 1 for months, 0 for weekdays *)
Definition mk_names (f base : Z) (names : list string) (w : string) (w2 : option string) : result cexpr :=
  match index (lower w) names with
  | None => Err ValueError
  | Some i => match w2 with
              | None => mk_range f (i + base) None None
              | Some w2 => match index (lower w2) names with
                           | None => Err ValueError
                           | Some j => mk_range f (i + base) (Some (j + base)) None
                           end
              end
  end.
(** fields.py:73-87 compile_expression with the compilers of the field (fields.py:35-38, 103-104,
    112, 119): every kind tries * and numbers first *)
Definition parse_expr (f : Z) (s : string) : result cexpr :=
  match match_all s with
  | Some st => mk_all f st
  | None =>
  match match_range s with
  | Some (a, l, st) => mk_range f a l st
  | None =>
      if f =? 1 then match match_names s with Some (w, w2) => mk_names f 1 MONTHS w w2 | None => Err ValueError end
      else if f =? 4 then match match_names s with Some (w, w2) => mk_names f 0 WEEKDAYS w w2 | None => Err ValueError end
      else if f =? 2 then
        match match_pos s with
        | Some (k, w) => match index (lower w) WEEKDAYS with Some i => Ok (EWeekdayPos k i) | None => Err ValueError end
        | None => if starts_with "last" (lower s) then Ok ELastDay else Err ValueError
        end
      else Err ValueError
  end end.
Fixpoint mapM {A B} (g : A -> result B) (l : list A) : result (list B) :=
  match l with
  | [] => Ok []
  | x :: l' => match g x with Err e => Err e | Ok y => match mapM g l' with Err e => Err e | Ok ys => Ok (y :: ys) end end
  end.
(** fields.py:67-71 compile_expressions: strip, split at [" *, *"].  The blanks next to a comma belong to
    the separator and the two ends are stripped, so every part loses its outer blanks. *)
Fixpoint lblank (s : string) : string := match s with String a s' => if is_blank a then lblank s' else s | EmptyString => EmptyString end.
Fixpoint rblank (s : string) : string :=
  match s with
  | EmptyString => EmptyString
  | String a s' => match rblank s' with EmptyString => if is_blank a then EmptyString else String a EmptyString | r => String a r end
  end.
Definition parts (s : string) : list string := map (fun w => rblank (lblank w)) (split_on "," (strip s)).
Definition parse_field (f : Z) (s : string) : result (list cexpr) := mapM (parse_expr f) (parts s).

(** constants.py:21-30 DEFAULT_VALUES *)
Definition default_text (f : Z) : string :=
  if f =? 1 then "1" else if f =? 2 then "1" else if f =? 5 then "0" else if f =? 6 then "0" else if f =? 7 then "0" else "*".
(** trigger.py:113-142: [values] are the fields given, by number *)
Definition zget (f : Z) (l : list (Z * string)) : option string := option_map snd (find (fun kv => fst kv =? f) l).
Definition zpop (f : Z) (l : list (Z * string)) : list (Z * string) := filter (fun kv => negb (fst kv =? f)) l.
Fixpoint assign (fields : list Z) (values : list (Z * string)) (defaults : bool) : result (list (list cexpr)) :=
  match fields with
  | [] => Ok []
  | f :: rest =>
      let '(text, values, defaults) :=
        match zget f values with
        | Some s => let values := zpop f values in (s, values, match values with [] => true | _ => false end)
        | None => if defaults then (default_text f, values, defaults) else ("*"%string, values, defaults)
        end in
      match parse_field f text with
      | Err e => Err e
      | Ok es => match assign rest values defaults with Err e => Err e | Ok l => Ok (es :: l) end
      end
  end.
Definition all_fields : list Z := [0; 1; 2; 3; 4; 5; 6; 7].
Definition cron_new (values : list (Z * string)) : result crontab :=
  match assign all_fields values false with
  | Err e => Err e
  | Ok [y; mo; d; w; dw; h; mi; s] => Ok (MkTab y mo d w dw h mi s)
  | Ok _ => Err OtherError   (* not reached: eight fields *)
  end.
(** str.split() *)
Fixpoint words_from (cur : string) (s : string) : list string :=
  match s with
  | EmptyString => match cur with EmptyString => [] | _ => [cur] end
  | String a s' => if is_space a then match cur with EmptyString => words_from EmptyString s' | _ => cur :: words_from EmptyString s' end
                   else words_from (cur ++ String a EmptyString)%string s'
  end.
Definition words (s : string) : list string := words_from EmptyString s.
(** trigger.py:144-169 from_crontab *)
Definition from_crontab (s : string) : result crontab :=
  match words s with
  | [mi; h; d; mo; dw] => cron_new [(1, mo); (2, d); (4, dw); (5, h); (6, mi)]
  | _ => Err ValueError
  end.
