(** Model of asyncz/triggers/cron/{constants,expressions,fields,trigger}.py, after parsing.
    Simplifications: expressions are an AST (the constructors' checks are [expr_ok]; the textual
    front end is in CronParse.v); the time zone is a fixed offset in whole seconds, for which
    [normalize]/[localize] (asyncz/utils.py:425-435) are identities. *)
From Verif Require Import Prelude Calendar.
Open Scope Z_scope.

(** expressions.py: AllExpression (20-60), RangeExpression and its Month/Weekday subclasses
    (63-236, same [get_next_value]), WeekdayPositionExpression (239-288),
    LastDayOfMonthExpression (291-303). *)
Inductive cexpr :=
| EAll (step : option Z)
| ERange (first : Z) (last : option Z) (step : option Z)
| EWeekdayPos (opt wd : Z)          (* opt: index in OPTIONS, 5 = "last"; wd: 0 = Monday *)
| ELastDay.

(** trigger.py:85-94 field order: 0 year, 1 month, 2 day, 3 week, 4 day_of_week, 5 hour,
    6 minute, 7 second. *)

(** constants.py:1-10 MIN_VALUES *)
Definition fmin (f : Z) : Z :=
  if f =? 0 then 1970 else if f =? 1 then 1 else if f =? 2 then 1 else if f =? 3 then 1 else 0.
(** constants.py:11-20 MAX_VALUES *)
Definition fmax_const (f : Z) : Z :=
  if f =? 0 then 9999 else if f =? 1 then 12 else if f =? 2 then 31 else if f =? 3 then 53
  else if f =? 4 then 6 else if f =? 5 then 23 else 59.
(** fields.py:49-51 get_max; DayOfMonthField.get_max fields.py:106-107 *)
Definition fmax (f : Z) (c : civil) : Z :=
  if f =? 2 then mdays (cy c) (cmo c) else fmax_const f.
(** fields.py:53-54 get_value; WeekField 99-100; DayOfWeekField 114-115 *)
Definition fvalue (f : Z) (c : civil) : Z :=
  if f =? 0 then cy c else if f =? 1 then cmo c else if f =? 2 then cd c
  else if f =? 3 then isoweek c else if f =? 4 then weekday c
  else if f =? 5 then ch c else if f =? 6 then cmi c else cs c.
(** fields.py: ClassVar [real] (False for WeekField and DayOfWeekField) *)
Definition freal (f : Z) : bool := negb ((f =? 3) || (f =? 4)).

(** expressions.py: get_next_value of each expression class
    (AllExpression 36-50, RangeExpression 110-123, WeekdayPosition 257-271, LastDay 296-297) *)
Definition expr_next (f : Z) (e : cexpr) (c : civil) : option Z :=
  match e with
  | EAll step =>
      let start := Z.max (fvalue f c) (fmin f) in
      let next_v := match step with
                    | None => start
                    | Some n => start + (n - (start - fmin f)) mod n
                    end in
      if next_v <=? fmax f c then Some next_v else None
  | ERange first last step =>
      let min_value := Z.max (fmin f) first in
      let max_value := match last with Some l => Z.min (fmax f c) l | None => fmax f c end in
      let next_value := Z.max min_value (fvalue f c) in
      let next_value := match step with
                        | None => next_value
                        | Some n => next_value + (n - (next_value - min_value)) mod n
                        end in
      if next_value <=? max_value then Some next_value else None
  | EWeekdayPos opt wd =>
      let first_day_wday := month_first_weekday (cy c) (cmo c) in
      let last_day := mdays (cy c) (cmo c) in
      let first_hit_day := wd - first_day_wday + 1 in
      let first_hit_day := if first_hit_day <=? 0 then first_hit_day + 7 else first_hit_day in
      let target_day := if opt <? 5 then first_hit_day + opt * 7
                        else first_hit_day + ((last_day - first_hit_day) / 7) * 7 in
      if (target_day <=? last_day) && (cd c <=? target_day) then Some target_day else None
  | ELastDay => Some (mdays (cy c) (cmo c))
  end.

(** fields.py:57-64 BaseField.get_next_value: smallest non-None *)
Fixpoint field_next_from (f : Z) (c : civil) (es : list cexpr) (smallest : option Z) : option Z :=
  match es with
  | [] => smallest
  | e :: es' =>
      let value := expr_next f e c in
      let smallest' :=
        match smallest with
        | None => value
        | Some s => match value with Some v => if v <? s then Some v else Some s | None => Some s end
        end in
      field_next_from f c es' smallest'
  end.
Definition field_next (f : Z) (es : list cexpr) (c : civil) : option Z := field_next_from f c es None.

(** The eight compiled fields (trigger.py:119-142 [self.fields]). *)
Record crontab := MkTab {
  t_year : list cexpr; t_month : list cexpr; t_day : list cexpr; t_week : list cexpr;
  t_dow : list cexpr; t_hour : list cexpr; t_minute : list cexpr; t_second : list cexpr }.
Definition tfield (tb : crontab) (f : Z) : list cexpr :=
  if f =? 0 then t_year tb else if f =? 1 then t_month tb else if f =? 2 then t_day tb
  else if f =? 3 then t_week tb else if f =? 4 then t_dow tb else if f =? 5 then t_hour tb
  else if f =? 6 then t_minute tb else t_second tb.

(** checks made when an expression is built and validated
    (expressions.py: Field(gt=0) line 22, AllExpression.validate_range 28-34, RangeExpression
    82-87 and 89-108, WeekdayPosition 246-255).  [f] is the field it is compiled for; the last two
    kinds are only offered by DayOfMonthField (fields.py:103-104). *)
Definition step_ok (f : Z) (step : option Z) : bool :=
  match step with None => true | Some n => (1 <=? n) && (n <=? fmax_const f - fmin f) end.
Definition expr_ok (f : Z) (e : cexpr) : bool :=
  match e with
  | EAll step => step_ok f step
  | ERange first last step =>
      step_ok f step && (fmin f <=? first)
      && match last with
         | Some l => (first <=? l) && (l <=? fmax_const f)
         | None => match step with None => false | Some _ => true end  (* last = first without step *)
         end
      && match step with
         | None => true
         | Some n => let top := match last with
                                | Some l => if l =? 0 then fmax_const f else l
                                | None => fmax_const f end in
                     n <=? top - first
         end
  | EWeekdayPos opt wd => (f =? 2) && (0 <=? opt) && (opt <=? 5) && (0 <=? wd) && (wd <=? 6)
  | ELastDay => (f =? 2)
  end.
Definition field_ok (f : Z) (es : list cexpr) : bool :=
  match es with [] => false | _ => forallb (expr_ok f) es end.
Definition tab_ok (tb : crontab) : bool :=
  forallb (fun f => field_ok f (tfield tb f)) [0; 1; 2; 3; 4; 5; 6; 7].

(** *** trigger.py:171-206 increment_field_value.
    [vals] is the dict [values] (every key is assigned before the loop ends, see CronProofs);
    Python's negative list indices are made explicit by [pyidx]. *)
Definition vset (f v : Z) (c : civil) : civil :=
  if f =? 0 then MkCivil v (cmo c) (cd c) (ch c) (cmi c) (cs c)
  else if f =? 1 then MkCivil (cy c) v (cd c) (ch c) (cmi c) (cs c)
  else if f =? 2 then MkCivil (cy c) (cmo c) v (ch c) (cmi c) (cs c)
  else if f =? 5 then MkCivil (cy c) (cmo c) (cd c) v (cmi c) (cs c)
  else if f =? 6 then MkCivil (cy c) (cmo c) (cd c) (ch c) v (cs c)
  else if f =? 7 then MkCivil (cy c) (cmo c) (cd c) (ch c) (cmi c) v
  else c.
Definition pyidx (i : Z) : option Z :=
  if (0 <=? i) && (i <? 8) then Some i else if (-8 <=? i) && (i <? 0) then Some (8 + i) else None.

Fixpoint incr_loop (fuel : nat) (c : civil) (fieldnum count : Z) (vals : civil) : result (civil * Z) :=
  match fuel with
  | O => Err OtherError   (* excluded in CronProofs: 64 iterations always suffice *)
  | S fuel' =>
      if count <? 8 then
        match pyidx count with
        | None => Err IndexError
        | Some f =>
            if negb (freal f) then
              if count =? fieldnum then incr_loop fuel' c (fieldnum - 1) (count - 1) vals
              else incr_loop fuel' c fieldnum (count + 1) vals
            else if count <? fieldnum then incr_loop fuel' c fieldnum (count + 1) (vset f (fvalue f c) vals)
            else if fieldnum <? count then incr_loop fuel' c fieldnum (count + 1) (vset f (fmin f) vals)
            else
              let value := fvalue f c in
              if value =? fmax f c then incr_loop fuel' c (fieldnum - 1) (count - 1) vals
              else incr_loop fuel' c fieldnum (count + 1) (vset f (value + 1) vals)
        end
      else
        (* datetime( **values): ValueError when out of range *)
        if valid vals && (1 <=? cy vals) && (cy vals <=? 9999) then Ok (vals, fieldnum) else Err ValueError
  end.
Definition increment_field_value (c : civil) (fieldnum : Z) : result (civil * Z) :=
  incr_loop 64 c fieldnum 0 (MkCivil 0 0 0 0 0 0).

(** trigger.py:208-221 set_field_value *)
Definition set_field_value (c : civil) (fieldnum new_value : Z) : result civil :=
  let pick f := if f <? fieldnum then fvalue f c else if fieldnum <? f then fmin f else new_value in
  let vals := MkCivil (pick 0) (pick 1) (pick 2) (pick 5) (pick 6) (pick 7) in
  if valid vals && (1 <=? cy vals) && (cy vals <=? 9999) then Ok vals else Err ValueError.

(** *** trigger.py:223-273 get_next_trigger_time *)
Inductive cres := CNone | CFound (c : civil) | CRaise (e : exn).

(** trigger.py:249-264: the body of the while loop up to the end_at check *)
Definition cron_move (tb : crontab) (c : civil) (fieldnum : Z) : result (civil * Z) :=
  let curr := fvalue fieldnum c in
  match field_next fieldnum (tfield tb fieldnum) c with
  | None => increment_field_value c (fieldnum - 1)
  | Some nv =>
      if curr <? nv then
        if freal fieldnum then
          match set_field_value c fieldnum nv with
          | Ok c' => Ok (c', fieldnum + 1)
          | Err e => Err e
          end
        else increment_field_value c fieldnum
      else Ok (c, fieldnum + 1)
  end.

(** one iteration of the while loop (lines 248-267) and the exit test (268-273);
    [late c] is [end_at_field and next_date > end_at_field] *)
Definition cron_step (tb : crontab) (late : civil -> bool) (st : civil * Z) : (civil * Z) + cres :=
  let (c, fieldnum) := st in
  if (0 <=? fieldnum) && (fieldnum <? 8) then
    match cron_move tb c fieldnum with
    | Err e => inr (CRaise e)
    | Ok (c', k') => if late c' then inr CNone else inl (c', k')
    end
  else if 0 <=? fieldnum then inr (CFound c) else inr CNone.

(** Iteration with binary fuel: at most [p] steps, stopping early on a result. *)
Fixpoint iter_pos {S R} (p : positive) (f : S -> S + R) (s : S) : S + R :=
  match p with
  | xH => f s
  | xO q => match iter_pos q f s with inl s' => iter_pos q f s' | inr r => inr r end
  | xI q => match f s with
            | inl s' => match iter_pos q f s' with inl s'' => iter_pos q f s'' | inr r => inr r end
            | inr r => inr r
            end
  end.

Definition cron_fuel : positive := Eval compute in Z.to_pos (2 ^ 50).

Definition cron_search (tb : crontab) (late : civil -> bool) (start : civil) : cres :=
  match iter_pos cron_fuel (cron_step tb late) (start, 0) with
  | inr r => r
  | inl _ => CRaise OtherError   (* out of fuel: proved impossible in CronProofs *)
  end.

Definition us : Z := 1000000.

(** asyncz/utils.py:215-221 datetime_ceil on an instant in microseconds; result in seconds *)
Definition ceil_secs (t : Z) : Z := if 0 <? t mod us then t / us + 1 else t / us.

(** Python datetimes have years 1..9999 *)
Definition min_secs : Z := civ_secs (MkCivil 1 1 1 0 0 0).
Definition max_secs : Z := civ_secs (MkCivil 9999 12 31 23 59 59).

(** trigger.py:239-245 choice of the search start *)
Definition cron_start (start_at : option Z) (prev : option Z) (now : Z) : Z :=
  match prev with
  | Some p => let s := Z.min now (p + 1) in if s =? p then s + 1 else s
  | None => match start_at with Some s => Z.max now s | None => now end
  end.

(** The whole method.  [off] is the zone's offset in seconds, [j] the jitter actually drawn
    (0 when no jitter is configured).  Result: an instant in microseconds. *)
Definition cron_next (tb : crontab) (off : Z) (start_at end_at : option Z) (j : Z)
           (prev : option Z) (now : Z) : result (option Z) :=
  let start := cron_start start_at prev now in
  let local := ceil_secs (start + off * us) in
  if (local <? min_secs) || (max_secs <? local) then Err OverflowErr
  else
    let late c := match end_at with
                  | Some e => e <? (civ_secs c - off) * us
                  | None => false end in
    match cron_search tb late (secs_civil local) with
    | CRaise e => Err e
    | CNone => Ok None
    | CFound c =>
        let t := (civ_secs c - off) * us + j in
        Ok (Some (match end_at with Some e => Z.min t e | None => t end))
    end.
