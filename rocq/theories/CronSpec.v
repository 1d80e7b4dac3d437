(** What a cron specification means, independently of the search algorithm: which wall-clock
    seconds match.  Follows the documentation of CronTrigger (asyncz/triggers/cron/trigger.py:25-55
    and docs/en/docs/triggers/cron.md). *)
From Verif Require Import Prelude Calendar Cron.
Open Scope Z_scope.

(** [v] is one of [a], [a+n], [a+2n], ... *)
Definition on_grid (a n v : Z) : Prop := exists k, 0 <= k /\ v = a + k * n.

(** numeric expressions: [lo] and [hi] are the bounds of the field *)
Definition num_matches (lo hi : Z) (e : cexpr) (v : Z) : Prop :=
  lo <= v <= hi /\
  match e with
  | EAll None => True
  | EAll (Some n) => on_grid lo n v
  | ERange a b step =>
      a <= v /\ (forall l, b = Some l -> v <= l) /\ (forall n, step = Some n -> on_grid a n v)
  | _ => False
  end.

(** "nth weekday" / "last weekday" / "last", for the day of month *)
Definition day_matches (e : cexpr) (c : civil) : Prop :=
  match e with
  | EWeekdayPos opt wd =>
      weekday c = wd /\
      (if opt =? 5 then mdays (cy c) (cmo c) < cd c + 7         (* no later one in this month *)
       else opt * 7 < cd c <= opt * 7 + 7)                      (* exactly opt earlier ones *)
  | ELastDay => cd c = mdays (cy c) (cmo c)
  | _ => num_matches 1 (mdays (cy c) (cmo c)) e (cd c)
  end.

Definition some_expr (P : cexpr -> Prop) (es : list cexpr) : Prop := exists e, In e es /\ P e.

(** the second [c] matches the specification [tb] *)
Record cron_matches (tb : crontab) (c : civil) : Prop := {
  m_valid : valid c = true;
  m_year : some_expr (fun e => num_matches 1970 9999 e (cy c)) (t_year tb);
  m_month : some_expr (fun e => num_matches 1 12 e (cmo c)) (t_month tb);
  m_day : some_expr (fun e => day_matches e c) (t_day tb);
  m_week : some_expr (fun e => num_matches 1 53 e (isoweek c)) (t_week tb);
  m_dow : some_expr (fun e => num_matches 0 6 e (weekday c)) (t_dow tb);
  m_hour : some_expr (fun e => num_matches 0 23 e (ch c)) (t_hour tb);
  m_minute : some_expr (fun e => num_matches 0 59 e (cmi c)) (t_minute tb);
  m_second : some_expr (fun e => num_matches 0 59 e (cs c)) (t_second tb) }.

(** the instant [t] (microseconds) is a whole second that matches in the zone with offset [off] *)
Definition matches_at (tb : crontab) (off t : Z) : Prop :=
  exists c, cron_matches tb c /\ t = (civ_secs c - off) * 1000000.

(** the meaning of an expression for value [v] of field [f] in the month of [c] *)
Definition esem (f : Z) (e : cexpr) (c : civil) (v : Z) : Prop :=
  match e with
  | EWeekdayPos opt wd =>
      1 <= v <= mdays (cy c) (cmo c) /\ ord_weekday (ymd2ord (cy c) (cmo c) v) = wd /\
      (if opt =? 5 then mdays (cy c) (cmo c) < v + 7 else opt * 7 < v <= opt * 7 + 7)
  | ELastDay => v = mdays (cy c) (cmo c)
  | _ => num_matches (fmin f) (fmax f c) e v
  end.

(** [r] is the least element of [P] from [a] on, [None] when there is none *)
Definition least_from (P : Z -> Prop) (a : Z) (r : option Z) : Prop :=
  match r with
  | Some v => a <= v /\ P v /\ forall w, a <= w < v -> ~ P w
  | None => forall w, a <= w -> ~ P w
  end.
