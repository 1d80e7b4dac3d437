(** Which zone a trigger's dates are read in: the constructors of IntervalTrigger
    (asyncz/triggers/interval.py:29-64) and CronTrigger (triggers/cron/trigger.py:60-115), utils.py:114-171
    to_datetime with require_tz=False, and the first lines of get_next_trigger_time (interval.py:66-79,
    cron/trigger.py:223-238).  Simplified: zones have a constant offset (seconds east of UTC; Zone.v has
    changing ones), dates are microseconds, a text has already been parsed (DateText.v). *)
From Verif Require Import Prelude Calendar Cron FloatDiv Triggers.
Open Scope Z_scope.

(** a datetime without zone (what its clock shows), or with one (the instant, and the zone's offset) *)
Inductive stamp := Naive (wall : Z) | Aware (instant off : Z).
(** start_at/end_at as given: a datetime object, or a text *)
Inductive dated_arg := ADatetime (s : stamp) | AText (s : stamp).
Definition stamp_of (a : dated_arg) : stamp := match a with ADatetime s | AText s => s end.

(** interval.py:52-59, cron/trigger.py:104-111 *)
Definition own_zone (timezone : option Z) (start_at end_at : option dated_arg) : option Z :=
  match timezone with
  | Some z => Some z
  | None =>
      match start_at with
      | Some (ADatetime (Aware _ o)) => Some o
      | _ => match end_at with Some (ADatetime (Aware _ o)) => Some o | _ => None end
      end
  end.
(** utils.py:114-171, require_tz=False *)
Definition kept_stamp (zone : option Z) (s : stamp) : stamp :=
  match s, zone with
  | Naive w, Some o => Aware (w - o * us) o
  | _, _ => s
  end.
(** get_next_trigger_time: [timezone = self.timezone or timezone], then replace(tzinfo=timezone) on naive ones *)
Definition read_stamp (zone : option Z) (sched : Z) (s : stamp) : Z :=
  match s with Aware i _ => i | Naive w => w - (match zone with Some o => o | None => sched end) * us end.

(** interval.py:61-64: made at the instant [made] on a machine whose local offset is [local];
    [datetime.now(None)] is what the local clock shows *)
Definition interval_start_stamp (local made iv : Z) (zone : option Z) (start_at : option dated_arg) : stamp :=
  kept_stamp zone (match start_at with
                   | Some a => stamp_of a
                   | None => match zone with Some o => Aware (made + iv) o | None => Naive (made + local * us + iv) end
                   end).
(** the trigger a scheduler in the zone [sched] then asks *)
Definition interval_trigger (local made iv sched : Z) (timezone : option Z) (start_at end_at : option dated_arg) : trigger :=
  let zone := own_zone timezone start_at end_at in
  TInterval iv (read_stamp zone sched (interval_start_stamp local made iv zone start_at))
    (match end_at with Some a => Some (read_stamp zone sched (kept_stamp zone (stamp_of a))) | None => None end) None.
Definition cron_trigger (tb : crontab) (sched : Z) (timezone : option Z) (start_at end_at : option dated_arg) : trigger :=
  let zone := own_zone timezone start_at end_at in
  let rd a := match a with Some a => Some (read_stamp zone sched (kept_stamp zone (stamp_of a))) | None => None end in
  TCron tb (match zone with Some o => o | None => sched end) (rd start_at) (rd end_at) None.
