(** Time zones whose clock changes: aware datetimes as Python's [datetime] and [zoneinfo] compute
    with them, and the code of asyncz that does arithmetic on them: triggers/cron/trigger.py,
    triggers/interval.py, utils.py normalize/localize, and the wait computed by process_tasks.
    Every datetime here carries the same tzinfo object (the scheduler's zone, which is also the
    default zone of triggers): Python then compares and subtracts wall clocks only, and adding a
    timedelta moves the wall clock and clears [fold].  Zones are lists of changes (zoneinfo
    extends its list by a yearly rule: up to year 9999 that is a finite list).  Not modelled:
    pytz zones ([tzinfo.localize]), jitter, datetimes of another zone. *)
From Verif Require Import Prelude Calendar Cron FloatDiv.
Open Scope Z_scope.

(** offset before the first change; then (UTC second of the change, offset from then on) *)
Record zone := MkZone { z_off0 : Z; z_trans : list (Z * Z) }.

(** offset in force at the UTC second [u] (zoneinfo ZoneInfo.fromutc: bisect over _trans_utc) *)
Fixpoint utc_off (o : Z) (l : list (Z * Z)) (u : Z) : Z :=
  match l with
  | [] => o
  | (t, o') :: l' => if t <=? u then utc_off o' l' u else o
  end.
(** [fold] of the wall clock shown at [u]: still within the hour(s) put back by the last change *)
Fixpoint utc_fold (fold : bool) (o : Z) (l : list (Z * Z)) (u : Z) : bool :=
  match l with
  | [] => fold
  | (t, o') :: l' => if t <=? u then utc_fold (u - t <? o - o') o' l' u else fold
  end.
(** offset assumed for the wall clock [w] (zoneinfo _find_trans: bisect over _trans_local[fold],
    whose entries are the change plus the larger (fold 0) or smaller (fold 1) of the two offsets) *)
Fixpoint wall_off (fold : bool) (o : Z) (l : list (Z * Z)) (w : Z) : Z :=
  match l with
  | [] => o
  | (t, o') :: l' => if t + (if fold then Z.min o o' else Z.max o o') <=? w then wall_off fold o' l' w else o
  end.

(** an aware datetime of the zone: wall clock in microseconds, and [fold] *)
Record adt := MkAdt { a_wall : Z; a_fold : bool }.
(** datetime.timestamp(): the instant (microseconds) a datetime stands for *)
Definition to_utc (z : zone) (a : adt) : Z :=
  a_wall a - us * wall_off (a_fold a) (z_off0 z) (z_trans z) (a_wall a / us).
(** datetime.fromtimestamp(instant, zone), datetime.now(zone), astimezone *)
Definition from_utc (z : zone) (u : Z) : adt :=
  MkAdt (u + us * utc_off (z_off0 z) (z_trans z) (u / us)) (utc_fold false (z_off0 z) (z_trans z) (u / us)).
(** utils.py:425-427 normalize *)
Definition normalize (z : zone) (a : adt) : adt := from_utc z (to_utc z a).
(** datetime + timedelta *)
Definition plus (a : adt) (d : Z) : adt := MkAdt (a_wall a + d) false.

(** *** cron *)
(** utils.py:430-435 localize, and trigger.py:205-206 [normalize(dateval + difference)]: both take the
    naive datetime computed, with fold 0, through normalize.  fromtimestamp refuses years beyond 9999. *)
Definition settle (z : zone) (c : civil) : result (civil * bool) :=
  let a := normalize z (MkAdt (civ_secs c * us) false) in
  let w := a_wall a / us in
  if (w <? min_secs) || (max_secs <? w) then Err OverflowErr else Ok (secs_civil w, a_fold a).

(** trigger.py:249-264: the body of the loop *)
Definition zmove (tb : crontab) (z : zone) (c : civil) (fold : bool) (k : Z) : result (civil * bool * Z) :=
  let settled r := match r with
                   | Ok (c', k') => match settle z c' with Ok (c'', f) => Ok (c'', f, k') | Err e => Err e end
                   | Err e => Err e
                   end in
  match field_next k (tfield tb k) c with
  | None => settled (increment_field_value c (k - 1))
  | Some nv =>
      if fvalue k c <? nv then
        if freal k then settled (match set_field_value c k nv with Ok c' => Ok (c', k + 1) | Err e => Err e end)
        else settled (increment_field_value c k)
      else Ok (c, fold, k + 1)
  end.
Inductive zres := ZNone | ZFound (c : civil) (fold : bool) | ZRaise (e : exn).
Definition zstep (tb : crontab) (z : zone) (late : civil -> bool) (st : civil * bool * Z) : (civil * bool * Z) + zres :=
  match st with
  | (c, fold, k) =>
      if (0 <=? k) && (k <? 8) then
        match zmove tb z c fold k with
        | Err e => inr (ZRaise e)
        | Ok (c', f', k') => if late c' then inr ZNone else inl (c', f', k')
        end
      else if 0 <=? k then inr (ZFound c fold) else inr ZNone
  end.
Definition zsearch (tb : crontab) (z : zone) (late : civil -> bool) (c : civil) (fold : bool) : zres :=
  match iter_pos cron_fuel (zstep tb z late) (c, fold, 0) with
  | inr r => r
  | inl _ => ZRaise OtherError
  end.

(** trigger.py:239-245; min and max keep their first argument when the wall clocks are equal *)
Definition zstart (start_at prev : option adt) (now : adt) : adt :=
  match prev with
  | Some p =>
      let q := plus p 1 in
      let s := if a_wall q <? a_wall now then q else now in
      if a_wall s =? a_wall p then plus s 1 else s
  | None => match start_at with Some s => if a_wall now <? a_wall s then s else now | None => now end
  end.
(** utils.py:215-221 datetime_ceil: the second, and fold *)
Definition zceil (a : adt) : Z * bool :=
  if 0 <? a_wall a mod us then (a_wall a / us + 1, false) else (a_wall a / us, a_fold a).

(** trigger.py:223-273 get_next_trigger_time *)
Definition cron_next_z (tb : crontab) (z : zone) (start_at end_at prev : option adt) (now : adt) : result (option adt) :=
  let (w, fold) := zceil (zstart start_at prev now) in
  if (w <? min_secs) || (max_secs <? w) then Err OverflowErr
  else
    let late c := match end_at with Some e => a_wall e <? civ_secs c * us | None => false end in
    match zsearch tb z late (secs_civil w) fold with
    | ZRaise e => Err e
    | ZNone => Ok None
    | ZFound c f => Ok (Some (MkAdt (civ_secs c * us) f))
    end.

(** *** intervals: interval.py:66-104 (no jitter); [iv] in microseconds, [interval_size] its float
    number of seconds *)
Definition interval_next_z (z : zone) (iv : Z) (start : adt) (end_at prev : option adt) (now : adt) : option adt :=
  let next := match prev with
              | Some p => plus p iv
              | None =>
                  if a_wall now <? a_wall start then start
                  else plus start (iv * interval_number (a_wall now - a_wall start) iv)
              end in
  match end_at with
  | Some e => if a_wall next <=? a_wall e then Some (normalize z next) else None
  | None => Some (normalize z next)
  end.

(** *** base.py:1695: how long process_tasks asks to wait, in microseconds ([timeout_max] is
    threading.TIMEOUT_MAX), for the next wake-up time [next] found in the stores *)
Definition wait_z (timeout_max : Z) (next now : adt) : Z := Z.min (Z.max (a_wall next - a_wall now) 0) timeout_max.
