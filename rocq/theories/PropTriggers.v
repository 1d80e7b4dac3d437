(** C04-C08 and C52-C54: date, interval and combination triggers (TriggerSpec gives meanings). *)
From Verif Require Import Prelude FloatDiv FloatDivProofs Calendar Cron CronSpec Triggers TriggerSpec TriggersProofs TriggersProofs2 TriggersMore.
From Coq Require Import Permutation.
Open Scope Z_scope.

(** C04.  Whole-second intervals, asked less than 2^51 microseconds (71 years) after the start:
    the least grid point from [now] on, None exactly when it is after end_at. *)
Theorem C04_interval_first_fire :
  forall (B start : Z) (end_at : option Z) (o : oracle) (now : Z) (fuel : nat),
    0 < B < 2 ^ 53 -> now - start < 2 ^ 51 ->
    match get_next fuel (TInterval (B * us) start end_at None) None o now with
    | Ok (Some t) => first_from (grid (B * us) start) now t /\ not_after t end_at
    | Ok None => exists t, first_from (grid (B * us) start) now t /\ ~ not_after t end_at
    | Err _ => False
    end.
Proof. exact interval_first_fire. Qed.
Print Assumptions C04_interval_first_fire.

(** C04, with a previous fire time: exactly one interval later, unless that is after end_at. *)
Theorem C04_interval_next_fire :
  forall (iv start : Z) (end_at : option Z) (o : oracle) (p now : Z) (fuel : nat),
    (not_after (p + iv) end_at -> get_next fuel (TInterval iv start end_at None) (Some p) o now = Ok (Some (p + iv))) /\
    (~ not_after (p + iv) end_at -> get_next fuel (TInterval iv start end_at None) (Some p) o now = Ok None).
Proof. exact interval_next_fire. Qed.
Print Assumptions C04_interval_next_fire.

(** Outside that range the float division breaks the claim: with an interval of 0.3 s, 2.1 s
    after the start, the answer is 2.4 s although 2.1 s is on the grid ... *)
Theorem C04_fractional_interval_refuted :
  exists iv start now t, 0 < iv /\ start <= now /\
    (forall o fuel, get_next fuel (TInterval iv start None None) None o now = Ok (Some t)) /\
    ~ first_from (grid iv start) now t.
Proof. exact fractional_interval_refuted. Qed.
Print Assumptions C04_fractional_interval_refuted.
(** ... but the answer is always a grid point. *)
Theorem C04_interval_on_grid_partial :
  forall (iv start : Z) (end_at : option Z) (o : oracle) (now t : Z) (fuel : nat),
    0 < iv -> get_next fuel (TInterval iv start end_at None) None o now = Ok (Some t) ->
    grid iv start t /\ not_after t end_at.
Proof. exact interval_on_grid_trigger. Qed.
Print Assumptions C04_interval_on_grid_partial.

(** C04, the constructor: the interval is the sum of the units given, and one second when they come
    to nothing; without start_at the first fire is one interval from now. *)
Theorem C04_interval_units :
  forall weeks days hours minutes seconds : Z,
    let total := seconds + 60 * minutes + 3600 * hours + 86400 * days + 604800 * weeks in
    interval_of weeks days hours minutes seconds = (if total =? 0 then 1000000 else 1000000 * total).
Proof.
  intros w d h m s total. unfold interval_of, us.
  replace ((((w * 7 + d) * 24 + h) * 60 + m) * 60 + s) with total by (unfold total; lia).
  destruct (Z.eqb_spec total 0); lia.
Qed.
Print Assumptions C04_interval_units.
Theorem C04_default_start :
  forall (iv now : Z) (end_at : option Z) (o : oracle) (fuel : nat), 0 < iv -> not_after (now + iv) end_at ->
    get_next fuel (TInterval iv (interval_start None now iv) end_at None) None o now = Ok (Some (now + iv)) /\
    forall s, interval_start (Some s) now iv = s.
Proof.
  intros iv now e o fuel P N. split; [|reflexivity]. cbn [get_next interval_start]. unfold interval_next. cbn [draw].
  destruct (Z.ltb_spec now (now + iv)); [|lia]. rewrite Z.add_0_r. unfold not_after in N. destruct e as [x|]; auto.
  destruct (Z.leb_spec (now + iv) x); auto. lia.
Qed.
Print Assumptions C04_default_start.

(** C05.  A date trigger answers its date without a previous fire time, None with one. *)
Theorem C05_date_fires_once :
  forall (d : Z) (o : oracle) (fuel : nat) (now : Z),
    get_next fuel (TDate d) None o now = Ok (Some d) /\
    forall p, get_next fuel (TDate d) (Some p) o now = Ok None.
Proof. exact date_fires_once. Qed.
Print Assumptions C05_date_fires_once.

(** C06.  Any trigger, whatever is drawn: between the un-jittered answer and that plus j seconds,
    and never after end_at. *)
Theorem C06_jitter_bounds :
  forall (fuel : nat) (tr : trigger) (prev : option Z) (o : oracle) (now t : Z),
    fair o -> jitter_ok (jitter_of tr) ->
    get_next fuel tr prev o now = Ok (Some t) ->
    exists t0, get_next fuel (with_jitter None tr) prev o now = Ok (Some t0) /\
      t0 <= t /\ (forall j, jitter_of tr = Some j -> t <= t0 + j * us) /\
      (jitter_of tr = None -> t = t0) /\ not_after t (end_of tr).
Proof. exact jitter_bounds. Qed.
Print Assumptions C06_jitter_bounds.

(** C07.  An AND answers a time only if all children, asked at one and the same instant, answer
    that time; it answers None only if a child, asked at some instant, answers None. *)
Theorem C07_and_children_agree :
  forall (l : list trigger) (prev : option Z) (o : oracle) (now t : Z) (fuel : nat),
    get_next fuel (TAnd l None) prev o now = Ok (Some t) ->
    l <> [] /\ exists o' now', forall x, In x l -> exists i, get_next fuel x prev (sub o' i) now' = Ok (Some t).
Proof. exact and_children_agree. Qed.
Print Assumptions C07_and_children_agree.
Theorem C07_and_none :
  forall (l : list trigger) (prev j : option Z) (o : oracle) (now : Z) (fuel : nat),
    get_next fuel (TAnd l j) prev o now = Ok None ->
    exists o' now' x, In x l /\ get_next fuel x prev o' now' = Ok None.
Proof. exact and_children_none. Qed.
Print Assumptions C07_and_none.

(** C08.  OR = minimum of the non-None answers. *)
Theorem C08_or_is_minimum :
  forall (l : list trigger) (prev : option Z) (o : oracle) (now : Z) (fuel : nat) (r : option Z),
    Forall jitter_free l ->
    get_next fuel (TOr l None) prev o now = Ok r ->
    (forall x, In x l -> exists a, get_next fuel x prev o now = Ok a) /\
    match r with
    | Some t => (exists x, In x l /\ get_next fuel x prev o now = Ok (Some t)) /\
                (forall x u, In x l -> get_next fuel x prev o now = Ok (Some u) -> t <= u)
    | None => forall x, In x l -> get_next fuel x prev o now = Ok None
    end.
Proof. exact or_is_minimum. Qed.
Print Assumptions C08_or_is_minimum.
Theorem C08_or_order_irrelevant :
  forall (l l' : list trigger) (prev : option Z) (fuel : nat) (o : oracle) (now : Z) (r : option Z),
    Permutation l l' -> Forall jitter_free l ->
    get_next fuel (TOr l None) prev o now = Ok r -> get_next fuel (TOr l' None) prev o now = Ok r.
Proof. exact or_order. Qed.
Print Assumptions C08_or_order_irrelevant.

(** C52.  The first fire time of any combination of interval and cron triggers is the first
    instant, from [now] on, at which the combination is scheduled ([fires]: union for OR,
    intersection for AND), up to any horizon at most 35 years after the interval starts. *)
Theorem C52_first_fire_time :
  forall (H : Z) (fuel : nat) (tr : trigger) (o : oracle) (now : Z) (r : option Z),
    regular H tr -> now <= H -> get_next fuel tr None o now = Ok r -> first_until (fires tr) H now r.
Proof. exact first_fire_time. Qed.
Print Assumptions C52_first_fire_time.
(** and an AND whose children have a common fire time does return *)
Theorem C52_and_returns :
  forall (H : Z) (l : list trigger) (o : oracle) (now t : Z),
    l <> [] -> Forall (regular H) l -> Forall and_free l ->
    (forall x, In x l -> fires x t) -> now <= t <= H ->
    (forall x, In x l -> forall o n, now <= n <= t -> exists r, get_next 0 x None o n = Ok r) ->
    exists u, first_from (fires (TAnd l None)) now u /\
      forall fuel, (Z.to_nat (t - now) < fuel)%nat -> get_next fuel (TAnd l None) None o now = Ok (Some u).
Proof. exact and_trigger_least. Qed.
Print Assumptions C52_and_returns.

(** C53.  Every later fire time of a combination of cron triggers is the next instant at which it
    is scheduled (when an answer is given). *)
Theorem C53_cron_next_fire_time :
  forall (p : Z) (fuel : nat) (tr : trigger) (o : oracle) (now : Z) (r : option Z),
    cron_only p tr -> p <= now -> get_next fuel tr (Some p) o now = Ok r ->
    match r with Some t => first_from (fires tr) (p + 1) t | None => none_from (fires tr) (p + 1) end.
Proof. exact cron_next_fire_time. Qed.
Print Assumptions C53_cron_next_fire_time.
(** With intervals this is false: OR of "every 2 s" and "every 3 s" (both from 0) never fires
    at 3 s, because the 3 s child restarts its count at every fire of the other. *)
Theorem C53_or_interval_loses_fires :
  exists tr, regular (2 ^ 49) tr /\ fires tr (3 * us) /\
    forall o fuel n, exists t, fire_seq fuel tr o n = Some t /\ t <> 3 * us.
Proof. exact or_interval_refuted. Qed.
Print Assumptions C53_or_interval_loses_fires.

(** C54.  "An AND trigger always returns" is false.  After a first fire, an AND whose children
    (plain intervals, dates, cron, ORs of them) do not immediately agree loops for ever ... *)
Theorem C54_and_hangs :
  forall (l : list trigger) (p now : Z) (o : oracle) (x y : trigger) (a b : Z),
    Forall (fun tr => and_free tr /\ jitter_free tr /\ forward tr /\
                      exists t, get_next 0 tr (Some p) o now = Ok (Some t)) l ->
    fair o -> p <= now -> In x l -> In y l ->
    get_next 0 x (Some p) o now = Ok (Some a) -> get_next 0 y (Some p) o now = Ok (Some b) -> a <> b ->
    forall fuel, get_next fuel (TAnd l None) (Some p) o now = Err OutOfFuel.
Proof. exact and_trigger_hangs. Qed.
Print Assumptions C54_and_hangs.
(** ... for instance "every 2 s" and "every 3 s" after firing at 0 *)
Theorem C54_and_two_three_hangs :
  forall o now fuel, fair o -> 0 <= now ->
    get_next fuel (TAnd [TInterval (2 * us) 0 None None; TInterval (3 * us) 0 None None] None) (Some 0) o now = Err OutOfFuel.
Proof. exact and_two_three_hangs. Qed.
Print Assumptions C54_and_two_three_hangs.
(** ... and even the very first question: a date off the grid of an interval *)
Theorem C54_and_date_hangs :
  forall o fuel,
    get_next fuel (TAnd [TDate us; TInterval (2 * us) 0 None None] None) None o 0 = Err OutOfFuel.
Proof. exact and_date_hangs. Qed.
Print Assumptions C54_and_date_hangs.

(** C55.  Whatever the combination and whatever is drawn, a fire time is later than the previous
    one, and does not depend on when (at or after the previous one) the question is asked. *)
Theorem C55_fire_times_increase :
  forall (fuel : nat) (tr : trigger) (p : Z), forward tr ->
    forall o now t, fair o -> p <= now -> get_next fuel tr (Some p) o now = Ok (Some t) -> p < t.
Proof. exact get_next_progress. Qed.
Print Assumptions C55_fire_times_increase.
Theorem C55_now_irrelevant :
  forall (fuel : nat) (tr : trigger) (p n1 n2 : Z), p <= n1 -> p <= n2 ->
    forall o, get_next fuel tr (Some p) o n1 = get_next fuel tr (Some p) o n2.
Proof. exact get_next_now_irrelevant. Qed.
Print Assumptions C55_now_irrelevant.

(** *** the hypotheses are met by concrete cases *)
Definition no_jitter_oracle : oracle := fun _ _ => 0.
Example fair_nj : fair no_jitter_oracle. Proof. intros p j Hj. unfold no_jitter_oracle, us. lia. Qed.
Example C04_example : get_next 0 (TInterval (90 * us) (100 * us) None None) None no_jitter_oracle (1000 * us + 1) = Ok (Some (1090 * us)).
Proof. vm_compute. reflexivity. Qed.
Definition minute0 := MkTab [EAll None] [EAll None] [EAll None] [EAll None] [EAll None] [EAll None] [ERange 0 (Some 0) None] [ERange 0 (Some 0) None].
Definition weekly_and_hourly := TAnd [TInterval (25 * 60 * us) 0 None None; TCron minute0 0 None None None] None.
Example C52_example : regular (2 ^ 49) weekly_and_hourly /\
  get_next 20 weekly_and_hourly None no_jitter_oracle (60 * us) = Ok (Some (5 * 3600 * us)).
Proof.
  split; [|vm_compute; reflexivity]. cbn [regular weekly_and_hourly].
  split; [discriminate|]. split; [reflexivity|]. split.
  - split; [exists (25 * 60); split; [lia|reflexivity]|]. split; [lia|reflexivity].
  - split; [|exact I]. split; [vm_compute; reflexivity|reflexivity].
Qed.
Example C53_example : cron_only 0 (TOr [TCron minute0 0 None None None; TShutdown] None) /\
  get_next 0 (TOr [TCron minute0 0 None None None; TShutdown] None) (Some 0) no_jitter_oracle 5 = Ok (Some (3600 * us)).
Proof. split; [|vm_compute; reflexivity]. cbn [cron_only]. repeat split; auto; try (vm_compute; reflexivity). intros s; discriminate. Qed.
Example C06_example : get_next 0 (TInterval us 0 (Some (10 * us)) (Some 2)) (Some us) (fun _ j => j * 300000) 0 = Ok (Some (2 * us + 600000)).
Proof. vm_compute. reflexivity. Qed.
Example C55_example : forward (TOr [TInterval us 0 None (Some 3); TAnd [TDate 5] None] None).
Proof. cbn [forward]. split; [intros x; discriminate|]. split; [split; [unfold us; lia|intros x [= <-]; lia]|]. split; [split; [intros x; discriminate|]|]; auto. Qed.
