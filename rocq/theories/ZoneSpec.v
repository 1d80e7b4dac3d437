(** Clocks that change, without the algorithms: what the clock on the wall shows at an instant. *)
From Verif Require Import Prelude Calendar Cron CronSpec Zone.
Open Scope Z_scope.

(** the clock of the zone at the instant [u] (both in microseconds) *)
Fixpoint offset_at (o : Z) (l : list (Z * Z)) (u : Z) : Z :=
  match l with
  | [] => o
  | (t, o') :: l' => if t * 1000000 <=? u then offset_at o' l' u else o
  end.
Definition shown (z : zone) (u : Z) : Z := u + 1000000 * offset_at (z_off0 z) (z_trans z) u.
(** [u] is the first instant at which the clock shows what it shows (it may be put back later) *)
Definition first_time (z : zone) (u : Z) : Prop := forall v, shown z v = shown z u -> u <= v.
(** the instant [t] is one at which the clock is put forward *)
Definition put_forward (z : zone) (t : Z) : Prop := shown z (t - 1) + 1 < shown z t.
(** the clock shows a whole second that matches the cron specification *)
Definition matches_clock (tb : crontab) (z : zone) (u : Z) : Prop :=
  exists c, cron_matches tb c /\ shown z u = civ_secs c * 1000000.

(** clock changes do not run into each other *)
Fixpoint spaced (t d o : Z) (l : list (Z * Z)) : Prop :=
  match l with
  | [] => True
  | (t', o') :: l' => t < t' /\ t + d + Z.abs (o' - o) <= t' /\ spaced t' (Z.abs (o' - o)) o' l'
  end.
Definition well_spaced (z : zone) : Prop :=
  match z_trans z with [] => True | (t, o) :: l => spaced t (Z.abs (o - z_off0 z)) o l end.
(** when the clock is put forward, it skips exactly one hour of the day, not the last one
    (2:00 to 3:00 in New York, 1:00 to 2:00 in London, 0:00 to 1:00 in Santiago) *)
Fixpoint skips_an_hour (o : Z) (l : list (Z * Z)) : Prop :=
  match l with
  | [] => True
  | (t, o') :: l' => (o < o' -> o' = o + 3600 /\ (t + o) mod 3600 = 0 /\ (t + o) mod 86400 < 82800) /\ skips_an_hour o' l'
  end.
Definition ordinary (z : zone) : Prop := well_spaced z /\ skips_an_hour (z_off0 z) (z_trans z).

(** options carried along *)
Definition omap {A B} (f : A -> B) (o : option A) : option B := match o with Some a => Some (f a) | None => None end.
(** the instant given, if any, is the first at which the clock shows what it shows *)
Definition all_first (z : zone) (o : option Z) : Prop := forall u, o = Some u -> first_time z u.
(** the instants a trigger may answer with: after the previous fire time (from now on when that is in the
    future), or without one from now and from the start on *)
Definition asked_after (start_at prev : option Z) (now u : Z) : Prop :=
  match prev with
  | Some p => if now <? p then now <= u else p < u
  | None => now <= u /\ forall s, start_at = Some s -> s <= u
  end.

(** the clock shows a date of the years 1 to 9999, and not their very last second *)
Definition dated (z : zone) (u : Z) : Prop := min_secs * 1000000 <= shown z u < (max_secs - 1) * 1000000.
(** the clock is not touched from [u] to [v] *)
Definition untouched (z : zone) (u v : Z) : Prop :=
  forall t, u <= t <= v -> offset_at (z_off0 z) (z_trans z) t = offset_at (z_off0 z) (z_trans z) u.
(** [t] is when the clock first shows [w]; if it is put forward over [w], [t] is when it would have
    shown [w] otherwise *)
Definition comes_to_show (z : zone) (w t : Z) : Prop :=
  first_time z t /\
  (shown z t = w \/
   exists f, put_forward z f /\ shown z (f - 1) < w < shown z f /\ t = f + (w - (shown z (f - 1) + 1))).
