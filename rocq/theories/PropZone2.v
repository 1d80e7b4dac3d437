(** C66, C67: intervals, and the wait for the next wake-up, in a zone whose clock changes. *)
From Verif Require Import Prelude FloatDiv FloatDivProofs Calendar CalendarFacts Cron CronSpec Zone ZoneSpec ZoneFacts ZoneCron PropZone Triggers TriggerSpec.
Open Scope Z_scope.

Section N.
  Context (z : zone) (Hs : well_spaced z).
  Lemma norm_first w : wz z (lz z (wz z w)) = wz z w.
  Proof.
    destruct (wz_spec z Hs w) as [(E & _)|(tg & gs & len & G & W & U & E & _)]; [rewrite E; auto|].
    pose proof (fold_wz z Hs w) as F. destruct (shown_exists z Hs (wz z w)) as (A & B & C).
    destruct (Z.eq_dec (wz z (lz z (wz z w))) (wz z w)) as [|N]; [auto|exfalso].
    set (v := wz z (lz z (wz z w))) in *. pose proof (g_len _ _ _ _ _ G).
    destruct (Z.le_gt_cases tg v) as [D|D].
    - pose proof (g_next _ _ _ _ _ G v ltac:(lia)) as X. fold (lz z v) in X. lia.
    - pose proof (g_before _ _ _ _ _ G v D) as X. fold (lz z v) in X. lia.
  Qed.
  Definition stands (w : Z) : Z := to_utc z (MkAdt w false).
  Lemma stands_secs w : stands w = wz z (w / us) * us + w mod us.
  Proof. unfold stands, to_utc. cbn [a_wall a_fold]. unfold wz. pose proof (split_us w). unfold us in *. lia. Qed.
  Lemma stands_shows w : comes_to_show z w (stands w).
  Proof.
    pose proof (mod_us w) as M. destruct (div_us (wz z (w / us)) (w mod us) M) as (D1 & D2).
    assert (S : shown z (stands w) = lz z (wz z (w / us)) * us + w mod us).
    { rewrite shown_secs, stands_secs, D1, D2. reflexivity. }
    split.
    - apply (first_secs z Hs). rewrite stands_secs, D1. symmetry. apply norm_first.
    - rewrite S. destruct (wz_spec z Hs (w / us)) as [(E & _)|(tg & gs & len & G & W & U & E & _)].
      + left. rewrite E. pose proof (split_us w). lia.
      + right. exists (tg * us). pose proof (g_len _ _ _ _ _ G). pose proof (g_prev _ _ _ _ _ G) as P. fold (lz z (tg - 1)) in P.
        pose proof (g_next _ _ _ _ _ G tg ltac:(lia)) as Q. fold (lz z tg) in Q.
        assert (S0 : shown z (tg * us) = lz z tg * us).
        { rewrite shown_secs. replace (tg * us) with (tg * us + 0) by lia. destruct (div_us tg 0 ltac:(unfold us; lia)) as (-> & ->). lia. }
        assert (S1 : shown z (tg * us - 1) = gs * us - 1).
        { rewrite shown_secs. replace (tg * us - 1) with ((tg - 1) * us + (us - 1)) by (unfold us; lia).
          destruct (div_us (tg - 1) (us - 1) ltac:(unfold us; lia)) as (-> & ->). unfold us in *. lia. }
        unfold put_forward. rewrite S1, S0, stands_secs, U. pose proof (split_us w). unfold us in *. lia.
  Qed.
  Lemma norm_utc w : to_utc z (normalize z (MkAdt w false)) = stands w.
  Proof. unfold normalize. fold (stands w). apply (to_from z Hs). apply (stands_shows w). Qed.

  Lemma first_lt u v : first_time z u -> first_time z v -> (u < v <-> shown z u < shown z v).
  Proof.
    intros U V. split; intros L; [apply (first_less z Hs); auto|].
    destruct (Z.lt_ge_cases u v) as [|G]; [auto|]. destruct (Z.eq_dec u v) as [->|N]; [lia|].
    pose proof (first_less z Hs u v U ltac:(lia)). lia.
  Qed.
  Lemma shows_ge w t : comes_to_show z w t -> w <= shown z t.
  Proof.
    intros (F & [E|(f & P & S & ->)]); [lia|]. unfold put_forward in P.
    set (t := f + _) in *. assert (f <= t) by (unfold t; lia).
    destruct (Z.eq_dec f t) as [<-|]; [lia|]. pose proof (first_less z Hs t f F ltac:(lia)). lia.
  Qed.
  Lemma stands_first u : first_time z u -> stands (shown z u) = u.
  Proof.
    intros F. destruct (to_from z Hs u F) as (A & B & C). unfold stands. rewrite <- C, <- B. destruct (from_utc z u); exact A.
  Qed.
End N.

(** C66.  With a previous fire [p]: one interval later on the clock. *)
Theorem C66_next_on_the_clock :
  forall (z : zone) (iv : Z) (start now : adt) (end_at : option Z) (p : Z), well_spaced z ->
    match interval_next_z z iv start (omap (from_utc z) end_at) (Some (from_utc z p)) now with
    | Some a => comes_to_show z (shown z p + iv) (to_utc z a) /\ (forall e, end_at = Some e -> shown z p + iv <= shown z e)
    | None => exists e, end_at = Some e /\ shown z e < shown z p + iv
    end.
Proof.
  intros z iv start now end_at p Hs. unfold interval_next_z, plus. rewrite from_wall. cbn [a_wall].
  destruct end_at as [e|]; cbn [omap].
  - rewrite from_wall. destruct (Z.leb_spec (shown z p + iv) (shown z e)).
    + rewrite (norm_utc z Hs). split; [apply (stands_shows z Hs)|]. intros ? [= <-]. lia.
    + exists e. split; [reflexivity|lia].
  - rewrite (norm_utc z Hs). split; [apply (stands_shows z Hs)|discriminate].
Qed.
Print Assumptions C66_next_on_the_clock.
(** So exactly one interval later when the clock is not changed in between ... *)
Theorem C66_next_exact :
  forall (z : zone) (iv : Z) (start now : adt) (p : Z), well_spaced z -> 0 < iv ->
    untouched z p (p + iv) -> first_time z (p + iv) ->
    exists a, interval_next_z z iv start None (Some (from_utc z p)) now = Some a /\ to_utc z a = p + iv.
Proof.
  intros z iv start now p Hs I U F. eexists. split; [reflexivity|]. unfold plus. rewrite from_wall, (norm_utc z Hs).
  rewrite <- (stands_first z Hs (p + iv) F). f_equal. unfold shown. rewrite (U (p + iv)) by lia. lia.
Qed.
Print Assumptions C66_next_exact.
(** ... and always later, if the previous fire was not in a repeated hour; the next is not either. *)
Theorem C66_next_later :
  forall (z : zone) (iv : Z) (start now : adt) (end_at : option Z) (p : Z) (a : adt), well_spaced z -> 0 < iv -> first_time z p ->
    interval_next_z z iv start (omap (from_utc z) end_at) (Some (from_utc z p)) now = Some a ->
    p < to_utc z a /\ first_time z (to_utc z a).
Proof.
  intros z iv start now end_at p a Hs I F E. pose proof (C66_next_on_the_clock z iv start now end_at p Hs) as H. rewrite E in H.
  destruct H as (C & _). pose proof (shows_ge z Hs _ _ C). destruct C as (Ft & _). split; [|exact Ft].
  apply (first_lt z Hs); auto. lia.
Qed.
Print Assumptions C66_next_later.
(** Without one (whole-second interval, asked within 71 years of the start, as in C04): the first grid
    point of the clock from now on; never before now. *)
Theorem C66_first_on_the_clock :
  forall (z : zone) (B start : Z) (end_at : option Z) (now : Z), well_spaced z ->
    0 < B < 2 ^ 53 -> shown z now - shown z start < 2 ^ 51 -> first_time z start -> first_time z now ->
    let first w := first_from (grid (B * us) (shown z start)) (shown z now) w in
    match interval_next_z z (B * us) (from_utc z start) (omap (from_utc z) end_at) None (from_utc z now) with
    | Some a => now <= to_utc z a /\ start <= to_utc z a /\
        exists w, first w /\ comes_to_show z w (to_utc z a) /\ (forall e, end_at = Some e -> w <= shown z e)
    | None => exists w e, first w /\ end_at = Some e /\ shown z e < w
    end.
Proof.
  intros z B start end_at now Hs HB HA Fs Fn first. destruct (to_from z Hs start Fs) as (_ & Sf & Sw). pose proof (from_wall z now) as Nw.
  assert (K : exists w, first w /\ shown z start <= w /\
     (if a_wall (from_utc z now) <? a_wall (from_utc z start) then from_utc z start
      else plus (from_utc z start) (B * us * interval_number (a_wall (from_utc z now) - a_wall (from_utc z start)) (B * us))) = MkAdt w false).
  { rewrite Nw, Sw. destruct (Z.ltb_spec (shown z now) (shown z start)) as [L|L].
    - exists (shown z start). split; [|split; [lia|]].
      + split; [exists 0; split; lia|]. split; [lia|]. intros u (k & Hk & ->) _. unfold us in *. nia.
      + rewrite <- Sf, <- Sw at 1. destruct (from_utc z start); reflexivity.
    - set (A := shown z now - shown z start) in *. unfold plus. rewrite Sw. change (B * us) with (B * 1000000).
      rewrite interval_number_exact by lia. pose proof (ceil_div_spec A (B * 1000000) ltac:(lia)) as Q. set (k := ceil_div A (B * 1000000)) in *. clearbody k.
      assert (0 <= k) by nia. eexists. split; [|split; [|reflexivity]]; [|nia]. unfold first.
      split; [exists k; split; [lia|unfold us; lia]|]. split; [unfold us in *; lia|].
      intros u (j & Hj & ->) Hu. unfold us in *. assert (k <= j) by nia. nia. }
  destruct K as (w & Fw & Ge & E). unfold interval_next_z. rewrite E.
  assert (T : now <= to_utc z (normalize z (MkAdt w false)) /\ start <= to_utc z (normalize z (MkAdt w false)) /\ comes_to_show z w (to_utc z (normalize z (MkAdt w false)))).
  { rewrite (norm_utc z Hs). pose proof (stands_shows z Hs w) as C. pose proof (shows_ge z Hs _ _ C) as G. destruct C as (Ft & C').
    pose proof (first_lt z Hs (stands z w) now Ft Fn). pose proof (first_lt z Hs (stands z w) start Ft Fs). destruct Fw as (_ & Fw & _).
    split; [lia|]. split; [lia|]. split; auto. }
  destruct T as (T1 & T2 & T3). destruct end_at as [e|]; cbn [omap a_wall].
  - rewrite from_wall. destruct (Z.leb_spec w (shown z e)).
    + split; [exact T1|]. split; [exact T2|]. exists w. split; [exact Fw|]. split; [exact T3|]. intros ? [= <-]. lia.
    + exists w, e. split; [exact Fw|]. split; [reflexivity|lia].
  - split; [exact T1|]. split; [exact T2|]. exists w. split; [exact Fw|]. split; [exact T3|]. discriminate.
Qed.
Print Assumptions C66_first_on_the_clock.

Lemma ny_ordinary : ordinary new_york.
Proof. vm_compute; intuition (discriminate || congruence). Qed.
Lemma ny_first u : u / us = wz new_york (lz new_york (u / us)) -> first_time new_york u.
Proof. apply (first_secs new_york (proj1 ny_ordinary)). Qed.

(** The plain claims are false.  "Runs of an interval are one interval apart": every hour, after 1:30
    (summer) on 1 November comes 2:30 (winter), two hours later. *)
Theorem C66_hour_apart_is_false :
  exists p a, first_time new_york p /\ interval_next_z new_york (3600 * us) (from_utc new_york p) None (Some (from_utc new_york p)) (from_utc new_york p) = Some a /\
    to_utc new_york a = p + 7200 * 1000000.
Proof.
  exists 1793511000000000, (MkAdt (civ_secs (MkCivil 2026 11 1 2 30 0) * us) false).
  split; [apply ny_first; vm_compute; reflexivity|]. split; vm_compute; reflexivity.
Qed.
Print Assumptions C66_hour_apart_is_false.
(** "It does not fire after end_at": every hour from 1:30 (winter) on 8 March until 3:00 (summer, half an
    hour later) it fires at 3:30. *)
Theorem C66_after_end_at_is_possible :
  exists p e a, first_time new_york p /\ first_time new_york e /\ p < e /\
    interval_next_z new_york (3600 * us) (from_utc new_york p) (Some (from_utc new_york e)) (Some (from_utc new_york p)) (from_utc new_york p) = Some a /\
    to_utc new_york a = e + 1800 * 1000000.
Proof.
  exists 1772951400000000, 1772953200000000, (MkAdt (civ_secs (MkCivil 2026 3 8 3 30 0) * us) false).
  split; [apply ny_first; vm_compute; reflexivity|]. split; [apply ny_first; vm_compute; reflexivity|]. split; [lia|].
  split; vm_compute; reflexivity.
Qed.
Print Assumptions C66_after_end_at_is_possible.
(** "The first run is in the future": every ten minutes, created at 1:40 in the second pass (the default
    start is one interval from now), the first run is at 1:50 of the first pass, fifty minutes ago. *)
Theorem C66_first_in_the_past_is_possible :
  exists now a, interval_next_z new_york (600 * us) (plus (from_utc new_york now) (600 * us)) None None (from_utc new_york now) = Some a /\
    to_utc new_york a = now - 3000 * 1000000.
Proof.
  exists 1793515200000000, (MkAdt (civ_secs (MkCivil 2026 11 1 1 50 0) * us) false). split; vm_compute; reflexivity.
Qed.
Print Assumptions C66_first_in_the_past_is_possible.
(** hypotheses met: every hour, after 12:30 on 8 March *)
Example C66_example : let p := 1772983800000000 in
  untouched new_york p (p + 3600 * us) /\ first_time new_york (p + 3600 * us) /\
  interval_next_z new_york (3600 * us) (from_utc new_york p) None (Some (from_utc new_york p)) (from_utc new_york p) = Some (from_utc new_york (p + 3600 * us)).
Proof.
  split; [|split; [apply ny_first; vm_compute; reflexivity|vm_compute; reflexivity]].
  intros t T. unfold us in T. cbn [offset_at new_york z_off0 z_trans].
  destruct (Z.leb_spec (1772953200 * 1000000) t); [|lia]. destruct (Z.leb_spec (1793512800 * 1000000) t); [lia|]. vm_compute. reflexivity.
Qed.

(** C67.  process_tasks asks to be woken after the time the clock (not the calendar of instants) has
    left: right when the offset will be the same, too early (and then it looks again) when the clock
    is put back meanwhile, ... *)
Definition offset (z : zone) (u : Z) : Z := offset_at (z_off0 z) (z_trans z) u.
Theorem C67_woken :
  forall (z : zone) (timeout_max next now : Z), 0 <= timeout_max ->
    let clock_left := (next - now) + 1000000 * (offset z next - offset z now) in
    exists wait, wait_z timeout_max (from_utc z next) (from_utc z now) = wait /\
      ((clock_left <= 0 /\ wait = 0) \/ (0 <= clock_left <= timeout_max /\ wait = clock_left) \/ (timeout_max <= clock_left /\ wait = timeout_max)).
Proof.
  intros z T next now HT. cbn zeta. eexists. split; [reflexivity|]. unfold wait_z. rewrite !from_wall. unfold shown, offset. lia.
Qed.
Print Assumptions C67_woken.
Theorem C67_wait_exact :
  forall (z : zone) (timeout_max next now : Z), 0 <= timeout_max -> offset z next = offset z now ->
    let woken := now + wait_z timeout_max (from_utc z next) (from_utc z now) in
    (now <= next <= now + timeout_max -> woken = next) /\ (next < now -> woken = now) /\ (now + timeout_max < next -> woken = now + timeout_max).
Proof.
  intros z T next now HT E. cbn zeta. unfold wait_z. rewrite !from_wall. unfold shown. unfold offset in E. rewrite E. lia.
Qed.
Print Assumptions C67_wait_exact.
Theorem C67_never_late_when_put_back :
  forall (z : zone) (timeout_max next now : Z), 0 <= timeout_max -> offset z next <= offset z now ->
    now <= now + wait_z timeout_max (from_utc z next) (from_utc z now) <= Z.max now next.
Proof.
  intros z T next now HT E. unfold wait_z. rewrite !from_wall. unfold shown. unfold offset in E. lia.
Qed.
Print Assumptions C67_never_late_when_put_back.
(** ... but late by as much as the clock is put forward meanwhile: at 1:30 on 8 March, for a run at 3:00,
    it waits an hour and a half instead of half an hour. *)
Theorem C67_late_by_the_change :
  forall (z : zone) (timeout_max next now : Z), now <= next -> offset z now < offset z next ->
    next - now + 1000000 * (offset z next - offset z now) <= timeout_max ->
    now + wait_z timeout_max (from_utc z next) (from_utc z now) = next + 1000000 * (offset z next - offset z now).
Proof.
  intros z T next now HT E. unfold wait_z. rewrite !from_wall. unfold shown. unfold offset in *. lia.
Qed.
Print Assumptions C67_late_by_the_change.
Theorem C67_an_hour_late_in_spring :
  exists now next, now <= next /\ first_time new_york now /\ first_time new_york next /\
    now + wait_z (9223372036 * us) (from_utc new_york next) (from_utc new_york now) = next + 3600 * 1000000.
Proof.
  exists 1772951400000000, 1772953200000000. split; [lia|]. split; [apply ny_first; vm_compute; reflexivity|].
  split; [apply ny_first; vm_compute; reflexivity|]. vm_compute. reflexivity.
Qed.
Print Assumptions C67_an_hour_late_in_spring.
Example C67_example : let now := 1772983800000000 in let next := now + 90 * us in
  offset new_york next = offset new_york now /\ wait_z (9223372036 * us) (from_utc new_york next) (from_utc new_york now) = 90 * us.
Proof. split; vm_compute; reflexivity. Qed.
