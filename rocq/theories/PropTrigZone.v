(** C68: the zone in which a trigger's dates and fields are read. *)
From Verif Require Import Prelude FloatDiv FloatDivProofs Calendar Cron CronSpec Triggers TriggerSpec TriggersProofs PropTriggers TrigZone.
Open Scope Z_scope.

(** The zone in force: the one asked for, else that of a start (then of an end) given as a datetime with
    a zone, else the scheduler's. *)
Inductive in_force (sched : Z) : option Z -> option dated_arg -> option dated_arg -> Z -> Prop :=
| asked_for z s e : in_force sched (Some z) s e z
| of_start i z e : in_force sched None (Some (ADatetime (Aware i z))) e z
| of_end s i z : (forall j o, s <> Some (ADatetime (Aware j o))) -> in_force sched None s (Some (ADatetime (Aware i z))) z
| of_scheduler s e : (forall j o, s <> Some (ADatetime (Aware j o))) -> (forall j o, e <> Some (ADatetime (Aware j o))) -> in_force sched None s e sched.
(** the instant a date stands for when read in a zone *)
Definition stands_for (zone : Z) (a : dated_arg) (t : Z) : Prop :=
  match stamp_of a with Aware i _ => t = i | Naive w => t + zone * 1000000 = w end.

Lemma in_force_own sched tz s e z : in_force sched tz s e z -> z = match own_zone tz s e with Some o => o | None => sched end.
Proof.
  intros []; cbn; auto.
  - destruct s0 as [[[w|j o]|[w|j o]]|]; auto. destruct (H j o). reflexivity.
  - destruct s0 as [[[w|j o]|[w|j o]]|]; try (destruct (H j o); reflexivity); destruct e0 as [[[w'|j' o']|[w'|j' o']]|]; auto; destruct (H0 j' o'); reflexivity.
Qed.
Lemma in_force_exists sched tz s e : exists z, in_force sched tz s e z.
Proof.
  destruct tz as [z|]; [exists z; constructor|].
  destruct s as [[[w|j o]|[w|j o]]|]; try (exists o; constructor);
    (destruct e as [[[w'|j' o']|[w'|j' o']]|]; try (eexists; apply of_end; intros; discriminate); eexists; apply of_scheduler; intros; discriminate).
Qed.
Lemma read_kept zone sched a : stands_for (match zone with Some o => o | None => sched end) a (read_stamp zone sched (kept_stamp zone (stamp_of a))).
Proof. unfold stands_for. destruct (stamp_of a) as [w|i o]; destruct zone; cbn; unfold us; lia. Qed.

(** There is exactly one zone in force, and the given start and end are read in it. *)
Theorem C68_given_dates :
  forall (tb : crontab) (local made iv sched : Z) (tz : option Z) (start_at end_at : option dated_arg) (zone : Z),
    in_force sched tz start_at end_at zone ->
    (exists s e, interval_trigger local made iv sched tz start_at end_at = TInterval iv s e None /\
       (forall a, start_at = Some a -> stands_for zone a s) /\
       match end_at with Some a => exists t, e = Some t /\ stands_for zone a t | None => e = None end) /\
    (exists s e, cron_trigger tb sched tz start_at end_at = TCron tb zone s e None /\
       match start_at with Some a => exists t, s = Some t /\ stands_for zone a t | None => s = None end /\
       match end_at with Some a => exists t, e = Some t /\ stands_for zone a t | None => e = None end).
Proof.
  intros tb local made iv sched tz s e zone F. apply in_force_own in F. subst zone. split; eexists; eexists; (split; [reflexivity|]); split.
  - intros a ->. unfold interval_start_stamp. apply read_kept.
  - destruct e; [|reflexivity]. eexists. split; [reflexivity|]. apply read_kept.
  - destruct s; [|reflexivity]. eexists. split; [reflexivity|]. apply read_kept.
  - destruct e; [|reflexivity]. eexists. split; [reflexivity|]. apply read_kept.
Qed.
Print Assumptions C68_given_dates.
Theorem C68_one_zone_in_force :
  forall sched tz start_at end_at, exists z, in_force sched tz start_at end_at z /\ forall z', in_force sched tz start_at end_at z' -> z' = z.
Proof.
  intros sched tz s e. destruct (in_force_exists sched tz s e) as (z & H). exists z. split; [exact H|]. intros z' H'.
  rewrite (in_force_own _ _ _ _ _ H), (in_force_own _ _ _ _ _ H'). reflexivity.
Qed.
Print Assumptions C68_one_zone_in_force.

(** An interval trigger made without a start first runs one interval after it was made, asked then, if it
    has a zone of its own or the scheduler's zone is the machine's ... *)
Theorem C68_default_start_own_zone :
  forall (local made iv sched : Z) (tz : option Z) (end_at : option dated_arg) (o : oracle) (fuel : nat), 0 < iv ->
    (tz <> None \/ (exists i z, end_at = Some (ADatetime (Aware i z))) \/ local = sched) ->
    (forall zone a t, in_force sched tz None end_at zone -> end_at = Some a -> stands_for zone a t -> made + iv <= t) ->
    get_next fuel (interval_trigger local made iv sched tz None end_at) None o made = Ok (Some (made + iv)).
Proof.
  intros local made iv sched tz e o fuel I Z E.
  assert (S : read_stamp (own_zone tz None e) sched (interval_start_stamp local made iv (own_zone tz None e) None) = made + iv).
  { destruct tz as [z|]; [reflexivity|]. destruct Z as [Z|[(i & z & ->)|<-]]; [congruence|reflexivity|].
    cbn. destruct e as [[[w|j x]|[w|j x]]|]; cbn; unfold us; lia. }
  unfold interval_trigger. rewrite S. cbn [get_next]. unfold interval_next, draw. rewrite ?Z.add_0_r.
  destruct (Z.ltb_spec made (made + iv)); [|lia]. destruct e as [a|]; [|reflexivity].
  destruct (in_force_exists sched tz None (Some a)) as (zone & F). pose proof (in_force_own _ _ _ _ _ F) as FO.
  pose proof (read_kept (own_zone tz None (Some a)) sched a) as RK. rewrite <- FO in RK. specialize (E zone a _ F eq_refl RK).
  destruct (Z.leb_spec (made + iv) (read_stamp (own_zone tz None (Some a)) sched (kept_stamp (own_zone tz None (Some a)) (stamp_of a)))); [reflexivity|lia].
Qed.
Print Assumptions C68_default_start_own_zone.
(** ... but otherwise it is later by as much as the machine's clock is ahead of the scheduler's zone: a
    five-minute trigger object given to a scheduler in UTC on a machine in Berlin (UTC+2) first runs after
    two hours and five minutes. *)
Theorem C68_default_start_late :
  forall (local made iv sched : Z) (o : oracle) (fuel : nat), 0 < iv -> sched < local ->
    get_next fuel (interval_trigger local made iv sched None None None) None o made = Ok (Some (made + iv + (local - sched) * 1000000)).
Proof.
  intros local made iv sched o fuel I L. unfold interval_trigger. cbn [own_zone interval_start_stamp kept_stamp read_stamp get_next]. unfold interval_next, draw. rewrite ?Z.add_0_r.
  unfold us. match goal with |- context [made <? ?x] => destruct (Z.ltb_spec made x); [|lia] end. f_equal. f_equal. lia.
Qed.
Print Assumptions C68_default_start_late.
(** In general (whole-second intervals, offsets below 2^20 seconds): a trigger made without a start is
    started one interval after it was made, plus [delay]; the first run is the first point of that grid
    from the time it was made on, and none if that is after the end. *)
Theorem C68_default_start :
  forall (local made B sched : Z) (tz : option Z) (end_at : option dated_arg) (o : oracle) (fuel : nat) (zone delay : Z),
    0 < B < 2 ^ 30 -> Z.abs local < 2 ^ 20 -> Z.abs sched < 2 ^ 20 -> in_force sched tz None end_at zone ->
    let own := tz <> None \/ exists i z, end_at = Some (ADatetime (Aware i z)) in
    (own /\ delay = 0) \/ (~ own /\ delay = (local - sched) * 1000000) ->
    let first t := first_from (grid (B * 1000000) (made + B * 1000000 + delay)) made t in
    let in_time t := forall a e, end_at = Some a -> stands_for zone a e -> t <= e in
    match get_next fuel (interval_trigger local made (B * 1000000) sched tz None end_at) None o made with
    | Ok (Some t) => first t /\ in_time t
    | Ok None => exists t, first t /\ ~ in_time t
    | Err _ => False
    end.
Proof.
  intros local made B sched tz e o fuel zone delay HB HL HS F own D first in_time. pose proof (in_force_own _ _ _ _ _ F) as FO.
  assert (S : read_stamp (own_zone tz None e) sched (interval_start_stamp local made (B * us) (own_zone tz None e) None) = made + B * us + delay).
  { destruct D as [[[T|(i & z & ->)] ->]|[N ->]].
    - destruct tz as [z|]; [cbn; unfold us; lia|congruence].
    - destruct tz; cbn; unfold us; lia.
    - destruct tz as [z|]; [destruct N; left; discriminate|]. destruct e as [[[w|j x]|[w|j x]]|]; try (destruct N; right; eauto; fail); cbn; unfold us; lia. }
  assert (DB : - 2 ^ 41 < delay) by (destruct D as [[_ ->]|[_ ->]]; lia).
  unfold interval_trigger. change (B * 1000000) with (B * us). rewrite S.
  set (end' := match e with Some a => Some (read_stamp (own_zone tz None e) sched (kept_stamp (own_zone tz None e) (stamp_of a))) | None => None end).
  assert (IT : forall t, not_after t end' <-> in_time t).
  { intros t. unfold not_after, in_time, end'. destruct e as [a|]; [|split; discriminate || (intros; discriminate)].
    pose proof (read_kept (own_zone tz None (Some a)) sched a) as RK. rewrite <- FO in RK. split.
    - intros H a0 e0 [= <-] ST. specialize (H _ eq_refl). enough (e0 = read_stamp (own_zone tz None (Some a)) sched (kept_stamp (own_zone tz None (Some a)) (stamp_of a))) by lia.
      revert ST RK. unfold stands_for. destruct (stamp_of a); lia.
    - intros H ? [= <-]. eapply H; eauto. }
  pose proof (C04_interval_first_fire B (made + B * us + delay) end' o made fuel) as K. unfold us in K at 1.
  specialize (K ltac:(lia) ltac:(lia)). fold us in K.
  destruct (get_next fuel (TInterval (B * us) (made + B * us + delay) end' None) None o made) as [[t|]|x]; [|..|exact K].
  - destruct K as [K1 K2]. split; [exact K1|]. apply IT. exact K2.
  - destruct K as (t & K1 & K2). exists t. split; [exact K1|]. rewrite <- IT. exact K2.
Qed.
Print Assumptions C68_default_start.
Example C68_example : in_force 0 None (Some (ADatetime (Naive 5))) (Some (ADatetime (Aware 7 3600))) 3600 /\
  get_next 1 (interval_trigger 7200 0 (300 * us) 0 None None None) None no_jitter_oracle 0 = Ok (Some (7500 * us)).
Proof. split; [apply of_end; discriminate|reflexivity]. Qed.
