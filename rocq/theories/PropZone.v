(** C65: cron triggers in zones whose clock changes (ZoneSpec: what the clock shows). *)
From Verif Require Import Prelude Calendar CalendarFacts Cron CronSpec CronIncr CronProofs CronSearch CronTop Zone ZoneSpec ZoneFacts ZoneCron.
Open Scope Z_scope.


Section P.
  Context (z : zone) (Hz : ordinary z).
  Let Hs : well_spaced z := proj1 Hz.

  Lemma first_le u v : first_time z u -> first_time z v -> (u <= v <-> shown z u <= shown z v).
  Proof.
    intros U V. split; intros H.
    - destruct (Z.eq_dec u v) as [->|N]; [lia|]. pose proof (first_less z Hs v u V ltac:(lia)). lia.
    - destruct (Z.le_gt_cases u v) as [C|C]; [exact C|]. pose proof (first_less z Hs u v U ltac:(lia)). lia.
  Qed.
  Lemma wz_first w : wz z (lz z (wz z w)) = wz z w.
  Proof.
    destruct (shown_exists z Hs (wz z w)) as (E & L & _). set (v := wz z (lz z (wz z w))) in *.
    destruct (wz_spec z Hs w) as [(E1 & F1)|(tg & gs & len & G & W & U & E1 & _)].
    - unfold v. rewrite E1. reflexivity.
    - pose proof (g_next _ _ _ _ _ G). pose proof (g_before _ _ _ _ _ G v). pose proof (g_len _ _ _ _ _ G). unfold lz in *.
      destruct (Z.le_gt_cases tg v) as [C|C]; [|specialize (H0 ltac:(lia)); lia].
      rewrite (H v) in E by lia. rewrite (H (wz z w)) in E by lia. lia.
  Qed.
  Lemma wz_first_time w : first_time z (wz z w * us).
  Proof. apply first_secs; auto. rewrite Z.div_mul by (unfold us; lia). symmetry. apply wz_first. Qed.
  Lemma shown_whole r : shown z (r * us) = lz z r * us.
  Proof. rewrite shown_secs. rewrite Z.div_mul, Z.mod_mul by (unfold us; lia). lia. Qed.

  (** where the search starts *)
  Definition start_wall (start_at prev : option Z) (now : Z) : Z :=
    match prev with
    | Some p => if now <? p then shown z now else shown z p + 1
    | None => match start_at with Some s => Z.max (shown z now) (shown z s) | None => shown z now end
    end.
  Lemma zstart_wall start_at prev now : first_time z now -> all_first z prev -> all_first z start_at ->
    a_wall (zstart (omap (from_utc z) start_at) (omap (from_utc z) prev) (from_utc z now)) = start_wall start_at prev now /\
    a_fold (zstart (omap (from_utc z) start_at) (omap (from_utc z) prev) (from_utc z now)) = false.
  Proof.
    intros N P S. destruct (to_from z Hs now N) as (_ & Nf & Nw). unfold zstart, start_wall.
    destruct prev as [p|]; cbn [omap].
    - pose proof (P p eq_refl) as Fp. destruct (to_from z Hs p Fp) as (_ & Pf & Pw).
      unfold plus. cbn [a_wall a_fold]. rewrite Pw, Nw. pose proof (first_le now p N Fp). pose proof (first_le p now Fp N).
      destruct (Z.ltb_spec (shown z p + 1) (shown z now)) as [C|C]; cbn [a_wall a_fold].
      + destruct (Z.eqb_spec (shown z p + 1) (shown z p)); [lia|]. cbn [a_wall a_fold]. destruct (Z.ltb_spec now p); split; lia.
      + rewrite Nw. destruct (Z.eqb_spec (shown z now) (shown z p)) as [D|D]; cbn [a_wall a_fold]; rewrite ?Nw.
        * destruct (Z.ltb_spec now p); split; lia.
        * destruct (Z.ltb_spec now p); split; auto; lia.
    - destruct start_at as [s|]; cbn [omap]; [|auto]. destruct (to_from z Hs s (S s eq_refl)) as (_ & Sf & Sw).
      rewrite Sw, Nw. destruct (Z.ltb_spec (shown z now) (shown z s)); rewrite ?Sw, ?Nw; split; auto; lia.
  Qed.

  Lemma asked_iff start_at prev now u : first_time z now -> all_first z prev -> all_first z start_at -> first_time z u ->
    (asked_after start_at prev now u <-> start_wall start_at prev now <= shown z u).
  Proof.
    intros N P S U. unfold asked_after, start_wall. destruct prev as [p|].
    - pose proof (P p eq_refl) as Fp. pose proof (first_le now u N U). pose proof (first_le u p U Fp). pose proof (first_le p u Fp U).
      destruct (now <? p); lia.
    - pose proof (first_le now u N U). destruct start_at as [s|].
      + pose proof (first_le s u (S s eq_refl) U). split; [intros (A & B); specialize (B s eq_refl); lia|].
        intros A. split; [lia|]. intros s' [= <-]. lia.
      + split; [intros (A & _); lia|]. intros A. split; [lia|discriminate].
  Qed.
  (** the second the search starts from is shown by the clock, or begins a skipped hour *)
  Lemma start_shown start_at prev now : first_time z now -> all_first z prev -> all_first z start_at ->
    exists v, lz z v * us <= start_wall start_at prev now <= lz z v * us + us.
  Proof.
    intros N P S. assert (Q : forall u, lz z (u / us) * us <= shown z u < lz z (u / us) * us + us).
    { intros u. rewrite shown_secs. pose proof (mod_us u). lia. }
    unfold start_wall. destruct prev as [p|]; [destruct (now <? p)|destruct start_at as [s|]].
    - exists (now / us). specialize (Q now). lia.
    - exists (p / us). specialize (Q p). lia.
    - destruct (Z.le_ge_cases (shown z now) (shown z s)); [exists (s / us); specialize (Q s)|exists (now / us); specialize (Q now)]; lia.
    - exists (now / us). specialize (Q now). lia.
  Qed.
End P.

Definition ceil_us (w : Z) : Z := if 0 <? w mod us then w / us + 1 else w / us.
Lemma ceil_us_spec w s : ceil_us w <= s <-> w <= s * us.
Proof. apply ceil_secs_spec. Qed.

Lemma cron_zone_spec tb z start_at end_at prev now r :
  tab_ok tb = true -> ordinary z -> first_time z now -> all_first z prev -> all_first z start_at -> all_first z end_at ->
  cron_next_z tb z (omap (from_utc z) start_at) (omap (from_utc z) end_at) (omap (from_utc z) prev) (from_utc z now) = r ->
  match r with
  | Ok (Some a) =>
      let t := to_utc z a in
      first_time z t /\ asked_after start_at prev now t /\ (forall e, end_at = Some e -> t <= e) /\
      (matches_clock tb z t \/ exists f, put_forward z f /\ f <= t < f + 3600 * us) /\
      (forall u, first_time z u -> matches_clock tb z u -> asked_after start_at prev now u -> t <= u)
  | Ok None => forall u, first_time z u -> matches_clock tb z u -> asked_after start_at prev now u -> exists e, end_at = Some e /\ e < u
  | Err _ => ceil_us (start_wall z start_at prev now) < min_secs \/ max_secs <= ceil_us (start_wall z start_at prev now)
  end.
Proof.
  intros Ht Hz N P S E R. pose proof (proj1 Hz) as Hs. unfold cron_next_z in R.
  destruct (zstart_wall z Hz start_at prev now N P S) as (SW & SF).
  set (a0 := zstart _ _ _) in *. unfold zceil in R. rewrite SW, SF in R. pose proof (asked_iff z Hz start_at prev now) as AI.
  pose proof (start_shown z start_at prev now N P S) as (v & Hv).
  set (W := start_wall z start_at prev now) in *. clearbody W. clear SW SF a0.
  assert (R' : (let w := ceil_us W in if (w <? min_secs) || (max_secs <? w) then Err OverflowErr else
     match zsearch tb z (fun c => match omap (from_utc z) end_at with Some e => a_wall e <? civ_secs c * us | None => false end) (secs_civil w) false with
     | ZRaise e => Err e | ZNone => Ok None | ZFound c f => Ok (Some (MkAdt (civ_secs c * us) f)) end) = r).
  { unfold ceil_us. destruct (0 <? W mod us); exact R. }
  clear R. cbn zeta in R'. set (w := ceil_us W) in *.
  pose proof (fun s => ceil_us_spec W s) as Hw. fold w in Hw.
  destruct (Z.ltb_spec w min_secs) as [Hlo|Hlo]; cbn [orb] in R'.
  { subst r. left. exact Hlo. }
  destruct (Z.ltb_spec max_secs w) as [Hhi|Hhi].
  { subst r. right. lia. }
  set (late := fun c => _) in R'.
  assert (Hl : forall c, late c = match end_at with Some e => shown z e <? civ_secs c * us | None => false end).
  { intros c. unfold late. destruct end_at as [e|]; cbn [omap]; [|auto]. rewrite from_wall. reflexivity. }
  clearbody late.
  assert (Hg : goodc (secs_civil w)) by (apply goodc_of_secs; lia).
  destruct (secs_civil_spec w) as [Vw Ew].
  assert (Hlate : forall a b, goodc a -> goodc b -> cle a b -> late a = true -> late b = true).
  { intros a b [Ha _] [Hb _] Hab. apply cle_secs in Hab; auto. rewrite !Hl. destruct end_at as [e|]; [|congruence]. unfold us in *. lia. }
  assert (Hin : ex z (secs_civil w) \/ (gapped z (secs_civil w) /\ civ_secs (secs_civil w) mod 3600 = 0)).
  { destruct (nc z Hz (secs_civil w) Hg) as [?|Q]; [left; auto|right]. split; [exact Q|].
    destruct Q as (tg & gs & GG & I & MM & _). rewrite Ew in *.
    pose proof (no_clock z tg gs GG v) as NC. assert (lz z v <= w) by (pose proof (proj1 (Hw w) ltac:(lia)); unfold us in *; lia).
    assert (w <= lz z v + 1) by (apply Hw; unfold us in *; lia). assert (w = gs) by lia. subst w. congruence. }
  pose proof (zsearch_spec z Hz tb late (secs_civil w) Ht Hg Hin Hlate) as ZS.
  assert (Cle : forall c, valid c = true -> (cle (secs_civil w) c <-> W <= civ_secs c * us)).
  { intros c Hc. rewrite cle_secs by auto. rewrite Ew. apply Hw. }
  (* matching instants as wall clocks *)
  assert (MX : forall u, first_time z u -> matches_clock tb z u -> asked_after start_at prev now u ->
     exists x, cron_matches tb x /\ ex z x /\ cle (secs_civil w) x /\ shown z u = civ_secs x * us).
  { intros u Fu (x & Mx & Sx) Au. exists x. pose proof (matches_goodc tb x Mx) as (Vx & _). change 1000000 with us in Sx. sp; auto.
    - unfold ex. rewrite shown_secs in Sx. pose proof (mod_us u).
      assert (lz z (u / us) = civ_secs x) as <- by (unfold us in *; lia). apply (shown_exists z Hs).
    - apply Cle; auto. apply (AI u) in Au; auto. lia. }
  destruct (zsearch tb z late (secs_civil w) false) as [|c f|e] eqn:EZ; subst r; cbn [ZRes] in ZS.
  - intros u Fu Mu Au. destruct (MX u Fu Mu Au) as (x & Mx & Ex & Sx & Ux).
    assert (L : late x = true) by (apply ZS; auto; apply (matches_goodc tb x Mx)). rewrite Hl in L.
    destruct end_at as [e|]; [|discriminate]. exists e. split; [reflexivity|]. rewrite <- Ux in L.
    pose proof (first_le z Hz u e Fu (E e eq_refl)). lia.
  - destruct ZS as (-> & Hgc & Hsc & Hlc & Hexc & Hb & Hm). cbn zeta.
    assert (T : to_utc z (MkAdt (civ_secs c * us) false) = wz z (civ_secs c) * us).
    { unfold to_utc. cbn [a_wall a_fold]. rewrite Z.div_mul by (unfold us; lia). unfold wz. lia. }
    rewrite T. set (r := wz z (civ_secs c)) in *.
    assert (Fr : first_time z (r * us)) by apply (wz_first_time z Hz).
    pose proof (shown_whole z r) as Sr. pose proof Hgc as (Vc & _).
    assert (NC : ex z c \/ (gapped z c /\ c = secs_civil w)).
    { destruct Hexc as [->|?]; [|auto]. destruct Hin as [?|(? & ?)]; auto. }
    assert (Ge : civ_secs c <= lz z r).
    { unfold r. destruct NC as [X|((tg & gs & _ & _ & _ & _ & X) & _)]; unfold ex in X; lia. }
    sp.
    + exact Fr.
    + apply AI; auto. rewrite Sr. apply Cle in Hsc; auto. unfold us in *. lia.
    + intros e ->. specialize (E e eq_refl). apply (first_le z Hz); auto. rewrite Sr. rewrite Hl in Hlc.
      destruct NC as [X|((tg & gs & GG & I & MM & _ & X) & Ec)]; fold r in X.
      * unfold ex in X. fold r in X. rewrite X. lia.
      * rewrite <- Ec in Hin. destruct Hin as [Q|(_ & M0)]; [unfold ex in Q; fold r in Q; lia|].
        pose proof (no_clock z tg gs GG (e / us)) as NC. pose proof (mod_us e). rewrite shown_secs in Hlc |- *. unfold us in *. lia.
    + assert (Near : forall tg gs, hgap z tg gs -> tg <= r < tg + 3600 -> exists f, put_forward z f /\ f <= r * us < f + 3600 * us).
      { intros tg gs GG I. exists (tg * us). split; [|unfold us; lia]. unfold put_forward. rewrite (shown_whole z tg).
        pose proof (g_after _ _ _ _ _ GG tg ltac:(lia)) as A. pose proof (g_before _ _ _ _ _ GG (tg - 1) ltac:(lia)) as B.
        fold (lz z tg) in A. fold (lz z (tg - 1)) in B. rewrite shown_secs.
        replace (tg * us - 1) with ((tg - 1) * us + (us - 1)) by (unfold us; lia).
        destruct (div_us (tg - 1) (us - 1) ltac:(unfold us; lia)) as (-> & ->). unfold us in *. lia. }
      destruct Hm as [Mc|(X & (tg & gs & GG & MM & I))].
      * destruct NC as [X|((tg & gs & GG & I & _ & Wr & _) & _)].
        -- left. exists c. split; [exact Mc|]. rewrite Sr. unfold ex in X. fold r in X. rewrite X. reflexivity.
        -- right. apply (Near tg gs GG). fold r in Wr. lia.
      * right. apply (Near tg gs GG). unfold ex in X. fold r in X.
        pose proof (g_before _ _ _ _ _ GG r) as B. fold (lz z r) in B. split; [destruct (Z.le_gt_cases tg r); [auto|specialize (B ltac:(lia)); lia]|].
        set (y := tg + (civ_secs c - gs - 3600)). assert (Ly : lz z y = civ_secs c).
        { unfold lz. rewrite (g_next _ _ _ _ _ GG y); unfold y; lia. }
        destruct (shown_exists z Hs y) as (_ & L & _). rewrite Ly in L. fold r in L. unfold y in L. lia.
    + intros u Fu Mu Au. destruct (MX u Fu Mu Au) as (x & Mx & Ex & Sx & Ux). specialize (Hb x Ex Mx Sx). fold r in Hb.
      apply (first_le z Hz); auto. rewrite Sr, Ux. unfold us. lia.
  - destruct ZS as (_ & L). right. unfold last_second in L. rewrite <- Ew, L. vm_compute. discriminate.
Qed.

(** C65.  Cron schedules in a zone whose clock changes.  New York in 2026: put forward on 8 March at
    7:00 UTC (2:00 to 3:00), put back on 1 November at 6:00 UTC (2:00 to 1:00). *)
Definition new_york : zone := MkZone (-18000) [(1772953200, -14400); (1793512800, -18000)].

(** Asked at an instant that is not in a repeated hour (and so for the previous fire, the start and
    the end), the answer is never one in a repeated hour either, comes after what was asked, not after
    end_at, and no matching clock reading shown for the first time is missed; but it may be a reading
    that does not match, within the hour following a clock put forward. *)
Theorem C65_cron_clock_changes_partial :
  forall (tb : crontab) (z : zone) (start_at end_at prev : option Z) (now : Z),
    tab_ok tb = true -> ordinary z ->
    first_time z now -> all_first z prev -> all_first z start_at -> all_first z end_at ->
    match cron_next_z tb z (omap (from_utc z) start_at) (omap (from_utc z) end_at) (omap (from_utc z) prev) (from_utc z now) with
    | Ok (Some a) =>
        let t := to_utc z a in
        first_time z t /\ asked_after start_at prev now t /\ (forall e, end_at = Some e -> t <= e) /\
        (matches_clock tb z t \/ exists f, put_forward z f /\ f <= t < f + 3600 * 1000000) /\
        (forall u, first_time z u -> matches_clock tb z u -> asked_after start_at prev now u -> t <= u)
    | Ok None => forall u, first_time z u -> matches_clock tb z u -> asked_after start_at prev now u -> exists e, end_at = Some e /\ e < u
    | Err _ => ~ (dated z now /\ (forall p, prev = Some p -> dated z p) /\ (forall s, start_at = Some s -> dated z s))
    end.
Proof.
  intros tb z start_at end_at prev now Ht Hz N P S E.
  pose proof (cron_zone_spec tb z start_at end_at prev now _ Ht Hz N P S E eq_refl) as H.
  destruct (cron_next_z _ _ _ _ _ _) as [[a|]|e]; auto.
  intros (DN & DP & DS). unfold dated in *. change 1000000 with us in *.
  pose proof (ceil_us_spec (start_wall z start_at prev now) (max_secs - 1)) as C1.
  pose proof (ceil_us_spec (start_wall z start_at prev now) (min_secs - 1)) as C2.
  assert (B : min_secs * us <= start_wall z start_at prev now <= (max_secs - 1) * us).
  { unfold start_wall. destruct prev as [p|]; [specialize (DP p eq_refl); destruct (now <? p); lia|].
    destruct start_at as [s|]; [specialize (DS s eq_refl)|]; lia. }
  unfold us in *. lia.
Qed.
Print Assumptions C65_cron_clock_changes_partial.

(** The full claim is false in both directions.  "2:30 every day", asked on 7 March at noon, fires on
    8 March at 3:30, which does not match; ... *)
Definition hm (h m : list cexpr) : crontab :=
  MkTab [EAll None] [EAll None] [EAll None] [EAll None] [EAll None] h m [ERange 0 (Some 0) None].
Definition half_past_two : crontab := hm [ERange 2 (Some 2) None] [ERange 30 (Some 30) None].
Theorem C65_skipped_hour_refuted :
  exists now a, ordinary new_york /\ tab_ok half_past_two = true /\ first_time new_york now /\
    cron_next_z half_past_two new_york None None None (from_utc new_york now) = Ok (Some a) /\
    shown new_york (to_utc new_york a) = civ_secs (MkCivil 2026 3 8 3 30 0) * 1000000 /\
    ~ matches_clock half_past_two new_york (to_utc new_york a).
Proof.
  exists 1772902800000000, (MkAdt (civ_secs (MkCivil 2026 3 8 3 30 0) * us) false).
  assert (O : ordinary new_york) by (vm_compute; intuition (discriminate || congruence)).
  split; [exact O|]. split; [vm_compute; reflexivity|].
  split; [apply (first_secs new_york (proj1 O)); vm_compute; reflexivity|].
  split; [vm_compute; reflexivity|]. set (t := to_utc _ _). vm_compute in t.
  assert (T : shown new_york t = civ_secs (MkCivil 2026 3 8 3 30 0) * 1000000) by (vm_compute; reflexivity).
  clearbody t. split; [exact T|].
  - intros (c & M & E). rewrite T in E. assert (c = MkCivil 2026 3 8 3 30 0).
    { apply civ_secs_inj; [apply M|reflexivity|]. lia. }
    subst c. destruct (m_hour _ _ M) as (e & [<-|[]] & H). cbn in H. destruct H as (_ & _ & H & _). specialize (H 2 eq_refl). lia.
Qed.
Print Assumptions C65_skipped_hour_refuted.
(** ... every half hour, after 1:30 (summer time) on 1 November comes 2:00 (winter time), an hour and a
    half later: the matching 1:00 and 1:30 of the second pass are skipped; ... *)
Definition half_hours : crontab := hm [EAll None] [EAll (Some 30)].
Theorem C65_repeated_hour_skipped_refuted :
  exists prev a u, ordinary new_york /\ first_time new_york prev /\
    cron_next_z half_hours new_york None None (Some (from_utc new_york prev)) (from_utc new_york prev) = Ok (Some a) /\
    matches_clock half_hours new_york u /\ prev < u < to_utc new_york a /\ to_utc new_york a = prev + 5400 * 1000000.
Proof.
  exists 1793511000000000, (MkAdt (civ_secs (MkCivil 2026 11 1 2 0 0) * us) false), 1793512800000000.
  assert (O : ordinary new_york) by (vm_compute; intuition (discriminate || congruence)).
  split; [exact O|]. split; [apply (first_secs new_york (proj1 O)); vm_compute; reflexivity|].
  split; [vm_compute; reflexivity|]. split; [|vm_compute; repeat split; reflexivity].
  - exists (MkCivil 2026 11 1 1 0 0). split; [|vm_compute; reflexivity].
    constructor; [reflexivity|..]; (eexists; split; [left; reflexivity|]); cbn; (split; [lia|]); auto.
    + exists 0. lia.
    + split; [lia|]. split; intros ? [= <-]; lia.
Qed.
Print Assumptions C65_repeated_hour_skipped_refuted.
(** ... and asked within the second pass, at 1:10:00.5 winter time, it answers 1:30 summer time: forty
    minutes earlier. *)
Theorem C65_answer_in_the_past_refuted :
  exists now a, ordinary new_york /\
    cron_next_z half_hours new_york None None None (from_utc new_york now) = Ok (Some a) /\ to_utc new_york a < now - 2400 * 1000000.
Proof.
  exists 1793513400500000, (MkAdt (civ_secs (MkCivil 2026 11 1 1 30 0) * us) false).
  split; [vm_compute; intuition (discriminate || congruence)|]. split; vm_compute; reflexivity.
Qed.
Print Assumptions C65_answer_in_the_past_refuted.

(** the hypotheses of C65 are met: 2:30 asked on 6 March fires on 7 March at 2:30, a first time *)
Example C65_example : first_time new_york 1772816400000000 /\
  cron_next_z half_past_two new_york None None None (from_utc new_york 1772816400000000) =
    Ok (Some (MkAdt (civ_secs (MkCivil 2026 3 7 2 30 0) * us) false)).
Proof.
  assert (O : ordinary new_york) by (vm_compute; intuition (discriminate || congruence)).
  split; [|vm_compute; reflexivity]. apply (first_secs new_york (proj1 O)). vm_compute. reflexivity.
Qed.
