From Verif Require Import Prelude Calendar CalendarFacts Cron CronSpec CronIncr CronProofs CronSearch CronTop Zone ZoneSpec ZoneFacts.
Open Scope Z_scope.
Ltac Zify.zify_post_hook ::= Z.div_mod_to_equations.

(** ** one move of the search, without knowing that the earlier fields match *)
Definition settled (z : zone) (c' : civil) (k' : Z) : result (civil * bool * Z) :=
  match settle z c' with Ok (c'', f) => Ok (c'', f, k') | Err e => Err e end.

Lemma inc_at_low j c c' k' : inc_at j c = Some (c', k') -> (k' <= 5 -> cmi c' = 0 /\ cs c' = 0).
Proof.
  unfold inc_at, inc7, inc6, inc5, inc2, inc1, inc0. intros E.
  repeat match type of E with (if ?b then _ else _) = _ => destruct b; try congruence end;
    injection E as <- <-; cbn; lia.
Qed.
Lemma set_low c k nv c' : set_field_value c k nv = Ok c' -> 0 <= k -> (k <= 5 -> cmi c' = 0 /\ cs c' = 0).
Proof.
  unfold set_field_value. intros E K K5. destruct (valid _ && _ && _); [|discriminate]. injection E as <-. cbn [cmi cs].
  replace (6 <? k) with false by lia. replace (7 <? k) with false by lia. replace (k <? 6) with true by lia. replace (k <? 7) with true by lia. auto.
Qed.

Lemma zmove_cases tb z c fold k : tab_ok tb = true -> goodc c -> 0 <= k <= 7 ->
  (zmove tb z c fold k = Ok (c, fold, k + 1) /\ fmatch tb k c)
  \/ (exists c' k' m, zmove tb z c fold k = settled z c' k' /\ goodc c' /\ clt c c' /\
       (forall x, valid x = true -> cle c x -> clt x c' -> ~ fmatch tb k x) /\
       0 <= m <= 7 /\ agree m c c' /\ (m <= 5 -> cmi c' = 0 /\ cs c' = 0) /\ (m <= 6 -> cs c' = 0) /\ 0 <= k' <= 8 /\
       ((k' = k + 1 /\ m = k /\ fmatch tb k c') \/ (k' = m /\ m <= k /\ (5 <= k -> m < k))))
  \/ (exists k', zmove tb z c fold k = settled z (MkCivil 1970 1 1 0 0 0) k' /\ k' < 0 /\
       (forall x, valid x = true -> cy x <= 9999 -> cle c x -> ~ fmatch tb k x))
  \/ (zmove tb z c fold k = Err IndexError /\ last_second c /\
       (forall x, valid x = true -> cy x <= 9999 -> cle c x -> ~ fmatch tb k x)).
Proof.
  intros Ht Hgood Hk. pose proof Hgood as [Hv Hy]. unfold zmove.
  assert (Hinc : forall j, -1 <= j <= 7 ->
     (forall x, valid x = true -> cle c x -> agree (j + 1) c x -> ~ fmatch tb k x) -> j <= k -> (5 <= k -> j < k) ->
     let res := match increment_field_value c j with
                | Ok (c', k') => match settle z c' with Ok (c'', f) => Ok (c'', f, k') | Err e => Err e end
                | Err e => Err e end in
     (exists c' k' m, res = settled z c' k' /\ goodc c' /\ clt c c' /\
       (forall x, valid x = true -> cle c x -> clt x c' -> ~ fmatch tb k x) /\
       0 <= m <= 7 /\ agree m c c' /\ (m <= 5 -> cmi c' = 0 /\ cs c' = 0) /\ (m <= 6 -> cs c' = 0) /\ 0 <= k' <= 8 /\
       ((k' = k + 1 /\ m = k /\ fmatch tb k c') \/ (k' = m /\ m <= k /\ (5 <= k -> m < k))))
     \/ (exists k', res = settled z (MkCivil 1970 1 1 0 0 0) k' /\ k' < 0 /\
       (forall x, valid x = true -> cy x <= 9999 -> cle c x -> ~ fmatch tb k x))
     \/ (res = Err IndexError /\ last_second c /\
       (forall x, valid x = true -> cy x <= 9999 -> cle c x -> ~ fmatch tb k x))).
  { intros j Hj Hskip Hjk Hj5. cbn zeta. pose proof (increment_closed c j Hv Hy Hj) as Hcl.
    pose proof (inc_at_spec j c Hv Hy Hj) as Hsp.
    destruct (inc_at j c) as [[c' k']|] eqn:Ei.
    - destruct Hsp as (H1 & H2 & H3 & H4 & H5 & H6 & H8 & H7). left. exists c', k', k'. rewrite Hcl.
      split; [unfold settled; reflexivity|]. split; [exact (conj H1 H2)|]. split; [exact H3|]. split; [intros x Hx Hcx Hxc; apply Hskip; auto|].
      sp; auto; try lia.
      + intros K. eapply inc_at_low; eauto.
    - assert (Hno : forall x, valid x = true -> cy x <= 9999 -> cle c x -> ~ fmatch tb k x).
      { intros x Hvx Hyx Hcx. apply Hskip; auto. }
      destruct Hcl as [(k' & Hcl & Hneg)|(Hcl & Hlast & _)]; rewrite Hcl.
      + right; left. exists k'. auto.
      + right; right. auto. }
  pose proof (field_next_least tb k c Ht Hk Hv) as Hleast.
  destruct (field_next k (tfield tb k) c) as [nv|]; cbn [least_from] in Hleast.
  2:{ right. apply Hinc; try lia. intros x Hvx Hcx Hag Hm. replace (k - 1 + 1) with k in Hag by lia.
      apply (Hleast (fvalue k x)).
      - destruct (freal k) eqn:Er.
        + assert (Hcs : k = 0 \/ k = 1 \/ k = 2 \/ k = 5 \/ k = 6 \/ k = 7).
          { unfold freal in Er. lia. }
          unfold agree in Hag. destruct Hcx as [->|Hcx]; [lia|]. unfold clt in Hcx.
          destruct Hcs as [->|[->|[->|[->|[->| ->]]]]]; cbn; lia.
        + assert (k = 3 \/ k = 4) by (unfold freal in Er; lia).
          assert (agree (k + 1) c x) by (unfold agree in *; lia).
          rewrite (fvalue_agree k c x); auto; lia.
      - eapply fsem_agree; [auto|auto| |exact Hm]. apply agree_sym; auto. }
  destruct Hleast as (Hge & Hsem & Hmin).
  destruct (Z.ltb_spec (fvalue k c) nv) as [Hlt|Hnlt].
  2:{ assert (nv = fvalue k c) by lia. subst nv. left. split; [reflexivity|exact Hsem]. }
  right. destruct (freal k) eqn:Er.
  - pose proof (fsem_range tb k c nv Ht Hk Hv Hsem) as Hrange.
    destruct (set_closed c k nv Hgood Hk Er Hlt Hrange) as (c' & Hset & Hg' & Hcc & Hag & Hfv & Hcs & Hskip).
    rewrite Hset. left. exists c', (k + 1), k. split; [unfold settled; reflexivity|]. sp; auto; try lia.
    + intros x Hvx Hcx Hxc Hm. destruct (Hskip x Hvx Hcx Hxc) as [Hagx Hbx].
      apply (Hmin (fvalue k x) Hbx). eapply fsem_agree; [auto|auto| |exact Hm]. apply agree_sym; auto.
    + intros K. eapply set_low; eauto. lia.
    + left. sp; auto. unfold fmatch. rewrite Hfv. eapply fsem_agree; eauto.
  - apply Hinc; try lia; [|unfold freal in Er; lia]. intros x Hvx Hcx Hag Hm. apply (Hmin (fvalue k c)); [lia|].
    rewrite (fvalue_agree k c x); auto. eapply fsem_agree; [auto|auto| |exact Hm].
    apply agree_sym. eapply agree_le; [|exact Hag]. lia.
Qed.

(** ** settling on the clock *)
Definition up (c : civil) : civil := MkCivil (cy c) (cmo c) (cd c) (ch c + 1) (cmi c) (cs c).
Lemma up_secs c : civ_secs (up c) = civ_secs c + 3600.
Proof. unfold civ_secs, up. cbn [cy cmo cd ch cmi cs]. lia. Qed.
Lemma up_good c : goodc c -> ch c < 23 -> goodc (up c).
Proof. intros (V & Y) H. split; [|exact Y]. apply valid_iff in V. apply valid_iff. unfold up. cbn [cy cmo cd ch cmi cs]. lia. Qed.
Lemma secs_day c : valid c = true -> civ_secs c mod 86400 = ch c * 3600 + cmi c * 60 + cs c /\ civ_secs c mod 3600 = cmi c * 60 + cs c.
Proof.
  intros V. apply valid_iff in V. unfold civ_secs. set (x := _ - epoch_ord). clearbody x. lia.
Qed.
Lemma samehour_secs a b : valid a = true -> valid b = true -> agree 6 a b ->
  civ_secs a - civ_secs a mod 3600 = civ_secs b - civ_secs b mod 3600.
Proof.
  intros A B (H0 & H1 & H2 & H3 & _). rewrite (proj2 (secs_day a A)), (proj2 (secs_day b B)). unfold civ_secs.
  rewrite H0, H1, H2, H3 by lia. lia.
Qed.
Lemma secs_samehour a b : valid a = true -> valid b = true ->
  civ_secs a - civ_secs a mod 3600 = civ_secs b - civ_secs b mod 3600 -> agree 6 a b.
Proof.
  intros A B E. rewrite (proj2 (secs_day a A)), (proj2 (secs_day b B)) in E.
  set (a0 := MkCivil (cy a) (cmo a) (cd a) (ch a) 0 0). set (b0 := MkCivil (cy b) (cmo b) (cd b) (ch b) 0 0).
  apply valid_iff in A. apply valid_iff in B.
  assert (a0 = b0) as K.
  { apply civ_secs_inj; [apply valid_iff; unfold a0; cbn [cy cmo cd ch cmi cs]; lia|apply valid_iff; unfold b0; cbn [cy cmo cd ch cmi cs]; lia|].
    unfold civ_secs, a0, b0 in *. cbn [cy cmo cd ch cmi cs]. lia. }
  injection K as ? ? ? ?. unfold agree. sp; intros; auto; lia.
Qed.

Section ZC.
  Context (z : zone) (Hz : ordinary z).
  Let Hs : well_spaced z := proj1 Hz.
  Notation LZ := (lz z). Notation WZ := (wz z).
  Definition ex (c : civil) : Prop := LZ (WZ (civ_secs c)) = civ_secs c.
  Definition hgap (tg gs : Z) : Prop := zgap z tg gs 3600.
  Definition gapped (c : civil) : Prop :=
    exists tg gs, hgap tg gs /\ gs <= civ_secs c < gs + 3600 /\ gs mod 3600 = 0 /\
      WZ (civ_secs c) = tg + (civ_secs c - gs) /\ LZ (WZ (civ_secs c)) = civ_secs c + 3600.

  Lemma no_clock tg gs : hgap tg gs -> forall u, ~ (gs <= LZ u < gs + 3600).
  Proof.
    intros G u H. destruct (Z.le_gt_cases tg u) as [C|C].
    - pose proof (g_after _ _ _ _ _ G u C). unfold lz in H. lia.
    - pose proof (g_before _ _ _ _ _ G u ltac:(lia)). unfold lz in H. lia.
  Qed.
  Lemma ex_not_gapped c : ex c -> ~ gapped c.
  Proof. intros E (tg & gs & _ & _ & _ & _ & L). unfold ex in E. lia. Qed.

  Lemma settle_spec c : goodc c ->
    (ex c /\ settle z c = Ok (c, false)) \/ (gapped c /\ ch c < 23 /\ settle z c = Ok (up c, false)).
  Proof.
    intros Hg. pose proof Hg as [Hv Hy].
    assert (R : min_secs <= civ_secs c <= max_secs).
    { assert (~ clt c (MkCivil 1 1 1 0 0 0)) by (apply valid_iff in Hv; unfold clt; cbn [cy cmo cd ch cmi cs]; lia).
      assert (~ clt (MkCivil 9999 12 31 23 59 59) c) by (apply valid_iff in Hv; pose proof (mdays_bounds (cy c) (cmo c)); unfold clt; cbn [cy cmo cd ch cmi cs]; lia).
      unfold min_secs, max_secs. split; apply Z.nlt_ge; intros K; apply secs_clt in K; auto. }
    assert (U : forall w f, normalize z (MkAdt (civ_secs c * us) false) = MkAdt (w * us) f ->
              settle z c = if (w <? min_secs) || (max_secs <? w) then Err OverflowErr else Ok (secs_civil w, f)).
    { intros w f E. unfold settle. rewrite E. cbn [a_wall a_fold]. rewrite Z.div_mul by (unfold us; lia). reflexivity. }
    assert (N : normalize z (MkAdt (civ_secs c * us) false) = MkAdt (LZ (WZ (civ_secs c)) * us) false).
    { unfold normalize, from_utc, to_utc. cbn [a_wall a_fold]. rewrite Z.div_mul by (unfold us; lia).
      replace (civ_secs c * us - us * wall_off false (z_off0 z) (z_trans z) (civ_secs c)) with (WZ (civ_secs c) * us) by (unfold wz; lia).
      rewrite Z.div_mul by (unfold us; lia). rewrite (fold_wz z Hs). f_equal. unfold lz, local. lia. }
    specialize (U _ _ N).
    destruct (wz_spec z Hs (civ_secs c)) as [(E & _)|(tg & gs & len & G & W & UW & E & K)].
    - left. split; [exact E|]. rewrite U, E. rewrite secs_civil_inv by auto.
      replace ((civ_secs c <? min_secs) || (max_secs <? civ_secs c)) with false by lia. reflexivity.
    - right. destruct (K (proj2 Hz)) as (-> & K1 & K2). pose proof (secs_day c Hv) as (D1 & D2).
      assert (H23 : ch c < 23) by (apply valid_iff in Hv; lia).
      split; [exists tg, gs; unfold hgap; auto|]. split; [exact H23|]. rewrite U, E, <- up_secs.
      pose proof (up_good c Hg H23) as (V' & Y'). rewrite secs_civil_inv by auto.
      assert (R' : min_secs <= civ_secs (up c) <= max_secs).
      { rewrite up_secs. split; [lia|]. assert (~ clt (MkCivil 9999 12 31 23 59 59) (up c)) by (apply valid_iff in V'; pose proof (mdays_bounds (cy c) (cmo c)); unfold clt; cbn [cy cmo cd ch cmi cs up] in *; lia).
        rewrite <- up_secs. unfold max_secs. apply Z.nlt_ge; intros X; apply secs_clt in X; auto. }
      replace ((civ_secs (up c) <? min_secs) || (max_secs <? civ_secs (up c))) with false by lia. reflexivity.
  Qed.

  Lemma gapped_hour a b : valid a = true -> valid b = true -> gapped a -> ex b -> ~ agree 6 a b.
  Proof.
    intros A B (tg & gs & G & I & M & _) E S. apply samehour_secs in S; auto. apply (no_clock tg gs G (WZ (civ_secs b))). unfold ex in E. rewrite E.
    pose proof (Z.mod_pos_bound (civ_secs a) 3600 ltac:(lia)). pose proof (Z.mod_pos_bound (civ_secs b) 3600 ltac:(lia)). lia.
  Qed.

  Definition after_gap (c : civil) : Prop := exists tg gs, hgap tg gs /\ gs + 3600 <= civ_secs c < gs + 7200.
  Lemma after_gap_hour a b : valid a = true -> valid b = true -> agree 6 a b -> (exists tg gs, hgap tg gs /\ gs mod 3600 = 0 /\ gs + 3600 <= civ_secs a < gs + 7200) ->
    exists tg gs, hgap tg gs /\ gs mod 3600 = 0 /\ gs + 3600 <= civ_secs b < gs + 7200.
  Proof.
    intros A B S (tg & gs & G & M & I). exists tg, gs. sp; auto; apply samehour_secs in S; auto;
      pose proof (Z.mod_pos_bound (civ_secs a) 3600 ltac:(lia)); pose proof (Z.mod_pos_bound (civ_secs b) 3600 ltac:(lia)); lia.
  Qed.
  Definition in_next_hour (c : civil) : Prop := exists tg gs, hgap tg gs /\ gs mod 3600 = 0 /\ gs + 3600 <= civ_secs c < gs + 7200.

  Section Search.
    Context (tb : crontab) (late : civil -> bool) (start : civil).
    Hypothesis Htab : tab_ok tb = true.
    Hypothesis Hstart : goodc start.
    Hypothesis Hin : ex start \/ (gapped start /\ civ_secs start mod 3600 = 0).
    Hypothesis Hlate : forall a b, goodc a -> goodc b -> cle a b -> late a = true -> late b = true.

    Definition beyond (c : civil) : Prop :=
      forall x, ex x -> cron_matches tb x -> cle start x -> LZ (WZ (civ_secs c)) <= civ_secs x.
    Definition ZInv (st : civil * bool * Z) : Prop :=
      match st with (c, fold, k) =>
        (k < 0 /\ forall x, goodc x -> ex x -> cle start x -> ~ cron_matches tb x)
        \/ (0 <= k <= 8 /\ goodc c /\ cle start c /\ fold = false /\ (k = 0 /\ c = start \/ late c = false) /\
            (c = start \/ ex c) /\ (c = start \/ cs c = 0 \/ k = 8) /\
            ((forall f, 0 <= f < k -> fmatch tb f c) \/ (6 <= k /\ ex c /\ in_next_hour c /\ forall f, 0 <= f < 5 -> fmatch tb f c)) /\
            beyond c)
      end.
    Definition zmu (st : civil * bool * Z) : Z :=
      match st with (c, _, k) => if k <? 0 then 0 else (2 ^ 40 - cnum c) * 10 + (9 - k) end.
    Definition ZRes (r : zres) : Prop :=
      match r with
      | ZFound c fold => fold = false /\ goodc c /\ cle start c /\ late c = false /\ (c = start \/ ex c) /\ beyond c /\
          (cron_matches tb c \/ (ex c /\ in_next_hour c))
      | ZNone => forall x, goodc x -> ex x -> cle start x -> cron_matches tb x -> late x = true
      | ZRaise e => e = IndexError /\ last_second start
      end.

    Lemma nc c : goodc c -> ex c \/ gapped c.
    Proof. intros G. destruct (settle_spec c G) as [(E & _)|(E & _)]; auto. Qed.

    Lemma agree_up m a b : m <= 5 -> agree m a b -> agree m a (up b).
    Proof. unfold agree, up. cbn [cy cmo cd ch cmi cs]. intros; lia. Qed.
    Lemma low_fields f a b : f = 6 \/ f = 7 -> cmi a = cmi b -> cs a = cs b -> fmatch tb f a -> fmatch tb f b.
    Proof.
      intros F M S. unfold fmatch, fsem. intros (e & I & H). exists e. split; [exact I|].
      pose proof (tab_ok_field tb f Htab ltac:(lia)) as Hok. rewrite forallb_forall in Hok. specialize (Hok e I).
      destruct F as [-> | ->]; destruct e; cbn in *; unfold fmax in *; cbn in *; rewrite <- ?M, <- ?S; auto; discriminate.
    Qed.

    (** what lies between two positions of the search *)
    Lemma beyond_move c c' k m : goodc c -> goodc c' -> clt c c' -> 0 <= k <= 7 ->
      (c = start \/ ex c) -> beyond c ->
      (forall x, valid x = true -> cle c x -> clt x c' -> ~ fmatch tb k x) ->
      agree m c c' -> (m <= 5 -> cmi c' = 0 /\ cs c' = 0) -> (m <= 5 \/ 6 <= k) ->
      (gapped c' -> ex c -> civ_secs c' mod 3600 = 0) /\ beyond c'.
    Proof.
      intros G G' L K O B N A Z0 MK. pose proof G as (V & _). pose proof G' as (V' & _).
      assert (LE : forall x, valid x = true -> civ_secs c <= civ_secs x -> civ_secs x < civ_secs c' -> ~ fmatch tb k x).
      { intros x X H1 H2. apply N; auto; [apply cle_secs; auto|apply secs_clt; auto]. }
      assert (H00 : gapped c' -> agree 6 c c' \/ civ_secs c' mod 3600 = 0).
      { intros _. destruct (Z.le_gt_cases m 5) as [M|M].
        - right. destruct (Z0 M) as (Z1 & Z2). rewrite (proj2 (secs_day c' V')), Z1, Z2. reflexivity.
        - left. eapply agree_le; [|exact A]. lia. }
      split.
      - intros GC E. destruct (H00 GC) as [S|S]; [|exact S]. exfalso. eapply (gapped_hour c' c); eauto. apply agree_sym. exact S.
      - intros x X M SX. pose proof (matches_goodc tb x M) as (VX & _). specialize (B x X M SX).
        assert (FM : forall f, 0 <= f <= 7 -> fmatch tb f x) by (apply cron_matches_iff in M; tauto).
        destruct (Z.le_gt_cases (LZ (WZ (civ_secs c'))) (civ_secs x)) as [C|C]; [exact C|exfalso].
        destruct (nc c' G') as [E'|GP'].
        + unfold ex in E'. rewrite E' in C. apply (LE x VX); auto.
          destruct (nc c G) as [E|(tg & gs & _ & _ & _ & _ & E)]; unfold ex in E; lia.
        + pose proof GP' as (tg & gs & GG & I & MM & _ & E'). rewrite E' in C.
          assert (XN : ~ (gs <= civ_secs x < gs + 3600)) by (unfold ex in X; rewrite <- X; apply (no_clock tg gs GG)).
          pose proof (Z.mod_pos_bound (civ_secs c') 3600 ltac:(lia)) as MB.
          destruct (nc c G) as [E|(tg1 & gs1 & G1 & I1 & M1 & W1 & E)].
          * assert (S : civ_secs c' mod 3600 = 0).
            { destruct (H00 GP') as [S|S]; [|exact S]. exfalso. apply (gapped_hour c' c); auto. apply agree_sym. exact S. }
            unfold ex in E. rewrite E in B. apply (LE x VX); auto; lia.
          * rewrite E in B. apply secs_clt in L; auto.
            destruct (Z.eq_dec gs1 gs) as [->|NE].
            -- assert (KK : 6 <= k).
               { destruct MK as [MK|MK]; [|exact MK]. exfalso. destruct (Z0 MK) as (Z1 & Z2).
                 pose proof (proj2 (secs_day c' V')). lia. }
               set (x' := MkCivil (cy c') (cmo c') (cd c') (ch c') (cmi x) (cs x)).
               assert (VX' : valid x' = true) by (apply valid_iff in V'; apply valid_iff in VX; apply valid_iff; unfold x'; cbn [cy cmo cd ch cmi cs]; lia).
               assert (civ_secs x' = civ_secs x - 3600) as SX'.
               { pose proof (secs_day x' VX') as (_ & D1). pose proof (secs_day x VX) as (_ & D2). pose proof (secs_day c' V') as (_ & D3). change (cmi x') with (cmi x) in D1. change (cs x') with (cs x) in D1.
                 assert (agree 6 x' c') as AH by (unfold agree, x'; cbn [cy cmo cd ch cmi cs]; lia). apply samehour_secs in AH; auto.
                 pose proof (Z.mod_pos_bound (civ_secs x) 3600 ltac:(lia)). lia. }
               apply (LE x' VX'); try lia. apply (low_fields k x x'); [lia|reflexivity|reflexivity|apply FM; lia].
            -- destruct (Z.lt_ge_cases (civ_secs x) (civ_secs c')) as [X1|X1]; [apply (LE x VX); auto; lia|].
               destruct (H00 GP') as [S|S]; [|lia]. apply samehour_secs in S; auto.
               pose proof (Z.mod_pos_bound (civ_secs c) 3600 ltac:(lia)). lia.
    Qed.

    Lemma gapped_next c : goodc c -> gapped c -> in_next_hour (up c) /\ ex (up c).
    Proof.
      intros G GP. pose proof GP as (tg & gs & GG & I & MM & W & E). split.
      - exists tg, gs. rewrite up_secs. sp; auto; lia.
      - unfold ex. rewrite up_secs, <- E. apply (shown_exists z Hs).
    Qed.

    Lemma ZInv_step st : ZInv st ->
      match zstep tb z late st with
      | inl st' => ZInv st' /\ zmu st' < zmu st
      | inr r => ZRes r
      end.
    Proof.
      destruct st as [[c fold] k]. intros HI. unfold zstep.
      destruct HI as [(Hneg & Hno)|(Hk & Hg & Hsc & -> & Hl & He & Hcs & Hpre & Hb)].
      { replace ((0 <=? k) && (k <? 8)) with false by lia. replace (0 <=? k) with false by lia.
        intros x Gx Ex Sx Mx. exfalso. apply (Hno x); auto. }
      destruct (Z.eq_dec k 8) as [->|Hk8].
      { replace ((0 <=? 8) && (8 <? 8)) with false by lia. replace (0 <=? 8) with true by lia. cbn [ZRes].
        sp; auto; [destruct Hl as [(? & _)|Hl]; [lia|exact Hl]|]. destruct Hpre as [Hp|(_ & E & H & _)]; [left|right; auto].
        apply cron_matches_iff; auto. split; [apply Hg|intros; apply Hp; lia]. }
      replace ((0 <=? k) && (k <? 8)) with true by lia.
      destruct (zmove_cases tb z c false k Htab Hg ltac:(lia)) as [(Hm & Hf)|[(c' & k' & m & Hm & Hg' & Hlt & Hskip & Hm7 & Hag & Hz0 & Hs0 & Hk' & Hkind)|[(k' & Hm & Hneg & Hno)|(Hm & Hlast & Hno)]]];
        rewrite Hm.
      - (* the field matches: go on to the next one *)
        destruct (late c) eqn:El.
        + intros x Gx Ex Sx Mx. apply (Hlate c x); auto. apply cle_secs; [apply Hg|apply Gx|].
          specialize (Hb x Ex Mx Sx). destruct (nc c Hg) as [E|(? & ? & _ & _ & _ & _ & E)]; unfold ex in E; lia.
        + split; [|unfold zmu; replace (k + 1 <? 0) with false by lia; replace (k <? 0) with false by lia; lia].
          right. sp; auto; try lia.
          * destruct Hcs as [?|[?|?]]; auto; lia.
          * destruct Hpre as [Hp|(K & E & H & Hp)]; [left|right; sp; auto; lia].
            intros f F. destruct (Z.eq_dec f k) as [->|]; [exact Hf|apply Hp; lia].
      - (* the clock is moved forward *)
        assert (MK : m <= 5 \/ 6 <= k) by lia.
        destruct (beyond_move c c' k m Hg Hg' Hlt ltac:(lia) He Hb Hskip Hag Hz0 MK) as (Hgs & Hb').
        pose proof Hg as (Hv & _). pose proof Hg' as (Hv' & _).
        (* fields before the new one, on the clock as computed *)
        assert (Hagf : forall f, 0 <= f < m -> fmatch tb f c -> fmatch tb f c').
        { intros f F. apply fmatch_agree; auto; [lia|]. eapply agree_le; [|exact Hag]. lia. }
        assert (Hmu : forall c'' f'', goodc c'' -> civ_secs c' <= civ_secs c'' -> zmu (c'', f'', k') < zmu (c, false, k)).
        { intros c'' f'' G'' S''. unfold zmu. replace (k' <? 0) with false by lia. replace (k <? 0) with false by lia.
          assert (clt c c''). { apply secs_clt; [auto|apply G''|]. apply secs_clt in Hlt; auto. lia. }
          pose proof (cnum_mono c c'' Hv (proj1 G'') H). lia. }
        unfold settled. destruct (settle_spec c' Hg') as [(E' & ->)|(GP & H23 & ->)].
        + destruct (late c') eqn:El.
          { intros x Gx Ex Sx Mx. apply (Hlate c' x); auto. apply cle_secs; auto; [apply Gx|]. specialize (Hb' x Ex Mx Sx). unfold ex in E'. lia. }
          split; [|apply Hmu; auto; lia]. right. sp; auto; try lia.
          * eapply cle_trans; [exact Hsc|right; exact Hlt].
          * destruct Hpre as [Hp|(K & E & H & Hp)].
            -- left. intros f F. destruct Hkind as [(-> & -> & Hfm)|(-> & Hmk & _)].
               ++ destruct (Z.eq_dec f k) as [->|]; [exact Hfm|apply Hagf; [lia|apply Hp; lia]].
               ++ apply Hagf; [lia|apply Hp; lia].
            -- destruct (Z.le_gt_cases m 5) as [M5|M5].
               ++ left. intros f F. destruct Hkind as [(-> & -> & _)|(-> & _ & _)]; [lia|]. apply Hagf; [lia|apply Hp; lia].
               ++ right. sp; auto; [lia| |].
                  ** apply (after_gap_hour c c'); auto. eapply agree_le; [|exact Hag]. lia.
                  ** intros f F. apply Hagf; [lia|apply Hp; lia].
        + assert (Hgu : goodc (up c')) by (apply up_good; auto).
          destruct (gapped_next c' Hg' GP) as (Hnx & Hxu).
          assert (Hbu : beyond (up c')).
          { intros x Ex Mx Sx. specialize (Hb' x Ex Mx Sx). unfold ex in Hxu. rewrite Hxu, up_secs.
            destruct GP as (? & ? & _ & _ & _ & _ & E). lia. }
          destruct (late (up c')) eqn:El.
          { intros x Gx Ex Sx Mx. apply (Hlate (up c') x); auto. apply cle_secs; [apply Hgu|apply Gx|].
            specialize (Hbu x Ex Mx Sx). unfold ex in Hxu. lia. }
          split; [|apply Hmu; auto; rewrite up_secs; lia]. right. sp; auto; try lia.
          * apply cle_secs; [apply Hstart|apply Hgu|]. rewrite up_secs. apply cle_secs in Hsc; [|apply Hstart|auto]. apply secs_clt in Hlt; auto. lia.
          * right. change (cs (up c')) with (cs c'). destruct (Z.eq_dec m 7) as [->|]; [right; lia|left; apply Hs0; lia].
          * assert (Hup5 : forall f, 0 <= f < 5 -> fmatch tb f c' -> fmatch tb f (up c')).
            { intros f F. apply fmatch_agree; auto; [lia|]. unfold agree, up. cbn [cy cmo cd ch cmi cs]. lia. }
            assert (Hp5 : forall f, 0 <= f < 5 -> f < k -> fmatch tb f c).
            { intros f F FK. destruct Hpre as [Hp|(_ & _ & _ & Hp)]; apply Hp; lia. }
            destruct (Z.le_gt_cases k' 5) as [K5|K5].
            -- left. intros f F. destruct Hkind as [(-> & -> & Hfm)|(-> & Hmk & _)].
               ++ destruct (Z.eq_dec f k) as [->|]; [apply Hup5; [lia|exact Hfm]|]. apply Hup5; [lia|]. apply Hagf; [lia|apply Hp5; lia].
               ++ apply Hup5; [lia|]. apply Hagf; [lia|apply Hp5; lia].
            -- right. sp; auto; [lia|]. intros f F. apply Hup5; [lia|]. apply Hagf; [lia|apply Hp5; lia].
      - (* no candidate is left *)
        assert (Hnone : forall x, goodc x -> ex x -> cle start x -> ~ cron_matches tb x).
        { intros x (Vx & Yx) Ex Sx Mx. specialize (Hb x Ex Mx Sx). apply (Hno x); auto; [lia| |].
          - apply cle_secs; [apply Hg|auto|]. destruct (nc c Hg) as [E|(? & ? & _ & _ & _ & _ & E)]; unfold ex in E; lia.
          - apply cron_matches_iff in Mx; auto. apply Mx. lia. }
        assert (G0 : goodc (MkCivil 1970 1 1 0 0 0)) by (split; [reflexivity|cbn; lia]).
        unfold settled. destruct (settle_spec _ G0) as [(_ & ->)|(_ & _ & ->)];
          (match goal with |- context [late ?d] => destruct (late d) end;
           [cbn; intros x Gx Ex Sx Mx; exfalso; eapply Hnone; eauto
           |split; [left; auto|unfold zmu; replace (k' <? 0) with true by lia; replace (k <? 0) with false by lia; pose proof (cnum_bounds c Hg); lia]]).
      - cbn. split; [auto|]. unfold last_second in *. subst c. cbn in Hcs. destruct Hcs as [<-|[H|H]]; [reflexivity|lia|lia].
    Qed.

    Theorem zsearch_spec : ZRes (zsearch tb z late start false).
    Proof.
      unfold zsearch.
      assert (Hst : forall s s', ZInv s -> zstep tb z late s = inl s' -> ZInv s' /\ zmu s' < zmu s).
      { intros s s' HI E. pose proof (ZInv_step s HI) as H. rewrite E in H. exact H. }
      assert (Hr : forall s r, ZInv s -> zstep tb z late s = inr r -> ZRes r).
      { intros s r HI E. pose proof (ZInv_step s HI) as H. rewrite E in H. exact H. }
      assert (H0 : ZInv (start, false, 0)).
      { right. sp; auto; try lia; [left; reflexivity|left; intros; lia|]. intros x Ex Mx Sx.
        pose proof (matches_goodc tb x Mx) as (Vx & _). apply cle_secs in Sx; [|apply Hstart|auto].
        destruct Hin as [E|((tg & gs & GG & I & MM & W & E) & M0)]; unfold ex in E; rewrite E; [exact Sx|].
        assert (XN : ~ (gs <= civ_secs x < gs + 3600)) by (unfold ex in Ex; rewrite <- Ex; apply (no_clock tg gs GG)). lia. }
      destruct (iter_pos_stops (zstep tb z late) ZInv zmu Hst cron_fuel (start, false, 0) H0) as [r Hres].
      - intros [[c f] k] HI. unfold zmu. destruct (Z.ltb_spec k 0); [lia|].
        destruct HI as [[Hn _]|(Hk & Hg & _)]; [lia|]. pose proof (cnum_bounds c Hg). lia.
      - unfold zmu. cbn [Z.ltb Z.compare]. pose proof (cnum_bounds start Hstart).
        change (2 ^ 40) with 1099511627776 in *. unfold cron_fuel. lia.
      - rewrite Hres. eapply iter_pos_inr; [exact Hst|exact Hr|exact H0|exact Hres].
    Qed.
  End Search.
End ZC.
