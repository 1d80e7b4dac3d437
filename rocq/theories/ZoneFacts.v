From Verif Require Import Prelude Calendar CalendarFacts Cron CronSpec Zone ZoneSpec.
Open Scope Z_scope.
Ltac sp := repeat match goal with |- _ /\ _ => split end.

Definition local (o : Z) (l : list (Z * Z)) (u : Z) : Z := u + utc_off o l u.
Ltac zs := cbn [local utc_off wall_off utc_fold spaced skips_an_hour] in *.

Lemma spaced_weaken l : forall t d o t' d', t' <= t -> d' <= d -> spaced t d o l -> spaced t' d' o l.
Proof. destruct l as [|[t2 o2] l]; cbn; intros; [auto|]. destruct H1 as (H1 & H2 & H3). sp; auto; lia. Qed.

(** after a change the clock never goes below what the change made it show *)
Lemma local_ge l : forall t d o u, spaced t d o l -> 0 <= d -> t <= u -> t + o <= local o l u.
Proof.
  unfold local. induction l as [|[t2 o2] l IH]; intros t d o u H D U; zs; [lia|]. destruct H as (H1 & H2 & H3).
  destruct (Z.leb_spec t2 u); [|lia]. pose proof (IH _ _ _ u H3 ltac:(lia) ltac:(lia)). lia.
Qed.

(** the wall clock read with fold 0: existing, or in a gap *)
Record gap (o : Z) (l : list (Z * Z)) (t gs len : Z) : Prop := {
  g_len : 0 < len;
  g_before : forall u, u < t -> local o l u < gs;
  g_prev : local o l (t - 1) = gs - 1;
  g_after : forall u, t <= u -> gs + len <= local o l u;
  g_next : forall u, t <= u < t + len -> local o l u = gs + len + (u - t) }.

Lemma gap_cons t0 d0 o0 t o' l tg gs len : spaced t0 d0 o0 ((t, o') :: l) -> t < tg -> t + o' < gs -> t + o0 <= gs ->
  gap o' l tg gs len -> gap o0 ((t, o') :: l) tg gs len.
Proof.
  intros S T G G0 []. constructor; auto; [| |intros u U|intros u U]; [intros u U| |..]; unfold local in *; zs.
  - destruct (Z.leb_spec t u); [apply g_before0; auto|]. lia.
  - destruct (Z.leb_spec t (tg - 1)); lia.
  - destruct (Z.leb_spec t u); [apply g_after0; auto|lia].
  - destruct (Z.leb_spec t u); [apply g_next0; auto|lia].
Qed.

Lemma wall_zero l : forall t d o w, spaced t d o l -> 0 <= d -> t + o <= w ->
  let u := w - wall_off false o l w in
  t <= u /\
  ((local o l u = w /\ forall v, t <= v -> v < u -> local o l v < w) \/
   (exists tg gs len, gap o l tg gs len /\ t < tg /\ t + o + d < gs /\ gs <= w < gs + len /\ u = tg + (w - gs) /\ local o l u = w + len
      /\ (skips_an_hour o l -> len = 3600 /\ gs mod 3600 = 0 /\ gs mod 86400 < 82800))).
Proof.
  induction l as [|[t2 o2] l IH]; intros t d o w S D W; cbn zeta; zs.
  - split; [lia|]. left. unfold local; zs. split; [lia|intros; lia].
  - destruct S as (S1 & S2 & S3). destruct (Z.leb_spec (t2 + Z.max o o2) w) as [L|L].
    + destruct (IH _ _ _ w S3 ltac:(lia) ltac:(lia)) as (U & H). split; [lia|]. destruct H as [[E F]|(tg & gs & len & G & T & GS & W1 & U1 & E & K)].
      * left. unfold local in *; zs. split.
        -- destruct (Z.leb_spec t2 (w - wall_off false o2 l w)); lia.
        -- intros v V. destruct (Z.leb_spec t2 v); [auto|lia].
      * right. exists tg, gs, len. sp; try lia; try tauto.
        -- apply (gap_cons t d); auto; [cbn; auto|lia|lia].
        -- unfold local in *; zs. destruct (Z.leb_spec t2 (w - wall_off false o2 l w)); lia.
    + split; [lia|]. unfold local; zs. destruct (Z.leb_spec t2 (w - o)) as [T|T].
      * right. exists t2, (t2 + o), (o2 - o). assert (N : forall u, t2 <= u < t2 + (o2 - o) -> utc_off o2 l u = o2).
        { intros u U. destruct l as [|[t3 o3] l]; zs; [auto|]. destruct S3 as (? & ? & ?). destruct (Z.leb_spec t3 u); lia. }
        sp; try lia.
        -- constructor; [lia| | |..]; [intros u U| |intros u U|intros u U]; unfold local; zs.
           ++ destruct (Z.leb_spec t2 u); lia.
           ++ destruct (Z.leb_spec t2 (t2 - 1)); lia.
           ++ destruct (Z.leb_spec t2 u); [|lia]. pose proof (local_ge l _ _ _ u S3 ltac:(lia) ltac:(lia)). unfold local in *. lia.
           ++ destruct (Z.leb_spec t2 u); [|lia]. rewrite N; lia.
        -- rewrite N; lia.
      * left. split; [lia|]. intros v V. destruct (Z.leb_spec t2 v); lia.
Qed.

Lemma fold_inv l : forall t d o f u, spaced t d o l -> 0 <= d -> t <= u -> utc_fold f o l u = true ->
  (f = true /\ forall v, t <= v <= u -> utc_off o l v = o) \/ (exists v, t <= v < u /\ local o l v = local o l u).
Proof.
  unfold local. induction l as [|[t2 o2] l IH]; intros t d o f u S D U F; zs; [left; split; auto|]. destruct S as (S1 & S2 & S3).
  destruct (Z.leb_spec t2 u) as [T|T].
  - destruct (IH _ _ _ _ _ S3 ltac:(lia) T F) as [(F1 & F2)|(v & V & E)].
    + apply Z.ltb_lt in F1. right. exists (u - (o - o2)). split; [lia|]. rewrite (F2 u) by lia. replace (t2 <=? u) with true in * by lia.
      destruct (Z.leb_spec t2 (u - (o - o2))); lia.
    + right. exists v. split; [lia|]. destruct (Z.leb_spec t2 v); lia.
  - left. split; [auto|]. intros v V. destruct (Z.leb_spec t2 v); lia.
Qed.

Section Z.
  Context (z : zone) (Hz : well_spaced z).
  Definition lz (u : Z) : Z := local (z_off0 z) (z_trans z) u.
  Definition wz (w : Z) : Z := w - wall_off false (z_off0 z) (z_trans z) w.
  Definition zgap := gap (z_off0 z) (z_trans z).

  Lemma spaced_low : exists T, forall t, t <= T -> spaced t 0 (z_off0 z) (z_trans z).
  Proof.
    unfold well_spaced in Hz. destruct (z_trans z) as [|[t o] l]; [exists 0; cbn; auto|].
    exists (t - 1 - Z.abs (o - z_off0 z)). intros t' T. cbn. sp; auto; lia.
  Qed.

  Lemma wz_spec w :
    (lz (wz w) = w /\ forall v, v < wz w -> lz v < w) \/
    (exists tg gs len, zgap tg gs len /\ gs <= w < gs + len /\ wz w = tg + (w - gs) /\ lz (wz w) = w + len
      /\ (skips_an_hour (z_off0 z) (z_trans z) -> len = 3600 /\ gs mod 3600 = 0 /\ gs mod 86400 < 82800)).
  Proof.
    destruct spaced_low as (T & H).
    assert (G : forall v, (lz (wz w) = w /\ (v < wz w -> lz v < w)) \/
     (exists tg gs len, zgap tg gs len /\ gs <= w < gs + len /\ wz w = tg + (w - gs) /\ lz (wz w) = w + len
      /\ (skips_an_hour (z_off0 z) (z_trans z) -> len = 3600 /\ gs mod 3600 = 0 /\ gs mod 86400 < 82800))).
    { intros v. set (t := Z.min T (Z.min (w - z_off0 z) v)).
      destruct (wall_zero (z_trans z) t 0 (z_off0 z) w (H t ltac:(lia)) ltac:(lia) ltac:(lia)) as (U & [(E & F)|(tg & gs & len & G1 & G2 & G3 & G4 & G5 & G6 & G7)]).
      - left. split; [exact E|]. intros V. apply F; [lia|exact V].
      - right. exists tg, gs, len. sp; auto; lia. }
    destruct (Z.eq_dec (lz (wz w)) w) as [E|E].
    - left. split; [exact E|]. intros v. destruct (G v) as [(_ & F)|(tg & gs & len & G1 & _ & _ & G4 & _)]; [auto|].
      pose proof (g_len _ _ _ _ _ G1). lia.
    - destruct (G 0) as [(F & _)|F]; [contradiction|right; exact F].
  Qed.

  (** a wall clock shown at some instant is first shown at [wz w] *)
  Lemma shown_exists u : lz (wz (lz u)) = lz u /\ wz (lz u) <= u /\ forall v, v < wz (lz u) -> lz v < lz u.
  Proof.
    destruct (wz_spec (lz u)) as [(E & F)|(tg & gs & len & G & W & _)].
    - sp; auto. destruct (Z.le_gt_cases (wz (lz u)) u) as [C|C]; [auto|]. apply F in C. lia.
    - exfalso. destruct (Z.le_gt_cases tg u) as [C|C].
      + pose proof (g_after _ _ _ _ _ G u C). unfold lz in W. lia.
      + pose proof (g_before _ _ _ _ _ G u ltac:(lia)). unfold lz in W. lia.
  Qed.

  Lemma fold_earlier u : utc_fold false (z_off0 z) (z_trans z) u = true -> exists v, v < u /\ lz v = lz u.
  Proof.
    intros F. destruct spaced_low as (T & H). set (t := Z.min T u).
    destruct (fold_inv (z_trans z) t 0 (z_off0 z) false u (H t ltac:(lia)) ltac:(lia) ltac:(lia) F) as [(X & _)|(v & V & E)]; [discriminate|].
    exists v. split; [lia|exact E].
  Qed.
  Lemma fold_wz w : utc_fold false (z_off0 z) (z_trans z) (wz w) = false.
  Proof.
    destruct (utc_fold _ _ _ _) eqn:F; [|auto]. exfalso. apply fold_earlier in F as (v & V & E).
    destruct (wz_spec w) as [(E1 & F1)|(tg & gs & len & G & W & U & E1 & _)].
    - specialize (F1 v V). lia.
    - pose proof (g_next _ _ _ _ _ G). pose proof (g_before _ _ _ _ _ G). pose proof (g_len _ _ _ _ _ G). unfold lz in *.
      destruct (Z.le_gt_cases tg v) as [C|C]; [|specialize (H0 v ltac:(lia)); lia].
      rewrite (H v) in E by lia. rewrite (H (wz w)) in E by lia. lia.
  Qed.

  (** *** microseconds *)
  Lemma offset_at_secs o l u : offset_at o l u = utc_off o l (u / us).
  Proof.
    revert o. induction l as [|[t o2] l IH]; intros o; cbn; [auto|]. rewrite IH.
    replace (t * 1000000 <=? u) with (t <=? u / us); [auto|].
    unfold us. pose proof (Z.div_mod u 1000000 ltac:(lia)). pose proof (Z.mod_pos_bound u 1000000 ltac:(lia)).
    destruct (Z.leb_spec t (u / 1000000)), (Z.leb_spec (t * 1000000) u); auto; nia.
  Qed.
  Lemma shown_secs u : shown z u = lz (u / us) * us + u mod us.
  Proof.
    unfold shown, lz, local. rewrite offset_at_secs. unfold us. pose proof (Z.div_mod u 1000000 ltac:(lia)). lia.
  Qed.
  Lemma div_us a b : 0 <= b < us -> (a * us + b) / us = a /\ (a * us + b) mod us = b.
  Proof.
    unfold us. intros B. pose proof (Z.div_mod (a * 1000000 + b) 1000000 ltac:(lia)).
    pose proof (Z.mod_pos_bound (a * 1000000 + b) 1000000 ltac:(lia)). nia.
  Qed.
  Lemma mod_us u : 0 <= u mod us < us. Proof. apply Z.mod_pos_bound. unfold us; lia. Qed.
  Lemma split_us u : u = u / us * us + u mod us. Proof. pose proof (Z.div_mod u us ltac:(unfold us; lia)). lia. Qed.

  Lemma first_secs u : first_time z u <-> u / us = wz (lz (u / us)).
  Proof.
    pose proof (mod_us u). split.
    - intros F. destruct (shown_exists (u / us)) as (E & L & _). set (v := wz (lz (u / us))) in *.
      destruct (div_us v (u mod us) H) as (D1 & D2).
      specialize (F (v * us + u mod us)). rewrite !shown_secs, D1, D2, E in F. specialize (F eq_refl).
      rewrite (split_us u) in F at 1. unfold us in *. lia.
    - intros E v V. rewrite !shown_secs in V. pose proof (mod_us v).
      assert (lz (v / us) = lz (u / us) /\ v mod us = u mod us) as (V1 & V2) by (unfold us in *; lia).
      destruct (shown_exists (v / us)) as (_ & L & _). rewrite V1, <- E in L. rewrite (split_us u), (split_us v), V2. unfold us in *; lia.
  Qed.

  Lemma from_wall u : a_wall (from_utc z u) = shown z u.
  Proof. unfold from_utc. cbn [a_wall]. rewrite shown_secs. unfold lz, local. rewrite (split_us u) at 1. lia. Qed.
  Lemma to_from u : first_time z u -> to_utc z (from_utc z u) = u /\ a_fold (from_utc z u) = false /\ a_wall (from_utc z u) = shown z u.
  Proof.
    intros F. apply first_secs in F. assert (A : a_fold (from_utc z u) = false).
    { unfold from_utc. cbn [a_fold]. rewrite F. apply fold_wz. }
    sp; auto using from_wall. unfold to_utc. rewrite A, from_wall, shown_secs.
    destruct (div_us (lz (u / us)) (u mod us) (mod_us u)) as (-> & _). unfold wz in F. pose proof (split_us u). unfold us in *. lia.
  Qed.

  (** before a first time the clock showed less *)
  Lemma first_less u v : first_time z u -> v < u -> shown z v < shown z u.
  Proof.
    intros F V. apply first_secs in F. rewrite !shown_secs. pose proof (mod_us u). pose proof (mod_us v).
    pose proof (split_us u). pose proof (split_us v).
    destruct (Z.eq_dec (v / us) (u / us)) as [E|N].
    - rewrite E. rewrite E in *. lia.
    - assert (v / us < u / us) by (unfold us in *; lia).
      destruct (shown_exists (u / us)) as (_ & _ & L). rewrite <- F in L. specialize (L (v / us) ltac:(lia)). unfold us in *. lia.
  Qed.
End Z.
