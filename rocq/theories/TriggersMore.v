From Verif Require Import Prelude FloatDiv FloatDivProofs Calendar CalendarFacts Cron CronSpec CronTop Triggers TriggerSpec TriggersProofs TriggersProofs2.
Open Scope Z_scope.

Lemma interval_first_fire (B start : Z) (end_at : option Z) (o : oracle) (now : Z) (fuel : nat) :
    0 < B < 2 ^ 53 -> now - start < 2 ^ 51 ->
    match get_next fuel (TInterval (B * us) start end_at None) None o now with
    | Ok (Some t) => first_from (grid (B * us) start) now t /\ not_after t end_at
    | Ok None => exists t, first_from (grid (B * us) start) now t /\ ~ not_after t end_at
    | Err _ => False
    end.
Proof.
  intros HB Hn. pose proof (interval_first (B * us) start end_at o now B HB eq_refl Hn) as H. cbn [get_next].
  destruct (interval_next _ _ _ _ _ _ _); exact H.
Qed.

Lemma interval_next_fire (iv start : Z) (end_at : option Z) (o : oracle) (p now : Z) (fuel : nat) :
    (not_after (p + iv) end_at -> get_next fuel (TInterval iv start end_at None) (Some p) o now = Ok (Some (p + iv))) /\
    (~ not_after (p + iv) end_at -> get_next fuel (TInterval iv start end_at None) (Some p) o now = Ok None).
Proof.
  cbn [get_next]. rewrite interval_after. unfold not_after. destruct end_at as [e|].
  - destruct (Z.leb_spec (p + iv) e); split; intros H1; auto.
    + exfalso. apply H1. intros x [= <-]; auto.
    + specialize (H1 e eq_refl). lia.
  - split; intros H1; auto. exfalso. apply H1. discriminate.
Qed.

Lemma fractional_interval_refuted :
  exists iv start now t, 0 < iv /\ start <= now /\
    (forall o fuel, get_next fuel (TInterval iv start None None) None o now = Ok (Some t)) /\
    ~ first_from (grid iv start) now t.
Proof.
  exists 300000, 0, 2100000, 2400000. split; [lia|]. split; [lia|]. split.
  - intros o fuel. vm_compute. reflexivity.
  - intros (_ & _ & H). specialize (H 2100000). assert (2400000 <= 2100000); [|lia]. apply H; [exists 7; lia|lia].
Qed.

Lemma interval_on_grid_trigger (iv start : Z) (end_at : option Z) (o : oracle) (now t : Z) (fuel : nat) :
    0 < iv -> get_next fuel (TInterval iv start end_at None) None o now = Ok (Some t) ->
    grid iv start t /\ not_after t end_at.
Proof. intros Hi [= H]. eapply interval_on_grid; eauto. Qed.

Lemma date_fires_once (d : Z) (o : oracle) (fuel : nat) (now : Z) :
    get_next fuel (TDate d) None o now = Ok (Some d) /\
    forall p, get_next fuel (TDate d) (Some p) o now = Ok None.
Proof. split; reflexivity. Qed.

Lemma and_children_agree (l : list trigger) (prev : option Z) (o : oracle) (now t : Z) (fuel : nat) :
    get_next fuel (TAnd l None) prev o now = Ok (Some t) ->
    l <> [] /\ exists o' now', forall x, In x l -> exists i, get_next fuel x prev (sub o' i) now' = Ok (Some t).
Proof.
  cbn [get_next]. intros H. apply and_sound in H. destruct H as [Hne (o' & now' & H)]. split.
  - intros ->. apply Hne. reflexivity.
  - exists o', now'. intros x Hx. apply (H (get_next fuel x prev)). apply (in_map (fun t => get_next fuel t prev)). exact Hx.
Qed.
Lemma and_children_none (l : list trigger) (prev j : option Z) (o : oracle) (now : Z) (fuel : nat) :
    get_next fuel (TAnd l j) prev o now = Ok None ->
    exists o' now' x, In x l /\ get_next fuel x prev o' now' = Ok None.
Proof.
  cbn [get_next]. intros H. apply and_none in H. destruct H as (o' & now' & c & Hc & H).
  apply in_map_iff in Hc. destruct Hc as (x & <- & Hx). eauto.
Qed.

Lemma or_is_minimum (l : list trigger) (prev : option Z) (o : oracle) (now : Z) (fuel : nat) (r : option Z) :
    Forall jitter_free l ->
    get_next fuel (TOr l None) prev o now = Ok r ->
    (forall x, In x l -> exists a, get_next fuel x prev o now = Ok a) /\
    match r with
    | Some t => (exists x, In x l /\ get_next fuel x prev o now = Ok (Some t)) /\
                (forall x u, In x l -> get_next fuel x prev o now = Ok (Some u) -> t <= u)
    | None => forall x, In x l -> get_next fuel x prev o now = Ok None
    end.
Proof.
  intros Hj H. rewrite Forall_forall in Hj. cbn [get_next] in H. apply or_next_spec in H. destruct H as [H0 H].
  assert (Hin : forall x, In x l -> In (get_next fuel x prev) (map (fun t => get_next fuel t prev) l)).
  { intros x Hx. apply (in_map (fun t => get_next fuel t prev)). exact Hx. }
  split.
  - intros x Hx. destruct (H0 _ (Hin x Hx)) as (j & a & Ha). exists a.
    rewrite (get_next_oracle fuel x prev (Hj x Hx) o (sub o j)). exact Ha.
  - destruct r as [t|].
    + destruct H as ((c & j & Hc & Hct) & Hmin). apply in_map_iff in Hc. destruct Hc as (x & <- & Hx). split.
      * exists x. split; auto. rewrite (get_next_oracle fuel x prev (Hj x Hx) o (sub o j)). exact Hct.
      * intros y u Hy Hu. destruct (Hmin _ (Hin y Hy)) as (i & a & Ha & Hle).
        rewrite (get_next_oracle fuel y prev (Hj y Hy) o (sub o i)) in Hu. rewrite Ha in Hu. injection Hu as ->. auto.
    + intros x Hx. destruct (H _ (Hin x Hx)) as (j & Hn). rewrite (get_next_oracle fuel x prev (Hj x Hx) o (sub o j)). exact Hn.
Qed.

Lemma first_fire_time (H : Z) (fuel : nat) (tr : trigger) (o : oracle) (now : Z) (r : option Z) :
    regular H tr -> now <= H -> get_next fuel tr None o now = Ok r -> first_until (fires tr) H now r.
Proof. intros Hr Hn Hg. destruct (regular_tracks H fuel tr Hr o now) as [_ T]. auto. Qed.

Lemma cron_next_fire_time (p : Z) (fuel : nat) (tr : trigger) (o : oracle) (now : Z) (r : option Z) :
    cron_only p tr -> p <= now -> get_next fuel tr (Some p) o now = Ok r ->
    match r with Some t => first_from (fires tr) (p + 1) t | None => none_from (fires tr) (p + 1) end.
Proof. intros Hc Hp Hg. exact (cron_only_next p fuel tr Hc o now r Hp Hg). Qed.

(** the fire times a scheduler obtains one after the other, first question at instant 0 *)
Fixpoint fire_seq (fuel : nat) (tr : trigger) (o : oracle) (n : nat) : option Z :=
  match n with
  | O => match get_next fuel tr None o 0 with Ok r => r | Err _ => None end
  | S n' => match fire_seq fuel tr o n' with
            | None => None
            | Some p => match get_next fuel tr (Some p) o p with Ok r => r | Err _ => None end
            end
  end.

Definition two_or_three := TOr [TInterval (2 * us) 0 None None; TInterval (3 * us) 0 None None] None.
Lemma or_interval_refuted :
  exists tr, regular (2 ^ 49) tr /\ fires tr (3 * us) /\
    forall o fuel n, exists t, fire_seq fuel tr o n = Some t /\ t <> 3 * us.
Proof.
  exists two_or_three. split; [|split].
  - cbn [regular two_or_three]. split; [reflexivity|]. split; [|split; [|exact I]].
    + split; [exists 2; split; [lia|reflexivity]|]. split; [lia|reflexivity].
    + split; [exists 3; split; [lia|reflexivity]|]. split; [lia|reflexivity].
  - cbn [fires two_or_three]. right. left. split; [exists 1; lia|intros e; discriminate].
  - intros o fuel n.
    assert (E : fire_seq fuel two_or_three o n = Some (2 * us * Z.of_nat n)).
    { induction n as [|n IH]; [vm_compute; reflexivity|]. cbn [fire_seq]. rewrite IH.
      set (p := 2 * us * Z.of_nat n).
      assert (G : get_next fuel two_or_three (Some p) o p = Ok (Some (Z.min (p + 2 * us) (p + 3 * us)))).
      { unfold two_or_three. cbn [get_next map or_next ask_some]. rewrite !interval_after. cbn [ask_some zmin apply_jitter draw].
        unfold or_next. cbn [ask_some zmin apply_jitter draw]. rewrite Z.add_0_r. reflexivity. }
      rewrite G. unfold p, us. f_equal. lia. }
    exists (2 * us * Z.of_nat n). split; auto. unfold us. lia.
Qed.

Lemma and_two_three_hangs : forall o now fuel, fair o -> 0 <= now ->
    get_next fuel (TAnd [TInterval (2 * us) 0 None None; TInterval (3 * us) 0 None None] None) (Some 0) o now = Err OutOfFuel.
Proof.
  intros o now fuel Hf Hn.
  apply (and_trigger_hangs _ 0 now o (TInterval (2 * us) 0 None None) (TInterval (3 * us) 0 None None) (2 * us) (3 * us)); auto.
  - assert (G : forall iv, 0 < iv -> and_free (TInterval iv 0 None None) /\ jitter_free (TInterval iv 0 None None) /\ forward (TInterval iv 0 None None) /\
              exists t, get_next 0 (TInterval iv 0 None None) (Some 0) o now = Ok (Some t)).
    { intros iv Hiv. split; [exact I|]. split; [reflexivity|]. split; [split; [exact Hiv|intros x; discriminate]|].
      exists (0 + iv). cbn [get_next]. rewrite interval_after. reflexivity. }
    constructor; [apply G; unfold us; lia|]. constructor; [apply G; unfold us; lia|constructor].
  - cbn; auto.
  - cbn; auto.
  - discriminate.
Qed.

Lemma and_date_hangs : forall o fuel,
    get_next fuel (TAnd [TDate us; TInterval (2 * us) 0 None None] None) None o 0 = Err OutOfFuel.
Proof.
  intros o fuel. cbn [get_next map].
  set (cs := [_; _]).
  assert (E : forall f k, and_loop f k cs None o (2 * us) = Err OutOfFuel).
  { induction f as [|f IH]; intros k; auto. cbn [and_loop ask_all cs]. cbn [date_next].
    assert (En : interval_next (2 * us) 0 None None (sub (sub o k) 1) None (2 * us) = Some (2 * us)) by (vm_compute; reflexivity).
    rewrite En. cbn [zmin zmax]. exact (IH (S k)). }
  destruct fuel as [|f]; auto. cbn [and_loop ask_all cs date_next].
  assert (En : interval_next (2 * us) 0 None None (sub (sub o 0) 1) None 0 = Some 0) by (vm_compute; reflexivity).
  rewrite En. cbn [zmin zmax]. change (Z.min us 0 =? Z.max us 0) with false. cbv iota.
  change (Z.max us 0) with us.
  destruct f as [|f]; auto. cbn [and_loop ask_all cs date_next].
  assert (En2 : interval_next (2 * us) 0 None None (sub (sub o 1) 1) None us = Some (2 * us)) by (vm_compute; reflexivity).
  rewrite En2. cbn [zmin zmax]. exact (E f 2%nat).
Qed.
