From Verif Require Import Prelude Calendar CalendarFacts Cron CronSpec CronIncr CronProofs CronSearch.
Open Scope Z_scope.
Ltac Zify.zify_post_hook ::= Z.div_mod_to_equations.

Lemma ceil_secs_spec t s : (ceil_secs t <= s <-> t <= s * us).
Proof. unfold ceil_secs, us. destruct (Z.ltb_spec 0 (t mod 1000000)); lia. Qed.

Lemma goodc_of_secs t : min_secs <= t <= max_secs -> goodc (secs_civil t).
Proof.
  intros H. destruct (secs_civil_spec t) as [Hv He]. split; auto.
  assert (Hmin : ~ clt (secs_civil t) (MkCivil 1 1 1 0 0 0)).
  { intros Hc. apply clt_secs in Hc; auto. rewrite He in Hc. unfold min_secs in H. lia. }
  assert (Hmax : ~ clt (MkCivil 9999 12 31 23 59 59) (secs_civil t)).
  { intros Hc. apply clt_secs in Hc; auto. rewrite He in Hc. unfold max_secs in H. lia. }
  unfold clt in *. cbn [cy cmo cd ch cmi cs] in *. lia.
Qed.

Lemma cle_secs a b : valid a = true -> valid b = true -> (cle a b <-> civ_secs a <= civ_secs b).
Proof.
  intros Ha Hb. unfold cle. rewrite <- (secs_clt a b Ha Hb). split.
  - intros [->|H]; lia.
  - intros H. destruct (Z.eq_dec (civ_secs a) (civ_secs b)) as [E|E]; [left; apply civ_secs_inj; auto|right; lia].
Qed.

Lemma matches_goodc tb c : cron_matches tb c -> goodc c.
Proof.
  intros []. split; auto. destruct m_year as (e & _ & H). destruct H as [H _]. lia.
Qed.

(** The instant from which the search starts must be representable after rounding up. *)
Definition representable (off s : Z) : Prop := min_secs <= ceil_secs (s + off * us) <= max_secs.

Lemma cron_next_spec tb off start_at end_at prev now r :
  tab_ok tb = true ->
  cron_next tb off start_at end_at 0 prev now = r ->
  let s := cron_start start_at prev now in
  match r with
  | Ok (Some t) => representable off s /\ matches_at tb off t /\ s <= t /\ (forall e, end_at = Some e -> t <= e) /\
                   (forall u, matches_at tb off u -> s <= u -> t <= u)
  | Ok None => representable off s /\ forall u, matches_at tb off u -> s <= u -> exists e, end_at = Some e /\ e < u
  | Err e => ~ representable off s \/
             (ceil_secs (s + off * us) = max_secs /\ forall u, matches_at tb off u -> ~ s <= u)
  end.
Proof.
  intros Ht Hr. cbn zeta. unfold cron_next in Hr. set (s := cron_start start_at prev now) in *. clearbody s.
  set (local := ceil_secs (s + off * us)) in *.
  destruct (Z.ltb_spec local min_secs) as [Hlo|Hlo]; cbn [orb] in Hr.
  { subst r. left. unfold representable. fold local. lia. }
  destruct (Z.ltb_spec max_secs local) as [Hhi|Hhi].
  { subst r. left. unfold representable. fold local. lia. }
  assert (Hrep : representable off s) by (unfold representable; fold local; lia).
  set (late := fun c => match end_at with Some e => e <? (civ_secs c - off) * us | None => false end) in *.
  destruct (secs_civil_spec local) as [Hv He].
  assert (Hg : goodc (secs_civil local)) by (apply goodc_of_secs; lia).
  assert (Hlate : forall a b, goodc a -> goodc b -> cle a b -> late a = true -> late b = true).
  { intros a b [Ha _] [Hb _] Hab Hl. apply cle_secs in Hab; auto. unfold late in *. destruct end_at as [e|]; [|congruence].
    unfold us in *. lia. }
  pose proof (cron_search_spec tb late (secs_civil local) Ht Hg Hlate) as Hs.
  assert (Hge : forall c, valid c = true -> (cle (secs_civil local) c <-> s <= (civ_secs c - off) * us)).
  { intros c Hc. rewrite cle_secs by auto. rewrite He. unfold local. rewrite ceil_secs_spec. unfold us. lia. }
  destruct (cron_search tb late (secs_civil local)) as [|c|e]; subst r; cbn in Hs.
  - split; auto. intros u (c & Hm & ->) Hle. pose proof (matches_goodc tb c Hm) as Hgc.
    assert (Hc : late c = true) by (apply Hs; auto; apply Hge; [apply Hgc|exact Hle]).
    unfold late in Hc. destruct end_at as [e|]; [|congruence]. exists e; split; auto. unfold us in *. lia.
  - destruct Hs as (Hgc & Hm & Hsc & Hl & Hno).
    assert (Et : match end_at with
             | Some e => Z.min ((civ_secs c - off) * us + 0) e
             | None => (civ_secs c - off) * us + 0 end = (civ_secs c - off) * us).
    { unfold late in Hl. destruct end_at as [e|]; lia. }
    rewrite Et. split; auto. split; [exists c; auto|]. split; [apply Hge; auto; apply Hgc|]. split.
    + intros e Ee. unfold late in Hl. rewrite Ee in Hl. lia.
    + intros u (c' & Hm' & ->) Hle. pose proof (matches_goodc tb c' Hm') as Hgc'.
      assert (Hcc : cle (secs_civil local) c') by (apply Hge; [apply Hgc'|exact Hle]).
      destruct (clt_total c c') as [Hc|[->|Hc]].
      * apply clt_secs in Hc; try apply Hgc; try apply Hgc'. unfold us. lia.
      * unfold us; lia.
      * exfalso. apply (Hno c'); auto.
  - destruct Hs as (-> & Hlast & Hno). right. split.
    + unfold last_second in Hlast. rewrite <- He, Hlast. reflexivity.
    + intros u (c' & Hm' & ->) Hle. pose proof (matches_goodc tb c' Hm') as Hgc'.
      apply (Hno c'); auto. apply Hge; [apply Hgc'|exact Hle].
Qed.

(** with jitter: same search, then a delay, capped by the end date *)
Lemma cron_next_jitter tb off start_at end_at j prev now : 0 <= j ->
  cron_next tb off start_at end_at j prev now =
  match cron_next tb off start_at end_at 0 prev now with
  | Ok (Some t) => Ok (Some (match end_at with Some e => Z.min (t + j) e | None => t + j end))
  | r => r
  end.
Proof.
  intros Hj. unfold cron_next. destruct ((_ <? _) || (_ <? _)); [reflexivity|].
  set (late := fun c => match end_at with Some e => e <? (civ_secs c - off) * us | None => false end).
  destruct (cron_search tb late _) as [|c|e] eqn:E; auto.
  destruct end_at as [e|]; [|now rewrite Z.add_0_r].
  do 2 f_equal. lia.
Qed.

Lemma cron_least_match (tb : crontab) (off : Z) (start_at end_at prev : option Z) (now : Z) (r : result (option Z)) :
    tab_ok tb = true ->
    cron_next tb off start_at end_at 0 prev now = r ->
    let s := match prev with
             | Some p => if now <? p then now else p + 1
             | None => match start_at with Some x => Z.max now x | None => now end
             end in
    match r with
    | Ok (Some t) => matches_at tb off t /\ s <= t /\ (forall e, end_at = Some e -> t <= e) /\
                     (forall u, matches_at tb off u -> s <= u -> t <= u)
    | Ok None => forall u, matches_at tb off u -> s <= u -> exists e, end_at = Some e /\ e < u
    | Err _ => ~ representable off s \/
               (ceil_secs (s + off * us) = max_secs /\ forall u, matches_at tb off u -> ~ s <= u)
    end.
Proof.
  intros Ht Hr. pose proof (cron_next_spec tb off start_at end_at prev now r Ht Hr) as H. cbn zeta in *.
  assert (E : cron_start start_at prev now = match prev with
             | Some p => if now <? p then now else p + 1
             | None => match start_at with Some x => Z.max now x | None => now end end).
  { unfold cron_start. destruct prev as [p|]; auto. destruct (Z.ltb_spec now p); destruct (Z.eqb_spec (Z.min now (p + 1)) p); lia. }
  rewrite E in H. destruct r as [[t|]|e]; tauto.
Qed.

Lemma cron_search_no_fuel tb late c : tab_ok tb = true -> goodc c ->
  (forall a b, goodc a -> goodc b -> cle a b -> late a = true -> late b = true) ->
  cron_search tb late c <> CRaise OtherError.
Proof.
  intros Ht Hg Hl E. pose proof (cron_search_spec tb late c Ht Hg Hl) as H. rewrite E in H. destruct H as [H _]. discriminate.
Qed.

Lemma cron_terminates (tb : crontab) (off : Z) (start_at end_at prev : option Z) (now j : Z) :
    tab_ok tb = true -> 0 <= j ->
    cron_next tb off start_at end_at j prev now <> Err OtherError /\
    (forall p t, prev = Some p -> p <= now -> cron_next tb off start_at end_at j prev now = Ok (Some t) -> p < t).
Proof.
  intros Ht Hj. split.
  - unfold cron_next. set (s := cron_start start_at prev now). set (local := ceil_secs (s + off * us)).
    destruct (Z.ltb_spec local min_secs) as [Hlo|Hlo]; cbn [orb]; [discriminate|].
    destruct (Z.ltb_spec max_secs local) as [Hhi|Hhi]; [discriminate|].
    set (late := fun c => match end_at with Some e => e <? (civ_secs c - off) * us | None => false end).
    assert (Hg : goodc (secs_civil local)) by (apply goodc_of_secs; lia).
    assert (Hlate : forall a b, goodc a -> goodc b -> cle a b -> late a = true -> late b = true).
    { intros a b [Ha _] [Hb _] Hab Hl. apply cle_secs in Hab; auto. unfold late in *. destruct end_at as [e|]; [|congruence].
      unfold us in *. lia. }
    pose proof (cron_search_no_fuel tb late (secs_civil local) Ht Hg Hlate) as Hn.
    destruct (cron_search tb late (secs_civil local)); congruence.
  - intros p t -> Hp. rewrite cron_next_jitter by auto.
    pose proof (cron_next_spec tb off start_at end_at (Some p) now _ Ht eq_refl) as Hs. cbn zeta in Hs.
    destruct (cron_next tb off start_at end_at 0 (Some p) now) as [[u|]|err]; try discriminate.
    destruct Hs as (_ & _ & Hge & He & _). intros [= <-].
    assert (p < cron_start start_at (Some p) now) by (unfold cron_start; destruct (Z.eqb_spec (Z.min now (p + 1)) p); lia).
    destruct end_at as [x|]; [specialize (He x eq_refl)|]; lia.
Qed.
