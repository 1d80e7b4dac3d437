From Verif Require Import Prelude Calendar CalendarFacts Cron CronSpec CronIncr CronProofs.
Open Scope Z_scope.
Ltac Zify.zify_post_hook ::= Z.div_mod_to_equations.

Definition goodc (c : civil) : Prop := valid c = true /\ 1 <= cy c <= 9999.

Lemma set_closed c k nv : goodc c -> 0 <= k <= 7 -> freal k = true ->
  fvalue k c < nv -> fmin k <= nv <= fmax k c ->
  exists c', set_field_value c k nv = Ok c' /\ goodc c' /\ clt c c' /\ agree k c c' /\ fvalue k c' = nv /\ (k < 7 -> cs c' = 0) /\
    forall x, valid x = true -> cle c x -> clt x c' -> agree k c x /\ fvalue k c <= fvalue k x < nv.
Proof.
  intros [Hv Hy] Hk Hr Hlt Hb. apply valid_iff in Hv.
  assert (Hle : forall x, cle c x -> cy c <= cy x /\ (cy c = cy x -> cmo c <= cmo x /\ (cmo c = cmo x -> cd c <= cd x /\
     (cd c = cd x -> ch c <= ch x /\ (ch c = ch x -> cmi c <= cmi x /\ (cmi c = cmi x -> cs c <= cs x)))))).
  { intros x [->|H]; [lia|unfold clt in H; lia]. }
  assert (Hc : k = 0 \/ k = 1 \/ k = 2 \/ k = 3 \/ k = 4 \/ k = 5 \/ k = 6 \/ k = 7) by lia.
  pose proof (mdays_bounds nv 1) as M1. pose proof (mdays_bounds (cy c) nv) as M2.
  unfold set_field_value, goodc.
  destruct Hc as [->|[->|[->|[->|[->|[->|[->| ->]]]]]]]; cbn in Hr; try congruence;
    cbn [fvalue fmin fmax fmax_const Z.eqb Z.ltb Z.compare Pos.compare Pos.compare_cont Pos.eqb] in *;
    match goal with |- exists c', (if ?b then Ok ?v else _) = _ /\ _ => exists v; assert (Hvv : valid v = true) end;
    try (apply valid_iff; cbn [cy cmo cd ch cmi cs]; lia);
    (split; [rewrite Hvv; cbn [cy cmo cd ch cmi cs];
             match goal with |- (if ?b then _ else _) = _ => replace b with true by lia end; reflexivity|]);
    (split; [split; [exact Hvv|cbn [cy]; lia]|]);
    (split; [unfold clt; cbn [cy cmo cd ch cmi cs]; lia|]);
    (split; [unfold agree; cbn [cy cmo cd ch cmi cs]; lia|]);
    (split; [reflexivity|]);
    (split; [cbn [cs]; lia|]);
    intros x Hx Hcx Hxc; apply valid_iff in Hx; specialize (Hle x Hcx); unfold clt in Hxc; unfold agree;
    cbn [cy cmo cd ch cmi cs] in *; clear Hcx; lia.
Qed.

Lemma cle_refl c : cle c c. Proof. left; reflexivity. Qed.
Lemma clt_irrefl c : ~ clt c c. Proof. unfold clt; lia. Qed.
Lemma clt_trans a b c : clt a b -> clt b c -> clt a c.
Proof. unfold clt; lia. Qed.
Lemma cle_clt_trans a b c : cle a b -> clt b c -> clt a c.
Proof. intros [->|H]; auto. intros; eapply clt_trans; eauto. Qed.
Lemma cle_trans a b c : cle a b -> cle b c -> cle a c.
Proof. intros [->|H]; auto. intros [->|H2]; right; auto. eapply clt_trans; eauto. Qed.

(** one loop iteration *)
Lemma cron_move_spec tb c k : tab_ok tb = true -> goodc c -> 0 <= k <= 7 ->
  (forall f, 0 <= f < k -> fmatch tb f c) ->
  (exists c' k', cron_move tb c k = Ok (c', k') /\ goodc c' /\ 0 <= k' <= 8 /\
      (clt c c' \/ (c' = c /\ k' = k + 1)) /\ (c' = c \/ cs c' = 0 \/ k' = 8) /\
      (forall f, 0 <= f < k' -> fmatch tb f c') /\
      (forall x, cle c x -> clt x c' -> ~ cron_matches tb x))
  \/ (exists k', cron_move tb c k = Ok (MkCivil 1970 1 1 0 0 0, k') /\ k' < 0 /\
      (forall x, cy x <= 9999 -> cle c x -> ~ cron_matches tb x))
  \/ (cron_move tb c k = Err IndexError /\ last_second c /\
      (forall x, cy x <= 9999 -> cle c x -> ~ cron_matches tb x)).
Proof.
  intros Ht Hgood Hk Hpre. pose proof Hgood as [Hv Hy]. unfold cron_move.
  assert (Hinc : forall j, -1 <= j <= 7 ->
     (forall x, valid x = true -> cle c x -> agree (j + 1) c x -> ~ cron_matches tb x) -> j <= k -> j <= 6 ->
     (exists c' k', increment_field_value c j = Ok (c', k') /\ goodc c' /\ 0 <= k' <= 8 /\
      (clt c c' \/ (c' = c /\ k' = k + 1)) /\ (c' = c \/ cs c' = 0 \/ k' = 8) /\
      (forall f, 0 <= f < k' -> fmatch tb f c') /\
      (forall x, cle c x -> clt x c' -> ~ cron_matches tb x))
     \/ (exists k', increment_field_value c j = Ok (MkCivil 1970 1 1 0 0 0, k') /\ k' < 0 /\
      (forall x, cy x <= 9999 -> cle c x -> ~ cron_matches tb x))
     \/ (increment_field_value c j = Err IndexError /\ last_second c /\
      (forall x, cy x <= 9999 -> cle c x -> ~ cron_matches tb x))).
  { intros j Hj Hskip Hjk Hj6. pose proof (increment_closed c j Hv Hy Hj) as Hcl.
    pose proof (inc_at_spec j c Hv Hy Hj) as Hsp.
    destruct (inc_at j c) as [[c' k']|].
    - destruct Hsp as (H1 & H2 & H3 & H4 & H5 & H6 & H8 & H7). left. exists c', k'.
      split; [exact Hcl|]. split; [split; auto|]. split; [lia|]. split; [left; auto|]. split; [auto|]. split.
      + intros f Hf. eapply fmatch_agree; [auto|lia| |apply Hpre; lia]. eapply agree_le; [|exact H5]. lia.
      + intros x Hcx Hxc Hm. assert (Hvx : valid x = true) by (destruct Hm; auto).
        apply (Hskip x Hvx Hcx); auto.
    - assert (Hno : forall x, cy x <= 9999 -> cle c x -> ~ cron_matches tb x).
      { intros x Hyx Hcx Hm. assert (Hvx : valid x = true) by (destruct Hm; auto). apply (Hskip x Hvx Hcx); auto. }
      destruct Hcl as [(k' & Hcl & Hneg)|(Hcl & Hlast & _)].
      + right; left. exists k'. auto.
      + right; right. auto. }
  pose proof (field_next_least tb k c Ht Hk Hv) as Hleast.
  destruct (field_next k (tfield tb k) c) as [nv|]; cbn in Hleast.
  2:{ apply Hinc; try lia. intros x Hvx Hcx Hag Hm. apply cron_matches_iff in Hm as [_ Hm]; auto.
      specialize (Hm k ltac:(lia)). replace (k - 1 + 1) with k in Hag by lia.
      apply (Hleast (fvalue k x)).
      - destruct (freal k) eqn:Er.
        + assert (Hcs : k = 0 \/ k = 1 \/ k = 2 \/ k = 5 \/ k = 6 \/ k = 7).
          { unfold freal in Er. lia. }
          unfold agree in Hag. destruct Hcx as [->|Hcx]; [lia|]. unfold clt in Hcx.
          destruct Hcs as [->|[->|[->|[->|[->| ->]]]]]; cbn; lia.
        + assert (k = 3 \/ k = 4) by (unfold freal in Er; lia).
          assert (agree (k + 1) c x) by (unfold agree in *; lia).
          rewrite (fvalue_agree k c x); auto; lia.
      - eapply fsem_agree; [auto|auto| |exact Hm]. apply agree_sym; auto. }
  destruct Hleast as (Hge & Hsem & Hmin).
  destruct (Z.ltb_spec (fvalue k c) nv) as [Hlt|Hnlt].
  2:{ assert (nv = fvalue k c) by lia. subst nv. left. exists c, (k + 1).
      split; [reflexivity|]. split; auto. split; [lia|]. split; [right; auto|]. split; [auto|]. split.
      - intros f Hf. destruct (Z.eq_dec f k) as [->|Hne]; [exact Hsem|apply Hpre; lia].
      - intros x Hcx Hxc. exfalso. apply (clt_irrefl c). eapply cle_clt_trans; eauto. }
  destruct (freal k) eqn:Er.
  - pose proof (fsem_range tb k c nv Ht Hk Hv Hsem) as Hrange.
    destruct (set_closed c k nv Hgood Hk Er Hlt Hrange) as (c' & Hset & Hg' & Hcc & Hag & Hfv & Hcs & Hskip).
    rewrite Hset. left. exists c', (k + 1). split; [reflexivity|]. split; auto. split; [lia|]. split; auto.
    split; [destruct (Z.eq_dec k 7) as [->|]; [right; right; reflexivity|right; left; apply Hcs; lia]|]. split.
    + intros f Hf. destruct (Z.eq_dec f k) as [->|Hne].
      * unfold fmatch. rewrite Hfv. eapply fsem_agree; eauto.
      * eapply fmatch_agree; [auto|lia| |apply Hpre; lia]. eapply agree_le; [|exact Hag]. lia.
    + intros x Hcx Hxc Hm. assert (Hvx : valid x = true) by (destruct Hm; auto).
      destruct (Hskip x Hvx Hcx Hxc) as [Hagx Hbx].
      apply cron_matches_iff in Hm as [_ Hm]; auto. specialize (Hm k ltac:(lia)).
      apply (Hmin (fvalue k x) Hbx). eapply fsem_agree; [auto|auto| |exact Hm]. apply agree_sym; auto.
  - apply Hinc; try lia; [|unfold freal in Er; lia]. intros x Hvx Hcx Hag Hm. apply cron_matches_iff in Hm as [_ Hm]; auto.
    specialize (Hm k ltac:(lia)). apply (Hmin (fvalue k c)); [lia|].
    rewrite (fvalue_agree k c x); auto. eapply fsem_agree; [auto|auto| |exact Hm].
    apply agree_sym. eapply agree_le; [|exact Hag]. lia.
Qed.

(** ** iteration with binary fuel *)
Section Iter.
  Context {S R : Type} (f : S -> S + R) (I : S -> Prop) (mu : S -> Z).
  Hypothesis Hstep : forall s s', I s -> f s = inl s' -> I s' /\ mu s' < mu s.
  Lemma iter_pos_inl p : forall s s', I s -> iter_pos p f s = inl s' -> I s' /\ mu s' <= mu s - Z.pos p.
  Proof.
    induction p as [q IH|q IH|]; intros s s' HI H; cbn in H.
    - destruct (f s) as [s1|] eqn:E1; [|congruence]. apply Hstep in E1 as [HI1 Hm1]; auto.
      destruct (iter_pos q f s1) as [s2|] eqn:E2; [|congruence]. apply IH in E2 as [HI2 Hm2]; auto.
      apply IH in H as [HI3 Hm3]; auto. split; auto. lia.
    - destruct (iter_pos q f s) as [s2|] eqn:E2; [|congruence]. apply IH in E2 as [HI2 Hm2]; auto.
      apply IH in H as [HI3 Hm3]; auto. split; auto. lia.
    - apply Hstep in H as [HI1 Hm1]; auto. split; auto. lia.
  Qed.
  Lemma iter_pos_inr (Q : R -> Prop) (HQ : forall s r, I s -> f s = inr r -> Q r) p :
    forall s r, I s -> iter_pos p f s = inr r -> Q r.
  Proof.
    induction p as [q IH|q IH|]; intros s r HI H; cbn in H.
    - destruct (f s) as [s1|] eqn:E1; [|inversion H; subst; eauto]. pose proof (Hstep _ _ HI E1) as [HI1 _].
      destruct (iter_pos q f s1) as [s2|] eqn:E2; [|inversion H; subst; eauto].
      apply iter_pos_inl in E2 as [HI2 _]; eauto.
    - destruct (iter_pos q f s) as [s2|] eqn:E2; [|inversion H; subst; eauto].
      apply iter_pos_inl in E2 as [HI2 _]; eauto.
    - eauto.
  Qed.
  Lemma iter_pos_stops p s : I s -> (forall s', I s' -> 0 <= mu s') -> mu s < Z.pos p ->
    exists r, iter_pos p f s = inr r.
  Proof.
    intros HI Hpos Hlt. destruct (iter_pos p f s) as [s'|r] eqn:E; eauto.
    apply iter_pos_inl in E as [HI' Hm]; auto. specialize (Hpos s' HI'). lia.
  Qed.
End Iter.

(** a number increasing along the calendar, used only as termination measure *)
Definition cnum (c : civil) : Z := ((((cy c * 13 + cmo c) * 32 + cd c) * 24 + ch c) * 60 + cmi c) * 60 + cs c.
Lemma cnum_mono a b : valid a = true -> valid b = true -> clt a b -> cnum a < cnum b.
Proof.
  rewrite !valid_iff. intros Ha Hb H. unfold cnum, clt in *.
  pose proof (mdays_bounds (cy a) (cmo a)). pose proof (mdays_bounds (cy b) (cmo b)). lia.
Qed.
Lemma cnum_bounds c : goodc c -> 0 <= cnum c <= 2 ^ 40.
Proof.
  intros [Hv Hy]. apply valid_iff in Hv. unfold cnum. pose proof (mdays_bounds (cy c) (cmo c)).
  change (2 ^ 40) with 1099511627776. lia.
Qed.

Section Search.
  Context (tb : crontab) (late : civil -> bool) (start : civil).
  Hypothesis Htab : tab_ok tb = true.
  Hypothesis Hstart : goodc start.
  (** lateness is monotone along the calendar *)
  Hypothesis Hlate : forall a b, goodc a -> goodc b -> cle a b -> late a = true -> late b = true.

  Definition SInv (st : civil * Z) : Prop :=
    let (c, k) := st in
    (k < 0 /\ (forall x, cy x <= 9999 -> cle start x -> ~ cron_matches tb x))
    \/ (0 <= k <= 8 /\ goodc c /\ cle start c /\ (st = (start, 0) \/ late c = false) /\ (c = start \/ cs c = 0 \/ k = 8) /\
        (forall f, 0 <= f < k -> fmatch tb f c) /\
        (forall x, cle start x -> clt x c -> ~ cron_matches tb x)).
  Definition smu (st : civil * Z) : Z :=
    let (c, k) := st in if k <? 0 then 0 else (2 ^ 40 - cnum c) * 10 + (9 - k).

  Definition SRes (r : cres) : Prop :=
    match r with
    | CFound c => goodc c /\ cron_matches tb c /\ cle start c /\ late c = false /\
                  (forall x, cle start x -> clt x c -> ~ cron_matches tb x)
    | CNone => forall x, goodc x -> cle start x -> cron_matches tb x -> late x = true
    | CRaise e => e = IndexError /\ last_second start /\ forall x, goodc x -> cle start x -> ~ cron_matches tb x
    end.

  Lemma SInv_init : SInv (start, 0).
  Proof.
    right. split; [lia|]. split; [exact Hstart|]. split; [left; reflexivity|]. split; [left; reflexivity|].
    split; [auto|]. split; [intros; lia|]. intros x H1 H2. exfalso. apply (clt_irrefl start). eapply cle_clt_trans; eauto.
  Qed.

  Lemma between x c : goodc x -> cle start x -> (clt x c \/ cle c x).
  Proof. intros _ _. destruct (clt_total x c) as [H|[H|H]]; [left; auto|right; left; auto|right; right; auto]. Qed.

  Lemma SInv_step st : SInv st ->
    match cron_step tb late st with
    | inl st' => SInv st' /\ smu st' < smu st
    | inr r => SRes r
    end.
  Proof.
    destruct st as [c k]. intros HI. unfold cron_step.
    destruct HI as [[Hneg Hno]|(Hk & Hg & Hsc & Hl & Hcs & Hpre & Hskip)].
    { replace ((0 <=? k) && (k <? 8)) with false by lia. replace (0 <=? k) with false by lia.
      intros x [Hvx Hyx] Hsx Hm. exfalso. apply (Hno x); auto; lia. }
    destruct (Z.eq_dec k 8) as [->|Hk8].
    { replace ((0 <=? 8) && (8 <? 8)) with false by lia. replace (0 <=? 8) with true by lia.
      cbn. split; auto. split; [apply cron_matches_iff; auto; split; [apply Hg|intros; apply Hpre; lia]|].
      split; auto. split; auto. destruct Hl as [Hl|Hl]; auto. inversion Hl. }
    replace ((0 <=? k) && (k <? 8)) with true by lia.
    assert (Hall : forall x, cle start x -> clt x c -> ~ cron_matches tb x) by auto.
    destruct (cron_move_spec tb c k Htab Hg ltac:(lia) Hpre)
      as [(c' & k' & Hm & Hg' & Hk' & Hadv & Hcs' & Hpre' & Hskip')|[(k' & Hm & Hneg & Hno)|(Hm & Hlast & Hno)]];
      rewrite Hm.
    - assert (Hcc : cle c c') by (destruct Hadv as [?|[-> _]]; [right; auto|left; auto]).
      assert (Hnone : forall x, cle start x -> clt x c' -> ~ cron_matches tb x).
      { intros x Hsx Hxc. destruct (clt_total x c) as [H|[->|H]].
        - apply Hall; auto.
        - apply Hskip'; auto. left; auto.
        - apply Hskip'; auto. right; auto. }
      destruct (late c') eqn:El.
      + cbn. intros x Hgx Hsx Hmx. destruct (between x c' Hgx Hsx) as [H|H].
        * exfalso. eapply Hnone; eauto.
        * apply (Hlate c' x); auto.
      + split.
        * right. split; [auto|]. split; [auto|]. split; [eapply cle_trans; eauto|]. split; [right; auto|].
          split; [destruct Hcs' as [->|[?|?]]; auto; destruct Hcs as [?|[?|?]]; auto; lia|]. split; auto.
        * unfold smu. replace (k' <? 0) with false by lia. replace (k <? 0) with false by lia.
          pose proof (cnum_bounds c Hg). pose proof (cnum_bounds c' Hg').
          destruct Hadv as [Hlt|[-> ->]]; [|lia].
          pose proof (cnum_mono c c' (proj1 Hg) (proj1 Hg') Hlt). lia.
    - assert (Hnone : forall x, cy x <= 9999 -> cle start x -> ~ cron_matches tb x).
      { intros x Hy Hsx. destruct (clt_total x c) as [H|[->|H]].
        - apply Hall; auto.
        - apply Hno; auto. left; auto.
        - apply Hno; auto. right; auto. }
      destruct (late (MkCivil 1970 1 1 0 0 0)).
      + cbn. intros x [_ Hyx] Hsx Hmx. exfalso. eapply Hnone; eauto. lia.
      + split; [left; auto|]. unfold smu. replace (k' <? 0) with true by lia. replace (k <? 0) with false by lia.
        pose proof (cnum_bounds c Hg). lia.
    - cbn. split; auto.
      assert (Hnone : forall x, goodc x -> cle start x -> ~ cron_matches tb x).
      { intros x [_ Hyx] Hsx. destruct (clt_total x c) as [H|[->|H]].
        - apply Hall; auto.
        - apply Hno; auto; [lia|left; auto].
        - apply Hno; auto; [lia|right; auto]. }
      split; auto. unfold last_second in *. subst c. cbn in Hcs.
      destruct Hcs as [<-|[H|H]]; [reflexivity|lia|lia].
  Qed.

  Theorem cron_search_spec : SRes (cron_search tb late start).
  Proof.
    unfold cron_search.
    assert (Hs : forall s s', SInv s -> cron_step tb late s = inl s' -> SInv s' /\ smu s' < smu s).
    { intros s s' HI E. pose proof (SInv_step s HI) as H. rewrite E in H. exact H. }
    assert (Hr : forall s r, SInv s -> cron_step tb late s = inr r -> SRes r).
    { intros s r HI E. pose proof (SInv_step s HI) as H. rewrite E in H. exact H. }
    destruct (iter_pos_stops (cron_step tb late) SInv smu Hs cron_fuel (start, 0) SInv_init) as [r Hres].
    - intros [c k] HI. unfold smu. destruct (Z.ltb_spec k 0); [lia|].
      destruct HI as [[Hn _]|(Hk & Hg & _)]; [lia|]. pose proof (cnum_bounds c Hg). lia.
    - unfold smu. cbn [Z.ltb Z.compare]. pose proof (cnum_bounds start Hstart).
      change (2 ^ 40) with 1099511627776 in *. unfold cron_fuel. lia.
    - rewrite Hres. eapply iter_pos_inr; [exact Hs|exact Hr|exact SInv_init|exact Hres].
  Qed.
End Search.
