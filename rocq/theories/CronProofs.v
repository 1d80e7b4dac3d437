From Verif Require Import Prelude Calendar CalendarFacts Cron CronSpec CronIncr.
Open Scope Z_scope.
Ltac Zify.zify_post_hook ::= Z.div_mod_to_equations.

(** ** Expressions *)

Lemma least_from_ext (P Q : Z -> Prop) a r : (forall v, P v <-> Q v) -> least_from P a r -> least_from Q a r.
Proof.
  intros H. destruct r as [v|]; cbn.
  - intros (H1 & H2 & H3). repeat split; auto; [apply H; auto|]. intros w Hw Hq. apply (H3 w Hw). apply H; auto.
  - intros H1 w Hw Hq. apply (H1 w Hw). apply H; auto.
Qed.

Lemma grid_step lo n s : 0 < n -> lo <= s ->
  let v := s + (n - (s - lo)) mod n in
  s <= v < s + n /\ on_grid lo n v /\ forall w, s <= w < v -> ~ on_grid lo n w.
Proof.
  intros Hn Hs. cbn zeta. pose proof (Z.mod_pos_bound (n - (s - lo)) n Hn) as Hb.
  pose proof (Z.div_mod (n - (s - lo)) n ltac:(lia)) as Hd.
  set (r := (n - (s - lo)) mod n) in *. set (q := (n - (s - lo)) / n) in *. clearbody r q.
  split; [lia|]. split.
  - exists (1 - q). split; nia.
  - intros w Hw (k & Hk & ->). assert (Hlt : k * n < (1 - q) * n) by nia.
    assert (Hgt : (- q) * n < k * n) by nia.
    apply Z.mul_lt_mono_pos_r in Hlt; [|exact Hn]. apply Z.mul_lt_mono_pos_r in Hgt; [|exact Hn]. lia.
Qed.

Lemma expr_next_least f e c :
  0 <= f <= 7 -> valid c = true -> expr_ok f e = true ->
  least_from (esem f e c) (fvalue f c) (expr_next f e c) /\
  (forall v, esem f e c v -> fmin f <= v <= fmax f c).
Proof.
  intros Hf Hv Hok. destruct e as [step|first last step|opt wd|]; cbn [expr_next expr_ok] in *.
  - split; [|cbn; intros v [H _]; exact H].
    unfold step_ok in Hok. set (s := Z.max (fvalue f c) (fmin f)).
    destruct step as [n|].
    + destruct (grid_step (fmin f) n s ltac:(lia) ltac:(lia)) as (H1 & H2 & H3). cbn zeta in *.
      set (v := s + (n - (s - fmin f)) mod n) in *. clearbody v.
      destruct (Z.leb_spec v (fmax f c)); cbn.
      * repeat split; try lia; auto. intros w Hw [Hb Hg]. apply (H3 w); auto. lia.
      * intros w Hw [Hb Hg]. apply (H3 w); auto. lia.
    + destruct (Z.leb_spec s (fmax f c)); cbn; unfold num_matches; [repeat split; try lia|].
      all: intros w Hw [Hb _]; lia.
  - split; [|cbn; intros v [H _]; exact H].
    rewrite !andb_true_iff in Hok. destruct Hok as [[[Hst Hmin] Hlast] _].
    assert (Emin : Z.max (fmin f) first = first) by lia. rewrite Emin.
    set (mx := match last with Some l => Z.min (fmax f c) l | None => fmax f c end).
    assert (Hmx : forall w, w <= mx <-> (w <= fmax f c /\ forall l, last = Some l -> w <= l)).
    { intros w. unfold mx. destruct last as [l|]; split; intros H.
      - split; [lia|]. intros l' El; inversion El; lia.
      - destruct H as [Ha Hb]. specialize (Hb l eq_refl). lia.
      - split; [lia|]. congruence.
      - lia. }
    clearbody mx. set (s := Z.max first (fvalue f c)).
    destruct step as [n|].
    + unfold step_ok in Hst. destruct (grid_step first n s ltac:(lia) ltac:(lia)) as (H1 & H2 & H3). cbn zeta in *.
      set (v := s + (n - (s - first)) mod n) in *. clearbody v.
      destruct (Z.leb_spec v mx) as [Hle|Hgt]; cbn.
      * apply Hmx in Hle as [Hle1 Hle2]. repeat split; try lia; auto.
        -- intros n' En; inversion En; subst; auto.
        -- intros w Hw (Hb & Hg1 & _ & Hg). apply (H3 w); auto. lia.
      * intros w Hw (Hb & Hg1 & Hg2 & Hg). apply (H3 w); auto. split; [lia|].
        assert (w <= mx) by (apply Hmx; split; auto; lia). lia.
    + destruct (Z.leb_spec s mx) as [Hle|Hgt]; cbn.
      * apply Hmx in Hle as [Hle1 Hle2]. repeat split; try lia; auto; try congruence.
        intros w Hw (Hb & Hg1 & _). lia.
      * intros w Hw (Hb & Hg1 & Hg2 & _). assert (w <= mx) by (apply Hmx; split; auto; lia). lia.
  - assert (f = 2) by lia. subst f. rewrite !andb_true_iff in Hok.
    change (fvalue 2 c) with (cd c). change (fmin 2) with 1. change (fmax 2 c) with (mdays (cy c) (cmo c)).
    split; [|cbn; intros v [H _]; exact H].
    pose proof (mdays_bounds (cy c) (cmo c)) as Hmd.
    apply valid_iff in Hv. destruct Hv as (_ & Hd & _).
    unfold month_first_weekday. set (o := ymd2ord (cy c) (cmo c) 1).
    assert (Hw : forall v, ymd2ord (cy c) (cmo c) v = o + v - 1) by (intros v; unfold o, ymd2ord; lia).
    set (md := mdays (cy c) (cmo c)) in *. set (d := cd c) in *.
    apply (least_from_ext (fun v => 1 <= v <= md /\ (o + v - 1 + 6) mod 7 = wd /\
      (if opt =? 5 then md < v + 7 else opt * 7 < v <= opt * 7 + 7))).
    { intros v. unfold esem, ord_weekday. rewrite Hw. fold md. tauto. }
    unfold ord_weekday. clearbody o md d. clear Hw.
    set (h0 := wd - (o + 6) mod 7 + 1).
    set (h := if h0 <=? 0 then h0 + 7 else h0).
    assert (Hh : 1 <= h <= 7 /\ (o + h - 1 + 6) mod 7 = wd).
    { unfold h, h0. destruct (Z.leb_spec (wd - (o + 6) mod 7 + 1) 0); lia. }
    clearbody h. clear h0.
    destruct (Z.ltb_spec opt 5).
    + replace (opt =? 5) with false by lia.
      destruct (Z.leb_spec (h + opt * 7) md), (Z.leb_spec d (h + opt * 7)); cbn [andb least_from];
        [repeat split; try lia|..]; intros w Hw1 Hw2; lia.
    + replace (opt =? 5) with true by lia.
      destruct (Z.leb_spec (h + (md - h) / 7 * 7) md), (Z.leb_spec d (h + (md - h) / 7 * 7)); cbn [andb least_from];
        [repeat split; try lia|..]; intros w Hw1 Hw2; lia.
  - assert (f = 2) by lia. subst f.
    change (fvalue 2 c) with (cd c). change (fmin 2) with 1. change (fmax 2 c) with (mdays (cy c) (cmo c)).
    pose proof (mdays_bounds (cy c) (cmo c)) as Hmd.
    apply valid_iff in Hv. cbn. split; [split; [lia|split; [reflexivity|intros; lia]]|intros; lia].
Qed.

Lemma field_next_from_least f c es : 0 <= f <= 7 -> valid c = true -> forallb (expr_ok f) es = true ->
  forall (P : Z -> Prop) s, least_from P (fvalue f c) s ->
  least_from (fun v => P v \/ exists e, In e es /\ esem f e c v) (fvalue f c) (field_next_from f c es s).
Proof.
  intros Hf Hv. induction es as [|e es IH]; intros Hok P s Hs; cbn [field_next_from].
  - destruct s as [v|]; cbn in *.
    + destruct Hs as (H1 & H2 & H3). repeat split; auto. intros w Hw [H|[e [[] _]]]. apply (H3 w); auto.
    + intros w Hw [H|[e [[] _]]]. apply (Hs w); auto.
  - cbn in Hok. apply andb_true_iff in Hok as [Hok1 Hok2].
    destruct (expr_next_least f e c Hf Hv Hok1) as [He _].
    set (s' := match s with
               | Some s0 => match expr_next f e c with
                            | Some v => if v <? s0 then Some v else Some s0
                            | None => Some s0 end
               | None => expr_next f e c end).
    assert (Hs' : least_from (fun v => P v \/ esem f e c v) (fvalue f c) s').
    { unfold s'. destruct s as [s0|], (expr_next f e c) as [v|]; cbn in *.
      - destruct Hs as (H1 & H2 & H3), He as (H4 & H5 & H6).
        destruct (Z.ltb_spec v s0); cbn; repeat split; auto; intros w Hw [H7|H7];
          try (apply (H3 w); auto; lia); apply (H6 w); auto; lia.
      - destruct Hs as (H1 & H2 & H3). repeat split; auto. intros w Hw [H7|H7]; [apply (H3 w)|apply (He w)]; auto; lia.
      - destruct He as (H1 & H2 & H3). repeat split; auto. intros w Hw [H7|H7]; [apply (Hs w)|apply (H3 w)]; auto; lia.
      - intros w Hw [H7|H7]; [apply (Hs w)|apply (He w)]; auto; lia. }
    specialize (IH Hok2 _ _ Hs').
    assert (Hequiv : forall v, ((P v \/ esem f e c v) \/ (exists e0, In e0 es /\ esem f e0 c v)) <->
                          (P v \/ exists e0, In e0 (e :: es) /\ esem f e0 c v)).
    { intros v. split.
      - intros [[H|H]|(e0 & H1 & H2)]; auto; right; [exists e|exists e0]; cbn; auto.
      - intros [H|(e0 & [->|H1] & H2)]; auto. right; exists e0; auto. }
    fold s'. destruct (field_next_from f c es s') as [v|]; cbn in *.
    + destruct IH as (H1 & H2 & H3). repeat split; auto; [apply Hequiv; auto|].
      intros w Hw H. apply Hequiv in H. apply (H3 w); auto.
    + intros w Hw H. apply Hequiv in H. apply (IH w); auto.
Qed.

Definition fsem (tb : crontab) (f : Z) (c : civil) (v : Z) : Prop :=
  exists e, In e (tfield tb f) /\ esem f e c v.

Lemma tab_ok_field tb f : tab_ok tb = true -> 0 <= f <= 7 -> forallb (expr_ok f) (tfield tb f) = true.
Proof.
  intros H Hf. unfold tab_ok in H. rewrite forallb_forall in H.
  assert (HIn : In f [0;1;2;3;4;5;6;7]) by (cbn; lia).
  specialize (H f HIn). unfold field_ok in H. destruct (tfield tb f); auto.
Qed.

Lemma field_next_least tb f c : tab_ok tb = true -> 0 <= f <= 7 -> valid c = true ->
  least_from (fsem tb f c) (fvalue f c) (field_next f (tfield tb f) c).
Proof.
  intros Ht Hf Hv. unfold field_next.
  pose proof (field_next_from_least f c (tfield tb f) Hf Hv (tab_ok_field tb f Ht Hf) (fun _ => False) None) as H.
  specialize (H ltac:(cbn; auto)).
  destruct (field_next_from f c (tfield tb f) None) as [v|]; cbn in *.
  - destruct H as (H1 & H2 & H3). repeat split; auto; [destruct H2 as [[]|H2]; exact H2|].
    intros w Hw Hc. apply (H3 w); auto.
  - intros w Hw Hc. apply (H w); auto.
Qed.

Lemma fsem_range tb f c v : tab_ok tb = true -> 0 <= f <= 7 -> valid c = true -> fsem tb f c v ->
  fmin f <= v <= fmax f c.
Proof.
  intros Ht Hf Hv (e & He & Hs). pose proof (tab_ok_field tb f Ht Hf) as Hok.
  rewrite forallb_forall in Hok. eapply expr_next_least; eauto.
Qed.

(** ** matching per field *)
Definition fmatch (tb : crontab) (f : Z) (c : civil) : Prop := fsem tb f c (fvalue f c).

Lemma cron_matches_iff tb c : tab_ok tb = true ->
  (cron_matches tb c <-> (valid c = true /\ forall f, 0 <= f <= 7 -> fmatch tb f c)).
Proof.
  intros Ht.
  assert (Hnum : forall f e, f <> 2 -> 0 <= f <= 7 -> In e (tfield tb f) ->
             (esem f e c (fvalue f c) <-> num_matches (fmin f) (fmax_const f) e (fvalue f c))).
  { intros f e Hf Hr HIn. pose proof (tab_ok_field tb f Ht Hr) as Hok. rewrite forallb_forall in Hok.
    specialize (Hok e HIn). unfold esem, fmax. replace (f =? 2) with false by lia.
    destruct e; try tauto; cbn in Hok; lia. }
  assert (Hnum' : forall f, f <> 2 -> 0 <= f <= 7 ->
             (fmatch tb f c <-> some_expr (fun e => num_matches (fmin f) (fmax_const f) e (fvalue f c)) (tfield tb f))).
  { intros f Hf Hr. unfold fmatch, fsem, some_expr. split; intros (e & He & Hs); exists e; split; auto;
      apply Hnum; auto. }
  assert (Hday : valid c = true -> (fmatch tb 2 c <-> some_expr (fun e => day_matches e c) (t_day tb))).
  { intros Hv. apply valid_iff in Hv. unfold fmatch, fsem, some_expr. change (tfield tb 2) with (t_day tb).
    change (fvalue 2 c) with (cd c).
    split; intros (e & He & Hs); exists e; split; auto; destruct e as [s|a b s|o w|]; cbn in *; auto.
    - destruct Hs as (_ & H1 & H2); split; auto.
    - destruct Hs as (H1 & H2). repeat split; auto; lia. }
  split.
  - intros []. split; auto. intros f Hf.
    assert (Hc : f = 0 \/ f = 1 \/ f = 2 \/ f = 3 \/ f = 4 \/ f = 5 \/ f = 6 \/ f = 7) by lia.
    repeat match goal with H : _ \/ _ |- _ => destruct H as [->|H] end; subst;
      try (apply Hnum'; [lia|lia|assumption]). apply Hday; auto.
  - intros [Hv H]. constructor; auto.
    + apply (Hnum' 0); auto; try lia. apply H; lia.
    + apply (Hnum' 1); auto; try lia. apply H; lia.
    + apply Hday; auto. apply H; lia.
    + apply (Hnum' 3); auto; try lia. apply H; lia.
    + apply (Hnum' 4); auto; try lia. apply H; lia.
    + apply (Hnum' 5); auto; try lia. apply H; lia.
    + apply (Hnum' 6); auto; try lia. apply H; lia.
    + apply (Hnum' 7); auto; try lia. apply H; lia.
Qed.

(** ** prefixes: [agree k a b] = the fields before number [k] agree *)
Definition agree (k : Z) (a b : civil) : Prop :=
  (0 < k -> cy a = cy b) /\ (1 < k -> cmo a = cmo b) /\ (2 < k -> cd a = cd b) /\
  (5 < k -> ch a = ch b) /\ (6 < k -> cmi a = cmi b) /\ (7 < k -> cs a = cs b).
Definition cle (a b : civil) : Prop := a = b \/ clt a b.

Lemma fsem_agree tb k a b v : tab_ok tb = true -> 0 <= k <= 7 -> agree k a b ->
  fsem tb k a v -> fsem tb k b v.
Proof.
  intros Ht Hk (H0 & H1 & _) (e & He & Hs). exists e; split; auto.
  pose proof (tab_ok_field tb k Ht Hk) as Hok. rewrite forallb_forall in Hok. specialize (Hok e He).
  destruct (Z_le_gt_dec 2 k) as [H2|H2].
  - specialize (H0 ltac:(lia)). specialize (H1 ltac:(lia)).
    destruct e; cbn in *; unfold fmax in *; rewrite ?H0, ?H1 in *; auto.
  - destruct e; cbn in *; unfold fmax in *; replace (k =? 2) with false in * by lia; auto; lia.
Qed.

Lemma fvalue_agree k a b : 0 <= k <= 7 -> agree (k + 1) a b -> fvalue k a = fvalue k b.
Proof.
  intros Hk (H0 & H1 & H2 & H3 & H4 & H5).
  assert (Hc : k = 0 \/ k = 1 \/ k = 2 \/ k = 3 \/ k = 4 \/ k = 5 \/ k = 6 \/ k = 7) by lia.
  repeat match goal with H : _ \/ _ |- _ => destruct H as [->|H] end; subst; cbn; auto; try (apply H0; lia).
  - apply H1; lia.
  - apply H2; lia.
  - unfold isoweek. rewrite (H0 ltac:(lia)), (H1 ltac:(lia)), (H2 ltac:(lia)). reflexivity.
  - unfold weekday. rewrite (H0 ltac:(lia)), (H1 ltac:(lia)), (H2 ltac:(lia)). reflexivity.
  - apply H3; lia.
  - apply H4; lia.
  - apply H5; lia.
Qed.

Lemma agree_le k k' a b : k' <= k -> agree k a b -> agree k' a b.
Proof. unfold agree. intros H (H0 & H1 & H2 & H3 & H4 & H5). repeat split; intros; auto with zarith. Qed.
Lemma agree_sym k a b : agree k a b -> agree k b a.
Proof. unfold agree. intuition. Qed.

Lemma fmatch_agree tb k a b : tab_ok tb = true -> 0 <= k <= 7 -> agree (k + 1) a b ->
  fmatch tb k a -> fmatch tb k b.
Proof.
  intros Ht Hk Ha Hm. unfold fmatch in *. rewrite <- (fvalue_agree k a b) by auto.
  eapply fsem_agree; eauto. eapply agree_le; [|exact Ha]. lia.
Qed.

(** what an increment skips *)
Lemma inc_at_spec j c : valid c = true -> 1 <= cy c <= 9999 -> -1 <= j <= 7 ->
  match inc_at j c with
  | Some (c', k') => valid c' = true /\ 1 <= cy c' <= 9999 /\ clt c c' /\ 0 <= k' <= j /\ agree k' c c' /\
      freal k' = true /\ (j <= 6 -> cs c' = 0) /\
      forall x, valid x = true -> cle c x -> clt x c' -> agree (j + 1) c x
  | None => forall x, valid x = true -> cy x <= 9999 -> cle c x -> agree (j + 1) c x
  end.
Proof.
  intros Hv Hy Hj. apply valid_iff in Hv.
  pose proof (mdays_bounds (cy c) (cmo c)) as Hmd. pose proof (mdays_bounds (cy c) (cmo c + 1)) as Hmd'.
  pose proof (mdays_bounds (cy c + 1) 1) as Hmd''.
  assert (Hcong : forall x, cy x = cy c -> cmo x = cmo c -> mdays (cy x) (cmo x) = mdays (cy c) (cmo c))
    by (intros; congruence).
  assert (Hc : j = -1 \/ j = 0 \/ j = 1 \/ (2 <= j <= 4) \/ j = 5 \/ j = 6 \/ j = 7) by lia.
  assert (Hle : forall x, cle c x -> cy c <= cy x /\ (cy c = cy x -> cmo c <= cmo x /\ (cmo c = cmo x -> cd c <= cd x /\
     (cd c = cd x -> ch c <= ch x /\ (ch c = ch x -> cmi c <= cmi x /\ (cmi c = cmi x -> cs c <= cs x)))))).
  { intros x [->|H]; [lia|unfold clt in H; lia]. }
  destruct (inc_at j c) as [[c' k']|] eqn:E.
  - assert (Hval : valid c' = true /\ 1 <= cy c' <= 9999 /\ clt c c' /\ 0 <= k' <= j /\ agree k' c c' /\ freal k' = true /\ (j <= 6 -> cs c' = 0)).
    { rewrite valid_iff. unfold inc_at, inc7, inc6, inc5, inc2, inc1, inc0 in E. unfold clt, agree.
      repeat match type of E with
      | (if ?a <? ?b then _ else _) = _ => destruct (Z.ltb_spec a b); [try congruence|]
      | (if ?a =? ?b then _ else _) = _ => destruct (Z.eqb_spec a b); try congruence
      | (if ?a <=? ?b then _ else _) = _ => destruct (Z.leb_spec a b); try congruence
      end; inversion E; subst c' k'; cbn [cy cmo cd ch cmi cs freal Z.eqb Pos.eqb orb negb]; try (repeat split; lia). }
    destruct Hval as (H1 & H2 & H3 & H4 & H5 & H6 & H7). repeat (split; [assumption|]).
    intros x Hx Hcx Hxc. apply valid_iff in Hx. specialize (Hle x Hcx). specialize (Hcong x).
    unfold inc_at, inc7, inc6, inc5, inc2, inc1, inc0 in E. unfold clt in Hxc. unfold agree. clear Hcx H3 H5.
    repeat match type of E with
      | (if ?a <? ?b then _ else _) = _ => destruct (Z.ltb_spec a b); [try congruence|]
      | (if ?a =? ?b then _ else _) = _ => destruct (Z.eqb_spec a b); try congruence
      | (if ?a <=? ?b then _ else _) = _ => destruct (Z.leb_spec a b); try congruence
      end; inversion E; subst c' k'; cbn [cy cmo cd ch cmi cs] in *; lia.
  - intros x Hx Hyx Hcx. apply valid_iff in Hx. specialize (Hle x Hcx). specialize (Hcong x). clear Hcx.
    unfold inc_at, inc7, inc6, inc5, inc2, inc1, inc0 in E. unfold agree.
    repeat match type of E with
      | (if ?a <? ?b then _ else _) = _ => destruct (Z.ltb_spec a b); try congruence
      | (if ?a =? ?b then _ else _) = _ => destruct (Z.eqb_spec a b); try congruence
      | (if ?a <=? ?b then _ else _) = _ => destruct (Z.leb_spec a b); try congruence
      end; lia.
Qed.
