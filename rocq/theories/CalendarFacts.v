From Verif Require Import Prelude Calendar.
Open Scope Z_scope.
Ltac Zify.zify_post_hook ::= Z.div_mod_to_equations.

Lemma leap_dby y : dby (y + 1) = dby y + 365 + (if leap y then 1 else 0).
Proof.
  unfold dby, leap. replace (y + 1 - 1) with y by lia.
  destruct (Z.eqb_spec (y mod 4) 0), (Z.eqb_spec (y mod 100) 0), (Z.eqb_spec (y mod 400) 0); cbn [andb orb negb]; lia.
Qed.

Lemma mdays_bounds y m : 28 <= mdays y m <= 31.
Proof. unfold mdays. destruct (leap y); repeat match goal with |- context [if ?b then _ else _] => destruct b end; lia. Qed.

Lemma dbm_succ y m : 1 <= m <= 12 -> dbm y (m + 1) = dbm y m + mdays y m.
Proof.
  intros H. assert (Hm : m = 1 \/ m = 2 \/ m = 3 \/ m = 4 \/ m = 5 \/ m = 6 \/ m = 7 \/ m = 8 \/ m = 9 \/ m = 10 \/ m = 11 \/ m = 12) by lia.
  unfold dbm, mdays. destruct (leap y);
  repeat match goal with H : _ \/ _ |- _ => destruct H as [->|H] end; subst; reflexivity.
Qed.

Lemma dbm_1 y : dbm y 1 = 0. Proof. reflexivity. Qed.
Lemma dbm_13 y : dbm y 13 = 365 + (if leap y then 1 else 0).
Proof. unfold dbm. destruct (leap y); reflexivity. Qed.

Lemma dbm_lt y m m' : 1 <= m -> m < m' -> m' <= 13 -> dbm y m + mdays y m <= dbm y m'.
Proof.
  intros H1 H2 H3. assert (Hk : exists k : nat, m' = m + 1 + Z.of_nat k).
  { exists (Z.to_nat (m' - m - 1)). lia. }
  destruct Hk as [k ->]. clear H2. induction k as [|k IH].
  - rewrite Z.add_0_r, dbm_succ by lia. lia.
  - replace (m + 1 + Z.of_nat (S k)) with (m + 1 + Z.of_nat k + 1) by lia.
    rewrite dbm_succ by lia. pose proof (mdays_bounds y (m + 1 + Z.of_nat k)). lia.
Qed.

Lemma dby_lt y y' : y < y' -> dby y + 365 + (if leap y then 1 else 0) <= dby y'.
Proof.
  intros H. assert (Hk : exists k : nat, y' = y + 1 + Z.of_nat k).
  { exists (Z.to_nat (y' - y - 1)). lia. }
  destruct Hk as [k ->]. clear H. induction k as [|k IH].
  - rewrite Z.add_0_r, leap_dby. lia.
  - replace (y + 1 + Z.of_nat (S k)) with (y + 1 + Z.of_nat k + 1) by lia.
    rewrite leap_dby. destruct (leap (y + 1 + Z.of_nat k)); lia.
Qed.

(** validity as propositions *)
Lemma valid_iff c : valid c = true <->
  1 <= cmo c <= 12 /\ 1 <= cd c <= mdays (cy c) (cmo c) /\ 0 <= ch c <= 23 /\ 0 <= cmi c <= 59 /\ 0 <= cs c <= 59.
Proof. unfold valid. rewrite !andb_true_iff, !Z.leb_le. lia. Qed.

(** lexicographic order on civil datetimes *)
Definition clt (a b : civil) : Prop :=
  cy a < cy b \/ (cy a = cy b /\ (cmo a < cmo b \/ (cmo a = cmo b /\ (cd a < cd b \/ (cd a = cd b /\
  (ch a < ch b \/ (ch a = ch b /\ (cmi a < cmi b \/ (cmi a = cmi b /\ cs a < cs b))))))))).

Lemma ymd_doy y m d : 1 <= m <= 12 -> 1 <= d <= mdays y m ->
  1 <= dbm y m + d <= 365 + (if leap y then 1 else 0).
Proof.
  intros Hm Hd. pose proof (dbm_lt y m 13). rewrite dbm_13 in H.
  assert (0 <= dbm y m).
  { destruct (Z.eq_dec m 1) as [->|]; [cbn; lia|]. pose proof (dbm_lt y 1 m). rewrite dbm_1 in H0.
    pose proof (mdays_bounds y 1). lia. }
  lia.
Qed.

Lemma ymd2ord_mono_y y m d y' m' d' :
  1 <= m <= 12 -> 1 <= d <= mdays y m -> 1 <= m' <= 12 -> 1 <= d' <= mdays y' m' ->
  y < y' -> ymd2ord y m d < ymd2ord y' m' d'.
Proof.
  intros. unfold ymd2ord. pose proof (ymd_doy y m d). pose proof (ymd_doy y' m' d').
  pose proof (dby_lt y y'). lia.
Qed.

Lemma clt_secs a b : valid a = true -> valid b = true -> clt a b -> civ_secs a < civ_secs b.
Proof.
  rewrite !valid_iff. intros Ha Hb H. unfold civ_secs.
  assert (Hord : ymd2ord (cy a) (cmo a) (cd a) < ymd2ord (cy b) (cmo b) (cd b) \/
          (cy a = cy b /\ cmo a = cmo b /\ cd a = cd b /\
           (ch a < ch b \/ (ch a = ch b /\ (cmi a < cmi b \/ (cmi a = cmi b /\ cs a < cs b)))))).
  { destruct H as [H|[E1 [H|[E2 [H|[E3 H]]]]]].
    - left. apply ymd2ord_mono_y; lia.
    - left. unfold ymd2ord. rewrite E1. pose proof (dbm_lt (cy b) (cmo a) (cmo b)).
      rewrite E1 in Ha. lia.
    - left. unfold ymd2ord. rewrite E1, E2. lia.
    - right; auto. }
  destruct Hord as [H1|(E1 & E2 & E3 & H1)].
  - assert (ymd2ord (cy a) (cmo a) (cd a) + 1 <= ymd2ord (cy b) (cmo b) (cd b)) by lia.
    generalize dependent (ymd2ord (cy a) (cmo a) (cd a)). generalize dependent (ymd2ord (cy b) (cmo b) (cd b)).
    intros. lia.
  - rewrite E1, E2, E3. generalize (ymd2ord (cy b) (cmo b) (cd b)). intros. lia.
Qed.

Lemma clt_total a b : clt a b \/ a = b \/ clt b a.
Proof.
  destruct a as [y1 m1 d1 h1 i1 s1], b as [y2 m2 d2 h2 i2 s2]; unfold clt; cbn.
  destruct (Z.lt_trichotomy y1 y2) as [?|[->|?]]; [left; lia| |right; right; lia].
  destruct (Z.lt_trichotomy m1 m2) as [?|[->|?]]; [left; lia| |right; right; lia].
  destruct (Z.lt_trichotomy d1 d2) as [?|[->|?]]; [left; lia| |right; right; lia].
  destruct (Z.lt_trichotomy h1 h2) as [?|[->|?]]; [left; lia| |right; right; lia].
  destruct (Z.lt_trichotomy i1 i2) as [?|[->|?]]; [left; lia| |right; right; lia].
  destruct (Z.lt_trichotomy s1 s2) as [?|[->|?]]; [left; lia|right; left; reflexivity|right; right; lia].
Qed.

Lemma secs_clt a b : valid a = true -> valid b = true -> (civ_secs a < civ_secs b <-> clt a b).
Proof.
  intros Ha Hb. split; [|apply clt_secs; auto]. intros H.
  destruct (clt_total a b) as [?|[->|Hc]]; auto; [lia|].
  pose proof (clt_secs b a Hb Ha Hc). lia.
Qed.

Lemma civ_secs_inj a b : valid a = true -> valid b = true -> civ_secs a = civ_secs b -> a = b.
Proof.
  intros Ha Hb H. destruct (clt_total a b) as [Hc|[?|Hc]]; auto; exfalso.
  - pose proof (clt_secs a b Ha Hb Hc). lia.
  - pose proof (clt_secs b a Hb Ha Hc). lia.
Qed.

Lemma ord_year_spec n : dby (ord_year n) < n <= dby (ord_year n + 1).
Proof.
  unfold ord_year. set (y := n * 400 / 146097).
  assert (Hlo : dby (y - 1) < n) by (unfold y, dby; lia).
  assert (Hhi : n <= dby (y + 3)) by (unfold y, dby; lia).
  destruct (Z.leb_spec n (dby y)).
  { replace (y - 1 + 1) with y by lia. lia. }
  destruct (Z.leb_spec n (dby (y + 1))); [lia|].
  destruct (Z.leb_spec n (dby (y + 2))).
  { replace (y + 1 + 1) with (y + 2) by lia. lia. }
  replace (y + 2 + 1) with (y + 3) by lia. lia.
Qed.

Lemma find_month_spec y r : forall k m, 1 <= m -> m + Z.of_nat k = 12 -> dbm y m < r <= dbm y 13 ->
  let m' := find_month k y m r in m <= m' <= 12 /\ dbm y m' < r <= dbm y (m' + 1).
Proof.
  induction k as [|k IH]; intros m Hm Hk Hr; cbn [find_month].
  - assert (m = 12) by lia. subst. cbn zeta. split; [lia|exact Hr].
  - destruct (Z.leb_spec r (dbm y (m + 1))); cbn zeta; [lia|].
    specialize (IH (m + 1) ltac:(lia) ltac:(lia) ltac:(lia)). cbn zeta in IH. lia.
Qed.

Lemma secs_civil_spec t : valid (secs_civil t) = true /\ civ_secs (secs_civil t) = t.
Proof.
  unfold secs_civil.
  set (n := t / 86400 + epoch_ord). pose proof (ord_year_spec n) as Hy. set (y := ord_year n) in *.
  set (r := n - dby y). rewrite leap_dby in Hy.
  pose proof (find_month_spec y r 11 1 ltac:(lia) ltac:(lia)) as Hm.
  rewrite dbm_1, dbm_13 in Hm. specialize (Hm ltac:(unfold r; lia)). cbn zeta in Hm.
  set (m := find_month 11 y 1 r) in *. rewrite dbm_succ in Hm by lia.
  split.
  - apply valid_iff. cbn [cy cmo cd ch cmi cs]. clearbody m y n. lia.
  - unfold civ_secs, ymd2ord. cbn [cy cmo cd ch cmi cs].
    replace (dby y + dbm y m + (r - dbm y m)) with n by (unfold r; lia).
    unfold n. lia.
Qed.

Lemma secs_civil_inv c : valid c = true -> secs_civil (civ_secs c) = c.
Proof.
  intros H. destruct (secs_civil_spec (civ_secs c)) as [Hv He]. apply civ_secs_inj; auto.
Qed.

Lemma weekday_range c : 0 <= weekday c <= 6.
Proof. unfold weekday, ord_weekday. lia. Qed.

(** ISO weeks: the year's first ISO week starts within three days of 1 January *)
Lemma isoweek1monday_bounds y : dby y - 2 <= isoweek1monday y <= dby y + 4.
Proof. unfold isoweek1monday, ymd2ord. rewrite dbm_1. destruct (Z.ltb_spec 3 ((dby y + 0 + 1 + 6) mod 7)); lia. Qed.
Lemma isoweek1monday_mod y : (isoweek1monday y + 6) mod 7 = 0.
Proof. unfold isoweek1monday, ymd2ord. rewrite dbm_1. destruct (Z.ltb_spec 3 ((dby y + 0 + 1 + 6) mod 7)); lia. Qed.

Lemma isoweek_range c : valid c = true -> 1 <= isoweek c <= 53.
Proof.
  rewrite valid_iff. intros (Hm & Hd & _).
  pose proof (ymd_doy (cy c) (cmo c) (cd c) Hm Hd) as Hdoy.
  unfold isoweek, ymd2ord. set (doy := dbm (cy c) (cmo c) + cd c) in *.
  replace (dby (cy c) + dbm (cy c) (cmo c) + cd c) with (dby (cy c) + doy) by (unfold doy; lia).
  pose proof (isoweek1monday_bounds (cy c)). pose proof (isoweek1monday_bounds (cy c - 1)).
  pose proof (isoweek1monday_bounds (cy c + 1)). pose proof (isoweek1monday_mod (cy c)).
  pose proof (isoweek1monday_mod (cy c + 1)). pose proof (isoweek1monday_mod (cy c - 1)).
  pose proof (leap_dby (cy c)). pose proof (leap_dby (cy c - 1)).
  replace (cy c - 1 + 1) with (cy c) in * by lia.
  set (w0 := isoweek1monday (cy c)) in *. set (w1 := isoweek1monday (cy c + 1)) in *.
  set (wm := isoweek1monday (cy c - 1)) in *.
  set (D0 := dby (cy c)) in *. set (D1 := dby (cy c + 1)) in *. set (Dm := dby (cy c - 1)) in *.
  clearbody w0 w1 wm D0 D1 Dm doy.
  destruct (Z.ltb_spec ((D0 + doy - w0) / 7) 0).
  - destruct (leap (cy c - 1)), (leap (cy c)); lia.
  - destruct (Z.leb_spec 52 ((D0 + doy - w0) / 7)), (Z.leb_spec w1 (D0 + doy)); cbn [andb];
      destruct (leap (cy c - 1)), (leap (cy c)); lia.
Qed.
