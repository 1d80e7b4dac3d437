(** C58: exactly which texts a cron field accepts. *)
From Verif Require Import Prelude Text Calendar Cron CronParse CronParseSpec PropCronText.
Open Scope Z_scope.
Ltac sp := repeat match goal with |- _ /\ _ => split end.

(** ** specification *)
Definition letter (a : ascii) : Prop := exists i, String.get i "abcdefghijklmnopqrstuvwxyz" = Some (lower_ascii a).
Definition word_char (a : ascii) : Prop := letter a \/ (exists k, digit k a) \/ a = "_"%char.
Definition no_more (p : ascii -> Prop) (r : string) : Prop := forall a r', r = String a r' -> ~ p a.
(** the documented forms, and what may stand behind them: a newline behind a numeric form, and behind a
    form with names whatever cannot be read as more of it *)
Inductive accepted_text (f : Z) : string -> cexpr -> Prop :=
| at_numeric s r e : numeric s e -> r = ""%string \/ r = String "010" "" -> accepted_text f (s ++ r) e
| at_month w i r : f = 1 -> names months w i -> no_more letter r -> (forall r', r = String "-" r' -> no_more letter r') ->
    accepted_text f (w ++ r) (ERange (i + 1) (Some (i + 1)) None)
| at_months w1 w2 i j r : f = 1 -> names months w1 i -> names months w2 j -> no_more letter r ->
    accepted_text f (w1 ++ "-" ++ w2 ++ r) (ERange (i + 1) (Some (j + 1)) None)
| at_wday w i r : f = 4 -> names weekdays w i -> no_more letter r -> (forall r', r = String "-" r' -> no_more letter r') ->
    accepted_text f (w ++ r) (ERange i (Some i) None)
| at_wdays w1 w2 i j r : f = 4 -> names weekdays w1 i -> names weekdays w2 j -> no_more letter r ->
    accepted_text f (w1 ++ "-" ++ w2 ++ r) (ERange i (Some j) None)
| at_pos o n w k i r : f = 2 -> names positions o k -> names weekdays w i -> no_more word_char r ->
    accepted_text f (o ++ blanks (S n) ++ w ++ r) (EWeekdayPos k i)
| at_last w r : f = 2 -> lower w = "last"%string -> (forall n r', r = (blanks (S n) ++ r')%string -> no_more word_char r') ->
    accepted_text f (w ++ r) ELastDay.

(** ** proofs *)
Lemma letter_iff a : is_alpha a = true <-> letter a.
Proof.
  split.
  - intros H. destruct a as [[] [] [] [] [] [] [] []]; vm_compute in H; try discriminate H; unfold letter; match goal with |- exists i, _ = Some ?x => let y := eval vm_compute in x in change x with y end;
      (do 26 (match goal with |- exists i, _ => (exists 0%nat; reflexivity) || idtac end; try (exists 1%nat; reflexivity)));
      first [exists 2%nat; reflexivity|exists 3%nat; reflexivity|exists 4%nat; reflexivity|exists 5%nat; reflexivity|exists 6%nat; reflexivity|exists 7%nat; reflexivity|exists 8%nat; reflexivity|exists 9%nat; reflexivity|exists 10%nat; reflexivity|exists 11%nat; reflexivity|exists 12%nat; reflexivity|exists 13%nat; reflexivity|exists 14%nat; reflexivity|exists 15%nat; reflexivity|exists 16%nat; reflexivity|exists 17%nat; reflexivity|exists 18%nat; reflexivity|exists 19%nat; reflexivity|exists 20%nat; reflexivity|exists 21%nat; reflexivity|exists 22%nat; reflexivity|exists 23%nat; reflexivity|exists 24%nat; reflexivity|exists 25%nat; reflexivity].
  - intros (i & H). unfold is_alpha. assert (I : (i < 26)%nat) by (destruct (Nat.ltb_spec i 26); [auto|]; exfalso; do 26 (destruct i as [|i]; [lia|]); discriminate).
    do 26 (destruct i as [|i]; [cbn in H; injection H as <-; reflexivity|]). lia.
Qed.
Lemma word_iff a : is_word a = true <-> word_char a.
Proof.
  unfold is_word, word_char. rewrite !orb_true_iff, letter_iff. 
  assert (D : is_digit a = true <-> exists k, digit k a) by (split; [intros H; exists (code_of a - 48); apply digit_iff; auto|intros (k & H); apply digit_iff in H; tauto]).
  assert (U : code_of a =? 95 = true <-> a = "_"%char).
  { rewrite Z.eqb_eq. split; [|intros ->; reflexivity]. intros H. unfold code_of in H. rewrite <- (ascii_nat_embedding a). replace (nat_of_ascii a) with 95%nat by lia. reflexivity. }
  tauto.
Qed.
Lemma stops_iff (p : ascii -> bool) (q : ascii -> Prop) r : (forall a, p a = true <-> q a) -> stops p r <-> no_more q r.
Proof.
  intros H. unfold no_more. destruct r as [|a r]; cbn [stops]; [split; [discriminate|auto]|]. split.
  - intros E b r' [= <- <-]. rewrite <- H, E. discriminate.
  - intros E. destruct (p a) eqn:P; [|auto]. apply H in P. destruct (E a r eq_refl P).
Qed.
Lemma stops_letter r : stops is_alpha r <-> no_more letter r. Proof. apply stops_iff. apply letter_iff. Qed.
Lemma stops_word r : stops is_word r <-> no_more word_char r. Proof. apply stops_iff. apply word_iff. Qed.
Lemma match_names_iff s w o : match_names s = Some (w, o) <->
  allc is_alpha w = true /\ w <> ""%string /\
  match o with
  | Some w2 => exists r, s = (w ++ "-" ++ w2 ++ r)%string /\ allc is_alpha w2 = true /\ w2 <> ""%string /\ stops is_alpha r
  | None => exists r, s = (w ++ r)%string /\ stops is_alpha r /\ forall r', r = String "-" r' -> stops is_alpha r'
  end.
Proof.
  unfold match_names. split.
  - pose proof (span_spec is_alpha s) as S. destruct (span is_alpha s) as [[|a u] v]; [discriminate|]. destruct S as (-> & A & ST).
    destruct v as [|b v]; [intros [= <- <-]; sp; auto; [discriminate|]; exists ""%string; sp; auto; discriminate|].
    destruct (Ascii.eqb_spec b "-") as [->|N].
    + pose proof (span_spec is_alpha v) as S2. destruct (span is_alpha v) as [[|c u2] v2]; destruct S2 as (-> & A2 & ST2); intros [= <- <-]; (sp; [auto|discriminate|]).
      * exists (String "-" v2). sp; auto. intros r' [= <-]. exact ST2.
      * exists v2. sp; auto. discriminate.
    + intros [= <- <-]. sp; auto; [discriminate|]. exists (String b v). sp; auto. intros r' [= -> _]. congruence.
  - intros (A & N & H). destruct w as [|a w]; [congruence|]. destruct o as [w2|].
    + destruct H as (r & -> & A2 & N2 & ST). rewrite (span_app is_alpha (String a w) ("-" ++ w2 ++ r) A eq_refl). cbn [append]. rewrite Ascii.eqb_refl.
      rewrite (span_app is_alpha w2 r A2 ST). destruct w2; [congruence|reflexivity].
    + destruct H as (r & -> & ST & D). rewrite (span_app is_alpha (String a w) r A ST). destruct r as [|b r]; [reflexivity|]. destruct (Ascii.eqb_spec b "-") as [->|]; [|reflexivity].
      specialize (D r eq_refl). pose proof (span_app is_alpha "" r eq_refl D) as S. cbn [append] in S. rewrite S. reflexivity.
Qed.
Lemma numeric_tail s r e : numeric s e -> r = ""%string \/ r = String "010" "" ->
  (exists st, match_all (s ++ r) = Some st /\ e = EAll st) \/
  (match_all (s ++ r) = None /\ exists a l st, match_range (s ++ r) = Some (a, l, st) /\ e = ERange a (norm_last a l st) st).
Proof.
  intros H [->| ->]; [rewrite app_nil_s; apply numeric_matches; exact H|].
  assert (E : forall c d n, numeral d n -> opt_number c (String c (d ++ String "010" "")) = (Some n, String "010" "")) by (intros c d n N; apply opt_number_some; [exact N|reflexivity]).
  destruct H as [|d n N|d a N|d1 d2 a b N1 N2|d1 d3 a n N1 N3|d1 d2 d3 a b n N1 N2 N3].
  - left. exists None. auto.
  - left. exists (Some n). split; auto. cbn [match_all append]. rewrite Ascii.eqb_refl. rewrite (E "/"%char d n N). reflexivity.
  - right. split; [eapply all_head; eauto|]. exists a, None, None. split; auto. rewrite (range_head d a (String "010" "") N (eq_refl : is_digit "010" = false)). reflexivity.
  - right. rewrite !app_assoc_s. split; [eapply all_head; eauto|]. exists a, (Some b), None. split; auto. rewrite (range_head d1 a) by (exact N1 || reflexivity).
    cbn [append]. rewrite (E "-"%char d2 b N2). reflexivity.
  - right. rewrite !app_assoc_s. split; [eapply all_head; eauto|]. exists a, None, (Some n). split; auto. rewrite (range_head d1 a) by (exact N1 || reflexivity).
    cbn [append]. rewrite (opt_number_other "-") by reflexivity. rewrite (E "/"%char d3 n N3). reflexivity.
  - right. rewrite !app_assoc_s. split; [eapply all_head; eauto|]. exists a, (Some b), (Some n). split; auto. rewrite (range_head d1 a) by (exact N1 || reflexivity).
    cbn [append]. rewrite (opt_number_some "-" d2 b) by (exact N2 || reflexivity). rewrite (E "/"%char d3 n N3). reflexivity.
Qed.
Lemma match_pos_back o n w k i r : names positions o k -> names weekdays w i -> stops is_word r -> match_pos (o ++ blanks (S n) ++ w ++ r) = Some (k, w).
Proof.
  intros O W ST. unfold match_pos. rewrite (match_option_pos o k _ O). destruct (names_wordy _ w i w_weekdays W) as (A & N & _).
  destruct w as [|a w]; [congruence|]. pose proof A as A0. cbn in A. apply andb_true_iff in A as [A1 A2]. destruct (alpha_kinds a A1) as (K1 & K2 & K3).
  rewrite (span_app is_blank (blanks (S n)) (String a w ++ r) (blanks_all (S n)) K2). cbn [blanks]. cbn [span append]. rewrite K1, K3.
  rewrite (span_app is_word w r (allc_impl is_alpha is_word w (fun b H => proj2 (proj2 (alpha_kinds b H))) A2) ST). auto.
Qed.
Lemma match_pos_forth s k w i : match_pos s = Some (k, w) -> names weekdays w i -> exists o n r, names positions o k /\ s = (o ++ blanks (S n) ++ w ++ r)%string /\ stops is_word r.
Proof.
  unfold match_pos. destruct (match_option 0 OPTIONS s) as [[k0 r]|] eqn:M; [|discriminate]. apply match_option_inv in M as (u & -> & L & N). rewrite Z.sub_0_r in N.
  pose proof (span_spec is_blank r) as S. destruct (span is_blank r) as [[|b bl] r1]; [discriminate|]. destruct S as (-> & B & _). pose proof (all_blanks _ B) as EB. cbn [String.length] in EB.
  pose proof (span_spec is_digit r1) as S1. pose proof (span_spec is_word r1) as S2.
  destruct (span is_digit r1) as [[|c d] v]; [destruct (span is_word r1) as [[|c d] v2]; [discriminate|]|]; intros [= <- <-] W.
  - destruct S2 as (-> & _ & ST). exists u, (String.length bl), v2. split; [split; auto|]. rewrite <- EB. auto.
  - exfalso. destruct S1 as (_ & D & _). destruct (names_wordy _ _ i w_weekdays W) as (A & _). cbn in A, D. apply andb_true_iff in A as [A _]. apply andb_true_iff in D as [D _]. destruct (alpha_kinds c A). congruence.
Qed.
Lemma match_pos_last w r : lower w = "last"%string -> match_pos (w ++ r) = None <-> forall n r', r = (blanks (S n) ++ r')%string -> stops is_word r'.
Proof.
  intros H. assert (O : names positions w 5) by (split; [lia|rewrite H; reflexivity]). unfold match_pos. rewrite (match_option_pos w 5 r O). pose proof (span_spec is_blank r) as S.
  assert (DW : forall a, is_digit a = true -> is_word a = true) by (intros a D; unfold is_word; rewrite D; reflexivity).
  assert (BW : forall a, is_blank a = true -> is_word a = false).
  { intros a B. unfold is_blank in B. apply Z.eqb_eq in B. unfold code_of in B. rewrite <- (ascii_nat_embedding a). replace (nat_of_ascii a) with 32%nat by lia. reflexivity. }
  destruct (span is_blank r) as [[|b bl] r1]; destruct S as (E & B & ST).
  - cbn in E. subst r1. split; [|auto]. intros _ n r' ->. cbn in ST. discriminate.
  - split.
    + intros M n r' E'. assert (R : r = (String b bl ++ r1)%string) by exact E.
      assert (K : stops is_word r1). { destruct r1 as [|c r1]; [exact I|]. cbn [stops]. cbn [span] in M. destruct (is_digit c) eqn:D; [destruct (span is_digit r1); discriminate|]. destruct (is_word c) eqn:W; [destruct (span is_word r1); discriminate|reflexivity]. }
      rewrite (all_blanks _ B) in R. rewrite E' in R. revert R K. generalize (String.length (String b bl)) (Datatypes.S n). clear - BW ST. intros m n. revert m r'.
      induction n as [|n IH]; intros m r' R K; cbn in R.
      * subst r'. destruct m as [|m]; [exact K|]. cbn. apply BW. reflexivity.
      * destruct m as [|m]; cbn in R; [|injection R as R; eauto]. subst r1. cbn in ST. discriminate.
    + intros M. specialize (M (String.length bl) r1). rewrite (all_blanks _ B) in E. specialize (M E). destruct r1 as [|c r1]; [reflexivity|]. cbn [stops] in M. cbn [span].
      destruct (is_digit c) eqn:D; [apply DW in D; congruence|]. rewrite M. reflexivity.
Qed.

Theorem C58_accepted_exactly : forall (f lo hi : Z) (s : string) (e : cexpr), has_limits f lo hi ->
  (parse_expr f s = Ok e <-> accepted_text f s e /\ acceptable lo hi e).
Proof.
  intros f lo hi s e L. destruct (limits_of f lo hi L) as (-> & -> & F). unfold parse_expr. split.
  - intros P. destruct (match_all s) as [st|] eqn:M1.
    { apply mk_all_iff in P as [-> A]. split; auto. destruct (match_all_numeric s st M1) as (s1 & s2 & -> & S & N). apply at_numeric; auto. }
    destruct (match_range s) as [[[a l] st]|] eqn:M2.
    { apply mk_range_iff in P as [-> A]. split; auto. destruct (match_range_numeric s a l st M2) as (s1 & s2 & -> & S & N). apply at_numeric; auto. }
    assert (NM : forall base ns, NoDup ns -> match match_names s with Some (w, w2) => mk_names f base ns w w2 | None => Err ValueError end = Ok e ->
       acceptable (fmin f) (fmax_const f) e /\
       ((exists w i r, s = (w ++ r)%string /\ names ns w i /\ no_more letter r /\ (forall r', r = String "-" r' -> no_more letter r') /\ e = ERange (i + base) (Some (i + base)) None) \/
        exists w1 w2 i j r, s = (w1 ++ "-" ++ w2 ++ r)%string /\ names ns w1 i /\ names ns w2 j /\ no_more letter r /\ e = ERange (i + base) (Some (j + base)) None)).
    { intros base ns ND H. destruct (match_names s) as [[w w2]|] eqn:M; [|discriminate]. apply match_names_iff in M as (_ & _ & M). unfold mk_names in H.
      destruct (index (lower w) ns) as [i|] eqn:I1; [|discriminate]. apply (index_iff ns w i ND) in I1. destruct w2 as [w2|].
      - destruct (index (lower w2) ns) as [j|] eqn:I2; [|discriminate]. apply (index_iff ns w2 j ND) in I2. apply mk_range_iff in H as [E1 A]. split; auto. right.
        destruct M as (r & E & _ & _ & ST). exists w, w2, i, j, r. sp; auto. apply stops_letter. exact ST.
      - apply mk_range_iff in H as [E1 A]. split; auto. left. destruct M as (r & E & ST & D). exists w, i, r. sp; auto; [apply stops_letter; exact ST|]. intros r' R. apply stops_letter. auto. }
    destruct (Z.eqb_spec f 1) as [->|]; [|destruct (Z.eqb_spec f 4) as [->|]; [|destruct (Z.eqb_spec f 2) as [->|]; [|discriminate]]].
    + apply (NM 1 MONTHS nd_months) in P as [A [(w & i & r & -> & N & R & D & ->)|(w1 & w2 & i & j & r & -> & N1 & N2 & R & ->)]]; (split; [|auto]); [apply at_month|apply at_months]; auto.
    + apply (NM 0 WEEKDAYS nd_weekdays) in P as [A [(w & i & r & -> & N & R & D & ->)|(w1 & w2 & i & j & r & -> & N1 & N2 & R & ->)]]; (split; [|auto]); rewrite !Z.add_0_r; [apply at_wday|apply at_wdays]; auto.
    + destruct (match_pos s) as [[k w]|] eqn:M.
      * destruct (index (lower w) WEEKDAYS) as [i|] eqn:I1; [|discriminate]. apply (index_iff WEEKDAYS w i nd_weekdays) in I1. injection P as <-. split; [|exact I].
        destruct (match_pos_forth _ _ _ _ M I1) as (o & m & r & O & -> & ST). apply at_pos; auto. apply stops_word. exact ST.
      * destruct (starts_with "last" (lower s)) eqn:SW; [|discriminate]. injection P as <-. split; [|exact I]. apply starts_with_iff in SW as [post SW].
        destruct (lower_prefix "last" s post SW) as (u & E & Lu). rewrite E in M |- *. apply at_last; auto. intros nn r2 R. apply stops_word. eapply (proj1 (match_pos_last u _ Lu)); eauto.
  - intros [W A].
    assert (ONE : forall w r ns base i, forallb wordy ns = true -> NoDup ns -> names ns w i -> no_more letter r -> (forall r', r = String "-" r' -> no_more letter r') -> e = ERange (i + base) (Some (i + base)) None ->
      match_all (w ++ r) = None /\ match_range (w ++ r) = None /\ match match_names (w ++ r) with Some (w, w2) => mk_names f base ns w w2 | None => Err ValueError end = Ok e).
    { intros w r ns b i WD ND N R D E. destruct (names_wordy ns w i WD N) as (A1 & N1 & P1). destruct (not_plain (w ++ r)) as [-> ->]; [rewrite lower_app, allc_app, P1; auto|].
      sp; auto. assert (M : match_names (w ++ r) = Some (w, None)) by (apply match_names_iff; sp; auto; exists r; sp; [auto|apply stops_letter; exact R|intros r' Q; apply stops_letter; auto]).
      rewrite M. unfold mk_names. rewrite (proj2 (index_iff ns w i ND) N). apply mk_range_iff. auto. }
    assert (TWO : forall w1 w2 r ns base i j, forallb wordy ns = true -> NoDup ns -> names ns w1 i -> names ns w2 j -> no_more letter r -> e = ERange (i + base) (Some (j + base)) None ->
      match_all (w1 ++ "-" ++ w2 ++ r) = None /\ match_range (w1 ++ "-" ++ w2 ++ r) = None /\ match match_names (w1 ++ "-" ++ w2 ++ r) with Some (w, w2) => mk_names f base ns w w2 | None => Err ValueError end = Ok e).
    { intros w1 w2 r ns b i j WD ND N N' R E. destruct (names_wordy ns w1 i WD N) as (A1 & N1 & P1). destruct (names_wordy ns w2 j WD N') as (A2 & N2 & P2).
      destruct (not_plain (w1 ++ "-" ++ w2 ++ r)) as [-> ->]; [rewrite lower_app, allc_app, P1; auto|].
      sp; auto. assert (M : match_names (w1 ++ "-" ++ w2 ++ r) = Some (w1, Some w2)) by (apply match_names_iff; sp; auto; exists r; sp; auto; apply stops_letter; exact R).
      rewrite M. unfold mk_names. rewrite (proj2 (index_iff ns w1 i ND) N), (proj2 (index_iff ns w2 j ND) N'). apply mk_range_iff. auto. }
    destruct W as [s r e N R|w i r -> N R D|w1 w2 i j r -> N1 N2 R|w i r -> N R D|w1 w2 i j r -> N1 N2 R|o n w k i r -> O W R|w r -> H D].
    + destruct (numeric_tail s r e N R) as [(st & -> & E)|(-> & a & l & st & -> & E)]; [apply mk_all_iff|apply mk_range_iff]; auto.
    + destruct (ONE w r MONTHS 1 i w_months nd_months N R D eq_refl) as (-> & -> & X). exact X.
    + destruct (TWO w1 w2 r MONTHS 1 i j w_months nd_months N1 N2 R eq_refl) as (-> & -> & X). exact X.
    + destruct (ONE w r WEEKDAYS 0 i w_weekdays nd_weekdays N R D) as (-> & -> & X); [rewrite !Z.add_0_r; reflexivity|exact X].
    + destruct (TWO w1 w2 r WEEKDAYS 0 i j w_weekdays nd_weekdays N1 N2 R) as (-> & -> & X); [rewrite !Z.add_0_r; reflexivity|exact X].
    + destruct (not_plain (o ++ blanks (S n) ++ w ++ r)) as [-> ->]; [eapply pos_not_plain; eauto|]. cbn [Z.eqb Pos.eqb]. rewrite (match_pos_back o n w k i r O W) by (apply stops_word; exact R).
      rewrite (proj2 (index_iff WEEKDAYS w i nd_weekdays) W). auto.
    + destruct (not_plain (w ++ r)) as [-> ->]; [rewrite lower_app, H; reflexivity|]. cbn [Z.eqb Pos.eqb].
      rewrite (proj2 (match_pos_last w r H)) by (intros n r' E; apply stops_word; eauto). rewrite lower_app, H. reflexivity.
Qed.
Print Assumptions C58_accepted_exactly.
(** every other text is refused with ValueError *)
Theorem C58_refused_with_ValueError : forall f s x, parse_expr f s = Err x -> x = ValueError.
Proof.
  intros f s x. unfold parse_expr, mk_all, mk_names, mk_range. intros H.
  repeat match type of H with
  | Ok _ = Err _ => discriminate
  | Err _ = Err _ => injection H as <-; reflexivity
  | context [match ?y with _ => _ end] => destruct y
  end.
Qed.
Print Assumptions C58_refused_with_ValueError.
Example C58_case_exactly : accepted_text 4 "mon-4" (ERange 0 (Some 0) None) /\ parse_expr 4 "monz" = Err ValueError /\ parse_expr 2 "last mon_" = Err ValueError.
Proof.
  split; [|split; reflexivity]. apply (at_wday 4 "mon" 0 "-4"); auto; [split; [lia|reflexivity]| |].
  - intros a r' [= <- <-] L. apply letter_iff in L. discriminate.
  - intros r' [= <-] a r'' [= <- <-] L. apply letter_iff in L. discriminate.
Qed.
