(** C12, C58: cron text. *)
From Verif Require Import Prelude PreludeFacts Text Calendar Cron CronSpec CronParse CronParseSpec.
Open Scope Z_scope.
Ltac sp := repeat match goal with |- _ /\ _ => split end.

Fixpoint allc (p : ascii -> bool) (s : string) : bool := match s with EmptyString => true | String a s' => p a && allc p s' end.
Definition stops (p : ascii -> bool) (s : string) : Prop := match s with EmptyString => True | String a _ => p a = false end.
Lemma allc_app p u v : allc p (u ++ v) = allc p u && allc p v.
Proof. induction u as [|a u IH]; cbn; auto. rewrite IH, andb_assoc. auto. Qed.
Lemma span_app p u v : allc p u = true -> stops p v -> span p (u ++ v) = (u, v).
Proof.
  induction u as [|a u IH]; cbn; intros A S.
  - destruct v as [|b v]; auto. cbn in *. rewrite S. auto.
  - apply andb_true_iff in A as [A1 A2]. rewrite A1, IH; auto.
Qed.
Lemma span_spec p s : let (u, v) := span p s in s = (u ++ v)%string /\ allc p u = true /\ stops p v.
Proof.
  induction s as [|a s IH]; cbn; auto. destruct (p a) eqn:P; [|cbn; auto]. destruct (span p s) as [u v]. destruct IH as (-> & A & S). cbn. rewrite P. auto.
Qed.
Lemma app_assoc_s (a b c : string) : ((a ++ b) ++ c)%string = (a ++ b ++ c)%string.
Proof. induction a as [|x a IH]; cbn; auto. rewrite IH. auto. Qed.
Lemma app_nil_s (a : string) : (a ++ "")%string = a.
Proof. induction a as [|x a IH]; cbn; auto. rewrite IH. auto. Qed.

(** numerals *)
Lemma ascii_cases (P : ascii -> Prop) : (forall n, (n < 256)%nat -> P (ascii_of_nat n)) -> forall a, P a.
Proof. intros H a. rewrite <- (ascii_nat_embedding a). apply H. apply nat_ascii_bounded. Qed.
Lemma digit_iff k a : digit k a <-> is_digit a = true /\ k = code_of a - 48.
Proof.
  split.
  - intros [H G]. assert (k < 10).
    { destruct (Z_lt_dec k 10) as [|Hk]; auto. exfalso. assert (L : (10 <= Z.to_nat k)%nat) by lia. revert G L. generalize (Z.to_nat k). intros m G L.
      do 10 (destruct m as [|m]; [lia|]). cbn in G. discriminate. }
    assert (C : k = 0 \/ k = 1 \/ k = 2 \/ k = 3 \/ k = 4 \/ k = 5 \/ k = 6 \/ k = 7 \/ k = 8 \/ k = 9) by lia.
    destruct C as [->|[->|[->|[->|[->|[->|[->|[->|[->| ->]]]]]]]]]; cbn in G; injection G as <-; split; reflexivity.
  - intros [H ->]. destruct a as [[] [] [] [] [] [] [] []]; vm_compute in H; try discriminate; split; try (vm_compute; discriminate); reflexivity.
Qed.
Lemma dec_from_app u v acc : dec_from acc (u ++ v) = dec_from (dec_from acc u) v.
Proof. revert acc. induction u as [|a u IH]; cbn; auto. Qed.
Lemma snoc_s (s : string) : s <> ""%string -> exists u a, s = (u ++ String a "")%string.
Proof.
  induction s as [|a s IH]; intros N; [congruence|]. destruct s as [|b s]; [exists ""%string, a; auto|].
  destruct IH as (u & c & E); [discriminate|]. exists (String a u), c. rewrite E. auto.
Qed.
Lemma len_app u v : String.length (u ++ v) = (String.length u + String.length v)%nat.
Proof. induction u; cbn; auto. Qed.
Lemma numeral_iff d n : numeral d n <-> d <> ""%string /\ allc is_digit d = true /\ n = dec d.
Proof.
  split.
  - induction 1 as [k a D|d n k a N IH D].
    + apply digit_iff in D as [D ->]. split; [discriminate|]. cbn [allc]. rewrite D. split; [auto|unfold dec; cbn [dec_from]; lia].
    + apply digit_iff in D as [D ->]. destruct IH as (I1 & I2 & ->). split; [destruct d; discriminate|]. rewrite allc_app, I2. cbn [allc]. rewrite D. split; [auto|].
      unfold dec. rewrite dec_from_app. cbn [dec_from]. lia.
  - intros (N & A & ->). remember (String.length d) as m eqn:M. revert d M N A. induction m as [|m IH]; intros d M N A; [destruct d; [congruence|discriminate]|].
    destruct (snoc_s d N) as (u & a & ->). rewrite allc_app in A. apply andb_true_iff in A as [A1 A2]. cbn in A2. rewrite andb_true_r in A2.
    destruct (string_dec u "") as [->|Nu].
    + cbn [append]. replace (dec (String a "")) with (code_of a - 48) by (unfold dec; cbn [dec_from]; lia). apply num_one. apply digit_iff. auto.
    + replace (dec (u ++ String a "")) with (10 * dec u + (code_of a - 48)) by (unfold dec; rewrite dec_from_app; cbn [dec_from]; lia).
      apply num_more; [|apply digit_iff; auto]. apply IH; auto. rewrite len_app in M. cbn in M. lia.
Qed.
Lemma numeral_pos d n : numeral d n -> 0 <= n.
Proof. induction 1 as [k a [D _]|d n k a N IH [D _]]; lia. Qed.
Lemma numeral_cons d n : numeral d n -> exists a d', d = String a d' /\ is_digit a = true /\ allc is_digit d = true /\ n = dec d.
Proof. intros H. apply numeral_iff in H as (N & A & ->). destruct d as [|a d]; [congruence|]. exists a, d. cbn in *. apply andb_true_iff in A as H. sp; tauto. Qed.

(** the pieces of the regular expressions *)
Lemma opt_number_some c d n r : numeral d n -> stops is_digit r -> opt_number c (String c (d ++ r)) = (Some n, r).
Proof.
  intros N S. destruct (numeral_cons d n N) as (a & d' & -> & Da & A & ->). cbn [opt_number]. rewrite Ascii.eqb_refl. rewrite (span_app is_digit (String a d') r A S). auto.
Qed.
Lemma opt_number_inv c s o r : opt_number c s = (o, r) ->
  match o with
  | Some n => exists d, s = String c (d ++ r) /\ numeral d n /\ stops is_digit r
  | None => r = s /\ (forall d n r', s = String c (d ++ r') -> ~ numeral d n)
  end.
Proof.
  unfold opt_number. destruct s as [|a s].
  - intros [= <- <-]. split; auto. intros d n r' E. discriminate.
  - destruct (Ascii.eqb_spec a c) as [->|Ne].
    + pose proof (span_spec is_digit s) as SP. destruct (span is_digit s) as [[|b u] v].
      * intros [= <- <-]. split; auto. intros d n r' E N. injection E as ->. destruct SP as (E & _ & S). cbn in E. subst v.
        destruct (numeral_cons d n N) as (b & d' & -> & B & _). cbn in S. congruence.
      * intros [= <- <-]. destruct SP as (-> & A & S). exists (String b u). sp; auto. apply numeral_iff. sp; [discriminate|auto|auto].
    + intros [= <- <-]. split; auto. intros d n r' E. injection E as -> _. congruence.
Qed.
Lemma at_end_iff s : at_end s = true <-> s = ""%string \/ s = String "010" "".
Proof.
  destruct s as [|a [|b s]]; cbn; [tauto| |split; [discriminate|intros [[=]|[=]]]].
  split; [|intros [[=]|[= ->]]; reflexivity]. intros H. right. f_equal. apply Z.eqb_eq in H. unfold code_of in H.
  rewrite <- (ascii_nat_embedding a). replace (nat_of_ascii a) with 10%nat by lia. reflexivity.
Qed.
Lemma limits_of f lo hi : has_limits f lo hi -> lo = fmin f /\ hi = fmax_const f /\ 0 <= f <= 7.
Proof.
  intros [H G]. assert (f <= 7).
  { assert (L : (Z.to_nat f < List.length limits)%nat) by (apply nth_error_Some; rewrite G; discriminate). cbn in L. lia. }
  assert (C : f = 0 \/ f = 1 \/ f = 2 \/ f = 3 \/ f = 4 \/ f = 5 \/ f = 6 \/ f = 7) by lia.
  destruct C as [->|[->|[->|[->|[->|[->|[->| ->]]]]]]]; cbn in G; injection G as <- <-; repeat split; lia.
Qed.
Lemma limits_ex f : 0 <= f <= 7 -> has_limits f (fmin f) (fmax_const f).
Proof.
  intros H. assert (C : f = 0 \/ f = 1 \/ f = 2 \/ f = 3 \/ f = 4 \/ f = 5 \/ f = 6 \/ f = 7) by lia.
  destruct C as [->|[->|[->|[->|[->|[->|[->| ->]]]]]]]; split; try lia; reflexivity.
Qed.
Lemma mk_all_iff f step e : mk_all f step = Ok e <-> e = EAll step /\ acceptable (fmin f) (fmax_const f) e.
Proof.
  unfold mk_all. destruct step as [n|].
  - destruct (Z.leb_spec n 0) as [L|L]; [split; [discriminate|intros [-> A]; cbn in A; lia]|].
    destruct (Z.gtb_spec n (fmax_const f - fmin f)) as [G|G]; [split; [discriminate|intros [-> A]; cbn in A; lia]|].
    split; [intros [= <-]; split; auto; cbn; lia|intros [-> _]; auto].
  - split; [intros [= <-]; split; cbn; auto|intros [-> _]; auto].
Qed.
Definition norm_last (first : Z) (last step : option Z) : option Z := match last, step with None, None => Some first | _, _ => last end.
Lemma mk_range_iff f first last step e :
  mk_range f first last step = Ok e <-> e = ERange first (norm_last first last step) step /\ acceptable (fmin f) (fmax_const f) e.
Proof.
  unfold mk_range, norm_last.
  assert (B : forall (b : bool) (P : Prop) (x : result cexpr), (b = true -> ~ P) -> (b = false -> (x = Ok e <-> P)) -> ((if b then Err ValueError else x) = Ok e <-> P)).
  { intros [] P x H1 H2; [|auto]. split; [discriminate|]. intros p. destruct (H1 eq_refl p). }
  set (l := match last, step with None, None => Some first | _, _ => last end).
  apply B; [intros H1 [-> A]; destruct step as [n|]; [|discriminate]; destruct l as [b|]; cbn in A; lia|intros H1].
  apply B; [intros H2 [-> A]; destruct l as [b|]; [|discriminate]; destruct step as [n|]; cbn in A; lia|intros H2].
  apply B; [intros H3 [-> A]; destruct step as [n|]; [|discriminate]; destruct l as [b|]; cbn in A; lia|intros H3].
  apply B; [intros H4 [-> A]; destruct l as [b|]; destruct step as [n|]; cbn in A; try lia; contradiction|intros H4].
  apply B; [intros H5 [-> A]; destruct l as [b|]; [|discriminate]; destruct step as [n|]; cbn in A; lia|intros H5].
  apply B; [intros H6 [-> A]; destruct step as [n|]; [|discriminate]; destruct l as [b|]; cbn in A; [destruct (Z.eqb_spec b 0)|]; lia|intros H6].
  split; [intros [= <-]; split; auto|intros [-> _]; auto].
  destruct l as [b|] eqn:El; destruct step as [n|]; cbn; try lia.
  - destruct (Z.eqb_spec b 0); lia.
  - unfold l in El. destruct last; discriminate.
Qed.

(** letters do not depend on the case *)
Lemma lower_keeps a : is_digit (lower_ascii a) = is_digit a /\ is_alpha (lower_ascii a) = is_alpha a /\ is_blank (lower_ascii a) = is_blank a /\
  Ascii.eqb (lower_ascii a) "*" = Ascii.eqb a "*" /\ Ascii.eqb (lower_ascii a) "-" = Ascii.eqb a "-" /\ Ascii.eqb (lower_ascii a) "/" = Ascii.eqb a "/" /\
  (code_of (lower_ascii a) =? 10) = (code_of a =? 10) /\ (code_of (lower_ascii a) =? 95) = (code_of a =? 95).
Proof. destruct a as [[] [] [] [] [] [] [] []]; vm_compute; repeat split. Qed.
(** the characters of numeric forms *)
Definition plain (a : ascii) : bool := is_digit a || Ascii.eqb a "*" || Ascii.eqb a "-" || Ascii.eqb a "/" || (code_of a =? 10).
Lemma plain_lower a : plain (lower_ascii a) = plain a.
Proof. unfold plain. destruct (lower_keeps a) as (-> & _ & _ & -> & -> & -> & -> & _). auto. Qed.
Lemma allc_lower p s : (forall a, p (lower_ascii a) = p a) -> allc p (lower s) = allc p s.
Proof. intros H. induction s as [|a s IH]; cbn; auto. rewrite H, IH. auto. Qed.
Lemma allc_impl (p q : ascii -> bool) s : (forall a, p a = true -> q a = true) -> allc p s = true -> allc q s = true.
Proof. intros H. induction s as [|a s IH]; cbn; auto. intros A. apply andb_true_iff in A as [A1 A2]. rewrite H, IH; auto. Qed.
Lemma digits_plain s : allc is_digit s = true -> allc plain s = true.
Proof. apply allc_impl. intros a H. unfold plain. rewrite H. auto. Qed.
Lemma at_end_plain s : at_end s = true -> allc plain s = true.
Proof. intros H. apply at_end_iff in H as [->| ->]; reflexivity. Qed.
Lemma opt_number_plain c s o r : plain c = true -> opt_number c s = (o, r) -> allc plain r = true -> allc plain s = true.
Proof.
  intros C H R. apply opt_number_inv in H. destruct o as [n|]; [|destruct H as [-> _]; auto]. destruct H as (d & -> & N & _). cbn. rewrite C. cbn.
  apply numeral_iff in N as (_ & A & _). rewrite allc_app, R, (digits_plain d A). auto.
Qed.
Lemma match_all_plain s x : match_all s = Some x -> allc plain s = true.
Proof.
  destruct s as [|a s]; [discriminate|]. cbn [match_all]. destruct (Ascii.eqb_spec a "*") as [->|]; [|discriminate]. destruct (opt_number "/" s) as [o r] eqn:O.
  destruct (at_end r) eqn:E; [|discriminate]. intros _. cbn. apply (opt_number_plain "/" s o r); auto. apply at_end_plain; auto.
Qed.
Lemma match_range_plain s x : match_range s = Some x -> allc plain s = true.
Proof.
  unfold match_range. pose proof (span_spec is_digit s) as SP. destruct (span is_digit s) as [[|a d] r]; [discriminate|]. destruct SP as (-> & A & _).
  destruct (opt_number "-" r) as [l r1] eqn:O1. destruct (opt_number "/" r1) as [st r2] eqn:O2. destruct (at_end r2) eqn:E; [|discriminate]. intros _.
  rewrite allc_app, (digits_plain _ A). cbn. apply (opt_number_plain "-" r l r1); auto. apply (opt_number_plain "/" r1 st r2); auto. apply at_end_plain; auto.
Qed.
Lemma not_plain s : allc plain (lower s) = false -> match_all s = None /\ match_range s = None.
Proof.
  rewrite (allc_lower plain s plain_lower). intros H. split.
  - destruct (match_all s) eqn:E; auto. apply match_all_plain in E. congruence.
  - destruct (match_range s) eqn:E; auto. apply match_range_plain in E. congruence.
Qed.
Lemma lower_app u v : lower (u ++ v) = (lower u ++ lower v)%string.
Proof. induction u as [|a u IH]; cbn; auto. rewrite IH. auto. Qed.
Lemma numeral_stops c d n r : numeral d n -> is_digit c = false -> stops is_digit (String c (d ++ r)).
Proof. intros _ H. exact H. Qed.
Lemma opt_number_other c s : match s with String a _ => Ascii.eqb a c = false | EmptyString => True end -> opt_number c s = (None, s).
Proof. destruct s as [|a s]; cbn; auto. intros ->. auto. Qed.
Lemma opt_number_end c d n : numeral d n -> opt_number c (String c d) = (Some n, ""%string).
Proof. intros N. pose proof (opt_number_some c d n "" N I) as H. rewrite app_nil_s in H. exact H. Qed.
Lemma range_head d n r : numeral d n -> stops is_digit r ->
  match_range (d ++ r) = let (l, r1) := opt_number "-" r in let (st, r2) := opt_number "/" r1 in if at_end r2 then Some (n, l, st) else None.
Proof.
  intros N S. destruct (numeral_cons d n N) as (a & d' & -> & _ & A & ->). unfold match_range. rewrite (span_app is_digit (String a d') r A S). reflexivity.
Qed.
Lemma all_head d n r : numeral d n -> match_all (d ++ r) = None.
Proof.
  intros N. destruct (numeral_cons d n N) as (a & d' & -> & A & _). cbn. destruct (Ascii.eqb_spec a "*") as [->|]; auto. discriminate.
Qed.
Lemma numeric_matches s e : numeric s e ->
  (exists st, match_all s = Some st /\ e = EAll st) \/
  (match_all s = None /\ exists a l st, match_range s = Some (a, l, st) /\ e = ERange a (norm_last a l st) st).
Proof.
  destruct 1 as [|d n N|d a N|d1 d2 a b N1 N2|d1 d3 a n N1 N3|d1 d2 d3 a b n N1 N2 N3].
  - left. exists None. auto.
  - left. exists (Some n). split; auto. cbn [match_all append]. rewrite Ascii.eqb_refl. rewrite (opt_number_end "/" d n N). reflexivity.
  - right. rewrite <- (app_nil_s d). split; [eapply all_head; eauto|]. exists a, None, None. split; auto. rewrite (range_head d a "" N I). reflexivity.
  - right. split; [eapply all_head; eauto|]. exists a, (Some b), None. split; auto. rewrite (range_head d1 a _ N1 (eq_refl : stops is_digit ("-" ++ d2))).
    cbn [append]. rewrite (opt_number_end "-" d2 b N2). reflexivity.
  - right. split; [eapply all_head; eauto|]. exists a, None, (Some n). split; auto. rewrite (range_head d1 a _ N1 (eq_refl : stops is_digit ("/" ++ d3))).
    cbn [append]. rewrite (opt_number_other "-") by reflexivity. rewrite (opt_number_end "/" d3 n N3). reflexivity.
  - right. split; [eapply all_head; eauto|]. exists a, (Some b), (Some n). split; auto. rewrite (range_head d1 a _ N1 (eq_refl : stops is_digit ("-" ++ d2 ++ "/" ++ d3))).
    cbn [append]. rewrite (opt_number_some "-" d2 b _ N2 (eq_refl : stops is_digit (String "/" d3))). rewrite (opt_number_end "/" d3 n N3). reflexivity.
Qed.
Lemma match_all_numeric s st : match_all s = Some st -> exists s1 s2, s = (s1 ++ s2)%string /\ (s2 = ""%string \/ s2 = String "010" "") /\ numeric s1 (EAll st).
Proof.
  destruct s as [|a s]; [discriminate|]. cbn [match_all]. destruct (Ascii.eqb_spec a "*") as [->|]; [|discriminate]. destruct (opt_number "/" s) as [o r] eqn:O.
  destruct (at_end r) eqn:E; [|discriminate]. intros [= <-]. apply at_end_iff in E. apply opt_number_inv in O. destruct o as [n|].
  - destruct O as (d & -> & N & _). exists ("*/" ++ d)%string, r. split; [cbn; auto|]. split; auto. apply n_every; auto.
  - destruct O as [-> _]. exists "*"%string, s. split; auto. split; auto. constructor.
Qed.
Lemma match_range_numeric s a l st : match_range s = Some (a, l, st) ->
  exists s1 s2, s = (s1 ++ s2)%string /\ (s2 = ""%string \/ s2 = String "010" "") /\ numeric s1 (ERange a (norm_last a l st) st).
Proof.
  unfold match_range. pose proof (span_spec is_digit s) as SP. destruct (span is_digit s) as [[|c d] r]; [discriminate|]. destruct SP as (-> & A & _).
  assert (N : numeral (String c d) (dec (String c d))) by (apply numeral_iff; sp; [discriminate|auto|auto]). generalize dependent (dec (String c d)). generalize dependent (String c d). clear c d. intros d A n N.
  destruct (opt_number "-" r) as [l1 r1] eqn:O1. destruct (opt_number "/" r1) as [st1 r2] eqn:O2. destruct (at_end r2) eqn:E; [|discriminate]. intros [= <- <- <-].
  apply at_end_iff in E. apply opt_number_inv in O1. apply opt_number_inv in O2. destruct l1 as [b|], st1 as [k|].
  - destruct O1 as (d1 & -> & N1 & _). destruct O2 as (d2 & -> & N2 & _). exists (d ++ "-" ++ d1 ++ "/" ++ d2)%string, r2.
    split; [repeat (rewrite app_assoc_s; cbn [append]); auto|]. split; auto. apply n_range_every; auto.
  - destruct O1 as (d1 & -> & N1 & _). destruct O2 as [-> _]. exists (d ++ "-" ++ d1)%string, r1. split; [repeat (rewrite app_assoc_s; cbn [append]); auto|]. split; auto. apply n_range; auto.
  - destruct O1 as [-> _]. destruct O2 as (d2 & -> & N2 & _). exists (d ++ "/" ++ d2)%string, r2. split; [repeat (rewrite app_assoc_s; cbn [append]); auto|]. split; auto. apply n_from; auto.
  - destruct O1 as [-> _]. destruct O2 as [-> _]. exists d, r. split; auto. split; auto. apply n_one; auto.
Qed.

(** names *)
Lemma index_from_some s : forall l k i, index_from k s l = Some i -> k <= i /\ nth_error l (Z.to_nat (i - k)) = Some s.
Proof.
  induction l as [|x l IH]; cbn; intros k i; [discriminate|]. destruct (String.eqb_spec x s) as [->|].
  - intros [= <-]. split; [lia|]. rewrite Z.sub_diag. reflexivity.
  - intros H. apply IH in H as [H1 H2]. split; [lia|]. replace (Z.to_nat (i - k)) with (Datatypes.S (Z.to_nat (i - (k + 1)))) by lia. exact H2.
Qed.
Lemma index_from_nodup s : forall l k i, NoDup l -> 0 <= i -> nth_error l (Z.to_nat i) = Some s -> index_from k s l = Some (k + i).
Proof.
  induction l as [|x l IH]; cbn; intros k i N P H; [destruct (Z.to_nat i); discriminate|]. inversion N as [|? ? N1 N2]; subst. destruct (Z.eq_dec i 0) as [->|Hi].
  - cbn in H. injection H as ->. rewrite String.eqb_refl. f_equal. lia.
  - replace (Z.to_nat i) with (Datatypes.S (Z.to_nat (i - 1))) in H by lia. cbn in H. destruct (String.eqb_spec x s) as [->|]; [destruct N1; eapply nth_error_In; eauto|].
    rewrite (IH (k + 1) (i - 1)); auto; [f_equal; lia|lia].
Qed.
Lemma nodup_strings l : (fix go l := match l with [] => true | x :: l' => negb (existsb (String.eqb x) l') && go l' end) l = true -> NoDup l.
Proof.
  induction l as [|x l IH]; intros H; constructor.
  - apply andb_true_iff in H as [H _]. intros I. apply negb_true_iff in H. assert (existsb (String.eqb x) l = true) by (apply existsb_exists; exists x; split; auto; apply String.eqb_refl). congruence.
  - apply andb_true_iff in H as [_ H]. auto.
Qed.
Lemma index_iff l w i : NoDup l -> index (lower w) l = Some i <-> names l w i.
Proof.
  intros N. unfold index, names. split.
  - intros H. apply index_from_some in H as [H1 H2]. rewrite Z.sub_0_r in H2. auto.
  - intros [H1 H2]. rewrite (index_from_nodup _ _ 0 i N H1 H2). auto.
Qed.
Lemma nd_months : NoDup MONTHS. Proof. apply nodup_strings. reflexivity. Qed.
Lemma nd_weekdays : NoDup WEEKDAYS. Proof. apply nodup_strings. reflexivity. Qed.
Definition wordy (x : string) : bool := allc is_alpha x && negb (String.eqb x "") && negb (allc plain x).
Lemma names_wordy l w i : forallb wordy l = true -> names l w i -> allc is_alpha w = true /\ w <> ""%string /\ allc plain (lower w) = false.
Proof.
  intros F [_ H]. apply nth_error_In in H. rewrite forallb_forall in F. apply F in H. unfold wordy in H. apply andb_true_iff in H as [H H3]. apply andb_true_iff in H as [H1 H2].
  rewrite (allc_lower is_alpha) in H1 by (intros a; apply lower_keeps). sp; auto; [intros ->; discriminate|]. apply negb_true_iff in H3. auto.
Qed.
Lemma w_months : forallb wordy MONTHS = true. Proof. reflexivity. Qed.
Lemma w_weekdays : forallb wordy WEEKDAYS = true. Proof. reflexivity. Qed.
Lemma match_names_one w : allc is_alpha w = true -> w <> ""%string -> match_names w = Some (w, None).
Proof. intros A N. unfold match_names. pose proof (span_app is_alpha w "" A I) as S. rewrite app_nil_s in S. rewrite S. destruct w; [congruence|auto]. Qed.
Lemma match_names_two w1 w2 : allc is_alpha w1 = true -> w1 <> ""%string -> allc is_alpha w2 = true -> w2 <> ""%string -> match_names (w1 ++ "-" ++ w2) = Some (w1, Some w2).
Proof.
  intros A1 N1 A2 N2. unfold match_names. rewrite (span_app is_alpha w1 ("-" ++ w2) A1 eq_refl). destruct w1 as [|a w1]; [congruence|]. cbn [append]. rewrite Ascii.eqb_refl.
  pose proof (span_app is_alpha w2 "" A2 I) as S. rewrite app_nil_s in S. rewrite S. destruct w2; [congruence|auto].
Qed.
Lemma match_names_inv s w o : match_names s = Some (w, o) -> exists r, s = (w ++ match o with Some w2 => "-" ++ w2 ++ r | None => r end)%string.
Proof.
  unfold match_names. pose proof (span_spec is_alpha s) as S. destruct (span is_alpha s) as [[|a u] v]; [discriminate|]. destruct S as (-> & _ & _).
  destruct v as [|b v]; [intros [= <- <-]; exists ""%string; auto|]. destruct (Ascii.eqb_spec b "-") as [->|]; [|intros [= <- <-]; eauto].
  pose proof (span_spec is_alpha v) as S2. destruct (span is_alpha v) as [[|c u2] v2]; [intros [= <- <-]; eauto|]. destruct S2 as (-> & _ & _). intros [= <- <-]. exists v2. cbn. auto.
Qed.
(** positions *)
Lemma drop_app u v : drop (String.length u) (u ++ v) = v.
Proof. induction u as [|a u IH]; cbn; auto. Qed.
Lemma lower_len u : String.length (lower u) = String.length u.
Proof. induction u as [|a u IH]; cbn; auto. Qed.
Lemma lower_prefix o : forall s post, lower s = (o ++ post)%string -> exists u, s = (u ++ drop (String.length o) s)%string /\ lower u = o.
Proof.
  induction o as [|a o IH]; intros s post E; [exists ""%string; auto|]. destruct s as [|b s]; [discriminate|]. cbn in E. injection E as E1 E2.
  destruct (IH s post E2) as (u & Hu & Lu). exists (String b u). cbn. rewrite <- Hu, E1, Lu. auto.
Qed.
Lemma match_option_inv s : forall l j k r, match_option j l s = Some (k, r) -> exists u, s = (u ++ r)%string /\ j <= k /\ nth_error l (Z.to_nat (k - j)) = Some (lower u).
Proof.
  induction l as [|o l IH]; intros j k r; [discriminate|]. cbn [match_option]. destruct (starts_with o (lower s)) eqn:E.
  - intros [= <- <-]. apply starts_with_iff in E as [post E]. destruct (lower_prefix o s post E) as (u & Hu & Lu). exists u. rewrite Z.sub_diag. cbn. rewrite Lu. sp; auto; lia.
  - intros H. apply IH in H as (u & Hu & L & N). exists u. sp; auto; [lia|]. replace (Z.to_nat (k - j)) with (Datatypes.S (Z.to_nat (k - (j + 1)))) by lia. exact N.
Qed.
Lemma match_option_pos o k r : names positions o k -> match_option 0 OPTIONS (o ++ r) = Some (k, r).
Proof.
  intros [H1 H2]. assert (k < 6).
  { assert (L : (Z.to_nat k < List.length positions)%nat) by (apply nth_error_Some; rewrite H2; discriminate). cbn in L. lia. }
  assert (LN : forall o', lower o = o' -> drop (String.length o') (o ++ r) = r) by (intros o' <-; rewrite lower_len; apply drop_app).
  assert (C : k = 0 \/ k = 1 \/ k = 2 \/ k = 3 \/ k = 4 \/ k = 5) by lia. unfold OPTIONS.
  destruct C as [->|[->|[->|[->|[->| ->]]]]]; cbn in H2; injection H2 as H2; symmetry in H2; cbn [match_option]; rewrite lower_app, H2; cbn [starts_with append Ascii.eqb Bool.eqb andb];
    rewrite (LN _ H2); reflexivity.
Qed.
Lemma blanks_all n : allc is_blank (blanks n) = true.
Proof. induction n; cbn; auto. Qed.
Lemma all_blanks s : allc is_blank s = true -> s = blanks (String.length s).
Proof.
  induction s as [|a s IH]; cbn; auto. intros H. apply andb_true_iff in H as [H1 H2]. rewrite <- IH by auto. f_equal. unfold is_blank in H1. apply Z.eqb_eq in H1. unfold code_of in H1.
  rewrite <- (ascii_nat_embedding a). replace (nat_of_ascii a) with 32%nat by lia. reflexivity.
Qed.
Lemma alpha_kinds a : is_alpha a = true -> is_digit a = false /\ is_blank a = false /\ is_word a = true.
Proof. destruct a as [[] [] [] [] [] [] [] []]; vm_compute; intros H; try discriminate; auto. Qed.
Lemma match_pos_form o n w k i : names positions o k -> names weekdays w i -> match_pos (o ++ blanks (S n) ++ w) = Some (k, w).
Proof.
  intros O W. unfold match_pos. rewrite (match_option_pos o k _ O). destruct (names_wordy _ w i w_weekdays W) as (A & N & _).
  destruct w as [|a w]; [congruence|]. pose proof A as A0. cbn in A. apply andb_true_iff in A as [A1 A2]. destruct (alpha_kinds a A1) as (K1 & K2 & K3).
  rewrite (span_app is_blank (blanks (S n)) (String a w) (blanks_all (S n)) K2). cbn [blanks]. cbn [span]. rewrite K1, K3.
  pose proof (span_app is_word w "" (allc_impl is_alpha is_word w (fun b H => proj2 (proj2 (alpha_kinds b H))) A2) I) as S. rewrite app_nil_s in S. rewrite S. auto.
Qed.
Lemma match_pos_inv s k w : match_pos s = Some (k, w) -> exists o n r, names positions o k /\ s = (o ++ blanks (S n) ++ w ++ r)%string.
Proof.
  unfold match_pos. destruct (match_option 0 OPTIONS s) as [[k0 r]|] eqn:M; [|discriminate]. apply match_option_inv in M as (u & -> & L & N). rewrite Z.sub_0_r in N.
  pose proof (span_spec is_blank r) as S. destruct (span is_blank r) as [[|b bl] r1]; [discriminate|]. destruct S as (-> & B & _). pose proof (all_blanks _ B) as EB. cbn [String.length] in EB.
  pose proof (span_spec is_digit r1) as S1. pose proof (span_spec is_word r1) as S2.
  destruct (span is_digit r1) as [[|c d] v]; [destruct (span is_word r1) as [[|c d] v2]; [discriminate|]|]; intros [= <- <-].
  - destruct S2 as (-> & _). exists u, (String.length bl), v2. split; [split; auto|]. rewrite <- EB. auto.
  - destruct S1 as (-> & _). exists u, (String.length bl), v. split; [split; auto|]. rewrite <- EB. auto.
Qed.
Lemma pos_not_plain o r k : names positions o k -> allc plain (lower (o ++ r)) = false.
Proof.
  intros [_ H]. rewrite lower_app, allc_app. apply nth_error_In in H. cbn in H. assert (allc plain (lower o) = false) as ->; auto.
  repeat (destruct H as [<-|H]; [reflexivity|]). destruct H.
Qed.

(** C58: every documented form that is in the limits of its field is read as what it says *)
Theorem C58_documented_forms_accepted :
  forall (f lo hi : Z) (s : string) (e : cexpr), has_limits f lo hi -> written f s e -> acceptable lo hi e -> parse_expr f s = Ok e.
Proof.
  intros f lo hi s e L W A. destruct (limits_of f lo hi L) as (-> & -> & F). unfold parse_expr. destruct W as [W|W].
  - destruct (numeric_matches s e W) as [(st & -> & E)|(-> & a & l & st & -> & E)]; [apply mk_all_iff|apply mk_range_iff]; auto.
  - assert (ONE : forall w names' base i, allc is_alpha w = true -> w <> ""%string -> index (lower w) names' = Some i -> e = ERange (i + base) (Some (i + base)) None ->
      match match_names w with Some (w, w2) => mk_names f base names' w w2 | None => Err ValueError end = Ok e).
    { intros w ns b i A1 N1 I1 E. rewrite (match_names_one w A1 N1). unfold mk_names. rewrite I1. apply mk_range_iff. auto. }
    assert (TWO : forall w1 w2 names' base i j, allc is_alpha w1 = true -> w1 <> ""%string -> allc is_alpha w2 = true -> w2 <> ""%string -> index (lower w1) names' = Some i -> index (lower w2) names' = Some j ->
      e = ERange (i + base) (Some (j + base)) None -> match match_names (w1 ++ "-" ++ w2) with Some (w, w2) => mk_names f base names' w w2 | None => Err ValueError end = Ok e).
    { intros w1 w2 ns b i j A1 N1 A2 N2 I1 I2 E. rewrite (match_names_two w1 w2 A1 N1 A2 N2). unfold mk_names. rewrite I1, I2. apply mk_range_iff. auto. }
    destruct W as [w i -> H|w1 w2 i j -> H1 H2|w i -> H|w1 w2 i j -> H1 H2|o n w k i -> H1 H2| w -> H].
    + destruct (names_wordy MONTHS w i w_months H) as (A1 & N1 & P1). destruct (not_plain w P1) as [-> ->]. cbn [Z.eqb Pos.eqb].
      apply (ONE w MONTHS 1 i A1 N1); auto. apply (index_iff MONTHS w i nd_months); auto.
    + destruct (names_wordy MONTHS w1 i w_months H1) as (A1 & N1 & P1). destruct (names_wordy MONTHS w2 j w_months H2) as (A2 & N2 & _).
      destruct (not_plain (w1 ++ "-" ++ w2)) as [-> ->]; [rewrite lower_app, allc_app, P1; auto|]. cbn [Z.eqb Pos.eqb].
      apply (TWO w1 w2 MONTHS 1 i j A1 N1 A2 N2); auto; apply (index_iff MONTHS _ _ nd_months); auto.
    + destruct (names_wordy WEEKDAYS w i w_weekdays H) as (A1 & N1 & P1). destruct (not_plain w P1) as [-> ->]. cbn [Z.eqb Pos.eqb].
      apply (ONE w WEEKDAYS 0 i A1 N1); [apply (index_iff WEEKDAYS w i nd_weekdays); auto|rewrite !Z.add_0_r; auto].
    + destruct (names_wordy WEEKDAYS w1 i w_weekdays H1) as (A1 & N1 & P1). destruct (names_wordy WEEKDAYS w2 j w_weekdays H2) as (A2 & N2 & _).
      destruct (not_plain (w1 ++ "-" ++ w2)) as [-> ->]; [rewrite lower_app, allc_app, P1; auto|]. cbn [Z.eqb Pos.eqb].
      apply (TWO w1 w2 WEEKDAYS 0 i j A1 N1 A2 N2); [apply (index_iff WEEKDAYS _ _ nd_weekdays); auto|apply (index_iff WEEKDAYS _ _ nd_weekdays); auto|rewrite !Z.add_0_r; auto].
    + destruct (not_plain (o ++ blanks (S n) ++ w)) as [-> ->]; [eapply pos_not_plain; eauto|]. cbn [Z.eqb Pos.eqb]. rewrite (match_pos_form o n w k i H1 H2).
      apply (index_iff WEEKDAYS w i nd_weekdays) in H2. rewrite H2. auto.
    + assert (O : names positions w 5) by (split; [lia|rewrite H; reflexivity]). destruct (not_plain w) as [-> ->]; [rewrite H; reflexivity|]. cbn [Z.eqb Pos.eqb].
      unfold match_pos. pose proof (match_option_pos w 5 "" O) as M. rewrite app_nil_s in M. rewrite M. cbn [span]. rewrite H. reflexivity.
Qed.
Print Assumptions C58_documented_forms_accepted.

(** and whatever is accepted is a documented form in the limits of its field, except that a newline may
    follow a numeric form and anything at all may follow one with names *)
Theorem C58_only_documented_forms_with_tail :
  forall (f lo hi : Z) (s : string) (e : cexpr), has_limits f lo hi -> parse_expr f s = Ok e ->
    acceptable lo hi e /\ exists s1 s2, s = (s1 ++ s2)%string /\
      ((numeric s1 e /\ (s2 = ""%string \/ s2 = String "010" "")) \/ named f s1 e).
Proof.
  intros f lo hi s e L P. destruct (limits_of f lo hi L) as (-> & -> & F). unfold parse_expr in P.
  destruct (match_all s) as [st|] eqn:M1.
  { apply mk_all_iff in P as [-> A]. split; auto. destruct (match_all_numeric s st M1) as (s1 & s2 & E & S & N). exists s1, s2. auto. }
  destruct (match_range s) as [[[a l] st]|] eqn:M2.
  { apply mk_range_iff in P as [-> A]. split; auto. destruct (match_range_numeric s a l st M2) as (s1 & s2 & E & S & N). exists s1, s2. auto. }
  assert (NM : forall base ns, NoDup ns -> match match_names s with Some (w, w2) => mk_names f base ns w w2 | None => Err ValueError end = Ok e ->
     acceptable (fmin f) (fmax_const f) e /\ ((exists w i r, s = (w ++ r)%string /\ names ns w i /\ e = ERange (i + base) (Some (i + base)) None) \/
       exists w1 w2 i j r, s = ((w1 ++ "-" ++ w2) ++ r)%string /\ names ns w1 i /\ names ns w2 j /\ e = ERange (i + base) (Some (j + base)) None)).
  { intros base ns ND H. destruct (match_names s) as [[w w2]|] eqn:M; [|discriminate]. apply match_names_inv in M as [r E]. unfold mk_names in H.
    destruct (index (lower w) ns) as [i|] eqn:I1; [|discriminate]. apply (index_iff ns w i ND) in I1. destruct w2 as [w2|].
    - destruct (index (lower w2) ns) as [j|] eqn:I2; [|discriminate]. apply (index_iff ns w2 j ND) in I2. apply mk_range_iff in H as [E1 A]. split; auto. right. exists w, w2, i, j, r.
      split; [rewrite E; repeat (rewrite app_assoc_s; cbn [append]); auto|]. auto.
    - apply mk_range_iff in H as [E1 A]. split; auto. left. exists w, i, r. auto. }
  destruct (Z.eqb_spec f 1) as [->|]; [|destruct (Z.eqb_spec f 4) as [->|]; [|destruct (Z.eqb_spec f 2) as [->|]; [|discriminate]]].
  - apply (NM 1 MONTHS nd_months) in P as [A [(w & i & r & E & N & ->)|(w1 & w2 & i & j & r & E & N1 & N2 & ->)]]; (split; [auto|]).
    + exists w, r. split; auto. right. apply n_month; auto.
    + exists (w1 ++ "-" ++ w2)%string, r. split; auto. right. apply n_months; auto.
  - apply (NM 0 WEEKDAYS nd_weekdays) in P as [A [(w & i & r & E & N & ->)|(w1 & w2 & i & j & r & E & N1 & N2 & ->)]]; (split; [auto|]); rewrite !Z.add_0_r.
    + exists w, r. split; auto. right. apply n_wday; auto.
    + exists (w1 ++ "-" ++ w2)%string, r. split; auto. right. apply n_wdays; auto.
  - destruct (match_pos s) as [[k w]|] eqn:M.
    + destruct (index (lower w) WEEKDAYS) as [i|] eqn:I1; [|discriminate]. apply (index_iff WEEKDAYS w i nd_weekdays) in I1. injection P as <-. split; [exact I|].
      apply match_pos_inv in M as (o & m & r & O & ->). exists (o ++ blanks (S m) ++ w)%string, r. split; [rewrite !app_assoc_s; auto|]. right. apply n_pos; auto.
    + destruct (starts_with "last" (lower s)) eqn:SW; [|discriminate]. injection P as <-. split; [exact I|]. apply starts_with_iff in SW as [post SW].
      destruct (lower_prefix "last" s post SW) as (u & E & Lu). exists u, (drop 4 s). split; auto. right. apply n_last; auto.
Qed.
Print Assumptions C58_only_documented_forms_with_tail.

(** text that is no documented form is accepted: "jan-5" is January, "lastday" the last day, "mon-4" Monday *)
Theorem C58_tails_are_accepted :
  parse_expr 1 "jan-5" = Ok (ERange 1 (Some 1) None) /\ parse_expr 2 "last-friday" = Ok ELastDay /\ parse_expr 4 "mon-4" = Ok (ERange 0 (Some 0) None) /\
  forall e, ~ written 1 "jan-5" e.
Proof.
  split; [reflexivity|]. split; [reflexivity|]. split; [reflexivity|]. intros e [W|W].
  - assert (P : allc plain "jan-5" = true); [|discriminate P]. destruct (numeric_matches _ _ W) as [(st & M & _)|(_ & a & l & st & M & _)]; [eapply match_all_plain|eapply match_range_plain]; eauto.
  - remember "jan-5"%string as s eqn:Es. destruct W as [w i _ H|w1 w2 i j _ H1 H2|w i F H|w1 w2 i j F _ _|o n w k i F _ _| w F _]; try discriminate.
    + destruct (names_wordy MONTHS w i w_months H) as (A & _). rewrite Es in A. discriminate.
    + destruct (names_wordy MONTHS w1 i w_months H1) as (A1 & _). destruct (names_wordy MONTHS w2 j w_months H2) as (A2 & _).
      assert (K : allc (fun a => is_alpha a || Ascii.eqb a "-") (w1 ++ "-" ++ w2) = true); [|rewrite Es in K; discriminate K].
      rewrite !allc_app. assert (Q : forall w, allc is_alpha w = true -> allc (fun a => is_alpha a || Ascii.eqb a "-") w = true) by (intros w; apply allc_impl; intros a ->; auto).
      rewrite (Q w1 A1), (Q w2 A2). reflexivity.
Qed.
Print Assumptions C58_tails_are_accepted.
Example C58_case : parse_field 2 " 1st mon , LAST  Fri,*/10 , 5-20/5,last " = Ok [EWeekdayPos 0 0; EWeekdayPos 5 4; EAll (Some 10); ERange 5 (Some 20) (Some 5); ELastDay] /\
  parse_field 4 "MON-fri,6" = Ok [ERange 0 (Some 4) None; ERange 6 (Some 6) None] /\ parse_field 5 "24" = Err ValueError /\ parse_field 5 "1,,2" = Err ValueError /\ parse_field 6 "50-10" = Err ValueError /\
  parse_field 7 "*/0" = Err ValueError.
Proof. repeat split; reflexivity. Qed.

(** *** lists *)
Lemma split_app c u s : (forall x y, u <> (x ++ String c y)%string) -> split_on c (u ++ String c s) = u :: split_on c s.
Proof.
  induction u as [|a u IH]; cbn; intros N; [rewrite Ascii.eqb_refl; auto|]. destruct (Ascii.eqb_spec a c) as [->|].
  - destruct (N ""%string u). auto.
  - rewrite IH; auto. intros x y ->. apply (N (String a x) y). auto.
Qed.
Lemma split_none c u : (forall x y, u <> (x ++ String c y)%string) -> split_on c u = [u].
Proof.
  induction u as [|a u IH]; cbn; intros N; auto. destruct (Ascii.eqb_spec a c) as [->|]; [destruct (N ""%string u); auto|].
  rewrite IH; auto. intros x y ->. apply (N (String a x) y). auto.
Qed.
Definition trim (w : string) : string := rblank (lblank w).
Lemma trim_blanks n s : map trim (split_on "," (blanks n ++ s)) = map trim (split_on "," s).
Proof.
  induction n as [|n IH]; cbn; auto. destruct (split_on "," (blanks n ++ s)) as [|w l] eqn:E; [destruct (split_on_nonempty "," (blanks n ++ s)); auto|].
  cbn in *. rewrite <- IH. f_equal.
Qed.
Lemma space_blank a : is_space a = false -> is_blank a = false.
Proof. destruct a as [[] [] [] [] [] [] [] []]; vm_compute; auto. Qed.
Lemma rblank_app u a m : is_blank a = false -> rblank (u ++ String a (blanks m)) = (u ++ String a "")%string.
Proof.
  intros A. assert (B : rblank (blanks m) = ""%string) by (induction m as [|m IH]; cbn; auto; rewrite IH; auto).
  induction u as [|b u IH]; cbn; [rewrite B, A; auto|]. rewrite IH. destruct (u ++ String a "")%string eqn:E; auto. destruct u; discriminate.
Qed.
Lemma trim_tidy w m : tidy w -> trim (w ++ blanks m) = w.
Proof.
  intros (_ & (a & u & E1 & A) & (v & b & E2 & B)). unfold trim. assert (lblank (w ++ blanks m) = (w ++ blanks m)%string) as ->.
  { rewrite E1. cbn. rewrite (space_blank a A). auto. }
  rewrite E2, app_assoc_s. cbn [append]. apply rblank_app. apply space_blank; auto.
Qed.
Lemma no_comma_blanks m : no_comma (blanks m).
Proof. induction m as [|m IH]; intros u v; cbn; [destruct u; discriminate|]. destruct u as [|a u]; cbn; [discriminate|]. intros [= _ E]. apply (IH u v E). Qed.
Lemma no_comma_app a b : no_comma a -> no_comma b -> no_comma (a ++ b).
Proof.
  revert b. induction a as [|x a IH]; cbn; auto. intros b A B u v E. destruct u as [|y u]; cbn in E.
  - injection E as -> E. apply (A ""%string a). auto.
  - injection E as -> E. apply (IH b) with (u := u) (v := v); auto. intros p q ->. apply (A (String y p) q). auto.
Qed.
Lemma listed_parts ws s : listed ws s -> (forall w, In w ws -> tidy w) -> map trim (split_on "," s) = ws.
Proof.
  induction 1 as [w|w ws s m n L IH]; intros T.
  - rewrite split_none by (apply (T w); left; auto). cbn. f_equal. pose proof (trim_tidy w 0 (T w (or_introl eq_refl))) as H. cbn in H. rewrite app_nil_s in H. auto.
  - rewrite <- app_assoc_s. cbn [append]. rewrite split_app; [|apply no_comma_app; [apply (T w); left; auto|apply no_comma_blanks]].
    cbn [map]. rewrite trim_tidy by (apply T; left; auto). rewrite trim_blanks, IH; auto. intros w' H. apply T. right. auto.
Qed.
Lemma listed_ends ws s : listed ws s -> (forall w, In w ws -> tidy w) -> (exists a u, s = String a u /\ is_space a = false) /\ (exists u a, s = (u ++ String a "")%string /\ is_space a = false).
Proof.
  induction 1 as [w|w ws s m n L IH]; intros T; [destruct (T w) as (_ & A & B); auto; left; auto|].
  destruct IH as (_ & u & a & -> & A); [intros w' H; apply T; right; auto|]. destruct (T w (or_introl eq_refl)) as (_ & (b & v & -> & B) & _). split.
  - exists b. eexists. split; [reflexivity|auto].
  - exists (String b v ++ blanks m ++ "," ++ blanks n ++ u)%string, a. split; auto. repeat (rewrite app_assoc_s; cbn [append]). auto.
Qed.
Lemma lstrip_spaces p s : spaces p -> lstrip (p ++ s) = lstrip s.
Proof. induction p as [|a p IH]; cbn; auto. intros [-> H]. auto. Qed.
Lemma rstrip_spaces q : spaces q -> rstrip q = ""%string.
Proof. induction q as [|a q IH]; cbn; auto. intros [A H]. rewrite (IH H), A. auto. Qed.
Lemma rstrip_app u a q : is_space a = false -> spaces q -> rstrip (u ++ String a q) = (u ++ String a "")%string.
Proof.
  intros A Q. induction u as [|b u IH]; cbn; [rewrite (rstrip_spaces q Q), A; auto|]. rewrite IH. destruct (u ++ String a "")%string eqn:E; auto. destruct u; discriminate.
Qed.
Lemma strip_listed p s q : spaces p -> spaces q -> (exists a u, s = String a u /\ is_space a = false) -> (exists u a, s = (u ++ String a "")%string /\ is_space a = false) -> strip (p ++ s ++ q) = s.
Proof.
  intros P Q (a & u & E1 & A) (v & b & E2 & B). unfold strip. rewrite lstrip_spaces by auto. assert (lstrip (s ++ q) = (s ++ q)%string) as -> by (rewrite E1; cbn; rewrite A; auto).
  rewrite E2, app_assoc_s. cbn [append]. apply rstrip_app; auto.
Qed.
Lemma mapM_iff {A B} (g : A -> result B) l ys : mapM g l = Ok ys <-> Forall2 (fun x y => g x = Ok y) l ys.
Proof.
  revert ys. induction l as [|x l IH]; cbn; intros ys; [split; [intros [= <-]; constructor|intros H; inversion H; auto]|].
  destruct (g x) as [y|e] eqn:G; [|split; [discriminate|intros H; inversion H; congruence]].
  destruct (mapM g l) as [zs|e] eqn:M.
  - split; [intros [= <-]; constructor; auto; apply IH; auto|]. intros H. inversion H; subst. apply IH in H4. congruence.
  - split; [discriminate|]. intros H. inversion H; subst. apply IH in H4. discriminate.
Qed.
(** a comma list is accepted when each of its members is, and is read as the members in order; white
    space around it and blanks around its commas do not matter *)
Theorem C58_comma_lists :
  forall (f : Z) (ws : list string) (p s q : string) (es : list cexpr),
    listed ws s -> (forall w, In w ws -> tidy w) -> spaces p -> spaces q ->
    (parse_field f (p ++ s ++ q) = Ok es <-> Forall2 (fun w e => parse_expr f w = Ok e) ws es).
Proof.
  intros f ws p s q es L T P Q. destruct (listed_ends ws s L T) as [E1 E2]. unfold parse_field, parts. rewrite (strip_listed p s q P Q E1 E2).
  change (fun w : string => rblank (lblank w)) with trim. rewrite (listed_parts ws s L T). apply mapM_iff.
Qed.
Print Assumptions C58_comma_lists.

(** *** constructed triggers satisfy the hypotheses of C09-C11 *)
Lemma acceptable_ok f e : acceptable (fmin f) (fmax_const f) e -> match e with EAll _ | ERange _ _ _ => True | _ => False end -> expr_ok f e = true.
Proof.
  intros A K. destruct e as [st|a l st| |]; try contradiction; cbn [expr_ok]; unfold step_ok.
  - destruct st as [n|]; auto. cbn in A. lia.
  - destruct l as [b|], st as [n|]; cbn in A; try contradiction; try destruct (Z.eqb_spec b 0); try lia.
Qed.
Lemma parse_expr_ok f s e : 0 <= f <= 7 -> parse_expr f s = Ok e -> expr_ok f e = true.
Proof.
  intros F P. destruct (C58_only_documented_forms_with_tail f _ _ s e (limits_ex f F) P) as (A & s1 & s2 & _ & [(N & _)|N]).
  - apply acceptable_ok; auto. destruct N; exact I.
  - destruct N as [w i -> H|w1 w2 i j -> H1 H2|w i -> H|w1 w2 i j -> H1 H2|o n w k i -> H1 H2|w -> H]; try (apply acceptable_ok; [exact A|exact I]); [|reflexivity].
    cbn. assert (0 <= k < 6).
    { destruct H1 as [H0 H1]. assert (L : (Z.to_nat k < List.length positions)%nat) by (apply nth_error_Some; rewrite H1; discriminate). cbn in L. lia. }
    assert (0 <= i < 7).
    { destruct H2 as [H0 H2]. assert (L : (Z.to_nat i < List.length weekdays)%nat) by (apply nth_error_Some; rewrite H2; discriminate). cbn in L. lia. }
    lia.
Qed.
Lemma parse_field_ok f s es : 0 <= f <= 7 -> parse_field f s = Ok es -> field_ok f es = true.
Proof.
  intros F P. unfold parse_field in P. pose proof (proj1 (mapM_iff _ _ _) P) as H. unfold field_ok. assert (N : es <> []).
  { intros ->. inversion H as [E|]. unfold parts in E. symmetry in E. apply map_eq_nil in E. apply (split_on_nonempty _ _ E). }
  destruct es as [|e es]; [congruence|]. apply forallb_forall. intros x I. clear N P. induction H; [destruct I|]. destruct I as [<-|I]; auto. eapply parse_expr_ok; eauto.
Qed.

(** *** defaults *)
Definition ge (f : Z) (given : list (Z * string)) : list (Z * string) := filter (fun kv => f <=? fst kv) given.
Definition dflt (f : Z) (given : list (Z * string)) : bool := match given with [] => false | _ => match ge f given with [] => true | _ => false end end.
Definition text (given : list (Z * string)) (f : Z) : string :=
  match zget f given with Some s => s | None => if dflt f given then default_text f else "*"%string end.
Lemma zget_ge f given : zget f (ge f given) = zget f given.
Proof.
  unfold zget, ge. induction given as [|[k s] l IH]; cbn; auto. destruct (Z.leb_spec f k); cbn; destruct (Z.eqb_spec k f); auto; try lia.
Qed.
Lemma zpop_ge f given : zpop f (ge f given) = ge (f + 1) given.
Proof.
  unfold zpop, ge. induction given as [|[k s] l IH]; cbn; auto. destruct (Z.leb_spec f k); cbn.
  - destruct (Z.eqb_spec k f); cbn; destruct (Z.leb_spec (f + 1) k); try lia; rewrite IH; auto.
  - destruct (Z.leb_spec (f + 1) k); try lia; auto.
Qed.
Lemma ge_next f given : zget f given = None -> ge (f + 1) given = ge f given.
Proof.
  unfold zget, ge. induction given as [|[k s] l IH]; cbn; auto. destruct (Z.eqb_spec k f); cbn; [discriminate|]. intros H.
  destruct (Z.leb_spec f k), (Z.leb_spec (f + 1) k); try lia; rewrite IH; auto.
Qed.
Lemma assign_step f rest given :
  assign (f :: rest) (ge f given) (dflt f given) =
  match parse_field f (text given f) with
  | Err e => Err e
  | Ok es => match assign rest (ge (f + 1) given) (dflt (f + 1) given) with Err e => Err e | Ok l => Ok (es :: l) end
  end.
Proof.
  cbn [assign]. rewrite zget_ge. unfold text. destruct (zget f given) as [s|] eqn:G.
  - rewrite zpop_ge. assert (D : dflt (f + 1) given = match ge (f + 1) given with [] => true | _ => false end) by (unfold dflt; destruct given; [discriminate|auto]).
    rewrite D. reflexivity.
  - assert (E : dflt (f + 1) given = dflt f given) by (unfold dflt; rewrite (ge_next f given G); auto). rewrite E, (ge_next f given G).
    destruct (dflt f given); reflexivity.
Qed.
Lemma zget_written f given s : zget f given = Some s <-> written_for given f s.
Proof.
  unfold zget, written_for. induction given as [|[k x] l IH]; cbn.
  - split; [discriminate|]. intros (l1 & l2 & E & _). destruct l1; discriminate.
  - destruct (Z.eqb_spec k f) as [->|N]; cbn.
    + split; [intros [= ->]; exists [], l; split; [auto|cbn; tauto]|]. intros ([|[k1 x1] l1] & l2 & E & NI); [injection E as <- _; auto|]. cbn in NI. injection E as <- _ _. tauto.
    + rewrite IH. split; intros (l1 & l2 & E & NI).
      * exists ((k, x) :: l1), l2. rewrite E. split; [auto|]. cbn. tauto.
      * destruct l1 as [|[k1 x1] l1]; [injection E as -> _ _; tauto|]. injection E as _ _ E. exists l1, l2. split; auto. cbn in NI. tauto.
Qed.
Lemma zget_none f given : zget f given = None <-> ~ In f (map fst given).
Proof.
  unfold zget. induction given as [|[k x] l IH]; cbn; [tauto|]. destruct (Z.eqb_spec k f) as [->|N]; cbn; [split; [discriminate|tauto]|]. rewrite IH. tauto.
Qed.
Lemma ge_nil f given : ge f given = [] <-> forall g, In g (map fst given) -> g < f.
Proof.
  unfold ge. induction given as [|[k x] l IH]; cbn; [split; [intros _ g []|auto]|]. destruct (Z.leb_spec f k); cbn.
  - split; [discriminate|]. intros H0. specialize (H0 k (or_introl eq_refl)). lia.
  - rewrite IH. split; [intros H0 g [<-|I]; auto|intros H0 g I; auto].
Qed.
Lemma text_spec given f : 0 <= f <= 7 -> text_of given f (text given f).
Proof.
  intros F. unfold text. destruct (zget f given) as [s|] eqn:G; [apply t_given, zget_written; auto|]. apply zget_none in G.
  unfold dflt. destruct given as [|kv l] eqn:E; [apply t_before; auto|]. rewrite <- E in *. destruct (ge f given) as [|[k x] m] eqn:GE.
  - apply t_after; [rewrite E; discriminate|apply ge_nil; auto|].
    assert (C : f = 0 \/ f = 1 \/ f = 2 \/ f = 3 \/ f = 4 \/ f = 5 \/ f = 6 \/ f = 7) by lia. destruct C as [->|[->|[->|[->|[->|[->|[->| ->]]]]]]]; reflexivity.
  - apply t_before; auto. right. exists k. assert (I : In (k, x) (ge f given)) by (rewrite GE; left; auto). unfold ge in I. apply filter_In in I as [I1 I2]. cbn in I2.
    assert (In k (map fst given)) by (apply in_map_iff; exists (k, x); auto). split; auto. destruct (Z.eq_dec k f) as [->|]; [contradiction|lia].
Qed.
Lemma text_unique given f s : 0 <= f <= 7 -> text_of given f s -> s = text given f.
Proof.
  intros F. unfold text. destruct 1 as [s W|s N L M|N L].
  - apply zget_written in W. rewrite W. auto.
  - assert (G : zget f given = None) by (apply zget_none; intros I; specialize (L f I); lia). rewrite G.
    unfold dflt. destruct given as [|kv l] eqn:E; [congruence|]. rewrite <- E in *. rewrite (proj2 (ge_nil f given) L).
    assert (C : f = 0 \/ f = 1 \/ f = 2 \/ f = 3 \/ f = 4 \/ f = 5 \/ f = 6 \/ f = 7) by lia. destruct C as [->|[->|[->|[->|[->|[->|[->| ->]]]]]]]; cbn in M; injection M as <-; reflexivity.
  - rewrite (proj2 (zget_none f given) N). unfold dflt. destruct given as [|kv l] eqn:E; auto. rewrite <- E in *. destruct L as [L|(g & I & L)]; [congruence|].
    destruct (ge f given) eqn:GE; auto. rewrite ge_nil in GE. specialize (GE g I). lia.
Qed.

(** C12.  Whatever fields are written, the trigger is built exactly when the text of each of the eight
    fields - the one given, its minimum when it comes after every given one, otherwise * - is
    accepted, and consists of those; otherwise the error is the one of such a field. *)
Theorem C12_defaults :
  forall (given : list (Z * string)), (forall g, In g (map fst given) -> 0 <= g <= 7) ->
    match cron_new given with
    | Ok tb => tab_ok tb = true /\ forall f s, 0 <= f <= 7 -> text_of given f s -> parse_field f s = Ok (tfield tb f)
    | Err e => exists f s, 0 <= f <= 7 /\ text_of given f s /\ parse_field f s = Err e
    end.
Proof.
  intros given R. unfold cron_new. assert (G0 : ge 0 given = given).
  { unfold ge. clear - R. induction given as [|[k s] l IH]; cbn; auto. destruct (Z.leb_spec 0 k) as [|L]; [rewrite IH; auto|].
    - intros g I. apply R. right. auto.
    - specialize (R k (or_introl eq_refl)). lia. }
  assert (D0 : dflt 0 given = false) by (unfold dflt; rewrite G0; destruct given; auto).
  assert (A0 : assign all_fields given false = assign all_fields (ge 0 given) (dflt 0 given)) by (rewrite G0, D0; auto).
  rewrite A0. unfold all_fields. clear A0 D0 G0 R.
  assert (X : forall f e, 0 <= f <= 7 -> parse_field f (text given f) = Err e -> exists f s, 0 <= f <= 7 /\ text_of given f s /\ parse_field f s = Err e).
  { intros f e F E. exists f, (text given f). split; [auto|]. split; [apply text_spec; auto|auto]. }
  rewrite assign_step. destruct (parse_field 0 (text given 0)) as [e0|] eqn:P0; [|apply (X 0); auto; lia].
  rewrite assign_step. destruct (parse_field (0 + 1) (text given (0 + 1))) as [e1|] eqn:P1; [|apply (X 1); auto; lia].
  rewrite assign_step. destruct (parse_field (0 + 1 + 1) (text given (0 + 1 + 1))) as [e2|] eqn:P2; [|apply (X 2); auto; lia].
  rewrite assign_step. destruct (parse_field (0 + 1 + 1 + 1) (text given (0 + 1 + 1 + 1))) as [e3|] eqn:P3; [|apply (X 3); auto; lia].
  rewrite assign_step. destruct (parse_field (0 + 1 + 1 + 1 + 1) (text given (0 + 1 + 1 + 1 + 1))) as [e4|] eqn:P4; [|apply (X 4); auto; lia].
  rewrite assign_step. destruct (parse_field (0 + 1 + 1 + 1 + 1 + 1) (text given (0 + 1 + 1 + 1 + 1 + 1))) as [e5|] eqn:P5; [|apply (X 5); auto; lia].
  rewrite assign_step. destruct (parse_field (0 + 1 + 1 + 1 + 1 + 1 + 1) (text given (0 + 1 + 1 + 1 + 1 + 1 + 1))) as [e6|] eqn:P6; [|apply (X 6); auto; lia].
  rewrite assign_step. destruct (parse_field (0 + 1 + 1 + 1 + 1 + 1 + 1 + 1) (text given (0 + 1 + 1 + 1 + 1 + 1 + 1 + 1))) as [e7|] eqn:P7; [|apply (X 7); auto; lia].
  cbn [assign]. split.
  - unfold tab_ok. cbn [forallb]. pose proof (parse_field_ok 0 _ _ ltac:(lia) P0) as K0. pose proof (parse_field_ok 1 _ _ ltac:(lia) P1) as K1.
    pose proof (parse_field_ok 2 _ _ ltac:(lia) P2) as K2. pose proof (parse_field_ok 3 _ _ ltac:(lia) P3) as K3. pose proof (parse_field_ok 4 _ _ ltac:(lia) P4) as K4.
    pose proof (parse_field_ok 5 _ _ ltac:(lia) P5) as K5. pose proof (parse_field_ok 6 _ _ ltac:(lia) P6) as K6. pose proof (parse_field_ok 7 _ _ ltac:(lia) P7) as K7.
    repeat (apply andb_true_intro; split; [assumption|]). reflexivity.
  - intros f s F T. rewrite (text_unique given f s F T).
    assert (C : f = 0 \/ f = 1 \/ f = 2 \/ f = 3 \/ f = 4 \/ f = 5 \/ f = 6 \/ f = 7) by lia.
    destruct C as [->|[->|[->|[->|[->|[->|[->| ->]]]]]]]; assumption.
Qed.
Print Assumptions C12_defaults.
(** the text of a field is determined by what is given *)
Theorem C12_one_text : forall given f, 0 <= f <= 7 -> exists s, text_of given f s /\ forall s', text_of given f s' -> s' = s.
Proof. intros given f F. exists (text given f). split; [apply text_spec; auto|]. intros s'. apply text_unique; auto. Qed.
Print Assumptions C12_one_text.

(** *** crontab lines *)
Lemma words_spaces p : forall s, spaces p -> words_from "" (p ++ s) = words_from "" s.
Proof. induction p as [|a p IH]; cbn; intros s; auto. intros [-> H]. auto. Qed.
Lemma words_solid w : forall cur s, solid w -> words_from cur (w ++ s) = words_from (cur ++ w) s.
Proof.
  induction w as [|a w IH]; cbn; intros cur s; [rewrite app_nil_s; auto|]. intros [-> H]. rewrite IH by auto. rewrite app_assoc_s. auto.
Qed.
Lemma spaced_words ws s : spaced ws s -> words s = ws.
Proof.
  unfold words. induction 1 as [p P|p w ws s P W N L IH E].
  - pose proof (words_spaces p "" P) as H. rewrite app_nil_s in H. rewrite H. auto.
  - rewrite words_spaces, words_solid by auto. cbn [append]. destruct E as [->|(a & s' & -> & A)].
    + cbn in IH |- *. rewrite <- IH. destruct w; [congruence|auto].
    + cbn in IH |- *. rewrite A in *. destruct w as [|b w]; [congruence|]. rewrite IH. auto.
Qed.
(** C12.  A line is five words; minute, hour, day, month and day of the week are read from them, in
    that order, years and weeks are unrestricted and the second is 0. *)
Theorem C12_from_crontab :
  forall (ws : list string) (line : string), spaced ws line ->
    (List.length ws <> 5%nat -> from_crontab line = Err ValueError) /\
    (forall mi h d mo dw, ws = [mi; h; d; mo; dw] ->
       match from_crontab line with
       | Ok tb => parse_field 6 mi = Ok (t_minute tb) /\ parse_field 5 h = Ok (t_hour tb) /\ parse_field 2 d = Ok (t_day tb) /\
                  parse_field 1 mo = Ok (t_month tb) /\ parse_field 4 dw = Ok (t_dow tb) /\
                  t_year tb = [EAll None] /\ t_week tb = [EAll None] /\ t_second tb = [ERange 0 (Some 0) None] /\ tab_ok tb = true
       | Err e => parse_field 6 mi = Err e \/ parse_field 5 h = Err e \/ parse_field 2 d = Err e \/ parse_field 1 mo = Err e \/ parse_field 4 dw = Err e
       end).
Proof.
  intros ws line L. unfold from_crontab. rewrite (spaced_words ws line L). split.
  - intros N. destruct ws as [|a [|b [|c [|d [|e [|f ws]]]]]]; cbn in N; auto; lia.
  - intros mi h d mo dw ->. set (given := [(1, mo); (2, d); (4, dw); (5, h); (6, mi)]).
    assert (R : forall g, In g (map fst given) -> 0 <= g <= 7) by (cbn; intros g H; lia).
    pose proof (C12_defaults given R) as C. pose proof (text_spec given) as T.
    assert (T0 : text given 0 = "*"%string) by reflexivity. assert (T1 : text given 1 = mo) by reflexivity. assert (T2 : text given 2 = d) by reflexivity.
    assert (T3 : text given 3 = "*"%string) by reflexivity. assert (T4 : text given 4 = dw) by reflexivity. assert (T5 : text given 5 = h) by reflexivity.
    assert (T6 : text given 6 = mi) by reflexivity. assert (T7 : text given 7 = "0"%string) by reflexivity.
    destruct (cron_new given) as [tb|e].
    + destruct C as [OK C]. assert (F : forall f, 0 <= f <= 7 -> parse_field f (text given f) = Ok (tfield tb f)) by (intros f B; apply C; auto).
      pose proof (F 0 ltac:(lia)) as F0. pose proof (F 1 ltac:(lia)) as F1. pose proof (F 2 ltac:(lia)) as F2. pose proof (F 3 ltac:(lia)) as F3.
      pose proof (F 4 ltac:(lia)) as F4. pose proof (F 5 ltac:(lia)) as F5. pose proof (F 6 ltac:(lia)) as F6. pose proof (F 7 ltac:(lia)) as F7.
      rewrite T0 in F0. rewrite T1 in F1. rewrite T2 in F2. rewrite T3 in F3. rewrite T4 in F4. rewrite T5 in F5. rewrite T6 in F6. rewrite T7 in F7.
      change (tfield tb 0) with (t_year tb) in F0. change (tfield tb 3) with (t_week tb) in F3. change (tfield tb 7) with (t_second tb) in F7.
      assert (Q0 : parse_field 0 "*" = Ok [EAll None]) by (vm_compute; reflexivity). assert (Q3 : parse_field 3 "*" = Ok [EAll None]) by (vm_compute; reflexivity).
      assert (Q7 : parse_field 7 "0" = Ok [ERange 0 (Some 0) None]) by (vm_compute; reflexivity).
      assert (t_year tb = [EAll None]) by congruence. assert (t_week tb = [EAll None]) by congruence. assert (t_second tb = [ERange 0 (Some 0) None]) by congruence.
      auto 12.
    + destruct C as (f & s & B & X & P). rewrite (text_unique given f s B X) in P.
      assert (K : f = 0 \/ f = 1 \/ f = 2 \/ f = 3 \/ f = 4 \/ f = 5 \/ f = 6 \/ f = 7) by lia.
      destruct K as [->|[->|[->|[->|[->|[->|[->| ->]]]]]]]; auto; rewrite ?T0, ?T3, ?T7 in P; vm_compute in P; discriminate.
Qed.
Print Assumptions C12_from_crontab.
Example ex_line : spaced ["0"; "*/6"; "last"; "jan-jun"; "mon,fri"]%string "  0 */6 last  jan-jun mon,fri ".
Proof.
  apply (s_word "  " "0" _ " */6 last  jan-jun mon,fri "); [cbn; auto|cbn; auto 20|discriminate| |right; eexists; eexists; split; [reflexivity|reflexivity]].
  apply (s_word " " "*/6" _ " last  jan-jun mon,fri "); [cbn; auto|cbn; auto 20|discriminate| |right; eexists; eexists; split; [reflexivity|reflexivity]].
  apply (s_word " " "last" _ "  jan-jun mon,fri "); [cbn; auto|cbn; auto 20|discriminate| |right; eexists; eexists; split; [reflexivity|reflexivity]].
  apply (s_word "  " "jan-jun" _ " mon,fri "); [cbn; auto|cbn; auto 20|discriminate| |right; eexists; eexists; split; [reflexivity|reflexivity]].
  apply (s_word " " "mon,fri" _ " "); [cbn; auto|cbn; auto 20|discriminate| |right; eexists; eexists; split; [reflexivity|reflexivity]].
  apply s_none. cbn. auto.
Qed.
Example ex_line_means : from_crontab "  0 */6 last  jan-jun mon,fri " =
  Ok (MkTab [EAll None] [ERange 1 (Some 6) None] [ELastDay] [EAll None] [ERange 0 (Some 0) None; ERange 4 (Some 4) None] [EAll (Some 6)] [ERange 0 (Some 0) None] [ERange 0 (Some 0) None]).
Proof. vm_compute. reflexivity. Qed.
(** observation: the crontab format that from_crontab refers to (trigger.py:150-152) counts days of
    the week from Sunday; here 0 is read as the first of mon..sun *)
Example ex_zero_is_monday : parse_field 4 "0" = parse_field 4 "mon".
Proof. vm_compute. reflexivity. Qed.
