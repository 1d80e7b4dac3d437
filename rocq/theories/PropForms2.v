(** C59: trigger forms of the dashboard. *)
From Verif Require Import Prelude PreludeFacts Text FloatDiv Cron CronParse CronParseSpec Triggers PropCronText Forms FormsSpec PropForms.
Open Scope Z_scope.

(** *** int() *)
Fixpoint irun (acc : Z) (seen : bool) (s : string) : option (Z * bool) :=
  match s with
  | EmptyString => Some (acc, seen)
  | String a s' => if is_digit a then irun (10 * acc + (code_of a - 48)) true s'
                   else if Ascii.eqb a "_" then if seen then irun acc false s' else None else None
  end.
Lemma int_digits_run s : forall acc seen, int_digits acc seen s = match irun acc seen s with Some (n, true) => Some n | _ => None end.
Proof.
  induction s as [|a s IH]; intros acc seen; cbn; [destruct seen; auto|]. destruct (is_digit a); auto. destruct (Ascii.eqb a "_"); auto. destruct seen; auto.
Qed.
Lemma irun_app s : forall t acc seen, irun acc seen (s ++ t) = match irun acc seen s with Some (n, b) => irun n b t | None => None end.
Proof.
  induction s as [|a s IH]; intros t acc seen; cbn; auto. destruct (is_digit a); auto. destruct (Ascii.eqb a "_"); auto. destruct seen; auto.
Qed.
Lemma irun_grouped s n : irun 0 false s = Some (n, true) <-> grouped s n.
Proof.
  split.
  - assert (G : forall m s n b, String.length s = m -> irun 0 false s = Some (n, b) -> if b then grouped s n else (s = ""%string /\ n = 0) \/ exists d, s = (d ++ "_")%string /\ grouped d n).
    { induction m as [|m IH]; intros t k b L.
      - destruct t; [|discriminate]. cbn. intros [= <- <-]. auto.
      - destruct (snoc_s t) as (u & a & ->); [intros ->; discriminate|]. rewrite len_app in L. cbn in L. rewrite irun_app. destruct (irun 0 false u) as [[k' b']|] eqn:E; [|discriminate].
        specialize (IH u k' b' ltac:(lia) E). cbn. destruct (is_digit a) eqn:D.
        + intros [= <- <-]. assert (DG : digit (code_of a - 48) a) by (apply digit_iff; auto). destruct b'.
          * apply g_more; auto.
          * destruct IH as [[-> ->]|(d & -> & Gd)]; [apply g_one; auto|]. rewrite app_assoc_s. apply g_under; auto.
        + destruct (Ascii.eqb_spec a "_") as [->|]; [|discriminate]. destruct b'; [|discriminate]. intros [= <- <-]. right. exists u. auto. }
    intros H. apply (G (String.length s) s n true eq_refl H).
  - induction 1 as [k a D|d n k a N IH D|d n k a N IH D]; apply digit_iff in D as [D ->].
    + cbn. rewrite D. auto.
    + rewrite irun_app, IH. cbn. rewrite D. auto.
    + rewrite irun_app, IH. cbn. rewrite D. auto.
Qed.
Lemma grouped_ends d n : grouped d n -> (exists a u, d = String a u /\ is_digit a = true) /\ (exists u a, d = (u ++ String a "")%string /\ is_digit a = true).
Proof.
  induction 1 as [k a D|d n k a N [(b & u & -> & B) _] D|d n k a N [(b & u & -> & B) _] D]; apply digit_iff in D as [D ->].
  - split; [exists a, ""%string; auto|exists ""%string, a; auto].
  - split; [exists b, (u ++ String a "")%string; auto|exists (String b u), a; auto].
  - split; [exists b, (u ++ "_" ++ String a "")%string; auto|exists (String b u ++ "_")%string, a; rewrite app_assoc_s; auto].
Qed.
Lemma signed_ends d n : signed d n -> (exists a u, d = String a u /\ is_space a = false) /\ (exists u a, d = (u ++ String a "")%string /\ is_digit a = true /\ is_space a = false).
Proof.
  intros H. assert (X : exists g s m, d = (s ++ g)%string /\ grouped g m /\ (s = "" \/ s = "+" \/ s = "-")%string).
  { destruct H as [d n G|d n G|d n G]; [exists d, ""%string, n|exists d, "+"%string, n|exists d, "-"%string, n]; auto. }
  destruct X as (g & s & m & -> & G & S). destruct (grouped_ends g m G) as [(a & u & -> & A) (v & b & E & B)]. split.
  - destruct (digit_plain a A) as (SA & _). destruct S as [->|[->| ->]]; [exists a, u|exists "+"%char, (String a u)|exists "-"%char, (String a u)]; auto.
  - exists (s ++ v)%string, b. rewrite E, app_assoc_s. destruct (digit_plain b B) as (SB & _). auto.
Qed.
Lemma strip_split s : exists p q, spaces p /\ spaces q /\ s = (p ++ strip s ++ q)%string.
Proof.
  assert (L : exists p, spaces p /\ s = (p ++ lstrip s)%string).
  { clear. induction s as [|a s IH]; [exists ""%string; cbn; auto|]. cbn. destruct (is_space a) eqn:A; [|exists ""%string; cbn; auto]. destruct IH as (p & P & E). exists (String a p). cbn. split; auto. f_equal. auto. }
  destruct L as (p & P & L). destruct (rstrip_split (lstrip s)) as (q & Q & R). exists p, q. sp. unfold strip. rewrite <- R. auto.
Qed.
Lemma signed_strip p d q n : spaces p -> spaces q -> signed d n -> strip (p ++ d ++ q) = d.
Proof. intros P Q S. destruct (signed_ends d n S) as [A (u & b & E & _ & B)]. apply strip_listed; auto. exists u, b. auto. Qed.
Lemma py_int_iff s n : py_int s = Some n <-> int_text s n.
Proof.
  assert (C : forall t m, match t with
    | String a s' => if Ascii.eqb a "-" then option_map Z.opp (int_digits 0 false s') else if Ascii.eqb a "+" then int_digits 0 false s' else int_digits 0 false (String a s')
    | EmptyString => None end = Some m <-> signed t m).
  { intros t m. split.
    - destruct t as [|a t]; [discriminate|]. rewrite !int_digits_run. destruct (Ascii.eqb_spec a "-") as [->|N1]; [|destruct (Ascii.eqb_spec a "+") as [->|N2]].
      + destruct (irun 0 false t) as [[k []]|] eqn:E; try discriminate. intros [= <-]. apply s_minus. apply irun_grouped. auto.
      + destruct (irun 0 false t) as [[k []]|] eqn:E; try discriminate. intros [= <-]. apply s_plus. apply irun_grouped. auto.
      + destruct (irun 0 false (String a t)) as [[k []]|] eqn:E; try discriminate. intros [= <-]. apply s_plain. apply irun_grouped. auto.
    - destruct 1 as [d n0 G|d n0 G|d n0 G]; pose proof G as R; apply irun_grouped in R.
      + destruct (grouped_ends d n0 G) as [(a & u & -> & A) _]. destruct (digit_plain a A) as (_ & -> & -> & _). rewrite int_digits_run, R. auto.
      + cbn. rewrite int_digits_run, R. auto.
      + cbn. rewrite int_digits_run, R. auto. }
  unfold py_int. rewrite C. split.
  - intros S. destruct (strip_split s) as (p & q & P & Q & E). exists p, (strip s), q. auto.
  - intros (p & d & q & P & Q & S & ->). rewrite (signed_strip p d q n P Q S). auto.
Qed.

(** *** forms *)
Lemma says_lower core t : says core t -> (exists a u, core = String a u /\ is_space a = false) -> (exists u a, core = (u ++ String a "")%string /\ is_space a = false) -> lower (strip t) = core.
Proof.
  intros (p & w & q & P & Q & -> & <-) A B. rewrite strip_listed; auto.
  - destruct A as (a & u & E & SA). destruct w as [|b w]; [discriminate|]. cbn in E. injection E as <- <-. exists b, w. split; auto. destruct b as [[] [] [] [] [] [] [] []]; vm_compute in SA |- *; auto.
  - destruct B as (u & a & E & SA). destruct (last_char w) as [[v b]|] eqn:L; [|apply last_char_none in L; subst w; cbn in E; destruct u; discriminate]. apply last_char_some in L. subst w. exists v, b. split; auto.
    assert (EL : lower (v ++ String b "") = (lower v ++ String (lower_ascii b) "")%string) by (clear; induction v as [|c v IH]; cbn; auto; rewrite IH; auto). rewrite EL in E.
    assert (lower_ascii b = a). { apply last_char_app in E. rewrite (last_char_app _ (lower v) (lower_ascii b) eq_refl) in E. congruence. }
    subst a. destruct b as [[] [] [] [] [] [] [] []]; vm_compute in SA |- *; auto.
Qed.
Lemma lower_says t core : lower (strip t) = core -> says core t.
Proof. intros E. destruct (strip_split t) as (p & q & P & Q & S). exists p, (strip t), q. auto. Qed.
  Lemma says_iff core t : In core ["interval"; "cron"; "date"]%string -> says core t <-> lower (strip t) = core.
  Proof.
    intros I. split; [|apply lower_says]. intros S. apply says_lower; auto; destruct I as [<-|[<-|[<-|[]]]].
    - exists "i"%char, "nterval"%string. auto.
    - exists "c"%char, "ron"%string. auto.
    - exists "d"%char, "ate"%string. auto.
    - exists "interva"%string, "l"%char. auto.
    - exists "cro"%string, "n"%char. auto.
    - exists "dat"%string, "e"%char. auto.
  Qed.
  Lemma strip_strip p s q : spaces p -> spaces q -> strip (p ++ s ++ q) = strip s.
  Proof.
    intros P Q. unfold strip. rewrite lstrip_spaces by auto. fold (strip (s ++ q)). apply strip_app_spaces. auto.
  Qed.
  Lemma int_text_strip s n : int_text (strip s) n <-> int_text s n.
  Proof.
    rewrite <- !py_int_iff. unfold py_int. replace (strip (strip s)) with (strip s); [tauto|].
    destruct (strip_split s) as (p & q & P & Q & E). rewrite E at 1. rewrite strip_strip; auto.
  Qed.
Lemma spaced_space a ws s : is_space a = true -> spaced ws s -> spaced ws (String a s).
Proof. intros A S. destruct S as [p P|p w ws s P W N L E]; [apply s_none; cbn; auto|]. apply (s_word (String a p) w ws s); cbn; auto. Qed.
Lemma words_spaced s : forall cur, solid cur -> spaced (words_from cur s) (cur ++ s).
Proof.
  assert (SA : forall w a, solid w -> is_space a = false -> solid (w ++ String a "")) by (intros w a W A; induction w; cbn in *; tauto).
  induction s as [|a s IH]; intros cur C; cbn [words_from].
  - rewrite app_nil_s. destruct cur as [|b cur]; [apply s_none; cbn; auto|]. pose proof (s_word "" (String b cur) [] "" I C ltac:(discriminate) (s_none "" I) (or_introl eq_refl)) as H. cbn in H. rewrite app_nil_s in H. auto.
  - destruct (is_space a) eqn:A.
    + pose proof (spaced_space a _ _ A (IH ""%string I)) as H. cbn in H. destruct cur as [|b cur]; auto. apply (s_word "" (String b cur) _ (String a s)); cbn; auto; [discriminate|]. right. eauto.
    + pose proof (IH (cur ++ String a "")%string (SA cur a C A)) as H. rewrite app_assoc_s in H. auto.
Qed.
Lemma words_iff s ws : words s = ws <-> spaced ws s.
Proof. split; [intros <-; apply (words_spaced s ""); cbn; auto|apply spaced_words]. Qed.
Lemma words_tail s q : spaces q -> forall cur, words_from cur (s ++ q) = words_from cur s.
Proof.
  intros Q. assert (B : forall cur, words_from cur q = words_from cur "").
  { induction q as [|a q IH]; intros cur; auto. cbn in Q. destruct Q as [A Q]. cbn [words_from]. rewrite A. rewrite (IH Q ""%string). destruct cur; auto. }
  induction s as [|a s IH]; intros cur; [apply B|]. cbn [append words_from]. rewrite !IH. auto.
Qed.
Lemma words_strip s : words (strip s) = words s.
Proof. destruct (strip_split s) as (p & q & P & Q & E). rewrite E at 2. unfold words. rewrite words_spaces, words_tail; auto. Qed.
Section C59.
  Context {D : Type} (fromiso : string -> option D).
  Notation parse := (parse_trigger_config fromiso).
  (** An interval form is accepted exactly when it is a number and a unit; the trigger gets that number
      of that unit.  Everything else is a ValueError. *)
  Theorem C59_interval t v : says "interval" t ->
    (forall u n, parse (Some t) (Some v) = Ok (FInterval u n) <-> exists p c q, spaces p /\ spaces q /\ v = (p ++ c ++ q)%string /\ interval_text c u n) /\
    (forall x, parse (Some t) (Some v) = Ok x -> exists u n, x = FInterval u n) /\
    (forall e, parse (Some t) (Some v) = Err e -> e = ValueError).
  Proof.
    intros S. apply says_iff in S; [|cbn; auto]. unfold parse_trigger_config. cbv zeta. rewrite S. cbn [String.eqb Ascii.eqb Bool.eqb].
    assert (E : forall (unit s : string) x, match py_int s with Some n => Ok (FInterval unit n) | None => Err ValueError end = Ok x <-> exists n, x = @FInterval D unit n /\ int_text s n).
    { intros unit s x. split; [destruct (py_int s) as [n|] eqn:I; [|discriminate]; intros [= <-]; exists n; rewrite <- py_int_iff; auto|]. intros (n & -> & I). apply py_int_iff in I. rewrite I. auto. }
    set (r := match last_char (strip v) with Some _ => _ | None => _ end).
    assert (R : forall x, r = Ok x <-> exists u n, x = FInterval u n /\ exists p c q, spaces p /\ spaces q /\ v = (p ++ c ++ q)%string /\ interval_text c u n).
    { intros x. destruct (strip_split v) as (p & q & P & Q & V). unfold r.
      split.
      - destruct (last_char (strip v)) as [[d a]|] eqn:L.
        + pose proof L as L'. apply last_char_some in L'. destruct (Ascii.eqb_spec a "s") as [->|N1]; [|destruct (Ascii.eqb_spec a "m") as [->|N2]; [|destruct (Ascii.eqb_spec a "h") as [->|N3]]]; intros H; apply E in H as (n & -> & I).
          * exists "seconds"%string, n. split; auto. exists p, (strip v), q. sp. rewrite L'. apply it_seconds. auto.
          * exists "minutes"%string, n. split; auto. exists p, (strip v), q. sp. rewrite L'. apply it_minutes. auto.
          * exists "hours"%string, n. split; auto. exists p, (strip v), q. sp. rewrite L'. apply it_hours. auto.
          * exists "seconds"%string, n. split; auto. exists p, (strip v), q. sp. apply it_bare. auto.
        + intros H; apply E in H as (n & -> & I). exists "seconds"%string, n. split; auto. exists p, (strip v), q. sp. apply it_bare. auto.
      - intros (u & n & -> & p' & c & q' & P' & Q' & -> & IT). rewrite (strip_strip p' c q') by auto. clear p q P Q V r.
        assert (US : forall d a, is_space a = false -> int_text d n -> exists d', strip (d ++ String a "") = (d' ++ String a "")%string /\ int_text d' n).
        { intros d a A (p & g & q & P & Q & G & ->). exists (g ++ q)%string. split; [|exists ""%string, g, q; cbn; auto].
          unfold strip. rewrite !app_assoc_s, lstrip_spaces by auto. destruct (signed_ends g n G) as [(b & w & -> & B) _]. cbn [append lstrip]. rewrite B.
          rewrite <- app_assoc_s. change (String b ((w ++ q) ++ String a "")) with ((String b (w ++ q)) ++ String a "")%string. apply rstrip_app; cbn; auto. }
        destruct IT as [d n I|d n I|d n I|d n I].
        + destruct (US d "s"%char eq_refl I) as (d' & -> & I'). rewrite (last_char_app _ d' "s" eq_refl). cbn. apply E. eauto.
        + destruct (US d "m"%char eq_refl I) as (d' & -> & I'). rewrite (last_char_app _ d' "m" eq_refl). cbn. apply E. eauto.
        + destruct (US d "h"%char eq_refl I) as (d' & -> & I'). rewrite (last_char_app _ d' "h" eq_refl). cbn. apply E. eauto.
        + destruct I as (p & g & q & P & Q & G & ->). rewrite (signed_strip p g q n P Q G). destruct (signed_ends g n G) as [_ (w & b & -> & B & _)]. rewrite (last_char_app _ w b eq_refl).
          assert (NB : Ascii.eqb b "s" = false /\ Ascii.eqb b "m" = false /\ Ascii.eqb b "h" = false) by (clear - B; destruct b as [[] [] [] [] [] [] [] []]; vm_compute in B |- *; intuition congruence).
          destruct NB as (-> & -> & ->). apply E. exists n. split; auto. exists ""%string, (w ++ String b "")%string, ""%string. cbn. rewrite app_nil_s. auto. }
    assert (RE : forall e, r = Err e -> e = ValueError).
    { unfold r. intros e. assert (X : forall unit s, match py_int s with Some n => Ok (@FInterval D unit n) | None => Err ValueError end = Err e -> e = ValueError) by (intros unit s; destruct (py_int s); congruence).
      destruct (last_char (strip v)) as [[d a]|]; [destruct (Ascii.eqb a "s"); [|destruct (Ascii.eqb a "m"); [|destruct (Ascii.eqb a "h")]]|]; apply X. }
    clearbody r. split; [|split; auto].
    - intros u n. rewrite R. split; [intros (u' & n' & [= <- <-] & H); auto|intros H; eauto].
    - intros x H. apply R in H as (u & n & -> & _). eauto.
  Qed.
  (** That many seconds, minutes or hours; none at all counts as one second. *)
  Theorem C59_interval_length t p c q u n : says "interval" t -> spaces p -> spaces q -> interval_text c u n ->
    parse_trigger fromiso (Some t) (Some (p ++ c ++ q)%string) =
      Ok (GInterval (if n =? 0 then us else match u with "hours"%string => 3600 * n * us | "minutes"%string => 60 * n * us | _ => n * us end)).
  Proof.
    intros S P Q I. destruct (C59_interval t (p ++ c ++ q) S) as (A & _ & _). unfold parse_trigger. rewrite (proj2 (A u n)); [|exists p, c, q; auto]. do 2 f_equal. unfold interval_of.
    assert (U : u = "seconds"%string \/ u = "minutes"%string \/ u = "hours"%string) by (destruct I; auto).
    destruct U as [->|[->| ->]]; cbn [String.eqb Ascii.eqb Bool.eqb]; (destruct (Z.eqb_spec n 0) as [->|N]; [reflexivity|]);
      match goal with |- (if ?x =? 0 then _ else _) = _ => destruct (Z.eqb_spec x 0); [lia|] end; lia.
  Qed.
  (** A cron form is accepted exactly when it has five fields, minute first, and the trigger made of it is
      the one a crontab line with the same text stands for. *)
  Theorem C59_cron t v : says "cron" t ->
    (forall x, parse (Some t) (Some v) = Ok x <-> exists mi h d mo dw, spaced [mi; h; d; mo; dw] v /\ x = FCron mi h d mo dw) /\
    (forall e, parse (Some t) (Some v) = Err e -> e = ValueError) /\
    parse_trigger fromiso (Some t) (Some v) = match from_crontab v with Ok c => Ok (GCron c) | Err e => Err e end.
  Proof.
    intros S. apply says_iff in S; [|cbn; auto]. unfold parse_trigger, from_crontab, parse_trigger_config. cbv zeta. rewrite S, words_strip. cbn [String.eqb Ascii.eqb Bool.eqb].
    destruct (words v) as [|mi [|h [|d [|mo [|dw [|z l]]]]]] eqn:W; pose proof (proj1 (words_iff _ _) W) as L;
      (split; [|split; [intros e; congruence|]]); try reflexivity; try (intros x; split; [discriminate|intros (a & b & c0 & d0 & e0 & L' & _); apply words_iff in L'; congruence]).
    - intros x. split; [intros [= <-]; exists mi, h, d, mo, dw; auto|]. intros (a & b & c0 & d0 & e0 & L' & ->). apply words_iff in L'. congruence.
  Qed.
  (** A date form is read as an ISO date; a blank before the offset is the "+" it was sent as.  Other
      trigger types and unreadable dates are ValueErrors. *)
  Definition offset_bool (t : string) : Prop :=
    exists a b d e, t = String a (String b (String ":" (String d (String e "")))) /\ Forall (fun c => is_digit c = true \/ c = ":"%char) [a; b; d; e] /\ Exists (fun c => is_digit c = true) [a; b; d; e].
  Lemma offset_bool_iff t : offset_text t <-> offset_bool t.
  Proof.
    assert (DI : forall c, (exists k, digit k c) <-> is_digit c = true) by (intros c; split; [intros (k & H); apply digit_iff in H; tauto|intros H; exists (code_of c - 48); apply digit_iff; auto]).
    unfold offset_text, offset_bool. split; intros (a & b & d & e & E & F & X); exists a, b, d, e; (split; [exact E|split]); try (eapply Forall_impl; [|exact F]); try (eapply Exists_impl; [|exact X]); intros c; cbn beta; rewrite DI; auto.
  Qed.
  Lemma is_offset_iff t : is_offset t = true <-> offset_text t.
  Proof.
    assert (DC : forall a, is_digit a = true -> Ascii.eqb a ":" = false) by (intros a H; destruct (Ascii.eqb_spec a ":") as [->|]; auto).
    rewrite offset_bool_iff. unfold offset_bool. split.
    - destruct t as [|a [|b [|c [|d [|e [|? ?]]]]]]; try discriminate. cbn [is_offset]. rewrite andb_true_iff. intros [C H]. apply Ascii.eqb_eq in C as ->. exists a, b, d, e. split; [reflexivity|].
      cbn [filter] in H. change (Ascii.eqb ":" ":") with true in H. cbn [negb] in H.
      destruct (Ascii.eqb_spec a ":") as [->|], (Ascii.eqb_spec b ":") as [->|], (Ascii.eqb_spec d ":") as [->|], (Ascii.eqb_spec e ":") as [->|]; cbn [negb forallb List.length Nat.eqb] in H; rewrite ?andb_true_iff in H;
        try (exfalso; destruct H; discriminate); decompose [and] H; (split; [repeat (constructor; auto)|]); (apply Exists_cons_hd; assumption) || (apply Exists_cons_tl, Exists_cons_hd; assumption) || (apply Exists_cons_tl, Exists_cons_tl, Exists_cons_hd; assumption) || (apply Exists_cons_tl, Exists_cons_tl, Exists_cons_tl, Exists_cons_hd; assumption).
    - intros (a & b & d & e & -> & F & X). cbn [is_offset]. change (Ascii.eqb ":" ":") with true. cbn [andb filter]. change (Ascii.eqb ":" ":") with true. cbn [negb].
      repeat (apply Forall_cons_iff in F as [? F]).
      repeat match goal with H : is_digit ?c = true \/ ?c = _ |- _ => destruct H as [H|H]; [rewrite ?(DC c H)|subst c; change (Ascii.eqb ":" ":") with true]; cbn [negb] end; cbn [forallb List.length Nat.eqb negb andb];
      repeat match goal with H : is_digit _ = true |- _ => rewrite H; clear H end; try reflexivity.
      repeat (apply Exists_cons in X as [X|X]; [discriminate X|]). inversion X.
  Qed.
  Lemma rsplit_last h t : rsplit_blank t = None -> rsplit_blank (h ++ " " ++ t) = Some (h, t).
  Proof. intros N. induction h as [|a h IH]; cbn [append rsplit_blank]; [rewrite N; reflexivity|]. cbn [append] in IH. rewrite IH. reflexivity. Qed.
  Lemma rsplit_inv s h t : rsplit_blank s = Some (h, t) -> s = (h ++ " " ++ t)%string.
  Proof.
    revert h. induction s as [|a s IH]; intros h; [discriminate|]. cbn [rsplit_blank]. destruct (rsplit_blank s) as [[h' t']|]; [intros [= <- <-]; rewrite (IH h' eq_refl); reflexivity|].
    destruct (Ascii.eqb_spec a " ") as [->|]; [intros [= <- <-]; reflexivity|discriminate].
  Qed.
  Lemma offset_no_blank t : offset_text t -> rsplit_blank t = None.
  Proof.
    rewrite offset_bool_iff. intros (a & b & d & e & -> & F & _). repeat (apply Forall_cons_iff in F as [? F]). assert (DB : forall c, is_digit c = true \/ c = ":"%char -> Ascii.eqb c " " = false) by (intros c [H3| ->]; [destruct (Ascii.eqb_spec c " ") as [->|]; [discriminate|reflexivity]|reflexivity]).
    cbn [rsplit_blank]. rewrite !DB by auto. reflexivity.
  Qed.
  Lemma mended_iff s s' : mended s s' <-> s' = repair_offset s.
  Proof.
    unfold repair_offset. split.
    - intros [h t C O|u N].
      + apply contains_iff in C. rewrite C, (rsplit_last h t (offset_no_blank t O)), (proj2 (is_offset_iff t) O). reflexivity.
      + destruct (contains "T" u) eqn:C; [|reflexivity]. destruct (rsplit_blank u) as [[h t]|] eqn:R; [|reflexivity]. destruct (is_offset t) eqn:O; [|reflexivity]. destruct N. exists h, t. split; [apply rsplit_inv, R|]. split; [apply contains_iff, C|apply is_offset_iff, O].
    - intros ->. destruct (contains "T" s) eqn:C.
      + destruct (rsplit_blank s) as [[h t]|] eqn:R; [destruct (is_offset t) eqn:O|].
        * pose proof (rsplit_inv _ _ _ R) as ->. apply me_offset; [apply contains_iff, C|apply is_offset_iff, O].
        * apply me_same. intros (h' & t' & -> & _ & O'). rewrite (rsplit_last h' t' (offset_no_blank t' O')) in R. injection R as <- <-. apply is_offset_iff in O'. congruence.
        * apply me_same. intros (h' & t' & -> & _ & O'). rewrite (rsplit_last h' t' (offset_no_blank t' O')) in R. discriminate.
      + apply me_same. intros (h' & t' & _ & X & _). apply contains_iff in X. congruence.
  Qed.
  Theorem C59_date t v : says "date" t ->
    (forall x, parse (Some t) (Some v) = Ok x <-> exists s d, mended (strip v) s /\ fromiso s = Some d /\ x = FDate d) /\
    (forall e, parse (Some t) (Some v) = Err e -> e = ValueError /\ exists s, mended (strip v) s /\ fromiso s = None).
  Proof.
    intros S. apply says_iff in S; [|cbn; auto]. unfold parse_trigger_config. cbv zeta. rewrite S. cbn [String.eqb Ascii.eqb Bool.eqb]. split.
    - intros x. split.
      + destruct (fromiso (repair_offset (strip v))) as [d|] eqn:F; [|discriminate]. intros [= <-]. exists (repair_offset (strip v)), d. split; [apply mended_iff; reflexivity|auto].
      + intros (s & d & M & F & ->). apply mended_iff in M. rewrite <- M, F. reflexivity.
    - intros e. destruct (fromiso (repair_offset (strip v))) as [d|] eqn:F; [discriminate|]. intros [= <-]. split; [reflexivity|]. exists (repair_offset (strip v)). split; [apply mended_iff; reflexivity|exact F].
  Qed.
  (** "2024-01-01T10:00:00 02:00" is mended *)
  Example C59_mended : mended "2024-01-01T10:00:00 02:00" "2024-01-01T10:00:00+02:00" /\ mended "2024-01-01 10:00" "2024-01-01 10:00".
  Proof. split; apply mended_iff; reflexivity. Qed.
  Theorem C59_other t v : ~ says "interval" t -> ~ says "cron" t -> ~ says "date" t -> parse (Some t) v = Err ValueError.
  Proof.
    intros A B C. rewrite says_iff in A, B, C by (cbn; auto). unfold parse_trigger_config. cbv zeta.
    destruct (String.eqb_spec (lower (strip t)) "interval"); [tauto|]. destruct (String.eqb_spec (lower (strip t)) "cron"); [tauto|]. destruct (String.eqb_spec (lower (strip t)) "date"); [tauto|auto].
  Qed.
End C59.
Example C59_example : says "interval" " Interval " /\ interval_text "1_5 m" "minutes" 15 /\
  parse_trigger (fun _ => None : option unit) (Some " Interval "%string) (Some " 1_5 m"%string) = Ok (GInterval (900 * us)) /\
  repair_offset "2024-01-01T10:00:00 02:00" = "2024-01-01T10:00:00+02:00"%string.
Proof.
  split; [exists " "%string, "Interval"%string, " "%string; cbn; auto|]. split; [|split; reflexivity].
  apply (it_minutes "1_5 "). apply py_int_iff. reflexivity.
Qed.
