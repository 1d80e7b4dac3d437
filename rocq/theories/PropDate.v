(** C51: dates. *)
From Verif Require Import Prelude Text Calendar Cron CronParse CronParseSpec PropCronText DateText DateTextSpec.
Open Scope Z_scope.
Ltac sp := repeat match goal with |- _ /\ _ => split end.

Lemma num_some lo hi s n r : (1 <= lo)%nat -> num lo hi s = Some (n, r) <-> exists d, s = (d ++ r)%string /\ digits lo hi d n /\ stops is_digit r.
Proof.
  intros L. unfold num. pose proof (span_spec is_digit s) as S. destruct (span is_digit s) as [d r'] eqn:E. destruct S as (-> & A & ST). split.
  - destruct (Nat.leb lo (String.length d) && Nat.leb (String.length d) hi) eqn:C; [|discriminate]. apply andb_true_iff in C as [C1 C2]. apply Nat.leb_le in C1, C2. intros [= <- <-].
    exists d. split; auto. split; auto. split; [|lia]. apply numeral_iff. sp; auto. intros ->. cbn in C1. lia.
  - intros (d' & E' & [N C] & ST'). apply numeral_iff in N as (_ & A' & ->). rewrite E', (span_app is_digit d' r A' ST') in E. injection E as <- <-.
    destruct C as [C1 C2]. apply Nat.leb_le in C1, C2. rewrite C1, C2. auto.
Qed.
Lemma char_some c s r : char c s = Some r <-> s = String c r.
Proof. destruct s as [|a s]; cbn; [split; discriminate|]. destruct (Ascii.eqb_spec a c) as [->|N]; split; congruence. Qed.
Lemma eol_iff s : eol s = true <-> ending s.
Proof.
  unfold eol. rewrite orb_true_iff, !String.eqb_eq. split; [intros [->| ->]; constructor|destruct 1; auto].
Qed.
Lemma bind_some {A B} (o : option A) (k : A -> option B) b : bind o k = Some b <-> exists a, o = Some a /\ k a = Some b.
Proof. destruct o as [a|]; cbn; split; [eauto|intros (x & [= <-] & H); auto|discriminate|intros (x & [=] & _)]. Qed.
Lemma zone_iff s z : match_zone s = Some z <-> exists t e, s = (t ++ e)%string /\ zone_text t z /\ ending e.
Proof.
  unfold match_zone. split.
  - destruct (eol s) eqn:E; [intros [= <-]; exists ""%string, s; sp; auto; [constructor|apply eol_iff; auto]|]. destruct s as [|a r]; [discriminate|].
    destruct (Ascii.eqb_spec a "Z") as [->|NZ]; [destruct (eol r) eqn:R; [|discriminate]; intros [= <-]; exists "Z"%string, r; sp; auto; [constructor|apply eol_iff; auto]|].
    destruct (Ascii.eqb a "+" || Ascii.eqb a "-") eqn:S; [|discriminate]. rewrite bind_some. intros ((h & r1) & H1 & H). rewrite bind_some in H. destruct H as (r2 & H2 & H). rewrite bind_some in H. destruct H as ((m & r3) & H3 & H). destruct (eol r3) eqn:R; [|discriminate]. injection H as <-.
    apply num_some in H1 as (d1 & -> & D1 & _); [|lia]. apply char_some in H2. subst r1. apply num_some in H3 as (d2 & -> & D2 & _); [|lia]. apply eol_iff in R.
    destruct (Ascii.eqb_spec a "+") as [->|NP].
    + exists ("+" ++ d1 ++ ":" ++ d2)%string, r3. cbn [append]. rewrite !app_assoc_s. cbn [append]. sp; auto. apply (zt_plus d1 d2); auto.
    + destruct (Ascii.eqb_spec a "-") as [->|NM]; [|discriminate]. exists ("-" ++ d1 ++ ":" ++ d2)%string, r3. cbn [append]. rewrite !app_assoc_s. cbn [append]. sp; auto. apply (zt_minus d1 d2); auto.
  - intros (t & e & -> & Z & EN). destruct Z as [| |h m hn mn H M|h m hn mn H M]; cbn [append].
    + apply eol_iff in EN. rewrite EN. auto.
    + cbn. apply eol_iff in EN. rewrite EN. auto.
    + rewrite !app_assoc_s. cbn [append]. assert (eol (String "+" (h ++ String ":" (m ++ e))) = false) as -> by (destruct h; reflexivity). cbn [Ascii.eqb Bool.eqb orb].
      apply bind_some. exists (hn, String ":" (m ++ e)). split; [apply num_some; [lia|]; exists h; cbn; auto|]. apply bind_some. exists (m ++ e)%string. split; [apply char_some; auto|]. apply bind_some. exists (mn, e).
      split; [apply num_some; [lia|]; exists m; sp; auto; destruct EN; cbn; auto|]. apply eol_iff in EN. rewrite EN. auto.
    + rewrite !app_assoc_s. cbn [append]. assert (eol (String "-" (h ++ String ":" (m ++ e))) = false) as -> by (destruct h; reflexivity). cbn [Ascii.eqb Bool.eqb orb].
      apply bind_some. exists (hn, String ":" (m ++ e)). split; [apply num_some; [lia|]; exists h; cbn; auto|]. apply bind_some. exists (m ++ e)%string. split; [apply char_some; auto|]. apply bind_some. exists (mn, e).
      split; [apply num_some; [lia|]; exists m; sp; auto; destruct EN; cbn; auto|]. apply eol_iff in EN. rewrite EN. auto.
Qed.
Lemma ending_stops e : ending e -> stops is_digit e.
Proof. destruct 1; cbn; auto. Qed.
Lemma zone_stops t z e : zone_text t z -> ending e -> stops is_digit (t ++ e).
Proof. destruct 1; intros E; [apply (ending_stops e E)| | |]; cbn; auto. Qed.
Lemma zone_no_dot t z e : zone_text t z -> ending e -> char "." (t ++ e) = None.
Proof. destruct 1; intros []; reflexivity. Qed.
Lemma match_iff s c us z : date_match s = Some (c, us, z) <-> date_text s c us z.
Proof.
  unfold date_match. split.
  - rewrite bind_some. intros ((y & s1) & H1 & H). rewrite bind_some in H. destruct H as (s2 & H2 & H). rewrite bind_some in H. destruct H as ((mo & s3) & H3 & H). rewrite bind_some in H. destruct H as (s4 & H4 & H). rewrite bind_some in H. destruct H as ((d & s5) & H5 & H).
    apply num_some in H1 as (ty & -> & Y & _); [|lia]. apply char_some in H2. subst s1. apply num_some in H3 as (tm & -> & M & _); [|lia]. apply char_some in H4. subst s3. apply num_some in H5 as (td & -> & D & _); [|lia].
    destruct (eol s5) eqn:E5; [injection H as <- <- <-; apply eol_iff in E5; apply (dx_day ty tm td); auto|]. destruct s5 as [|a s6]; [discriminate|].
    destruct (Ascii.eqb a " " || Ascii.eqb a "T") eqn:SEP; [|discriminate]. rewrite bind_some in H. destruct H as ((h & s7) & H7 & H). rewrite bind_some in H. destruct H as (s8 & H8 & H). rewrite bind_some in H. destruct H as ((mi & s9) & H9 & H). rewrite bind_some in H. destruct H as (s10 & H10 & H). rewrite bind_some in H. destruct H as ((sec & s11) & H11 & H).
    rewrite bind_some in H. destruct H as ((u & s12) & H12 & H). rewrite bind_some in H. destruct H as (zz & HZ & H). injection H as <- <- <-.
    apply num_some in H7 as (th & -> & HH & _); [|lia]. apply char_some in H8. subst s7. apply num_some in H9 as (tmi & -> & MI & _); [|lia]. apply char_some in H10. subst s9. apply num_some in H11 as (ts & -> & SE & _); [|lia].
    apply zone_iff in HZ as (t & e & -> & ZT & EN).
    assert (F : exists f, s11 = (f ++ t ++ e)%string /\ fraction_text f u).
    { destruct (char "." s11) as [f|] eqn:C; [|injection H12 as <- <-; exists ""%string; split; auto; constructor]. apply char_some in C. subst s11. apply num_some in H12 as (tf & -> & F & _); [|lia]. exists ("." ++ tf)%string. split; auto. constructor; auto. }
    destruct F as (f & -> & F). assert (S' : exists sep, String a (th ++ String ":" (tmi ++ String ":" (ts ++ f ++ t ++ e))) = (sep ++ th ++ ":" ++ tmi ++ ":" ++ ts ++ f ++ t ++ e)%string /\ (sep = " " \/ sep = "T")%string).
    { destruct (Ascii.eqb_spec a " ") as [->|]; [exists " "%string; auto|]. destruct (Ascii.eqb_spec a "T") as [->|]; [exists "T"%string; auto|discriminate]. }
    destruct S' as (sep & -> & S'). apply (dx_time ty tm td th tmi ts y mo d h mi sec sep f u t zz e); auto.
  - destruct 1 as [y m d yn mn dn e Y M D EN|y m d h mi s yn mn dn hn min sn sep f us z tz e Y M D H MI SE SEP F Z EN]; cbn [append].
    + apply bind_some. exists (yn, String "-" (m ++ String "-" (d ++ e))). split; [apply num_some; [lia|]; exists y; cbn; auto|]. apply bind_some. exists (m ++ String "-" (d ++ e))%string. split; [apply char_some; auto|].
      apply bind_some. exists (mn, String "-" (d ++ e)). split; [apply num_some; [lia|]; exists m; cbn; auto|]. apply bind_some. exists (d ++ e)%string. split; [apply char_some; auto|]. apply bind_some. exists (dn, e). split; [apply num_some; [lia|]; exists d; sp; auto; apply ending_stops; auto|].
      apply eol_iff in EN. rewrite EN. auto.
    + set (tl := (h ++ String ":" (mi ++ String ":" (s ++ f ++ z ++ e)))%string). set (r := (sep ++ tl)%string). assert (RS : exists a, r = String a tl /\ (a = " "%char \/ a = "T"%char)) by (unfold r; destruct SEP as [->| ->]; cbn; eauto). destruct RS as (a & RA & AS).
      assert (RD : stops is_digit r) by (rewrite RA; destruct AS as [->| ->]; cbn; auto).
      apply bind_some. exists (yn, String "-" (m ++ String "-" (d ++ r))). split; [apply num_some; [lia|]; exists y; cbn; auto|]. apply bind_some. exists (m ++ String "-" (d ++ r))%string. split; [apply char_some; auto|].
      apply bind_some. exists (mn, String "-" (d ++ r)). split; [apply num_some; [lia|]; exists m; cbn; auto|]. apply bind_some. exists (d ++ r)%string. split; [apply char_some; auto|]. apply bind_some. exists (dn, r). split; [apply num_some; [lia|]; exists d; auto|].
      rewrite RA. assert (eol (String a tl) = false) as -> by (destruct AS as [->| ->]; unfold tl; destruct h; reflexivity). assert (Ascii.eqb a " " || Ascii.eqb a "T" = true) as -> by (destruct AS as [->| ->]; reflexivity). unfold tl.
      apply bind_some. exists (hn, String ":" (mi ++ String ":" (s ++ f ++ z ++ e))). split; [apply num_some; [lia|]; exists h; cbn; auto|]. apply bind_some. exists (mi ++ String ":" (s ++ f ++ z ++ e))%string. split; [apply char_some; auto|].
      apply bind_some. exists (min, String ":" (s ++ f ++ z ++ e)). split; [apply num_some; [lia|]; exists mi; cbn; auto|]. apply bind_some. exists (s ++ f ++ z ++ e)%string. split; [apply char_some; auto|].
      apply bind_some. exists (sn, (f ++ z ++ e)%string). split; [apply num_some; [lia|]; exists s; sp; auto; destruct F; cbn; auto; eapply zone_stops; eauto|].
      apply bind_some. exists (us, (z ++ e)%string). split; [destruct F as [|f n F]; [cbn [append]; rewrite (zone_no_dot z tz e); auto|]|].
      * cbn [append]. cbn [char Ascii.eqb Bool.eqb]. apply num_some; [lia|]. exists f. sp; auto; try apply F. eapply zone_stops; eauto.
      * apply bind_some. exists tz. split; auto. apply zone_iff. exists z, e. auto.
Qed.
Lemma real_iff c : real c = true <-> real_time c.
Proof.
  unfold real, valid, real_time. rewrite !andb_true_iff, !Z.leb_le.
  assert (M : 1 <= cmo c <= 12 -> mdays (cy c) (cmo c) = match cmo c with 2 => if ((cy c mod 4 =? 0) && negb (cy c mod 100 =? 0)) || (cy c mod 400 =? 0) then 29 else 28 | 4 | 6 | 9 | 11 => 30 | _ => 31 end).
  { intros R. unfold mdays, leap. assert (C : cmo c = 1 \/ cmo c = 2 \/ cmo c = 3 \/ cmo c = 4 \/ cmo c = 5 \/ cmo c = 6 \/ cmo c = 7 \/ cmo c = 8 \/ cmo c = 9 \/ cmo c = 10 \/ cmo c = 11 \/ cmo c = 12) by lia.
    destruct C as [->|[->|C]]; [reflexivity| |repeat destruct C as [->|C]; try rewrite C; reflexivity]. cbn [Z.eqb Pos.eqb].
    destruct (Z.eqb_spec (cy c mod 4) 0) as [E4|N4], (Z.eqb_spec (cy c mod 100) 0) as [E1|N1], (Z.eqb_spec (cy c mod 400) 0) as [E40|N40]; auto; exfalso; lia. }
  split; [intros (Y & (((((((((M1 & M2) & D1) & D2) & H1) & H2) & I1) & I2) & S1) & S2))|intros (Y & MM & D & H & I & S)].
  - rewrite M in D2 by lia. lia.
  - rewrite M by lia. lia.
Qed.
(** C51.  A text is accepted exactly when it is a date, or a date and a time, of the documented form, on a real
    day; the result has the fields that are written and the zone that is written, else the caller's. *)
Theorem C51_text {T} s (tz : option T) require_tz : s <> ""%string ->
  (forall d, to_datetime s tz require_tz = Ok d <->
     exists c us name z, date_text s c us name /\ real_time c /\ zone_of tz name z /\ (z = None -> require_tz = false) /\ d = Some (MkDt c us z)) /\
  (forall e, to_datetime s tz require_tz = Err e <->
     (e = OtherError /\ ((forall c us name, ~ date_text s c us name) \/ exists c us, date_text s c us NoTz /\ real_time c /\ tz = None /\ require_tz = true)) \/
     (e = ValueError /\ exists c us name, date_text s c us name /\ ~ (real_time c /\ exists z, zone_of tz name z))).
Proof.
  intros NE. unfold to_datetime. destruct (String.eqb_spec s ""); [congruence|].
  assert (DET : forall c us name c' us' name', date_text s c us name -> date_text s c' us' name' -> c = c' /\ us = us' /\ name = name') by (intros ? ? ? ? ? ? A B; apply match_iff in A, B; rewrite A in B; injection B; auto).
  destruct (date_match s) as [[[c us] name]|] eqn:E.
  - apply match_iff in E.
    set (zr := match name with NoTz => Ok (option_map Named tz) | Zulu => Ok (Some (Fixed 0)) | Off sg h m => let o := sg * (60 * h + m) in if (-1440 <? o) && (o <? 1440) then Ok (Some (Fixed o)) else Err ValueError end).
    assert (ZR : forall z, zr = Ok z <-> zone_of tz name z).
    { intros z. unfold zr. split; [destruct name as [| |sg h m]; [intros [= <-]; constructor|intros [= <-]; constructor|]|intros []; auto].
      - cbv zeta. destruct ((-1440 <? sg * (60 * h + m)) && (sg * (60 * h + m) <? 1440)) eqn:B; [|discriminate]. intros [= <-]. constructor. lia.
      - cbv zeta. destruct H. assert (B : (-1440 <? sg * (60 * h + m)) && (sg * (60 * h + m) <? 1440) = true) by lia. rewrite B. auto. }
    assert (ZE : forall e, zr = Err e -> e = ValueError) by (unfold zr; intros e; destruct name; try discriminate; cbv zeta; destruct ((-1440 <? _) && _); congruence).
    assert (ZN : zr = Ok None -> name = NoTz /\ tz = None) by (unfold zr; destruct name; [destruct tz; [discriminate|auto]|discriminate|cbv zeta; destruct ((-1440 <? _) && _); discriminate]).
    cbv zeta. fold zr. clearbody zr. split; [intros d|intros e]; split.
    + destruct zr as [zo|e] eqn:Z; [|discriminate]. destruct (real c) eqn:R; [|discriminate]. apply real_iff in R. assert (ZO : zone_of tz name zo) by (apply ZR; auto). destruct zo as [z|].
      * intros [= <-]. exists c, us, name, (Some z). sp; auto. discriminate.
      * destruct require_tz eqn:Q; [discriminate|]. intros [= <-]. exists c, us, name, None. auto.
    + intros (c' & us' & name' & z & D & R & ZO & Q & ->). destruct (DET _ _ _ _ _ _ E D) as (<- & <- & <-). apply ZR in ZO. rewrite ZO. apply real_iff in R. rewrite R. destruct z; auto. rewrite Q; auto.
    + destruct zr as [zo|e'] eqn:Z.
      * assert (ZO : zone_of tz name zo) by (apply ZR; auto). destruct (real c) eqn:R; [|intros [= <-]; right; split; auto; exists c, us, name; split; auto; intros [RT _]; apply real_iff in RT; congruence].
        apply real_iff in R. destruct zo as [z|]; [discriminate|]. destruct require_tz; [|discriminate]. intros [= <-]. left. split; auto. right. destruct (ZN eq_refl) as [-> ->]. exists c, us. auto.
      * intros [= <-]. right. split; [apply ZE; auto|]. exists c, us, name. split; auto. intros (_ & z & ZO). apply ZR in ZO. discriminate.
    + intros [[-> [N|(c' & us' & D & R & -> & ->)]]|[-> (c' & us' & name' & D & N)]].
      * destruct (N c us name E).
      * destruct (DET _ _ _ _ _ _ E D) as (<- & <- & ->). assert (ZO : zr = Ok None) by (apply ZR; exact (zo_none None)). rewrite ZO. apply real_iff in R. rewrite R. auto.
      * destruct (DET _ _ _ _ _ _ E D) as (<- & <- & <-). destruct zr as [zo|e'] eqn:Z; [|rewrite (ZE e'); auto]. destruct (real c) eqn:R; auto. apply real_iff in R. destruct N. split; auto. exists zo. apply ZR. auto.
  - assert (N : forall c us name, ~ date_text s c us name) by (intros c us name D; apply match_iff in D; congruence). split; [intros d|intros e]; split; try discriminate.
    + intros (c & us & name & z & D & _). destruct (N _ _ _ D).
    + intros [= <-]. left. auto.
    + intros [[-> _]|[_ (c & us & name & D & _)]]; auto. destruct (N _ _ _ D).
Qed.
(** The digits after the point are read as a number of microseconds, so only a fraction of six digits is one:
    ".5" is five microseconds, not half a second. *)
Theorem C51_fraction_refuted : exists c, date_text "2024-01-01 00:00:00.5" c 5 NoTz /\
  to_datetime "2024-01-01 00:00:00.5" (Some tt) true = Ok (Some (MkDt c 5 (Some (Named tt)))).
Proof. exists (MkCivil 2024 1 1 0 0 0). split; [apply match_iff; reflexivity|reflexivity]. Qed.
(** Rounding up gives the first whole second that is not earlier. *)
Theorem C51_ceil t : t <= ceil_secs t * 1000000 /\ forall s, t <= s * 1000000 -> ceil_secs t <= s.
Proof. unfold ceil_secs, us. split; [|intros s H]; destruct (Z.ltb_spec 0 (t mod 1000000)); lia. Qed.
Example C51_example : to_datetime "2024-02-29T7:05:09.000250-05:30" (Some tt) true = Ok (Some (MkDt (MkCivil 2024 2 29 7 5 9) 250 (Some (Fixed (-330))))) /\
  to_datetime "2023-02-29" (Some tt) true = Err ValueError /\ to_datetime "2023-02-28 10:00" (Some tt) true = Err OtherError /\ ceil_secs 1500000 = 2 /\ ceil_secs (-1500000) = -1.
Proof. repeat split; reflexivity. Qed.
