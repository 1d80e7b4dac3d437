From Verif Require Import Prelude FloatDiv FloatDivProofs Calendar CalendarFacts Cron CronSpec CronTop Triggers TriggerSpec.
Open Scope Z_scope.

(** ** nested induction *)
Section Ind.
  Variable P : trigger -> Prop.
  Hypothesis HD : forall d, P (TDate d).
  Hypothesis HI : forall iv s e j, P (TInterval iv s e j).
  Hypothesis HC : forall tb off s e j, P (TCron tb off s e j).
  Hypothesis HA : forall l j, Forall P l -> P (TAnd l j).
  Hypothesis HO : forall l j, Forall P l -> P (TOr l j).
  Hypothesis HS : P TShutdown.
  Fixpoint trigger_ind' (tr : trigger) : P tr :=
    match tr with
    | TDate d => HD d
    | TInterval iv s e j => HI iv s e j
    | TCron tb off s e j => HC tb off s e j
    | TAnd l j => HA l j ((fix go l : Forall P l := match l with [] => Forall_nil _ | x :: l' => Forall_cons _ (trigger_ind' x) (go l') end) l)
    | TOr l j => HO l j ((fix go l : Forall P l := match l with [] => Forall_nil _ | x :: l' => Forall_cons _ (trigger_ind' x) (go l') end) l)
    | TShutdown => HS
    end.
End Ind.

Lemma all_Forall (P : trigger -> Prop) l :
  (fix all l := match l with [] => True | x :: l' => P x /\ all l' end) l <-> Forall P l.
Proof. induction l as [|x l IH]; [split; auto|]. rewrite Forall_cons_iff, IH. tauto. Qed.
Lemma any_Exists (P : trigger -> Prop) l :
  (fix any l := match l with [] => False | x :: l' => P x \/ any l' end) l <-> Exists P l.
Proof. induction l as [|x l IH]; [split; [intros []|intros H; inversion H]|]. split.
  - intros [Hx|Hl]; [now left|right; now apply IH].
  - intros H; inversion H; subst; [now left|right; now apply IH]. Qed.

(** ** minima and maxima *)
Lemma zmin_le x l : zmin x l <= x /\ forall y, In y l -> zmin x l <= y.
Proof.
  revert x. induction l as [|y l IH]; intros x; cbn [zmin]; [split; [lia|intros y []]|].
  destruct (IH (Z.min x y)) as [H1 H2]. split; [lia|]. intros z [->|Hz]; [lia|auto].
Qed.
Lemma zmax_ge x l : x <= zmax x l /\ forall y, In y l -> y <= zmax x l.
Proof.
  revert x. induction l as [|y l IH]; intros x; cbn [zmax]; [split; [lia|intros y []]|].
  destruct (IH (Z.max x y)) as [H1 H2]. split; [lia|]. intros z [->|Hz]; [lia|auto].
Qed.
Lemma zmin_In x l : In (zmin x l) (x :: l).
Proof.
  revert x. induction l as [|y l IH]; intros x; cbn [zmin]; [now left|].
  destruct (IH (Z.min x y)) as [H|H]; [|right; right; exact H].
  destruct (Z.min_spec x y) as [[_ E]|[_ E]]; rewrite <- H, E; [now left|right; now left].
Qed.
Lemma zmax_In x l : In (zmax x l) (x :: l).
Proof.
  revert x. induction l as [|y l IH]; intros x; cbn [zmax]; [now left|].
  destruct (IH (Z.max x y)) as [H|H]; [|right; right; exact H].
  destruct (Z.max_spec x y) as [[_ E]|[_ E]]; rewrite <- H, E; [right; now left|now left].
Qed.
Lemma zmin_char x l m : In m (x :: l) -> (forall y, In y (x :: l) -> m <= y) -> zmin x l = m.
Proof.
  intros Hm Hle. pose proof (zmin_In x l) as Hi. apply Hle in Hi. destruct (zmin_le x l) as [H1 H2].
  destruct Hm as [<-|Hm]; [lia|]. specialize (H2 _ Hm). lia.
Qed.
Lemma zmin_zmax_eq x l : zmin x l = zmax x l -> forall y, In y l -> y = x.
Proof.
  intros E y Hy. destruct (zmin_le x l) as [A1 A2], (zmax_ge x l) as [B1 B2].
  specialize (A2 _ Hy). specialize (B2 _ Hy). lia.
Qed.
Lemma zmin_lt_zmax x l : zmin x l <> zmax x l -> zmin x l < zmax x l.
Proof. destruct (zmin_le x l), (zmax_ge x l). lia. Qed.

(** ** jitter *)
Lemma draw_bounds o j : fair o -> jitter_ok j -> 0 <= draw o j /\ (forall x, j = Some x -> draw o j <= x * us) /\ (j = None -> draw o j = 0).
Proof.
  intros Hf Hj. unfold draw. destruct j as [x|]; [|repeat split; try lia; discriminate].
  specialize (Hj x eq_refl). destruct (Z.eqb_spec x 0) as [->|Hx].
  - repeat split; try lia; try discriminate. intros y [= <-]. unfold us; lia.
  - specialize (Hf [] x Hj). repeat split; try lia; try discriminate. intros y [= <-]. lia.
Qed.
Lemma fair_sub o i : fair o -> fair (sub o i).
Proof. intros H p j Hj. apply H; auto. Qed.

(** ** interval *)
Lemma interval_number_nonneg a iv : 0 <= a -> 0 < iv -> 0 <= interval_number a iv.
Proof.
  intros Ha Hi. unfold interval_number, fceil, fdiv.
  assert (Htd : forall d, 0 <= d -> 0 < snd (td_float d) /\ 0 <= fst (td_float d)).
  { intros d Hd. unfold td_float. pose proof (Z.mod_pos_bound d 1000000 ltac:(lia)) as Hm.
    pose proof (frnd_approx (d mod 1000000) 1000000 ltac:(lia) ltac:(lia)) as [A B _ _ _].
    destruct (frnd (d mod 1000000) 1000000) as [p q]. cbn [fst snd] in *.
    assert (0 <= d / 1000000) by (apply Z.div_pos; lia).
    pose proof (frnd_approx (d / 1000000 * q + p) q ltac:(nia) A) as [A' B' _ _ _]. auto. }
  destruct (Htd a Ha) as [A1 A2], (Htd iv ltac:(lia)) as [B1 B2].
  destruct (Z.eq_dec (fst (td_float iv)) 0) as [E|E].
  - rewrite E, Z.mul_0_r. cbn [Z.ltb Z.compare].
    (* a zero divisor would need an interval below one microsecond *)
    exfalso. unfold td_float in E. pose proof (Z.mod_pos_bound iv 1000000 ltac:(lia)) as Hm.
    pose proof (Z.div_mod iv 1000000 ltac:(lia)) as Hdm.
    pose proof (frnd_approx (iv mod 1000000) 1000000 ltac:(lia) ltac:(lia)) as [Q P R _ _].
    destruct (frnd (iv mod 1000000) 1000000) as [p q]. cbn [fst snd] in *.
    assert (0 <= iv / 1000000) by (apply Z.div_pos; lia).
    pose proof (frnd_approx (iv / 1000000 * q + p) q ltac:(nia) Q) as [Q' P' R' _ _].
    rewrite E in R'. change (2 ^ 53) with 9007199254740992 in *. rewrite Z.mul_0_l, Z.sub_0_l, Z.abs_opp in R'.
    assert (Hpos : 0 < iv / 1000000 * q + p).
    { destruct (Z.eq_dec (iv / 1000000) 0) as [E0|E0]; [|nia].
      assert (0 < iv mod 1000000) by lia. rewrite E0. clear - R P Q H0. 
      assert (0 < p); [|lia]. destruct (Z.eq_dec p 0) as [->|]; [exfalso|lia].
      rewrite Z.mul_0_l, Z.sub_0_l, Z.abs_opp, Z.abs_eq in R by nia. nia. }
    clear - R' Hpos Q'. nia.
  - destruct (Z.ltb_spec (snd (td_float a) * fst (td_float iv)) 0); [nia|].
    pose proof (frnd_approx (fst (td_float a) * snd (td_float iv)) (snd (td_float a) * fst (td_float iv)) ltac:(nia) ltac:(nia)) as [Q P _ _ _].
    set (z := frnd _ _) in *. clearbody z. assert (- fst z / snd z <= 0); [|lia].
    apply Z.div_le_upper_bound; lia.
Qed.

(** a crude lower bound valid arbitrarily far from the start *)
Lemma interval_number_half a B : 0 <= a -> 0 < B < 2 ^ 53 -> a <= 2 * (interval_number a (B * 1000000) * (B * 1000000)).
Proof.
  intros Ha HB. unfold interval_number, fceil.
  change (2 ^ 53) with 9007199254740992 in *.
  assert (Hex : exists S u, a = S * 1000000 + u /\ 0 <= u < 1000000 /\ 0 <= S /\ S = a / 1000000 /\ u = a mod 1000000).
  { exists (a / 1000000), (a mod 1000000). pose proof (Z.div_mod a 1000000). pose proof (Z.mod_pos_bound a 1000000). lia. }
  destruct Hex as (S & u & Ea & Hu & HS & ES & Eu).
  destruct (td_float_secs B ltac:(lia)) as [Hyq Hyp]. cbn zeta in *. set (y := td_float (B * 1000000)) in *. clearbody y.
  pose proof (frnd_approx u 1000000 ltac:(lia) ltac:(lia)) as Hfu.
  assert (Ex : td_float a = frnd (S * snd (frnd u 1000000) + fst (frnd u 1000000)) (snd (frnd u 1000000))).
  { unfold td_float. rewrite <- ES, <- Eu. destruct (frnd u 1000000); reflexivity. }
  rewrite Ex. clear Ex. set (fu := frnd u 1000000) in *. clearbody fu. destruct fu as [pu qu]. cbn [fst snd] in *.
  destruct Hfu as [Uq Up Ur Ul Ug]. cbn [fst snd] in *.
  assert (Hn0 : 0 <= S * qu + pu) by nia.
  pose proof (frnd_approx (S * qu + pu) qu Hn0 Uq) as [Xq Xp Xr Xl Xg].
  set (x := frnd (S * qu + pu) qu) in *. clearbody x. destruct x as [px qx]. cbn [fst snd] in *.
  pose proof (fdiv_int (px, qx) y B Hyq Hyp ltac:(lia) Xq Xp) as [Zq Zp Zr Zl Zg].
  set (z := fdiv (px, qx) y) in *. clearbody z. destruct z as [pz qz]. cbn [fst snd] in *. clear y Hyq Hyp.
  apply rel_lower in Ur. apply rel_lower in Xr. apply rel_lower in Zr. clear Ul Ug Xl Xg Zl Zg.
  (* each float is at least 4/5 of the exact value; 64/125 > 1/2 *)
  assert (W : forall A C, 0 <= A -> (Q53 - 1) * A <= Q53 * C -> 4 * A <= 5 * C) by (unfold Q53; intros; lia).
  apply W in Ur; [|nia]. apply W in Xr; [|nia]. apply W in Zr; [|nia]. clear W.
  assert (A1 : 4 * (a * qu) <= 5 * ((S * qu + pu) * 1000000)) by (rewrite Ea; nia).
  assert (A2 : 16 * (a * qx) <= 25 * (px * 1000000)).
  { apply Z.mul_le_mono_pos_r with (p := qu); [exact Uq|].
    apply Z.le_trans with (4 * qx * (5 * ((S * qu + pu) * 1000000))); [|nia].
    replace (16 * (a * qx) * qu) with (4 * qx * (4 * (a * qu))) by ring. apply Z.mul_le_mono_nonneg_l; lia. }
  assert (A3 : 64 * (a * qz) <= 125 * (pz * B * 1000000)).
  { apply Z.mul_le_mono_pos_r with (p := qx); [exact Xq|].
    apply Z.le_trans with (4 * qz * (25 * (px * 1000000))); [|nia].
    replace (64 * (a * qz) * qx) with (4 * qz * (16 * (a * qx))) by ring. apply Z.mul_le_mono_nonneg_l; lia. }
  assert (Hc : pz <= - (- pz / qz) * qz).
  { pose proof (Z.div_mod (- pz) qz ltac:(lia)). pose proof (Z.mod_pos_bound (- pz) qz Zq). nia. }
  set (c := - (- pz / qz)) in *. clearbody c.
  assert (A4 : 64 * (a * qz) <= 125 * (c * qz * B * 1000000)).
  { eapply Z.le_trans; [exact A3|]. apply Z.mul_le_mono_nonneg_l; [lia|]. apply Z.mul_le_mono_nonneg_r; [lia|].
    apply Z.mul_le_mono_nonneg_r; lia. }
  assert (A5 : (64 * a) * qz <= (125 * (c * B * 1000000)) * qz) by lia.
  apply Z.mul_le_mono_pos_r in A5; [|exact Zq]. clear - A5 Ha. lia.
Qed.

(** without a previous fire time: the least grid point from [now] on, within 71 years *)
Lemma interval_first iv s e o now B : 0 < B < 2 ^ 53 -> iv = B * us -> now - s < 2 ^ 51 ->
  match interval_next iv s e None o None now with
  | Some t => first_from (grid iv s) now t /\ not_after t e
  | None => exists t, first_from (grid iv s) now t /\ ~ not_after t e
  end.
Proof.
  intros HB -> Hnow.
  assert (Hf : exists t, first_from (grid (B * us) s) now t /\ interval_next (B * us) s e None o None now = match e with None => Some t | Some x => if t <=? x then Some t else None end).
  { unfold interval_next, draw. destruct (Z.ltb_spec now s) as [Hs|Hs].
    - exists s. split.
      + split; [exists 0; lia|]. split; [lia|]. intros u (k & Hk & ->) _. unfold us. nia.
      + rewrite Z.add_0_r. reflexivity.
    - unfold us. rewrite interval_number_exact by lia.
      pose proof (ceil_div_spec (now - s) (B * 1000000) ltac:(lia)) as Hc. set (c := ceil_div _ _) in *. clearbody c.
      exists (s + B * 1000000 * c). split; [|rewrite Z.add_0_r; reflexivity]. split; [|split].
      + exists c. split; [nia|lia].
      + lia.
      + intros u (k & Hk & ->) Hge. assert (c <= k) by nia. nia. }
  destruct Hf as (t & Ht & ->). unfold not_after. destruct e as [x|].
  - destruct (Z.leb_spec t x).
    + split; auto. intros y [= <-]; lia.
    + exists t. split; auto. intros Hn. specialize (Hn x eq_refl). lia.
  - split; auto. intros y; discriminate.
Qed.

(** always (any float error): the answer without previous time is a grid point *)
Lemma interval_on_grid iv s e o now t : 0 < iv ->
  interval_next iv s e None o None now = Some t -> grid iv s t /\ not_after t e.
Proof.
  intros Hiv H. unfold interval_next, draw in H.
  assert (G : grid iv s ((if now <? s then s else s + iv * interval_number (now - s) iv) + 0)).
  { destruct (Z.ltb_spec now s); [exists 0; lia|].
    exists (interval_number (now - s) iv). split; [apply interval_number_nonneg; lia|ring]. }
  set (v := _ + 0) in *. clearbody v. unfold not_after. destruct e as [x|].
  - destruct (Z.leb_spec v x); [|discriminate]. injection H as <-. split; auto. intros y [= <-]; auto.
  - injection H as <-. split; auto. discriminate.
Qed.

Lemma interval_after iv s e o p now :
  interval_next iv s e None o (Some p) now =
  match e with Some x => if p + iv <=? x then Some (p + iv) else None | None => Some (p + iv) end.
Proof. unfold interval_next, draw. rewrite Z.add_0_r. reflexivity. Qed.

(** with jitter *)
Lemma interval_jitter_bounds iv s e j o prev now t : fair o -> jitter_ok j ->
  interval_next iv s e j o prev now = Some t ->
  exists t0, interval_next iv s e None o prev now = Some t0 /\
             t0 <= t /\ (forall x, j = Some x -> t <= t0 + x * us) /\ (j = None -> t = t0) /\ not_after t e.
Proof.
  intros Hf Hj H. unfold interval_next in *. set (b := match prev with Some p => p + iv | None => _ end) in *. clearbody b.
  destruct (draw_bounds o j Hf Hj) as (D1 & D2 & D3). cbn [draw]. rewrite Z.add_0_r. exists b.
  assert (t = b + draw o j /\ not_after t e) as [-> Hna].
  { unfold not_after. destruct e as [x|]; [|injection H as <-; split; [auto|discriminate]].
    destruct (Z.leb_spec (b + draw o j) x); [|discriminate]. injection H as <-. split; auto. intros y [= <-]; auto. }
  split; [|split; [lia|]; split; [intros x Ex; specialize (D2 x Ex); lia|]; split; [intros En; rewrite (D3 En); lia|exact Hna]].
  destruct e as [x|]; auto. destruct (Z.leb_spec b x); auto. specialize (Hna x eq_refl). lia.
Qed.

(** ** combinators over abstract children *)
Lemma ask_all_spec i cs o now r : ask_all i cs o now = Ok (Some r) ->
  Forall2 (fun jc t => snd jc (sub o (fst jc)) now = Ok (Some t)) (combine (seq i (List.length cs)) cs) r.
Proof.
  revert i r. induction cs as [|c cs IH]; intros i r; cbn [ask_all List.length seq combine].
  - intros [= <-]. constructor.
  - destruct (c (sub o i) now) as [[t|]|e] eqn:Ec; try discriminate.
    destruct (ask_all (S i) cs o now) as [[l|]|e] eqn:E; try discriminate. intros [= <-].
    constructor; auto.
Qed.

Lemma Forall2_In_l {A B} (R : A -> B -> Prop) l r x : Forall2 R l r -> In x l -> exists y, In y r /\ R x y.
Proof. intros H. induction H as [|a b l r Hab H IH]; [intros []|]. intros [E|Hi]; [subst; exists b; split; [now left|auto]|]. destruct (IH Hi) as (y & ? & ?). exists y; split; [now right|auto]. Qed.
Lemma Forall2_In_r {A B} (R : A -> B -> Prop) l r y : Forall2 R l r -> In y r -> exists x, In x l /\ R x y.
Proof. intros H. induction H as [|a b l r Hab H IH]; [intros []|]. intros [E|Hi]; [subst; exists a; split; [now left|auto]|]. destruct (IH Hi) as (x & ? & ?). exists x; split; [now right|auto]. Qed.

Lemma combine_seq_In {A} i (cs : list A) c : In c cs -> exists j, In (j, c) (combine (seq i (List.length cs)) cs).
Proof.
  revert i. induction cs as [|a cs IH]; intros i; [intros []|]. intros [E|Hi]; cbn [List.length seq combine].
  - subst. exists i. now left.
  - destruct (IH (S i) Hi) as (j & Hj). exists j. now right.
Qed.

(** every child answers the element of [r] it contributed *)
Lemma ask_all_each i cs o now r : ask_all i cs o now = Ok (Some r) ->
  (forall c, In c cs -> exists j t, In t r /\ c (sub o j) now = Ok (Some t)) /\
  (forall t, In t r -> exists c j, In c cs /\ c (sub o j) now = Ok (Some t)).
Proof.
  intros H. apply ask_all_spec in H. split.
  - intros c Hc. destruct (combine_seq_In i cs c Hc) as (j & Hj).
    destruct (Forall2_In_l _ _ _ _ H Hj) as (t & Ht & E). exists j, t; auto.
  - intros t Ht. destruct (Forall2_In_r _ _ _ _ H Ht) as ([j c] & Hjc & E). exists c, j. split; auto.
    eapply in_combine_r; eauto.
Qed.

Lemma ask_all_none i cs o now : ask_all i cs o now = Ok None -> exists c j, In c cs /\ c (sub o j) now = Ok None.
Proof.
  revert i. induction cs as [|c cs IH]; intros i; cbn [ask_all]; [discriminate|].
  destruct (c (sub o i) now) as [[t|]|e] eqn:Ec; try discriminate.
  - destruct (ask_all (S i) cs o now) as [[l|]|e] eqn:E; try discriminate. intros _.
    destruct (IH _ E) as (c' & j & ? & ?). exists c', j; split; [now right|auto].
  - intros _. exists c, i. split; [now left|auto].
Qed.

Lemma ask_some_spec i cs o now r : ask_some i cs o now = Ok r ->
  (forall t, In t r <-> exists j c, In (j, c) (combine (seq i (List.length cs)) cs) /\ c (sub o j) now = Ok (Some t)) /\
  (forall j c, In (j, c) (combine (seq i (List.length cs)) cs) -> exists a, c (sub o j) now = Ok a).
Proof.
  revert i r. induction cs as [|c cs IH]; intros i r; cbn [ask_some List.length seq combine].
  - intros [= <-]. split; [|intros j c []]. intros t; split; [intros []|intros (j & c & [] & _)].
  - destruct (c (sub o i) now) as [a|e] eqn:Ec; try discriminate.
    destruct (ask_some (S i) cs o now) as [l|e] eqn:E; try discriminate. intros [= <-].
    destruct (IH _ _ E) as [I1 I2]. split.
    + intros t. destruct a as [x|]; cbn [In]; rewrite I1; split.
      * intros [<-|(j & c' & Hi & Hc)]; [exists i, c|exists j, c']; auto.
      * intros (j & c' & [[= <- <-]|Hi] & Hc); [left; congruence|right; exists j, c'; auto].
      * intros (j & c' & Hi & Hc). exists j, c'; auto.
      * intros (j & c' & [[= <- <-]|Hi] & Hc); [congruence|exists j, c'; auto].
    + intros j c' [[= <- <-]|Hi]; [eauto|eauto].
Qed.

(** OR: minimum of the answers *)
Lemma or_next_spec cs o now r : or_next cs None o now = Ok r ->
  (forall c, In c cs -> exists j a, c (sub o j) now = Ok a) /\
  match r with
  | Some t => (exists c j, In c cs /\ c (sub o j) now = Ok (Some t)) /\
              (forall c, In c cs -> exists j a, c (sub o j) now = Ok a /\ forall u, a = Some u -> t <= u)
  | None => forall c, In c cs -> exists j, c (sub o j) now = Ok None
  end.
Proof.
  unfold or_next. destruct (ask_some 0 cs o now) as [l|e] eqn:E; [|discriminate].
  destruct (ask_some_spec _ _ _ _ _ E) as [S1 S2]. intros H. split.
  { intros c Hc. destruct (combine_seq_In 0 cs c Hc) as (j & Hj). destruct (S2 _ _ Hj) as (a & Ha). eauto. }
  destruct l as [|t l].
  - injection H as <-. intros c Hc. destruct (combine_seq_In 0 cs c Hc) as (j & Hj). exists j.
    destruct (S2 _ _ Hj) as ([u|] & Ha); auto. exfalso. apply (proj2 (S1 u)). exists j, c; auto.
  - injection H as <-. unfold draw. rewrite Z.add_0_r. split.
    + destruct (proj1 (S1 (zmin t l)) (zmin_In t l)) as (j & c & Hi & Hc). exists c, j. split; auto. eapply in_combine_r; eauto.
    + intros c Hc. destruct (combine_seq_In 0 cs c Hc) as (j & Hj). destruct (S2 _ _ Hj) as (a & Ha). exists j, a. split; auto. intros u ->.
      destruct (zmin_le t l) as [M1 M2]. destruct (proj2 (S1 u)) as [<-|Hin]; [exists j, c; auto|exact M1|auto].
Qed.

(** ** compositional meaning of the first fire time *)
Definition tracks (H : Z) (F : Z -> Prop) (f : child) : Prop := forall o now,
  (forall t, f o now = Ok (Some t) -> H < now -> H < t) /\
  (now <= H -> forall r, f o now = Ok r -> first_until F H now r).

Lemma and_tracks H (Fs : list (Z -> Prop)) cs : cs <> [] -> Forall2 (tracks H) Fs cs ->
  forall fuel k o now r, and_loop fuel k cs None o now = Ok r ->
    (forall t, r = Some t -> H < now -> H < t) /\
    (now <= H -> first_until (fun u => forall F, In F Fs -> F u) H now r).
Proof.
  intros Hne HF. induction fuel as [|fuel IH]; intros k o now r; cbn [and_loop]; [discriminate|].
  destruct (ask_all 0 cs (sub o k) now) as [[[|t ts]|]|e] eqn:E; try discriminate.
  - destruct (ask_all_each _ _ _ _ _ E) as [E1 E2].
    destruct (Z.eqb_spec (zmin t ts) (zmax t ts)) as [Em|Em].
    + cbn [apply_jitter draw]. rewrite Z.add_0_r. intros [= <-].
      assert (Hall : forall c, In c cs -> exists j, c (sub (sub o k) j) now = Ok (Some t)).
      { intros c Hc. destruct (E1 c Hc) as (j & u & Hu & Hcu). exists j.
        destruct Hu as [->|Hu]; auto. rewrite (zmin_zmax_eq _ _ Em u Hu) in Hcu. auto. }
      split.
      * intros t' [= <-] HH. destruct cs as [|c cs']; [congruence|]. inversion HF as [|F c' Fs' cs'' Ht Hrest]; subst.
        destruct (Hall c (or_introl eq_refl)) as (j & Hc). destruct (Ht (sub (sub o k) j) now) as [T1 _]. auto.
      * intros HH. assert (Hch : forall F, In F Fs -> first_until F H now (Some t)).
        { intros F HFin. destruct (Forall2_In_l _ _ _ _ HF HFin) as (c & Hc & Htr).
          destruct (Hall c Hc) as (j & Hcj). destruct (Htr (sub (sub o k) j) now) as [_ T2]. apply T2; auto. }
        assert (exists F, In F Fs) as (F0 & HF0).
        { destruct HF; [congruence|]. eexists; left; reflexivity. }
        cbn [first_until]. split; [apply (Hch F0 HF0)|]. split.
        -- intros HtH F HFin. exact (proj1 (proj2 (Hch F HFin)) HtH).
        -- intros u Hu Hnu HuH. exact (proj2 (proj2 (Hch F0 HF0)) u (Hu F0 HF0) Hnu HuH).
    + intros Hl. apply IH in Hl. destruct Hl as [L1 L2].
      pose proof (zmin_lt_zmax _ _ Em) as Hlt.
      destruct (E2 (zmax t ts) (zmax_In t ts)) as (c & j & Hc & Hcj).
      destruct (Forall2_In_r _ _ _ _ HF Hc) as (F & HFin & Htr).
      destruct (Htr (sub (sub o k) j) now) as [T1 T2]. set (m := zmax t ts) in *. clearbody m.
      split.
      * intros x Hx HH. apply (L1 x Hx). auto.
      * intros HH. specialize (T2 HH _ Hcj). cbn [first_until] in T2. destruct T2 as (T2 & _ & T3).
        destruct (Z.leb_spec m H) as [HmH|HmH].
        -- specialize (L2 HmH). destruct r as [x|]; cbn [first_until] in *.
           ++ split; [lia|]. split; [tauto|]. intros u Hu Hnu HuH. apply L2; [exact Hu|exact (T3 u (Hu F HFin) Hnu HuH)|exact HuH].
           ++ intros u Hu Hnu HuH. apply (L2 u Hu); [exact (T3 u (Hu F HFin) Hnu HuH)|exact HuH].
        -- assert (Hno : forall u, (forall F, In F Fs -> F u) -> now <= u -> u <= H -> False).
           { intros u Hu Hnu HuH. specialize (T3 u (Hu F HFin) Hnu HuH). lia. }
           destruct r as [x|]; cbn [first_until].
           ++ specialize (L1 x eq_refl HmH). split; [lia|]. split; [lia|]. intros u Hu Hnu HuH. destruct (Hno u Hu Hnu HuH).
           ++ intros u Hu Hnu HuH. apply (Hno u Hu Hnu HuH).
  - intros [= <-]. split; [discriminate|]. intros HH. destruct (ask_all_none _ _ _ _ E) as (c & j & Hc & Hcj).
    destruct (Forall2_In_r _ _ _ _ HF Hc) as (F & HFin & Htr).
    destruct (Htr (sub (sub o k) j) now) as [_ T2]. specialize (T2 HH _ Hcj). cbn [first_until] in *.
    intros u Hu. apply T2. exact (Hu F HFin).
Qed.

Lemma or_tracks H (Fs : list (Z -> Prop)) cs o now r : Forall2 (tracks H) Fs cs -> or_next cs None o now = Ok r ->
    (forall t, r = Some t -> H < now -> H < t) /\
    (now <= H -> first_until (fun u => exists F, In F Fs /\ F u) H now r).
Proof.
  intros HF Hr. apply or_next_spec in Hr. destruct Hr as [Hans Hr]. split.
  - intros t -> HH. destruct Hr as ((c & j & Hc & Hcj) & _).
    destruct (Forall2_In_r _ _ _ _ HF Hc) as (F & HFin & Htr). apply (Htr (sub o j) now); auto.
  - intros HH. destruct r as [t|]; cbn [first_until].
    + destruct Hr as ((c & j & Hc & Hcj) & Hmin).
      destruct (Forall2_In_r _ _ _ _ HF Hc) as (F & HFin & Htr).
      destruct (Htr (sub o j) now) as [_ T2]. specialize (T2 HH _ Hcj). cbn [first_until] in T2.
      split; [tauto|]. split; [intros HtH; exists F; tauto|].
      intros u (F' & HF' & Hu) Hnu HuH.
      destruct (Forall2_In_l _ _ _ _ HF HF') as (c' & Hc' & Htr').
      destruct (Hmin c' Hc') as (j1 & a & Ha & Hm1).
      destruct (Htr' (sub o j1) now) as [_ T2']. specialize (T2' HH _ Ha).
      destruct a as [v|]; cbn [first_until] in T2'.
      * specialize (Hm1 v eq_refl). assert (v <= u) by (apply T2'; auto). lia.
      * destruct (T2' u Hu Hnu HuH).
    + intros u (F' & HF' & Hu) Hnu HuH.
      destruct (Forall2_In_l _ _ _ _ HF HF') as (c' & Hc' & Htr').
      destruct (Hr c' Hc') as (j & Hcj). destruct (Htr' (sub o j) now) as [_ T2'].
      specialize (T2' HH _ Hcj). cbn [first_until] in T2'. apply (T2' u Hu Hnu HuH).
Qed.

Lemma tracks_ext H F G f : (forall u, F u <-> G u) -> tracks H F f -> tracks H G f.
Proof.
  intros E T o now. destruct (T o now) as [T1 T2]. split; auto. intros HH r Hr. specialize (T2 HH r Hr).
  destruct r as [t|]; cbn [first_until] in *.
  - destruct T2 as (A & B & C). split; auto. split; [intros X; apply E; auto|]. intros u Hu. apply C, E, Hu.
  - intros u Hu. apply T2, E, Hu.
Qed.

Lemma interval_tracks H fuel iv s e j : regular H (TInterval iv s e j) ->
  tracks H (fires (TInterval iv s e j)) (get_next fuel (TInterval iv s e j) None).
Proof.
  intros [(B & HB & ->) [Hs ->]] o now. cbn [get_next fires]. split.
  - intros t [= Ht] HH.
    assert (Hge : interval_next (B * us) s e None o None now = Some t -> t >= (if now <? s then s else s + B * us * interval_number (now - s) (B * us))).
    { clear Ht. intros Ht. unfold interval_next, draw in Ht. rewrite Z.add_0_r in Ht. destruct e as [x|].
      - destruct (_ <=? x); [injection Ht as <-; lia|discriminate].
      - injection Ht as <-; lia. }
    specialize (Hge Ht). destruct (Z.ltb_spec now s); [lia|].
    change (2 ^ 50) with 1125899906842624 in Hs. change (2 ^ 53) with 9007199254740992 in HB.
    destruct (Z.ltb_spec (now - s) (2 ^ 51)) as [Hlt|Hlt]; change (2 ^ 51) with 2251799813685248 in Hlt.
    + unfold us in Hge. rewrite interval_number_exact in Hge by (change (2 ^ 51) with 2251799813685248; change (2 ^ 53) with 9007199254740992; lia).
      pose proof (ceil_div_spec (now - s) (B * 1000000) ltac:(lia)). lia.
    + unfold us in Hge. pose proof (interval_number_half (now - s) B ltac:(lia) ltac:(change (2 ^ 53) with 9007199254740992; lia)). lia.
  - intros HH r [= Hr].
    assert (Hlt : now - s < 2 ^ 51) by (change (2 ^ 50) with 1125899906842624 in Hs; change (2 ^ 51) with 2251799813685248; lia).
    pose proof (interval_first (B * us) s e o now B HB eq_refl Hlt) as Hf. rewrite Hr in Hf.
    destruct r as [t|]; cbn [first_until].
    + destruct Hf as [(G & Hn & Hl) Hna]. split; [lia|]. split; [auto|]. intros u [Hu _] Hnu _. apply Hl; auto.
    + destruct Hf as (t & (G & Hn & Hl) & Hna). intros u [Hu Hue] Hnu _. apply Hna. intros x Hx. specialize (Hue x Hx).
      specialize (Hl u Hu Hnu). lia.
Qed.

Lemma cron_tracks H fuel tb off s e j : regular H (TCron tb off s e j) ->
  tracks H (fires (TCron tb off s e j)) (get_next fuel (TCron tb off s e j) None).
Proof.
  intros [Hok ->] o now. cbn [get_next fires draw].
  pose proof (cron_next_spec tb off s e None now _ Hok eq_refl) as Hs. cbn zeta in Hs.
  set (st := cron_start s None now) in *.
  assert (Hst : forall u, st <= u <-> now <= u /\ not_before u s).
  { intros u. unfold st, cron_start, not_before. destruct s as [x|].
    - split; [intros; split; [lia|]; intros y [= <-]; lia|]. intros [H1 H2]. specialize (H2 x eq_refl). lia.
    - split; [intros; split; [auto|discriminate]|tauto]. }
  destruct (cron_next tb off s e 0 None now) as [[t|]|err].
  - destruct Hs as (_ & Hm & Hge & He & Hl). apply Hst in Hge. split; [intros t' [= <-]; lia|].
    intros HH r [= <-]. cbn [first_until]. split; [tauto|]. split; [intros _; split; [auto|split; [tauto|exact He]]|].
    intros u (Hu & Hus & _) Hnu _. apply Hl; auto. apply Hst; auto.
  - destruct Hs as (_ & Hno). split; [discriminate|]. intros HH r [= <-]. cbn [first_until].
    intros u (Hu & Hus & Hue) Hnu _. destruct (Hno u Hu) as (x & Ex & Hx); [apply Hst; auto|]. specialize (Hue x Ex). lia.
  - split; discriminate.
Qed.

Lemma shutdown_tracks H fuel : tracks H (fires TShutdown) (get_next fuel TShutdown None).
Proof. intros o now. cbn [get_next fires]. split; [discriminate|]. intros HH r [= <-]. cbn. tauto. Qed.

Lemma Forall2_map_tracks H fuel l :
  Forall (fun tr => regular H tr -> tracks H (fires tr) (get_next fuel tr None)) l -> Forall (regular H) l ->
  Forall2 (tracks H) (map fires l) (map (fun t => get_next fuel t None) l).
Proof.
  induction l as [|x l IH]; cbn [map]; [constructor|]. rewrite !Forall_cons_iff. intros [A B] [C D]. constructor; auto.
Qed.

Theorem regular_tracks H fuel tr : regular H tr -> tracks H (fires tr) (get_next fuel tr None).
Proof.
  induction tr as [d|iv s e j|tb off s e j|l j IH|l j IH|] using trigger_ind'; intros Hr.
  - destruct Hr.
  - apply interval_tracks; auto.
  - apply cron_tracks; auto.
  - destruct Hr as (Hne & -> & Hl). apply all_Forall in Hl.
    apply tracks_ext with (F := fun u => forall F, In F (map fires l) -> F u).
    + intros u. cbn [fires]. rewrite all_Forall, Forall_forall. split.
      * intros Hu x Hx. apply Hu. apply in_map; auto.
      * intros Hu F HF. apply in_map_iff in HF. destruct HF as (x & <- & Hx). auto.
    + intros o now. cbn [get_next].
      pose proof (Forall2_map_tracks H fuel l IH Hl) as HT.
      assert (Hne' : map (fun t => get_next fuel t None) l <> []) by (destruct l; [congruence|discriminate]).
      pose proof (and_tracks H _ _ Hne' HT fuel 0 o now) as Ha.
      split; [intros t Ht; exact (proj1 (Ha _ Ht) t eq_refl)|intros HH r Hr; exact (proj2 (Ha _ Hr) HH)].
  - destruct Hr as (-> & Hl). apply all_Forall in Hl.
    apply tracks_ext with (F := fun u => exists F, In F (map fires l) /\ F u).
    + intros u. cbn [fires]. rewrite any_Exists, Exists_exists. split.
      * intros (F & HF & Hu). apply in_map_iff in HF. destruct HF as (x & <- & Hx). eauto.
      * intros (x & Hx & Hu). exists (fires x). split; auto. apply in_map; auto.
    + intros o now. cbn [get_next].
      pose proof (Forall2_map_tracks H fuel l IH Hl) as HT.
      pose proof (fun r => or_tracks H _ _ o now r HT) as Ha.
      split; [intros t Ht; exact (proj1 (Ha _ Ht) t eq_refl)|intros HH r Hr; exact (proj2 (Ha _ Hr) HH)].
  - apply shutdown_tracks.
Qed.
