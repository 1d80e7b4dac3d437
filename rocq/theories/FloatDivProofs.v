From Verif Require Import Prelude FloatDiv.
Open Scope Z_scope.

Lemma rhe_bounds a b : 0 <= a -> 0 < b -> 2 * Z.abs (rhe a b * b - a) <= b.
Proof.
  intros Ha Hb. unfold rhe. pose proof (Z.div_mod a b ltac:(lia)). pose proof (Z.mod_pos_bound a b Hb).
  destruct (Z.ltb_spec (2 * (a mod b)) b); [nia|].
  destruct (Z.ltb_spec b (2 * (a mod b))); [nia|]. destruct (Z.even (a / b)); nia.
Qed.

Lemma rhe_le a b K : 0 <= a -> 0 < b -> a <= K * b -> rhe a b <= K.
Proof.
  intros Ha Hb HK. pose proof (Z.div_mod a b ltac:(lia)). pose proof (Z.mod_pos_bound a b Hb).
  unfold rhe.
  assert (a / b <= K) by (apply Z.div_le_upper_bound; lia).
  destruct (Z.ltb_spec (2 * (a mod b)) b); [lia|].
  destruct (Z.eq_dec (a / b) K) as [E|E]; [exfalso; rewrite E in *; nia|].
  destruct (b <? _); [lia|]. destruct (Z.even _); lia.
Qed.

Lemma rhe_ge a b K : 0 <= a -> 0 < b -> K * b <= a -> K <= rhe a b.
Proof.
  intros Ha Hb HK. unfold rhe.
  assert (K <= a / b) by (apply Z.div_le_lower_bound; lia).
  destruct (_ <? _); [lia|]. destruct (_ <? _); [lia|]. destruct (Z.even _); lia.
Qed.

Lemma scaled_spec n d e a b : 0 < n -> 0 < d -> scaled n d e = (a, b) ->
  0 < a /\ 0 < b /\ (if 0 <=? e then a = n /\ b = d * 2 ^ e else a = n * 2 ^ (- e) /\ b = d).
Proof.
  intros Hn Hd H. unfold scaled in H. destruct (Z.leb_spec 0 e); injection H as <- <-.
  - pose proof (Z.pow_pos_nonneg 2 e). nia.
  - pose proof (Z.pow_pos_nonneg 2 (- e)). nia.
Qed.

(** normalisation: the scaled quotient is at least 2^52 *)
Lemma frnd_norm n d : 0 < n -> 0 < d ->
  let l := Z.log2 n - Z.log2 d in
  let e := let (a, b) := scaled n d l in if b <=? a then l - 52 else l - 53 in
  let (a, b) := scaled n d e in 2 ^ 52 * b <= a.
Proof.
  intros Hn Hd l. cbn zeta.
  pose proof (Z.log2_spec n Hn) as [L1 L2]. pose proof (Z.log2_spec d Hd) as [D1 D2].
  pose proof (Z.log2_nonneg n) as Ln. pose proof (Z.log2_nonneg d) as Ld.
  assert (El : Z.log2 n = l + Z.log2 d) by (unfold l; lia).
  assert (Hs : forall e k, 0 <= k -> (let (a, b) := scaled n d (e + k) in b <= a) ->
             let (a, b) := scaled n d e in 2 ^ k * b <= a).
  { intros e k Hk. unfold scaled. destruct (Z.leb_spec 0 (e + k)), (Z.leb_spec 0 e); try lia.
    - rewrite Z.pow_add_r by lia. lia.
    - intros H1. assert (E : 2 ^ k = 2 ^ (e + k) * 2 ^ (- e)) by (rewrite <- Z.pow_add_r by lia; f_equal; lia).
      rewrite E. assert (0 < 2 ^ (- e)) by (apply Z.pow_pos_nonneg; lia). nia.
    - intros H1. assert (E : 2 ^ (- e) = 2 ^ (- (e + k)) * 2 ^ k) by (rewrite <- Z.pow_add_r by lia; f_equal; lia).
      rewrite E. assert (0 < 2 ^ k) by (apply Z.pow_pos_nonneg; lia). nia. }
  destruct (scaled n d l) as [a0 b0] eqn:E0. destruct (Z.leb_spec b0 a0).
  - apply (Hs (l - 52) 52); [lia|]. replace (l - 52 + 52) with l by lia. rewrite E0. lia.
  - assert (Hh : let (a, b) := scaled n d (l - 1) in b <= a).
    { unfold scaled. rewrite Z.pow_succ_r in D2 by lia. rewrite El in *. clear Hs E0.
      destruct (Z.leb_spec 0 (l - 1)).
      - replace (l + Z.log2 d) with ((l - 1) + Z.log2 d + 1) in L1 by lia.
        rewrite !Z.pow_add_r in L1 by lia. change (2 ^ 1) with 2 in L1.
        assert (0 < 2 ^ (l - 1)) by (apply Z.pow_pos_nonneg; lia). nia.
      - set (f := - (l - 1)) in *. replace (Z.log2 d) with ((l + Z.log2 d) + f - 1) in D2 by lia.
        assert (2 * 2 ^ (l + Z.log2 d + f - 1) = 2 ^ (l + Z.log2 d) * 2 ^ f).
        { rewrite <- Z.pow_add_r by lia. rewrite <- (Z.pow_succ_r 2) by lia. f_equal. lia. }
        assert (0 < 2 ^ f) by (apply Z.pow_pos_nonneg; lia). nia. }
    pose proof (Hs (l - 53) 52 ltac:(lia)) as H1. replace (l - 53 + 52) with (l - 1) in H1 by lia. exact (H1 Hh).
Qed.

Record approx (n d : Z) (x : Z * Z) : Prop := {
  ap_q : 0 < snd x;
  ap_p : 0 <= fst x;
  (* relative error at most 2^-53 *)
  ap_rel : 2 ^ 53 * Z.abs (fst x * d - n * snd x) <= n * snd x;
  (* integers below 2^53 are never crossed *)
  ap_le : forall K, 0 <= K < 2 ^ 53 -> n <= K * d -> fst x <= K * snd x;
  ap_ge : forall K, 0 <= K < 2 ^ 53 -> K * d <= n -> K * snd x <= fst x }.

Lemma frnd_approx n d : 0 <= n -> 0 < d -> approx n d (frnd n d).
Proof.
  intros Hn Hd. unfold frnd. destruct (Z.eqb_spec n 0) as [->|Hz].
  { split; cbn [fst snd]; try lia. }
  destruct (Z.ltb_spec n 0); [lia|].
  assert (Hp : 0 < n) by lia. clear Hz Hn H.
  unfold frnd_pos. pose proof (frnd_norm n d Hp Hd) as Hnorm. cbn zeta in *.
  set (e := let (a, b) := scaled n d (Z.log2 n - Z.log2 d) in
            if b <=? a then Z.log2 n - Z.log2 d - 52 else Z.log2 n - Z.log2 d - 53) in *. clearbody e.
  destruct (scaled n d e) as [a b] eqn:Es.
  pose proof (scaled_spec n d e a b Hp Hd Es) as (Ha & Hb & Hab).
  pose proof (rhe_bounds a b ltac:(lia) Hb) as Hr.
  pose proof (fun K => rhe_le a b K ltac:(lia) Hb) as Hle.
  pose proof (fun K => rhe_ge a b K ltac:(lia) Hb) as Hge.
  set (m := rhe a b) in *. clearbody m.
  assert (Hm0 : 0 <= m) by (apply Hge; lia).
  change (2 ^ 52) with 4503599627370496 in *. change (2 ^ 53) with 9007199254740992 in *.
  destruct (Z.leb_spec 0 e); destruct Hab as [-> ->].
  - assert (Hpe : 0 < 2 ^ e) by (apply Z.pow_pos_nonneg; lia). set (E := 2 ^ e) in *.
    split; cbn [fst snd].
    + lia.
    + nia.
    + replace (m * E * d - n * 1) with (m * (d * E) - n) by ring.
      change (2 ^ 53) with 9007199254740992. lia.
    + change (2 ^ 53) with 9007199254740992. intros K HK HnK.
      destruct (Z.eq_dec E 1) as [E1|E1]; [rewrite E1 in *; assert (m <= K) by (apply Hle; lia); lia|].
      exfalso. assert (E >= 2) by lia. assert (n >= 9007199254740992 * d) by nia. nia.
    + change (2 ^ 53) with 9007199254740992. intros K HK HnK.
      destruct (Z.eq_dec E 1) as [E1|E1]; [rewrite E1 in *; assert (K <= m) by (apply Hge; lia); lia|].
      assert (4503599627370496 <= m) by (apply Hge; lia). nia.
  - assert (Hpe : 0 < 2 ^ (- e)) by (apply Z.pow_pos_nonneg; lia). set (E := 2 ^ (- e)) in *.
    split; cbn [fst snd].
    + lia.
    + lia.
    + change (2 ^ 53) with 9007199254740992. lia.
    + intros K HK HnK. apply Hle. nia.
    + intros K HK HnK. apply Hge. nia.
Qed.

Lemma ceil_eq p q K : 0 < q -> (K - 1) * q < p -> p <= K * q -> - ((- p) / q) = K.
Proof. intros Hq H1 H2. assert (- p / q = - K); [|lia]. symmetry. apply Z.div_unique with (r := K * q - p); [left|]; lia. Qed.

Lemma td_float_secs s : 0 <= s < 2 ^ 53 -> let x := td_float (s * 1000000) in 0 < snd x /\ fst x = s * snd x.
Proof.
  intros Hs. unfold td_float. rewrite Z.mod_mul, Z.div_mul by lia. change (frnd 0 1000000) with (0, 1).
  cbv iota beta. replace (s * 1 + 0) with s by ring. cbn zeta.
  pose proof (frnd_approx s 1 ltac:(lia) ltac:(lia)) as [H1 H2 H3 H4 H5].
  specialize (H4 s ltac:(lia) ltac:(lia)). specialize (H5 s ltac:(lia) ltac:(lia)). lia.
Qed.

Lemma fdiv_int x (y : Z * Z) B : 0 < snd y -> fst y = B * snd y -> 0 < B -> 0 < snd x -> 0 <= fst x ->
  approx (fst x) (snd x * B) (fdiv x y).
Proof.
  intros Hq Hy HB Hx Hx0. unfold fdiv. rewrite Hy. destruct (Z.ltb_spec (snd x * (B * snd y)) 0); [nia|].
  pose proof (frnd_approx (fst x * snd y) (snd x * (B * snd y)) ltac:(nia) ltac:(nia)) as [H1 H2 H3 H4 H5].
  set (z := frnd _ _) in *. clearbody z. split; auto.
  - replace (fst z * (snd x * (B * snd y)) - fst x * snd y * snd z) with (snd y * (fst z * (snd x * B) - fst x * snd z)) in H3 by ring.
    rewrite Z.abs_mul, (Z.abs_eq (snd y)) in H3 by lia. nia.
  - intros K HK HH. apply H4; auto. nia.
  - intros K HK HH. apply H5; auto. nia.
Qed.

Lemma ceil_div_spec a b : 0 < b -> (ceil_div a b - 1) * b < a <= ceil_div a b * b.
Proof.
  intros Hb. unfold ceil_div. pose proof (Z.div_mod (- a) b ltac:(lia)). pose proof (Z.mod_pos_bound (- a) b Hb). nia.
Qed.

(** a relative error of 2^-53 from below *)
Definition Q53 : Z := 9007199254740992.
Lemma rel_lower n d p q : 2 ^ 53 * Z.abs (p * d - n * q) <= n * q -> (Q53 - 1) * (n * q) <= Q53 * (p * d).
Proof. change (2 ^ 53) with 9007199254740992. unfold Q53. generalize (n * q), (p * d). intros; lia. Qed.

Lemma three_errors S u B k pu qu px qx pz qz :
  0 < qu -> 0 < qx -> 0 < qz -> 0 < B -> 0 <= S -> 0 <= u -> 0 <= k ->
  (Q53 - 1) * (u * qu) <= Q53 * (pu * 1000000) ->
  (Q53 - 1) * ((S * qu + pu) * qx) <= Q53 * (px * qu) ->
  (Q53 - 1) * (px * qz) <= Q53 * (pz * (qx * B)) ->
  k * B * 1000000 + 1 <= S * 1000000 + u -> k * B * 1000000 < 2251799813685248 ->
  k * qz < pz.
Proof.
  intros Hqu Hqx Hqz HB HS Hu Hk H1 H2 H3 H4 H5.
  set (r := Q53 - 1) in *. assert (Hr : 0 < r) by (unfold r, Q53; lia). assert (HQ : 0 < Q53) by (unfold Q53; lia).
  assert (HrQ : r <= Q53) by (unfold r; lia).
  set (T := S * 1000000 + u) in *.
  (* step 1: r * T * qu <= Q * 10^6 * (S qu + pu) *)
  assert (A1 : r * T * qu <= Q53 * 1000000 * (S * qu + pu)).
  { assert (r * (S * 1000000 * qu) <= Q53 * (S * 1000000 * qu)) by (apply Z.mul_le_mono_nonneg_r; nia).
    replace (r * T * qu) with (r * (S * 1000000 * qu) + r * (u * qu)) by (unfold T; ring).
    replace (Q53 * 1000000 * (S * qu + pu)) with (Q53 * (S * 1000000 * qu) + Q53 * (pu * 1000000)) by ring. lia. }
  (* step 2: r^2 * T * qx <= Q^2 * 10^6 * px *)
  assert (A2 : r * r * T * qx <= Q53 * Q53 * 1000000 * px).
  { apply Z.mul_le_mono_pos_r with (p := qu); [exact Hqu|].
    replace (r * r * T * qx * qu) with ((r * qx) * (r * T * qu)) by ring.
    apply Z.le_trans with ((r * qx) * (Q53 * 1000000 * (S * qu + pu))).
    - apply Z.mul_le_mono_nonneg_l; [nia|exact A1].
    - replace (r * qx * (Q53 * 1000000 * (S * qu + pu))) with (Q53 * 1000000 * (r * ((S * qu + pu) * qx))) by ring.
      replace (Q53 * Q53 * 1000000 * px * qu) with (Q53 * 1000000 * (Q53 * (px * qu))) by ring.
      apply Z.mul_le_mono_nonneg_l; [lia|exact H2]. }
  (* step 3: r^3 * T * qz <= Q^3 * 10^6 * pz * B *)
  assert (A3 : r * r * r * T * qz <= Q53 * Q53 * Q53 * 1000000 * (pz * B)).
  { apply Z.mul_le_mono_pos_r with (p := qx); [exact Hqx|].
    replace (r * r * r * T * qz * qx) with ((r * qz) * (r * r * T * qx)) by ring.
    apply Z.le_trans with ((r * qz) * (Q53 * Q53 * 1000000 * px)).
    - apply Z.mul_le_mono_nonneg_l; [nia|exact A2].
    - replace (r * qz * (Q53 * Q53 * 1000000 * px)) with (Q53 * Q53 * 1000000 * (r * (px * qz))) by ring.
      replace (Q53 * Q53 * Q53 * 1000000 * (pz * B) * qx) with (Q53 * Q53 * 1000000 * (Q53 * (pz * (qx * B)))) by ring.
      apply Z.mul_le_mono_nonneg_l; [lia|exact H3]. }
  set (w := k * B) in *. assert (Hw : 0 <= w) by (unfold w; nia).
  assert (A4 : Q53 * Q53 * Q53 * (w * 1000000) < r * r * r * T).
  { apply Z.lt_le_trans with (r * r * r * (w * 1000000 + 1)); [unfold r, Q53; clear - Hw H5; lia|].
    apply Z.mul_le_mono_nonneg_l; [nia|exact H4]. }
  assert (A5 : (Q53 * Q53 * Q53 * (w * 1000000)) * qz < Q53 * Q53 * Q53 * 1000000 * (pz * B)).
  { apply Z.lt_le_trans with (r * r * r * T * qz); [|exact A3]. apply Z.mul_lt_mono_pos_r; auto. }
  assert (A6 : 0 < Q53 * Q53 * Q53 * 1000000) by (unfold Q53; lia).
  apply (Z.mul_lt_mono_pos_l B); [exact HB|].
  apply (Z.mul_lt_mono_pos_l (Q53 * Q53 * Q53 * 1000000)); [exact A6|].
  replace (Q53 * Q53 * Q53 * 1000000 * (B * (k * qz))) with (Q53 * Q53 * Q53 * (w * 1000000) * qz) by (unfold w; ring).
  replace (Q53 * Q53 * Q53 * 1000000 * (B * pz)) with (Q53 * Q53 * Q53 * 1000000 * (pz * B)) by ring. exact A5.
Qed.

(** For whole-second intervals the float computation is exact as long as the trigger started
    less than 2^51 microseconds (71 years) ago. *)
Lemma interval_number_exact a B : 0 <= a < 2 ^ 51 -> 0 < B < 2 ^ 53 ->
  interval_number a (B * 1000000) = ceil_div a (B * 1000000).
Proof.
  intros Ha HB. unfold interval_number, fceil.
  pose proof (ceil_div_spec a (B * 1000000) ltac:(lia)) as HK. set (K := ceil_div a (B * 1000000)) in *. clearbody K.
  change (2 ^ 51) with 2251799813685248 in *. change (2 ^ 53) with 9007199254740992 in *.
  assert (Hex : exists S u, a = S * 1000000 + u /\ 0 <= u < 1000000 /\ 0 <= S /\ S = a / 1000000 /\ u = a mod 1000000).
  { exists (a / 1000000), (a mod 1000000). pose proof (Z.div_mod a 1000000). pose proof (Z.mod_pos_bound a 1000000). lia. }
  destruct Hex as (S & u & Ea & Hu & HS & ES & Eu).
  assert (HK0 : 0 <= K) by nia.
  assert (HKB : K * B < 9007199254740992).
  { destruct (Z.eq_dec K 0) as [->|]; [lia|]. destruct (Z.eq_dec K 1) as [->|]; [lia|]. nia. }
  assert (HKs : K < 9007199254740992) by nia.
  destruct (td_float_secs B ltac:(lia)) as [Hyq Hyp]. cbn zeta in *. set (y := td_float (B * 1000000)) in *. clearbody y.
  pose proof (frnd_approx u 1000000 ltac:(lia) ltac:(lia)) as Hfu.
  assert (Ex : td_float a = frnd (S * snd (frnd u 1000000) + fst (frnd u 1000000)) (snd (frnd u 1000000))).
  { unfold td_float. rewrite <- ES, <- Eu. destruct (frnd u 1000000); reflexivity. }
  rewrite Ex. clear Ex. set (fu := frnd u 1000000) in *. clearbody fu. destruct fu as [pu qu]. cbn [fst snd] in *.
  destruct Hfu as [Uq Up Ur Ul Ug]. cbn [fst snd] in *.
  assert (Hn0 : 0 <= S * qu + pu) by nia.
  pose proof (frnd_approx (S * qu + pu) qu Hn0 Uq) as [Xq Xp Xr Xl Xg].
  set (x := frnd (S * qu + pu) qu) in *. clearbody x. destruct x as [px qx]. cbn [fst snd] in *.
  pose proof (fdiv_int (px, qx) y B Hyq Hyp ltac:(lia) Xq Xp) as [Zq Zp Zr Zl Zg].
  set (z := fdiv (px, qx) y) in *. clearbody z. destruct z as [pz qz]. cbn [fst snd] in *. clear y Hyq Hyp.
  change (2 ^ 53) with 9007199254740992 in *.
  apply rel_lower in Ur. apply rel_lower in Xr. apply rel_lower in Zr.
  apply ceil_eq; [exact Zq| |].
  - destruct (Z.eq_dec K 0) as [->|HK1]; [clear - Zp Zq; lia|].
    apply (three_errors S u B (K - 1) pu qu px qx pz qz); try assumption; try (clear - HK HB Ha Hu Ea HK0 HK1; lia).
  - apply Zl; [lia|]. rewrite (Z.mul_comm qx), Z.mul_assoc. apply Xl; [clear - HKB HK0 HB; nia|].
    destruct (Z.eq_dec u 0) as [->|Hu0].
    + assert (pu <= 0 * qu) by (apply Ul; lia). assert (S <= K * B) by (clear - HK Ea; lia). clear - H H0 Uq. nia.
    + assert (pu <= 1 * qu) by (apply Ul; lia). assert (S + 1 <= K * B) by (clear - HK Ea Hu Hu0; lia). clear - H H0 Uq. nia.
Qed.

(** For fractional intervals it is not: with an interval of 0.3 s, 2.1 s after the start the
    computed number is 8 although 7 intervals fit exactly. *)
Lemma interval_number_fractional_wrong :
  interval_number 2100000 300000 = 8 /\ ceil_div 2100000 300000 = 7.
Proof. split; vm_compute; reflexivity. Qed.

(** ... and after 592 years a whole-second interval gives a grid point that is already past *)
Lemma interval_number_centuries_wrong :
  interval_number (6225516708 * 3000000 + 1) 3000000 = 6225516708.
Proof. vm_compute; reflexivity. Qed.

