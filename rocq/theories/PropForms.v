(** C46, C47: the dashboard's pages and bulk ids. *)
From Verif Require Import Prelude PreludeFacts Text CronParse CronParseSpec PropCronText Forms FormsSpec.
Open Scope Z_scope.

Ltac sp := repeat (split; [solve [auto]|]).
(** ** C46 *)
Lemma firstn_skipn_app {A} (l : list A) : forall a b, firstn a l ++ firstn b (skipn a l) = firstn (a + b) l.
Proof. induction l as [|x l IH]; intros [|a] b; cbn; auto; [destruct b; auto|]. rewrite IH. auto. Qed.
Lemma slice_pos {A} (l : list A) a b : 0 <= a -> a <= b -> slice a b l = firstn (Z.to_nat b - Z.to_nat a) (skipn (Z.to_nat a) l).
Proof. intros. unfold slice, slice_index. destruct (Z.ltb_spec a 0), (Z.ltb_spec b 0); try lia. auto. Qed.
Section Pages.
  Context {A : Type} (l : list A) (pp : Z) (P : 1 <= pp).
  Notation n := (Z.of_nat (List.length l)).
  Notation c := (Z.max 1 ((n + pp - 1) / pp)).
  Lemma count_bounds : n <= c * pp /\ (l <> [] -> (c - 1) * pp < n) /\ (l = [] -> c = 1).
  Proof using P.
    assert (D : (n + pp - 1) / pp * pp <= n + pp - 1 < (n + pp - 1) / pp * pp + pp).
    { pose proof (Z.div_mod (n + pp - 1) pp ltac:(lia)). pose proof (Z.mod_pos_bound (n + pp - 1) pp ltac:(lia)). lia. }
    set (q := (n + pp - 1) / pp) in *. split; [|split].
    - destruct (Z.le_gt_cases 1 q); [rewrite Z.max_r; lia|]. assert (q <= 0) by lia. nia.
    - intros N. assert (1 <= n) by (destruct l; [congruence|cbn; lia]). destruct (Z.le_gt_cases 1 q); [rewrite Z.max_r; lia|]. rewrite Z.max_l; lia.
    - intros E. assert (n = 0) by (rewrite E; auto). assert (q = 0); [|lia]. assert (q * pp < pp) by lia. assert (0 <= q) by (unfold q; apply Z.div_pos; lia). nia.
  Qed.
  (** what page [requested] shows: a run of the listing, full unless it is the last *)
  Theorem C46_page requested : 1 <= requested ->
    exists before after,
      let (page, i) := paginate l requested pp in
      l = before ++ page ++ after /\ Z.of_nat (List.length before) = (pg_page i - 1) * pp /\ (after <> [] -> Z.of_nat (List.length page) = pp) /\
      Z.of_nat (List.length page) <= pp /\ (l <> [] -> page <> []) /\
      1 <= pg_page i <= pg_count i /\ (requested <= pg_count i -> pg_page i = requested) /\ (pg_count i < requested -> pg_page i = pg_count i) /\
      (pg_has_next i = true <-> after <> []) /\ (pg_has_previous i = true <-> before <> []) /\
      (after <> [] -> pg_next i = pg_page i + 1) /\ (before <> [] -> pg_previous i = pg_page i - 1) /\
      pg_total i = Z.of_nat (List.length l) /\ pg_end i = Z.of_nat (List.length (before ++ page)) /\ (l <> [] -> pg_start i = Z.of_nat (List.length before) + 1) /\ (l = [] -> pg_start i = 0).
  Proof using P.
    intros R. destruct count_bounds as (B1 & B2 & B3). cbn. set (cc := c) in *. set (page := Z.min requested cc).
    assert (PG : 1 <= page <= cc) by (unfold page, cc; lia). set (a := (page - 1) * pp) in *.
    assert (A0 : 0 <= a) by (unfold a; nia). assert (AC : a <= (cc - 1) * pp) by (unfold a; nia). assert (AP : page * pp = a + pp) by (unfold a; lia).
    rewrite slice_pos by lia. exists (firstn (Z.to_nat a) l), (skipn (Z.to_nat (a + pp)) l).
    replace (Z.to_nat (a + pp) - Z.to_nat a)%nat with (Z.to_nat pp) by lia.
    assert (SPL : l = firstn (Z.to_nat a) l ++ firstn (Z.to_nat pp) (skipn (Z.to_nat a) l) ++ skipn (Z.to_nat (a + pp)) l).
    { rewrite app_assoc, firstn_skipn_app. replace (Z.to_nat a + Z.to_nat pp)%nat with (Z.to_nat (a + pp)) by lia. symmetry. apply firstn_skipn. }
    assert (AN : a <= n). { destruct l as [|x l'] eqn:E; [|specialize (B2 ltac:(discriminate)); lia]. specialize (B3 eq_refl). unfold a. replace page with 1 by lia. lia. }
    assert (AFT : skipn (Z.to_nat (a + pp)) l <> [] <-> a + pp < n).
    { split; intros H.
      - destruct (Z.lt_ge_cases (a + pp) n); auto. destruct H. apply skipn_all2. lia.
      - intros E. apply (f_equal (@List.length A)) in E. rewrite skipn_length in E. cbn in E. lia. }
    assert (BEF : firstn (Z.to_nat a) l <> [] <-> 0 < a).
    { split; intros H; [destruct (Z.eq_dec a 0) as [E|]; [rewrite E in H; destruct H; auto|lia]|].
      intros E. apply (f_equal (@List.length A)) in E. rewrite firstn_length in E. cbn in E. lia. }
    assert (LP : List.length (firstn (Z.to_nat pp) (skipn (Z.to_nat a) l)) = Nat.min (Z.to_nat pp) (List.length l - Z.to_nat a)) by (rewrite firstn_length, skipn_length; auto).
    assert (LB : List.length (firstn (Z.to_nat a) l) = Z.to_nat a) by (rewrite firstn_length; lia).
    assert (NX : page < cc <-> a + pp < n).
    { split; intros H; [|destruct (Z.eq_dec page cc) as [E|]; [|lia]; rewrite E in AP; lia].
      destruct l as [|x l'] eqn:E; [specialize (B3 eq_refl); lia|]. specialize (B2 ltac:(discriminate)). assert (page * pp <= (cc - 1) * pp) by (apply Z.mul_le_mono_nonneg_r; lia). lia. }
    rewrite app_length, LP, LB, AFT, BEF, Z.ltb_lt, Z.ltb_lt. split; [exact SPL|]. split; [unfold a in *; lia|]. split; [lia|]. split; [lia|].
    split. { intros N E. specialize (B2 N). apply (f_equal (@List.length A)) in E. rewrite LP in E. cbn in E. destruct l; [congruence|]. cbn [List.length] in *. lia. }
    split; [unfold cc in *; lia|]. split; [unfold page; lia|]. split; [unfold page; lia|]. split; [auto|].
    split. { unfold a. split; nia. }
    split; [lia|]. split; [intros H; assert (1 < page) by (unfold a in H; nia); lia|]. sp. split; [lia|]. split.
    - intros N. destruct (Z.eqb_spec n 0) as [E|]; [destruct l; [congruence|cbn in E; lia]|lia].
    - intros ->. auto.
  Qed.
  (** the pages, one after the other, are the listing *)
  Theorem C46_pages_partition : List.concat (map (fun p => fst (paginate l (Z.of_nat p) pp)) (seq 1 (Z.to_nat (pg_count (snd (paginate l 1 pp)))))) = l.
  Proof using P.
    destruct count_bounds as (B1 & B2 & B3). cbn [paginate snd pg_count]. set (cc := c) in *.
    assert (G : forall k, Z.of_nat k <= cc -> List.concat (map (fun p => fst (paginate l (Z.of_nat p) pp)) (seq 1 k)) = firstn (k * Z.to_nat pp) l).
    { induction k as [|k IH]; intros K; auto. rewrite seq_S, map_app, List.concat_app, IH by lia. cbn [map List.concat]. rewrite app_nil_r. cbn [paginate fst]. fold cc.
      replace (Z.min (Z.of_nat (1 + k)) cc) with (Z.of_nat k + 1) by lia. rewrite slice_pos by nia. replace ((Z.of_nat k + 1 - 1) * pp) with (Z.of_nat (k * Z.to_nat pp)) by nia.
      rewrite Nat2Z.id. replace (Z.to_nat (Z.of_nat (k * Z.to_nat pp) + pp) - k * Z.to_nat pp)%nat with (Z.to_nat pp) by lia.
      rewrite firstn_skipn_app. f_equal. lia. }
    rewrite G by lia. apply firstn_all2. assert (Z.of_nat (Z.to_nat cc * Z.to_nat pp) = cc * pp) by (rewrite Nat2Z.inj_mul, !Z2Nat.id; lia). lia.
  Qed.
End Pages.
(** Query parameters: an integer text within the bounds is taken as it is, one outside is clamped, and
    anything else gives the default. *)
Theorem C46_parameters v :
  1 <= page_param v <= 10000 /\ 1 <= per_page_param v <= 200 /\
  (forall s k, v = Some s -> py_int s = Some k ->
    (1 <= k <= 10000 -> page_param v = k) /\ (k < 1 -> page_param v = 1 /\ per_page_param v = 1) /\ (10000 < k -> page_param v = 10000) /\
    (1 <= k <= 200 -> per_page_param v = k) /\ (200 < k -> per_page_param v = 200)) /\
  (v = None \/ (exists s, v = Some s /\ py_int s = None) -> page_param v = 1 /\ per_page_param v = 50).
Proof.
  unfold page_param, per_page_param, bounded_int, DEFAULT_TASK_PAGE_SIZE, MAX_TASK_PAGE_SIZE. split; [|split; [|split]].
  - destruct v as [s|]; [destruct (py_int s)|]; lia.
  - destruct v as [s|]; [destruct (py_int s)|]; lia.
  - intros s k -> ->. lia.
  - intros [->|(s & -> & ->)]; auto.
Qed.
Lemma int_digits_num d : forall acc seen, allc is_digit d = true -> (d <> ""%string \/ seen = true) -> int_digits acc seen d = Some (dec_from acc d).
Proof.
  induction d as [|a d IH]; intros acc seen H N; cbn.
  - destruct N as [N| ->]; [congruence|auto].
  - cbn in H. apply andb_true_iff in H as [-> H]. apply IH; auto.
Qed.
Lemma digit_plain a : is_digit a = true -> is_space a = false /\ Ascii.eqb a "-" = false /\ Ascii.eqb a "+" = false /\ Ascii.eqb a "_" = false.
Proof. destruct a as [[] [] [] [] [] [] [] []]; vm_compute; intuition congruence. Qed.
Lemma last_char_app s : forall u a, s = (u ++ String a "")%string -> last_char s = Some (u, a).
Proof. induction s as [|b s IH]; intros [|c u] a E; cbn in E; try discriminate; injection E as -> ->; cbn; auto. rewrite (IH u a eq_refl). auto. Qed.
Lemma last_char_some s : forall u a, last_char s = Some (u, a) -> s = (u ++ String a "")%string.
Proof.
  induction s as [|b s IH]; intros u a; cbn; [discriminate|]. destruct (last_char s) as [[v c]|] eqn:E; intros [= <- <-].
  - cbn. f_equal. apply IH. auto.
  - destruct s as [|c s]; auto. cbn in E. destruct (last_char s) as [[]|]; discriminate.
Qed.
Lemma last_char_none s : last_char s = None -> s = ""%string.
Proof. destruct s as [|b s]; auto. cbn. destruct (last_char s) as [[]|]; discriminate. Qed.
Lemma numeral_ends d k : numeral d k -> (exists a u, d = String a u /\ is_digit a = true) /\ (exists u a, d = (u ++ String a "")%string /\ is_digit a = true) /\ allc is_digit d = true /\ k = dec d.
Proof.
  intros N. apply numeral_iff in N as (E & A & ->). split; [destruct d as [|a d]; [congruence|]; cbn in A; apply andb_true_iff in A; exists a, d; tauto|]. split; auto.
  destruct (last_char d) as [[u a]|] eqn:L; [|apply last_char_none in L; congruence]. apply last_char_some in L. exists u, a. split; auto.
  rewrite L, allc_app in A. cbn in A. apply andb_true_iff in A as [_ A]. rewrite andb_true_r in A. auto.
Qed.
(** int() reads decimal numerals, with space around and a sign *)
Lemma py_int_numeral p d k q : spaces p -> spaces q -> numeral d k -> py_int (p ++ d ++ q) = Some k /\ py_int (p ++ ("-" ++ d) ++ q) = Some (- k).
Proof.
  intros SP SQ N. destruct (numeral_ends d k N) as ((a & u & E1 & D1) & (v & b & E2 & D2) & AL & ->). destruct (digit_plain a D1) as (S1 & M1 & P1 & _), (digit_plain b D2) as (S2 & _ & _ & _).
  unfold py_int. rewrite (strip_listed p d q SP SQ); [|exists a, u; auto|exists v, b; auto]. split.
  - rewrite E1 at 1. cbv iota beta. rewrite M1, P1, <- E1. apply int_digits_num; auto. left. rewrite E1. discriminate.
  - rewrite (strip_listed p ("-" ++ d) q SP SQ); [|exists "-"%char, d; auto|exists ("-" ++ v)%string, b; rewrite E2; auto].
    cbn. rewrite int_digits_num; auto. left. rewrite E1. discriminate.
Qed.
Example C46_example : fst (paginate [1; 2; 3; 4; 5] 2 2) = [3; 4] /\ fst (paginate [1; 2; 3; 4; 5] 9 2) = [5] /\ page_param (Some " 7 "%string) = 7 /\ page_param (Some "-3"%string) = 1 /\ per_page_param (Some "many"%string) = 50.
Proof. vm_compute. auto. Qed.

(** ** C47 *)
Lemma dedup_spec l : forall seen, let r := dedup seen l in
  NoDup r /\ (forall x, In x r <-> In x l /\ ~ In x seen) /\
  forall r1 x r2, r = r1 ++ x :: r2 -> exists l1 l2, l = l1 ++ x :: l2 /\ forall y, (In y l1 \/ In y seen) <-> (In y r1 \/ In y seen).
Proof.
  induction l as [|a l IH]; intros seen; cbn.
  - split; [constructor|]. split; [tauto|]. intros r1 x r2 E. destruct r1; discriminate.
  - assert (X : existsb (String.eqb a) seen = true <-> In a seen).
    { rewrite existsb_exists. split; [intros (y & I & E); apply String.eqb_eq in E as ->; auto|intros I; exists a; split; auto; apply String.eqb_refl]. }
    destruct (existsb (String.eqb a) seen) eqn:E.
    + assert (S : In a seen) by tauto. destruct (IH seen) as (N & M & O). split; [exact N|]. split.
      * intros x. rewrite M. split; [tauto|]. intros [[->|I] S']; tauto.
      * intros r1 x r2 R. destruct (O r1 x r2 R) as (l1 & l2 & -> & Q). exists (a :: l1), l2. split; auto. intros y. cbn. specialize (Q y). split; [intros [[->|I]|I]; tauto|tauto].
    + assert (S : ~ In a seen) by (intros I; apply X in I; congruence). destruct (IH (a :: seen)) as (N & M & O). split; [|split].
      * constructor; auto. rewrite M. cbn. tauto.
      * intros x. cbn. rewrite M. cbn. split; [intros [->|[I J]]; tauto|]. intros [[->|I] J]; [tauto|]. destruct (string_dec a x); [tauto|right; tauto].
      * intros [|b r1] x r2 R; cbn in R; injection R as <- R.
        -- exists [], l. split; auto. tauto.
        -- destruct (O r1 x r2 R) as (l1 & l2 & -> & Q). exists (a :: l1), l2. split; auto. intros y. specialize (Q y). cbn in *. tauto.
Qed.
Lemma dedup_first l : first_occurrences l (dedup [] l).
Proof.
  destruct (dedup_spec l []) as (N & M & O). split; [exact N|]. split; [intros x; rewrite M; cbn; tauto|]. intros r1 x r2 R. destruct (O r1 x r2 R) as (l1 & l2 & E & Q).
  exists l1, l2. split; auto. intros y. specialize (Q y). cbn in Q. tauto.
Qed.
Lemma split_comma s1 s2 : split_on "," (s1 ++ "," ++ s2) = split_on "," s1 ++ split_on "," s2.
Proof.
  change ("," ++ s2)%string with (String "," s2). induction s1 as [|a s1 IH]; [reflexivity|]. cbn [append split_on]. rewrite IH. destruct (Ascii.eqb a ","); auto.
  pose proof (split_on_nonempty "," s1). destruct (split_on "," s1); [congruence|auto].
Qed.
Lemma spaces_strip p : spaces p -> strip p = ""%string.
Proof. intros P. unfold strip. pose proof (lstrip_spaces p "" P) as H. rewrite app_nil_s in H. rewrite H. auto. Qed.
Lemma spaces_comma p : spaces p -> no_comma p.
Proof. intros P u v ->. induction u as [|a u IH]; cbn in P; [destruct P; discriminate|]. apply IH. tauto. Qed.
Lemma tidy_strip p w q : spaces p -> tidy w -> spaces q -> strip (p ++ w ++ q) = w /\ nonblank (p ++ w ++ q) = true.
Proof.
  intros P (_ & A & B) Q. unfold nonblank. rewrite (strip_listed p w q P Q A B). split; auto. destruct A as (a & u & -> & _). auto.
Qed.
Lemma pieces_written ids s : written_ids ids s -> pieces s = ids.
Proof.
  unfold pieces. induction 1 as [p P|p w q P W Q|i1 s1 i2 s2 A IHA B IHB].
  - rewrite split_none by (apply spaces_comma; auto). cbn. unfold nonblank. rewrite spaces_strip; auto.
  - destruct (tidy_strip p w q P W Q) as [S N]. rewrite split_none; [cbn; rewrite N; cbn; rewrite S; auto|].
    apply no_comma_app; [apply spaces_comma; auto|]. apply no_comma_app; [apply W|apply spaces_comma; auto].
  - rewrite split_comma, filter_app, map_app, IHA, IHB. auto.
Qed.
Lemma strip_space a w : is_space a = true -> strip (String a w) = strip w.
Proof. intros A. unfold strip. cbn. rewrite A. auto. Qed.
Lemma pieces_lstrip s : pieces (lstrip s) = pieces s.
Proof.
  induction s as [|a s IH]; cbn [lstrip]; auto. destruct (is_space a) eqn:A; auto. rewrite IH. unfold pieces. cbn [split_on].
  assert (Ascii.eqb a "," = false) as -> by (destruct (Ascii.eqb_spec a ","); auto; subst; discriminate). pose proof (split_on_nonempty "," s). destruct (split_on "," s) as [|w l]; [congruence|].
  cbn [filter]. unfold nonblank. rewrite strip_space by auto. destruct (negb _); cbn [map]; rewrite ?strip_space by auto; auto.
Qed.
Lemma rstrip_app_spaces x q : spaces q -> rstrip (x ++ q) = rstrip x.
Proof. intros Q. induction x as [|a x IH]; cbn; [apply rstrip_spaces; auto|]. rewrite IH. auto. Qed.
Lemma strip_app_spaces x q : spaces q -> strip (x ++ q) = strip x.
Proof.
  intros Q. unfold strip. induction x as [|a x IH]; cbn; [|destruct (is_space a); auto; cbn; rewrite (rstrip_app_spaces x q Q); auto].
  fold (strip q). rewrite spaces_strip; auto.
Qed.
Lemma rstrip_split s : exists q, spaces q /\ s = (rstrip s ++ q)%string.
Proof.
  induction s as [|a s IH]; [exists ""%string; cbn; auto|]. destruct IH as (q & Q & E). cbn. destruct (rstrip s) as [|b r] eqn:R.
  - cbn in E. subst s. destruct (is_space a) eqn:A; [exists (String a q); cbn; auto|exists q; auto].
  - exists q. split; auto. cbn. f_equal. auto.
Qed.
Lemma split_tail u q : spaces q -> exists i z, split_on "," u = i ++ [z] /\ split_on "," (u ++ q) = i ++ [(z ++ q)%string].
Proof.
  intros Q. induction u as [|a u IH]; [exists [], ""%string; cbn; rewrite split_none by (apply spaces_comma; auto); auto|].
  destruct IH as (i & z & E1 & E2). cbn. rewrite E1, E2. destruct (Ascii.eqb a ","); [exists (""%string :: i), z; auto|].
  destruct i as [|w i]; cbn; [exists [], (String a z)|exists (String a w :: i), z]; auto.
Qed.
Lemma pieces_strip s : pieces (strip s) = pieces s.
Proof.
  unfold strip. rewrite <- (pieces_lstrip s). generalize (lstrip s). intros t. destruct (rstrip_split t) as (q & Q & E). rewrite E at 2. destruct (split_tail (rstrip t) q Q) as (i & z & E1 & E2).
  unfold pieces. rewrite E1, E2, !filter_app. cbn [filter]. unfold nonblank at 2 4. rewrite (strip_app_spaces z q Q). destruct (negb _); rewrite !map_app; cbn [map]; rewrite ?(strip_app_spaces z q Q); auto.
Qed.
Lemma opens_iff s : starts_with "[" (strip s) = true <-> opens_list s.
Proof.
  unfold opens_list. split.
  - intros H. apply starts_with_iff in H as (r & E). unfold strip in E. destruct (rstrip_split (lstrip s)) as (q & _ & E2). rewrite E in E2.
    assert (L : exists p, spaces p /\ s = (p ++ lstrip s)%string).
    { clear. induction s as [|a s IH]; [exists ""%string; cbn; auto|]. cbn. destruct (is_space a) eqn:A; [|exists ""%string; cbn; auto]. destruct IH as (p & P & E). exists (String a p). cbn. split; auto. f_equal. auto. }
    destruct L as (p & P & L). exists p, (r ++ q)%string. split; auto. rewrite L, E2. auto.
  - intros (p & r & P & ->). apply starts_with_iff. unfold strip. rewrite lstrip_spaces by auto. cbn [append lstrip]. change (is_space "[") with false. cbv iota. cbn [rstrip].
    destruct (rstrip r) as [|b u]; [exists ""%string|exists (String b u)]; auto.
Qed.
Lemma written_total s : exists ids, written_ids ids s.
Proof.
  assert (ONE : forall w, no_comma w -> exists ids, written_ids ids w).
  { intros w N. assert (L : exists p, spaces p /\ w = (p ++ lstrip w)%string).
    { clear. induction w as [|a s IH]; [exists ""%string; cbn; auto|]. cbn. destruct (is_space a) eqn:A; [|exists ""%string; cbn; auto]. destruct IH as (p & P & E). exists (String a p). cbn. split; auto. f_equal. auto. }
    destruct L as (p & P & L). destruct (rstrip_split (lstrip w)) as (q & Q & R). destruct (rstrip (lstrip w)) as [|a u] eqn:E.
    - exists []. apply wi_blank. rewrite L, R. clear - P Q. induction p; cbn in *; tauto.
    - exists [String a u]. rewrite L, R. apply wi_one; auto. split; [|split].
      + intros x y F. apply (N (p ++ x)%string (y ++ q)%string). rewrite L, R, F. rewrite !app_assoc_s. auto.
      + exists a, u. split; auto. clear - E. induction w as [|b w IH]; [discriminate|]. cbn in E. destruct (is_space b) eqn:B; auto. cbn in E. destruct (rstrip w); [rewrite B in E|]; congruence.
      + destruct (last_char (String a u)) as [[v b]|] eqn:LC; [|apply last_char_none in LC; discriminate]. apply last_char_some in LC. exists v, b. split; auto.
        rewrite LC in E. clear - E. revert v E. induction (lstrip w) as [|c s IH]; intros v; cbn; [destruct v; discriminate|]. destruct (rstrip s) as [|d r] eqn:F.
        * destruct (is_space c) eqn:C; [destruct v; discriminate|]. intros [= A]. destruct v as [|x v]; cbn in A; [congruence|]. destruct v; discriminate.
        * intros H. destruct v as [|x v]; cbn in H; [discriminate|]. injection H as -> H. apply (IH v). auto. }
  assert (G : forall u w, no_comma w -> exists ids, written_ids ids (w ++ u)).
  { induction u as [|a u IH]; intros w N; [rewrite app_nil_s; auto|]. destruct (Ascii.eqb_spec a ",") as [->|NE].
    - destruct (ONE w N) as (i1 & A). destruct (IH ""%string) as (i2 & B); [intros [|] ?; discriminate|]. exists (i1 ++ i2). apply (wi_more i1 w i2 u); auto.
    - replace (w ++ String a u)%string with ((w ++ String a "") ++ u)%string by (rewrite app_assoc_s; auto). apply IH. apply no_comma_app; auto.
      intros [|x [|y v]] z F; cbn in F; congruence. }
  apply (G s ""%string). intros [|] ?; discriminate.
Qed.
Section C47.
  Context (loads : string -> option json) (decode : string -> option string) (bytes_text : string -> string).
  Notation parse := (parse_ids loads decode bytes_text).
  (** Whatever is sent, no id comes out twice. *)
  Theorem C47_distinct_partial raw : NoDup (parse raw).
  Proof using Type. apply dedup_first. Qed.
  (** A text: the ids between its commas.  Every text lists some ids. *)
  Theorem C47_comma_text_partial s : (exists ids, written_ids ids s) /\
    forall ids, written_ids ids s -> ~ opens_list s -> first_occurrences ids (parse (VText s)).
  Proof using Type.
    split; [apply written_total|]. intros ids W N. unfold parse_ids, collected, collect_text. cbv zeta.
    assert (starts_with "[" (strip s) = false) as -> by (destruct (starts_with "[" (strip s)) eqn:E; auto; apply opens_iff in E; tauto).
    pose proof (pieces_strip s) as PS. rewrite (pieces_written ids s W) in PS. destruct (String.eqb_spec (strip s) "") as [E|E].
    - assert (ids = []) as -> by (rewrite <- PS, E; reflexivity). apply dedup_first.
    - rewrite PS. apply dedup_first.
  Qed.
  (** A JSON list: its strings.  What only looks like one is read as a comma list. *)
  Theorem C47_json_text_partial s : opens_list s ->
    (forall l, loads (strip s) = Some (JList l) -> first_occurrences (strings l) (parse (VText s))) /\
    ((forall l, loads (strip s) <> Some (JList l)) -> forall ids, written_ids ids s -> first_occurrences ids (parse (VText s))).
  Proof using Type.
    intros O. apply opens_iff in O. unfold parse_ids, collected, collect_text. cbv zeta. rewrite O. split.
    - intros l ->. apply dedup_first.
    - intros N ids W. pose proof (pieces_strip s) as PS. rewrite (pieces_written ids s W) in PS. destruct (loads (strip s)) as [[l|]|]; [destruct (N l); auto| |]; rewrite PS; apply dedup_first.
  Qed.
  (** A list of values, each one id. *)
  Theorem C47_list_partial ids : (forall w, In w ids -> tidy w /\ ~ opens_list w) -> first_occurrences ids (parse (VList (map VText ids))).
  Proof using Type.
    intros H. unfold parse_ids, collected. assert (E : flat_map (collect_member loads decode bytes_text) (map VText ids) = ids).
    { induction ids as [|w ids IH]; auto. cbn [map flat_map]. rewrite IH by (intros; apply H; right; auto). destruct (H w (or_introl eq_refl)) as [T N]. cbn [collect_member]. cbv zeta.
      destruct (tidy_strip "" w "" I T I) as [S B]. cbn [append] in S, B. rewrite app_nil_s in S, B. rewrite S.
      assert (starts_with "[" w = false) as -> by (destruct (starts_with "[" w) eqn:F; auto; rewrite <- S in F; apply opens_iff in F; tauto).
      unfold raw_pieces. rewrite split_none by apply T. cbn. rewrite B. auto. }
    rewrite E. apply dedup_first.
  Qed.
  (** Bytes are read as the text they encode. *)
  Theorem C47_bytes_partial b s : decode b = Some s -> parse (VBytes b) = parse (VText s) /\ parse (VList [VBytes b]) = parse (VList [VText s]).
  Proof using Type. intros D. unfold parse_ids, collected. cbn [flat_map collect_member]. unfold text_of_bytes. rewrite D. auto. Qed.
End C47.
(** What the claim says and the code does not do: empty strings of a JSON list come out as ids, and
    pieces inside a member of a list keep their space. *)
Theorem C47_empty_and_space_refuted : exists loads, forall decode bytes_text,
  In ""%string (parse_ids loads decode bytes_text (VText "["""", ""a""]")) /\
  parse_ids loads decode bytes_text (VList [VText "a, b"]) = ["a"; " b"]%string.
Proof.
  exists (fun s => if String.eqb s "["""", ""a""]" then Some (JList [Some ""%string; Some "a"%string]) else None). intros decode bytes_text. split; [left; auto|reflexivity].
Qed.
Example C47_example : written_ids ["a"; "b"; "a"]%string " a,, b ,a" /\ ~ opens_list " a,, b ,a" /\
  parse_ids (fun _ => None) (fun _ => None) (fun s => s) (VText " a,, b ,a") = ["a"; "b"]%string.
Proof.
  split; [|split; [|reflexivity]].
  - assert (T : forall c, is_space c = false -> c <> ","%char -> tidy (String c "")).
    { intros c C N. split; [intros [|x [|y u]] v E; cbn in E; congruence|]. split; [exists c, ""%string; auto|exists ""%string, c; auto]. }
    apply (wi_more ["a"%string] " a" ["b"; "a"]%string ", b ,a"); [apply (wi_one " " "a" ""); cbn; auto; apply T; [auto|discriminate]|].
    apply (wi_more [] "" ["b"; "a"]%string " b ,a"); [apply wi_blank; cbn; auto|]. apply (wi_more ["b"%string] " b " ["a"]%string "a").
    + apply (wi_one " " "b" " "); cbn; auto; apply T; [auto|discriminate].
    + apply (wi_one "" "a" ""); cbn; auto; apply T; [auto|discriminate].
  - rewrite <- opens_iff. discriminate.
Qed.
