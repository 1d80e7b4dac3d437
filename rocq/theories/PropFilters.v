(** C103: the task list keeps its filters. *)
From Coq Require Import Sorted.
From Verif Require Import Prelude PreludeFacts Text Task Scheduler Triggers Inspect Forms Remote Links LinksSpec LinksProofs PropForms PropRemote PropInspect PropDash PropTaskPages PropLinks TaskFilters.
Open Scope string_scope.
Local Ltac sp := repeat match goal with |- _ /\ _ => split end.

(** ** the suffix read back *)
Definition plain_char (a : ascii) : bool := unreserved a || Ascii.eqb a "+" || Ascii.eqb a "%".
Lemma hex_plain n : (n < 16)%N -> plain_char (hex_digit n) = true /\ Ascii.eqb (hex_digit n) "+" = false.
Proof. intros L. destruct n as [|p]; [split; reflexivity|]. do 4 (destruct p as [p|p|]; try lia; try (split; reflexivity)). Qed.
Lemma escaped_plain a : any (fun c => negb (plain_char c)) (escaped a) = false.
Proof. destruct a as [[] [] [] [] [] [] [] []]; reflexivity. Qed.
Lemma any_app p s t : any p (s ++ t) = any p s || any p t.
Proof. induction s; cbn [append any]; auto. rewrite IHs, orb_assoc. auto. Qed.
Lemma quote_plain s : any (fun c => negb (plain_char c)) (quote_plus s) = false.
Proof.
  induction s as [|a s IH]; auto. cbn [quote_plus]. destruct (unreserved a) eqn:U.
  - cbn [any]. rewrite IH. unfold plain_char. rewrite U. auto.
  - destruct (Ascii.eqb a " "); [cbn [any]; rewrite IH; auto|]. rewrite any_app, escaped_plain, IH. auto.
Qed.
Lemma plain_no p s : (forall c, plain_char c = true -> p c = false) -> any (fun c => negb (plain_char c)) s = false -> any p s = false.
Proof. intros H. induction s as [|a s IH]; auto. cbn [any]. intros E. apply orb_false_iff in E as [A B]. apply negb_false_iff in A. rewrite (H a A), IH; auto. Qed.
Lemma quote_round s t : form_text (quote_plus s ++ t) = s ++ form_text t.
Proof.
  unfold form_text. rewrite plus_app. induction s as [|a s IH]; auto. cbn [quote_plus]. destruct (unreserved a) eqn:U.
  - cbn [plus_to_space append]. destruct (Ascii.eqb_spec a "+") as [->|N]; [discriminate|]. rewrite unquote_other; [rewrite IH; auto|]. destruct (Ascii.eqb_spec a "%") as [->|]; auto.
  - destruct (Ascii.eqb_spec a " ") as [->|N]; [cbn [plus_to_space append Ascii.eqb Bool.eqb]; rewrite unquote_other, IH; auto|].
    rewrite plus_app. assert (E : plus_to_space (escaped a) = escaped a). { clear. destruct a as [[] [] [] [] [] [] [] []]; reflexivity. }
    rewrite E. rewrite app_ass. rewrite escaped_round, IH. auto.
Qed.
Definition sent_char (a : ascii) : bool := plain_char a || Ascii.eqb a "=" || Ascii.eqb a "&".
Lemma sent_no p s : (forall c, sent_char c = true -> p c = false) -> any (fun c => negb (sent_char c)) s = false -> any p s = false.
Proof. intros H. induction s as [|a s IH]; auto. cbn [any]. intros E. apply orb_false_iff in E as [A B]. apply negb_false_iff in A. rewrite (H a A), IH; auto. Qed.
Lemma plain_sent s : any (fun c => negb (plain_char c)) s = false -> any (fun c => negb (sent_char c)) s = false.
Proof. apply plain_no. intros c H. unfold sent_char. rewrite H. auto. Qed.
Lemma urlencode_chars l : any (fun c => negb (sent_char c)) (urlencode l) = false.
Proof.
  assert (P : forall kv, any (fun c => negb (sent_char c)) (pair_text kv) = false).
  { intros kv. unfold pair_text. rewrite any_app. cbn [any]. rewrite !(plain_sent _ (quote_plain _)). auto. }
  unfold urlencode. induction l as [|kv l IH]; auto. cbn [map concat]. destruct (map pair_text l) eqn:E; [apply P|]. rewrite any_app, any_app, P, IH. auto.
Qed.
Lemma cut_equals_at p v : any (fun x => Ascii.eqb x "=") p = false -> cut_equals (p ++ String "=" v) = (p, v).
Proof. induction p as [|a p IH]; auto. cbn [any append cut_equals]. intros H. apply orb_false_iff in H as [-> H]. rewrite IH; auto. Qed.
Lemma parse_urlencode l : parse_query (urlencode l) = l.
Proof.
  assert (NE : forall c s, (forall x, plain_char x = true -> Ascii.eqb x c = false) -> any (fun x => Ascii.eqb x c) (quote_plus s) = false) by (intros c s H; apply (plain_no _ _ H), quote_plain).
  assert (CE : forall kv : string * string, cut_equals (pair_text kv) = (quote_plus (fst kv), quote_plus (snd kv))).
  { intros [k v]. apply cut_equals_at. apply NE. intros x H. destruct (Ascii.eqb_spec x "=") as [->|]; auto. }
  assert (NA : forall kv : string * string, split_on "&" (pair_text kv) = [pair_text kv]).
  { intros kv. apply split_none. unfold pair_text. rewrite any_app. cbn [any]. rewrite !NE; auto; intros x H; destruct (Ascii.eqb_spec x "&") as [->|]; auto. }
  assert (NN : forall kv : string * string, String.eqb (pair_text kv) "" = false) by (intros kv; unfold pair_text; destruct (quote_plus (fst kv)); auto).
  assert (FT : forall s, form_text (quote_plus s) = s) by (intros s; rewrite <- (app_nil (quote_plus s)), quote_round; apply app_nil).
  assert (SP : forall kv r, split_on "&" (urlencode (kv :: r)) = map pair_text (kv :: r)).
  { intros kv r. revert kv. induction r as [|kv' r IH]; intros kv; [unfold urlencode; cbn [map concat]; apply NA|].
    change (urlencode (kv :: kv' :: r)) with (pair_text kv ++ String "&" (urlencode (kv' :: r))). rewrite split_app, NA, IH. auto. }
  unfold parse_query. destruct l as [|kv r]; auto. rewrite SP. clear SP. induction (kv :: r) as [|x l IH]; auto. cbn [map filter]. rewrite NN. cbn [negb map]. rewrite CE, !FT, IH. destruct x; auto.
Qed.
Lemma encode_none esc s : any esc s = false -> encode esc s = s.
Proof. induction s as [|a s IH]; auto. cbn [any encode]. intros H. apply orb_false_iff in H as [-> H]. rewrite IH; auto. Qed.
Lemma sent_ok : (forall c, sent_char c = true -> query_escapes c = false) /\ (forall c, sent_char c = true -> low c = false) /\ (forall c, sent_char c = true -> tab_or_newline c = false) /\ (forall c, sent_char c = true -> Ascii.eqb c "#" = false).
Proof. sp; intros c; destruct c as [[] [] [] [] [] [] [] []]; cbv; congruence. Qed.

Lemma dget_rev k (l : list (string * string)) : NoDup (map fst l) -> dget k (rev l) = dget k l.
Proof.
  assert (AP : forall a b : list (string * string), dget k (a ++ b)%list = match dget k a with Some v => Some v | None => dget k b end).
  { intros a b. induction a as [|[x v] a IH]; auto. cbn [app dget]. destruct (String.eqb k x); auto. }
  induction l as [|[x v] l IH]; auto. cbn [map fst rev]. intros ND. inversion ND as [|? ? NI ND']; subst. rewrite AP, IH by auto. cbn [dget]. destruct (String.eqb_spec k x) as [->|]; [|destruct (dget k l); auto].
  destruct (dget x l) as [u|] eqn:E; auto. exfalso. apply NI. apply dget_In in E. apply in_map_iff. exists (x, u). auto.
Qed.
Lemma entries_keys (l : list (string * option string)) : NoDup (map fst l) -> NoDup (map fst (flat_map (fun kv => match snd kv with Some v => [(fst kv, v)] | None => [] end) l)).
Proof.
  induction l as [|[k o] l IH]; cbn [map fst snd flat_map]; intros ND; auto. inversion ND as [|? ? NI ND']; subst. destruct o as [v|]; cbn [app map fst]; auto. constructor; auto.
  intros H. apply NI. apply in_map_iff in H as ([k' v'] & E & H). cbn in E. subst. apply in_flat_map in H as ([k2 o2] & H1 & H2). apply in_map_iff. exists (k2, o2). split; auto. cbn in H2 |- *. destruct o2; [|destruct H2]. destruct H2 as [[= <- _]|[]]. auto.
Qed.
Lemma entries_get k (l : list (string * option string)) : NoDup (map fst l) -> dget k (flat_map (fun kv => match snd kv with Some v => [(fst kv, v)] | None => [] end) l) = match dget k l with Some o => o | None => None end.
Proof.
  intros ND. induction l as [|[x o] l IH]; auto. cbn [map fst] in ND. inversion ND as [|? ? NI ND']; subst. cbn [flat_map fst snd dget]. specialize (IH ND'). destruct o as [v|]; cbn [app dget]; destruct (String.eqb_spec k x) as [->|]; auto.
  rewrite IH. destruct (dget x l) as [o|] eqn:E; auto. exfalso. apply NI. apply dget_In in E. apply in_map_iff. exists (x, o). auto.
Qed.
Lemma fields_keys f : NoDup (map fst (fields f)).
Proof. change (map fst (fields f)) with ["q"; "state"; "executor"; "trigger"; "sort"; "direction"; "page"; "per_page"]. repeat (constructor; [cbn; intros H; repeat destruct H as [H|H]; try discriminate; destruct H|]). constructor. Qed.
(** the parameters of the suffix *)
Lemma param_of first k f : query_param first k (Some (encode query_escapes (urlencode (entries f)))) = match dget k (fields f) with Some (Some v) => v | _ => "" end.
Proof.
  destruct sent_ok as (Q & _). rewrite encode_none by (apply (sent_no _ _ Q), urlencode_chars). unfold query_param. rewrite parse_urlencode.
  assert (E : dget k (if first then entries f else rev (entries f)) = match dget k (fields f) with Some o => o | None => None end).
  { destruct first; [|rewrite dget_rev by (apply entries_keys, fields_keys)]; apply entries_get, fields_keys. }
  rewrite E. destruct (dget k (fields f)) as [[v|]|]; auto.
Qed.

(** ** filters that come from a request *)
(** what parse_task_filters answers, and the same with another page of the list *)
Definition request_filters (f : filters) : Prop := exists first q n, (1 <= n <= 10000)%Z /\ f = set_page n (parse_task_filters first q).
Record tidy_filters (f : filters) : Prop := MkTidy {
  y_q : strip (f_q f) = f_q f; y_state : lower (strip (f_state f)) = f_state f; y_executor : strip (f_executor f) = f_executor f; y_trigger : strip (f_trigger f) = f_trigger f;
  y_sort : strip (f_sort f) = f_sort f /\ f_sort f <> ""; y_page : (1 <= f_page f)%Z; y_per : (1 <= f_per_page f <= 200)%Z }.
Lemma request_tidy f : request_filters f -> tidy_filters f.
Proof.
  intros (first & q & n & N & ->). constructor; cbn [set_page parse_task_filters f_q f_state f_executor f_trigger f_sort f_page f_per_page]; rewrite ?strip_idem; auto; try lia.
  - rewrite lower_strip, strip_idem, lower_lower. auto.
  - unfold or_default. destruct (String.eqb_spec (strip (if String.eqb (query_param first "sort" q) "" then "next_run_time" else query_param first "sort" q)) "") as [E|E]; split; auto; try discriminate. apply strip_idem.
  - apply C46_parameters.
Qed.
Lemma number_back d n k : k = d \/ k <> d -> (n <> 0)%Z -> bounded_int (Some (match some_number d n with Some v => v | None => "" end)) d 1 k = Z.max 1 (Z.min k n) \/ (n = d /\ bounded_int (Some (match some_number d n with Some v => v | None => "" end)) d 1 k = d).
Proof.
  intros _ N. unfold some_number. destruct (Z.eqb_spec n 0); [congruence|]. cbn [orb]. destruct (Z.eqb_spec n d) as [->|]; [right; split; auto|]. left. unfold bounded_int. rewrite show_int_int. auto.
Qed.
Lemma back first f : tidy_filters f -> parse_task_filters first (Some (encode query_escapes (urlencode (entries f)))) = set_page (Z.min 10000 (f_page f)) f.
Proof.
  intros [T1 T2 T3 T4 [T5 T5'] T6 T7]. unfold parse_task_filters. cbv zeta. rewrite !param_of. cbn [fields dget String.eqb Ascii.eqb Bool.eqb].
  assert (S : forall s, match some_text s with Some v => v | None => "" end = s) by (intros s; unfold some_text; destruct (String.eqb_spec s ""); auto).
  rewrite !S, T1, T2, T3, T4. destruct f as [fq fs fe ft fo fd fp fr]. cbn [f_q f_state f_executor f_trigger f_sort f_desc f_page f_per_page] in *. unfold set_page. cbn [f_q f_state f_executor f_trigger f_sort f_desc f_page f_per_page]. f_equal.
  - destruct (String.eqb_spec fo "next_run_time") as [->|N]; auto. unfold some_text, or_default. destruct (String.eqb_spec fo ""); [congruence|]. destruct (String.eqb_spec fo ""); [congruence|]. rewrite T5. destruct (String.eqb_spec fo ""); [congruence|]. auto.
  - destruct fd; reflexivity.
  - unfold page_param. destruct (number_back 1 fp 10000) as [->|[-> ->]]; auto; lia.
  - unfold per_page_param, MAX_TASK_PAGE_SIZE. destruct (number_back DEFAULT_TASK_PAGE_SIZE fr 200) as [->|[-> ->]]; auto; lia.
Qed.
Lemma empty_suffix f : urlencode (entries f) = "" -> entries f = [].
Proof. intros E. rewrite <- (parse_urlencode (entries f)), E. auto. Qed.
Lemma back_none first f : tidy_filters f -> urlencode (entries f) = "" -> parse_task_filters first None = set_page (Z.min 10000 (f_page f)) f.
Proof.
  intros T E. pose proof (back first f T) as B. rewrite E in B. rewrite <- B. destruct first; reflexivity.
Qed.

(** ** through the browser *)
Lemma cut_at x q : any stops x = false -> any (fun c => Ascii.eqb c "#") q = false -> cut_query (cut_fragment (x ++ String "?" q)) = (x, Some q).
Proof.
  intros X Q. assert (Q' : cut_fragment q = q). { clear X. induction q as [|a q IH]; auto. cbn [any] in Q. apply orb_false_iff in Q as [A Q]. cbn [cut_fragment]. rewrite A, IH; auto. }
  induction x as [|a x IH]; [cbn; rewrite Q'; auto|]. cbn [any] in X. apply orb_false_iff in X as [A X]. unfold stops in A. apply orb_false_iff in A as [A B]. cbn [append cut_fragment]. rewrite B. cbn [cut_query]. rewrite A, IH; auto.
Qed.
Lemma cut_none x : any stops x = false -> cut_query (cut_fragment x) = (x, None).
Proof. induction x as [|a x IH]; auto. cbn [any]. intros X. apply orb_false_iff in X as [A X]. unfold stops in A. apply orb_false_iff in A as [A B]. cbn [cut_fragment]. rewrite B. cbn [cut_query]. rewrite A, IH; auto. Qed.
Lemma relative_query d r x o p q : cut_query (cut_fragment r) = (x, o) -> relative d r = Here p q -> q = o.
Proof.
  unfold relative. intros ->. destruct x as [|a [|b x]]; [intros [= _ <-]; auto| |].
  - destruct (slash a); intros [= _ <-]; auto.
  - destruct (slash a && slash b); [discriminate|]. destruct (slash a); intros [= _ <-]; auto.
Qed.
Lemma scheme_rest_tail x t p r : (t = "" \/ exists q, t = String "?" q) -> scheme_rest (x ++ t) = Some (p, r) -> exists w z, x = w ++ z /\ r = z ++ t.
Proof.
  intros T. revert p r. induction x as [|a x IH]; intros p r; [destruct T as [->|(q & ->)]; discriminate|]. cbn [append scheme_rest]. destruct (Ascii.eqb a ":").
  - intros [= <- <-]. exists (String a ""), x. auto.
  - destruct (scheme_char a); [|discriminate]. destruct (scheme_rest (x ++ t)) as [[p' r']|] eqn:E; [|discriminate]. intros [= <- <-]. destruct (IH _ _ eq_refl) as (w & z & -> & ->). exists (String a w), z. auto.
Qed.
Lemma scheme_tail x t p r : (t = "" \/ exists q, t = String "?" q) -> scheme_of (x ++ t) = Some (p, r) -> exists w z, x = w ++ z /\ r = z ++ t.
Proof.
  intros T E. apply (scheme_rest_tail x t p r T). unfold scheme_of in E. destruct (x ++ t) as [|a y]; [discriminate|]. destruct (letter a); [auto|discriminate].
Qed.
Lemma any_sub p s t : any p (s ++ t) = false -> any p s = false /\ any p t = false.
Proof. rewrite any_app. apply orb_false_iff. Qed.
Lemma dl_sub p s : any p s = false -> any p (drop_low s) = false.
Proof. induction s as [|a s IH]; auto. cbn [any drop_low]. intros H. apply orb_false_iff in H as [A B]. destruct (low a); auto. cbn [any]. rewrite A, B. auto. Qed.
Lemma dle_sub p s : any p s = false -> any p (drop_low_end s) = false.
Proof. induction s as [|a s IH]; auto. cbn [any drop_low_end]. intros H. apply orb_false_iff in H as [A B]. specialize (IH B). destruct (drop_low_end s); [destruct (low a); auto; cbn [any]; rewrite A; auto|]. cbn [any] in *. rewrite A. auto. Qed.
Lemma wb_sub p s : any p s = false -> any p (without_breaks s) = false.
Proof. induction s as [|a s IH]; auto. cbn [any without_breaks]. intros H. apply orb_false_iff in H as [A B]. destruct (tab_or_newline a); auto. cbn [any]. rewrite A. auto. Qed.
(** whatever stands before the suffix, without a question mark or a hash sign of its own *)
Lemma carried first scheme d w f p q : any stops w = false -> tidy_filters f -> resolve scheme d (w ++ query_suffix f) = Here p q -> parse_task_filters first (option_map (encode query_escapes) q) = set_page (Z.min 10000 (f_page f)) f.
Proof.
  intros W T. destruct sent_ok as (_ & SL & SB & SH). pose proof (urlencode_chars (entries f)) as UC. unfold query_suffix. destruct (String.eqb_spec (urlencode (entries f)) "") as [E|E].
  - rewrite app_nil. unfold resolve. set (r := cleaned w). assert (R : any stops r = false) by (apply wb_sub, dle_sub, dl_sub; auto).
    assert (Q : forall y, any stops y = false -> relative d y = Here p q -> q = None) by (intros y Y; apply (relative_query d y y None), cut_none; auto).
    intros H. assert (q = None); [|subst; cbn [option_map]; apply back_none; auto].
    destruct (scheme_of r) as [[s0 rest]|] eqn:SC; [|apply (Q r); auto]. destruct (String.eqb (lower s0) scheme); [|discriminate]. apply (Q rest); auto.
    rewrite <- (app_nil r) in SC. apply scheme_tail in SC as (u & z & ER & ->); auto. rewrite ER in R. rewrite app_nil. apply any_sub in R as [_ R]. auto.
  - set (u := urlencode (entries f)) in *. assert (C : cleaned (w ++ String "?" u) = without_breaks (drop_low w) ++ String "?" u).
    { unfold cleaned. rewrite dl_app, dle_app by auto. rewrite wb_app. f_equal. rewrite dle_keep by auto. rewrite <- (app_nil u) at 1. rewrite dle_free by (apply (sent_no _ _ SL), UC). cbn [drop_low_end]. rewrite app_nil. cbn [without_breaks]. replace (tab_or_newline "?") with false by auto. rewrite wb_id; auto. apply (sent_no _ _ SB), UC. }
    unfold resolve. rewrite C. set (x := without_breaks (drop_low w)). assert (X : any stops x = false) by (apply wb_sub, dl_sub; auto).
    assert (Q : forall y, any stops y = false -> relative d (y ++ String "?" u) = Here p q -> q = Some u) by (intros y Y; apply (relative_query d _ y (Some u)), cut_at; auto; apply (sent_no _ _ SH), UC).
    intros H. assert (q = Some u); [|subst; cbn [option_map]; apply back; auto].
    destruct (scheme_of (x ++ String "?" u)) as [[s0 rest]|] eqn:SC; [|apply (Q x); auto]. destruct (String.eqb (lower s0) scheme); [|discriminate].
    apply scheme_tail in SC as (v & z & ER & ->); [|right; eauto]. rewrite ER in X. apply any_sub in X as [_ X]. apply (Q z); auto.
Qed.
Lemma prefix_stops mount : Forall simple mount -> any stops (prefix_text mount) = false.
Proof.
  intros F. assert (K : any stops (path_text mount) = false).
  { unfold path_text. induction F as [|m ms H F IH]; auto. apply simple_segment in H as (O & _). assert (O' : any stops m = false) by (apply (fine_weaken m); auto; odd).
    cbn [map concat]. destruct (map (String "/") ms) eqn:E; [cbn [any]; rewrite O'; auto|]. rewrite any_app. cbn [append any]. rewrite O'. cbn [any] in IH. apply IH. }
  destruct mount; auto.
Qed.

Section Claims.
  Variables (first : bool) (scheme : string) (mount : list string).
  Hypothesis (MS : Forall simple mount).
  Lemma not_away m t : answers true first mount m (resolve scheme (mount ++ ["tasks"]) t) <> PElse -> exists p q, resolve scheme (mount ++ ["tasks"]) t = Here p q.
  Proof using. destruct (resolve scheme (mount ++ ["tasks"]) t); [intros N; destruct N; reflexivity|eauto]. Qed.
  Lemma carried_by m w f : any stops w = false -> tidy_filters f -> answers true first mount m (resolve scheme (mount ++ ["tasks"]) (w ++ query_suffix f)) <> PElse ->
    carries first scheme mount (m, w ++ query_suffix f) = Some (set_page (Z.min 10000 (f_page f)) f).
  Proof using. intros W R A. apply not_away in A as (p & q & E). unfold carries, asked_filters. cbn [snd]. rewrite E. f_equal. eapply carried; eauto. Qed.
  Lemma suffix_question f : question (query_suffix f).
  Proof using. unfold query_suffix. destruct (String.eqb (urlencode (entries f)) ""); [left; auto|right; eauto]. Qed.

  Lemma filters_kept f : tidy_filters f -> let g := set_page (Z.min 10000 (f_page f)) f in
    carries first scheme mount (control_target (query_suffix f) Refresh) = Some g /\
    (forall a, carries first scheme mount (control_target (query_suffix f) (Bulk a)) = Some g) /\
    (mount <> [] -> carries first scheme mount (turn_target (prefix_text mount) (query_suffix f)) = Some g) /\
    (forall a id, one_segment id -> ~ blank_first id -> ~ names_scheme id -> carries first scheme mount (target (prefix_text mount) (query_suffix f) (Button a) id) = Some g).
  Proof using MS.
    intros R g. destruct (C101_controls true first scheme mount (query_suffix f) MS (suffix_question f)) as (K1 & K2 & K3). unfold press in K1, K2. sp.
    - apply carried_by; auto. cbn [control_target fst snd] in K2. rewrite K2. discriminate.
    - intros a. specialize (K1 a). cbn [control_target fst snd] in K1 |- *. change ("hx/bulk/" ++ verb a ++ query_suffix f) with (("hx/bulk/" ++ verb a) ++ query_suffix f) in *. apply carried_by; auto; [destruct a; reflexivity|]. rewrite K1. discriminate.
    - intros MNE. pose proof (C101_turns true first scheme mount (query_suffix f) MNE MS (suffix_question f)) as K. unfold press, turn_target in *. cbn [fst snd] in K. rewrite <- app_ass in *. apply carried_by; auto; [|rewrite K; discriminate]. rewrite any_app, prefix_stops by auto. reflexivity.
    - intros a id O B N. pose proof (proj2 (C101_buttons mount scheme (query_suffix f) true first MS (suffix_question f) a id) (conj O (conj B N))) as K. unfold follow in K. cbn [target] in *. change ("/" ++ verb a ++ query_suffix f) with (("/" ++ verb a) ++ query_suffix f) in *. rewrite <- app_ass in *. apply carried_by; auto; [|rewrite K; discriminate].
      rewrite any_app. apply orb_false_iff. split; [apply seg_facts in O; tauto|destruct a; reflexivity].
  Qed.
  (** The refresh of the table, its page turns, the bulk buttons, and the buttons beside a task whose id they can name
      (C101): each request has exactly the filters, sorting, page and page size the suffix was made from. *)
  Theorem C103_filters_kept f : request_filters f ->
    carries first scheme mount (control_target (query_suffix f) Refresh) = Some f /\
    (forall a, carries first scheme mount (control_target (query_suffix f) (Bulk a)) = Some f) /\
    (mount <> [] -> carries first scheme mount (turn_target (prefix_text mount) (query_suffix f)) = Some f) /\
    (forall a id, one_segment id -> ~ blank_first id -> ~ names_scheme id -> carries first scheme mount (target (prefix_text mount) (query_suffix f) (Button a) id) = Some f).
  Proof using MS.
    intros R. pose proof (filters_kept f (request_tidy f R)) as K. cbv zeta in K. destruct R as (fi & q & n & N & ->). cbn [set_page f_page] in K. replace (Z.min 10000 n) with n in K by lia. exact K.
  Qed.
  (** The form of a new task carries no suffix: its answer shows the list without filters, whatever was asked for. *)
  Theorem C103_create_forgets_refuted f :
    carries first scheme mount (control_target (query_suffix f) Create) = Some (MkFilters "" "" "" "" "next_run_time" false 1 50).
  Proof using. unfold carries. cbn [control_target snd]. unfold resolve, relative. cbn -[walk parse_task_filters]. reflexivity. Qed.

  (** ** turning pages *)
  (** the table one sees after pressing Next, of the same tasks *)
  Definition next_table (visible : list info) (t : table) : option table :=
    option_map (fun f => table_of f visible) (carries first scheme mount (turn_target (prefix_text mount) (next_suffix t))).
  Fixpoint presses (n : nat) (visible : list info) (t : table) : option table :=
    match n with O => Some t | Datatypes.S n' => match presses n' visible t with Some u => next_table visible u | None => None end end.
  Lemma table_page f l : (1 <= f_page f)%Z -> (1 <= f_per_page f)%Z ->
    t_rows (table_of f l) = fst (paginate l (f_page f) (f_per_page f)) /\ t_info (table_of f l) = snd (paginate l (f_page f) (f_per_page f)) /\ t_filters (table_of f l) = set_page (Z.min (f_page f) (Z.max 1 ((Z.of_nat (List.length l) + f_per_page f - 1) / f_per_page f))) f.
  Proof using. unfold table_of, paginate. auto. Qed.
  Lemma set_page_request f n : request_filters f -> (1 <= n <= 10000)%Z -> request_filters (set_page n f).
  Proof using. intros (fi & q & m & M & ->) N. exists fi, q, n. split; auto. Qed.
  Lemma set_page_self f : set_page (f_page f) f = f. Proof using. destruct f; auto. Qed.
  (** The pages one sees by pressing Next again and again, from the first page on, are the whole listing, each task once and
      in its order; Next is offered exactly until the last. *)
  Theorem C103_next_shows_all q visible : mount <> [] ->
    let f := set_page 1 (parse_task_filters first q) in
    let count := Z.to_nat (pg_count (t_info (table_of f visible))) in
    (Z.of_nat (List.length visible) <= 10000 * f_per_page f)%Z ->
    exists tables, List.length tables = count /\ (forall n t, nth_error tables n = Some t -> presses n visible (table_of f visible) = Some t /\ (pg_has_next (t_info t) = true <-> (n + 1 < count)%nat)) /\
      List.concat (map t_rows tables) = visible.
  Proof using MS.
    intros MNE f count LE. assert (RF : request_filters f) by (exists first, q, 1%Z; split; [lia|auto]). pose proof (request_tidy f RF) as T. pose proof (y_per _ T) as PP. set (pp := f_per_page f) in *.
    set (cc := Z.max 1 ((Z.of_nat (List.length visible) + pp - 1) / pp)).
    assert (CC : (1 <= cc <= 10000)%Z). { unfold cc. assert ((Z.of_nat (List.length visible) + pp - 1) / pp < 10001)%Z by (apply Z.div_lt_upper_bound; lia). lia. }
    assert (EC : count = Z.to_nat cc) by reflexivity.
    set (tb := fun n : nat => table_of (set_page (Z.of_nat n + 1) f) visible).
    assert (FI : forall n, (n < count)%nat -> t_filters (tb n) = set_page (Z.of_nat n + 1) f /\ pg_next (t_info (tb n)) = Z.min cc (Z.of_nat n + 2) /\ pg_has_next (t_info (tb n)) = (Z.of_nat n + 1 <? cc)%Z).
    { intros n N. unfold tb, table_of, paginate. cbn [t_filters t_info pg_next pg_has_next pg_page set_page f_page f_per_page f_q f_state f_executor f_trigger f_sort f_desc]. fold pp. fold cc. replace (Z.min (Z.of_nat n + 1) cc) with (Z.of_nat n + 1)%Z by lia. sp; auto. lia. }
    assert (PR : forall n, (n < count)%nat -> presses n visible (table_of f visible) = Some (tb n)).
    { induction n as [|n IH]; intros N; [unfold tb; reflexivity|]. cbn [presses]. rewrite IH by lia. unfold next_table, next_suffix. destruct (FI n) as (F1 & F2 & F3); [lia|]. rewrite F1, F2. replace (Z.min cc (Z.of_nat n + 2)) with (Z.of_nat (Datatypes.S n) + 1)%Z by lia.
      change (set_page (Z.of_nat (Datatypes.S n) + 1) (set_page (Z.of_nat n + 1) f)) with (set_page (Z.of_nat (Datatypes.S n) + 1) f).
      destruct (C103_filters_kept (set_page (Z.of_nat (Datatypes.S n) + 1) f)) as (_ & _ & K & _); [apply set_page_request; auto; lia|]. rewrite (K MNE). reflexivity. }
    exists (map tb (seq 0 count)). sp.
    - rewrite map_length, seq_length. auto.
    - intros n t H. assert (N : (n < count)%nat) by (rewrite <- (seq_length count 0), <- (map_length tb); apply nth_error_Some; congruence).
      rewrite (map_nth_error tb n (seq 0 count) (d := n)) in H; [|rewrite (nth_error_nth' _ 0%nat) by (rewrite seq_length; auto); rewrite seq_nth; auto]. injection H as <-. split; [apply PR; auto|]. destruct (FI n N) as (_ & _ & ->). rewrite Z.ltb_lt. lia.
    - etransitivity; [|apply (C46_pages_partition visible pp); lia]. f_equal. change (Z.to_nat (pg_count (snd (paginate visible 1 pp)))) with (Z.to_nat cc). rewrite EC, <- seq_shift, !map_map. apply map_ext. intros n. unfold tb. cbn [table_of paginate t_rows fst]. unfold table_of, paginate. cbn [t_rows set_page f_page f_per_page fst]. fold pp. replace (Z.of_nat (Datatypes.S n)) with (Z.of_nat n + 1)%Z by lia. auto.
  Qed.
  (** Previous leads back *)
  Theorem C103_previous_leads_back f visible : mount <> [] -> request_filters f ->
    let t := table_of f visible in
    carries first scheme mount (turn_target (prefix_text mount) (previous_suffix t)) = Some (set_page (Z.max 1 (pg_page (t_info t) - 1)) f) /\
    carries first scheme mount (turn_target (prefix_text mount) (own_suffix t)) = Some (set_page (pg_page (t_info t)) f).
  Proof using MS.
    intros MNE R t. pose proof (request_tidy f R) as T. assert (PG : (1 <= f_page f <= 10000)%Z) by (destruct R as (fi & q & n & N & ->); exact N). assert (P1 : (1 <= pg_page (t_info t) <= 10000)%Z) by (unfold t, table_of, paginate; cbn [t_info pg_page]; lia).
    unfold previous_suffix, own_suffix. change (t_filters t) with (set_page (pg_page (t_info t)) f). change (pg_previous (t_info t)) with (Z.max 1 (pg_page (t_info t) - 1)). split.
    - destruct (C103_filters_kept (set_page (Z.max 1 (pg_page (t_info t) - 1)) (set_page (pg_page (t_info t)) f))) as (_ & _ & K & _); [apply set_page_request; [apply set_page_request; auto|lia]|]. rewrite (K MNE). reflexivity.
    - destruct (C103_filters_kept (set_page (pg_page (t_info t)) f)) as (_ & _ & K & _); [apply set_page_request; auto|]. apply (K MNE).
  Qed.
  (** Beyond ten thousand pages Next is offered and leads to the same page again. *)
  Theorem C103_last_pages_refuted q visible : mount <> [] ->
    let f := set_page 10000 (parse_task_filters first q) in
    (10000 * f_per_page f < Z.of_nat (List.length visible))%Z ->
    let t := table_of f visible in pg_has_next (t_info t) = true /\ next_table visible t = Some t /\ exists before after, visible = (before ++ t_rows t ++ after)%list /\ after <> [].
  Proof using MS.
    intros MNE f LT t. assert (RF : request_filters f) by (exists first, q, 10000%Z; split; [lia|auto]). pose proof (request_tidy f RF) as T. pose proof (y_per _ T) as PP. set (pp := f_per_page f) in *.
    set (cc := Z.max 1 ((Z.of_nat (List.length visible) + pp - 1) / pp)). assert (CC : (10000 < cc)%Z). { unfold cc. assert (10001 <= (Z.of_nat (List.length visible) + pp - 1) / pp)%Z by (apply Z.div_le_lower_bound; lia). lia. }
    assert (FT : t_filters t = f /\ pg_next (t_info t) = 10001%Z /\ pg_has_next (t_info t) = true).
    { unfold t, table_of, paginate. cbn [t_filters t_info pg_next pg_has_next pg_page]. change (f_per_page f) with pp. fold cc. change (f_page f) with 10000%Z. replace (Z.min 10000 cc) with 10000%Z by lia. sp; [reflexivity|lia|apply Z.ltb_lt; lia]. }
    destruct FT as (F1 & F2 & F3). sp; auto.
    - unfold next_table, next_suffix. rewrite F1, F2. destruct (filters_kept (set_page 10001 f)) as (_ & _ & K & _); [destruct T; constructor; auto; cbn; lia|]. rewrite (K MNE). reflexivity.
    - destruct (C46_page visible pp ltac:(lia) 10000) as (before & after & H); [lia|]. unfold t, table_of. change (f_page f) with 10000%Z. change (f_per_page f) with pp. destruct (paginate visible 10000 pp) as [rows i] eqn:E. cbn [t_rows]. destruct H as (H1 & H2 & _ & H4 & _). exists before, after. split; auto. intros ->. rewrite app_nil_r in H1.
      assert (L : Z.of_nat (List.length visible) = (Z.of_nat (List.length before) + Z.of_nat (List.length rows))%Z) by (rewrite H1, app_length; lia). rewrite H2 in L. assert (pg_page i <= 10000)%Z by (injection E as _ <-; cbn [pg_page]; lia). nia.
  Qed.
End Claims.

(** What the list shows: a page of the tasks that match all the filters, in the order asked for (C35); a state or an order
    it does not know ends in an exception. *)
Theorem C103_list_shows_matches first descr q s :
  let f := parse_task_filters first q in
  let known := (f_state f = "" \/ In (f_state f) ["pending"; "paused"; "scheduled"]) /\ In (f_sort f) ["id"; "name"; "next_run_time"; "schedule_state"; "executor"; "store"; "trigger"] in
  (known -> exists l, build_table descr f s = Ok (table_of f l) /\
     (forall i, In i l <->
       (f_state f <> "" -> state_text (i_state i) = f_state f) /\ (f_executor f <> "" -> i_exec i = f_executor f) /\
       (f_trigger f <> "" -> lower (f_trigger f) = lower (i_alias i) \/ lower (f_trigger f) = lower (i_trigger i)) /\
       (f_q f <> "" -> exists t, In t [i_id i; i_name i; i_callable i; i_ref i; i_alias i; i_trigger i; i_descr i; i_exec i; i_store i; state_text (i_state i)] /\ mentions (f_q f) t) /\
       exists t, listed_task s None t /\ i = snapshot descr t) /\
     exists orders, In (f_sort f, orders) documented_orders /\
      StronglySorted (fun a b => first_difference orders (if f_desc f then b else a) (if f_desc f then a else b) <> Gt) l) /\
  (~ known -> build_table descr f s = Err ValueError).
Proof.
  intros f known. assert (T : tidy_filters f) by (apply request_tidy; exists first, q, (f_page f); split; [apply C46_parameters|unfold f; rewrite set_page_self; auto]). destruct T as [T1 T2 T3 T4 [T5 _] _ _]. clearbody f.
  unfold build_table, listing. set (Q := MkQuery _ _ _ _ _ _ _).
  assert (VQ : known <-> valid_query Q).
  { unfold known, valid_query, Q. cbn [q_sort q_state]. change (map fst documented_orders) with ["id"; "name"; "next_run_time"; "schedule_state"; "executor"; "store"; "trigger"]. destruct (String.eqb_spec (f_state f) "") as [E|E].
    - split; [intros [_ B]; split; auto; discriminate|intros [B _]; split; auto].
    - split; [intros [[A|A] B]; [congruence|]; split; auto; intros x X; injection X as X; rewrite <- X, T2; auto|intros [B A]; split; auto; right; specialize (A _ eq_refl); rewrite T2 in A; auto]. }
  split; [|intros N; rewrite C35_invalid_queries; [auto|rewrite <- VQ; auto]].
  intros K. apply VQ in K. destruct (C35_complete_and_filtered descr Q s K) as (l & E & I & _). exists l. rewrite E. sp; auto.
  - intros i. rewrite I. unfold wanted_info, Q. cbn [q_state q_exec q_trigger q_text q_store]. unfold typed.
    assert (W1 : forall (x : string) (P : string -> Prop), (forall y, (if String.eqb x "" then None else Some x) = Some y -> P y) <-> (x <> "" -> P x)).
    { intros x P. destruct (String.eqb_spec x "") as [Ex|Ex]; split; intros H; [congruence|intros y [=]|auto|intros y [= <-]; auto]. }
    assert (W2 : forall (x : string) (P : string -> Prop), (forall y, ((if String.eqb x "" then None else Some x) = Some y /\ y <> "") -> P y) <-> (x <> "" -> P x)).
    { intros x P. destruct (String.eqb_spec x "") as [Ex|Ex]; split; intros H; [congruence|intros y [[=] _]|auto|intros y [[= <-] _]; auto]. }
    rewrite (W1 (f_state f) (fun x => lower (strip x) = state_text (i_state i))), (W2 (f_executor f) (fun e => i_exec i = e)), (W2 (f_trigger f) (fun t => lower (strip t) = lower (i_alias i) \/ lower (strip t) = lower (i_trigger i))),
      (W2 (f_q f) (fun x => exists t, In t [i_id i; i_name i; i_callable i; i_ref i; i_alias i; i_trigger i; i_descr i; i_exec i; i_store i; state_text (i_state i)] /\ mentions x t)).
    rewrite T2, T4. assert (SY : (f_state f <> "" -> f_state f = state_text (i_state i)) <-> (f_state f <> "" -> state_text (i_state i) = f_state f)) by (split; intros H X; symmetry; auto). rewrite SY. tauto.
  - apply (C35_sorted descr Q s l K E).
Qed.

(** Blanks around a value do not matter, nor the case of the state and of the direction; a blank value counts as one not given. *)
Theorem C103_blanks_do_not_matter first first' q q' :
  (forall k, In k ["q"; "executor"; "trigger"; "sort"] -> strip (query_param first k q) = strip (query_param first' k q')) ->
  (forall k, In k ["state"; "direction"] -> lower (strip (query_param first k q)) = lower (strip (query_param first' k q'))) ->
  (forall k, In k ["page"; "per_page"] -> py_int (query_param first k q) = py_int (query_param first' k q')) ->
  parse_task_filters first q = parse_task_filters first' q'.
Proof.
  intros A B C. unfold parse_task_filters, page_param, per_page_param, bounded_int.
  assert (S : forall d g, strip d = d -> or_default d (strip (or_default d g)) = or_default d (strip g)).
  { intros d g E. unfold or_default. destruct (String.eqb_spec g ""); [subst g|reflexivity]. rewrite E. cbn. destruct (String.eqb_spec d ""); congruence. }
  assert (D : forall g, String.eqb (or_default "asc" (lower (strip (or_default "asc" g)))) "desc" = String.eqb (lower (strip g)) "desc").
  { intros g. unfold or_default. destruct (String.eqb_spec g ""); [subst g; reflexivity|]. destruct (String.eqb_spec (lower (strip g)) ""); [rewrite e; reflexivity|reflexivity]. }
  rewrite !S, !D by reflexivity. f_equal; try (apply A; cbn; tauto); try (apply B; cbn; tauto); try (rewrite C by (cbn; tauto); reflexivity).
  - rewrite (A "sort") by (cbn; tauto). reflexivity.
  - rewrite (B "direction") by (cbn; tauto). reflexivity.
Qed.
Example C103_blanks_example : parse_task_filters true (Some "sort=+&q=+x+&state=PAUSED+&page=+2") = parse_task_filters false (Some "state=paused&q=x&page=2") /\
  f_sort (parse_task_filters true (Some "sort=+&q=+x+&state=PAUSED+&page=+2")) = "next_run_time".
Proof. split; [apply C103_blanks_do_not_matter; intros k H; repeat (destruct H as [<-|H]; [vm_compute; reflexivity|]); destruct H|vm_compute; reflexivity]. Qed.
(** examples *)
Example C103_suffix_example :
  let f := parse_task_filters true (Some "q=+Nightly+%26+co&sort=name&direction=DESC&page=3&per_page=25&state=Paused") in
  query_suffix f = "?q=Nightly+%26+co&state=paused&sort=name&direction=desc&page=3&per_page=25" /\
  carries true "http" ["dashboard"] (target "/dashboard" (query_suffix f) (Button Run) "1st job") = Some f /\
  carries true "http" ["dashboard"] (control_target (query_suffix f) Create) <> Some f.
Proof. vm_compute. split; [reflexivity|split; [reflexivity|discriminate]]. Qed.
Example C103_default_example : query_suffix (parse_task_filters true None) = "". Proof. reflexivity. Qed.
Example C103_unknown_example descr s : build_table descr (parse_task_filters true (Some "state=running")) s = Err ValueError /\ build_table descr (parse_task_filters true (Some "sort=size")) s = Err ValueError.
Proof. split; apply C103_list_shows_matches; intros [A B]; [destruct A as [A|A]|]; vm_compute in *; repeat match goal with H : _ \/ _ |- _ => destruct H end; try discriminate; auto. Qed.
Example C103_many_pages : let visible := repeat (MkInfo "a" "" "" "" "" "" "" "" "" PENDING None false) 30 in
  let t := table_of (parse_task_filters true (Some "per_page=7")) visible in
  pg_count (t_info t) = 5%Z /\ next_suffix t = "?page=2&per_page=7" /\ (List.length (t_rows t) = 7)%nat.
Proof. vm_compute. auto. Qed.
