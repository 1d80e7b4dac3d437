(** C98: what the history, audit, events and overview pages show. *)
From Verif Require Import Prelude PreludeFacts Text Triggers Task Scheduler SortList Inspect PropInspect Forms FormsSpec PropForms2 PropTaskPages Dash DashSpec PropDash History PropHistory Capture CaptureSpec PropCapture HistoryPages HistoryPagesSpec.
From Coq Require Import Permutation Sorted.
Open Scope Z_scope.
Local Ltac sp := repeat match goal with |- _ /\ _ => split end.

Lemma heard_key r : heard r = sort_key r.
Proof. reflexivity. Qed.
Definition by_key (a b : run_record) : bool := sort_key b <=? sort_key a.
Lemma sorted_latest l : latest_first l (isort by_key l).
Proof.
  constructor.
  - apply Permutation_sym, isort_perm.
  - assert (S : StronglySorted (fun a b => by_key a b = true) (isort by_key l)).
    { apply isort_sorted; unfold by_key; [intros a b; rewrite !Z.leb_le; lia|intros a b c; rewrite !Z.leb_le; lia]. }
    induction S as [|x m S IH F]; constructor; auto. eapply Forall_impl; [|exact F]. intros y H. unfold by_key in H. apply Z.leb_le in H. rewrite !heard_key. auto.
  - intros t. exists (filter (fun r => heard r =? t) l). split; [apply filter_picked; intros x; apply Z.eqb_eq|].
    rewrite <- (isort_stable by_key (fun r => heard r =? t) l); [apply filter_picked; intros x; apply Z.eqb_eq|].
    intros x y A B. unfold by_key. apply Z.eqb_eq in A, B. rewrite heard_key in A, B. apply Z.leb_le. lia.
Qed.
Lemma scan_first {A} (keep : A -> bool) limit l : scan keep limit [] l = firstn (Z.to_nat (Z.max 1 limit)) (filter keep l).
Proof.
  destruct (Z.le_gt_cases 1 limit) as [L|L].
  - rewrite scan_spec by (cbn; lia). rewrite Z.max_r by lia. auto.
  - rewrite Z.max_l by lia. change (Z.to_nat 1) with 1%nat. induction l as [|x l IH]; cbn [scan filter]; auto. destruct (keep x); auto. cbn [app firstn List.length].
    destruct (Z.geb_spec (Z.of_nat 1) limit); [auto|lia].
Qed.
Lemma called_iff s w : is_called s w <-> status_text s = w.
Proof. split; [intros []; auto|intros <-; destruct s; constructor]. Qed.
Lemma task_filter o x : negb (given o && negb (String.eqb x (or_empty o))) = true <-> forall s, o = Some s -> s <> ""%string -> x = s.
Proof.
  rewrite if_given, given_iff, String.eqb_eq. unfold is_filter. split.
  - intros H s -> N. apply H. eauto.
  - intros H (s & -> & N). apply H; auto.
Qed.
Lemma hist_keep_iff q r : hist_keep q r = true <-> run_wanted (hq_task q) (hq_status q) (hq_source q) (hq_q q) r.
Proof.
  unfold hist_keep. cbv zeta. rewrite !andb_true_iff, task_filter, !word_filter, text_filter. change (run_task_id r) with (task_of r). split.
  - intros (((A & B) & C) & D). constructor; auto.
    + intros s E N. apply called_iff. rewrite (B s E N). auto.
    + intros s E. specialize (D s E). eexists. split; [|exact D]. exists (status_text (h_status r)), (if h_coalesced r =? 0 then ""%string else "coalesced"%string). sp.
      * apply called_iff. auto.
      * destruct (Z.eqb_spec (h_coalesced r) 0); auto.
      * reflexivity.
  - intros [A B C D]. sp; auto.
    + intros s E N. apply called_iff. auto.
    + intros s E. destruct (D s E) as (t & (st & co & S & K & ->) & F). apply called_iff in S. subst st. destruct K as [[K ->]|[K ->]].
      * rewrite K. exact F.
      * destruct (Z.eqb_spec (h_coalesced r) 0); [congruence|exact F].
Qed.

(** *** C98 *)
(** A query answers the first [limit] (but at least one) of the runs held that match it, the last heard
    of first. *)
Theorem C98_history_query :
  forall (h : history) (q : hist_query), exists s all,
    latest_first (map snd (records h)) s /\ picked (run_wanted (hq_task q) (hq_status q) (hq_source q) (hq_q q)) s all /\
    hist_find q h = firstn (Z.to_nat (Z.max 1 (hq_limit q))) all.
Proof.
  intros h q. exists (isort by_key (map snd (records h))), (filter (hist_keep q) (isort by_key (map snd (records h)))). sp.
  - apply sorted_latest.
  - apply filter_picked. intros x. apply hist_keep_iff.
  - apply scan_first.
Qed.
Print Assumptions C98_history_query.
(** The last run of a task: none if and only if no run of it is held; else one of its runs, none of them
    heard of later, and the first recorded of those heard of at the same time. *)
Lemma sorted_head {A} (R : A -> A -> Prop) (P : A -> Prop) (keep : A -> bool) l x m : StronglySorted R l -> filter keep l = x :: m -> (forall a, R a a) -> forall y, In y l -> keep y = true -> R x y.
Proof.
  intros S F RR y I K. induction S as [|z l S IH FA]; [destruct I|]. cbn [filter] in F. destruct (keep z) eqn:Z.
  - injection F as -> _. destruct I as [->|I]; auto. rewrite Forall_forall in FA. auto.
  - destruct I as [->|I]; [congruence|]. auto.
Qed.
Theorem C98_latest_run :
  forall (h : history) (task : string), task <> ""%string ->
    match latest_for_task task h with
    | None => forall r, In r (map snd (records h)) -> run_task_id r <> task
    | Some r => In r (map snd (records h)) /\ run_task_id r = task /\
        (forall r', In r' (map snd (records h)) -> run_task_id r' = task -> heard r' <= heard r) /\
        exists before after, map snd (records h) = before ++ r :: after /\ forall r', In r' before -> run_task_id r' = task -> heard r' < heard r
    end.
Proof.
  intros h task N. unfold latest_for_task, hist_find. rewrite scan_first. cbn [hq_limit]. change (Z.to_nat (Z.max 1 1)) with 1%nat. fold by_key.
  set (l := map snd (records h)). set (q := MkHQ (Some task) None None None 1). set (s := isort by_key l).
  assert (K : forall r, hist_keep q r = true <-> run_task_id r = task).
  { intros r. rewrite hist_keep_iff. cbn [hq_task hq_status hq_source hq_q q]. split; [intros [A _ _ _]; apply A; auto|]. intros E. constructor; try discriminate. intros x [= <-]. auto. }
  destruct (sorted_latest l) as [PE SO TI]. fold s in PE, SO, TI. destruct (filter (hist_keep q) s) as [|r m] eqn:F; cbn [firstn].
  - intros r I E. apply K in E. assert (X : In r (filter (hist_keep q) s)) by (apply filter_In; split; auto; apply (Permutation_in r PE); auto). rewrite F in X. destruct X.
  - assert (X : In r (filter (hist_keep q) s)) by (rewrite F; left; auto). apply filter_In in X as [X1 X2]. apply K in X2.
    assert (M : forall r', In r' l -> run_task_id r' = task -> heard r' <= heard r).
    { intros r' I E. apply (sorted_head (fun a b => heard b <= heard a) (fun _ => True) (hist_keep q) s r m SO F); [intros; lia|apply (Permutation_in r' PE); auto|apply K; auto]. }
    sp; auto; [apply (Permutation_in r (Permutation_sym PE)); auto|].
    pose (p := fun r' => hist_keep q r' && (heard r' =? heard r)).
    assert (ST : filter p s = filter p l). { apply isort_stable. unfold p, by_key. intros x y A B. apply andb_true_iff in A as [_ A], B as [_ B]. apply Z.eqb_eq in A, B. rewrite !heard_key in A, B. apply Z.leb_le. lia. }
    assert (HD : exists m', filter p s = r :: m').
    { clear -F. revert F. induction s as [|x s IH]; cbn [filter]; [discriminate|]. destruct (hist_keep q x) eqn:E.
      - intros [= -> _]. unfold p at 1. rewrite E, Z.eqb_refl. cbn. eauto.
      - unfold p at 1. rewrite E. cbn [andb]. auto. }
    destruct HD as (m' & HD). rewrite ST in HD.
    assert (SP : exists before after, l = before ++ r :: after /\ forall x, In x before -> p x = false).
    { clear -HD. revert HD. induction l as [|x l IH]; cbn [filter]; [discriminate|]. destruct (p x) eqn:E.
      - intros [= -> _]. exists [], l. split; auto. intros y [].
      - intros H. destruct (IH H) as (b & a & -> & Q). exists (x :: b), a. split; auto. intros y [<-|I]; auto. }
    destruct SP as (b & a & E & Q). exists b, a. split; auto. intros r' I T. assert (I' : In r' l) by (rewrite E; apply in_or_app; auto). pose proof (M r' I' T) as L.
    specialize (Q r' I). unfold p in Q. apply K in T. rewrite T in Q. cbn [andb] in Q. apply Z.eqb_neq in Q. lia.
Qed.
Print Assumptions C98_latest_run.
(** The numbers on the page: every run is counted once, under its state. *)
Theorem C98_counts :
  forall h : history, let c := hist_summary h in let rs := map snd (records h) in
    c_total c = List.length rs /\ (c_running c + c_succeeded c + c_failed c + c_missed c + c_max c = c_total c)%nat /\
    exists running succeeded failed missed full,
      picked (fun r => h_status r = Running) rs running /\ picked (fun r => h_status r = Succeeded) rs succeeded /\ picked (fun r => h_status r = Failed) rs failed /\
      picked (fun r => h_status r = Missed) rs missed /\ picked (fun r => h_status r = MaxInstances) rs full /\
      c_running c = List.length running /\ c_succeeded c = List.length succeeded /\ c_failed c = List.length failed /\ c_missed c = List.length missed /\ c_max c = List.length full.
Proof.
  intros h. cbv zeta. unfold hist_summary. cbn [c_total c_running c_succeeded c_failed c_missed c_max]. set (rs := map snd (records h)). clearbody rs. unfold count. sp; auto.
  - induction rs as [|r rs IH]; auto. cbn [filter List.length]. rewrite <- IH. clear IH. destruct (h_status r); cbn [status_text]; cbn; lia.
  - do 5 eexists. sp; try reflexivity; apply filter_picked; intros x; rewrite String.eqb_eq; destruct (h_status x); cbn; split; congruence.
Qed.
Print Assumptions C98_counts.

(** ** the pages *)
Lemma or_none_some t s : or_none t = Some s <-> t = s /\ s <> ""%string.
Proof. unfold or_none. destruct (String.eqb_spec t "") as [->|N]; split; intros; [discriminate|destruct H; congruence|injection H as <-; auto|destruct H; congruence]. Qed.
Lemma text_or_none o : forall P : string -> Prop, (forall s, or_none (text_param o) = Some s -> s <> ""%string -> P s) <-> (forall s, trimmed o = Some s -> s <> ""%string -> P s).
Proof.
  intros P. unfold text_param, trimmed. destruct o as [x|]; cbn [or_empty option_map].
  - split; intros H s E N; [injection E as <-; apply H; auto; apply or_none_some; auto|apply or_none_some in E as [<- _]; apply H; auto].
  - change (strip "") with ""%string. split; intros H s E N; discriminate.
Qed.
Lemma word_or_none o : forall P : string -> Prop, (forall s, or_none (lower (text_param o)) = Some s -> strip s <> ""%string -> P (lower (strip s))) <-> (forall s, o = Some s -> strip s <> ""%string -> P (lower (strip s))).
Proof.
  intros P. unfold text_param. destruct o as [x|]; cbn [or_empty].
  - assert (E1 : lower (strip (lower (strip x))) = lower (strip x)). { rewrite lower_strip, strip_idem. apply lower_lower. }
    split; intros H s E N.
    + injection E as <-. rewrite <- E1. apply H; [apply or_none_some; split; auto; rewrite lower_nil; auto|]. rewrite lower_strip, strip_idem, lower_nil. auto.
    + apply or_none_some in E as [<- E]. rewrite E1. apply H; auto. rewrite lower_strip, strip_idem, lower_nil in N. auto.
  - change (lower (strip "")) with ""%string. split; intros H s E N; discriminate.
Qed.
Lemma found_or_none o : forall P : string -> Prop, (forall a b, lower (strip a) = lower (strip b) -> P a -> P b) -> P ""%string ->
  (forall s, or_none (text_param o) = Some s -> P s) <-> (forall s, o = Some s -> P s).
Proof.
  intros P EX P0. unfold text_param. destruct o as [x|]; cbn [or_empty].
  - split; intros H s E.
    + injection E as <-. destruct (string_dec (strip x) "") as [B|B]; [apply (EX ""%string); [rewrite B; auto|exact P0]|]. apply (EX (strip x)); [rewrite strip_idem; auto|]. apply H. apply or_none_some. auto.
    + apply or_none_some in E as [<- _]. apply (EX x); [rewrite strip_idem; auto|]. auto.
  - change (strip "") with ""%string. split; intros H s E; discriminate.
Qed.
Lemma found_ext a b t : lower (strip a) = lower (strip b) -> found a t -> found b t.
Proof. unfold found. intros ->. auto. Qed.
Lemma found_nil t : found "" t.
Proof. exists ""%string, (lower t). auto. Qed.
Lemma words_exist r : exists t, run_words r t.
Proof.
  eexists. exists (status_text (h_status r)), (if h_coalesced r =? 0 then ""%string else "coalesced"%string). sp; [apply called_iff; auto| |reflexivity].
  destruct (Z.eqb_spec (h_coalesced r) 0); auto.
Qed.
Lemma run_page_iff p r : run_wanted (or_none (text_param (hp_task p))) (or_none (lower (text_param (hp_status p)))) (or_none (lower (text_param (hp_source p)))) (or_none (text_param (hp_q p))) r
  <-> run_wanted (trimmed (hp_task p)) (hp_status p) (hp_source p) (hp_q p) r.
Proof.
  assert (Q1 : forall a b : string, lower (strip a) = lower (strip b) -> (exists t, run_words r t /\ found a t) -> exists t, run_words r t /\ found b t).
  { intros a b E (t & W & F). exists t. split; auto. revert F. apply found_ext. auto. }
  assert (Q2 : exists t, run_words r t /\ found "" t) by (destruct (words_exist r) as (t & W); exists t; split; auto; apply found_nil).
  split; intros [A B C D]; constructor.
  - apply (text_or_none (hp_task p) (fun s => run_task_id r = s)). auto.
  - apply (word_or_none (hp_status p) (fun s => is_called (h_status r) s)). auto.
  - apply (word_or_none (hp_source p) (fun s => h_source r = s)). auto.
  - apply (found_or_none (hp_q p) (fun s => exists t, run_words r t /\ found s t) Q1 Q2). auto.
  - apply (text_or_none (hp_task p) (fun s => run_task_id r = s)). auto.
  - apply (word_or_none (hp_status p) (fun s => is_called (h_status r) s)). auto.
  - apply (word_or_none (hp_source p) (fun s => h_source r = s)). auto.
  - apply (found_or_none (hp_q p) (fun s => exists t, run_words r t /\ found s t) Q1 Q2). auto.
Qed.
(** The history page: the runs that match what the query string asks for, the last heard of first, 200
    unless it asks for another number, 1 to 1000. *)
Theorem C98_history_page :
  forall (h : history) (p : hist_params), exists s all limit,
    latest_first (map snd (records h)) s /\ picked (run_wanted (trimmed (hp_task p)) (hp_status p) (hp_source p) (hp_q p)) s all /\
    asked (hp_limit p) limit /\ history_page p h = firstn (Z.to_nat limit) all.
Proof.
  intros h p. unfold history_page. set (q := MkHQ _ _ _ _ _). exists (isort by_key (map snd (records h))), (filter (hist_keep q) (isort by_key (map snd (records h)))), (hq_limit q). sp.
  - apply sorted_latest.
  - apply filter_picked. intros x. rewrite hist_keep_iff. apply run_page_iff.
  - apply asked_limit.
  - unfold hist_find. rewrite scan_first. pose proof (asked_pos _ _ (asked_limit (hp_limit p))) as A. change (hq_limit q) with (log_limit (limit_param (hp_limit p))). rewrite Z.max_r by lia. auto.
Qed.
Print Assumptions C98_history_page.
Definition said (o : option string) : option string := option_map (fun s => lower (strip s)) o.
Lemma audit_page_iff p r : audit_matches (MkAQ (or_none (lower (text_param (ap_action p)))) (or_none (lower (text_param (ap_status p)))) (or_none (text_param (ap_q p))) (log_limit (limit_param (ap_limit p)))) r
  <-> audit_matches (MkAQ (ap_action p) (ap_status p) (ap_q p) 0) r.
Proof.
  split; intros [A B C]; cbn [aq_action aq_status aq_q] in *; constructor; cbn [aq_action aq_status aq_q].
  - apply (word_or_none (ap_action p) (fun s => a_action r = s)). auto.
  - apply (word_or_none (ap_status p) (fun s => a_status r = s)). auto.
  - apply (found_or_none (ap_q p) (fun s => found s _)); auto; [intros a b E; apply found_ext; auto|apply found_nil].
  - apply (word_or_none (ap_action p) (fun s => a_action r = s)). auto.
  - apply (word_or_none (ap_status p) (fun s => a_status r = s)). auto.
  - apply (found_or_none (ap_q p) (fun s => found s _)); auto; [intros a b E; apply found_ext; auto|apply found_nil].
Qed.
(** The audit page likewise, of the newest [n] records appended since the trail was last cleared. *)
Theorem C98_audit_page :
  forall (n : nat) (ops : list (bop audit_record audit_query)) (p : audit_params), NoDup (ids ops) ->
    exists held limit rows, newest n (appended [] ops) held /\ asked (ap_limit p) limit /\
      audit_page p (fst (audit_run n (MkAStore [] []) ops)) = Ok rows /\ answers_query (audit_matches (MkAQ (ap_action p) (ap_status p) (ap_q p) 0)) limit held rows.
Proof.
  intros n ops p N. destruct (C44_audit n ops N) as (held & W & Q & _). pose proof (asked_limit (ap_limit p)) as A. unfold audit_page. set (q := MkAQ _ _ _ _).
  destruct (Q q) as (rows & E & all & P & R); [apply (asked_pos _ _ A)|]. exists held, (log_limit (limit_param (ap_limit p))), rows. sp; auto. exists all. split; auto.
  revert P. clear. generalize (rev held). induction 1; constructor; auto; [apply audit_page_iff; auto|]. intros X. apply H. apply audit_page_iff. auto.
Qed.
Print Assumptions C98_audit_page.
Lemma event_page_iff p r : event_matches (MkEQ (or_none (lower (text_param (ep_cat p)))) (or_none (lower (text_param (ep_name p)))) (or_none (text_param (ep_task p))) (or_none (text_param (ep_q p))) (log_limit (limit_param (ep_limit p)))) r
  <-> event_matches (MkEQ (ep_cat p) (ep_name p) (trimmed (ep_task p)) (ep_q p) 0) r.
Proof.
  split; intros [A B C D]; cbn [eq_cat eq_name eq_task eq_q] in *; constructor; cbn [eq_cat eq_name eq_task eq_q].
  - apply (word_or_none (ep_cat p) (fun s => e_cat r = s)). auto.
  - apply (word_or_none (ep_name p) (fun s => e_name r = s)). auto.
  - intros s [E N]. revert s E N. apply (text_or_none (ep_task p) (fun s => e_task r = Some s)). intros s E N. apply C. split; auto.
  - apply (found_or_none (ep_q p) (fun s => found s _)); auto; [intros a b E; apply found_ext; auto|apply found_nil].
  - apply (word_or_none (ep_cat p) (fun s => e_cat r = s)). auto.
  - apply (word_or_none (ep_name p) (fun s => e_name r = s)). auto.
  - intros s [E N]. revert s E N. apply (text_or_none (ep_task p) (fun s => e_task r = Some s)). intros s E N. apply C. split; auto.
  - apply (found_or_none (ep_q p) (fun s => found s _)); auto; [intros a b E; apply found_ext; auto|apply found_nil].
Qed.
(** The events page likewise. *)
Theorem C98_events_page :
  forall (n : nat) (ops : list (bop event_record event_query)) (p : event_params),
    exists held limit, newest n (appended [] ops) held /\ asked (ep_limit p) limit /\
      answers_query (event_matches (MkEQ (ep_cat p) (ep_name p) (trimmed (ep_task p)) (ep_q p) 0)) limit held (events_page p (fst (event_run n [] ops))).
Proof.
  intros n ops p. exists (fst (event_run n [] ops)), (log_limit (limit_param (ep_limit p))). sp; [apply event_kept, newest_nil|apply asked_limit|].
  unfold events_page, event_find. cbn [eq_limit]. apply scan_answers; [|apply (asked_pos _ _ (asked_limit (ep_limit p)))]. intros x. rewrite event_keep_iff. apply event_page_iff.
Qed.
Print Assumptions C98_events_page.

(** ** what the reports leave behind *)
Definition reported_at (e : hevent) : option Z := match e with Submission _ _ _ _ _ _ _ now | Execution _ _ _ _ _ _ now => Some now | Clear => None end.
Definition heard_by (T : Z) (r : run_record) : Prop := h_updated r <= T /\ (forall t, h_submitted r = Some t -> t <= T) /\ forall t, h_finished r = Some t -> t <= T.
Definition all_by (T : Z) (h : history) : Prop := Forall (fun kv => heard_by T (snd kv)) (records h).
Lemma heard_by_heard T r : heard_by T r -> heard r <= T.
Proof. intros (A & B & C). unfold heard, first_time. cbn. destruct (h_finished r); auto. destruct (h_submitted r); auto. Qed.
Lemma dset_forall {V} (P : string * V -> Prop) k v (d : dict V) : Forall P d -> (forall k, P (k, v)) -> Forall P (dset k v d).
Proof. intros F H. induction F as [|[k' v'] d X F IH]; cbn; [repeat constructor; auto|]. destruct (String.eqb k k'); constructor; auto. Qed.
Lemma ddel_forall {V} (P : string * V -> Prop) k (d : dict V) : Forall P d -> Forall P (ddel k d).
Proof. unfold ddel. intros F. apply Forall_forall. intros x I. apply filter_In in I as [I _]. rewrite Forall_forall in F. auto. Qed.
Lemma dget_forall {V} (P : V -> Prop) k (d : dict V) v : Forall (fun kv => P (snd kv)) d -> dget k d = Some v -> P v.
Proof. intros F. induction F as [|[k' v'] d X F IH]; cbn; [discriminate|]. destruct (String.eqb k k'); [intros [= <-]; auto|auto]. Qed.
Lemma trim_by T maxlen fuel : forall h, all_by T h -> all_by T (trim maxlen fuel h).
Proof.
  induction fuel as [|fuel IH]; intros h A; cbn [trim]; auto. destruct (Nat.ltb _ _); auto. destruct (order h) as [|x rest]; auto.
  destruct (dget x (records h)); apply IH; auto. apply ddel_forall. auto.
Qed.
Lemma upsert_by sha maxlen k m now T h id h' : upsert sha maxlen k m now h = Ok (id, h') -> now <= T -> all_by T h -> all_by T h'.
Proof.
  unfold upsert. destruct (kget k (index h)) as [i|].
  - destruct (dget i (records h)) as [r|] eqn:G; [|discriminate]. intros [= <- <-] L A. pose proof (dget_forall (heard_by T) i _ r A G) as R. apply dset_forall; auto.
  - intros [= <- <-] L A. apply trim_by. apply dset_forall; auto. intros ?. cbn [snd]. split; [cbn; auto|split; cbn; discriminate].
Qed.
Lemma touch_by T id f h : all_by T h -> (forall r, heard_by T r -> heard_by T (f r)) -> all_by T (touch id f h).
Proof. intros A F. unfold touch. destruct (dget id (records h)) as [r|] eqn:G; auto. apply dset_forall; auto. intros ?. cbn [snd]. apply F. apply (dget_forall (heard_by T) id _ r A G). Qed.
Lemma submit_by T src st c now r : now <= T -> heard_by T r -> heard_by T (submit src st c now r).
Proof.
  intros L (A & B & C). unfold submit. split; [cbn; auto|]. split; cbn; intros t.
  - unfold or_else. destruct (h_submitted r) as [x|]; [intros [= <-]; auto|]. destruct (h_finished r) as [y|]; intros [= <-]; auto.
  - destruct st; auto. unfold or_else. destruct (h_finished r) as [y|]; intros [= <-]; auto.
Qed.
Lemma finish_by T st res now r : now <= T -> heard_by T r -> heard_by T (finish st res now r).
Proof. intros L (A & B & C). unfold finish. split; [cbn; auto|]. split; cbn; intros t; [|intros [= <-]; auto]. unfold or_else. destruct (h_submitted r) as [x|]; intros [= <-]; auto. Qed.
Lemma handle_by sha maxlen T e h h' : handle sha maxlen e h = Ok h' -> (forall t, reported_at e = Some t -> t <= T) -> all_by T h -> all_by T h'.
Proof.
  destruct e as [t s xs full src c m now|t s x o res m now|]; cbn [handle reported_at].
  - intros H L. specialize (L now eq_refl). revert h H. induction xs as [|x xs IH]; intros h; cbn [submissions]; [intros [= <-]; auto|].
    destruct (upsert sha maxlen (t, s, x) m now h) as [[id h1]|] eqn:U; [|discriminate]. intros H A. apply (IH _ H). apply touch_by; [apply (upsert_by _ _ _ _ _ _ _ _ _ U L A)|]. intros r. apply submit_by. auto.
  - destruct (upsert sha maxlen (t, s, x) m now h) as [[id h1]|] eqn:U; [|discriminate]. intros [= <-] L A. specialize (L now eq_refl). apply touch_by; [apply (upsert_by _ _ _ _ _ _ _ _ _ U L A)|]. intros r. apply finish_by. auto.
  - intros [= <-] _ _. constructor.
Qed.
Lemma handle_all_by sha maxlen T es : forall h h', handle_all sha maxlen es h = Ok h' -> (forall e t, In e es -> reported_at e = Some t -> t <= T) -> all_by T h -> all_by T h'.
Proof.
  induction es as [|e es IH]; intros h h'; cbn [handle_all]; [intros [= <-]; auto|]. destruct (handle sha maxlen e h) as [h1|] eqn:E; [|discriminate]. intros H L A.
  apply (IH h1 h' H); [intros x t I; apply L; right; auto|]. apply (handle_by _ _ _ _ _ _ E); auto. intros t. apply L. left. auto.
Qed.
Lemma handle_all_app sha maxlen es e : forall h h1, handle_all sha maxlen es h = Ok h1 -> handle_all sha maxlen (es ++ [e]) h = handle sha maxlen e h1.
Proof.
  induction es as [|x es IH]; intros h h1; cbn [handle_all app]; [intros [= <-]; destruct (handle sha maxlen e h); auto|].
  destruct (handle sha maxlen x h) as [h2|]; [|discriminate]. apply IH.
Qed.
(** After any reports, and as long as the clock moves on: when the end of a run is reported, that run - in
    the state reported - is the one shown as the last run of its task. *)
Theorem C98_last_report :
  forall (sha : string -> string) (maxlen : nat) (es : list hevent) (h : history) (task : string) (store : option string) (time : string) (o : outcome) (res : option string) (m : meta) (now : Z),
    (forall a b, sha a = sha b -> a = b) -> (1 <= maxlen)%nat -> Forall (fun e => Forall plain (keys_of e)) es -> plain (task, store, time) -> task <> ""%string ->
    handle_all sha maxlen es empty_history = Ok h -> (forall e t, In e es -> reported_at e = Some t -> t < now) ->
    exists h' r, handle sha maxlen (Execution task store time o res m now) h = Ok h' /\ latest_for_task task h' = Some r /\
      h_key r = (task, store, time) /\ h_status r = status_of o /\ h_result r = res /\ h_finished r = Some now.
Proof.
  intros sha maxlen es h task store time o res m now inj ML P PK NT H LT. set (e := Execution task store time o res m now). set (k := (task, store, time)).
  destruct (C45_one_event_partial sha maxlen inj es h e k P H eq_refl PK) as (h' & HE & OLD & _ & CH & BE). exists h'.
  assert (P' : Forall (fun e => Forall plain (keys_of e)) (es ++ [e])) by (apply Forall_app; split; auto; constructor; [constructor; [exact PK|constructor]|constructor]).
  assert (H' : handle_all sha maxlen (es ++ [e]) empty_history = Ok h') by (rewrite (handle_all_app _ _ _ _ _ _ H); auto).
  destruct (reached sha maxlen inj (es ++ [e]) h' P' H') as (rs & (R & _ & _) & (N & F & _) & _). pose proof (nodup_ids sha inj rs N F) as NI.
  assert (RS : map snd (records h') = rs) by (rewrite R, map_map; cbn; apply map_id).
  assert (HELD : forall r, In r rs <-> held h' r). { intros r. unfold held. rewrite R. split; [apply dget_shown; auto|]. intros G. apply dget_shown_inv in G. tauto. }
  assert (B : all_by (now - 1) h). { apply (handle_all_by _ _ _ es _ _ H); [intros x t I E; specialize (LT x t I E); lia|constructor]. }
  assert (EX : exists r, held h' r /\ h_key r = k /\ h_status r = status_of o /\ h_result r = res /\ h_finished r = Some now).
  { destruct (reached sha maxlen inj es h P H) as (rs0 & (R0 & _ & _) & (N0 & F0 & _) & _). pose proof (nodup_ids sha inj rs0 N0 F0) as NI0.
    destruct (in_dec rkey_dec k (map h_key rs0)) as [I|I].
    - apply in_map_iff in I as (r0 & E0 & I0). destruct (CH r0) as (r' & HR & C); auto; [unfold held; rewrite R0; apply dget_shown; auto|]. exists r'. unfold changes in C. cbn [e] in C. destruct C as (_ & C2 & _ & _ & C5 & C6 & C7 & _). sp; auto. congruence.
    - destruct BE as (r' & HR & KK & _ & C5); auto; [|exists r'; cbn [e] in C5; destruct C5 as (A1 & A2 & _ & A4 & _); sp; auto]. intros r HR E. apply I. unfold held in HR. rewrite R0 in HR. apply dget_shown_inv in HR as [HR _]. rewrite <- E. apply in_map. auto. }
  destruct EX as (r & HR & K & S & RE & FI). exists r. sp; auto. pose proof (C98_latest_run h' task NT) as L. rewrite RS in L. destruct (latest_for_task task h') as [r2|].
  - destruct L as (I2 & T2 & M2 & _). assert (Q : heard r <= heard r2) by (apply M2; [apply HELD; auto|unfold run_task_id; rewrite K; auto]).
    assert (HN : heard r = now) by (unfold heard, first_time; cbn; rewrite FI; auto). apply HELD in I2. destruct (rkey_dec (h_key r2) k) as [E2|E2].
    + f_equal. unfold held in *. rewrite R in *. apply dget_shown_inv in I2 as [I2 _], HR as [HR _]. clear -N I2 HR E2 K. rewrite <- K in E2. revert N I2 HR. induction rs as [|x rs IH]; cbn; [tauto|]. intros N. inversion N; subst.
      intros [->|A] [->|C]; auto; destruct H1; [rewrite E2; apply in_map; auto|rewrite <- E2; apply in_map; auto].
    + specialize (OLD r2 I2 E2). unfold held in OLD. apply (dget_forall (heard_by (now - 1)) _ _ _ B) in OLD. apply heard_by_heard in OLD. lia.
  - destruct (L r); [apply HELD; auto|unfold run_task_id; rewrite K; auto].
Qed.
Print Assumptions C98_last_report.
(** A run's own page: the run with that id, and "not found" exactly when none is held. *)
Theorem C98_history_detail :
  forall (sha : string -> string) (maxlen : nat) (es : list hevent) (h : history),
    (forall a b, sha a = sha b -> a = b) -> Forall (fun e => Forall plain (keys_of e)) es -> handle_all sha maxlen es empty_history = Ok h ->
    forall id r, history_detail id h = Some r <-> In r (map snd (records h)) /\ h_id r = id.
Proof.
  intros sha maxlen es h inj P H id r. destruct (reached sha maxlen inj es h P H) as (rs & (R & _ & _) & (N & F & _) & _). pose proof (nodup_ids sha inj rs N F) as NI.
  unfold history_detail. rewrite R, map_map. cbn. rewrite map_id. split; [apply dget_shown_inv|]. intros [I <-]. apply dget_shown; auto.
Qed.
Print Assumptions C98_history_detail.

(** ** the overview *)
(** The overview never fails; it shows the first ten of all tasks in order of their next run times, each
    with the last run recorded for its id, the counts of tasks and runs, and the six runs last heard of. *)
Theorem C98_overview :
  forall (descr : trigger -> string) (s : sched) (h : history), exists v infos c l,
    home_page descr s h = Ok v /\ get_task_infos descr (MkQuery None None None None None "next_run_time" false) s = Ok infos /\
    Permutation infos (map (snapshot descr) (get_tasks None s)) /\
    map fst (o_tasks v) = firstn 10 infos /\ (forall i last, In (i, last) (o_tasks v) -> last = latest_for_task (i_id i) h) /\
    get_scheduler_info descr s = Ok c /\ o_counts v = c /\ n_tasks c = List.length infos /\
    c_total (o_runs v) = List.length (records h) /\ o_runs v = hist_summary h /\
    latest_first (map snd (records h)) l /\ o_recent v = firstn 6 l.
Proof.
  intros descr s h. pose (q := MkQuery None None None None None "next_run_time" false). assert (V : valid_query q) by (split; [cbn; tauto|discriminate]).
  destruct (C35_complete_and_filtered descr q s V) as (infos & E & _ & p & P & PM). destruct (C35_counts_add_up descr s) as (c & EC & NC & _). unfold home_page. rewrite EC. fold q. rewrite E.
  assert (A : filter p (map (snapshot descr) (get_tasks (q_store q) s)) = map (snapshot descr) (get_tasks None s)).
  { cbn [q_store q]. generalize (map (snapshot descr) (get_tasks None s)). intros l. induction l as [|i l IH]; auto. cbn [filter]. assert (W : p i = true). { apply P. unfold wanted_info, typed; cbn. repeat split; intros; try discriminate; destruct H; discriminate. } rewrite W, IH. auto. }
  rewrite A in PM. do 4 eexists. split; [reflexivity|]. split; [reflexivity|]. cbn [o_tasks o_counts o_runs o_recent]. sp; auto.
  - rewrite map_map. cbn. apply map_id.
  - intros i last I. apply in_map_iff in I as (j & [= <- <-] & _). auto.
  - rewrite NC. rewrite (Permutation_length PM), map_length. auto.
  - unfold hist_summary. cbn [c_total]. apply map_length.
  - apply (sorted_latest (map snd (records h))).
  - unfold hist_find. rewrite scan_first. cbn [hq_limit]. change (Z.to_nat (Z.max 1 6)) with 6%nat. f_equal. fold by_key.
    assert (K : forall r, hist_keep (MkHQ None None None None 6) r = true). { intros r. apply hist_keep_iff. constructor; cbn; discriminate. }
    induction (isort by_key (map snd (records h))) as [|x m IH]; auto. cbn [filter]. rewrite K, IH. auto.
Qed.
Print Assumptions C98_overview.

(** Not so: "the last run shown for a task is a run of that task".  Under an empty id any task's last run
    is shown, and tasks of the same id in two stores share their runs. *)
Theorem C98_other_tasks_run_refuted :
  exists es h, handle_all (fun s => s) 10 es empty_history = Ok h /\
    option_map run_task_id (latest_for_task "" h) = Some "nightly"%string /\
    option_map (fun r => snd (fst (h_key r))) (latest_for_task "job" h) = Some (Some "second"%string) /\
    exists r, In r (map snd (records h)) /\ h_key r = ("job", Some "first", "2024")%string /\ h_status r = Succeeded.
Proof.
  exists [Execution "job" (Some "first"%string) "2024" OSucceeded None nometa 1; Execution "job" (Some "second"%string) "2024" OFailed None nometa 2; Execution "nightly" (Some "first"%string) "2024" OSucceeded None nometa 3].
  eexists. split; [reflexivity|]. split; [reflexivity|]. split; [reflexivity|]. eexists. split; [left; reflexivity|]. split; reflexivity.
Qed.
Print Assumptions C98_other_tasks_run_refuted.

(** the hypotheses are met *)
Example C98_example :
  let es := [Submission "a" (Some "default"%string) ["1"; "2"]%string false None 1 nometa 10; Execution "b" (Some "default"%string) "1" OFailed None nometa 11; Execution "a" (Some "default"%string) "1" OSucceeded None nometa 12] in
  exists h, handle_all (fun s => s) 10 es empty_history = Ok h /\
    map h_id (history_page (MkHPar None None None None None) h) = ["a|default|1"; "b|default|1"; "a|default|2"]%string /\
    map h_id (history_page (MkHPar (Some " a "%string) (Some "RUNNING"%string) None (Some "Coalesced"%string) (Some "0"%string)) h) = ["a|default|2"]%string /\
    map h_id (history_page (MkHPar None None None None (Some "2"%string)) h) = ["a|default|1"; "b|default|1"]%string /\
    option_map h_id (latest_for_task "a" h) = Some "a|default|1"%string /\ hist_summary h = MkHC 3 1 1 1 0 0.
Proof. cbv zeta. eexists. split; [reflexivity|]. vm_compute. repeat split. Qed.
Example C98_report_hypotheses :
  let es := [Submission "a" (Some "default"%string) ["1"; "2"]%string false None 1 nometa 10] in
  (exists h, handle_all (fun s => s) 10 es empty_history = Ok h) /\ (forall e t, In e es -> reported_at e = Some t -> t < 12).
Proof. cbv zeta. split; [eexists; reflexivity|]. intros e t [<-|[]] [= <-]. lia. Qed.
