(** C44: the dashboard's bounded stores. *)
From Verif Require Import Prelude PreludeFacts Text Dash DashSpec.
Open Scope Z_scope.

(** *** bounded buffers *)
Lemma push_newest {A} n (x : A) l kept : newest n l kept -> newest n (l ++ [x]) (push n x kept).
Proof.
  intros (old & -> & L & F). unfold push. set (k := (List.length kept + 1 - n)%nat). exists (old ++ firstn k (kept ++ [x])). split.
  - rewrite <- !app_assoc. f_equal. symmetry. apply firstn_skipn.
  - rewrite skipn_length, app_length. cbn [List.length]. split; [lia|]. intros N. destruct old as [|o old]; [|pose proof (F ltac:(discriminate)); lia].
    cbn in N. assert (k <> 0%nat) by (intros E; rewrite E in N; cbn in N; congruence). lia.
Qed.
Lemma newest_nil {A} n : newest n (@nil A) [].
Proof. exists []. split; auto. split; [cbn; lia|congruence]. Qed.
(** *** queries *)
Lemma scan_spec {A} (keep : A -> bool) limit l : forall out, Z.of_nat (List.length out) < limit ->
  scan keep limit out l = firstn (Z.to_nat limit) (out ++ filter keep l).
Proof.
  induction l as [|x l IH]; intros out L; cbn [scan filter].
  - rewrite app_nil_r, firstn_all2; [auto|lia].
  - destruct (keep x); [|apply IH; auto]. assert (LL : List.length (out ++ [x]) = S (List.length out)) by (rewrite app_length; cbn; lia).
    destruct (Z.geb_spec (Z.of_nat (List.length (out ++ [x]))) limit).
    + change (x :: filter keep l) with ([x] ++ filter keep l). rewrite app_assoc, firstn_app, LL.
      replace (Z.to_nat limit - S (List.length out))%nat with 0%nat by lia. cbn [firstn]. rewrite app_nil_r, firstn_all2; [auto|lia].
    + rewrite IH by lia. rewrite <- app_assoc. auto.
Qed.
Lemma filter_picked {A} (P : A -> Prop) keep l : (forall x, keep x = true <-> P x) -> picked P l (filter keep l).
Proof. intros H. induction l as [|x l IH]; cbn; [constructor|]. destruct (keep x) eqn:K; constructor; auto; [apply H; auto|]. rewrite <- H, K. discriminate. Qed.
Lemma scan_answers {A} (P : A -> Prop) keep limit l : (forall x, keep x = true <-> P x) -> 1 <= limit -> answers_query P limit l (scan keep limit [] (rev l)).
Proof. intros H L. exists (filter keep (rev l)). split; [apply filter_picked; auto|]. rewrite scan_spec; [auto|cbn; lia]. Qed.
(** *** filters *)
Lemma space_lower a : is_space (lower_ascii a) = is_space a.
Proof. destruct a as [[] [] [] [] [] [] [] []]; reflexivity. Qed.
Lemma lower_nil s : lower s = ""%string <-> s = ""%string.
Proof. destruct s; cbn; split; congruence. Qed.
Lemma lower_strip s : strip (lower s) = lower (strip s).
Proof.
  unfold strip. assert (L : forall u, lstrip (lower u) = lower (lstrip u)) by (induction u as [|a u IH]; cbn; auto; rewrite space_lower; destruct (is_space a); auto).
  rewrite L. generalize (lstrip s). induction s0 as [|a u IH]; cbn; auto. rewrite IH. destruct (rstrip u); cbn; auto. rewrite space_lower. destruct (is_space a); auto.
Qed.
Lemma lower_upper s : lower (upper s) = lower s.
Proof. induction s as [|a s IH]; cbn; auto. rewrite IH. f_equal. destruct a as [[] [] [] [] [] [] [] []]; reflexivity. Qed.
Lemma upper_lower s : upper (lower s) = upper s.
Proof. induction s as [|a s IH]; cbn; auto. rewrite IH. f_equal. destruct a as [[] [] [] [] [] [] [] []]; reflexivity. Qed.
Lemma upper_eq a b : upper a = upper b <-> lower a = lower b.
Proof. split; intros H; [rewrite <- (lower_upper a), H; apply lower_upper|rewrite <- (upper_lower a), H; apply upper_lower]. Qed.
Lemma if_given b c : negb (b && negb c) = true <-> (b = true -> c = true).
Proof. destruct b, c; cbn; split; auto; intros H; discriminate (H eq_refl). Qed.
Lemma given_iff o : given o = true <-> exists s, is_filter o s.
Proof.
  unfold given, is_filter. destruct o as [s|]; cbn; [|split; [discriminate|intros (s & H & _); discriminate]].
  destruct (String.eqb_spec s ""); cbn; split; auto; try discriminate; [intros (s' & [= ->] & N); congruence|eauto].
Qed.
Lemma opt_filter o x : negb (given o && negb (opt_eqb x (or_empty o))) = true <-> forall s, is_filter o s -> x = Some s.
Proof.
  rewrite if_given, given_iff. split.
  - intros H s F. assert (E : opt_eqb x (or_empty o) = true) by (apply H; eauto). destruct F as [-> _]. cbn in E. destruct x as [y|]; [|discriminate]. cbn in E. apply String.eqb_eq in E. congruence.
  - intros H (s & F). rewrite (H s F). destruct F as [-> _]. cbn. apply String.eqb_refl.
Qed.
Lemma word_filter o x : negb (negb (String.eqb (lower (strip (or_empty o))) "") && negb (String.eqb x (lower (strip (or_empty o))))) = true <->
  forall s, o = Some s -> strip s <> ""%string -> x = lower (strip s).
Proof.
  rewrite if_given, negb_true_iff, String.eqb_neq, String.eqb_eq. split; [intros H s -> N; apply H; cbn; rewrite lower_nil; auto|].
  intros H N. rewrite lower_nil in N. destruct o as [s|]; cbn in *; [apply H; auto|]. destruct (N eq_refl).
Qed.
Lemma text_filter o t : negb (negb (String.eqb (lower (strip (or_empty o))) "") && negb (contains (lower (strip (or_empty o))) (lower t))) = true <-> forall s, o = Some s -> found s t.
Proof.
  rewrite if_given, negb_true_iff, String.eqb_neq, contains_iff. unfold found. split.
  - intros H s ->. destruct (string_dec (lower (strip s)) "") as [->|N]; [exists ""%string, (lower t); auto|]. apply H. auto.
  - intros H N. destruct o as [s|]; [apply H; auto|]. destruct (N eq_refl).
Qed.
Lemma log_keep_iff q e : log_keep q e = true <-> log_matches q e.
Proof.
  unfold log_keep. rewrite lower_strip. rewrite !andb_true_iff, !opt_filter, text_filter.
  assert (L : negb (given (lq_level q) && negb (String.eqb (upper (l_level e)) (upper (or_empty (lq_level q))))) = true <-> forall s, is_filter (lq_level q) s -> lower (l_level e) = lower s).
  { rewrite if_given, given_iff, String.eqb_eq, upper_eq. split; [intros H s F; rewrite H; eauto; destruct F as [-> _]; auto|]. intros H (s & F). rewrite (H s F). destruct F as [-> _]. auto. }
  rewrite L. assert (S : negb (match lq_since q with Some t => l_ts e <? t | None => false end) = true <-> forall t, lq_since q = Some t -> t <= l_ts e).
  { destruct (lq_since q) as [t|]; [|split; [discriminate|auto]]. rewrite negb_true_iff, Z.ltb_ge. split; [intros H x [= <-]; auto|auto]. }
  assert (U : negb (match lq_until q with Some t => l_ts e >? t | None => false end) = true <-> forall t, lq_until q = Some t -> l_ts e <= t).
  { destruct (lq_until q) as [t|]; [|split; [discriminate|auto]]. rewrite negb_true_iff, Z.gtb_ltb, Z.ltb_ge. split; [intros H x [= <-]; auto|auto]. }
  rewrite S, U. split; [intros (((((A & B) & C) & D) & E) & F); constructor; auto|]. intros [A B C D E F]. tauto.
Qed.
Lemma audit_keep_iff q r : audit_keep q r = true <-> audit_matches q r.
Proof.
  unfold audit_keep. cbv zeta. rewrite !andb_true_iff, !word_filter, text_filter. cbn [join]. split; [intros ((A & B) & C); constructor; auto|]. intros [A B C]. tauto.
Qed.
Lemma event_keep_iff q r : event_keep q r = true <-> event_matches q r.
Proof.
  unfold event_keep. cbv zeta. rewrite !andb_true_iff, !word_filter, text_filter, opt_filter. cbn [join]. split; [intros (((A & B) & C) & D); constructor; auto|]. intros [A B C D]. tauto.
Qed.

(** *** C44 *)
(** After any history, a log store made for [n] entries holds the newest [n] entries appended since
    it was last cleared, and any query - asking for at least one entry - answers exactly the matching
    ones among those, newest first, up to its limit. *)
Lemma log_kept n ops : forall l kept, newest n l kept -> newest n (appended l ops) (fst (log_run n kept ops)).
Proof.
  induction ops as [|[x|q|] ops IH]; intros l kept H; cbn; auto.
  - apply IH. apply push_newest. auto.
  - specialize (IH l kept H). destruct (log_run n kept ops). auto.
  - apply IH, newest_nil.
Qed.
Theorem C44_logs :
  forall (n : nat) (ops : list (bop log_entry log_query)) (q : log_query),
    let held := fst (log_run n [] ops) in
    newest n (appended [] ops) held /\ (1 <= lq_limit q -> answers_query (log_matches q) (lq_limit q) held (log_find q held)).
Proof. intros n ops q. cbv zeta. split; [apply log_kept, newest_nil|]. intros L. apply scan_answers; auto. intros x. apply log_keep_iff. Qed.
Print Assumptions C44_logs.
Lemma event_kept n ops : forall l kept, newest n l kept -> newest n (appended l ops) (fst (event_run n kept ops)).
Proof.
  induction ops as [|[x|q|] ops IH]; intros l kept H; cbn; auto.
  - apply IH. apply push_newest. auto.
  - specialize (IH l kept H). destruct (event_run n kept ops). auto.
  - apply IH, newest_nil.
Qed.
Theorem C44_events :
  forall (n : nat) (ops : list (bop event_record event_query)) (q : event_query),
    let held := fst (event_run n [] ops) in
    newest n (appended [] ops) held /\ (1 <= eq_limit q -> answers_query (event_matches q) (eq_limit q) held (event_find q held)).
Proof. intros n ops q. cbv zeta. split; [apply event_kept, newest_nil|]. intros L. apply scan_answers; auto. intros x. apply event_keep_iff. Qed.
Print Assumptions C44_events.
(** *** the audit trail keeps its records in a dictionary and their order apart *)
Definition pairs (l : list audit_record) : dict audit_record := map (fun r => (a_id r, r)) l.
Definition holds (s : audit_store) (kept : list audit_record) : Prop := as_records s = pairs kept /\ as_order s = map a_id kept.
Lemma dset_fresh {V} k (v : V) d : ~ In k (dkeys d) -> dset k v d = d ++ [(k, v)].
Proof. unfold dkeys. induction d as [|[k' v'] d IH]; cbn; auto. intros N. destruct (String.eqb_spec k k'); [subst; tauto|]. rewrite IH; tauto. Qed.
Lemma keys_pairs l : dkeys (pairs l) = map a_id l.
Proof. unfold dkeys, pairs. rewrite map_map. auto. Qed.
Lemma ddel_first r l : ~ In (a_id r) (map a_id l) -> ddel (a_id r) (pairs (r :: l)) = pairs l.
Proof.
  intros N. unfold ddel. cbn. rewrite String.eqb_refl. cbn. induction l as [|x l IH]; cbn; auto. cbn in N.
  destruct (String.eqb (a_id r) (a_id x)) eqn:E; [apply String.eqb_eq in E; destruct N; left; auto|]. cbn. rewrite IH; tauto.
Qed.
Lemma trim_holds n fuel : forall s kept, holds s kept -> NoDup (map a_id kept) -> (List.length kept <= fuel)%nat -> holds (audit_trim n fuel s) (skipn (List.length kept - n) kept).
Proof.
  induction fuel as [|fuel IH]; intros s kept (R & O) N L; cbn [audit_trim].
  - destruct kept; [|cbn in L; lia]. split; cbn; auto.
  - rewrite O, map_length. destruct (Nat.ltb_spec n (List.length kept)).
    + destruct kept as [|r kept]; [cbn in H; lia|]. cbn [map]. inversion N; subst. replace (List.length (r :: kept) - n)%nat with (S (List.length kept - n)) by (cbn [List.length] in *; lia). cbn [skipn].
      apply IH; auto; [split; cbn; auto|cbn in L; lia]. rewrite R. apply ddel_first. auto.
    + replace (List.length kept - n)%nat with 0%nat by lia. split; auto.
Qed.
Lemma append_holds n s kept r : holds s kept -> NoDup (map a_id (kept ++ [r])) -> holds (audit_append n r s) (push n r kept).
Proof.
  intros (R & O) N. unfold audit_append, push. cbv zeta. rewrite map_app in N. cbn in N. apply NoDup_remove in N as N'. rewrite app_nil_r in N'. destruct N' as [N1 N2].
  assert (H : holds (MkAStore (dset (a_id r) r (as_records s)) (as_order s ++ [a_id r])) (kept ++ [r])).
  { split; cbn; [|rewrite O, map_app; auto]. rewrite R, dset_fresh by (rewrite keys_pairs; auto). unfold pairs. rewrite map_app. auto. }
  assert (L : List.length (kept ++ [r]) = (List.length kept + 1)%nat) by (rewrite app_length; auto). rewrite <- L. apply trim_holds; auto; [rewrite map_app; auto|].
  cbn [as_order]. rewrite O, !app_length, map_length. auto.
Qed.
Lemma lookup_pairs l l' : incl l' l -> NoDup (map a_id l) -> lookup_all (map a_id l') (pairs l) = Ok l'.
Proof.
  intros I N. induction l' as [|r l' IH]; cbn; auto. assert (G : dget (a_id r) (pairs l) = Some r).
  { assert (I1 : In r l) by (apply I; left; auto). clear - I1 N. induction l as [|x l IH]; [destruct I1|]. cbn in *. inversion N; subst. destruct I1 as [->|I1]; [rewrite String.eqb_refl; auto|].
    destruct (String.eqb_spec (a_id r) (a_id x)) as [E|]; auto. destruct H1. rewrite <- E. apply in_map. auto. }
  rewrite G, IH; auto. intros x H. apply I. right. auto.
Qed.
Definition ids {Q} (ops : list (bop audit_record Q)) : list string := flat_map (fun o => match o with BAppend r => [a_id r] | _ => [] end) ops.
Lemma newest_incl {A} n (l kept : list A) : newest n l kept -> incl kept l.
Proof. intros (old & -> & _) x H. apply in_or_app. auto. Qed.
Lemma newest_nodup {A B} (f : A -> B) n l kept : newest n l kept -> NoDup (map f l) -> NoDup (map f kept).
Proof. intros (old & -> & _). rewrite map_app. induction old as [|x old IH]; cbn; auto. inversion 1; auto. Qed.
Lemma NoDup_app_l {A} (l m : list A) : NoDup (l ++ m) -> NoDup l.
Proof. induction l as [|x l IH]; cbn; [constructor|]. inversion 1; subst. constructor; [rewrite in_app_iff in *; tauto|auto]. Qed.
Lemma NoDup_app_r {A} (l m : list A) : NoDup (l ++ m) -> NoDup m.
Proof. induction l as [|x l IH]; cbn; auto. inversion 1; auto. Qed.
Lemma audit_kept n ops : forall l kept s, newest n l kept -> holds s kept -> NoDup (map a_id l ++ ids ops) ->
  exists kept', newest n (appended l ops) kept' /\ holds (fst (audit_run n s ops)) kept' /\ NoDup (map a_id kept').
Proof.
  induction ops as [|[x|q|] ops IH]; intros l kept s W H N; cbn.
  - exists kept. rewrite app_nil_r in N. split; [auto|]. split; [auto|]. apply (newest_nodup a_id n l kept W N).
  - cbn in N. apply (IH (l ++ [x]) (push n x kept)); [apply push_newest; auto| |].
    + apply append_holds; auto. destruct W as (old & -> & _). rewrite !map_app in N. rewrite <- !app_assoc in N. cbn in N. apply NoDup_app_r in N. rewrite map_app. cbn.
      apply (NoDup_app_l (map a_id kept ++ [a_id x]) (ids ops)). rewrite <- app_assoc. exact N.
    + rewrite map_app, <- app_assoc. cbn. auto.
  - destruct (IH l kept s W H N) as (k' & A & B & C). exists k'. destruct (audit_run n s ops). auto.
  - apply (IH [] []); [apply newest_nil|split; auto|]. cbn. apply NoDup_app_r in N. auto.
Qed.
(** The audit trail likewise (identifiers of records being all different); asking never fails, and
    the summary counts what is held. *)
Theorem C44_audit :
  forall (n : nat) (ops : list (bop audit_record audit_query)), NoDup (ids ops) ->
    let s := fst (audit_run n (MkAStore [] []) ops) in
    exists held, newest n (appended [] ops) held /\
      (forall q, 1 <= aq_limit q -> exists r, audit_find q s = Ok r /\ answers_query (audit_matches q) (aq_limit q) held r) /\
      (exists good bad warned, audit_summary s = (List.length held, List.length good, List.length bad, List.length warned) /\
        picked (fun r => a_status r = "succeeded"%string) held good /\ picked (fun r => a_status r = "failed"%string) held bad /\ picked (fun r => a_status r = "warning"%string) held warned).
Proof.
  intros n ops N. cbv zeta. destruct (audit_kept n ops [] [] (MkAStore [] []) (newest_nil n)) as (kept & W & (R & O) & D); [split; auto|auto|].
  exists kept. split; [auto|]. split.
  - intros q L. unfold audit_find. rewrite O, R, <- map_rev. rewrite lookup_pairs; auto; [|intros x H; apply in_rev in H; auto]. eexists. split; [reflexivity|].
    apply scan_answers; auto. intros x. apply audit_keep_iff.
  - unfold audit_summary, count. rewrite R. unfold pairs. rewrite map_map. rewrite map_id. do 3 eexists. split; [reflexivity|].
    split; [apply filter_picked; intros x; apply String.eqb_eq|]. split; apply filter_picked; intros x; apply String.eqb_eq.
Qed.
Print Assumptions C44_audit.
(** queries change nothing: with or without one, contents and all other answers are the same *)
Theorem C44_queries_change_nothing :
  forall n (b : list log_entry) q pre post,
    exists r, log_run n b (pre ++ BQuery q :: post) =
      (fst (log_run n b (pre ++ post)), firstn (List.length (snd (log_run n b pre))) (snd (log_run n b (pre ++ post))) ++ r :: skipn (List.length (snd (log_run n b pre))) (snd (log_run n b (pre ++ post)))).
Proof.
  intros n b q pre. revert b. induction pre as [|[x|q'|] pre IH]; intros b post; cbn.
  - eexists. destruct (log_run n b post). reflexivity.
  - apply IH.
  - destruct (IH b post) as (r & E). exists r. rewrite E. destruct (log_run n b (pre ++ post)), (log_run n b pre). reflexivity.
  - apply IH.
Qed.
Theorem C44_audit_queries_change_nothing :
  forall n s q pre post,
    exists r, audit_run n s (pre ++ BQuery q :: post) =
      (fst (audit_run n s (pre ++ post)), firstn (List.length (snd (audit_run n s pre))) (snd (audit_run n s (pre ++ post))) ++ r :: skipn (List.length (snd (audit_run n s pre))) (snd (audit_run n s (pre ++ post)))).
Proof.
  intros n b q pre. revert b. induction pre as [|[x|q'|] pre IH]; intros b post; cbn.
  - eexists. destruct (audit_run n b post). reflexivity.
  - apply IH.
  - destruct (IH b post) as (r & E). exists r. rewrite E. destruct (audit_run n b (pre ++ post)), (audit_run n b pre). reflexivity.
  - apply IH.
Qed.
Print Assumptions C44_queries_change_nothing.

(** *** cases *)
Definition ex_log (t : Z) (m : string) : log_entry := MkLog t "INFO" m "asyncz" (Some "a"%string) None.
Definition ex_ops : list (bop log_entry log_query) := [BAppend (ex_log 1 "one"); BAppend (ex_log 2 "Two"); BAppend (ex_log 3 "three")].
Example ex_newest : fst (log_run 2 [] ex_ops) = [ex_log 2 "Two"; ex_log 3 "three"].
Proof. reflexivity. Qed.
Example ex_found : log_find (MkLQ (Some "a"%string) None (Some "info"%string) (Some " T"%string) None (Some 2) 5) (fst (log_run 2 [] ex_ops)) = [ex_log 2 "Two"].
Proof. reflexivity. Qed.
Definition ex_rec (i : string) : audit_record := MkAudit i "task_run" "failed" "task" None None "dashboard".
Example ex_audit : NoDup (ids [BAppend (ex_rec "1"); @BAppend _ audit_query (ex_rec "2")]) /\
  audit_find (MkAQ (Some " TASK_RUN"%string) None None 1) (fst (audit_run 5 (MkAStore [] []) [BAppend (ex_rec "1"); BAppend (ex_rec "2")])) = Ok [ex_rec "2"].
Proof. split; [repeat constructor; cbn; intuition discriminate|reflexivity]. Qed.
(** observation: the limit is looked at after an entry is taken, so a limit of 0 gives one entry *)
Example limit_zero_gives_one : log_find (MkLQ None None None None None None 0) [ex_log 1 "one"] = [ex_log 1 "one"].
Proof. reflexivity. Qed.
