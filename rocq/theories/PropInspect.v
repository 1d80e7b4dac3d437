(** C35: task listings are complete, filtered and stably sorted. *)
From Verif Require Import Prelude PreludeFacts MemStore CallArgs Cron Triggers Task Scheduler Text SortList Inspect.
From Coq Require Import Sorting.Sorted Sorting.Permutation.
Open Scope Z_scope.

(** *** specification *)
(** the tasks a listing is about: those waiting for a start, or those in the stores *)
Definition listed_task (s : sched) (want : option string) (t : task) : Prop :=
  if match st s with STOPPED => true | _ => false end
  then exists r b, In (t, r, b) (pend s) /\ (want = None \/ t_store t = want)
  else exists alias x, In (alias, x) (stores s) /\ (want = None \/ want = Some alias) /\ In t (ms_all (s_mem x)).
(** upper and lower case do not matter, nor do blanks around what was typed *)
Definition typed (o : option string) (v : string) : Prop := o = Some v /\ v <> ""%string.
Definition mentions (text : string) (field : string) : Prop := exists pre post, lower field = (pre ++ lower (strip text) ++ post)%string.
Definition wanted_info (q : query) (i : info) : Prop :=
  (forall x, q_state q = Some x -> lower (strip x) = state_text (i_state i)) /\
  (forall e, typed (q_exec q) e -> i_exec i = e) /\
  (forall t, typed (q_trigger q) t -> lower (strip t) = lower (i_alias i) \/ lower (strip t) = lower (i_trigger i)) /\
  (forall x, typed (q_text q) x -> exists f, In f [i_id i; i_name i; i_callable i; i_ref i; i_alias i; i_trigger i; i_descr i; i_exec i; i_store i; state_text (i_state i)] /\ mentions x f).
(** documented orders: first difference decides; paused tasks come after all run times *)
Definition text_order (f : info -> string) (a b : info) : comparison := String.compare (lower (f a)) (lower (f b)).
Definition run_order (a b : info) : comparison :=
  match i_next a, i_next b with Some x, Some y => Z.compare x y | Some _, None => Lt | None, Some _ => Gt | None, None => Eq end.
Definition state_order (a b : info) : comparison := String.compare (state_text (i_state a)) (state_text (i_state b)).
Fixpoint first_difference (l : list (info -> info -> comparison)) (a b : info) : comparison :=
  match l with [] => Eq | c :: l' => match c a b with Eq => first_difference l' a b | r => r end end.
Definition documented_orders : list (string * list (info -> info -> comparison)) :=
  [("id", [text_order i_id]); ("name", [text_order i_name; text_order i_id]); ("next_run_time", [run_order; text_order i_name; text_order i_id]);
   ("schedule_state", [state_order; run_order; text_order i_id]); ("executor", [text_order i_exec; text_order i_id]); ("store", [text_order i_store; text_order i_id]);
   ("trigger", [text_order i_alias; text_order i_id])]%string.
Definition valid_query (q : query) : Prop :=
  In (q_sort q) (map fst documented_orders) /\ forall x, q_state q = Some x -> In (lower (strip x)) ["pending"; "paused"; "scheduled"]%string.

(** *** proofs *)
Lemma get_tasks_listed s want t : In t (get_tasks want s) <-> listed_task s want t.
Proof.
  unfold get_tasks, listed_task, stopped. destruct (st s); cbn [sstate_eqb].
  - rewrite filter_In, in_map_iff. split.
    + intros ((((t' & r) & b) & E & H) & W). cbn in E. subst t'. exists r, b. split; auto. unfold task_in in W. destruct want; auto. destruct (t_store t); [|discriminate]. apply String.eqb_eq in W. subst. auto.
    + intros (r & b & H & W). split; [exists (t, r, b); auto|]. unfold task_in. destruct W as [->|W]; auto. destruct want as [w|]; auto. rewrite W. apply String.eqb_refl.
  - rewrite in_flat_map. split.
    + intros ((a, x) & H & Q). cbn in Q. destruct (wanted want a) eqn:W; [|destruct Q]. exists a, x. repeat split; auto. unfold wanted in W. destruct want; auto. apply String.eqb_eq in W. subst; auto.
    + intros (a & x & H & W & Q). exists (a, x). split; auto. cbn. destruct W as [->| ->]; cbn; auto. rewrite String.eqb_refl. auto.
  - rewrite in_flat_map. split.
    + intros ((a, x) & H & Q). cbn in Q. destruct (wanted want a) eqn:W; [|destruct Q]. exists a, x. repeat split; auto. unfold wanted in W. destruct want; auto. apply String.eqb_eq in W. subst; auto.
    + intros (a & x & H & W & Q). exists (a, x). split; auto. cbn. destruct W as [->| ->]; cbn; auto. rewrite String.eqb_refl. auto.
Qed.

Lemma parse_state_iff x y : parse_state x = Some y <-> x = state_text y.
Proof.
  unfold parse_state. destruct (String.eqb_spec x "pending") as [->|N1]; [destruct y; cbn; split; congruence|]. destruct (String.eqb_spec x "paused") as [->|N2]; [destruct y; cbn; split; congruence|].
  destruct (String.eqb_spec x "scheduled") as [->|N3]; destruct y; cbn; split; congruence.
Qed.
Lemma lower_state y : lower (state_text y) = state_text y. Proof. destruct y; reflexivity. Qed.
Lemma state_eqb_iff a b : state_eqb a b = true <-> a = b. Proof. destruct a, b; cbn; split; congruence. Qed.
Lemma given_typed o v : given o = Some v <-> typed o v.
Proof. unfold given, typed. destruct o as [s|]; [|split; [discriminate|intros [[=] _]]]. destruct (String.eqb_spec s ""); split; intros; try discriminate; [intuition congruence| |]; [inversion H; subst; auto|destruct H as [[= ->] _]; auto]. Qed.

Lemma keep_iff q x i : match q_state q with None => x = None | Some v => exists y, x = Some y /\ parse_state (lower (strip v)) = Some y end ->
  (keep_state x i && keep_exec (q_exec q) i && keep_trigger (q_trigger q) i && keep_text (q_text q) i = true <-> wanted_info q i).
Proof.
  intros X. rewrite !andb_true_iff. unfold wanted_info.
  assert (A : keep_state x i = true <-> forall v, q_state q = Some v -> lower (strip v) = state_text (i_state i)).
  { destruct (q_state q) as [v|].
    - destruct X as (y & -> & P). apply parse_state_iff in P. cbn. rewrite state_eqb_iff. split; [intros E v' [= <-]; congruence|]. intros H. specialize (H v eq_refl). rewrite P in H. destruct y, (i_state i); auto; discriminate.
    - subst x. cbn. split; auto. discriminate. }
  assert (B : keep_exec (q_exec q) i = true <-> forall e, typed (q_exec q) e -> i_exec i = e).
  { unfold keep_exec. destruct (given (q_exec q)) as [e|] eqn:G; [|split; auto; intros _ e T; apply given_typed in T; congruence]. rewrite String.eqb_eq. split; [intros E e' T; apply given_typed in T; congruence|]. intros H. apply H. apply given_typed; auto. }
  assert (C : keep_trigger (q_trigger q) i = true <-> forall t, typed (q_trigger q) t -> lower (strip t) = lower (i_alias i) \/ lower (strip t) = lower (i_trigger i)).
  { unfold keep_trigger. destruct (given (q_trigger q)) as [e|] eqn:G; [|split; auto; intros _ e T; apply given_typed in T; congruence].
    cbn zeta. rewrite orb_true_iff, !String.eqb_eq. split; [intros E e' T; apply given_typed in T; rewrite G in T; inversion T; subst; destruct E; auto|]. intros H. apply given_typed in G. destruct (H e G); auto. }
  assert (D : keep_text (q_text q) i = true <-> forall x, typed (q_text q) x -> exists f, In f [i_id i; i_name i; i_callable i; i_ref i; i_alias i; i_trigger i; i_descr i; i_exec i; i_store i; state_text (i_state i)] /\ mentions x f).
  { unfold keep_text. destruct (given (q_text q)) as [e|] eqn:G; [|split; auto; intros _ e T; apply given_typed in T; congruence].
    cbn zeta. rewrite !orb_true_iff, !contains_iff. unfold mentions. split.
    - intros H e' T. apply given_typed in T. rewrite G in T. inversion T; subst e'.
      destruct H as [[[[[[[[[H|H]|H]|H]|H]|H]|H]|H]|H]|H]; [exists (i_id i)|exists (i_name i)|exists (i_callable i)|exists (i_ref i)|exists (i_alias i)|exists (i_trigger i)|exists (i_descr i)|exists (i_exec i)|exists (i_store i)|exists (state_text (i_state i))]; cbn [In]; (split; [tauto|]); auto.
      rewrite lower_state. exact H.
    - intros H. apply given_typed in G. destruct (H e G) as (f & F & M). cbn [In] in F.
      destruct F as [<-|[<-|[<-|[<-|[<-|[<-|[<-|[<-|[<-|[<-|[]]]]]]]]]]]; rewrite ?lower_state in M; tauto. }
  rewrite A, B, C, D. tauto.
Qed.

Lemma filter_filter {A} (p q : A -> bool) l : filter p (filter q l) = filter (fun x => q x && p x) l.
Proof. induction l as [|a l IH]; cbn; auto. destruct (q a); cbn; [destruct (p a); rewrite IH; auto|auto]. Qed.

(** the comparison of keys is a total order *)
Definition good_compare {A} (c : A -> A -> comparison) : Prop :=
  (forall a, c a a = Eq) /\ (forall a b, c b a = CompOpp (c a b)) /\ (forall a b d, c a b = Lt -> c b d = Lt -> c a d = Lt) /\ (forall a b, c a b = Eq -> forall d, c a d = c b d).
Lemma string_good : good_compare String.compare.
Proof.
  split; [apply str_compare_refl|]. split; [intros; apply String.compare_antisym|]. split.
  - intros a b d H1 H2. pose proof (str_ltb_trans a b d) as T. unfold str_ltb in T. rewrite H1, H2 in T. destruct (String.compare a d); auto; discriminate T; auto.
  - intros a b E d. apply String.compare_eq_iff in E. subst. auto.
Qed.
Lemma Z_good : good_compare Z.compare.
Proof.
  split; [apply Z.compare_refl|]. split; [intros; apply Z.compare_antisym|]. split.
  - intros a b d. rewrite !Z.compare_lt_iff. lia.
  - intros a b E d. apply Z.compare_eq in E. subst; auto.
Qed.
Lemma pull_good {A B} (f : A -> B) c : good_compare c -> good_compare (fun a b => c (f a) (f b)).
Proof. intros (H1 & H2 & H3 & H4). repeat split; eauto. Qed.
Lemma run_good : good_compare run_order.
Proof.
  destruct Z_good as (H1 & H2 & H3 & H4). unfold run_order. split; [|split; [|split]].
  - intros a. destruct (i_next a); auto.
  - intros a b. destruct (i_next a), (i_next b); auto.
  - intros a b d. destruct (i_next a), (i_next b), (i_next d); eauto; discriminate.
  - intros a b E d. destruct (i_next a), (i_next b), (i_next d); eauto; discriminate.
Qed.
Lemma chain_good l : (forall c, In c l -> good_compare c) -> good_compare (first_difference l).
Proof.
  induction l as [|c l IH]; intros H; [repeat split; intros; cbn in *; auto; discriminate|].
  destruct (H c (or_introl eq_refl)) as (H1 & H2 & H3 & H4). destruct IH as (I1 & I2 & I3 & I4); [intros; apply H; right; auto|]. cbn. split; [|split; [|split]].
  - intros a. rewrite H1. auto.
  - intros a b. rewrite H2. destruct (c a b); cbn; auto.
  - intros a b d. destruct (c a b) eqn:E1; [| |discriminate].
    + rewrite (H4 a b E1 d). destruct (c b d); eauto.
    + intros _. destruct (c b d) eqn:E2; [|rewrite (H3 a b d); auto|discriminate]. intros _. assert (E : c d a = c b a). { symmetry. apply H4. auto. }
      rewrite H2 in E. rewrite (H2 a b), E1 in E. destruct (c a d); try discriminate; auto.
  - intros a b E d. destruct (c a b) eqn:E1; [|discriminate|discriminate]. rewrite (H4 a b E1 d). destruct (c b d); auto.
Qed.
Lemma orders_good by_ l : In (by_, l) documented_orders -> good_compare (first_difference l).
Proof.
  intros H. apply chain_good. intros c C. cbn in H.
  assert (T : forall f, good_compare (text_order f)) by (intros f; apply (pull_good (fun i => lower (f i)) String.compare string_good)).
  assert (S : good_compare state_order) by (apply (pull_good (fun i => state_text (i_state i)) String.compare string_good)).
  pose proof run_good.
  repeat match goal with H : (_, _) = (_, _) \/ _ |- _ => destruct H as [[= <- <-]|H] end; cbn in C; intuition (subst; auto).
Qed.
(** the keys of the code express the documented orders *)
Definition le_of (c : comparison) : bool := match c with Gt => false | _ => true end.
Lemma snapshot_alias descr t : i_alias (snapshot descr t) <> ""%string.
Proof. destruct t as [? ? tr]. destruct tr; discriminate. Qed.
Lemma sorter_order by_ : 
  match sorter by_ with
  | Some key => exists l, In (by_, l) documented_orders /\ forall a b, i_alias a <> ""%string -> i_alias b <> ""%string -> tuple_le (key a) (key b) = le_of (first_difference l a b)
  | None => ~ In by_ (map fst documented_orders)
  end.
Proof.
  assert (RUN : forall a b x y, tuple_le (run_key a ++ x) (run_key b ++ y) = match run_order a b with Lt => true | Eq => tuple_le x y | Gt => false end).
  { intros a b x y. unfold run_key, run_order. cbn. destruct (i_next a) as [ta|], (i_next b) as [tb|]; auto. }
  assert (RUN' : forall z a b x y, tuple_le (z a :: run_key a ++ x) (z b :: run_key b ++ y) = match kcompare (z a) (z b) with Lt => true | Gt => false | Eq => match run_order a b with Lt => true | Eq => tuple_le x y | Gt => false end end).
  { intros z a b x y. cbn [tuple_le]. rewrite RUN. auto. }
  unfold sorter. unfold documented_orders.
  destruct (String.eqb_spec by_ "id") as [->|N1]; [eexists; split; [cbn; eauto|]; intros a b _ _; cbn; unfold text_order; destruct (String.compare _ _); auto|].
  destruct (String.eqb_spec by_ "name") as [->|N2]; [eexists; split; [cbn; eauto|]; intros a b _ _; cbn; unfold text_order; destruct (String.compare _ _); auto; destruct (String.compare _ _); auto|].
  destruct (String.eqb_spec by_ "next_run_time") as [->|N3]; [eexists; split; [cbn; eauto 8|]; intros a b _ _; rewrite RUN; cbn; unfold text_order; destruct (run_order a b); auto; destruct (String.compare _ _); auto; destruct (String.compare _ _); auto|].
  destruct (String.eqb_spec by_ "schedule_state") as [->|N4]; [eexists; split; [cbn; eauto 8|]; intros a b _ _; rewrite (RUN' (fun i => KText (state_text (i_state i)))); cbn; unfold text_order, state_order; destruct (String.compare _ _); auto; destruct (run_order a b); auto; destruct (String.compare _ _); auto|].
  destruct (String.eqb_spec by_ "executor") as [->|N5]; [eexists; split; [cbn; eauto 8|]; intros a b _ _; cbn; unfold text_order; destruct (String.compare _ _); auto; destruct (String.compare _ _); auto|].
  destruct (String.eqb_spec by_ "store") as [->|N6]; [eexists; split; [cbn; eauto 9|]; intros a b _ _; cbn; unfold text_order; destruct (String.compare _ _); auto; destruct (String.compare _ _); auto|].
  destruct (String.eqb_spec by_ "trigger") as [->|N7].
  { eexists; split; [cbn; eauto 10|]; intros a b Na Nb; cbn. destruct (String.eqb_spec (i_alias a) ""); [contradiction|]. destruct (String.eqb_spec (i_alias b) ""); [contradiction|]. unfold text_order. destruct (String.compare _ _); auto; destruct (String.compare _ _); auto. }
  cbn. intuition congruence.
Qed.

Lemma isort_ext {A} (p q : A -> A -> bool) l : (forall a b, In a l -> In b l -> p a b = q a b) -> isort p l = isort q l.
Proof.
  induction l as [|x l IH]; intros H; auto. change (ins p x (isort p l) = ins q x (isort q l)). rewrite IH by (intros; apply H; cbn; auto).
  assert (K : forall m, (forall y, In y m -> In y l) -> ins p x m = ins q x m).
  { induction m as [|y m IHm]; cbn; intros Hm; auto. rewrite (H x y) by (cbn; auto). destruct (q x y); auto. rewrite IHm; auto. }
  apply K. intros y Hy. apply (Permutation_in y (isort_perm q l)). exact Hy.
Qed.

Lemma infos_run descr q s : valid_query q -> exists l infos,
  In (q_sort q, l) documented_orders /\ get_task_infos descr q s = Ok (isort (fun a b => le_of (if q_desc q then first_difference l b a else first_difference l a b)) infos) /\
  (exists p, infos = filter p (map (snapshot descr) (get_tasks (q_store q) s)) /\ forall i, p i = true <-> wanted_info q i).
Proof.
  intros [VS VX]. pose proof (sorter_order (q_sort q)) as SO. destruct (sorter (q_sort q)) as [key|] eqn:K; [|contradiction].
  destruct SO as (l & L & SO).
  assert (X : exists x, match q_state q with None => x = None | Some v => exists y, x = Some y /\ parse_state (lower (strip v)) = Some y end).
  { destruct (q_state q) as [v|]; [|eauto]. specialize (VX v eq_refl).
    assert (exists y, parse_state (lower (strip v)) = Some y) as (y & E); [|eauto]. destruct VX as [<-|[<-|[<-|[]]]]; [exists PENDING|exists PAUSED_T|exists SCHEDULED]; reflexivity. }
  destruct X as (x & X).
  exists l, (filter (fun i => keep_state x i && keep_exec (q_exec q) i && keep_trigger (q_trigger q) i && keep_text (q_text q) i) (map (snapshot descr) (get_tasks (q_store q) s))).
  split; auto. split; [|eexists; split; [reflexivity|]; intros i; apply keep_iff; auto].
  unfold get_task_infos. replace (match q_state q with None => Ok None | Some v => match parse_state (lower (strip v)) with Some y => Ok (Some y) | None => Err ValueError end end) with (Ok (A := option schedule_state) x)
    by (destruct (q_state q); [destruct X as (y & -> & ->); auto|subst; auto]). rewrite K, !filter_filter. f_equal.
  assert (AL : forall i, In i (filter (fun i => keep_state x i && keep_exec (q_exec q) i && keep_trigger (q_trigger q) i && keep_text (q_text q) i) (map (snapshot descr) (get_tasks (q_store q) s))) -> i_alias i <> ""%string).
  { intros i H. apply filter_In in H as [H _]. apply in_map_iff in H as (t & <- & _). apply snapshot_alias. }
  match goal with |- isort _ (filter ?f ?m) = isort _ (filter ?g _) => rewrite (filter_ext f g) by (intros a; rewrite !andb_assoc; auto) end.
  apply isort_ext. intros a b Ha Hb. destruct (q_desc q); apply SO; auto.
Qed.

(** The listing contains exactly the tasks it is about that satisfy every filter, each once ... *)
Theorem C35_complete_and_filtered :
  forall (descr : trigger -> string) (q : query) (s : sched), valid_query q ->
    exists l, get_task_infos descr q s = Ok l /\
      (forall i, In i l <-> wanted_info q i /\ exists t, listed_task s (q_store q) t /\ i = snapshot descr t) /\
      exists p, (forall i, p i = true <-> wanted_info q i) /\ Permutation l (filter p (map (snapshot descr) (get_tasks (q_store q) s))).
Proof.
  intros descr q s V. destruct (infos_run descr q s V) as (l & infos & L & E & p & -> & P). eexists. split; [exact E|].
  assert (PM := isort_perm (fun a b => le_of (if q_desc q then first_difference l b a else first_difference l a b)) (filter p (map (snapshot descr) (get_tasks (q_store q) s)))).
  split; [|exists p; auto]. intros i. split.
  - intros H. apply (Permutation_in i PM) in H. apply filter_In in H as [H1 H2]. apply P in H2. split; auto. apply in_map_iff in H1 as (t & <- & T). exists t. split; auto. apply get_tasks_listed. auto.
  - intros (W & t & T & ->). apply (Permutation_in _ (Permutation_sym PM)). apply filter_In. split; [apply in_map; apply get_tasks_listed; auto|apply P; auto].
Qed.
Print Assumptions C35_complete_and_filtered.

(** ... sorted in the documented order of the requested field (reversed if asked for) ... *)
Theorem C35_sorted :
  forall (descr : trigger -> string) (q : query) (s : sched) (l : list info), valid_query q -> get_task_infos descr q s = Ok l ->
    exists orders, In (q_sort q, orders) documented_orders /\
      StronglySorted (fun a b => first_difference orders (if q_desc q then b else a) (if q_desc q then a else b) <> Gt) l.
Proof.
  intros descr q s l V H. destruct (infos_run descr q s V) as (o & infos & L & E & _). exists o. split; auto. rewrite E in H. inversion H as [H0]. clear H H0 l.
  destruct (orders_good _ _ L) as (G1 & G2 & G3 & G4).
  pose (le := fun a b => le_of (first_difference o a b)).
  assert (TOT : forall a b, le a b = true \/ le b a = true). { intros a b. unfold le. rewrite (G2 a b). destruct (first_difference o a b); cbn; auto. }
  assert (TR : forall a b c, le a b = true -> le b c = true -> le a c = true).
  { intros a b c. unfold le. destruct (first_difference o a b) eqn:E1; cbn; [|destruct (first_difference o b c) eqn:E2; cbn|discriminate].
    - rewrite (G4 a b E1 c). auto.
    - intros _ _. assert (Q : first_difference o c a = first_difference o b a) by (symmetry; apply G4; auto). rewrite (G2 a b), E1, (G2 a c) in Q. destruct (first_difference o a c); auto; discriminate.
    - intros _ _. rewrite (G3 a b c); auto.
    - discriminate. }
  destruct (q_desc q).
  - assert (SS := isort_sorted (fun a b => le b a) (fun a b => TOT b a) (fun a b c H1 H2 => TR c b a H2 H1) infos). unfold le in SS.
    clear -SS. induction SS as [|x l SS IH F]; constructor; auto. apply Forall_impl with (2 := F). intros y. cbn. destruct (first_difference o y x); cbn; congruence.
  - assert (SS := isort_sorted le TOT TR infos). unfold le in SS.
    clear -SS. induction SS as [|x l SS IH F]; constructor; auto. apply Forall_impl with (2 := F). intros y. cbn. destruct (first_difference o x y); cbn; congruence.
Qed.
Print Assumptions C35_sorted.

(** ... and stably: tasks that the requested order does not distinguish keep the order in which the stores
    (or the pending queue) list them, also when reversed. *)
Theorem C35_stable :
  forall (descr : trigger -> string) (q : query) (s : sched) (l : list info) orders (i : info), valid_query q -> get_task_infos descr q s = Ok l ->
    In (q_sort q, orders) documented_orders ->
    let same := fun j => match first_difference orders i j with Eq => true | _ => false end in
    exists p, (forall j, p j = true <-> wanted_info q j) /\
      filter same l = filter same (filter p (map (snapshot descr) (get_tasks (q_store q) s))).
Proof.
  intros descr q s l o i V H L same. destruct (infos_run descr q s V) as (o' & infos & L' & E & p & EI & P).
  assert (o' = o). { clear -L L'. cbn in L, L'. repeat match goal with H : (_, _) = (_, _) \/ _ |- _ => destruct H as [[= ? ?]|H] end; try contradiction; congruence. } subst o'.
  rewrite E in H. inversion H as [H0]. clear H H0 l. exists p. split; auto. rewrite <- EI. apply isort_stable.
  destruct (orders_good _ _ L) as (G1 & G2 & G3 & G4). unfold same. intros x y Hx Hy.
  destruct (first_difference o i x) eqn:E1; try discriminate. destruct (first_difference o i y) eqn:E2; try discriminate.
  assert (Q : first_difference o x y = Eq) by (rewrite <- (G4 i x E1 y); auto). destruct (q_desc q); [rewrite (G2 x y)|]; rewrite Q; auto.
Qed.
Print Assumptions C35_stable.

Lemma split_on_plain f : (forall a b, f <> (a ++ ":" ++ b)%string) -> split_on ":" f = [f].
Proof.
  induction f as [|c f IH]; intros N; [reflexivity|]. cbn. destruct (Ascii.eqb_spec c ":") as [->|].
  - exfalso. apply (N ""%string f). reflexivity.
  - rewrite IH; [reflexivity|]. intros a b ->. apply (N (String c a) b). reflexivity.
Qed.
Lemma last_after_colon m f d : (forall a b, f <> (a ++ ":" ++ b)%string) -> last (split_on ":" (m ++ ":" ++ f)) d = f.
Proof.
  intros N. induction m as [|c m IH].
  - cbn [append]. change (split_on ":" (String ":" f)) with (""%string :: split_on ":" f). rewrite (split_on_plain f N). reflexivity.
  - change (String c m ++ ":" ++ f)%string with (String c (m ++ ":" ++ f)). cbn [split_on]. destruct (Ascii.eqb c ":").
    + pose proof (split_on_nonempty ":" (m ++ ":" ++ f)). destruct (split_on ":" (m ++ ":" ++ f)) as [|w l] eqn:E; [congruence|]. exact IH.
    + assert (L : (2 <= List.length (split_on ":" (m ++ ":" ++ f)))%nat).
      { clear. change (":" ++ f)%string with (String ":" f). induction m as [|c m IH]; cbn [append split_on].
        - rewrite Ascii.eqb_refl. cbn [List.length]. pose proof (split_on_nonempty ":" f). destruct (split_on ":" f); [congruence|cbn; lia].
        - destruct (Ascii.eqb c ":"); [cbn [List.length]; lia|]. destruct (split_on ":" (m ++ String ":" f)); cbn [List.length] in *; lia. }
      destruct (split_on ":" (m ++ ":" ++ f)) as [|w [|w2 l]]; cbn in L; try lia. exact IH.
Qed.
(** what a snapshot shows of its task: its own identity, placement, state and next run time *)
Definition shows (o : option string) (v : string) : Prop := (forall x, o = Some x -> v = x) /\ (o = None -> v = ""%string).
Theorem C35_snapshot_describes_the_task :
  forall (descr : trigger -> string) (t : task),
    let i := snapshot descr t in
    i_id i = t_id t /\ i_name i = t_name t /\ shows (t_exec t) (i_exec i) /\ shows (t_store t) (i_store i) /\
    shows (t_ref t) (i_ref i) /\ i_descr i = descr (t_trigger t) /\ i_next i = t_next t /\ i_submitted i = t_submitted t /\
    In (i_alias i, i_trigger i) [("date", "DateTrigger"); ("interval", "IntervalTrigger"); ("cron", "CronTrigger"); ("and", "AndTrigger"); ("or", "OrTrigger"); ("shutdown", "ShutdownTrigger")]%string /\
    (i_state i = PENDING <-> t_pending t = true) /\ (i_state i = PAUSED_T <-> t_pending t = false /\ t_next t = None) /\
    (forall c, t_fn t = Some c -> i_callable i = c_name c) /\
    (forall m f, t_fn t = None -> t_ref t = Some (m ++ ":" ++ f)%string -> (forall a b, f <> (a ++ ":" ++ b)%string) -> i_callable i = f).
Proof.
  intros descr t. cbn zeta. unfold snapshot. cbn [i_id i_name i_exec i_store i_ref i_descr i_next i_submitted i_alias i_trigger i_state i_callable].
  assert (S : forall o, shows o (or_empty o)) by (intros [x|]; split; cbn; congruence).
  repeat match goal with |- _ /\ _ => split end; auto.
  - destruct (t_trigger t); cbn; tauto.
  - unfold state_of. destruct (t_pending t), (t_next t); split; intros; congruence.
  - unfold state_of. destruct (t_pending t), (t_next t); split; intros; try tauto; try discriminate; destruct H; congruence.
  - intros c ->. reflexivity.
  - intros m f -> -> N. rewrite last_after_colon; auto.
Qed.
Print Assumptions C35_snapshot_describes_the_task.

(** a state or sort field that does not exist is a ValueError *)
Theorem C35_invalid_queries :
  forall (descr : trigger -> string) (q : query) (s : sched), ~ valid_query q -> get_task_infos descr q s = Err ValueError.
Proof.
  intros descr q s NV. unfold get_task_infos. pose proof (sorter_order (q_sort q)) as SO.
  assert (D : sorter (q_sort q) = None \/ exists x, q_state q = Some x /\ parse_state (lower (strip x)) = None).
  { destruct (sorter (q_sort q)) as [key|]; auto. right. destruct SO as (l & L & _).
    destruct (q_state q) as [x|] eqn:Q; [|destruct NV; split; [apply in_map_iff; exists (q_sort q, l); auto|rewrite Q; discriminate]].
    exists x. split; auto. destruct (parse_state (lower (strip x))) as [y|] eqn:P; auto. destruct NV. split; [apply in_map_iff; exists (q_sort q, l); auto|].
    intros x' E. rewrite Q in E. inversion E; subst x'. apply parse_state_iff in P. rewrite P. destruct y; cbn; auto. }
  destruct D as [->|(x & -> & ->)]; auto. destruct (q_state q) as [x|]; auto. destruct (parse_state (lower (strip x))); auto.
Qed.
Print Assumptions C35_invalid_queries.

(** get_scheduler_info: the three state counts add up to the number of tasks, which is the number of
    tasks listed; the aliases are those registered, in alphabetical order. *)
Theorem C35_counts_add_up :
  forall (descr : trigger -> string) (s : sched),
    exists r, get_scheduler_info descr s = Ok r /\
      n_tasks r = List.length (get_tasks None s) /\ (n_scheduled r + n_paused r + n_pending r = n_tasks r)%nat /\
      (n_scheduled r = List.length (filter (fun t => negb (t_pending t) && match t_next t with Some _ => true | None => false end) (get_tasks None s))) /\
      (n_paused r = List.length (filter (fun t => negb (t_pending t) && match t_next t with Some _ => false | None => true end) (get_tasks None s))) /\
      (n_submitted r = List.length (filter t_submitted (get_tasks None s))) /\
      Permutation (executor_aliases r) (dkeys (execs s)) /\ Permutation (store_aliases r) (dkeys (stores s)) /\
      StronglySorted (fun a b => str_ltb b a = false) (executor_aliases r) /\ StronglySorted (fun a b => str_ltb b a = false) (store_aliases r).
Proof.
  intros descr s. unfold get_scheduler_info. pose (q := MkQuery None None None None None "next_run_time" false).
  assert (V : valid_query q) by (split; [cbn; tauto|discriminate]).
  destruct (infos_run descr q s V) as (o & infos & L & E & p & EI & P). unfold q in E. rewrite E. eexists. split; [reflexivity|]. cbn [n_tasks n_scheduled n_paused n_pending n_submitted executor_aliases store_aliases].
  assert (EI' : infos = map (snapshot descr) (get_tasks None s)).
  { rewrite EI. cbn [q_store q]. assert (A : forall i, p i = true). { intros i. apply P. cbn. unfold wanted_info, typed; cbn. repeat split; intros; try discriminate; destruct H; discriminate. }
    clear -A. induction (map (snapshot descr) (get_tasks None s)) as [|i l IH]; cbn; auto. rewrite A, IH. auto. }
  set (srt := isort _ infos). assert (PM : Permutation srt (map (snapshot descr) (get_tasks None s))) by (rewrite <- EI'; apply isort_perm).
  assert (CNT : forall f, List.length (filter f srt) = List.length (filter (fun t => f (snapshot descr t)) (get_tasks None s))).
  { intros f. assert (Q : Permutation (filter f srt) (filter f (map (snapshot descr) (get_tasks None s)))).
    { clear -PM. induction PM; cbn; auto; [destruct (f x); auto|destruct (f x), (f y); auto; apply perm_swap|eapply perm_trans; eauto]. }
    rewrite (Permutation_length Q). clear. induction (get_tasks None s) as [|t l IH]; cbn; auto. destruct (f (snapshot descr t)); cbn; auto. }
  assert (LEN : List.length srt = List.length (get_tasks None s)) by (rewrite (Permutation_length PM); apply map_length).
  assert (SUM : forall l, (List.length (filter (fun t => state_eqb (state_of t) SCHEDULED) l) + List.length (filter (fun t => state_eqb (state_of t) PAUSED_T) l) + List.length (filter (fun t => state_eqb (state_of t) PENDING) l) = List.length l)%nat).
  { induction l as [|t l IH]; cbn; auto. destruct (state_of t); cbn; lia. }
  assert (EXT : forall f g, (forall t, f t = g t) -> List.length (filter f (get_tasks None s)) = List.length (filter g (get_tasks None s))).
  { intros f g H. rewrite (filter_ext f g H). auto. }
  split; [exact LEN|]. split; [rewrite LEN, !CNT; apply (SUM (get_tasks None s))|].
  split; [rewrite CNT; apply EXT; intros t; cbn; unfold state_of; destruct (t_pending t), (t_next t); auto|].
  split; [rewrite CNT; apply EXT; intros t; cbn; unfold state_of; destruct (t_pending t), (t_next t); auto|].
  split; [rewrite CNT; reflexivity|].
  assert (SL : forall l, StronglySorted (fun a b => str_ltb b a = false) (isort str_leb l)).
  { intros l. assert (SS := isort_sorted str_leb). assert (TO : forall a b, str_leb a b = true \/ str_leb b a = true).
    { intros a b. unfold str_leb. destruct (str_ltb b a) eqn:E1; auto. right. destruct (str_ltb a b) eqn:E2; auto. pose proof (str_ltb_trans a b a E2 E1) as Q. rewrite str_ltb_irrefl in Q. discriminate. }
    specialize (SS TO).
    assert (TR : forall a b c, str_leb a b = true -> str_leb b c = true -> str_leb a c = true).
    { intros a b c. unfold str_leb. rewrite !negb_true_iff. intros H1 H2. destruct (str_ltb c a) eqn:H3; auto. destruct (str_ltb_total a b) as [H|[H|H]]; [|subst; congruence|congruence]. rewrite (str_ltb_trans c a b) in H2; auto. }
    specialize (SS TR l). clear -SS. induction SS as [|x l' SS IH F]; constructor; auto. apply Forall_impl with (2 := F). intros y. unfold str_leb. rewrite negb_true_iff. auto. }
  repeat split; try apply isort_perm; apply SL.
Qed.
Print Assumptions C35_counts_add_up.

Example C35_case : (* three pending tasks; the listing asked for keeps two, latest first *)
  let mk := fun id nm next ex => MkTask id nm (TDate 5) next (Some ex) (Some "default"%string) None true 1 None (Some "pkg.mod:work"%string) (VList []) (VDict []) None true false in
  let s := w_pend [(mk "b" "Beta" (Some 7) "default", false, true); (mk "a" "alpha" None "default", false, true); (mk "c" "" (Some 3) "pool", false, true)]%string sched_init in
  let q := (MkQuery None (Some " Pending ") (Some "default") (Some "DATE") (Some "a") "next_run_time" true)%string in
  valid_query q /\ option_map (map i_id) (match get_task_infos (fun _ => ""%string) q s with Ok l => Some l | _ => None end) = Some ["a"; "b"]%string.
Proof. cbn zeta. split; [split; [cbn; tauto|intros x [= <-]; vm_compute; auto]|]. vm_compute. reflexivity. Qed.
