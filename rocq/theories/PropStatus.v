(** C92: what doctor, status, instances and the runtime page say. *)
From Verif Require Import Prelude PreludeFacts MemStore StoreSpec MemStoreProofs CallArgs Cron Triggers Task TaskSpec Scheduler Executor SchedSpec SchedProofs SchedProofs2 SchedReach LifeSpec LifeAcc LifeAll LifeProofs LifeProofs2 PropSched PropLife PropLife2 Text SortList Inspect PropInspect Status Timeline PropTimeline.
From Coq Require Import Sorting.Sorted Sorting.Permutation.
Open Scope Z_scope.
Ltac sp := repeat match goal with |- _ /\ _ => split end.

(** *** specification *)
(** the scheduler was started by this call and has not been stopped since *)
Definition started_by (c : config) (l : list (envir * op)) (now : Z) : Prop :=
  exists l1 e paused l2, l = l1 ++ (e, OStart paused) :: l2 /\ e_now e = now /\ st (run_ops c l1 sched_init) = STOPPED /\
    forall k k', l2 = k ++ k' -> st (run_ops c (l1 ++ (e, OStart paused) :: k) sched_init) <> STOPPED.
(** the label under which a task is counted: no alias and the empty one count as "default" *)
Definition label (o : option string) : string := match o with Some a => or_default a | None => "default"%string end.
Definition labelled (f : task -> option string) (a : string) (ts : list task) (n : nat) : Prop :=
  exists sel, Permutation sel (filter (fun t => String.eqb a (label (f t))) ts) /\ n = List.length sel.

(** *** proofs *)
Lemma clock_app c l1 l2 s a : clock c (l1 ++ l2) s a = (let (s1, a1) := clock c l1 s a in clock c l2 s1 a1).
Proof. revert s a. induction l1 as [|[e o] l1 IH]; intros s a; cbn; auto. Qed.
Lemma clock_run c l s a : fst (clock c l s a) = run_ops c l s.
Proof. revert s a. induction l as [|[e o] l IH]; intros s a; cbn; auto. Qed.
Lemma leaves_stopped c e o s : wf s -> st s = STOPPED -> st (step c e o s) <> STOPPED -> exists p, o = OStart p.
Proof.
  intros W S N. destruct (Z.eq_dec (delta o) 0) as [D|D].
  - destruct (life_other c e o s W D) as [_ L]. tauto.
  - destruct o; try (exfalso; apply D; reflexivity); [eauto|]. exfalso. apply N. cbn [step]. unfold shutdown. unfold stopped. cbn.
    destruct (refc s - 1 >? 0); cbn; auto. rewrite S. cbn. auto.
Qed.
Theorem C92_started_at :
  forall (c : config) (l : list (envir * op)) (s : sched) (started : option Z),
    clock c l sched_init None = (s, started) ->
    (running s = true -> exists now, started = Some now /\ started_by c l now) /\ (running s = false -> started = None).
Proof.
  intros c l. induction l as [|[e o] l IH] using rev_ind; intros s a H.
  - injection H as <- <-. split; [discriminate|auto].
  - rewrite clock_app in H. destruct (clock c l sched_init None) as [s1 a1] eqn:E. cbn in H. injection H as <- <-.
    destruct (IH _ _ eq_refl) as [I1 I2]. assert (E1 : s1 = run_ops c l sched_init) by (rewrite <- (clock_run c l sched_init None), E; auto).
    assert (W : wf s1) by (rewrite E1; apply (reachable_wf c); exists l; auto). unfold running, stopped in *. unfold started_after.
    assert (EXT : st s1 <> STOPPED -> st (step c e o s1) <> STOPPED -> forall now, started_by c l now -> started_by c (l ++ [(e, o)]) now).
    { intros N1 N2 now (l1 & e0 & p & l2 & -> & B & C & D). exists l1, e0, p, (l2 ++ [(e, o)]). rewrite <- app_assoc. sp; auto. intros k k' K.
      destruct k' as [|x k'] using rev_ind.
      - rewrite app_nil_r in K. subst k. replace (l1 ++ (e0, OStart p) :: l2 ++ [(e, o)]) with ((l1 ++ (e0, OStart p) :: l2) ++ [(e, o)]) by (rewrite <- app_assoc; auto). rewrite run_ops_app, <- E1. exact N2.
      - rewrite app_assoc in K. apply app_inj_tail in K. destruct K as [K _]. eapply D. exact K. }
    destruct (st s1) eqn:S1.
    + destruct (st (step c e o s1)) eqn:S2; cbn in *; (split; [|auto]); try discriminate; intros _; exists (e_now e); (split; [auto|]);
        destruct (leaves_stopped c e o s1 W S1 ltac:(rewrite S2; discriminate)) as [p ->]; exists l, e, p, []; rewrite <- E1; sp; auto; intros k k' K;
        destruct k; try discriminate; rewrite run_ops_app, <- E1; cbn [run_ops]; rewrite S2; discriminate.
    + destruct (st (step c e o s1)) eqn:S2; cbn in *; (split; [|auto]); try discriminate; intros _; destruct (I1 eq_refl) as (now & -> & B); exists now; split; auto; apply EXT; auto; discriminate.
    + destruct (st (step c e o s1)) eqn:S2; cbn in *; (split; [|auto]); try discriminate; intros _; destruct (I1 eq_refl) as (now & -> & B); exists now; split; auto; apply EXT; auto; discriminate.
Qed.
Print Assumptions C92_started_at.
(** health: failed without stores or executors, else a warning while stopped, else ok; ready means ok, and --strict
    fails exactly when it is not *)
Theorem C92_doctor :
  forall (descr : trigger -> string) (c : config) (l : list (envir * op)) (s : sched) (started : option Z),
    clock c l sched_init None = (s, started) ->
    exists h ready, doctor descr s started = Ok (h, ready) /\
      (h = HFailed <-> stores s = [] \/ execs s = []) /\
      (h = HWarning <-> stores s <> [] /\ execs s <> [] /\ st s = STOPPED) /\
      (h = HOk <-> stores s <> [] /\ execs s <> [] /\ st s <> STOPPED) /\
      (ready = true <-> h = HOk) /\ (strict_fails h = true <-> ready = false) /\
      instance s = (running s, negb (running s)).
Proof.
  intros descr c l s at_ E. destruct (C92_started_at c l s at_ E) as [A1 A2]. destruct (C35_counts_add_up descr s) as (i & Ei & _ & _ & _ & _ & _ & P1 & P2 & _).
  unfold doctor. rewrite Ei. do 2 eexists. split; [reflexivity|].
  assert (Q1 : executor_aliases i = [] <-> execs s = []).
  { split; intros Z; rewrite Z in P1; [apply Permutation_nil in P1; destruct (execs s); [auto|discriminate]|cbn in P1; symmetry in P1; apply Permutation_nil in P1; auto]. }
  assert (Q2 : store_aliases i = [] <-> stores s = []).
  { split; intros Z; rewrite Z in P2; [apply Permutation_nil in P2; destruct (stores s); [auto|discriminate]|cbn in P2; symmetry in P2; apply Permutation_nil in P2; auto]. }
  assert (IN : instance s = (running s, negb (running s))) by (unfold instance; destruct (running s); reflexivity). rewrite IN.
  unfold checks, health_of, is_h, running, stopped in *. cbn [existsb snd]. clear Ei IN E.
  assert (Q3 : match store_aliases i with [] => stores s = [] | _ => stores s <> [] end) by (destruct (store_aliases i); [tauto|intros Z; apply Q2 in Z; discriminate]).
  assert (Q4 : match executor_aliases i with [] => execs s = [] | _ => execs s <> [] end) by (destruct (executor_aliases i); [tauto|intros Z; apply Q1 in Z; discriminate]).
  clear Q1 Q2 P1 P2.
  destruct (store_aliases i) as [|a1 r1], (executor_aliases i) as [|a2 r2], (st s) eqn:S; cbn in *;
    try (destruct (A1 eq_refl) as (now & -> & _)); cbn; sp; try reflexivity; split; intros; sp; auto; try discriminate; try tauto; intuition congruence.
Qed.
Print Assumptions C92_doctor.
(** the checks in the report, and when each of them is what *)
Theorem C92_checks :
  forall (descr : trigger -> string) (c : config) (l : list (envir * op)) (s : sched) (started : option Z) (i : sinfo),
    clock c l sched_init None = (s, started) -> get_scheduler_info descr s = Ok i ->
    exists running_ stores_ executors_ inventory_ clock_,
      checks s i (if running s then started else None) =
        [("scheduler_running", running_); ("stores_registered", stores_); ("executors_registered", executors_);
         ("task_inventory", inventory_); ("lifecycle_clock", clock_)]%string /\
      running_ = (if running s then HOk else HWarning) /\ clock_ = (if running s then HOk else HWarning) /\ inventory_ = HOk /\
      (stores_ = HFailed <-> stores s = []) /\ (stores_ = HOk <-> stores s <> []) /\
      (executors_ = HFailed <-> execs s = []) /\ (executors_ = HOk <-> execs s <> []).
Proof.
  intros descr c l s at_ i E Hi. destruct (C92_started_at c l s at_ E) as [A1 A2]. destruct (C35_counts_add_up descr s) as (i' & Ei & _ & _ & _ & _ & _ & P1 & P2 & _).
  rewrite Hi in Ei. injection Ei as <-.
  assert (Q1 : executor_aliases i = [] <-> execs s = []).
  { split; intros Z; rewrite Z in P1; [apply Permutation_nil in P1; destruct (execs s); [auto|discriminate]|cbn in P1; symmetry in P1; apply Permutation_nil in P1; auto]. }
  assert (Q2 : store_aliases i = [] <-> stores s = []).
  { split; intros Z; rewrite Z in P2; [apply Permutation_nil in P2; destruct (stores s); [auto|discriminate]|cbn in P2; symmetry in P2; apply Permutation_nil in P2; auto]. }
  do 5 eexists. split; [reflexivity|]. split; [reflexivity|]. split.
  { destruct (running s); auto. destruct (A1 eq_refl) as (n & -> & _). auto. }
  split; [reflexivity|]. clear E Hi A1 A2.
  destruct (store_aliases i), (executor_aliases i); sp; split; intros X; try discriminate; try tauto; try (intros Y; apply Q1 in Y; discriminate); try (intros Y; apply Q2 in Y; discriminate);
    try (apply Q1 in X; discriminate); try (apply Q2 in X; discriminate).
Qed.
Print Assumptions C92_checks.
(** right after a start that succeeded the scheduler is ready *)
Theorem C92_ready_after_start :
  forall (descr : trigger -> string) (c : config) (e : envir) (paused : bool) (s s' : sched),
    reachable c s -> start c e paused s = (s', Ok true) -> doctor descr s' (Some (e_now e)) = Ok (HOk, true).
Proof.
  intros descr c e p s s' R H. pose proof (start_spec _ _ _ _ _ _ (reachable_wf _ _ R) H) as SP. destruct (refc s + 1 >? 1); [destruct SP; discriminate|].
  destruct (negb (stopped s)); [destruct SP; discriminate|]. destruct SP as (_ & _ & _ & _ & X1 & X2 & _ & _ & X3 & _).
  assert (N1 : execs s' <> []). { intros Z. specialize (X1 "default"%string). rewrite Z in X1. destruct (dget "default"%string (execs s)); discriminate. }
  assert (N2 : stores s' <> []). { intros Z. destruct (proj2 (X2 "default"%string) (or_intror eq_refl)) as [x X]. rewrite Z in X. discriminate. }
  destruct (C35_counts_add_up descr s') as (i & Ei & _ & _ & _ & _ & _ & P1 & P2 & _). unfold doctor. rewrite Ei.
  assert (running s' = true) as RU by (unfold running, stopped; rewrite X3; destruct p; reflexivity). rewrite RU. unfold checks, health_of. rewrite RU.
  destruct (store_aliases i) as [|a1 r1]; [apply Permutation_nil in P2; destruct (stores s'); [congruence|discriminate]|].
  destruct (executor_aliases i) as [|a2 r2]; [apply Permutation_nil in P1; destruct (execs s'); [congruence|discriminate]|]. reflexivity.
Qed.
Print Assumptions C92_ready_after_start.
Lemma alpha l : StronglySorted (fun a b => str_ltb b a = false) (isort str_leb l).
Proof.
  assert (SS := isort_sorted str_leb). assert (TO : forall a b, str_leb a b = true \/ str_leb b a = true).
  { intros a b. unfold str_leb. destruct (str_ltb b a) eqn:E1; auto. right. destruct (str_ltb a b) eqn:E2; auto. pose proof (str_ltb_trans a b a E2 E1) as Q. rewrite str_ltb_irrefl in Q. discriminate. }
  specialize (SS TO).
  assert (TR : forall a b c, str_leb a b = true -> str_leb b c = true -> str_leb a c = true).
  { intros a b c. unfold str_leb. rewrite !negb_true_iff. intros H1 H2. destruct (str_ltb c a) eqn:H3; auto. destruct (str_ltb_total a b) as [H|[H|H]]; [|subst; congruence|congruence]. rewrite (str_ltb_trans c a b) in H2; auto. }
  specialize (SS TR l). clear -SS. induction SS as [|x l' SS IH F]; constructor; auto. apply Forall_impl with (2 := F). intros y. unfold str_leb. rewrite negb_true_iff. auto.
Qed.
(** the runtime page has one row for each store and executor, in alphabetical order, with the number of the listed tasks
    that carry its alias *)
Theorem C92_runtime :
  forall (descr : trigger -> string) (s : sched),
    exists srows erows, runtime descr s = Ok (srows, erows) /\
      Permutation (map fst srows) (dkeys (stores s)) /\ Permutation (map fst erows) (dkeys (execs s)) /\
      StronglySorted (fun a b => str_ltb b a = false) (map fst srows) /\ StronglySorted (fun a b => str_ltb b a = false) (map fst erows) /\
      (forall a n, In (a, n) srows -> n = List.length (filter (fun t => String.eqb a (label (t_store t))) (get_tasks None s))) /\
      (forall a n, In (a, n) erows -> n = List.length (filter (fun t => String.eqb a (label (t_exec t))) (get_tasks None s))).
Proof.
  intros descr s. unfold runtime. destruct (infos_are_tasks descr s) as (ts & PM & E). rewrite E. do 2 eexists. split; [reflexivity|].
  pose proof alpha as SO.
  assert (F : forall A (d : dict A) labels, map fst (rows d labels) = isort str_leb (dkeys d)) by (intros; unfold rows; rewrite map_map; cbn; apply map_id).
  assert (C : forall (f : task -> option string) (g : info -> string), (forall t, or_default (g (snapshot descr t)) = label (f t)) -> forall A (d : dict A) a n,
     In (a, n) (rows d (map (fun i => or_default (g i)) (map (snapshot descr) ts))) -> n = List.length (filter (fun t => String.eqb a (label (f t))) (get_tasks None s))).
  { intros f g FG A d a n I. unfold rows in I. apply in_map_iff in I. destruct I as (b & [= <- <-] & _). rewrite map_map.
    rewrite (map_ext _ (fun t => label (f t)) FG). rewrite <- (Permutation_length (l := filter (fun t => String.eqb b (label (f t))) ts)).
    - clear. induction ts as [|t ts IH]; cbn; auto. destruct (String.eqb b (label (f t))); cbn; auto.
    - clear -PM. induction PM; cbn; auto; [destruct (String.eqb b (label (f x))); auto|destruct (String.eqb b (label (f x))), (String.eqb b (label (f y))); auto; apply perm_swap|eapply perm_trans; eauto]. }
  rewrite !F. sp; auto.
  - apply isort_perm.
  - apply isort_perm.
  - intros a n. apply (C t_store i_store). intros t. unfold label. cbn. destruct (t_store t); reflexivity.
  - intros a n. apply (C t_exec i_exec). intros t. unfold label. cbn. destruct (t_exec t); reflexivity.
Qed.
Print Assumptions C92_runtime.
(** The alias a task carries need not be that of the store that holds it: an update may set it to anything. *)
Definition relabelled : list (envir * op) :=
  [(quiet 0, OStart false); (quiet 0, OAddStore "db" false);
   (quiet 0, OAddTask (ex_task "a" (every 2 None) "default" 1) false (Some (Some (sec 2))));
   (quiet 0, OUpdate "a" None Task.VNone [("store_alias"%string, Task.VStr "db")])].
Theorem C92_counts_are_labels_refuted :
  exists (c : config) (s : sched) (t : task) (srows erows : list (string * nat)),
    reachable c s /\ stored s "default" "a" = Some t /\ stored s "db" "a" = None /\ get_tasks None s = [t] /\
    runtime no_descr s = Ok (srows, erows) /\ In ("default"%string, 0%nat) srows /\ In ("db"%string, 1%nat) srows.
Proof.
  exists ex_cfg, (run_ops ex_cfg relabelled sched_init).
  destruct (stored (run_ops ex_cfg relabelled sched_init) "default" "a") as [t|] eqn:E1; [|vm_compute in E1; discriminate].
  exists t. destruct (runtime no_descr (run_ops ex_cfg relabelled sched_init)) as [[r1 r2]|x] eqn:E2; [|vm_compute in E2; discriminate].
  exists r1, r2. split; [exists relabelled; reflexivity|]. split; [reflexivity|]. split; [vm_compute; reflexivity|].
  vm_compute in E1, E2. injection E1 as <-. injection E2 as <- <-. split; [vm_compute; reflexivity|]. split; [reflexivity|]. split; cbn; auto.
Qed.
Print Assumptions C92_counts_are_labels_refuted.
Example C92_case :
  doctor no_descr sched_init None = Ok (HFailed, false) /\
  (let s := run_ops ex_cfg [(quiet 0, OAddStore "db" false); (quiet 0, OAddExecutor "pool")] sched_init in doctor no_descr s None = Ok (HWarning, false)) /\
  (let (s, a) := clock ex_cfg [(quiet (sec 7), OStart true)] sched_init None in a = Some (sec 7) /\ doctor no_descr s a = Ok (HOk, true)) /\
  (let (s, a) := clock ex_cfg [(quiet (sec 7), OStart false); (quiet (sec 8), ORemoveStore "default" true)] sched_init None in doctor no_descr s a = Ok (HFailed, false)).
Proof. vm_compute. sp; reflexivity. Qed.
