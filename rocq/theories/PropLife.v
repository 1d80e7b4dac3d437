(** C18, C26-C30, C37: life cycle and bookkeeping, in any reachable state or over any history. *)
From Verif Require Import Prelude PreludeFacts MemStore StoreSpec CallArgs Cron Triggers TriggerSpec Task TaskSpec TaskProofs Scheduler Executor SchedSpec SchedProofs SchedProofs2 SchedReach LifeSpec LifeAcc LifeAll LifeProofs PropSched.
Open Scope Z_scope.

(** C18.  [submitted], [completed]: numbers of accepted submissions and of completions so far. *)
Theorem C18_never_more_than_max_instances :
  forall (c : config) (l : list (envir * op)), completions_match c l ->
    let s := run_ops c l sched_init in
    forall id, count id s = submitted id (subs s) - completed id l /\ 0 <= count id s /\
      match last_submission id (subs s) with Some u => count id s <= sub_limit u | None => count id s = 0 end.
Proof. intros c l M s id. destruct (accounting c l M) as [A B]. destruct (A id). split; [auto|]. split; [auto|]. apply B. Qed.
Print Assumptions C18_never_more_than_max_instances.
(** one submission: refused without effect at the limit or when the executor refuses, counted otherwise *)
Theorem C18_one_submission :
  forall (e : envir) (alias : string) (t : task) (times : list Z) (s s' : sched) (r : result unit),
    send_task e alias t times s = (s', r) ->
    (r = Err MaximumInstancesError <-> t_max t <= count (t_id t) s) /\
    match r with
    | Err _ => s' = s
    | Ok _ => subs s' = subs s ++ [MkSub alias (t_id t) times (t_max t)] /\ stores s' = stores s /\ evs s' = evs s /\
              forall id, count id s' = if String.eqb id (t_id t) then count id s + 1 else count id s
    end.
Proof.
  intros e alias t times s s' r. unfold send_task. destruct (count (t_id t) s >=? t_max t) eqn:C.
  - intros [= <- <-]. split; [split; [lia|auto]|auto].
  - destruct (e_send_fails e alias (t_id t)); intros [= <- <-]; (split; [split; [discriminate|lia]|]); auto. cbn. sp; auto. intros id.
    change (count id (w_subs (subs s ++ [MkSub alias (t_id t) times (t_max t)]) (w_insts (dset (t_id t) (count (t_id t) s + 1) (insts s)) s)))
      with (count id (w_insts (dset (t_id t) (count (t_id t) s + 1) (insts s)) s)).
    rewrite count_dset. destruct (String.eqb_spec id (t_id t)) as [->|]; auto.
Qed.
Print Assumptions C18_one_submission.
Example C18_case :
  let l := ex_ops ++ [(quiet (sec 5), OProcess); (quiet (sec 6), OComplete "a" []); (quiet (sec 9), OProcess)] in
  completions_match ex_cfg l /\ count "a" (run_ops ex_cfg l sched_init) = 1 /\ submitted "a" (subs (run_ops ex_cfg l sched_init)) = 2.
Proof.
  cbn zeta. split; [|split; vm_compute; reflexivity]. intros l1 e id evts l2 H.
  do 7 (destruct l1 as [|? l1]; [discriminate H|]; cbn in H; injection H as <- H).
  destruct l1 as [|? l1]; [injection H as <- <- <- <-; vm_compute; reflexivity|]. cbn in H. injection H as <- H.
  destruct l1 as [|? l1]; [discriminate H|]. cbn in H. injection H as <- H. destruct l1; discriminate H.
Qed.

(** C26. *)
Theorem C26_add_task :
  forall (c : config) (e : envir) (t : task) (replace : bool) (next : option (option Z)) (s s' : sched) (r : result unit),
    reachable c s -> st s <> STOPPED -> t_submitted t = false -> (t_sched t = None \/ t_sched t = Some (c_self c)) ->
    add_task c e t replace next s = (s', r) ->
    let alias := or_default (t_store t) in
    rest_same s s' /\
    match r with
    | Ok _ => exists n, first_run c (e_now e) t next n /\ has_store s alias /\
        (replace = false -> stored s alias (t_id t) = None) /\
        only alias (t_id t) (Some (kept (c_self c) t false n)) s s' /\
        evs s' = evs s ++ [task_event TASK_ADDED (t_id t) (Some alias)] /\
        wakes_by (match st s, next with RUNNING, Some None => 0 | RUNNING, _ => 1 | _, _ => 0 end) s s'
    | Err x => same_tasks s s' /\ evs s' = evs s /\ wakes_by 0 s s' /\
        ((x = ConflictIdError /\ replace = false /\ stored s alias (t_id t) <> None) \/
         (x = KeyError /\ ~ has_store s alias) \/
         (next = None /\ t_next t = None /\ exists k, answers (c_fuel c) (c_oracle c) (t_trigger t) (e_now e) k None = Err x))
    end.
Proof.
  intros c e t replace next s s' r R St NS OW H alias. unfold add_task in H. rewrite NS in H.
  assert (E : match t_sched t with Some k => negb (Nat.eqb k (c_self c)) | None => false end = false) by (destruct OW as [-> | ->]; [auto|rewrite Nat.eqb_refl; auto]).
  rewrite E in H. assert (Es : stopped s = false) by (unfold stopped; destruct (st s); auto; congruence). rewrite Es in H.
  set (t1 := with_default_aliases (c_self c) (given_next next t)) in H.
  assert (T1 : t_id t1 = t_id t /\ t_store t1 = Some alias /\ t_trigger t1 = t_trigger t /\ t_next t1 = match next with Some n => n | None => t_next t end).
  { subst t1 alias. destruct next as [n|]; cbn; unfold or_default; destruct (t_store t); sp; auto. }
  destruct T1 as (I1 & I2 & I3 & I4).
  destruct (real_add_task_spec _ _ _ _ _ _ _ _ _ (reachable_wf _ _ R) H) as (_ & F & K). split.
  { pose proof (frame_has _ _ F) as FH. destruct F as [f1 f2 f3 f4 f5 f6 f7 f8 f9]. unfold rest_same. sp; auto. }
  assert (FR : forall n, first_time c (e_now e) t1 (starts next) None n -> first_run c (e_now e) t next n).
  { clearbody t1. clear -I3 I4. intros n FT. destruct FT as [x Hx|Hx Hs|k n0 Hx Hs Ha]; rewrite I4 in Hx; clear I4.
    - destruct next as [m|]; [subst m; cbn; constructor|cbn; constructor; auto].
    - destruct next as [m|]; [subst m; constructor|discriminate Hs].
    - destruct next as [m|]; [subst m; discriminate Hs|]. rewrite I3 in Ha. replace (option_map (no_sooner None) n0) with n0 by (destruct n0; auto). econstructor; eauto. }
  destruct r as [u|x].
  - destruct K as (al & n & K1 & K2 & K3 & K4 & K5 & K6 & K7). assert (al = alias) as -> by congruence. rewrite I1 in *. exists n. sp; auto.
    + intros b j. rewrite K5. cbn [t_id set_pending set_next]. rewrite I1. destruct (String.eqb b alias && String.eqb j (t_id t)); auto.
      f_equal. subst t1 alias. unfold set_pending, set_next, kept, with_default_aliases, given_next, or_default. destruct next; cbn; destruct (t_exec t), (t_store t); auto.
    + unfold wakes_by. rewrite K7. unfold running, starts. destruct (st s), next as [[|]|]; cbn; auto.
  - destruct K as (K1 & K2 & K3 & K4 & K5). split; [exact K1|]. split; [exact K3|]. split; [unfold wakes_by; lia|].
    destruct K5 as [(-> & -> & al & t0 & L1 & L2)|[(_ & L)|[(-> & al & L1 & L2)|(L1 & L2 & k & L3)]]].
    + left. assert (al = alias) as -> by congruence. sp; auto. rewrite <- I1, L2. discriminate.
    + congruence.
    + right; left. split; auto. congruence.
    + right; right. rewrite I3 in L3. rewrite I4 in L1. clear -L1 L2 L3. destruct next as [m|]; [subst m; discriminate L2|]. sp; eauto.
Qed.
Print Assumptions C26_add_task.
(** a task object already submitted, or bound to another scheduler, is refused *)
Theorem C26_only_once :
  forall c e t replace next s, (t_submitted t = true \/ exists k, t_sched t = Some k /\ k <> c_self c) ->
    exists x, add_task c e t replace next s = (s, Err x).
Proof.
  intros c e t rep next s H. unfold add_task. destruct (t_submitted t); [eauto|]. destruct H as [H|(k & -> & N)]; [discriminate|].
  apply Nat.eqb_neq in N. rewrite N. cbn [negb]. eauto.
Qed.
Print Assumptions C26_only_once.
Example C26_case :
  let (s1, r1) := add_task ex_cfg (quiet (sec 1)) (ex_task "a" (every 7 None) "default" 2) false None ex_state in
  let (s2, r2) := add_task ex_cfg (quiet (sec 1)) (ex_task "a" (every 7 None) "default" 2) true None ex_state in
  r1 = Err ConflictIdError /\ r2 = Ok tt /\ option_map t_next (stored s2 "default" "a") = Some (Some (sec 7)) /\ option_map t_max (stored s2 "default" "a") = Some 2.
Proof. vm_compute. repeat split. Qed.

(** C27.  Adding to a stopped scheduler only appends to what get_tasks shows. *)
Theorem C27_added_while_stopped :
  forall c e t replace next s, st s = STOPPED -> t_submitted t = false -> (t_sched t = None \/ t_sched t = Some (c_self c)) ->
    exists s', add_task c e t replace next s = (s', Ok tt) /\
      get_tasks None s' = get_tasks None s ++ [kept (c_self c) t (t_pending t) (match next with Some n => n | None => t_next t end)] /\
      stores s' = stores s /\ evs s' = evs s /\ subs s' = subs s /\ execs s' = execs s /\ wakes_by 0 s s' /\ st s' = STOPPED.
Proof.
  intros c e t replace next s St NS OW. unfold add_task. rewrite NS.
  assert (E : match t_sched t with Some k => negb (Nat.eqb k (c_self c)) | None => false end = false) by (destruct OW as [-> | ->]; [auto|rewrite Nat.eqb_refl; auto]).
  rewrite E. assert (Es : stopped s = true) by (unfold stopped; rewrite St; auto). rewrite Es. eexists. split; [reflexivity|]. sp; auto; [|unfold wakes_by; cbn; lia].
  unfold get_tasks. rewrite Es. change (stopped (w_pend _ s)) with (stopped s). rewrite Es. cbn [pend w_pend].
  assert (FT : forall l, filter (task_in None) l = l) by (induction l as [|x l IH]; cbn; congruence). rewrite !FT, map_app. cbn [map fst]. f_equal. f_equal.
  unfold kept, with_default_aliases, given_next, or_default. destruct next; cbn; destruct (t_exec t), (t_store t); auto.
Qed.
Print Assumptions C27_added_while_stopped.
Theorem C27_installed_at_start :
  forall (c : config) (e : envir) (paused : bool) (s s' : sched),
    reachable c s -> start c e paused s = (s', Ok true) ->
    st s = STOPPED /\ pend s' = [] /\
    exists announced_defaults evts,
      installs c (e_now e) (if c_lock_path c then Some (e_now e + c_startup_delay c) else None) (has_store s') (pend s) (stored s) (stored s') evts /\
      evs s' = evs s ++ announced_defaults ++ evts ++ [sched_event SCHEDULER_START None] /\
      Forall (fun x => ev_code x = EXECUTOR_ADDED \/ ev_code x = STORE_ADDED) announced_defaults.
Proof.
  intros c e p s s' R H. pose proof (start_spec _ _ _ _ _ _ (reachable_wf _ _ R) H) as S.
  destruct (refc s + 1 >? 1); [destruct S; discriminate|]. destruct (stopped s) eqn:St; cbn [negb] in S; [|destruct S; discriminate].
  destruct S as (_ & _ & _ & _ & _ & _ & _ & _ & _ & P & _ & evts & I & E). split; [unfold stopped in St; destruct (st s); auto; discriminate|]. split; [exact P|].
  exists (starting_events s), evts. sp; auto. unfold starting_events. apply Forall_app. split; [destruct (dmem "default" (execs s))|destruct (dmem "default" (stores s))]; try apply Forall_nil; (apply Forall_cons; [cbn; auto|apply Forall_nil]).
Qed.
Print Assumptions C27_installed_at_start.
(** reading [installs]: nobody disappears ... *)
Lemma installs_keeps c now m has l cs cs' evts : installs c now m has l cs cs' evts -> forall a id, cs a id <> None -> cs' a id <> None.
Proof.
  induction 1 as [cs cs' E| |]; intros a id N; auto. { rewrite E. auto. }
  apply IHinstalls. unfold put. destruct (String.eqb a alias && _); [discriminate|auto].
Qed.
(** ... and other places are as before *)
Lemma installs_elsewhere c now m has l cs cs' evts : installs c now m has l cs cs' evts -> forall a id,
  (forall t r b, In (t, r, b) l -> ~ (t_id t = id /\ t_store t = Some a)) -> cs' a id = cs a id.
Proof.
  induction 1 as [cs cs' E| |]; intros a id N; auto.
  - apply IHinstalls. intros; eapply N; right; eauto.
  - rewrite IHinstalls by (intros; eapply N; right; eauto). unfold put. cbn [t_id set_pending set_next].
    destruct (String.eqb_spec a alias) as [->|]; cbn; auto. destruct (String.eqb_spec id (t_id t)) as [->|]; auto. exfalso. eapply N; [left; reflexivity|auto].
Qed.
(** every task added before the start is there ... *)
Theorem C27_all_present :
  forall c now m has l cs cs' evts, installs c now m has l cs cs' evts ->
    forall t r b, In (t, r, b) l -> exists a u, t_store t = Some a /\ has a /\ cs' a (t_id t) = Some u.
Proof.
  induction 1; intros t0 r0 b0 Hi.
  - destruct Hi.
  - destruct Hi as [[= <- <- <-]|Hi]; [|eauto]. pose proof (installs_keeps _ _ _ _ _ _ _ _ H2 alias (t_id t) ltac:(congruence)) as K.
    destruct (m' alias (t_id t)) eqn:E; [eauto|congruence].
  - destruct Hi as [[= <- <- <-]|Hi]; [|eauto].
    pose proof (installs_keeps _ _ _ _ _ _ _ _ H3 alias (t_id t)) as K. unfold put in K at 1. cbn [t_id set_pending set_next] in K. rewrite !String.eqb_refl in K. cbn in K.
    destruct (m' alias (t_id t)) eqn:E; [eauto|]. exfalso. apply K; auto. discriminate.
Qed.
Print Assumptions C27_all_present.
(** ... in the version of the last entry that may replace, if any ... *)
Theorem C27_last_replacement_wins :
  forall c now m has l1 t b l2 cs cs' evts, installs c now m has (l1 ++ (t, true, b) :: l2) cs cs' evts ->
    (forall u b', In (u, true, b') l2 -> ~ same_place u t) ->
    exists a n, t_store t = Some a /\ first_time c now t b m n /\ cs' a (t_id t) = Some (set_pending false (set_next n t)).
Proof.
  intros c now m has l1 t b l2. induction l1 as [|[[u r] b0] l1 IH]; intros cs cs' evts H L.
  - inversion H; subst. exists alias, n. split; [assumption|]. split; [assumption|]. clear H.
    assert (G : forall l cs0 cs1 evts1 x, installs c now m has l cs0 cs1 evts1 -> (forall u b', In (u, true, b') l -> ~ same_place u t) -> cs0 alias (t_id t) = Some x -> cs1 alias (t_id t) = Some x).
    { match goal with K : t_store t = Some alias |- _ => clear -K; rename K into TS end. induction 1 as [? ? E|?|?]; intros L C; auto. { rewrite E. auto. } { apply IHinstalls; auto. intros; apply (L u b'); right; auto. }
      apply IHinstalls; [intros; apply (L u b'); right; auto|]. unfold put. cbn [t_id set_pending set_next]. destruct (String.eqb_spec alias alias0) as [->|]; cbn; auto.
      destruct (String.eqb_spec (t_id t) (t_id t0)) as [E|]; auto. exfalso. destruct H1 as [->|H1]; [|congruence]. apply (L t0 start); [left; auto|]. split; congruence. }
    eapply G; [eassumption|exact L|]. unfold put. cbn [t_id set_pending set_next]. rewrite !String.eqb_refl. reflexivity.
  - inversion H; subst; eapply IH; eauto.
Qed.
Print Assumptions C27_last_replacement_wins.
(** ... otherwise in the version already stored, or else that of the first entry. *)
Theorem C27_otherwise_the_first_wins :
  forall c now m has l1 t b l2 cs cs' evts a, installs c now m has (l1 ++ (t, false, b) :: l2) cs cs' evts -> t_store t = Some a ->
    (forall u r b', In (u, r, b') l1 -> ~ same_place u t) -> (forall u b', In (u, true, b') l2 -> ~ same_place u t) ->
    match cs a (t_id t) with
    | Some old => cs' a (t_id t) = Some old
    | None => exists n, first_time c now t b m n /\ cs' a (t_id t) = Some (set_pending false (set_next n t))
    end.
Proof.
  intros c now m has l1 t b l2 cs cs' evts a H TS. revert cs cs' evts H. induction l1 as [|[[u r] b0] l1 IH]; intros cs cs' evts H L1 L.
  - assert (G : forall l cs0 cs1 evts1 x, installs c now m has l cs0 cs1 evts1 -> (forall u b', In (u, true, b') l -> ~ same_place u t) -> cs0 a (t_id t) = Some x -> cs1 a (t_id t) = Some x).
    { clear -TS. induction 1 as [? ? E|?|?]; intros L C; auto. { rewrite E. auto. } { apply IHinstalls; auto. intros; apply (L u b'); right; auto. }
      apply IHinstalls; [intros; apply (L u b'); right; auto|]. unfold put. cbn [t_id set_pending set_next]. destruct (String.eqb_spec a alias) as [->|]; cbn; auto.
      destruct (String.eqb_spec (t_id t) (t_id t0)) as [E|]; auto. exfalso. destruct H1 as [->|H1]; [|congruence]. apply (L t0 start); [left; auto|]. split; congruence. }
    inversion H; subst.
    + assert (alias = a) as -> by congruence. match goal with K : cs a (t_id t) = Some _ |- _ => rewrite K; eapply G; eauto end.
    + assert (alias = a) as -> by congruence. match goal with K : _ \/ cs a (t_id t) = None |- _ => destruct K as [K|K]; [discriminate K|rewrite K] end.
      exists n. split; [assumption|]. eapply G; [eassumption|exact L|]. unfold put. cbn [t_id set_pending set_next]. rewrite !String.eqb_refl. reflexivity.
  - cbn in H. inversion H; subst.
    + eapply IH; eauto. intros; eapply L1; right; eauto.
    + match goal with K : installs _ _ _ _ _ (put cs alias ?x) _ _ |- _ => specialize (IH _ _ _ K ltac:(intros; eapply L1; right; eauto) L) end.
      unfold put in IH at 1. cbn [t_id set_pending set_next] in IH.
      destruct (String.eqb_spec a alias) as [->|]; cbn in IH; auto. destruct (String.eqb_spec (t_id t) (t_id u)) as [E|]; auto.
      exfalso. eapply L1; [left; reflexivity|]. split; congruence.
Qed.
Print Assumptions C27_otherwise_the_first_wins.
(** a start that raises leaves the pending tasks pending; it is a pending task's fault *)
Theorem C27_start_fails :
  forall c e p s s' x, reachable c s -> refc s <= 0 -> st s = STOPPED -> start c e p s = (s', Err x) ->
    st s' = STOPPED /\ pend s' = pend s /\ exists t r b, In (t, r, b) (pend s) /\
      ((x = KeyError /\ exists a, t_store t = Some a /\ ~ has_store s' a) \/
       exists k, answers (c_fuel c) (c_oracle c) (t_trigger t) (e_now e) k None = Err x).
Proof.
  intros c e p s s' x R RC St H. pose proof (start_spec _ _ _ _ _ _ (reachable_wf _ _ R) H) as S. replace (refc s + 1 >? 1) with false in S by lia.
  assert (Es : stopped s = true) by (unfold stopped; rewrite St; auto). rewrite Es in S. cbn [negb] in S.
  destruct S as (_ & _ & _ & _ & _ & _ & _ & S1 & S2 & t & rep & stt & Hi & S3). sp; auto. exists t, rep, stt. split; auto.
  destruct S3 as [S3|S3]; auto. exfalso. destruct (owned_all c s R) as [_ O]. destruct (O _ _ _ Hi). congruence.
Qed.
Print Assumptions C27_start_fails.
Definition early_ops : list (envir * op) :=
  [(quiet 0, OAddStore "db" false); (quiet 0, OAddTask (ex_task "a" (every 2 None) "default" 5) false None);
   (quiet 0, OAddTask (ex_task "a" (every 3 None) "default" 6) false None); (quiet 0, OAddTask (ex_task "b" (every 4 None) "default" 7) false (Some None));
   (quiet 0, OAddTask (ex_task "b" (every 4 None) "default" 8) true (Some None))].
Example C27_case :
  let s := run_ops ex_cfg early_ops sched_init in let (s', r) := start ex_cfg (quiet 1) false s in
  r = Ok true /\ List.length (get_tasks None s) = 4%nat /\ option_map t_max (stored s' "default" "a") = Some 5 /\ option_map t_max (stored s' "default" "b") = Some 8 /\
  map (fun x => (ev_code x, ev_task x)) (skipn 1 (evs s')) =
    [(EXECUTOR_ADDED, None); (STORE_ADDED, None); (TASK_ADDED, Some "a"%string); (TASK_ADDED, Some "b"%string); (TASK_ADDED, Some "b"%string); (SCHEDULER_START, None)].
Proof. vm_compute. repeat split. Qed.

Lemma what_start_does c l e p :
    let s := run_ops c l sched_init in
    let s' := fst (start c e p s) in let r := snd (start c e p s) in
    refc s = opens l /\ refc s' = opens l + 1 /\
    (1 <= opens l -> w_refc (refc s) s' = s /\ r = Ok false) /\
    (opens l <= 0 -> st s <> STOPPED -> w_refc (refc s) s' = s /\ r = Err AssertionError) /\
    (opens l <= 0 -> st s = STOPPED ->
       match r with Ok b => b = true /\ st s' = (if p then PAUSED else RUNNING) | Err _ => st s' = STOPPED end).
Proof.
  intros s s' r. pose proof (refc_opens c l) as A. fold s in A. assert (W : wf s) by (apply (reachable_wf c); exists l; auto).
  pose proof (start_spec c e p s s' r W (surjective_pairing _)) as H. split; [exact A|].
  assert (U : forall n, w_refc (refc s) (w_refc n s) = s) by (intros n; destruct s; reflexivity).
  assert (STD : stopped s = true <-> st s = STOPPED) by (unfold stopped; destruct (st s); cbn; split; congruence).
  replace (refc s + 1 >? 1) with (opens l + 1 >? 1) in H by (rewrite A; reflexivity). destruct (opens l + 1 >? 1) eqn:G.
  - destruct H as [H1 H2]. split; [rewrite H1; cbn; lia|]. split; [intros _; rewrite H1; split; [apply U|exact H2]|]. split; intros; lia.
  - destruct (stopped s) eqn:St; cbn [negb] in H.
    + destruct H as (H1 & _ & _ & _ & _ & _ & _ & H). split; [lia|]. split; [lia|]. split; [intros _ N; exfalso; apply N, STD; reflexivity|].
      intros _ _. destruct r; [destruct H as (? & ? & _); auto|destruct H as (? & _); auto].
    + destruct H as [H1 H2]. split; [rewrite H1; cbn; lia|]. split; [lia|]. split; [intros _ _; rewrite H1; split; [apply U|exact H2]|].
      intros _ E. apply STD in E. discriminate.
Qed.
Lemma what_shutdown_does c l :
    let s := run_ops c l sched_init in
    let s' := fst (shutdown s) in let r := snd (shutdown s) in
    refc s' = opens l - 1 /\
    (1 < opens l -> w_refc (refc s) s' = s /\ r = Ok false) /\
    (opens l <= 1 -> st s = STOPPED -> w_refc (refc s) s' = s /\ r = Err SchedulerNotRunningError) /\
    (opens l <= 1 -> st s <> STOPPED -> r = Ok true /\ st s' = STOPPED).
Proof.
  intros s s' r. pose proof (refc_opens c l) as A. fold s in A. assert (W : wf s) by (apply (reachable_wf c); exists l; auto).
  pose proof (shutdown_spec s s' r W (surjective_pairing _)) as H.
  assert (U : forall n, w_refc (refc s) (w_refc n s) = s) by (intros n; destruct s; reflexivity).
  assert (STD : stopped s = true <-> st s = STOPPED) by (unfold stopped; destruct (st s); cbn; split; congruence).
  replace (refc s - 1 >? 0) with (opens l - 1 >? 0) in H by (rewrite A; reflexivity). destruct (opens l - 1 >? 0) eqn:G.
  - destruct H as [H1 H2]. split; [rewrite H1; cbn; lia|]. split; [intros _; rewrite H1; split; [apply U|exact H2]|]. split; intros; lia.
  - destruct (stopped s) eqn:St.
    + destruct H as [H1 H2]. split; [rewrite H1; cbn; lia|]. split; [lia|]. split; [intros _ _; rewrite H1; split; [apply U|exact H2]|].
      intros _ N. exfalso. apply N, STD. reflexivity.
    + destruct H as (H1 & H2 & H3 & _). split; [lia|]. split; [lia|]. split; [intros _ E; apply STD in E; discriminate|auto].
Qed.

(** C28.  [opens l] is the number of start calls minus the number of shutdown calls in [l], the ones
    that raised included; it alone decides, with whether the scheduler is running, what the next
    start or shutdown does.  A state differing in [refc] only differs in nothing but this count. *)
Theorem C28_what_start_does :
  forall (c : config) (l : list (envir * op)) (e : envir) (p : bool),
    let s := run_ops c l sched_init in
    let s' := fst (start c e p s) in let r := snd (start c e p s) in
    refc s = opens l /\ refc s' = opens l + 1 /\
    (1 <= opens l -> w_refc (refc s) s' = s /\ r = Ok false) /\
    (opens l <= 0 -> st s <> STOPPED -> w_refc (refc s) s' = s /\ r = Err AssertionError) /\
    (opens l <= 0 -> st s = STOPPED ->
       match r with Ok b => b = true /\ st s' = (if p then PAUSED else RUNNING) | Err _ => st s' = STOPPED end).
Proof. exact what_start_does. Qed.
Print Assumptions C28_what_start_does.
Theorem C28_what_shutdown_does :
  forall (c : config) (l : list (envir * op)),
    let s := run_ops c l sched_init in
    let s' := fst (shutdown s) in let r := snd (shutdown s) in
    refc s' = opens l - 1 /\
    (1 < opens l -> w_refc (refc s) s' = s /\ r = Ok false) /\
    (opens l <= 1 -> st s = STOPPED -> w_refc (refc s) s' = s /\ r = Err SchedulerNotRunningError) /\
    (opens l <= 1 -> st s <> STOPPED -> r = Ok true /\ st s' = STOPPED).
Proof. exact what_shutdown_does. Qed.
Print Assumptions C28_what_shutdown_does.
(** no other call starts or stops a scheduler, or counts *)
Theorem C28_other_calls :
  forall (c : config) (l : list (envir * op)) (e : envir) (o : op), delta o = 0 ->
    let s := run_ops c l sched_init in let s' := step c e o s in
    refc s' = refc s /\ (st s' = STOPPED <-> st s = STOPPED).
Proof.
  intros c l e o D s s'. apply life_other; [|exact D]. apply (reachable_wf c). exists l. reflexivity.
Qed.
Print Assumptions C28_other_calls.
(** so, when no shutdown comes without a start before it and no start of the stopped scheduler fails, it
    runs exactly while more starts than shutdowns have been made *)
Theorem C28_reference_counted :
  forall (c : config) (l : list (envir * op)), nested l -> starts_succeed c l ->
    let s := run_ops c l sched_init in refc s = opens l /\ (st s = STOPPED <-> opens l = 0).
Proof. exact life_counts. Qed.
Print Assumptions C28_reference_counted.
(** only the first start and the last shutdown do anything besides counting *)
Theorem C28_inner_calls_only_count :
  forall (c : config) (l : list (envir * op)) (e : envir) (p : bool), nested l -> starts_succeed c l ->
    let s := run_ops c l sched_init in
    (0 < opens l -> start c e p s = (w_refc (refc s + 1) s, Ok false)) /\
    (1 < opens l -> shutdown s = (w_refc (refc s - 1) s, Ok false)) /\
    (opens l = 0 -> snd (start c e p s) <> Ok false) /\
    (opens l = 1 -> snd (shutdown s) = Ok true).
Proof.
  intros c l e p N S s. destruct (life_counts c l N S) as [A B]. fold s in A, B. assert (W : wf s) by (apply (reachable_wf c); exists l; auto).
  pose proof (start_spec c e p s (fst (start c e p s)) (snd (start c e p s)) W (surjective_pairing _)) as S1.
  pose proof (shutdown_spec s (fst (shutdown s)) (snd (shutdown s)) W (surjective_pairing _)) as S2. rewrite A in *. sp; intros O.
  - replace (opens l + 1 >? 1) with true in S1 by lia. destruct S1 as [S1 S1']. rewrite (surjective_pairing (start c e p s)). congruence.
  - replace (opens l - 1 >? 0) with true in S2 by lia. destruct S2 as [S2 S2']. rewrite (surjective_pairing (shutdown s)). congruence.
  - replace (opens l + 1 >? 1) with false in S1 by lia. assert (Es : stopped s = true) by (unfold stopped; rewrite (proj2 B O); auto).
    rewrite Es in S1. cbn [negb] in S1. destruct S1 as (_ & _ & _ & _ & _ & _ & _ & S1). destruct (snd (start c e p s)) as [b|]; [destruct S1 as [-> _]; discriminate|discriminate].
  - replace (opens l - 1 >? 0) with false in S2 by lia. assert (Es : stopped s = false) by (unfold stopped; destruct (st s) eqn:Z; auto; apply proj1 in B; specialize (B eq_refl); lia).
    rewrite Es in S2. tauto.
Qed.
Print Assumptions C28_inner_calls_only_count.
(** Why the hypotheses: a shutdown too many raises but counts, and then the second of two starts raises ... *)
Theorem C28_extra_shutdown_counts :
  exists c e s, reachable c s /\ snd (shutdown s) = Err SchedulerNotRunningError /\
    let s1 := fst (shutdown s) in let s2 := fst (start c e false s1) in
    snd (start c e false s) = Ok true /\ snd (start c e false (fst (start c e false s))) = Ok false /\
    snd (start c e false s1) = Ok true /\ snd (start c e false s2) = Err AssertionError.
Proof. exists ex_cfg, (quiet 0), sched_init. split; [exists []; reflexivity|]. vm_compute. repeat split. Qed.
Print Assumptions C28_extra_shutdown_counts.
(** ... and after a start that raised, the next start pretends to be an inner one: the scheduler never runs. *)
Theorem C28_failed_start_counts :
  exists c e s s1 s2, reachable c s /\ start c e false s = (s1, Err KeyError) /\ fst (add_store "later" (new_store true) s1) = s2 /\
    (forall t r b a, In (t, r, b) (pend s2) -> t_store t = Some a -> has_store s2 a) /\
    snd (start c e false s2) = Ok false /\ st (fst (start c e false s2)) = STOPPED.
Proof.
  set (t := MkTask "x" "job" (every 1 None) None None (Some "later"%string) (Some (sec 1)) false 1 None None (VList []) (VDict []) None true false).
  exists ex_cfg, (quiet 0), (run_ops ex_cfg [(quiet 0, OAddTask t false None)] sched_init). eexists _, _.
  split; [eexists; reflexivity|]. split; [vm_compute; reflexivity|]. split; [reflexivity|].
  split; [|split; vm_compute; reflexivity]. intros t0 r b a Hi E. vm_compute in Hi. destruct Hi as [[= <- _ _]|[]]. vm_compute in E. injection E as <-. eexists. vm_compute. reflexivity.
Qed.
Print Assumptions C28_failed_start_counts.
Example C28_case : let l := [(quiet 0, OStart false); (quiet 0, OStart true); (quiet 1, OShutdown); (quiet 1, OPause)] in
  opens l = 1 /\ st (run_ops ex_cfg l sched_init) = PAUSED /\ st (run_ops ex_cfg (l ++ [(quiet 2, OShutdown)]) sched_init) = STOPPED.
Proof. vm_compute. repeat split. Qed.

(** C29. *)
Theorem C29_shutdown :
  forall (c : config) (s s' : sched), reachable c s -> shutdown s = (s', Ok true) ->
    st s <> STOPPED /\ st s' = STOPPED /\ evs s' = evs s ++ [sched_event SCHEDULER_SHUTDOWN None] /\
    (exists runs, NoDup runs /\ (forall a id, In (a, id) runs <-> exists t, stored s a id = Some t /\ t_trigger t = TShutdown) /\
       ran s' = ran s ++ map snd runs) /\
    (forall a t id, stored s' a id = Some t -> ~ is_memory s a /\ t_trigger t <> TShutdown /\ stored s a id = Some t) /\
    (forall a t id, stored s a id = Some t -> ~ is_memory s a -> t_trigger t <> TShutdown -> stored s' a id = Some t) /\
    (forall a, match dget a (execs s), dget a (execs s') with
               | Some x, Some x' => x_stops x' = S (x_stops x) /\ x_starts x' = x_starts x | None, None => True | _, _ => False end) /\
    (forall a, match dget a (stores s), dget a (stores s') with
               | Some x, Some x' => s_stops x' = S (s_stops x) /\ s_starts x' = s_starts x | None, None => True | _, _ => False end) /\
    subs s' = subs s /\ pend s' = pend s.
Proof.
  intros c s s' R H. pose proof (shutdown_spec _ _ _ (reachable_wf _ _ R) H) as S. destruct (refc s - 1 >? 0); [destruct S; discriminate|].
  destruct (stopped s) eqn:St; [destruct S; discriminate|]. destruct S as (_ & S1 & _ & S3 & _ & S5 & _ & S7 & S8 & S9 & S10 & runs & S11 & S12 & S13).
  split; [unfold stopped in St; destruct (st s); [discriminate St|discriminate|discriminate]|]. sp; auto.
  - exists runs. sp; auto.
  - intros a t id Ht. unfold stored in Ht. destruct (dget a (stores s')) as [x'|] eqn:G'; [|discriminate].
    destruct (proj1 (S9 a) ltac:(exists x'; auto)) as [x G]. destruct (S10 a x G) as (y & Gy & M & _ & _ & L). assert (y = x') as -> by congruence. rewrite L in Ht.
    unfold is_memory. destruct (s_memory x) eqn:Mx; [discriminate|]. unfold stored. rewrite G.
    destruct (ms_lookup (s_mem x) id) as [t0|]; [|discriminate]. unfold is_shutdown in Ht. destruct (t_trigger t0) eqn:E; try discriminate; injection Ht as <-; (split; [intros (z & Z1 & Z2); congruence|split; [congruence|auto]]).
  - intros a t id Ht Nm Ns. unfold stored in Ht. destruct (dget a (stores s)) as [x|] eqn:G; [|discriminate].
    destruct (S10 a x G) as (y & Gy & M & _ & _ & L). unfold stored. rewrite Gy, L, Ht. destruct (s_memory x) eqn:Mx; [exfalso; apply Nm; exists x; auto|].
    unfold is_shutdown. destruct (t_trigger t) eqn:E; auto. congruence.
  - intros a. rewrite S8. destruct (dget a (execs s)); cbn; auto.
  - intros a. destruct (dget a (stores s)) as [x|] eqn:G.
    + destruct (S10 a x G) as (y & -> & _ & E1 & E2 & _). auto.
    + destruct (dget a (stores s')) as [x'|] eqn:G'; auto. destruct (proj1 (S9 a) ltac:(exists x'; auto)) as [x G2]. congruence.
Qed.
Print Assumptions C29_shutdown.
(** it happens on the last shutdown, and afterwards nothing that needs a running scheduler works *)
Theorem C29_when :
  forall (c : config) (s : sched), reachable c s -> st s <> STOPPED -> refc s <= 1 -> snd (shutdown s) = Ok true.
Proof.
  intros c s R St RC. pose proof (shutdown_spec s _ _ (reachable_wf _ _ R) (surjective_pairing _)) as S. replace (refc s - 1 >? 0) with false in S by lia.
  assert (Es : stopped s = false) by (unfold stopped; destruct (st s); auto; congruence). rewrite Es in S. tauto.
Qed.
Print Assumptions C29_when.
Theorem C29_stopped :
  forall (c : config) (e : envir) (s : sched) id want force rf, st s = STOPPED ->
    pause s = (s, Err SchedulerNotRunningError) /\ resume s = (s, Err SchedulerNotRunningError) /\
    run_task c e id want force rf s = (s, Err SchedulerNotRunningError) /\ (refc s <= 1 -> snd (shutdown s) = Err SchedulerNotRunningError).
Proof.
  intros c e s id want force rf St. unfold pause, resume, run_task, shutdown, stopped. rewrite St. cbn. rewrite St. cbn. sp; auto.
  intros RC. replace (refc s - 1 >? 0) with false by lia. auto.
Qed.
Print Assumptions C29_stopped.
Example C29_case :
  let s := run_ops ex_cfg (ex_ops ++ [(quiet 0, OAddTask (ex_task "bye" TShutdown "default" 1) false None);
     (quiet 0, OAddTask (MkTask "keep" "job" (every 2 None) None None (Some "db"%string) None true 1 None None (VList []) (VDict []) None true false) false None)]) sched_init in
  let (s', r) := shutdown s in r = Ok true /\ ran s' = ["bye"%string] /\ stored s' "default" "a" = None /\ option_map t_id (stored s' "db" "keep") = Some "keep"%string.
Proof. vm_compute. repeat split. Qed.

(** C30. *)
Theorem C30_pause_and_resume :
  forall (calls : list bool) (s : sched), st s <> STOPPED ->
    let paused := sstate_eqb (st s) PAUSED in
    let s' := fold_left pause_or_resume calls s in
    st s' = (if final paused calls then PAUSED else RUNNING) /\
    evs s' = evs s ++ announced paused calls /\
    wakes_by (List.length (filter (fun x => match ev_code x with SCHEDULER_RESUMED => true | _ => false end) (announced paused calls))) s s' /\
    stores s' = stores s /\ execs s' = execs s /\ subs s' = subs s /\ insts s' = insts s /\ refc s' = refc s.
Proof.
  induction calls as [|p calls IH]; intros s NS; cbn zeta.
  - cbn. unfold wakes_by. cbn. rewrite app_nil_r. sp; auto. destruct (st s); auto. congruence.
  - cbn [fold_left]. assert (D : st s = RUNNING \/ st s = PAUSED) by (destruct (st s); auto; congruence).
    assert (N' : st (pause_or_resume s p) <> STOPPED) by (unfold pause_or_resume, pause, resume; destruct D as [D|D]; rewrite D; destruct p; cbn; congruence).
    specialize (IH (pause_or_resume s p) N'). cbn zeta in IH. revert IH. unfold wakes_by.
    generalize (fold_left pause_or_resume calls (pause_or_resume s p)). intros z.
    unfold pause_or_resume, pause, resume. destruct D as [D|D]; rewrite D; destruct p; cbn; rewrite ?D; cbn.
    + intros (A & B & C & E). rewrite A, B, C. rewrite <- !app_assoc. cbn. sp; auto; tauto.
    + intros (A & B & C & E). rewrite A, B, C. sp; auto; tauto.
    + intros (A & B & C & E). rewrite A, B, C. sp; auto; tauto.
    + intros (A & B & C & E). rewrite A, B, C. rewrite <- !app_assoc. cbn. sp; auto; try tauto; lia.
Qed.
Print Assumptions C30_pause_and_resume.
Theorem C30_stopped : forall s p, st s = STOPPED -> pause_or_resume s p = s /\ snd (pause s) = Err SchedulerNotRunningError /\ snd (resume s) = Err SchedulerNotRunningError.
Proof. intros s p H. unfold pause_or_resume, pause, resume. rewrite H. destruct p; auto. Qed.
Print Assumptions C30_stopped.
Example C30_case : let s' := fold_left pause_or_resume [true; true; false; false; true] ex_state in
  st s' = PAUSED /\ map ev_code (skipn (List.length (evs ex_state)) (evs s')) = [SCHEDULER_PAUSED; SCHEDULER_RESUMED; SCHEDULER_PAUSED].
Proof. vm_compute. split; reflexivity. Qed.
