(** C82, C83: what one command of the command line, run without --bootstrap, does to the stores it opens. *)
From Verif Require Import Prelude PreludeFacts MemStore StoreSpec MemStoreProofs CallArgs Cron Triggers TriggerSpec Task TaskSpec TaskProofs
  Scheduler Executor SchedSpec SchedProofs SchedProofs2 SchedReach SchedProofs3 SchedProofs4 PropSched LifeSpec LifeAcc LifeAll LifeProofs LifeProofs2 CliRun CliRunFacts.
Open Scope Z_scope.

(** ** Specification *)
(** the task a store holds *)
Definition held (d : dict store) (a id : string) : option task :=
  match dget a d with Some x => ms_lookup (s_mem x) id | None => None end.
(** [d]: the stores of the command, each kept by a file, a database or the like and holding what some scheduler
    left there.  (Reading a store binds its tasks to the scheduler that reads: hence the same [c_self].) *)
Definition saved (c : config) (d : dict store) : Prop :=
  NoDup (dkeys d) /\
  forall a x, dget a d = Some x -> s_memory x = false /\ ms_lookup (s_mem x) "" = None /\
    exists c0 s0 y, c_self c0 = c_self c /\ reachable c0 s0 /\ dget a (stores s0) = Some y /\ s_mem x = s_mem y.
(** what the store holds when the process is over *)
Definition left (p : proc) (a id : string) : option task := stored (p_sched p) a id.
(** no trigger of a due task raises or runs for ever *)
Definition triggers_answer (c : config) (e : envir) (d : dict store) : Prop :=
  forall a id t k, held d a id = Some t -> is_due t_next (e_now e) t -> exists r, wake (c_fuel c) (c_oracle c) k t (e_now e) = Ok r.

(** ** Lemmas *)
Definition fine (s : sched) : Prop := wf s /\ st s = RUNNING /\ refc s = 1.
Definition no_stop (l : list item) : Prop := ~ In IStop l.
Lemma fresh_wf c d : saved c d -> wf (fresh d).
Proof.
  intros [N S]. constructor; cbn -[dkeys]; auto. { constructor. }
  intros a x G. destruct (S a x G) as (_ & _ & c0 & s0 & y & _ & R & Gy & ->). exact (wf_inv _ (reachable_wf _ _ R) _ _ Gy).
Qed.
Lemma held_owned c d a id t : saved c d -> held d a id = Some t -> t_id t = id /\ t_sched t = Some (c_self c) /\ id <> ""%string.
Proof.
  intros [N S] H. unfold held in H. destruct (dget a d) as [x|] eqn:G; [|discriminate]. destruct (S a x G) as (_ & E & c0 & s0 & y & Ec & R & Gy & Em).
  assert (S0 : stored s0 a id = Some t) by (unfold stored; rewrite Gy, <- Em; exact H).
  split; [eapply stored_id; eauto using reachable_wf|]. split; [|intros ->; congruence].
  destruct (owned_all c0 s0 R) as [A _]. destruct (A _ _ _ S0) as [A1 _]. congruence.
Qed.
Lemma start_fresh c e d s1 r : saved c d -> start c e false (fresh d) = (s1, r) ->
  r = Ok true /\ fine s1 /\ (forall a id, stored s1 a id = held d a id) /\ subs s1 = [] /\ insts s1 = [] /\ wakes_n s1 = 1%nat /\
  (forall xa, has_exec s1 xa <-> xa = "default"%string) /\
  (forall a, kind s1 a = match dget a d with Some _ => Some false | None => if String.eqb a "default" then Some true else None end).
Proof.
  intros S H. pose proof (fresh_wf c d S) as W. pose proof (start_spec c e false (fresh d) s1 r W H) as P.
  change (refc (fresh d) + 1) with 1 in P. change (1 >? 1) with false in P. change (stopped (fresh d)) with true in P. cbn [negb] in P. cbv beta iota in P.
  destruct P as (P1 & P2 & P3 & _ & P5 & P6 & P7 & P8). destruct r as [b|x].
  2:{ exfalso. destruct P8 as (_ & _ & t & r1 & r2 & [] & _). }
  destruct P8 as (-> & P8 & P9 & P10 & evts & P11 & _). inversion P11 as [m m' E| |]; subst. sp; auto.
  - split; [|split; auto]. pose proof (wf_start c e false (fresh d) W) as W1. rewrite H in W1. exact W1.
  - intros xa. unfold has_exec. rewrite P5. cbn. destruct (String.eqb_spec xa "default") as [->|N]; cbn; [split; eauto|split; [intros [? ?]; discriminate|tauto]].
  - intros a. unfold kind. destruct (dget a d) as [x|] eqn:G.
    + assert (HS : has_store s1 a) by (apply P6; left; exists x; exact G). destruct HS as [x' G']. rewrite G'. cbn.
      destruct (P7 a x' G') as (y & [Gy|[Gy _]] & -> & _); cbn in Gy; rewrite G in Gy; [injection Gy as <-|discriminate]. destruct S as [_ S]. destruct (S a x G) as (-> & _). reflexivity.
    + destruct (String.eqb_spec a "default") as [->|N].
      * assert (HS : has_store s1 "default") by (apply P6; auto). destruct HS as [x' G']. rewrite G'. cbn.
        destruct (P7 _ x' G') as (y & [Gy|(_ & _ & ->)] & -> & _); [cbn in Gy; congruence|reflexivity].
      * destruct (dget a (stores s1)) as [x'|] eqn:G'; auto. exfalso. assert (HS : has_store s1 a) by (exists x'; exact G').
        apply P6 in HS as [[y Gy]|]; [cbn in Gy; congruence|auto].
Qed.

Section Run.
  Variables (c : config) (coro quick : string -> bool).
  Notation run := (run_item c coro quick).
  Lemma pass_fine e s : fine s -> fine (fst (process_tasks c e s)).
  Proof. intros (W & A & B). destruct (acc2_process c e s) as (_ & E1 & E2). split; [apply wf_process_tasks; auto|split; congruence]. Qed.
  Lemma items_keep e : forall l p, no_stop l -> fine (p_sched p) ->
    fine (p_sched (fold_left (run e) l p)) /\ (forall b, kind (p_sched (fold_left (run e) l p)) b = kind (p_sched p) b) /\
    forall b j, out_of_reach e (p_sched p) b j -> left (fold_left (run e) l p) b j = left p b j.
  Proof.
    induction l as [|i l IH]; intros p NS F; cbn [fold_left]; [auto|].
    assert (NS' : no_stop l) by (intros Hi; apply NS; right; exact Hi). destruct i as [|k|]; [| |exfalso; apply NS; left; auto].
    - pose proof (pass_fine e _ F) as F1. destruct (IH (run e p IWake) NS' F1) as (I1 & I2 & I3). destruct F as (W & _ & _). sp; auto.
      + intros b. rewrite I2. apply pass_kind; auto.
      + intros b j R. assert (T : left (run e p IWake) b j = left p b j) by (apply pass_touches_due; auto).
        rewrite I3, T; auto. intros t Ht. change (left (run e p IWake) b j = Some t) in Ht. rewrite T in Ht. apply R, Ht.
    - assert (E : p_sched (run e p (IStep k)) = p_sched p) by (cbn; destruct (existsb _ _); auto; destruct (quick _); auto).
      assert (F1 : fine (p_sched (run e p (IStep k)))) by (rewrite E; auto). destruct (IH _ NS' F1) as (I1 & I2 & I3). sp; auto.
      + intros b. rewrite I2, E. auto.
      + intros b j R. rewrite I3; unfold left; rewrite E; auto.
  Qed.
  (** waking up makes no coroutine begin *)
  Lemma wakes_begin_nothing e : forall n p, began (fold_left (run e) (repeat IWake n) p) = began p /\ ended (fold_left (run e) (repeat IWake n) p) = ended p.
  Proof. induction n as [|n IH]; intros p; cbn [repeat fold_left]; auto. destruct (IH (run e p IWake)) as [-> ->]. auto. Qed.
  Lemma stop_left e p a id : fine (p_sched p) ->
    left (run e p IStop) a id = match kind (p_sched p) a with
      | Some false => match left p a id with Some t => if is_shutdown t then None else Some t | None => None end
      | _ => None end.
  Proof.
    intros (W & A & B). cbn [run_item]. destruct (shutdown (p_sched p)) as [s' r] eqn:H. unfold left. cbn [p_sched].
    pose proof (shutdown_spec _ _ _ W H) as Q. rewrite B in Q. change (1 - 1 >? 0) with false in Q. unfold stopped in Q. rewrite A in Q. cbn [sstate_eqb] in Q. cbv beta iota in Q.
    destruct Q as (_ & _ & _ & _ & _ & _ & _ & _ & _ & Q1 & Q2 & _). unfold kind, stored. destruct (dget a (stores (p_sched p))) as [x|] eqn:G.
    - destruct (Q2 a x G) as (x' & -> & _ & _ & _ & L). rewrite L. cbn. destruct (s_memory x); auto.
    - destruct (dget a (stores s')) as [x'|] eqn:G'; auto. exfalso. assert (HS : has_store s' a) by (exists x'; auto). apply Q1 in HS as [y Gy]. congruence.
  Qed.
  Lemma stop_begins e p : began (run e p IStop) = began p /\ ended (run e p IStop) = ended p.
  Proof. cbn. destruct (shutdown (p_sched p)). auto. Qed.

  (** *** the call of a command *)
  Lemma body_fine e k s s2 r : fine s -> body c e k s = (s2, r) -> fine s2 /\ forall b, kind s2 b = kind s b.
  Proof.
    intros (W & A & B) H. assert (St : stopped s = false) by (unfold stopped; rewrite A; auto).
    assert (DONE : forall T (x : sched * result T), wf (fst x) -> st (fst x) = st s -> refc (fst x) = refc s -> (forall b, kind (fst x) b = kind s b) ->
      (fst x, match snd x with Ok _ => Ok tt | Err y => Err y end) = (s2, r) -> fine s2 /\ forall b, kind s2 b = kind s b).
    { intros T [z q] W1 E1 E2 K [= <- <-]. cbn [fst] in *. split; auto. split; auto. split; congruence. }
    destruct k; cbn [body] in H.
    - injection H as <- <-. split; [split; auto|auto].
    - destruct (lookup_task id None s) as [[t a]|]; [|injection H as <- <-; split; [split; auto|auto]].
      eapply DONE; [| | | |exact H]; [apply wf_update; auto|apply same_update|apply same_update|intros; apply update_kind].
    - eapply DONE; [| | | |exact H]; [apply wf_update; auto|apply same_update|apply same_update|intros; apply update_kind].
    - eapply DONE; [| | | |exact H]; [apply wf_resume_task; auto|apply same_resume_task|apply same_resume_task|intros; apply resume_kind].
    - eapply DONE; [| | | |exact H]; [apply wf_run_task; auto|apply same_run_task_st|apply same_run_task_st|intros; apply run_kind].
    - destruct (lookup_task id None s) as [[t a]|]; [|injection H as <- <-; split; [split; auto|auto]].
      eapply DONE; [| | | |exact H]; [apply wf_delete; auto|apply same_delete|apply same_delete|intros; apply delete_kind].
    - assert (Q : st (fst (add_task c e t false None s)) = st s /\ refc (fst (add_task c e t false None s)) = refc s).
      { unfold add_task. destruct (t_submitted t); auto. destruct (match t_sched t with Some _ => _ | None => _ end); auto. rewrite St.
        destruct (real_add_task _ _ _ _ _ _ _) as [s' r'] eqn:R. destruct (real_add_task_spec _ _ _ _ _ _ _ _ _ W R) as (_ & [] & _). auto. }
      destruct Q as [Q1 Q2]. eapply DONE; [| | | |exact H]; auto; [apply (wf_step c e (OAddTask t false None)); auto|intros; apply add_kind; auto].
  Qed.

  Lemma no_stop_repeat n : no_stop (repeat IWake n).
  Proof. intros H. apply repeat_spec in H. discriminate. Qed.
  Lemma no_stop_map l : no_stop (map IStep l).
  Proof. intros H. apply in_map_iff in H as (x & E & _). discriminate. Qed.
  Lemma no_stop_app l m : no_stop l -> no_stop m -> no_stop (l ++ m).
  Proof. intros A B H. apply in_app_iff in H. unfold no_stop in *. tauto. Qed.

  (** the process: first a started scheduler that holds what was saved, then the call, then what is queued *)
  Lemma main_spec e k d p r : saved c d -> main c coro e k d = (p, r) ->
    exists s1 s2 l, start c e false (fresh d) = (s1, Ok true) /\ body c e k s1 = (s2, r) /\ p_sched p = s2 /\ began p = [] /\ ended p = [] /\
      p_queue p = l ++ (if is_ok r || finally k then [IStop] else []) /\ no_stop l /\
      l = IWake :: map IStep (filter (fun k => coro (sub_id s2 k)) (seq 0 (List.length (subs s2)))) ++ repeat IWake (wakes_n s2 - 1) /\
      futures p = seq 0 (List.length (subs s2)).
  Proof.
    intros S. unfold main. destruct (start c e false (p_sched (MkProc (fresh d) [] [] [] []))) as [s1 r1] eqn:H. cbn [p_sched] in H.
    destruct (start_fresh c e d s1 r1 S H) as (-> & F & Hd & Su & _ & Wn & _). cbv beta iota. cbn [after_call p_sched p_queue futures began ended app].
    destruct (body c e k s1) as [s2 r2] eqn:Bo.
    assert (L : forall q, q = MkProc s2 (IWake :: map IStep (filter (fun k => coro (sub_id s2 k)) (seq 0 (List.length (subs s2)))) ++ repeat IWake (wakes_n s2 - 1)) (seq 0 (List.length (subs s2))) [] [] ->
       (if is_ok r2 || finally k then MkProc (p_sched q) (p_queue q ++ [IStop]) (futures q) (began q) (ended q) else q, r2) = (p, r) ->
       exists s1' s2' l, (s1, Ok true) = (s1', Ok true) /\ body c e k s1' = (s2', r) /\ p_sched p = s2' /\ began p = [] /\ ended p = [] /\
      p_queue p = l ++ (if is_ok r || finally k then [IStop] else []) /\ no_stop l /\
      l = IWake :: map IStep (filter (fun k => coro (sub_id s2' k)) (seq 0 (List.length (subs s2')))) ++ repeat IWake (wakes_n s2' - 1) /\
      futures p = seq 0 (List.length (subs s2'))).
    { intros q -> Q. exists s1, s2, (IWake :: map IStep (filter (fun k => coro (sub_id s2 k)) (seq 0 (List.length (subs s2)))) ++ repeat IWake (wakes_n s2 - 1)).
      split; auto. cbn [p_sched p_queue futures began ended] in Q.
      assert (NS : no_stop (IWake :: map IStep (filter (fun k => coro (sub_id s2 k)) (seq 0 (List.length (subs s2)))) ++ repeat IWake (wakes_n s2 - 1))).
      { apply (no_stop_app [IWake]); [intros [|[]]; discriminate|]. apply no_stop_app; [apply no_stop_map|apply no_stop_repeat]. }
      destruct (is_ok r2 || finally k) eqn:O; injection Q as <- <-; rewrite O; cbn [p_sched p_queue futures began ended]; sp; auto. rewrite app_nil_r. auto. }
    intros Q. rewrite H. apply (L _ eq_refl). rewrite <- Q. unfold after_call. cbn [p_sched p_queue futures began ended app]. rewrite Su, Wn. cbn [List.length wakes_n fresh subs]. change (0 - 0)%nat with 0%nat. change (1 - 0)%nat with 1%nat. rewrite Nat.sub_0_r. cbn [seq filter map app repeat]. reflexivity.
  Qed.

  (** the end of the process: what a pass cannot reach is as the call left it *)
  Lemma run_left e e' k d p r a id : saved c d -> run_command c coro quick e e' k d = (p, r) ->
    exists s1 s2, start c e false (fresh d) = (s1, Ok true) /\ body c e k s1 = (s2, r) /\
      (out_of_reach e' s2 a id ->
       match dget a d with
       | Some _ => (forall t, stored s2 a id = Some t -> t_trigger t <> TShutdown) -> left p a id = stored s2 a id
       | None => is_ok r = true -> left p a id = None
       end).
  Proof.
    intros S. unfold run_command. destruct (main c coro e k d) as [p0 r0] eqn:M. intros [= <- <-].
    destruct (main_spec e k d p0 r0 S M) as (s1 & s2 & l & H1 & Bo & E & _ & _ & Q & NS & _). exists s1, s2. sp; auto. intros R.
    destruct (start_fresh c e d s1 _ S H1) as (_ & F1 & Hd & _ & _ & _ & _ & Ki). destruct (body_fine e k s1 s2 r0 F1 Bo) as [F2 K2].
    rewrite Q, fold_left_app. rewrite <- E in F2. destruct (items_keep e' l p0 NS F2) as (I1 & I2 & I3). rewrite <- E in R. specialize (I3 a id R).
    assert (I4 : left (fold_left (run e') l p0) a id = stored s2 a id) by (rewrite I3; unfold left; rewrite E; reflexivity).
    assert (KK : kind (p_sched (fold_left (run e') l p0)) a = kind s1 a) by (rewrite I2, E; auto). rewrite Ki in KK.
    destruct (is_ok r0 || finally k) eqn:O; cbn [fold_left].
    - rewrite (stop_left e' _ a id I1), KK. destruct (dget a d) as [x|].
      + rewrite I4. intros T. destruct (stored s2 a id) as [t|]; auto. unfold is_shutdown. specialize (T t eq_refl). destruct (t_trigger t); auto; tauto.
      + destruct (String.eqb a "default"); auto.
    - destruct (dget a d); auto. intros Ok_. rewrite Ok_ in O. discriminate.
  Qed.
End Run.

(** ** C82: looking *)
Lemma look_shape c coro quick e e' d p r : saved c d -> run_command c coro quick e e' CLook d = (p, r) ->
  exists s1 q, start c e false (fresh d) = (s1, Ok true) /\ r = Ok tt /\
    p_sched q = fst (process_tasks c e' s1) /\ p = run_item c coro quick e' q IStop /\ fine (p_sched q) /\ (forall b, kind (p_sched q) b = kind s1 b).
Proof.
  intros S. unfold run_command. destruct (main c coro e CLook d) as [p0 r0] eqn:M. intros [= <- <-].
  destruct (main_spec c coro e CLook d p0 r0 S M) as (s1 & s2 & l & H1 & Bo & E & _ & _ & Q & NS & L & _). cbn [body] in Bo. injection Bo as <- <-.
  destruct (start_fresh c e d s1 _ S H1) as (_ & F1 & _ & Su & _ & Wn & _).
  exists s1, (run_item c coro quick e' p0 IWake). rewrite Q, L, Su, Wn. cbn [List.length seq filter map app repeat Nat.sub is_ok orb fold_left].
  sp; auto; try (cbn [run_item]; unfold after_call; cbn [p_sched]; rewrite E).
  - reflexivity.
  - apply pass_fine; auto.
  - intros b. apply pass_kind. apply F1.
Qed.
(** A command that only looks - list, status, doctor, instances, preview, inspect, timeline, update --dry-run -
    leaves a task alone that is not due, or whose store cannot be read. *)
Theorem C82_what_is_not_due_is_left_alone :
  forall (c : config) (coro quick : string -> bool) (e e' : envir) (d : dict store) (p : proc) (r : result unit) (a id : string) (t : task),
    saved c d -> run_command c coro quick e e' CLook d = (p, r) -> held d a id = Some t -> t_trigger t <> TShutdown ->
    ~ (readable e' a /\ is_due t_next (e_now e') t) -> r = Ok tt /\ left p a id = Some t.
Proof.
  intros c coro quick e e' d p r a id t S H Hd T N. destruct (look_shape c coro quick e e' d p r S H) as (s1' & q & H1' & -> & _). split; auto.
  destruct (run_left c coro quick e e' CLook d p _ a id S H) as (s1 & s2 & H1 & Bo & K).
  cbn [body] in Bo. injection Bo as <-. destruct (start_fresh c e d s1 _ S H1) as (_ & _ & St & _). rewrite St, Hd in K.
  assert (R : out_of_reach e' s1 a id) by (intros u Hu; rewrite St, Hd in Hu; injection Hu as <-; exact N).
  specialize (K R). unfold held in Hd. destruct (dget a d); [|discriminate]. apply K. intros u [= <-]; exact T.
Qed.
Print Assumptions C82_what_is_not_due_is_left_alone.
(** But the tasks that are due get what a running scheduler would do to them, but with the executor "default" only: a
    task of another executor is deleted; the others move on to their next fire time, or are deleted when there is
    none.  Nothing appears. *)
Theorem C82_looking_is_a_pass_over_the_due :
  forall (c : config) (coro quick : string -> bool) (e e' : envir) (d : dict store) (p : proc) (r : result unit) (a id : string),
    saved c d -> run_command c coro quick e e' CLook d = (p, r) -> e_plock e' = false -> triggers_answer c e' d ->
    match held d a id with
    | None => left p a id = None
    | Some t => t_trigger t <> TShutdown -> readable e' a -> is_due t_next (e_now e') t ->
        if match t_exec t with Some x => String.eqb x "default" | None => false end
        then jitter_free (t_trigger t) -> exists l n, l <> [] /\ fire_times (answer_after (c_fuel c) (t_trigger t)) (t_next t) l n /\
               Forall (fun x => x <= e_now e') l /\ after_instant (e_now e') n /\
               left p a id = option_map (fun x => set_next (Some x) t) n
        else left p a id = None
    end.
Proof.
  intros c coro quick e e' d p r a id S H PL TA. destruct (look_shape c coro quick e e' d p r S H) as (s1 & q & H1 & -> & E & -> & F & K).
  destruct (start_fresh c e d s1 _ S H1) as (_ & F1 & St & _ & _ & _ & X & Ki). destruct F1 as (W1 & R1 & _).
  assert (NE : no_empty_id s1). { intros b. rewrite St. destruct (held d b "") as [t|] eqn:G; auto. destruct (held_owned c d b "" t S G) as (_ & _ & Q). destruct (Q eq_refl). }
  rewrite stop_left by exact F. rewrite K, Ki.
  destruct (process_tasks c e' s1) as [s2 [dl|x]] eqn:P.
  2:{ exfalso. destruct (process_tasks_spec c e' s1 s2 (Err x) W1 R1 PL NE P) as (b & t & k & _ & S0 & D0 & Wk). rewrite St in S0.
      destruct (TA b (t_id t) t k S0 D0) as (y & Y). rewrite Y in Wk. discriminate. }
  destruct (process_leaves_nothing_due c e' s1 s2 dl W1 R1 PL NE P) as [A B].
  unfold left. rewrite E. cbn [fst]. destruct (held d a id) as [t|] eqn:Hd.
  - intros T Ra Du. assert (Sa : stored s1 a id = Some t) by (rewrite St; auto). destruct (B a id t Sa) as (_ & B2 & B3).
    assert (HD : exists x, dget a d = Some x) by (unfold held in Hd; destruct (dget a d); [eauto|discriminate]). destruct HD as [x ->].
    destruct (t_exec t) as [xa|] eqn:EX.
    + destruct (String.eqb_spec xa "default") as [->|Nx].
      * intros J. destruct (B3 "default"%string Ra Du eq_refl (proj2 (X _) eq_refl)) as (l & n & k & k' & L & Wk & S2).
        destruct (wake_exact _ _ _ _ _ _ _ _ J Wk) as (G1 & G2 & G3). exists l, n. sp; auto. rewrite S2. destruct n as [y|]; cbn; auto.
        unfold is_shutdown. cbn. destruct (t_trigger t); auto; tauto.
      * rewrite (B2 Ra Du); [reflexivity|]. intros (y & [= <-] & Q). apply X in Q. tauto.
    + rewrite (B2 Ra Du); [reflexivity|]. intros (y & Q & _). discriminate.
  - rewrite (A a id) by (rewrite St; auto). destruct (dget a d); auto. destruct (String.eqb a "default"); auto.
Qed.
Print Assumptions C82_looking_is_a_pass_over_the_due.
(** And no coroutine of a due task begins: it is submitted in the last round of the loop and cancelled. *)
Theorem C82_nothing_begins :
  forall (c : config) (coro quick : string -> bool) (e e' : envir) (k : command) (d : dict store) (p : proc) (r : result unit),
    saved c d -> run_command c coro quick e e' k d = (p, r) -> (forall id, k <> CRun id) -> began p = [] /\ ended p = [].
Proof.
  intros c coro quick e e' k d p r S. unfold run_command. destruct (main c coro e k d) as [p0 r0] eqn:M. intros [= <- <-] N.
  destruct (main_spec c coro e k d p0 r0 S M) as (s1 & s2 & l & H1 & Bo & E & Be & En & Q & _ & L & _).
  destruct (start_fresh c e d s1 _ S H1) as (_ & (W1 & A1 & _) & _ & Su & _ & _ & _). assert (St : stopped s1 = false) by (unfold stopped; rewrite A1; auto).
  assert (S2 : subs s2 = []).
  { rewrite <- Su. destruct k; cbn [body] in Bo.
    - injection Bo as <- <-; auto.
    - destruct (lookup_task id None s1) as [[t a]|]; injection Bo as <- <-; auto. apply same_update.
    - injection Bo as <- <-. apply same_update.
    - injection Bo as <- <-. apply same_resume_task.
    - exfalso. exact (N id eq_refl).
    - destruct (lookup_task id None s1) as [[t a]|]; injection Bo as <- <-; auto. apply same_delete.
    - injection Bo as <- <-. unfold add_task. destruct (t_submitted t); auto. destruct (match t_sched t with Some _ => _ | None => _ end); auto. rewrite St.
      destruct (real_add_task _ _ _ _ _ _ _) as [s' r'] eqn:R. destruct (real_add_task_spec _ _ _ _ _ _ _ _ _ W1 R) as (_ & [] & _). auto. }
  rewrite S2 in L. cbn [List.length seq filter map app] in L. change (IWake :: repeat IWake (wakes_n s2 - 1)) with (repeat IWake (Datatypes.S (wakes_n s2 - 1))) in L.
  rewrite Q, L, fold_left_app. destruct (wakes_begin_nothing c coro quick e' (Datatypes.S (wakes_n s2 - 1)) p0) as [G1 G2].
  destruct (is_ok r0 || finally k); cbn [fold_left]; [|rewrite G1, G2; auto].
  destruct (stop_begins c coro quick e' (fold_left (run_item c coro quick e') (repeat IWake (Datatypes.S (wakes_n s2 - 1))) p0)) as [-> ->]. rewrite G1, G2. auto.
Qed.
Print Assumptions C82_nothing_begins.
(** So a one-shot task whose time has come is lost by looking: it is gone from the store and never began. *)
Theorem C82_looking_loses_a_due_one_shot :
  forall (c : config) (coro quick : string -> bool) (e e' : envir) (d : dict store) (p : proc) (r : result unit) (a id : string) (t : task) (x : Z),
    saved c d -> run_command c coro quick e e' CLook d = (p, r) -> e_plock e' = false -> triggers_answer c e' d -> readable e' a ->
    held d a id = Some t -> t_trigger t = TDate x -> t_next t = Some x -> x <= e_now e' ->
    r = Ok tt /\ left p a id = None /\ began p = [].
Proof.
  intros c coro quick e e' d p r a id t x S H PL TA Ra Hd T Nx Le.
  pose proof (C82_looking_is_a_pass_over_the_due c coro quick e e' d p r a id S H PL TA) as Q. rewrite Hd in Q.
  assert (Nt : t_trigger t <> TShutdown) by (rewrite T; discriminate). specialize (Q Nt Ra (ex_intro _ x (conj Nx Le))).
  destruct (C82_nothing_begins c coro quick e e' CLook d p r S H) as [B _]; [discriminate|]. destruct (look_shape c coro quick e e' d p r S H) as (_ & _ & _ & -> & _). sp; auto.
  destruct (match t_exec t with Some y => _ | None => false end); auto.
  assert (J : jitter_free (t_trigger t)) by (rewrite T; cbn; auto). destruct (Q J) as (l & n & Nl & Fi & _ & Af & ->).
  destruct n as [y|]; auto. exfalso. rewrite T, Nx in Fi. inversion Fi as [|? n' l' ? An Fi']; subst; [congruence|].
  specialize (An (fun _ _ => 0) x (Z.le_refl x)). cbn in An. injection An as <-. inversion Fi'.
Qed.
Print Assumptions C82_looking_loses_a_due_one_shot.

(** A concrete case: `asyncz list` on a file that holds a report due three seconds ago and a recurring task of the
    executor "reports" of the long-running scheduler, at five seconds past; both are gone, and neither was run. *)
Definition in_store (a : string) (t : task) : task :=
  MkTask (t_id t) (t_name t) (t_trigger t) (t_next t) (t_exec t) (Some a) (t_grace t) (t_coalesce t) (t_max t) (t_fn t) (t_ref t) (t_args t) (t_kwargs t) (t_sched t) (t_pending t) (t_submitted t).
Definition ex_before : sched :=
  run_ops ex_cfg [(quiet 0, OAddStore "db" false); (quiet 0, OAddExecutor "reports"); (quiet 0, OStart false);
     (quiet 0, OAddTask (in_store "db" (ex_task "report" (TDate (sec 2)) "default" 5)) false None);
     (quiet 0, OAddTask (in_store "db" (ex_task "hourly" (every 3600 None) "reports" 5)) false (Some (Some (sec 4))));
     (quiet 0, OAddTask (in_store "db" (ex_task "tick" (every 2 None) "default" 5)) false None);
     (quiet 0, OAddTask (in_store "db" (ex_task "later" (TDate (sec 60)) "default" 5)) false None)] sched_init.
Definition ex_db : store := match dget "db" (stores ex_before) with Some x => x | None => new_store false end.
Definition ex_saved : dict store := [("db"%string, ex_db)].
Lemma ex_is_saved : saved ex_cfg ex_saved.
Proof.
  split; [repeat constructor; intros []|]. intros a x G. cbn [ex_saved dget] in G. destruct (String.eqb_spec a "db") as [->|]; [|discriminate]. assert (x = ex_db) as -> by congruence.
  split; [vm_compute; reflexivity|]. split; [vm_compute; reflexivity|]. exists ex_cfg, ex_before, ex_db. split; [reflexivity|]. split; [eexists; reflexivity|]. split; [vm_compute; reflexivity|reflexivity].
Qed.
Lemma held_In c d a id t x : saved c d -> dget a d = Some x -> held d a id = Some t -> In t (ms_all (s_mem x)).
Proof.
  intros S G H. unfold held in H. rewrite G in H. pose proof (wf_inv _ (fresh_wf c d S) a x G) as I.
  apply (content_In t_id t_next (s_mem x) id t I) in H. tauto.
Qed.
Lemma ex_answers : triggers_answer ex_cfg (quiet (sec 5)) ex_saved.
Proof.
  intros a id t k H D. assert (a = "db"%string) as ->. { unfold held in H. cbn [ex_saved dget] in H. destruct (String.eqb_spec a "db"); [auto|discriminate]. }
  apply (held_In ex_cfg ex_saved "db" id t ex_db ex_is_saved eq_refl) in H. assert (F : Forall (fun t => exists r, wake (c_fuel ex_cfg) (c_oracle ex_cfg) k t (e_now (quiet (sec 5))) = Ok r) (ms_all (s_mem ex_db))).
  { let v := eval vm_compute in (ms_all (s_mem ex_db)) in change (ms_all (s_mem ex_db)) with v. repeat constructor; eexists; vm_compute; reflexivity. }
  rewrite Forall_forall in F. apply F, H.
Qed.
Example ex_list :
  map (fun id => option_map t_next (held ex_saved "db" id)) ["report"; "hourly"; "tick"; "later"]%string = [Some (Some (sec 2)); Some (Some (sec 4)); Some (Some 0); Some (Some (sec 60))] /\
  let p := fst (run_command ex_cfg (fun _ => true) (fun _ => true) (quiet (sec 5)) (quiet (sec 5)) CLook ex_saved) in
  map (fun id => option_map t_next (left p "db" id)) ["report"; "hourly"; "tick"; "later"]%string = [None; None; Some (Some (sec 6)); Some (Some (sec 60))] /\
  began p = [] /\ map sub_task (subs (p_sched p)) = ["tick"; "report"]%string.
Proof. vm_compute. repeat split. Qed.
(** "The commands that only look change no stored task" is false. *)
Theorem C82_looking_refuted :
  exists c coro quick e e' d p r a id t, saved c d /\ run_command c coro quick e e' CLook d = (p, r) /\ held d a id = Some t /\ left p a id = None /\ began p = [].
Proof.
  exists ex_cfg, (fun _ => true), (fun _ => true), (quiet (sec 5)), (quiet (sec 5)), ex_saved.
  destruct (run_command ex_cfg (fun _ => true) (fun _ => true) (quiet (sec 5)) (quiet (sec 5)) CLook ex_saved) as [p r] eqn:H.
  exists p, r, "db"%string, "report"%string. destruct (held ex_saved "db" "report") as [t|] eqn:Hd; [|vm_compute in Hd; discriminate].
  exists t. split; [exact ex_is_saved|]. split; [reflexivity|]. split; [reflexivity|].
  assert (Tt : t_trigger t = TDate (sec 2) /\ t_next t = Some (sec 2)) by (vm_compute in Hd; injection Hd as <-; auto). destruct Tt as [T1 T2].
  destruct (C82_looking_loses_a_due_one_shot _ _ _ _ _ _ _ _ _ _ _ _ ex_is_saved H eq_refl ex_answers (conj eq_refl eq_refl) Hd T1 T2) as (_ & A & B); [unfold quiet, sec, us; cbn; lia|]. auto.
Qed.
Print Assumptions C82_looking_refuted.

(** ** C83: the commands that change something *)
(** the id a command is about *)
Definition about (k : command) : option string :=
  match k with CLook => None | CUpdate id _ _ | CPause id | CResume id | CRun id | CRemove id => Some id | CAdd t => Some (t_id t) end.

Lemma update_touch c id want fn ups s b j : wf s -> stopped s = false -> j <> id -> stored (fst (update c id want fn ups s)) b j = stored s b j.
Proof.
  intros W St N. destruct (update c id want fn ups s) as [s' r] eqn:U. destruct (update_running c id want fn ups s s' r W St U) as [_ Q]. cbn [fst]. destruct r as [t'|x].
  - destruct Q as (a & t & _ & _ & _ & _ & _ & O & _). rewrite (O b j). destruct (String.eqb_spec j id); [tauto|]. rewrite andb_false_r. auto.
  - destruct Q as [-> _]. auto.
Qed.
Lemma delete_touch_any id want s b j : wf s -> j <> id -> stored (fst (delete_task id want s)) b j = stored s b j.
Proof.
  intros W N. unfold stored, delete_task. destruct (String.eqb id ""); auto. destruct (stopped s).
  - destruct (del_pending want id (pend s)) as [l r]. destruct (match r with Some x => x | None => None end); auto.
  - pose proof (del_stores_touch want id (stores s) b j N (wf_keys _ W) (wf_inv _ W)) as H. destruct (del_stores want id (stores s)) as [l r]. cbn in H. destruct r; cbn; auto.
Qed.
Lemma run_touch c e id want f rf s b j : wf s -> stopped s = false -> j <> id -> stored (fst (run_task c e id want f rf s)) b j = stored s b j.
Proof.
  intros W St N. unfold run_task, ask. rewrite St. pose proof (lookup_running id want s W St) as LK. destruct (lookup_task id want s) as [[t w]|]; auto. destruct LK as (a0 & -> & _ & _ & It).
  destruct (get_run_times _ _ _ _ _) as [[due k]|]; auto. destruct (negb (nonempty due) && negb f); auto.
  destruct (if nonempty due then _ else _) as [times n]. destruct (t_exec t) as [xa|]; auto. destruct (negb (dmem xa (execs (w_draws k s)))); auto.
  destruct (send_same e xa t times (w_draws k s)) as (E1 & E2 & _). destruct (send_task e xa t times (w_draws k s)) as [s1 r1]. cbn [fst] in E1, E2.
  assert (K1 : forall s', stores s' = stores s1 -> stored s' b j = stored s b j) by (intros s' E; apply stored_same; rewrite E; exact E1).
  destruct r1 as [u|x]; [|destruct x; apply K1; reflexivity].
  destruct (last_opt times) as [lt|]; [|apply K1; reflexivity]. set (s2 := w_draws _ _). assert (K2 : stored s2 b j = stored s b j) by (apply K1; reflexivity).
  assert (W2 : wf s2) by (apply (wf_same s); auto). clearbody s2.
  assert (UP : forall y, (b, j) <> (a0, t_id (set_next y t))) by (intros y [= _ E]; cbn in E; congruence).
  destruct (answers _ _ _ _ _ _) as [nx|]; auto. destruct (match nx with Some x => _ | None => None end) as [y|].
  - pose proof (store_update_touch a0 (set_next (Some y) t) s2 b j W2 (UP _)) as H. destruct (store_update _ _ _) as [s4 [u4|x4]]; cbn in *; congruence.
  - destruct rf.
    + pose proof (delete_touch_any id (Some a0) s2 b j W2 N) as H. destruct (delete_task _ _ _) as [s4 [u4|x4]]; cbn in *; congruence.
    + pose proof (store_update_touch a0 (set_next None t) s2 b j W2 (UP _)) as H. destruct (store_update _ _ _) as [s4 [u4|x4]]; cbn in *; congruence.
Qed.
Lemma resume_touch c e id want s b j : wf s -> stopped s = false -> j <> id -> stored (fst (resume_task c e id want s)) b j = stored s b j.
Proof.
  intros W St N. unfold resume_task, ask. pose proof (lookup_running id want s W St) as LK. destruct (lookup_task id want s) as [[t w]|]; auto. destruct LK as (a0 & -> & _ & _ & It).
  destruct (answers _ _ _ _ _ _) as [[n|]|]; auto; set (s1 := w_draws _ _); assert (W1 : wf s1) by (apply (wf_same s); auto).
  - pose proof (update_touch c id (Some a0) VNone [("next_run_time"%string, VDate n)] s1 b j W1 St N) as H. destruct (update _ _ _ _ _ _). exact H.
  - pose proof (delete_touch_any (t_id t) (Some a0) s1 b j W1 ltac:(congruence)) as H. destruct (delete_task _ _ _). exact H.
Qed.
Lemma body_touch c e k s s2 r b j : fine s -> body c e k s = (s2, r) -> about k <> Some j -> stored s2 b j = stored s b j.
Proof.
  intros (W & A & B) H N. assert (St : stopped s = false) by (unfold stopped; rewrite A; auto).
  assert (NE : forall id, about k = Some id -> j <> id) by (intros id E; congruence).
  destruct k; cbn [body about] in *; try specialize (NE _ eq_refl).
  - injection H as <- <-. auto.
  - destruct (lookup_task id None s) as [[t a]|]; injection H as <- <-; auto. apply update_touch; auto.
  - injection H as <- <-. apply update_touch; auto.
  - injection H as <- <-. apply resume_touch; auto.
  - injection H as <- <-. apply run_touch; auto.
  - destruct (lookup_task id None s) as [[t a]|]; injection H as <- <-; auto. apply delete_touch_any; auto.
  - injection H as <- <-. unfold add_task. destruct (t_submitted t); auto. destruct (match t_sched t with Some _ => _ | None => _ end); auto. rewrite St.
    destruct (real_add_task _ _ _ _ _ _ _) as [s' r'] eqn:R. cbn [fst]. destruct (real_add_task_spec _ _ _ _ _ _ _ _ _ W R) as (_ & _ & Q). destruct r' as [u|x].
    + destruct Q as (al & n & _ & _ & _ & _ & Sp & _). rewrite (Sp b j). cbn. destruct (String.eqb_spec j (t_id t)); [tauto|]. rewrite andb_false_r. auto.
    + destruct Q as (Q & _). auto.
Qed.
(** Every command leaves alone what it is not about and what is not due, whether it succeeds or fails. *)
Theorem C83_other_tasks_left_alone :
  forall (c : config) (coro quick : string -> bool) (e e' : envir) (k : command) (d : dict store) (p : proc) (r : result unit) (a id : string) (t : task),
    saved c d -> run_command c coro quick e e' k d = (p, r) -> about k <> Some id -> held d a id = Some t -> t_trigger t <> TShutdown ->
    ~ (readable e' a /\ is_due t_next (e_now e') t) -> left p a id = Some t.
Proof.
  intros c coro quick e e' k d p r a id t S H Ab Hd T N. destruct (run_left c coro quick e e' k d p r a id S H) as (s1 & s2 & H1 & Bo & K).
  destruct (start_fresh c e d s1 _ S H1) as (_ & F1 & St & _). pose proof (body_touch c e k s1 s2 r a id F1 Bo Ab) as E. rewrite St, Hd in E.
  assert (R : out_of_reach e' s2 a id) by (intros u Hu; rewrite E in Hu; injection Hu as <-; exact N).
  specialize (K R). unfold held in Hd. destruct (dget a d); [|discriminate]. rewrite <- E. apply K. intros u Hu. rewrite E in Hu. injection Hu as <-. exact T.
Qed.
Print Assumptions C83_other_tasks_left_alone.

(** pause: a store that holds the id keeps the task, without a next run time; no such task is an error. *)
Theorem C83_pause :
  forall (c : config) (coro quick : string -> bool) (e e' : envir) (id : string) (d : dict store) (p : proc) (r : result unit),
    saved c d -> run_command c coro quick e e' (CPause id) d = (p, r) ->
    (r = Err TaskLookupError /\ forall a, held d a id = None) \/
    (r = Ok tt /\ exists a t, held d a id = Some t /\ (t_trigger t <> TShutdown -> left p a id = Some (set_next None t))).
Proof.
  intros c coro quick e e' id d p r S H.
  assert (L : forall a, exists s1 s2, start c e false (fresh d) = (s1, Ok true) /\ body c e (CPause id) s1 = (s2, r) /\ (out_of_reach e' s2 a id ->
       match dget a d with Some _ => (forall t, stored s2 a id = Some t -> t_trigger t <> TShutdown) -> left p a id = stored s2 a id | None => is_ok r = true -> left p a id = None end)).
  { intros a. exact (run_left c coro quick e e' (CPause id) d p r a id S H). }
  destruct (L ""%string) as (s1 & s2 & H1 & Bo & _). destruct (start_fresh c e d s1 _ S H1) as (_ & (W1 & R1 & _) & St & _).
  assert (Sp : stopped s1 = false) by (unfold stopped; rewrite R1; auto).
  cbn [body] in Bo. unfold pause_task in Bo. destruct (update c id None VNone [("next_run_time"%string, VNone)] s1) as [z q] eqn:U. injection Bo as <- <-.
  destruct (update_running c id None VNone _ s1 z q W1 Sp U) as [_ Q]. cbn [fst snd]. destruct q as [t'|x].
  - right. split; auto. destruct Q as (a & t & _ & S1 & _ & _ & Up & O & _). rewrite St in S1. exists a, t. split; auto. intros T.
    destruct (held_owned c d a id t S S1) as (_ & Ow & _). pose proof (upd_next c t None Ow) as Un. cbn [opt_date] in Un. rewrite Un in Up. injection Up as <-.
    destruct (L a) as (s1' & s2' & H1' & Bo' & K). rewrite H1 in H1'. injection H1' as <-. cbn [body] in Bo'. unfold pause_task in Bo'. rewrite U in Bo'. cbn [fst snd] in Bo'. injection Bo' as <-.
    pose proof (O a id) as Oa. rewrite !String.eqb_refl in Oa. cbn [andb] in Oa. rewrite Oa in K.
    assert (HD : exists x, dget a d = Some x) by (unfold held in S1; destruct (dget a d); [eauto|discriminate]). destruct HD as [x Hx]. rewrite Hx in K.
    apply K; [intros u Hu; rewrite Oa in Hu; injection Hu as <-; intros (_ & y & Ny & _); discriminate|intros u [= <-]; exact T].
  - left. destruct Q as [_ [[-> Q]|(a & t & t' & _ & S1 & _ & Up)]]; [split; auto; intros a; rewrite <- St; apply Q; auto|].
    exfalso. rewrite St in S1. destruct (held_owned c d a id t S S1) as (_ & Ow & _). pose proof (upd_next c t None Ow) as Un. cbn [opt_date] in Un. rewrite Un in Up. discriminate.
Qed.
Print Assumptions C83_pause.
(** remove: it is gone from a store that held it. *)
Theorem C83_remove :
  forall (c : config) (coro quick : string -> bool) (e e' : envir) (id : string) (d : dict store) (p : proc) (r : result unit),
    saved c d -> run_command c coro quick e e' (CRemove id) d = (p, r) ->
    (r = Err TaskLookupError /\ forall a, held d a id = None) \/
    (r = Ok tt /\ exists a t, held d a id = Some t /\ left p a id = None).
Proof.
  intros c coro quick e e' id d p r S H. pose proof (fun a => run_left c coro quick e e' (CRemove id) d p r a id S H) as L.
  destruct (L ""%string) as (s1 & s2 & H1 & Bo & _). destruct (start_fresh c e d s1 _ S H1) as (_ & (W1 & R1 & _) & St & _).
  assert (Sp : stopped s1 = false) by (unfold stopped; rewrite R1; auto). assert (Bo0 := Bo).
  cbn [body] in Bo. pose proof (lookup_running id None s1 W1 Sp) as LK. destruct (lookup_task id None s1) as [[t w]|x].
  - destruct LK as (a & -> & _ & S1 & _). rewrite St in S1. destruct (held_owned c d a id t S S1) as (_ & _ & Ne).
    pose proof (delete_task_spec id (Some a) s1 W1 Sp Ne) as D. destruct (delete_task id (Some a) s1) as [z q]. destruct D as (_ & _ & _ & _ & _ & [(_ & _ & _ & D)|(b & u & -> & Wb & _ & _ & D & _)]).
    { exfalso. specialize (D a (String.eqb_refl a)). rewrite St in D. congruence. }
    cbn in Wb. apply String.eqb_eq in Wb. subst b. injection Bo as <- <-. right. split; auto. exists a, t. split; auto. cbn [fst snd] in *.
    assert (Dn : stored z a id = None) by (rewrite D, !String.eqb_refl; reflexivity).
    destruct (L a) as (s1' & s2' & H1' & Bo' & K). rewrite H1 in H1'. injection H1' as <-. rewrite Bo0 in Bo'. injection Bo' as <-. rewrite Dn in K.
    assert (HD : exists x, dget a d = Some x) by (unfold held in S1; destruct (dget a d); [eauto|discriminate]). destruct HD as [x Hx]. rewrite Hx in K.
    apply K; [intros u0 Hu; rewrite Dn in Hu; discriminate|discriminate].
  - left. injection Bo as <- <-. destruct LK as [-> LK]. split; auto. intros a. rewrite <- St. apply LK. auto.
Qed.
Print Assumptions C83_remove.
(** resume: the task gets the first answer of its trigger, and keeps it unless it is due again before the process
    is over; without an answer it is gone. *)
Theorem C83_resume :
  forall (c : config) (coro quick : string -> bool) (e e' : envir) (id : string) (d : dict store) (p : proc),
    saved c d -> run_command c coro quick e e' (CResume id) d = (p, Ok tt) ->
    exists a t k n, held d a id = Some t /\ answers (c_fuel c) (c_oracle c) (t_trigger t) (e_now e) k None = Ok n /\
      match n with
      | None => left p a id = None
      | Some x => t_trigger t <> TShutdown -> e_now e' < x -> left p a id = Some (set_next (Some x) t)
      end.
Proof.
  intros c coro quick e e' id d p S H. pose proof (fun a => run_left c coro quick e e' (CResume id) d p _ a id S H) as L.
  destruct (L ""%string) as (s1 & s2 & H1 & Bo & _). destruct (start_fresh c e d s1 _ S H1) as (_ & (W1 & R1 & _) & St & _).
  assert (Sp : stopped s1 = false) by (unfold stopped; rewrite R1; auto). assert (Bo0 := Bo).
  cbn [body] in Bo. unfold resume_task, ask in Bo. pose proof (lookup_running id None s1 W1 Sp) as LK. destruct (lookup_task id None s1) as [[t w]|x]; [|discriminate].
  destruct LK as (a & -> & _ & S1 & It). rewrite St in S1. destruct (held_owned c d a id t S S1) as (_ & Ow & Ne).
  destruct (answers (c_fuel c) (c_oracle c) (t_trigger t) (e_now e) (draws s1) None) as [n|] eqn:An; [|discriminate].
  set (s1' := w_draws (Datatypes.S (draws s1)) s1) in *. assert (W1' : wf s1') by (apply (wf_same s1); auto).
  exists a, t, (draws s1), n. split; [exact S1|]. split; [exact An|].
  assert (HD : exists x, dget a d = Some x) by (unfold held in S1; destruct (dget a d); [eauto|discriminate]). destruct HD as [x0 Hx].
  destruct (L a) as (s1'' & s2' & H1' & Bo' & K). rewrite H1 in H1'. injection H1' as <-. rewrite Bo0 in Bo'. injection Bo' as <-. rewrite Hx in K.
  destruct n as [x|].
  - intros T Lt. destruct (update c id (Some a) VNone [("next_run_time"%string, VDate x)] s1') as [z q] eqn:U. cbn [fst snd] in Bo.
    destruct (update_running c id (Some a) VNone _ s1' z q W1' Sp U) as [_ Q]. destruct q as [t'|y]; [|discriminate]. injection Bo as <-.
    destruct Q as (b & u & Wb & Sb & _ & _ & Up & O & _). cbn in Wb. apply String.eqb_eq in Wb. subst b.
    change (stored s1 a id = Some u) in Sb. rewrite St, S1 in Sb. injection Sb as <-. pose proof (upd_next c t (Some x) Ow) as Un. cbn [opt_date] in Un. rewrite Un in Up. injection Up as <-.
    pose proof (O a id) as Oa. rewrite !String.eqb_refl in Oa. cbn [andb] in Oa. rewrite Oa in K.
    apply K; [intros u Hu; rewrite Oa in Hu; injection Hu as <-; intros (_ & y & Ny & Ly); cbn in Ny; injection Ny as <-; lia|intros u [= <-]; exact T].
  - assert (Ni : t_id t <> ""%string) by congruence. pose proof (delete_task_spec (t_id t) (Some a) s1' W1' Sp Ni) as D. destruct (delete_task (t_id t) (Some a) s1') as [z q]. cbn [fst snd] in Bo.
    destruct q as [u|y]; [|discriminate]. injection Bo as <-. destruct D as (_ & _ & _ & _ & _ & [(D & _)|(b & u0 & _ & Wb & _ & _ & D & _)]); [discriminate|].
    cbn in Wb. apply String.eqb_eq in Wb. subst b. assert (Dn : stored z a id = None) by (rewrite D, It, !String.eqb_refl; reflexivity). rewrite Dn in K.
    apply K; [intros u1 Hu; rewrite Dn in Hu; discriminate|discriminate].
Qed.
Print Assumptions C83_resume.
Lemma store_update_wakes a t s : wakes_n (fst (store_update a t s)) = wakes_n s.
Proof. unfold store_update. destruct (dget a (stores s)); auto. destruct (st_update _ _). auto. Qed.
Lemma delete_wakes id a s : wakes_n (fst (delete_task id a s)) = wakes_n s.
Proof.
  unfold delete_task. destruct (String.eqb id ""); auto. destruct (stopped s).
  - destruct (del_pending a id (pend s)) as [l r]. destruct (match r with Some x => x | None => None end); auto.
  - destruct (del_stores a id (stores s)) as [l r]. destruct r; cbn; auto.
Qed.
Lemma run_one_sub c e id s s2 r : wf s -> stopped s = false -> subs s = [] -> run_task c e id None true true s = (s2, Ok r) ->
  exists u, subs s2 = [u] /\ sub_task u = id /\ wakes_n s2 = wakes_n s.
Proof.
  intros W St Su H. unfold run_task, ask in H. rewrite St in H. pose proof (lookup_running id None s W St) as LK. destruct (lookup_task id None s) as [[t w]|x]; [|discriminate].
  destruct LK as (a & -> & _ & _ & It). destruct (get_run_times _ _ _ _ _) as [[due k]|]; [|discriminate]. rewrite andb_false_r in H.
  destruct (if nonempty due then _ else _) as [times n]. destruct (t_exec t) as [xa|]; [|discriminate]. destruct (negb (dmem xa (execs (w_draws k s)))); [discriminate|].
  unfold send_task in H. destruct (count (t_id t) (w_draws k s) >=? t_max t); [discriminate|]. destruct (e_send_fails e xa (t_id t)); [discriminate|].
  destruct (last_opt times) as [lt|]; [|discriminate].
  match type of H with context [answers _ _ _ _ (draws ?z) _] => set (s1 := z) in * end.
  assert (S1 : subs s1 = [MkSub xa (t_id t) times (t_max t)] /\ wakes_n s1 = wakes_n s) by (subst s1; cbn; rewrite Su; auto). clearbody s1.
  destruct (answers _ _ _ _ _ _) as [nx|]; [|discriminate]. set (s3 := w_draws _ s1) in *. assert (S3 : subs s3 = [MkSub xa (t_id t) times (t_max t)] /\ wakes_n s3 = wakes_n s) by exact S1. clearbody s3.
  destruct S3 as [S3 S4]. exists (MkSub xa (t_id t) times (t_max t)). cbn [sub_task].
  destruct (match nx with Some x => _ | None => None end) as [y|].
  - destruct (store_update_other a (set_next (Some y) t) s3) as [E1 _]. pose proof (store_update_wakes a (set_next (Some y) t) s3) as E2.
    destruct (store_update _ _ _) as [s4 [u4|x4]]; injection H as <- ?; [|discriminate]. cbn in *. rewrite E1, E2. auto.
  - pose proof (delete_subs (Some a) id s3) as E1. pose proof (delete_wakes id (Some a) s3) as E2.
    destruct (delete_task _ _ _) as [s4 [u4|x4]]; injection H as <- ?; [|discriminate]. cbn in *. rewrite E1, E2. auto.
Qed.
Lemma sub_id_pass s s' k : acc2 s s' -> (k < List.length (subs s))%nat -> sub_id s' k = sub_id s k.
Proof.
  intros [(us & E & _) _] L. unfold sub_id. rewrite E, nth_error_app1; auto.
Qed.
(** run: the coroutine of a task begins - once, and alone - and runs up to its first wait; only one that never waits
    comes to its end. *)
Theorem C83_run :
  forall (c : config) (coro quick : string -> bool) (e e' : envir) (id : string) (d : dict store) (p : proc),
    saved c d -> run_command c coro quick e e' (CRun id) d = (p, Ok tt) ->
    (exists u us, subs (p_sched p) = u :: us /\ sub_task u = id) /\
    began p = (if coro id then [0%nat] else []) /\ ended p = (if coro id && quick id then [0%nat] else []).
Proof.
  intros c coro quick e e' id d p S. unfold run_command. destruct (main c coro e (CRun id) d) as [p0 r0] eqn:M. intros [= <- ->].
  destruct (main_spec c coro e (CRun id) d p0 _ S M) as (s1 & s2 & l & H1 & Bo & E & Be & En & Q & _ & L & Fu).
  destruct (start_fresh c e d s1 _ S H1) as (_ & (W1 & A1 & R1) & _ & Su & _ & Wn & _). assert (St : stopped s1 = false) by (unfold stopped; rewrite A1; auto).
  cbn [body] in Bo. destruct (run_task c e id None true true s1) as [z [q|x]] eqn:RT; [|discriminate]. injection Bo as ->.
  destruct (run_one_sub c e id s1 s2 q W1 St Su RT) as (u & S2 & I2 & Wk). rewrite S2 in L, Fu. rewrite Wk, Wn in L. cbn [List.length seq filter repeat Nat.sub] in L, Fu.
  assert (Si : sub_id s2 0 = id) by (unfold sub_id; rewrite S2; exact I2). rewrite Si in L. rewrite Q. cbn [is_ok orb]. rewrite L.
  set (q1 := run_item c coro quick e' p0 IWake).
  assert (Q1 : acc2 s2 (p_sched q1) /\ began q1 = [] /\ ended q1 = [] /\ exists f, futures q1 = 0%nat :: f).
  { subst q1. cbn [run_item after_call p_sched began ended futures]. rewrite E, Fu. split; [apply acc2_process|]. split; auto. split; auto. eexists. reflexivity. }
  destruct Q1 as (Ac & Be1 & En1 & f & Fu1).
  assert (Sj : sub_id (p_sched q1) 0 = id) by (rewrite (sub_id_pass s2 _ 0 Ac); [exact Si|rewrite S2; cbn; lia]).
  assert (Hs : exists us, subs (p_sched q1) = u :: us) by (destruct Ac as [(us & Eu & _) _]; rewrite S2 in Eu; exists us; exact Eu).
  assert (STOP : forall y, subs (p_sched (run_item c coro quick e' y IStop)) = subs (p_sched y)).
  { intros y. cbn [run_item]. pose proof (same_shutdown (p_sched y)) as [_ K]. destruct (shutdown (p_sched y)). exact K. }
  destruct Hs as (us & Hs). rewrite app_nil_r. cbn [app fold_left]. fold q1. destruct (coro id) eqn:C; cbn [map app fold_left andb].
  - set (q2 := run_item c coro quick e' q1 (IStep 0)).
    assert (Q2 : p_sched q2 = p_sched q1 /\ began q2 = [0%nat] /\ ended q2 = if quick id then [0%nat] else []).
    { subst q2. cbn [run_item]. rewrite Fu1, Sj, Be1, En1. cbn [existsb Nat.eqb orb]. destruct (quick id); auto. }
    destruct Q2 as (P2 & B2 & E2). destruct (stop_begins c coro quick e' q2) as [-> ->]. rewrite STOP, P2. split; [exists u, us; auto|auto].
  - destruct (stop_begins c coro quick e' q1) as [-> ->]. rewrite STOP. split; [exists u, us; auto|auto].
Qed.
Print Assumptions C83_run.
(** add: in a saved store the task is kept, with its first run time, unless it is due before the process is over;
    without a saved store of that name it goes to the memory of the process and is lost. *)
Theorem C83_add :
  forall (c : config) (coro quick : string -> bool) (e e' : envir) (t : task) (d : dict store) (p : proc),
    saved c d -> t_submitted t = false -> (t_sched t = None \/ t_sched t = Some (c_self c)) ->
    run_command c coro quick e e' (CAdd t) d = (p, Ok tt) ->
    let a := or_default (t_store t) in
    exists n, first_run c (e_now e) t None n /\
      match dget a d with
      | Some _ => held d a (t_id t) = None /\
                  (t_trigger t <> TShutdown -> (forall x, n = Some x -> e_now e' < x) -> left p a (t_id t) = Some (kept (c_self c) t false n))
      | None => (forall x, n = Some x -> e_now e' < x) -> forall b, left p b (t_id t) = None \/ held d b (t_id t) <> None
      end.
Proof.
  intros c coro quick e e' t d p S NS OW H a. pose proof (fun b => run_left c coro quick e e' (CAdd t) d p _ b (t_id t) S H) as L.
  destruct (L ""%string) as (s1 & s2 & H1 & Bo & _). destruct (start_fresh c e d s1 _ S H1) as (_ & (W1 & R1 & _) & St & _).
  assert (Sp : stopped s1 = false) by (unfold stopped; rewrite R1; auto). assert (Bo0 := Bo). cbn [body] in Bo. unfold add_task in Bo. rewrite NS, Sp in Bo.
  assert (E : match t_sched t with Some k => negb (Nat.eqb k (c_self c)) | None => false end = false) by (destruct OW as [-> | ->]; [auto|rewrite Nat.eqb_refl; auto]). rewrite E in Bo.
  cbn [given_next starts] in Bo. set (t1 := with_default_aliases (c_self c) t) in Bo.
  destruct (real_add_task c (e_now e) t1 false true None s1) as [z [u|x]] eqn:R; [|discriminate]. cbn [fst snd] in Bo. injection Bo as ->.
  destruct (real_add_task_spec _ _ _ _ _ _ _ _ _ W1 R) as (_ & _ & al & n & K1 & K2 & K3 & K4 & K5 & _).
  assert (al = a) as -> by (subst t1 a; cbn in K1; unfold or_default; destruct (t_store t); congruence).
  exists n. split.
  { destruct K3 as [x Hx|Hx Hs|k n0 Hx Hs Ha]; cbn in Hx; [cbn; constructor; auto|discriminate|]. replace (option_map (no_sooner None) n0) with n0 by (destruct n0; auto). econstructor; eauto. }
  specialize (K4 eq_refl). change (t_id t1) with (t_id t) in *. rewrite St in K4.
  assert (T1 : set_pending false (set_next n t1) = kept (c_self c) t false n).
  { subst t1. unfold set_pending, set_next, kept, with_default_aliases, or_default. cbn. destruct (t_exec t), (t_store t); auto. }
  rewrite T1 in K5. destruct (dget a d) as [x|] eqn:G.
  - split; auto. intros T Lt. destruct (L a) as (s1' & s2' & H1' & Bo' & K). rewrite H1 in H1'. injection H1' as <-. rewrite Bo0 in Bo'. injection Bo' as <-. rewrite G in K.
    pose proof (K5 a (t_id t)) as Ka. cbn [t_id kept] in Ka. rewrite !String.eqb_refl in Ka. cbn [andb] in Ka. rewrite Ka in K.
    apply K; [|intros u0 [= <-]; exact T]. intros u0 Hu. rewrite Ka in Hu. injection Hu as <-. intros (_ & y & Ny & Ly). cbn in Ny. specialize (Lt _ Ny). lia.
  - intros Lt b. destruct (held d b (t_id t)) as [v|] eqn:Hb; [right; discriminate|left].
    destruct (L b) as (s1' & s2' & H1' & Bo' & K). rewrite H1 in H1'. injection H1' as <-. rewrite Bo0 in Bo'. injection Bo' as <-.
    pose proof (K5 b (t_id t)) as Kb. cbn [t_id kept] in Kb. rewrite String.eqb_refl, andb_true_r in Kb.
    assert (OR : out_of_reach e' s2 b (t_id t)).
    { intros u0 Hu. rewrite Kb in Hu. destruct (String.eqb b a); [injection Hu as <-|rewrite St, Hb in Hu; discriminate]. intros (_ & y & Ny & Ly). cbn in Ny. specialize (Lt _ Ny). lia. }
    specialize (K OR). destruct (dget b d) as [x|] eqn:Gb; [|apply K; reflexivity]. destruct (String.eqb_spec b a) as [->|Nb]; [congruence|].
    rewrite St, Hb in Kb. rewrite K, Kb; auto. intros u0 Hu. rewrite Kb in Hu. discriminate.
Qed.
Print Assumptions C83_add.
(** "A task added on the command line is kept" is false without --store, and "run executes the task" for a task that
    waits for anything. *)
Example C83_case :
  let go k := run_command ex_cfg (fun _ => true) (fun id => String.eqb id "tick") (quiet (sec 1)) (quiet (sec 1)) k ex_saved in
  (let (p, r) := go (CPause "report") in r = Ok tt /\ option_map t_next (left p "db" "report") = Some None) /\
  (let (p, r) := go (CRemove "report") in r = Ok tt /\ left p "db" "report" = None) /\
  (let (p, r) := go (CResume "tick") in r = Ok tt /\ option_map t_next (left p "db" "tick") = Some (Some (sec 2))) /\
  (let (p, r) := go (CRun "later") in r = Ok tt /\ began p = [0%nat] /\ ended p = [] /\ left p "db" "later" = None) /\
  (let (p, r) := go (CRun "tick") in r = Ok tt /\ began p = [0%nat] /\ ended p = [0%nat]) /\
  (let (p, r) := go (CAdd (ex_task "new" (TDate (sec 9)) "default" 5)) in r = Ok tt /\ left p "default" "new" = None /\ left p "db" "new" = None) /\
  (let (p, r) := go (CAdd (in_store "db" (ex_task "new" (TDate (sec 9)) "default" 5))) in r = Ok tt /\ option_map t_next (left p "db" "new") = Some (Some (sec 9))) /\
  (let (p, r) := go (CPause "absent") in r = Err TaskLookupError /\ option_map t_next (left p "db" "later") = Some (Some (sec 60))).
Proof. vm_compute. repeat split. Qed.
Theorem C83_run_refuted :
  exists c coro quick e e' d p id, saved c d /\ run_command c coro quick e e' (CRun id) d = (p, Ok tt) /\ coro id = true /\ ended p = [] /\ forall a, left p a id = None.
Proof.
  exists ex_cfg, (fun _ => true), (fun _ => false), (quiet (sec 1)), (quiet (sec 1)), ex_saved. eexists _, "later"%string. split; [exact ex_is_saved|]. split; [vm_compute; reflexivity|].
  split; [reflexivity|]. split; [reflexivity|]. intros a. unfold left, stored. cbn [p_sched stores dget]. destruct (String.eqb a "db"); [reflexivity|]. destruct (String.eqb a "default"); reflexivity.
Qed.
Print Assumptions C83_run_refuted.

(** The scheduler of the process is shut down before it ends if the call succeeded - and, for the commands that
    look and for update, also if it did not.  pause, resume, run, remove and add leave it running when their call
    raised: nothing then closes the stores and executors. *)
Theorem C83_shut_down :
  forall (c : config) (coro quick : string -> bool) (e e' : envir) (k : command) (d : dict store) (p : proc) (r : result unit),
    saved c d -> run_command c coro quick e e' k d = (p, r) ->
    (r = Ok tt \/ k = CLook \/ (exists id fn ups, k = CUpdate id fn ups) -> st (p_sched p) = STOPPED /\ refc (p_sched p) = 0 /\ futures p = []) /\
    (r <> Ok tt -> k <> CLook -> (forall id fn ups, k <> CUpdate id fn ups) -> st (p_sched p) = RUNNING /\ refc (p_sched p) = 1).
Proof.
  intros c coro quick e e' k d p r S. unfold run_command. destruct (main c coro e k d) as [p0 r0] eqn:M. intros [= <- <-].
  destruct (main_spec c coro e k d p0 r0 S M) as (s1 & s2 & l & H1 & Bo & E & _ & _ & Q & NS & _).
  destruct (start_fresh c e d s1 _ S H1) as (_ & F1 & _). destruct (body_fine c e k s1 s2 r0 F1 Bo) as [F2 _]. rewrite <- E in F2.
  destruct (items_keep c coro quick e' l p0 NS F2) as ((W & A & B) & _ & _). rewrite Q, fold_left_app. set (q := fold_left (run_item c coro quick e') l p0) in *. split.
  - intros C. assert (O : is_ok r0 || finally k = true). { destruct C as [->|[->|(id & fn & ups & ->)]]; cbn; rewrite ?orb_true_r; reflexivity. }
    rewrite O. cbn [fold_left run_item]. destruct (shutdown (p_sched q)) as [s' r'] eqn:H.
    pose proof (shutdown_spec _ _ _ W H) as P. rewrite B in P. change (1 - 1 >? 0) with false in P. unfold stopped in P. rewrite A in P. cbn [sstate_eqb] in P. cbv beta iota in P.
    destruct P as (-> & P1 & P2 & _). cbn [p_sched futures]. auto.
  - intros C1 C2 C3. assert (O : is_ok r0 || finally k = false). { destruct r0 as [[]|]; [tauto|]. destruct k; cbn; auto; [tauto|]. destruct (C3 id fn ups eq_refl). }
    rewrite O. cbn [fold_left]. auto.
Qed.
Print Assumptions C83_shut_down.
