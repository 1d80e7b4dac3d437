(** C15, C16, C17, C21, C22: one call of process_tasks, in any reachable state. *)
From Verif Require Import Prelude MemStore StoreSpec CallArgs Cron Triggers TriggerSpec Task TaskSpec TaskProofs Scheduler Executor SchedSpec SchedProofs SchedProofs2 SchedReach SchedProofs3 SchedProofs4.
Open Scope Z_scope.

(** C15.  After the call at instant [now]: a due task of a readable store whose executor exists is
    left with the trigger's answer after its last fire time up to now, later than now, or is gone
    when there is none; one without executor is gone; everything else is as before. *)
Theorem C15_nothing_left_due :
  forall (c : config) (e : envir) (s s' : sched) (d : option Z),
    reachable c s -> st s = RUNNING -> e_plock e = false -> no_empty_id s ->
    process_tasks c e s = (s', Ok d) ->
    (forall a id, stored s a id = None -> stored s' a id = None) /\
    (forall a id t, stored s a id = Some t ->
       (~ (readable e a /\ is_due t_next (e_now e) t) -> stored s' a id = Some t) /\
       (readable e a -> is_due t_next (e_now e) t -> ~ (exists xa, t_exec t = Some xa /\ has_exec s xa) -> stored s' a id = None) /\
       (forall xa, readable e a -> is_due t_next (e_now e) t -> t_exec t = Some xa -> has_exec s xa -> jitter_free (t_trigger t) ->
          exists l n, l <> [] /\ fire_times (answer_after (c_fuel c) (t_trigger t)) (t_next t) l n /\
            Forall (fun x => x <= e_now e) l /\ after_instant (e_now e) n /\
            stored s' a id = option_map (fun x => set_next (Some x) t) n)).
Proof.
  intros c e s s' d R St PL NE P. destruct (process_leaves_nothing_due c e s s' d (reachable_wf _ _ R) St PL NE P) as [A B]. split; [exact A|].
  intros a id t S. destruct (B a id t S) as (B1 & B2 & B3). split; [exact B1|]. split; [exact B2|].
  intros xa HR HD HX HE J. destruct (B3 xa HR HD HX HE) as (l & n & k & k' & L & W & S'). destruct (wake_exact _ _ _ _ _ _ _ _ J W) as (F1 & F2 & F3).
  exists l, n. auto.
Qed.
Print Assumptions C15_nothing_left_due.
(** With jitter the next run time is still later than the run times handed out ... *)
Theorem C15_jittered_advances :
  forall (c : config) (e : envir) (s s' : sched) (d : option Z),
    reachable c s -> st s = RUNNING -> e_plock e = false -> no_empty_id s -> fair (c_oracle c) ->
    process_tasks c e s = (s', Ok d) ->
    forall a id t xa x, stored s a id = Some t -> readable e a -> is_due t_next (e_now e) t -> t_exec t = Some xa -> has_exec s xa ->
      forward (t_trigger t) -> t_next t = Some x ->
      match stored s' a id with Some t' => exists y, t' = set_next (Some y) t /\ x < y | None => True end.
Proof.
  intros c e s s' d R St PL NE FO P a id t xa x S HR HD HX HE FW N. destruct (process_leaves_nothing_due c e s s' d (reachable_wf _ _ R) St PL NE P) as [_ B].
  destruct (B a id t S) as (_ & _ & B3). destruct (B3 xa HR HD HX HE) as (l & n & k & k' & L & W & ->).
  destruct (wake_later _ _ _ _ _ _ _ _ FO FW W) as (F1 & F2). destruct n as [y|]; cbn; [|exact I]. exists y. split; [reflexivity|].
  destruct (fire_times_increasing later ltac:(intros ? ? H; exact H) _ _ _ F1) as [G1 G2].
  rewrite N in F1. destruct l as [|z l]; [congruence|]. assert (z = x) as -> by (inversion F1; auto).
  clear -G1 G2. assert (H : forall x0, last_opt (x :: l) = Some x0 -> x <= x0).
  { clear G2. revert x G1. induction l as [|z l IH]; intros x G x0 E; [cbn in E; injection E as <-; lia|].
    rewrite last_opt_cons in E. destruct G as [G G']. destruct (last_opt (z :: l)) as [u|] eqn:Eu; injection E as <-.
    - specialize (IH z G' _ Eu). lia.
    - lia. }
  destruct (last_opt (x :: l)) as [u|] eqn:Eu; [specialize (G2 u eq_refl y eq_refl); specialize (H u eq_refl); lia|].
  apply last_opt_nil in Eu. discriminate.
Qed.
Print Assumptions C15_jittered_advances.
(** The call succeeds unless some trigger raises or does not return (see C54 and C13_terminates). *)
Theorem C15_fails_only_with_a_trigger :
  forall (c : config) (e : envir) (s s' : sched) (x : exn),
    reachable c s -> st s = RUNNING -> e_plock e = false -> no_empty_id s ->
    process_tasks c e s = (s', Err x) ->
    exists a t k, readable e a /\ stored s a (t_id t) = Some t /\ is_due t_next (e_now e) t /\
      wake (c_fuel c) (c_oracle c) k t (e_now e) = Err x.
Proof.
  intros c e s s' x R St PL NE P. exact (process_tasks_spec c e s s' (Err x) (reachable_wf _ _ R) St PL NE P).
Qed.
Print Assumptions C15_fails_only_with_a_trigger.

(** C16. *)
Theorem C16_wakes_up_in_time :
  forall (c : config) (e : envir) (s s' : sched) (d : option Z),
    reachable c s -> st s = RUNNING -> no_empty_id s -> process_tasks c e s = (s', Ok d) ->
    match d with
    | None => e_plock e = false /\ c_lock_path c = false /\ (forall a, has_store s a -> readable e a) /\
              forall a id t, stored s' a id = Some t -> t_next t = None
    | Some y =>
        (0 <= c_retry c <= c_timeout_max c -> 0 <= y <= c_timeout_max c) /\
        (0 <= c_retry c -> e_plock e = true \/ (exists a, has_store s a /\ ~ readable e a) -> y <= c_retry c) /\
        (e_plock e = false -> forall a id t x, readable e a -> stored s' a id = Some t -> t_next t = Some x -> y <= Z.max (x - e_now e) 0) /\
        (y = c_timeout_max c \/
         (y = Z.max (c_retry c) 0 /\ (e_plock e = true \/ exists a, has_store s a /\ ~ readable e a)) \/
         (y = c_retry c /\ c_lock_path c = true /\ forall a id t, stored s' a id = Some t -> t_next t = None) \/
         (exists a id t x, readable e a /\ stored s' a id = Some t /\ t_next t = Some x /\ y = Z.max (x - e_now e) 0))
    end.
Proof. intros c e s s' d R. exact (process_delay c e s s' d (reachable_wf _ _ R)). Qed.
Print Assumptions C16_wakes_up_in_time.

(** C17. *)
Theorem C17_paused_scheduler :
  forall (c : config) (e : envir) (s : sched), st s = PAUSED -> process_tasks c e s = (s, Ok None).
Proof. exact paused_does_nothing. Qed.
Print Assumptions C17_paused_scheduler.
(** Whatever happens in the call, even if it raises, only due tasks are submitted, for past run times. *)
Theorem C17_only_due_tasks_submitted :
  forall (c : config) (e : envir) (s : sched), reachable c s ->
    exists new, subs (fst (process_tasks c e s)) = subs s ++ new /\
      forall u, In u new -> sub_times u <> [] /\ Forall (fun x => x <= e_now e) (sub_times u) /\
        exists a t x, stored s a (sub_task u) = Some t /\ t_next t = Some x /\ x <= e_now e.
Proof.
  intros c e s R. destruct (process_submits_due c e s (reachable_wf _ _ R)) as (new & H1 & H2). exists new. split; [exact H1|].
  intros u Hu. rewrite Forall_forall in H2. destruct (H2 u Hu) as ((a & t & _ & S & x & N & L) & T1 & T2). split; [exact T1|]. split; [exact T2|]. exists a, t, x. auto.
Qed.
Print Assumptions C17_only_due_tasks_submitted.

(** C21.  Every due task of every readable store gets its own fate, whatever happens to the others:
    removed, skipped with TASK_MAX_INSTANCES, refused by its executor or submitted; and unless it is
    removed it advances.  Submissions, events and instance counts are exactly those fates. *)
Theorem C21_every_due_task_handled :
  forall (c : config) (e : envir) (s s' : sched) (d : option Z),
    reachable c s -> st s = RUNNING -> e_plock e = false -> no_empty_id s ->
    process_tasks c e s = (s', Ok d) ->
    exists due fs, all_due e s due /\ pass c e (has_exec s) (fun id => count id s) due fs /\
      stores_after s due fs s' /\
      subs s' = subs s ++ collect (fun a t f n => submission_of t f) due fs /\
      evs s' = evs s ++ collect (fun a t f n => removal_of a t n) due fs ++ collect (fun a t f n => event_of a t f) due fs /\
      (forall id, count id s' = counts_after (fun i => count i s) due fs id).
Proof.
  intros c e s s' d R St PL NE P. destruct (process_tasks_spec c e s s' (Ok d) (reachable_wf _ _ R) St PL NE P) as (due & fs & w & s1 & D & B & -> & _).
  destruct B as [B1 B2 B3 B4 B5 B6 B7 B8]. exists due, fs. split; [exact D|]. split; [exact B1|]. split; [exact B8|]. split; [exact B4|]. split; [reflexivity|]. exact B7.
Qed.
Print Assumptions C21_every_due_task_handled.

(** C22.  Take the unreadable stores away: same submissions, events, counters, same contents of the
    other stores, and the same success or error; the unreadable stores are untouched; and the call
    asks for a retry (C16). *)
Theorem C22_unreadable_stores_do_not_matter :
  forall (c : config) (e : envir) (s s' : sched) (r : result (option Z)),
    reachable c s -> process_tasks c e s = (s', r) ->
    exists s'' r'', process_tasks c e (without_unreadable e s) = (s'', r'') /\ same_result r r'' /\
      subs s'' = subs s' /\ evs s'' = evs s' /\ insts s'' = insts s' /\
      (forall a id, readable e a -> stored s'' a id = stored s' a id) /\
      (forall a id, ~ readable e a -> stored s' a id = stored s a id).
Proof.
  intros c e s s' r R P. pose proof (unreadable_do_not_matter c e s) as [H1 H2]. rewrite P in H1, H2. cbn [fst snd] in H1, H2.
  destruct (process_tasks c e (without_unreadable e s)) as [s'' r'']. cbn [fst snd] in H1, H2. exists s'', r''. subst s''.
  split; [reflexivity|]. split; [exact H2|]. split; [reflexivity|]. split; [reflexivity|]. split; [reflexivity|]. split.
  - intros a id [B F]. rewrite without_stored. unfold available. rewrite B, F. reflexivity.
  - intros a id N. pose proof (unreadable_untouched c e s a N) as U. rewrite P in U. cbn [fst] in U. unfold stored. rewrite U. reflexivity.
Qed.
Print Assumptions C22_unreadable_stores_do_not_matter.

(** ** Concrete cases *)
Definition no_tenv : tenv := MkEnv (fun _ => Err LookupError) (fun _ => Err ValueError).
Definition quiet (now : Z) : envir := MkEnvir now (fun _ => false) (fun _ => false) false (fun _ _ => false).
Definition sec (n : Z) : Z := n * us.
(** an oracle that draws the maximum at even calls and nothing at odd ones *)
Definition alternating : oracle := fun p j => match p with k :: _ => if Nat.even k then j * us else 0 | [] => 0 end.
Lemma alternating_fair : fair alternating.
Proof. intros p j H. unfold alternating. destruct p as [|k p]; [|destruct (Nat.even k)]; unfold us; lia. Qed.
Definition ex_cfg : config := MkCfg false (sec 1) (sec 10) (sec 4294967) 100 alternating 0 no_tenv.
Definition ex_task (id : string) (tr : trigger) (exec : string) (max : Z) : task :=
  MkTask id "job" tr None (Some exec) None (Some (sec 1)) false max None None (VList []) (VDict []) (Some 0%nat) true false.
Definition every (n : Z) (j : option Z) : trigger := TInterval (sec n) 0 None j.

(** two stores, four tasks, one of them without executor, one at its limit *)
Definition ex_ops : list (envir * op) :=
  [(quiet 0, OAddStore "db" false); (quiet 0, OStart false);
   (quiet 0, OAddTask (ex_task "a" (every 2 None) "default" 5) false None);
   (quiet 0, OAddTask (ex_task "b" (TDate (sec 3)) "default" 5) false None);
   (quiet 0, OAddTask (ex_task "c" (every 3 None) "nowhere" 5) false None);
   (quiet 0, OAddTask (ex_task "d" (every 1 None) "default" 0) false None)].
Definition ex_state : sched := run_ops ex_cfg ex_ops sched_init.
Lemma ex_reachable : reachable ex_cfg ex_state. Proof. exists ex_ops. reflexivity. Qed.
Example ex_hypotheses : st ex_state = RUNNING /\ no_empty_id ex_state.
Proof. split; [vm_compute; reflexivity|]. intros a. unfold stored. destruct (dget a (stores ex_state)) as [x|] eqn:G; [|reflexivity].
  apply PreludeFacts.dget_In in G. vm_compute in G. repeat (destruct G as [[= _ <-]|G]; [vm_compute; reflexivity|]). destruct G. Qed.
Example ex_process :
  let (s', r) := process_tasks ex_cfg (quiet (sec 5)) ex_state in
  r = Ok (Some (sec 1)) /\
  map (fun u => (sub_task u, sub_times u)) (subs s') = [("a"%string, [0; sec 2; sec 4]); ("b"%string, [sec 3])] /\
  map (fun x => (ev_code x, ev_task x)) (skipn 8 (evs s')) =
    [(TASK_REMOVED, Some "c"%string); (TASK_REMOVED, Some "b"%string); (TASK_SUBMITTED, Some "a"%string);
     (TASK_MAX_INSTANCES, Some "d"%string); (TASK_SUBMITTED, Some "b"%string)] /\
  option_map t_next (stored s' "default" "a") = Some (Some (sec 6)) /\ option_map t_next (stored s' "default" "d") = Some (Some (sec 6)) /\
  stored s' "default" "b" = None /\ stored s' "default" "c" = None.
Proof. vm_compute. repeat split. Qed.
(** C22: with the "db" store locked the same tasks run, and the retry is bounded *)
Example ex_locked :
  let e := MkEnvir (sec 5) (String.eqb "db") (fun _ => false) false (fun _ _ => false) in
  ~ readable e "db" /\ readable e "default" /\ snd (process_tasks ex_cfg e ex_state) = Ok (Some (sec 1)) /\
  subs (fst (process_tasks ex_cfg e ex_state)) = subs (fst (process_tasks ex_cfg (quiet (sec 5)) ex_state)).
Proof. split; [intros [H _]; vm_compute in H; discriminate|]. split; [split; reflexivity|]. split; vm_compute; reflexivity. Qed.

(** C15 is false for jittered triggers: the next run time is drawn a second time, and may fall
    before now although the first draw did not. *)
Theorem C15_jitter_refuted :
  exists c e s s' d a id t xa, fair (c_oracle c) /\ reachable c s /\ st s = RUNNING /\ e_plock e = false /\
    process_tasks c e s = (s', Ok d) /\ stored s a id = Some t /\ readable e a /\ t_exec t = Some xa /\ has_exec s xa /\ forward (t_trigger t) /\
    (forall t', stored s' a id = Some t' -> is_due t_next (e_now e) t').
Proof.
  set (l := [(quiet 0, OStart false); (quiet 0, OAddTask (ex_task "j" (TInterval (sec 2) 0 None (Some 5)) "default" 5) false (Some (Some 0)))]).
  set (c := MkCfg false (sec 1) (sec 10) (sec 4294967) 100 alternating 0 no_tenv).
  exists c, (quiet (sec 3)), (run_ops c l sched_init). 
  eexists _, _, "default"%string, "j"%string, _, "default"%string.
  split; [exact alternating_fair|]. split; [exists l; reflexivity|]. split; [vm_compute; reflexivity|]. split; [reflexivity|].
  split; [vm_compute; reflexivity|]. split; [vm_compute; reflexivity|]. split; [split; reflexivity|]. split; [reflexivity|].
  split; [eexists; vm_compute; reflexivity|]. split; [cbn; split; [reflexivity|intros x [= <-]; lia]|].
  intros t' H. vm_compute in H. injection H as <-. exists (sec 2). split; [reflexivity|]. unfold quiet, sec, us; cbn; lia.
Qed.
Print Assumptions C15_jitter_refuted.
(** ... and for the empty id: delete_task("") does nothing, so an exhausted task called "" is run
    again and again, with no delay. *)
Theorem C15_empty_id_refuted :
  exists c e s s' t, reachable c s /\ st s = RUNNING /\ stored s "default" "" = Some t /\ t_trigger t = TDate 0 /\
    process_tasks c e s = (s', Ok (Some 0)) /\ stored s' "default" "" = Some t /\ 0 < e_now e.
Proof.
  set (l := [(quiet 0, OStart false); (quiet 0, OAddTask (ex_task "" (TDate 0) "default" 5) false None)]).
  exists ex_cfg, (quiet 1), (run_ops ex_cfg l sched_init). eexists _, _.
  split; [exists l; reflexivity|]. split; [vm_compute; reflexivity|]. split; [vm_compute; reflexivity|]. split; [reflexivity|].
  split; [vm_compute; reflexivity|]. split; [vm_compute; reflexivity|]. reflexivity.
Qed.
Print Assumptions C15_empty_id_refuted.
