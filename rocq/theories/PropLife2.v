(** C31-C34, C56: changing, running, deleting and previewing single tasks. *)
From Verif Require Import Prelude PreludeFacts MemStore StoreSpec CallArgs Cron Triggers TriggerSpec Task TaskSpec TaskProofs Scheduler Executor SchedSpec SchedProofs SchedProofs2 SchedReach LifeSpec LifeAcc LifeAll LifeProofs LifeProofs2 PropSched.
Open Scope Z_scope.

Lemma not_stopped s : st s <> STOPPED -> stopped s = false.
Proof. unfold stopped. destruct (st s); auto; congruence. Qed.
Lemma is_stopped s : st s = STOPPED -> stopped s = true.
Proof. unfold stopped. intros ->. auto. Qed.
Lemma unchanged_refl s : unchanged s s.
Proof. unfold unchanged, same_tasks, wakes_by. sp; auto. apply rest_refl. Qed.

(** C56.  The scheduler's update_task: C23 on the stored task, and nothing else. *)
Theorem C56_update :
  forall (c : config) (id : string) (want : option string) (fn : pyval) (ups : dict pyval) (s s' : sched) (r : result task),
    reachable c s -> st s <> STOPPED -> NoDup (dkeys ups) -> update c id want fn ups s = (s', r) ->
    match r with
    | Ok t' => rest_same s s' /\ exists a t, wanted want a = true /\ stored s a id = Some t /\
        applied (c_tenv c) t (Some (c_self c)) fn ups t' /\ only a id (Some t') s s' /\
        evs s' = evs s ++ [task_event TASK_MODIFIED id (Some a)] /\ wakes_by (wake_n s) s s'
    | Err x => s' = s /\
        ((x = TaskLookupError /\ forall a, wanted want a = true -> stored s a id = None) \/
         exists a t, wanted want a = true /\ stored s a id = Some t /\ invalid (c_tenv c) t (Some (c_self c)) fn ups)
    end.
Proof.
  intros c id want fn ups s s' r R St ND H. destruct (update_running _ _ _ _ _ _ _ _ (reachable_wf _ _ R) (not_stopped _ St) H) as [RS K]. destruct r as [t'|x].
  - split; auto. destruct K as (a & t & K1 & K2 & _ & _ & K3 & K4 & K5 & K6). exists a, t. sp; auto. apply (update_spec _ _ _ _ _ _ _ ND K3).
  - destruct K as [-> [K|(a & t & t' & K1 & K2 & _ & K3)]]; split; auto. right. exists a, t. sp; auto. eapply update_rejects_invalid; eauto.
Qed.
Print Assumptions C56_update.
(** ... or on the pending task of a stopped scheduler *)
Theorem C56_update_pending :
  forall (c : config) (id : string) (want : option string) (fn : pyval) (ups : dict pyval) (s s' : sched) (r : result task),
    st s = STOPPED -> NoDup (dkeys ups) -> update c id want fn ups s = (s', r) ->
    match r with
    | Ok t' => exists l1 t b1 b2 l2, first_pending want id s l1 t b1 b2 l2 /\ applied (c_tenv c) t (Some (c_self c)) fn ups t' /\
        s' = w_evs (evs s ++ [task_event TASK_MODIFIED id None]) (w_pend (l1 ++ (t', b1, b2) :: l2) s)
    | Err x => s' = s /\
        ((x = TaskLookupError /\ forall t b1 b2, In (t, b1, b2) (pend s) -> ~ (t_id t = id /\ task_in want t = true)) \/
         exists t b1 b2, In (t, b1, b2) (pend s) /\ t_id t = id /\ invalid (c_tenv c) t (Some (c_self c)) fn ups)
    end.
Proof.
  intros c id want fn ups s s' r St ND H. pose proof (update_stopped _ _ _ _ _ _ _ _ (is_stopped _ St) H) as K. destruct r as [t'|x].
  - destruct K as (l1 & t & b1 & b2 & l2 & K1 & K2 & K3 & K4 & K5 & K6). exists l1, t, b1, b2, l2. unfold first_pending. sp; auto. apply (update_spec _ _ _ _ _ _ _ ND K5).
  - destruct K as [-> [K|(t & b1 & b2 & t' & K1 & K2 & _ & K3)]]; split; auto. right. exists t, b1, b2. sp; auto. eapply update_rejects_invalid; eauto.
Qed.
Print Assumptions C56_update_pending.
(** pausing a task: no next run time, nothing else *)
Theorem C56_pause_task :
  forall (c : config) (id : string) (want : option string) (s s' : sched) (r : result task),
    reachable c s -> st s <> STOPPED -> pause_task c id want s = (s', r) ->
    match r with
    | Ok t' => rest_same s s' /\ exists a t, wanted want a = true /\ stored s a id = Some t /\ t' = set_next None t /\ only a id (Some t') s s' /\
        evs s' = evs s ++ [task_event TASK_MODIFIED id (Some a)] /\ wakes_by (wake_n s) s s'
    | Err x => s' = s /\ x = TaskLookupError /\ forall a, wanted want a = true -> stored s a id = None
    end.
Proof.
  intros c id want s s' r R St H. unfold pause_task in H. change VNone with (opt_date None) in H at 2.
  destruct (update_running _ _ _ _ _ _ _ _ (reachable_wf _ _ R) (not_stopped _ St) H) as [RS K]. destruct (owned_all c s R) as [O _].
  destruct r as [t'|x].
  - split; auto. destruct K as (a & t & K1 & K2 & _ & _ & K3 & K4 & K5 & K6). exists a, t. rewrite (upd_next c t None (proj1 (O _ _ _ K2))) in K3. injection K3 as <-. sp; auto.
  - destruct K as [-> [[K1 K2]|(a & t & t' & K1 & K2 & _ & K3)]]; split; auto. rewrite (upd_next c t None (proj1 (O _ _ _ K2))) in K3. discriminate K3.
Qed.
Print Assumptions C56_pause_task.
Example C56_case : let (s', r) := update ex_cfg "a" None VNone [("max_instances"%string, VInt 9)] ex_state in
  is_ok r = true /\ option_map t_max (stored s' "default" "a") = Some 9 /\ option_map t_max (stored s' "default" "b") = option_map t_max (stored ex_state "default" "b") /\
  option_map t_next (stored (fst (pause_task ex_cfg "a" None ex_state)) "default" "a") = Some None.
Proof. vm_compute. repeat split. Qed.

(** C31. *)
Theorem C31_resume_task :
  forall (c : config) (e : envir) (id : string) (want : option string) (s s' : sched) (r : result (option task)),
    reachable c s -> st s <> STOPPED -> id <> ""%string -> resume_task c e id want s = (s', r) ->
    match r with
    | Ok o => rest_same s s' /\ exists a t k n, wanted want a = true /\ stored s a id = Some t /\
        answers (c_fuel c) (c_oracle c) (t_trigger t) (e_now e) k None = Ok n /\
        match n with
        | Some x => o = Some (set_next (Some x) t) /\ only a id o s s' /\
                    evs s' = evs s ++ [task_event TASK_MODIFIED id (Some a)] /\ wakes_by (wake_n s) s s'
        | None => o = None /\ only a id None s s' /\ evs s' = evs s ++ [task_event TASK_REMOVED id (Some a)] /\ wakes_by 0 s s'
        end
    | Err x => unchanged s s' /\
        ((x = TaskLookupError /\ forall a, wanted want a = true -> stored s a id = None) \/
         exists a t k, wanted want a = true /\ stored s a id = Some t /\ answers (c_fuel c) (c_oracle c) (t_trigger t) (e_now e) k None = Err x)
    end.
Proof.
  intros c e id want s s' r R St Hid H. pose proof (reachable_wf _ _ R) as W. apply not_stopped in St. destruct (owned_all c s R) as [O _].
  unfold resume_task, ask in H. pose proof (lookup_running id want s W St) as L. destruct (lookup_task id want s) as [[t w]|x] eqn:LK.
  2:{ injection H as <- <-. split; [apply unchanged_refl|auto]. }
  destruct L as (a & -> & Wa & Sa & Ia). set (k := draws s) in *. set (s1 := w_draws (S k) s) in *.
  assert (W1 : wf s1) by (apply wf_draws; auto). assert (S1 : forall b j, stored s1 b j = stored s b j) by reflexivity.
  destruct (answers (c_fuel c) (c_oracle c) (t_trigger t) (e_now e) k None) as [[n|]|x] eqn:AN.
  - destruct (update c id (Some a) VNone [("next_run_time"%string, VDate n)] s1) as [s2 r2] eqn:U. injection H as <- <-.
    destruct (update_running _ _ _ _ _ _ _ _ W1 St U) as [RS K]. destruct r2 as [t'|x].
    + split; [exact RS|]. destruct K as (a' & t2 & K1 & K2 & _ & K3 & K4 & K5 & K6 & K7). cbn [wanted] in K1. apply String.eqb_eq in K1 as <-.
      rewrite S1 in K2. assert (t2 = t) as -> by congruence. change (VDate n) with (opt_date (Some n)) in K4. rewrite (upd_next c t _ (proj1 (O _ _ _ Sa))) in K4. injection K4 as <-.
      exists a, t, k, (Some n). sp; auto.
    + exfalso. destruct K as [-> [[-> K]|(a' & t2 & t' & K1 & K2 & _ & K3)]].
      * specialize (K a). cbn in K. rewrite String.eqb_refl in K. specialize (K eq_refl). rewrite S1 in K. congruence.
      * cbn [wanted] in K1. apply String.eqb_eq in K1 as <-. rewrite S1 in K2. assert (t2 = t) as -> by congruence.
        change (VDate n) with (opt_date (Some n)) in K3. rewrite (upd_next c t _ (proj1 (O _ _ _ Sa))) in K3. discriminate K3.
  - pose proof (delete_task_spec (t_id t) (Some a) s1 W1 St ltac:(congruence)) as D. destruct (delete_task (t_id t) (Some a) s1) as [s2 r2].
    destruct D as (F & _ & I & Su & _ & D). rewrite Ia in D. destruct D as [(_ & _ & _ & D)|(a' & t2 & -> & D1 & D2 & D3 & D4 & _)].
    + exfalso. specialize (D a). cbn in D. rewrite String.eqb_refl in D. specialize (D eq_refl). rewrite S1 in D. congruence.
    + injection H as <- <-. cbn [wanted] in D1. apply String.eqb_eq in D1 as <-. split; [exact (rest_frame s1 _ F I Su)|]. exists a, t, k, None. sp; auto.
      unfold wakes_by. rewrite (fr_wakes _ _ F). cbn. lia.
  - injection H as <- <-. split; [exact (unchanged_refl s)|]. right. exists a, t, k. auto.
Qed.
Print Assumptions C31_resume_task.
Theorem C31_reschedule_task :
  forall (c : config) (e : envir) (id : string) (want : option string) (tr : trigger) (s s' : sched) (r : result task),
    reachable c s -> st s <> STOPPED -> reschedule_task c e id want tr s = (s', r) ->
    match r with
    | Ok t' => rest_same s s' /\ exists a t k n, wanted want a = true /\ stored s a id = Some t /\
        answers (c_fuel c) (c_oracle c) tr (e_now e) k None = Ok n /\
        t' = set_next n (set_trigger tr t) /\ only a id (Some t') s s' /\
        evs s' = evs s ++ [task_event TASK_MODIFIED id (Some a)] /\ wakes_by (wake_n s) s s'
    | Err x => unchanged s s' /\
        ((x = TaskLookupError /\ forall a, wanted want a = true -> stored s a id = None) \/
         exists k, answers (c_fuel c) (c_oracle c) tr (e_now e) k None = Err x)
    end.
Proof.
  intros c e id want tr s s' r R St H. pose proof (reachable_wf _ _ R) as W. apply not_stopped in St. destruct (owned_all c s R) as [O _].
  unfold reschedule_task, ask in H. set (k := draws s) in *. set (s1 := w_draws (S k) s) in *. assert (W1 : wf s1) by (apply wf_draws; auto).
  destruct (answers (c_fuel c) (c_oracle c) tr (e_now e) k None) as [n|x] eqn:AN.
  2:{ injection H as <- <-. split; [exact (unchanged_refl s)|]. eauto. }
  destruct (update_running _ _ _ _ _ _ _ _ W1 St H) as [RS K]. destruct r as [t'|x].
  - split; [exact RS|]. destruct K as (a & t & K1 & K2 & _ & K3 & K4 & K5 & K6 & K7). rewrite (upd_trigger c t tr n (proj1 (O _ _ _ K2))) in K4. injection K4 as <-.
    exists a, t, k, n. sp; auto.
  - destruct K as [-> [[-> K]|(a & t & t' & K1 & K2 & _ & K3)]].
    + split; [exact (unchanged_refl s)|]. left. auto.
    + exfalso. rewrite (upd_trigger c t tr n (proj1 (O _ _ _ K2))) in K3. discriminate K3.
Qed.
Print Assumptions C31_reschedule_task.
(** Not so for pending tasks of a stopped scheduler: with the same id pending for two stores, resuming
    the one changes the other. *)
Theorem C31_pending_refuted :
  exists c e s s' t', reachable c s /\ resume_task c e "x" (Some "two"%string) s = (s', Ok (Some t')) /\
    map (fun p => (t_store (fst (fst p)), t_next (fst (fst p)))) (pend s) = [(Some "one"%string, None); (Some "two"%string, None)] /\
    map (fun p => (t_store (fst (fst p)), t_next (fst (fst p)))) (pend s') = [(Some "one"%string, Some (sec 7)); (Some "two"%string, None)].
Proof.
  set (t st n := MkTask "x" "job" (every n None) None None (Some st) (Some (sec 1)) false 1 None None (VList []) (VDict []) None true false).
  exists ex_cfg, (quiet (sec 6)), (run_ops ex_cfg [(quiet 0, OAddTask (t "one"%string 5) false (Some None)); (quiet 0, OAddTask (t "two"%string 7) false (Some None))] sched_init).
  eexists _, _. split; [eexists; reflexivity|]. split; [vm_compute; reflexivity|]. vm_compute. split; reflexivity.
Qed.
Print Assumptions C31_pending_refuted.
Example C31_case :
  let s1 := fst (pause_task ex_cfg "a" None ex_state) in let (s2, r) := resume_task ex_cfg (quiet (sec 10)) "a" None s1 in
  let (s3, r3) := reschedule_task ex_cfg (quiet (sec 10)) "a" None (every 60 None) s1 in
  is_ok r = true /\ option_map t_next (stored s2 "default" "a") <> Some None /\ option_map t_next (stored s3 "default" "a") = Some (Some (sec 60)).
Proof. vm_compute. repeat split. discriminate. Qed.

(** C33. *)
Theorem C33_delete :
  forall (c : config) (id : string) (want : option string) (s s' : sched) (r : result unit),
    reachable c s -> st s <> STOPPED -> id <> ""%string -> delete_task id want s = (s', r) ->
    match r with
    | Ok _ => rest_same s s' /\ wakes_by 0 s s' /\ exists a t, wanted want a = true /\ stored s a id = Some t /\ only a id None s s' /\
        evs s' = evs s ++ [task_event TASK_REMOVED id (Some a)]
    | Err x => unchanged s s' /\ x = TaskLookupError /\ forall a, wanted want a = true -> stored s a id = None
    end.
Proof.
  intros c id want s s' r R St Hid H. pose proof (delete_task_spec id want s (reachable_wf _ _ R) (not_stopped _ St) Hid) as D. rewrite H in D.
  destruct D as (F & _ & I & Su & _ & D). pose proof (rest_frame _ _ F I Su) as RS. assert (WK : wakes_by 0 s s') by (unfold wakes_by; rewrite (fr_wakes _ _ F); lia).
  destruct D as [(-> & E & S1 & D)|(a & t & -> & D1 & D2 & D3 & D4 & _)].
  - sp; auto. unfold unchanged. sp; auto. intros b j. apply stored_same; auto.
  - sp; auto. exists a, t. sp; auto.
Qed.
Print Assumptions C33_delete.
Theorem C33_delete_pending :
  forall (c : config) (id : string) (want : option string) (s s' : sched) (r : result unit),
    reachable c s -> st s = STOPPED -> id <> ""%string -> delete_task id want s = (s', r) ->
    match r with
    | Ok _ => exists l1 t b1 b2 l2, first_pending want id s l1 t b1 b2 l2 /\
        s' = w_evs (evs s ++ [task_event TASK_REMOVED id (t_store t)]) (w_pend (l1 ++ l2) s)
    | Err x => s' = s /\ x = TaskLookupError /\ forall t b1 b2, In (t, b1, b2) (pend s) -> ~ (t_id t = id /\ task_in want t = true)
    end.
Proof.
  intros c id want s s' r R St Hid H. unfold delete_task in H. apply String.eqb_neq in Hid. rewrite Hid, (is_stopped _ St) in H.
  destruct (del_pending want id (pend s)) as [l o] eqn:D. pose proof (del_pending_spec _ _ _ _ _ D) as K. destruct o as [a|].
  - destruct K as (l1 & t & b1 & b2 & l2 & K1 & K2 & K3 & K4 & K5 & K6). destruct (owned_all c s R) as [_ O].
    assert (OT : t_store t <> None) by (apply (O t b1 b2); rewrite K1; apply in_or_app; right; left; auto). rewrite K5 in H. destruct (t_store t) as [b|] eqn:TS; [|congruence].
    injection H as <- <-. exists l1, t, b1, b2, l2. unfold first_pending. sp; auto. rewrite K2, TS. reflexivity.
  - destruct K as [-> K]. injection H as <- <-. sp; auto. destruct s; reflexivity.
Qed.
Print Assumptions C33_delete_pending.
(** the empty id is special: deleting it does nothing, without raising *)
Theorem C33_empty_id_refuted :
  exists c s t, reachable c s /\ stored s "default" "" = Some t /\ delete_task "" None s = (s, Ok tt).
Proof.
  exists ex_cfg, (run_ops ex_cfg (ex_ops ++ [(quiet 0, OAddTask (PropSched.ex_task "" (every 3 None) "default" 1) false None)]) sched_init).
  eexists. split; [eexists; reflexivity|]. split; [vm_compute; reflexivity|reflexivity].
Qed.
Print Assumptions C33_empty_id_refuted.
Theorem C33_remove_all :
  forall (c : config) (want : option string) (s : sched), reachable c s ->
    let s' := remove_all_tasks want s in
    evs s' = evs s ++ [sched_event ALL_TASKS_REMOVED want] /\ wakes_by 0 s s' /\ st s' = st s /\ execs s' = execs s /\ insts s' = insts s /\ subs s' = subs s /\
    (st s <> STOPPED -> pend s' = pend s /\ forall a j, stored s' a j = if wanted want a then None else stored s a j) /\
    (st s = STOPPED -> want <> Some ""%string -> same_tasks s s' /\
       pend s' = filter (fun p => negb (task_in want (fst (fst p)))) (pend s)).
Proof.
  intros c want s R s'. subst s'. unfold remove_all_tasks. destruct (stopped s) eqn:Es.
  - sp; auto; [unfold wakes_by; cbn; lia|intros N; apply not_stopped in N; congruence|].
    intros _ Hw. split; [intros b j; reflexivity|]. cbn. destruct want as [w|].
    + destruct (String.eqb_spec w ""); [congruence|reflexivity].
    + symmetry. induction (pend s); cbn; auto.
  - sp; auto; [unfold wakes_by; cbn; lia| |intros N; apply is_stopped in N; congruence].
    intros _. split; auto. intros a j. unfold stored. cbn. rewrite (dget_map_keyed (fun k x => if wanted want k then on_mem ms_empty x else x)).
    destruct (dget a (stores s)) as [x|]; cbn; destruct (wanted want a); auto.
Qed.
Print Assumptions C33_remove_all.
Example C33_case : let (s', r) := delete_task "a" None ex_state in
  r = Ok tt /\ stored ex_state "default" "a" <> None /\ stored s' "default" "a" = None /\ stored s' "default" "b" = stored ex_state "default" "b" /\
  snd (delete_task "zzz" None ex_state) = Err TaskLookupError.
Proof. vm_compute. repeat split. discriminate. Qed.

(** C32. *)
Lemma grt_err gn now : forall fuel k next x, grt fuel gn k next now = Err x -> x = OutOfFuel \/ exists y i, gn i (Some y) = Err x.
Proof.
  induction fuel as [|fuel IH]; intros k [y|] x; cbn; try discriminate; destruct (y <=? now); try discriminate; [intros [= <-]; auto|].
  destruct (gn k (Some y)) as [n|z] eqn:G; [|intros [= <-]; eauto]. destruct (grt fuel gn (S k) n now) as [[l k1]|z] eqn:H; [discriminate|]. intros [= <-]. eauto.
Qed.
Lemma last_opt_split {A} (l : list A) x : last_opt l = Some x -> exists l0, l = l0 ++ [x].
Proof.
  unfold last_opt. destruct (rev l) as [|y m] eqn:E; [discriminate|]. intros [= ->]. exists (rev m).
  rewrite <- (rev_involutive l), E. reflexivity.
Qed.
Lemma asked_of t now due times n : (if nonempty due then coalesce_run_times (t_coalesce t) due else ([now], 0%nat)) = (times, n) -> asked_times t now due times n /\ exists x, last_opt times = Some x.
Proof.
  unfold asked_times. destruct due as [|d due]; cbn [nonempty].
  - intros [= <- <-]. split; [auto|]. exists now. reflexivity.
  - unfold coalesce_run_times. destruct (last_opt (d :: due)) as [x|] eqn:L; [|apply last_opt_nil in L; discriminate].
    destruct (last_opt_split _ _ L) as [l0 E]. destruct (t_coalesce t); intros [= <- <-].
    + split; [|exists x; reflexivity]. exists l0, x. sp; auto. apply (f_equal (@List.length Z)) in E. rewrite app_length in E. cbn in *. lia.
    + split; [auto|]. exists x. auto.
Qed.

Theorem C32_run_task :
  forall (c : config) (e : envir) (id : string) (want : option string) (force remove_finished : bool) (s s' : sched) (r : result (option task)),
    reachable c s -> st s <> STOPPED -> id <> ""%string -> run_task c e id want force remove_finished s = (s', r) ->
    wakes_by 0 s s' /\
    ((unchanged s s' /\ r = Err TaskLookupError /\ forall a, wanted want a = true -> stored s a id = None) \/
     exists a t, wanted want a = true /\ stored s a id = Some t /\
       ((* the trigger raises while the due run times are computed *)
        (exists x, unchanged s s' /\ r = Err x /\ (x = OutOfFuel \/ exists y k, answers (c_fuel c) (c_oracle c) (t_trigger t) (e_now e) k (Some y) = Err x)) \/
        exists due, due_times c (e_now e) t due /\
         ((* nothing to run *)
          (due = [] /\ force = false /\ unchanged s s' /\ r = Ok (Some t)) \/
          ((due <> [] \/ force = true) /\ exists times left_out, asked_times t (e_now e) due times left_out /\
            ((* no such executor *)
             (unchanged s s' /\ (r = Err AssertionError \/ r = Err KeyError) /\ ~ exists xa, t_exec t = Some xa /\ has_exec s xa) \/
             exists xa, t_exec t = Some xa /\ has_exec s xa /\
              ((* too many instances: announced, and the task is as before *)
               (t_max t <= count id s /\ r = Err MaximumInstancesError /\ rest_same s s' /\ same_tasks s s' /\
                  evs s' = evs s ++ [MkEvent TASK_MAX_INSTANCES (Some id) (Some a) times left_out]) \/
               (* the executor refuses *)
               (e_send_fails e xa id = true /\ unchanged s s' /\ r = Err OtherError) \/
               (* submitted *)
               (count id s < t_max t /\ one_more id (MkSub xa id times (t_max t)) s s' /\
                st s' = st s /\ refc s' = refc s /\ execs s' = execs s /\ pend s' = pend s /\ ran s' = ran s /\
                exists last removal, last_opt times = Some last /\ evs s' = evs s ++ MkEvent TASK_SUBMITTED (Some id) (Some a) times left_out :: removal /\
                ((exists x k, r = Err x /\ answers (c_fuel c) (c_oracle c) (t_trigger t) (e_now e) k (Some last) = Err x /\ same_tasks s s' /\ removal = []) \/
                 exists n, next_fire c (t_trigger t) (e_now e) last n /\
                 match n, remove_finished with
                 | None, true => r = Ok None /\ only a id None s s' /\ removal = [task_event TASK_REMOVED id (Some a)]
                 | _, _ => exists t', r = Ok (Some t') /\ only a id (Some t') s s' /\ removal = [] /\ t' = set_next (t_next t') t /\
                     match n with
                     | None => t_next t' = None
                     | Some x => exists y, t_next t' = Some y /\ e_now e < y /\ (e_now e < x -> y = x)
                     end
                 end)))))))).
Proof.
  intros c e id want force rf s s' r R St Hid H. pose proof (reachable_wf _ _ R) as W. apply not_stopped in St.
  unfold run_task in H. rewrite St in H. pose proof (lookup_running id want s W St) as L. destruct (lookup_task id want s) as [[t w]|x].
  2:{ injection H as <- <-. destruct L as [-> L]. split; [unfold wakes_by; lia|]. left. split; [apply unchanged_refl|auto]. }
  destruct L as (a & -> & Wa & Sa & Ia). set (now := e_now e) in *.
  destruct (get_run_times (c_fuel c) (c_oracle c) (draws s) t now) as [[due k]|x] eqn:G.
  2:{ injection H as <- <-. split; [unfold wakes_by; lia|]. right. exists a, t. sp; auto. left. exists x. split; [apply unchanged_refl|]. split; auto. eapply grt_err; exact G. }
  assert (DT : due_times c now t due).
  { unfold due_times. refine (grt_spec (answers (c_fuel c) (c_oracle c) (t_trigger t) now) now (next_fire c (t_trigger t) now) _ _ _ _ _ _ G). intros i y n _ A. exists i. exact A. }
  set (s1 := w_draws k s) in *. assert (W1 : wf s1) by (apply wf_draws; auto).
  assert (U1 : unchanged s s1) by exact (unchanged_refl s).
  assert (E0 : negb (nonempty due) && negb force = true -> due = [] /\ force = false) by (destruct due, force; cbn; auto; discriminate).
  destruct (negb (nonempty due) && negb force) eqn:N0.
  { injection H as <- <-. destruct (E0 eq_refl) as [-> ->]. split; [apply U1|]. right. exists a, t. split; [auto|]. split; [auto|]. right. exists []. split; [exact DT|]. left. sp; auto. }
  clear E0. assert (E0 : due <> [] \/ force = true) by (destruct due, force; cbn in N0; auto; left; discriminate). clear N0.
  destruct (if nonempty due then coalesce_run_times (t_coalesce t) due else ([now], 0%nat)) as [times n] eqn:CO.
  destruct (asked_of _ _ _ _ _ CO) as [AS [lastt LT]].
  assert (PRE : forall (P : Prop), P -> P) by auto.
  assert (FIN : wakes_by 0 s s' /\ (
            ((* no such executor *)
             (unchanged s s' /\ (r = Err AssertionError \/ r = Err KeyError) /\ ~ exists xa, t_exec t = Some xa /\ has_exec s xa) \/
             exists xa, t_exec t = Some xa /\ has_exec s xa /\
              ((t_max t <= count id s /\ r = Err MaximumInstancesError /\ rest_same s s' /\ same_tasks s s' /\
                  evs s' = evs s ++ [MkEvent TASK_MAX_INSTANCES (Some id) (Some a) times n]) \/
               (e_send_fails e xa id = true /\ unchanged s s' /\ r = Err OtherError) \/
               (count id s < t_max t /\ one_more id (MkSub xa id times (t_max t)) s s' /\
                st s' = st s /\ refc s' = refc s /\ execs s' = execs s /\ pend s' = pend s /\ ran s' = ran s /\
                exists last removal, last_opt times = Some last /\ evs s' = evs s ++ MkEvent TASK_SUBMITTED (Some id) (Some a) times n :: removal /\
                ((exists x k, r = Err x /\ answers (c_fuel c) (c_oracle c) (t_trigger t) (e_now e) k (Some last) = Err x /\ same_tasks s s' /\ removal = []) \/
                 exists n, next_fire c (t_trigger t) (e_now e) last n /\
                 match n, rf with
                 | None, true => r = Ok None /\ only a id None s s' /\ removal = [task_event TASK_REMOVED id (Some a)]
                 | _, _ => exists t', r = Ok (Some t') /\ only a id (Some t') s s' /\ removal = [] /\ t' = set_next (t_next t') t /\
                     match n with
                     | None => t_next t' = None
                     | Some x => exists y, t_next t' = Some y /\ e_now e < y /\ (e_now e < x -> y = x)
                     end
                 end)))))).
  2:{ destruct FIN as [F1 F2]. split; [exact F1|]. right. exists a, t. split; [auto|]. split; [auto|]. right. exists due. split; [exact DT|]. right. split; [exact E0|].
      exists times, n. split; [exact AS|]. exact F2. }
  clear PRE CO AS DT. destruct (t_exec t) as [xa|].
  2:{ injection H as <- <-. split; [apply U1|]. left. split; [exact U1|]. split; [auto|]. intros (xa & X & _). discriminate. }
  destruct (dmem xa (execs s1)) eqn:XM; cbn [negb] in H.
  2:{ injection H as <- <-. split; [apply U1|]. left. split; [exact U1|]. split; [auto|]. intros (xb & [= <-] & y & Y). apply dmem_false in XM. change (execs s1) with (execs s) in XM. congruence. }
  assert (HX : has_exec s xa) by (unfold dmem in XM; change (execs s1) with (execs s) in XM; destruct (dget xa (execs s)) eqn:Y; [exists e0; auto|discriminate]).
  unfold send_task in H. rewrite Ia in H. change (count id s1) with (count id s) in H. destruct (count id s >=? t_max t) eqn:CM.
  { injection H as <- <-. split; [unfold wakes_by; cbn; lia|]. right. exists xa. sp; auto. left. sp; auto; [lia|exact (rest_refl s)|intros b j; reflexivity]. }
  destruct (e_send_fails e xa id) eqn:SF.
  { injection H as <- <-. split; [apply U1|]. right. exists xa. sp; auto. }
  rewrite LT in H. cbn zeta in H.
  set (s2 := dispatch (MkEvent TASK_SUBMITTED (Some id) (Some a) times n) (w_subs (subs s1 ++ [MkSub xa id times (t_max t)]) (w_insts (dset id (count id s + 1) (insts s1)) s1))) in H.
  unfold ask in H. set (s3 := w_draws (S (draws s2)) s2) in H.
  assert (W3 : wf s3) by (apply (wf_same s); auto). assert (St3 : stopped s3 = false) by exact St.
  assert (S3 : forall b j, stored s3 b j = stored s b j) by reflexivity.
  assert (C3 : forall j, count j s3 = if String.eqb j id then count j s + 1 else count j s).
  { intros j. change (count j s3) with (count j (w_insts (dset id (count id s + 1) (insts s)) s)). rewrite count_dset. destruct (String.eqb_spec j id) as [->|]; auto. }
  set (k0 := draws s2) in *. destruct (answers (c_fuel c) (c_oracle c) (t_trigger t) now k0 (Some lastt)) as [nx|x] eqn:AN.
  2:{ injection H as <- <-. split; [unfold wakes_by; cbn; lia|]. right. exists xa. split; [auto|]. split; [auto|]. right; right. split; [lia|]. split; [split; [reflexivity|exact C3]|].
      sp; auto. exists lastt, []. split; [auto|]. split; [reflexivity|]. left. exists x, k0. sp; auto. }
  assert (CH : forall s4, frame s3 s4 -> insts s4 = insts s3 -> subs s4 = subs s3 -> forall removal, evs s4 = evs s3 ++ removal ->
     wakes_by 0 s s4 /\ one_more id (MkSub xa id times (t_max t)) s s4 /\
                st s4 = st s /\ refc s4 = refc s /\ execs s4 = execs s /\ pend s4 = pend s /\ ran s4 = ran s /\
                evs s4 = evs s ++ MkEvent TASK_SUBMITTED (Some id) (Some a) times n :: removal).
  { intros s4 [f1 f2 f3 f4 f5 f6 f7] I4 Su4 rem E4. split; [unfold wakes_by; rewrite f6; cbn; lia|]. split.
    - split; [rewrite Su4; reflexivity|]. intros j. unfold count at 1. rewrite I4. apply C3.
    - sp; auto. rewrite E4. cbn. rewrite <- app_assoc. reflexivity. }
  assert (NF : next_fire c (t_trigger t) now lastt nx) by (exists k0; exact AN).
  set (nx' := match nx with Some x => if x <=? now then Some (now + 1000) else Some x | None => None end) in H.
  assert (NX : match nx with None => nx' = None | Some x => exists y, nx' = Some y /\ now < y /\ (now < x -> y = x) end).
  { subst nx'. destruct nx as [x|]; auto. destruct (Z.leb_spec x now); eexists; (split; [reflexivity|split; lia]). }
  assert (STORE : (match nx, rf with None, true => False | _, _ => True end) -> (let (s4, r4) := store_update a (set_next nx' t) s3 in (s4, match r4 with Ok _ => Ok (Some (set_next nx' t)) | Err x => Err x end)) = (s', r) ->
     exists s4, s' = s4 /\ frame s3 s4 /\ insts s4 = insts s3 /\ subs s4 = subs s3 /\ evs s4 = evs s3 /\ r = Ok (Some (set_next nx' t)) /\ only a id (Some (set_next nx' t)) s s4).
  { intros _ E. pose proof (store_update_spec a (set_next nx' t) s3 W3) as SU. destruct (store_update a (set_next nx' t) s3) as [s4 r4]. destruct SU as (_ & F & I4 & Su4 & _ & E4 & SU).
    assert (HS : has_store s3 a) by (eapply has_stored; rewrite S3; eauto). change (t_id (set_next nx' t)) with (t_id t) in SU. rewrite Ia in SU.
    destruct SU as [(_ & N & _)|[(_ & N & _)|(-> & _ & S4)]]; [tauto|rewrite S3 in N; congruence|]. injection E as <- <-. exists s4. sp; auto; try tauto. }
  assert (DONE : forall s4, s' = s4 -> frame s3 s4 -> insts s4 = insts s3 -> subs s4 = subs s3 -> evs s4 = evs s3 -> r = Ok (Some (set_next nx' t)) -> only a id (Some (set_next nx' t)) s s4 ->
     (match nx, rf with None, true => False | _, _ => True end) -> wakes_by 0 s s' /\ (count id s < t_max t /\ one_more id (MkSub xa id times (t_max t)) s s' /\
                st s' = st s /\ refc s' = refc s /\ execs s' = execs s /\ pend s' = pend s /\ ran s' = ran s /\
                exists last removal, last_opt times = Some last /\ evs s' = evs s ++ MkEvent TASK_SUBMITTED (Some id) (Some a) times n :: removal /\
                ((exists x k, r = Err x /\ answers (c_fuel c) (c_oracle c) (t_trigger t) (e_now e) k (Some last) = Err x /\ same_tasks s s' /\ removal = []) \/
                 exists n, next_fire c (t_trigger t) (e_now e) last n /\
                 match n, rf with
                 | None, true => r = Ok None /\ only a id None s s' /\ removal = [task_event TASK_REMOVED id (Some a)]
                 | _, _ => exists t', r = Ok (Some t') /\ only a id (Some t') s s' /\ removal = [] /\ t' = set_next (t_next t') t /\
                     match n with
                     | None => t_next t' = None
                     | Some x => exists y, t_next t' = Some y /\ e_now e < y /\ (e_now e < x -> y = x)
                     end
                 end))).
  { intros s4 -> F I4 Su4 E4 Er O4 ND. destruct (CH s4 F I4 Su4 [] ltac:(rewrite app_nil_r; auto)) as (A1 & A2 & A3 & A4 & A5 & A6 & A7 & A8). split; [auto|]. split; [lia|]. split; [auto|].
    sp; auto. exists lastt, []. split; [auto|]. split; [auto|]. right. exists nx. split; [exact NF|].
    destruct nx as [x|]; [|destruct rf; [destruct ND|]]; exists (set_next nx' t); sp; auto. }
  destruct nx as [x|].
  - assert (HH : exists y, nx' = Some y) by (destruct NX as (y & E & _); eauto). destruct HH as [y HY]. rewrite HY in H. rewrite <- HY in H.
    destruct (STORE Logic.I H) as (s4 & A1 & A2 & A3 & A4 & A5 & A6 & A7). destruct (DONE s4 A1 A2 A3 A4 A5 A6 A7 Logic.I) as [B1 B2]. split; [exact B1|]. right. exists xa. split; [auto|]. split; [auto|]. right; right. exact B2.
  - rewrite NX in H. destruct rf.
    + pose proof (delete_task_spec id (Some a) s3 W3 St3 Hid) as D. destruct (delete_task id (Some a) s3) as [s4 r4]. destruct D as (F & _ & I4 & Su4 & _ & D).
      destruct D as [(_ & _ & _ & D)|(a' & t2 & -> & D1 & D2 & D3 & D4 & _)].
      * exfalso. specialize (D a). cbn in D. rewrite String.eqb_refl in D. specialize (D eq_refl). rewrite S3 in D. congruence.
      * injection H as <- <-. cbn [wanted] in D1. apply String.eqb_eq in D1 as <-. destruct (CH s4 F I4 Su4 _ D3) as (A1 & A2 & A3 & A4 & A5 & A6 & A7 & A8). split; [auto|].
        right. exists xa. split; [auto|]. split; [auto|]. right; right. split; [lia|]. split; [auto|]. sp; auto. exists lastt, [task_event TASK_REMOVED id (Some a)]. split; [auto|]. split; [auto|]. right.
        exists None. split; [exact NF|]. sp; auto.
    + rewrite <- NX in H. destruct (STORE Logic.I H) as (s4 & A1 & A2 & A3 & A4 & A5 & A6 & A7). destruct (DONE s4 A1 A2 A3 A4 A5 A6 A7 Logic.I) as [B1 B2]. split; [exact B1|]. right. exists xa. split; [auto|]. split; [auto|]. right; right. exact B2.
Qed.
Print Assumptions C32_run_task.
Theorem C32_stopped : forall c e id want force rf s, st s = STOPPED -> run_task c e id want force rf s = (s, Err SchedulerNotRunningError).
Proof. intros c e id want force rf s St. unfold run_task. rewrite (is_stopped _ St). reflexivity. Qed.
Print Assumptions C32_stopped.
Definition due_two := [(quiet 0, OStart false); (quiet 0, OAddTask (PropSched.ex_task "a" (every 2 None) "default" 1) false (Some (Some (sec 2))))].
Example C32_case :
  let s := run_ops ex_cfg due_two sched_init in
  let (s1, r1) := run_task ex_cfg (quiet (sec 5)) "a" None false true s in
  let (s2, r2) := run_task ex_cfg (quiet (sec 5)) "a" None true true s1 in
  let (s3, r3) := run_task ex_cfg (quiet (sec 1)) "a" None false true s in
  let (s4, r4) := run_task ex_cfg (quiet (sec 1)) "a" None true true s in
  is_ok r1 = true /\ map sub_times (subs s1) = [[sec 2; sec 4]] /\ option_map t_next (stored s1 "default" "a") = Some (Some (sec 6)) /\
  r2 = Err MaximumInstancesError /\ is_ok r3 = true /\ subs s3 = [] /\ is_ok r4 = true /\ map sub_times (subs s4) = [[sec 1]].
Proof. vm_compute. repeat split. Qed.

(** C34.  (A preview is a function of the state: it changes nothing.) *)
Lemma lookup_found id want s : wf s ->
  match lookup_task id want s with
  | Ok (t, _) => found id want s t
  | Err x => x = TaskLookupError /\ forall t, ~ found id want s t
  end.
Proof.
  intros W. destruct (stopped s) eqn:St.
  - assert (S : st s = STOPPED) by (unfold stopped in St; destruct (st s); auto; discriminate).
    unfold lookup_task. rewrite St. destruct (find_pending want id (pend s)) as [t|] eqn:F.
    + right. split; auto. destruct (find_pending_spec _ _ _ _ F) as (l1 & b1 & b2 & l2 & E & A & B & _). exists b1, b2. sp; auto. rewrite E. apply in_or_app; right; left; auto.
    + split; auto. intros t [[N _]|(_ & b1 & b2 & H1 & H2 & H3)]; [congruence|]. eapply find_pending_none; eauto.
  - assert (S : st s <> STOPPED) by (unfold stopped in St; destruct (st s); [discriminate St|discriminate|discriminate]).
    pose proof (lookup_running id want s W St) as L. destruct (lookup_task id want s) as [[t w]|x].
    + left. split; auto. destruct L as (a & _ & H1 & H2 & _). eauto.
    + destruct L as [-> L]. split; auto. intros t [(_ & a & H1 & H2)|[N _]]; [|congruence]. rewrite L in H2; auto. discriminate.
Qed.
Lemma preview_loop_spec fuel o tr : forall todo k next r, preview_loop fuel o tr k todo next = r ->
  match r with
  | Ok (l, b) => exists rest, fire_times (fun x m => exists i, answers fuel o tr x i (Some x) = Ok m) next l rest /\ (List.length l <= todo)%nat /\
      match rest with None => b = true | Some _ => b = false /\ List.length l = todo end
  | Err x => exists y i, answers fuel o tr y i (Some y) = Err x
  end.
Proof.
  induction todo as [|todo IH]; intros k [x|] r H; cbn in H; subst r.
  - exists (Some x). sp; auto. constructor.
  - exists None. sp; auto. constructor.
  - destruct (answers fuel o tr x k (Some x)) as [n|z] eqn:A; [|eauto]. specialize (IH (S k) n _ eq_refl).
    destruct (preview_loop fuel o tr (S k) todo n) as [[l b]|z]; auto. destruct IH as (rest & F & L & B). exists rest. sp; [econstructor; eauto|cbn; lia|].
    destruct rest; auto. destruct B. split; auto. cbn. lia.
  - exists None. sp; auto; [constructor|cbn; lia].
Qed.
Theorem C34_preview :
  forall (c : config) (now : Z) (id : string) (want : option string) (n : Z) (s : sched), reachable c s ->
    (~ (1 <= n <= 50) -> preview c now id want n s = Err ValueError) /\
    (1 <= n <= 50 ->
     match preview c now id want n s with
     | Ok None => forall t, ~ found id want s t
     | Ok (Some (l, exhausted)) => exists t first rest, found id want s t /\
         (t_next t = first /\ first <> None \/ t_next t = None /\ exists k, answers (c_fuel c) (c_oracle c) (t_trigger t) now k None = Ok first) /\
         fire_times (fun x m => next_fire c (t_trigger t) x x m) first l rest /\
         Z.of_nat (List.length l) <= n /\
         match rest with None => exhausted = true | Some _ => exhausted = false /\ Z.of_nat (List.length l) = n end
     | Err x => exists t y k prev, found id want s t /\ answers (c_fuel c) (c_oracle c) (t_trigger t) y k prev = Err x
     end).
Proof.
  intros c now id want n s R. unfold preview. split; intros N.
  - replace (negb ((1 <=? n) && (n <=? 50))) with true by lia. reflexivity.
  - replace (negb ((1 <=? n) && (n <=? 50))) with false by lia. pose proof (lookup_found id want s (reachable_wf _ _ R)) as L. destruct (lookup_task id want s) as [[t w]|x].
    2:{ destruct L as [-> L]. exact L. }
    destruct (match t_next t with Some x => Ok (Some x) | None => answers (c_fuel c) (c_oracle c) (t_trigger t) now (draws s) None end) as [f|x] eqn:E.
    + pose proof (preview_loop_spec (c_fuel c) (c_oracle c) (t_trigger t) (Z.to_nat n) (S (draws s)) f _ eq_refl) as P.
      destruct (preview_loop (c_fuel c) (c_oracle c) (t_trigger t) (S (draws s)) (Z.to_nat n) f) as [[l b]|x].
      * destruct P as (rest & F & Le & B). exists t, f, rest. split; auto. split. { destruct (t_next t) as [y|]; [injection E as <-; left; split; [auto|discriminate]|right; eauto]. }
        split; [exact F|]. split; [lia|]. destruct rest; auto. destruct B. split; auto. lia.
      * destruct P as (y & i & P). exists t, y, i, (Some y). auto.
    + destruct (t_next t) as [y|] eqn:TN; [discriminate E|]. exists t, now, (draws s), None. auto.
Qed.
Print Assumptions C34_preview.
Theorem C34_increasing :
  forall (c : config) (now : Z) (id : string) (want : option string) (n : Z) (s : sched) (l : list Z) (b : bool),
    reachable c s -> fair (c_oracle c) -> (forall t, found id want s t -> forward (t_trigger t)) ->
    preview c now id want n s = Ok (Some (l, b)) -> increasing l.
Proof.
  intros c now id want n s l b R FO FW P. destruct (C34_preview c now id want n s R) as [A B].
  destruct (Z_lt_le_dec n 1); [rewrite A in P by lia; discriminate|]. destruct (Z_lt_le_dec 50 n); [rewrite A in P by lia; discriminate|].
  specialize (B ltac:(lia)). rewrite P in B. destruct B as (t & f & rest & Ft & _ & F & _).
  refine (proj1 (fire_times_increasing _ _ _ _ _ F)). intros x u [k H]. exact (answers_later _ _ _ _ FO (FW t Ft) _ _ _ (Z.le_refl x) H).
Qed.
Print Assumptions C34_increasing.
(** without jitter the preview of a scheduled task and the run times later handed out agree, as far as both go *)
Lemma fire_times_agree (Rel : Z -> option Z -> Prop) : (forall t n m, Rel t n -> Rel t m -> n = m) ->
  forall a l b, fire_times Rel a l b -> forall m b', fire_times Rel a m b' -> agree l m.
Proof.
  intros D a l b F. induction F as [n|t n l rest HR F IH]; intros m b' F'.
  - right. exists m. reflexivity.
  - inversion F'; subst; [left; eexists; reflexivity|].
    match goal with HX : Rel t ?n2, HF : fire_times Rel ?n2 _ _ |- _ => rewrite (D _ _ _ HX HR) in HF; destruct (IH _ _ HF) as [[k ->]|[k ->]] end.
    + left. exists k. reflexivity.
    + right. exists k. reflexivity.
Qed.
Theorem C34_truthful :
  forall (c : config) (now : Z) (id : string) (want : option string) (n : Z) (s : sched) (l : list Z) (b : bool),
    reachable c s -> preview c now id want n s = Ok (Some (l, b)) ->
    exists t, found id want s t /\ (t_next t <> None -> jitter_free (t_trigger t) ->
      forall k nows H ls rest, non_decreasing nows -> last_opt nows = Some H -> wakes (c_fuel c) (c_oracle c) k t nows = Ok (ls, rest) ->
        agree l (List.concat ls)).
Proof.
  intros c now id want n s l b R P. destruct (C34_preview c now id want n s R) as [A B].
  destruct (Z_lt_le_dec n 1); [rewrite A in P by lia; discriminate|]. destruct (Z_lt_le_dec 50 n); [rewrite A in P by lia; discriminate|].
  specialize (B ltac:(lia)). rewrite P in B. destruct B as (t & f & rest & Ft & Ff & F & _). exists t. split; auto.
  intros TN JF k nows H ls rest' ND LA WK. destruct (wakes_is_schedule _ _ _ _ _ _ _ _ JF ND LA WK) as [G _].
  destruct Ff as [[E _]|[E _]]; [|congruence]. subst f.
  assert (F' : fire_times (answer_after (c_fuel c) (t_trigger t)) (t_next t) l rest).
  { clear -F JF. induction F as [|x m l rest [i HX] F IH]; [constructor|]. econstructor; [|exact IH]. eapply answer_after_of; [exact JF|apply Z.le_refl|exact HX]. }
  eapply fire_times_agree; [|exact F'|exact G]. intros; eapply answer_after_det; eauto.
Qed.
Print Assumptions C34_truthful.
Example C34_case :
  let s := run_ops ex_cfg due_two sched_init in
  preview ex_cfg (sec 1) "a" None 3 s = Ok (Some ([sec 2; sec 4; sec 6], false)) /\ preview ex_cfg (sec 1) "zzz" None 3 s = Ok None /\ preview ex_cfg (sec 1) "a" None 51 s = Err ValueError.
Proof. vm_compute. repeat split. Qed.
