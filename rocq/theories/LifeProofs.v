(** Starting, stopping, installing, updating. *)
From Verif Require Import Prelude PreludeFacts MemStore StoreSpec MemStoreProofs CallArgs Cron Triggers TriggerSpec Task TaskSpec TaskProofs Scheduler Executor SchedSpec SchedProofs SchedProofs2 SchedReach LifeSpec LifeAcc LifeAll TriggersErr.
Open Scope Z_scope.

(** ** installing pending tasks *)
Lemma installs_ext c now md (has has' : string -> Prop) : (forall a, has a -> has' a) -> forall l m m1 m' m1' evts, (forall b j, m1 b j = m b j) -> (forall b j, m1' b j = m' b j) ->
  installs c now md has l m m' evts -> installs c now md has' l m1 m1' evts.
Proof.
  intros HH l m m1 m' m1' evts E1 E2 H. revert m1 m1' E1 E2. induction H; intros m1 m1' E1 E2.
  - constructor. intros. rewrite E1, E2. auto.
  - eapply ins_kept; eauto. rewrite E1. eauto.
  - eapply ins_put; eauto. { rewrite E1. auto. } apply IHinstalls; auto. intros b j. unfold put. rewrite E1. auto.
Qed.
Lemma frame_has s s' : frame_add s s' -> forall a, has_store s' a <-> has_store s a.
Proof.
  intros F a. unfold has_store. split; intros [x G].
  - apply dget_Some_key in G. rewrite (fa_keys _ _ F) in G. destruct (dget a (stores s)) eqn:E; eauto. apply dget_None in E. tauto.
  - destruct (fa_kind _ _ F _ _ G) as (x' & G' & _). eauto.
Qed.
Lemma add_pending_spec c now md : forall l s s' r, wf s -> stopped s = true -> add_pending c now md l s = (s', r) ->
  wf s' /\ frame_add s s' /\ wakes_n s' = wakes_n s /\
  match r with
  | Ok _ => exists evts, installs c now md (has_store s) l (stored s) (stored s') evts /\ evs s' = evs s ++ evts
  | Err x => exists t rep stt, In (t, rep, stt) l /\
      (t_store t = None \/ (x = KeyError /\ exists alias, t_store t = Some alias /\ ~ has_store s alias) \/
       exists k, answers (c_fuel c) (c_oracle c) (t_trigger t) now k None = Err x)
  end.
Proof.
  induction l as [|[[t rep] stt] l IH]; intros s s' r W St; cbn [add_pending].
  - intros [= <- <-]. sp; auto using frame_add_refl. exists []. rewrite app_nil_r. split; auto. constructor; auto.
  - destruct (real_add_task c now t rep stt md s) as [s1 r1] eqn:R. destruct (real_add_task_spec _ _ _ _ _ _ _ _ _ W R) as (W1 & F1 & H).
    assert (St1 : stopped s1 = true) by (unfold stopped; rewrite (fa_st _ _ F1); exact St).
    assert (NR : running s = false) by (unfold stopped, running in *; destruct (st s); cbn in *; congruence).
    intros G.
    assert (GO : forall r2, add_pending c now md l s1 = (s', r2) -> wakes_n s1 = wakes_n s ->
       wf s' /\ frame_add s s' /\ wakes_n s' = wakes_n s /\
       match r2 with
       | Ok _ => exists evts, installs c now md (has_store s) l (stored s1) (stored s') evts /\ evs s' = evs s1 ++ evts
       | Err x => exists t0 rep0 stt0, In (t0, rep0, stt0) l /\
           (t_store t0 = None \/ (x = KeyError /\ exists alias, t_store t0 = Some alias /\ ~ has_store s alias) \/
            exists k, answers (c_fuel c) (c_oracle c) (t_trigger t0) now k None = Err x)
       end).
    { intros r2 A EW. destruct (IH _ _ _ W1 St1 A) as (W' & F' & E' & B). sp; auto; [eapply frame_add_trans; eauto|lia|]. destruct r2 as [u|x].
      - destruct B as (evts & B1 & B2). exists evts. split; [|exact B2]. eapply installs_ext; [| | |exact B1]; auto. intros a. apply (frame_has _ _ F1).
      - destruct B as (t0 & r0 & s0 & Hi & B). exists t0, r0, s0. split; auto. destruct B as [B|[(B1 & alias & B2 & B3)|B]]; auto.
        right; left. split; auto. exists alias. split; auto. rewrite <- (frame_has _ _ F1). auto. }
    destruct r1 as [u|x].
    + destruct H as (alias & n & H1 & H2 & H3 & H4 & H5 & H6 & H7). rewrite NR, andb_false_r in H7.
      destruct (GO _ G ltac:(lia)) as (W' & F' & E' & B). sp; auto. destruct r as [v|x].
      * destruct B as (evts & B1 & B2). exists (task_event TASK_ADDED (t_id t) (Some alias) :: evts). split; [|rewrite B2, H6, <- app_assoc; auto].
        apply (ins_put _ _ _ _ t rep stt l _ _ _ alias n H1 H2); [destruct rep; auto|exact H3|]. refine (installs_ext _ _ _ _ _ (fun a h => h) _ _ _ _ _ _ _ (fun _ _ => eq_refl) B1). intros b j. symmetry. apply H5.
      * destruct B as (t0 & r0 & s0 & Hi & B). exists t0, r0, s0. split; [right; auto|auto].
    + destruct H as (H1 & H2 & H3 & H4 & H5).
      assert (DX : x = ConflictIdError \/ x <> ConflictIdError) by (destruct x; auto; right; discriminate). destruct DX as [->|NX].
      * destruct H5 as [(_ & -> & alias & t0 & K1 & K2)|[(X & _)|[(X & _)|(K1 & K2 & k & K3)]]]; try discriminate.
        -- destruct (GO _ G ltac:(lia)) as (W' & F' & E' & B). sp; auto. destruct r as [v|x].
           ++ destruct B as (evts & B1 & B2). exists evts. split; [|congruence]. apply (ins_kept _ _ _ _ t stt l _ _ _ alias t0 K1 (has_stored _ _ _ _ K2) K2). refine (installs_ext _ _ _ _ _ (fun a h => h) _ _ _ _ _ _ _ (fun _ _ => eq_refl) B1). intros b j. symmetry. apply H1.
           ++ destruct B as (t0' & r0 & s0 & Hi & B). exists t0', r0, s0. split; [right; auto|auto].
        -- exfalso. destruct (answers_no_conflict _ _ _ _ _ _ _ K3). congruence.
      * assert (E : (s', r) = (s1, Err x)) by (destruct x; auto; congruence). injection E as -> ->. sp; auto.
        exists t, rep, stt. split; [left; auto|]. destruct H5 as [(-> & _)|[(-> & K)|[(-> & K)|(_ & _ & K)]]]; auto; try congruence.
Qed.

(** ** start *)
Definition starting_events (s : sched) : list event :=
  (if dmem "default" (execs s) then [] else [sched_event EXECUTOR_ADDED (Some "default"%string)]) ++
  (if dmem "default" (stores s) then [] else [sched_event STORE_ADDED (Some "default"%string)]).
Lemma exec_add_default s : stopped s = true -> let s1 := if dmem "default" (execs s) then s else fst (add_executor "default" s) in
  stores s1 = stores s /\ st s1 = st s /\ refc s1 = refc s /\ pend s1 = pend s /\ ran s1 = ran s /\ wakes_n s1 = wakes_n s /\
  insts s1 = insts s /\ subs s1 = subs s /\
  evs s1 = evs s ++ (if dmem "default" (execs s) then [] else [sched_event EXECUTOR_ADDED (Some "default"%string)]) /\
  forall a, dget a (execs s1) = match dget a (execs s) with Some x => Some x | None => if String.eqb a "default" then Some new_exec else None end.
Proof.
  intros St. cbn zeta. destruct (dmem "default" (execs s)) eqn:D.
  - sp; auto; [symmetry; apply app_nil_r|]. intros a. destruct (dget a (execs s)) eqn:G; auto.
    destruct (String.eqb_spec a "default") as [->|]; auto. unfold dmem in D. rewrite G in D. discriminate.
  - unfold add_executor. rewrite D, St. cbn. sp; auto. intros a. apply dmem_false in D.
    destruct (String.eqb_spec a "default") as [->|N]; [rewrite dget_dset_eq, D; auto|rewrite dget_dset_ne by auto]. destruct (dget a (execs s)); auto.
Qed.
Lemma store_add_default s : stopped s = true -> let s1 := if dmem "default" (stores s) then s else fst (add_store "default" (new_store true) s) in
  execs s1 = execs s /\ st s1 = st s /\ refc s1 = refc s /\ pend s1 = pend s /\ ran s1 = ran s /\ wakes_n s1 = wakes_n s /\
  insts s1 = insts s /\ subs s1 = subs s /\
  evs s1 = evs s ++ (if dmem "default" (stores s) then [] else [sched_event STORE_ADDED (Some "default"%string)]) /\
  forall a, dget a (stores s1) = match dget a (stores s) with Some x => Some x | None => if String.eqb a "default" then Some (new_store true) else None end.
Proof.
  intros St. cbn zeta. destruct (dmem "default" (stores s)) eqn:D.
  - sp; auto; [symmetry; apply app_nil_r|]. intros a. destruct (dget a (stores s)) eqn:G; auto.
    destruct (String.eqb_spec a "default") as [->|]; auto. unfold dmem in D. rewrite G in D. discriminate.
  - unfold add_store. rewrite D, St. cbn [fst]. unfold wakeup_if, running. cbn. unfold stopped in St. destruct (st s) eqn:Est; try discriminate St. cbn.
    sp; auto. intros a. apply dmem_false in D.
    destruct (String.eqb_spec a "default") as [->|N]; [rewrite dget_dset_eq, D; auto|rewrite dget_dset_ne by auto]. destruct (dget a (stores s)); auto.
Qed.
Lemma start_spec c e p s s' r : wf s -> start c e p s = (s', r) ->
  if refc s + 1 >? 1 then s' = w_refc (refc s + 1) s /\ r = Ok false
  else if negb (stopped s) then s' = w_refc (refc s + 1) s /\ r = Err AssertionError
  else
    refc s' = refc s + 1 /\ insts s' = insts s /\ subs s' = subs s /\ ran s' = ran s /\
    (forall a, dget a (execs s') = option_map x_start (match dget a (execs s) with Some x => Some x | None => if String.eqb a "default" then Some new_exec else None end)) /\
    (forall a, has_store s' a <-> has_store s a \/ a = "default"%string) /\
    (forall a x', dget a (stores s') = Some x' -> exists x, (dget a (stores s) = Some x \/ (dget a (stores s) = None /\ a = "default"%string /\ x = new_store true)) /\
       s_memory x' = s_memory x /\ s_starts x' = S (s_starts x) /\ s_stops x' = s_stops x) /\
    match r with
    | Ok b => b = true /\ st s' = (if p then PAUSED else RUNNING) /\ pend s' = [] /\ wakes_n s' = (wakes_n s + (if p then 0 else 1))%nat /\
        exists evts, installs c (e_now e) (if c_lock_path c then Some (e_now e + c_startup_delay c) else None) (has_store s') (pend s) (stored s) (stored s') evts /\
          evs s' = evs s ++ starting_events s ++ evts ++ [sched_event SCHEDULER_START None]
    | Err x => st s' = STOPPED /\ pend s' = pend s /\ exists t rep stt, In (t, rep, stt) (pend s) /\
      (t_store t = None \/ (x = KeyError /\ exists alias, t_store t = Some alias /\ ~ has_store s' alias) \/
       exists k, answers (c_fuel c) (c_oracle c) (t_trigger t) (e_now e) k None = Err x)
    end.
Proof.
  intros W. unfold start. set (s0 := w_refc (refc s + 1) s). assert (W0 : wf s0) by (apply (wf_same s); auto).
  change (refc s0) with (refc s + 1). destruct (refc s + 1 >? 1); [intros [= <- <-]; auto|]. change (stopped s0) with (stopped s).
  destruct (stopped s) eqn:St; cbn [negb]; [|intros [= <- <-]; auto].
  pose proof (exec_add_default s0 St) as X1. cbn zeta in X1.
  assert (W1 : wf (if dmem "default" (execs s0) then s0 else fst (add_executor "default" s0))) by (destruct (dmem "default" (execs s0)); auto using wf_add_executor).
  set (s1 := if dmem "default" (execs s0) then s0 else fst (add_executor "default" s0)) in *.
  destruct X1 as (A1 & A2 & A3 & A4 & A5 & A6 & A7 & A8 & A9 & A10).
  set (s2 := w_execs (map_dict x_start (execs s1)) s1). assert (W2 : wf s2) by (apply wf_map_execs; auto).
  assert (St2 : stopped s2 = true) by (unfold stopped; change (st s2) with (st s1); rewrite A2; exact St).
  pose proof (store_add_default s2 St2) as X2. cbn zeta in X2.
  assert (W3 : wf (if dmem "default" (stores s2) then s2 else fst (add_store "default" (new_store true) s2))) by (destruct (dmem "default" (stores s2)); auto using wf_add_store, wf_new).
  set (s3 := if dmem "default" (stores s2) then s2 else fst (add_store "default" (new_store true) s2)) in *.
  destruct X2 as (B1 & B2 & B3 & B4 & B5 & B6 & B7 & B8 & B9 & B10).
  set (s4 := w_stores (map_dict st_start (stores s3)) s3). assert (W4 : wf s4) by (apply wf_map_stores; auto).
  assert (St4 : stopped s4 = true) by (unfold stopped; change (st s4) with (st s3); rewrite B2; exact St2).
  assert (EP : pend s4 = pend s) by (change (pend s4) with (pend s3); rewrite B4; exact A4). rewrite EP.
  destruct (add_pending c (e_now e) (if c_lock_path c then Some (e_now e + c_startup_delay c) else None) (pend s) s4) as [s5 r5] eqn:AP.
  destruct (add_pending_spec _ _ _ _ _ _ _ W4 St4 AP) as (W5 & F5 & E5 & H5).
  assert (GS : forall a, dget a (stores s4) = option_map st_start (match dget a (stores s) with Some x => Some x | None => if String.eqb a "default" then Some (new_store true) else None end)).
  { intros a. change (stores s4) with (map_dict st_start (stores s3)). rewrite map_dict_get, B10. change (stores s2) with (stores s1). rewrite A1. reflexivity. }
  assert (ST4 : forall a j, stored s4 a j = stored s a j).
  { intros a j. unfold stored. rewrite GS. destruct (dget a (stores s)); auto. destruct (String.eqb a "default"); auto. }
  assert (HS : forall a, has_store s5 a <-> has_store s a \/ a = "default"%string).
  { intros a. rewrite (frame_has _ _ F5). unfold has_store. rewrite GS. destruct (dget a (stores s)) eqn:G; cbn.
    - split; eauto.
    - destruct (String.eqb_spec a "default") as [->|N]; cbn.
      + split; eauto.
      + split; [intros [x H]; discriminate|]. intros [[x H]|H]; [discriminate|congruence]. }
  assert (HX : forall a, dget a (execs s5) = option_map x_start (match dget a (execs s) with Some x => Some x | None => if String.eqb a "default" then Some new_exec else None end)).
  { intros a. rewrite (fa_execs _ _ F5). change (execs s4) with (execs s3). rewrite B1. change (execs s2) with (map_dict x_start (execs s1)). rewrite map_dict_get, A10. reflexivity. }
  assert (HK : forall a x', dget a (stores s5) = Some x' -> exists x, (dget a (stores s) = Some x \/ (dget a (stores s) = None /\ a = "default"%string /\ x = new_store true)) /\
       s_memory x' = s_memory x /\ s_starts x' = S (s_starts x) /\ s_stops x' = s_stops x).
  { intros a x' G. assert (exists y, dget a (stores s4) = Some y) as [y Gy].
    { apply dget_Some_key in G. rewrite (fa_keys _ _ F5) in G. destruct (dget a (stores s4)) eqn:Z; eauto. apply dget_None in Z. tauto. }
    destruct (fa_kind _ _ F5 _ _ Gy) as (y' & Gy' & K1 & K2 & K3). assert (y' = x') as -> by congruence. rewrite GS in Gy.
    destruct (dget a (stores s)) as [x|] eqn:Gx; cbn in Gy.
    - injection Gy as <-. exists x. sp; auto.
    - destruct (String.eqb_spec a "default") as [->|]; [|discriminate]. injection Gy as <-. exists (new_store true). sp; auto. }
  assert (REST : refc s5 = refc s + 1 /\ insts s5 = insts s /\ subs s5 = subs s /\ ran s5 = ran s /\ wakes_n s5 = wakes_n s /\ st s5 = st s /\ evs s4 = evs s ++ starting_events s).
  { destruct F5 as [f1 f2 f3 f4 f5 f6 f7 f8 f9]. rewrite f1, f2, f5, f7, f8, E5.
    change (evs s4) with (evs s3). change (refc s4) with (refc s3). change (insts s4) with (insts s3). change (subs s4) with (subs s3). change (ran s4) with (ran s3). change (wakes_n s4) with (wakes_n s3). change (st s4) with (st s3).
    rewrite B2, B3, B5, B6, B7, B8, B9. change (evs s2) with (evs s1). change (stores s2) with (stores s1). rewrite A1.
    change (refc s2) with (refc s1). change (insts s2) with (insts s1). change (subs s2) with (subs s1). change (ran s2) with (ran s1). change (wakes_n s2) with (wakes_n s1). change (st s2) with (st s1).
    rewrite A2, A3, A5, A6, A7, A8, A9. change (stores s0) with (stores s). change (execs s0) with (execs s). unfold starting_events. rewrite app_assoc. sp; auto. }
  destruct REST as (R1 & R2 & R3 & R4 & R5 & R6 & R7).
  destruct r5 as [u|x].
  - intros H. assert (E : s' = wakeup_if (negb p) (dispatch (sched_event SCHEDULER_START None) (w_st (if p then PAUSED else RUNNING) (w_pend [] s5))) /\ r = Ok true) by (split; congruence).
    destruct E as [-> ->]. destruct H5 as (evts & I1 & I2).
    set (z := dispatch (sched_event SCHEDULER_START None) (w_st (if p then PAUSED else RUNNING) (w_pend [] s5))).
    assert (Q : stores (wakeup_if (negb p) z) = stores s5 /\ execs (wakeup_if (negb p) z) = execs s5 /\ refc (wakeup_if (negb p) z) = refc s5 /\ insts (wakeup_if (negb p) z) = insts s5 /\
      subs (wakeup_if (negb p) z) = subs s5 /\ ran (wakeup_if (negb p) z) = ran s5 /\ st (wakeup_if (negb p) z) = (if p then PAUSED else RUNNING) /\ pend (wakeup_if (negb p) z) = [] /\
      wakes_n (wakeup_if (negb p) z) = (wakes_n s5 + (if p then 0 else 1))%nat /\ evs (wakeup_if (negb p) z) = evs s5 ++ [sched_event SCHEDULER_START None]).
    { destruct p; cbn; sp; auto; lia. }
    destruct Q as (Q1 & Q2 & Q3 & Q4 & Q5 & Q6 & Q7 & Q8 & Q9 & Q10). unfold has_store. rewrite Q1, Q2, Q3, Q4, Q5, Q6, Q7, Q8, Q9, Q10. sp; auto; try congruence.
    exists evts. split.
    + refine (installs_ext _ _ _ _ _ _ _ _ _ _ _ _ _ _ I1).
      * intros a Ha. apply (frame_has _ _ F5) in Ha. exact Ha.
      * intros b j. symmetry. apply ST4.
      * intros b j. apply stored_same. exact Q1.
    + rewrite I2, R7. rewrite <- !app_assoc. reflexivity.
  - intros [= <- <-]. destruct H5 as (t & rep & stt & Hi & H5). sp; auto.
    + rewrite R6. unfold stopped in St. destruct (st s); auto; discriminate.
    + rewrite (fa_pend _ _ F5). exact EP.
    + exists t, rep, stt. split; auto. destruct H5 as [H5|[(K1 & al & K2 & K3)|H5]]; auto. right; left. split; auto. exists al. split; auto.
      rewrite (frame_has _ _ F5). exact K3.
Qed.

(** ** shutdown *)
Lemma shutdown_spec s s' r : wf s -> shutdown s = (s', r) ->
  if refc s - 1 >? 0 then s' = w_refc (refc s - 1) s /\ r = Ok false
  else if stopped s then s' = w_refc (refc s - 1) s /\ r = Err SchedulerNotRunningError
  else
    r = Ok true /\ st s' = STOPPED /\ refc s' = refc s - 1 /\ pend s' = pend s /\ insts s' = insts s /\ subs s' = subs s /\ wakes_n s' = wakes_n s /\
    evs s' = evs s ++ [sched_event SCHEDULER_SHUTDOWN None] /\
    (forall a, dget a (execs s') = option_map x_shutdown (dget a (execs s))) /\
    (forall a, has_store s' a <-> has_store s a) /\
    (forall a x, dget a (stores s) = Some x -> exists x', dget a (stores s') = Some x' /\ s_memory x' = s_memory x /\ s_starts x' = s_starts x /\ s_stops x' = S (s_stops x) /\
       forall j, ms_lookup (s_mem x') j = if s_memory x then None else match ms_lookup (s_mem x) j with Some t => if is_shutdown t then None else Some t | None => None end) /\
    exists runs, NoDup runs /\ ran s' = ran s ++ map snd runs /\
      forall a j, In (a, j) runs <-> exists t, stored s a j = Some t /\ t_trigger t = TShutdown.
Proof.
  intros W. unfold shutdown. change (refc (w_refc (refc s - 1) s)) with (refc s - 1). destruct (refc s - 1 >? 0); [intros [= <- <-]; auto|].
  change (stopped (w_refc (refc s - 1) s)) with (stopped s). destruct (stopped s) eqn:St; [intros [= <- <-]; auto|].
  match goal with |- context [shutdown_stores ?l] => change l with (stores s) end.
  pose proof (shutdown_stores_spec (stores s) (wf_keys _ W) (wf_inv _ W)) as H. destruct (shutdown_stores (stores s)) as [ss ids]. destruct H as (K & H & runs & R1 & R2 & R3).
  intros [= <- <-]. cbn -[map_dict has_store]. sp; auto.
  - intros a. apply map_dict_get.
  - intros a. unfold has_store. cbn -[map_dict]. rewrite map_dict_get. split.
    + intros [x G]. destruct (dget a ss) eqn:G1; [|discriminate]. apply dget_Some_key in G1. rewrite K in G1. destruct (dget a (stores s)) eqn:Z; eauto. apply dget_None in Z. tauto.
    + intros [x G]. destruct (H a x G) as (x' & G' & _). rewrite G'. cbn. eauto.
  - intros a x G. destruct (H a x G) as (x' & G' & I & E1 & E2 & E3 & E4). rewrite map_dict_get, G'. cbn. eexists; split; [reflexivity|]. cbn. sp; auto.
    intros j. rewrite E1. destruct (s_memory x); [reflexivity|apply E4].
  - exists runs. sp; auto. { congruence. } intros a j. rewrite R3. unfold stored. split.
    + intros (x & t & G & L & E). exists t. rewrite G. auto.
    + intros (t & S & E). destruct (dget a (stores s)) as [x|] eqn:G; [|discriminate]. exists x, t. auto.
Qed.

(** ** what the other calls do to the life cycle *)
Lemma life_other c e o s : wf s -> delta o = 0 -> refc (step c e o s) = refc s /\ (st (step c e o s) = STOPPED <-> st s = STOPPED).
Proof.
  intros W D. assert (Q : forall s', st s' = st s -> refc s' = refc s -> refc s' = refc s /\ (st s' = STOPPED <-> st s = STOPPED)) by (intros s' -> ->; tauto).
  destruct o; try discriminate D; cbn [step].
  - unfold pause. destruct (st s) eqn:E; cbn; rewrite ?E; split; auto; try tauto; split; intros; discriminate.
  - unfold resume. destruct (st s) eqn:E; cbn; rewrite ?E; split; auto; try tauto; split; intros; discriminate.
  - unfold add_executor. destruct (dmem _ _); apply Q; auto.
  - unfold remove_executor. destruct (dget _ _); apply Q; auto.
  - unfold add_store. destruct (dmem _ _); [apply Q; auto|]. cbn [fst]. match goal with |- context [wakeup_if ?b ?x] => destruct (wakeup_if_same b x) as (_ & _ & E1 & E2) end. apply Q; [rewrite E1|rewrite E2]; auto.
  - unfold remove_store. destruct (dget _ _); apply Q; auto.
  - unfold add_task. destruct (t_submitted t); [apply Q; auto|]. destruct (match t_sched t with Some _ => _ | None => _ end); [apply Q; auto|]. destruct (stopped s); [apply Q; auto|].
    destruct (real_add_task _ _ _ _ _ _ _) as [s' r] eqn:A. destruct (same_real_add _ _ _ _ _ _ _ _ _ W A) as (_ & _ & E1 & E2). apply Q; auto.
  - destruct (same_update c id store fn ups s) as (_ & _ & E1 & E2). apply Q; auto.
  - destruct (same_reschedule c e id store tr s) as (_ & _ & E1 & E2). apply Q; auto.
  - destruct (same_update c id store VNone [("next_run_time"%string, VNone)] s) as (_ & _ & E1 & E2). apply Q; auto.
  - destruct (same_resume_task c e id store s) as (_ & _ & E1 & E2). apply Q; auto.
  - destruct (same_run_task_st c e id store force remove_finished s) as (E1 & E2). apply Q; auto.
  - destruct (same_delete id store s) as (_ & _ & E1 & E2). apply Q; auto.
  - unfold remove_all_tasks. destruct (stopped s); apply Q; auto.
  - destruct (acc2_process c e s) as (_ & E1 & E2). apply Q; auto.
  - unfold complete, release. destruct (count id s - 1 =? 0); apply Q; auto.
Qed.
Lemma opens_app l1 l2 : opens (l1 ++ l2) = opens l1 + opens l2.
Proof. induction l1 as [|[e o] l1 IH]; cbn; lia. Qed.
(** the count, whatever happens *)
Lemma refc_opens c : forall l, refc (run_ops c l sched_init) = opens l.
Proof.
  intros l. induction l as [|[e o] l IH] using rev_ind; [reflexivity|].
  rewrite run_ops_app. cbn [run_ops]. set (s := run_ops c l sched_init) in *. rewrite opens_app. cbn [opens].
  assert (W : wf s) by (apply (reachable_wf c); exists l; auto).
  destruct o; try (cbn [delta]; match goal with |- context [step c e ?oo s] => destruct (life_other c e oo s W eq_refl) as [L1 L2] end; rewrite L1, IH; lia).
  - cbn [delta step]. destruct (start c e paused s) as [s' r] eqn:E. cbn [fst]. pose proof (start_spec _ _ _ _ _ _ W E) as H. rewrite IH in H.
    destruct (opens l + 1 >? 1); [destruct H as [-> _]; cbn; lia|]. destruct (negb (stopped s)); [destruct H as [-> _]; cbn; lia|]. destruct H as [-> _]. lia.
  - cbn [delta step]. destruct (shutdown s) as [s' r] eqn:E. cbn [fst]. pose proof (shutdown_spec _ _ _ W E) as H. rewrite IH in H.
    destruct (opens l - 1 >? 0); [destruct H as [-> _]; cbn; lia|]. destruct (stopped s); [destruct H as [-> _]; cbn; lia|]. destruct H as (_ & _ & -> & _). lia.
Qed.
Lemma life_counts c : forall l, nested l -> starts_succeed c l ->
  let s := run_ops c l sched_init in refc s = opens l /\ (st s = STOPPED <-> opens l = 0).
Proof.
  intros l. induction l as [|[e o] l IH] using rev_ind; intros N S.
  - cbn. tauto.
  - assert (N1 : nested l) by (intros l1 l2 ->; apply (N l1 (l2 ++ [(e, o)])); rewrite app_assoc; auto).
    assert (S1 : starts_succeed c l) by (intros l1 e0 p l2 ->; apply (S l1 e0 p (l2 ++ [(e, o)])); rewrite <- app_assoc; auto).
    specialize (IH N1 S1). rewrite run_ops_app. cbn [run_ops]. set (s := run_ops c l sched_init) in *. destruct IH as [A B].
    assert (W : wf s) by (apply (reachable_wf c); exists l; auto). rewrite opens_app. cbn [opens].
    pose proof (N l [(e, o)] eq_refl) as P0. pose proof (N (l ++ [(e, o)]) [] ltac:(rewrite app_nil_r; auto)) as P1. rewrite opens_app in P1. cbn [opens] in P1.
    assert (STD : stopped s = true <-> st s = STOPPED) by (unfold stopped; destruct (st s); cbn; split; congruence).
    destruct o; try (cbn [delta]; match goal with |- context [step c e ?oo s] => destruct (life_other c e oo s W eq_refl) as [L1 L2] end; rewrite L1, L2, A, B; lia).
    + cbn [delta step] in *. pose proof (S l e paused [] eq_refl) as OK. change (run_ops c l sched_init) with s in OK.
      destruct (start c e paused s) as [s' r] eqn:E. cbn [fst snd] in *. pose proof (start_spec _ _ _ _ _ _ W E) as H. rewrite A in H.
      destruct (opens l + 1 >? 1) eqn:G; [destruct H as [-> _]; cbn; rewrite B; lia|].
      assert (O : opens l = 0) by lia. destruct (stopped s) eqn:St; cbn [negb] in H; [|destruct H as [_ ->]; discriminate OK].
      destruct H as (H1 & _ & _ & _ & _ & _ & _ & H). destruct r as [b|]; [|discriminate OK]. destruct H as (_ & H2 & _). rewrite H1, H2.
      split; [lia|]. destruct paused; split; intros; try discriminate; lia.
    + cbn [delta step] in *. destruct (shutdown s) as [s' r] eqn:E. cbn [fst] in *. pose proof (shutdown_spec _ _ _ W E) as H. rewrite A in H.
      destruct (opens l - 1 >? 0) eqn:G; [destruct H as [-> _]; cbn; rewrite B; lia|].
      assert (O : opens l = 1) by lia. destruct (stopped s) eqn:St; [exfalso; apply proj1 in STD; specialize (STD eq_refl); apply B in STD; lia|].
      destruct H as (_ & H2 & H3 & _). rewrite H2, H3. split; [lia|]. split; intros; try reflexivity; lia.
Qed.
