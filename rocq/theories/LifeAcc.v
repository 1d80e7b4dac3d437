(** Instance accounting of every operation (C18). *)
From Verif Require Import Prelude PreludeFacts MemStore StoreSpec MemStoreProofs CallArgs Cron Triggers TriggerSpec Task TaskSpec TaskProofs Scheduler Executor SchedSpec SchedProofs SchedProofs2 SchedReach LifeSpec.
Open Scope Z_scope.

Definition acc (s s' : sched) : Prop :=
  exists new, subs s' = subs s ++ new /\ accepted (fun id => count id s) new (fun id => count id s').
Lemma accepted_ext us : forall n n1 n' n1', (forall id, n1 id = n id) -> (forall id, n1' id = n' id) -> accepted n us n' -> accepted n1 us n1'.
Proof.
  induction us as [|u us IH]; cbn; intros n n1 n' n1' E1 E2.
  - intros H id. rewrite E1, E2. auto.
  - intros [H1 H2]. split; [rewrite E1; auto|]. eapply IH; [| |exact H2]; auto. intros id. cbn. rewrite E1. auto.
Qed.
Lemma accepted_app us vs : forall n n1 n2, accepted n us n1 -> accepted n1 vs n2 -> accepted n (us ++ vs) n2.
Proof.
  induction us as [|u us IH]; cbn; intros n n1 n2 H1 H2.
  - eapply accepted_ext; [| |exact H2]; auto.
  - destruct H1 as [A B]. split; auto. eapply IH; eauto.
Qed.
Lemma acc_same s s' : insts s' = insts s -> subs s' = subs s -> acc s s'.
Proof. intros E1 E2. exists []. rewrite app_nil_r. split; auto. cbn. intros id. unfold count. rewrite E1. auto. Qed.
Lemma acc_trans a b c : acc a b -> acc b c -> acc a c.
Proof.
  intros (x & A1 & A2) (y & B1 & B2). exists (x ++ y). split; [rewrite B1, A1, app_assoc; auto|]. eapply accepted_app; eauto.
Qed.
Lemma acc_send e xa t times s : acc s (fst (send_task e xa t times s)).
Proof.
  unfold send_task. destruct (count (t_id t) s >=? t_max t) eqn:C; [apply acc_same; auto|].
  destruct (e_send_fails e xa (t_id t)); [apply acc_same; auto|]. cbn.
  exists [MkSub xa (t_id t) times (t_max t)]. split; auto. cbn. split; [lia|]. intros id.
  change (count id (w_subs (subs s ++ [MkSub xa (t_id t) times (t_max t)]) (w_insts (dset (t_id t) (count (t_id t) s + 1) (insts s)) s)))
    with (count id (w_insts (dset (t_id t) (count (t_id t) s + 1) (insts s)) s)).
  rewrite count_dset. destruct (String.eqb_spec id (t_id t)) as [->|]; auto.
Qed.
Lemma same_delete id want s : insts (fst (delete_task id want s)) = insts s /\ subs (fst (delete_task id want s)) = subs s /\
  st (fst (delete_task id want s)) = st s /\ refc (fst (delete_task id want s)) = refc s.
Proof.
  unfold delete_task. destruct (String.eqb id ""); auto. destruct (stopped s).
  - destruct (del_pending want id (pend s)) as [l [[a|]|]]; cbn; auto.
  - destruct (del_stores want id (stores s)) as [l [a|]]; cbn; auto.
Qed.
Lemma same_store_update a t s : insts (fst (store_update a t s)) = insts s /\ subs (fst (store_update a t s)) = subs s /\
  st (fst (store_update a t s)) = st s /\ refc (fst (store_update a t s)) = refc s.
Proof. unfold store_update. destruct (dget a (stores s)); auto. destruct (st_update s0 t); cbn; auto. Qed.
Lemma wakeup_if_same b s : insts (wakeup_if b s) = insts s /\ subs (wakeup_if b s) = subs s /\ st (wakeup_if b s) = st s /\ refc (wakeup_if b s) = refc s.
Proof. destruct b; auto. Qed.
Lemma same_update c id want fn ups s : insts (fst (update c id want fn ups s)) = insts s /\ subs (fst (update c id want fn ups s)) = subs s /\
  st (fst (update c id want fn ups s)) = st s /\ refc (fst (update c id want fn ups s)) = refc s.
Proof.
  unfold update. destruct (lookup_task id want s) as [[t w]|]; auto. destruct (update_task (c_tenv c) t (Some (c_self c)) fn ups) as [t' [?|]]; auto.
  destruct w as [al|].
  - pose proof (same_store_update al t' s) as H. destruct (store_update al t' s) as [s1 [?|]]; auto. cbn [fst] in *.
    match goal with |- context [wakeup_if ?b ?x] => destruct (wakeup_if_same b x) as (A & B & C & D) end. rewrite A, B, C, D. auto.
  - match goal with |- context [wakeup_if ?b ?x] => destruct (wakeup_if_same b x) as (A & B & C & D) end. cbn [fst]. rewrite A, B, C, D. auto.
Qed.
Lemma same_resume_task c e id want s : let s' := fst (resume_task c e id want s) in insts s' = insts s /\ subs s' = subs s /\ st s' = st s /\ refc s' = refc s.
Proof.
  unfold resume_task, ask. destruct (lookup_task id want s) as [[t w]|]; cbn; auto. destruct (answers _ _ _ _ _ _) as [[n|]|]; auto.
  - pose proof (same_update c id w VNone [("next_run_time"%string, VDate n)] (w_draws (S (draws s)) s)) as H. destruct (update _ _ _ _ _ _). exact H.
  - pose proof (same_delete (t_id t) w (w_draws (S (draws s)) s)) as H. destruct (delete_task _ _ _). exact H.
Qed.
Lemma same_reschedule c e id want tr s : let s' := fst (reschedule_task c e id want tr s) in insts s' = insts s /\ subs s' = subs s /\ st s' = st s /\ refc s' = refc s.
Proof.
  unfold reschedule_task, ask. destruct (answers _ _ _ _ _ _) as [n|]; cbn; auto.
  apply (same_update c id want VNone _ (w_draws (S (draws s)) s)).
Qed.
Lemma same_real_add c now t rep stt md s s' r : wf s -> real_add_task c now t rep stt md s = (s', r) -> insts s' = insts s /\ subs s' = subs s /\ st s' = st s /\ refc s' = refc s.
Proof. intros W H. destruct (real_add_task_spec _ _ _ _ _ _ _ _ _ W H) as (_ & F & _). destruct F. auto. Qed.
Lemma same_run_task_st c e id want f rf s : st (fst (run_task c e id want f rf s)) = st s /\ refc (fst (run_task c e id want f rf s)) = refc s.
Proof.
  unfold run_task, ask. destruct (stopped s); auto. destruct (lookup_task id want s) as [[t w]|]; auto. destruct (get_run_times _ _ _ _ _) as [[due k]|]; auto.
  destruct (negb (nonempty due) && negb f); auto. destruct (if nonempty due then coalesce_run_times (t_coalesce t) due else ([e_now e], 0%nat)) as [times n].
  destruct (t_exec t) as [xa|]; auto. destruct (negb (dmem xa (execs (w_draws k s)))); auto.
  assert (H : st (fst (send_task e xa t times (w_draws k s))) = st s /\ refc (fst (send_task e xa t times (w_draws k s))) = refc s).
  { unfold send_task. destruct (count (t_id t) (w_draws k s) >=? t_max t); auto. destruct (e_send_fails e xa (t_id t)); auto. }
  destruct (send_task e xa t times (w_draws k s)) as [s1 r]. cbn [fst] in H. destruct r as [u|x].
  2:{ destruct x; auto. }
  destruct (last_opt times) as [lastt|]; auto. cbn.
  destruct (answers _ _ _ _ _ _) as [nx|]; auto.
  match goal with |- context [match ?z with Some _ => _ | None => _ end] => destruct z as [nx'|] end.
  - destruct w as [a|]; auto. match goal with |- context [store_update a ?t0 ?z] => pose proof (same_store_update a t0 z) as Y; destruct (store_update a t0 z) end.
    cbn in *. destruct Y as (_ & _ & -> & ->). auto.
  - destruct rf.
    + match goal with |- context [delete_task id w ?z] => pose proof (same_delete id w z) as Y; destruct (delete_task id w z) end.
      cbn in *. destruct Y as (_ & _ & -> & ->). auto.
    + destruct w as [a|]; auto. match goal with |- context [store_update a ?t0 ?z] => pose proof (same_store_update a t0 z) as Y; destruct (store_update a t0 z) end.
      cbn in *. destruct Y as (_ & _ & -> & ->). auto.
Qed.
Lemma acc_run_task c e id want f rf s : acc s (fst (run_task c e id want f rf s)).
Proof.
  unfold run_task, ask. destruct (stopped s); [apply acc_same; auto|]. destruct (lookup_task id want s) as [[t w]|]; [|apply acc_same; auto].
  destruct (get_run_times _ _ _ _ _) as [[due k]|]; [|apply acc_same; auto].
  destruct (negb (nonempty due) && negb f); [apply acc_same; auto|]. destruct (if nonempty due then coalesce_run_times (t_coalesce t) due else ([e_now e], 0%nat)) as [times n].
  destruct (t_exec t) as [xa|]; [|apply acc_same; auto]. destruct (negb (dmem xa (execs (w_draws k s)))); [apply acc_same; auto|].
  assert (H : acc s (fst (send_task e xa t times (w_draws k s)))) by (eapply acc_trans; [|apply acc_send]; apply acc_same; auto).
  destruct (send_task e xa t times (w_draws k s)) as [s1 r]. cbn [fst] in H. destruct r as [u|x].
  2:{ destruct x; exact H. }
  assert (H2 : forall s', insts s' = insts s1 -> subs s' = subs s1 -> acc s s') by (intros; eapply acc_trans; [exact H|]; apply acc_same; auto).
  destruct (last_opt times) as [lastt|]; [|apply H2; auto]. cbn.
  destruct (answers _ _ _ _ _ _) as [nx|]; [|apply H2; auto].
  match goal with |- context [match ?z with Some _ => _ | None => _ end] => destruct z as [nx'|] end.
  - destruct w as [a|]; [|apply H2; auto]. match goal with |- context [store_update a ?t0 ?z] => pose proof (same_store_update a t0 z) as Y; destruct (store_update a t0 z) end.
    cbn in *. apply H2; tauto.
  - destruct rf.
    + match goal with |- context [delete_task id w ?z] => pose proof (same_delete id w z) as Y; destruct (delete_task id w z) end. cbn in *. apply H2; tauto.
    + destruct w as [a|]; [|apply H2; auto]. match goal with |- context [store_update a ?t0 ?z] => pose proof (same_store_update a t0 z) as Y; destruct (store_update a t0 z) end.
      cbn in *. apply H2; tauto.
Qed.
Definition acc2 (s s' : sched) : Prop := acc s s' /\ st s' = st s /\ refc s' = refc s.
Lemma acc2_same s s' : insts s' = insts s -> subs s' = subs s -> st s' = st s -> refc s' = refc s -> acc2 s s'.
Proof. intros; split; [apply acc_same; auto|auto]. Qed.
Lemma acc2_trans a b c : acc2 a b -> acc2 b c -> acc2 a c.
Proof. intros (A & B & C) (A' & B' & C'). split; [eapply acc_trans; eauto|split; congruence]. Qed.
Lemma acc2_process_one c e a t s ev : acc2 s (fst (fst (process_one c e a t (s, ev)))).
Proof.
  unfold process_one, ask.
  assert (DEL : forall w x, acc2 x (fst (delete_task (t_id t) w x))) by (intros w x; destruct (same_delete (t_id t) w x) as (A & B & C & D); apply acc2_same; auto).
  destruct (match t_exec t with Some xa => if dmem xa (execs s) then Some xa else None | None => None end) as [xa|].
  2:{ pose proof (DEL (Some a) s) as H. destruct (delete_task (t_id t) (Some a) s). exact H. }
  destruct (get_run_times _ _ _ _ _) as [[due k]|]; [|apply acc2_same; auto]. destruct (coalesce_run_times _ _) as [times n].
  destruct (last_opt times); [|apply acc2_same; auto].
  assert (S : acc2 s (fst (send_task e xa t times (w_draws k s)))).
  { split; [eapply acc_trans; [|apply acc_send]; apply acc_same; auto|]. unfold send_task. destruct (count (t_id t) (w_draws k s) >=? t_max t); cbn; auto.
    destruct (e_send_fails e xa (t_id t)); cbn; auto. }
  destruct (send_task e xa t times (w_draws k s)) as [s1 r]. cbn [fst] in S.
  assert (S2 : acc2 s (w_draws (Datatypes.S (draws s1)) s1)) by (eapply acc2_trans; [exact S|]; apply acc2_same; auto).
  destruct (answers _ _ _ _ _ _) as [[x|]|]; [| |exact S2].
  - match goal with |- context [store_update a ?t0 ?z] => pose proof (same_store_update a t0 z) as Y; destruct (store_update a t0 z) as [s3 r3] end. cbn [fst] in *.
    eapply acc2_trans; [exact S2|]. apply acc2_same; tauto.
  - match goal with |- context [delete_task _ _ ?z] => pose proof (DEL (Some a) z) as Y; destruct (delete_task (t_id t) (Some a) z) end. cbn [fst] in *.
    eapply acc2_trans; [exact S2|]. exact Y.
Qed.
Lemma acc2_process_due c e a : forall l s ev, acc2 s (fst (fst (process_due c e a l (s, ev)))).
Proof.
  induction l as [|t l IH]; intros s ev; [apply acc2_same; auto|]. cbn [process_due]. pose proof (acc2_process_one c e a t s ev) as H.
  destruct (process_one c e a t (s, ev)) as [[s1 ev1] [?|]]; cbn [fst] in *; auto. eapply acc2_trans; [exact H|]. apply IH.
Qed.
Lemma acc2_process_stores c e : forall l w s ev, acc2 s (fst (fst (process_stores c e l w (s, ev)))).
Proof.
  induction l as [|a l IH]; intros w s ev; [apply acc2_same; auto|]. cbn [process_stores]. unfold process_store.
  destruct (dget a (stores s)) as [x|]; [|apply IH]. destruct (e_busy e a || e_fails e a); [apply IH|].
  pose proof (acc2_process_due c e a (ms_due (s_mem x) (e_now e)) s ev) as H. destruct (process_due c e a _ (s, ev)) as [[s1 ev1] [?|]]; cbn [fst] in *; auto.
  eapply acc2_trans; [exact H|]. apply IH.
Qed.
Lemma acc2_process c e s : acc2 s (fst (process_tasks c e s)).
Proof.
  unfold process_tasks. destruct (sstate_eqb (st s) PAUSED); [apply acc2_same; auto|]. destruct (e_plock e); [apply acc2_same; auto|].
  pose proof (acc2_process_stores c e (dkeys (stores s)) None s []) as H. destruct (process_stores _ _ _ _ _) as [[s1 ev] [?|]]; cbn [fst] in *; auto.
Qed.
Lemma same_add_pending c now md : forall l s s' r, wf s -> add_pending c now md l s = (s', r) -> insts s' = insts s /\ subs s' = subs s /\ st s' = st s /\ refc s' = refc s.
Proof. intros l s s' r W H. destruct (add_pending_wf _ _ _ _ _ _ _ W H) as (_ & []). auto. Qed.
Lemma same_start c e p s : wf s -> insts (fst (start c e p s)) = insts s /\ subs (fst (start c e p s)) = subs s.
Proof.
  intros W. unfold start. set (s0 := w_refc (refc s + 1) s). assert (W0 : wf s0) by (apply (wf_same s); auto).
  destruct (refc s0 >? 1); auto. destruct (negb (stopped s0)); auto.
  set (s1 := if dmem "default" (execs s0) then s0 else fst (add_executor "default" s0)).
  assert (W1 : wf s1) by (subst s1; destruct (dmem "default" (execs s0)); auto using wf_add_executor).
  assert (E1 : insts s1 = insts s /\ subs s1 = subs s) by (subst s1; unfold add_executor; destruct (dmem "default" (execs s0)); cbn; auto).
  set (s2 := w_execs (map_dict x_start (execs s1)) s1). assert (W2 : wf s2) by (apply wf_map_execs; auto).
  set (s3 := if dmem "default" (stores s2) then s2 else fst (add_store "default" (new_store true) s2)).
  assert (W3 : wf s3) by (subst s3; destruct (dmem "default" (stores s2)); auto using wf_add_store, wf_new).
  assert (E3 : insts s3 = insts s /\ subs s3 = subs s).
  { subst s3. unfold add_store. destruct (dmem "default" (stores s2)); [exact E1|]. cbn [fst].
    match goal with |- context [wakeup_if ?b ?x] => destruct (wakeup_if_same b x) as (-> & -> & _ & _) end. exact E1. }
  set (s4 := w_stores (map_dict st_start (stores s3)) s3). assert (W4 : wf s4) by (apply wf_map_stores; auto).
  destruct (add_pending c (e_now e) (if c_lock_path c then Some (e_now e + c_startup_delay c) else None) (pend s4) s4) as [s5 r] eqn:A.
  destruct (same_add_pending _ _ _ _ _ _ _ W4 A) as (A1 & A2 & _). assert (E5 : insts s5 = insts s /\ subs s5 = subs s) by (rewrite A1, A2; exact E3).
  destruct r; [|exact E5]. cbn [fst]. match goal with |- context [wakeup_if ?b ?x] => destruct (wakeup_if_same b x) as (-> & -> & _ & _) end. exact E5.
Qed.
Lemma same_shutdown s : insts (fst (shutdown s)) = insts s /\ subs (fst (shutdown s)) = subs s.
Proof.
  unfold shutdown. destruct (refc (w_refc (refc s - 1) s) >? 0); auto. destruct (stopped _); auto. destruct (shutdown_stores _). auto.
Qed.
(** every call but a completion only adds accepted submissions *)
Lemma acc_step c e o s : wf s -> (forall id evts, o <> OComplete id evts) -> acc s (step c e o s).
Proof.
  intros W NC. destruct o; cbn [step].
  - destruct (same_start c e paused s W). apply acc_same; auto.
  - destruct (same_shutdown s). apply acc_same; auto.
  - unfold pause. destruct (st s); apply acc_same; auto.
  - unfold resume. destruct (st s); apply acc_same; auto.
  - unfold add_executor. destruct (dmem _ _); apply acc_same; auto.
  - unfold remove_executor. destruct (dget _ _); apply acc_same; auto.
  - unfold add_store. destruct (dmem _ _); [apply acc_same; auto|]. cbn [fst]. match goal with |- context [wakeup_if ?b ?x] => destruct (wakeup_if_same b x) as (E1 & E2 & _ & _) end. apply acc_same; [rewrite E1|rewrite E2]; auto.
  - unfold remove_store. destruct (dget _ _); apply acc_same; auto.
  - unfold add_task. destruct (t_submitted t); [apply acc_same; auto|]. destruct (match t_sched t with Some _ => _ | None => _ end); [apply acc_same; auto|]. destruct (stopped s); [apply acc_same; auto|].
    destruct (real_add_task _ _ _ _ _ _ _) as [s' r] eqn:A. destruct (same_real_add _ _ _ _ _ _ _ _ _ W A) as (? & ? & _). apply acc_same; auto.
  - destruct (same_update c id store fn ups s) as (? & ? & _). apply acc_same; auto.
  - destruct (same_reschedule c e id store tr s) as (? & ? & _). apply acc_same; auto.
  - destruct (same_update c id store VNone [("next_run_time"%string, VNone)] s) as (? & ? & _). apply acc_same; auto.
  - destruct (same_resume_task c e id store s) as (? & ? & _). apply acc_same; auto.
  - apply acc_run_task.
  - destruct (same_delete id store s) as (? & ? & _). apply acc_same; auto.
  - unfold remove_all_tasks. destruct (stopped s); apply acc_same; auto.
  - apply acc2_process.
  - exfalso. eapply NC; reflexivity.
Qed.

(** ** counting *)
Lemma submitted_app id us vs : submitted id (us ++ vs) = submitted id us + submitted id vs.
Proof. unfold submitted. rewrite filter_app, app_length. lia. Qed.
Lemma accepted_counts id : forall us n n', accepted n us n' -> n' id = n id + submitted id us.
Proof.
  induction us as [|u us IH]; cbn; intros n n' H.
  - rewrite H. unfold submitted. cbn. lia.
  - destruct H as [_ H]. rewrite (IH _ _ H). unfold submitted. cbn. destruct (String.eqb id (sub_task u)); cbn; lia.
Qed.
Lemma last_submission_snoc id us u : last_submission id (us ++ [u]) = if String.eqb id (sub_task u) then Some u else last_submission id us.
Proof.
  unfold last_submission. rewrite filter_app. cbn. destruct (String.eqb id (sub_task u)).
  - unfold last_opt. rewrite rev_app_distr. reflexivity.
  - rewrite app_nil_r. reflexivity.
Qed.
Definition within (n : string -> Z) (us : list submission) : Prop :=
  forall id, match last_submission id us with Some u => n id <= sub_limit u | None => n id = 0 end.
Lemma accepted_within : forall vs us n n', within n us -> accepted n vs n' -> within n' (us ++ vs).
Proof.
  induction vs as [|v vs IH]; cbn; intros us n n' W H.
  - rewrite app_nil_r. intros id. rewrite H. apply W.
  - destruct H as [L H]. replace (us ++ v :: vs) with ((us ++ [v]) ++ vs) by (rewrite <- app_assoc; auto). eapply IH; [|exact H].
    intros id. rewrite last_submission_snoc. cbn. destruct (String.eqb_spec id (sub_task v)) as [->|]; [lia|apply W].
Qed.
Lemma count_release id j s : count id (release j s) = if String.eqb id j then count j s - 1 else count id s.
Proof.
  unfold release. destruct (count j s - 1 =? 0) eqn:E.
  - unfold count at 1; cbn. destruct (String.eqb_spec id j) as [->|]; [rewrite dget_ddel_eq; lia|rewrite dget_ddel_ne by auto; auto].
  - rewrite count_dset. destruct (String.eqb_spec id j) as [->|]; auto.
Qed.
Lemma run_ops_app c l1 l2 s : run_ops c (l1 ++ l2) s = run_ops c l2 (run_ops c l1 s).
Proof. revert s. induction l1 as [|[e o] l1 IH]; cbn; auto. Qed.
Lemma completed_app id l1 l2 : completed id (l1 ++ l2) = completed id l1 + completed id l2.
Proof.
  induction l1 as [|[e o] l1 IH]; cbn; [lia|]. destruct o; cbn; lia.
Qed.
Lemma accounting c : forall l, completions_match c l ->
  let s := run_ops c l sched_init in
  (forall id, count id s = submitted id (subs s) - completed id l /\ 0 <= count id s) /\ within (fun id => count id s) (subs s).
Proof.
  intros l. induction l as [|[e o] l IH] using rev_ind; intros M.
  - cbn. split; [intros id; cbn; unfold submitted; cbn; lia|]. intros id. cbn. reflexivity.
  - assert (M1 : completions_match c l).
    { intros l1 e0 id evts l2 ->. apply (M l1 e0 id evts (l2 ++ [(e, o)])). rewrite <- app_assoc. auto. }
    specialize (IH M1). rewrite run_ops_app. cbn [run_ops]. set (s := run_ops c l sched_init) in *. destruct IH as [A B].
    assert (W : wf s) by (apply (reachable_wf c); exists l; auto).
    assert (D : (exists id evts, o = OComplete id evts) \/ forall id evts, o <> OComplete id evts).
    { destruct o; try (right; discriminate). left; eauto. }
    destruct D as [(id & evts & ->)|NC].
    + cbn [step]. unfold complete. pose proof (M l e id evts [] eq_refl) as ML. change (run_ops c l sched_init) with s in ML.
      assert (E : subs (w_evs (evs (release id s) ++ evts) (release id s)) = subs s) by (unfold release; destruct (count id s - 1 =? 0); auto).
      rewrite E. assert (K : forall j, count j (w_evs (evs (release id s) ++ evts) (release id s)) = if String.eqb j id then count id s - 1 else count j s) by (intros j; apply (count_release j id s)).
      split.
      * intros j. rewrite K, completed_app. cbn. destruct (A j) as [A1 A2]. destruct (String.eqb_spec j id) as [->|]; lia.
      * intros j. specialize (B j). rewrite K. destruct (String.eqb_spec j id) as [->|]; auto.
        destruct (last_submission id (subs s)) eqn:L; [lia|]. destruct (A id). exfalso. lia.
    + destruct (acc_step c e o s W NC) as (new & N1 & N2). rewrite N1. split.
      * intros id. rewrite (accepted_counts id _ _ _ N2), submitted_app, completed_app. destruct (A id).
        assert (completed id [(e, o)] = 0) by (destruct o; auto; exfalso; eapply NC; auto).
        assert (0 <= submitted id new) by (unfold submitted; lia). lia.
      * eapply accepted_within; eauto.
Qed.
