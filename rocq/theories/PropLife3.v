(** C37: registration of executors and stores.  C20: outcome events. *)
From Verif Require Import Prelude PreludeFacts MemStore StoreSpec CallArgs Cron Triggers TriggerSpec Task TaskSpec TaskProofs Scheduler Executor SchedSpec SchedProofs SchedProofs2 SchedReach LifeSpec LifeAcc LifeAll LifeProofs LifeProofs2 PropSched PropLife2.
Open Scope Z_scope.

(** C37. *)
Theorem C37_add_executor :
  forall (alias : string) (s s' : sched) (r : result unit), add_executor alias s = (s', r) ->
    match r with
    | Err x => x = ValueError /\ has_exec s alias /\ s' = s
    | Ok _ => ~ has_exec s alias /\ has_exec s' alias /\ (forall b, b <> alias -> dget b (execs s') = dget b (execs s)) /\
        s' = w_evs (evs s ++ [sched_event EXECUTOR_ADDED (Some alias)]) (w_execs (execs s') s)
    end.
Proof.
  intros a s s' r. unfold add_executor, has_exec. destruct (dmem a (execs s)) eqn:M; intros [= <- <-].
  - unfold dmem in M. destruct (dget a (execs s)); [eauto|discriminate].
  - apply dmem_false in M. split; [intros [x X]; congruence|]. split; [eexists; apply dget_dset_eq|]. split; [intros b N; apply dget_dset_ne; auto|reflexivity].
Qed.
Print Assumptions C37_add_executor.
Theorem C37_add_store :
  forall (alias : string) (memory : bool) (s s' : sched) (r : result unit), add_store alias (new_store memory) s = (s', r) ->
    match r with
    | Err x => x = ValueError /\ has_store s alias /\ s' = s
    | Ok _ => ~ has_store s alias /\ has_store s' alias /\ (forall b, b <> alias -> dget b (stores s') = dget b (stores s)) /\ same_tasks s s' /\
        evs s' = evs s ++ [sched_event STORE_ADDED (Some alias)] /\ wakes_by (wake_n s) s s' /\
        st s' = st s /\ refc s' = refc s /\ execs s' = execs s /\ pend s' = pend s /\ insts s' = insts s /\ subs s' = subs s
    end.
Proof.
  intros a m s s' r. pose proof (stored_add_store a m s) as SA. revert SA. unfold add_store, has_store. destruct (dmem a (stores s)) eqn:M; intros SA [= <- <-].
  - unfold dmem in M. destruct (dget a (stores s)); [eauto|discriminate].
  - apply dmem_false in M. split; [intros [x X]; congruence|]. cbn [fst] in SA. revert SA.
    set (x0 := if stopped s then _ else _). set (s1 := dispatch _ _). intros SA.
    assert (Q : stores (wakeup_if (running s1) s1) = dset a x0 (stores s) /\ evs (wakeup_if (running s1) s1) = evs s ++ [sched_event STORE_ADDED (Some a)]) by (destruct (running s1); split; reflexivity).
    destruct Q as [-> ->]. split; [eexists; apply dget_dset_eq|]. split; [intros b N; apply dget_dset_ne; auto|]. split; [intros b j; apply SA|].
    split; [auto|]. split; [apply wakeup_if_wakes; reflexivity|]. destruct (running s1); sp; reflexivity.
Qed.
Print Assumptions C37_add_store.
Theorem C37_remove_executor :
  forall (alias : string) (shut : bool) (s s' : sched) (r : result executor), remove_executor alias shut s = (s', r) ->
    match r with
    | Err x => x = KeyError /\ ~ has_exec s alias /\ s' = s
    | Ok x => ~ has_exec s' alias /\ (forall b, b <> alias -> dget b (execs s') = dget b (execs s)) /\
        (exists x0, dget alias (execs s) = Some x0 /\ x_starts x = x_starts x0 /\ x_stops x = (x_stops x0 + if shut then 1 else 0)%nat) /\
        s' = w_evs (evs s ++ [sched_event EXECUTOR_REMOVED (Some alias)]) (w_execs (execs s') s)
    end.
Proof.
  intros a b s s' r. unfold remove_executor, has_exec. destruct (dget a (execs s)) as [x|] eqn:G; intros [= <- <-].
  - cbn. split; [intros [y Y]; rewrite dget_ddel_eq in Y; discriminate|]. split; [intros c N; apply dget_ddel_ne; auto|]. split; [|reflexivity].
    exists x. destruct b; cbn; sp; auto; lia.
  - sp; auto. intros [x X]; congruence.
Qed.
Print Assumptions C37_remove_executor.
Theorem C37_remove_store :
  forall (alias : string) (shut : bool) (s s' : sched) (r : result store), remove_store alias shut s = (s', r) ->
    match r with
    | Err x => x = KeyError /\ ~ has_store s alias /\ s' = s
    | Ok x => ~ has_store s' alias /\ (forall b, b <> alias -> dget b (stores s') = dget b (stores s)) /\
        (exists x0, dget alias (stores s) = Some x0 /\ s_starts x = s_starts x0 /\ s_stops x = (s_stops x0 + if shut then 1 else 0)%nat) /\
        s' = w_evs (evs s ++ [sched_event STORE_REMOVED (Some alias)]) (w_stores (stores s') s)
    end.
Proof.
  intros a b s s' r. unfold remove_store, has_store. destruct (dget a (stores s)) as [x|] eqn:G; intros [= <- <-].
  - cbn. split; [intros [y Y]; rewrite dget_ddel_eq in Y; discriminate|]. split; [intros c N; apply dget_ddel_ne; auto|]. split; [|reflexivity].
    exists x. destruct b; cbn; sp; auto; lia.
  - sp; auto. intros [x X]; congruence.
Qed.
Print Assumptions C37_remove_store.

(** what is started and stopped *)
Definition sig (l : dict store) : dict (nat * nat) := map (fun ax => (fst ax, (s_starts (snd ax), s_stops (snd ax)))) l.
Definition kinds (s s' : sched) : Prop := execs s' = execs s /\ sig (stores s') = sig (stores s).
Lemma kinds_refl s : kinds s s. Proof. split; auto. Qed.
Lemma kinds_trans a b c : kinds a b -> kinds b c -> kinds a c.
Proof. intros [A B] [C D]. split; congruence. Qed.
Lemma kinds_eq s s' : execs s' = execs s -> stores s' = stores s -> kinds s s'.
Proof. intros A B. split; congruence. Qed.
Lemma sig_get a l : dget a (sig l) = option_map (fun x => (s_starts x, s_stops x)) (dget a l).
Proof. unfold sig. induction l as [|[b x] l IH]; cbn; auto. destruct (String.eqb a b); auto. Qed.
Lemma sig_dset a x x' : forall l, dget a l = Some x -> s_starts x' = s_starts x -> s_stops x' = s_stops x -> sig (dset a x' l) = sig l.
Proof.
  unfold sig. induction l as [|[b y] l IH]; cbn; [discriminate|]. destruct (String.eqb a b); cbn.
  - intros [= ->] -> ->. auto.
  - intros H E1 E2. f_equal. auto.
Qed.
Lemma kinds_set s a x x' : dget a (stores s) = Some x -> s_starts x' = s_starts x -> s_stops x' = s_stops x -> kinds s (w_stores (dset a x' (stores s)) s).
Proof. intros. split; auto. cbn. eapply sig_dset; eauto. Qed.
Lemma st_delete_sig x id : s_starts (fst (st_delete x id)) = s_starts x /\ s_stops (fst (st_delete x id)) = s_stops x.
Proof. unfold st_delete. destruct (ms_delete' _ _). auto. Qed.
Lemma st_update_sig x t : s_starts (fst (st_update x t)) = s_starts x /\ s_stops (fst (st_update x t)) = s_stops x.
Proof. unfold st_update. destruct (_ && _); auto. destruct (ms_update' _ _). auto. Qed.
Lemma st_add_sig x t : s_starts (fst (st_add x t)) = s_starts x /\ s_stops (fst (st_add x t)) = s_stops x.
Proof. unfold st_add. destruct (ms_add' _ _). auto. Qed.
Lemma kinds_delete id want s : kinds s (fst (delete_task id want s)).
Proof.
  unfold delete_task. destruct (String.eqb id ""); [apply kinds_refl|]. destruct (stopped s).
  - destruct (del_pending want id (pend s)) as [l r]. destruct r as [[a|]|]; apply kinds_eq; auto.
  - assert (H : sig (fst (del_stores want id (stores s))) = sig (stores s)).
    { generalize (stores s). induction d as [|[a x] l IH]; cbn [del_stores]; auto. destruct (wanted want a).
      - pose proof (st_delete_sig x id) as [E1 E2]. destruct (st_delete x id) as [x' [u|y]]; cbn in *.
        + unfold sig. cbn. rewrite E1, E2. auto.
        + destruct (del_stores want id l) as [l2 r]. unfold sig in *. cbn in *. rewrite IH. auto.
      - destruct (del_stores want id l) as [l2 r]. unfold sig in *. cbn in *. rewrite IH. auto. }
    destruct (del_stores want id (stores s)) as [l r]. cbn in H. destruct r; (split; [reflexivity|exact H]).
Qed.
Lemma kinds_store_update a t s : kinds s (fst (store_update a t s)).
Proof.
  unfold store_update. destruct (dget a (stores s)) as [x|] eqn:G; [|apply kinds_refl]. pose proof (st_update_sig x t) as [E1 E2]. destruct (st_update x t) as [x' r]. cbn in *.
  eapply kinds_set; eauto.
Qed.
Lemma kinds_wakeup b s : kinds s (wakeup_if b s). Proof. destruct b; split; auto. Qed.
Lemma kinds_draws n s : kinds s (w_draws n s). Proof. split; auto. Qed.
Lemma kinds_update c id want fn ups s : kinds s (fst (update c id want fn ups s)).
Proof.
  unfold update. destruct (lookup_task id want s) as [[t w]|]; [|apply kinds_refl]. destruct (update_task _ _ _ _ _) as [t' [u|]]; [|apply kinds_refl]. destruct w as [a|].
  - pose proof (kinds_store_update a t' s) as H. destruct (store_update a t' s) as [s1 [v|]]; auto. cbn [fst] in *. eapply kinds_trans; [exact H|]. eapply kinds_trans; [|apply kinds_wakeup]. apply kinds_eq; auto.
  - cbn [fst]. eapply kinds_trans; [|apply kinds_wakeup]. apply kinds_eq; auto.
Qed.
Lemma kinds_send e xa t times s : kinds s (fst (send_task e xa t times s)).
Proof. destruct (send_same e xa t times s) as (A & B & _). apply kinds_eq; auto. Qed.
Lemma kinds_resume_task c e id want s : kinds s (fst (resume_task c e id want s)).
Proof.
  unfold resume_task, ask. destruct (lookup_task id want s) as [[t w]|]; [|apply kinds_refl]. destruct (answers _ _ _ _ _ _) as [[n|]|]; [| |apply kinds_draws].
  - pose proof (kinds_update c id w VNone [("next_run_time"%string, VDate n)] (w_draws (S (draws s)) s)) as H. destruct (update _ _ _ _ _ _) as [s2 r2]. exact H.
  - pose proof (kinds_delete (t_id t) w (w_draws (S (draws s)) s)) as H. destruct (delete_task _ _ _) as [s2 r2]. exact H.
Qed.
Lemma kinds_run_task c e id want f rf s : kinds s (fst (run_task c e id want f rf s)).
Proof.
  unfold run_task, ask. destruct (stopped s); [apply kinds_refl|]. destruct (lookup_task id want s) as [[t w]|]; [|apply kinds_refl].
  destruct (get_run_times _ _ _ _ _) as [[due k]|]; [|apply kinds_refl]. destruct (_ && _); [apply kinds_draws|]. destruct (if nonempty due then _ else _) as [times n].
  destruct (t_exec t) as [xa|]; [|apply kinds_draws]. destruct (negb _); [apply kinds_draws|].
  pose proof (kinds_send e xa t times (w_draws k s)) as H. destruct (send_task e xa t times (w_draws k s)) as [s1 [u|x]].
  2:{ destruct x; exact H. }
  cbn [fst] in H. destruct (last_opt times) as [lt|]; [|exact H]. match goal with |- context [w_draws ?m ?y] => set (s3 := w_draws m y) in * end.
  assert (H3 : kinds s s3) by exact H. destruct (answers _ _ _ _ _ _) as [nx|]; [|exact H3].
  match goal with |- context [match ?q with Some _ => _ | None => _ end] => set (nx' := q) end.
  assert (G : kinds s (fst (match w with Some alias => let (s4, r4) := store_update alias (set_next nx' t) s3 in (s4, match r4 with Ok _ => Ok (Some (set_next nx' t)) | Err x => Err x end) | None => (s3, Ok (Some (set_next nx' t))) end))).
  { destruct w as [a|]; [|exact H3]. pose proof (kinds_store_update a (set_next nx' t) s3) as K. destruct (store_update a (set_next nx' t) s3). eapply kinds_trans; [exact H3|exact K]. }
  destruct nx' as [x|]; [exact G|]. destruct rf; [|exact G]. pose proof (kinds_delete id w s3) as K. destruct (delete_task id w s3). eapply kinds_trans; [exact H3|exact K].
Qed.
Lemma kinds_process_one c e a t s ev : kinds s (fst (fst (process_one c e a t (s, ev)))).
Proof.
  unfold process_one, ask. destruct (match t_exec t with Some xa => if dmem xa (execs s) then Some xa else None | None => None end) as [xa|].
  2:{ pose proof (kinds_delete (t_id t) (Some a) s) as H. destruct (delete_task _ _ _); exact H. }
  destruct (get_run_times _ _ _ _ _) as [[due k]|]; [|apply kinds_refl]. destruct (coalesce_run_times _ _) as [times n]. destruct (last_opt times) as [lt|]; [|apply kinds_draws].
  pose proof (kinds_send e xa t times (w_draws k s)) as H. destruct (send_task e xa t times (w_draws k s)) as [s1 r]. cbn [fst] in H.
  set (s2 := w_draws (S (draws s1)) s1). assert (H2 : kinds s s2) by exact H. destruct (answers _ _ _ _ _ _) as [[x|]|]; [| |exact H2].
  - pose proof (kinds_store_update a (set_next (Some x) t) s2) as K. destruct (store_update _ _ _). eapply kinds_trans; [exact H2|exact K].
  - pose proof (kinds_delete (t_id t) (Some a) s2) as K. destruct (delete_task _ _ _). eapply kinds_trans; [exact H2|exact K].
Qed.
Lemma kinds_process_due c e a : forall l s ev, kinds s (fst (fst (process_due c e a l (s, ev)))).
Proof.
  induction l as [|t l IH]; intros s ev; cbn [process_due]; [apply kinds_refl|]. pose proof (kinds_process_one c e a t s ev) as H.
  destruct (process_one c e a t (s, ev)) as [[s1 ev1] [u|x]]; [|exact H]. eapply kinds_trans; [exact H|apply IH].
Qed.
Lemma kinds_process c e s : kinds s (fst (process_tasks c e s)).
Proof.
  unfold process_tasks. destruct (sstate_eqb (st s) PAUSED); [apply kinds_refl|]. destruct (e_plock e); [split; auto|].
  assert (H : forall l w s ev, kinds s (fst (fst (process_stores c e l w (s, ev))))).
  { induction l as [|a l IH]; intros w s0 ev; cbn [process_stores]; [apply kinds_refl|].
    assert (H : kinds s0 (fst (fst (process_store c e a w (s0, ev))))).
    { unfold process_store. destruct (dget a (stores s0)) as [x|]; [|apply kinds_refl]. destruct (e_busy e a || e_fails e a); [apply kinds_refl|].
      pose proof (kinds_process_due c e a (ms_due (s_mem x) (e_now e)) s0 ev) as H. destruct (process_due _ _ _ _ _) as [[s1 ev1] [u|y]]; exact H. }
    destruct (process_store c e a w (s0, ev)) as [[s1 ev1] [w1|x]]; [|exact H]. eapply kinds_trans; [exact H|apply IH]. }
  specialize (H (dkeys (stores s)) None s []). destruct (process_stores _ _ _ _ _) as [[s1 ev1] [u|y]]; [|exact H]. eapply kinds_trans; [exact H|]. split; auto.
Qed.
Lemma kinds_add c e t rep next s : wf s -> kinds s (fst (add_task c e t rep next s)).
Proof.
  intros W. unfold add_task. destruct (t_submitted t); [apply kinds_refl|]. destruct (match t_sched t with Some _ => _ | None => _ end); [apply kinds_refl|]. destruct (stopped s); [apply kinds_eq; auto|].
  unfold real_add_task.
  match goal with |- context [let '(s1, rn) := ?q in _] => assert (Q : kinds s (fst q)); [|destruct q as [s1 rn]] end.
  { unfold ask. destruct (t_next _); [apply kinds_refl|]. destruct (starts next); [|apply kinds_refl]. apply kinds_draws. }
  cbn [fst] in Q. destruct rn as [n|]; [|exact Q]. destruct (t_store _) as [al|]; [|exact Q]. destruct (dget al (stores s1)) as [x|] eqn:G; [|exact Q].
  match goal with |- context [st_add x ?t1] => set (t2 := t1) end.
  pose proof (st_add_sig x t2) as [E1 E2]. destruct (st_add x t2) as [x1 r1]. cbn [fst] in *.
  assert (K1 : kinds s (w_stores (dset al x1 (stores s1)) s1)) by (eapply kinds_trans; [exact Q|eapply kinds_set; eauto]).
  destruct r1 as [u|x0].
  - cbn [fst]. eapply kinds_trans; [exact K1|]. eapply kinds_trans; [|apply kinds_wakeup]. split; auto.
  - destruct x0; try exact Q. destruct rep; [|exact Q]. pose proof (st_update_sig x t2) as [F1 F2]. destruct (st_update x t2) as [x2 r2]. cbn [fst] in *.
    assert (K2 : kinds s (w_stores (dset al x2 (stores s1)) s1)) by (eapply kinds_trans; [exact Q|eapply kinds_set; eauto]).
    destruct r2 as [u|x0]; [|destruct x0; exact Q]. cbn [fst]. eapply kinds_trans; [exact K2|]. eapply kinds_trans; [|apply kinds_wakeup]. split; auto.
Qed.
Lemma kinds_remove_all want s : kinds s (remove_all_tasks want s).
Proof.
  unfold remove_all_tasks. destruct (stopped s); [apply kinds_eq; auto|]. split; auto. cbn. unfold sig. rewrite map_map. apply map_ext. intros [a x]. cbn. destruct (wanted want a); auto.
Qed.
Definition opened (s : sched) : nat := if stopped s then 0%nat else 1%nat.
Definition in_step (s : sched) : Prop :=
  (forall a x, dget a (execs s) = Some x -> x_starts x = (x_stops x + opened s)%nat) /\
  (forall a x, dget a (stores s) = Some x -> s_starts x = (s_stops x + opened s)%nat).
Lemma in_step_kinds s s' : kinds s s' -> stopped s' = stopped s -> in_step s -> in_step s'.
Proof.
  intros [A B] C [D E]. unfold in_step, opened. rewrite A, C. split; [exact D|]. intros a x G. pose proof (f_equal (dget a) B) as H. rewrite !sig_get, G in H. cbn in H.
  destruct (dget a (stores s)) as [y|] eqn:Gy; [|discriminate]. injection H as H1 H2. rewrite H1, H2. exact (E a y Gy).
Qed.
Lemma stopped_iff s s' : (st s' = STOPPED <-> st s = STOPPED) -> stopped s' = stopped s.
Proof. unfold stopped. destruct (st s), (st s'); cbn; auto; intros [A B]; try (specialize (A eq_refl); discriminate); specialize (B eq_refl); discriminate. Qed.
Lemma in_step_step c e o s : wf s -> (forall p, o = OStart p -> is_ok (snd (start c e p s)) = true) -> in_step s -> in_step (step c e o s).
Proof.
  intros W OK I. destruct (Z.eq_dec (delta o) 0) as [D|D].
  - destruct (life_other c e o s W D) as [_ S]. apply stopped_iff in S. destruct o; try discriminate D; cbn [step] in *.
    + eapply in_step_kinds; [|exact S|exact I]. unfold pause. destruct (st s); apply kinds_eq; auto.
    + eapply in_step_kinds; [|exact S|exact I]. unfold resume. destruct (st s); apply kinds_eq; auto.
    + clear S. unfold add_executor. destruct (dmem alias (execs s)); auto. destruct I as [I1 I2]. split; [|exact I2]. cbn [fst]. intros a x. cbn.
      unfold opened. change (stopped (dispatch _ _)) with (stopped s). destruct (string_dec a alias) as [->|N].
      * rewrite dget_dset_eq. intros [= <-]. destruct (stopped s); reflexivity.
      * rewrite dget_dset_ne by auto. apply I1.
    + unfold remove_executor. destruct (dget alias (execs s)); auto. destruct I as [I1 I2]. split; [|exact I2]. cbn. intros a x G. destruct (string_dec a alias) as [->|N].
      * rewrite dget_ddel_eq in G. discriminate.
      * rewrite dget_ddel_ne in G by auto. apply (I1 a x G).
    + revert S. unfold add_store. destruct (dmem alias (stores s)); auto. cbn [fst]. set (s1 := dispatch _ _). intros S.
      eapply in_step_kinds; [apply kinds_wakeup| |]. { destruct (running s1); reflexivity. } destruct I as [I1 I2]. split; [exact I1|].
      intros a x. cbn. unfold opened. change (stopped s1) with (stopped s). destruct (string_dec a alias) as [->|N].
      * rewrite dget_dset_eq. intros [= <-]. destruct (stopped s); reflexivity.
      * rewrite dget_dset_ne by auto. apply I2.
    + unfold remove_store. destruct (dget alias (stores s)); auto. destruct I as [I1 I2]. split; [exact I1|]. cbn. intros a x G. destruct (string_dec a alias) as [->|N].
      * rewrite dget_ddel_eq in G. discriminate.
      * rewrite dget_ddel_ne in G by auto. apply (I2 a x G).
    + eapply in_step_kinds; [apply kinds_add; auto|exact S|exact I].
    + eapply in_step_kinds; [apply kinds_update|exact S|exact I].
    + eapply in_step_kinds; [|exact S|exact I]. unfold reschedule_task, ask. destruct (answers _ _ _ _ _ _); [|apply kinds_draws]. apply (kinds_update c id store _ _ (w_draws (Datatypes.S (draws s)) s)).
    + eapply in_step_kinds; [apply kinds_update|exact S|exact I].
    + eapply in_step_kinds; [apply kinds_resume_task|exact S|exact I].
    + eapply in_step_kinds; [apply kinds_run_task|exact S|exact I].
    + eapply in_step_kinds; [apply kinds_delete|exact S|exact I].
    + eapply in_step_kinds; [apply kinds_remove_all|exact S|exact I].
    + eapply in_step_kinds; [apply kinds_process|exact S|exact I].
    + eapply in_step_kinds; [|exact S|exact I]. unfold complete, release. destruct (_ =? 0); apply kinds_eq; auto.
  - destruct o; try (cbn in D; congruence); cbn [step]; clear D.
    + specialize (OK paused eq_refl). pose proof (start_spec c e paused s (fst (start c e paused s)) (snd (start c e paused s)) W (surjective_pairing _)) as S.
      destruct (refc s + 1 >? 1); [destruct S as [-> _]; exact I|]. destruct (stopped s) eqn:St; cbn [negb] in S; [|destruct S as [-> _]; exact I].
      destruct S as (_ & _ & _ & _ & X & _ & Y & Z). destruct (snd (start c e paused s)) as [b|]; [|discriminate OK]. destruct Z as (_ & St' & _).
      assert (OP : opened (fst (start c e paused s)) = 1%nat) by (unfold opened, stopped; rewrite St'; destruct paused; auto). destruct I as [I1 I2]. unfold opened in I1, I2. rewrite St in I1, I2. split.
      * intros a x. rewrite X, OP. destruct (dget a (execs s)) as [y|] eqn:G.
        -- intros [= <-]. cbn. rewrite (I1 a y G). lia.
        -- destruct (String.eqb a "default"); [|discriminate]. intros [= <-]. reflexivity.
      * intros a x G. rewrite OP. destruct (Y a x G) as (y & [Gy|(_ & _ & ->)] & _ & -> & ->); [rewrite (I2 a y Gy); lia|reflexivity].
    + pose proof (shutdown_spec s (fst (shutdown s)) (snd (shutdown s)) W (surjective_pairing _)) as S.
      destruct (refc s - 1 >? 0); [destruct S as [-> _]; exact I|]. destruct (stopped s) eqn:St; [destruct S as [-> _]; exact I|].
      destruct S as (_ & S1 & _ & S3 & _ & S5 & _ & S7 & S8 & S9 & S10 & _). destruct I as [I1 I2]. unfold opened in I1, I2. rewrite St in I1, I2.
      assert (OP : opened (fst (shutdown s)) = 0%nat) by (unfold opened, stopped; rewrite S1; auto). split.
      * intros a x. rewrite S8, OP. destruct (dget a (execs s)) as [y|] eqn:G; [|discriminate]. intros [= <-]. cbn. rewrite (I1 a y G). lia.
      * intros a x G. rewrite OP. destruct (proj1 (S9 a) ltac:(exists x; auto)) as [y Gy]. destruct (S10 a y Gy) as (z & Gz & _ & E1 & E2 & _). assert (z = x) as -> by congruence.
        rewrite E1, E2, (I2 a y Gy). lia.
Qed.
(** while running, everything registered has been started exactly once more than stopped; while stopped, equally often *)
Theorem C37_started_once :
  forall (c : config) (l : list (envir * op)), starts_succeed c l ->
    let s := run_ops c l sched_init in let up := match st s with STOPPED => 0%nat | _ => 1%nat end in
    (forall a x, dget a (execs s) = Some x -> x_starts x = (x_stops x + up)%nat) /\
    (forall a x, dget a (stores s) = Some x -> s_starts x = (s_stops x + up)%nat).
Proof.
  intros c l SS s up. assert (I : in_step s).
  { subst s up. revert SS. induction l as [|[e o] l IH] using rev_ind; intros SS; [split; intros a x; discriminate|].
    rewrite run_ops_app. cbn [run_ops]. apply in_step_step.
    - apply (reachable_wf c). exists l. reflexivity.
    - intros p ->. apply (SS l e p []). reflexivity.
    - apply IH. intros l1 e1 p l2 E. apply (SS l1 e1 p (l2 ++ [(e, o)])). rewrite E, <- app_assoc. reflexivity. }
  destruct I as [I1 I2]. assert (E : up = opened s) by (subst up; unfold opened, stopped; destruct (st s); auto). rewrite E. auto.
Qed.
Print Assumptions C37_started_once.
(** a start that raises leaves its executors and stores started *)
Theorem C37_failed_start_refuted :
  exists c e s s' x, reachable c s /\ start c e false s = (s', Err KeyError) /\ st s' = STOPPED /\ dget "default"%string (execs s') = Some x /\ x_starts x = 1%nat /\ x_stops x = 0%nat.
Proof.
  set (t := MkTask "x" "job" (every 1 None) None None (Some "later"%string) (Some (sec 1)) false 1 None None (VList []) (VDict []) None true false).
  exists ex_cfg, (quiet 0), (run_ops ex_cfg [(quiet 0, OAddTask t false None)] sched_init). eexists _, _.
  split; [eexists; reflexivity|]. split; [vm_compute; reflexivity|]. vm_compute. repeat split.
Qed.
Print Assumptions C37_failed_start_refuted.
Example C37_case :
  let l := [(quiet 0, OAddExecutor "x"); (quiet 0, OAddStore "db" false); (quiet 0, OStart false); (quiet 1, OAddExecutor "x"); (quiet 1, OShutdown); (quiet 2, OStart true); (quiet 3, OAddExecutor "y")] in
  let s := run_ops ex_cfg l sched_init in
  starts_succeed ex_cfg l /\ dget "x"%string (execs s) = Some (MkExec 2 1) /\ dget "y"%string (execs s) = Some (MkExec 1 0) /\ option_map s_starts (dget "db"%string (stores s)) = Some 2%nat.
Proof.
  cbn zeta. split; [|vm_compute; repeat split]. intros l1 e p l2 H.
  do 2 (destruct l1 as [|? l1]; [discriminate H|]; cbn in H; injection H as <- H).
  destruct l1 as [|? l1]; [injection H as <- <- <-; vm_compute; reflexivity|]. cbn in H. injection H as <- H.
  do 2 (destruct l1 as [|? l1]; [discriminate H|]; cbn in H; injection H as <- H).
  destruct l1 as [|? l1]; [injection H as <- <- <-; vm_compute; reflexivity|]. cbn in H. injection H as <- H.
  destruct l1 as [|? l1]; [discriminate H|]. cbn in H. injection H as <- H. destruct l1; discriminate H.
Qed.
