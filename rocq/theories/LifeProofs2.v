(** Proofs about update, resume, reschedule, delete and run_task. *)
From Verif Require Import Prelude PreludeFacts MemStore StoreSpec MemStoreProofs CallArgs Cron Triggers TriggerSpec TriggersProofs TriggersProofs2 Task TaskSpec TaskProofs Scheduler Executor SchedSpec SchedProofs SchedProofs2 SchedReach LifeSpec LifeAcc LifeAll LifeProofs.
Open Scope Z_scope.

Lemma has_of_keys s s' : dkeys (stores s') = dkeys (stores s) -> forall a, has_store s' a <-> has_store s a.
Proof. intros E a. rewrite !has_keys, E. tauto. Qed.
Lemma rest_frame s s' : frame s s' -> insts s' = insts s -> subs s' = subs s -> rest_same s s'.
Proof. intros [] A B. unfold rest_same. sp; auto. apply has_of_keys; auto. Qed.
Lemma rest_refl s : rest_same s s.
Proof. unfold rest_same. sp; auto. intros; tauto. Qed.
Lemma rest_trans a b c : rest_same a b -> rest_same b c -> rest_same a c.
Proof. unfold rest_same. intros (A1&A2&A3&A4&A5&A6&A7&A8) (B1&B2&B3&B4&B5&B6&B7&B8). sp; try congruence. intros x. rewrite B8. apply A8. Qed.

Lemma set_pending_task_spec want id t' : forall l t, find_pending want id l = Some t ->
  exists l1 b1 b2 l2, l = l1 ++ (t, b1, b2) :: l2 /\ set_pending_task want id t' l = l1 ++ (t', b1, b2) :: l2 /\ t_id t = id /\ task_in want t = true /\
    (forall t0 c1 c2, In (t0, c1, c2) l1 -> ~ (t_id t0 = id /\ task_in want t0 = true)).
Proof.
  induction l as [|[[t0 b1] b2] l IH]; cbn; intros t; [discriminate|]. destruct (String.eqb (t_id t0) id && task_in want t0) eqn:E.
  - intros [= ->]. exists [], b1, b2, l. apply andb_prop in E as [E1 E2]. apply String.eqb_eq in E1. sp; auto.
  - intros H. destruct (IH _ H) as (l1 & c1 & c2 & l2 & -> & -> & A & B & C). exists ((t0, b1, b2) :: l1), c1, c2, l2. sp; auto.
    intros t1 d1 d2 [[= -> -> ->]|Hi]; [|eauto]. intros [F1 F2]. rewrite F2, F1, String.eqb_refl in E. discriminate.
Qed.

Lemma wakeup_if_wakes s s1 : wakes_n s1 = wakes_n s -> st s1 = st s -> wakes_by (wake_n s) s (wakeup_if (running s1) s1).
Proof. intros A B. unfold wakes_by, wake_n, running. rewrite B. destruct (st s); cbn; lia. Qed.

Lemma update_running c id want fn ups s s' r : wf s -> stopped s = false -> update c id want fn ups s = (s', r) ->
  rest_same s s' /\
  match r with
  | Ok t' => exists a t, wanted want a = true /\ stored s a id = Some t /\ t_id t = id /\ lookup_task id want s = Ok (t, Some a) /\
      update_task (c_tenv c) t (Some (c_self c)) fn ups = (t', Ok tt) /\ only a id (Some t') s s' /\
      evs s' = evs s ++ [task_event TASK_MODIFIED id (Some a)] /\ wakes_by (wake_n s) s s'
  | Err x => s' = s /\
      ((x = TaskLookupError /\ forall a, wanted want a = true -> stored s a id = None) \/
       exists a t t', wanted want a = true /\ stored s a id = Some t /\ lookup_task id want s = Ok (t, Some a) /\
         update_task (c_tenv c) t (Some (c_self c)) fn ups = (t', Err x))
  end.
Proof.
  intros W St H. unfold update in H. pose proof (lookup_running id want s W St) as L. destruct (lookup_task id want s) as [[t w]|x] eqn:LK.
  2:{ injection H as <- <-. split; [apply rest_refl|]. split; auto. }
  destruct L as (a & -> & Wa & Sa & Ia). destruct (update_task (c_tenv c) t (Some (c_self c)) fn ups) as [t' [u|x]] eqn:U.
  2:{ injection H as <- <-. split; [apply rest_refl|]. split; auto. right. exists a, t, t'. auto. }
  pose proof (update_task_id (c_tenv c) t (Some (c_self c)) fn ups) as Ui. rewrite U in Ui. cbn in Ui.
  pose proof (store_update_spec a t' s W) as SU. destruct (store_update a t' s) as [s1 r1]. destruct SU as (W1 & F & I & Su & _ & E & SU).
  assert (HS : has_store s a) by (eapply has_stored; eauto). specialize (F HS).
  assert (Idt : t_id t' = id) by congruence.
  destruct SU as [(_ & N & _)|[(_ & N & _)|(-> & _ & S1)]]; [tauto|congruence|].
  injection H as <- <-. pose proof (rest_frame _ _ F I Su) as RS.
  set (s2 := dispatch (task_event TASK_MODIFIED id (Some a)) s1).
  assert (WU : forall b, rest_same s1 (wakeup_if b s2) /\ (forall a j, stored (wakeup_if b s2) a j = stored s1 a j) /\ evs (wakeup_if b s2) = evs s2).
  { intros []; cbn; (split; [unfold rest_same; sp; try reflexivity; intros; reflexivity|auto]). }
  destruct (WU (running s2)) as (R2 & S2 & E2). split; [eapply rest_trans; eauto|].
  exists a, t. sp; auto. { destruct u; auto. }
  - intros b j. rewrite S2, S1, Idt. auto.
  - rewrite E2. cbn. rewrite E. auto.
  - destruct F. apply wakeup_if_wakes; cbn; auto.
Qed.

Lemma update_stopped c id want fn ups s s' r : stopped s = true -> update c id want fn ups s = (s', r) ->
  match r with
  | Ok t' => exists l1 t b1 b2 l2, pend s = l1 ++ (t, b1, b2) :: l2 /\ t_id t = id /\ task_in want t = true /\
      (forall t0 c1 c2, In (t0, c1, c2) l1 -> ~ (t_id t0 = id /\ task_in want t0 = true)) /\
      update_task (c_tenv c) t (Some (c_self c)) fn ups = (t', Ok tt) /\
      s' = w_evs (evs s ++ [task_event TASK_MODIFIED id None]) (w_pend (l1 ++ (t', b1, b2) :: l2) s)
  | Err x => s' = s /\
      ((x = TaskLookupError /\ forall t b1 b2, In (t, b1, b2) (pend s) -> ~ (t_id t = id /\ task_in want t = true)) \/
       exists t b1 b2 t', In (t, b1, b2) (pend s) /\ t_id t = id /\ task_in want t = true /\
         update_task (c_tenv c) t (Some (c_self c)) fn ups = (t', Err x))
  end.
Proof.
  intros St H. unfold update, lookup_task in H. rewrite St in H. destruct (find_pending want id (pend s)) as [t|] eqn:FP.
  2:{ injection H as <- <-. split; auto. left. split; auto. apply find_pending_none; auto. }
  destruct (update_task (c_tenv c) t (Some (c_self c)) fn ups) as [t' [u|x]] eqn:U.
  2:{ injection H as <- <-. split; auto. right. destruct (find_pending_spec _ _ _ _ FP) as (l1 & b1 & b2 & l2 & E & A & B & _).
      exists t, b1, b2, t'. sp; auto. rewrite E. apply in_or_app; right; left; auto. }
  injection H as <- <-. destruct (set_pending_task_spec want id t' _ _ FP) as (l1 & b1 & b2 & l2 & E1 & E2 & A & B & C).
  exists l1, t, b1, b2, l2. rewrite E2. sp; auto; [destruct u; auto|].
  match goal with |- wakeup_if (running ?x) ?x = _ => assert (running x = false) as -> end.
  { unfold running; cbn. unfold stopped in St. destruct (st s); auto; discriminate. } reflexivity.
Qed.

Lemma upd_next c t n : t_sched t = Some (c_self c) -> update_task (c_tenv c) t (Some (c_self c)) VNone [("next_run_time"%string, opt_date n)] = (set_next n t, Ok tt).
Proof. intros E. unfold update_task, validate. rewrite E. cbn. rewrite Nat.eqb_refl. cbn. destruct n; cbn; unfold apply_approved, set_next; cbn; rewrite <- E; auto. Qed.
Lemma upd_trigger c t tr n : t_sched t = Some (c_self c) ->
  update_task (c_tenv c) t (Some (c_self c)) VNone [("trigger"%string, VTrigger tr); ("next_run_time"%string, opt_date n)] = (set_next n (set_trigger tr t), Ok tt).
Proof. intros E. unfold update_task, validate. rewrite E. cbn. rewrite Nat.eqb_refl. cbn. destruct n; cbn; unfold apply_approved, set_next, set_trigger; cbn; rewrite <- E; auto. Qed.

Lemma del_pending_spec want id : forall l l' r, del_pending want id l = (l', r) ->
  match r with
  | Some a => exists l1 t b1 b2 l2, l = l1 ++ (t, b1, b2) :: l2 /\ l' = l1 ++ l2 /\ t_id t = id /\ task_in want t = true /\ a = t_store t /\
      (forall t0 c1 c2, In (t0, c1, c2) l1 -> ~ (t_id t0 = id /\ task_in want t0 = true))
  | None => l' = l /\ forall t b1 b2, In (t, b1, b2) l -> ~ (t_id t = id /\ task_in want t = true)
  end.
Proof.
  induction l as [|[[t0 b1] b2] l IH]; cbn; intros l' r; [intros [= <- <-]; auto|]. destruct (String.eqb (t_id t0) id && task_in want t0) eqn:E.
  - intros [= <- <-]. exists [], t0, b1, b2, l. apply andb_prop in E as [E1 E2]. apply String.eqb_eq in E1. sp; auto.
  - assert (N : ~ (t_id t0 = id /\ task_in want t0 = true)) by (intros [F1 F2]; rewrite F2, F1, String.eqb_refl in E; discriminate).
    destruct (del_pending want id l) as [l2 r2]. specialize (IH _ _ eq_refl). intros [= <- <-]. destruct r2 as [a|].
    + destruct IH as (l1 & t & c1 & c2 & l3 & -> & -> & A & B & C & D). exists ((t0, b1, b2) :: l1), t, c1, c2, l3. sp; auto.
      intros t1 d1 d2 [[= -> -> ->]|Hi]; eauto.
    + destruct IH as [-> IH]. split; auto. intros t1 d1 d2 [[= -> -> ->]|Hi]; eauto.
Qed.
