(** A property of single tasks that holds of everything ever stored or pending. *)
From Verif Require Import Prelude PreludeFacts MemStore StoreSpec MemStoreProofs CallArgs Cron Triggers TriggerSpec Task TaskSpec TaskProofs Scheduler Executor SchedSpec SchedProofs SchedProofs2 SchedReach LifeSpec LifeAcc.
Open Scope Z_scope.

Lemma stored_id s a id t : wf s -> stored s a id = Some t -> t_id t = id.
Proof.
  intros W. unfold stored. destruct (dget a (stores s)) as [x|] eqn:G; [|discriminate]. intros L.
  apply (content_In t_id t_next (s_mem x) id t (wf_inv _ W _ _ G)) in L. tauto.
Qed.
Lemma update_task_id env t self fn ups : t_id (fst (update_task env t self fn ups)) = t_id t.
Proof. unfold update_task. destruct (validate env t self fn ups); reflexivity. Qed.
Lemma find_store_spec want id : forall l a t, find_store want id l = Some (t, a) -> exists x, In (a, x) l /\ wanted want a = true /\ ms_lookup (s_mem x) id = Some t.
Proof.
  induction l as [|[b x] l IH]; cbn; intros a t; [discriminate|]. destruct (wanted want b) eqn:W.
  - destruct (ms_lookup (s_mem x) id) as [t0|] eqn:L.
    + intros [= -> ->]. exists x. auto.
    + intros H. destruct (IH _ _ H) as (y & A & B & C). exists y. auto.
  - intros H. destruct (IH _ _ H) as (y & A & B & C). exists y. auto.
Qed.
Lemma find_store_none want id : forall l, find_store want id l = None -> forall a x, In (a, x) l -> wanted want a = true -> ms_lookup (s_mem x) id = None.
Proof.
  induction l as [|[b x] l IH]; cbn; intros H a y; [tauto|]. intros [[= -> ->]|Hi] Wa.
  - rewrite Wa in H. destruct (ms_lookup (s_mem y) id); [discriminate|auto].
  - destruct (wanted want b); [destruct (ms_lookup (s_mem x) id); [discriminate|]|]; eauto.
Qed.
Lemma lookup_running id want s : wf s -> stopped s = false ->
  match lookup_task id want s with
  | Ok (t, w) => exists a, w = Some a /\ wanted want a = true /\ stored s a id = Some t /\ t_id t = id
  | Err x => x = TaskLookupError /\ forall a, wanted want a = true -> stored s a id = None
  end.
Proof.
  intros W St. unfold lookup_task. rewrite St. destruct (find_store want id (stores s)) as [[t a]|] eqn:F.
  - destruct (find_store_spec _ _ _ _ _ F) as (x & Hi & Wa & L). exists a.
    assert (S : stored s a id = Some t) by (unfold stored; rewrite (In_dget _ _ _ (wf_keys _ W) Hi); auto).
    sp; auto. eapply stored_id; eauto.
  - split; auto. intros a Wa. unfold stored. destruct (dget a (stores s)) as [x|] eqn:G; auto. eapply find_store_none; eauto. apply dget_In; auto.
Qed.
Lemma find_pending_spec want id : forall l t, find_pending want id l = Some t ->
  exists l1 b1 b2 l2, l = l1 ++ (t, b1, b2) :: l2 /\ t_id t = id /\ task_in want t = true /\
    (forall t0 c1 c2, In (t0, c1, c2) l1 -> ~ (t_id t0 = id /\ task_in want t0 = true)).
Proof.
  induction l as [|[[t0 b1] b2] l IH]; cbn; intros t; [discriminate|]. destruct (String.eqb (t_id t0) id && task_in want t0) eqn:E.
  - intros [= ->]. exists [], b1, b2, l. apply andb_prop in E as [E1 E2]. apply String.eqb_eq in E1. sp; auto.
  - intros H. destruct (IH _ H) as (l1 & c1 & c2 & l2 & -> & A & B & C). exists ((t0, b1, b2) :: l1), c1, c2, l2. sp; auto.
    intros t1 d1 d2 [[= -> -> ->]|Hi]; [|eauto]. intros [F1 F2]. rewrite F2, F1, String.eqb_refl in E. discriminate.
Qed.
Lemma find_pending_none want id : forall l, find_pending want id l = None -> forall t b1 b2, In (t, b1, b2) l -> ~ (t_id t = id /\ task_in want t = true).
Proof.
  induction l as [|[[t0 b1] b2] l IH]; cbn; intros H t c1 c2; [tauto|]. destruct (String.eqb (t_id t0) id && task_in want t0) eqn:E; [discriminate|].
  intros [[= -> -> ->]|Hi]; [|eauto]. intros [F1 F2]. rewrite F2, F1, String.eqb_refl in E. discriminate.
Qed.

Section AllTasks.
  Variable c : config.
  Variable P : task -> Prop.
  Hypothesis P_next : forall n t, P t -> P (set_next n t).
  Hypothesis P_pending : forall b t, P t -> P (set_pending b t).
  Hypothesis P_update : forall t fn ups, P t -> P (fst (update_task (c_tenv c) t (Some (c_self c)) fn ups)).
  Hypothesis P_new : forall t, P (with_default_aliases (c_self c) t).

  Definition all_stored (s : sched) : Prop := forall a id t, stored s a id = Some t -> P t.
  Definition all_pending (s : sched) : Prop := forall t b1 b2, In (t, b1, b2) (pend s) -> P t.
  Definition all (s : sched) : Prop := all_stored s /\ all_pending s.

  Lemma all_same s s' : stores s' = stores s -> pend s' = pend s -> all s -> all s'.
  Proof. intros E1 E2 [A B]. split; [intros a id t; rewrite (stored_same s s'); eauto|unfold all_pending; rewrite E2; auto]. Qed.
  Lemma all_tasks_same s s' : (forall a j, stored s' a j = stored s a j) -> pend s' = pend s -> all s -> all s'.
  Proof. intros E1 E2 [A B]. split; [intros a id t; rewrite E1; eauto|unfold all_pending; rewrite E2; auto]. Qed.
  Lemma all_less s s' : (forall a j, stored s' a j = stored s a j \/ stored s' a j = None) -> pend s' = pend s -> all s -> all s'.
  Proof. intros E1 E2 [A B]. split; [intros a id t H; destruct (E1 a id) as [E|E]; rewrite E in H; [eauto|discriminate]|unfold all_pending; rewrite E2; auto]. Qed.
  Lemma all_put s s' a i t : P t -> (forall b j, stored s' b j = if String.eqb b a && String.eqb j i then Some t else stored s b j) -> pend s' = pend s -> all s -> all s'.
  Proof.
    intros Pt E1 E2 [A B]. split; [|unfold all_pending; rewrite E2; auto]. intros b j u. rewrite E1. destruct (String.eqb b a && String.eqb j i); [intros [= <-]; auto|eauto].
  Qed.
  Lemma del_pending_incl want id : forall l l' r, del_pending want id l = (l', r) -> forall p, In p l' -> In p l.
  Proof.
    induction l as [|[[t b1] b2] l IH]; cbn; intros l' r; [intros [= <- <-] p []|]. destruct (String.eqb (t_id t) id && task_in want t).
    - intros [= <- <-] p Hp; auto.
    - destruct (del_pending want id l) as [l2 r2]. intros [= <- <-] p [<-|Hp]; auto. right. eapply IH; eauto.
  Qed.
  Lemma all_delete id want s : wf s -> all s -> all (fst (delete_task id want s)).
  Proof.
    intros W A. destruct (string_dec id "") as [->|Hid]; [unfold delete_task; cbn; auto|]. destruct (stopped s) eqn:St.
    - unfold delete_task. apply String.eqb_neq in Hid. rewrite Hid, St. destruct (del_pending want id (pend s)) as [l r] eqn:D.
      assert (H : all (w_pend l s)).
      { destruct A as [A1 A2]. split; [exact A1|]. intros t b1 b2 Hi. apply (A2 t b1 b2). eapply del_pending_incl; eauto. }
      destruct r as [[a|]|]; exact H.
    - pose proof (delete_task_spec id want s W St Hid) as D. destruct (delete_task id want s) as [s' r]. cbn. destruct D as (F & _ & _ & _ & _ & D).
      pose proof (fr_pend _ _ F) as EP. destruct D as [(_ & _ & E & _)|(a & t & _ & _ & _ & _ & E & _)].
      + eapply all_same; eauto.
      + eapply all_less; [|exact EP|exact A]. intros b j. rewrite E. destruct (String.eqb b a && String.eqb j id); auto.
  Qed.
  Lemma store_update_pend a t s : pend (fst (store_update a t s)) = pend s.
  Proof. unfold store_update. destruct (dget a (stores s)); auto. destruct (st_update _ _). auto. Qed.
  Lemma all_store_update a t s : wf s -> P t -> all s -> all (fst (store_update a t s)).
  Proof.
    intros W Pt A. pose proof (store_update_spec a t s W) as U. pose proof (store_update_pend a t s) as EP. destruct (store_update a t s) as [s' r]. cbn [fst] in *.
    destruct U as (_ & _ & _ & _ & _ & _ & U). destruct U as [(_ & _ & ->)|[(_ & _ & E & _)|(_ & _ & E)]]; auto.
    - eapply all_tasks_same; eauto.
    - eapply all_put; eauto.
  Qed.
  Lemma all_lookup id want s t w : wf s -> all s -> lookup_task id want s = Ok (t, w) -> P t.
  Proof.
    intros W [A B] L. destruct (stopped s) eqn:St.
    - unfold lookup_task in L. rewrite St in L. destruct (find_pending want id (pend s)) as [u|] eqn:F; [|discriminate]. injection L as -> <-.
      destruct (find_pending_spec _ _ _ _ F) as (l1 & b1 & b2 & l2 & E & _). apply (B t b1 b2). rewrite E. apply in_or_app. right. left. auto.
    - pose proof (lookup_running id want s W St) as H. rewrite L in H. destruct H as (a & _ & _ & H & _). eauto.
  Qed.
  Lemma set_pending_task_in want id t' : forall l t b1 b2, In (t, b1, b2) (set_pending_task want id t' l) -> t = t' \/ In (t, b1, b2) l.
  Proof.
    induction l as [|[[u c1] c2] l IH]; cbn; intros t b1 b2; [tauto|]. destruct (String.eqb (t_id u) id && task_in want u); cbn.
    - intros [[= <- <- <-]|H]; auto.
    - intros [[= <- <- <-]|H]; auto. destruct (IH _ _ _ H); auto.
  Qed.
  Lemma all_update id want fn ups s : wf s -> all s -> all (fst (update c id want fn ups s)).
  Proof.
    intros W A. unfold update. destruct (lookup_task id want s) as [[t w]|] eqn:L; auto. pose proof (all_lookup _ _ _ _ _ W A L) as Pt.
    pose proof (P_update t fn ups Pt) as Pt'. destruct (update_task (c_tenv c) t (Some (c_self c)) fn ups) as [t' [u|]]; auto. cbn [fst] in Pt'.
    assert (WK : forall b x, all x -> all (wakeup_if b x)) by (intros b x; destruct b; auto).
    destruct w as [al|].
    - pose proof (all_store_update al t' s W Pt' A) as H. destruct (store_update al t' s) as [s1 [v|]]; auto. cbn [fst] in *. apply WK. exact H.
    - cbn [fst]. apply WK. destruct A as [A B]. split; [exact A|]. intros t0 b1 b2 Hi. cbn in Hi. apply set_pending_task_in in Hi as [->|Hi]; eauto.
  Qed.
  Lemma all_draws n s : all s -> all (w_draws n s). Proof. auto. Qed.
  Lemma all_real_add now t rep stt md s s' r : wf s -> P t -> real_add_task c now t rep stt md s = (s', r) -> all s -> all s'.
  Proof.
    intros W Pt R A. destruct (real_add_task_spec _ _ _ _ _ _ _ _ _ W R) as (_ & F & H). pose proof (fa_pend _ _ F) as EP. destruct r as [u|x].
    - destruct H as (al & n & _ & _ & _ & _ & E & _). eapply (all_put s s' al (t_id t)); [|exact E|exact EP|exact A]. apply P_pending, P_next, Pt.
    - destruct H as (E & _). eapply all_tasks_same; eauto.
  Qed.
  Lemma all_add_pending now md : forall l s s' r, wf s -> (forall t b1 b2, In (t, b1, b2) l -> P t) -> add_pending c now md l s = (s', r) -> all s -> all s'.
  Proof.
    induction l as [|[[t rep] stt] l IH]; intros s s' r W HL; cbn [add_pending]; [intros [= <- <-]; auto|].
    destruct (real_add_task c now t rep stt md s) as [s1 r1] eqn:R. intros H A.
    pose proof (all_real_add _ _ _ _ _ _ _ _ W (HL t rep stt (or_introl eq_refl)) R A) as A1.
    destruct (real_add_task_spec _ _ _ _ _ _ _ _ _ W R) as (W1 & _).
    assert (HL' : forall t b1 b2, In (t, b1, b2) l -> P t) by (intros; eapply HL; right; eauto).
    destruct r1 as [u|x]; [eapply IH; eauto|]. destruct x; try (injection H as <- <-; exact A1). eapply IH; eauto.
  Qed.
  Lemma stored_map f s a j : (forall x, s_mem (f x) = s_mem x) -> stored (w_stores (map_dict f (stores s)) s) a j = stored s a j.
  Proof. intros E. unfold stored; cbn. rewrite map_dict_get. destruct (dget a (stores s)); cbn; rewrite ?E; auto. Qed.
  Lemma stored_add_store a m s b j : stored (fst (add_store a (new_store m) s)) b j = stored s b j.
  Proof.
    unfold add_store. destruct (dmem a (stores s)) eqn:M; auto. cbn [fst].
    assert (E : forall w x, stored (wakeup_if w x) b j = stored x b j) by (intros [] x; auto). rewrite E.
    match goal with |- context [dispatch ?e ?x] => change (stored (dispatch e x) b j) with (stored x b j) end. rewrite stored_set.
    destruct (String.eqb_spec b a) as [->|]; auto. apply dmem_false in M. unfold stored. rewrite M. destruct (stopped s); reflexivity.
  Qed.
  Lemma pend_add_store a x s : pend (fst (add_store a x s)) = pend s.
  Proof. unfold add_store. destruct (dmem a (stores s)); auto. cbn [fst]. match goal with |- context [wakeup_if ?b _] => destruct b end; auto. Qed.
  Lemma all_start e p s : wf s -> all s -> all (fst (start c e p s)).
  Proof.
    intros W A. unfold start. set (s0 := w_refc (refc s + 1) s). assert (W0 : wf s0) by (apply (wf_same s); auto). assert (A0 : all s0) by auto.
    destruct (refc s0 >? 1); auto. destruct (negb (stopped s0)); auto.
    set (s1 := if dmem "default" (execs s0) then s0 else fst (add_executor "default" s0)).
    assert (W1 : wf s1) by (subst s1; destruct (dmem "default" (execs s0)); auto using wf_add_executor).
    assert (A1 : all s1) by (subst s1; unfold add_executor; destruct (dmem "default" (execs s0)); auto).
    set (s2 := w_execs (map_dict x_start (execs s1)) s1). assert (W2 : wf s2) by (apply wf_map_execs; auto). assert (A2 : all s2) by auto.
    set (s3 := if dmem "default" (stores s2) then s2 else fst (add_store "default" (new_store true) s2)).
    assert (W3 : wf s3) by (subst s3; destruct (dmem "default" (stores s2)); auto using wf_add_store, wf_new).
    assert (A3 : all s3).
    { subst s3. destruct (dmem "default" (stores s2)); auto. eapply all_tasks_same; [intros; apply stored_add_store|apply pend_add_store|auto]. }
    set (s4 := w_stores (map_dict st_start (stores s3)) s3). assert (W4 : wf s4) by (apply wf_map_stores; auto).
    assert (A4 : all s4) by (eapply all_tasks_same; [intros; apply stored_map; auto|reflexivity|exact A3]).
    destruct (add_pending c (e_now e) (if c_lock_path c then Some (e_now e + c_startup_delay c) else None) (pend s4) s4) as [s5 r] eqn:H.
    assert (A5 : all s5) by (eapply all_add_pending; [exact W4| |exact H|exact A4]; exact (proj2 A4)).
    destruct r; [|exact A5]. cbn [fst].
    assert (A6 : all (w_pend [] s5)) by (destruct A5 as [X Y]; split; [exact X|intros t b1 b2 []]).
    destruct (negb p); exact A6.
  Qed.
  Lemma shutdown_less s a j : wf s -> stored (fst (shutdown s)) a j = stored s a j \/ stored (fst (shutdown s)) a j = None.
  Proof.
    intros W. unfold shutdown. destruct (refc (w_refc (refc s - 1) s) >? 0); auto. destruct (stopped _); auto.
    match goal with |- context [shutdown_stores ?l] => change l with (stores s) end.
    pose proof (shutdown_stores_spec (stores s) (wf_keys _ W) (wf_inv _ W)) as H. destruct (shutdown_stores (stores s)) as [ss ids]. destruct H as (K & H & _).
    cbn [fst]. unfold stored at 1 3; cbn. rewrite map_dict_get. destruct (dget a ss) as [x'|] eqn:G; cbn; auto.
    destruct (dget a (stores s)) as [x|] eqn:G0.
    - destruct (H a x G0) as (x1 & G1 & _ & E1 & _ & _ & L). assert (x1 = x') as -> by congruence. unfold stored. rewrite G0.
      destruct (s_memory x'); [right; reflexivity|]. rewrite L. destruct (ms_lookup (s_mem x) j) as [t|]; auto. destruct (is_shutdown t); auto.
    - exfalso. apply dget_None in G0. apply G0. rewrite <- K. eapply dget_Some_key; eauto.
  Qed.
  Lemma shutdown_pend s : pend (fst (shutdown s)) = pend s.
  Proof. unfold shutdown. destruct (refc (w_refc (refc s - 1) s) >? 0); auto. destruct (stopped _); auto. destruct (shutdown_stores _). auto. Qed.
  Lemma send_all e xa t times s : all s -> all (fst (send_task e xa t times s)).
  Proof. destruct (send_same e xa t times s) as (A & _ & _ & B). apply all_same; auto. Qed.
  Lemma all_run_task e id want f rf s : wf s -> all s -> all (fst (run_task c e id want f rf s)).
  Proof.
    intros W A. unfold run_task, ask. destruct (stopped s); auto. destruct (lookup_task id want s) as [[t w]|] eqn:L; auto.
    pose proof (all_lookup _ _ _ _ _ W A L) as Pt.
    destruct (get_run_times _ _ _ _ _) as [[due k]|]; auto. pose proof (wf_draws k s W) as W1. assert (A1 : all (w_draws k s)) by auto.
    destruct (negb (nonempty due) && negb f); auto.
    destruct (if nonempty due then coalesce_run_times (t_coalesce t) due else ([e_now e], 0%nat)) as [times n]. destruct (t_exec t) as [xa|]; auto.
    destruct (negb (dmem xa (execs (w_draws k s)))); auto.
    pose proof (wf_send e xa t times _ W1) as W2. pose proof (send_all e xa t times _ A1) as A2. destruct (send_task e xa t times (w_draws k s)) as [s1 [u|x]]; cbn [fst] in W2, A2; [|destruct x; exact A2].
    destruct (last_opt times) as [lt|]; [|exact A2].
    set (s2 := dispatch _ s1). assert (W3 : wf s2) by (apply wf_dispatch, W2). pose proof (wf_draws (S (draws s2)) s2 W3) as W4. assert (A4 : all (w_draws (S (draws s2)) s2)) by exact A2.
    destruct (answers _ _ _ _ _ _) as [nx|]; auto.
    set (nx' := match nx with Some x => if x <=? e_now e then Some (e_now e + 1000) else Some x | None => None end).
    assert (U : forall nx, all (fst (match w with Some alias => let (s4, r4) := store_update alias (set_next nx t) (w_draws (S (draws s2)) s2) in (s4, match r4 with Ok _ => Ok (Some (set_next nx t)) | Err x => Err x end) | None => (w_draws (S (draws s2)) s2, Ok (Some (set_next nx t))) end))).
    { intros y. destruct w as [a|]; auto. pose proof (all_store_update a (set_next y t) _ W4 (P_next y t Pt) A4) as H. destruct (store_update _ _ _) as [s4 [u4|x4]]; exact H. }
    destruct nx' as [y|]; [apply U|]. destruct rf; [|apply U].
    pose proof (all_delete id w _ W4 A4) as H. destruct (delete_task _ _ _) as [s4 [u4|x4]]; exact H.
  Qed.
  Lemma all_process_one e a t s ev : wf s -> P t -> all s -> all (fst (fst (process_one c e a t (s, ev)))).
  Proof.
    intros W Pt A. unfold process_one, ask.
    destruct (match t_exec t with Some xa => if dmem xa (execs s) then Some xa else None | None => None end) as [xa|].
    2:{ pose proof (all_delete (t_id t) (Some a) s W A) as H. destruct (delete_task _ _ _); exact H. }
    destruct (get_run_times _ _ _ _ _) as [[due k]|]; auto. destruct (coalesce_run_times _ _) as [times n]. pose proof (wf_draws k s W) as W1. assert (A1 : all (w_draws k s)) by auto.
    destruct (last_opt times) as [lt|]; auto. pose proof (wf_send e xa t times _ W1) as W2. pose proof (send_all e xa t times _ A1) as A2. destruct (send_task e xa t times (w_draws k s)) as [s1 r].
    cbn [fst] in W2, A2. pose proof (wf_draws (S (draws s1)) s1 W2) as W3. assert (A3 : all (w_draws (S (draws s1)) s1)) by exact A2.
    destruct (answers _ _ _ _ _ _) as [[x|]|]; auto.
    - pose proof (all_store_update a (set_next (Some x) t) _ W3 (P_next _ t Pt) A3) as H. destruct (store_update _ _ _); exact H.
    - pose proof (all_delete (t_id t) (Some a) _ W3 A3) as H. destruct (delete_task _ _ _); exact H.
  Qed.
  Lemma all_process_due e a : forall l s ev, wf s -> Forall P l -> all s -> all (fst (fst (process_due c e a l (s, ev)))).
  Proof.
    induction l as [|t l IH]; intros s ev W F A; cbn [process_due]; auto. inversion F; subst.
    pose proof (wf_process_one c e a t s ev W) as H. pose proof (all_process_one e a t s ev W ltac:(auto) A) as HA. destruct (process_one c e a t (s, ev)) as [[s1 ev1] [u|x]]; auto.
  Qed.
  Lemma all_process_stores e : forall l w s ev, wf s -> all s -> all (fst (fst (process_stores c e l w (s, ev)))).
  Proof.
    induction l as [|a l IH]; intros w s ev W A; cbn [process_stores]; auto. unfold process_store.
    destruct (dget a (stores s)) as [x|] eqn:G; auto. destruct (e_busy e a || e_fails e a); auto.
    pose proof (wf_process_due c e a (ms_due (s_mem x) (e_now e)) s ev W) as H.
    assert (F : Forall P (ms_due (s_mem x) (e_now e))).
    { apply Forall_forall. intros t Ht. pose proof (due_ok t_id t_next (s_mem x) (e_now e) (wf_inv _ W _ _ G)) as D.
      destruct D as (_ & _ & D). apply D in Ht as [Ht _]. apply (proj1 A a (t_id t) t). unfold stored. rewrite G. exact Ht. }
    pose proof (all_process_due e a (ms_due (s_mem x) (e_now e)) s ev W F A) as HA. destruct (process_due _ _ _ _ _) as [[s1 ev1] [u|y]]; auto.
  Qed.
  Lemma all_step e o s : wf s -> all s -> all (step c e o s).
  Proof.
    intros W A. destruct o; cbn [step].
    - apply all_start; auto.
    - eapply all_less; [intros; apply shutdown_less; auto|apply shutdown_pend|auto].
    - unfold pause. destruct (st s); auto.
    - unfold resume. destruct (st s); auto.
    - unfold add_executor. destruct (dmem _ _); auto.
    - unfold remove_executor. destruct (dget _ _); auto.
    - eapply all_tasks_same; [intros; apply stored_add_store|apply pend_add_store|auto].
    - unfold remove_store. destruct (dget alias (stores s)) eqn:G; auto. cbn [fst]. apply (all_less s); [|reflexivity|exact A].
      intros a j. unfold stored; cbn. destruct (string_dec a alias) as [->|N]; [rewrite dget_ddel_eq; auto|rewrite dget_ddel_ne by auto; auto].
    - unfold add_task. destruct (t_submitted t); auto. destruct (match t_sched t with Some _ => _ | None => _ end); auto. destruct (stopped s).
      + destruct A as [A1 A2]. split; [exact A1|]. intros u b1 b2 Hi. cbn in Hi. apply in_app_or in Hi as [Hi|[[= <- _ _]|[]]]; eauto.
      + destruct (real_add_task _ _ _ _ _ _ _) as [s' r] eqn:R. cbn. eapply all_real_add; [exact W| |exact R|exact A]. apply P_new.
    - apply all_update; auto.
    - unfold reschedule_task, ask. destruct (answers _ _ _ _ _ _); [apply all_update|]; auto. apply wf_draws; auto.
    - apply all_update; auto.
    - unfold resume_task, ask. destruct (lookup_task id store s) as [[t w]|]; auto. destruct (answers _ _ _ _ _ _) as [[n|]|]; auto.
      + pose proof (all_update id w VNone [("next_run_time"%string, VDate n)] (w_draws (S (draws s)) s) (wf_draws _ _ W) A) as H. destruct (update _ _ _ _ _ _). exact H.
      + pose proof (all_delete (t_id t) w (w_draws (S (draws s)) s) (wf_draws _ _ W) A) as H. destruct (delete_task _ _ _). exact H.
    - apply all_run_task; auto.
    - apply all_delete; auto.
    - unfold remove_all_tasks. destruct (stopped s).
      + destruct A as [A1 A2]. split; [exact A1|]. intros t b1 b2. cbn. destruct store as [w|]; [|intros []]. destruct (String.eqb w ""); [intros []|].
        intros Hi. apply filter_In in Hi as [Hi _]. eauto.
      + apply (all_less s); [|reflexivity|exact A]. intros a j. unfold stored; cbn.
        rewrite (dget_map_keyed (fun k y => if wanted store k then on_mem ms_empty y else y)).
        destruct (dget a (stores s)) as [y|]; cbn; auto. destruct (wanted store a); auto.
    - unfold process_tasks. destruct (sstate_eqb (st s) PAUSED); auto. destruct (e_plock e); auto.
      pose proof (all_process_stores e (dkeys (stores s)) None s [] W A) as H. destruct (process_stores _ _ _ _ _) as [[s1 ev1] [u|y]]; auto.
    - unfold complete, release. destruct (count id s - 1 =? 0); auto.
  Qed.
  Theorem all_reachable s : reachable c s -> all s.
  Proof.
    intros [l ->]. assert (H : forall l s, wf s -> all s -> all (run_ops c l s)).
    { intros l0; induction l0 as [|[e o] l0 IH]; intros s W A; cbn; auto. apply IH; [apply wf_step|apply all_step]; auto. }
    apply H; [apply wf_init|]. split; [intros a id t; cbn; discriminate|intros t b1 b2 []].
  Qed.
End AllTasks.

(** every task kept by the scheduler belongs to it and names a store *)
Definition owned (c : config) (t : task) : Prop := t_sched t = Some (c_self c) /\ t_store t <> None.
Lemma owned_all c s : reachable c s -> all (owned c) s.
Proof.
  apply all_reachable.
  - intros n t H. exact H.
  - intros b t H. exact H.
  - intros t fn ups [H1 H2]. unfold update_task. destruct (validate (c_tenv c) t (Some (c_self c)) fn ups) as [a|] eqn:V; [|split; auto].
    cbn. unfold validate in V. rewrite H1 in V. rewrite Nat.eqb_refl in V. cbn [bind] in V.
    destruct (dmem "id" ups); [discriminate V|]. destruct (fn_block (c_tenv c) t fn ups) as [[af u]|]; [|discriminate V]. cbn [bind] in V.
    repeat (match type of V with bind ?r _ = _ => destruct r; [|discriminate V]; cbn [bind] in V end). destruct (existsb _ u); [discriminate V|]. injection V as <-.
    split; cbn; auto. destruct a3; congruence.
  - intros t. split; cbn; auto. destruct (t_store t); discriminate.
Qed.
