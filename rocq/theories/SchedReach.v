(** Well-formedness of every reachable state; adding tasks, starting and stopping. *)
From Verif Require Import Prelude PreludeFacts MemStore StoreSpec MemStoreProofs CallArgs Cron Triggers TriggerSpec Task TaskSpec TaskProofs Scheduler Executor SchedSpec SchedProofs SchedProofs2.
Open Scope Z_scope.

(** everything but stores, events, wake-ups and random draws *)
Record frame_add (s s' : sched) : Prop := {
  fa_st : st s' = st s; fa_refc : refc s' = refc s; fa_execs : execs s' = execs s; fa_pend : pend s' = pend s;
  fa_ran : ran s' = ran s; fa_keys : dkeys (stores s') = dkeys (stores s); fa_insts : insts s' = insts s; fa_subs : subs s' = subs s;
  fa_kind : forall a x, dget a (stores s) = Some x -> exists x', dget a (stores s') = Some x' /\ s_memory x' = s_memory x /\ s_starts x' = s_starts x /\ s_stops x' = s_stops x }.
Lemma frame_add_refl s : frame_add s s.
Proof. constructor; auto. intros a x H. exists x. auto. Qed.
Lemma frame_add_trans a b c : frame_add a b -> frame_add b c -> frame_add a c.
Proof.
  intros [] []; constructor; try congruence. intros y x H. destruct (fa_kind0 _ _ H) as (x1 & G & E1 & E2 & E3).
  destruct (fa_kind1 _ _ G) as (x2 & G2 & F1 & F2 & F3). exists x2. sp; congruence.
Qed.
Lemma frame_add_draws s n : frame_add s (w_draws n s).
Proof. constructor; auto. intros a x H. exists x. auto. Qed.
Lemma frame_add_set s a x x' : dget a (stores s) = Some x -> s_memory x' = s_memory x -> s_starts x' = s_starts x -> s_stops x' = s_stops x ->
  frame_add s (w_stores (dset a x' (stores s)) s).
Proof.
  intros G E1 E2 E3. constructor; cbn -[dkeys]; auto.
  - apply dset_keys_in. eapply dget_Some_key; eauto.
  - intros b y H. destruct (string_dec b a) as [->|N].
    + rewrite dget_dset_eq. exists x'. assert (y = x) as -> by congruence. auto.
    + rewrite dget_dset_ne by auto. exists y. auto.
Qed.

Definition stored_plus (s s' : sched) (alias : string) (t : task) : Prop :=
  forall b j, stored s' b j = if String.eqb b alias && String.eqb j (t_id t) then Some t else stored s b j.

Lemma real_add_task_spec c now t replace start_task md s s' r : wf s ->
  real_add_task c now t replace start_task md s = (s', r) ->
  wf s' /\ frame_add s s' /\
  match r with
  | Ok _ => exists alias n, t_store t = Some alias /\ has_store s alias /\ first_time c now t start_task md n /\
      (replace = false -> stored s alias (t_id t) = None) /\
      stored_plus s s' alias (set_pending false (set_next n t)) /\
      evs s' = evs s ++ [task_event TASK_ADDED (t_id t) (Some alias)] /\
      wakes_n s' = (wakes_n s + (if start_task && running s then 1 else 0))%nat
  | Err x => (forall b j, stored s' b j = stored s b j) /\ stores s' = stores s /\ evs s' = evs s /\ wakes_n s' = wakes_n s /\
      ((x = ConflictIdError /\ replace = false /\ exists alias t0, t_store t = Some alias /\ stored s alias (t_id t) = Some t0) \/
       (x = AssertionError /\ t_store t = None) \/
       (x = KeyError /\ exists alias, t_store t = Some alias /\ ~ has_store s alias) \/
       (t_next t = None /\ start_task = true /\ exists k, answers (c_fuel c) (c_oracle c) (t_trigger t) now k None = Err x))
  end.
Proof.
  intros W. unfold real_add_task, ask.
  set (S1 := match t_next t with Some x => _ | None => _ end).
  assert (HS : exists s1 rn, S1 = (s1, rn) /\ wf s1 /\ frame_add s s1 /\ stores s1 = stores s /\ evs s1 = evs s /\ wakes_n s1 = wakes_n s /\
     match rn with Ok n => first_time c now t start_task md n
     | Err x => t_next t = None /\ start_task = true /\ exists k, answers (c_fuel c) (c_oracle c) (t_trigger t) now k None = Err x end).
  { subst S1. destruct (t_next t) as [x|] eqn:N.
    - exists s, (Ok (Some (no_sooner md x))). sp; auto using frame_add_refl, first_given.
    - destruct start_task.
      + cbn. destruct (answers (c_fuel c) (c_oracle c) (t_trigger t) now (draws s) None) as [r0|x] eqn:A.
        * eexists _, (Ok (option_map (no_sooner md) r0)). split; [destruct r0 as [y|]; [destruct md|]; reflexivity|].
          sp; auto using frame_add_draws. { apply (wf_same s); auto. } eapply first_asked; eauto.
        * eexists _, (Err x). split; [reflexivity|]. sp; eauto using frame_add_draws. apply (wf_same s); auto.
      + exists s, (Ok None). sp; auto using frame_add_refl. apply first_paused; auto. }
  destruct HS as (s1 & rn & -> & W1 & F1 & Es & Ee & Ew & HN).
  destruct rn as [n|x].
  2:{ intros [= <- <-]. sp; auto. intros; apply stored_same; auto. }
  destruct (t_store t) as [alias|] eqn:TS.
  2:{ intros [= <- <-]. sp; auto. intros; apply stored_same; auto. }
  destruct (dget alias (stores s1)) as [x|] eqn:G.
  2:{ intros [= <- <-]. sp; auto; [intros; apply stored_same; auto|]. right; right; left. split; auto. exists alias. split; auto.
      intros [x G']. congruence. }
  set (t1 := set_pending false (set_next n t)).
  pose proof (wf_inv _ W1 _ _ G) as I. pose proof (st_add_ok x t1 I) as A. destruct (st_add x t1) as [x1 r1].
  destruct A as (A1 & A2 & A3 & A4 & A5).
  assert (HSt : has_store s alias) by (exists x; rewrite <- Es; auto).
  assert (ST : forall j, stored s alias j = ms_lookup (s_mem x) j) by (intros; unfold stored; rewrite <- Es, G; auto).
  assert (DONE : forall x2, InvT (s_mem x2) -> s_memory x2 = s_memory x -> s_starts x2 = s_starts x -> s_stops x2 = s_stops x ->
     (forall j, ms_lookup (s_mem x2) j = c_set t_id (ms_lookup (s_mem x)) t1 j) ->
     (replace = false -> stored s alias (t_id t) = None) ->
     let s2 := dispatch (task_event TASK_ADDED (t_id t) (Some alias)) (w_stores (dset alias x2 (stores s1)) s1) in
     let s3 := wakeup_if (start_task && running s2) s2 in
     wf s3 /\ frame_add s s3 /\ exists alias0 n0, Some alias = Some alias0 /\ has_store s alias0 /\ first_time c now t start_task md n0 /\
      (replace = false -> stored s alias0 (t_id t) = None) /\
      stored_plus s s3 alias0 (set_pending false (set_next n0 t)) /\
      evs s3 = evs s ++ [task_event TASK_ADDED (t_id t) (Some alias0)] /\
      wakes_n s3 = (wakes_n s + (if start_task && running s then 1 else 0))%nat).
  { intros x2 I2 K1 K2 K3 L2 HR s2 s3.
    assert (E3 : stores s3 = dset alias x2 (stores s1) /\ execs s3 = execs s1 /\ evs s3 = evs s1 ++ [task_event TASK_ADDED (t_id t) (Some alias)]).
    { subst s3. destruct (start_task && running s2); auto. }
    destruct E3 as (E3 & E4 & E5).
    split; [apply (wf_same (w_stores (dset alias x2 (stores s1)) s1)); auto; apply wf_set; auto|]. split.
    - apply (frame_add_trans _ s1); auto. pose proof (frame_add_set s1 alias x x2 G K1 K2 K3) as [f1 f2 f3 f4 f5 f6 f7 f8 f9].
      subst s3. unfold wakeup_if. destruct (start_task && running s2); constructor; auto.
    - exists alias, n. sp; auto.
      + intros b j. unfold stored. rewrite E3. destruct (String.eqb_spec b alias) as [->|]; cbn.
        * rewrite dget_dset_eq, L2. rewrite <- Es, G. reflexivity.
        * rewrite dget_dset_ne by auto. rewrite Es. reflexivity.
      + congruence.
      + subst s3. replace (running s2) with (running s) by (unfold running; cbn; rewrite (fa_st _ _ F1); reflexivity).
        destruct (start_task && running s); cbn; lia. }
  destruct (ms_lookup (s_mem x) (t_id t1)) as [t0|] eqn:L.
  - destruct A5 as [-> ->]. destruct replace.
    + pose proof (st_update_ok x t1 I) as U. destruct (st_update x t1) as [x2 r2]. destruct U as (U1 & U2 & U3 & U4 & [[-> U5]|(_ & _ & _ & U5)]); [|congruence].
      intros [= <- <-]. apply DONE; auto. discriminate.
    + intros [= <- <-]. sp; auto; [intros; apply stored_same; auto|]. left. sp; auto. exists alias, t0. split; auto. rewrite ST. exact L.
  - destruct A5 as [-> A5]. intros [= <- <-]. apply DONE; auto. intros _. rewrite ST. exact L.
Qed.

Lemma add_pending_wf c now md : forall l s s' r, wf s -> add_pending c now md l s = (s', r) -> wf s' /\ frame_add s s'.
Proof.
  induction l as [|[[t rep] st0] l IH]; intros s s' r W; cbn [add_pending].
  - intros [= <- <-]. auto using frame_add_refl.
  - destruct (real_add_task c now t rep st0 md s) as [s1 r1] eqn:R. destruct (real_add_task_spec _ _ _ _ _ _ _ _ _ W R) as (W1 & F1 & _).
    assert (Go : add_pending c now md l s1 = (s', r) -> wf s' /\ frame_add s s').
    { intros H. destruct (IH _ _ _ W1 H). split; auto. eapply frame_add_trans; eauto. }
    destruct r1 as [u|x]; [exact Go|]. destruct x; try (intros [= <- <-]; auto; fail). exact Go.
Qed.

Lemma map_dict_keys {V} (f : V -> V) d : dkeys (map_dict f d) = dkeys d.
Proof. unfold dkeys, map_dict. rewrite map_map. reflexivity. Qed.
Lemma map_dict_get {V} (f : V -> V) d k : dget k (map_dict f d) = option_map f (dget k d).
Proof. induction d as [|[k' v] d IH]; cbn; auto. destruct (String.eqb k k'); auto. Qed.

Lemma wf_map_stores f s : wf s -> (forall x, InvT (s_mem x) -> InvT (s_mem (f x))) -> wf (w_stores (map_dict f (stores s)) s).
Proof.
  intros [A B C] H. constructor; cbn -[dkeys]; auto.
  - rewrite map_dict_keys. auto.
  - intros a x. rewrite map_dict_get. destruct (dget a (stores s)) as [y|] eqn:G; cbn; [intros [= <-]; eauto|discriminate].
Qed.
Lemma wf_map_execs f s : wf s -> wf (w_execs (map_dict f (execs s)) s).
Proof. intros [A B C]. constructor; cbn -[dkeys]; auto. rewrite map_dict_keys. auto. Qed.

Lemma wf_add_executor a s : wf s -> wf (fst (add_executor a s)).
Proof.
  intros W. unfold add_executor. destruct (dmem a (execs s)); auto. destruct W as [A B C]. constructor; cbn -[dkeys]; auto. apply dset_NoDup. auto.
Qed.
Lemma wf_wakeup_if b s : wf s -> wf (wakeup_if b s).
Proof. destruct b; auto. apply wf_same; reflexivity. Qed.
Lemma wf_add_store a x s : wf s -> InvT (s_mem x) -> wf (fst (add_store a x s)).
Proof.
  intros W I. unfold add_store. destruct (dmem a (stores s)); auto. cbn. apply wf_wakeup_if.
  apply (wf_same (w_stores (dset a (if stopped s then x else st_start x) (stores s)) s)); auto. apply wf_set; auto. destruct (stopped s); auto.
Qed.
Lemma wf_new b : InvT (s_mem (new_store b)). Proof. apply inv_empty. Qed.

Lemma wf_start c e p s : wf s -> wf (fst (start c e p s)).
Proof.
  intros W. unfold start. set (s0 := w_refc (refc s + 1) s). assert (W0 : wf s0) by (apply (wf_same s); auto).
  destruct (refc s0 >? 1); auto. destruct (negb (stopped s0)); auto.
  set (s1 := if dmem "default" (execs s0) then s0 else fst (add_executor "default" s0)).
  assert (W1 : wf s1) by (subst s1; destruct (dmem "default" (execs s0)); auto using wf_add_executor).
  set (s2 := w_execs (map_dict x_start (execs s1)) s1). assert (W2 : wf s2) by (apply wf_map_execs; auto).
  set (s3 := if dmem "default" (stores s2) then s2 else fst (add_store "default" (new_store true) s2)).
  assert (W3 : wf s3) by (subst s3; destruct (dmem "default" (stores s2)); auto using wf_add_store, wf_new).
  set (s4 := w_stores (map_dict st_start (stores s3)) s3). assert (W4 : wf s4) by (apply wf_map_stores; auto).
  destruct (add_pending c (e_now e) (if c_lock_path c then Some (e_now e + c_startup_delay c) else None) (pend s4) s4) as [s5 r] eqn:A.
  destruct (add_pending_wf _ _ _ _ _ _ _ W4 A) as [W5 _]. destruct r; [|exact W5]. cbn. apply wf_wakeup_if. apply (wf_same s5); auto.
Qed.

(** running the shutdown tasks of one store *)
Lemma run_shutdown_spec : forall l x, InvT (s_mem x) -> NoDup (map t_id l) -> (forall t, In t l -> ms_lookup (s_mem x) (t_id t) = Some t) ->
  let (x', ids) := run_shutdown_tasks l x in
  InvT (s_mem x') /\ s_memory x' = s_memory x /\ s_starts x' = s_starts x /\ s_stops x' = s_stops x /\
  ids = map t_id (filter is_shutdown l) /\
  forall j, ms_lookup (s_mem x') j = if in_dec string_dec j ids then None else ms_lookup (s_mem x) j.
Proof.
  induction l as [|t l IH]; intros x I ND HL; cbn [run_shutdown_tasks].
  - sp; auto.
  - inversion ND as [|? ? N1 N2]; subst. cbn [filter]. destruct (is_shutdown t).
    + pose proof (st_delete_ok x (t_id t) I) as D. rewrite (HL t (or_introl eq_refl)) in D. destruct (st_delete x (t_id t)) as [x1 r1].
      destruct D as (D1 & D2 & D3 & D4 & _ & D5).
      assert (HL1 : forall t0, In t0 l -> ms_lookup (s_mem x1) (t_id t0) = Some t0).
      { intros t0 H0. rewrite D5. unfold c_del. destruct (String.eqb_spec (t_id t0) (t_id t)) as [E|]; [|apply HL; right; auto].
        exfalso. apply N1. rewrite <- E. apply in_map, H0. }
      specialize (IH x1 D1 N2 HL1). destruct (run_shutdown_tasks l x1) as [x2 ids]. destruct IH as (I1 & I2 & I3 & I4 & I5 & I6). sp; try congruence; auto.
      * cbn. congruence.
      * intros j. rewrite I6, D5. unfold c_del. destruct (in_dec string_dec j ids), (in_dec string_dec j (t_id t :: ids)) as [H|H]; auto.
        -- exfalso. apply H. right. auto.
        -- destruct H as [<-|H]; [rewrite String.eqb_refl; auto|tauto].
        -- destruct (String.eqb_spec j (t_id t)) as [->|]; auto. exfalso. apply H. left. auto.
    + apply IH; auto. intros; apply HL; right; auto.
Qed.
Lemma run_shutdown_all x : InvT (s_mem x) ->
  let (x', ids) := run_shutdown_tasks (ms_all (s_mem x)) x in
  InvT (s_mem x') /\ s_memory x' = s_memory x /\ s_starts x' = s_starts x /\ s_stops x' = s_stops x /\
  NoDup ids /\ (forall j, In j ids <-> exists t, ms_lookup (s_mem x) j = Some t /\ t_trigger t = TShutdown) /\
  forall j, ms_lookup (s_mem x') j = match ms_lookup (s_mem x) j with Some t => if is_shutdown t then None else Some t | None => None end.
Proof.
  intros I. pose proof (ids_nodup t_id t_next _ I) as ND. pose proof (content_In t_id t_next (s_mem x)) as C.
  pose proof (run_shutdown_spec (ms_all (s_mem x)) x I ND ltac:(intros t Ht; apply (C (t_id t) t I); auto)) as H.
  destruct (run_shutdown_tasks (ms_all (s_mem x)) x) as [x' ids]. destruct H as (H1 & H2 & H3 & H4 & H5 & H6).
  assert (J : forall j, In j ids <-> exists t, ms_lookup (s_mem x) j = Some t /\ t_trigger t = TShutdown).
  { intros j. rewrite H5, in_map_iff. split.
    - intros (t & <- & Ht). apply filter_In in Ht as [Ht Hs]. exists t. split; [apply (C (t_id t) t I); auto|].
      unfold is_shutdown in Hs. destruct (t_trigger t); congruence.
    - intros (t & L & E). apply (C j t I) in L as [L <-]. exists t. split; auto. apply filter_In. split; auto. unfold is_shutdown. rewrite E. auto. }
  sp; auto.
  - rewrite H5. clear -ND. induction (ms_all (s_mem x)) as [|t l IH]; cbn; [constructor|]. inversion ND; subst. destruct (is_shutdown t); auto.
    cbn. constructor; auto. intros Hi. apply in_map_iff in Hi as (t0 & E & Ht). apply filter_In in Ht as [Ht _]. apply H1. rewrite <- E. apply in_map; auto.
  - intros j. rewrite H6. destruct (in_dec string_dec j ids) as [Hi|Hi].
    + apply J in Hi as (t & -> & E). unfold is_shutdown. rewrite E. reflexivity.
    + destruct (ms_lookup (s_mem x) j) as [t|] eqn:L; auto. unfold is_shutdown. destruct (t_trigger t) eqn:E; auto. exfalso. apply Hi, J. eauto.
Qed.

Lemma shutdown_stores_spec : forall l, NoDup (dkeys l) -> (forall a x, dget a l = Some x -> InvT (s_mem x)) ->
  let (l', ids) := shutdown_stores l in
  dkeys l' = dkeys l /\
  (forall a x, dget a l = Some x -> exists x', dget a l' = Some x' /\ InvT (s_mem x') /\ s_memory x' = s_memory x /\ s_starts x' = s_starts x /\ s_stops x' = s_stops x /\
      forall j, ms_lookup (s_mem x') j = match ms_lookup (s_mem x) j with Some t => if is_shutdown t then None else Some t | None => None end) /\
  exists runs, NoDup runs /\ ids = map snd runs /\
    forall a j, In (a, j) runs <-> exists x t, dget a l = Some x /\ ms_lookup (s_mem x) j = Some t /\ t_trigger t = TShutdown.
Proof.
  induction l as [|[a x] l IH]; intros ND HI; cbn [shutdown_stores].
  - sp; auto; [discriminate|]. exists []. sp; auto; [constructor|]. intros a j. cbn. split; [tauto|]. intros (x & t & E & _). discriminate.
  - inversion ND as [|? ? N1 N2]; subst.
    assert (Ix : InvT (s_mem x)) by (apply (HI a); cbn; rewrite String.eqb_refl; auto).
    assert (HI' : forall b y, dget b l = Some y -> InvT (s_mem y)).
    { intros b y G. apply (HI b). cbn. destruct (String.eqb_spec b a) as [->|]; auto. exfalso. apply N1. eapply dget_Some_key; eauto. }
    pose proof (run_shutdown_all x Ix) as R. destruct (run_shutdown_tasks (ms_all (s_mem x)) x) as [x1 ids1].
    destruct R as (R1 & R2 & R3 & R4 & R5 & R6 & R7).
    specialize (IH N2 HI'). destruct (shutdown_stores l) as [l2 ids2]. destruct IH as (I1 & I2 & runs & I3 & I4 & I5).
    split; [unfold dkeys in *; cbn; congruence|]. split.
    + intros b y. cbn. destruct (String.eqb_spec b a) as [->|]; [intros [= <-]; exists x1; sp; auto|apply I2].
    + exists (map (pair a) ids1 ++ runs). sp.
      * apply NoDup_app_intro; auto.
        -- apply NoDup_map_inv with (f := snd). rewrite map_map. cbn. rewrite map_id. auto.
        -- intros [b j] H1 H2. apply in_map_iff in H1 as (j0 & [= <- <-] & _). apply I5 in H2 as (y & t & G & _). apply N1. eapply dget_Some_key; eauto.
      * rewrite map_app, map_map, I4. cbn. rewrite map_id. reflexivity.
      * intros b j. rewrite in_app_iff, in_map_iff, I5. cbn. split.
        -- intros [(j0 & [= <- <-] & H)|(y & t & G & L & E)].
           ++ apply R6 in H as (t & L & E). exists x, t. rewrite String.eqb_refl. auto.
           ++ exists y, t. destruct (String.eqb_spec b a) as [->|]; auto. exfalso. apply N1. eapply dget_Some_key; eauto.
        -- intros (y & t & G & L & E). destruct (String.eqb_spec b a) as [->|].
           ++ injection G as <-. left. exists j. split; auto. apply R6. eauto.
           ++ right. eauto.
Qed.

Lemma wf_shutdown s : wf s -> wf (fst (shutdown s)).
Proof.
  intros W. unfold shutdown. set (s0 := w_refc (refc s - 1) s). assert (W0 : wf s0) by (apply (wf_same s); auto).
  destruct (refc s0 >? 0); auto. destruct (stopped s0); auto. cbn [stores w_execs w_st execs].
  pose proof (shutdown_stores_spec (stores s0) (wf_keys _ W0) (wf_inv _ W0)) as H. destruct (shutdown_stores (stores s0)) as [ss ids].
  destruct H as (H1 & H2 & _). constructor; cbn -[dkeys map_dict].
  - rewrite map_dict_keys, H1. apply W.
  - rewrite map_dict_keys. apply W.
  - intros a x. rewrite map_dict_get. destruct (dget a ss) as [y|] eqn:G; [|discriminate]. cbn. intros [= <-].
    destruct (dget a (stores s0)) as [z|] eqn:G0.
    2:{ apply dget_None in G0. rewrite <- H1 in G0. exfalso. apply G0. eapply dget_Some_key; eauto. }
    destruct (H2 _ _ G0) as (y' & G1 & I & _). rewrite G in G1. injection G1 as <-.
    unfold st_shutdown. cbn. destruct (s_memory y); [apply inv_empty|exact I].
Qed.

Lemma wf_delete id want s : wf s -> wf (fst (delete_task id want s)).
Proof.
  intros W. destruct (string_dec id "") as [->|N]; [exact W|]. destruct (stopped s) eqn:S.
  - unfold delete_task. apply String.eqb_neq in N. rewrite N, S. destruct (del_pending want id (pend s)) as [l r].
    destruct (match r with Some a => a | None => None end); apply (wf_same s); auto.
  - pose proof (delete_task_spec id want s W S N) as H. destruct (delete_task id want s) as [s' r]. cbn. tauto.
Qed.
Lemma wf_store_update a t s : wf s -> wf (fst (store_update a t s)).
Proof. intros W. pose proof (store_update_spec a t s W) as H. destruct (store_update a t s). cbn. tauto. Qed.
Lemma wf_update c id want fn ups s : wf s -> wf (fst (update c id want fn ups s)).
Proof.
  intros W. unfold update. destruct (lookup_task id want s) as [[t w]|]; auto.
  destruct (update_task (c_tenv c) t (Some (c_self c)) fn ups) as [t' [u|x]]; auto.
  destruct w as [a|].
  - pose proof (wf_store_update a t' s W) as W1. destruct (store_update a t' s) as [s1 [u1|x]]; auto. cbn in *. apply wf_wakeup_if. apply (wf_same s1); auto.
  - cbn. apply wf_wakeup_if. apply (wf_same s); auto.
Qed.
Lemma wf_draws n s : wf s -> wf (w_draws n s). Proof. apply wf_same; reflexivity. Qed.
Lemma wf_reschedule c e id want tr s : wf s -> wf (fst (reschedule_task c e id want tr s)).
Proof. intros W. unfold reschedule_task, ask. destruct (answers _ _ _ _ _ _); [apply wf_update|]; apply wf_draws, W. Qed.
Lemma wf_resume_task c e id want s : wf s -> wf (fst (resume_task c e id want s)).
Proof.
  intros W. unfold resume_task, ask. destruct (lookup_task id want s) as [[t w]|]; auto.
  pose proof (wf_draws (S (draws s)) s W) as W1.
  destruct (answers _ _ _ _ _ _) as [[n|]|]; auto.
  - pose proof (wf_update c id w VNone [("next_run_time"%string, VDate n)] _ W1) as H. destruct (update _ _ _ _ _ _) as [s2 [u|x]]; exact H.
  - pose proof (wf_delete (t_id t) w _ W1) as H. destruct (delete_task _ _ _) as [s2 [u|x]]; exact H.
Qed.
Lemma send_same e xa t times s : let s' := fst (send_task e xa t times s) in stores s' = stores s /\ execs s' = execs s /\ st s' = st s /\ pend s' = pend s.
Proof. unfold send_task. destruct (count (t_id t) s >=? t_max t); cbn; auto. destruct (e_send_fails e xa (t_id t)); cbn; auto. Qed.
Lemma wf_send e xa t times s : wf s -> wf (fst (send_task e xa t times s)).
Proof. intros W. destruct (send_same e xa t times s) as (A & B & _). apply (wf_same s); auto. Qed.
Lemma wf_dispatch ev s : wf s -> wf (dispatch ev s). Proof. apply wf_same; reflexivity. Qed.
Lemma wf_run_task c e id want f rf s : wf s -> wf (fst (run_task c e id want f rf s)).
Proof.
  intros W. unfold run_task, ask. destruct (stopped s); auto. destruct (lookup_task id want s) as [[t w]|]; auto.
  destruct (get_run_times _ _ _ _ _) as [[due k]|]; auto. pose proof (wf_draws k s W) as W1.
  destruct (negb (nonempty due) && negb f); auto.
  destruct (if nonempty due then _ else _) as [times n]. destruct (t_exec t) as [xa|]; auto.
  destruct (negb (dmem xa (execs (w_draws k s)))); auto.
  pose proof (wf_send e xa t times _ W1) as W2. destruct (send_task e xa t times (w_draws k s)) as [s1 [u|x]]; cbn [fst] in W2; [|destruct x; first [exact W2|apply wf_dispatch; exact W2]].
  destruct (last_opt times) as [lt|]; [|apply wf_dispatch, W2].
  set (s2 := dispatch _ s1). assert (W3 : wf s2) by (apply wf_dispatch, W2). pose proof (wf_draws (S (draws s2)) s2 W3) as W4.
  destruct (answers _ _ _ _ _ _) as [nx|]; auto.
  set (nx' := match nx with Some x => if x <=? e_now e then Some (e_now e + 1000) else Some x | None => None end).
  assert (U : forall nx, wf (fst (match w with Some alias => let (s4, r4) := store_update alias (set_next nx t) (w_draws (S (draws s2)) s2) in (s4, match r4 with Ok _ => Ok (Some (set_next nx t)) | Err x => Err x end) | None => (w_draws (S (draws s2)) s2, Ok (Some (set_next nx t))) end))).
  { intros y. destruct w as [a|]; auto. pose proof (wf_store_update a (set_next y t) _ W4) as H. destruct (store_update _ _ _) as [s4 [u4|x4]]; exact H. }
  destruct nx' as [y|]; [apply U|]. destruct rf; [|apply U].
  pose proof (wf_delete id w _ W4) as H. destruct (delete_task _ _ _) as [s4 [u4|x4]]; exact H.
Qed.
Lemma wf_process_one c e a t s ev : wf s -> wf (fst (fst (process_one c e a t (s, ev)))).
Proof.
  intros W. unfold process_one, ask.
  destruct (match t_exec t with Some xa => if dmem xa (execs s) then Some xa else None | None => None end) as [xa|].
  2:{ pose proof (wf_delete (t_id t) (Some a) s W) as H. destruct (delete_task _ _ _); exact H. }
  destruct (get_run_times _ _ _ _ _) as [[due k]|]; auto. destruct (coalesce_run_times _ _) as [times n]. pose proof (wf_draws k s W) as W1.
  destruct (last_opt times) as [lt|]; auto. pose proof (wf_send e xa t times _ W1) as W2. destruct (send_task e xa t times (w_draws k s)) as [s1 r].
  cbn [fst] in W2. pose proof (wf_draws (S (draws s1)) s1 W2) as W3.
  destruct (answers _ _ _ _ _ _) as [[x|]|]; auto.
  - pose proof (wf_store_update a (set_next (Some x) t) _ W3) as H. destruct (store_update _ _ _); exact H.
  - pose proof (wf_delete (t_id t) (Some a) _ W3) as H. destruct (delete_task _ _ _); exact H.
Qed.
Lemma wf_process_due c e a : forall l s ev, wf s -> wf (fst (fst (process_due c e a l (s, ev)))).
Proof.
  induction l as [|t l IH]; intros s ev W; cbn [process_due]; auto.
  pose proof (wf_process_one c e a t s ev W) as H. destruct (process_one c e a t (s, ev)) as [[s1 ev1] [u|x]]; auto.
Qed.
Lemma wf_process_stores c e : forall l w s ev, wf s -> wf (fst (fst (process_stores c e l w (s, ev)))).
Proof.
  induction l as [|a l IH]; intros w s ev W; cbn [process_stores]; auto.
  assert (H : wf (fst (fst (process_store c e a w (s, ev))))).
  { unfold process_store. destruct (dget a (stores s)) as [x|]; auto. destruct (e_busy e a || e_fails e a); auto.
    pose proof (wf_process_due c e a (ms_due (s_mem x) (e_now e)) s ev W) as H. destruct (process_due _ _ _ _ _) as [[s1 ev1] [u|y]]; auto. }
  destruct (process_store c e a w (s, ev)) as [[s1 ev1] [w1|x]]; auto.
Qed.
Lemma wf_process_tasks c e s : wf s -> wf (fst (process_tasks c e s)).
Proof.
  intros W. unfold process_tasks. destruct (sstate_eqb (st s) PAUSED); auto. destruct (e_plock e).
  - apply (wf_same s); auto.
  - pose proof (wf_process_stores c e (dkeys (stores s)) None s [] W) as H. destruct (process_stores _ _ _ _ _) as [[s1 ev1] [u|y]]; auto. apply (wf_same s1); auto.
Qed.

Lemma dget_map_keyed {V} (f : string -> V -> V) d a : dget a (map (fun ax => (fst ax, f (fst ax) (snd ax))) d) = option_map (f a) (dget a d).
Proof. induction d as [|[k v] d IH]; cbn; auto. destruct (String.eqb_spec a k) as [->|]; auto. Qed.
Lemma wf_step c e o s : wf s -> wf (step c e o s).
Proof.
  intros W. destruct o; cbn [step]; auto using wf_start, wf_shutdown, wf_add_executor, wf_add_store, wf_new, wf_update, wf_reschedule, wf_resume_task, wf_run_task, wf_delete, wf_process_tasks.
  - unfold pause. destruct (st s); auto. apply (wf_same s); auto.
  - unfold resume. destruct (st s); auto. apply (wf_same s); auto.
  - unfold remove_executor. destruct (dget alias (execs s)); auto. destruct W as [A B C]. constructor; cbn -[dkeys]; auto. apply ddel_NoDup; auto.
  - unfold remove_store. destruct (dget alias (stores s)); auto. destruct W as [A B C]. constructor; cbn -[dkeys]; auto. { apply ddel_NoDup; auto. }
    intros a x G. destruct (string_dec a alias) as [->|N]; [rewrite dget_ddel_eq in G; discriminate|]. rewrite dget_ddel_ne in G by auto. eauto.
  - unfold add_task. destruct (t_submitted t); auto. destruct (match t_sched t with Some _ => _ | None => _ end); auto. destruct (stopped s); [apply (wf_same s); auto|].
    destruct (real_add_task _ _ _ _ _ _ _) as [s' r] eqn:R. cbn. destruct (real_add_task_spec _ _ _ _ _ _ _ _ _ W R). auto.
  - apply wf_update; auto.
  - unfold remove_all_tasks. apply wf_dispatch. destruct (stopped s); [apply (wf_same s); auto|].
    destruct W as [A B C]. constructor; cbn -[dkeys]; auto.
    + unfold dkeys in *. rewrite map_map. cbn. auto.
    + intros a x. rewrite (dget_map_keyed (fun k y => if wanted store k then on_mem ms_empty y else y)).
      destruct (dget a (stores s)) as [y|] eqn:G; cbn; [|discriminate]. intros [= <-]. destruct (wanted store a); [apply inv_empty|eauto].
  - unfold complete, release. destruct (count id s - 1 =? 0); apply (wf_same s); auto.
Qed.
Lemma wf_init : wf sched_init.
Proof. constructor; cbn; [constructor|constructor|discriminate]. Qed.
Lemma wf_run c : forall l s, wf s -> wf (run_ops c l s).
Proof. induction l as [|[e o] l IH]; intros s W; cbn; auto. apply IH, wf_step, W. Qed.
Theorem reachable_wf c s : reachable c s -> wf s.
Proof. intros [l ->]. apply wf_run, wf_init. Qed.
