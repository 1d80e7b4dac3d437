(** Proofs about process_tasks, continued: C16, C17, C22. *)
From Verif Require Import Prelude PreludeFacts MemStore StoreSpec MemStoreProofs CallArgs Cron Triggers TriggerSpec Task TaskSpec TaskProofs Scheduler Executor SchedSpec SchedProofs SchedProofs2 SchedReach.
Open Scope Z_scope.

(** ** C16: wake-up delay *)
Theorem process_delay c e s s' d : wf s -> st s = RUNNING -> no_empty_id s -> process_tasks c e s = (s', Ok d) ->
  match d with
  | None => e_plock e = false /\ c_lock_path c = false /\ (forall a, has_store s a -> readable e a) /\
            forall a id t, stored s' a id = Some t -> t_next t = None
  | Some y =>
      (0 <= c_retry c <= c_timeout_max c -> 0 <= y <= c_timeout_max c) /\
      (0 <= c_retry c -> e_plock e = true \/ (exists a, has_store s a /\ ~ readable e a) -> y <= c_retry c) /\
      (e_plock e = false -> forall a id t x, readable e a -> stored s' a id = Some t -> t_next t = Some x -> y <= Z.max (x - e_now e) 0) /\
      (y = c_timeout_max c \/
       (y = Z.max (c_retry c) 0 /\ (e_plock e = true \/ exists a, has_store s a /\ ~ readable e a)) \/
       (y = c_retry c /\ c_lock_path c = true /\ forall a id t, stored s' a id = Some t -> t_next t = None) \/
       (exists a id t x, readable e a /\ stored s' a id = Some t /\ t_next t = Some x /\ y = Z.max (x - e_now e) 0))
  end.
Proof.
  intros W St NE P. destruct (e_plock e) eqn:PL.
  - unfold process_tasks in P. rewrite St, PL in P. cbn [sstate_eqb sooner] in P. injection P as <- <-.
    change (st (w_evs _ s)) with (st s). rewrite St. cbn [sstate_eqb]. replace (e_now e + c_retry c - e_now e) with (c_retry c) by lia. sp.
    + lia. + intros; lia. + discriminate.
    + destruct (Z.min_spec (Z.max (c_retry c) 0) (c_timeout_max c)) as [[_ ->]|[_ ->]]; auto.
  - pose proof (process_tasks_spec _ _ _ _ _ W St PL NE P) as (due & fs & w & s1 & D & B & Es & K & ->).
    assert (KK : forall a, has_store s' a <-> has_store s a).
    { intros a. rewrite !has_keys. rewrite Es. cbn -[dkeys]. rewrite (fr_keys _ _ (b_frame _ _ _ _ _ _ _ _ B)). tauto. }
    destruct K as [K1 K2 K3 K4].
    assert (KN : w = None -> (forall a, has_store s a -> readable e a) /\ forall a id t, stored s' a id = Some t -> t_next t = None).
    { intros ->. assert (HR : forall a, has_store s a -> readable e a).
      { intros a H. destruct (is_readable_dec e a) as [|N]; auto. apply has_keys in H. destruct (K2 a H N) as (? & ? & _). discriminate. }
      split; auto. intros a id t S. destruct (t_next t) as [x|] eqn:N; auto. assert (HS : has_store s a) by (apply KK; eapply has_stored; eauto).
      destruct (K1 a id t x) as (? & ? & _); auto; [apply has_keys; auto|discriminate]. }
    destruct w as [t|].
    + sp.
      * lia.
      * intros R0 [?|(a & HA & NR)]; [discriminate|]. apply has_keys in HA. destruct (K2 a HA NR) as (y & [= <-] & L). lia.
      * intros _ a id t0 x R S N. destruct (K1 a id t0 x) as (y & [= <-] & L); auto; [apply has_keys, KK; eapply has_stored; eauto|]. lia.
      * destruct (Z.min_spec (Z.max (t - e_now e) 0) (c_timeout_max c)) as [[_ ->]|[_ ->]]; auto. right.
        destruct (K4 t eq_refl) as [?|[(a & HA & NR & E)|(a & id & t0 & HA & R & S & N)]]; [discriminate| |].
        -- left. split; [lia|]. right. exists a. split; auto. apply has_keys; auto.
        -- right; right. exists a, id, t0, t. auto.
    + destruct (KN eq_refl) as [N1 N2]. destruct (c_lock_path c) eqn:LP.
      * sp; [lia|intros; lia| |auto 6].
        -- intros _ a id t x R S N. rewrite (N2 _ _ _ S) in N. discriminate.
      * sp; auto.
Qed.

(** ** C17 *)
Theorem paused_does_nothing c e s : st s = PAUSED -> process_tasks c e s = (s, Ok None).
Proof. intros H. unfold process_tasks. rewrite H. reflexivity. Qed.

(** the stores other than [a] *)
Lemma del_stores_other a id : forall l b, b <> a -> dget b (fst (del_stores (Some a) id l)) = dget b l.
Proof.
  induction l as [|[k x] l IH]; intros b N; cbn [del_stores]; auto. cbn [wanted].
  destruct (String.eqb_spec a k) as [->|Nk].
  - destruct (st_delete x id) as [x' [u|y]].
    + cbn. destruct (String.eqb_spec b k); congruence.
    + specialize (IH b N). destruct (del_stores (Some k) id l) as [l2 r]. cbn in *. rewrite IH. reflexivity.
  - specialize (IH b N). destruct (del_stores (Some a) id l) as [l2 r]. cbn in *. rewrite IH. reflexivity.
Qed.
Lemma delete_other a id s b : b <> a -> dget b (stores (fst (delete_task id (Some a) s))) = dget b (stores s) /\ subs (fst (delete_task id (Some a) s)) = subs s.
Proof.
  intros N. unfold delete_task. destruct (String.eqb id ""); auto. destruct (stopped s).
  - destruct (del_pending (Some a) id (pend s)) as [l r]. destruct (match r with Some x => x | None => None end); auto.
  - pose proof (del_stores_other a id (stores s) b N) as H. destruct (del_stores (Some a) id (stores s)) as [l r]. cbn in H. destruct r; cbn; auto.
Qed.
Lemma delete_subs a id s : subs (fst (delete_task id a s)) = subs s.
Proof.
  unfold delete_task. destruct (String.eqb id ""); auto. destruct (stopped s).
  - destruct (del_pending a id (pend s)) as [l r]. destruct (match r with Some x => x | None => None end); auto.
  - destruct (del_stores a id (stores s)) as [l r]. destruct r; cbn; auto.
Qed.
Lemma store_update_other a t s : subs (fst (store_update a t s)) = subs s /\ forall b, b <> a -> dget b (stores (fst (store_update a t s))) = dget b (stores s).
Proof.
  unfold store_update. destruct (dget a (stores s)); auto. destruct (st_update _ _). cbn. split; auto. intros b N. apply dget_dset_ne; auto.
Qed.

Definition due_sub (e : envir) (id_ok : string -> Prop) (u : submission) : Prop :=
  id_ok (sub_task u) /\ sub_times u <> [] /\ Forall (fun x => x <= e_now e) (sub_times u).

Lemma coalesce_sub b l times m : coalesce_run_times b l = (times, m) -> forall P, Forall P l -> Forall P times.
Proof.
  unfold coalesce_run_times. destruct b; [|intros [= <- <-]; auto]. destruct (last_opt l) as [x|] eqn:E; intros [= <- <-]; auto.
  intros P F. constructor; auto. unfold last_opt in E. destruct (rev l) as [|y r] eqn:R; [discriminate|]. injection E as ->.
  rewrite Forall_forall in F. apply F. apply in_rev. rewrite R. left; auto.
Qed.
Lemma grt_before fuel gn : forall k next now l k', grt fuel gn k next now = Ok (l, k') -> Forall (fun x => x <= now) l.
Proof.
  induction fuel as [|fuel IH]; intros k [x|] now l k'; cbn; try (intros [= <- <-]; constructor; fail).
  - destruct (x <=? now); [discriminate|]. intros [= <- <-]. constructor.
  - destruct (x <=? now) eqn:L; [|intros [= <- <-]; constructor]. destruct (gn k (Some x)) as [n|]; [|discriminate].
    destruct (grt fuel gn (S k) n now) as [[l1 k1]|] eqn:G; [|discriminate]. intros [= <- <-]. constructor; [lia|eauto].
Qed.

Lemma process_one_subs c e a t s ev : let '((s', _), _) := process_one c e a t (s, ev) in
  (forall b, b <> a -> dget b (stores s') = dget b (stores s)) /\
  exists new, subs s' = subs s ++ new /\ Forall (due_sub e (eq (t_id t))) new.
Proof.
  unfold process_one, ask.
  destruct (match t_exec t with Some xa => if dmem xa (execs s) then Some xa else None | None => None end) as [xa|].
  2:{ pose proof (delete_subs (Some a) (t_id t) s) as H. pose proof (fun b => delete_other a (t_id t) s b) as H2. destruct (delete_task _ _ _); cbn in *.
      split; [intros; apply H2; auto|]. exists []. rewrite app_nil_r. auto. }
  destruct (get_run_times _ _ _ _ _) as [[due k]|] eqn:G.
  2:{ split; auto. exists []. rewrite app_nil_r. auto. }
  destruct (coalesce_run_times _ _) as [times n] eqn:C.
  destruct (last_opt times) as [lt|] eqn:L.
  2:{ split; auto. exists []. rewrite app_nil_r. auto. }
  assert (BF : Forall (fun x => x <= e_now e) times) by (eapply coalesce_sub; eauto; eapply grt_before; exact G).
  assert (S1 : let (s1, r) := send_task e xa t times (w_draws k s) in stores s1 = stores s /\ exists new, subs s1 = subs s ++ new /\ Forall (due_sub e (eq (t_id t))) new).
  { unfold send_task. destruct (_ >=? _); [split; auto; exists []; rewrite app_nil_r; auto|]. destruct (e_send_fails _ _ _); [split; auto; exists []; rewrite app_nil_r; auto|].
    split; auto. eexists. split; [reflexivity|]. constructor; auto. split; auto. split; auto. cbn. destruct times; discriminate. }
  destruct (send_task e xa t times (w_draws k s)) as [s1 r]. destruct S1 as (S1 & new & S2 & S3).
  set (s2 := w_draws (S (draws s1)) s1). assert (E1 : stores s2 = stores s) by auto. assert (E2 : subs s2 = subs s ++ new) by auto.
  destruct (answers _ _ _ _ _ _) as [[x|]|].
  - destruct (store_update_other a (set_next (Some x) t) s2) as [U1 U2]. destruct (store_update _ _ _); cbn in *. split; [intros; rewrite U2, E1; auto|].
    exists new. rewrite U1. auto.
  - pose proof (delete_subs (Some a) (t_id t) s2) as H. pose proof (fun b => delete_other a (t_id t) s2 b) as H2. destruct (delete_task _ _ _); cbn in *.
    split; [intros b N; destruct (H2 b N) as [-> _]; rewrite E1; auto|]. exists new. rewrite H. auto.
  - split; [intros; rewrite E1; auto|]. exists new. auto.
Qed.
Lemma due_sub_mono e (P Q : string -> Prop) l : (forall x, P x -> Q x) -> Forall (due_sub e P) l -> Forall (due_sub e Q) l.
Proof. intros H. apply Forall_impl. intros u (A & B & C). split; auto. Qed.
Lemma process_due_subs c e a : forall l s ev, let '((s', _), _) := process_due c e a l (s, ev) in
  (forall b, b <> a -> dget b (stores s') = dget b (stores s)) /\
  exists new, subs s' = subs s ++ new /\ Forall (due_sub e (fun id => exists t, In t l /\ id = t_id t)) new.
Proof.
  induction l as [|t l IH]; intros s ev; cbn [process_due].
  - split; auto. exists []. rewrite app_nil_r. auto.
  - pose proof (process_one_subs c e a t s ev) as H. destruct (process_one c e a t (s, ev)) as [[s1 ev1] [u|x]].
    + destruct H as (H1 & new & H2 & H3). specialize (IH s1 ev1). destruct (process_due c e a l (s1, ev1)) as [[s2 ev2] r].
      destruct IH as (I1 & new2 & I2 & I3). split; [intros; rewrite I1, H1; auto|]. exists (new ++ new2). rewrite I2, H2, app_assoc. split; auto.
      apply Forall_app. split; eapply due_sub_mono; try eassumption; cbn; [intros y <-; eauto|intros y (t0 & ? & ->); eauto].
    + destruct H as (H1 & new & H2 & H3). split; auto. exists new. split; auto. eapply due_sub_mono; try eassumption. cbn. intros y <-. eauto.
Qed.
Lemma process_stores_subs c e : forall l w s ev, wf s -> NoDup l -> let '((s', _), _) := process_stores c e l w (s, ev) in
  exists new, subs s' = subs s ++ new /\
    Forall (due_sub e (fun id => exists a t, In a l /\ readable e a /\ stored s a id = Some t /\ is_due t_next (e_now e) t)) new.
Proof.
  induction l as [|a l IH]; intros w s ev W ND; cbn [process_stores].
  - exists []. rewrite app_nil_r. auto.
  - inversion ND as [|? ? N1 N2]; subst.
    assert (H : let '((s', _), _) := process_store c e a w (s, ev) in wf s' /\ (forall b, b <> a -> dget b (stores s') = dget b (stores s)) /\
      exists new, subs s' = subs s ++ new /\ Forall (due_sub e (fun id => exists t, readable e a /\ stored s a id = Some t /\ is_due t_next (e_now e) t)) new).
    { unfold process_store. destruct (dget a (stores s)) as [x|] eqn:G. 2:{ sp; auto. exists []. rewrite app_nil_r. auto. }
      destruct (readable_dec e a) as [[-> _]|[-> R]]. { sp; auto. exists []. rewrite app_nil_r. auto. }
      pose proof (process_due_subs c e a (ms_due (s_mem x) (e_now e)) s ev) as H. pose proof (wf_process_due c e a (ms_due (s_mem x) (e_now e)) s ev W) as W1.
      destruct (process_due c e a (ms_due (s_mem x) (e_now e)) (s, ev)) as [[s1 ev1] r]. destruct H as (H1 & new & H2 & H3).
      assert (F : Forall (due_sub e (fun id => exists t, readable e a /\ stored s a id = Some t /\ is_due t_next (e_now e) t)) new).
      { eapply due_sub_mono; try eassumption. intros id (t & Ht & ->). apply (due_ok t_id t_next (s_mem x) (e_now e) (wf_inv _ W _ _ G)) in Ht as [A B].
        exists t. sp; auto; try apply R. unfold stored. rewrite G. exact A. }
      destruct r; (split; [exact W1|]); (split; [exact H1|]); exists new; split; auto. }
    destruct (process_store c e a w (s, ev)) as [[s1 ev1] [w1|x]].
    + destruct H as (W1 & H1 & new & H2 & H3). specialize (IH w1 s1 ev1 W1 N2). destruct (process_stores c e l w1 (s1, ev1)) as [[s2 ev2] r].
      destruct IH as (new2 & I2 & I3). exists (new ++ new2). rewrite I2, H2, app_assoc. split; auto. apply Forall_app. split; eapply due_sub_mono; try eassumption; cbn.
      * intros y (t & A). exists a, t. tauto.
      * intros y (b & t & A & B & C & D). exists b, t. sp; auto; try apply B. unfold stored in *. rewrite <- H1; auto. congruence.
    + destruct H as (W1 & H1 & new & H2 & H3). exists new. split; auto. eapply due_sub_mono; try eassumption. cbn. intros y (t & A). exists a, t. tauto.
Qed.
Theorem process_submits_due c e s : wf s ->
  exists new, subs (fst (process_tasks c e s)) = subs s ++ new /\
    Forall (due_sub e (fun id => exists a t, readable e a /\ stored s a id = Some t /\ is_due t_next (e_now e) t)) new.
Proof.
  intros W. unfold process_tasks. destruct (sstate_eqb (st s) PAUSED). { exists []. rewrite app_nil_r. auto. }
  destruct (e_plock e). { exists []. split; [symmetry; apply app_nil_r|constructor]. }
  pose proof (process_stores_subs c e (dkeys (stores s)) None s [] W (wf_keys _ W)) as H.
  destruct (process_stores c e (dkeys (stores s)) None (s, [])) as [[s1 ev1] r]. destruct H as (new & H1 & H2).
  exists new. split; [destruct r; exact H1|]. eapply due_sub_mono; try eassumption. intros id (a & t & _ & H). eauto.
Qed.
