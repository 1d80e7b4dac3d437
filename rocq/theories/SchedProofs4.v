(** C22: stores that cannot be read do not matter to the others. *)
From Verif Require Import Prelude PreludeFacts MemStore StoreSpec MemStoreProofs CallArgs Cron Triggers TriggerSpec Task TaskSpec TaskProofs Scheduler Executor SchedSpec SchedProofs SchedProofs2 SchedReach SchedProofs3.
Open Scope Z_scope.

Section Keep.
  Variable p : string -> bool.
  Definition fil {V} (l : dict V) : dict V := filter (fun kv => p (fst kv)) l.
  Definition keep (s : sched) : sched := w_stores (fil (stores s)) s.

  Lemma fil_get {V} (l : dict V) a : p a = true -> dget a (fil l) = dget a l.
  Proof.
    unfold fil. intros P. induction l as [|[k v] l IH]; cbn; auto. destruct (p k) eqn:K; cbn; rewrite IH; auto.
    destruct (String.eqb_spec a k) as [->|]; auto. congruence.
  Qed.
  Lemma fil_get_out {V} (l : dict V) a : p a = false -> dget a (fil l) = None.
  Proof.
    unfold fil. intros P. induction l as [|[k v] l IH]; cbn; auto. destruct (p k) eqn:K; cbn; auto.
    destruct (String.eqb_spec a k) as [->|]; auto. congruence.
  Qed.
  Lemma fil_set {V} (l : dict V) a v : p a = true -> fil (dset a v l) = dset a v (fil l).
  Proof.
    unfold fil. intros P. induction l as [|[k w] l IH]; cbn; [rewrite P; auto|].
    destruct (String.eqb_spec a k) as [->|N]; cbn; [rewrite P; cbn; rewrite String.eqb_refl; auto|].
    destruct (p k); cbn; rewrite IH; auto. destruct (String.eqb_spec a k); [congruence|auto].
  Qed.
  Lemma fil_del_stores a id : p a = true -> forall l, del_stores (Some a) id (fil l) = (fil (fst (del_stores (Some a) id l)), snd (del_stores (Some a) id l)).
  Proof.
    intros P. induction l as [|[k x] l IH]; cbn [del_stores fil filter fst wanted]; auto.
    destruct (String.eqb_spec a k) as [->|N].
    - rewrite P. cbn [del_stores wanted]. rewrite String.eqb_refl. destruct (st_delete x id) as [x' [u|y]].
      + cbn. rewrite P. reflexivity.
      + fold (fil l). rewrite IH. destruct (del_stores (Some k) id l) as [l2 r]. cbn. rewrite P. reflexivity.
    - fold (fil l). destruct (p k) eqn:K.
      + cbn [del_stores wanted]. destruct (String.eqb_spec a k); [congruence|]. rewrite IH. destruct (del_stores (Some a) id l) as [l2 r]. cbn. rewrite K. reflexivity.
      + rewrite IH. destruct (del_stores (Some a) id l) as [l2 r]. cbn. rewrite K. reflexivity.
  Qed.
  Lemma keep_delete a id s : p a = true -> delete_task id (Some a) (keep s) = (keep (fst (delete_task id (Some a) s)), snd (delete_task id (Some a) s)).
  Proof.
    intros P. unfold delete_task. destruct (String.eqb id ""); auto. change (stopped (keep s)) with (stopped s). destruct (stopped s).
    - cbn [pend keep w_stores]. destruct (del_pending (Some a) id (pend s)) as [l r]. destruct (match r with Some x => x | None => None end); reflexivity.
    - cbn [stores keep w_stores]. rewrite (fil_del_stores a id P). destruct (del_stores (Some a) id (stores s)) as [l r]. destruct r; reflexivity.
  Qed.
  Lemma keep_update a t s : p a = true -> store_update a t (keep s) = (keep (fst (store_update a t s)), snd (store_update a t s)).
  Proof.
    intros P. unfold store_update. cbn [stores keep w_stores]. rewrite fil_get by auto. destruct (dget a (stores s)) as [x|]; auto.
    destruct (st_update x t) as [x' r]. unfold keep. cbn -[fil]. rewrite fil_set by auto. reflexivity.
  Qed.
  Lemma keep_send e xa t times s : send_task e xa t times (keep s) = (keep (fst (send_task e xa t times s)), snd (send_task e xa t times s)).
  Proof. unfold send_task. change (count (t_id t) (keep s)) with (count (t_id t) s). destruct (count (t_id t) s >=? t_max t); auto. destruct (e_send_fails e xa (t_id t)); auto. Qed.

  Definition lift {A} (x : (sched * list event) * A) : (sched * list event) * A := ((keep (fst (fst x)), snd (fst x)), snd x).

  Lemma keep_one c e a t s ev : p a = true -> process_one c e a t (keep s, ev) = lift (process_one c e a t (s, ev)).
  Proof.
    intros P. unfold process_one. change (execs (keep s)) with (execs s). change (draws (keep s)) with (draws s).
    destruct (match t_exec t with Some xa => if dmem xa (execs s) then Some xa else None | None => None end) as [xa|].
    2:{ rewrite keep_delete by auto. destruct (delete_task _ _ s) as [s1 r]. reflexivity. }
    destruct (get_run_times _ _ _ _ _) as [[due k]|]; auto. destruct (coalesce_run_times _ _) as [times n].
    destruct (last_opt times) as [lt|]; auto.
    change (w_draws k (keep s)) with (keep (w_draws k s)). rewrite keep_send. destruct (send_task e xa t times (w_draws k s)) as [s1 r]. cbn [fst snd].
    unfold ask. change (draws (keep s1)) with (draws s1). change (w_draws (S (draws s1)) (keep s1)) with (keep (w_draws (S (draws s1)) s1)).
    destruct (answers _ _ _ _ _ _) as [[x|]|]; auto.
    - rewrite keep_update by auto. destruct (store_update _ _ _) as [s2 r2]. reflexivity.
    - rewrite keep_delete by auto. destruct (delete_task _ _ _) as [s2 r2]. reflexivity.
  Qed.
  Lemma keep_due c e a : p a = true -> forall l s ev, process_due c e a l (keep s, ev) = lift (process_due c e a l (s, ev)).
  Proof.
    intros P. induction l as [|t l IH]; intros s ev; cbn [process_due]; auto. rewrite keep_one by auto.
    destruct (process_one c e a t (s, ev)) as [[s1 ev1] [u|x]]; cbn; auto.
  Qed.
  Lemma keep_store c e a w w2 s ev : p a = true ->
    let x := process_store c e a w (s, ev) in let y := process_store c e a w2 (keep s, ev) in
    fst y = (keep (fst (fst x)), snd (fst x)) /\ same_result (snd x) (snd y).
  Proof.
    intros P. unfold process_store. cbn [stores keep w_stores]. rewrite fil_get by auto. destruct (dget a (stores s)) as [x|]; [|cbn; auto].
    destruct (e_busy e a || e_fails e a); [cbn; auto|]. change (w_stores (fil (stores s)) s) with (keep s). rewrite keep_due by auto.
    destruct (process_due c e a (ms_due (s_mem x) (e_now e)) (s, ev)) as [[s1 ev1] [u|y]]; cbn; auto.
  Qed.
End Keep.

Lemma keep_stores c e : forall l w w2 s ev,
    let p := available e in
    let x := process_stores c e l w (s, ev) in let y := process_stores c e (filter p l) w2 (keep p s, ev) in
    fst y = (keep p (fst (fst x)), snd (fst x)) /\ same_result (snd x) (snd y).
Proof.
  induction l as [|a l IH]; intros w w2 s ev; cbn [process_stores filter]; [cbn; auto|].
  destruct (available e a) eqn:A; cbn [process_stores].
  - pose proof (keep_store (available e) c e a w w2 s ev A) as [H1 H2].
    destruct (process_store c e a w (s, ev)) as [[s1 ev1] r1]. destruct (process_store c e a w2 (keep (available e) s, ev)) as [[s2 ev2] r2].
    cbn [fst snd] in H1, H2. injection H1 as -> ->. destruct r1 as [u1|x1], r2 as [u2|x2]; cbn in H2; try contradiction; [apply IH|subst; cbn; auto].
  - assert (E : process_store c e a w (s, ev) = ((s, ev), Ok (match dget a (stores s) with Some _ => sooner w (e_now e + c_retry c) | None => w end))).
    { unfold process_store. unfold available in A. apply negb_false_iff in A. rewrite A. destruct (dget a (stores s)); auto. }
    rewrite E. apply IH.
Qed.

Lemma fil_keys {V} p (l : dict V) : dkeys (fil p l) = filter p (dkeys l).
Proof. unfold fil, dkeys. induction l as [|[k v] l IH]; cbn; auto. destruct (p k); cbn; congruence. Qed.

Theorem unreadable_do_not_matter c e s :
  let x := process_tasks c e s in let y := process_tasks c e (without_unreadable e s) in
  fst y = without_unreadable e (fst x) /\ same_result (snd x) (snd y).
Proof.
  unfold process_tasks. change (st (without_unreadable e s)) with (st s). destruct (sstate_eqb (st s) PAUSED); [cbn; auto|].
  destruct (e_plock e); [cbn; auto|].
  pose proof (keep_stores c e (dkeys (stores s)) None None s []) as [H1 H2]. cbv zeta in H1, H2. rewrite <- fil_keys in H1, H2.
  change (dkeys (stores (without_unreadable e s))) with (dkeys (fil (available e) (stores s))).
  change (without_unreadable e s) with (keep (available e) s).
  destruct (process_stores c e (dkeys (stores s)) None (s, [])) as [[s1 ev1] r1].
  destruct (process_stores c e (dkeys (fil (available e) (stores s))) None (keep (available e) s, [])) as [[s2 ev2] r2].
  cbn [fst snd] in H1, H2. injection H1 as -> ->. destruct r1, r2; cbn in H2; try tauto; cbn; auto.
Qed.
Lemma without_stored e s a id : stored (without_unreadable e s) a id = if available e a then stored s a id else None.
Proof.
  unfold stored, without_unreadable. cbn. destruct (available e a) eqn:A.
  - change (filter (fun kv : string * store => available e (fst kv)) (stores s)) with (fil (available e) (stores s)). rewrite fil_get by auto. reflexivity.
  - change (filter (fun kv : string * store => available e (fst kv)) (stores s)) with (fil (available e) (stores s)). rewrite fil_get_out by auto. reflexivity.
Qed.
Lemma process_due_other c e a l s ev b : b <> a -> dget b (stores (fst (fst (process_due c e a l (s, ev))))) = dget b (stores s).
Proof. intros N. pose proof (process_due_subs c e a l s ev) as H. destruct (process_due c e a l (s, ev)) as [[s1 ev1] r]. cbn. apply H, N. Qed.
Theorem unreadable_untouched c e s a : ~ readable e a -> dget a (stores (fst (process_tasks c e s))) = dget a (stores s).
Proof.
  intros NR. unfold process_tasks. destruct (sstate_eqb (st s) PAUSED); auto. destruct (e_plock e); auto.
  assert (H : forall l w s0 ev, dget a (stores (fst (fst (process_stores c e l w (s0, ev))))) = dget a (stores s0)).
  { induction l as [|b l IH]; intros w s0 ev; cbn [process_stores]; auto.
    assert (H : dget a (stores (fst (fst (process_store c e b w (s0, ev))))) = dget a (stores s0)).
    { unfold process_store. destruct (dget b (stores s0)) as [x|]; auto. destruct (readable_dec e b) as [[-> _]|[-> R]]; auto.
      assert (N : a <> b) by congruence. pose proof (process_due_other c e b (ms_due (s_mem x) (e_now e)) s0 ev a N) as H.
      destruct (process_due _ _ _ _ _) as [[s1 ev1] [u|y]]; exact H. }
    destruct (process_store c e b w (s0, ev)) as [[s1 ev1] [w1|y]]; cbn [fst] in *; auto. rewrite IH. exact H. }
  specialize (H (dkeys (stores s)) None s []). destruct (process_stores c e (dkeys (stores s)) None (s, [])) as [[s1 ev1] [w|y]]; exact H.
Qed.
