(** Proofs about process_tasks: C15, C16, C17, C21, C22. *)
From Verif Require Import Prelude PreludeFacts MemStore StoreSpec MemStoreProofs CallArgs Cron Triggers TriggerSpec Task TaskSpec TaskProofs Scheduler Executor SchedSpec SchedProofs.
Open Scope Z_scope.

Lemma has_keys s a : has_store s a <-> In a (dkeys (stores s)).
Proof.
  unfold has_store. split; [intros [x H]; eapply dget_Some_key; eauto|].
  intros H. destruct (dget a (stores s)) eqn:E; eauto. apply dget_None in E. tauto.
Qed.

(** everything process_tasks does when it is not paused and gets the processing lock *)
Lemma process_tasks_spec c e s s' r : wf s -> st s = RUNNING -> e_plock e = false -> no_empty_id s ->
  process_tasks c e s = (s', r) ->
  match r with
  | Err x => exists a t k, readable e a /\ stored s a (t_id t) = Some t /\ is_due t_next (e_now e) t /\ wake (c_fuel c) (c_oracle c) k t (e_now e) = Err x
  | Ok d => exists due fs w s1, all_due e s due /\ batch c e s [] due fs s1 (collect g_ev due fs) /\
      s' = w_evs (evs s ++ collect g_rm due fs ++ collect g_ev due fs) s1 /\
      wake_ok c e s' (dkeys (stores s)) None w /\
      d = match w with None => if c_lock_path c then Some (c_retry c) else None | Some t => Some (Z.min (Z.max (t - e_now e) 0) (c_timeout_max c)) end
  end.
Proof.
  intros W St PL NE. unfold process_tasks. rewrite St, PL. cbn [sstate_eqb].
  destruct (process_stores c e (dkeys (stores s)) None (s, [])) as [[s1 ev] r1] eqn:P.
  assert (ST : stopped s = false) by (unfold stopped; rewrite St; auto).
  pose proof (process_stores_spec c e _ _ _ _ _ _ _ W ST NE (wf_keys _ W) (fun a H => proj2 (has_keys s a) H) P) as Q.
  destruct r1 as [w|x]; intros [= <- <-].
  - destruct Q as (due & fs & D & B & K). exists due, fs, w, s1. destruct D as [D1 D2].
    assert (ev = collect g_ev due fs) as -> by (rewrite (b_ev _ _ _ _ _ _ _ _ B); reflexivity).
    sp; auto.
    + split; auto. intros a t. rewrite D2. split; [tauto|]. intros (R & S & Du). sp; auto; try apply R.
      apply has_keys. eapply has_stored; eauto.
    + rewrite (b_evs _ _ _ _ _ _ _ _ B), <- app_assoc. reflexivity.
    + destruct K as [K1 K2 K3 K4]. constructor; [exact K1|exact K2|exact K3|exact K4].
    + change (st (w_evs _ s1)) with (st s1). rewrite (fr_st _ _ (b_frame _ _ _ _ _ _ _ _ B)), St. reflexivity.
  - destruct Q as (a & t & k & H & R & S & Du & E). exists a, t, k. sp; auto; apply R.
Qed.

Lemma is_due_dec now t : is_due t_next now t \/ ~ is_due t_next now t.
Proof.
  unfold is_due. destruct (t_next t) as [x|]; [|right; intros (? & ? & _); discriminate].
  destruct (Z_le_dec x now); [left; eauto|right]. intros (? & [= <-] & ?). lia.
Qed.
Lemma is_readable_dec e a : readable e a \/ ~ readable e a.
Proof. destruct (readable_dec e a); tauto. Qed.

Lemma pass_in c e ex due : forall fs cnt a t f n, pass c e ex cnt due fs -> In ((a, t), (f, n)) (combine due fs) ->
  exists cnt', handled c e ex cnt' t f n.
Proof.
  induction due as [|[b u] due IH]; intros [|[f0 n0] fs] cnt a t f n; cbn; try tauto.
  intros [H P] [E|I]; [injection E as <- <- <- <-; eauto|eauto].
Qed.

(** C15, un-jittered *)
Theorem process_leaves_nothing_due c e s s' d : wf s -> st s = RUNNING -> e_plock e = false -> no_empty_id s ->
  process_tasks c e s = (s', Ok d) ->
  (forall a id, stored s a id = None -> stored s' a id = None) /\
  (forall a id t, stored s a id = Some t ->
     (~ (readable e a /\ is_due t_next (e_now e) t) -> stored s' a id = Some t) /\
     (readable e a -> is_due t_next (e_now e) t -> ~ (exists xa, t_exec t = Some xa /\ has_exec s xa) -> stored s' a id = None) /\
     (forall xa, readable e a -> is_due t_next (e_now e) t -> t_exec t = Some xa -> has_exec s xa ->
        exists l n k k', l <> [] /\ wake (c_fuel c) (c_oracle c) k t (e_now e) = Ok (l, n, k') /\
          stored s' a id = option_map (fun x => set_next (Some x) t) n)).
Proof.
  intros W St PL NE P. pose proof (process_tasks_spec _ _ _ _ _ W St PL NE P) as (due & fs & w & s1 & D & B & -> & K & _).
  destruct (b_stores _ _ _ _ _ _ _ _ B) as [B1 B2].
  assert (SS : forall a id, stored (w_evs (evs s ++ collect g_rm due fs ++ collect g_ev due fs) s1) a id = stored s1 a id) by reflexivity.
  assert (IDS : forall a id t, stored s a id = Some t -> t_id t = id).
  { intros a id t S. unfold stored in S. destruct (dget a (stores s)) as [x|] eqn:G; [|discriminate].
    apply (content_In t_id t_next (s_mem x) id t (wf_inv _ W _ _ G)) in S. tauto. }
  split.
  - intros a id N. rewrite SS, B2; auto. intros t Ht. apply D in Ht as (_ & S & _). intros <-. congruence.
  - intros a id t S. pose proof (IDS _ _ _ S) as Eid. sp.
    + intros ND. rewrite SS, B2; auto. intros t0 Ht E. apply D in Ht as (R & S0 & Du). rewrite E in S0. rewrite S in S0. injection S0 as <-. tauto.
    + intros R Du NX. rewrite SS. rewrite <- Eid in S |- *.
      assert (HI : In (a, t) due) by (apply D; auto).
      destruct (combine_has due fs (pass_length _ _ _ _ _ _ (b_pass _ _ _ _ _ _ _ _ B)) _ HI) as ([f n] & HC).
      rewrite (B1 _ _ _ _ HC). destruct (pass_in _ _ _ _ _ _ _ _ _ _ (b_pass _ _ _ _ _ _ _ _ B) HC) as (cnt & H).
      destruct f; cbn in H; [destruct H as [-> _]; reflexivity| | |]; destruct H as (xa & l & k & k' & H1 & H2 & _); exfalso; eauto.
    + intros xa R Du EX HX. rewrite SS. rewrite <- Eid in S |- *.
      assert (HI : In (a, t) due) by (apply D; auto).
      destruct (combine_has due fs (pass_length _ _ _ _ _ _ (b_pass _ _ _ _ _ _ _ _ B)) _ HI) as ([f n] & HC).
      rewrite (B1 _ _ _ _ HC). destruct (pass_in _ _ _ _ _ _ _ _ _ _ (b_pass _ _ _ _ _ _ _ _ B) HC) as (cnt & H).
      destruct f; cbn in H; [exfalso; apply (proj2 H); eauto| | |]; destruct H as (xa' & l & k & k' & H1 & H2 & H3 & H4 & _); exists l, n, k, k'; auto.
Qed.
