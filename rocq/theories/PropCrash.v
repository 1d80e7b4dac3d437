(** C89: runs when the scheduler process may die.  C90: what re-adding tasks at start-up does. *)
From Verif Require Import Prelude PreludeFacts MemStore StoreSpec CallArgs Cron Triggers TriggerSpec Task TaskSpec TaskProofs Scheduler Executor SchedSpec SchedProofs SchedProofs2 SchedReach LifeSpec LifeProofs PropLife PropSched Crash CrashSpec CrashProofs CrashHistory.
Open Scope Z_scope.

Lemma lived_wf c s : lived c s -> wf s.
Proof.
  induction 1 as [|s e o _ IH|s e s1 e' adds s2 _ IH St NE CUT RB]; [apply wf_init|apply wf_step; auto|].
  destruct (cut_pass_spec _ _ _ _ IH St NE CUT) as (W1 & _). apply (reborn_spec _ _ _ _ _ W1 RB).
Qed.
Lemma start_here s a t x : stored s a (t_id t) = Some t -> t_next t = Some x -> stored s a (t_id t) = here t (Some x).
Proof. intros -> N. cbn. destruct t. cbn in *. subst. reflexivity. Qed.

(** C89, at least once.  A task whose executor takes it goes, through passes, raising passes, deaths at any
    point of a pass and restarts, through the fire times of its trigger one after the other; every one it
    has left behind was handed over, or coalesced into a later one that was. *)
Theorem C89_nothing_lost :
  forall (c : config) (a : string) (t : task) (x : Z) (s s' : sched) (hs : list submission) (k : nat),
    lived c s -> stored s a (t_id t) = Some t -> t_next t = Some x -> jitter_free (t_trigger t) -> forward (t_trigger t) ->
    history c a t (willing t) s hs k s' ->
    exists l n, fire_times (answer_after (c_fuel c) (t_trigger t)) (Some x) l n /\
      stored s' a (t_id t) = option_map (fun y => set_next (Some y) t) n /\
      forall r, In r l -> covered t hs r.
Proof.
  intros c a t x s s' hs k L S N J FW H. destruct (history_passed _ _ _ _ _ _ _ _ J FW H (lived_wf _ _ L) _ (start_here _ _ _ _ S N)) as (_ & l & n & E & [A B D F G]).
  exists l, n. split; auto.
Qed.
Print Assumptions C89_nothing_lost.
(** Not more than once, except for interruptions: a run time is handed over at most once more than there
    were interruptions, and without one only if it has been left behind. *)
Theorem C89_repeats_are_interruptions :
  forall (c : config) (a : string) (t : task) (x : Z) (Q : sched -> envir -> Prop) (s s' : sched) (hs : list submission) (k : nat),
    lived c s -> stored s a (t_id t) = Some t -> t_next t = Some x -> jitter_free (t_trigger t) -> forward (t_trigger t) ->
    history c a t Q s hs k s' ->
    exists l n, fire_times (answer_after (c_fuel c) (t_trigger t)) (Some x) l n /\ NoDup l /\
      stored s' a (t_id t) = option_map (fun y => set_next (Some y) t) n /\
      forall r, (times_handed r hs <= k + 1)%nat /\ (~ In r l -> times_handed r hs <= k)%nat.
Proof.
  intros c a t x Q s s' hs k L S N J FW H. destruct (history_passed _ _ _ _ _ _ _ _ J FW H (lived_wf _ _ L) _ (start_here _ _ _ _ S N)) as (_ & l & n & E & [A B D F G]).
  destruct (fires_from _ _ FW _ _ _ A) as (ND & _). exists l, n. split; auto. split; auto. split; auto. intros r. specialize (B r). split.
  - rewrite (NoDup_count_occ Z.eq_dec) in ND. specialize (ND r). lia.
  - intros Nr. rewrite (count_occ_not_In Z.eq_dec) in Nr. lia.
Qed.
Print Assumptions C89_repeats_are_interruptions.
(** Exactly once, in order, when nothing is interrupted and nothing is coalesced. *)
Theorem C89_exactly_once :
  forall (c : config) (a : string) (t : task) (x : Z) (s s' : sched) (hs : list submission),
    lived c s -> stored s a (t_id t) = Some t -> t_next t = Some x -> jitter_free (t_trigger t) -> forward (t_trigger t) -> t_coalesce t = false ->
    history c a t (willing t) s hs 0 s' ->
    exists n, fire_times (answer_after (c_fuel c) (t_trigger t)) (Some x) (times_of hs) n /\ NoDup (times_of hs) /\
      stored s' a (t_id t) = option_map (fun y => set_next (Some y) t) n.
Proof.
  intros c a t x s s' hs L S N J FW C H. destruct (history_passed _ _ _ _ _ _ _ _ J FW H (lived_wf _ _ L) _ (start_here _ _ _ _ S N)) as (_ & l & n & E & [A B D F G]).
  rewrite (G (fun s e w => w) eq_refl C). destruct (fires_from _ _ FW _ _ _ A) as (ND & _). exists n. auto.
Qed.
Print Assumptions C89_exactly_once.
(** Whatever happened before, one complete pass that can read the store leaves nothing behind: everything up
    to its instant has then been handed over (or coalesced). *)
Theorem C89_catches_up :
  forall (c : config) (a : string) (t : task) (x : Z) (s s1 s2 : sched) (hs : list submission) (k : nat) (e : envir) (d : option Z) (new : list submission),
    lived c s -> stored s a (t_id t) = Some t -> t_next t = Some x -> jitter_free (t_trigger t) -> forward (t_trigger t) ->
    history c a t (willing t) s hs k s1 ->
    st s1 = RUNNING -> in_order s1 a t -> willing t s1 e -> e_plock e = false -> readable e a ->
    process_tasks c e s1 = (s2, Ok d) -> subs s2 = subs s1 ++ new ->
    exists l n, fire_times (answer_after (c_fuel c) (t_trigger t)) (Some x) l n /\ after_instant (e_now e) n /\
      stored s2 a (t_id t) = option_map (fun y => set_next (Some y) t) n /\
      forall r, In r l -> covered t (hs ++ of_task (t_id t) new) r.
Proof.
  intros c a t x s s1 s2 hs k e d new L S N J FW H St (NE & NW & XA) WI PL RD P U. destruct (history_passed _ _ _ _ _ _ _ _ J FW H (lived_wf _ _ L) _ (start_here _ _ _ _ S N)) as (W1 & l & n & E & [A B D F G]).
  specialize (F (fun s e w => w)). destruct (pass_spec _ _ _ _ _ W1 St NE P) as (W2 & new' & U' & X). assert (new' = new) as -> by (rewrite U in U'; apply app_inv_head in U'; auto).
  specialize (X a (t_id t) NW). rewrite E in X. destruct n as [y|]; cbn [here option_map] in X.
  - specialize (X eq_refl). destruct X as [(X1 & X2 & X3)|(f & n1 & X1 & X2 & X3)].
    + exists l, (Some y). split; auto. split; [|split; [exact X1|intros r Hr; apply covered_app; left; auto]]. intros z [= <-]. destruct (Z_lt_le_dec (e_now e) y) as [|Ly]; auto. exfalso. apply X3. split; auto. split; auto. exists y. split; [reflexivity|exact Ly].
    + destruct (handled_times _ _ _ _ _ _ _ X1 XA J) as (l1 & times & m & N1 & F1 & L1 & A1 & C1 & T1 & T2). cbn [t_trigger t_next set_next t_id t_max t_coalesce] in *.
      exists (l ++ l1), n1. split; [eapply fire_times_app; eauto|]. split; auto. split; [rewrite X2; apply here_again|]. intros r Hr. apply covered_app. apply in_app_or in Hr as [Hr|Hr]; [left; auto|right].
      unfold covered. rewrite X3. destruct WI as [w1 w2]. rewrite (T2 w1 w2). eapply coalesce_covers; eauto.
  - destruct X as [X1 X2]. exists l, None. split; auto. split; [discriminate|]. split; auto. intros r Hr. apply covered_app. left. auto.
Qed.
Print Assumptions C89_catches_up.
Lemma never_again_wf :
  forall (c : config) (a : string) (t : task) (Q : sched -> envir -> Prop) (s s' : sched) (hs : list submission) (k : nat),
    wf s -> jitter_free (t_trigger t) -> forward (t_trigger t) -> history c a t Q s hs k s' ->
    (forall x, stored s a (t_id t) = Some t -> t_next t = Some x -> forall r, r < x -> times_handed r hs = 0%nat) /\
    (stored s a (t_id t) = None -> hs = []).
Proof.
  intros c a t Q s s' hs k L J FW H. split.
  - intros x S N r Lr. destruct (history_passed _ _ _ _ _ _ _ _ J FW H L _ (start_here _ _ _ _ S N)) as (_ & l & n & E & [A B D F G]).
    apply (count_occ_not_In Z.eq_dec). intros Hi. destruct (D r Hi) as (y & [= <-] & Ly). lia.
  - rename L into W. revert W. induction H as [s|s e s1 d new hs k s2 St (NE & NW & XA) HQ P U H IH|s e s1 x new hs k s2 St (NE & NW & XA) HQ P U H IH|s e s1 e' adds s2 new hs k s3 St (NE & NW & XA) HQ CUT DU U RB AD H IH|s e o hs k s2 NP SS US H IH]; intros W S; auto.
    + destruct (pass_spec _ _ _ _ _ W St NE P) as (W1 & new' & U' & X). assert (new' = new) as -> by (rewrite U in U'; apply app_inv_head in U'; auto). specialize (X a (t_id t) NW). rewrite S in X. destruct X as [X1 X2]. rewrite X2. cbn. auto.
    + pose proof (pass_raises _ _ _ _ _ St P) as CUT. destruct (cut_pass_spec _ _ _ _ W St NE CUT) as (W1 & F1 & new' & U' & X). assert (new' = new) as -> by (rewrite U in U'; apply app_inv_head in U'; auto). specialize (X a (t_id t) NW). rewrite S in X. destruct X as [X1 X2]. rewrite X2. cbn. auto.
    + destruct (cut_pass_spec _ _ _ _ W St NE CUT) as (W1 & F1 & new' & U' & X). assert (new' = new) as -> by (rewrite U in U'; apply app_inv_head in U'; auto). specialize (X a (t_id t) NW). rewrite S in X. destruct X as [X1 X2]. rewrite X2. cbn.
      destruct (reborn_spec _ _ _ _ _ W1 RB) as (W2 & _ & _ & _ & _ & _ & RS). apply IH; auto. rewrite RS; auto.
    + apply IH; [apply wf_step; auto|congruence].
Qed.
(** What has been left behind is never handed over again, whatever happens, nor anything of a task that is gone. *)
Theorem C89_never_again :
  forall (c : config) (a : string) (t : task) (Q : sched -> envir -> Prop) (s s' : sched) (hs : list submission) (k : nat),
    lived c s -> jitter_free (t_trigger t) -> forward (t_trigger t) -> history c a t Q s hs k s' ->
    (forall x, stored s a (t_id t) = Some t -> t_next t = Some x -> forall r, r < x -> times_handed r hs = 0%nat) /\
    (stored s a (t_id t) = None -> hs = []).
Proof. intros c a t Q s s' hs k L. apply never_again_wf. eapply lived_wf; eauto. Qed.
Print Assumptions C89_never_again.

(** *** concrete cases *)
Lemma order_by_check s a t :
  forallb (fun ax => match ms_lookup (s_mem (snd ax)) "" with None => true | Some _ => false end &&
                     (String.eqb (fst ax) a || match ms_lookup (s_mem (snd ax)) (t_id t) with None => true | Some _ => false end)) (stores s) = true ->
  (exists xa, t_exec t = Some xa /\ has_exec s xa) -> in_order s a t.
Proof.
  intros H X. rewrite forallb_forall in H. split; [|split; auto].
  - intros b. unfold stored. destruct (dget b (stores s)) as [y|] eqn:G; auto. apply dget_In in G. specialize (H _ G). cbn in H. destruct (ms_lookup (s_mem y) ""); auto. discriminate.
  - intros b Nb. unfold stored. destruct (dget b (stores s)) as [y|] eqn:G; auto. apply dget_In in G. specialize (H _ G). cbn in H. apply String.eqb_neq in Nb. rewrite Nb in H. destruct (ms_lookup (s_mem y) (t_id t)); auto. rewrite andb_false_r in H. discriminate.
Qed.
Lemma with_result {A B} (p : A * B) y : snd p = y -> p = (fst p, y).
Proof. destruct p. cbn. congruence. Qed.
Definition db_task : task :=
  MkTask "j" "job" (every 10 None) None (Some "default"%string) (Some "db"%string) (Some (sec 1)) false 5 None None (VList []) (VDict []) (Some 0%nat) true false.
Definition db_ops : list (envir * op) :=
  [(quiet 0, OAddStore "db" false); (quiet 0, OStart false); (quiet (sec 1), OAddTask db_task false None)].
Definition db_state : sched := run_ops ex_cfg db_ops sched_init.
(** the task as it is stored *)
Definition db_stored : task := kept 0 db_task false (Some (sec 10)).
Example db_lived : lived ex_cfg db_state.
Proof. unfold db_state, db_ops. cbn [run_ops]. repeat apply lived_step. apply lived_init. Qed.
Example db_there : stored db_state "db" "j" = Some db_stored /\ st db_state = RUNNING /\ durable db_state "db" /\ in_order db_state "db" db_stored /\ willing db_stored db_state (quiet (sec 10)).
Proof.
  split; [vm_compute; reflexivity|]. split; [vm_compute; reflexivity|]. split; [|split].
  - unfold durable. destruct (dget "db" (stores db_state)) as [x|] eqn:G; [|vm_compute in G; discriminate]. exists x. split; auto. vm_compute in G. injection G as <-. reflexivity.
  - apply order_by_check; [vm_compute; reflexivity|]. exists "default"%string. split; [reflexivity|]. destruct (dget "default" (execs db_state)) as [x|] eqn:G; [exists x; exact G|vm_compute in G; discriminate].
  - split; [vm_compute; reflexivity|]. reflexivity.
Qed.
Example db_plain : jitter_free (t_trigger db_stored) /\ forward (t_trigger db_stored).
Proof. cbn. unfold sec, us. split; [reflexivity|]. split; [lia|intros j; discriminate]. Qed.

(** The process dies after handing over the run of 10 s and before storing the next run time; the next
    process hands it over again. *)
Definition db_dead : sched := hand_over ex_cfg (quiet (sec 10)) db_stored db_state.
Definition db_again : sched := fst (reborn ex_cfg (quiet (sec 11)) [] db_dead).
Definition db_done : sched := fst (process_tasks ex_cfg (quiet (sec 12)) db_again).
Definition run_at (l : list Z) : submission := MkSub "default" "j" (map sec l) 5.
Lemma db_reborn : reborn ex_cfg (quiet (sec 11)) [] db_dead = (db_again, Ok true).
Proof. unfold db_again. apply with_result. vm_compute. reflexivity. Qed.
Lemma db_pass : process_tasks ex_cfg (quiet (sec 12)) db_again = (db_done, Ok (Some (sec 8))).
Proof. unfold db_done. apply with_result. vm_compute. reflexivity. Qed.
Lemma no_adds (P : added -> Prop) : forall x : added, In x [] -> P x.
Proof. intros x H. destruct H. Qed.
Example db_history : history ex_cfg "db" db_stored (willing db_stored) db_state (of_task "j" [run_at [10]] ++ (of_task "j" [run_at [10]] ++ [])) 1 db_done.
Proof.
  destruct db_there as (S & St & DU & OR & WI).
  apply (h_death ex_cfg "db" db_stored (willing db_stored) db_state (quiet (sec 10)) db_dead (quiet (sec 11)) [] db_again [run_at [10]] (of_task "j" [run_at [10]] ++ []) 0 db_done); [exact St|exact OR|exact WI| | | | | |].
  - unfold cut_pass. cbn [e_plock quiet]. assert (E : dkeys (stores db_state) = ["db"; "default"]%string) by (vm_compute; reflexivity). rewrite E.
    destruct (dget "db" (stores db_state)) as [x|] eqn:G; [|vm_compute in G; discriminate]. eapply cuts_in; [exact G|reflexivity|].
    assert (M : ms_due (s_mem x) (e_now (quiet (sec 10))) = [db_stored]) by (vm_compute in G; injection G as <-; vm_compute; reflexivity). rewrite M. apply cut_handed.
  - unfold durable. destruct (dget "db" (stores db_dead)) as [x|] eqn:G; [|vm_compute in G; discriminate]. exists x. split; auto. vm_compute in G. injection G as <-. reflexivity.
  - vm_compute. reflexivity.
  - exact db_reborn.
  - exact (no_adds _).
  - apply (h_pass ex_cfg "db" db_stored (willing db_stored) db_again (quiet (sec 12)) db_done (Some (sec 8)) [run_at [10]] [] 0 db_done).
    + vm_compute. reflexivity.
    + apply order_by_check; [vm_compute; reflexivity|]. exists "default"%string. split; [reflexivity|]. destruct (dget "default" (execs db_again)) as [x|] eqn:G; [exists x; exact G|vm_compute in G; discriminate].
    + split; [vm_compute; reflexivity|reflexivity].
    + exact db_pass.
    + vm_compute. reflexivity.
    + apply h_end.
Qed.
Theorem C89_at_most_once_refuted :
  ~ (forall c a t x s s' hs k, lived c s -> stored s a (t_id t) = Some t -> t_next t = Some x -> jitter_free (t_trigger t) -> forward (t_trigger t) ->
       history c a t (willing t) s hs k s' -> forall r, (times_handed r hs <= 1)%nat).
Proof.
  intros H. destruct db_there as (S & _). destruct db_plain as [J FW]. specialize (H _ "db"%string db_stored (sec 10) _ _ _ _ db_lived S eq_refl J FW db_history (sec 10)). vm_compute in H. lia.
Qed.
Print Assumptions C89_at_most_once_refuted.
Definition db_ran : sched := fst (process_tasks ex_cfg (quiet (sec 10)) db_state).
Definition db_lost : sched := fst (reborn ex_cfg (quiet (sec 11)) [] db_ran).
Lemma lived_pass c e s s1 r : lived c s -> process_tasks c e s = (s1, r) -> lived c s1.
Proof. intros L P. pose proof (lived_step c s e OProcess L) as X. cbn [step] in X. rewrite P in X. exact X. Qed.
Lemma db_first : process_tasks ex_cfg (quiet (sec 10)) db_state = (db_ran, Ok (Some (sec 10))).
Proof. unfold db_ran. apply with_result. vm_compute. reflexivity. Qed.
Lemma db_second : reborn ex_cfg (quiet (sec 11)) [] db_ran = (db_lost, Ok true).
Proof. unfold db_lost. apply with_result. vm_compute. reflexivity. Qed.
Lemma db_gone : subs db_ran = subs db_state ++ [run_at [10]] /\ durable db_ran "db" /\ insts db_lost = [] /\ subs db_lost = [] /\
  stored db_lost "db" (t_id db_stored) = Some (set_next (Some (sec 20)) db_stored) /\ (st db_ran = RUNNING /\ no_empty_id db_ran).
Proof.
  split; [vm_compute; reflexivity|]. split; [|split; [vm_compute; reflexivity|split; [vm_compute; reflexivity|split; [vm_compute; reflexivity|split; [vm_compute; reflexivity|]]]]].
  - unfold durable. destruct (dget "db" (stores db_ran)) as [x|] eqn:G; [|vm_compute in G; discriminate]. exists x. split; [reflexivity|]. vm_compute in G. injection G as <-. reflexivity.
  - apply (order_by_check _ "db" db_stored); [vm_compute; reflexivity|]. exists "default"%string. split; [reflexivity|].
    destruct (dget "default" (execs db_ran)) as [x|] eqn:G; [exists x; exact G|vm_compute in G; discriminate].
Qed.
(** Handing over is not running: the next run time is stored first, and a process that dies with the run
    still waiting in its executor takes the run with it.  The new process has no trace of it and, whatever
    happens next, never hands it over. *)
Theorem C89_handed_over_is_run_refuted :
  exists c a t t1 s e d s1 u r e' s2,
    lived c s /\ st s = RUNNING /\ process_tasks c e s = (s1, Ok d) /\ subs s1 = subs s ++ [u] /\ sub_task u = t_id t /\ In r (sub_times u) /\
    stored s a (t_id t) = Some t /\ t_next t = Some r /\ durable s1 a /\
    cut_pass c e' s1 s1 /\ reborn c e' [] s1 = (s2, Ok true) /\ insts s2 = [] /\ subs s2 = [] /\ stored s2 a (t_id t) = Some t1 /\
    forall Q hs k s3, history c a t1 Q s2 hs k s3 -> times_handed r hs = 0%nat.
Proof.
  destruct db_there as (S & St & DU & OR & WI). destruct db_gone as (G1 & G2 & G3 & G4 & G5 & G6).
  assert (CUT : cut_pass ex_cfg (quiet (sec 11)) db_ran db_ran) by (unfold cut_pass; cbn [e_plock quiet]; apply cuts_here).
  exists ex_cfg, "db"%string, db_stored, (set_next (Some (sec 20)) db_stored), db_state, (quiet (sec 10)), (Some (sec 10)), db_ran, (run_at [10]), (sec 10), (quiet (sec 11)), db_lost.
  split; [exact db_lived|]. split; [exact St|]. split; [exact db_first|]. split; [exact G1|]. split; [reflexivity|]. split; [left; reflexivity|].
  split; [exact S|]. split; [reflexivity|]. split; [exact G2|]. split; [exact CUT|]. split; [exact db_second|]. split; [exact G3|]. split; [exact G4|]. split; [exact G5|].
  intros Q hs k s3 H. assert (L2 : lived ex_cfg db_lost).
  { apply (lived_death ex_cfg db_ran (quiet (sec 11)) db_ran (quiet (sec 11)) [] db_lost); [|apply G6|apply G6|exact CUT|exact db_second].
    exact (lived_pass _ _ _ _ _ db_lived db_first). }
  refine (proj1 (C89_never_again ex_cfg "db" (set_next (Some (sec 20)) db_stored) Q db_lost s3 hs k L2 (proj1 db_plain) (proj2 db_plain) H) (sec 20) G5 eq_refl (sec 10) _). unfold sec, us. lia.
Qed.
Print Assumptions C89_handed_over_is_run_refuted.

(** C90.  The new process makes the same calls of add_task before starting.  Without replace_existing the
    stored task is left as it is, with its next run time, so what was missed is caught up ... *)
Theorem C90_kept :
  forall (c : config) (e : envir) (adds : list added) (dead s : sched) (a id : string) (t : task),
    lived c dead -> reborn c e adds dead = (s, Ok true) -> durable dead a -> stored dead a id = Some t ->
    (forall x, In x adds -> t_id (ad_task x) = id -> ad_replace x = false) ->
    stored s a id = Some t /\ st s = RUNNING /\ insts s = [].
Proof.
  intros c e adds dead s a id t L R D S N. destruct (reborn_spec _ _ _ _ _ (lived_wf _ _ L) R) as (W & St & _ & I & _ & _ & RS). split; [|auto].
  rewrite RS; auto. intros x Hx E. split; [congruence|eauto].
Qed.
Print Assumptions C90_kept.
(** ... with it the task starts afresh: its next run time is the trigger's first answer at the restart (or the
    one given), and the run times before that are never handed over. *)
Definition accepted_by (c : config) (x : added) : bool :=
  negb (t_submitted (ad_task x)) && match t_sched (ad_task x) with Some k => Nat.eqb k (c_self c) | None => true end.
Definition queued (c : config) (x : added) : task * bool * bool :=
  (with_default_aliases (c_self c) (given_next (ad_next x) (ad_task x)), ad_replace x, starts (ad_next x)).
Lemma pending_of c e : forall l s, stopped s = true -> pend (with_tasks c e l s) = pend s ++ map (queued c) (filter (accepted_by c) l).
Proof.
  induction l as [|x l IH]; intros s St; cbn [with_tasks filter map]; [rewrite app_nil_r; auto|].
  unfold add_task, accepted_by at 1. destruct (t_submitted (ad_task x)); cbn [negb andb fst]; [apply IH; auto|].
  assert (E : match t_sched (ad_task x) with Some k => negb (Nat.eqb k (c_self c)) | None => false end = negb (match t_sched (ad_task x) with Some k => Nat.eqb k (c_self c) | None => true end)) by (destruct (t_sched (ad_task x)); auto).
  rewrite E. destruct (match t_sched (ad_task x) with Some k => Nat.eqb k (c_self c) | None => true end); cbn [negb fst]; [|apply IH; auto].
  rewrite St. cbn [fst]. rewrite IH by exact St. cbn [pend w_pend map]. rewrite <- app_assoc. reflexivity.
Qed.
Theorem C90_replaced :
  forall (c : config) (e : envir) (adds1 adds2 : list added) (x : added) (dead s : sched),
    lived c dead -> reborn c e (adds1 ++ x :: adds2) dead = (s, Ok true) ->
    ad_replace x = true -> t_submitted (ad_task x) = false -> t_sched (ad_task x) = None ->
    (forall y, In y adds2 -> t_id (ad_task y) <> t_id (ad_task x)) ->
    let a := match t_store (ad_task x) with Some a => a | None => "default"%string end in
    let asked := match ad_next x with Some n => n | None => t_next (ad_task x) end in
    exists t n, stored s a (t_id (ad_task x)) = Some t /\ t_next t = n /\ t_trigger t = t_trigger (ad_task x) /\ t_id t = t_id (ad_task x) /\
      first_time c (e_now e) (set_next asked (ad_task x)) (starts (ad_next x)) (if c_lock_path c then Some (e_now e + c_startup_delay c) else None) n /\
      (jitter_free (t_trigger t) -> forward (t_trigger t) -> forall y, n = Some y ->
         forall Q hs k s', history c a t Q s hs k s' -> forall r, r < y -> times_handed r hs = 0%nat).
Proof.
  intros c e adds1 adds2 x dead s L R RX SX OX LATER a asked. pose proof (lived_wf _ _ L) as W. pose proof (proj1 (reborn_spec _ _ _ _ _ W R)) as WS. unfold reborn in R.
  destruct (prepared_spec c e (adds1 ++ x :: adds2) dead W) as (P1 & P2 & _ & _ & P5 & _). set (p := prepared c e (adds1 ++ x :: adds2) dead) in *.
  assert (AX : accepted_by c x = true) by (unfold accepted_by; rewrite SX, OX; auto).
  assert (PE : pend p = map (queued c) (filter (accepted_by c) adds1) ++ queued c x :: map (queued c) (filter (accepted_by c) adds2)).
  { unfold p, prepared. destruct (with_execs_spec (execs dead) sched_init eq_refl wf_init (wf_execs _ W) (fun _ _ => eq_refl)) as (A1 & A2 & A3 & A4 & _). set (s1 := with_execs (execs dead) sched_init) in *.
    destruct (with_stores_spec (stores dead) s1 A2 A1 (wf_keys _ W)) as (B1 & B2 & B3 & B4 & _); [intros b y Hy; eapply (wf_inv _ W b); apply In_dget; auto; apply (wf_keys _ W)|rewrite A3; auto|].
    rewrite pending_of by exact B2. rewrite B4, A4. cbn [pend sched_init app]. rewrite filter_app, map_app. cbn [filter]. rewrite AX. reflexivity. }
  pose proof (start_spec _ _ _ _ _ _ P1 R) as S. rewrite P5, P2 in S. cbn [negb] in S. change (0 + 1 >? 1) with false in S. cbn iota in S. destruct S as (_ & _ & _ & _ & _ & _ & _ & _ & _ & _ & _ & evts & INS & _).
  rewrite PE in INS. unfold queued at 2 in INS. rewrite RX in INS. set (q := with_default_aliases (c_self c) (given_next (ad_next x) (ad_task x))) in *.
  assert (Q1 : t_id q = t_id (ad_task x) /\ t_store q = Some a /\ t_trigger q = t_trigger (ad_task x) /\ t_next q = asked) by (unfold q, a, asked; destruct (ad_next x); cbn; destruct (t_store (ad_task x)); auto).
  destruct Q1 as (Q1 & Q2 & Q3 & Q4).
  destruct (C27_last_replacement_wins _ _ _ _ _ _ _ _ _ _ _ INS) as (a' & n & TS & FT & ST).
  { intros u b Hu [E _]. apply in_map_iff in Hu as (y & Ey & Hy). apply filter_In in Hy as [Hy _]. apply (LATER y Hy). unfold queued in Ey. injection Ey as <- _ _. rewrite Q1 in E. rewrite <- E. destruct (ad_next y); reflexivity. }
  rewrite Q2 in TS. injection TS as <-. rewrite Q1 in ST. exists (set_pending false (set_next n q)), n. cbn [t_next set_pending set_next t_trigger t_id].
  sp; auto.
  - assert (E : forall (q1 q2 : task) b m, t_next q1 = t_next q2 -> t_trigger q1 = t_trigger q2 -> first_time c (e_now e) q1 b m n -> first_time c (e_now e) q2 b m n).
    { intros q1 q2 b m E1 E2 F. destruct F; [apply first_given|apply first_paused|eapply first_asked]; try congruence. rewrite <- E2. eassumption. }
    eapply E; [| |exact FT]; [exact Q4|exact Q3].
  - intros J FW y -> Q hs k s' H r Lr.
    eapply (proj1 (never_again_wf c a (set_pending false (set_next (Some y) q)) Q s s' hs k WS J FW H) y); [cbn [t_id set_pending set_next]; rewrite Q1; exact ST|reflexivity|exact Lr].
Qed.
Print Assumptions C90_replaced.
(** both, concretely: the process dies at 10 s before the pass and is started again at 35 s *)
Example C90_case :
  let plain := MkAdded db_task false None in let forced := MkAdded db_task true None in
  let back (x : added) := fst (reborn ex_cfg (quiet (sec 35)) [x] db_state) in
  option_map t_next (stored (back plain) "db" "j") = Some (Some (sec 10)) /\
  map sub_times (subs (fst (process_tasks ex_cfg (quiet (sec 35)) (back plain)))) = [map sec [10; 20; 30]] /\
  option_map t_next (stored (back forced) "db" "j") = Some (Some (sec 40)) /\
  subs (fst (process_tasks ex_cfg (quiet (sec 35)) (back forced))) = [].
Proof. vm_compute. repeat split. Qed.
