(** C38, C57: timers of the asyncio scheduler. *)
From Verif Require Import Prelude PreludeFacts MemStore StoreSpec CallArgs Cron Triggers TriggerSpec Task TaskSpec Scheduler Executor SchedSpec SchedProofs SchedProofs2 SchedProofs3 SchedReach LifeSpec LifeAcc LifeAll LifeProofs LifeProofs2 PropLife2 PropSched Timer.
Open Scope Z_scope.

(** *** specification *)
(** handles that will still call wakeup: waiting for their deadline, or expired and queued *)
Definition live (l : aloop) (h : nat) : Prop := ~ In h (cancelled l) /\ ((exists d, In (h, d) (timers l)) \/ In (QTimer h) (queue l)).
Definition armed (l : aloop) (h : nat) (d : Z) : Prop := ~ In h (cancelled l) /\ In (h, d) (timers l).

Record ainv (l : aloop) : Prop := {
  a_own : forall h, live l h -> timer l = Some h;
  a_old : forall h, live l h \/ timer l = Some h \/ In h (cancelled l) -> (h < next_handle l)%nat;
  a_one : NoDup (map fst (timers l)) }.
Lemma live_fresh l : ainv l -> ~ live l (next_handle l).
Proof. intros I H. specialize (a_old l I _ (or_introl H)). lia. Qed.
(** handles in the heap are old too, even when cancelled *)
Record ainv2 (l : aloop) : Prop := { a_inv : ainv l; a_heap : forall h d, In (h, d) (timers l) -> (h < next_handle l)%nat; a_q : forall h, In (QTimer h) (queue l) -> (h < next_handle l)%nat }.

Lemma stop_inv l : ainv2 l -> ainv2 (stop_timer l) /\ forall h, ~ live (stop_timer l) h.
Proof.
  intros I. pose proof I as [[A B C] D E]. unfold stop_timer. destruct (timer l) as [h0|] eqn:T.
  - assert (N : forall h, ~ live (MkLoop (sc l) (queue l) (timers l) (h0 :: cancelled l) None (next_handle l) (last_pass l)) h).
    { intros h [H1 H2]. cbn in *. assert (live l h) as L by (split; [tauto|exact H2]). specialize (A h L). assert (h0 = h) by congruence. tauto. }
    split; [|exact N]. constructor; cbn; auto. constructor; cbn; auto.
    + intros h H. destruct (N h H).
    + intros h [H|[H|[<-|H]]]; [destruct (N h H)|discriminate| |]; apply B; auto.
  - assert (N : forall h, ~ live l h) by (intros h H; apply A in H; congruence).
    split; [exact I|exact N].
Qed.
Lemma start_inv now w l : ainv2 l -> ainv2 (start_timer now w l).
Proof.
  intros I. destruct (stop_inv l I) as [[[A B C] D E] N]. unfold start_timer. set (m := stop_timer l) in *. destruct w as [d|]; [|constructor; auto; constructor; auto].
  assert (U : forall h, live (MkLoop (sc m) (queue m) ((next_handle m, now + d) :: timers m) (cancelled m) (Some (next_handle m)) (S (next_handle m)) (last_pass m)) h -> h = next_handle m).
  { intros h [H1 H2]. cbn in *. destruct H2 as [(x & [[= <- <-]|H2])|H2]; auto; destruct (N h); split; eauto. }
  constructor; cbn; [constructor; cbn| |].
  - intros h H. rewrite (U h H). auto.
  - intros h [H|[[= <-]|H]]; [rewrite (U h H)| |]; try lia. assert (h < next_handle m)%nat by (apply B; auto). lia.
  - constructor; auto. intros H. apply in_map_iff in H as ((h, x) & E1 & H). cbn in E1. subst h. apply D in H. lia.
  - intros h x [[= <- <-]|H]; [lia|]. apply D in H. lia.
  - intros h H. apply E in H. lia.
Qed.
Lemma inv_ext l l' : timers l' = timers l -> cancelled l' = cancelled l -> timer l' = timer l -> next_handle l' = next_handle l -> (forall h, In (QTimer h) (queue l') -> In (QTimer h) (queue l)) -> ainv2 l -> ainv2 l'.
Proof.
  intros E1 E2 E3 E4 E5 [[A B C] D E].
  assert (L : forall h, live l' h -> live l h) by (intros h [H1 H2]; split; [rewrite <- E2; auto|rewrite <- E1; destruct H2; auto]).
  constructor; [constructor| |]; rewrite ?E1, ?E2, ?E3, ?E4; auto.
  intros h [H|[H|H]]; apply B; auto.
Qed.
Lemma inv_step c a l : ainv2 l -> ainv2 (astep c a l).
Proof.
  intros I. destruct a as [e o|h|e]; cbn [astep].
  - assert (K : forall s q, (forall h, ~ In (QTimer h) q) -> ainv2 (enqueue q (with_sched s l))).
    { intros s q N. apply (inv_ext l); auto. intros h H. cbn in H. apply in_app_or in H as [H|H]; auto. destruct (N h H). }
    assert (R : forall n h, ~ In (QTimer h) (repeat QWakeup n)) by (intros n h H; apply repeat_spec in H; discriminate).
    destruct o; try (apply K; apply R); auto. apply (inv_ext l); auto. cbn. intros h H. apply in_app_or in H as [H|[H|[]]]; auto. discriminate.
  - destruct (existsb _ (timers l)) eqn:X; auto. apply existsb_exists in X as ((h0, d) & X & Y). cbn in Y. apply Nat.eqb_eq in Y. subst h0.
    destruct I as [[A B C] D E]. assert (L : forall k, live (MkLoop (sc l) (queue l ++ [QTimer h]) (filter (fun x => negb (Nat.eqb (fst x) h)) (timers l)) (cancelled l) (timer l) (next_handle l) (last_pass l)) k -> live l k).
    { intros k [H1 H2]. cbn in *. split; auto. destruct H2 as [(x & H2)|H2]; [apply filter_In in H2 as [H2 _]; eauto|]. apply in_app_or in H2 as [H2|[[= <-]|[]]]; eauto. }
    constructor; [constructor|..]; cbn; auto.
    + intros k [H|H]; auto.
    + clear -C. induction (timers l) as [|(k, x) m IH]; cbn in *; auto. inversion C; subst. destruct (Nat.eqb k h); cbn; auto. constructor; auto.
      intros H. apply H1. apply in_map_iff in H as (y & E & H). apply filter_In in H as [H _]. apply in_map_iff. eauto.
    + intros k x H. apply filter_In in H as [H _]. eauto.
    + intros k H. apply in_app_or in H as [H|[[= <-]|[]]]; eauto.
  - destruct (queue l) as [|q rest] eqn:Q; auto. set (m := MkLoop (sc l) rest (timers l) (cancelled l) (timer l) (next_handle l) (last_pass l)).
    assert (M : ainv2 m) by (apply (inv_ext l); auto; rewrite Q; cbn; auto). destruct q as [| |h].
    + unfold run_wakeup. destruct (stop_inv m M) as [S _]. destruct (process_tasks c e (sc (stop_timer m))) as [s [d|x]].
      * apply start_inv. apply (inv_ext (stop_timer m)); auto.
      * apply (inv_ext (stop_timer m)); auto.
    + unfold run_shutdown. destruct (shutdown (sc m)) as [s [[]|x]]; [|apply (inv_ext m); auto|apply (inv_ext m); auto]. apply stop_inv. apply (inv_ext m); auto.
    + destruct (existsb (Nat.eqb h) (cancelled m)); auto. apply (inv_ext m); auto. cbn. intros k H. apply in_app_or in H as [H|[H|[]]]; auto. discriminate.
Qed.
Lemma arun_inv c acts : forall l, ainv2 l -> ainv2 (arun c acts l).
Proof. induction acts as [|a acts IH]; cbn; intros l I; auto. apply IH. apply inv_step. auto. Qed.
Lemma init_inv : ainv2 loop_init.
Proof. constructor; [constructor|..]; cbn; try tauto; [intros h [_ [(d & [])|[]]]|intros h [[_ [(d & [])|[]]]|[[=]|[]]]|constructor]. Qed.
Lemma arun_app c l1 l2 l : arun c (l1 ++ l2) l = arun c l2 (arun c l1 l).
Proof. revert l. induction l1 as [|a l1 IH]; cbn; auto. Qed.

(** Whatever calls are made from wherever, whenever the timers expire and whatever the processing does,
    at most one timer handle can still cause a wake-up. *)
Theorem C38_one_timer :
  forall (c : config) (acts : list aact) (h h' : nat),
    let l := arun c acts loop_init in live l h -> live l h' -> h = h'.
Proof. intros c acts h h' l H H'. destruct (arun_inv c acts _ init_inv) as [[A _ _] _ _]. fold l in A. pose proof (A h H). pose proof (A h' H'). congruence. Qed.
Print Assumptions C38_one_timer.

(** Right after a wake-up the armed timer is the one that processing asked for, and there is none if it
    asked for none or raised. *)
Theorem C38_timer_of_latest_processing :
  forall (c : config) (acts : list aact) (e : envir) (rest : list callback),
    let l := arun c acts loop_init in queue l = QWakeup :: rest ->
    let l' := astep c (ARun e) l in let (s, r) := process_tasks c e (sc l) in
    sc l' = s /\ queue l' = rest /\
    match r with
    | Ok (Some d) => exists h, (forall h', live l' h' <-> h' = h) /\ (forall x, armed l' h x <-> x = e_now e + d)
    | _ => forall h, ~ live l' h
    end.
Proof.
  intros c acts e rest l Q l'. pose proof (arun_inv c acts _ init_inv) as I. fold l in I. unfold l'. cbn [astep]. rewrite Q.
  set (m := MkLoop (sc l) rest (timers l) (cancelled l) (timer l) (next_handle l) (last_pass l)).
  assert (M : ainv2 m) by (apply (inv_ext l); auto; rewrite Q; cbn; auto). unfold run_wakeup. destruct (stop_inv m M) as [S N].
  assert (SC : sc (stop_timer m) = sc l) by (unfold stop_timer; cbn; destruct (timer l); auto). assert (QC : queue (stop_timer m) = rest) by (unfold stop_timer; cbn; destruct (timer l); auto). rewrite SC.
  destruct (process_tasks c e (sc l)) as [s [d|x]] eqn:P; cbn [fst snd].
  - set (m2 := with_pass (Passed e) (with_sched s (stop_timer m))).
    assert (M2 : ainv2 m2) by (apply (inv_ext (stop_timer m)); auto). assert (N2 : forall h, ~ live m2 h) by (intros h H; apply (N h); exact H).
    assert (T2 : timer m2 = None) by (unfold m2, stop_timer; cbn; destruct (timer l) eqn:E; cbn; auto).
    assert (Z2 : stop_timer m2 = m2) by (unfold stop_timer; rewrite T2; auto).
    unfold start_timer. rewrite Z2. cbv zeta. destruct d as [d|].
    + cbn [sc queue]. split; auto. split; [exact QC|]. exists (next_handle m2). assert (LV : live (MkLoop (sc m2) (queue m2) ((next_handle m2, e_now e + d) :: timers m2) (cancelled m2) (Some (next_handle m2)) (Datatypes.S (next_handle m2)) (last_pass m2)) (next_handle m2)).
      { split; cbn; [|left; eauto]. intros H. destruct M2 as [[_ B _] _ _]. specialize (B (next_handle m2) (or_intror (or_intror H))). lia. }
      split.
      * intros h'. split; [|intros ->; exact LV]. intros [H1 H2]. cbn in H1, H2. destruct H2 as [(y & [[= <- <-]|H2])|H2]; auto; destruct (N2 h'); split; eauto.
      * intros x. unfold armed. cbn. split; [|intros ->; split; [apply LV|auto]]. intros [H1 [[= <-]|H2]]; auto. destruct M2 as [_ D _]. destruct (Nat.lt_irrefl _ (D _ _ H2)).
    + split; auto.
  - split; auto.
Qed.
Print Assumptions C38_timer_of_latest_processing.

(** *** the scheduler below the loop is one of C15-C37 *)
Lemma run_snoc c l e o : step c e o (run_ops c l sched_init) = run_ops c (l ++ [(e, o)]) sched_init.
Proof. rewrite run_ops_app. reflexivity. Qed.
Lemma reachable_step c e o s : reachable c s -> reachable c (step c e o s).
Proof. intros [l ->]. exists (l ++ [(e, o)]). apply run_snoc. Qed.
Lemma sc_stop l : sc (stop_timer l) = sc l. Proof. unfold stop_timer. destruct (timer l); auto. Qed.
Lemma sc_start now w l : sc (start_timer now w l) = sc l. Proof. unfold start_timer. destruct w; cbn; apply sc_stop. Qed.
Lemma sc_wakeup c e l : sc (run_wakeup c e l) = step c e OProcess (sc l).
Proof. unfold run_wakeup. rewrite sc_stop. cbn [step]. destruct (process_tasks c e (sc l)) as [s [d|x]]; cbn [fst]; rewrite ?sc_start; auto. Qed.
Lemma sc_shutdown c e l : sc (run_shutdown l) = step c e OShutdown (sc l).
Proof. unfold run_shutdown. cbn [step]. destruct (shutdown (sc l)) as [s [[]|x]]; cbn [fst]; rewrite ?sc_stop; auto. Qed.
Lemma loop_reachable c : forall acts l, reachable c (sc l) -> reachable c (sc (arun c acts l)).
Proof.
  induction acts as [|a acts IH]; cbn [arun]; intros l R; auto. apply IH. destruct a as [e o|h|e]; cbn [astep].
  - destruct o; auto; cbn [sc enqueue with_sched]; apply reachable_step; auto.
  - destruct (existsb _ (timers l)); auto.
  - destruct (queue l) as [|[| |h] rest]; auto.
    + rewrite sc_wakeup. apply reachable_step; auto.
    + rewrite (sc_shutdown c e). apply reachable_step; auto.
    + cbn. destruct (existsb (Nat.eqb h) (cancelled l)); auto.
Qed.
Lemma loop_reach c acts : reachable c (sc (arun c acts loop_init)).
Proof. apply loop_reachable. exists []. reflexivity. Qed.

(** *** what a call does to the times the stores wait for *)
Definition covered (ok : string -> Prop) (T : Z) (s s' : sched) : Prop :=
  st s' = RUNNING -> (wakes_n s < wakes_n s')%nat \/
  (st s = RUNNING /\ forall a id t x, ok id -> stored s' a id = Some t -> t_next t = Some x ->
     exists t0 x0, stored s a id = Some t0 /\ t_next t0 = Some x0 /\ Z.max x0 T <= Z.max x T).
Lemma cov_less ok T s s' : st s' = st s -> (forall a j, stored s' a j = stored s a j \/ stored s' a j = None) -> covered ok T s s'.
Proof.
  intros E1 E2 R. right. split; [congruence|]. intros a id t x _ H N. destruct (E2 a id) as [E|E]; rewrite E in H; [|discriminate].
  exists t, x. split; auto. split; auto. lia.
Qed.
Lemma cov_same ok T s s' : st s' = st s -> stores s' = stores s -> covered ok T s s'.
Proof. intros E1 E2. apply cov_less; auto. intros a j. left. apply stored_same; auto. Qed.
Lemma cov_wakes ok T s s' : wakes_by (wake_n s) s s' -> st s = RUNNING -> covered ok T s s'.
Proof. intros W R _. left. unfold wakes_by, wake_n in W. rewrite R in W. cbn in W. lia. Qed.
Lemma cov_not ok T s s' : st s' <> RUNNING -> covered ok T s s'. Proof. intros N R. contradiction. Qed.

Lemma ask_frame c s tr p now : let s' := fst (ask c s tr p now) in stores s' = stores s /\ st s' = st s /\ wakes_n s' = wakes_n s /\ execs s' = execs s.
Proof. unfold ask. destruct (answers _ _ _ _ _ _); cbn; auto. Qed.
Lemma cov_pre ok T s s1 s' : stores s1 = stores s -> st s1 = st s -> wakes_n s1 = wakes_n s -> covered ok T s1 s' -> covered ok T s s'.
Proof.
  intros E1 E2 E3 C R. destruct (C R) as [W|[A B]]; [left; lia|right]. split; [congruence|]. intros a id t x O H N.
  destruct (B a id t x O H N) as (t0 & x0 & H0 & K). exists t0, x0. rewrite (stored_same s s1) in H0 by auto. auto.
Qed.
Lemma cov_update ok T c id want fn ups s : wf s -> covered ok T s (fst (update c id want fn ups s)).
Proof.
  intros W. destruct (update c id want fn ups s) as [s' r] eqn:U. cbn. destruct (stopped s) eqn:St.
  - pose proof (update_stopped c id want fn ups s s' r St U) as H. destruct r as [t'|x].
    + destruct H as (l1 & t & b1 & b2 & l2 & _ & _ & _ & _ & _ & ->). apply cov_same; auto.
    + destruct H as [-> _]. apply cov_same; auto.
  - destruct (update_running c id want fn ups s s' r W St U) as [RS H]. destruct r as [t'|x].
    + destruct H as (a & t & _ & _ & _ & _ & _ & _ & _ & WK). destruct (st s) eqn:E.
      * unfold stopped in St; rewrite E in St; discriminate.
      * apply cov_wakes; auto.
      * apply cov_not. destruct RS as [RS _]. congruence.
    + destruct H as [-> _]. apply cov_same; auto.
Qed.
Lemma cov_delete ok T id want s : wf s -> covered ok T s (fst (delete_task id want s)).
Proof.
  intros W. destruct (string_dec id "") as [->|Hid]; [apply cov_same; auto|]. destruct (stopped s) eqn:St.
  - unfold delete_task. apply String.eqb_neq in Hid. rewrite Hid, St. destruct (del_pending want id (pend s)) as [l r]. destruct r as [[a|]|]; apply cov_same; auto.
  - pose proof (delete_task_spec id want s W St Hid) as D. destruct (delete_task id want s) as [s' r]. destruct D as (F & _ & _ & _ & _ & D). cbn.
    destruct F. destruct D as [(_ & _ & E & _)|(a & t & _ & _ & _ & _ & E & _)]; [apply cov_same; auto|]. apply cov_less; auto. intros b j. rewrite E. destruct (_ && _); auto.
Qed.
Lemma cov_add ok T c e t rep next s : wf s -> covered ok T s (fst (add_task c e t rep next s)).
Proof.
  intros W. unfold add_task. destruct (t_submitted t); [apply cov_same; auto|]. destruct (match t_sched t with Some _ => _ | None => _ end); [apply cov_same; auto|].
  destruct (stopped s); [apply cov_same; auto|]. set (t1 := with_default_aliases (c_self c) (given_next next t)).
  destruct (real_add_task c (e_now e) t1 rep (starts next) None s) as [s' r] eqn:A. destruct (real_add_task_spec _ _ _ _ _ _ _ _ _ W A) as (_ & F & H). cbn. destruct r as [u0|x].
  - destruct H as (a & n & _ & _ & FT & _ & SP & _ & WK). intros R. rewrite (fa_st _ _ F) in R. destruct (starts next) eqn:E.
    + left. unfold running in WK. rewrite R in WK. cbn in WK. lia.
    + destruct next as [[n0|]|]; try discriminate. assert (N1 : t_next t1 = None) by (destruct t; reflexivity).
      assert (n = None) as -> by (inversion FT; congruence).
      right. split; auto. intros b j u x _ H N. rewrite SP in H. match type of H with (if ?b then _ else _) = _ => destruct b end; [injection H as <-; cbn in N; discriminate|]. exists u, x. split; auto. split; auto. lia.
  - destruct H as (E & _). apply cov_less; [apply fa_st; auto|auto].
Qed.
Lemma cov_run ok T c e id want rf s : reachable c s -> no_empty_id s -> e_now e <= T -> covered ok T s (fst (run_task c e id want false rf s)).
Proof.
  intros R NE TT. destruct (st s) eqn:E.
  - apply cov_not. rewrite (C32_stopped c e id want false rf s E). cbn. congruence.
  - destruct (string_dec id "") as [->|Hid].
    + unfold run_task. assert (stopped s = false) as St by (unfold stopped; rewrite E; auto). rewrite St. pose proof (lookup_running "" want s (reachable_wf _ _ R) St) as L.
      destruct (lookup_task "" want s) as [[t w]|x]; [|apply cov_same; auto]. destruct L as (a & _ & _ & L & _). rewrite NE in L. discriminate.
    + destruct (run_task c e id want false rf s) as [s' r] eqn:RT. cbn. assert (N : st s <> STOPPED) by congruence.
      destruct (C32_run_task c e id want false rf s s' r R N Hid RT) as [_ H].
      assert (U : unchanged s s' -> covered ok T s s') by (intros ((? & _) & S & _); apply cov_less; auto).
      destruct H as [(H & _)|(a & t & _ & ST & [(x & H & _)|(due & D & [(_ & _ & H & _)|(G & times & lo & AT & H)])])]; auto.
      destruct H as [(H & _)|(xa & _ & _ & [(_ & _ & (H1 & _) & H & _)|[(_ & H & _)|(_ & _ & H1 & _ & _ & _ & _ & last & rm & _ & _ & H)]])]; auto.
      { apply cov_less; auto. }
      destruct H as [(x & k & _ & _ & H & _)|(n & _ & H)]; [apply cov_less; auto|].
      destruct G as [G|G]; [|discriminate]. assert (exists x0, t_next t = Some x0 /\ x0 <= e_now e) as (x0 & N0 & L0).
      { destruct D as (rest & D1 & D2 & _). destruct due as [|x0 due]; [contradiction|]. inversion D1; subst. exists x0. split; auto. inversion D2; auto. }
      assert (P : forall t', only a id (Some t') s s' -> (forall y, t_next t' = Some y -> e_now e < y) -> covered ok T s s').
      { intros t' O L _. right. split; auto. intros b j u x _ HS HN. rewrite O in HS. destruct (String.eqb_spec b a) as [->|]; [destruct (String.eqb_spec j id) as [->|]|]; cbn in HS.
        - injection HS as <-. exists t, x0. split; auto. split; auto. lia.
        - exists u, x. split; auto. split; auto. lia.
        - exists u, x. split; auto. split; auto. lia. }
      destruct n as [n|]; [|destruct rf].
      * destruct H as (t' & _ & O & _ & _ & y & Y1 & Y2 & _). apply (P t' O). intros z Z1. congruence.
      * destruct H as (_ & O & _). apply cov_less; auto. intros b j. rewrite O. destruct (_ && _); auto.
      * destruct H as (t' & _ & O & _ & _ & Y1). apply (P t' O). intros z Z1. congruence.
  - apply cov_not. intros R'. assert (st (fst (run_task c e id want false rf s)) = st s); [|congruence].
    destruct (string_dec id "") as [->|Hid].
    + unfold run_task. assert (stopped s = false) as St by (unfold stopped; rewrite E; auto). rewrite St. pose proof (lookup_running "" want s (reachable_wf _ _ R) St) as L.
      destruct (lookup_task "" want s) as [[t w]|x]; [|auto]. destruct L as (a & _ & _ & L & _). rewrite NE in L. discriminate.
    + destruct (run_task c e id want false rf s) as [s' r] eqn:RT. cbn in *. assert (N : st s <> STOPPED) by congruence.
      destruct (C32_run_task c e id want false rf s s' r R N Hid RT) as [_ H].
      assert (U : unchanged s s' -> st s' = st s) by (intros ((? & _) & _); auto).
      destruct H as [(H & _)|(a & t & _ & ST & [(x & H & _)|(due & D & [(_ & _ & H & _)|(G & times & lo & AT & H)])])]; auto.
      destruct H as [(H & _)|(xa & _ & _ & [(_ & _ & (H1 & _) & H & _)|[(_ & H & _)|(_ & _ & H1 & _)]])]; auto.
Qed.
(** the id of a forced run *)
Definition forced (o : op) : list string := match o with ORunTask id _ true _ => [id] | _ => [] end.
Lemma cov_force T c e id want rf s : reachable c s -> no_empty_id s -> covered (fun j => j <> id) T s (fst (run_task c e id want true rf s)).
Proof.
  intros R NE. assert (RS : st (fst (run_task c e id want true rf s)) = st s) by apply same_run_task_st.
  assert (K : forall b j, j <> id -> stored (fst (run_task c e id want true rf s)) b j = stored s b j).
  { intros b j Nj. destruct (st s) eqn:E; [rewrite (C32_stopped c e id want true rf s E); reflexivity| |];
    (destruct (string_dec id "") as [->|Hid];
     [unfold run_task; assert (stopped s = false) as St by (unfold stopped; rewrite E; auto); rewrite St; pose proof (lookup_running "" want s (reachable_wf _ _ R) St) as L;
      destruct (lookup_task "" want s) as [[t w]|x]; [|reflexivity]; destruct L as (a & _ & _ & L & _); rewrite NE in L; discriminate|]);
    (destruct (run_task c e id want true rf s) as [s' r] eqn:RT; cbn [fst]; assert (N : st s <> STOPPED) by congruence;
     destruct (C32_run_task c e id want true rf s s' r R N Hid RT) as [_ H];
     assert (U : unchanged s s' -> stored s' b j = stored s b j) by (intros (_ & S & _); auto);
     assert (P : forall a t', only a id t' s s' -> stored s' b j = stored s b j) by (intros a t' O; rewrite O; apply String.eqb_neq in Nj; rewrite Nj, andb_false_r; reflexivity);
     destruct H as [(H & _)|(a & t & _ & ST & [(x & H & _)|(due & D & [(_ & _ & H & _)|(G & times & lo & AT & H)])])]; auto;
     destruct H as [(H & _)|(xa & _ & _ & [(_ & _ & (H1 & _) & H & _)|[(_ & H & _)|(_ & _ & H1 & _ & _ & _ & _ & last & rm & _ & _ & H)]])]; auto;
     destruct H as [(x & k & _ & _ & H & _)|(n & _ & H)]; auto; destruct n as [n|]; [|destruct rf]; 
     [destruct H as (t' & _ & O & _)|destruct H as (_ & O & _)|destruct H as (t' & _ & O & _)]; eauto). }
  intros R'. right. split; [congruence|]. intros b j u x Nj H N. rewrite K in H by exact Nj. exists u, x. split; auto. split; auto. lia.
Qed.
Lemma cov_step T c e o s : reachable c s -> no_empty_id s -> e_now e <= T -> o <> OProcess -> covered (fun j => ~ In j (forced o)) T s (step c e o s).
Proof.
  intros R NE TT NP. set (ok := fun j => ~ In j (forced o)). pose proof (reachable_wf _ _ R) as W. destruct o; cbn [step].
  - destruct (start c e paused s) as [s' r] eqn:S. pose proof (start_spec c e paused s s' r W S) as H. cbn. destruct (refc s + 1 >? 1); [destruct H as [-> _]; apply cov_same; auto|].
    destruct (negb (stopped s)); [destruct H as [-> _]; apply cov_same; auto|]. destruct H as (_ & _ & _ & _ & _ & _ & _ & H). destruct r as [b|x].
    + destruct H as (_ & E & _ & WK & _). destruct paused; [apply cov_not; congruence|]. intros _. left. lia.
    + destruct H as [E _]. apply cov_not. congruence.
  - destruct (shutdown s) as [s' r] eqn:S. pose proof (shutdown_spec s s' r W S) as H. cbn. unfold shutdown in S. change (refc (w_refc (refc s - 1) s)) with (refc s - 1) in S.
    destruct (refc s - 1 >? 0); [injection S as <- <-; apply cov_same; auto|]. change (stopped (w_refc (refc s - 1) s)) with (stopped s) in S. destruct (stopped s) eqn:St; [injection S as <- <-; apply cov_same; auto|].
    apply cov_not. destruct (shutdown_stores _). injection S as <- <-. cbn. discriminate.
  - unfold pause. destruct (st s) eqn:E; cbn; [apply cov_same|apply cov_not|apply cov_same]; auto. cbn. discriminate.
  - unfold resume. destruct (st s) eqn:E; cbn; [apply cov_same; auto|apply cov_same; auto|]. intros _. left. cbn. lia.
  - unfold add_executor. destruct (dmem alias (execs s)); apply cov_same; auto.
  - unfold remove_executor. destruct (dget alias (execs s)); apply cov_same; auto.
  - unfold add_store. destruct (dmem alias (stores s)); [apply cov_same; auto|]. destruct (st s) eqn:X; unfold running; cbn; rewrite X; cbn; [apply cov_not; cbn; congruence| |apply cov_not; cbn; congruence]. intros _. left. cbn. lia.
  - unfold remove_store. destruct (dget alias (stores s)); [|apply cov_same; auto]. apply cov_less; auto. intros b j. cbn. unfold stored. cbn.
    destruct (string_dec b alias) as [->|Nb]; [|rewrite dget_ddel_ne; auto]. right. rewrite dget_ddel_eq; auto.
  - apply cov_add; auto.
  - apply cov_update; auto.
  - unfold reschedule_task. pose proof (ask_frame c s tr None (e_now e)) as F. destruct (ask c s tr None (e_now e)) as [s1 r] eqn:A. cbn in F. destruct F as (F1 & F2 & F3 & F4).
    destruct r as [n|x]; [|apply cov_same; auto]. apply (cov_pre ok T s s1); auto. apply cov_update. apply (wf_same s); auto.
  - apply cov_update; auto.
  - unfold resume_task. destruct (lookup_task id store s) as [[t w]|x]; [|apply cov_same; auto]. pose proof (ask_frame c s (t_trigger t) None (e_now e)) as F.
    destruct (ask c s (t_trigger t) None (e_now e)) as [s1 r]. cbn in F. destruct F as (F1 & F2 & F3 & F4). assert (W1 : wf s1) by (apply (wf_same s); auto).
    destruct r as [[n|]|x]; [| |apply cov_same; auto].
    + pose proof (cov_update ok T c id w VNone [("next_run_time"%string, VDate n)] s1 W1) as K. destruct (update c id w VNone _ s1). apply (cov_pre ok T s s1); auto.
    + pose proof (cov_delete ok T (t_id t) w s1 W1) as K. destruct (delete_task (t_id t) w s1). apply (cov_pre ok T s s1); auto.
  - destruct force; [|apply cov_run; auto]. intros R'. destruct (cov_force T c e id store remove_finished s R NE R') as [W'|[A B]]; [left; auto|right]. split; auto.
    intros b j u x O. apply B. intros ->. apply O. left. auto.
  - apply cov_delete; auto.
  - unfold remove_all_tasks. destruct (C33_remove_all c store s R) as (_ & _ & E & _ & _ & _ & H1 & H2). fold (remove_all_tasks store s). apply cov_less; auto.
    intros a j. destruct (st s) eqn:X.
    + left. unfold remove_all_tasks. unfold stopped. rewrite X. reflexivity.
    + destruct H1 as [_ H1]; [discriminate|]. rewrite H1. destruct (wanted store a); auto.
    + destruct H1 as [_ H1]; [discriminate|]. rewrite H1. destruct (wanted store a); auto.
  - contradiction.
  - unfold complete, release. cbv zeta. destruct (_ =? _); apply cov_same; auto.
Qed.

(** *** a running scheduler never oversleeps *)
(** the tasks that were run by force since the last processing: [acts] from the state [l], [F] those so far *)
Fixpoint forced_since (c : config) (acts : list aact) (l : aloop) (F : list string) : list string :=
  match acts with
  | [] => F
  | a :: acts' =>
      forced_since c acts' (astep c a l)
        (match a with
         | ACall _ o => forced o ++ F
         | ARun _ => match queue l with QWakeup :: _ => [] | _ => F end
         | AExpire _ => F end)
  end.
Definition in_time (c : config) (T : Z) (F : list string) (l : aloop) : Prop :=
  In QWakeup (queue l) \/ (exists h, In (QTimer h) (queue l) /\ ~ In h (cancelled l)) \/ last_pass l = Failed \/
  exists e, last_pass l = Passed e /\ forall a id t x, ~ In id F -> stored (sc l) a id = Some t -> t_next t = Some x ->
    exists h d, armed l h d /\ (d <= Z.max x T \/ ((~ readable e a \/ e_plock e = true) /\ d <= e_now e + c_retry c)).
Lemma in_time_step c a l T F : 0 <= c_retry c -> ainv2 l -> reachable c (sc l) -> no_empty_id (sc l) ->
  match a with ACall e o => e_now e <= T | ARun e => e_now e <= T | AExpire _ => True end ->
  (st (sc l) = RUNNING -> in_time c T F l) -> st (sc (astep c a l)) = RUNNING -> in_time c T (forced_since c [a] l F) (astep c a l).
Proof.
  intros RT I R NE A H. destruct a as [e o|h|e]; cbn [forced_since astep].
  - rename A into TT.
    assert (K : o <> OProcess -> st (step c e o (sc l)) = RUNNING -> in_time c T (forced o ++ F) (enqueue (repeat QWakeup (wakes_n (step c e o (sc l)) - wakes_n (sc l))) (with_sched (step c e o (sc l)) l))).
    { intros NP S'. destruct (cov_step T c e o (sc l) R NE TT NP S') as [W|[S C]].
      - left. cbn. apply in_or_app. right. destruct (wakes_n (step c e o (sc l)) - wakes_n (sc l))%nat eqn:X; [lia|]. left. auto.
      - destruct (H S) as [Q|[(h & Q & Q2)|[Q|(e0 & E & Q)]]].
        + left. cbn. apply in_or_app. auto.
        + right. left. exists h. cbn. split; auto. apply in_or_app. auto.
        + right. right. left. auto.
        + right. right. right. exists e0. split; auto. intros a id t x O Hs Hn. assert (O1 : ~ In id (forced o)) by (intros O1; apply O, in_or_app; auto). assert (O2 : ~ In id F) by (intros O2; apply O, in_or_app; auto).
          destruct (C a id t x O1 Hs Hn) as (t0 & x0 & Hs0 & Hn0 & L). destruct (Q a id t0 x0 O2 Hs0 Hn0) as (h & d & Ha & D). exists h, d. split; [exact Ha|]. destruct D as [D|D]; [left; lia|right; auto]. }
    destruct o; try (apply K; discriminate); auto.
    intros S. destruct (H S) as [Q|[(h & Q & Q2)|[Q|(e0 & E & Q)]]].
    + left. cbn. apply in_or_app. auto.
    + right. left. exists h. cbn. split; auto. apply in_or_app. auto.
    + right. right. left. auto.
    + right. right. right. exists e0. auto.
  - destruct (existsb _ (timers l)) eqn:X; auto. apply existsb_exists in X as ((h0, d0) & X & Y). cbn in Y. apply Nat.eqb_eq in Y. subst h0.
    cbn [sc]. intros S. destruct (H S) as [Q|[(k & Q & Q2)|[Q|(e0 & E & Q)]]].
    + left. cbn. apply in_or_app. auto.
    + right. left. exists k. cbn. split; auto. apply in_or_app. auto.
    + right. right. left. auto.
    + destruct (in_dec Nat.eq_dec h (cancelled l)) as [C|C].
      * right. right. right. exists e0. split; auto. intros a id t x O Hs Hn. destruct (Q a id t x O Hs Hn) as (k & d & [Ha1 Ha2] & D). exists k, d. split; auto. split; auto. cbn.
        apply filter_In. split; auto. cbn. destruct (Nat.eqb_spec k h); auto. subst. contradiction.
      * right. left. exists h. cbn. split; auto. apply in_or_app. right. left. auto.
  - destruct (queue l) as [|q rest] eqn:Q; auto. set (m := MkLoop (sc l) rest (timers l) (cancelled l) (timer l) (next_handle l) (last_pass l)).
    assert (M : ainv2 m) by (apply (inv_ext l); auto; rewrite Q; cbn; auto). destruct q as [| |h].
    + rewrite sc_wakeup. cbn [sc m step]. intros S. assert (S0 : st (sc l) = RUNNING).
      { destruct (process_tasks c e (sc l)) as [s1 r1] eqn:P. unfold process_tasks in P. destruct (st (sc l)) eqn:E; auto; exfalso.
        - assert (st (fst (process_tasks c e (sc l))) = STOPPED) by (apply (proj2 (life_other c e OProcess (sc l) (reachable_wf _ _ R) eq_refl)); auto).
          unfold process_tasks in H0. rewrite E in H0. rewrite P in H0. cbn in *. congruence.
        - cbn in P. injection P as <- <-. cbn in S. congruence. }
      destruct (stop_inv m M) as [SI N]. unfold run_wakeup. rewrite sc_stop. change (sc m) with (sc l). destruct (process_tasks c e (sc l)) as [s [d|x]] eqn:P; cbn [fst] in S.
      * pose proof (process_delay c e (sc l) s d (reachable_wf _ _ R) S0 NE P) as D.
        set (m2 := with_pass (Passed e) (with_sched s (stop_timer m))).
        assert (M2 : ainv2 m2) by (apply (inv_ext (stop_timer m)); auto). right. right. right. exists e.
        assert (T2 : timer m2 = None) by (unfold m2, stop_timer; cbn; destruct (timer l) eqn:E; cbn; auto).
        assert (Z2 : stop_timer m2 = m2) by (unfold stop_timer; rewrite T2; auto). unfold start_timer. rewrite Z2. cbv zeta. destruct d as [d|].
        -- cbn [last_pass sc m2 with_pass with_sched]. split; auto. intros a id t x _ Hs Hn. exists (next_handle m2), (e_now e + d). split.
           ++ split; cbn; auto. intros H0. destruct M2 as [[_ B _] _ _]. specialize (B (next_handle m2) (or_intror (or_intror H0))). lia.
           ++ destruct D as (_ & D2 & D3 & _). destruct (e_plock e) eqn:PL; [right; split; auto; specialize (D2 RT (or_introl eq_refl)); lia|].
              destruct (readable_dec e a) as [[_ NR]|[_ RD]].
              ** right. split; auto. assert (HS : has_store (sc l) a).
                 { assert (has_store s a) by (eapply has_stored; eauto). destruct (process_tasks_spec c e (sc l) s (Ok (Some d)) (reachable_wf _ _ R) S0 PL NE P) as (due & fs & w & s1 & _ & B & -> & _).
                   apply has_keys. apply has_keys in H0. cbn -[dkeys] in H0. rewrite (fr_keys _ _ (b_frame _ _ _ _ _ _ _ _ B)) in H0. auto. }
                 specialize (D2 RT (or_intror (ex_intro _ a (conj HS NR)))). lia.
              ** left. specialize (D3 eq_refl a id t x RD Hs Hn). lia.
        -- split; auto. intros a id t x _ Hs Hn. cbn in Hs. destruct D as (_ & _ & _ & D). rewrite (D a id t Hs) in Hn. discriminate.
      * right. right. left. reflexivity.
    + rewrite (sc_shutdown c e). change (sc m) with (sc l). intros S. unfold run_shutdown. change (sc m) with (sc l).
      cbn [step] in *.
      unfold shutdown in *. change (refc (w_refc (refc (sc l) - 1) (sc l))) with (refc (sc l) - 1) in *. change (stopped (w_refc (refc (sc l) - 1) (sc l))) with (stopped (sc l)) in *.
      assert (K : st (sc l) = RUNNING -> in_time c T F (with_sched (w_refc (refc (sc l) - 1) (sc l)) m)).
      { intros S0. destruct (H S0) as [Z|[(k & Z & Z2)|[Z|(e0 & E & Z)]]].
        - left. cbn. rewrite Q in Z. destruct Z as [Z|Z]; [discriminate|auto].
        - right. left. exists k. cbn. rewrite Q in Z. destruct Z as [Z|Z]; [discriminate|auto].
        - right. right. left. auto.
        - right. right. right. exists e0. auto. }
      destruct (refc (sc l) - 1 >? 0); [apply K; auto|]. destruct (stopped (sc l)) eqn:St; [apply K; auto|].
      destruct (shutdown_stores _). cbn in S. discriminate.
    + cbn [cancelled m]. destruct (existsb (Nat.eqb h) (cancelled l)) eqn:X.
      * cbn [sc m]. intros S. apply existsb_exists in X as (h0 & X & Y). apply Nat.eqb_eq in Y. subst h0.
        destruct (H S) as [Z|[(k & Z & Z2)|[Z|(e0 & E & Z)]]].
        -- left. cbn. rewrite Q in Z. destruct Z as [Z|Z]; [discriminate|auto].
        -- right. left. exists k. cbn. rewrite Q in Z. destruct Z as [[= <-]|Z]; [contradiction|auto].
        -- right. right. left. auto.
        -- right. right. right. exists e0. auto.
      * intros _. left. cbn. apply in_or_app. right. left. auto.
Qed.

Lemma forced_since_app c acts1 : forall acts2 l F, forced_since c (acts1 ++ acts2) l F = forced_since c acts2 (arun c acts1 l) (forced_since c acts1 l F).
Proof. induction acts1 as [|a acts1 IH]; intros acts2 l F; cbn [app forced_since arun]; auto. Qed.
(** If the scheduler is running, then either a wake-up is on its way, or the last processing raised, or
    for every stored task there is an armed timer that expires no later than the task's next run time
    (or than now, when that has passed), a retry delay after the last processing for the stores it
    could not read - except for the tasks that run_task was told to run by force since the last processing.
    [T] is any instant not before the readings of the clock so far. *)
Theorem C57_never_oversleeps :
  forall (c : config) (acts : list aact) (T : Z),
    0 <= c_retry c ->
    (forall e, In (ARun e) acts -> e_now e <= T) -> (forall e o, In (ACall e o) acts -> e_now e <= T) ->
    (forall acts1 acts2, acts = acts1 ++ acts2 -> no_empty_id (sc (arun c acts1 loop_init))) ->
    let l := arun c acts loop_init in st (sc l) = RUNNING ->
    In QWakeup (queue l) \/ (exists h, In (QTimer h) (queue l) /\ ~ In h (cancelled l)) \/ last_pass l = Failed \/
    exists e, last_pass l = Passed e /\ forall a id t x, ~ In id (forced_since c acts loop_init []) -> stored (sc l) a id = Some t -> t_next t = Some x ->
      exists h d, armed l h d /\ (d <= Z.max x T \/ ((~ readable e a \/ e_plock e = true) /\ d <= e_now e + c_retry c)).
Proof.
  intros c acts T RT. induction acts as [|a acts IH] using rev_ind; intros H1 H2 H3 l S; [discriminate|].
  subst l. rewrite forced_since_app, arun_app in *. cbn [arun] in *. apply in_time_step; auto.
  - apply arun_inv, init_inv.
  - apply loop_reach.
  - apply (H3 acts [a]). auto.
  - destruct a as [e o|h|e]; auto; [apply (H2 e o)|apply H1]; apply in_or_app; right; left; auto.
  - intros S0. apply IH; auto.
    + intros e E. apply H1. apply in_or_app. auto.
    + intros e o E. apply (H2 e o). apply in_or_app. auto.
    + intros a1 a2 ->. apply (H3 a1 (a2 ++ [a])). rewrite app_assoc. auto.
Qed.
Print Assumptions C57_never_oversleeps.
(** the exception ends with the next processing *)
Theorem C57_caught_up_at_the_next_processing :
  forall (c : config) (acts : list aact) (e : envir) (rest : list callback),
    queue (arun c acts loop_init) = QWakeup :: rest -> forced_since c (acts ++ [ARun e]) loop_init [] = [].
Proof. intros c acts e rest Q. rewrite forced_since_app. cbn [forced_since]. rewrite Q. reflexivity. Qed.
Print Assumptions C57_caught_up_at_the_next_processing.

(** *** after shutdown *)
Lemma stopped_step c e o s : reachable c s -> st s = STOPPED -> o <> OProcess -> (forall p, o <> OStart p) ->
  let s' := step c e o s in st s' = STOPPED /\ wakes_n s' = wakes_n s /\ subs s' = subs s.
Proof.
  intros R St NP NS. pose proof (reachable_wf _ _ R) as W. pose proof (is_stopped _ St) as St'.
  assert (UP : forall id want fn ups s0, st s0 = STOPPED -> let s' := fst (update c id want fn ups s0) in st s' = st s0 /\ wakes_n s' = wakes_n s0 /\ subs s' = subs s0).
  { intros id want fn ups s0 S0. destruct (update c id want fn ups s0) as [s' r] eqn:U. cbn. apply update_stopped in U; [|apply is_stopped; auto].
    destruct r; [destruct U as (? & ? & ? & ? & ? & _ & _ & _ & _ & _ & ->)|destruct U as [-> _]]; cbn; auto. }
  assert (DL : forall id want s0, st s0 = STOPPED -> let s' := fst (delete_task id want s0) in st s' = st s0 /\ wakes_n s' = wakes_n s0 /\ subs s' = subs s0).
  { intros id want s0 S0. unfold delete_task. destruct (String.eqb id ""); cbn; auto. rewrite (is_stopped _ S0). destruct (del_pending want id (pend s0)) as [l [[a|]|]]; cbn; auto. }
  destruct o; cbn [step].
  - destruct (NS paused); auto.
  - unfold shutdown. destruct (refc _ >? 0); cbn; auto. change (stopped (w_refc (refc s - 1) s)) with (stopped s). rewrite St'. cbn. auto.
  - unfold pause. rewrite St. cbn. auto.
  - unfold resume. rewrite St. cbn. auto.
  - unfold add_executor. destruct (dmem alias (execs s)); cbn; auto.
  - unfold remove_executor. destruct (dget alias (execs s)); cbn; auto.
  - unfold add_store. destruct (dmem alias (stores s)); cbn; auto. unfold running; cbn; rewrite St; cbn; auto.
  - unfold remove_store. destruct (dget alias (stores s)); cbn; auto.
  - unfold add_task. destruct (t_submitted t); cbn; auto. destruct (match t_sched t with Some _ => _ | None => _ end); cbn; auto. rewrite St'. cbn. auto.
  - destruct (UP id store fn ups s St) as (A & B & C). cbn zeta. sp; congruence.
  - unfold reschedule_task, ask. destruct (answers _ _ _ _ _ _) as [n|x]; cbn; auto.
    destruct (UP id store VNone [("trigger"%string, VTrigger tr); ("next_run_time"%string, opt_date n)] (w_draws (S (draws s)) s) St) as (A & B & C). cbn in *. split; [congruence|auto].
  - destruct (UP id store VNone [("next_run_time"%string, VNone)] s St) as (A & B & C). unfold pause_task. cbn zeta. sp; congruence.
  - unfold resume_task. destruct (lookup_task id store s) as [[t w]|x]; cbn; auto. unfold ask. destruct (answers _ _ _ _ _ _) as [[n|]|x]; cbn; auto.
    + destruct (UP id w VNone [("next_run_time"%string, VDate n)] (w_draws (S (draws s)) s) St) as (A & B & C). destruct (update c id w VNone _ _); cbn in *. split; [congruence|auto].
    + destruct (DL (t_id t) w (w_draws (S (draws s)) s) St) as (A & B & C). destruct (delete_task (t_id t) w _); cbn in *. split; [congruence|auto].
  - rewrite C32_stopped; auto.
  - destruct (DL id store s St) as (A & B & C). cbn zeta. sp; congruence.
  - unfold remove_all_tasks. rewrite St'. cbn. auto.
  - contradiction.
  - unfold complete, release. cbv zeta. destruct (_ =? _); cbn; auto.
Qed.
Record resting (c : config) (us : list submission) (l : aloop) : Prop := {
  rs_inv : ainv2 l; rs_reach : reachable c (sc l); rs_st : st (sc l) = STOPPED; rs_dead : forall h, ~ live l h;
  rs_quiet : ~ In QWakeup (queue l); rs_subs : subs (sc l) = us }.
Lemma resting_step c us a l : (forall e p, a <> ACall e (OStart p)) -> resting c us l -> resting c us (astep c a l).
Proof.
  intros NS [I R S D Q U]. pose proof (inv_step c a l I) as I'.
  assert (R' : reachable c (sc (astep c a l))) by (apply (loop_reachable c [a]); auto).
  destruct a as [e o|h|e]; cbn [astep] in *.
  - assert (K : o <> OProcess -> ainv2 (enqueue (repeat QWakeup (wakes_n (step c e o (sc l)) - wakes_n (sc l))) (with_sched (step c e o (sc l)) l)) ->
       resting c us (enqueue (repeat QWakeup (wakes_n (step c e o (sc l)) - wakes_n (sc l))) (with_sched (step c e o (sc l)) l))).
    { intros NP IV. destruct (stopped_step c e o (sc l) R S NP) as (S' & W' & U'); [intros p ->; apply (NS e p); auto|].
      rewrite W', Nat.sub_diag in *. cbn [repeat] in *. constructor; cbn [sc enqueue with_sched queue]; auto; [apply reachable_step; auto| | |congruence].
      - intros h [H1 H2]. apply (D h). split; auto. destruct H2 as [H2|H2]; auto. right. cbn in H2. rewrite app_nil_r in H2. auto.
      - rewrite app_nil_r. auto. }
    destruct o; try (apply K; [discriminate|exact I']); [|constructor; auto].
    constructor; auto.
    + intros h [H1 H2]. apply (D h). split; auto. destruct H2 as [H2|H2]; auto. right. cbn in H2. apply in_app_or in H2 as [H2|[H2|[]]]; auto. discriminate.
    + cbn. intros H. apply in_app_or in H as [H|[H|[]]]; auto. discriminate.
  - destruct (existsb _ (timers l)) eqn:X; [|constructor; auto]. apply existsb_exists in X as ((h0, d0) & X & Y). cbn in Y. apply Nat.eqb_eq in Y. subst h0.
    constructor; auto.
    + intros k [H1 H2]. cbn in *. apply (D k). split; auto. destruct H2 as [(d & H2)|H2]; [apply filter_In in H2 as [H2 _]; eauto|]. apply in_app_or in H2 as [H2|[[= <-]|[]]]; eauto.
    + cbn. intros H. apply in_app_or in H as [H|[H|[]]]; auto. discriminate.
  - destruct (queue l) as [|q rest] eqn:E; [constructor; auto; rewrite E; auto|]. set (m := MkLoop (sc l) rest (timers l) (cancelled l) (timer l) (next_handle l) (last_pass l)) in *.
    assert (DM : forall h, ~ live m h) by (intros h [H1 H2]; apply (D h); split; auto; destruct H2 as [H2|H2]; auto; right; rewrite E; right; auto).
    assert (QM : ~ In QWakeup rest) by (intros H; apply Q; right; auto). destruct q as [| |h].
    + destruct Q. left. auto.
    + unfold run_shutdown in *. destruct (stopped_step c e OShutdown (sc l) R S) as (S' & W' & U'); [discriminate|discriminate|]. cbn [step] in *. change (sc m) with (sc l) in *.
      unfold shutdown in *. change (refc (w_refc (refc (sc l) - 1) (sc l))) with (refc (sc l) - 1) in *. change (stopped (w_refc (refc (sc l) - 1) (sc l))) with (stopped (sc l)) in *. rewrite (is_stopped _ S) in *.
      destruct (refc (sc l) - 1 >? 0); constructor; auto.
    + cbn [cancelled m] in *. destruct (existsb (Nat.eqb h) (cancelled l)) eqn:X; [constructor; auto|]. exfalso. apply (D h). split; [|right; rewrite E; left; auto].
      intros H. assert (existsb (Nat.eqb h) (cancelled l) = true) by (apply existsb_exists; exists h; split; auto; apply Nat.eqb_refl). congruence.
Qed.
(** When the shutdown runs, no timer is left, and, provided no wake-up is queued behind it, nothing is
    armed or submitted any more until the scheduler is started again, whatever else is called. *)
Theorem C38_none_after_shutdown :
  forall (c : config) (acts : list aact) (e : envir) (rest : list callback),
    let l := arun c acts loop_init in queue l = QShutdown :: rest -> snd (shutdown (sc l)) = Ok true ->
    let l1 := astep c (ARun e) l in
    st (sc l1) = STOPPED /\ (forall h, ~ live l1 h) /\ queue l1 = rest /\
    (~ In QWakeup rest -> forall more, (forall e' p, ~ In (ACall e' (OStart p)) more) ->
       let l2 := arun c more l1 in st (sc l2) = STOPPED /\ (forall h, ~ live l2 h) /\ subs (sc l2) = subs (sc l1)).
Proof.
  intros c acts e rest l Q SH l1. pose proof (arun_inv c acts _ init_inv) as I. fold l in I. pose proof (loop_reach c acts) as R. fold l in R.
  set (m := MkLoop (sc l) rest (timers l) (cancelled l) (timer l) (next_handle l) (last_pass l)).
  assert (M : ainv2 m) by (apply (inv_ext l); auto; rewrite Q; cbn; auto).
  assert (E1 : l1 = stop_timer (with_sched (fst (shutdown (sc l))) m)).
  { unfold l1. cbn [astep]. rewrite Q. unfold run_shutdown. cbn [sc]. destruct (shutdown (sc l)) as [s [[]|x]]; cbn in SH; try discriminate. reflexivity. }
  assert (I1 : ainv2 (with_sched (fst (shutdown (sc l))) m)) by (apply (inv_ext m); auto). destruct (stop_inv _ I1) as [I2 D]. rewrite <- E1 in *.
  assert (S1 : st (sc l1) = STOPPED).
  { rewrite E1, sc_stop. cbn [sc with_sched]. unfold shutdown in *. destruct (refc _ >? 0); [discriminate|]. destruct (stopped _); [discriminate|]. destruct (shutdown_stores _). reflexivity. }
  assert (Q1 : queue l1 = rest) by (rewrite E1; unfold stop_timer; cbn; destruct (timer l); auto).
  split; auto. split; auto. split; auto. intros NQ more NS.
  assert (RS : resting c (subs (sc l1)) l1).
  { constructor; auto; [|rewrite Q1; auto]. apply (loop_reachable c [ARun e] l R). }
  enough (K : forall more l0, (forall e' p, ~ In (ACall e' (OStart p)) more) -> resting c (subs (sc l1)) l0 -> resting c (subs (sc l1)) (arun c more l0)).
  { destruct (K more l1 NS RS). auto. }
  clear -l1. induction more as [|a more IH]; intros l0 NS RS; auto. cbn [arun]. apply IH.
  - intros e' p H. apply (NS e' p). right. auto.
  - apply resting_step; auto. intros e' p ->. apply (NS e' p). left. auto.
Qed.
Print Assumptions C38_none_after_shutdown.

(** *** cases and refutations *)
Definition db_task (id : string) (tr : trigger) : task :=
  MkTask id "job"%string tr None (Some "default"%string) (Some "db"%string) (Some (sec 1)) false 5 None None (VList []) (VDict []) (Some 0%nat) true false.
(** a store, started, one task added and processed: the timer of the next run is armed; later it expires *)
Definition tick_acts : list aact :=
  [ACall (quiet 0) (OAddStore "db" false); ACall (quiet 0) (OStart false); ARun (quiet 0);
   ACall (quiet (sec 1)) (OAddTask (db_task "a" (every 2 None)) false None); ARun (quiet (sec 1))].
Example C38_case : let l := arun ex_cfg tick_acts loop_init in
  st (sc l) = RUNNING /\ queue l = [] /\ armed l 0 (sec 2) /\
  queue (arun ex_cfg [AExpire 0; ARun (quiet (sec 2))] l) = [QWakeup] /\
  armed (arun ex_cfg [AExpire 0; ARun (quiet (sec 2)); ARun (quiet (sec 2))] l) 1 (sec 4) /\
  queue (arun ex_cfg [ACall (quiet (sec 1)) OShutdown] l) = [QShutdown] /\ snd (shutdown (sc l)) = Ok true.
Proof. unfold armed. vm_compute. repeat split; auto; intros H; repeat (destruct H as [H|H]; [discriminate|]); exact H. Qed.
(** the hypotheses of C57 hold of this run, and its last disjunct is the one that applies *)
Lemma no_empty_check s : forallb (fun kv => match ms_lookup (s_mem (snd kv)) "" with None => true | Some _ => false end) (stores s) = true -> no_empty_id s.
Proof.
  intros H a. unfold stored. destruct (dget a (stores s)) as [x|] eqn:G; auto. apply dget_In in G. rewrite forallb_forall in H. specialize (H _ G). cbn in H. destruct (ms_lookup _ _); auto. discriminate.
Qed.
Lemma prefix_cases {A} (l1 l2 : list A) : forall l, l = l1 ++ l2 -> exists n, l1 = firstn n l.
Proof. intros l ->. exists (List.length l1). rewrite firstn_app, firstn_all, Nat.sub_diag. cbn. rewrite app_nil_r. auto. Qed.
Example C57_case : 0 <= c_retry ex_cfg /\ (forall e, In (ARun e) tick_acts -> e_now e <= sec 1) /\ (forall e o, In (ACall e o) tick_acts -> e_now e <= sec 1) /\
  (forall acts1 acts2, tick_acts = acts1 ++ acts2 -> no_empty_id (sc (arun ex_cfg acts1 loop_init))).
Proof.
  split; [vm_compute; discriminate|]. split; [|split].
  - intros e H. cbn in H.
    repeat match goal with H : _ \/ _ |- _ => destruct H | H : ARun _ = ARun _ |- _ => injection H as <- | H : False |- _ => destruct H | H : ACall _ _ = ARun _ |- _ => discriminate end; cbn; unfold sec, us; lia.
  - intros e o H. cbn in H.
    repeat match goal with H : _ \/ _ |- _ => destruct H | H : ACall _ _ = ACall _ _ |- _ => injection H as <- <- | H : False |- _ => destruct H | H : ARun _ = ACall _ _ |- _ => discriminate end;
    cbn; unfold sec, us; lia.
  - intros a1 a2 E. apply prefix_cases in E as [n ->]. apply no_empty_check. do 6 (destruct n as [|n]; [vm_compute; reflexivity|]). vm_compute. reflexivity.
Qed.

(** shutdown() and then add_task() before the loop has run the shutdown: the wake-up comes after it, the
    stopped scheduler submits the task and arms a timer *)
Theorem C38_queued_wakeup_after_shutdown :
  exists (c : config) (acts : list aact), let l := arun c acts loop_init in
    st (sc l) = STOPPED /\ refc (sc l) = 0 /\ queue l = [] /\ (exists h d, armed l h d) /\
    exists acts1 acts2, acts = acts1 ++ acts2 /\ st (sc (arun c acts1 loop_init)) = STOPPED /\ refc (sc (arun c acts1 loop_init)) = 0 /\
      (forall e p, ~ In (ACall e (OStart p)) acts2) /\ subs (sc (arun c acts1 loop_init)) = [] /\
      map sub_task (subs (sc l)) = ["late"%string].
Proof.
  set (a1 := [ACall (quiet 0) (OAddStore "db" false); ACall (quiet 0) (OStart false); ARun (quiet 0); ACall (quiet 0) OShutdown;
     ACall (quiet 0) (OAddTask (db_task "late" (every 2 None)) false None); ARun (quiet 0)]).
  exists ex_cfg, (a1 ++ [ARun (quiet 0)]). cbn zeta. split; [vm_compute; reflexivity|]. split; [vm_compute; reflexivity|]. split; [vm_compute; reflexivity|].
  split; [exists 0%nat, (sec 2); unfold armed; vm_compute; auto|]. exists a1, [ARun (quiet 0)]. split; auto. split; [vm_compute; reflexivity|]. split; [vm_compute; reflexivity|].
  split; [intros e p [H|[]]; discriminate|]. split; vm_compute; reflexivity.
Qed.
Print Assumptions C38_queued_wakeup_after_shutdown.

(** run_task(force=True) on a paused task gives it a next run time but wakes nobody: the task waits,
    with no timer at all, until something else wakes the scheduler *)
Theorem C57_forced_run_is_overslept :
  exists (c : config) (acts : list aact), let l := arun c acts loop_init in
    0 <= c_retry c /\ st (sc l) = RUNNING /\ queue l = [] /\ (exists e, last_pass l = Passed e /\ forall a, readable e a) /\ (forall h, ~ live l h) /\
    exists t x, stored (sc l) "db" "a" = Some t /\ t_next t = Some x.
Proof.
  exists ex_cfg, [ACall (quiet 0) (OAddStore "db" false); ACall (quiet 0) (OStart false); ARun (quiet 0);
     ACall (quiet 0) (OAddTask (db_task "a" (every 2 None)) false (Some None)); ARun (quiet 0); ACall (quiet (sec 1)) (ORunTask "a" None true true)].
  cbn zeta. split; [vm_compute; discriminate|]. split; [vm_compute; reflexivity|]. split; [vm_compute; reflexivity|]. split.
  { exists (quiet 0). split; [vm_compute; reflexivity|]. intros a. split; reflexivity. }
  split; [unfold live; vm_compute; intros h [_ [(d & [])|[]]]|].
  eexists _, _. split; vm_compute; reflexivity.
Qed.
Print Assumptions C57_forced_run_is_overslept.
