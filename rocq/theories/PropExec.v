(** C19, C20: instance accounting under every interleaving, and the outcome of every run time. *)
From Verif Require Import Prelude PreludeFacts Task Scheduler Executor Conc ConcProofs.
Open Scope Z_scope.

(** * C19.  One executor [X], any limits up to [M], any number of threads, any interleaving.
    [accepted] - [ended] instances are unfinished (their completion has not been recorded yet);
    [accepted] - [ending] are still running. *)
Definition one_executor (X : nat) (M : Z) : nat -> Z -> Prop := fun x m => x = X /\ m <= M.

Theorem C19_limit_never_exceeded :
  forall (X : nat) (M : Z) (s : cstate), cruns (one_executor X M) s ->
    accepted s - ended s <= Z.max 0 M /\ accepted s - ending s <= Z.max 0 M.
Proof. intros X M s R. destruct (cinv_runs X M s R) as [E L O H B F N]. unfold in_flight in F. split; lia. Qed.
Print Assumptions C19_limit_never_exceeded.

(** once every thread has returned, the counter is the number of instances still running *)
Theorem C19_counter_exact_at_rest :
  forall (X : nat) (M : Z) (s : cstate), cruns (one_executor X M) s ->
    (forall i th, nth_error (threads s) i = Some th -> th_stage th = Finished) ->
    counter s = accepted s - ending s /\ lock s X = None.
Proof.
  intros X M s R A. destruct (cinv_runs X M s R) as [E L O H B F N].
  assert (NL : lock s X = None).
  { destruct (lock s X) as [i|]; auto. destruct H as (th & T & K). rewrite (A i th T) in K. destruct K. }
  rewrite NL in H. split; auto. enough (in_flight (threads s) = 0) by lia. unfold in_flight.
  replace (filter _ (threads s)) with (@nil thread); auto. symmetry. clear - A. induction (threads s) as [|th l IH]; auto. cbn.
  rewrite (A 0%nat th eq_refl). cbn. apply IH. intros i th' Hi. apply (A (S i) th' Hi).
Qed.
Print Assumptions C19_counter_exact_at_rest.

(** a submission decides on the exact number of unfinished instances, so it is turned away only
    when the limit is reached and accepted only when it is not; and at most one thread is inside *)
Theorem C19_decides_on_true_count :
  forall (X : nat) (M : Z) (s : cstate), cruns (one_executor X M) s ->
    (forall i th m, nth_error (threads s) i = Some th -> th_stage th = SCheck m -> counter s = accepted s - ended s) /\
    (forall i j th th', nth_error (threads s) i = Some th -> nth_error (threads s) j = Some th' ->
       critical (th_stage th) -> critical (th_stage th') -> i = j) /\
    (lock s X = None -> counter s = accepted s - ended s).
Proof.
  intros X M s R. destruct (cinv_runs X M s R) as [E L O H B F N]. split; [|split].
  - intros i th m T G. rewrite (O i th T) in H; [|rewrite G; exact I]. destruct H as (th' & T' & K). assert (th' = th) as -> by congruence. rewrite G in K. apply K.
  - intros i j th th' T T' C C'. pose proof (O i th T C). pose proof (O j th' T' C'). congruence.
  - intros NL. rewrite NL in H. exact H.
Qed.
Print Assumptions C19_decides_on_true_count.

(** schedules as data, to exhibit runs *)
Inductive act := ASend (x : nat) (m : Z) | AEnd (x : nat) | AMove (i : nat).
Definition do_move (s : cstate) (i x : nat) (g : stage) : option cstate :=
  match g with
  | SLock m => match lock s x with None => Some (MkC (counter s) (set_lock (lock s) x (Some i)) (goes s i x (SCheck m)) (accepted s) (ending s) (ended s)) | _ => None end
  | SCheck m => if m <=? counter s then Some (MkC (counter s) (lock s) (goes s i x Unlock) (accepted s) (ending s) (ended s))
                else Some (MkC (counter s) (lock s) (goes s i x SSend) (accepted s) (ending s) (ended s))
  | SSend => Some (MkC (counter s) (lock s) (goes s i x SRead) (accepted s + 1) (ending s) (ended s))
  | SRead => Some (MkC (counter s) (lock s) (goes s i x (SWrite (counter s))) (accepted s) (ending s) (ended s))
  | SWrite r => Some (MkC (r + 1) (lock s) (goes s i x Unlock) (accepted s) (ending s) (ended s))
  | KLock => match lock s x with None => Some (MkC (counter s) (set_lock (lock s) x (Some i)) (goes s i x KRead) (accepted s) (ending s) (ended s)) | _ => None end
  | KRead => Some (MkC (counter s) (lock s) (goes s i x (KWrite (counter s))) (accepted s) (ending s) (ended s))
  | KWrite r => Some (MkC (r - 1) (lock s) (goes s i x Unlock) (accepted s) (ending s) (ended s + 1))
  | Unlock => Some (MkC (counter s) (set_lock (lock s) x None) (goes s i x Finished) (accepted s) (ending s) (ended s))
  | Finished => None
  end.
Lemma do_move_sound s i x g s' : do_move s i x g = Some s' -> moves s i x g s'.
Proof.
  destruct g; cbn; try discriminate; try (intros [= <-]; constructor; fail).
  - destruct (lock s x) eqn:E; [discriminate|]. intros [= <-]. constructor. exact E.
  - destruct (Z.leb_spec limit (counter s)); intros [= <-]; constructor; lia.
  - destruct (lock s x) eqn:E; [discriminate|]. intros [= <-]. constructor. exact E.
Qed.
Definition do_act (a : act) (s : cstate) : option cstate :=
  match a with
  | ASend x m => Some (MkC (counter s) (lock s) (threads s ++ [MkThread x (SLock m)]) (accepted s) (ending s) (ended s))
  | AEnd x => if ending s <? accepted s then Some (MkC (counter s) (lock s) (threads s ++ [MkThread x KLock]) (accepted s) (ending s + 1) (ended s)) else None
  | AMove i => match nth_error (threads s) i with Some th => do_move s i (th_exec th) (th_stage th) | None => None end
  end.
Fixpoint do_acts (l : list act) (s : cstate) : option cstate :=
  match l with [] => Some s | a :: l' => match do_act a s with Some s' => do_acts l' s' | None => None end end.
Definition acts_ok (ok : nat -> Z -> Prop) (l : list act) : Prop :=
  Forall (fun a => match a with ASend x m => ok x m | AEnd x => exists m, ok x m | AMove _ => True end) l.
Lemma do_acts_run ok l s s' : acts_ok ok l -> cruns ok s -> do_acts l s = Some s' -> cruns ok s'.
Proof.
  intros A. revert s. induction A as [|a l Ha A IH]; cbn; intros s R H; [congruence|].
  destruct (do_act a s) as [s1|] eqn:E; [|discriminate]. apply (IH s1); auto. apply cr_step with s; auto. destruct a; cbn in E.
  - injection E as <-. apply c_send. exact Ha.
  - destruct (Z.ltb_spec (ending s) (accepted s)); [|discriminate]. injection E as <-. destruct Ha as [m Ha]. apply c_end with m; auto.
  - destruct (nth_error (threads s) i) as [th|] eqn:T; [|discriminate]. apply c_move with i th; auto. apply do_move_sound. exact E.
Qed.

(** three concurrent submissions with limit 2 on one executor, one turned away, then one completes *)
Definition ex_acts : list act :=
  [ASend 0 2; ASend 0 2; ASend 0 2] ++ repeat (AMove 1) 5 ++ [AMove 1] ++ repeat (AMove 0) 6 ++ [AEnd 0; AMove 2; AMove 2; AMove 2] ++ repeat (AMove 3) 4.
Example C19_case : exists s, cruns (one_executor 0 2) s /\ accepted s = 2 /\ ended s = 1 /\ counter s = 1 /\
  (forall i th, nth_error (threads s) i = Some th -> th_stage th = Finished) /\ List.length (threads s) = 4%nat.
Proof.
  destruct (do_acts ex_acts c_init) as [s|] eqn:D; [|vm_compute in D; discriminate]. exists s.
  split; [apply do_acts_run with ex_acts c_init; [repeat constructor; try (exists 2; split; [reflexivity|lia]); lia|apply cr_init|exact D]|].
  vm_compute in D. injection D as <-. cbn. repeat split. intros [|[|[|[|[|i]]]]] th [= <-]; reflexivity.
Qed.

(** The dictionary of counters is shared by all executors but each has its own lock.  When instances
    of one id are on two executors (its executor was changed while it ran, or two stores use the
    same id), a completion on one and a submission on the other lose an update: here the limit is
    2, and 3 instances end up running at once. *)
Definition race_acts : list act :=
  ASend 0 2 :: repeat (AMove 0) 6 ++ ASend 1 2 :: repeat (AMove 1) 4 (* holds lock 1, about to read *)
  ++ AEnd 0 :: repeat (AMove 2) 2 (* read 1 *) ++ repeat (AMove 1) 2 (* 2 *) ++ repeat (AMove 2) 2 (* writes 0 *)
  ++ ASend 1 2 :: repeat (AMove 3) 6 ++ ASend 1 2 :: repeat (AMove 4) 6.
Theorem C19_two_executors_refuted :
  exists s, cruns (fun x m => (x = 0 \/ x = 1)%nat /\ m = 2) s /\ accepted s - ending s = 3 /\ counter s = 2 /\
    (forall i th, nth_error (threads s) i = Some th -> th_stage th = Finished).
Proof.
  destruct (do_acts race_acts c_init) as [s|] eqn:D; [|vm_compute in D; discriminate]. exists s.
  split; [apply do_acts_run with race_acts c_init; [|apply cr_init|exact D]|].
  - unfold acts_ok, race_acts. cbn. repeat apply Forall_cons; try apply Forall_nil; try exact I; try (split; [auto|reflexivity]). exists 2. auto.
  - vm_compute in D. injection D as <-. cbn. repeat split. intros [|[|[|[|[|[|i]]]]]] th; intros [= <-]; reflexivity.
Qed.
Print Assumptions C19_two_executors_refuted.

(** * C20.  [grace] is the grace time in microseconds, [clock i] the time at which the i-th run time
    was reached, [call n] what the n-th call of the function did. *)
Definition too_late (grace : option Z) (clock : nat -> Z) (i : nat) (t : Z) : Prop :=
  exists g, grace = Some g /\ clock i - t > g.
Definition too_late_dec grace clock i t : {too_late grace clock i t} + {~ too_late grace clock i t}.
Proof.
  destruct grace as [g|]; [destruct (Z_gt_dec (clock i - t) g) as [G|G]|].
  - left. exists g. auto.
  - right. intros (g' & [= <-] & H). lia.
  - right. intros (g' & H & _). discriminate H.
Defined.
(** how many of the first [k] run times, starting from index [i], are on time *)
Fixpoint on_time (grace : option Z) (clock : nat -> Z) (i : nat) (l : list Z) : nat :=
  match l with [] => 0%nat | t :: l' => ((if too_late_dec grace clock i t then 0 else 1) + on_time grace clock (S i) l')%nat end.
(** the event of a run time: missed, or the outcome of its call *)
Definition outcome_event (t : Z) (o : outcome) (x : xevent) : Prop :=
  xe_time x = t /\ xe_value x = Some o /\ match o with Returned _ => xe_code x = TASK_EXECUTED | Raised _ => xe_code x = TASK_ERROR | Escaped => False end.
Definition missed_event (t : Z) (x : xevent) : Prop := xe_time x = t /\ xe_value x = None /\ xe_code x = TASK_MISSED.

Lemma run_loop_events grace clock call times : forall i n l m,
  run_loop grace clock call i n times = (Some l, m) ->
  List.length l = List.length times /\ m = (n + on_time grace clock i times)%nat /\
  forall k t x, nth_error times k = Some t -> nth_error l k = Some x ->
    if too_late_dec grace clock (i + k) t then missed_event t x
    else outcome_event t (call (n + on_time grace clock i (firstn k times))%nat) x.
Proof.
  induction times as [|t0 times IH]; intros i n l m; cbn [run_loop].
  - intros [= <- <-]. split; [reflexivity|]. split; [cbn; lia|]. intros [|k] t x; discriminate.
  - assert (TL : (match grace with Some g => clock i - t0 >? g | None => false end) = if too_late_dec grace clock i t0 then true else false).
    { destruct (too_late_dec grace clock i t0) as [(g & -> & G)|NG]; [apply Z.gtb_lt; lia|]. destruct grace as [g|]; auto.
      rewrite Z.gtb_ltb. apply Z.ltb_ge. destruct (Z_gt_dec (clock i - t0) g); [|lia]. destruct NG. exists g; auto. }
    rewrite TL. destruct (too_late_dec grace clock i t0) as [Y|Y] eqn:D.
    + destruct (run_loop grace clock call (S i) n times) as [[l0|] m0] eqn:R; cbn; intros [= <- <-].
      destruct (IH _ _ _ _ R) as (I1 & I2 & I3). split; [cbn; lia|]. split; [rewrite D; lia|].
      intros [|k] t x; cbn [nth_error firstn]; intros [= ?] [= ?].
      * subst. rewrite Nat.add_0_r, D. repeat split.
      * rewrite <- Nat.add_succ_comm. specialize (I3 k t x). cbn [on_time]. rewrite D. cbn. apply I3; auto.
    + destruct (call n) as [v|e|] eqn:CN; [| |discriminate].
      all: destruct (run_loop grace clock call (S i) (S n) times) as [[l0|] m0] eqn:R; cbn; intros [= <- <-];
        destruct (IH _ _ _ _ R) as (I1 & I2 & I3); split; [cbn; lia|]; split; [rewrite D; lia|].
      all: intros [|k] t x; cbn [nth_error firstn]; intros [= ?] [= ?];
        [subst; rewrite Nat.add_0_r, D; cbn [on_time]; rewrite Nat.add_0_r, CN; repeat split
        |rewrite <- Nat.add_succ_comm; specialize (I3 k t x); cbn [on_time]; rewrite D; cbn; cbn in I3; rewrite <- plus_n_Sm; apply I3; auto].
Qed.
Lemma run_loop_none grace clock call times : forall i n m,
  run_loop grace clock call i n times = (None, m) -> exists q, call q = Escaped /\ (n <= q < n + on_time grace clock i times)%nat /\ m = S q.
Proof.
  induction times as [|t0 times IH]; intros i n m; cbn [run_loop]; [discriminate|].
  assert (TL : (match grace with Some g => clock i - t0 >? g | None => false end) = if too_late_dec grace clock i t0 then true else false).
  { destruct (too_late_dec grace clock i t0) as [(g & -> & G)|NG]; [apply Z.gtb_lt; lia|]. destruct grace as [g|]; auto.
    rewrite Z.gtb_ltb. apply Z.ltb_ge. destruct (Z_gt_dec (clock i - t0) g); [|lia]. destruct NG. exists g; auto. }
  rewrite TL. cbn [on_time]. destruct (too_late_dec grace clock i t0) as [Y|Y] eqn:D.
  - destruct (run_loop grace clock call (S i) n times) as [[l0|] m0] eqn:R; cbn; [discriminate|]. intros [= <-]. destruct (IH _ _ _ R) as (q & Q1 & Q2 & Q3). exists q. auto.
  - destruct (call n) as [v|e|] eqn:CN.
    3:{ intros [= <-]. exists n. repeat split; auto; lia. }
    all: destruct (run_loop grace clock call (S i) (S n) times) as [[l0|] m0] eqn:R; cbn; [discriminate|]; intros [= <-]; destruct (IH _ _ _ R) as (q & Q1 & Q2 & Q3); exists q; repeat split; auto; lia.
Qed.
Lemma run_loop_some grace clock call times : forall i n l m,
  run_loop grace clock call i n times = (Some l, m) -> forall q, (n <= q < m)%nat -> call q <> Escaped.
Proof.
  induction times as [|t0 times IH]; intros i n l m; cbn [run_loop]; [intros [= <- <-]; lia|].
  destruct (match grace with Some g => clock i - t0 >? g | None => false end).
  - destruct (run_loop grace clock call (S i) n times) as [[l0|] m0] eqn:R; cbn; [|discriminate]. intros [= <- <-]. apply (IH _ _ _ _ R).
  - destruct (call n) as [v|e|] eqn:CN; [| |discriminate].
    all: destruct (run_loop grace clock call (S i) (S n) times) as [[l0|] m0] eqn:R; cbn; [|discriminate]; intros [= <- <-] q Q; destruct (Nat.eq_dec q n) as [->|]; [congruence|]; apply (IH _ _ _ _ R); lia.
Qed.

(** as long as the function answers or raises an ordinary exception: one event per run time, in
    order, the late ones missed and not called, the others the outcome of their own call *)
Theorem C20_one_outcome_per_run_time :
  forall (grace : option Z) (clock : nat -> Z) (call : nat -> outcome) (times : list Z),
    (forall n, call n <> Escaped) ->
    exists events, run_task_events grace clock call times = (Some events, on_time grace clock 0 times) /\
      List.length events = List.length times /\
      forall k t x, nth_error times k = Some t -> nth_error events k = Some x ->
        (too_late grace clock k t -> missed_event t x) /\
        (~ too_late grace clock k t -> outcome_event t (call (on_time grace clock 0 (firstn k times))) x).
Proof.
  intros grace clock call times NE. unfold run_task_events. destruct (run_loop grace clock call 0 0 times) as [[l|] m] eqn:R.
  - destruct (run_loop_events _ _ _ _ _ _ _ _ R) as (H1 & H2 & H3). exists l. subst m. split; [reflexivity|]. split; [exact H1|].
    intros k t x Ht Hx. specialize (H3 k t x Ht Hx). cbn [Nat.add] in H3. destruct (too_late_dec grace clock k t) as [Y|Y]; split; intros Z; auto; contradiction.
  - destruct (run_loop_none _ _ _ _ _ _ _ R) as (q & Q & _). destruct (NE q Q).
Qed.
Print Assumptions C20_one_outcome_per_run_time.
(** exactly which runs produce events at all: those none of whose calls escaped *)
Theorem C20_events_unless_a_call_escapes :
  forall (grace : option Z) (clock : nat -> Z) (call : nat -> outcome) (times : list Z),
    (exists events, fst (run_task_events grace clock call times) = Some events) <-> (forall q, (q < on_time grace clock 0 times)%nat -> call q <> Escaped).
Proof.
  intros grace clock call times. unfold run_task_events. destruct (run_loop grace clock call 0 0 times) as [[l|] m] eqn:R; cbn.
  - split; [|eauto]. intros _ q Q. apply (run_loop_some _ _ _ _ _ _ _ _ R). destruct (run_loop_events _ _ _ _ _ _ _ _ R) as (_ & -> & _). cbn. lia.
  - split; [intros [x X]; discriminate X|]. intros H. destruct (run_loop_none _ _ _ _ _ _ _ R) as (q & Q & B & _). destruct (H q); [lia|exact Q].
Qed.
Print Assumptions C20_events_unless_a_call_escapes.
Theorem C20_no_grace_never_missed :
  forall (clock : nat -> Z) (call : nat -> outcome) (times : list Z) events n,
    run_task_events None clock call times = (Some events, n) -> n = List.length times /\ forall x, In x events -> xe_code x <> TASK_MISSED.
Proof.
  intros clock call times l m R. destruct (run_loop_events _ _ _ _ _ _ _ _ R) as (H1 & H2 & H3). split.
  - rewrite H2. clear. cbn [Nat.add]. generalize 0%nat. induction times as [|t l IH]; intros i; cbn [on_time]; auto. rewrite IH.
    destruct (too_late_dec None clock i t) as [(g & Hg & _)|]; [discriminate Hg|reflexivity].
  - intros x Hx. apply In_nth_error in Hx. destruct Hx as [k Hk]. assert (exists t, nth_error times k = Some t) as [t Ht].
    { destruct (nth_error times k) eqn:E; eauto. apply nth_error_None in E. assert (nth_error l k <> None) by congruence. apply nth_error_Some in H. lia. }
    specialize (H3 k t x Ht Hk). destruct (too_late_dec _ _ _ _) as [(g & Hg & _)|]; [discriminate Hg|]. destruct H3 as (_ & _ & H3).
    destruct (call _); try contradiction; congruence.
Qed.
Print Assumptions C20_no_grace_never_missed.
(** the executor's callback gives one instance back and announces exactly these events, in order *)
Theorem C20_events_are_announced :
  forall (id : string) (store : option string) (r : option (list xevent)) (s : sched),
    let s' := finished id store r s in
    evs s' = evs s ++ (match r with Some l => map (fun x => MkEvent (xe_code x) (Some id) store [xe_time x] 0) l | None => [] end) /\
    count id s' = count id s - 1 /\ (forall id', id' <> id -> count id' s' = count id' s) /\
    stores s' = stores s /\ execs s' = execs s /\ st s' = st s /\ pend s' = pend s.
Proof.
  intros id store r s s'. subst s'.
  assert (E : forall l, let s' := complete id l s in evs s' = evs s ++ l /\ count id s' = count id s - 1 /\
    (forall id', id' <> id -> count id' s' = count id' s) /\ stores s' = stores s /\ execs s' = execs s /\ st s' = st s /\ pend s' = pend s).
  { intros l. cbn zeta. unfold complete, release.
    destruct (Z.eqb_spec (count id s - 1) 0) as [Z0|Z0]; cbn; split; auto; (split; [|split; [|auto]]); unfold count at 1; cbn.
    - rewrite dget_ddel_eq. lia.
    - intros id' N. rewrite dget_ddel_ne by auto. reflexivity.
    - rewrite dget_dset_eq. reflexivity.
    - intros id' N. rewrite dget_dset_ne by auto. reflexivity. }
  destruct r as [l|]; apply E.
Qed.
Print Assumptions C20_events_are_announced.

(** three run times, grace 2 s: the first is missed, the second returns, the third raises *)
Example C20_case :
  run_task_events (Some 2000000) (fun i => 10000000 + Z.of_nat i * 1000000) (fun n => if Nat.eqb n 0 then Returned (VInt 7) else Raised OtherError) [5000000; 9000000; 12000000]
  = (Some [MkX TASK_MISSED 5000000 None; MkX TASK_EXECUTED 9000000 (Some (Returned (VInt 7))); MkX TASK_ERROR 12000000 (Some (Raised OtherError))], 2%nat).
Proof. vm_compute. reflexivity. Qed.
(** a function that calls sys.exit() at its second run loses the event of its first run as well *)
Theorem C20_escaping_call_refuted :
  exists (grace : option Z) (clock : nat -> Z) (call : nat -> outcome) (times : list Z), call 0%nat = Returned VNone /\ run_task_events grace clock call times = (None, 2%nat) /\ forall id store s, evs (finished id store (fst (run_task_events grace clock call times)) s) = evs s.
Proof.
  exists None, (fun _ => 0), (fun n => if Nat.eqb n 0 then Returned VNone else Escaped), [1; 2]. split; [reflexivity|]. split; [reflexivity|].
  intros id store s. destruct (C20_events_are_announced id store None s) as [E _]. cbn [fst run_task_events run_loop Nat.eqb option_map]. rewrite E. apply app_nil_r.
Qed.
Print Assumptions C20_escaping_call_refuted.
