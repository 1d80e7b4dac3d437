(** C104: a task handle stays the task. *)
From Verif Require Import Prelude PreludeFacts MemStore StoreSpec MemStoreProofs CallArgs Cron Triggers Task TaskProofs Scheduler SchedReach LifeAll PropSched Handles HandlesProofs HandlesProofs2 HandlesProofs3 HandlesProofs4 HandlesProofs5 HandlesProofs6 HandlesProofs7 HandlesProofs8.
Open Scope Z_scope.
Local Ltac sp := repeat match goal with |- _ /\ _ => split end.

(** * The statement's own words *)
(** what a program can bring about.  (A start that fails half-way is left out.) *)
Definition starts_well (o : call) (x : result unit) : Prop := match o with CStart _ => exists u, x = Ok u | _ => True end.
Inductive reach (c : config) : hstate -> Prop :=
| reach0 : reach c (h_empty c)
| reach1 h e o h' x : reach c h -> h_call c e o h = (h', x) -> starts_well o x -> reach c h'.
(** the object [r] is the one kept by the memory store [a]; [r] waits for the start *)
Definition stands (h : hstate) (a : string) (r : nat) : Prop := exists m x y, dget a (hstores h) = Some (HMem m x y) /\ In r (ms_all m).
Definition waits (h : hstate) (r : nat) : Prop := exists b b', In (r, b, b') (hpend h).
(** the same call, told in values: Scheduler.v's functions, with the attributes the object has *)
Definition voided {A} (x : sched * result A) : sched * result unit := (fst x, match snd x with Ok _ => Ok tt | Err e => Err e end).
Definition value_call (c : config) (e : envir) (h : hstate) (o : call) : sched * result unit :=
  let s := abs h in
  match o with
  | CNew _ => (s, Ok tt)
  | CAdd r replace next => if Nat.ltb r (hn h) then add_task c e (hp h r) replace next s else (s, Err TypeError)
  | CGet _ _ => (s, Ok tt)
  | CUpdate id want fn ups => voided (update c id want fn ups s)
  | CReschedule id want tr => voided (reschedule_task c e id want tr s)
  | CResume id want => voided (resume_task c e id want s)
  | CDelete id want => delete_task id want s
  | CClear want => (remove_all_tasks want s, Ok tt)
  | CHandle r a =>
      if negb (Nat.ltb r (hn h)) then (s, Err TypeError) else
      let t := hp h r in
      match t_sched t with
      | None => (s, Ok tt)
      | Some k => if negb (Nat.eqb k (c_self c)) then (s, Ok tt) else
          match a with
          | MPause => voided (pause_task c (t_id t) (t_store t) s)
          | MResume => voided (resume_task c e (t_id t) (t_store t) s)
          | MReschedule tr => voided (reschedule_task c e (t_id t) (t_store t) tr s)
          | MUpdate fn ups => voided (update c (t_id t) (t_store t) fn ups s)
          | MDelete => delete_task (t_id t) (t_store t) s
          end
      end
  | CStore alias memory => add_store alias (new_store memory) s
  | CStart paused => voided (start c e paused s)
  | CPass => voided (process_tasks c e s)
  end.

(** * Proofs *)
Lemma h_call_ref c e o h h' x : inv h -> h_call c e o h = (h', x) -> starts_well o x -> value_call c e h o = (abs h', x) /\ inv h'.
Proof.
  intros I. destruct o; cbn [h_call value_call starts_well].
  - intros [= <- <-] _. destruct (abs_new h t I) as (A & B & _). change (MkH _ _ _ _ _) with (fst (hnew t h)). rewrite A. auto.
  - destruct (Nat.ltb r (hn h)) eqn:L; [|intros [= <- <-]; auto]. apply Nat.ltb_lt in L. intros E _. eapply ref_add; eauto.
  - unfold h_get. destruct (h_lookup id want h) as [h1 e1] eqn:L. destruct (ref_lookup _ _ _ _ _ I L) as (A & I1 & _). destruct e1 as [[r w]|y]; intros [= <- <-] _; rewrite A; auto.
  - destruct (h_update c id want fn ups h) as [h1 e1] eqn:L. destruct (ref_update _ _ _ _ _ _ _ _ I L) as [A I1]. intros [= <- <-] _. rewrite A. split; [|exact I1]. destruct e1; reflexivity.
  - destruct (h_reschedule c e id want tr h) as [h1 e1] eqn:L. destruct (ref_reschedule _ _ _ _ _ _ _ _ I L) as [A I1]. intros [= <- <-] _. rewrite A. split; [|exact I1]. destruct e1; reflexivity.
  - destruct (h_resume c e id want h) as [h1 e1] eqn:L. destruct (ref_resume _ _ _ _ _ _ _ I L) as [A I1]. intros [= <- <-] _. rewrite A. split; [|exact I1]. destruct e1 as [[r|]|y]; reflexivity.
  - destruct (h_delete id want h) as [h1 e1] eqn:L. destruct (ref_delete _ _ _ _ _ I L) as (A & I1 & _). intros [= <- <-] _. rewrite A. split; [|exact I1]. destruct e1 as [[]|]; reflexivity.
  - intros [= <- <-] _. destruct (ref_remove_all want h I) as [A I1]. rewrite A. auto.
  - destruct (Nat.ltb r (hn h)); [|intros [= <- <-]; auto]. cbn [negb]. unfold handle. destruct (t_sched (hp h r)) as [k|]; [|intros [= <- <-]; auto]. destruct (negb (Nat.eqb k (c_self c))); [intros [= <- <-]; auto|]. destruct a.
    + unfold h_pause, pause_task. destruct (h_update c (t_id (hp h r)) _ _ _ h) as [h1 e1] eqn:L. destruct (ref_update _ _ _ _ _ _ _ _ I L) as [A I1]. intros [= <- <-] _. rewrite A. split; [|exact I1]. destruct e1; reflexivity.
    + destruct (h_resume c e _ _ h) as [h1 e1] eqn:L. destruct (ref_resume _ _ _ _ _ _ _ I L) as [A I1]. intros [= <- <-] _. rewrite A. split; [|exact I1]. destruct e1 as [[q|]|y]; reflexivity.
    + destruct (h_reschedule c e _ _ tr h) as [h1 e1] eqn:L. destruct (ref_reschedule _ _ _ _ _ _ _ _ I L) as [A I1]. intros [= <- <-] _. rewrite A. split; [|exact I1]. destruct e1; reflexivity.
    + destruct (h_update c _ _ fn ups h) as [h1 e1] eqn:L. destruct (ref_update _ _ _ _ _ _ _ _ I L) as [A I1]. intros [= <- <-] _. rewrite A. split; [|exact I1]. destruct e1; reflexivity.
    + destruct (h_delete _ _ h) as [h1 e1] eqn:L. destruct (ref_delete _ _ _ _ _ I L) as (A & I1 & _). intros [= <- <-] _. rewrite A. split; [|exact I1]. destruct e1 as [[]|]; reflexivity.
  - intros E _. eapply ref_add_store; eauto.
  - destruct (h_start c e paused h) as [h1 e1] eqn:L. intros [= <- <-] [u W]. destruct e1 as [b|y]; [|discriminate W]. destruct (ref_start _ _ _ _ _ _ I L) as [A I1]. rewrite A. auto.
  - destruct (h_process c e h) as [h1 e1] eqn:L. destruct (ref_process _ _ _ _ _ I L) as [A I1]. intros [= <- <-] _. rewrite A. split; [|exact I1]. destruct e1; reflexivity.
Qed.
Lemma reach_inv c h : reach c h -> inv h.
Proof. induction 1; [apply inv_empty|]. eapply h_call_ref; eauto. Qed.

(** * C104 *)
(** Objects and values agree: every call on Task objects does to the attributes what the calls of Scheduler.v do to
    tasks, with the same answer, so that every property proved of Scheduler.v's calls holds of programs that share objects. *)
Theorem C104_objects_are_values c e o h h' x : reach c h -> h_call c e o h = (h', x) -> starts_well o x -> value_call c e h o = (abs h', x).
Proof. intros R E W. apply (h_call_ref c e o h h' x (reach_inv c h R) E W). Qed.

(** The object a call answers has, at that moment, the attributes the scheduler has for the task. *)
Theorem C104_answered_object_is_current c e id want h : reach c h ->
  (forall h' r, h_get id want h = (h', Some r) -> exists w, lookup_task id want (abs h') = Ok (hp h' r, w)) /\
  (forall h', h_get id want h = (h', None) -> exists y, lookup_task id want (abs h') = Err y) /\
  (forall fn ups h' r, h_update c id want fn ups h = (h', Ok r) -> update c id want fn ups (abs h) = (abs h', Ok (hp h' r))) /\
  (forall tr h' r, h_reschedule c e id want tr h = (h', Ok r) -> reschedule_task c e id want tr (abs h) = (abs h', Ok (hp h' r))) /\
  (forall h' r, h_pause c id want h = (h', Ok r) -> pause_task c id want (abs h) = (abs h', Ok (hp h' r))) /\
  (forall h' r, h_resume c e id want h = (h', Ok (Some r)) -> resume_task c e id want (abs h) = (abs h', Ok (Some (hp h' r)))).
Proof.
  intros R. apply reach_inv in R as I. assert (U : forall fn ups h' r, h_update c id want fn ups h = (h', Ok r) -> update c id want fn ups (abs h) = (abs h', Ok (hp h' r))).
  { intros fn ups h' r E. destruct (ref_update _ _ _ _ _ _ _ _ I E) as [A _]. exact A. }
  sp; auto.
  - intros h' r. unfold h_get. destruct (h_lookup id want h) as [h1 [[q w]|y]] eqn:L; [|discriminate]. intros [= <- <-]. destruct (ref_lookup _ _ _ _ _ I L) as (A & _ & _ & _ & H & _). exists w. rewrite A. exact H.
  - intros h'. unfold h_get. destruct (h_lookup id want h) as [h1 [[q w]|y]] eqn:L; [discriminate|]. intros [= <-]. destruct (ref_lookup _ _ _ _ _ I L) as (A & _ & _ & _ & H). exists y. rewrite A. exact H.
  - intros tr h' r E. destruct (ref_reschedule _ _ _ _ _ _ _ _ I E) as [A _]. exact A.
  - intros h' r E. apply U, E.
  - intros h' r E. destruct (ref_resume _ _ _ _ _ _ _ I E) as [A _]. exact A.
Qed.

Lemma find_here a id o : forall l, NoDup (dkeys l) -> forall m x y, dget a l = Some (HMem m x y) -> ms_lookup m id = Some o -> h_find_store (Some a) id l = Some (inl o, a).
Proof.
  induction l as [|[k s] l IH]; intros K m x y D L; [discriminate|]. cbn in D |- *. cbn in K. inversion K as [|? ? K1 K2]; subst. destruct (String.eqb_spec a k) as [->|N]; [injection D as ->; rewrite L; reflexivity|eauto].
Qed.
Lemma stands_lookup h a r : inv h -> stopped (hk h) = false -> stands h a r -> h_lookup (t_id (hp h r)) (Some a) h = (h, Ok (r, Some a)).
Proof.
  intros I S (m & x & y & D & Q). unfold h_lookup. rewrite S. rewrite (find_here a _ r _ (i_keys h I) m x y D); [reflexivity|]. apply (good_lookup (hp h)); [eapply (i_good h I); eauto|auto].
Qed.
(** A Task kept by a memory store of a started scheduler is the object every look-up answers, and its attributes are those the scheduler has. *)
Theorem C104_holder_and_store_share c h a r : reach c h -> stopped (hk h) = false -> stands h a r ->
  h_get (t_id (hp h r)) (Some a) h = (h, Some r) /\ lookup_task (t_id (hp h r)) (Some a) (abs h) = Ok (hp h r, Some a).
Proof.
  intros R S H. apply reach_inv in R as I. pose proof (stands_lookup h a r I S H) as L. unfold h_get. rewrite L. split; [reflexivity|]. destruct (ref_lookup _ _ _ _ _ I L) as (_ & _ & _ & _ & X & _). exact X.
Qed.

Definition newcomer (h : hstate) (o : call) (q : nat) : Prop := (exists replace next, o = CAdd q replace next) \/ (exists p, o = CStart p /\ waits h q).
Lemma call_entered c e o h h' x : inv h -> h_call c e o h = (h', x) -> entered (newcomer h o) h h'.
Proof.
  intros I E. destruct o; cbn [h_call] in E.
  - injection E as <- _. eapply entered_frame. apply (frame_new (fun _ => False) t h).
  - destruct (Nat.ltb r (hn h)); [|injection E as <- _; apply entered_refl]. eapply entered_weak; [|eapply entered_add; eauto]. intros q <-. left. eauto.
  - unfold h_get in E. destruct (h_lookup id want h) as [h1 e1] eqn:L. destruct (ref_lookup _ _ _ _ _ I L) as (_ & _ & _ & F & _). destruct e1 as [[? ?]|?]; injection E as <- _; eapply entered_frame, (F (fun _ => False)).
  - destruct (h_update c id want fn ups h) as [h1 e1] eqn:L. injection E as <- _. eapply entered_update; eauto.
  - destruct (h_reschedule c e id want tr h) as [h1 e1] eqn:L. injection E as <- _. eapply entered_reschedule; eauto.
  - destruct (h_resume c e id want h) as [h1 e1] eqn:L. injection E as <- _. eapply entered_resume; eauto.
  - destruct (h_delete id want h) as [h1 e1] eqn:L. injection E as <- _. eapply entered_delete; eauto.
  - injection E as <- _. apply entered_remove_all.
  - destruct (Nat.ltb r (hn h)); [|injection E as <- _; apply entered_refl]. unfold handle in E. destruct (t_sched (hp h r)) as [k|]; [|injection E as <- _; apply entered_refl]. destruct (negb (Nat.eqb k (c_self c))); [injection E as <- _; apply entered_refl|]. destruct a.
    + unfold h_pause in E. destruct (h_update c _ _ _ _ h) as [h1 e1] eqn:L. injection E as <- _. eapply entered_update; eauto.
    + destruct (h_resume c e _ _ h) as [h1 e1] eqn:L. injection E as <- _. eapply entered_resume; eauto.
    + destruct (h_reschedule c e _ _ tr h) as [h1 e1] eqn:L. injection E as <- _. eapply entered_reschedule; eauto.
    + destruct (h_update c _ _ _ _ h) as [h1 e1] eqn:L. injection E as <- _. eapply entered_update; eauto.
    + destruct (h_delete _ _ h) as [h1 e1] eqn:L. injection E as <- _. eapply entered_delete; eauto.
  - eapply entered_add_store; eauto.
  - destruct (h_start c e paused h) as [h1 e1] eqn:L. injection E as <- _. eapply entered_weak; [|eapply entered_start; eauto]. intros q Q. cbn in Q. unfold prefs in Q. apply in_map_iff in Q as ([[p b] b'] & W & Q). cbn in W. subst p. right. exists paused. split; [reflexivity|]. exists b, b'. exact Q.
  - destruct (h_process c e h) as [h1 e1] eqn:L. injection E as <- _. eapply entered_process; eauto.
Qed.
(** Whatever is called, a task of a memory store goes on being the same object: only add_task of another object, or a start that
    installs another object, can make its id in that store stand for that other object. *)
Theorem C104_same_object c e o h h' x a r q : reach c h -> h_call c e o h = (h', x) -> stands h a r -> stands h' a q -> t_id (hp h' q) = t_id (hp h r) ->
  (forall replace next, o <> CAdd q replace next) -> (forall p, o = CStart p -> ~ waits h q) -> q = r.
Proof.
  intros R E H H' T NA NS. apply reach_inv in R as I. destruct (call_entered c e o h h' x I E) as [N ID IN].
  destruct (IN a q H') as [[(rp & nx & W)|(p & W & Q)]|Q]; [destruct (NA _ _ W)|destruct (NS p W Q)|].
  destruct H as (m & u & v & D & H). destruct Q as (m0 & u0 & v0 & D0 & Q). assert (m0 = m) as -> by congruence.
  apply (good_unique (hp h) m); [eapply (i_good h I); eauto|exact Q|exact H|]. rewrite <- T. symmetry. apply ID. apply (i_old h I). right. exists a, m, u, v. auto.
Qed.
(** No call changes the id of an object, or forgets one; what a Task is not in a memory store for, it does not come into by itself. *)
Theorem C104_ids_stay c e o h h' x : reach c h -> h_call c e o h = (h', x) ->
  (hn h <= hn h')%nat /\ (forall q, (q < hn h)%nat -> t_id (hp h' q) = t_id (hp h q)) /\
  (forall a q, stands h' a q -> ~ stands h a q -> (exists replace next, o = CAdd q replace next) \/ (exists p, o = CStart p /\ waits h q)).
Proof.
  intros R E. apply reach_inv in R as I. destruct (call_entered c e o h h' x I E) as [N ID IN]. sp; auto. intros a q Q NQ. destruct (IN a q Q) as [X|X]; [exact X|]. destruct (NQ X).
Qed.

(** ** what a caller does with the Task it holds *)
Lemma store_update_held a r t' h m x y : inv h -> dget a (hstores h) = Some (HMem m x y) -> In r (ms_all m) -> t_id t' = t_id (hp h r) -> t_submitted t' = true ->
  exists h3, h_store_update a r (hput r t' h) = (h3, Ok tt) /\ inv h3 /\ hk h3 = hk h /\ hp h3 r = t' /\ frame (eq r) h h3 /\ stands h3 a r.
Proof.
  intros I D R T SB. destruct (h_store_update a r (hput r t' h)) as [h3 e3] eqn:E.
  destruct (ref_store_update a r t' h I) with (h3 := h3) (e := e3) as (_ & I3 & K & P & F); [left; exists m, x, y; auto|exact E|].
  assert (W : e3 = Ok tt /\ stands h3 a r).
  { unfold h_store_update in E. cbn [hput hstores] in E. rewrite D in E. unfold h_st_update in E.
    destruct (obj_update (hp h) (same_else h r t') (same_else h r t') m r) as (m' & E1 & G' & E2 & M); auto; try (eapply (i_good h I); eauto).
    - intros q _ Nq. apply same_o, Nq.
    - intros q _. unfold same_else. destruct (Nat.eqb_spec q r) as [->|]; congruence.
    - intros _. rewrite same_r. auto.
    - change (hid (hput r t' h)) with (fun q => t_id (same_else h r t' q)) in E. change (hnext (hput r t' h)) with (fun q => t_next (same_else h r t' q)) in E. rewrite E1 in E. injection E as <- <-. split; [reflexivity|]. exists m', x, y. cbn. rewrite dget_dset_eq. split; [reflexivity|]. apply M. left. reflexivity. }
  destruct W as [-> W]. exists h3. sp; auto.
Qed.
Lemma delete_held a r h : inv h -> stopped (hk h) = false -> stands h a r -> t_id (hp h r) <> ""%string ->
  exists h', h_delete (t_id (hp h r)) (Some a) h = (h', Ok tt) /\ hp h' = hp h /\ ~ stands h' a r.
Proof.
  intros I S (m & x & y & D & Q) NE. destruct (h_delete (t_id (hp h r)) (Some a) h) as [h' e'] eqn:E. destruct (delete_keeps _ _ _ _ _ I E) as (P1 & P2 & _).
    unfold h_delete in E. destruct (String.eqb_spec (t_id (hp h r)) ""); [contradiction|]. rewrite S in E.
    assert (X : forall l, NoDup (dkeys l) -> (forall b m x y, dget b l = Some (HMem m x y) -> goodm (hp h) m) -> dget a l = Some (HMem m x y) -> exists l' m', h_del_stores h (Some a) (t_id (hp h r)) l = (l', Some a) /\ dget a l' = Some (HMem m' x y) /\ ~ In r (ms_all m')).
    { induction l as [|[k s] l IH]; intros K G DD; [discriminate|]. cbn in DD. cbn in K. inversion K as [|? ? K1 K2]; subst. cbn [h_del_stores wanted]. destruct (String.eqb_spec a k) as [->|Nk].
      - injection DD as ->. assert (Gm : goodm (hp h) m). { apply (G k m x y). cbn. rewrite String.eqb_refl. reflexivity. } pose proof (obj_delete (hp h) m (t_id (hp h r)) Gm) as O.
        assert (LK : ms_lookup m (t_id (hp h r)) = Some r) by (apply (good_lookup (hp h)); auto). rewrite LK in O. destruct O as (m' & O1 & _ & _ & O4). cbn [h_st_delete]. change (hid h) with (fun q => t_id (hp h q)). rewrite O1. eexists _, m'. split; [reflexivity|]. cbn. rewrite String.eqb_refl. split; [reflexivity|]. rewrite O4. tauto.
      - destruct IH as (l' & m' & X1 & X2 & X3); auto. { intros b m0 x0 y0 Db. apply (G b m0 x0 y0). cbn. destruct (String.eqb_spec b k) as [->|]; [|exact Db]. destruct K1. eapply dget_Some_key; eauto. }
        rewrite X1. eexists _, m'. split; [reflexivity|]. cbn. destruct (String.eqb_spec a k); [contradiction|]. auto. }
    destruct (X (hstores h) (i_keys h I) (i_good h I) D) as (l' & m' & X1 & X2 & X3). rewrite X1 in E. injection E as <- <-. eexists. split; [reflexivity|]. split; [exact P1|]. intros (m0 & x0 & y0 & D0 & Q0). cbn in D0. assert (m0 = m') as -> by congruence. contradiction.
Qed.
(** A Task kept by a memory store of a started scheduler, and that still names that store and this scheduler: update() validates the
    new values against the attributes of this very object, sets them on it and on no other object, and keeps it in the store;
    refused values change nothing; pause() clears its next run time; delete() takes it out of the store and leaves its attributes. *)
Theorem C104_handle_acts_on_itself c e h a r : reach c h -> stopped (hk h) = false -> stands h a r -> t_sched (hp h r) = Some (c_self c) -> t_store (hp h r) = Some a ->
  (forall fn ups, match update_task (c_tenv c) (hp h r) (Some (c_self c)) fn ups with
     | (t', Ok _) => exists h', handle c e r (MUpdate fn ups) h = (h', Ok tt) /\ hp h' r = t' /\ stands h' a r /\ (forall q, q <> r -> (q < hn h)%nat -> hp h' q = hp h q)
     | (_, Err y) => handle c e r (MUpdate fn ups) h = (h, Err y)
     end) /\
  (exists h', handle c e r MPause h = (h', Ok tt) /\ hp h' r = set_next None (hp h r) /\ stands h' a r /\ (forall q, q <> r -> (q < hn h)%nat -> hp h' q = hp h q)) /\
  (t_id (hp h r) <> ""%string -> exists h', handle c e r MDelete h = (h', Ok tt) /\ hp h' = hp h /\ ~ stands h' a r).
Proof.
  intros R S H TS TA. apply reach_inv in R as I. pose proof (stands_lookup h a r I S H) as L. destruct H as (m & x & y & D & Q). destruct (i_old h I r) as [_ SB]; [right; exists a, m, x, y; auto|].
  assert (UP : forall fn ups, match update_task (c_tenv c) (hp h r) (Some (c_self c)) fn ups with
     | (t', Ok _) => exists h', handle c e r (MUpdate fn ups) h = (h', Ok tt) /\ hp h' r = t' /\ stands h' a r /\ (forall q, q <> r -> (q < hn h)%nat -> hp h' q = hp h q)
     | (_, Err z) => handle c e r (MUpdate fn ups) h = (h, Err z)
     end).
  { intros fn ups. unfold handle. rewrite TS, Nat.eqb_refl. cbn [negb]. rewrite TA. unfold h_update. rewrite L. destruct (update_task (c_tenv c) (hp h r) (Some (c_self c)) fn ups) as [t' [[]|z]] eqn:U; [|reflexivity].
    apply update_submitted in U as [U1 U2]. destruct (store_update_held a r t' h m x y I D Q U2) as (h3 & E3 & I3 & K3 & P3 & F3 & W3); [congruence|]. rewrite E3. eexists. split; [reflexivity|]. sp.
    - exact P3.
    - exact W3.
    - intros q Nq QN. apply (fr_hp _ _ _ F3); auto. }
  split; [exact UP|]. split.
  - specialize (UP VNone [("next_run_time"%string, VNone)]). assert (PAU : update_task (c_tenv c) (hp h r) (Some (c_self c)) VNone [("next_run_time"%string, VNone)] = (set_next None (hp h r), Ok tt)).
    { unfold update_task, validate. rewrite TS, Nat.eqb_refl. cbn. unfold apply_approved, set_next. cbn. destruct (hp h r). cbn in TS |- *. rewrite TS. destruct t_exec, t_store; reflexivity. }
    rewrite PAU in UP. exact UP.
  - intros NE. destruct (delete_held a r h I S) as (h' & E & X & Y); auto; [exists m, x, y; auto|]. unfold handle. rewrite TS, Nat.eqb_refl. cbn [negb]. rewrite TA, E. exists h'. auto.
Qed.

(** add_task of an object that is not submitted yet uses it up, whether the call accepts or refuses it: after any further calls, adding it again is refused
    and changes nothing. *)
Theorem C104_added_once c e r replace next h h1 x l e' replace' next' : (r < hn h)%nat -> h_call c e (CAdd r replace next) h = (h1, x) ->
  let h2 := fst (h_calls c l h1) in h_call c e' (CAdd r replace' next') h2 = (h2, Err AssertionError).
Proof.
  intros L E. cbv zeta. pose proof (k_calls c l h1) as [K1 K2]. pose proof (k_call c e (CAdd r replace next) h) as [K3 _]. rewrite E in K3. cbn [fst] in K3.
  assert (S1 : t_submitted (hp h1 r) = true). { cbn [h_call] in E. apply Nat.ltb_lt in L as L'. rewrite L' in E. pose proof (add_submits c e r replace next h L) as A. rewrite E in A. exact A. }
  cbn [h_call]. assert (L2 : (r < hn (fst (h_calls c l h1)))%nat) by lia. apply Nat.ltb_lt in L2 as L3. rewrite L3. unfold h_add. rewrite K2; [reflexivity|lia|exact S1].
Qed.
(** Likewise resume() asks this very object's trigger and reschedule() the new one.  With an answer the object gets the new next run time
    (and trigger), and stays in the store; without one resume() takes it out, and reschedule() pauses it; a trigger that fails changes nothing. *)
Definition triggered (tr : trigger) (n : option Z) (t : task) : task :=
  MkTask (t_id t) (t_name t) tr n (t_exec t) (t_store t) (t_grace t) (t_coalesce t) (t_max t) (t_fn t) (t_ref t) (t_args t) (t_kwargs t) (t_sched t) (t_pending t) (t_submitted t).
Lemma update_next env t k n : t_sched t = Some k -> update_task env t (Some k) VNone [("next_run_time"%string, opt_date n)] = (set_next n t, Ok tt).
Proof. intros TS. unfold update_task, validate. rewrite TS, Nat.eqb_refl. destruct n; cbn; unfold apply_approved, set_next; cbn; destruct t; cbn in TS |- *; rewrite TS; destruct t_exec, t_store; reflexivity. Qed.
Lemma update_trigger env t k tr n : t_sched t = Some k -> update_task env t (Some k) VNone [("trigger"%string, VTrigger tr); ("next_run_time"%string, opt_date n)] = (triggered tr n t, Ok tt).
Proof. intros TS. unfold update_task, validate. rewrite TS, Nat.eqb_refl. destruct n; cbn; unfold apply_approved, triggered; cbn; destruct t; cbn in TS |- *; rewrite TS; destruct t_exec, t_store; reflexivity. Qed.
Lemma update_held c a r t' fn ups h h1 : inv h -> stopped (hk h) = false -> stands h a r -> hp h1 = hp h -> hn h1 = hn h -> hstores h1 = hstores h -> stopped (hk h1) = false -> inv h1 ->
  update_task (c_tenv c) (hp h r) (Some (c_self c)) fn ups = (t', Ok tt) ->
  exists h', h_update c (t_id (hp h r)) (Some a) fn ups h1 = (h', Ok r) /\ hp h' r = t' /\ stands h' a r /\ (forall q, q <> r -> (q < hn h)%nat -> hp h' q = hp h q).
Proof.
  intros I S H EP EN ES S1 I1 U. assert (H1 : stands h1 a r). { destruct H as (m & x & y & D & Q). exists m, x, y. rewrite ES. auto. } pose proof (stands_lookup h1 a r I1 S1 H1) as L. destruct H1 as (m & x & y & D & Q). destruct (i_old h1 I1 r) as [_ SB]; [right; exists a, m, x, y; auto|].
  unfold h_update. rewrite <- EP. rewrite L. rewrite EP, U. apply update_submitted in U as [U1 U2]. rewrite EP in SB. destruct (store_update_held a r t' h1 m x y I1 D Q) as (h3 & E3 & I3 & K3 & P3 & F3 & W3); [rewrite EP; exact U2|congruence|]. rewrite E3. eexists. split; [reflexivity|]. sp.
  - exact P3.
  - exact W3.
  - intros q Nq QN. rewrite <- EP. apply (fr_hp _ _ _ F3); [auto|]. change (hn (hput r t' h1)) with (hn h1). rewrite EN. exact QN.
Qed.
Theorem C104_handle_schedules_itself c e h a r : reach c h -> stopped (hk h) = false -> stands h a r -> t_sched (hp h r) = Some (c_self c) -> t_store (hp h r) = Some a ->
  let asked tr := answers (c_fuel c) (c_oracle c) tr (e_now e) (draws (hk h)) None in
  match asked (t_trigger (hp h r)) with
  | Ok (Some n) => exists h', handle c e r MResume h = (h', Ok tt) /\ hp h' r = set_next (Some n) (hp h r) /\ stands h' a r /\ (forall q, q <> r -> (q < hn h)%nat -> hp h' q = hp h q)
  | Ok None => t_id (hp h r) <> ""%string -> exists h', handle c e r MResume h = (h', Ok tt) /\ hp h' = hp h /\ ~ stands h' a r
  | Err y => exists h', handle c e r MResume h = (h', Err y) /\ hp h' = hp h /\ stands h' a r
  end /\
  (forall tr, match asked tr with
   | Ok n => exists h', handle c e r (MReschedule tr) h = (h', Ok tt) /\ hp h' r = triggered tr n (hp h r) /\ stands h' a r /\ (forall q, q <> r -> (q < hn h)%nat -> hp h' q = hp h q)
   | Err y => exists h', handle c e r (MReschedule tr) h = (h', Err y) /\ hp h' = hp h /\ stands h' a r
   end).
Proof.
  intros R S H TS TA. cbv zeta. apply reach_inv in R as I. pose proof (stands_lookup h a r I S H) as L. set (h1 := on_k (w_draws (Datatypes.S (draws (hk h)))) h). assert (I1 : inv h1) by (apply inv_on_k, I).
  assert (ST1 : stopped (hk h1) = false) by (unfold h1; cbn; destruct (hk h); exact S). assert (H1 : stands h1 a r) by exact H. split.
  - unfold handle. rewrite TS, Nat.eqb_refl. cbn [negb]. rewrite TA. unfold h_resume. rewrite L. unfold h_ask. fold h1. destruct (answers _ _ _ _ _ _) as [[n|]|y].
    + destruct (update_held c a r _ VNone [("next_run_time"%string, VDate n)] h h1 I S H eq_refl eq_refl eq_refl ST1 I1 (update_next (c_tenv c) (hp h r) (c_self c) (Some n) TS)) as (h' & E & X). rewrite E. exists h'. split; [reflexivity|exact X].
    + intros NE. destruct (delete_held a r h1 I1 ST1 H1 NE) as (h' & E & X & Y). change (hid h1 r) with (t_id (hp h1 r)). rewrite E. exists h'. auto.
    + exists h1. auto.
  - intros tr. unfold handle. rewrite TS, Nat.eqb_refl. cbn [negb]. rewrite TA. unfold h_reschedule, h_ask. fold h1. destruct (answers _ _ _ _ _ _) as [n|y].
    + destruct (update_held c a r _ VNone [("trigger"%string, VTrigger tr); ("next_run_time"%string, opt_date n)] h h1 I S H eq_refl eq_refl eq_refl ST1 I1 (update_trigger (c_tenv c) (hp h r) (c_self c) tr n TS)) as (h' & E & X). rewrite E. exists h'. split; [reflexivity|exact X].
    + exists h1. auto.
Qed.

(** ** Concrete cases, and where a handle goes stale *)
Definition is_fine (x : result unit) : bool := match x with Ok _ => true | Err _ => false end.
Lemma reach_run c : forall l h, reach c h -> forallb is_fine (snd (h_calls c l h)) = true -> reach c (fst (h_calls c l h)).
Proof.
  induction l as [|[e o] l IH]; intros h R; [intros _; exact R|]. cbn [h_calls]. destruct (h_call c e o h) as [h1 x] eqn:E. specialize (IH h1). destruct (h_calls c l h1) as [h2 xs]. cbn [fst snd forallb] in *. intros W. apply andb_prop in W as [W1 W2].
  apply IH; [|exact W2]. eapply reach1; [exact R|exact E|]. destruct x; [|discriminate]. destruct o; cbn; eauto.
Qed.
Definition hx_task (id store : string) : task := MkTask id "job" (every 5 None) None (Some "default"%string) (Some store) (Some (sec 1)) false 1 None None (VList []) (VDict []) (Some 0%nat) true false.
Definition hx_calls : list (envir * call) :=
  [(quiet 0, CStore "db" false); (quiet 0, CNew (hx_task "wait" "default")); (quiet 0, CAdd 0 false None); (quiet 0, CStart false);
   (quiet 0, CNew (hx_task "mem" "default")); (quiet 0, CAdd 1 false None); (quiet 0, CNew (hx_task "dur" "db")); (quiet 0, CAdd 2 false None)].
Definition hx : hstate := fst (h_calls ex_cfg hx_calls (h_empty ex_cfg)).
Example C104_case_reach : reach ex_cfg hx.
Proof. apply reach_run; [constructor|]. vm_compute. reflexivity. Qed.
(** objects 0 (added before the start) and 1 stand in the memory store and name it; 2 does not stand anywhere *)
Example C104_case : stopped (hk hx) = false /\ stands hx "default" 0 /\ stands hx "default" 1 /\ ~ stands hx "db" 2 /\
  (forall r, (r < 2)%nat -> t_sched (hp hx r) = Some (c_self ex_cfg) /\ t_store (hp hx r) = Some "default"%string /\ t_next (hp hx r) <> None) /\
  lookup_task "dur" (Some "db"%string) (abs hx) = Ok (hp hx 2, Some "db"%string).
Proof.
  sp.
  - vm_compute. reflexivity.
  - eexists _, _, _. split; [vm_compute; reflexivity|]. vm_compute. auto.
  - eexists _, _, _. split; [vm_compute; reflexivity|]. vm_compute. auto.
  - intros (m & x & y & D & _). vm_compute in D. discriminate.
  - intros [|[|r]] L; try lia; vm_compute; sp; auto; discriminate.
  - vm_compute. reflexivity.
Qed.
(** The Task of a durable store goes stale: pause() pauses the stored task and leaves the attributes of the Task the caller holds. *)
Theorem C104_durable_handle_stale_refuted : exists c e h r h',
  reach c h /\ stopped (hk h) = false /\ lookup_task (t_id (hp h r)) (t_store (hp h r)) (abs h) = Ok (hp h r, t_store (hp h r)) /\ t_next (hp h r) <> None /\
  handle c e r MPause h = (h', Ok tt) /\ t_next (hp h' r) = t_next (hp h r) /\
  (exists t w, lookup_task (t_id (hp h r)) (t_store (hp h r)) (abs h') = Ok (t, w) /\ t_next t = None).
Proof.
  exists ex_cfg, (quiet 1), hx, 2%nat. eexists. split; [exact C104_case_reach|]. sp.
  - vm_compute. reflexivity.
  - vm_compute. reflexivity.
  - vm_compute. discriminate.
  - rewrite (surjective_pairing (handle ex_cfg (quiet 1) 2 MPause hx)). f_equal; vm_compute; reflexivity.
  - vm_compute. reflexivity.
  - eexists _, _. split; vm_compute; reflexivity.
Qed.
(** A Task that was replaced still has the id: its pause() pauses the task that took its place, and not itself. *)
Theorem C104_replaced_handle_refuted : exists c e h old new h',
  reach c h /\ stopped (hk h) = false /\ stands h "default" new /\ ~ stands h "default" old /\ old <> new /\ t_next (hp h old) <> None /\ t_next (hp h new) <> None /\
  handle c e old MPause h = (h', Ok tt) /\ t_next (hp h' old) = t_next (hp h old) /\ t_next (hp h' new) = None.
Proof.
  pose (l := (hx_calls ++ [(quiet 0, CNew (hx_task "mem" "default")); (quiet 0, CAdd 3 true None)])%list).
  exists ex_cfg, (quiet 1), (fst (h_calls ex_cfg l (h_empty ex_cfg))), 1%nat, 3%nat. eexists. split; [apply reach_run; [constructor|vm_compute; reflexivity]|]. sp.
  - vm_compute. reflexivity.
  - eexists _, _, _. split; [vm_compute; reflexivity|]. vm_compute. auto.
  - intros (m & x & y & D & Q). vm_compute in D. injection D as <- _ _. vm_compute in Q. repeat (destruct Q as [Q|Q]; [discriminate|]). exact Q.
  - discriminate.
  - vm_compute. discriminate.
  - vm_compute. discriminate.
  - rewrite (surjective_pairing (handle _ _ _ _ _)). f_equal; vm_compute; reflexivity.
  - vm_compute. reflexivity.
  - vm_compute. reflexivity.
Qed.
(** update(store_alias=...) renames the store on the Task and does not move it: from then on the Task cannot find itself. *)
Theorem C104_renamed_store_refuted : exists c e h r h' t',
  reach c h /\ stopped (hk h) = false /\ stands h "default" r /\ t_store (hp h r) = Some "default"%string /\
  handle c e r (MUpdate VNone [("store_alias"%string, VStr "db")]) h = (h', Ok tt) /\ stands h' "default" r /\ hp h' r = t' /\ t_store t' = Some "db"%string /\
  snd (handle c e r MPause h') = Err TaskLookupError /\ snd (handle c e r MDelete h') = Err TaskLookupError.
Proof.
  exists ex_cfg, (quiet 1), hx, 1%nat. eexists _, _. split; [exact C104_case_reach|]. sp.
  - vm_compute. reflexivity.
  - apply C104_case.
  - vm_compute. reflexivity.
  - rewrite (surjective_pairing (handle _ _ _ _ _)). f_equal; vm_compute; reflexivity.
  - eexists _, _, _. split; [vm_compute; reflexivity|]. vm_compute. auto.
  - reflexivity.
  - vm_compute. reflexivity.
  - vm_compute. reflexivity.
  - vm_compute. reflexivity.
Qed.
(** a pass: the object the caller holds shows the new run time *)
Example C104_case_pass : exists h', fst (h_call ex_cfg (quiet (sec 6)) CPass hx) = h' /\ reach ex_cfg h' /\ t_next (hp hx 1) <> t_next (hp h' 1) /\ t_next (hp h' 2) = t_next (hp hx 2) /\
  lookup_task "mem" (Some "default"%string) (abs h') = Ok (hp h' 1, Some "default"%string) /\ h_get "mem" (Some "default"%string) h' = (h', Some 1%nat).
Proof.
  eexists. split; [reflexivity|]. sp.
  - eapply reach1; [exact C104_case_reach|apply surjective_pairing|exact Logic.I].
  - vm_compute. discriminate.
  - vm_compute. reflexivity.
  - vm_compute. reflexivity.
  - eapply C104_holder_and_store_share with (c := ex_cfg) (r := 1%nat) (h := fst (h_call ex_cfg (quiet (sec 6)) CPass hx)).
    + eapply reach1; [exact C104_case_reach|apply surjective_pairing|exact Logic.I].
    + vm_compute. reflexivity.
    + eexists _, _, _. split; [vm_compute; reflexivity|]. vm_compute. auto.
Qed.
(** resume() and reschedule() of the Task held, and adding it again *)
Example C104_case_resume : exists n, answers (c_fuel ex_cfg) (c_oracle ex_cfg) (t_trigger (hp hx 1)) (sec 3) (draws (hk hx)) None = Ok (Some n) /\
  t_next (hp (fst (handle ex_cfg (quiet (sec 3)) 1 MResume hx)) 1) = Some n /\ snd (h_call ex_cfg (quiet (sec 3)) (CAdd 1 true None) hx) = Err AssertionError /\
  t_trigger (hp (fst (handle ex_cfg (quiet (sec 3)) 1 (MReschedule (every 9 None)) hx)) 1) = every 9 None.
Proof. eexists. sp; vm_compute; reflexivity. Qed.
