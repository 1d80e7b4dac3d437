(** Proofs about interrupted passes and restarts. *)
From Verif Require Import Prelude PreludeFacts MemStore StoreSpec MemStoreProofs CallArgs Cron Triggers TriggerSpec Task TaskSpec TaskProofs TriggersProofs Scheduler Executor SchedSpec SchedProofs SchedProofs2 SchedReach LifeSpec LifeProofs Crash CrashSpec.
Open Scope Z_scope.

(** what a pass, complete or not, can have done to one stored task: nothing, handed it over, or dealt with it *)
Inductive effect (c : config) (e : envir) (s : sched) (t : task) : option task -> list submission -> Prop :=
| eff_none : effect c e s t (Some t) []
| eff_handed xa l times m k k' : get_run_times (c_fuel c) (c_oracle c) k t (e_now e) = Ok (l, k') -> coalesce_run_times (t_coalesce t) l = (times, m) ->
    effect c e s t (Some t) [MkSub xa (t_id t) times (t_max t)]
| eff_done f n : handled c e (has_exec s) (fun i => count i s) t f n -> effect c e s t (option_map (fun x => set_next (Some x) t) n) (submission_of t f).

Lemma of_task_app id l1 l2 : of_task id (l1 ++ l2) = of_task id l1 ++ of_task id l2.
Proof. apply filter_app. Qed.
Lemma submission_same t f : of_task (t_id t) (submission_of t f) = submission_of t f.
Proof. destruct f; cbn; auto. rewrite String.eqb_refl. reflexivity. Qed.
Lemma submission_other t f id : t_id t <> id -> of_task id (submission_of t f) = [].
Proof. intros N. destruct f; cbn; auto. apply String.eqb_neq in N. rewrite N. reflexivity. Qed.

Lemma pass_none c e ex id : forall due fs cnt, pass c e ex cnt due fs -> (forall a t, In (a, t) due -> t_id t <> id) -> of_task id (collect g_sub due fs) = [].
Proof.
  induction due as [|[b u] due IH]; intros [|[f n] fs] cnt; cbn [pass collect]; try tauto. intros [H P] N. rewrite of_task_app.
  rewrite (IH _ _ P); [|intros; eapply N; right; eauto]. unfold g_sub. rewrite submission_other; auto. eapply N. left. reflexivity.
Qed.
Lemma handled_count c e ex cnt cnt' t f n : cnt (t_id t) = cnt' (t_id t) -> handled c e ex cnt t f n -> handled c e ex cnt' t f n.
Proof.
  intros E. unfold handled. destruct f; auto; intros (xa & l & k & k' & H1 & H2 & H3 & H4 & H); exists xa, l, k, k'; rewrite <- E; auto.
Qed.
Lemma pass_for c e ex a t : forall due fs cnt, pass c e ex cnt due fs -> NoDup (map (fun x => (fst x, t_id (snd x))) due) ->
  In (a, t) due -> (forall b u, In (b, u) due -> t_id u = t_id t -> b = a) ->
  exists f n, In ((a, t), (f, n)) (combine due fs) /\ handled c e ex cnt t f n /\ of_task (t_id t) (collect g_sub due fs) = submission_of t f.
Proof.
  induction due as [|[b u] due IH]; intros [|[f n] fs] cnt; cbn [pass]; try (intros; contradiction). intros [H P] ND Hi O. cbn in ND. inversion ND as [|? ? N1 N2]; subst.
  cbn [collect combine]. rewrite of_task_app. destruct Hi as [E|Hi].
  - injection E as -> ->. exists f, n. split; [left; auto|]. split; [exact H|]. unfold g_sub at 1. rewrite submission_same. erewrite pass_none; [apply app_nil_r|exact P|].
    intros b w Hw E. apply N1. apply in_map_iff. exists (b, w). split; auto. cbn. rewrite E. f_equal. eapply O; [right; exact Hw|auto].
  - assert (Nu : t_id u <> t_id t). { intros E. apply N1. rewrite E. assert (b = a) as -> by (eapply O; [left; reflexivity|auto]). apply in_map_iff. exists (a, t). auto. }
    destruct (IH fs _ P N2 Hi) as (f0 & n0 & A & B & C); [intros; eapply O; [right; eauto|auto]|]. exists f0, n0. split; [right; exact A|]. split.
    + eapply handled_count; [|exact B]. unfold bump. destruct f; auto. destruct (String.eqb_spec (t_id t) (t_id u)); congruence.
    + rewrite C. unfold g_sub. rewrite submission_other by auto. reflexivity.
Qed.

(** a batch of handled tasks, seen from one task *)
Definition keys (due : list (string * task)) := map (fun x => (fst x, t_id (snd x))) due.
Definition from_stores (s : sched) (due : list (string * task)) : Prop := NoDup (keys due) /\ forall a t, In (a, t) due -> stored s a (t_id t) = Some t.
Lemma batch_effect c e s ev due fs s1 ev1 a t : batch c e s ev due fs s1 ev1 -> from_stores s due -> stored s a (t_id t) = Some t -> nowhere_else s a (t_id t) ->
  (In (a, t) due /\ exists f n, handled c e (has_exec s) (fun i => count i s) t f n /\ stored s1 a (t_id t) = option_map (fun x => set_next (Some x) t) n /\
     of_task (t_id t) (collect g_sub due fs) = submission_of t f) \/
  (~ In (a, t) due /\ (forall b u, In (b, u) due -> t_id u <> t_id t) /\ stored s1 a (t_id t) = Some t /\ of_task (t_id t) (collect g_sub due fs) = []).
Proof.
  intros B [ND F] S NW. destruct (b_stores _ _ _ _ _ _ _ _ B) as [X1 X2].
  assert (O : forall b u, In (b, u) due -> t_id u = t_id t -> b = a).
  { intros b u Hu E. apply F in Hu. destruct (string_dec b a); auto. rewrite E, (NW b) in Hu by auto. discriminate. }
  assert (Dec : In (a, t) due \/ forall b u, In (b, u) due -> t_id u <> t_id t).
  { assert (D : In (t_id t) (map (fun x => t_id (snd x)) due) \/ ~ In (t_id t) (map (fun x => t_id (snd x)) due)) by (destruct (in_dec string_dec (t_id t) (map (fun x => t_id (snd x)) due)); auto).
    destruct D as [D|D].
    - left. apply in_map_iff in D as ([b u] & E & Hu). cbn in E. pose proof (O _ _ Hu E) as ->. pose proof (F _ _ Hu) as Y. rewrite E, S in Y. injection Y as ->. exact Hu.
    - right. intros b u Hu E. apply D. apply in_map_iff. exists (b, u). auto. }
  destruct Dec as [Hi|N].
  - left. split; auto. destruct (pass_for _ _ _ a t _ _ _ (b_pass _ _ _ _ _ _ _ _ B) ND Hi O) as (f & n & A1 & A2 & A3). exists f, n. split; [exact A2|]. split; [eapply X1; exact A1|exact A3].
  - right. assert (Ni : ~ In (a, t) due) by (intros H; exact (N _ _ H eq_refl)). split; auto. split; auto. split.
    + rewrite X2; [exact S|intros; eapply N; eauto].
    + eapply pass_none; [exact (b_pass _ _ _ _ _ _ _ _ B)|exact N].
Qed.

(** one task cut short *)
Definition halted (c : config) (e : envir) (t : task) (s s' : sched) : Prop :=
  frame s s' /\ stores s' = stores s /\ exists u, subs s' = subs s ++ u /\
    (u = [] \/ exists xa l times m k k', u = [MkSub xa (t_id t) times (t_max t)] /\
      get_run_times (c_fuel c) (c_oracle c) k t (e_now e) = Ok (l, k') /\ coalesce_run_times (t_coalesce t) l = (times, m)).
Lemma send_halted c e xa t times m l k k' s : get_run_times (c_fuel c) (c_oracle c) k t (e_now e) = Ok (l, k') -> coalesce_run_times (t_coalesce t) l = (times, m) ->
  halted c e t s (fst (send_task e xa t times (w_draws k' s))).
Proof.
  intros G C. unfold send_task. destruct (_ >=? _); [|destruct (e_send_fails e xa (t_id t))]; cbn [fst].
  - split; [apply frame_draws|]. split; auto. exists []. split; [cbn; rewrite app_nil_r; auto|auto].
  - split; [apply frame_draws|]. split; auto. exists []. split; [cbn; rewrite app_nil_r; auto|auto].
  - split; [constructor; reflexivity|]. split; auto. exists [MkSub xa (t_id t) times (t_max t)]. split; [reflexivity|]. right. exists xa, l, times, m, k, k'. auto.
Qed.
Lemma hand_over_halted c e t s : halted c e t s (hand_over c e t s).
Proof.
  unfold hand_over. destruct (match t_exec t with Some xa => _ | None => _ end) as [xa|]; [|split; [apply frame_refl|split; auto; exists []; rewrite app_nil_r; auto]].
  destruct (get_run_times (c_fuel c) (c_oracle c) (draws s) t (e_now e)) as [[l k]|] eqn:G; [|split; [apply frame_refl|split; auto; exists []; rewrite app_nil_r; auto]].
  destruct (coalesce_run_times (t_coalesce t) l) as [times m] eqn:C. cbn [fst]. destruct times as [|x times]; [split; [apply frame_draws|split; auto; exists []; cbn; rewrite app_nil_r; auto]|].
  eapply send_halted; eauto.
Qed.
Lemma raised_halted c e a t s ev s1 ev1 x : wf s -> stopped s = false -> t_id t <> ""%string -> stored s a (t_id t) = Some t -> is_due t_next (e_now e) t ->
  process_one c e a t (s, ev) = ((s1, ev1), Err x) -> halted c e t s s1.
Proof.
  intros W St Hid HS HD. unfold process_one.
  destruct (match t_exec t with Some xa => if dmem xa (execs s) then Some xa else None | None => None end) as [xa|] eqn:EX.
  2:{ pose proof (delete_task_spec (t_id t) (Some a) s W St Hid) as U. destruct (delete_task (t_id t) (Some a) s) as [s3 r3]. destruct U as (U1 & U2 & U3 & U4 & U5 & U6). intros [= <- <- ->].
      destruct U6 as [(_ & _ & _ & N)|(b0 & t0 & E & _)]; [|discriminate]. specialize (N a (String.eqb_refl a)). congruence. }
  destruct (get_run_times (c_fuel c) (c_oracle c) (draws s) t (e_now e)) as [[due k]|y] eqn:G.
  2:{ intros [= <- <- <-]. split; [apply frame_refl|]. split; auto. exists []. rewrite app_nil_r. auto. }
  destruct (coalesce_run_times (t_coalesce t) due) as [times m] eqn:CO.
  destruct (last_opt times) as [lastt|] eqn:LA; [|discriminate].
  pose proof (send_halted c e xa t times m due (draws s) k s G CO) as HH. destruct (send_task e xa t times (w_draws k s)) as [s1' r1]. cbn [fst] in HH.
  assert (HX : forall j, halted c e t s (w_draws j s1')). { intros j. destruct HH as (F & E & u & Eu & R). split; [eapply frame_trans; [exact F|apply frame_draws]|]. split; auto. exists u. auto. }
  unfold ask. destruct (answers (c_fuel c) (c_oracle c) (t_trigger t) (e_now e) (draws s1') (Some lastt)) as [[y|]|y].
  - set (s2 := w_draws (S (draws s1')) s1') in *. specialize (HX (S (draws s1'))). fold s2 in HX. destruct HX as (F & E & u & Eu & R).
    assert (W2 : wf s2) by (apply (wf_same s); auto; apply F).
    pose proof (store_update_spec a (set_next (Some y) t) s2 W2) as U. destruct (store_update a (set_next (Some y) t) s2) as [s3 r3].
    destruct U as (U1 & U2 & U3 & U4 & U5 & U6 & U7). intros [= <- <- ->].
    assert (SS : stored s2 a (t_id t) = Some t) by (erewrite stored_same; eauto). destruct U7 as [(_ & N & _)|[(_ & N & _)|(Y & _)]]; [|cbn in N; congruence|discriminate].
    exfalso. apply N. eapply has_stored; eauto.
  - set (s2 := w_draws (S (draws s1')) s1') in *. specialize (HX (S (draws s1'))). fold s2 in HX. destruct HX as (F & E & u & Eu & R).
    assert (W2 : wf s2) by (apply (wf_same s); auto; apply F). assert (St2 : stopped s2 = false) by (unfold stopped in *; rewrite (fr_st _ _ F); auto).
    pose proof (delete_task_spec (t_id t) (Some a) s2 W2 St2 Hid) as U. destruct (delete_task (t_id t) (Some a) s2) as [s3 r3]. destruct U as (U1 & U2 & U3 & U4 & U5 & U6). intros [= <- <- ->].
    destruct U6 as [(_ & _ & _ & N)|(b0 & t0 & Y & _)]; [|discriminate]. specialize (N a (String.eqb_refl a)). assert (SS : stored s2 a (t_id t) = Some t) by (erewrite stored_same; eauto). congruence.
  - intros [= <- <- <-]. apply HX.
Qed.

(** the states in which a pass can be cut short: some tasks dealt with, perhaps one more halted *)
Definition cut_at (c : config) (e : envir) (s s' : sched) (due rest : list (string * task)) (fs : list (fate * option Z)) : Prop :=
  exists s1 ev ev1, batch c e s ev due fs s1 ev1 /\
    (s' = s1 \/ exists b u rest', rest = (b, u) :: rest' /\ halted c e u s1 s').
Lemma cut_due_spec c e a : forall l s s', cut_due c e a l s s' -> wf s -> stopped s = false -> NoDup (map t_id l) ->
  (forall t, In t l -> ready c e s (a, t)) -> exists l1 l2 fs, l = l1 ++ l2 /\ cut_at c e s s' (map (pair a) l1) (map (pair a) l2) fs.
Proof.
  intros l s s' H. induction H as [l s|t l s|t l s ev s1 ev1 x P|t l s ev s1 ev1 s2 P H IH]; intros W St ND R.
  - exists [], l, []. split; auto. exists s, [], []. split; [apply batch_nil; auto|auto].
  - exists [], (t :: l), []. split; auto. exists s, [], []. split; [apply batch_nil; auto|]. right. exists a, t, (map (pair a) l). split; auto. apply hand_over_halted.
  - exists [], (t :: l), []. split; auto. exists s, [], []. split; [apply batch_nil; auto|]. right. exists a, t, (map (pair a) l). split; auto.
    destruct (R t (or_introl eq_refl)) as (R1 & R2 & R3). eapply raised_halted; eauto.
  - cbn in ND. inversion ND as [|? ? N1 N2]; subst. destruct (R t (or_introl eq_refl)) as (R1 & R2 & R3); cbn in R1, R2, R3.
    pose proof (process_one_spec _ _ _ _ _ _ _ _ _ W St R3 R1 R2 P) as (f & n & Q1 & Q2 & Q3 & Q4 & Q5 & Q6 & Q7 & Q8).
    assert (B1 : batch c e s ev [(a, t)] [(f, n)] s1 ev1).
    { constructor; cbn [pass collect counts_after combine]; rewrite ?app_nil_r; auto. split.
      - intros b t0 f0 n0 [[= <- <- <- <-]|[]]. rewrite Q8, !String.eqb_refl. reflexivity.
      - intros b id Hb. rewrite Q8. destruct (String.eqb_spec b a) as [->|]; cbn; auto.
        destruct (String.eqb_spec id (t_id t)) as [->|]; auto. exfalso. apply (Hb t); cbn; auto. }
    assert (St1 : stopped s1 = false) by (unfold stopped in *; rewrite (fr_st _ _ Q2); auto).
    destruct IH as (l1 & l2 & fs & -> & s3 & ev3 & ev4 & B2 & T); auto.
    { intros t0 H0. destruct (R t0 (or_intror H0)) as (X1 & X2 & X3). split; [|split]; auto. cbn in *.
      rewrite Q8, String.eqb_refl. cbn. destruct (String.eqb_spec (t_id t0) (t_id t)) as [E|]; auto. exfalso. apply N1. rewrite <- E. apply in_map, H0. }
    exists (t :: l1), l2, ((f, n) :: fs). split; auto. exists s3, ev, (ev1 ++ collect g_ev (map (pair a) l1) fs). split; [|exact T].
    change (map (pair a) (t :: l1)) with ([(a, t)] ++ map (pair a) l1). change ((f, n) :: fs) with ([(f, n)] ++ fs). eapply batch_app; [exact B1| |].
    + destruct B2 as [b1 b2 b3 b4 b5 b6 b7 b8]. constructor; auto.
    + intros b t1 t2 [[= <- <-]|[]] H2. apply in_map_iff in H2 as (t3 & [= <-] & H3). intros E. apply N1. rewrite E. apply in_map, in_or_app. auto.
Qed.

Lemma batch_events c e s ev due fs s1 ev1 ev' : batch c e s ev due fs s1 ev1 -> batch c e s ev' due fs s1 (ev' ++ collect g_ev due fs).
Proof. intros [b1 b2 b3 b4 b5 b6 b7 b8]. constructor; auto. Qed.

Lemma cut_stores_spec c e : forall l s s', cut_stores c e l s s' -> wf s -> stopped s = false -> no_empty_id s -> NoDup l -> (forall a, In a l -> has_store s a) ->
  exists due rest fs, from_stores s (due ++ rest) /\ (forall a t, In (a, t) (due ++ rest) -> In a l /\ readable e a /\ is_due t_next (e_now e) t) /\ cut_at c e s s' due rest fs.
Proof.
  intros l s s' H. induction H as [l s|a l s x s1 G RD H|a l s w ev s1 ev1 w1 s2 P H IH]; intros W St NE ND HS.
  - exists [], [], []. split; [split; [constructor|intros ? ? []]|]. split; [intros ? ? []|]. exists s, [], []. split; [apply batch_nil; auto|auto].
  - assert (R : readable e a) by (apply orb_false_iff in RD; exact RD).
    pose proof (due_ok t_id t_next (s_mem x) (e_now e) (wf_inv _ W _ _ G)) as (D1 & D2 & D3).
    assert (HR : forall t, In t (ms_due (s_mem x) (e_now e)) -> ready c e s (a, t)).
    { intros t Ht. apply D3 in Ht as [H1 H2]. assert (SS : stored s a (t_id t) = Some t) by (unfold stored; rewrite G; exact H1).
      split; [exact SS|split; [exact H2|]]. cbn. intros E. rewrite E in SS. rewrite (NE a) in SS. discriminate. }
    destruct (cut_due_spec _ _ _ _ _ _ H W St D1 HR) as (l1 & l2 & fs & E & C). exists (map (pair a) l1), (map (pair a) l2), fs. rewrite <- map_app, <- E. split; [split|split; [|exact C]].
    + unfold keys. rewrite map_map. cbn. apply NoDup_map_inv with (f := snd). rewrite map_map. cbn. exact D1.
    + intros b t Hi. apply in_map_iff in Hi as (t0 & [= <- <-] & Hi). apply HR. exact Hi.
    + intros b t Hi. apply in_map_iff in Hi as (t0 & [= <- <-] & Hi). split; [left; auto|]. split; auto. apply (HR t0 Hi).
  - inversion ND as [|? ? N1 N2]; subst. pose proof (process_store_spec _ _ _ _ _ _ _ _ _ W St NE (HS a (or_introl eq_refl)) P) as (due1 & fs1 & D1 & B1 & _).
    pose proof (b_frame _ _ _ _ _ _ _ _ B1) as F1.
    assert (OTH : forall b id, b <> a -> stored s1 b id = stored s b id).
    { intros b id Hb. eapply batch_other; eauto. intros t Ht. apply (proj2 D1) in Ht as ([->|[]] & _). auto. }
    destruct IH as (due2 & rest & fs2 & (K1 & K2) & K3 & s3 & ev3 & ev4 & B2 & T); auto.
    1: exact (b_wf _ _ _ _ _ _ _ _ B1).
    1: unfold stopped in *; rewrite (fr_st _ _ F1); auto.
    1: eapply due_not_empty; eauto.
    1: intros b Hb; eapply has_store_frame; [exact F1|]; apply HS; right; exact Hb.
    exists (due1 ++ due2), rest, (fs1 ++ fs2). rewrite <- app_assoc.
    split; [split|split].
    + unfold keys. rewrite map_app. apply NoDup_app_intro; [apply D1|exact K1|].
      intros [b i] H1 H2. apply in_map_iff in H1 as ([b1 t1] & [= <- <-] & H1), H2 as ([b2 t2] & [= -> _] & H2).
      apply (proj2 D1) in H1 as ([->|[]] & _). apply K3 in H2 as (? & _). auto.
    + intros b t Hi. apply in_app_or in Hi as [Hi|Hi]; [apply (proj2 D1) in Hi; tauto|]. rewrite <- OTH; [apply K2; auto|]. apply K3 in Hi as (? & _). congruence.
    + intros b t Hi. apply in_app_or in Hi as [Hi|Hi]; [apply (proj2 D1) in Hi as ([->|[]] & R & _ & Du); cbn; auto|]. apply K3 in Hi as (? & ? & ?). cbn; auto.
    + exists s3, ev, (ev1 ++ collect g_ev due2 fs2). split; [|exact T]. eapply batch_app; [exact B1|eapply batch_events; exact B2|].
      intros b t1 t2 H1 H2. apply (proj2 D1) in H1 as ([->|[]] & _). destruct (K3 b t2) as (? & _); [apply in_or_app; auto|]. tauto.
Qed.

(** what is left when a pass raises is one of the states in which it can be cut short *)
Lemma due_raises c e a : forall l s ev s1 ev1 x, process_due c e a l (s, ev) = ((s1, ev1), Err x) -> cut_due c e a l s s1.
Proof.
  induction l as [|t l IH]; intros s ev s1 ev1 x; cbn [process_due]; [discriminate|]. destruct (process_one c e a t (s, ev)) as [[s2 ev2] [[]|y]] eqn:P.
  - intros H. eapply cut_later; [exact P|]. eapply IH. exact H.
  - intros [= <- <- <-]. eapply cut_raised. exact P.
Qed.
Lemma stores_raise c e : forall l w s ev s1 ev1 x, process_stores c e l w (s, ev) = ((s1, ev1), Err x) -> cut_stores c e l s s1.
Proof.
  induction l as [|a l IH]; intros w s ev s1 ev1 x; cbn [process_stores]; [discriminate|]. destruct (process_store c e a w (s, ev)) as [[s2 ev2] [w2|y]] eqn:P.
  - intros H. eapply cuts_later; [exact P|]. eapply IH. exact H.
  - intros [= <- <- <-]. unfold process_store in P. destruct (dget a (stores s)) as [z|] eqn:G; [|discriminate].
    destruct (e_busy e a || e_fails e a) eqn:R; [discriminate|]. destruct (process_due c e a (ms_due (s_mem z) (e_now e)) (s, ev)) as [[s3 ev3] [u|v]] eqn:D; [discriminate|].
    assert (s3 = s2) as <- by congruence. eapply cuts_in; eauto. eapply due_raises. exact D.
Qed.
Lemma pass_raises c e s s1 x : st s = RUNNING -> process_tasks c e s = (s1, Err x) -> cut_pass c e s s1.
Proof.
  intros St. unfold process_tasks, cut_pass. rewrite St. cbn [sstate_eqb]. destruct (e_plock e); [discriminate|].
  destruct (process_stores c e (dkeys (stores s)) None (s, [])) as [[s2 ev] [w|y]] eqn:P; [discriminate|]. intros [= <- <-]. eapply stores_raise. exact P.
Qed.

(** an interrupted pass, seen from one task *)
Lemma keys_app l1 l2 : keys (l1 ++ l2) = keys l1 ++ keys l2. Proof. apply map_app. Qed.
Lemma NoDup_left {A} (l1 l2 : list A) : NoDup (l1 ++ l2) -> NoDup l1.
Proof. induction l1 as [|x l1 IH]; intros N; [constructor|]. inversion N; subst. constructor; auto. intros H. apply H1, in_or_app; auto. Qed.
Lemma NoDup_apart {A} (l1 l2 : list A) x : NoDup (l1 ++ l2) -> In x l1 -> In x l2 -> False.
Proof. induction l1 as [|y l1 IH]; cbn; [tauto|]. intros N H1 H2. inversion N as [|? ? N1 N2]; subst. destruct H1 as [->|H1]; [apply N1, in_or_app; auto|eauto]. Qed.

Lemma cut_pass_spec c e s s' : wf s -> st s = RUNNING -> no_empty_id s -> cut_pass c e s s' ->
  wf s' /\ frame s s' /\ exists new, subs s' = subs s ++ new /\
    forall a id, nowhere_else s a id ->
      match stored s a id with
      | None => stored s' a id = None /\ of_task id new = []
      | Some t => t_id t = id -> effect c e s t (stored s' a id) (of_task id new)
      end.
Proof.
  intros W St NE H. assert (Sp : stopped s = false) by (unfold stopped; rewrite St; auto). unfold cut_pass in H. destruct (e_plock e).
  { subst s'. split; auto. split; [apply frame_refl|]. exists []. split; [rewrite app_nil_r; auto|]. intros a id NW. destruct (stored s a id) as [t|] eqn:E; [|split; auto]. intros <-. constructor. }
  destruct (cut_stores_spec _ _ _ _ _ H W Sp NE (wf_keys _ W) (fun a H => proj2 (has_keys s a) H)) as (due & rest & fs & (K1 & K2) & K3 & s1 & ev & ev1 & B & T).
  pose proof (b_frame _ _ _ _ _ _ _ _ B) as F1. pose proof (b_wf _ _ _ _ _ _ _ _ B) as W1. pose proof (b_subs _ _ _ _ _ _ _ _ B) as U1.
  rewrite keys_app in K1.
  assert (FS : from_stores s due) by (split; [eapply NoDup_left; exact K1|intros; apply K2, in_or_app; auto]).
  assert (NONE : forall a id, nowhere_else s a id -> stored s a id = None -> stored s1 a id = None /\ forall b u, In (b, u) (due ++ rest) -> t_id u <> id).
  { intros a id NW N. assert (X : forall b u, In (b, u) (due ++ rest) -> t_id u <> id).
    { intros b u Hu E. apply K2 in Hu. rewrite E in Hu. destruct (string_dec b a) as [->|Nb]; [congruence|]. rewrite (NW b Nb) in Hu. discriminate. }
    split; auto. destruct (b_stores _ _ _ _ _ _ _ _ B) as [_ X2]. rewrite X2; auto. intros t Ht. eapply X, in_or_app; eauto. }
  destruct T as [->|(b & u & rest' & -> & F2 & E2 & v & Ev & Rv)].
  - split; auto. split; auto. exists (collect g_sub due fs). split; auto. intros a id NW. destruct (stored s a id) as [t|] eqn:E.
    + intros <-. destruct (batch_effect _ _ _ _ _ _ _ _ a t B FS E NW) as [(_ & f & n & H1 & H2 & H3)|(_ & _ & H2 & H3)]; rewrite H2, H3; [apply eff_done; auto|constructor].
    + destruct (NONE a id NW E) as [N1 N2]. split; auto. eapply pass_none; [exact (b_pass _ _ _ _ _ _ _ _ B)|]. intros b t Ht. eapply N2, in_or_app; eauto.
  - split; [apply (wf_same s1); auto; apply F2|]. split; [eapply frame_trans; eauto|]. exists (collect g_sub due fs ++ v). split; [rewrite Ev, U1, app_assoc; auto|].
    intros a id NW. assert (SS : stored s' a id = stored s1 a id) by (apply stored_same; auto). rewrite SS, of_task_app.
    assert (VO : t_id u <> id -> of_task id v = []). { intros N. destruct Rv as [->|(xa & l & times & m & k & k' & -> & _)]; auto. cbn. apply String.eqb_neq in N. rewrite N. auto. }
    pose proof (K2 b u ltac:(apply in_or_app; right; left; auto)) as Su.
    destruct (stored s a id) as [t|] eqn:E.
    + intros <-. destruct (batch_effect _ _ _ _ _ _ _ _ a t B FS E NW) as [(Hi & f & n & H1 & H2 & H3)|(_ & HN & H2 & H3)]; rewrite H2, H3.
      * rewrite VO; [rewrite app_nil_r; apply eff_done; auto|]. intros Eu. assert (b = a) as ->. { destruct (string_dec b a); auto. rewrite Eu, (NW b) in Su by auto. discriminate. }
        eapply (NoDup_apart _ _ (a, t_id t) K1); [apply in_map_iff; exists (a, t); auto|left; cbn; rewrite Eu; auto].
      * destruct (string_dec (t_id u) (t_id t)) as [Eu|Nu]; [|rewrite VO by auto; constructor].
        assert (b = a) as ->. { destruct (string_dec b a); auto. rewrite Eu, (NW b) in Su by auto. discriminate. } assert (u = t) as -> by (rewrite Eu in Su; congruence).
        destruct Rv as [->|(xa & l & times & m & k & k' & -> & G & C)]; [constructor|]. cbn. rewrite String.eqb_refl. eapply eff_handed; eauto.
    + destruct (NONE a id NW E) as [N1 N2]. split; auto. rewrite VO; [|apply (N2 b), in_or_app; right; left; auto]. rewrite app_nil_r. eapply pass_none; [exact (b_pass _ _ _ _ _ _ _ _ B)|]. intros b0 t Ht. eapply N2, in_or_app; eauto.
Qed.

(** a complete pass, seen from one task *)
Lemma pass_spec c e s s' d : wf s -> st s = RUNNING -> no_empty_id s -> process_tasks c e s = (s', Ok d) ->
  wf s' /\ exists new, subs s' = subs s ++ new /\
    forall a id, nowhere_else s a id ->
      match stored s a id with
      | None => stored s' a id = None /\ of_task id new = []
      | Some t => t_id t = id ->
          (stored s' a id = Some t /\ of_task id new = [] /\ ~ (e_plock e = false /\ readable e a /\ is_due t_next (e_now e) t)) \/
          (exists f n, handled c e (has_exec s) (fun i => count i s) t f n /\ stored s' a id = option_map (fun x => set_next (Some x) t) n /\ of_task id new = submission_of t f)
      end.
Proof.
  intros W St NE P. split; [pose proof (wf_process_tasks c e s W) as X; rewrite P in X; exact X|].
  destruct (e_plock e) eqn:PL.
  { unfold process_tasks in P. rewrite St, PL in P. cbn in P. injection P as <- _. exists []. split; [cbn; rewrite app_nil_r; auto|]. intros a id NW.
    destruct (stored s a id) as [t|] eqn:E; [|split; auto]. intros <-. left. split; auto. split; auto. intros [? _]. discriminate. }
  destruct (process_tasks_spec _ _ _ _ _ W St PL NE P) as (due & fs & w & s1 & [D1 D2] & B & -> & _).
  assert (FS : from_stores s due) by (split; auto; intros a t Hi; apply D2 in Hi; tauto).
  exists (collect g_sub due fs). split; [exact (b_subs _ _ _ _ _ _ _ _ B)|]. intros a id NW. change (stored (w_evs _ s1) a id) with (stored s1 a id). destruct (stored s a id) as [t|] eqn:E.
  - intros <-. destruct (batch_effect _ _ _ _ _ _ _ _ a t B FS E NW) as [(_ & f & n & H1 & H2 & H3)|(HN & _ & H2 & H3)]; [right; eauto|left]. split; auto. split; auto. intros (_ & R & Du). apply HN, D2. auto.
  - assert (X : forall b u, In (b, u) due -> t_id u <> id).
    { intros b u Hu Eu. apply (proj2 FS) in Hu. rewrite Eu in Hu. destruct (string_dec b a) as [->|Nb]; [congruence|]. rewrite (NW b Nb) in Hu. discriminate. }
    split; [|eapply pass_none; [exact (b_pass _ _ _ _ _ _ _ _ B)|exact X]]. destruct (b_stores _ _ _ _ _ _ _ _ B) as [_ X2]. rewrite X2; auto. intros; eapply X; eauto.
Qed.

(** ** the next process *)
Lemma with_execs_spec : forall l s, stopped s = true -> wf s -> NoDup (dkeys l) -> (forall a, In a (dkeys l) -> dget a (execs s) = None) ->
  let s' := with_execs l s in wf s' /\ stopped s' = true /\ stores s' = stores s /\ pend s' = pend s /\ subs s' = subs s /\ insts s' = insts s /\ refc s' = refc s /\
    forall a, has_exec s' a <-> has_exec s a \/ In a (dkeys l).
Proof.
  induction l as [|[a x] l IH]; intros s St W ND HN; cbn [with_execs].
  - cbv zeta. sp; auto. intros a. cbn. tauto.
  - cbn in ND. inversion ND as [|? ? N1 N2]; subst. set (s1 := fst (add_executor a s)).
    assert (E1 : s1 = dispatch (sched_event EXECUTOR_ADDED (Some a)) (w_execs (dset a new_exec (execs s)) s)).
    { unfold s1, add_executor. assert (dmem a (execs s) = false) as ->; [unfold dmem; rewrite HN; auto; left; auto|]. rewrite St. reflexivity. }
    assert (G1 : forall b, dget b (execs s1) = if String.eqb b a then Some new_exec else dget b (execs s)).
    { intros b. rewrite E1. cbn. destruct (String.eqb_spec b a) as [->|]; [apply dget_dset_eq|apply dget_dset_ne; auto]. }
    destruct (IH s1) as (A1 & A2 & A3 & A4 & A5 & A6 & A7 & A8); auto.
    + rewrite E1. exact St.
    + unfold s1. apply wf_add_executor. exact W.
    + intros b Hb. rewrite G1. destruct (String.eqb_spec b a) as [->|]; [contradiction|]. apply HN. right. auto.
    + cbv zeta. rewrite A3, A4, A5, A6, A7. sp; auto; try (rewrite E1; reflexivity). intros b. rewrite A8. unfold has_exec. rewrite G1. cbn. destruct (String.eqb_spec b a) as [->|N]; [split; eauto|]. intuition congruence.
Qed.
Lemma with_stores_spec : forall l s, stopped s = true -> wf s -> NoDup (dkeys l) -> (forall a x, In (a, x) l -> InvT (s_mem x)) -> (forall a, In a (dkeys l) -> dget a (stores s) = None) ->
  let s' := with_stores l s in wf s' /\ stopped s' = true /\ execs s' = execs s /\ pend s' = pend s /\ subs s' = subs s /\ insts s' = insts s /\ refc s' = refc s /\
    forall a, dget a (stores s') = match dget a l with Some x => Some (reopened x) | None => dget a (stores s) end.
Proof.
  induction l as [|[a x] l IH]; intros s St W ND HI HN; cbn [with_stores].
  - cbv zeta. sp; auto.
  - cbn in ND. inversion ND as [|? ? N1 N2]; subst. set (s1 := fst (add_store a (reopened x) s)).
    assert (E1 : s1 = dispatch (sched_event STORE_ADDED (Some a)) (w_stores (dset a (reopened x) (stores s)) s)).
    { unfold s1, add_store. assert (dmem a (stores s) = false) as ->; [unfold dmem; rewrite HN; auto; left; auto|]. rewrite St. unfold wakeup_if, running. cbn. unfold stopped in St. destruct (st s); try discriminate. reflexivity. }
    assert (G1 : forall b, dget b (stores s1) = if String.eqb b a then Some (reopened x) else dget b (stores s)).
    { intros b. rewrite E1. cbn. destruct (String.eqb_spec b a) as [->|]; [apply dget_dset_eq|apply dget_dset_ne; auto]. }
    destruct (IH s1) as (A1 & A2 & A3 & A4 & A5 & A6 & A7 & A8); auto.
    + rewrite E1. exact St.
    + rewrite E1. apply (wf_same (w_stores (dset a (reopened x) (stores s)) s)); auto. apply wf_set; auto. unfold reopened. cbn. destruct (s_memory x); [apply inv_empty|]. eapply HI. left. reflexivity.
    + intros b y Hy. eapply HI. right. exact Hy.
    + intros b Hb. rewrite G1. destruct (String.eqb_spec b a) as [->|]; [contradiction|]. apply HN. right. auto.
    + cbv zeta. rewrite A3, A4, A5, A6, A7. sp; auto; try (rewrite E1; reflexivity). intros b. rewrite A8, G1. cbn [dget]. destruct (String.eqb_spec b a) as [->|N]; auto.
      destruct (dget a l) eqn:Ga; auto. exfalso. apply N1. eapply dget_Some_key; eauto.
Qed.
Lemma with_tasks_spec c e : forall l s, stopped s = true -> wf s ->
  let s' := with_tasks c e l s in wf s' /\ stopped s' = true /\ execs s' = execs s /\ stores s' = stores s /\ subs s' = subs s /\ insts s' = insts s /\ refc s' = refc s /\
    forall u r b, In (u, r, b) (pend s') -> In (u, r, b) (pend s) \/ exists x, In x l /\ t_id u = t_id (ad_task x) /\ r = ad_replace x.
Proof.
  induction l as [|x l IH]; intros s St W; cbn [with_tasks].
  - cbv zeta. sp; auto.
  - set (s1 := fst (add_task c e (ad_task x) (ad_replace x) (ad_next x) s)).
    assert (E1 : s1 = s \/ s1 = w_pend (pend s ++ [(with_default_aliases (c_self c) (given_next (ad_next x) (ad_task x)), ad_replace x, starts (ad_next x))]) s).
    { unfold s1, add_task. destruct (t_submitted (ad_task x)); auto. destruct (match t_sched (ad_task x) with Some _ => _ | None => _ end); auto. rewrite St. auto. }
    destruct (IH s1) as (A1 & A2 & A3 & A4 & A5 & A6 & A7 & A8).
    + destruct E1 as [->| ->]; auto.
    + destruct E1 as [->| ->]; auto. apply (wf_same s); auto.
    + assert (EE : execs s1 = execs s /\ stores s1 = stores s /\ subs s1 = subs s /\ insts s1 = insts s /\ refc s1 = refc s) by (destruct E1 as [->| ->]; auto). destruct EE as (e1 & e2 & e3 & e4 & e5).
      cbv zeta. rewrite A3, A4, A5, A6, A7. sp; auto. intros u r b Hi. destruct (A8 u r b Hi) as [H|(y & Hy & Y1 & Y2)]; [|right; exists y; cbn; auto].
      destruct E1 as [E1|E1]; rewrite E1 in H; auto. cbn in H. apply in_app_or in H as [H|[H|[]]]; auto. right. exists x. injection H as <- <- <-. cbn. destruct (ad_next x); auto.
Qed.
Lemma installs_spares c now m has a id : forall l cs cs' evts, installs c now m has l cs cs' evts ->
  (forall u r b, In (u, r, b) l -> t_id u = id -> cs a id <> None /\ r = false) -> cs' a id = cs a id.
Proof.
  induction 1 as [cs cs' E|t0 start l cs cs' evts alias old H1 H2 H3 H IH|t0 replace start l cs cs' evts alias n H1 H2 H3 H4 H IH]; intros N.
  - apply E.
  - apply IH. intros; eapply N; [right; eauto|auto].
  - assert (P : put cs alias (set_pending false (set_next n t0)) a id = cs a id).
    { unfold put. cbn [t_id set_pending set_next]. destruct (String.eqb_spec a alias) as [->|]; cbn; auto. destruct (String.eqb_spec id (t_id t0)) as [->|]; auto.
      destruct (N t0 replace start (or_introl eq_refl) eq_refl) as [X ->]. destruct H3 as [H3|H3]; [discriminate|contradiction]. }
    rewrite IH; [exact P|]. intros u r b Hi E. rewrite P. eapply N; [right; eauto|auto].
Qed.
Lemma prepared_spec c e adds dead : wf dead -> let s := prepared c e adds dead in
  wf s /\ stopped s = true /\ subs s = [] /\ insts s = [] /\ refc s = 0 /\ (forall a, has_exec s a <-> has_exec dead a) /\
  (forall a, dget a (stores s) = option_map reopened (dget a (stores dead))) /\
  (forall u r b, In (u, r, b) (pend s) -> exists x, In x adds /\ t_id u = t_id (ad_task x) /\ r = ad_replace x).
Proof.
  intros W. unfold prepared. destruct (with_execs_spec (execs dead) sched_init eq_refl wf_init (wf_execs _ W) (fun _ _ => eq_refl)) as (A1 & A2 & A3 & A4 & A5 & A6 & A7 & A8).
  set (s1 := with_execs (execs dead) sched_init) in *. cbn in A3, A4, A5, A6, A7.
  assert (HI : forall a x, In (a, x) (stores dead) -> InvT (s_mem x)) by (intros a x Hi; eapply (wf_inv _ W a); apply In_dget; auto; apply (wf_keys _ W)).
  destruct (with_stores_spec (stores dead) s1 A2 A1 (wf_keys _ W) HI) as (B1 & B2 & B3 & B4 & B5 & B6 & B7 & B8); [rewrite A3; auto|]. set (s2 := with_stores (stores dead) s1) in *.
  destruct (with_tasks_spec c e adds s2 B2 B1) as (C1 & C2 & C3 & C4 & C5 & C6 & C7 & C8). cbv zeta. sp; auto; try congruence.
  - intros a. unfold has_exec at 1. rewrite C3, B3. fold (has_exec s1 a). rewrite A8. unfold has_exec. cbn. split; [intros [[? Y]|Y]; [discriminate|]|intros [x Y]; right; eapply dget_Some_key; eauto].
    destruct (dget a (execs dead)) eqn:G; eauto. apply dget_None in G. contradiction.
  - intros a. rewrite C4, B8, A3. destruct (dget a (stores dead)); auto.
  - intros u r b Hi. destruct (C8 u r b Hi) as [H|H]; auto. rewrite B4, A4 in H. destruct H.
Qed.
Lemma reborn_spec c e adds dead s2 : wf dead -> reborn c e adds dead = (s2, Ok true) ->
  wf s2 /\ st s2 = RUNNING /\ subs s2 = [] /\ insts s2 = [] /\ (forall a, has_exec dead a -> has_exec s2 a) /\
  (forall a, durable dead a -> durable s2 a) /\
  forall a id, durable dead a -> (forall x, In x adds -> t_id (ad_task x) = id -> stored dead a id <> None /\ ad_replace x = false) -> stored s2 a id = stored dead a id.
Proof.
  intros W R. unfold reborn in R. destruct (prepared_spec c e adds dead W) as (P1 & P2 & P3 & P4 & P5 & P6 & P7 & P8). set (s := prepared c e adds dead) in *.
  pose proof (wf_start c e false s P1) as W2. rewrite R in W2. cbn in W2. pose proof (start_spec _ _ _ _ _ _ P1 R) as S. rewrite P5, P2 in S. cbn [negb] in S. change (0 + 1 >? 1) with false in S. cbn iota in S.
  destruct S as (S1 & S2 & S3 & S4 & S5 & S6 & S7 & _ & S8 & S9 & S10 & evts & S11 & _). sp; auto; try congruence.
  - intros a Ha. apply P6 in Ha as [x Hx]. unfold has_exec. rewrite S5, Hx. cbn. eauto.
  - intros a (x & G & M). assert (Hs : has_store s2 a) by (apply S6; left; exists (reopened x); rewrite P7, G; auto). destruct Hs as [x' Gx]. exists x'. split; auto. destruct (S7 _ _ Gx) as (y & [Y|(Y & _)] & Y2 & _); rewrite P7, G in Y; [|discriminate]. injection Y as <-. rewrite Y2. exact M.
  - intros a id (x & G & M) N. assert (SD : forall j, stored s a j = stored dead a j) by (intros j; unfold stored; rewrite P7, G; cbn; rewrite M; auto).
    rewrite (installs_spares _ _ _ _ a id _ _ _ _ S11); auto. intros u r b Hi E. destruct (P8 _ _ _ Hi) as (z & Z1 & Z2 & ->). rewrite SD. apply N; auto. congruence.
Qed.
