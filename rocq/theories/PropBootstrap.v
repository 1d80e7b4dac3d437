(** C97: --bootstrap: loading the scheduler, and running it with start. *)
From Verif Require Import Prelude PreludeFacts Supervise PropSupervise Bootstrap.
Open Scope Z_scope.
Ltac sp := repeat match goal with |- _ /\ _ => split end.

(** *** loading *)
(** what the target's call gives is checked to be a scheduler *)
Inductive came_to : object -> loaded -> Prop :=
| ct_scheduler id : came_to (Scheduler id) (LScheduler id)
| ct_other : came_to Other LTypeError
| ct_raises : came_to Raises LRaised.
(** what loading a path that was not loaded before does: [calls] calls are made *)
Inductive fresh (imp : string -> import) (path : string) (n : nat) : loaded -> nat -> Prop :=
| fr_no_colon : imp path = INoColon -> fresh imp path n LValueError 0
| fr_no_module : imp path = INoModule -> fresh imp path n LImportError 0
| fr_no_attribute : imp path = INoAttribute -> fresh imp path n LValueError 0
| fr_other : imp path = IFound TOther -> fresh imp path n LTypeError 0
| fr_class_fails f g m : imp path = IFound (TClass f g m) -> f n = true -> fresh imp path n LRaised 1
| fr_instance f g m r : imp path = IFound (TClass f (Some g) m) -> f n = false -> came_to (g (S n)) r -> fresh imp path n r 2
| fr_class f m r : imp path = IFound (TClass f None m) -> f n = false -> came_to (m (S n)) r -> fresh imp path n r 2
| fr_object g r : imp path = IFound (TObject g) -> came_to (g n) r -> fresh imp path n r 1
| fr_callable m r : imp path = IFound (TCallable m) -> came_to (m n) r -> fresh imp path n r 1.
Lemma came x : came_to x (assert_scheduler x).
Proof. destruct x; constructor. Qed.
(** C97.  A path loaded before gives its scheduler, with no call.  Otherwise the target decides; a scheduler is
    remembered, a failure is not. *)
Theorem C97_load :
  forall (imp : string -> import) (path : string) (cache cache' : dict nat) (n n' : nat) (r : loaded),
    load_bootstrap imp path cache n = (r, cache', n') ->
    (forall id, dget path cache = Some id -> r = LScheduler id /\ cache' = cache /\ n' = n) /\
    (dget path cache = None -> exists calls, fresh imp path n r calls /\ n' = (n + calls)%nat /\
       (forall id, r = LScheduler id -> forall q, dget q cache' = if String.eqb path q then Some id else dget q cache) /\
       ((forall id, r <> LScheduler id) -> cache' = cache)).
Proof.
  intros imp path cache cache' n n' r H. unfold load_bootstrap in H. split.
  - intros id E. rewrite E in H. injection H as <- <- <-. auto.
  - intros E. rewrite E in H.
    assert (C : forall x, (forall id, x = LScheduler id -> forall q, dget q (match x with LScheduler id => dset path id cache | _ => cache end) = if String.eqb path q then Some id else dget q cache) /\
      ((forall id, x <> LScheduler id) -> match x with LScheduler id => dset path id cache | _ => cache end = cache)).
    { intros x. split.
      - intros id -> q. destruct (String.eqb_spec path q) as [<-|N]; [apply dget_dset_eq|apply dget_dset_ne; auto].
      - intros N. destruct x; auto. destruct (N id); auto. }
    destruct (imp path) as [| | |t] eqn:I; try (injection H as <- <- <-; exists 0%nat; rewrite Nat.add_0_r; split; [constructor; auto|]; split; [auto|]; split; [discriminate|auto]).
    destruct t as [f g m|g|m|].
    + destruct (f n) eqn:F; [injection H as <- <- <-; exists 1%nat; split; [eapply fr_class_fails; eauto|]; split; [lia|]; apply (C LRaised)|].
      destruct g as [g|]; injection H as <- <- <-; exists 2%nat; (split; [|split; [lia|apply C]]).
      * eapply fr_instance; eauto. apply came.
      * eapply fr_class; eauto. apply came.
    + injection H as <- <- <-. exists 1%nat. split; [eapply fr_object; eauto; apply came|]. split; [lia|apply C].
    + injection H as <- <- <-. exists 1%nat. split; [eapply fr_callable; eauto; apply came|]. split; [lia|apply C].
    + injection H as <- <- <-. exists 0%nat. split; [eapply fr_other; eauto|]. split; [lia|apply (C LTypeError)].
Qed.
Print Assumptions C97_load.
(** C97.  In any session, whoever loads a path between two clearings of the cache gets the same scheduler. *)
Theorem C97_same_scheduler :
  forall (imp : string -> import) (l : list request) (cache : dict nat) (n i j id : nat) (path : string),
    (i < j)%nat -> nth_error l i = Some (Load path) -> nth_error l j = Some (Load path) ->
    (forall k, (i < k < j)%nat -> nth_error l k <> Some Clear) ->
    nth_error (session imp l cache n) i = Some (Some (LScheduler id)) -> nth_error (session imp l cache n) j = Some (Some (LScheduler id)).
Proof.
  intros imp.
  assert (K : forall l cache n j id path, dget path cache = Some id -> nth_error l j = Some (Load path) -> (forall k, (k < j)%nat -> nth_error l k <> Some Clear) ->
     nth_error (session imp l cache n) j = Some (Some (LScheduler id))).
  { induction l as [|x l IH]; intros cache n j id path D E N; [destruct j; discriminate|]. destruct j as [|j]; cbn [nth_error] in E.
    - injection E as ->. cbn [session]. unfold load_bootstrap. rewrite D. reflexivity.
    - assert (X : x <> Clear) by (intros ->; apply (N 0%nat); [lia|auto]). destruct x as [q|]; [|congruence]. cbn [session].
      destruct (load_bootstrap imp q cache n) as [[r c'] n'] eqn:L. cbn [nth_error]. apply IH with (path := path); auto.
      + destruct (C97_load _ _ _ _ _ _ _ L) as [L1 L2]. destruct (dget q cache) as [id'|] eqn:DQ.
        * destruct (L1 _ eq_refl) as (_ & -> & _). auto.
        * destruct (L2 eq_refl) as (calls & _ & _ & C1 & C2). destruct r as [id'| | | |]; try (rewrite C2; [auto|congruence]). rewrite (C1 _ eq_refl). destruct (String.eqb_spec q path); [congruence|auto].
      + intros k Lk. apply (N (S k)). lia. }
  induction l as [|x l IH]; intros cache n i j id path L E1 E2 N H; [destruct i; discriminate|]. destruct j as [|j]; [lia|]. destruct i as [|i].
  - cbn [nth_error] in E1. injection E1 as ->. cbn [session] in *. destruct (load_bootstrap imp path cache n) as [[r c'] n'] eqn:LB. cbn [nth_error] in *. injection H as ->.
    apply K with (path := path); auto.
    + destruct (C97_load _ _ _ _ _ _ _ LB) as [L1 L2]. destruct (dget path cache) as [id'|] eqn:DQ.
      * destruct (L1 _ eq_refl) as ([= <-] & -> & _). auto.
      * destruct (L2 eq_refl) as (calls & _ & _ & C1 & _). rewrite (C1 _ eq_refl), String.eqb_refl. auto.
    + intros k Lk. apply (N (S k)). lia.
  - cbn [nth_error] in E1, E2. destruct x as [q|]; cbn [session] in *.
    + destruct (load_bootstrap imp q cache n) as [[r c'] n']. cbn [nth_error] in *. apply (IH c' n' i j id path); auto; [lia|]. intros k Lk. apply (N (S k)). lia.
    + cbn [nth_error] in *. apply (IH [] n i j id path); auto; [lia|]. intros k Lk. apply (N (S k)). lia.
Qed.
Print Assumptions C97_same_scheduler.
(** the path of a scheduler class, which has no get_scheduler, makes two of them, of which the second is used; after
    clearing, another one *)
Example C97_two_made :
  let imp := fun p => if String.eqb p "app:Spec" then IFound (TClass (fun _ => false) (Some (fun n => Scheduler n)) Scheduler)
                      else if String.eqb p "asyncz:AsyncIOScheduler" then IFound (TClass (fun _ => false) None Scheduler)
                      else if String.eqb p "app:make" then IFound (TCallable (fun n => if Nat.eqb n 4 then Other else Scheduler n)) else if String.eqb p "app" then INoColon else INoModule in
  session imp [Load "app:Spec"; Load "asyncz:AsyncIOScheduler"; Load "app:make"; Load "app:make"; Load "app:Spec"; Clear; Load "app:Spec"; Load "app"; Load "nowhere:x"] [] 0
  = [Some (LScheduler 1); Some (LScheduler 3); Some LTypeError; Some (LScheduler 5); Some (LScheduler 1); None; Some (LScheduler 7); Some LValueError; Some LImportError].
Proof. reflexivity. Qed.

(** *** asyncz start --bootstrap *)
(** when the scheduler really started and stopped *)
Definition ups (l : list bevent) : list bevent := filter (fun e => match e with BUp | BDown => true | _ => false end) l.
Definition hooks (l : list bevent) : nat := List.length (filter (fun e => match e with BOnStop => true | _ => false end) l).
Definition first_up (users : Z) : list bevent := if users =? 0 then [BUp] else [].
(** the command is at rest: it holds the scheduler once *)
Definition held (users : Z) (w : bworld) : Prop := refs w = users + 1 /\ up w = true /\ pend w = 0%nat /\ ups (b_trace w) = first_up users.
Definition reloads_fine (o : options) (ts : list turn) : Prop := o_module o = true -> forall t, In t ts -> t_reload t = Fine.
Lemma ups_app l1 l2 : ups (l1 ++ l2) = ups l1 ++ ups l2.
Proof. apply filter_app. Qed.
Lemma b_drain_none w : pend w = 0%nat -> b_drain w = w.
Proof. intros P. unfold b_drain. rewrite P. cbn. destruct w. cbn in *. congruence. Qed.
Lemma b_hook_held given s users w : held users w -> exists w', b_hook given s w = (w', if given then ends s else Fine) /\ held users w' /\ hooks (b_trace w') = (hooks (b_trace w) + if given then 1 else 0)%nat.
Proof.
  intros (A & B & C & D). unfold b_hook. destruct given; [|exists w; sp; auto; repeat split; auto].
  exists (bsay BOnStop w). assert (P : pend (bsay BOnStop w) = 0%nat) by auto. rewrite (b_drain_none _ P). sp; [destruct (suspends s); auto| |].
  - unfold held, bsay. cbn. rewrite ups_app, D. cbn. rewrite app_nil_r. auto.
  - unfold hooks, bsay. cbn [b_trace]. rewrite filter_app, app_length. reflexivity.
Qed.
Lemma b_finally_held o last cause users w : 0 <= users -> held users w ->
  exists w' r, b_finally o last cause w = (w', Some r) /\
    (stop_hook_fine o last -> r = cause /\ refs w' = users /\ up w' = (users >? 0) /\ ups (b_trace w') = (if users =? 0 then [BUp; BDown] else []) /\
       hooks (b_trace w') = (hooks (b_trace w) + if o_on_stop o then 1 else 0)%nat) /\
    (~ stop_hook_fine o last -> r <> Fine /\ held users w').
Proof.
  intros U H. unfold b_finally. destruct (b_hook_held (o_on_stop o) last users w H) as (w1 & E & (A & B & C & D) & HK). rewrite E. pose proof (fine_stop o last) as FS.
  destruct (fine (if o_on_stop o then ends last else Fine)) eqn:F.
  - do 2 eexists. split; [reflexivity|]. split; [|tauto]. intros _. split; [reflexivity|]. unfold b_drain, b_ask. cbn [pend bsay b_trace refs up]. rewrite C. cbn [b_shutdowns]. unfold b_shutdown. cbn [refs up b_trace bsay].
    rewrite A. replace (users + 1 - 1) with users by lia. rewrite B.
    unfold hooks in *. unfold first_up in D. destruct (Z.gtb_spec users 0) as [G|G]; cbn [refs up b_trace].
    + destruct (Z.eqb_spec users 0); [lia|]. sp; auto; [rewrite ups_app, D; reflexivity|]. rewrite filter_app, app_length, HK. cbn. lia.
    + destruct (Z.eqb_spec users 0); [|lia]. sp; auto; [rewrite !ups_app, D; reflexivity|]. rewrite !filter_app, !app_length, HK. cbn. lia.
  - do 2 eexists. split; [reflexivity|]. split; [intros S; apply FS in S; congruence|]. intros _. split; [apply not_fine; exact F|]. rewrite b_drain_none by auto. repeat split; auto.
Qed.
Lemma b_turn users w : 0 <= users -> held users w -> exists w', b_boot (b_ask w) = (w', Fine) /\ held users (b_drain w') /\ hooks (b_trace (b_drain w')) = hooks (b_trace w).
Proof.
  intros U (A & B & C & D). unfold b_boot, b_ask, bsay. cbn [refs up b_trace pend]. rewrite A. destruct (Z.gtb_spec (users + 1 + 1) 1) as [G|G]; [|lia].
  eexists. split; [reflexivity|]. unfold b_drain. cbn [pend b_trace refs up]. rewrite C. cbn [b_shutdowns]. unfold b_shutdown. cbn [refs up b_trace]. destruct (Z.gtb_spec (users + 1 + 1 - 1) 0) as [G'|G']; [|lia]. cbn [refs up b_trace].
  split.
  - unfold held. cbn [refs up b_trace pend]. sp; auto; [lia|]. rewrite !ups_app, D. cbn. rewrite !app_nil_r. auto.
  - unfold hooks. rewrite !filter_app, !app_length. cbn. lia.
Qed.
Definition stopped_well (users : Z) (w : bworld) : Prop := refs w = users /\ up w = (users >? 0) /\ ups (b_trace w) = (if users =? 0 then [BUp; BDown] else []).
Lemma b_loop_held o last users : 0 <= users -> forall ts w w' r, held users w -> b_loop o last ts w = (w', r) ->
  match r with
  | None => held users w'
  | Some x => reloads_fine o ts -> (stop_hook_fine o last -> stopped_well users w') /\ (~ stop_hook_fine o last -> held users w')
  end.
Proof.
  intros U. induction ts as [|t ts IH]; intros w w' r H E; [injection E as <- <-; auto|]. cbn [b_loop] in E.
  assert (FIN : forall w1 cause, held users w1 -> b_finally o last cause w1 = (w', r) -> match r with None => held users w' | Some x => reloads_fine o (t :: ts) -> (stop_hook_fine o last -> stopped_well users w') /\ (~ stop_hook_fine o last -> held users w') end).
  { intros w1 cause H1 F. destruct (b_finally_held o last cause users w1 U H1) as (w2 & x & E2 & X & Y). rewrite E2 in F. injection F as <- <-. intros _. split.
    - intros S1. destruct (X S1) as (_ & X1 & X2 & X3 & _). repeat split; auto.
    - intros S1. apply Y. auto. }
  assert (REST : forall w1, held users (b_drain w1) -> (if negb (fine (t_sleep t)) then b_finally o last (caught (t_sleep t)) (b_drain w1) else b_loop o last ts (b_drain w1)) = (w', r) ->
     match r with None => held users w' | Some x => reloads_fine o (t :: ts) -> (stop_hook_fine o last -> stopped_well users w') /\ (~ stop_hook_fine o last -> held users w') end).
  { intros w1 H1 F. destruct (fine (t_sleep t)); cbn [negb] in F; [|eapply FIN; eauto]. specialize (IH _ _ _ H1 F). destruct r; auto. intros R. apply IH. intros M t' I. apply R; auto. right. auto. }
  assert (P0 : pend w = 0%nat) by apply H.
  destruct (o_watch o && t_changed t)%bool; [|cbn [fine negb] in E; apply (REST w); auto; rewrite b_drain_none; auto].
  destruct (b_hook_held (o_on_stop o) (t_stop t) users w H) as (w1 & EH & H1 & _). rewrite EH in E.
  destruct (fine (if o_on_stop o then ends (t_stop t) else Fine)) eqn:F1; cbn [negb] in E; [|rewrite F1 in E; cbn [negb] in E; eapply FIN; eauto].
  destruct (o_module o && negb (fine (t_reload t)))%bool eqn:F2.
  - apply andb_prop in F2. destruct F2 as [M F2]. rewrite F2 in E. unfold b_finally in E. destruct (b_hook _ _ _) as [w2 h]. destruct (fine h); injection E as <- <-; intros R; rewrite (R M t (or_introl eq_refl)) in F2; discriminate.
  - destruct (b_turn users w1 U H1) as (w2 & EB & H2 & _). rewrite EB in E. cbn [fine negb] in E. apply (REST w2); auto.
Qed.
Lemma b_first users : 0 <= users -> exists w, b_boot (MkB [] users (users >? 0) 0) = (w, Fine) /\ held users w /\ hooks (b_trace w) = 0%nat.
Proof.
  intros U. unfold b_boot, bsay, held, first_up. cbn [refs up b_trace pend app]. destruct (Z.gtb_spec (users + 1) 1) as [G|G].
  - eexists. split; [reflexivity|]. cbn [refs up b_trace pend]. destruct (Z.gtb_spec users 0); [|lia]. destruct (Z.eqb_spec users 0); [lia|]. sp; auto.
  - assert (users = 0) as -> by lia. cbn. eexists. split; [reflexivity|]. cbn. sp; auto.
Qed.
(** C97.  With --bootstrap the command is one more user of the scheduler, whatever changes while it runs: the
    scheduler is started only if nobody held it, is never stopped or restarted in between, and at the end stops only if
    nobody else holds it.  Scoped: no reload of the module fails; and if the last on_stop hook fails the scheduler is
    never released. *)
Theorem C97_one_more_user_partial :
  forall (o : options) (users : Z) (ts : list turn) (last : awaited) (w : bworld) (r : option outcome),
    0 <= users -> b_start o users ts last = (w, r) ->
    match r with
    | None => held users w
    | Some _ => reloads_fine o ts -> (stop_hook_fine o last -> stopped_well users w) /\ (~ stop_hook_fine o last -> held users w)
    end.
Proof.
  intros o users ts last w r U E. unfold b_start in E. destruct (b_first users U) as (w1 & EB & H & _). rewrite EB in E. cbn [fine negb] in E.
  destruct (negb (o_watch o) && negb (o_standalone o))%bool; [|eapply b_loop_held; eauto].
  destruct (b_finally_held o last Fine users w1 U H) as (w2 & x & E2 & X & Y). rewrite E2 in E. injection E as <- <-. intros _. split; [|intros S; apply Y; auto].
  intros S. destruct (X S) as (_ & X1 & X2 & X3 & _). repeat split; auto.
Qed.
Print Assumptions C97_one_more_user_partial.
(** The on_stop hook is called at every change all the same, once more at the end; the on_start hook never. *)
Theorem C97_stop_hook_calls :
  forall (o : options) (users : Z) (ts : list turn) (last : awaited),
    0 <= users -> (forall t, In t ts -> good_turn t) -> (o_watch o || o_standalone o = true)%bool ->
    exists w, b_start o users ts last = (w, None) /\ hooks (b_trace w) = (if o_on_stop o then reloads o ts else 0)%nat.
Proof.
  intros o users ts last U G W. unfold b_start. destruct (b_first users U) as (w1 & EB & H & K). rewrite EB. cbn [fine negb]. rewrite <- negb_orb, W. cbn [negb].
  assert (L : forall ts w, (forall t, In t ts -> good_turn t) -> held users w -> exists w', b_loop o last ts w = (w', None) /\ hooks (b_trace w') = (hooks (b_trace w) + if o_on_stop o then reloads o ts else 0)%nat).
  { clear -U. induction ts as [|t ts IH]; intros w G H; [exists w; split; auto; unfold reloads; cbn; destruct (o_on_stop o); lia|].
    destruct (G t (or_introl eq_refl)) as (G1 & G2 & _ & G6). assert (G' : forall t', In t' ts -> good_turn t') by (intros t' I; apply G; right; auto). cbn [b_loop]. unfold reloads. cbn [filter].
    destruct (o_watch o && t_changed t)%bool; cbn [List.length]; fold (reloads o ts).
    - destruct (b_hook_held (o_on_stop o) (t_stop t) users w H) as (w2 & EH & H2 & K2). rewrite EH, G1. replace (if o_on_stop o then Fine else Fine) with Fine by (destruct (o_on_stop o); auto). cbn [fine negb].
      rewrite G2. cbn [fine negb]. rewrite andb_false_r. destruct (b_turn users w2 U H2) as (w3 & EB & H3 & K3). rewrite EB. cbn [fine negb]. rewrite G6. cbn [fine negb].
      destruct (IH _ G' H3) as (w' & E & K'). exists w'. split; auto. rewrite K', K3, K2. destruct (o_on_stop o); lia.
    - cbn [fine negb]. rewrite G6. cbn [fine negb]. rewrite b_drain_none by apply H. apply IH; auto. }
  destruct (L ts w1 G H) as (w' & E & K'). exists w'. split; auto. rewrite K', K. auto.
Qed.
Print Assumptions C97_stop_hook_calls.
(** A reload that fails releases the scheduler twice: one that somebody else uses is stopped. *)
Theorem C97_others_keep_it_refuted :
  exists (w : bworld), b_start all_on 1 [MkTurn true now Fails good Fine] now = (w, Some Fails) /\ up w = false /\ ups (b_trace w) = [BDown].
Proof. eexists. split; [reflexivity|]. split; reflexivity. Qed.
Print Assumptions C97_others_keep_it_refuted.
Example C97_case :
  exists w, b_start all_on 0 [reload_turn; quiet_turn; reload_turn; ctrl_c] now = (w, Some Fine) /\
    b_trace w = [BStart; BUp; BOnStop; BAsk; BStart; BOnStop; BAsk; BStart; BOnStop; BAsk; BDown].
Proof. eexists. split; reflexivity. Qed.
