(** C100: the scheduler's event loop lives exactly as long as the scheduler is used. *)
From Verif Require Import Prelude PreludeFacts OwnLoop.
Open Scope Z_scope.
Local Ltac sp := repeat match goal with |- _ /\ _ => split end.

(** ** specification *)
(** users open (start) and give back (shutdown); nobody gives back what he has not opened.  [n]: how many hold it *)
Fixpoint paired (n : nat) (es : list event) : Prop :=
  match es with
  | [] => True
  | Start _ _ :: es' => paired (Datatypes.S n) es'
  | Shutdown :: es' => (1 <= n)%nat /\ paired (pred n) es'
  | _ :: es' => paired n es'
  end.
Fixpoint users (n : nat) (es : list event) : nat :=
  match es with
  | [] => n
  | Start _ _ :: es' => users (Datatypes.S n) es'
  | Shutdown :: es' => users (pred n) es'
  | _ :: es' => users n es'
  end.
(** no start falls into the middle of a shutdown (asyncio.py:61-68 is not protected against it) *)
Fixpoint calm (isolated : bool) (s : state) (es : list event) : Prop :=
  match es with
  | [] => True
  | e :: es' => (forall i p, e = Start i p -> s_mid s = false) /\ calm isolated (step isolated s e) es'
  end.
(** with-blocks, async with-blocks and ASGI lifespans: a start, later a shutdown; they overlap in any way *)
Definition session (l : list event) : Prop := exists i p, l = [Start i p; Shutdown].
Definition internal (e : event) : Prop := match e with Start _ _ | Shutdown => False | _ => True end.
Inductive mixes : list (list event) -> list event -> Prop :=
| mx_end ss : mixes ss []
| mx_user a e r b es : mixes (a ++ r :: b) es -> mixes (a ++ (e :: r) :: b) (e :: es)
| mx_loop ss e es : internal e -> mixes ss es -> mixes ss (e :: es).
(** the loop of a thread made by the scheduler still runs *)
Definition lives (s : state) (k : nat) : Prop := nth_error (s_threads s) k = Some Alive \/ nth_error (s_threads s) k = Some Flagged.
(** a shutdown has been asked for and is not done *)
Definition unsettled (s : state) : Prop := s_mid s = true \/ exists l, In (l, JShutdown) (s_queue s).

(** ** the invariant *)
Fixpoint asked (q : list (lid * job)) : Z := match q with [] => 0 | (_, JShutdown) :: q' => 1 + asked q' | _ :: q' => asked q' end.
Record inv (n : nat) (s : state) : Prop := MkInv {
  v_refs : s_refs s = Z.of_nat n + asked (s_queue s);
  v_up : s_up s = (s_refs s >? 0);
  v_mid : s_mid s = true -> s_refs s = 0 /\ s_loop s <> None;
  v_alive : forall k, nth_error (s_threads s) k = Some Alive <-> s_thread s = Some k;
  v_own : forall k, s_thread s = Some k <-> s_loop s = Some (Own k);
  v_asked : forall l, In (l, JShutdown) (s_queue s) -> s_loop s = Some l;
  v_none : s_loop s = None -> s_refs s = 0 /\ s_timer s = None;
  v_timer : forall l, s_timer s = Some l -> s_loop s = Some l;
  v_flag : forall k, nth_error (s_threads s) k <> Some Flagged;
  v_idle : s_thread s <> None -> s_refs s > 0 \/ s_mid s = true }.
Lemma asked_app a b : asked (a ++ b) = asked a + asked b.
Proof. induction a as [|[l []] a IH]; cbn [app asked]; lia. Qed.
Lemma asked_pos q : 0 <= asked q.
Proof. induction q as [|[l []] q IH]; cbn [asked]; lia. Qed.
Lemma asked_in q : 0 < asked q <-> exists l, In (l, JShutdown) q.
Proof.
  induction q as [|[l []] q IH]; cbn [asked]; [split; [lia|intros (l & [])]| |].
  - rewrite IH. split; intros (m & I); exists m; [right; auto|destruct I as [[=]|I]; auto].
  - pose proof (asked_pos q). split; [intros _; exists l; left; auto|lia].
Qed.
Lemma lid_eqb_spec a b : reflect (a = b) (lid_eqb a b).
Proof. destruct a, b; cbn; try (constructor; congruence). destruct (Nat.eqb_spec k k0); constructor; congruence. Qed.
Lemma take_spec l q j r : take l q = Some (j, r) -> exists a b, q = a ++ (l, j) :: b /\ r = a ++ b.
Proof.
  revert r. induction q as [|[m x] q IH]; intros r; cbn [take]; [discriminate|]. destruct (lid_eqb_spec l m) as [->|N].
  - intros [= -> ->]. exists [], r. auto.
  - destruct (take l q) as [[y z]|] eqn:E; [|discriminate]. intros [= -> <-]. destruct (IH _ eq_refl) as (a & b & -> & ->). exists ((m, x) :: a), b. auto.
Qed.
Lemma take_in l q j : In (l, j) q -> exists x r, take l q = Some (x, r).
Proof.
  induction q as [|[m x] q IH]; intros I; [destruct I|]. cbn [take]. destruct (lid_eqb_spec l m) as [->|N]; [eauto|]. destruct I as [[= -> ->]|I]; [congruence|]. destruct (IH I) as (y & r & ->). eauto.
Qed.
Lemma set_nth_get {A} (v : A) l : forall k j, nth_error (set_nth k v l) j = if Nat.eqb j k then match nth_error l k with Some _ => Some v | None => None end else nth_error l j.
Proof.
  induction l as [|x l IH]; intros k j.
  - unfold set_nth. rewrite firstn_nil, skipn_nil. cbn. destruct (Nat.eqb_spec j k) as [->|N]; [destruct k; reflexivity|destruct k; reflexivity].
  - destruct k; [unfold set_nth; cbn; destruct j; auto|]. specialize (IH k). unfold set_nth in *. cbn [firstn skipn app]. destruct j; [reflexivity|]. cbn [nth_error Nat.eqb]. apply IH.
Qed.
Lemma thread_at_iff s k v : v <> Closed -> thread_at s k = v <-> nth_error (s_threads s) k = Some v.
Proof.
  intros N. unfold thread_at. split.
  - intros E. rewrite <- E. apply nth_error_nth'. destruct (Nat.lt_ge_cases k (List.length (s_threads s))) as [L|L]; auto. rewrite nth_overflow in E by auto. congruence.
  - intros E. apply nth_error_nth. auto.
Qed.
Lemma made_inv given : inv 0 (made given).
Proof. destruct given; constructor; cbn; auto; try discriminate; try tauto; intros; try (split; intros); destruct k; try discriminate; auto. Qed.
Local Ltac flds := cbn [s_refs s_queue s_up s_mid s_loop s_threads s_thread s_timer enqueue set_timer set_mid set_thread without].
Lemma enqueue_wakeup_inv n l s : inv n s -> inv n (enqueue l JWakeup s).
Proof.
  intros V. destruct V as [R U M A O Q N T F D]. constructor; flds; auto. - rewrite asked_app. cbn. lia. - intros m I. apply in_app_iff in I as [I|[[=]|[]]]; auto.
Qed.
Lemma set_timer_inv n t s : inv n s -> (forall l, t = Some l -> s_loop s = Some l) -> inv n (set_timer t s).
Proof. intros V H. destruct V as [R U M A O Q N T F D]. constructor; flds; auto. intros E. destruct (N E). split; auto. destruct t; auto. specialize (H _ eq_refl). congruence. Qed.
Lemma base_start_inv n p s : inv n s -> s_mid s = false -> s_loop s <> None ->
  inv (Datatypes.S n) (fst (base_start p s)) /\ snd (base_start p s) = (if s_refs s =? 0 then ATrue else AFalse) /\ s_mid (fst (base_start p s)) = false.
Proof.
  intros V MD NL. pose proof V as [R U M A O Q N T F D]. pose proof (asked_pos (s_queue s)). unfold base_start. cbv zeta.
  destruct (s_loop s) as [l|] eqn:L; [|congruence].
  destruct (Z.gtb_spec (s_refs s + 1) 1) as [G|G]; cbn [fst snd].
  - assert (Z : s_refs s =? 0 = false) by (apply Z.eqb_neq; lia). rewrite Z. sp; auto. constructor; cbn [s_refs s_queue s_up s_mid s_loop s_threads s_thread s_timer]; auto; rewrite ?L in *; auto; try congruence; try lia.
  - assert (Z : s_refs s = 0) by lia. assert (UF : s_up s = false) by (rewrite U, Z; reflexivity). rewrite UF, Z. cbn [Z.add Z.eqb].
    assert (X : forall q', asked q' = asked (s_queue s) -> (forall m, In (m, JShutdown) q' -> In (m, JShutdown) (s_queue s)) -> inv (Datatypes.S n) (MkS (s_threads s) (Some l) (s_thread s) 1 true q' (s_timer s) (s_mid s))).
    { intros q' E1 E2. constructor; cbn [s_refs s_queue s_up s_mid s_loop s_threads s_thread s_timer]; auto; try lia; try discriminate; try congruence. }
    destruct p; cbn [fst snd].
    + sp; auto.
    + sp; auto. apply X; [rewrite asked_app; cbn; lia|]. intros m I. apply in_app_iff in I as [I|[[=]|[]]]; auto.
Qed.
(** where the loop is, once a user has come *)
Lemma loop_there isolated inside s n : inv n s -> s_mid s = false ->
  let s' := match s_loop s with Some _ => s | None => if isolated || negb inside then new_thread s else on_app s end in
  s_loop s' <> None /\ s_mid s' = false /\ s_refs s' = s_refs s /\
  (s_loop s <> None -> s' = s) /\
  (s_loop s = None -> n = O /\ asked (s_queue s) = 0 /\ s_refs s = 0 /\ s_up s = false /\ s_timer s = None /\ s_thread s = None).
Proof.
  intros V MD s'. pose proof V as [R U M A O Q N T F D]. pose proof (asked_pos (s_queue s)). unfold s'. destruct (s_loop s) as [l|] eqn:L.
  - sp; auto; try congruence.
  - destruct (N eq_refl) as [R0 T0]. assert (TH : s_thread s = None) by (destruct (s_thread s) as [k|] eqn:E; auto; pose proof (proj1 (O k) eq_refl); congruence).
    assert (UF : s_up s = false) by (rewrite U, R0; reflexivity).
    destruct (isolated || negb inside); cbn; sp; auto; try discriminate; try (intros; tauto); try congruence; intros _; sp; auto; lia.
Qed.
Lemma start_inv isolated inside paused n s : inv n s -> s_mid s = false ->
  inv (Datatypes.S n) (fst (start isolated inside paused s)) /\ snd (start isolated inside paused s) = (if s_refs s =? 0 then ATrue else AFalse) /\ s_mid (fst (start isolated inside paused s)) = false.
Proof.
  intros V MD. pose proof V as [R U M A O Q N T F D]. unfold start. destruct (s_loop s) as [l|] eqn:L; [apply base_start_inv; auto; congruence|].
  destruct (loop_there isolated inside s n V MD) as (_ & _ & _ & _ & W). destruct (W L) as (-> & A0 & R0 & U0 & T0 & TH). clear W.
  assert (NA : forall k, nth_error (s_threads s) k <> Some Alive) by (intros k E; apply A in E; congruence).
  assert (NQ : forall m, ~ In (m, JShutdown) (s_queue s)) by (intros m I; assert (0 < asked (s_queue s)) by (apply asked_in; eauto); lia).
  (* before the scheduler starts, the new loop belongs to nobody: the invariant holds but for that *)
  assert (X : forall ths lp th q, (forall k, nth_error ths k = Some Alive <-> th = Some k) -> (forall k, th = Some k <-> lp = Own k) -> (forall k, nth_error ths k <> Some Flagged) -> asked q = 0 ->
    inv 1 (MkS ths (Some lp) th 1 true q None false)).
  { intros ths lp th q X1 X2 X3 X4. constructor; cbn [s_refs s_queue s_up s_mid s_loop s_threads s_thread s_timer]; auto; try lia; try discriminate.
    - intros k. rewrite X2. split; [intros ->; auto|intros [= ->]; auto].
    - intros m I. assert (0 < asked q) by (apply asked_in; eauto). lia.
    }
  destruct (isolated || negb inside).
  - unfold new_thread, base_start. cbn [s_refs s_threads s_loop s_thread s_up s_queue s_timer s_mid]. rewrite R0, U0, T0, MD. cbn [Z.add Z.gtb Z.eqb Z.compare Pos.compare Pos.compare_cont].
    assert (B : forall k, nth_error (s_threads s ++ [Alive]) k = Some Alive <-> Some (List.length (s_threads s)) = Some k).
    { intros k. destruct (Nat.lt_trichotomy k (List.length (s_threads s))) as [H|[->|H]].
      - rewrite nth_error_app1 by auto. split; [intros E; destruct (NA _ E)|intros [= E]; lia].
      - rewrite nth_error_app2, Nat.sub_diag by auto. split; auto.
      - rewrite nth_error_app2 by lia. split; [|intros [= E]; lia]. destruct (k - List.length (s_threads s))%nat as [|m] eqn:E; [lia|]. cbn. destruct m; discriminate. }
    assert (C : forall k, nth_error (s_threads s ++ [Alive]) k <> Some Flagged).
    { intros k. destruct (Nat.lt_ge_cases k (List.length (s_threads s))) as [H|H]; [rewrite nth_error_app1 by auto; auto|]. rewrite nth_error_app2 by auto. destruct (k - List.length (s_threads s))%nat as [|[|m]]; cbn; discriminate. }
    destruct paused; cbn [fst snd enqueue s_refs s_threads s_loop s_thread s_up s_queue s_timer s_mid]; (split; [|split; reflexivity]); apply X; flds; auto; try (intros k; split; congruence). rewrite asked_app, A0. reflexivity.
  - unfold on_app, base_start. cbn [s_refs s_threads s_loop s_thread s_up s_queue s_timer s_mid]. rewrite R0, U0, T0, MD. cbn [Z.add Z.gtb Z.eqb Z.compare Pos.compare Pos.compare_cont]. rewrite TH in *.
    destruct paused; cbn [fst snd enqueue s_refs s_threads s_loop s_thread s_up s_queue s_timer s_mid]; (split; [|split; reflexivity]); apply X; flds; auto; try (intros k; split; congruence). rewrite asked_app, A0. reflexivity.
Qed.
Lemma shutdown_inv n s : inv (Datatypes.S n) s -> inv n (fst (shutdown s)) /\ snd (shutdown s) <> ANoLoop.
Proof.
  intros V. pose proof V as [R U M A O Q N T F D]. pose proof (asked_pos (s_queue s)). unfold shutdown. destruct (s_loop s) as [l|] eqn:L; [|destruct (N eq_refl); lia].
  cbn [fst snd]. split; [|destruct (s_refs s >? 1); discriminate]. constructor; flds; auto; rewrite ?L in *; auto; try congruence.
  - rewrite asked_app. cbn. lia.
  - intros m I. apply in_app_iff in I as [I|[[= <-]|[]]]; auto.
Qed.
Lemma run_loop_inv n l asks s : inv n s -> inv n (run_loop l asks s).
Proof.
  intros V. unfold run_loop. destruct (runs s l && negb (busy s l)) eqn:RB; auto. apply andb_true_iff in RB as [RN BZ]. destruct (take l (s_queue s)) as [[j q]|] eqn:TK; auto.
  apply take_spec in TK as (a & b & EQ & ->). pose proof V as [R U M A O Q N T F D]. pose proof (asked_pos a). pose proof (asked_pos b). rewrite EQ in *. rewrite asked_app in R. destruct j; cbn [run_job].
  - cbn [asked] in R. assert (W : inv n (without (a ++ b) s)).
    { constructor; flds; auto. - rewrite asked_app. lia. - intros m I. apply Q. apply in_app_iff. apply in_app_iff in I as [I|I]; auto. right. right. auto. }
    unfold start_timer. destruct asks; [|apply set_timer_inv; auto; discriminate]. cbn [s_loop set_timer]. destruct (s_loop (without (a ++ b) s)) as [m|] eqn:E; apply set_timer_inv; auto; try discriminate; try (apply set_timer_inv; auto; discriminate). intros x [= <-]. auto.
  - cbn [asked] in R. assert (L : s_loop s = Some l) by (apply Q; apply in_app_iff; right; left; auto).
    assert (MF : s_mid s = false). { unfold busy in BZ. rewrite L in BZ. destruct (s_mid s); auto. cbn in BZ. destruct (lid_eqb_spec l l); cbn in BZ; congruence. }
    assert (Q' : forall m, In (m, JShutdown) (a ++ b) -> Some l = Some m). { intros m I. rewrite <- L. apply Q. apply in_app_iff. apply in_app_iff in I as [I|I]; auto. right. right. auto. }
    assert (UT : s_up s = true) by (rewrite U; apply Z.gtb_lt; lia).
    unfold base_shutdown. cbv zeta. cbn [s_refs s_threads s_loop s_thread s_up s_queue s_timer s_mid without]. rewrite UT. destruct (Z.gtb_spec (s_refs s - 1) 0) as [G|G]; cbn [set_mid s_refs s_threads s_loop s_thread s_up s_queue s_timer s_mid].
    + constructor; cbn [s_refs s_threads s_loop s_thread s_up s_queue s_timer s_mid]; auto; rewrite ?asked_app, ?L, ?MF in *; auto; try lia; try congruence.
    + constructor; flds; auto; rewrite ?asked_app, ?L in *; auto; try lia; try congruence.
      intros _. split; [lia|discriminate].
Qed.
Lemma finish_inv n s : inv n s -> inv n (finish s).
Proof.
  intros V. unfold finish. destruct (s_mid s) eqn:MD; auto. pose proof V as [R U M A O Q N T F D]. pose proof (asked_pos (s_queue s)). destruct (M MD) as [R0 L0].
  cbn [set_timer set_mid s_thread]. destruct (s_thread s) as [k|] eqn:TH.
  - cbn [set_thread s_refs s_threads s_loop s_thread s_up s_queue s_timer s_mid set_timer set_mid].
    constructor; cbn [s_refs s_threads s_loop s_thread s_up s_queue s_timer s_mid]; auto; try discriminate; try congruence.
    + intros j. rewrite set_nth_get. split; [|discriminate]. destruct (Nat.eqb_spec j k) as [->|NE]; [destruct (nth_error (s_threads s) k); discriminate|]. intros E. apply A in E. congruence.
    + intros j. split; discriminate.
    + intros m I. exfalso. assert (0 < asked (s_queue s)) by (apply asked_in; eauto). lia.
    + intros j. rewrite set_nth_get. destruct (Nat.eqb_spec j k); [destruct (nth_error (s_threads s) k); discriminate|auto].
  - constructor; cbn [set_timer set_mid s_refs s_threads s_loop s_thread s_up s_queue s_timer s_mid]; auto; try discriminate; try congruence; rewrite ?TH; auto.
Qed.
Lemma expire_inv n s : inv n s -> inv n (expire s).
Proof.
  intros V. unfold expire. destruct (s_timer s) as [l|] eqn:T; auto. destruct (runs s l); auto. destruct (s_loop s) as [m|] eqn:L; [apply enqueue_wakeup_inv|]; apply set_timer_inv; auto; discriminate.
Qed.
Lemma close_inv n k s : inv n s -> inv n (close k s).
Proof.
  intros V. unfold close. destruct (thread_at s k) eqn:E; auto. apply thread_at_iff in E; [|discriminate]. pose proof V as [R U M A O Q N T F D].
  constructor; flds; auto.
  - intros j. rewrite set_nth_get. destruct (Nat.eqb_spec j k) as [->|NE]; auto. rewrite E. split; [discriminate|]. intros X. apply A in X. congruence.
  - intros j. rewrite set_nth_get. destruct (Nat.eqb_spec j k) as [->|NE]; auto. rewrite E. discriminate.
Qed.
Lemma history_inv isolated es : forall n s, inv n s -> paired n es -> calm isolated s es -> inv (users n es) (history isolated s es).
Proof.
  induction es as [|e es IH]; intros n s V P C; cbn [history users]; auto. destruct C as [C1 C2]. destruct e as [i p| |l a| | |k|]; cbn [step paired calm] in *.
  - apply IH; auto. apply start_inv; eauto.
  - destruct P as [P1 P2]. apply IH; auto. destruct n as [|n]; [lia|]. cbn [pred]. apply shutdown_inv. auto.
  - apply IH; auto. apply run_loop_inv; auto.
  - apply IH; auto. apply finish_inv; auto.
  - apply IH; auto. apply expire_inv; auto.
  - apply IH; auto. apply close_inv; auto.
  - apply IH; auto. destruct (s_loop s); auto. apply enqueue_wakeup_inv; auto.
Qed.
Lemma runs_loop n s l : inv n s -> s_loop s = Some l -> runs s l = true.
Proof.
  intros V L. pose proof V as [R U M A O Q N T F D]. destruct l as [|k]; [reflexivity|]. apply O in L. apply A in L. unfold runs. apply thread_at_iff in L; [|discriminate]. rewrite L. auto.
Qed.

(** After any paired history in which no start falls into the middle of a shutdown: as long as somebody uses the
    scheduler it is up and its loop runs; of the threads it has made at most one has a loop that lives, the one the
    scheduler uses; once nobody uses it and the shutdowns asked for are done, it is down, no thread's loop lives, and -
    unless it runs on the application's loop - it has neither loop nor timer. *)
Theorem C100_one_loop : forall (isolated given : bool) (es : list event), paired 0 es -> calm isolated (made given) es ->
  let s := history isolated (made given) es in
  ((1 <= users 0 es)%nat -> s_up s = true /\ exists l, s_loop s = Some l /\ runs s l = true) /\
  (forall k, lives s k <-> s_loop s = Some (Own k)) /\
  (forall l, s_timer s = Some l -> s_loop s = Some l) /\
  (users 0 es = 0%nat -> ~ unsettled s -> s_up s = false /\ (forall k, ~ lives s k) /\ (s_loop s = Some App \/ (s_loop s = None /\ s_timer s = None))).
Proof.
  intros isolated given es P C s. assert (V : inv (users 0 es) s) by (apply history_inv; auto; apply made_inv). pose proof V as [R U M A O Q N T F D]. pose proof (asked_pos (s_queue s)).
  assert (LV : forall k, lives s k <-> s_loop s = Some (Own k)). { intros k. rewrite <- O, <- A. unfold lives. split; [intros [E|E]; auto; destruct (F _ E)|auto]. }
  sp; auto.
  - intros L. split; [rewrite U; apply Z.gtb_lt; lia|]. destruct (s_loop s) as [l|] eqn:E; [|destruct (N eq_refl); lia]. exists l. split; auto. eapply runs_loop; eauto.
  - intros U0 NS. assert (A0 : asked (s_queue s) = 0). { assert (~ 0 < asked (s_queue s)); [|lia]. intros X. apply asked_in in X. apply NS. right. auto. }
    assert (MF : s_mid s = false) by (destruct (s_mid s) eqn:E; auto; exfalso; apply NS; left; auto).
    assert (TH : s_thread s = None). { destruct (s_thread s) as [k|] eqn:E; auto. destruct D as [D|D]; [congruence|lia|congruence]. }
    assert (NL : forall k, ~ lives s k) by (intros k X; apply LV, O in X; congruence).
    sp; auto; [rewrite U, R, U0, A0; reflexivity|]. destruct (s_loop s) as [[|k]|] eqn:E; auto; [exfalso; apply (NL k), LV; auto|right; split; auto; apply N; auto].
Qed.
(** In such a history a start never fails, and answers True exactly for the one that makes the scheduler run; a
    shutdown never fails. *)
Theorem C100_calls_answer : forall (isolated given inside paused : bool) (es : list event), paired 0 es -> calm isolated (made given) es ->
  let s := history isolated (made given) es in
  (s_mid s = false -> snd (start isolated inside paused s) = if s_up s then AFalse else ATrue) /\
  ((1 <= users 0 es)%nat -> snd (shutdown s) = ATrue \/ snd (shutdown s) = AFalse).
Proof.
  intros isolated given inside paused es P C s. assert (V : inv (users 0 es) s) by (apply history_inv; auto; apply made_inv). pose proof V as [R U M A O Q N T F D]. pose proof (asked_pos (s_queue s)). split.
  - intros MF. destruct (start_inv isolated inside paused _ _ V MF) as (_ & -> & _). rewrite U. destruct (Z.eqb_spec (s_refs s) 0), (Z.gtb_spec (s_refs s) 0); auto; lia.
  - intros L. unfold shutdown. destruct (s_loop s) eqn:E; [|destruct (N eq_refl); lia]. cbn [snd]. destruct (s_refs s >? 1); auto.
Qed.
(** A timer that has been set is never lost: when it expires the loop is told to process the tasks. *)
Theorem C100_timer_wakes : forall (isolated given : bool) (es : list event) (l : lid), paired 0 es -> calm isolated (made given) es ->
  let s := history isolated (made given) es in
  s_timer s = Some l -> let s' := step isolated s Expire in
  s_timer s' = None /\ s_queue s' = s_queue s ++ [(l, JWakeup)] /\ s_loop s' = Some l /\ runs s' l = true.
Proof.
  intros isolated given es l P C s E. assert (V : inv (users 0 es) s) by (apply history_inv; auto; apply made_inv). assert (L : s_loop s = Some l) by (apply (v_timer _ _ V); auto). pose proof (runs_loop _ _ _ V L) as R.
  cbn [step]. unfold expire. rewrite E, R, L. cbv zeta. flds. sp; auto.
Qed.
(** ** the shutdown asked for is done *)
(** a step of the loops: a callback is run, or _shutdown goes on *)
Definition loop_step (s : state) (e : event) : Prop :=
  match e with
  | Run l _ => runs s l = true /\ busy s l = false /\ exists j, In (l, j) (s_queue s)
  | Finish => s_mid s = true
  | _ => False
  end.
Fixpoint loop_steps (isolated : bool) (s : state) (es : list event) : Prop := match es with [] => True | e :: es' => loop_step s e /\ loop_steps isolated (step isolated s e) es' end.
Definition left_over (s : state) : nat := (2 * List.length (s_queue s) + if s_mid s then 1 else 0)%nat.
Lemma base_shutdown_keeps s : s_queue (fst (base_shutdown s)) = s_queue s /\ s_mid (fst (base_shutdown s)) = s_mid s.
Proof. unfold base_shutdown. cbv zeta. destruct (s_refs s - 1 >? 0); [auto|]. destruct (s_up s); auto. Qed.
Lemma loop_step_less isolated s e : loop_step s e -> (left_over (step isolated s e) < left_over s)%nat.
Proof.
  destruct e as [i p| |l a| | |k|]; cbn [loop_step step]; try tauto.
  - intros (RN & BZ & j & I). unfold run_loop. rewrite RN, BZ. cbn [negb andb]. destruct (take_in _ _ _ I) as (x & r & TK). rewrite TK. apply take_spec in TK as (u & v & EQ & ->).
    unfold left_over at 2. rewrite EQ, app_length. cbn [List.length]. destruct x; cbn [run_job].
    + unfold left_over. assert (X : s_queue (start_timer a (without (u ++ v) s)) = u ++ v /\ s_mid (start_timer a (without (u ++ v) s)) = s_mid s). { unfold start_timer. destruct a; auto. cbn [set_timer s_loop]. destruct (s_loop (without (u ++ v) s)); auto. }
      destruct X as [-> ->]. rewrite app_length. lia.
    + destruct (base_shutdown_keeps (without (u ++ v) s)) as [E1 E2]. destruct (base_shutdown (without (u ++ v) s)) as [s' []]; cbn [fst] in *; unfold left_over; cbn [set_mid s_queue s_mid]; rewrite ?E1, ?E2; cbn [without s_queue s_mid]; rewrite app_length; destruct (s_mid s); lia.
  - intros M. unfold finish. rewrite M. unfold left_over. rewrite M. cbn [set_timer set_mid s_thread]. destruct (s_thread s); cbn; lia.
Qed.
(** However the loops go on by themselves, they can do only so much; and as long as a shutdown asked for is not done,
    something can be done: the scheduler's loop is there to do it. *)
Theorem C100_shutdown_completes : forall (isolated given : bool) (es more : list event), paired 0 es -> calm isolated (made given) es ->
  let s := history isolated (made given) es in
  loop_steps isolated s more ->
  (List.length more <= 2 * List.length (s_queue s) + 1)%nat /\
  ((forall e, ~ loop_step (history isolated s more) e) -> ~ unsettled (history isolated s more)).
Proof.
  intros isolated given es more P C s L. assert (V : inv (users 0 es) s) by (apply history_inv; auto; apply made_inv). split.
  - assert (X : forall m x, loop_steps isolated x m -> (List.length m <= left_over x)%nat).
    { induction m as [|e m IH]; intros x H; cbn [List.length]; [lia|]. destruct H as [H1 H2]. specialize (IH _ H2). pose proof (loop_step_less isolated x e H1). lia. }
    specialize (X _ _ L). unfold left_over in X. destruct (s_mid s); lia.
  - assert (Y : forall m x n, inv n x -> loop_steps isolated x m -> inv n (history isolated x m)).
    { induction m as [|e m IH]; intros x n W H; cbn [history]; auto. destruct H as [H1 H2]. apply IH; auto. destruct e as [i p| |l a| | |k|]; cbn [loop_step] in H1; try tauto; [apply run_loop_inv|apply finish_inv]; auto. }
    specialize (Y _ _ _ V L). set (s' := history isolated s more) in *. intros ST [MD|(l & I)].
    + apply (ST Finish). exact MD.
    + pose proof (v_asked _ _ Y l I) as E. apply (ST (Run l false)). cbn. split; [eapply runs_loop; eauto|]. split; eauto. unfold busy. destruct (s_mid s') eqn:MD; auto. exfalso. apply (ST Finish). exact MD.
Qed.
(** ** overlapping with-blocks and lifespans *)
Lemma mixes_paired ss es : mixes ss es -> forall full open done, Forall session full -> Forall (fun l => l = [Shutdown]) open -> Forall (fun l => l = []) done -> Permutation.Permutation ss (full ++ open ++ done) -> paired (List.length open) es.
Proof.
  induction 1 as [ss|a e r b es H IH|ss e es I H IH]; intros full open done F1 F2 F3 PM; [exact Logic.I| |].
  - assert (IN : In (e :: r) (full ++ open ++ done)) by (eapply Permutation.Permutation_in; [exact PM|apply in_app_iff; right; left; auto]).
    apply in_app_iff in IN as [IN|IN]; [|apply in_app_iff in IN as [IN|IN]].
    + assert (SS : session (e :: r)) by (rewrite Forall_forall in F1; auto). destruct SS as (i & p & [= -> ->]). cbn [paired].
      apply in_split in IN as (x & y & ->). apply Forall_app in F1 as [G1 G2]. inversion G2; subst.
      specialize (IH (x ++ y) ([Shutdown] :: open) done). cbn [List.length] in IH. apply IH; auto; [apply Forall_app; auto|].
      assert (PM' : Permutation.Permutation (a ++ b) ((x ++ y) ++ open ++ done)). { rewrite <- !app_assoc in *. cbn in PM. apply Permutation.Permutation_app_inv in PM. auto. }
      apply Permutation.Permutation_trans with ([Shutdown] :: a ++ b); [apply Permutation.Permutation_sym, Permutation.Permutation_middle|]. apply Permutation.Permutation_trans with ([Shutdown] :: (x ++ y) ++ open ++ done); [constructor; auto|]. rewrite <- app_assoc. cbn. rewrite <- app_assoc. apply Permutation.Permutation_trans with (x ++ [Shutdown] :: y ++ open ++ done); [apply Permutation.Permutation_middle|]. apply Permutation.Permutation_app_head. apply Permutation.Permutation_middle.
    + assert (SS : e :: r = [Shutdown]) by (rewrite Forall_forall in F2; auto). injection SS as -> ->. apply in_split in IN as (x & y & ->). apply Forall_app in F2 as [G1 G2]. inversion G2; subst. cbn [paired]. rewrite app_length. cbn [List.length]. split; [lia|].
      specialize (IH full (x ++ y) ([] :: done)). replace (pred (List.length x + Datatypes.S (List.length y))) with (List.length (x ++ y)) by (rewrite app_length; lia). apply IH; auto; [apply Forall_app; auto|].
      assert (PM' : Permutation.Permutation (a ++ b) (full ++ (x ++ y) ++ done)). { rewrite <- !app_assoc in *. cbn in PM. replace (full ++ x ++ [Shutdown] :: y ++ done) with ((full ++ x) ++ [Shutdown] :: (y ++ done)) in PM by (rewrite <- app_assoc; auto). apply Permutation.Permutation_app_inv in PM. rewrite <- app_assoc in PM. auto. }
      apply Permutation.Permutation_trans with ([] :: a ++ b); [apply Permutation.Permutation_sym, Permutation.Permutation_middle|]. apply Permutation.Permutation_trans with ([] :: full ++ (x ++ y) ++ done); [constructor; auto|].
      replace (full ++ (x ++ y) ++ [] :: done) with ((full ++ x ++ y) ++ [] :: done) by (rewrite !app_assoc; auto). replace (full ++ (x ++ y) ++ done) with ((full ++ x ++ y) ++ done) by (rewrite !app_assoc; auto). apply Permutation.Permutation_middle.
    + exfalso. rewrite Forall_forall in F3. specialize (F3 _ IN). discriminate.
  - specialize (IH full open done F1 F2 F3 PM). destruct e; cbn [paired internal] in *; tauto.
Qed.
(** Sessions that overlap in any way, with the loops' steps anywhere between, are a paired history. *)
Theorem C100_sessions : forall (ss : list (list event)) (es : list event), Forall session ss -> mixes ss es -> paired 0 es.
Proof. intros ss es F M. apply (mixes_paired ss es M ss [] []); auto. rewrite !app_nil_r. apply Permutation.Permutation_refl. Qed.

(** ** where the claim fails *)
(** A start that falls into the middle of the shutdown of a scheduler with its own thread is answered True, but the
    scheduler it leaves has no event loop: nothing will ever run, and the next call that needs a wakeup raises. *)
Theorem C100_start_during_shutdown_refuted : exists es, paired 0 es /\ users 0 es = 1%nat /\
  let s := history true (made false) es in s_up s = true /\ s_loop s = None /\ s_timer s = None /\ (forall k, ~ lives s k) /\ snd (shutdown s) = ANoLoop.
Proof.
  exists [Start true false; Run (Own 0) false; Shutdown; Run (Own 0) false; Start true false; Finish]. split; [cbn; lia|]. split; [reflexivity|]. cbn. sp; auto. intros [|[|k]] [H|H]; discriminate.
Qed.
(** A shutdown too many: with its own thread the caller gets an AttributeError; on the application's loop nothing is
    reported, the error is raised in the loop, and the count of users is wrong from then on: the scheduler then goes down
    although somebody still uses it. *)
Theorem C100_shutdown_too_many_refuted :
  snd (shutdown (made false)) = ANoLoop /\
  (snd (shutdown (made true)) = AFalse /\
   let s := history false (made true) [Shutdown; Run App false; Start true true; Start true true; Shutdown; Run App false] in s_refs s = 0 /\ s_up s = false).
Proof. cbv zeta; sp; reflexivity. Qed.
(** NativeAsyncIOScheduler(isolated_event_loop=True): each user makes a thread of his own, and all but the last are never
    stopped. *)
Theorem C100_native_threads_refuted : forall n : nat,
  let s := nhistory true (made false) (repeat (NStart true) (Datatypes.S n) ++ repeat (NShutdown false) (Datatypes.S n)) in
  s_up s = false /\ s_loop s = None /\ forall k, lives s k <-> (k < n)%nat.
Proof.
  intros n. cbv zeta.
  assert (H1 : forall m k, nhistory true (MkS (repeat Alive (Datatypes.S k)) (Some (Own k)) (Some k) (Z.of_nat (Datatypes.S k)) true [] None false) (repeat (NStart true) m) =
    MkS (repeat Alive (Datatypes.S (k + m))) (Some (Own (k + m))) (Some (k + m)%nat) (Z.of_nat (Datatypes.S (k + m))) true [] None false).
  { induction m as [|m IH]; intros k; [rewrite Nat.add_0_r; auto|]. change (repeat (NStart true) (Datatypes.S m)) with (NStart true :: repeat (NStart true) m). cbn [nhistory]. replace (k + Datatypes.S m)%nat with (Datatypes.S k + m)%nat by lia. rewrite <- (IH (Datatypes.S k)). f_equal. unfold nstep, native_start, new_thread, base_start. cbn [s_refs s_threads s_loop s_thread s_up s_queue s_timer s_mid]. cbv zeta.
    destruct (Z.gtb_spec (Z.of_nat (Datatypes.S k) + 1) 1); [|lia]. cbn [fst]. rewrite repeat_length. f_equal; [rewrite <- repeat_cons; reflexivity|lia]. }
  assert (HA : forall a b s, nhistory true s (a ++ b) = nhistory true (nhistory true s a) b) by (induction a; intros; cbn; auto).
  rewrite HA. cbn [repeat nhistory]. change (nstep true (made false) (NStart true)) with (MkS (repeat Alive 1) (Some (Own 0)) (Some 0%nat) (Z.of_nat 1) true [] None false). rewrite H1. cbn [Nat.add].
  assert (H2 : forall m, nhistory true (MkS (repeat Alive (Datatypes.S n)) (Some (Own n)) (Some n) (Z.of_nat (Datatypes.S m)) true [] None false) (repeat (NShutdown false) (Datatypes.S m)) =
    MkS (set_nth n Stopping (repeat Alive (Datatypes.S n))) None None 0 false [] None false).
  { induction m as [|m IH]; [reflexivity|]. rewrite <- IH. change (repeat (NShutdown false) (Datatypes.S (Datatypes.S m))) with (NShutdown false :: repeat (NShutdown false) (Datatypes.S m)). cbn [nhistory]. f_equal. unfold nstep, native_shutdown, base_shutdown. cbn [s_refs s_threads s_loop s_thread s_up s_queue s_timer s_mid]. cbv zeta.
    destruct (Z.gtb_spec (Z.of_nat (Datatypes.S (Datatypes.S m)) - 1) 0); [|lia]. cbn [fst]. f_equal. lia. }
  specialize (H2 n). change (repeat (NShutdown false) (Datatypes.S n)) with (NShutdown false :: repeat (NShutdown false) n) in H2. cbn [nhistory] in H2. rewrite H2. sp; auto. intros k. unfold lives. cbn [s_threads]. rewrite set_nth_get.
  assert (NR : forall m j, nth_error (repeat Alive m) j = if Nat.ltb j m then Some Alive else None). { induction m as [|m IH]; intros [|j]; cbn; auto. rewrite IH. reflexivity. }
  rewrite !NR. destruct (Nat.eqb_spec k n) as [->|NE].
  - destruct (Nat.ltb_spec n (Datatypes.S n)); [|lia]. split; [intros [?|?]; discriminate|lia].
  - destruct (Nat.ltb_spec k (Datatypes.S n)); split; auto; try lia. intros [?|?]; discriminate.
Qed.
(** ** NativeAsyncIOScheduler: the answers, and when the caller of shutdown gets its answer *)
Fixpoint npaired (n : nat) (es : list nevent) : Prop :=
  match es with
  | [] => True
  | NStart _ :: es' => npaired (Datatypes.S n) es'
  | NShutdown _ :: es' => (1 <= n)%nat /\ npaired (pred n) es'
  | _ :: es' => npaired n es'
  end.
Fixpoint nusers (n : nat) (es : list nevent) : nat :=
  match es with
  | [] => n
  | NStart _ :: es' => nusers (Datatypes.S n) es'
  | NShutdown _ :: es' => nusers (pred n) es'
  | _ :: es' => nusers n es'
  end.
Record ninv (isolated : bool) (n : nat) (s : state) : Prop := MkNInv {
  w_refs : s_refs s = Z.of_nat n;
  w_up : s_up s = (s_refs s >? 0);
  w_mid : s_mid s = false;
  w_queue : forall l, ~ In (l, JShutdown) (s_queue s);
  w_loop : (1 <= n)%nat -> s_loop s <> None;
  w_shared : isolated = false -> s_thread s = None;
  w_thread : forall k, s_thread s = Some k -> nth_error (s_threads s) k = Some Alive /\ s_loop s = Some (Own k) }.
Lemma take_which l q j q' : take l q = Some (j, q') -> (forall x, In x q' -> In x q) /\ In (l, j) q /\ (forall m i, m <> l -> In (m, i) q -> In (m, i) q').
Proof.
  revert j q'. induction q as [|[m i] q IH]; intros j q'; cbn [take]; [discriminate|]. destruct (lid_eqb l m) eqn:E.
  - intros [= <- <-]. assert (l = m) as -> by (destruct l as [|a], m as [|b]; cbn in E; try discriminate; auto; apply Nat.eqb_eq in E; congruence). sp; [intros x X; right; auto|left; auto|]. intros x i' N [[= <- <-]|H]; [congruence|auto].
  - destruct (take l q) as [[x r]|]; [|discriminate]. intros [= <- <-]. destruct (IH _ _ eq_refl) as (A & B & C). sp; [intros y [->|Y]; [left|right]; auto|right; auto|]. intros y i' N [H|H]; [left; auto|right; auto].
Qed.
Lemma set_thread_ninv isolated n k v s : ninv isolated n s -> thread_at s k <> Alive -> ninv isolated n (set_thread k v s).
Proof.
  intros [R U M Q L SH T] N. constructor; cbn; auto. intros j H. destruct (T j H) as [A B]. split; auto. rewrite set_nth_get. destruct (Nat.eqb_spec j k) as [->|]; auto. destruct N. unfold thread_at. apply nth_error_nth. exact A.
Qed.
Lemma nstep_inv isolated n s e : ninv isolated n s -> npaired n [e] -> ninv isolated (nusers n [e]) (nstep isolated s e).
Proof.
  intros V P. pose proof V as [R U M Q L SH T]. assert (EQ : forall l, ninv isolated n (enqueue l JWakeup s)).
  { intros l. constructor; cbn; auto. intros m I. apply in_app_iff in I as [I|[[=]|[]]]. eapply Q; eauto. }
  destruct e as [p|a|l a| |k|k|]; cbn [nstep nusers npaired] in *.
  - unfold native_start. set (s0 := if isolated then new_thread s else on_app s).
    assert (W : s_refs s0 = Z.of_nat n /\ s_up s0 = (s_refs s0 >? 0) /\ s_mid s0 = false /\ (forall l, ~ In (l, JShutdown) (s_queue s0)) /\ s_loop s0 <> None /\ (isolated = false -> s_thread s0 = None) /\ forall k, s_thread s0 = Some k -> nth_error (s_threads s0) k = Some Alive /\ s_loop s0 = Some (Own k)).
    { unfold s0. destruct isolated; cbn; sp; auto; try discriminate.
      - intros k [= <-]. split; auto. rewrite nth_error_app2, Nat.sub_diag by lia. reflexivity.
      - intros k H. rewrite SH in H; discriminate || auto. }
    clearbody s0. destruct W as (R0 & U0 & M0 & Q0 & L0 & SH0 & T0). unfold base_start. destruct (Z.gtb_spec (s_refs s0 + 1) 1).
    + constructor; cbn; auto; try lia; try (intros; apply L; lia).
    + assert (s_up s0 = false) as -> by (rewrite U0; destruct (Z.gtb_spec (s_refs s0) 0); auto; lia).
      assert (GT : s_refs s0 + 1 = 1) by lia. destruct p; [|destruct (s_loop s0) eqn:E; [|congruence]]; constructor; cbn; auto; try lia; try (rewrite GT; reflexivity).
      intros m I. apply in_app_iff in I as [I|[[=]|[]]]. eapply Q0; eauto.
  - destruct P as [P _]. unfold native_shutdown, base_shutdown. destruct (Z.gtb_spec (s_refs s - 1) 0).
    + constructor; cbn; auto; try lia; try (intros; apply L; lia).
    + assert (s_up s = true) as -> by (rewrite U; apply Z.gtb_lt; lia). cbn [fst set_timer s_thread]. destruct (s_thread s) as [k|] eqn:E; constructor; cbn; auto; try lia; try discriminate; try (destruct (Z.gtb_spec (s_refs s - 1) 0); auto; lia); intros; congruence.
  - unfold run_loop. destruct (runs s l && negb (busy s l)); auto. destruct (take l (s_queue s)) as [[j q]|] eqn:E; auto. destruct (take_which _ _ _ _ E) as (A & B & _).
    destruct j; [|destruct (Q _ B)]. cbn [run_job]. unfold start_timer. destruct a; cbn; [destruct (s_loop s) eqn:E2|]; constructor; cbn; rewrite ?E2; auto; intros m I; apply (Q m); auto.
  - unfold expire. destruct (s_timer s) as [l|]; auto. destruct (runs s l); auto. destruct (s_loop s) eqn:E; constructor; cbn; auto; try (rewrite E; auto). intros m I. apply in_app_iff in I as [I|[[=]|[]]]. eapply Q; eauto.
  - unfold wake. destruct (thread_at s k) eqn:E; auto. match goal with |- context [if ?b then _ else _] => destruct b end; auto. apply set_thread_ninv; auto. rewrite E. discriminate.
  - unfold close. destruct (thread_at s k) eqn:E; auto. apply set_thread_ninv; auto. rewrite E. discriminate.
  - destruct (s_loop s); auto.
Qed.
Lemma nhistory_inv isolated es : forall n s, ninv isolated n s -> npaired n es -> ninv isolated (nusers n es) (nhistory isolated s es).
Proof.
  induction es as [|e es IH]; intros n s V P; cbn [nhistory]; auto. pose proof (nstep_inv isolated n s e V) as W.
  destruct e; cbn [npaired nusers] in *; try (apply IH; auto; fail). destruct P as [P1 P2]. apply IH; auto.
Qed.
(** Whoever starts it first is told so, whoever gives it back is told whether somebody else still holds it; and it is up
    exactly while somebody does. *)
Theorem C100_native_calls_answer : forall (isolated given paused asleep : bool) (es : list nevent), npaired 0 es ->
  let s := nhistory isolated (made given) es in let n := nusers 0 es in
  (s_up s = true <-> (1 <= n)%nat) /\
  snd (native_start isolated paused s) = (if Nat.eqb n 0 then ATrue else AFalse) /\
  ((1 <= n)%nat -> snd (native_shutdown asleep s) = (if Nat.eqb n 1 then AFalse else ATrue)).
Proof.
  intros isolated given paused asleep es P s n. assert (V : ninv isolated n s).
  { apply nhistory_inv; auto. constructor; cbn; auto; try lia; try discriminate. }
  destruct V as [R U M Q L SH T]. sp.
  - rewrite U, Z.gtb_lt. lia.
  - unfold native_start. set (s0 := if isolated then new_thread s else on_app s).
    assert (W : s_refs s0 = Z.of_nat n /\ s_up s0 = s_up s /\ s_loop s0 <> None) by (unfold s0; destruct isolated; cbn; sp; auto; discriminate). destruct W as (R0 & U0 & L0).
    unfold base_start. destruct (Z.gtb_spec (s_refs s0 + 1) 1), (Nat.eqb_spec n 0); try lia; cbn [snd]; auto. rewrite U0, U. destruct (Z.gtb_spec (s_refs s) 0); [lia|]. destruct paused; auto. destruct (s_loop s0); [auto|congruence].
  - intros N. unfold native_shutdown, base_shutdown. destruct (Z.gtb_spec (s_refs s - 1) 0).
    + cbn [snd]. destruct (Z.gtb_spec (s_refs s) 1), (Nat.eqb_spec n 1); auto; lia.
    + assert (s_up s = true) as -> by (rewrite U; apply Z.gtb_lt; lia). cbn [snd]. destruct (Z.gtb_spec (s_refs s) 1), (Nat.eqb_spec n 1); auto; lia.
Qed.
Definition by_itself (e : nevent) : Prop := match e with NRun _ _ | NExpire | NWake _ | NClose _ | NWakeup => True | _ => False end.
(** The last shutdown of a scheduler with a thread of its own waits for that thread.  If its loop is awake, or asleep with
    a callback waiting, the thread ends; if it is asleep with nothing waiting, it never ends by itself. *)
Theorem C100_native_shutdown_waits : forall (given asleep : bool) (es : list nevent) (k : nat), npaired 0 es -> nusers 0 es = 1%nat ->
  let s := nhistory true (made given) es in s_loop s = Some (Own k) -> s_thread s = Some k ->
  let s' := nstep true s (NShutdown asleep) in
  (asleep = false \/ (exists j, In (Own k, j) (s_queue s)) -> nth_error (s_threads (nhistory true s' [NWake k; NClose k])) k = Some Closed) /\
  (asleep = true -> (forall j, ~ In (Own k, j) (s_queue s)) -> forall more, Forall by_itself more -> nth_error (s_threads (nhistory true s' more)) k = Some Flagged).
Proof.
  intros given asleep es k P N1 s L TH s'. assert (V : ninv true (nusers 0 es) s).
  { apply nhistory_inv; auto. constructor; cbn; auto; try lia; try discriminate. }
  rewrite N1 in V. destruct V as [R U M Q _ _ T]. destruct (T k TH) as [AL _].
  assert (E : s' = MkS (set_nth k (if asleep then Flagged else Stopping) (s_threads s)) None None 0 false (s_queue s) None false).
  { unfold s'. cbn [nstep]. unfold native_shutdown, base_shutdown. destruct (Z.gtb_spec (s_refs s - 1) 0); [lia|]. assert (s_up s = true) as -> by (rewrite U; apply Z.gtb_lt; lia).
    cbn [fst set_timer s_thread]. rewrite TH. cbn. f_equal; [lia|auto]. }
  clearbody s'. subst s'. set (t := if asleep then Flagged else Stopping). assert (G : forall v, nth_error (set_nth k v (s_threads s)) k = Some v).
  { intros v. rewrite set_nth_get, Nat.eqb_refl, AL. reflexivity. }
  assert (G2 : forall (v w : thread) l, nth_error l k = Some w -> nth_error (set_nth k v l) k = Some v). { intros v w l H. rewrite set_nth_get, Nat.eqb_refl, H. reflexivity. }
  assert (NTH : forall v l, nth_error l k = Some v -> nth k l Closed = v) by (intros; apply nth_error_nth; auto).
  split.
  - intros H. cbn [nhistory nstep]. unfold wake, thread_at. cbn [s_threads]. rewrite (NTH _ _ (G t)).
    assert (X : nth_error (s_threads (match t with Flagged => if existsb (fun x => lid_eqb (Own k) (fst x)) (s_queue s) || false then set_thread k Stopping (MkS (set_nth k t (s_threads s)) None None 0 false (s_queue s) None false) else MkS (set_nth k t (s_threads s)) None None 0 false (s_queue s) None false | _ => MkS (set_nth k t (s_threads s)) None None 0 false (s_queue s) None false end)) k = Some Stopping).
    { destruct asleep; cbn [t]; cbn; [|apply G]. destruct H as [[=]|(j & I)]. replace (existsb _ _) with true; [cbn; eapply G2, G|]. symmetry. apply existsb_exists. exists (Own k, j). split; auto. cbn. apply Nat.eqb_refl. }
    cbn [s_queue s_timer]. match goal with |- nth_error (s_threads (close k ?y)) k = _ => assert (Y : nth_error (s_threads y) k = Some Stopping) by exact X; set (y0 := y) in * end. clearbody y0. unfold close, thread_at. rewrite (NTH _ _ Y). cbn. eapply G2, Y.
  - intros -> NI. subst t. intros more F.
    assert (K : forall s1, nth_error (s_threads s1) k = Some Flagged -> s_loop s1 = None -> s_timer s1 = None -> (forall j, ~ In (Own k, j) (s_queue s1)) -> nth_error (s_threads (nhistory true s1 more)) k = Some Flagged).
    { clear -F NTH. induction F as [|e more H F IH]; intros s1 A B C D; cbn [nhistory]; auto. apply IH; clear IH.
      all: destruct e as [p|a|l a| |j|j|]; cbn [by_itself nstep] in *; try tauto; unfold expire; try rewrite C; try rewrite B; auto.
      all: try (unfold run_loop; destruct (runs s1 l && negb (busy s1 l)); auto; destruct (take l (s_queue s1)) as [[i q]|] eqn:E; auto; destruct (take_which _ _ _ _ E) as (I1 & I2 & _); destruct i; cbn [run_job]; [unfold start_timer; destruct a; cbn; rewrite ?B; cbn; auto; intros j I; apply (D j); auto|
        unfold base_shutdown; cbn; destruct (s_refs s1 - 1 >? 0); cbn; auto; try (intros j I; apply (D j); auto); destruct (s_up s1); cbn; auto; intros j I; apply (D j); auto]).
      all: try (unfold wake; destruct (thread_at s1 j) eqn:TJ; auto; rewrite C, orb_false_r; match goal with |- context [existsb ?f ?q] => destruct (existsb f q) eqn:EX end; cbn; auto).
      all: try (unfold close; destruct (thread_at s1 j) eqn:TJ; auto; cbn; auto).
      all: rewrite set_nth_get; destruct (Nat.eqb_spec k j) as [<-|]; auto; exfalso.
      - apply existsb_exists in EX as ([l i] & I & EX). destruct l as [|l]; cbn in EX; [discriminate|]. apply Nat.eqb_eq in EX as <-. eapply D; eauto.
      - unfold thread_at in TJ. rewrite (NTH _ _ A) in TJ. discriminate. }
    apply K; cbn; auto.
Qed.
(** A loop whose thread has ended runs nothing any more. *)
Lemma history_app isolated a : forall s b, history isolated s (a ++ b) = history isolated (history isolated s a) b.
Proof. induction a; intros; cbn [app history]; auto. Qed.
Lemma paired_app a : forall n b, paired n (a ++ b) -> paired n a /\ paired (users n a) b.
Proof. induction a as [|e a IH]; intros n b; cbn [app paired users]; auto. destruct e; intros H; try (destruct H as [H1 H]); apply IH in H as [H2 H3]; auto. Qed.
Lemma calm_app isolated a : forall s b, calm isolated s (a ++ b) -> calm isolated s a /\ calm isolated (history isolated s a) b.
Proof. induction a as [|e a IH]; intros s b; cbn [app calm history]; auto. intros [H1 H2]. apply IH in H2 as [H2 H3]. auto. Qed.
Theorem C100_closed_loops : forall (isolated given : bool) (es more : list event) (k : nat), paired 0 (es ++ more) -> calm isolated (made given) (es ++ more) ->
  let s := history isolated (made given) es in nth_error (s_threads s) k = Some Closed ->
  let s' := history isolated s more in
  nth_error (s_threads s') k = Some Closed /\ s_loop s' <> Some (Own k) /\ forall j, In (Own k, j) (s_queue s) -> In (Own k, j) (s_queue s').
Proof.
  intros isolated given es more k P C. cbv zeta. apply paired_app in P as [P1 P2]. apply calm_app in C as [C1 C2]. pose proof (history_inv isolated es 0%nat (made given) (made_inv given) P1 C1) as V.
  set (s := history isolated (made given) es) in *. set (n := users 0 es) in *. clearbody s n. clear es given P1 C1. revert n s P2 C2 V.
  induction more as [|e more IH]; intros n s P C V CL; cbn [history].
  - sp; auto. destruct V. rewrite <- v_own0, <- v_alive0. congruence.
  - destruct C as [C1 C2].
    assert (V' : inv (users n [e]) (step isolated s e)) by (apply (history_inv isolated [e]); [auto|destruct e; cbn [paired] in *; tauto|split; [auto|exact Logic.I]]).
    assert (X : nth_error (s_threads (step isolated s e)) k = Some Closed /\ forall j, In (Own k, j) (s_queue s) -> In (Own k, j) (s_queue (step isolated s e))).
    { pose proof V as [R U M A O Q N T F D].
      assert (TH : s_thread s <> Some k) by (rewrite <- A; congruence).
      assert (SN : forall i v, i <> k -> nth_error (set_nth i v (s_threads s)) k = Some Closed) by (intros i v NE; rewrite set_nth_get; destruct (Nat.eqb_spec k i); congruence || auto).
      destruct e as [i p| |l a| | |i|]; cbn [step].
      - set (s0 := match s_loop s with Some _ => s | None => if isolated || negb i then new_thread s else on_app s end).
        assert (W : nth_error (s_threads s0) k = Some Closed /\ s_queue s0 = s_queue s).
        { unfold s0. destruct (s_loop s); auto. destruct (isolated || negb i); cbn; auto. split; auto. rewrite nth_error_app1; auto. apply nth_error_Some. congruence. }
        unfold start. fold s0. clearbody s0. destruct W as [W1 W2]. unfold base_start. destruct (s_refs s0 + 1 >? 1); cbn; rewrite ?W2; auto. destruct (s_up s0); cbn; rewrite ?W2; auto. destruct p; cbn; rewrite ?W2; auto. destruct (s_loop s0); cbn; rewrite ?W2; auto. split; auto. intros. apply in_app_iff. auto.
      - unfold shutdown. destruct (s_loop s); cbn; auto. split; auto. intros. apply in_app_iff. auto.
      - unfold run_loop. destruct (runs s l) eqn:RL; auto. destruct (negb (busy s l)); cbn [andb]; auto. destruct (take l (s_queue s)) as [[j q]|] eqn:E; auto.
        assert (NK : Own k <> l) by (intros <-; cbn in RL; unfold thread_at in RL; rewrite (nth_error_nth _ _ Closed CL) in RL; discriminate).
        destruct (take_which _ _ _ _ E) as (_ & _ & I). assert (G : forall j0, In (Own k, j0) (s_queue s) -> In (Own k, j0) q) by auto.
        destruct j; cbn [run_job]; [unfold start_timer; destruct a; cbn; auto; destruct (s_loop s); cbn; auto|]. unfold base_shutdown. cbn. destruct (s_refs s - 1 >? 0); cbn; auto. destruct (s_up s); cbn; auto.
      - unfold finish. destruct (s_mid s); auto. cbn [s_thread set_timer set_mid]. destruct (s_thread s) as [i|] eqn:E; cbn; auto; split; auto; apply SN; congruence.
      - unfold expire. destruct (s_timer s); auto. destruct (runs s l); auto. destruct (s_loop s); cbn; auto. split; auto. intros. apply in_app_iff. auto.
      - unfold close. destruct (thread_at s i) eqn:E; auto. cbn. split; auto. rewrite set_nth_get. destruct (Nat.eqb_spec k i) as [<-|]; rewrite ?CL; auto.
      - destruct (s_loop s); cbn; auto; split; auto; intros; apply in_app_iff; auto. }
    destruct X as [X1 X2]. destruct (IH (users n [e]) (step isolated s e)) as (B1 & B2 & B3); auto. { destruct e; cbn [paired users] in *; tauto. }
Qed.

(** And with nothing scheduled, its shutdown waits for a thread that never ends: the flag is set from outside while the
    loop is asleep, and nothing that can still happen by itself wakes it. *)
Theorem C100_native_shutdown_hangs_refuted : forall more : list nevent, Forall by_itself more ->
  let s := nhistory true (made false) ([NStart false; NRun (Own 0) false; NShutdown true] ++ more) in
  s_up s = false /\ nth_error (s_threads s) 0 = Some Flagged.
Proof.
  intros more F. cbv zeta. cbn [app nhistory]. set (s := nstep _ _ _). assert (E : s = MkS [Flagged] None None 0 false [] None false) by reflexivity. rewrite E. clear E s.
  induction more as [|e more IH]; [split; reflexivity|]. inversion F; subst. cbn [nhistory]. replace (nstep true (MkS [Flagged] None None 0 false [] None false) e) with (MkS [Flagged] None None 0 false [] None false); [auto|].
  destruct e as [p|a|l a| |k|k|]; cbn [by_itself] in *; try tauto; try reflexivity.
  - cbn. unfold run_loop. destruct l as [|[|[|k]]]; reflexivity.
  - destruct k as [|[|k]]; reflexivity.
  - destruct k as [|[|k]]; reflexivity.
Qed.
(** the hypotheses are met: two overlapping sessions, wakeups, a restart with a new thread *)
Example C100_example :
  let es := [Start false false; Start true false; Run (Own 0) true; Expire; Shutdown; Run (Own 0) true; Run (Own 0) false; Shutdown; Run (Own 0) false; Finish; Start false true; Close 0] in
  mixes [[Start false false; Shutdown]; [Start true false; Shutdown]; [Start false true; Shutdown]] es /\ calm false (made false) es /\ users 0 es = 1%nat /\
  let s := history false (made false) es in s_up s = true /\ s_loop s = Some (Own 1) /\ s_threads s = [Closed; Alive].
Proof.
  cbv zeta. split; [|split; [|split; [reflexivity|vm_compute; sp; reflexivity]]]; [|cbn [calm]; sp; try exact Logic.I; intros i p E; first [discriminate E|vm_compute; reflexivity]].
  apply (mx_user []). apply (mx_user [[Shutdown]]). apply mx_loop; [exact Logic.I|]. apply mx_loop; [exact Logic.I|]. apply (mx_user []). apply mx_loop; [exact Logic.I|]. apply mx_loop; [exact Logic.I|]. apply (mx_user [[]]). apply mx_loop; [exact Logic.I|]. apply mx_loop; [exact Logic.I|]. apply (mx_user [[]; []]). apply mx_loop; [exact Logic.I|]. constructor.
Qed.
