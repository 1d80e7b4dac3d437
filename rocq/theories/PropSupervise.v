(** C96: the start command: reloading, hooks and shutdown. *)
From Verif Require Import Prelude PreludeFacts Supervise.
Open Scope Z_scope.
Ltac sp := repeat match goal with |- _ /\ _ => split end.

(** *** specification *)
(** the time at which a file was last seen, the latest look last *)
Fixpoint last_seen (p : string) (looks : list files) : option Z :=
  match looks with
  | [] => None
  | f :: l => match last_seen p l with Some m => Some m | None => f p end
  end.
(** after these events a scheduler has started and not stopped *)
Definition alive (tr : list event) (k : nat) : Prop := In (Started k) tr /\ ~ In (Stopped k) tr.
(** what the command does, apart from the moment at which a shutdown takes effect *)
Definition visible (tr : list event) : list event := filter (fun e => match e with Stopped _ => false | _ => true end) tr.
Definition stops (tr : list event) : list nat := flat_map (fun e => match e with Stopped k => [k] | _ => [] end) tr.
Definition call (given : bool) (e : event) : list event := if given then [e] else [].
(** a scheduler's life *)
Definition birth (o : options) (k : nat) : list event := Started k :: call (o_on_start o) OnStart.
Definition life (o : options) (k : nat) : list event := birth o k ++ call (o_on_stop o) OnStop ++ [Asked k].
Definition good_boot (b : boot) : Prop := ends (b_load b) = Fine /\ b_start b = Fine /\ ends (b_hook b) = Fine.
Definition good_turn (t : turn) : Prop := ends (t_stop t) = Fine /\ t_reload t = Fine /\ good_boot (t_boot t) /\ t_sleep t = Fine.
(** the number of reloads *)
Definition reloads (o : options) (ts : list turn) : nat := List.length (filter (fun t => o_watch o && t_changed t)%bool ts).

(** *** watched files *)
Lemma changed_fst f t : fst (changed f t) = true <-> exists p m, In (p, m) t /\ f p <> Some m.
Proof.
  induction t as [|[p m] t IH]; cbn [changed]; [split; [discriminate|intros (? & ? & [] & _)]|].
  destruct (changed f t) as [b r]. cbn [fst] in IH. destruct (f p) as [m'|] eqn:F; cbn [fst].
  - rewrite orb_true_iff, IH, negb_true_iff, Z.eqb_neq. split.
    + intros [N|(q & n & I & N)]; [exists p, m; split; [left; auto|congruence]|exists q, n; split; [right; auto|auto]].
    + intros (q & n & [[= <- <-]|I] & N); [left; congruence|right; eauto].
  - split; [intros _; exists p, m; split; [left; auto|congruence]|auto].
Qed.
Lemma changed_snd f t : snd (changed f t) = map (fun pm => (fst pm, match f (fst pm) with Some m => m | None => snd pm end)) t.
Proof.
  induction t as [|[p m] t IH]; cbn [changed]; auto. destruct (changed f t) as [b r]. cbn [snd] in IH. subst r. cbn. destruct (f p); auto.
Qed.
Lemma last_seen_app p l f : last_seen p (l ++ [f]) = match f p with Some m => Some m | None => last_seen p l end.
Proof. induction l as [|g l IH]; cbn; [destruct (f p); auto|]. rewrite IH. destruct (f p); auto. Qed.
(** C96.  The command reloads at a look exactly when some watched file is missing or has another time than when it was
    last seen; watched are the files that were there when the first scheduler had started. *)
Theorem C96_reloads_when_changed :
  forall (f0 : files) (paths : list string) (fs : list files) (i : nat) (f : files),
    nth_error fs i = Some f ->
    (nth_error (polls fs (collect f0 paths)) i = Some true <->
     exists p, In p paths /\ f0 p <> None /\ (f p = None \/ f p <> last_seen p (f0 :: firstn i fs))).
Proof.
  intros f0 paths fs.
  set (WT := fun (looks : list files) (t : targets) => forall p m, In (p, m) t <-> In p paths /\ f0 p <> None /\ last_seen p looks = Some m).
  assert (W0 : WT [f0] (collect f0 paths)).
  { intros p m. unfold collect. rewrite in_flat_map. cbn [last_seen]. split.
    - intros (q & I & J). destruct (f0 q) as [m'|] eqn:F; [|destruct J]. destruct J as [[= <- <-]|[]]. sp; auto. congruence.
    - intros (I & N & F). exists p. split; auto. rewrite F. left. auto. }
  assert (LS : forall p looks, f0 p <> None -> exists m, last_seen p (f0 :: looks) = Some m).
  { intros p looks N. cbn [last_seen]. destruct (last_seen p looks); [eauto|]. destruct (f0 p); [eauto|congruence]. }
  assert (G : forall fs' looks t, WT (f0 :: looks) t -> forall i f, nth_error fs' i = Some f ->
    (nth_error (polls fs' t) i = Some true <-> exists p, In p paths /\ f0 p <> None /\ (f p = None \/ f p <> last_seen p (f0 :: looks ++ firstn i fs')))).
  { induction fs' as [|g fs' IH]; intros looks t W i f E; [destruct i; discriminate|]. cbn [polls]. pose proof (changed_fst g t) as C1. pose proof (changed_snd g t) as C2.
    destruct (changed g t) as [b t']. cbn [fst snd] in C1, C2. destruct i as [|i]; cbn [nth_error firstn] in *.
    - injection E as <-. rewrite app_nil_r. split.
      + intros [= ->]. destruct (proj1 C1 eq_refl) as (p & m & I & N). apply W in I. destruct I as (I & F & L). exists p. sp; auto. right. rewrite L. auto.
      + intros (p & I & F & D). f_equal. apply C1. destruct (LS p looks F) as [m L]. exists p, m. split; [apply W; auto|]. destruct D as [D|D]; congruence.
    - replace (looks ++ g :: firstn i fs') with ((looks ++ [g]) ++ firstn i fs') by (rewrite <- app_assoc; reflexivity). apply (IH (looks ++ [g]) t'); auto.
      intros p m. rewrite C2, in_map_iff. change (f0 :: looks ++ [g]) with ((f0 :: looks) ++ [g]). rewrite last_seen_app. split.
      + intros ([q n] & [= <- <-] & I). apply W in I. destruct I as (I & F & L). cbn [fst snd]. sp; auto. destruct (g q); auto.
      + intros (I & F & L). destruct (LS p looks F) as [n Ln]. exists (p, n). split; [|apply W; auto]. cbn [fst snd]. rewrite Ln in L. destruct (g p); congruence. }
  intros i f E. apply (G fs [] _ W0 i f E).
Qed.
Print Assumptions C96_reloads_when_changed.
(** a file that is gone makes every later look reload; an edit that leaves the time alone is not seen; nor is one made
    before the first scheduler has started *)
Example C96_looks :
  let at_ (l : list (string * Z)) (p : string) := dget p l in
  polls [at_ [("a.py", 1)]; at_ [("a.py", 2)]; at_ []; at_ []; at_ [("a.py", 2)]; at_ [("a.py", 7)]]%string (collect (at_ [("a.py"%string, 1)]) ["a.py"; "none.json"]%string)
  = [false; true; true; true; false; true].
Proof. reflexivity. Qed.

(** *** the schedulers *)
(** the numbers of schedulers started, stopped and asked to stop *)
Inductive orderly : list event -> nat -> nat -> nat -> Prop :=
| or_nil : orderly [] 0 0 0
| or_started tr a b : orderly tr a b a -> (a <= S b)%nat -> orderly (tr ++ [Started a]) (S a) b a
| or_asked tr a b c k : orderly tr a b c -> (k <= c)%nat -> (k < a)%nat -> orderly (tr ++ [Asked k]) a b (Nat.max c (S k))
| or_stopped tr a b c : orderly tr a b c -> (b < c)%nat -> orderly (tr ++ [Stopped b]) a (S b) c
| or_start_hook tr a b c : orderly tr a b c -> orderly (tr ++ [OnStart]) a b c
| or_stop_hook tr a b c : orderly tr a b c -> orderly (tr ++ [OnStop]) a b c.
Lemma orderly_facts tr a b c : orderly tr a b c ->
  (b <= c)%nat /\ (c <= a)%nat /\ (a <= S c)%nat /\ (a <= S (S b))%nat /\
  (forall k, In (Started k) tr <-> (k < a)%nat) /\ (forall k, In (Asked k) tr <-> (k < c)%nat) /\ stops tr = seq 0 b.
Proof.
  induction 1 as [|tr a b H IH L|tr a b c k H IH L1 L2|tr a b c H IH L|tr a b c H IH|tr a b c H IH].
  - sp; auto; intros k; split; intros X; cbn in *; try lia; try contradiction.
  - destruct IH as (A & B & C & D & E & F & G). sp; try lia; [intros k; rewrite in_app_iff, E; cbn|intros k; rewrite in_app_iff, F; cbn|].
    + split; [intros [X|[[= <-]|[]]]; lia|]. intros X. destruct (Nat.eq_dec k a); [subst; auto|left; lia].
    + split; [intros [X|[X|[]]]; [lia|discriminate]|auto].
    + unfold stops. rewrite flat_map_app. cbn. rewrite app_nil_r. exact G.
  - destruct IH as (A & B & C & D & E & F & G). sp; try lia; [intros j; rewrite in_app_iff, E; cbn|intros j; rewrite in_app_iff, F; cbn|].
    + split; [intros [X|[X|[]]]; [lia|discriminate]|auto].
    + split; [intros [X|[[= <-]|[]]]; lia|]. intros X. destruct (Nat.eq_dec j k); [subst; auto|left; lia].
    + unfold stops. rewrite flat_map_app. cbn. rewrite app_nil_r. exact G.
  - destruct IH as (A & B & C & D & E & F & G). sp; try lia; [intros j; rewrite in_app_iff, E; cbn|intros j; rewrite in_app_iff, F; cbn|].
    + split; [intros [X|[X|[]]]; [lia|discriminate]|auto].
    + split; [intros [X|[X|[]]]; [lia|discriminate]|auto].
    + unfold stops. rewrite flat_map_app. fold (stops tr). rewrite G. rewrite seq_S. reflexivity.
  - destruct IH as (A & B & C & D & E & F & G). sp; try lia; [intros j; rewrite in_app_iff, E; cbn|intros j; rewrite in_app_iff, F; cbn|].
    + split; [intros [X|[X|[]]]; [lia|discriminate]|auto].
    + split; [intros [X|[X|[]]]; [lia|discriminate]|auto].
    + unfold stops. rewrite flat_map_app. cbn. rewrite app_nil_r. exact G.
  - destruct IH as (A & B & C & D & E & F & G). sp; try lia; [intros j; rewrite in_app_iff, E; cbn|intros j; rewrite in_app_iff, F; cbn|].
    + split; [intros [X|[X|[]]]; [lia|discriminate]|auto].
    + split; [intros [X|[X|[]]]; [lia|discriminate]|auto].
    + unfold stops. rewrite flat_map_app. cbn. rewrite app_nil_r. exact G.
Qed.
Lemma in_stops tr k : In (Stopped k) tr <-> In k (stops tr).
Proof.
  unfold stops. rewrite in_flat_map. split; [intros I; exists (Stopped k); cbn; auto|]. intros (e & I & J). destruct e; cbn in J; try tauto. destruct J as [->|[]]. auto.
Qed.
Lemma orderly_prefix tr a b c : orderly tr a b c -> forall p q, tr = p ++ q -> exists a' b' c', orderly p a' b' c'.
Proof.
  assert (K : forall tr a b c, orderly tr a b c -> forall e, (forall p q, tr = p ++ q -> exists a' b' c', orderly p a' b' c') ->
     (exists a' b' c', orderly (tr ++ [e]) a' b' c') -> forall p q, tr ++ [e] = p ++ q -> exists a' b' c', orderly p a' b' c').
  { intros t a0 b0 c0 _ e IH E p q H. destruct q as [|x q] using rev_ind; [rewrite app_nil_r in H; subst; auto|]. rewrite app_assoc in H. apply app_inj_tail in H. destruct H as [H _]. eauto. }
  induction 1 as [|tr a b H IH L|tr a b c k H IH L1 L2|tr a b c H IH L|tr a b c H IH|tr a b c H IH];
    [intros p q E; symmetry in E; apply app_eq_nil in E; destruct E as [-> ->]; do 3 eexists; constructor| | | | |];
    (eapply K; [exact H|exact IH|do 3 eexists; econstructor; eauto]).
Qed.

(** the world after: running, waiting and next in agreement with the numbers *)
Definition agrees (w : world) (a b c : nat) : Prop :=
  orderly (trace w) a b c /\ next w = a /\ running w = seq b (a - b) /\ (forall k, In k (waiting w) -> (k < c)%nat) /\ (forall k, (b <= k < c)%nat -> In k (waiting w)).
Lemma orderly_le tr a b c : orderly tr a b c -> (b <= c)%nat /\ (c <= a)%nat /\ (a <= S c)%nat /\ (a <= S (S b))%nat.
Proof. intros H. destruct (orderly_facts _ _ _ _ H) as (A & B & C & D & _). auto. Qed.
Lemma existsb_seq k x n : existsb (Nat.eqb k) (seq x n) = true <-> (x <= k < x + n)%nat.
Proof. rewrite existsb_exists. split; [intros (y & I & E); apply Nat.eqb_eq in E; subst; apply in_seq in I; auto|intros H; exists k; rewrite in_seq, Nat.eqb_refl; auto]. Qed.
Lemma drop_first b n : filter (fun x => negb (Nat.eqb b x)) (seq b (S n)) = seq (S b) n.
Proof.
  cbn [seq filter]. rewrite Nat.eqb_refl. cbn [negb]. assert (G : forall m x, (b < x)%nat -> filter (fun y => negb (Nat.eqb b y)) (seq x m) = seq x m).
  { induction m as [|m IH]; intros x L; cbn; auto. destruct (Nat.eqb_spec b x); [lia|]. cbn. rewrite IH; auto. }
  apply G. lia.
Qed.
Lemma visible_app t1 t2 : visible (t1 ++ t2) = visible t1 ++ visible t2.
Proof. apply filter_app. Qed.
(** at most one shutdown waits for a scheduler that runs, so that the order does not matter *)
Lemma drain_agrees w a b c : agrees w a b c -> (c <= S b)%nat -> agrees (drain w) a c c /\ waiting (drain w) = [] /\ visible (trace (drain w)) = visible (trace w).
Proof.
  intros (O & N & R & W1 & W2) L. destruct (orderly_le _ _ _ _ O) as (L1 & L2 & L3 & L4). unfold drain.
  assert (G : forall l tr b' run, run = seq b' (a - b') -> orderly tr a b' c -> (c <= S b')%nat -> (forall k, In k l -> (k < c)%nat) -> (forall k, (b' <= k < c)%nat -> In k l) ->
     orderly (fst (stop_all l tr run)) a c c /\ snd (stop_all l tr run) = seq c (a - c) /\ visible (fst (stop_all l tr run)) = visible tr).
  { induction l as [|k l IH]; intros tr b' run -> O' L' K1 K2.
    - cbn. destruct (orderly_le _ _ _ _ O') as (M1 & _). assert (b' = c) as ->; [|auto]. destruct (Nat.eq_dec b' c); auto. destruct (K2 b' ltac:(lia)).
    - cbn [stop_all]. pose proof (K1 k (or_introl eq_refl)) as LK. destruct (orderly_le _ _ _ _ O') as (M1 & M2 & M3 & M4).
      destruct (existsb (Nat.eqb k) (seq b' (a - b'))) eqn:E.
      + apply existsb_seq in E. assert (k = b') as -> by lia. destruct (IH (tr ++ [Stopped b']) (S b') (filter (fun x => negb (Nat.eqb b' x)) (seq b' (a - b')))) as (X1 & X2 & X3).
        * replace (a - b')%nat with (S (a - S b')) by lia. apply drop_first.
        * constructor; auto.
        * lia.
        * intros j J. apply K1. right. auto.
        * intros j J. lia.
        * sp; auto. rewrite X3, visible_app. cbn. apply app_nil_r.
      + apply (IH tr b' (seq b' (a - b'))); auto; [intros j J; apply K1; right; auto|]. intros j J. destruct (K2 j J) as [<-|]; auto. exfalso.
        assert (existsb (Nat.eqb k) (seq b' (a - b')) = true) by (apply existsb_seq; lia). congruence. }
  destruct (G (waiting w) (trace w) b (running w) R O L W1 W2) as (X1 & X2 & X3). destruct (stop_all (waiting w) (trace w) (running w)) as [tr run]. cbn [fst snd] in *.
  split; [|cbn; auto]. unfold agrees. cbn. sp; auto; [intros k []|lia].
Qed.
Lemma say_hook_agrees w a b c e : agrees w a b c -> (e = OnStart \/ e = OnStop) -> agrees (say e w) a b c /\ visible (trace (say e w)) = visible (trace w) ++ [e].
Proof.
  intros (O & N & R & W1 & W2) E. split.
  - unfold agrees, say. cbn. sp; auto. destruct E as [->| ->]; constructor; auto.
  - cbn. rewrite visible_app. destruct E as [->| ->]; reflexivity.
Qed.
Lemma await_agrees s w a b c : agrees w a b c -> (c <= S b)%nat ->
  exists b', (b <= b')%nat /\ agrees (await s w) a b' c /\ visible (trace (await s w)) = visible (trace w).
Proof.
  intros A L. unfold await. destruct (suspends s).
  - destruct (drain_agrees w a b c A L) as (X & _ & V). exists c. destruct A as (O & _). destruct (orderly_le _ _ _ _ O). sp; auto.
  - exists b. sp; auto.
Qed.
Lemma hook_agrees given e s w a b c : agrees w a b c -> (c <= S b)%nat -> (e = OnStart \/ e = OnStop) ->
  exists b' w', (b <= b')%nat /\ hook given e s w = (w', if given then ends s else Fine) /\ agrees w' a b' c /\ visible (trace w') = visible (trace w) ++ call given e.
Proof.
  intros A L E. unfold hook, call. destruct given; [|exists b, w; sp; auto; symmetry; apply app_nil_r].
  destruct (say_hook_agrees w a b c e A E) as [A' V]. destruct (await_agrees s _ a b c A' L) as (b' & L' & X & V'). exists b', (await s (say e w)). sp; auto. congruence.
Qed.
Lemma ask_agrees k w a b c : agrees w a b c -> (k <= c)%nat -> (k < a)%nat ->
  agrees (ask k w) a b (Nat.max c (S k)) /\ visible (trace (ask k w)) = visible (trace w) ++ [Asked k].
Proof.
  intros (O & N & R & W1 & W2) L1 L2. split; [|cbn; rewrite visible_app; reflexivity]. unfold agrees, ask, say. cbn. sp; auto.
  - constructor; auto.
  - intros j. rewrite in_app_iff. cbn. intros [J|[<-|[]]]; [apply W1 in J|]; lia.
  - intros j J. rewrite in_app_iff. destruct (Nat.eq_dec j k) as [->|NE]; [right; left; auto|]. left. apply W2. lia.
Qed.
Lemma boot_agrees o bt w a b : agrees w a b a -> (a <= S b)%nat ->
  exists b' w', (b <= b')%nat /\
   ((exists r, r <> Fine /\ (ends (b_load bt) <> Fine \/ b_start bt <> Fine) /\ boot_once o bt w = (w', r) /\ agrees w' a b' a /\ visible (trace w') = visible (trace w)) \/
    (boot_once o bt w = (w', if o_on_start o then ends (b_hook bt) else Fine) /\ agrees w' (S a) b' a /\ visible (trace w') = visible (trace w) ++ birth o a)).
Proof.
  intros A L. unfold boot_once. destruct (await_agrees (b_load bt) w a b a A L) as (b1 & L1 & A1 & V1). set (w1 := await (b_load bt) w) in *.
  destruct (fine (ends (b_load bt))) eqn:F1; cbn [negb].
  2: { exists b1, w1. split; auto. left. exists (ends (b_load bt)). assert (ends (b_load bt) <> Fine) by (intros Z; rewrite Z in F1; discriminate). sp; auto. }
  destruct (fine (b_start bt)) eqn:F2; cbn [negb].
  2: { exists b1, w1. split; auto. left. exists (b_start bt). assert (b_start bt <> Fine) by (intros Z; rewrite Z in F2; discriminate). sp; auto. }
  destruct A1 as (O & N & R & W1 & W2). destruct (orderly_le _ _ _ _ O) as (M1 & M2 & M3 & M4).
  set (w2 := MkWorld (trace (say (Started (next w1)) w1)) (running (say (Started (next w1)) w1) ++ [next (say (Started (next w1)) w1)]) (waiting (say (Started (next w1)) w1)) (S (next (say (Started (next w1)) w1)))).
  assert (A2 : agrees w2 (S a) b1 a).
  { unfold agrees, w2, say. cbn [trace running waiting next]. rewrite N. sp; auto. - apply or_started; auto; lia. - rewrite R. replace (S a - b1)%nat with (S (a - b1)) by lia. rewrite seq_S. f_equal. f_equal. lia. }
  destruct (hook_agrees (o_on_start o) OnStart (b_hook bt) w2 (S a) b1 a A2 ltac:(lia) ltac:(auto)) as (b' & w' & L' & E & A' & V'). exists b', w'. split; [lia|]. right. sp; auto.
  rewrite V'. unfold w2, say. cbn [trace]. rewrite visible_app, V1, N. cbn. rewrite <- app_assoc. reflexivity.
Qed.
Lemma finally_agrees o last k cause w a b c : agrees w a b c -> (k <= b)%nat -> (c <= S k)%nat -> (k <= c)%nat -> (k < a)%nat ->
  exists w', if fine (if o_on_stop o then ends last else Fine) then
               finally o last k cause w = (w', Ended cause) /\ agrees w' a (S k) (S k) /\ visible (trace w') = visible (trace w) ++ call (o_on_stop o) OnStop ++ [Asked k]
             else exists r, r <> Fine /\ finally o last k cause w = (w', Ended r) /\ agrees w' a c c.
Proof.
  intros A L1 L2 L3 L4. unfold finally. destruct (hook_agrees (o_on_stop o) OnStop last w a b c A ltac:(lia) ltac:(auto)) as (b1 & w1 & M1 & E & A1 & V1). rewrite E.
  destruct (fine (if o_on_stop o then ends last else Fine)) eqn:F.
  - destruct (ask_agrees k w1 a b1 c A1 L3 L4) as [A2 V2]. replace (Nat.max c (S k)) with (S k) in A2 by lia.
    destruct (drain_agrees _ _ _ _ A2 ltac:(lia)) as (A3 & _ & V3). exists (drain (ask k w1)). sp; auto. rewrite V3, V2, V1, app_assoc. auto.
  - exists (drain w1). exists (if o_on_stop o then ends last else Fine). sp; auto; [intros Z; rewrite Z in F; discriminate|]. apply (drain_agrees w1 a b1 c A1). lia.
Qed.
(** what is left at the end *)
Definition start_hooks_fine (o : options) (bs : list boot) : Prop := o_on_start o = true -> forall b, In b bs -> ends (b_hook b) = Fine.
Definition stop_hook_fine (o : options) (s : awaited) : Prop := o_on_stop o = true -> ends s = Fine.
Lemma fine_stop o s : stop_hook_fine o s <-> fine (if o_on_stop o then ends s else Fine) = true.
Proof. unfold stop_hook_fine. destruct (o_on_stop o); [|split; [auto|discriminate]]. destruct (ends s); cbn; split; auto; intros H; try discriminate; specialize (H eq_refl); discriminate. Qed.
Lemma not_fine r : fine r = false <-> r <> Fine.
Proof. destruct r; cbn; split; congruence. Qed.
Lemma fine_iff r : fine r = true <-> r = Fine.
Proof. destruct r; cbn; split; congruence. Qed.
Lemma agrees_loop o last : forall ts k w w' st, agrees w (S k) k k -> loop o last ts k w = (w', st) ->
  exists a b c, agrees w' a b c /\
    match st with
    | Going k' => a = S k' /\ b = k' /\ c = k'
    | Ended _ => start_hooks_fine o (map t_boot ts) -> stop_hook_fine o last -> a = b
    end.
Proof.
  induction ts as [|t ts IH]; intros k w w' st A E.
  - injection E as <- <-. exists (S k), k, k. auto.
  - cbn [loop] in E.
    assert (FIN : forall w1 a b c cause, agrees w1 a b c -> (k <= b)%nat -> (c <= S k)%nat -> (k <= c)%nat -> (k < a)%nat -> (start_hooks_fine o (map t_boot (t :: ts)) -> a = S k) ->
       finally o last k cause w1 = (w', st) -> exists a b c, agrees w' a b c /\ match st with Going k' => a = S k' /\ b = k' /\ c = k' | Ended _ => start_hooks_fine o (map t_boot (t :: ts)) -> stop_hook_fine o last -> a = b end).
    { intros w1 a b c cause A1 L1 L2 L3 L4 H F. destruct (finally_agrees o last k cause w1 a b c A1 L1 L2 L3 L4) as (w2 & X). destruct (fine (if o_on_stop o then ends last else Fine)) eqn:FS.
      - destruct X as (X & Y & _). rewrite X in F. injection F as <- <-. exists a, (S k), (S k). split; auto.
      - destruct X as (r & _ & X & Y). rewrite X in F. injection F as <- <-. exists a, c, c. split; auto. intros _ Q. apply fine_stop in Q. congruence. }
    assert (REST : forall w1 k1, agrees w1 (S k1) k1 k1 \/ (exists b, agrees w1 (S k1) b k1 /\ (k1 <= S b)%nat) ->
       (k = k1 \/ (k1 = S k)) ->
       (if negb (fine (t_sleep t)) then finally o last k1 (caught (t_sleep t)) (drain w1) else loop o last ts k1 (drain w1)) = (w', st) ->
       exists a b c, agrees w' a b c /\ match st with Going k' => a = S k' /\ b = k' /\ c = k' | Ended _ => start_hooks_fine o (map t_boot (t :: ts)) -> stop_hook_fine o last -> a = b end).
    { intros w1 k1 A1 _ F. assert (A2 : agrees (drain w1) (S k1) k1 k1). { destruct A1 as [A1|(b & A1 & L)]; [apply (drain_agrees _ _ _ _ A1); lia|apply (drain_agrees _ _ _ _ A1 L)]. }
      destruct (fine (t_sleep t)); cbn [negb] in F.
      - destruct (IH k1 _ _ _ A2 F) as (a & b & c & X & Y). exists a, b, c. split; auto. destruct st; auto. intros S1 S2. apply Y; auto. intros ON b0 I. apply S1; auto. right. auto.
      - destruct (finally_agrees o last k1 (caught (t_sleep t)) _ _ _ _ A2 ltac:(lia) ltac:(lia) ltac:(lia) ltac:(lia)) as (w2 & X). destruct (fine (if o_on_stop o then ends last else Fine)) eqn:FS.
        + destruct X as (X & Y & _). rewrite X in F. injection F as <- <-. exists (S k1), (S k1), (S k1). split; auto.
        + destruct X as (r & _ & X & Y). rewrite X in F. injection F as <- <-. exists (S k1), k1, k1. split; auto. intros _ Q. apply fine_stop in Q. congruence. }
    destruct (o_watch o && t_changed t)%bool.
    2: { cbn [fine negb] in E. apply (REST w k); auto. }
    destruct (hook_agrees (o_on_stop o) OnStop (t_stop t) w (S k) k k A ltac:(lia) ltac:(auto)) as (b1 & w1 & L1 & EH & A1 & V1). rewrite EH in E.
    destruct (fine (if o_on_stop o then ends (t_stop t) else Fine)) eqn:F1; cbn [negb] in E.
    2: { rewrite F1 in E. cbn [negb] in E. eapply (FIN w1); eauto; try lia. }
    destruct (ask_agrees k w1 _ _ _ A1 ltac:(lia) ltac:(lia)) as [A2 V2]. replace (Nat.max k (S k)) with (S k) in A2 by lia.
    destruct (o_module o && negb (fine (t_reload t)))%bool eqn:F2.
    { apply andb_prop in F2. destruct F2 as [_ F2]. rewrite F2 in E. eapply (FIN (ask k w1)); eauto; try lia. }
    destruct (boot_agrees o (t_boot t) (ask k w1) (S k) b1 A2 ltac:(lia)) as (b2 & w2 & L2 & [(r & NR & _ & EB & A3 & _)|(EB & A3 & _)]); rewrite EB in E.
    + apply not_fine in NR. rewrite NR in E. cbn [negb] in E. rewrite NR in E. cbn [negb] in E. eapply (FIN w2); eauto; try lia.
    + destruct (fine (if o_on_start o then ends (b_hook (t_boot t)) else Fine)) eqn:F3; cbn [negb] in E.
      * cbn [fine negb] in E. destruct A3 as (O3 & N3 & REM). rewrite N3 in E. cbn [pred] in E. apply (REST w2 (S k)); auto. right. exists b2. split; [exact (conj O3 (conj N3 REM))|lia].
      * rewrite F3 in E. cbn [negb] in E. eapply (FIN w2); eauto; try lia. intros SH. exfalso. specialize (SH). destruct (o_on_start o) eqn:OO; [|discriminate]. rewrite (SH OO (t_boot t) (or_introl eq_refl)) in F3. discriminate.
Qed.
Lemma agrees_nothing : agrees nothing 0 0 0.
Proof. unfold agrees, nothing. cbn. sp; auto; [constructor|intros k []|intros k H; lia]. Qed.
Lemma agrees_start o first ts last w st : start o first ts last = (w, st) ->
  exists a b c, agrees w a b c /\
    match st with
    | Going k' => a = S k' /\ b = k' /\ c = k'
    | Ended _ => start_hooks_fine o (first :: map t_boot ts) -> stop_hook_fine o last -> a = b
    end.
Proof.
  intros E. unfold start in E. destruct (boot_agrees o first nothing 0 0 agrees_nothing ltac:(lia)) as (b1 & w1 & _ & [(r & NR & _ & EB & A & _)|(EB & A & _)]); rewrite EB in E.
  - apply not_fine in NR. rewrite NR in E. cbn [negb] in E. injection E as <- <-. exists 0%nat, 0%nat, 0%nat. split; auto. apply (drain_agrees _ _ _ _ A). lia.
  - assert (b1 = 0)%nat as -> by (destruct A as (O & _); destruct (orderly_le _ _ _ _ O); lia).
    destruct (fine (if o_on_start o then ends (b_hook first) else Fine)) eqn:F; cbn [negb] in E.
    + assert (N : next w1 = 1%nat) by apply A. rewrite N in E. cbn [pred] in E. destruct (negb (o_watch o) && negb (o_standalone o))%bool.
      * destruct (finally_agrees o last 0 Fine w1 _ _ _ A ltac:(lia) ltac:(lia) ltac:(lia) ltac:(lia)) as (w2 & X). destruct (fine (if o_on_stop o then ends last else Fine)) eqn:FS.
        -- destruct X as (X & Y & _). rewrite X in E. injection E as <- <-. exists 1%nat, 1%nat, 1%nat. auto.
        -- destruct X as (r & _ & X & Y). rewrite X in E. injection E as <- <-. exists 1%nat, 0%nat, 0%nat. split; auto. intros _ Q. apply fine_stop in Q. congruence.
      * destruct (agrees_loop o last ts 0 w1 w st A E) as (a & b & c & X & Y). exists a, b, c. split; auto. destruct st; auto. intros S1 S2. apply Y; auto. intros ON b0 I. apply S1; auto. right. auto.
    + injection E as <- <-. exists 1%nat, 0%nat, 0%nat. split; [apply (drain_agrees _ _ _ _ A); lia|]. intros SH _. destruct (o_on_start o) eqn:OO; [|discriminate]. rewrite (SH OO first (or_introl eq_refl)) in F. discriminate.
Qed.
Lemma orderly_alive tr a b c k : orderly tr a b c -> (alive tr k <-> (b <= k < a)%nat).
Proof. intros O. destruct (orderly_facts _ _ _ _ O) as (_ & _ & _ & _ & F1 & _ & F2). unfold alive. rewrite F1, in_stops, F2, in_seq. lia. Qed.

(** C96.  Whatever fails and whenever it is interrupted: at no moment do more than two schedulers run, and when two
    do, the older has been asked to stop; a scheduler starts once, is asked to stop only after that and stops only
    after being asked, once. *)
Theorem C96_at_most_one_and_one_leaving :
  forall (o : options) (first : boot) (ts : list turn) (last : awaited) (w : world) (st : status) (p q : list event),
    start o first ts last = (w, st) -> trace w = p ++ q ->
    (forall i j k, alive p i -> alive p j -> alive p k -> i = j \/ j = k \/ i = k) /\
    (forall j k, alive p j -> alive p k -> (j < k)%nat -> In (Asked j) p).
Proof.
  intros o first ts last w st p q E P. destruct (agrees_start o first ts last w st E) as (a & b & c & (O & _) & _).
  destruct (orderly_prefix _ _ _ _ O p q P) as (a' & b' & c' & O'). destruct (orderly_facts _ _ _ _ O') as (L1 & L2 & L3 & L4 & F1 & F2 & _).
  split; intros *; rewrite !(orderly_alive _ _ _ _ _ O'); rewrite ?F2; lia.
Qed.
Print Assumptions C96_at_most_one_and_one_leaving.
Theorem C96_order :
  forall (o : options) (first : boot) (ts : list turn) (last : awaited) (w : world) (st : status) (p q : list event) (k : nat),
    start o first ts last = (w, st) ->
    (trace w = p ++ Started k :: q -> ~ In (Started k) p /\ (forall j, (j < k)%nat -> In (Asked j) p)) /\
    (trace w = p ++ Asked k :: q -> In (Started k) p) /\
    (trace w = p ++ Stopped k :: q -> In (Asked k) p /\ ~ In (Stopped k) p).
Proof.
  intros o first ts last w st p q k E. destruct (agrees_start o first ts last w st E) as (a & b & c & (O & _) & _).
  assert (G : forall e, trace w = p ++ e :: q -> exists a' b' c', orderly (p ++ [e]) a' b' c') by (intros e P; apply (orderly_prefix _ _ _ _ O _ q); rewrite <- app_assoc; auto).
  sp; intros P; destruct (G _ P) as (a' & b' & c' & O'); inversion O' as [X|tr a1 b1 O1 L X|tr a1 b1 c1 k1 O1 L1 L2 X|tr a1 b1 c1 O1 L X|tr a1 b1 c1 O1 X|tr a1 b1 c1 O1 X]; try (destruct p; discriminate);
    apply app_inj_tail in X; destruct X as [<- X]; try discriminate; injection X as <-; destruct (orderly_facts _ _ _ _ O1) as (M1 & M2 & M3 & M4 & F1 & F2 & F3).
  - split; [rewrite F1; lia|]. intros j J. apply F2. lia.
  - apply F1. lia.
  - split; [apply F2; lia|]. rewrite in_stops, F3, in_seq. lia.
Qed.
Print Assumptions C96_order.
(** Between two turns exactly one scheduler runs; at the end none does, if no hook failed that the command does not
    clean up after: an on_start hook, or the last on_stop hook. *)
Theorem C96_running_partial :
  forall (o : options) (first : boot) (ts : list turn) (last : awaited) (w : world) (st : status),
    start o first ts last = (w, st) ->
    match st with
    | Going k => forall j, alive (trace w) j <-> j = k
    | Ended _ => start_hooks_fine o (first :: map t_boot ts) -> stop_hook_fine o last -> forall j, ~ alive (trace w) j
    end.
Proof.
  intros o first ts last w st E. destruct (agrees_start o first ts last w st E) as (a & b & c & (O & _) & H). destruct st as [k|r].
  - destruct H as (-> & -> & ->). intros j. rewrite (orderly_alive _ _ _ _ _ O). lia.
  - intros H1 H2 j. rewrite (orderly_alive _ _ _ _ _ O), (H H1 H2). lia.
Qed.
Print Assumptions C96_running_partial.

(** *** runs in which nothing fails *)
Lemma good_loop o last : forall ts k w, (forall t, In t ts -> good_turn t) -> agrees w (S k) k k ->
  exists w', loop o last ts k w = (w', Going (k + reloads o ts)%nat) /\ agrees w' (S (k + reloads o ts)) (k + reloads o ts) (k + reloads o ts) /\
    visible (trace w') = visible (trace w) ++ flat_map (fun j => call (o_on_stop o) OnStop ++ [Asked j] ++ birth o (S j)) (seq k (reloads o ts)).
Proof.
  induction ts as [|t ts IH]; intros k w G A.
  - exists w. unfold reloads. cbn. rewrite Nat.add_0_r, app_nil_r. auto.
  - destruct (G t (or_introl eq_refl)) as (G1 & G2 & (G3 & G4 & G5) & G6). cbn [loop]. unfold reloads. cbn [filter]. fold (reloads o ts).
    destruct (o_watch o && t_changed t)%bool; cbn [List.length]; fold (reloads o ts).
    + destruct (hook_agrees (o_on_stop o) OnStop (t_stop t) w (S k) k k A ltac:(lia) ltac:(auto)) as (b1 & w1 & L1 & EH & A1 & V1). rewrite EH, G1.
      replace (if o_on_stop o then Fine else Fine) with Fine by (destruct (o_on_stop o); auto). cbn [fine negb].
      destruct (ask_agrees k w1 _ _ _ A1 ltac:(lia) ltac:(lia)) as [A2 V2]. replace (Nat.max k (S k)) with (S k) in A2 by lia.
      rewrite G2. cbn [fine negb]. rewrite andb_false_r.
      destruct (boot_agrees o (t_boot t) (ask k w1) (S k) b1 A2 ltac:(lia)) as (b2 & w2 & L2 & [(r & NR & [X|X] & _)|(EB & A3 & V3)]); try contradiction. rewrite EB, G5.
      replace (if o_on_start o then Fine else Fine) with Fine by (destruct (o_on_start o); auto). cbn [fine negb]. rewrite G6. cbn [fine negb].
      replace (pred (next w2)) with (S k) by (destruct A3 as (_ & -> & _); auto).
      destruct (drain_agrees _ _ _ _ A3 ltac:(lia)) as (A4 & _ & V4). destruct (IH (S k) (drain w2) (fun t' I => G t' (or_intror I)) A4) as (w' & E & A5 & V5).
      exists w'. replace (k + S (reloads o ts))%nat with (S k + reloads o ts)%nat by lia. sp; auto. rewrite V5, V4, V3, V2, V1. cbn [seq flat_map]. rewrite <- !app_assoc. reflexivity.
    + cbn [fine negb]. rewrite G6. cbn [fine negb]. destruct (drain_agrees _ _ _ _ A ltac:(lia)) as (A4 & _ & V4). destruct (IH k (drain w) (fun t' I => G t' (or_intror I)) A4) as (w' & E & A5 & V5).
      exists w'. sp; auto. rewrite V5, V4. auto.
Qed.
Lemma lives_shift o n : birth o 0 ++ flat_map (fun j => call (o_on_stop o) OnStop ++ [Asked j] ++ birth o (S j)) (seq 0 n) = flat_map (life o) (seq 0 n) ++ birth o n.
Proof.
  induction n as [|n IH]; [cbn; rewrite ?app_nil_r; auto|]. rewrite !seq_S, !flat_map_app, app_assoc, IH. cbn [flat_map]. unfold life. rewrite !app_nil_r, <- !app_assoc. reflexivity.
Qed.
Lemma good_start o first ts last : good_boot first -> (forall t, In t ts -> good_turn t) -> (o_watch o || o_standalone o = true)%bool ->
  exists w, start o first ts last = (w, Going (reloads o ts)) /\ agrees w (S (reloads o ts)) (reloads o ts) (reloads o ts) /\
    visible (trace w) = flat_map (life o) (seq 0 (reloads o ts)) ++ birth o (reloads o ts).
Proof.
  intros (G1 & G2 & G3) G W. unfold start.
  destruct (boot_agrees o first nothing 0 0 agrees_nothing ltac:(lia)) as (b1 & w1 & _ & [(r & NR & [X|X] & _)|(EB & A & V)]); try contradiction. rewrite EB, G3.
  assert (b1 = 0)%nat as -> by (destruct A as (O & _); destruct (orderly_le _ _ _ _ O); lia).
  replace (if o_on_start o then Fine else Fine) with Fine by (destruct (o_on_start o); auto). cbn [fine negb].
  replace (pred (next w1)) with 0%nat by (destruct A as (_ & -> & _); auto). rewrite <- negb_orb, W. cbn [negb].
  destruct (good_loop o last ts 0 w1 G A) as (w' & E & A' & V'). exists w'. cbn [Nat.add] in *. sp; auto. rewrite V', V. cbn [visible filter trace nothing app]. apply lives_shift.
Qed.
(** C96.  Nothing failing, after any number of turns the command has lived one life for each time the files had
    changed and is in the next: each life a start, the on_start hook, the on_stop hook, the shutdown.  An interrupt then
    ends that life too, and the command ends well. *)
Theorem C96_lives :
  forall (o : options) (first : boot) (ts : list turn) (last : awaited),
    good_boot first -> (forall t, In t ts -> good_turn t) -> (o_watch o || o_standalone o = true)%bool ->
    exists w, start o first ts last = (w, Going (reloads o ts)) /\
      visible (trace w) = flat_map (life o) (seq 0 (reloads o ts)) ++ birth o (reloads o ts) /\ stops (trace w) = seq 0 (reloads o ts).
Proof.
  intros o first ts last G1 G2 W. destruct (good_start o first ts last G1 G2 W) as (w & E & (O & _) & V). exists w. sp; auto. apply (orderly_facts _ _ _ _ O).
Qed.
Print Assumptions C96_lives.
Lemma loop_app o last : forall ts ts' k w w1 k1, loop o last ts k w = (w1, Going k1) -> loop o last (ts ++ ts') k w = loop o last ts' k1 w1.
Proof.
  induction ts as [|t ts IH]; intros ts' k w w1 k1 E; [injection E as <- <-; auto|]. cbn [loop app] in *.
  assert (NF : forall w2 k2 x, finally o last k2 x w2 <> (w1, Going k1)) by (clear E; intros w2 k2 x; unfold finally; destruct (hook _ _ _ _) as [w3 h]; destruct (fine h); discriminate).
  match type of E with match ?X with (p, r) => _ end = _ => destruct X as [[w2 k2] r] end. destruct (fine r); cbn [negb] in *; [|apply NF in E; contradiction].
  destruct (fine (t_sleep t)); cbn [negb] in *; [|apply NF in E; contradiction]. apply IH. auto.
Qed.
Lemma start_app o first ts ts' last w k : start o first ts last = (w, Going k) -> (o_watch o || o_standalone o = true)%bool -> start o first (ts ++ ts') last = loop o last ts' k w.
Proof.
  unfold start. intros E W. destruct (boot_once o first nothing) as [w1 h]. destruct (fine h); cbn [negb] in *; [|discriminate]. rewrite <- negb_orb, W in *. cbn [negb] in *. apply loop_app. auto.
Qed.
Theorem C96_interrupted :
  forall (o : options) (first : boot) (ts : list turn) (t : turn) (rest : list turn) (last : awaited),
    good_boot first -> (forall t, In t ts -> good_turn t) -> (o_watch o || o_standalone o = true)%bool ->
    (o_watch o && t_changed t = false)%bool -> t_sleep t = Interrupted -> stop_hook_fine o last ->
    exists w, start o first (ts ++ t :: rest) last = (w, Ended Fine) /\
      visible (trace w) = flat_map (life o) (seq 0 (S (reloads o ts))) /\ stops (trace w) = seq 0 (S (reloads o ts)).
Proof.
  intros o first ts t rest last G1 G2 W NC SL ST. destruct (good_start o first ts last G1 G2 W) as (w & E & A & V). rewrite (start_app _ _ _ (t :: rest) _ _ _ E W).
  cbn [loop]. rewrite NC, SL. cbn [fine negb caught]. destruct (drain_agrees _ _ _ _ A ltac:(lia)) as (A1 & _ & V1).
  destruct (finally_agrees o last (reloads o ts) Fine _ _ _ _ A1 ltac:(lia) ltac:(lia) ltac:(lia) ltac:(lia)) as (w2 & X). apply fine_stop in ST. rewrite ST in X.
  destruct X as (X & (O & _) & V2). exists w2. sp; auto.
  - rewrite V2, V1, V, seq_S, flat_map_app. cbn [flat_map Nat.add]. unfold life at 2. rewrite <- !app_assoc, app_nil_r. reflexivity.
  - apply (orderly_facts _ _ _ _ O).
Qed.
Print Assumptions C96_interrupted.
(** Without --watch and --standalone the command starts the scheduler and stops it at once. *)
Theorem C96_one_shot :
  forall (o : options) (first : boot) (ts : list turn) (last : awaited),
    good_boot first -> o_watch o = false -> o_standalone o = false -> stop_hook_fine o last ->
    exists w, start o first ts last = (w, Ended Fine) /\ visible (trace w) = life o 0 /\ stops (trace w) = [0%nat].
Proof.
  intros o first ts last (G1 & G2 & G3) W1 W2 ST. unfold start.
  destruct (boot_agrees o first nothing 0 0 agrees_nothing ltac:(lia)) as (b1 & w1 & _ & [(r & NR & [X|X] & _)|(EB & A & V)]); try contradiction. rewrite EB, G3.
  assert (b1 = 0)%nat as -> by (destruct A as (O & _); destruct (orderly_le _ _ _ _ O); lia).
  replace (if o_on_start o then Fine else Fine) with Fine by (destruct (o_on_start o); auto). cbn [fine negb].
  replace (pred (next w1)) with 0%nat by (destruct A as (_ & -> & _); auto). rewrite W1, W2. cbn [negb andb].
  destruct (finally_agrees o last 0 Fine w1 _ _ _ A ltac:(lia) ltac:(lia) ltac:(lia) ltac:(lia)) as (w2 & X). apply fine_stop in ST. rewrite ST in X.
  destruct X as (X & (O & _) & V2). exists w2. sp; auto.
  - rewrite V2, V. unfold life. cbn [visible filter trace nothing app]. auto.
  - apply (orderly_facts _ _ _ _ O).
Qed.
Print Assumptions C96_one_shot.

(** *** what goes wrong *)
Definition now : awaited := MkAwaited false Fine.
Definition good : boot := MkBoot now Fine now.
Definition quiet_turn : turn := MkTurn false now Fine good Fine.
Definition reload_turn : turn := MkTurn true now Fine good Fine.
Definition ctrl_c : turn := MkTurn false now Fine good Interrupted.
Definition all_on : options := MkOptions true true true true true.
(** a reload starts the new scheduler while the old one, asked to stop, still runs *)
Theorem C96_never_two_refuted :
  exists (ts : list turn) (w : world) (st : status) (p q : list event),
    good_boot good /\ (forall t, In t ts -> good_turn t) /\ start all_on good ts now = (w, st) /\ trace w = p ++ q /\ alive p 0 /\ alive p 1.
Proof.
  exists [reload_turn]. do 2 eexists. exists [Started 0; OnStart; OnStop; Asked 0; Started 1; OnStart], [Stopped 0].
  split; [repeat split|]. split; [intros t [<-|[]]; repeat split|]. split; [reflexivity|]. split; [reflexivity|].
  split; (split; [cbn; auto 10|cbn; intuition discriminate]).
Qed.
Print Assumptions C96_never_two_refuted.
(** a failing on_start hook, at the first start and at a reload, leaves its scheduler running; so does a failing
    on_stop hook at the end *)
Theorem C96_nothing_left_refuted :
  (exists w, start all_on (MkBoot now Fine (MkAwaited false Fails)) [] now = (w, Ended Fails) /\ alive (trace w) 0 /\ ~ In OnStop (trace w)) /\
  (exists w, start all_on good [MkTurn true now Fine (MkBoot now Fine (MkAwaited false Fails)) Fine] now = (w, Ended Fails) /\ alive (trace w) 1 /\ ~ In (Asked 1) (trace w)) /\
  (exists w, start all_on good [ctrl_c] (MkAwaited false Fails) = (w, Ended Fails) /\ alive (trace w) 0 /\ ~ In (Asked 0) (trace w)).
Proof. sp; eexists; (split; [reflexivity|]); (split; [split; [cbn; auto 10|cbn; intuition discriminate]|cbn; intuition discriminate]). Qed.
Print Assumptions C96_nothing_left_refuted.
(** a reload that fails calls the on_stop hook a second time, and asks the old scheduler a second time *)
Theorem C96_one_stop_each_refuted :
  exists w, start all_on good [MkTurn true now Fails good Fine] now = (w, Ended Fails) /\
    trace w = [Started 0; OnStart; OnStop; Asked 0; OnStop; Asked 0; Stopped 0].
Proof. eexists. split; reflexivity. Qed.
Print Assumptions C96_one_stop_each_refuted.
Example C96_case :
  exists w, start all_on good [quiet_turn; reload_turn; quiet_turn; MkTurn true (MkAwaited true Fine) Fine (MkBoot (MkAwaited true Fine) Fine now) Fine; ctrl_c] now = (w, Ended Fine) /\
    trace w = [Started 0; OnStart; OnStop; Asked 0; Started 1; OnStart; Stopped 0; OnStop; Asked 1; Stopped 1; Started 2; OnStart; OnStop; Asked 2; Stopped 2].
Proof. eexists. split; reflexivity. Qed.
