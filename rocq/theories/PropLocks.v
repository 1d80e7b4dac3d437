(** C43: the processing locks. *)
From Verif Require Import Prelude Locks.
Open Scope nat_scope.

(** *** thread locks *)
Fixpoint admitted (k : nat) (l : list (nat * bool)) : nat :=
  match l with [] => 0 | (k', b) :: l' => (if Nat.eqb k k' && b then 1 else 0) + admitted k l' end.
Lemma admitted_0 k l : (forall k', In (k', true) l -> k' <> k) -> admitted k l = 0.
Proof. induction l as [|[k' b] l IH]; cbn; auto. intros H. rewrite IH by (intros; apply H; auto). destruct (Nat.eqb_spec k k'); cbn; auto. subst. destruct b; auto. destruct (H k' (or_introl eq_refl)); auto. Qed.
Lemma admitted_In k l : In (k, true) l -> 1 <= admitted k l.
Proof. induction l as [|[k' b] l IH]; cbn; [tauto|]. intros [[= -> ->]|H]; [rewrite Nat.eqb_refl; cbn; lia|]. apply IH in H. lia. Qed.
Lemma admitted_pop k k' l b : top k l = Some b -> admitted k' (pop k l) + (if Nat.eqb k' k && b then 1 else 0) = admitted k' l.
Proof.
  induction l as [|[k0 b0] l IH]; cbn; [discriminate|]. destruct (Nat.eqb_spec k k0).
  - intros [= ->]. subst. lia.
  - intros H. cbn. rewrite <- (IH H). lia.
Qed.
Lemma pop_In k l x : In x (pop k l) -> In x l.
Proof. induction l as [|[k0 b0] l IH]; cbn; auto. destruct (Nat.eqb k k0); cbn; intuition. Qed.
Lemma top_In k l b : top k l = Some b -> In (k, b) l.
Proof. induction l as [|[k0 b0] l IH]; cbn; [discriminate|]. destruct (Nat.eqb_spec k k0); [intros [= ->]; subst; auto|auto]. Qed.

Definition tinv (re : bool) (s : tlock) : Prop :=
  match held_by s with
  | None => forall k, ~ In (k, true) (blocks s)
  | Some (k, n) => 1 <= n /\ (re = false -> n = 1) /\ admitted k (blocks s) <= n /\ forall k', In (k', true) (blocks s) -> k' = k
  end.
Ltac inv H := inversion H; subst; clear H.
Lemma acquire_got re k bl tm got o o' : acquire re k bl tm got o = Some o' ->
  if got then (o = None /\ o' = Some (k, 1)) \/ (re = true /\ exists n, o = Some (k, n) /\ o' = Some (k, S n)) else o' = o.
Proof.
  assert (K : forall X : option (option (nat*nat)), (if acquirable re k o then if got then Some (match o with None => Some (k, 1) | Some (_, n) => Some (k, S n) end) else None
    else if got then None else X) = Some o' -> (X = None \/ X = Some o) -> if got then (o = None /\ o' = Some (k, 1)) \/ (re = true /\ exists n, o = Some (k, n) /\ o' = Some (k, S n)) else o' = o).
  { intros X. destruct o as [[k0 n0]|]; cbn.
    - destruct (re && Nat.eqb k k0) eqn:E.
      + apply andb_prop in E as [-> E]. apply Nat.eqb_eq in E. subst. destruct got; [|discriminate]. intros [= <-] _. right. eauto.
      + destruct got; [discriminate|]. intros -> [|]; congruence.
    - destruct got; [|discriminate]. intros [= <-] _. auto. }
  unfold acquire. intros H. destruct bl.
  - apply (K (match tm with None => None | _ => Some o end)); [destruct tm; exact H|destruct tm; auto].
  - destruct tm; [discriminate|]. apply (K (Some o)); auto.
Qed.
Lemma tinv_step re s a s' : tinv re s -> tstep re s a = Some s' -> tinv re s'.
Proof.
  unfold tinv. intros I H. destruct a as [k bl tm got|k|k]; cbn [tstep] in H.
  - destruct (acquire re k bl tm got (held_by s)) as [o|] eqn:A; [|discriminate]. inv H. cbn [held_by blocks]. apply acquire_got in A. destruct got.
    + destruct A as [[E ->]|(-> & n & E & ->)]; rewrite E in I; cbn.
      * repeat split; auto. { rewrite Nat.eqb_refl. cbn. rewrite admitted_0; auto. intros k' H ->. apply (I k H). }
        intros k' [[= <-]|H]; auto. destruct (I k' H).
      * destruct I as (I1 & I2 & I3 & I4). rewrite Nat.eqb_refl. cbn. repeat split; [lia|discriminate|lia|]. intros k' [[= <-]|H]; auto.
    + subst o. destruct (held_by s) as [[k0 n]|].
      * destruct I as (I1 & I2 & I3 & I4). cbn. rewrite andb_false_r. cbn. repeat split; auto. intros k' [[=]|H]; auto.
      * intros k' [[=]|H]. apply (I k' H).
  - destruct (top k (blocks s)) as [got|] eqn:T; [|discriminate]. inv H. cbn [held_by blocks]. pose proof (top_In _ _ _ T) as TI. destruct (held_by s) as [[k0 n]|].
    + destruct I as (I1 & I2 & I3 & I4). destruct got.
      * pose proof (I4 k TI). subst k0. pose proof (admitted_pop k k _ _ T) as P. rewrite Nat.eqb_refl in P. cbn in P.
        destruct n as [|[|n]]; cbn; [lia| |].
        { intros k' H. pose proof (I4 k' (pop_In _ _ _ H)). subst k'. apply admitted_In in H. lia. }
        { repeat split; [lia|intros E; specialize (I2 E); lia|lia|]. intros k' H. apply I4. eapply pop_In; eauto. }
      * pose proof (admitted_pop k k0 _ _ T) as P. rewrite andb_false_r in P. repeat split; auto; [lia|]. intros k' H. apply I4. eapply pop_In; eauto.
    + destruct got; [destruct (I k TI)|]. intros k' H. apply (I k'). eapply pop_In; eauto.
  - destruct (top k (blocks s)) as [got|] eqn:T; [|discriminate]. inv H. cbn [held_by blocks]. destruct (held_by s) as [[k0 n]|].
    + destruct I as (I1 & I2 & I3 & I4). pose proof (admitted_pop k k0 _ _ T) as P. repeat split; auto; [lia|]. intros k' H. apply I4. eapply pop_In; eauto.
    + intros k' H. apply (I k'). eapply pop_In; eauto.
Qed.
Lemma truns_inv re (Q : tlock -> Prop) : (forall s a s', Q s -> tstep re s a = Some s' -> Q s') -> forall l s s', Q s -> truns re s l = Some s' -> Q s'.
Proof. intros K. induction l as [|a l IH]; cbn; intros s s' I H; [inv H; auto|]. destruct (tstep re s a) eqn:E; [|discriminate]. eapply IH; [|exact H]. eapply K; eauto. Qed.
Lemma tinv_runs re l s : truns re unlocked l = Some s -> tinv re s.
Proof. intros H. refine (truns_inv re (tinv re) (fun s a s' => tinv_step re s a s') l unlocked s _ H). cbn. auto. Qed.

(** Threads entering (blocking or not, with or without timeout), leaving and raising in any order:
    no two threads are ever admitted at the same time; with the plain lock not even two blocks. *)
Theorem C43_threads_exclusive :
  forall (re : bool) (acts : list tact) (s : tlock), truns re unlocked acts = Some s ->
    (forall k k', In (k, true) (blocks s) -> In (k', true) (blocks s) -> k = k') /\
    (re = false -> List.length (filter snd (blocks s)) <= 1).
Proof.
  intros re acts s H. apply tinv_runs in H. unfold tinv in H. destruct (held_by s) as [[k0 n]|].
  - destruct H as (I1 & I2 & I3 & I4). split; [intros k k' A B; rewrite (I4 k A), (I4 k' B); auto|].
    intros E. rewrite (I2 E) in I3. enough (List.length (filter snd (blocks s)) = admitted k0 (blocks s)) by lia.
    clear - I4. induction (blocks s) as [|[k b] l IH]; cbn in *; auto. destruct b; cbn.
    + rewrite (I4 k (or_introl eq_refl)), Nat.eqb_refl. cbn. rewrite IH; auto.
    + rewrite andb_false_r. apply IH. auto.
  - split; [intros k k' A; destruct (H k A)|]. intros _. enough (filter snd (blocks s) = []) as -> by auto.
    clear - H. induction (blocks s) as [|[k b] l IH]; cbn in *; auto. destruct b; [destruct (H k); auto|]. cbn. apply IH. intros k' A. apply (H k'). auto.
Qed.
Print Assumptions C43_threads_exclusive.

Definition no_raise (a : tact) : Prop := match a with TRaise _ => False | _ => True end.
(** As long as no exception leaves a protected block, the lock is free again as soon as every admitted
    block has ended: anyone who tries then is admitted. *)
Theorem C43_threads_released_partial :
  forall (re : bool) (acts : list tact) (s : tlock), truns re unlocked acts = Some s -> (forall a, In a acts -> no_raise a) ->
    (forall k, ~ In (k, true) (blocks s)) ->
    forall k, tstep re s (TEnter k false None true) = Some (MkTlock (Some (k, 1)) ((k, true) :: blocks s)) /\ tstep re s (TEnter k false None false) = None.
Proof.
  intros re acts s H NR F.
  assert (J : held_by s = None).
  { assert (J : tinv re s /\ match held_by s with None => True | Some (k, n) => admitted k (blocks s) = n end).
    2:{ destruct J as [J1 J2]. unfold tinv in J1. destruct (held_by s) as [[k n]|]; auto. destruct J1 as (I1 & _). rewrite admitted_0 in J2 by (intros k' A; destruct (F k' A)). lia. }
    clear F. assert (Q : tinv re unlocked /\ match held_by unlocked with None => True | Some (k, n) => admitted k (blocks unlocked) = n end) by (cbn; auto).
    revert H Q. generalize unlocked. induction acts as [|a acts IH]; cbn; intros s0 H Q; [inv H; auto|].
    destruct (tstep re s0 a) as [s1|] eqn:E; [|discriminate]. apply (IH (fun b Hb => NR b (or_intror Hb)) s1 H). clear IH H. destruct Q as [Q1 Q2].
    split; [eapply tinv_step; eauto|]. specialize (NR a (or_introl eq_refl)). unfold tinv in Q1. destruct a as [k bl tm got|k|k]; cbn [tstep] in E; [| |destruct NR].
    - destruct (acquire re k bl tm got (held_by s0)) as [o|] eqn:A; [|discriminate]. inv E. cbn [held_by blocks]. apply acquire_got in A. destruct got.
      + destruct A as [[E ->]|(-> & n & E & ->)]; rewrite E in *; cbn; rewrite Nat.eqb_refl; cbn; [|lia]. rewrite admitted_0; auto. intros k' H ->. apply (Q1 k H).
      + subst o. destruct (held_by s0) as [[k0 n]|]; auto. cbn. rewrite andb_false_r. auto.
    - destruct (top k (blocks s0)) as [got|] eqn:T; [|discriminate]. inv E. cbn [held_by blocks]. pose proof (top_In _ _ _ T) as TI. destruct got.
      + destruct (held_by s0) as [[k0 n]|]; [|cbn; auto]. destruct Q1 as (I1 & I2 & I3 & I4). pose proof (I4 k TI). subst k0.
        pose proof (admitted_pop k k _ _ T) as P. rewrite Nat.eqb_refl in P. cbn in P. destruct n as [|[|n]]; cbn; auto. lia.
      + destruct (held_by s0) as [[k0 n]|]; auto. pose proof (admitted_pop k k0 _ _ T) as P. rewrite andb_false_r in P. lia. }
  intros k. unfold tstep, acquire, acquirable. rewrite J. auto.
Qed.
Print Assumptions C43_threads_released_partial.

(** But once an exception has left an admitted block, no other thread is ever admitted again, whatever
    happens afterwards (with the plain lock: nobody at all). *)
Theorem C43_exception_keeps_lock_forever_refuted :
  forall (re : bool) (before after : list tact) (k : nat) (s1 s2 s3 : tlock),
    truns re unlocked before = Some s1 -> top k (blocks s1) = Some true -> tstep re s1 (TRaise k) = Some s2 -> truns re s2 after = Some s3 ->
    (forall k', k' <> k -> ~ In (k', true) (blocks s3)) /\ (re = false -> forall k', ~ In (k', true) (blocks s3)).
Proof.
  intros re before after k s1 s2 s3 H1 T E H2.
  pose (Q := fun s : tlock => (exists n, held_by s = Some (k, n) /\ admitted k (blocks s) < n /\ (re = false -> n = 1)) /\ forall k', In (k', true) (blocks s) -> k' = k).
  assert (Q2 : Q s2).
  { apply tinv_runs in H1. unfold tinv in H1. cbn in E. rewrite T in E. inv E. unfold Q. cbn. pose proof (top_In _ _ _ T) as TI.
    destruct (held_by s1) as [[k0 n]|]; [|destruct (H1 k TI)]. destruct H1 as (I1 & I2 & I3 & I4). pose proof (I4 k TI). subst k0.
    pose proof (admitted_pop k k _ _ T) as P. rewrite Nat.eqb_refl in P. cbn in P. split; [exists n; repeat split; auto; lia|]. intros k' H. apply I4. eapply pop_In; eauto. }
  assert (Q3 : Q s3).
  { eapply truns_inv; [|exact Q2|exact H2]. clear. intros s a s' ((n & I1 & I2 & I3) & I4) H. destruct a as [k0 bl tm got|k0|k0]; cbn [tstep] in H.
    - destruct (acquire re k0 bl tm got (held_by s)) as [o|] eqn:A; [|discriminate]. inv H. apply acquire_got in A. rewrite I1 in A. unfold Q. cbn [held_by blocks]. destruct got.
      + destruct A as [[E _]|(-> & m & E & ->)]; [discriminate|]. inv E. split; [exists (S m); cbn; rewrite Nat.eqb_refl; cbn; repeat split; [lia|discriminate]|]. intros k' [[= <-]|H]; auto.
      + subst o. split; [exists n; cbn; rewrite andb_false_r; auto|]. intros k' [[=]|H]; auto.
    - destruct (top k0 (blocks s)) as [got|] eqn:T; [|discriminate]. inv H. pose proof (top_In _ _ _ T) as TI. unfold Q. cbn [held_by blocks]. rewrite I1.
      pose proof (admitted_pop k0 k _ _ T) as P. split; [|intros k' H; apply I4; eapply pop_In; eauto]. destruct got.
      + rewrite (I4 k0 TI), Nat.eqb_refl in *. cbn in P. destruct n as [|[|n]]; [lia|lia|]. cbn. exists (S n). repeat split; [lia|]. intros E. specialize (I3 E). lia.
      + rewrite andb_false_r in P. exists n. repeat split; auto. lia.
    - destruct (top k0 (blocks s)) as [got|] eqn:T; [|discriminate]. inv H. unfold Q. cbn [held_by blocks].
      pose proof (admitted_pop k0 k _ _ T) as P. split; [|intros k' H; apply I4; eapply pop_In; eauto]. exists n. repeat split; auto. lia. }
  destruct Q3 as ((n & I1 & I2 & I3) & I4). split; [intros k' N H; apply N; auto|]. intros ER k' H. specialize (I3 ER). rewrite (I4 k' H) in H. apply admitted_In in H. lia.
Qed.
Print Assumptions C43_exception_keeps_lock_forever_refuted.

(** the scheduler's processing lock is the re-entrant one (schedulers/base.py:1554-1558): one thread
    may be admitted to any number of nested blocks *)
Theorem C43_same_thread_not_excluded_refuted :
  forall n, exists s, truns true unlocked (repeat (TEnter 0 false None true) n) = Some s /\ blocks s = repeat (0, true) n.
Proof.
  enough (H : forall n m l, exists s, truns true (MkTlock (match m with 0 => None | _ => Some (0, m) end) l) (repeat (TEnter 0 false None true) n) = Some s /\ blocks s = repeat (0, true) n ++ l).
  { intros n. destruct (H n 0 []) as (s & A & B). rewrite app_nil_r in B. eauto. }
  induction n as [|n IH]; intros m l; [eexists; split; reflexivity|].
  destruct (IH (S m) ((0, true) :: l)) as (s & A & B). exists s. split; [destruct m; exact A|]. rewrite B. clear.
  change (repeat (0, true) (S n)) with ((0, true) :: repeat (0, true) n). rewrite <- app_comm_cons. induction n; cbn; congruence.
Qed.
Print Assumptions C43_same_thread_not_excluded_refuted.

Example C43_threads_case : (* thread 0 is admitted, thread 1 refused; 0 leaves, 1 is admitted, raises; 0 is refused for good *)
  exists s, truns false unlocked [TEnter 0 false None true; TEnter 1 false None false; TLeave 0; TLeave 1; TEnter 1 true (Some 5%Z) true; TRaise 1; TEnter 0 true (Some 5%Z) false] = Some s /\
            held_by s = Some (1, 1) /\ blocks s = [(0, false)].
Proof. eexists. split; [reflexivity|]. auto. Qed.

(** *** file locks *)
Record linv (s : flock) : Prop := {
  l_files : NoDup (map lfile (opens s));
  l_fresh : forall i, linode s = Some i -> i < lfresh s;
  l_old : forall o, In o (opens s) -> lino o < lfresh s;
  l_excl : forall o o', In o (opens s) -> In o' (opens s) -> is_body o = true -> is_body o' = true -> lino o = lino o' -> lfile o = lfile o' }.
Lemma find_open_Some f l o : find_open f l = Some o -> In o l /\ lfile o = f.
Proof. intros H. apply find_some in H as [A B]. apply Nat.eqb_eq in B. auto. Qed.
Lemma find_open_None f l : find_open f l = None -> ~ In f (map lfile l).
Proof. intros H Q. apply in_map_iff in Q as (o & E & Q). apply (find_none _ _ H) in Q. rewrite E, Nat.eqb_refl in Q. discriminate. Qed.
Lemma lfile_set f g l : map lfile (set_open f g l) = map lfile l.
Proof. unfold set_open. rewrite map_map. apply map_ext. intros o. destruct (Nat.eqb (lfile o) f); auto. Qed.
Lemma set_open_In f g l o : In o (set_open f g l) -> exists o', In o' l /\ lproc o = lproc o' /\ lfile o = lfile o' /\ lino o = lino o' /\ ((lfile o' = f /\ lst o = g) \/ (lfile o' <> f /\ o = o')).
Proof. intros H. apply in_map_iff in H as (o' & <- & H). exists o'. destruct (Nat.eqb_spec (lfile o') f); cbn; auto 8. Qed.
Lemma NoDup_map_filter {A B} (f : A -> B) p l : NoDup (map f l) -> NoDup (map f (filter p l)).
Proof. induction l as [|a l IH]; cbn; auto. intros H. inv H. destruct (p a); cbn; auto. constructor; auto. intros Q. apply H2. apply in_map_iff in Q as (x & <- & Q). apply filter_In in Q as [Q _]. apply in_map; auto. Qed.
Lemma NoDup_map_inj {A B} (f : A -> B) l a b : NoDup (map f l) -> In a l -> In b l -> f a = f b -> a = b.
Proof. induction l as [|x l IH]; cbn; [tauto|]. intros H. inv H. intros [->|Ha] [->|Hb] E; auto. - destruct H2. rewrite E. apply in_map; auto. - destruct H2. rewrite <- E. apply in_map; auto. Qed.

Lemma linv_sub p s : linv s -> linv (MkFlock (linode s) (lfresh s) (filter p (opens s))).
Proof.
  intros [A B C D]. constructor; cbn; auto.
  - apply NoDup_map_filter; auto.
  - intros o H. apply filter_In in H as [H _]. auto.
  - intros o o' H H'. apply filter_In in H as [H _], H' as [H' _]. auto.
Qed.
Lemma linv_step s a s' : linv s -> lstep s a = Some s' -> linv s'.
Proof.
  intros I H. pose proof I as [A B C D]. destruct a as [p f|f bl|f exc| |p]; cbn [lstep] in H.
  - destruct (find_open f (opens s)) eqn:F; [discriminate|]. apply find_open_None in F. destruct (linode s) as [i|] eqn:E; inv H; constructor; cbn; auto.
    + constructor; auto.
    + intros o [<-|H]; cbn; auto.
    + intros o o' [<-|H] [<-|H'] B1 B2; try discriminate; auto.
    + constructor; auto.
    + intros i [= <-]. lia.
    + intros o [<-|H]; cbn; [lia|]. specialize (C o H). lia.
    + intros o o' [<-|H] [<-|H'] B1 B2; try discriminate; auto.
  - destruct (find_open f (opens s)) as [[p f0 i g]|] eqn:F; [|discriminate]. destruct g; [|discriminate]. apply find_open_Some in F as [F <-]. cbn in *.
    destruct (flocked f0 i (opens s)) eqn:L.
    + destruct bl; [discriminate|]. inv H. constructor; cbn; auto.
      * rewrite lfile_set; auto.
      * intros o H. apply set_open_In in H as (o' & H & _ & _ & -> & _). auto.
      * intros o o' H H' B1 B2 EQ. apply set_open_In in H as (q & H & _ & E2 & E3 & [[_ G]|[_ ->]]); [unfold is_body in B1; rewrite G in B1; discriminate|].
        apply set_open_In in H' as (q' & H' & _ & E2' & E3' & [[_ G]|[_ ->]]); [unfold is_body in B2; rewrite G in B2; discriminate|]. auto.
    + inv H. assert (U : forall o, In o (opens s) -> is_body o = true -> lino o = i -> lfile o = f0).
      { intros o Ho Bo Eo. destruct (Nat.eq_dec (lfile o) f0) as [|N]; auto. assert (flocked f0 i (opens s) = true); [|congruence].
        apply existsb_exists. exists o. split; auto. rewrite Bo, Eo, Nat.eqb_refl. apply Nat.eqb_neq in N. rewrite N. auto. }
      constructor; cbn; auto.
      * rewrite lfile_set; auto.
      * intros o H. apply set_open_In in H as (o' & H & _ & _ & -> & _). auto.
      * intros o o' H H' B1 B2 EQ. apply set_open_In in H as (q & H & _ & E2 & E3 & Hq). apply set_open_In in H' as (q' & H' & _ & E2' & E3' & Hq').
        assert (Gi : forall x, In x (opens s) -> lfile x = f0 -> lino x = i). { intros x Hx Ex. rewrite (NoDup_map_inj lfile _ x _ A Hx F Ex). auto. }
        rewrite E2, E2'. destruct Hq as [[Q _]|[Q ->]], Hq' as [[Q' _]|[Q' ->]]; [congruence| | |].
        { rewrite Q. symmetry. apply U; auto. rewrite <- (Gi q H Q). congruence. }
        { rewrite Q'. apply U; auto. rewrite <- (Gi q' H' Q'). congruence. }
        { auto. }
  - destruct (find_open f (opens s)) as [[p f0 i g]|]; [|discriminate]. destruct g; [discriminate|]. inv H. apply linv_sub; auto.
  - inv H. constructor; cbn; auto. discriminate.
  - inv H. apply linv_sub; auto.
Qed.
Lemma lruns_inv (Q : flock -> Prop) : (forall s a s', Q s -> lstep s a = Some s' -> Q s') -> forall l s s', Q s -> lruns s l = Some s' -> Q s'.
Proof. intros K. induction l as [|a l IH]; cbn; intros s s' I H; [inv H; auto|]. destruct (lstep s a) eqn:E; [|discriminate]. eapply IH; [|exact H]. eapply K; eauto. Qed.
Lemma linv_runs l s : lruns nolocks l = Some s -> linv s.
Proof. intros H. refine (lruns_inv linv linv_step l nolocks s _ H). constructor; cbn; try tauto; [constructor|discriminate]. Qed.

Definition no_shutdown (a : lact) : Prop := match a with LShutdown => False | _ => True end.
(** Processes opening, locking, leaving (normally or by an exception) and dying in any order: as long as
    nobody removes the lock file (shutdown), at most one block is admitted at a time. *)
Theorem C43_files_exclusive_partial :
  forall (acts : list lact) (s : flock), lruns nolocks acts = Some s -> (forall a, In a acts -> no_shutdown a) ->
    forall o o', In o (opens s) -> In o' (opens s) -> lst o = LBody true -> lst o' = LBody true -> o = o'.
Proof.
  intros acts s H NS o o' Ho Ho' B B'. pose proof (linv_runs _ _ H) as [A _ _ D].
  assert (S : (linode s = None /\ opens s = []) \/ exists i, linode s = Some i /\ forall x, In x (opens s) -> lino x = i).
  { clear -H NS. assert (Q : (linode nolocks = None /\ opens nolocks = []) \/ exists i, linode nolocks = Some i /\ forall x, In x (opens nolocks) -> lino x = i) by (left; auto).
    revert Q H. generalize nolocks. induction acts as [|a acts IH]; cbn; intros s0 Q H; [inv H; auto|]. destruct (lstep s0 a) as [s1|] eqn:E; [|discriminate].
    apply (IH (fun b Hb => NS b (or_intror Hb)) s1); auto. clear IH H. specialize (NS a (or_introl eq_refl)).
    destruct a as [p f|f bl|f exc| |p]; cbn [lstep] in E; [| | |destruct NS|].
    - destruct (find_open f (opens s0)); [discriminate|]. right. destruct Q as [[Q1 Q2]|(i & Q1 & Q2)]; rewrite Q1 in E; inv E; cbn; [exists (lfresh s0)|exists i]; split; auto; intros x [<-|Hx]; auto.
      rewrite Q2 in Hx. destruct Hx.
    - destruct (find_open f (opens s0)) as [[p f0 i g]|] eqn:F; [|discriminate]. destruct g; [|discriminate].
      apply find_open_Some in F as [F _]. destruct Q as [[Q1 Q2]|(j & Q1 & Q2)]; [rewrite Q2 in F; destruct F|]. right. exists j.
      assert (R : forall g x, In x (set_open f g (opens s0)) -> lino x = j). { intros g x Hx. apply set_open_In in Hx as (y & Hy & _ & _ & -> & _). auto. }
      destruct (flocked f i (opens s0)); [destruct bl; [discriminate|]|]; inv E; cbn; split; auto; apply R.
    - destruct (find_open f (opens s0)) as [[p f0 i g]|]; [|discriminate]. destruct g; [discriminate|]. inv E. cbn. destruct Q as [[Q1 Q2]|(j & Q1 & Q2)]; [left; rewrite Q2; auto|]. right. exists j. split; auto.
      intros x Hx. apply filter_In in Hx as [Hx _]. auto.
    - inv E. cbn. destruct Q as [[Q1 Q2]|(j & Q1 & Q2)]; [left; rewrite Q2; auto|]. right. exists j. split; auto. intros x Hx. apply filter_In in Hx as [Hx _]. auto. }
  apply (NoDup_map_inj lfile (opens s)); auto. apply D; auto; [unfold is_body; rewrite B; auto|unfold is_body; rewrite B'; auto|].
  destruct S as [[_ E]|(i & _ & E)]; [rewrite E in Ho; destruct Ho|]. rewrite (E o Ho), (E o' Ho'). auto.
Qed.
Print Assumptions C43_files_exclusive_partial.

(** With shutdowns anywhere, the lock still excludes every two blocks that opened the same file. *)
Theorem C43_files_exclusive_per_file_partial :
  forall (acts : list lact) (s : flock), lruns nolocks acts = Some s ->
    forall o o', In o (opens s) -> In o' (opens s) -> lst o = LBody true -> lst o' = LBody true -> lino o = lino o' -> o = o'.
Proof.
  intros acts s H o o' Ho Ho' B B' E. pose proof (linv_runs _ _ H) as [A _ _ D]. apply (NoDup_map_inj lfile (opens s)); auto. apply D; auto; [unfold is_body; rewrite B|unfold is_body; rewrite B']; auto.
Qed.
Print Assumptions C43_files_exclusive_per_file_partial.

(** The file lock is released on every exit, exceptions and crashes included: after any run, if no block
    that is admitted now uses the file, the next one to lock it is admitted. *)
Theorem C43_files_released :
  forall (acts : list lact) (s : flock) (p f i : nat) (blocking : bool), lruns nolocks acts = Some s -> In (MkOpen p f i LOpened) (opens s) ->
    (forall o, In o (opens s) -> lino o = i -> lst o <> LBody true) ->
    lstep s (LLock f blocking) = Some (MkFlock (linode s) (lfresh s) (set_open f (LBody true) (opens s))) /\
    forall exc s', lstep s (LLock f blocking) = Some s' -> exists s'', lstep s' (LExit f exc) = Some s'' /\ opens s'' = close f (opens s).
Proof.
  intros acts s p f i bl H F N. pose proof (linv_runs _ _ H) as [A _ _ D].
  assert (FO : find_open f (opens s) = Some (MkOpen p f i LOpened)).
  { destruct (find_open f (opens s)) as [o|] eqn:E; [|destruct (find_open_None _ _ E); change f with (lfile (MkOpen p f i LOpened)); apply in_map; auto].
    apply find_open_Some in E as [E1 E2]. f_equal. apply (NoDup_map_inj lfile (opens s)); auto. }
  assert (L : flocked f i (opens s) = false).
  { destruct (flocked f i (opens s)) eqn:L; auto. apply existsb_exists in L as (o & Ho & L). apply andb_prop in L as [L1 L2]. apply andb_prop in L1 as [L0 L1]. apply Nat.eqb_eq in L1.
    destruct (N o Ho L1). unfold is_body in L2. destruct (lst o) as [|[|]]; congruence. }
  assert (E : lstep s (LLock f bl) = Some (MkFlock (linode s) (lfresh s) (set_open f (LBody true) (opens s)))) by (cbn; rewrite FO, L; auto).
  split; auto. intros exc s'. rewrite E. intros [= <-]. cbn [lstep opens].
  assert (FO' : find_open f (set_open f (LBody true) (opens s)) = Some (MkOpen p f i (LBody true))).
  { unfold find_open, set_open in *. clear -FO. induction (opens s) as [|o l IH]; cbn in *; [discriminate|]. destruct (Nat.eqb (lfile o) f) eqn:Q; cbn; rewrite Q; auto. inv FO. auto. }
  rewrite FO'. eexists. split; [reflexivity|]. cbn. unfold close, set_open. clear. induction (opens s) as [|o l IH]; cbn; auto. destruct (Nat.eqb (lfile o) f) eqn:Q; cbn; rewrite Q; cbn; auto. f_equal. auto.
Qed.
Print Assumptions C43_files_released.
(** A process that dies, wherever it is, lets go: its files are closed and no other is, and whoever waited only
    for it is admitted. *)
Theorem C43_files_death :
  forall (acts : list lact) (s s' : flock) (p : nat), lruns nolocks acts = Some s -> lstep s (LDie p) = Some s' ->
    (forall o, In o (opens s') <-> In o (opens s) /\ lproc o <> p) /\
    forall q f i blocking, q <> p -> In (MkOpen q f i LOpened) (opens s) ->
      (forall o, In o (opens s) -> lino o = i -> lst o = LBody true -> lproc o = p) ->
      lstep s' (LLock f blocking) = Some (MkFlock (linode s') (lfresh s') (set_open f (LBody true) (opens s'))).
Proof.
  intros acts s s' p H D. assert (E : forall o, In o (opens s') <-> In o (opens s) /\ lproc o <> p).
  { cbn in D. injection D as <-. cbn. intros o. rewrite filter_In, negb_true_iff, Nat.eqb_neq. tauto. }
  split; auto. intros q f i bl N F O. assert (H' : lruns nolocks (acts ++ [LDie p]) = Some s').
  { revert H. generalize nolocks. induction acts as [|a acts IH]; intros s0; cbn -[lstep]; [intros [= ->]; rewrite D; auto|]. destruct (lstep s0 a); auto; discriminate. }
  eapply (proj1 (C43_files_released _ s' q f i bl H' ltac:(apply E; cbn; auto) _)).
  Unshelve. intros o Ho Ei B. apply E in Ho as [Ho Np]. apply Np, (O o Ho Ei B).
Qed.
Print Assumptions C43_files_death.

(** But shutting a store down removes the lock file while another process may be inside the block: the
    next one to enter creates a new file and is admitted beside it. *)
Theorem C43_shutdown_breaks_exclusion_refuted :
  exists s, lruns nolocks [LOpen 0 0; LLock 0 false; LShutdown; LOpen 1 1; LLock 1 false] = Some s /\
    In (MkOpen 0 0 0 (LBody true)) (opens s) /\ In (MkOpen 1 1 1 (LBody true)) (opens s).
Proof. eexists. split; [reflexivity|]. cbn. auto. Qed.
Print Assumptions C43_shutdown_breaks_exclusion_refuted.
Example C43_files_case : (* 0 is admitted, 1 refused, 0 leaves by an exception, 2 opens; 2 will be admitted *)
  exists s, lruns nolocks [LOpen 0 0; LOpen 1 1; LLock 0 false; LLock 1 false; LExit 0 true; LOpen 2 2; LDie 1] = Some s /\ opens s = [MkOpen 2 2 0 LOpened].
Proof. eexists. split; reflexivity. Qed.
