(** Which exceptions a trigger can raise. *)
From Verif Require Import Prelude Calendar Cron Triggers TriggersProofs Task.
Open Scope Z_scope.

Definition trigger_error (e : exn) : Prop := In e [OutOfFuel; ValueError; OtherError; IndexError; OverflowErr].
Lemma iter_pos_inr {S R} (Q : R -> Prop) (f : S -> S + R) : (forall s r, f s = inr r -> Q r) -> forall p s r, iter_pos p f s = inr r -> Q r.
Proof.
  intros H. induction p as [p IH|p IH|]; intros s r; cbn [iter_pos].
  - destruct (f s) as [s1|r1] eqn:E; [|intros [= <-]; eauto]. destruct (iter_pos p f s1) as [s2|r2] eqn:E2; [eauto|]. intros [= <-]; eauto.
  - destruct (iter_pos p f s) as [s2|r2] eqn:E2; [eauto|]. intros [= <-]; eauto.
  - eauto.
Qed.
Lemma incr_errors : forall fuel c f n v e, incr_loop fuel c f n v = Err e -> trigger_error e.
Proof.
  induction fuel as [|fuel IH]; intros c f n v e; cbn [incr_loop].
  - intros [= <-]. cbn. tauto.
  - repeat match goal with |- context [if ?b then _ else _] => destruct b | |- context [match pyidx n with _ => _ end] => destruct (pyidx n) end;
      try (intros H; eapply IH; exact H); try (intros [= <-]; cbn; tauto); intros H; discriminate H.
Qed.
Lemma move_errors tb c f e : cron_move tb c f = Err e -> trigger_error e.
Proof.
  unfold cron_move, increment_field_value. destruct (field_next f (tfield tb f) c) as [nv|]; [|apply incr_errors].
  destruct (fvalue f c <? nv); [|intros H; discriminate H]. destruct (freal f); [|apply incr_errors].
  destruct (set_field_value c f nv) as [c'|x] eqn:S; [intros H; discriminate H|]. intros [= <-]. unfold set_field_value in S.
  destruct (_ && _); [discriminate S|]. injection S as <-. cbn; tauto.
Qed.
Lemma cron_errors tb off s e j prev now x : cron_next tb off s e j prev now = Err x -> trigger_error x.
Proof.
  unfold cron_next. destruct (_ || _); [intros [= <-]; cbn; tauto|]. unfold cron_search.
  match goal with |- context [iter_pos cron_fuel ?g ?a] => destruct (iter_pos cron_fuel g a) as [z|r] eqn:E end.
  - intros H. injection H as <-. cbn; tauto.
  - assert (Q : forall e0, r = CRaise e0 -> trigger_error e0).
    { eapply (iter_pos_inr (fun r0 => forall e0, r0 = CRaise e0 -> trigger_error e0)); [|exact E]. intros [c k] r0. unfold cron_step.
      destruct (_ && _).
      - destruct (cron_move tb c k) as [[c1 k1]|y] eqn:M.
        + destruct (match e with Some e0 => _ | None => _ end); intros H; [injection H as <-; intros e0 H0; discriminate H0|discriminate H].
        + intros [= <-] e0 [= <-]. eapply move_errors; eauto.
      - destruct (0 <=? k); intros [= <-] e0 H0; discriminate H0. }
    clear E. destruct r; intros H; try discriminate H. injection H as <-. apply Q; auto.
Qed.
Lemma ask_all_errors : forall cs i o now e, Forall (fun c : child => forall o now e, c o now = Err e -> trigger_error e) cs -> ask_all i cs o now = Err e -> trigger_error e.
Proof.
  induction cs as [|c cs IH]; intros i o now e F; cbn; [discriminate|]. inversion F; subst. destruct (c (sub o i) now) as [[t|]|x] eqn:E; [|discriminate|].
  - specialize (IH (S i) o now e ltac:(auto)). destruct (ask_all (S i) cs o now) as [[l|]|]; try discriminate. exact IH.
  - intros [= <-]. exact (H1 _ _ _ E).
Qed.
Lemma ask_some_errors : forall cs i o now e, Forall (fun c : child => forall o now e, c o now = Err e -> trigger_error e) cs -> ask_some i cs o now = Err e -> trigger_error e.
Proof.
  induction cs as [|c cs IH]; intros i o now e F; cbn; [discriminate|]. inversion F; subst. destruct (c (sub o i) now) as [r|x] eqn:E.
  - specialize (IH (S i) o now e ltac:(auto)). destruct (ask_some (S i) cs o now); [discriminate|]. intros [= ->]. apply IH; reflexivity.
  - intros [= <-]. exact (H1 _ _ _ E).
Qed.
Lemma and_errors cs j : Forall (fun c : child => forall o now e, c o now = Err e -> trigger_error e) cs -> forall fuel k o now e, and_loop fuel k cs j o now = Err e -> trigger_error e.
Proof.
  intros F. induction fuel as [|fuel IH]; intros k o now e; cbn [and_loop]; [intros [= <-]; cbn; tauto|].
  destruct (ask_all 0 cs (sub o k) now) as [[[|t ts]|]|x] eqn:A.
  - intros [= <-]. cbn; tauto.
  - destruct (zmin t ts =? zmax t ts); [discriminate|]. apply IH.
  - discriminate.
  - intros [= <-]. eapply ask_all_errors; eauto.
Qed.
Lemma get_next_errors fuel prev : forall tr o now e, get_next fuel tr prev o now = Err e -> trigger_error e.
Proof.
  induction tr as [d|iv s e j|tb off s e j|l j IH|l j IH|] using trigger_ind'; intros o now x; cbn [get_next]; try (intros H; discriminate H).
  - apply cron_errors.
  - apply and_errors. apply Forall_map. exact IH.
  - unfold or_next. destruct (ask_some _ _ _ _) as [[|t ts]|y] eqn:A; try (intros H; discriminate H). intros [= <-].
    eapply ask_some_errors; [|exact A]. apply Forall_map. exact IH.
Qed.
Lemma answers_no_conflict fuel o tr now k prev e : answers fuel o tr now k prev = Err e -> e <> ConflictIdError /\ e <> TaskLookupError /\ e <> MaximumInstancesError.
Proof. intros H. apply get_next_errors in H. cbn in H. destruct H as [<-|[<-|[<-|[<-|[<-|[]]]]]]; split; try split; discriminate. Qed.
