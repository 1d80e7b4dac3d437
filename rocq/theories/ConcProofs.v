From Verif Require Import Prelude Conc.
Local Ltac sp := repeat match goal with |- _ /\ _ => split end.
Open Scope Z_scope.

Lemma nth_set (l : list thread) i th j : (i < List.length l)%nat -> nth_error (set_thread i th l) j = if Nat.eqb j i then Some th else nth_error l j.
Proof.
  intros Hi. unfold set_thread. assert (Lf : List.length (firstn i l) = i) by (rewrite firstn_length; lia).
  destruct (Nat.eqb_spec j i) as [->|N].
  - rewrite nth_error_app2 by lia. rewrite Lf, Nat.sub_diag. reflexivity.
  - destruct (Nat.lt_ge_cases j i).
    + rewrite nth_error_app1 by lia. rewrite <- (firstn_skipn i l) at 2. rewrite nth_error_app1 by lia. reflexivity.
    + rewrite nth_error_app2 by lia. rewrite Lf. destruct (j - i)%nat as [|k] eqn:E; [lia|]. cbn [nth_error]. 
      rewrite <- (firstn_skipn (S i) l) at 2. rewrite nth_error_app2; rewrite firstn_length; [|lia]. f_equal. lia.
Qed.
Lemma nth_snoc (l : list thread) th j : nth_error (l ++ [th]) j = if Nat.eqb j (List.length l) then Some th else nth_error l j.
Proof.
  destruct (Nat.eqb_spec j (List.length l)) as [->|N].
  - rewrite nth_error_app2 by lia. rewrite Nat.sub_diag. reflexivity.
  - destruct (Nat.lt_ge_cases j (List.length l)); [apply nth_error_app1; auto|]. rewrite nth_error_app2 by lia.
    destruct (j - List.length l)%nat as [|k] eqn:E; [lia|]. cbn. destruct k; symmetry; apply nth_error_None; lia.
Qed.

(** the relation between the counter and the true number of unfinished instances, by stage of the lock's holder *)
Definition holder_ok (M : Z) (s : cstate) (g : stage) : Prop :=
  let n := accepted s - ended s in
  match g with
  | SCheck m => counter s = n /\ m <= M
  | SSend => counter s = n /\ counter s < M
  | SRead => counter s = n - 1
  | SWrite r => counter s = n - 1 /\ r = counter s
  | KRead => counter s = n
  | KWrite r => counter s = n /\ r = counter s
  | Unlock => counter s = n
  | _ => False
  end.
Definition critical (g : stage) : Prop := match g with SLock _ | KLock | Finished => False | _ => True end.
Definition completing (g : stage) : bool := match g with KLock | KRead | KWrite _ => true | _ => false end.
Definition in_flight (l : list thread) : Z := Z.of_nat (List.length (filter (fun th => completing (th_stage th)) l)).

Record cinv (X : nat) (M : Z) (s : cstate) : Prop := {
  ci_exec : forall i th, nth_error (threads s) i = Some th -> th_exec th = X;
  ci_limit : forall i th m, nth_error (threads s) i = Some th -> th_stage th = SLock m -> m <= M;
  ci_own : forall i th, nth_error (threads s) i = Some th -> critical (th_stage th) -> lock s X = Some i;
  ci_hold : match lock s X with
            | Some i => exists th, nth_error (threads s) i = Some th /\ holder_ok M s (th_stage th)
            | None => counter s = accepted s - ended s
            end;
  ci_bound : accepted s - ended s <= Z.max 0 M;
  ci_flight : in_flight (threads s) = ending s - ended s;
  ci_ends : 0 <= ended s /\ ending s <= accepted s }.

Lemma in_flight_set l i th th0 : nth_error l i = Some th0 ->
  in_flight (set_thread i th l) = in_flight l + (if completing (th_stage th) then 1 else 0) - (if completing (th_stage th0) then 1 else 0).
Proof.
  intros H. destruct (nth_error_split l i H) as (l1 & l2 & -> & <-). unfold in_flight, set_thread.
  rewrite firstn_app, Nat.sub_diag, firstn_all, firstn_O, app_nil_r. replace (skipn (S (List.length l1)) (l1 ++ th0 :: l2)) with l2.
  - rewrite !filter_app, !app_length. cbn. destruct (completing (th_stage th)), (completing (th_stage th0)); cbn; lia.
  - clear. induction l1; cbn; auto.
Qed.
Lemma in_flight_app l th : in_flight (l ++ [th]) = in_flight l + (if completing (th_stage th) then 1 else 0).
Proof. unfold in_flight. rewrite filter_app, app_length. cbn. destruct (completing _); cbn; lia. Qed.

Lemma set_lock_same l x o : set_lock l x o x = o. Proof. unfold set_lock. rewrite Nat.eqb_refl. reflexivity. Qed.

Theorem cinv_runs X M s : cruns (fun x m => x = X /\ m <= M) s -> cinv X M s.
Proof.
  induction 1 as [|s s' R IH ST].
  - constructor; cbn; try (intros [|i]; discriminate); auto; try lia.
  - destruct IH as [E L O H B F N]. destruct ST as [x m [-> LE]|x m [-> LE] LT|i th s' T MV].
    + constructor; cbn; auto.
      * intros i th. rewrite nth_snoc. destruct (Nat.eqb _ _); [intros [= <-]; reflexivity|eauto].
      * intros i th m0. rewrite nth_snoc. destruct (Nat.eqb _ _); [intros [= <-] [= <-]; exact LE|eauto].
      * intros i th. rewrite nth_snoc. destruct (Nat.eqb _ _); [intros [= <-] []|eauto].
      * destruct (lock s X) as [i|]; auto. destruct H as (th & H1 & H2). exists th. split; auto. rewrite nth_error_app1; auto. apply nth_error_Some. congruence.
      * rewrite in_flight_app. cbn. lia.
    + constructor; cbn; auto; try lia.
      * intros i th. rewrite nth_snoc. destruct (Nat.eqb _ _); [intros [= <-]; reflexivity|eauto].
      * intros i th m0. rewrite nth_snoc. destruct (Nat.eqb _ _); [intros [= <-] [=]|eauto].
      * intros i th. rewrite nth_snoc. destruct (Nat.eqb _ _); [intros [= <-] []|eauto].
      * destruct (lock s X) as [i|]; auto. destruct H as (th & H1 & H2). exists th. split; auto. rewrite nth_error_app1; auto. apply nth_error_Some. congruence.
      * rewrite in_flight_app. cbn. lia.
    + assert (Hi : (i < List.length (threads s))%nat) by (apply nth_error_Some; congruence).
      pose proof (E i th T) as EX. pose proof (in_flight_set (threads s) i) as FS.
      assert (EX' : forall g j th', nth_error (goes s i X g) j = Some th' -> th_exec th' = X).
      { intros g j th'. unfold goes. rewrite nth_set by auto. destruct (Nat.eqb j i); [intros [= <-]; auto|eauto]. }
      assert (LM' : forall g, (forall m, g <> SLock m) -> forall j th' m, nth_error (goes s i X g) j = Some th' -> th_stage th' = SLock m -> m <= M).
      { intros g Hg j th' m. unfold goes. rewrite nth_set by auto. destruct (Nat.eqb j i); [intros [= <-] E2; cbn in E2; edestruct Hg; eauto|eauto]. }
      assert (NTH : forall g, nth_error (goes s i X g) i = Some (MkThread X g)).
      { intros g. unfold goes. rewrite nth_set by auto. rewrite Nat.eqb_refl. auto. }
      (* a holder keeps its lock *)
      assert (KEEP : critical (th_stage th) -> lock s X = Some i /\ holder_ok M s (th_stage th) /\
                forall g j th', nth_error (goes s i X g) j = Some th' -> critical (th_stage th') -> lock s X = Some j).
      { intros C. pose proof (O i th T C) as LK. rewrite LK in H. destruct H as (th1 & H1 & H2). assert (th1 = th) as -> by congruence. sp; auto.
        intros g j th' Hj C'. unfold goes in Hj. rewrite nth_set in Hj by auto. destruct (Nat.eqb_spec j i) as [->|]; auto. apply (O j th' Hj C'). }
      (* taking a free lock *)
      assert (TAKE : lock s X = None -> forall g j th', nth_error (goes s i X g) j = Some th' -> critical (th_stage th') -> Some i = Some j).
      { intros NL g j th' Hj C. unfold goes in Hj. rewrite nth_set in Hj by auto. destruct (Nat.eqb_spec j i) as [->|]; auto. pose proof (O j th' Hj C). congruence. }
      rewrite EX in MV.
      assert (FL : forall g, in_flight (goes s i X g) = in_flight (threads s) + (if completing g then 1 else 0) - (if completing (th_stage th) then 1 else 0)).
      { intros g. unfold goes. rewrite (FS _ th T). reflexivity. }
      clear FS.
      inversion MV as [m LK Eg|m Hm Eg|m Hm Eg|Eg|Eg|Eg|r Eg|LK Eg|Eg|r Eg|Eg]; subst s'; rewrite <- Eg in *; cbn [completing] in FL.
      all: try (destruct (KEEP I) as (LK & HO & KP); clear KEEP TAKE; cbn in HO).
      all: constructor; cbn -[goes]; rewrite ?set_lock_same.
      all: try (apply EX').
      all: try (apply LM'; discriminate).
      all: try (apply KP).
      all: try (rewrite FL; cbn; lia).
      all: try lia.
      all: try (apply TAKE; auto; fail).
      all: try (rewrite LK; eexists; split; [apply NTH|cbn; lia]).
      * eexists. split; [apply NTH|]. cbn. rewrite LK in H. split; auto. apply (L i th); auto.
      * eexists. split; [apply NTH|]. cbn. rewrite LK in H. exact H.
      * intros j th' Hj C. unfold goes in Hj. rewrite nth_set in Hj by auto. destruct (Nat.eqb_spec j i) as [->|D].
        -- injection Hj as <-. destruct C.
        -- pose proof (O j th' Hj C). congruence.
Qed.
