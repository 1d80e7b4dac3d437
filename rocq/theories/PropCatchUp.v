(** C63: how many runs a late wake-up makes up for, and that it ends. *)
From Verif Require Import Prelude Calendar Cron FloatDiv Triggers TriggerSpec CallArgs Task TaskSpec TaskProofs.
Open Scope Z_scope.

(** the instants x, x + iv, ..., as many as [n] *)
Fixpoint every (iv x : Z) (n : nat) : list Z := match n with O => [] | S n' => x :: every iv (x + iv) n' end.
Definition last_moment (end_at : option Z) (now : Z) : Z := match end_at with Some e => Z.min e now | None => now end.

Lemma catch_up_every iv s e o now : 0 < iv -> forall n fuel k x, x <= now -> not_after x e ->
  (last_moment e now - x) / iv = Z.of_nat n -> (S n <= fuel)%nat ->
  exists k', grt fuel (answers fuel o (TInterval iv s e None) now) k (Some x) now = Ok (every iv x (S n), k').
Proof.
  intros I. intros n fuel. assert (G : forall n g k x, x <= now -> not_after x e -> (last_moment e now - x) / iv = Z.of_nat n -> (S n <= g)%nat ->
    exists k', grt g (answers fuel o (TInterval iv s e None) now) k (Some x) now = Ok (every iv x (S n), k')).
  2: { intros k x. apply G. }
  clear n. induction n as [|n IH]; intros g k x X E D F; (destruct g as [|g]; [lia|]); cbn [grt].
  - destruct (Z.leb_spec x now); [|lia]. unfold answers. cbn [get_next]. unfold interval_next, draw. rewrite ?Z.add_0_r.
    assert (B : last_moment e now < x + iv).
    { pose proof (Z.div_mod (last_moment e now - x) iv ltac:(lia)). pose proof (Z.mod_pos_bound (last_moment e now - x) iv ltac:(lia)). nia. }
    unfold last_moment in B. destruct e as [e|].
    + destruct (Z.leb_spec (x + iv) e).
      * destruct g; cbn [grt]; (destruct (Z.leb_spec (x + iv) now); [lia|]); eexists; reflexivity.
      * destruct g; cbn [grt]; eexists; reflexivity.
    + destruct g; cbn [grt]; (destruct (Z.leb_spec (x + iv) now); [lia|]); eexists; reflexivity.
  - destruct (Z.leb_spec x now); [|lia]. unfold answers at 1. cbn [get_next]. unfold interval_next, draw. rewrite ?Z.add_0_r.
    assert (B : x + iv <= last_moment e now).
    { pose proof (Z.div_mod (last_moment e now - x) iv ltac:(lia)). pose proof (Z.mod_pos_bound (last_moment e now - x) iv ltac:(lia)). nia. }
    assert (D' : (last_moment e now - (x + iv)) / iv = Z.of_nat n).
    { replace (last_moment e now - (x + iv)) with (last_moment e now - x + (-1) * iv) by lia. rewrite Z.div_add by lia. lia. }
    assert (E' : x + iv <= now /\ not_after (x + iv) e).
    { unfold last_moment, not_after in *. destruct e as [e|]; [split; [lia|]; intros ? [= <-]; lia|split; [lia|discriminate]]. }
    destruct E' as (E1 & E2). destruct (IH g (S k) (x + iv) E1 E2 D' ltac:(lia)) as (k' & R).
    assert (N : match e with Some e0 => if x + iv <=? e0 then Some (x + iv) else None | None => Some (x + iv) end = Some (x + iv)).
    { destruct e as [e|]; [|reflexivity]. specialize (E2 e eq_refl). destruct (Z.leb_spec (x + iv) e); [reflexivity|lia]. }
    exists k'. destruct e as [e|]; [destruct (Z.leb_spec (x + iv) e); [|discriminate]|]; cbn [every] in *; rewrite R; reflexivity.
Qed.

(** C63.  A task on a positive interval whose next run [x] is due, however late the wake-up: the runs
    made up for are x, x + iv, ... up to now (and end_at): one more than the intervals that fit. *)
Theorem C63_catch_up_count :
  forall (fuel : nat) (o : oracle) (k : nat) (t : task) (now iv s x : Z) (end_at : option Z),
    0 < iv -> t_trigger t = TInterval iv s end_at None -> t_next t = Some x -> x <= now -> not_after x end_at ->
    let n := Z.to_nat ((last_moment end_at now - x) / iv + 1) in
    (n <= fuel)%nat -> exists k', get_run_times fuel o k t now = Ok (every iv x n, k').
Proof.
  intros fuel o k t now iv s x e I T N X E n F. unfold get_run_times. rewrite T, N.
  assert (P : 0 <= (last_moment e now - x) / iv).
  { apply Z.div_pos; [|lia]. unfold last_moment. destruct e as [e|]; [specialize (E e eq_refl)|]; lia. }
  set (q := (last_moment e now - x) / iv) in *. replace n with (S (Z.to_nat q)) in * by (unfold n; lia).
  apply catch_up_every; auto. fold q. lia.
Qed.
Print Assumptions C63_catch_up_count.
(** ... all of them due, the last less than an interval before now (when end_at does not stop it) *)
Theorem C63_all_due_none_missing :
  forall (iv x now : Z) (end_at : option Z), 0 < iv -> x <= now -> not_after x end_at ->
    let l := every iv x (Z.to_nat ((last_moment end_at now - x) / iv + 1)) in
    forall y, In y l <-> (exists j, 0 <= j /\ y = x + j * iv) /\ y <= now /\ not_after y end_at.
Proof.
  intros iv x now e I X E l y. unfold l. set (m := last_moment e now).
  assert (Q : forall n x y, In y (every iv x n) <-> exists j, 0 <= j < Z.of_nat n /\ y = x + j * iv).
  { clear -I. induction n as [|n IH]; intros x y; cbn [every In]; [split; [tauto|intros (j & J & _); lia]|]. rewrite IH. split.
    - intros [<-|(j & J & ->)]; [exists 0; lia|exists (j + 1); lia].
    - intros (j & J & ->). destruct (Z.eq_dec j 0) as [->|]; [left; lia|right; exists (j - 1); lia]. }
  rewrite Q. assert (MN : forall z, z <= m <-> z <= now /\ not_after z e).
  { intros z. unfold m, last_moment, not_after. destruct e as [e|].
    - split; [intros H; split; [lia|intros ? [= <-]; lia]|intros (A & B); specialize (B e eq_refl); lia].
    - split; [intros H; split; [lia|discriminate]|tauto]. }
  pose proof (Z.div_mod (m - x) iv ltac:(lia)). pose proof (Z.mod_pos_bound (m - x) iv ltac:(lia)). pose proof (proj2 (MN x) (conj X E)).
  split.
  - intros (j & J & ->). split; [exists j; lia|]. apply MN. nia.
  - intros ((j & J & ->) & H2). apply MN in H2. exists j. split; [|reflexivity]. nia.
Qed.
Print Assumptions C63_all_due_none_missing.

(** The claim that every wake-up ends is false: nothing refuses a negative interval (the constructor
    only replaces zero), and with one the loop runs towards the past.  (The model has no earliest
    date; Python stops with OverflowError in the year 1, after one list entry per interval.) *)
Theorem C63_negative_interval_never_ends :
  (exists iv, iv < 0 /\ iv = interval_of 0 0 0 0 (-5)) /\
  forall (fuel : nat) (o : oracle) (k : nat) (t : task) (iv now s x : Z) (end_at : option Z), iv < 0 ->
    t_trigger t = TInterval iv s end_at None -> t_next t = Some x -> x <= now -> not_after (x + iv) end_at ->
    get_run_times fuel o k t now = Err OutOfFuel.
Proof.
  split; [exists (-5000000); split; [lia|reflexivity]|]. intros fuel o k t iv now s x e I T N X E. unfold get_run_times. rewrite T, N. clear T N t.
  generalize fuel at 2. intros f. revert k x X E. induction fuel as [|fuel IH]; intros k x X E; cbn [grt]; (destruct (Z.leb_spec x now); [|lia]); [reflexivity|].
  unfold answers at 1. cbn [get_next]. unfold interval_next, draw. rewrite ?Z.add_0_r.
  assert (E' : not_after (x + iv + iv) e) by (intros y Y; specialize (E y Y); lia).
  destruct e as [e|]; [specialize (E e eq_refl); destruct (Z.leb_spec (x + iv) e); [|lia]|]; rewrite IH by (auto; lia); reflexivity.
Qed.
Print Assumptions C63_negative_interval_never_ends.
Example C63_example : every 60 1000 (Z.to_nat ((last_moment (Some 1500) 1200 - 1000) / 60 + 1)) = [1000; 1060; 1120; 1180].
Proof. reflexivity. Qed.
