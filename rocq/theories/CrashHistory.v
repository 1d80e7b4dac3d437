(** One stored task through a whole history. *)
From Verif Require Import Prelude PreludeFacts MemStore StoreSpec MemStoreProofs CallArgs Cron Triggers TriggerSpec Task TaskSpec TaskProofs TriggersProofs TriggersProofs2 Scheduler Executor SchedSpec SchedProofs SchedProofs2 SchedReach LifeSpec LifeProofs Crash CrashSpec CrashProofs.
Open Scope Z_scope.

Definition here (t : task) (n : option Z) : option task := option_map (fun x => set_next (Some x) t) n.
Lemma here_again t x n : here (set_next (Some x) t) n = here t n. Proof. destruct n; reflexivity. Qed.

Lemma AA_later fuel tr : forward tr -> forall x y, answer_after fuel tr x (Some y) -> x < y.
Proof. intros F x y A. eapply (get_next_progress fuel tr x F (fun _ _ => 0) x y); [intros p j Hj; unfold us; lia|lia|apply A; lia]. Qed.
Lemma fires_from fuel tr : forward tr -> forall n l n', fire_times (answer_after fuel tr) n l n' ->
  NoDup l /\ (forall r, In r l -> exists x, n = Some x /\ x <= r) /\ (forall r y, n' = Some y -> In r l -> r < y) /\ (l = [] -> n' = n) /\ (forall y, n' = Some y -> exists x, n = Some x /\ x <= y).
Proof.
  intros FW n l n' H. induction H as [n|x n l n' A H (I1 & I2 & I3 & I4 & I5)].
  - sp; auto; try (intros; contradiction). constructor. intros y ->. exists y. split; auto. lia.
  - assert (LT : forall r, In r l -> x < r) by (intros r Hr; destruct (I2 r Hr) as (z & -> & L); apply (AA_later _ _ FW) in A; lia).
    sp.
    + constructor; auto. intros Hx. specialize (LT x Hx). lia.
    + intros r [<-|Hr]; exists x; (split; [auto|]); [lia|]. specialize (LT r Hr). lia.
    + intros r y E [<-|Hr]; [|eauto]. destruct (I5 y E) as (z & -> & L). apply (AA_later _ _ FW) in A. lia.
    + discriminate.
    + intros y E. exists x. split; auto. destruct (I5 y E) as (z & -> & L). apply (AA_later _ _ FW) in A. lia.
Qed.
Lemma coalesce_count b l times m r : coalesce_run_times b l = (times, m) -> (count_occ Z.eq_dec times r <= count_occ Z.eq_dec l r)%nat.
Proof.
  unfold coalesce_run_times. destruct b; [|intros [= <- <-]; auto]. destruct (last_opt l) as [x|] eqn:L; intros [= <- <-]; [|cbn; lia].
  apply last_opt_In in L. cbn. destruct (Z.eq_dec x r) as [->|]; [|lia]. apply (count_occ_In Z.eq_dec) in L. lia.
Qed.
Lemma coalesce_in b l times m r : coalesce_run_times b l = (times, m) -> In r times -> In r l.
Proof. intros C H. apply (count_occ_In Z.eq_dec) in H. apply (count_occ_In Z.eq_dec). pose proof (coalesce_count _ _ _ _ r C). lia. Qed.
Lemma coalesce_covers fuel tr n l n' b times m : forward tr -> fire_times (answer_after fuel tr) n l n' -> coalesce_run_times b l = (times, m) ->
  forall r, In r l -> In r times \/ (b = true /\ exists y, In y times /\ r < y).
Proof.
  intros FW F C r Hr. unfold coalesce_run_times in C. destruct b; [|injection C as <- <-; auto]. destruct (last_opt l) as [x|] eqn:L; injection C as <- <-.
  - destruct (fires_from _ _ FW _ _ _ F) as (ND & _). assert (E : exists p, l = p ++ [x]). { unfold last_opt in L. destruct (rev l) as [|z p] eqn:R; [discriminate|]. injection L as <-. exists (rev p). rewrite <- (rev_involutive l), R. reflexivity. }
    destruct E as (p & ->). apply in_app_or in Hr as [Hr|[<-|[]]]; [|cbn; auto]. right. split; auto. exists x. split; [left; auto|].
    assert (G : forall p n, fire_times (answer_after fuel tr) n (p ++ [x]) n' -> forall r, In r p -> r < x).
    { clear -FW. induction p as [|z p IH]; intros n F r; [intros []|]. intros [<-|Hr]; [|inversion F; subst; eauto]. inversion F as [|? n1 ? ? A F1]; subst.
      destruct (fires_from _ _ FW _ _ _ F1) as (_ & I2 & _). destruct (I2 x) as (w & -> & Lw); [apply in_or_app; right; left; auto|]. apply (AA_later _ _ FW) in A. lia. }
    eapply G; eauto.
  - apply last_opt_nil in L. subst l. destruct Hr.
Qed.

(** what dealing with a task hands over *)
Lemma handled_times c e ex cnt u f n : handled c e ex cnt u f n -> (exists xa, t_exec u = Some xa /\ ex xa) -> jitter_free (t_trigger u) ->
  exists l times m, l <> [] /\ fire_times (answer_after (c_fuel c) (t_trigger u)) (t_next u) l n /\ Forall (fun x => x <= e_now e) l /\ after_instant (e_now e) n /\
    coalesce_run_times (t_coalesce u) l = (times, m) /\ (times_of (submission_of u f) = [] \/ times_of (submission_of u f) = times) /\
    (cnt (t_id u) < t_max u -> (forall xa, e_send_fails e xa (t_id u) = false) -> times_of (submission_of u f) = times).
Proof.
  intros H X J. destruct f as [|times m| |xb times m]; [destruct H; contradiction| | |];
    destruct H as (xa & l & k & k' & H1 & H2 & H3 & H4 & H5); destruct (wake_exact _ _ _ _ _ _ _ _ J H3) as (F1 & F2 & F3).
  - destruct H5 as [H5 H6]. exists l, times, m. sp; auto. intros; lia.
  - destruct H5 as [H5 H6]. destruct (coalesce_run_times (t_coalesce u) l) as [times m] eqn:CR. exists l, times, m. sp; auto.
    intros _ Y. rewrite Y in H6. discriminate.
  - destruct H5 as (_ & _ & _ & H6). exists l, times, m. unfold times_of. cbn. rewrite app_nil_r. sp; auto.
Qed.

Lemma times_of_app l1 l2 : times_of (l1 ++ l2) = times_of l1 ++ times_of l2. Proof. apply flat_map_app. Qed.
Lemma handed_app r l1 l2 : times_handed r (l1 ++ l2) = (times_handed r l1 + times_handed r l2)%nat.
Proof. unfold times_handed. rewrite times_of_app. apply count_occ_app. Qed.

(** the conclusion: from next run time [n] to [n'], through the fire times [l] *)
Record passed (c : config) (t : task) (W : Prop) (n : option Z) (hs : list submission) (k : nat) (l : list Z) (n' : option Z) : Prop := {
  pa_fires : fire_times (answer_after (c_fuel c) (t_trigger t)) n l n';
  pa_handed : forall r, (times_handed r hs <= count_occ Z.eq_dec l r + k)%nat;
  pa_from : forall r, In r (times_of hs) -> exists x, n = Some x /\ x <= r;
  pa_covered : W -> forall r, In r l -> covered t hs r;
  pa_exact : W -> k = 0%nat -> t_coalesce t = false -> times_of hs = l }.

Lemma covered_app t h1 h2 r : covered t h1 r \/ covered t h2 r -> covered t (h1 ++ h2) r.
Proof.
  unfold covered. rewrite times_of_app. intros [[H|(C & y & H & L)]|[H|(C & y & H & L)]]; (left; apply in_or_app; auto; fail) || (right; split; auto; exists y; split; auto; apply in_or_app; auto).
Qed.
Lemma passed_none c t (W : Prop) n hs k l n' : passed c t W n hs k l n' -> passed c t W n ([] ++ hs) k l n'.
Proof. auto. Qed.
Lemma passed_more c t (W : Prop) n hs k l n' : passed c t W n hs k l n' -> passed c t W n hs (S k) l n'.
Proof. intros [a b d f g]. constructor; auto. intros r. specialize (b r). lia. discriminate. Qed.
Lemma passed_handed c t (W : Prop) e x u k1 k2 l0 times m xa hs k l n' : forward (t_trigger t) -> jitter_free (t_trigger t) -> u = set_next (Some x) t ->
  get_run_times (c_fuel c) (c_oracle c) k1 u (e_now e) = Ok (l0, k2) -> coalesce_run_times (t_coalesce u) l0 = (times, m) ->
  passed c t W (Some x) hs k l n' -> passed c t W (Some x) ([MkSub xa (t_id u) times (t_max u)] ++ hs) (S k) l n'.
Proof.
  intros FW J -> G C [a b d f g]. destruct (run_times_exact _ _ _ (set_next (Some x) t) _ _ _ J G) as (rest & F & _). cbn [t_trigger t_next set_next] in F. destruct (fires_from _ _ FW _ _ _ F) as (ND & I2 & _).
  constructor; auto.
  - intros r. rewrite handed_app. specialize (b r). assert (times_handed r [MkSub xa (t_id (set_next (Some x) t)) times (t_max (set_next (Some x) t))] <= 1)%nat; [|lia].
    unfold times_handed, times_of. cbn. rewrite app_nil_r. pose proof (coalesce_count _ _ _ _ r C). rewrite (NoDup_count_occ Z.eq_dec) in ND. specialize (ND r). lia.
  - intros r. rewrite times_of_app, in_app_iff. intros [H|H]; [|auto]. apply I2. eapply coalesce_in; [exact C|]. unfold times_of in H. cbn in H. rewrite app_nil_r in H. exact H.
  - intros w r Hr. apply covered_app. auto.
  - discriminate.
Qed.
Lemma passed_done c t (W : Prop) e ex cnt x u f n1 hs k l n' : forward (t_trigger t) -> jitter_free (t_trigger t) -> u = set_next (Some x) t ->
  handled c e ex cnt u f n1 -> (exists xa, t_exec t = Some xa /\ ex xa) -> (W -> cnt (t_id t) < t_max t /\ forall xa, e_send_fails e xa (t_id t) = false) ->
  passed c t W n1 hs k l n' -> exists l', passed c t W (Some x) (submission_of u f ++ hs) k l' n'.
Proof.
  intros FW J -> H X Wl [a b d g h]. destruct (handled_times _ _ _ _ (set_next (Some x) t) _ _ H X J) as (l1 & times & m & N1 & F1 & L1 & A1 & C1 & T1 & T2). cbn [t_trigger t_next set_next t_id t_max t_coalesce] in *.
  destruct (fires_from _ _ FW _ _ _ F1) as (ND & I2 & I3 & I4 & I5). exists (l1 ++ l).
  assert (CO : forall r, (times_handed r (submission_of (set_next (Some x) t) f) <= count_occ Z.eq_dec l1 r)%nat).
  { intros r. unfold times_handed. destruct T1 as [->| ->]; [cbn; lia|]. eapply coalesce_count; eauto. }
  constructor.
  - eapply fire_times_app; eauto.
  - intros r. rewrite handed_app, count_occ_app. specialize (b r). specialize (CO r). lia.
  - intros r. rewrite times_of_app, in_app_iff. intros [Hr|Hr].
    + apply I2. destruct T1 as [E|E]; rewrite E in Hr; [destruct Hr|]. eapply coalesce_in; eauto.
    + destruct (d r Hr) as (y & E & Ly). destruct (I5 y E) as (z & -> & Lz). exists z. split; auto. lia.
  - intros w r Hr. apply covered_app. apply in_app_or in Hr as [Hr|Hr]; [left|right; auto]. destruct (Wl w) as [w1 w2]. unfold covered. rewrite (T2 w1 w2). eapply coalesce_covers; eauto.
  - intros w k0 nc. destruct (Wl w) as [w1 w2]. rewrite times_of_app, (T2 w1 w2), (h w k0 nc). f_equal. rewrite nc in C1. cbn in C1. congruence.
Qed.

Theorem history_passed c a t Q s hs k s' : jitter_free (t_trigger t) -> forward (t_trigger t) -> history c a t Q s hs k s' ->
  wf s -> forall n, stored s a (t_id t) = here t n ->
  wf s' /\ exists l n', stored s' a (t_id t) = here t n' /\ passed c t (forall s e, Q s e -> willing t s e) n hs k l n'.
Proof.
  intros J FW H. induction H as [s|s e s1 d new hs k s2 St (NE & NW & XA) HQ P U H IH|s e s1 x new hs k s2 St (NE & NW & XA) HQ P U H IH|s e s1 e' adds s2 new hs k s3 St (NE & NW & XA) HQ CUT DU U RB AD H IH|s e o hs k s2 NP SS US H IH]; intros W n S.
  - split; auto. exists [], n. split; auto. constructor; auto; try (intros; contradiction). constructor.
  - destruct (pass_spec _ _ _ _ _ W St NE P) as (W1 & new' & U' & X). assert (new' = new) as -> by (rewrite U in U'; apply app_inv_head in U'; auto). specialize (X a (t_id t) NW). rewrite S in X.
    destruct n as [x|]; cbn [here option_map] in X.
    + specialize (X eq_refl). destruct X as [(X1 & X2 & _)|(f & n1 & X1 & X2 & X3)].
      * rewrite X2. destruct (IH W1 (Some x) X1) as (W2 & l & n' & Y & Z). split; auto. exists l, n'. auto.
      * rewrite X3. destruct (IH W1 n1 X2) as (W2 & l & n' & Y & Z). split; auto.
        destruct (passed_done c t _ e _ _ x _ f n1 hs k l n' FW J eq_refl X1 XA (fun w => w s e HQ) Z) as (l' & Z'). eauto.
    + destruct X as [X1 X2]. rewrite X2. destruct (IH W1 None X1) as (W2 & l & n' & Y & Z). split; auto. exists l, n'. auto.
  - pose proof (pass_raises _ _ _ _ _ St P) as CUT. destruct (cut_pass_spec _ _ _ _ W St NE CUT) as (W1 & F1 & new' & U' & X). assert (new' = new) as -> by (rewrite U in U'; apply app_inv_head in U'; auto).
    specialize (X a (t_id t) NW). rewrite S in X. destruct n as [z|]; cbn [here option_map] in X.
    + specialize (X eq_refl). remember (of_task (t_id t) new) as v eqn:Ev. remember (stored s1 a (t_id t)) as after eqn:Ea. destruct X as [|xa l0 times m k1 k2 G C|f n1 HH].
      * destruct (IH W1 (Some z) eq_refl) as (W2 & l & n' & Y & Z). split; auto. exists l, n'. split; auto. apply passed_more. auto.
      * destruct (IH W1 (Some z) eq_refl) as (W2 & l & n' & Y & Z). split; auto. exists l, n'. split; auto. eapply passed_handed; eauto.
      * destruct (IH W1 n1) as (W2 & l & n' & Y & Z); [apply here_again|]. split; auto.
        destruct (passed_done c t _ e _ _ z _ f n1 hs k l n' FW J eq_refl HH XA (fun w => w s e HQ) Z) as (l' & Z'). exists l', n'. split; auto. apply passed_more. auto.
    + destruct X as [X1 X2]. rewrite X2. destruct (IH W1 None X1) as (W2 & l & n' & Y & Z). split; auto. exists l, n'. split; auto. apply passed_more. auto.
  - destruct (cut_pass_spec _ _ _ _ W St NE CUT) as (W1 & F1 & new' & U' & X). assert (new' = new) as -> by (rewrite U in U'; apply app_inv_head in U'; auto).
    destruct (reborn_spec _ _ _ _ _ W1 RB) as (W2 & _ & _ & _ & _ & _ & RS).
    specialize (RS a (t_id t) DU AD). specialize (X a (t_id t) NW). rewrite S in X. destruct n as [z|]; cbn [here option_map] in X.
    + specialize (X eq_refl). remember (of_task (t_id t) new) as v eqn:Ev. remember (stored s1 a (t_id t)) as after eqn:Ea. destruct X as [|xa l0 times m k1 k2 G C|f n1 HH].
      * destruct (IH W2 (Some z) RS) as (W3 & l & n' & Y & Z). split; auto. exists l, n'. split; auto. apply passed_more. auto.
      * destruct (IH W2 (Some z) RS) as (W3 & l & n' & Y & Z). split; auto. exists l, n'. split; auto. eapply passed_handed; eauto.
      * destruct (IH W2 n1) as (W3 & l & n' & Y & Z); [rewrite RS; apply here_again|]. split; auto.
        destruct (passed_done c t _ e _ _ z _ f n1 hs k l n' FW J eq_refl HH XA (fun w => w s e HQ) Z) as (l' & Z'). exists l', n'. split; auto. apply passed_more. auto.
    + destruct X as [X1 X2]. rewrite X2. rewrite X1 in RS. destruct (IH W2 None RS) as (W3 & l & n' & Y & Z). split; auto. exists l, n'. split; auto. apply passed_more. auto.
  - destruct (IH (wf_step _ _ _ _ W) n ltac:(congruence)) as (W2 & l & n' & Y & Z). split; auto. exists l, n'. auto.
Qed.
