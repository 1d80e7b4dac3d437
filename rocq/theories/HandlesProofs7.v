(** Which objects stand in the stores. *)
From Verif Require Import Prelude PreludeFacts MemStore StoreSpec MemStoreProofs CallArgs Cron Triggers Task TaskProofs Scheduler SchedReach LifeAll Handles HandlesProofs HandlesProofs2 HandlesProofs3 HandlesProofs4 HandlesProofs5 HandlesProofs6.
Open Scope Z_scope.
Local Ltac sp := repeat match goal with |- _ /\ _ => split end.

(** ids stay, and only objects of [X] enter a memory store *)
Definition inmem (h : hstate) (a : string) (q : nat) : Prop := exists m x y, dget a (hstores h) = Some (HMem m x y) /\ In q (ms_all m).
Record entered (X : nat -> Prop) (h h' : hstate) : Prop := MkEntered {
  en_n : (hn h <= hn h')%nat;
  en_id : forall q, (q < hn h)%nat -> t_id (hp h' q) = t_id (hp h q);
  en_in : forall a q, inmem h' a q -> X q \/ inmem h a q }.
Lemma entered_refl X h : entered X h h. Proof. constructor; auto. Qed.
Lemma entered_trans X h1 h2 h3 : entered X h1 h2 -> entered X h2 h3 -> entered X h1 h3.
Proof. intros [A1 A2 A3] [B1 B2 B3]. constructor; [lia| |]. - intros q Q. rewrite B2, A2; auto; lia. - intros a q Q. apply B3 in Q as [Q|Q]; auto. Qed.
Lemma entered_weak (X Y : nat -> Prop) h h' : (forall q, X q -> Y q) -> entered X h h' -> entered Y h h'.
Proof. intros W [A1 A2 A3]. constructor; auto. intros a q Q. destruct (A3 a q Q); auto. Qed.
Lemma entered_frame R X h h' : frame R h h' -> entered X h h'.
Proof. intros F. constructor; [apply (fr_n _ _ _ F)|apply (fr_id _ _ _ F)|]. intros a q (m & x & y & D & Q). right. destruct (fr_back _ _ _ F _ _ _ _ D) as (m0 & x0 & y0 & D0 & I0). exists m0, x0, y0. auto. Qed.
Lemma entered_on_k X F h h' : entered X h h' -> entered X h (on_k F h'). Proof. intros [A1 A2 A3]. constructor; auto. Qed.
Lemma entered_put X h r t : t_id t = t_id (hp h r) -> entered X h (hput r t h).
Proof. intros E. constructor; auto. intros q _. cbn. destruct (Nat.eqb_spec q r) as [->|]; auto. Qed.
Lemma entered_store_update X a r t' h h3 e : inv h ->
  (exists m x y, dget a (hstores h) = Some (HMem m x y) /\ In r (ms_all m) /\ t_id t' = t_id (hp h r) /\ t_submitted t' = true) \/ (exists m x y, dget a (hstores h) = Some (HDur m x y) /\ ~ slot h r) ->
  t_id t' = t_id (hp h r) -> h_store_update a r (hput r t' h) = (h3, e) -> entered X h h3.
Proof. intros I H T E. destruct (ref_store_update a r t' h I H h3 e E) as (_ & _ & _ & _ & F). eapply entered_frame, F, T. Qed.
Lemma entered_update X c id want fn ups h h3 e : inv h -> h_update c id want fn ups h = (h3, e) -> entered X h h3.
Proof.
  intros I. unfold h_update. destruct (h_lookup id want h) as [h1 e1] eqn:L. destruct (ref_lookup _ _ _ _ _ I L) as (A & I1 & K & FL & H). specialize (entered_frame _ X _ _ (FL (fun _ => False))) as E1. destruct e1 as [[r w]|x1]; [|intros [= <- <-]; exact E1].
  destruct H as [H F]. destruct (update_task (c_tenv c) (hp h1 r) (Some (c_self c)) fn ups) as [t' [[]|x]] eqn:U; [|intros [= <- <-]; exact E1].
  apply update_submitted in U as [U1 U2]. destruct w as [a|].
  - destruct (h_store_update a r (hput r t' h1)) as [h2 e2] eqn:E. assert (E2 : entered X h1 h2).
    { eapply entered_store_update; eauto. destruct (found_slot _ _ _ _ _ I1 F) as [(m & x & y & D & R & S)|N]; [left|right; exact N]. exists m, x, y. sp; auto; congruence. }
    destruct e2; intros [= <- <-]; [apply entered_on_k|]; eapply entered_trans; eauto.
  - intros [= <- <-]. apply entered_on_k. eapply entered_trans; [exact E1|]. apply entered_put, U2.
Qed.
Lemma entered_delete X id want h h' e : inv h -> h_delete id want h = (h', e) -> entered X h h'.
Proof.
  intros I E. destruct (delete_keeps _ _ _ _ _ I E) as (P1 & P2 & _). constructor; [lia|rewrite P1; auto|].
  revert E. unfold h_delete. destruct (String.eqb id ""); [intros [= <- <-]; auto|]. destruct (stopped (hk h)).
  - destruct (h_del_pending h want id (hpend h)) as [l o]. destruct (match o with Some a => a | None => None end); intros [= <- <-]; auto.
  - pose proof (del_stores_ref h want id (hstores h) (i_keys h I) (i_good h I)) as (_ & _ & E3). destruct (h_del_stores h want id (hstores h)) as [l o]. cbn [fst] in E3.
    intros H a q (m & x & y & D & Q). assert (D' : dget a l = Some (HMem m x y)) by (destruct o; injection H as <- _; exact D). destruct (E3 _ _ _ _ D') as (_ & m0 & x0 & y0 & D0 & I0). right. exists m0, x0, y0. auto.
Qed.
Lemma all_add {A} (i : A -> string) n m a x : In x (ms_all (fst (ms_add i n m a))) -> x = a \/ In x (ms_all m).
Proof.
  unfold ms_add. destruct (dmem (i a) (ms_index m)); [auto|]. destruct (get_task_index i (ms_tasks m) (n a) (i a)) as [j|]; [|auto]. unfold ms_all, insert_at. cbn [fst ms_tasks]. rewrite in_map_iff. intros ([p z] & <- & X). cbn.
  apply in_app_iff in X as [X|[X|X]]; [right|left; congruence|right]; apply in_map_iff; exists (p, z); (split; [reflexivity|]); [eapply in_firstn|eapply in_skipn]; eauto.
Qed.
Lemma place_enters r v a m' y z h : (forall q, In q (ms_all m') -> q = r \/ inmem h a q) -> t_id v = t_id (hp h r) -> entered (eq r) h (hput r v (with_hstores (dset a (HMem m' y z) (hstores h)) h)).
Proof.
  intros H T. constructor; auto.
  - intros q _. cbn. destruct (Nat.eqb_spec q r) as [->|]; auto.
  - intros b q (m & x & w & D & Q). cbn in D. destruct (String.eqb_spec b a) as [->|Nb].
    + rewrite dget_dset_eq in D. injection D as <- <- <-. destruct (H q Q); auto.
    + rewrite dget_dset_ne in D by auto. right. exists m, x, w. auto.
Qed.
Lemma place_enters_dur r v a m' y z h : t_id v = t_id (hp h r) -> entered (eq r) h (hput r v (with_hstores (dset a (HDur m' y z) (hstores h)) h)).
Proof.
  intros T. constructor; auto.
  - intros q _. cbn. destruct (Nat.eqb_spec q r) as [->|]; auto.
  - intros b q (m & x & w & D & Q). cbn in D. destruct (String.eqb_spec b a) as [->|Nb]; [rewrite dget_dset_eq in D; discriminate|].
    rewrite dget_dset_ne in D by auto. right. exists m, x, w. auto.
Qed.
(** *** real_add_task: the object goes in, nothing else *)
Lemma entered_real_add c now r rp st md h h' e : inv h -> ~ slot h r -> h_real_add c now r rp st md h = (h', e) -> entered (eq r) h h'.
Proof.
  intros I N. unfold h_real_add. set (t := hp h r).
  assert (STEP : forall h1 rn, inv h1 -> ~ slot h1 r -> hp h1 r = t -> entered (eq r) h h1 ->
     match rn with
     | Err e0 => (h1, Err e0)
     | Ok n =>
       let h2 := hput r (set_next n t) h1 in
       match t_store t with
       | None => (h2, Err AssertionError)
       | Some alias => match dget alias (hstores h2) with
         | None => (h2, Err KeyError)
         | Some x =>
           let added x' := let h3 := hput r (set_pending false (hp h2 r)) (with_hstores (dset alias x' (hstores h2)) h2) in
                (on_k (fun k => let k1 := dispatch (task_event TASK_ADDED (t_id t) (Some alias)) k in wakeup_if (st && running k1) k1) h3, Ok tt) in
           match h_st_add h2 x r with
           | (x1, Ok _) => added x1
           | (_, Err ConflictIdError) => if rp then match h_st_update h2 x r (set_pending false (hp h2 r)) with (x2, Ok _) => added x2 | (_, Err TaskLookupError) => (h2, Ok tt) | (_, Err e0) => (h2, Err e0) end else (h2, Err ConflictIdError)
           | (_, Err e0) => (h2, Err e0)
           end
         end
       end
     end = (h', e) -> entered (eq r) h h').
  { intros h1 rn I1 N1 T1 E1. destruct rn as [n|e0]; [|intros [= <- <-]; exact E1]. cbv zeta. set (u := set_next n t). set (h2 := hput r u h1).
    assert (E2 : entered (eq r) h h2). { eapply entered_trans; [exact E1|]. apply entered_put. rewrite T1. reflexivity. }
    assert (U2 : hp h2 r = u). { unfold h2. cbn. rewrite Nat.eqb_refl. reflexivity. }
    assert (I2 : inv h2) by (apply inv_put; auto). assert (N2 : ~ slot h2 r) by exact N1. clearbody h2.
    destruct (t_store t) as [a|]; [|intros [= <- <-]; exact E2]. destruct (dget a (hstores h2)) as [x|] eqn:D; [|intros [= <- <-]; exact E2].
    assert (PUT : forall x', (forall m' y z, x' = HMem m' y z -> forall q, In q (ms_all m') -> q = r \/ inmem h2 a q) ->
       (on_k (fun k => let k1 := dispatch (task_event TASK_ADDED (t_id t) (Some a)) k in wakeup_if (st && running k1) k1) (hput r (set_pending false (hp h2 r)) (with_hstores (dset a x' (hstores h2)) h2)), Ok tt) = (h', e) -> entered (eq r) h h').
    { intros x' HX [= <- <-]. apply entered_on_k. eapply entered_trans; [exact E2|]. destruct x' as [m' y z|m' y z]; [apply place_enters; [eauto|reflexivity]|apply place_enters_dur; reflexivity]. }
    destruct (h_st_add h2 x r) as [x1 [u1|e1]] eqn:A.
    - apply PUT. intros m' y z -> q Q. destruct x as [m p w|m p w]; cbn [h_st_add] in A.
      + pose proof (all_add (hid h2) (hnext h2) m r q) as K. destruct (ms_add (hid h2) (hnext h2) m r) as [m1 e1]. injection A as <- <- <- _. cbn [fst] in K. destruct (K Q); [auto|]. right. exists m, p, w. auto.
      + destruct (ms_add t_id t_next m _); discriminate.
    - destruct e1; try (intros [= <- <-]; exact E2). destruct rp; [|intros [= <- <-]; exact E2]. destruct (h_st_update h2 x r _) as [x2 [u2|e2]] eqn:B; [|destruct e2; intros [= <- <-]; exact E2].
      apply PUT. intros m' y z -> q Q. destruct x as [m p w|m p w]; cbn [h_st_update] in B.
      + assert (Gm : goodm (hp h2) m) by (eapply (i_good h2 I2); eauto).
        destruct (obj_update (hp h2) (hp h2) (hp h2) m r Gm) as (m2 & O1 & O2 & O3 & O4); auto.
        change (hid h2) with (fun q => t_id (hp h2 q)) in B. change (hnext h2) with (fun q => t_next (hp h2 q)) in B. rewrite O1 in B. injection B as <- <- <- _. apply O4 in Q as [Q|[Q _]]; [auto|]. right. exists m, p, w. auto.
      + destruct (negb _); [discriminate|]. destruct (ms_update t_id t_next m _); discriminate. }
  destruct (t_next t) as [z|].
  - exact (STEP h (Ok (Some (match md with Some m => Z.max m z | None => z end))) I N eq_refl (entered_refl _ h)).
  - destruct st; [|exact (STEP h (Ok None) I N eq_refl (entered_refl _ h))]. unfold h_ask.
    assert (EK : entered (eq r) h (on_k (w_draws (Datatypes.S (draws (hk h)))) h)) by apply entered_on_k, entered_refl. pose proof (inv_on_k (w_draws (Datatypes.S (draws (hk h)))) h I) as IK.
    destruct (answers _ _ _ _ _ _) as [[z|]|x].
    + exact (STEP _ (Ok (Some (match md with Some m => Z.max m z | None => z end))) IK N eq_refl EK).
    + exact (STEP _ (Ok None) IK N eq_refl EK).
    + exact (STEP _ (Err x) IK N eq_refl EK).
Qed.
Lemma entered_add c e r rp next h h' x : inv h -> h_add c e r rp next h = (h', x) -> entered (eq r) h h'.
Proof.
  intros I. unfold h_add. destruct (t_submitted (hp h r)) eqn:SB; [intros [= <- <-]; apply entered_refl|]. pose proof (fresh_not_slot h r I SB) as N.
  match goal with |- context [if ?b then _ else _] => destruct b end; [intros [= <- <-]; apply entered_put; reflexivity|]. set (t1 := with_default_aliases (c_self c) (given_next next (hp h r))).
  assert (E1 : entered (eq r) h (hput r t1 h)). { apply entered_put. unfold t1, given_next. destruct next; reflexivity. }
  destruct (stopped (hk h)); [intros [= <- <-]; destruct E1; constructor; auto|]. intros E. eapply entered_trans; [exact E1|]. eapply entered_real_add; [apply inv_put; auto|exact N|exact E].
Qed.
Lemma entered_resume X c e id want h h3 x : inv h -> h_resume c e id want h = (h3, x) -> entered X h h3.
Proof.
  intros I. unfold h_resume. destruct (h_lookup id want h) as [h1 e1] eqn:L. destruct (ref_lookup _ _ _ _ _ I L) as (A & I1 & K & FL & H). specialize (entered_frame _ X _ _ (FL (fun _ => False))) as E1. destruct e1 as [[r w]|x1]; [|intros [= <- <-]; exact E1].
  unfold h_ask. pose proof (inv_on_k (w_draws (Datatypes.S (draws (hk h1)))) h1 I1) as I2. assert (E2 : entered X h (on_k (w_draws (Datatypes.S (draws (hk h1)))) h1)) by (apply entered_on_k, E1). destruct (answers _ _ _ _ _ _) as [[n|]|y].
  - destruct (h_update c id w VNone _ _) as [h4 e4] eqn:U. intros [= <- <-]. eapply entered_trans; [exact E2|]. eapply entered_update; eauto.
  - destruct (h_delete _ w _) as [h4 e4] eqn:U. intros [= <- <-]. eapply entered_trans; [exact E2|]. eapply entered_delete; eauto.
  - intros [= <- <-]. exact E2.
Qed.
Lemma entered_reschedule X c e id want tr h h3 x : inv h -> h_reschedule c e id want tr h = (h3, x) -> entered X h h3.
Proof.
  intros I. unfold h_reschedule, h_ask. pose proof (inv_on_k (w_draws (Datatypes.S (draws (hk h)))) h I) as I2. assert (E2 : entered X h (on_k (w_draws (Datatypes.S (draws (hk h)))) h)) by apply entered_on_k, entered_refl. destruct (answers _ _ _ _ _ _) as [n|y]; [|intros [= <- <-]; exact E2].
  intros E. eapply entered_trans; [exact E2|]. eapply entered_update; eauto.
Qed.
Lemma entered_remove_all X want h : entered X h (h_remove_all want h).
Proof.
  unfold h_remove_all. apply entered_on_k. destruct (stopped (hk h)); [destruct want as [w|]; [destruct (String.eqb w "")|]; constructor; auto|]. constructor; auto. intros a q (m & x & y & D & Q). cbn in D.
  rewrite (dget_map2 (fun a v => if wanted want a then h_clear_store v else v)) in D. destruct (dget a (hstores h)) as [[m0 x0 y0|m0 x0 y0]|] eqn:E; cbn in D; destruct (wanted want a); cbn in D; try discriminate; injection D as <- <- <-; [destruct Q|]. right. exists m0, x0, y0. auto.
Qed.
Lemma entered_add_store X a memory h h' e : h_add_store a memory h = (h', e) -> entered X h h'.
Proof.
  unfold h_add_store. destruct (dmem a (hstores h)); [intros [= <- <-]; apply entered_refl|]. intros [= <- <-]. do 2 apply entered_on_k. constructor; auto. intros b q (m & x & y & D & Q). cbn in D. destruct (String.eqb_spec b a) as [->|Nb].
  - rewrite dget_dset_eq in D. injection D as D. destruct memory, (stopped (hk h)); cbn in D; try discriminate; injection D as <- _ _; destruct Q.
  - rewrite dget_dset_ne in D by auto. right. exists m, x, y. auto.
Qed.
Lemma entered_pend X p h h' : entered X h h' -> entered X h (with_hpend p h'). Proof. intros []. constructor; auto. Qed.
Lemma entered_add_pending (X : nat -> Prop) c now md : forall l h h' e, inv (with_hpend l h) -> (forall p, In p l -> X (fst (fst p))) -> h_add_pending c now md l h = (h', e) -> entered X h h'.
Proof.
  induction l as [|[[r rp] st] l IH]; intros h h' e I HX; cbn [h_add_pending]; [intros [= <- <-]; apply entered_refl|].
  assert (I1 : inv (with_hpend l h)).
  { apply (inv_sub (with_hpend ((r, rp, st) :: l) h)); auto; try apply I.
    - pose proof (i_once _ I) as K. inversion K; auto.
    - intros x Q. right. exact Q.
    - intros a m x y D. split; [eapply (i_good _ I); eauto|]. right. exists m, x, y. split; [exact D|apply incl_refl]. }
  assert (N : ~ slot (with_hpend l h) r).
  { intros [Q|(a & m & x & y & D & Q)]; [pose proof (i_once _ I) as K; inversion K; contradiction|]. eapply (i_split _ I r); eauto. left. reflexivity. }
  destruct (i_old _ I r) as [RN SB]; [left; left; reflexivity|].
  destruct (h_real_add c now r rp st md h) as [h1 e1] eqn:E. pose proof (h_real_add_pend c now r rp st md l h) as EP. rewrite E in EP. cbn [fst snd] in EP.
  destruct (ref_real_add c now r rp st md (with_hpend l h) _ _ I1 N RN SB EP) as (_ & R2 & _). pose proof (entered_real_add c now r rp st md (with_hpend l h) _ _ I1 N EP) as [A1 A2 A3].
  assert (E1 : entered X h h1). { constructor; auto. intros a q Q. destruct (A3 a q Q) as [<-|Q2]; [left; apply (HX (r, rp, st)); left; reflexivity|right; exact Q2]. }
  assert (GO : forall h2 e2, h_add_pending c now md l h1 = (h2, e2) -> entered X h h2). { intros h2 e2 G. eapply entered_trans; [exact E1|]. eapply IH; eauto. intros p P. apply HX. right. exact P. }
  destruct e1 as [u|e1]; [apply GO|]. destruct e1; try (apply GO); intros [= <- <-]; exact E1.
Qed.
Lemma entered_start c e paused h h' x : inv h -> h_start c e paused h = (h', x) -> entered (fun q => In q (prefs h)) h h'.
Proof.
  intros I. unfold h_start. cbv zeta. destruct (refc (hk (on_k (fun k : sched => w_refc (refc k + 1) k) h)) >? 1); [intros [= <- <-]; apply entered_on_k, entered_refl|].
  destruct (negb (stopped (hk (on_k (fun k : sched => w_refc (refc k + 1) k) h)))); [intros [= <- <-]; apply entered_on_k, entered_refl|].
  set (X := fun q => In q (prefs h)). pose proof (inv_on_k (fun k : sched => w_refc (refc k + 1) k) h I) as I0. assert (E0 : entered X h (on_k (fun k : sched => w_refc (refc k + 1) k) h)) by apply entered_on_k, entered_refl. assert (P0 : hpend (on_k (fun k : sched => w_refc (refc k + 1) k) h) = hpend h) by reflexivity.
  set (h0 := on_k (fun k : sched => w_refc (refc k + 1) k) h) in *. clearbody h0.
  match goal with |- context [on_k ?F h0] => change F with FE end. pose proof (inv_on_k FE h0 I0) as I1. assert (E1 : entered X h (on_k FE h0)) by (apply entered_on_k, E0). assert (P1 : hpend (on_k FE h0) = hpend h) by exact P0. set (h1 := on_k FE h0) in *. clearbody h1.
  assert (Y : exists h2, h2 = (if dmem "default" (hstores h1) then h1 else fst (h_add_store "default" true h1)) /\ inv h2 /\ entered X h h2 /\ hpend h2 = hpend h).
  { eexists. split; [reflexivity|]. destruct (dmem "default" (hstores h1)) eqn:DM; [auto|]. destruct (h_add_store "default" true h1) as [h2 e2] eqn:E. destruct (ref_add_store _ _ _ _ _ I1 E) as [B1 B2]. cbn [fst]. sp; auto; [eapply entered_trans; [exact E1|eapply entered_add_store; eauto]|].
    unfold h_add_store in E. rewrite DM in E. injection E as <- _. exact P1. }
  destruct Y as (h2 & X1 & I2 & E2 & P2). rewrite <- X1. clear X1. pose proof (inv_started h2 I2) as I3.
  assert (E3 : entered X h (with_hstores (map (fun ax => (fst ax, h_st_start (snd ax))) (hstores h2)) h2)).
  { eapply entered_trans; [exact E2|]. constructor; auto. intros a q (m & x0 & y & D & Q). cbn in D. rewrite (dget_map2 (fun _ v => h_st_start v)) in D. destruct (dget a (hstores h2)) as [[m0 x1 y1|m0 x1 y1]|] eqn:E; cbn in D; try discriminate. injection D as <- <- <-. right. exists m0, x1, y1. auto. }
  assert (P3 : hpend (with_hstores (map (fun ax => (fst ax, h_st_start (snd ax))) (hstores h2)) h2) = hpend h) by exact P2. set (h3 := with_hstores (map (fun ax => (fst ax, h_st_start (snd ax))) (hstores h2)) h2) in *. clearbody h3.
  destruct (h_add_pending c (e_now e) _ (hpend h3) h3) as [h4 e4] eqn:E. assert (I3' : inv (with_hpend (hpend h3) h3)) by (destruct h3; exact I3).
  assert (E4 : entered X h h4). { eapply entered_trans; [exact E3|]. refine (entered_add_pending X _ _ _ _ _ _ _ I3' _ E). intros p P. unfold X, prefs. rewrite <- P3. apply in_map_iff. eauto. }
  destruct e4 as [u|y]; intros [= <- <-]; [|exact E4]. apply entered_on_k, entered_pend, E4.
Qed.
Lemma entered_process_one X c e a r h ev h' ev' x : inv h -> held h a r -> h_process_one c e a r (h, ev) = ((h', ev'), x) -> entered X h h'.
Proof.
  intros I H. unfold h_process_one. destruct (match t_exec (hp h r) with Some xa => if dmem xa (execs (hk h)) then Some xa else None | None => None end) as [xa|].
  2:{ destruct (h_delete (t_id (hp h r)) (Some a) h) as [h1 e1] eqn:E. intros [= <- <- <-]. eapply entered_delete; eauto. }
  destruct (get_run_times _ _ _ _ _) as [[due k]|y]; [|intros [= <- <- <-]; apply entered_refl].
  destruct (coalesce_run_times (t_coalesce (hp h r)) due) as [times n]. destruct (last_opt times) as [lastt|]; [|intros [= <- <- <-]; apply entered_on_k, entered_refl].
  destruct (send_task e xa (hp h r) times (hk (on_k (w_draws k) h))) as [k1 res]. unfold h_ask.
  set (h2 := on_k (w_draws (Datatypes.S (draws (hk (on_k (fun _ => k1) (on_k (w_draws k) h)))))) (on_k (fun _ => k1) (on_k (w_draws k) h))).
  assert (I2 : inv h2) by (do 3 apply inv_on_k; exact I). assert (E2 : entered X h h2) by (do 3 apply entered_on_k; apply entered_refl). assert (T2 : hp h2 = hp h) by reflexivity. assert (H2 : held h2 a r) by exact H. clearbody h2.
  destruct (answers _ _ _ _ _ _) as [[z|]|y].
  - destruct (h_store_update a r (hput r (set_next (Some z) (hp h r)) h2)) as [h3 e3] eqn:E. intros [= <- <- <-]. eapply entered_trans; [exact E2|]. apply (entered_store_update X a r (set_next (Some z) (hp h r)) h2 h3 e3 I2); [|rewrite T2; reflexivity|exact E].
    destruct H2 as [(m & p & q & D & Q)|(m & p & q & D & N & _)]; [left; exists m, p, q|right; eauto]. sp; auto; [rewrite T2; reflexivity|]. change (t_submitted (set_next (Some z) (hp h r))) with (t_submitted (hp h r)). rewrite <- T2. apply (i_old h2 I2). right. exists a, m, p, q. auto.
  - destruct (h_delete (t_id (hp h r)) (Some a) h2) as [h3 e3] eqn:E. intros [= <- <- <-]. eapply entered_trans; [exact E2|]. eapply entered_delete; eauto.
  - intros [= <- <- <-]. exact E2.
Qed.
Lemma entered_process_due X c e a : forall l h ev h' ev' x, inv h -> NoDup l -> (forall q, In q l -> held h a q) -> h_process_due c e a l (h, ev) = ((h', ev'), x) -> entered X h h'.
Proof.
  induction l as [|r l IH]; intros h ev h' ev' x I N H; cbn [h_process_due]; [intros [= <- <- <-]; apply entered_refl|]. inversion N as [|? ? N1 N2]; subst. destruct (h_process_one c e a r (h, ev)) as [[h1 ev1] x1] eqn:E.
  destruct (ref_process_one _ _ _ _ _ _ _ _ _ I (H r (or_introl eq_refl)) E) as (B & I1 & O). pose proof (entered_process_one X _ _ _ _ _ _ _ _ _ I (H r (or_introl eq_refl)) E) as E1. destruct x1 as [u|y]; [|intros [= <- <- <-]; exact E1].
  intros E2. eapply entered_trans; [exact E1|]. eapply IH; eauto. intros q Q. apply O; [congruence|]. apply H. right. exact Q.
Qed.
Lemma entered_process_store X c e a w h ev h' ev' x : inv h -> h_process_store c e a w (h, ev) = ((h', ev'), x) -> entered X h h'.
Proof.
  intros I. unfold h_process_store. destruct (dget a (hstores h)) as [s|] eqn:D; [|intros [= <- <- <-]; apply entered_refl]. destruct (e_busy e a || e_fails e a); [intros [= <- <- <-]; apply entered_refl|].
  destruct (h_due s (e_now e) h) as [h0 rs] eqn:E. destruct (ref_due _ _ _ _ _ _ I D E) as (B1 & B2 & B3 & B4 & B5).
  assert (E0 : entered X h h0).
  { destruct s as [m y z|m y z]; cbn [h_due] in E; [injection E as <- <-; apply entered_refl|]. destruct (ref_news _ _ _ _ I E) as (_ & _ & _ & _ & S5 & _ & S7 & S8 & _). constructor; auto; [intros q Q; rewrite S8; auto|]. intros b q (m' & x' & y' & D' & Q). right. exists m', x', y'. rewrite S5 in D'. auto. }
  destruct (h_process_due c e a rs (h0, ev)) as [[h1 ev1] x1] eqn:P. pose proof (entered_process_due X _ _ _ _ _ _ _ _ _ B2 B3 B4 P) as E1. destruct x1; intros [= <- <- <-]; eapply entered_trans; eauto.
Qed.
Lemma entered_process_stores X c e : forall l w h ev h' ev' x, inv h -> h_process_stores c e l w (h, ev) = ((h', ev'), x) -> entered X h h'.
Proof.
  induction l as [|a l IH]; intros w h ev h' ev' x I; cbn [h_process_stores]; [intros [= <- <- <-]; apply entered_refl|]. destruct (h_process_store c e a w (h, ev)) as [[h1 ev1] x1] eqn:E. destruct (ref_process_store _ _ _ _ _ _ _ _ _ I E) as [B I1]. pose proof (entered_process_store X _ _ _ _ _ _ _ _ _ I E) as E1.
  destruct x1; [|intros [= <- <- <-]; exact E1]. intros E2. eapply entered_trans; eauto.
Qed.
Lemma entered_process X c e h h' x : inv h -> h_process c e h = (h', x) -> entered X h h'.
Proof.
  intros I. unfold h_process. cbv zeta. destruct (sstate_eqb (st (hk h)) PAUSED); [intros [= <- <-]; apply entered_refl|]. destruct (e_plock e); [intros [= <- <-]; apply entered_on_k, entered_refl|].
  destruct (h_process_stores c e (dkeys (hstores h)) None (h, [])) as [[h1 ev1] x1] eqn:E. pose proof (entered_process_stores X _ _ _ _ _ _ _ _ _ I E) as E1. destruct x1; intros [= <- <-]; [apply entered_on_k|]; exact E1.
Qed.
