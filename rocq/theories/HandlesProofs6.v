(** Objects and values agree: the scheduler's pass over its stores. *)
From Verif Require Import Prelude PreludeFacts MemStore StoreSpec MemStoreProofs CallArgs Cron Triggers Task TaskProofs Scheduler SchedReach LifeAll Handles HandlesProofs HandlesProofs2 HandlesProofs3 HandlesProofs4 HandlesProofs5.
Open Scope Z_scope.
Local Ltac sp := repeat match goal with |- _ /\ _ => split end.

(** ** what delete_task leaves *)
Lemma del_stores_keeps h want id : forall l, NoDup (dkeys l) -> (forall a m x y, dget a l = Some (HMem m x y) -> goodm (hp h) m) ->
  (forall a m x y, dget a l = Some (HMem m x y) -> exists m', dget a (fst (h_del_stores h want id l)) = Some (HMem m' x y) /\ forall q, In q (ms_all m) -> t_id (hp h q) <> id -> In q (ms_all m')) /\
  (forall a m x y, dget a l = Some (HDur m x y) -> exists m', dget a (fst (h_del_stores h want id l)) = Some (HDur m' x y)).
Proof.
  induction l as [|[k s] l IH]; intros K G; [split; discriminate|]. cbn [dkeys map fst] in K. inversion K as [|? ? K1 K2]; subst. cbn [h_del_stores].
  assert (T : forall a v, dget a l = Some v -> dget a ((k, s) :: l) = Some v). { intros a v D. cbn. destruct (String.eqb_spec a k) as [->|]; [|exact D]. destruct K1. eapply dget_Some_key; eauto. }
  destruct (IH K2) as [E1 E2]. { intros a m x y D. eapply G, T, D. }
  assert (Gs : forall m x y, s = HMem m x y -> goodm (hp h) m). { intros m x y ->. apply (G k m x y). cbn. rewrite String.eqb_refl. reflexivity. }
  assert (ON : (forall a m x y, dget a ((k, s) :: l) = Some (HMem m x y) -> exists m', dget a (fst (let (l2, r) := h_del_stores h want id l in ((k, s) :: l2, r))) = Some (HMem m' x y) /\ forall q, In q (ms_all m) -> t_id (hp h q) <> id -> In q (ms_all m')) /\
     (forall a m x y, dget a ((k, s) :: l) = Some (HDur m x y) -> exists m', dget a (fst (let (l2, r) := h_del_stores h want id l in ((k, s) :: l2, r))) = Some (HDur m' x y))).
  { destruct (h_del_stores h want id l) as [l2 r]. cbn [fst] in *. split; intros a m x y; cbn; destruct (String.eqb_spec a k) as [->|N]; eauto. }
  destruct (wanted want k); [|exact ON]. destruct (h_st_delete h s id) as [s' [u|e]] eqn:D; [|exact ON]. cbn [fst]. destruct s as [m x y|m x y]; cbn [h_st_delete] in D.
  - pose proof (obj_delete (hp h) m id (Gs _ _ _ eq_refl)) as O. change (hid h) with (fun q => t_id (hp h q)) in D. destruct (ms_lookup m id) as [r|] eqn:L.
    + destruct O as (m' & O1 & _ & _ & O4). rewrite O1 in D. injection D as <- _. split; intros a m0 x0 y0; cbn; destruct (String.eqb_spec a k) as [->|N]; eauto; try discriminate.
      intros [= <- <- <-]. exists m'. split; [reflexivity|]. intros q Q Nq. apply O4. split; [exact Q|]. intros ->. apply Nq. apply (good_lookup (hp h) m id r) in L; [tauto|]. eauto.
    + destruct O as [O1 _]. rewrite O1 in D. discriminate.
  - destruct (ms_delete t_id m id) as [m' e']. injection D as <- _. split; intros a m0 x0 y0; cbn; destruct (String.eqb_spec a k) as [->|N]; eauto; try discriminate. intros [= <- <- <-]. eauto.
Qed.
Lemma delete_keeps id want h h' e : inv h -> h_delete id want h = (h', e) -> hp h' = hp h /\ hn h' = hn h /\
  (forall a m x y, dget a (hstores h) = Some (HMem m x y) -> exists m', dget a (hstores h') = Some (HMem m' x y) /\ forall q, In q (ms_all m) -> t_id (hp h q) <> id -> In q (ms_all m')) /\
  (forall a m x y, dget a (hstores h) = Some (HDur m x y) -> exists m', dget a (hstores h') = Some (HDur m' x y)) /\ (forall q, slot h' q -> slot h q).
Proof.
  intros I. unfold h_delete. destruct (String.eqb id ""); [intros [= <- <-]; sp; eauto 6|]. destruct (stopped (hk h)).
  - pose proof (del_pending_sub h want id (hpend h) (i_once h I)) as [S1 S2]. destruct (h_del_pending h want id (hpend h)) as [l o]. cbn [fst snd] in *.
    assert (X : hp (with_hpend l h) = hp h /\ hn (with_hpend l h) = hn h /\ (forall a m x y, dget a (hstores h) = Some (HMem m x y) -> exists m', dget a (hstores (with_hpend l h)) = Some (HMem m' x y) /\ forall q, In q (ms_all m) -> t_id (hp h q) <> id -> In q (ms_all m')) /\
      (forall a m x y, dget a (hstores h) = Some (HDur m x y) -> exists m', dget a (hstores (with_hpend l h)) = Some (HDur m' x y)) /\ (forall q, slot (with_hpend l h) q -> slot h q)).
    { sp; eauto 6. intros q [Q|Q]; [left; apply S2, Q|right; exact Q]. }
    destruct (match o with Some a => a | None => None end); intros [= <- <-]; exact X.
  - pose proof (del_stores_ref h want id (hstores h) (i_keys h I) (i_good h I)) as (_ & _ & E3). pose proof (del_stores_keeps h want id (hstores h) (i_keys h I) (i_good h I)) as (K1 & K2). destruct (h_del_stores h want id (hstores h)) as [l o]. cbn [fst snd] in *.
    assert (X : hp (with_hstores l h) = hp h /\ hn (with_hstores l h) = hn h /\ (forall a m x y, dget a (hstores h) = Some (HMem m x y) -> exists m', dget a (hstores (with_hstores l h)) = Some (HMem m' x y) /\ forall q, In q (ms_all m) -> t_id (hp h q) <> id -> In q (ms_all m')) /\
      (forall a m x y, dget a (hstores h) = Some (HDur m x y) -> exists m', dget a (hstores (with_hstores l h)) = Some (HDur m' x y)) /\ (forall q, slot (with_hstores l h) q -> slot h q)).
    { sp; auto. intros q [Q|(a & m & x & y & D & Q)]; [left; exact Q|]. destruct (E3 _ _ _ _ D) as (_ & m0 & x0 & y0 & D0 & I0). right. exists a, m0, x0, y0. auto. }
    destruct o; intros [= <- <-]; exact X.
Qed.

(** ** one due task *)
Definition held (h : hstate) (a : string) (q : nat) : Prop :=
  (exists m x y, dget a (hstores h) = Some (HMem m x y) /\ In q (ms_all m)) \/ (exists m x y, dget a (hstores h) = Some (HDur m x y) /\ ~ slot h q /\ (q < hn h)%nat).
Definition others (h h' : hstate) (a : string) (r : nat) : Prop := forall q, q <> r -> held h a q -> held h' a q /\ hp h' q = hp h q.
Lemma held_n h a q : inv h -> held h a q -> (q < hn h)%nat.
Proof. intros I [(m & x & y & D & Q)|(m & x & y & D & N & Q)]; [|exact Q]. apply (i_old h I). right. exists a, m, x, y. auto. Qed.
Lemma held_on_k F h a q : held (on_k F h) a q <-> held h a q. Proof. reflexivity. Qed.
Lemma others_refl h a r : others h h a r. Proof. intros q _ H. auto. Qed.
Lemma delete_others h h' a r e : inv h -> held h a r -> h_delete (t_id (hp h r)) (Some a) h = (h', e) -> others h h' a r.
Proof.
  intros I H E q Nq Q. destruct (delete_keeps _ _ _ _ _ I E) as (P1 & P2 & P3 & P4 & P5). rewrite P1. split; [|reflexivity]. destruct Q as [(m & x & y & D & Q)|(m & x & y & D & N & Q)].
  - destruct (P3 _ _ _ _ D) as (m' & D' & K). left. exists m', x, y. split; [exact D'|]. apply K; [exact Q|]. intros X. apply Nq. apply (good_unique (hp h) m); [eapply (i_good h I); eauto|exact Q| |exact X].
    destruct H as [(m0 & x0 & y0 & D0 & H)|(m0 & x0 & y0 & D0 & _)]; congruence.
  - destruct (P4 _ _ _ _ D) as (m' & D'). right. exists m', x, y. sp; auto. rewrite P2. exact Q.
Qed.
Lemma frame_others h h' a r : inv h -> frame (eq r) h h' -> others h h' a r.
Proof.
  intros I F q Nq Q. pose proof (held_n h a q I Q) as QN. split; [|apply (fr_hp _ _ _ F); auto]. destruct Q as [(m & x & y & D & Q)|(m & x & y & D & N & Q)].
  - destruct (fr_mem _ _ _ F _ _ _ _ D) as (m' & x' & y' & D' & _ & K). left. exists m', x', y'. auto.
  - destruct (fr_dur _ _ _ F _ _ _ _ D) as (m' & x' & y' & D'). right. exists m', x', y'. sp; auto; [intros X; apply N; eapply frame_slot; eauto|]. pose proof (fr_n _ _ _ F). lia.
Qed.
Lemma abs_send e xa t times h : send_task e xa t times (abs h) = (abs (on_k (fun _ => fst (send_task e xa t times (hk h))) h), snd (send_task e xa t times (hk h))).
Proof.
  unfold send_task. change (count (t_id t) (abs h)) with (count (t_id t) (hk h)). destruct (count (t_id t) (hk h) >=? t_max t); [reflexivity|]. destruct (e_send_fails e xa (t_id t)); reflexivity.
Qed.
Lemma ref_process_one c e a r h ev h' ev' x : inv h -> held h a r -> h_process_one c e a r (h, ev) = ((h', ev'), x) ->
  process_one c e a (hp h r) (abs h, ev) = ((abs h', ev'), x) /\ inv h' /\ others h h' a r.
Proof.
  intros I H. unfold h_process_one, process_one. cbv beta iota zeta. change (execs (abs h)) with (execs (hk h)). change (draws (abs h)) with (draws (hk h)).
  set (xo := match t_exec (hp h r) with Some xa => if dmem xa (execs (hk h)) then Some xa else None | None => None end). destruct xo as [xa|].
  2:{ destruct (h_delete (t_id (hp h r)) (Some a) h) as [h1 e1] eqn:E. destruct (ref_delete _ _ _ _ _ I E) as (B1 & B2 & _). rewrite B1. intros [= <- <- <-]. sp; auto. eapply delete_others; eauto. }
  destruct (get_run_times _ _ _ _ _) as [[due k]|y]; [|intros [= <- <- <-]; sp; auto using others_refl].
  destruct (coalesce_run_times (t_coalesce (hp h r)) due) as [times n]. destruct (last_opt times) as [lastt|].
  2:{ intros [= <- <- <-]. sp; [reflexivity|apply inv_on_k, I|exact (others_refl h a r)]. }
  change (w_draws k (abs h)) with (abs (on_k (w_draws k) h)). rewrite abs_send. set (h0 := on_k (w_draws k) h).
  assert (I0 : inv h0) by (apply inv_on_k, I). assert (T0 : hp h0 r = hp h r) by reflexivity. assert (H0 : held h0 a r) by exact H. assert (O0 : forall h2, others h0 h2 a r -> others h h2 a r) by (intros h2 X; exact X). clearbody h0.
  destruct (send_task e xa (hp h r) times (hk h0)) as [k1 res]. cbn [fst snd]. set (ev1 := match res with Ok _ => _ | Err _ => _ end). clearbody ev1.
  unfold ask, h_ask. change (draws (abs (on_k (fun _ => k1) h0))) with (draws k1). change (draws (hk (on_k (fun _ => k1) h0))) with (draws k1).
  match goal with |- context [w_draws (Datatypes.S (draws k1)) (abs (on_k (fun _ => k1) h0))] => change (w_draws (Datatypes.S (draws k1)) (abs (on_k (fun _ => k1) h0))) with (abs (on_k (w_draws (Datatypes.S (draws k1))) (on_k (fun _ => k1) h0))) end.
  set (h2 := on_k (w_draws (Datatypes.S (draws k1))) (on_k (fun _ => k1) h0)).
  assert (I2 : inv h2) by (apply inv_on_k, inv_on_k, I0). assert (T2 : hp h2 r = hp h r) by exact T0. assert (H2 : held h2 a r) by exact H0. assert (O2 : forall h3, others h2 h3 a r -> others h h3 a r) by (intros h3 X; apply O0; exact X). clearbody h2. clear O0.
  destruct (answers _ _ _ _ _ _) as [[z|]|y].
  - destruct (h_store_update a r (hput r (set_next (Some z) (hp h r)) h2)) as [h3 e3] eqn:E.
    destruct (ref_store_update a r (set_next (Some z) (hp h r)) h2 I2) with (h3 := h3) (e := e3) as (B & I3 & _ & _ & F); auto.
    { destruct H2 as [(m & p & q & D & Q)|(m & p & q & D & N & _)]; [left; exists m, p, q|right; eauto]. sp; auto; [rewrite T2; reflexivity|]. change (t_submitted (set_next (Some z) (hp h r))) with (t_submitted (hp h r)). rewrite <- T2. apply (i_old h2 I2). right. exists a, m, p, q. auto. }
    rewrite B. intros [= <- <- <-]. sp; auto. apply O2, frame_others; auto. apply F. rewrite T2. reflexivity.
  - rewrite <- T2 at 1 2. destruct (h_delete (t_id (hp h2 r)) (Some a) h2) as [h3 e3] eqn:E. destruct (ref_delete _ _ _ _ _ I2 E) as (B1 & B2 & _). rewrite B1. intros [= <- <- <-]. sp; auto. apply O2. eapply delete_others; eauto.
  - intros [= <- <- <-]. sp; auto. apply O2, others_refl.
Qed.

(** ** the due tasks of a store *)
Lemma due_prefix {T} (m : memstore T) now : exists tl, ms_all m = ms_due m now ++ tl.
Proof.
  unfold ms_all, ms_due. induction (ms_tasks m) as [|[t [z|]] l [tl IH]]; cbn.
  - exists []. reflexivity.
  - destruct (now <? z); [eexists; reflexivity|]. exists tl. rewrite IH. reflexivity.
  - eexists; reflexivity.
Qed.
Lemma good_nodup f m : goodm f m -> NoDup (ms_all m).
Proof.
  intros [G _]. apply (ids_nodup pid pnext) in G. unfold pairs in G. rewrite all_map in G. rewrite map_map in G. eapply NoDup_map_inv. exact G.
Qed.
Lemma ref_process_due c e a : forall l h ev h' ev' x, inv h -> NoDup l -> (forall q, In q l -> held h a q) -> h_process_due c e a l (h, ev) = ((h', ev'), x) ->
  process_due c e a (map (hp h) l) (abs h, ev) = ((abs h', ev'), x) /\ inv h'.
Proof.
  induction l as [|r l IH]; intros h ev h' ev' x I N H; cbn [h_process_due map process_due].
  - intros [= <- <- <-]. auto.
  - inversion N as [|? ? N1 N2]; subst. destruct (h_process_one c e a r (h, ev)) as [[h1 ev1] x1] eqn:E. destruct (ref_process_one _ _ _ _ _ _ _ _ _ I (H r (or_introl eq_refl)) E) as (B & I1 & O). rewrite B. destruct x1 as [u|y]; [|intros [= <- <- <-]; auto].
    intros E2. assert (K : forall q, In q l -> held h1 a q /\ hp h1 q = hp h q). { intros q Q. apply O; [congruence|]. apply H. right. exact Q. }
    apply IH in E2; auto; [|intros q Q; apply K, Q]. rewrite (map_ext_in _ (hp h1)); [exact E2|]. intros q Q. symmetry. apply K, Q.
Qed.
Lemma ref_news : forall l h h' rs, inv h -> h_news l h = (h', rs) ->
  abs h' = abs h /\ inv h' /\ map (hp h') rs = l /\ NoDup rs /\ hstores h' = hstores h /\ hk h' = hk h /\ (hn h <= hn h')%nat /\ (forall q, (q < hn h)%nat -> hp h' q = hp h q) /\ (forall q, slot h' q <-> slot h q) /\
  (forall q, In q rs -> (hn h <= q < hn h')%nat).
Proof.
  induction l as [|t l IH]; intros h h' rs I; cbn [h_news].
  - intros [= <- <-]. sp; auto; [constructor|reflexivity|intros q []].
  - destruct (abs_new h t I) as (A1 & A2 & A3 & A4). destruct (hnew t h) as [h1 r] eqn:E. assert (R : r = hn h) by (unfold hnew in E; congruence). assert (SN : hn h1 = Datatypes.S (hn h)) by (unfold hnew in E; injection E as <- _; reflexivity).
    assert (SS : hstores h1 = hstores h) by (unfold hnew in E; injection E as <- _; reflexivity). assert (SK : hk h1 = hk h) by (unfold hnew in E; injection E as <- _; reflexivity). assert (SP : hpend h1 = hpend h) by (unfold hnew in E; injection E as <- _; reflexivity).
    assert (SH : forall q, (q < hn h)%nat -> hp h1 q = hp h q). { intros q Q. unfold hnew in E. injection E as <- _. cbn. destruct (Nat.eqb_spec q (hn h)); [lia|reflexivity]. }
    cbn [fst] in *. subst r. destruct (h_news l h1) as [h2 rs2] eqn:E2. destruct (IH _ _ _ A2 E2) as (B1 & B2 & B3 & B4 & B5 & B6 & B7 & B8 & B9 & B10). intros [= <- <-]. sp; auto; try congruence; try lia.
    + cbn. rewrite B3, B8 by lia. rewrite A4. reflexivity.
    + constructor; [|exact B4]. intros X. apply B10 in X. lia.
    + intros q Q. rewrite B8, SH; auto; lia.
    + intros q. rewrite B9. unfold slot, prefs. rewrite SS, SP. tauto.
    + intros q [<-|Q]; [lia|]. apply B10 in Q. lia.
Qed.
Lemma ref_due a x now h h' rs : inv h -> dget a (hstores h) = Some x -> h_due x now h = (h', rs) ->
  abs h' = abs h /\ inv h' /\ NoDup rs /\ (forall q, In q rs -> held h' a q) /\ map (hp h') rs = ms_due (s_mem (abs_store (hp h) x)) now.
Proof.
  intros I D. destruct x as [m y z|m y z]; cbn [h_due abs_store s_mem].
  - intros [= <- <-]. destruct (due_prefix m now) as [tl P]. assert (G : goodm (hp h) m) by (eapply (i_good h I); eauto). pose proof (good_nodup _ _ G) as N. rewrite P in N. sp; auto.
    + eapply NoDup_app_l; exact N.
    + intros q Q. left. exists m, y, z. split; [exact D|]. rewrite P. apply in_app_iff. auto.
    + rewrite due_map. reflexivity.
  - intros E. destruct (ref_news _ _ _ _ I E) as (B1 & B2 & B3 & B4 & B5 & B6 & B7 & B8 & B9 & B10). sp; auto. intros q Q. right. exists m, y, z. rewrite B5. apply B10 in Q. sp; auto; [|lia]. rewrite B9. intros X. apply (i_old h I) in X. lia.
Qed.
Lemma abs_nrt h x : ms_next_run_time t_next (s_mem (abs_store (hp h) x)) = h_next_run_time h x.
Proof. destruct x as [m y z|m y z]; cbn [abs_store s_mem h_next_run_time]; [|reflexivity]. unfold ms_next_run_time, mmap. cbn [ms_tasks]. destruct (ms_tasks m) as [|[q t] l]; reflexivity. Qed.
Lemma ref_process_store c e a w h ev h' ev' x : inv h -> h_process_store c e a w (h, ev) = ((h', ev'), x) -> process_store c e a w (abs h, ev) = ((abs h', ev'), x) /\ inv h'.
Proof.
  intros I. unfold h_process_store, process_store. cbv beta iota zeta. change (stores (abs h)) with (abs_stores (hp h) (hstores h)). rewrite dget_abs. destruct (dget a (hstores h)) as [s|] eqn:D; cbn [option_map]; [|intros [= <- <- <-]; auto].
  destruct (e_busy e a || e_fails e a); [intros [= <- <- <-]; auto|]. destruct (h_due s (e_now e) h) as [h0 rs] eqn:E. destruct (ref_due _ _ _ _ _ _ I D E) as (B1 & B2 & B3 & B4 & B5). rewrite <- B5, <- B1.
  destruct (h_process_due c e a rs (h0, ev)) as [[h1 ev1] x1] eqn:P. destruct (ref_process_due _ _ _ _ _ _ _ _ _ B2 B3 B4 P) as [Q1 Q2]. rewrite Q1. destruct x1 as [u|y]; [|intros [= <- <- <-]; auto].
  intros [= <- <- <-]. split; [|exact Q2]. change (stores (abs h1)) with (abs_stores (hp h1) (hstores h1)). rewrite dget_abs. destruct (dget a (hstores h1)) as [s1|]; cbn [option_map]; [rewrite abs_nrt|]; reflexivity.
Qed.
Lemma ref_process_stores c e : forall l w h ev h' ev' x, inv h -> h_process_stores c e l w (h, ev) = ((h', ev'), x) -> process_stores c e l w (abs h, ev) = ((abs h', ev'), x) /\ inv h'.
Proof.
  induction l as [|a l IH]; intros w h ev h' ev' x I; cbn [h_process_stores process_stores]; [intros [= <- <- <-]; auto|].
  destruct (h_process_store c e a w (h, ev)) as [[h1 ev1] x1] eqn:E. destruct (ref_process_store _ _ _ _ _ _ _ _ _ I E) as [B I1]. rewrite B. destruct x1 as [w1|y]; [apply IH, I1|intros [= <- <- <-]; auto].
Qed.
Lemma ref_process c e h h' x : inv h -> h_process c e h = (h', x) -> process_tasks c e (abs h) = (abs h', x) /\ inv h'.
Proof.
  intros I. unfold h_process, process_tasks. cbv zeta. change (st (abs h)) with (st (hk h)). destruct (sstate_eqb (st (hk h)) PAUSED); [intros [= <- <-]; auto|].
  change (stores (abs h)) with (abs_stores (hp h) (hstores h)). rewrite dkeys_abs. destruct (e_plock e).
  - intros [= <- <-]. split; [reflexivity|apply inv_on_k, I].
  - destruct (h_process_stores c e (dkeys (hstores h)) None (h, [])) as [[h1 ev1] x1] eqn:E. destruct (ref_process_stores _ _ _ _ _ _ _ _ _ I E) as [B I1]. rewrite B. destruct x1 as [w|y]; intros [= <- <-]; [|auto]. split; [reflexivity|apply inv_on_k, I1].
Qed.
