(** Objects and values agree: the calls. *)
From Verif Require Import Prelude PreludeFacts MemStore StoreSpec MemStoreProofs CallArgs Cron Triggers Task TaskProofs Scheduler SchedReach LifeAll Handles HandlesProofs HandlesProofs2.
Open Scope Z_scope.
Local Ltac sp := repeat match goal with |- _ /\ _ => split end.

(** ** states with the same objects *)
Record heq (h h' : hstate) : Prop := MkHeq { he_hp : forall q, hp h' q = hp h q; he_n : hn h' = hn h; he_s : hstores h' = hstores h; he_p : hpend h' = hpend h; he_k : hk h' = hk h }.
Lemma abs_heq h h' : heq h h' -> abs h' = abs h.
Proof.
  intros [A B C D E]. unfold abs. rewrite C, D, E. f_equal; [|f_equal].
  - apply map_ext. intros []. cbn. rewrite A. reflexivity.
  - apply map_ext. intros [k [m x y|m x y]]; cbn; [|reflexivity]. do 2 f_equal. unfold mmap. f_equal; apply map_ext; intros; rewrite A; reflexivity.
Qed.
Lemma good_heq (f f' : nat -> task) m : (forall q, f' q = f q) -> goodm f m -> goodm f' m. Proof. intros H G. eapply good_ext; eauto. Qed.
Lemma inv_heq h h' : heq h h' -> inv h -> inv h'.
Proof.
  intros [A B C D E] [I1 I2 I3 I4 I5 I6]. constructor; unfold prefs, slot in *; rewrite ?B, ?C, ?D; auto.
  - intros a m x y X. eapply good_heq; [exact A|]. eauto.
  - intros r X. rewrite A. apply I6. unfold prefs in *. rewrite ?D in X. exact X.
Qed.
(** fewer objects in the slots *)
Lemma inv_sub h h' : inv h -> hp h' = hp h -> hn h' = hn h -> NoDup (dkeys (hstores h')) -> NoDup (prefs h') -> incl (prefs h') (prefs h) ->
  (forall a m x y, dget a (hstores h') = Some (HMem m x y) -> goodm (hp h) m /\ (ms_all m = [] \/ exists m0 x0 y0, dget a (hstores h) = Some (HMem m0 x0 y0) /\ incl (ms_all m) (ms_all m0))) -> inv h'.
Proof.
  intros [I1 I2 I3 I4 I5 I6] A B C D E F. constructor; auto; rewrite ?A, ?B; auto.
  - intros a m x y X. destruct (F _ _ _ _ X). auto.
  - intros a m x y b m' x' y' r X X' R R'. destruct (F _ _ _ _ X) as [_ [Z|(m0 & x0 & y0 & Y & G)]]; [rewrite Z in R; destruct R|]. destruct (F _ _ _ _ X') as [_ [Z|(m1 & x1 & y1 & Y' & G')]]; [rewrite Z in R'; destruct R'|].
    eapply I3; eauto.
  - intros r a m x y R X Y. destruct (F _ _ _ _ X) as [_ [Z|(m0 & x0 & y0 & Z & G)]]; [rewrite Z in Y; destruct Y|]. eapply I5; [apply E, R|exact Z|apply G, Y].
  - intros r [R|(a & m & x & y & X & Y)]; apply I6; [left; auto|]. destruct (F _ _ _ _ X) as [_ [Z|(m0 & x0 & y0 & Z & G)]]; [rewrite Z in Y; destruct Y|]. right. exists a, m0, x0, y0. auto.
Qed.
Lemma same_r h r v : same_else h r v r = v. Proof. unfold same_else. rewrite Nat.eqb_refl. reflexivity. Qed.
Lemma same_o h r v q : q <> r -> same_else h r v q = hp h q. Proof. unfold same_else. destruct (Nat.eqb_spec q r); congruence. Qed.

(** ** update_task *)
Lemma set_pending_ref h want id r t' : forall l, NoDup (map (fun p => fst (fst p)) l) -> h_find_pending h want id l = Some r ->
  set_pending_task want id t' (abs_pend (hp h) l) = abs_pend (same_else h r t') l.
Proof.
  induction l as [|[[q a] b] l IH]; cbn [h_find_pending abs_pend map set_pending_task fst snd]; [discriminate|]. intros K. inversion K as [|? ? K1 K2]; subst. cbn [fst] in K1. unfold hid.
  destruct (String.eqb (t_id (hp h q)) id && task_in want (hp h q)).
  - intros [= ->]. rewrite same_r. f_equal. apply map_ext_in. intros [[p c] d] P. cbn. rewrite same_o; [reflexivity|]. intros ->. apply K1. apply in_map_iff. exists (r, c, d). auto.
  - intros F. unfold abs_pend in IH. rewrite IH by auto. f_equal. rewrite same_o; [reflexivity|]. intros ->. apply K1. eapply find_in; eauto.
Qed.
Lemma inv_pend_put h r t' : inv h -> In r (prefs h) -> t_submitted t' = true -> inv (hput r t' h).
Proof.
  intros [I1 I2 I3 I4 I5 I6] R S. constructor; auto.
  - intros a m x y X. eapply good_ext; [eapply I2; eauto|]. intros q Q. cbn. destruct (Nat.eqb_spec q r) as [->|]; [|reflexivity]. destruct (I5 _ _ _ _ _ R X Q).
  - intros q Q. change (slot h q) in Q. apply I6 in Q as [Q1 Q2]. split; [exact Q1|]. cbn. destruct (Nat.eqb_spec q r); auto.
Qed.
Lemma update_submitted env t s fn ups t' : update_task env t s fn ups = (t', Ok tt) -> t_submitted t' = t_submitted t /\ t_id t' = t_id t.
Proof. unfold update_task. destruct (validate env t s fn ups); [|discriminate]. intros [= <-]. split; reflexivity. Qed.
Lemma found_slot h id want r a : inv h -> found h id want r (Some a) ->
  (exists m x y, dget a (hstores h) = Some (HMem m x y) /\ In r (ms_all m) /\ t_submitted (hp h r) = true) \/ (exists m x y, dget a (hstores h) = Some (HDur m x y) /\ ~ slot h r).
Proof.
  intros I [_ [(m & x & y & D & L)|(m & x & y & D & N & _)]]; [left|right; eauto]. assert (R : In r (ms_all m)). { apply (good_lookup (hp h)) in L; [tauto|]. eapply (i_good h I); eauto. }
  exists m, x, y. sp; auto. apply (i_old h I). right. exists a, m, x, y. auto.
Qed.
Lemma abs_note ev h : abs (on_k (fun k => let k1 := dispatch ev k in wakeup_if (running k1) k1) h) = wakeup_if (running (dispatch ev (abs h))) (dispatch ev (abs h)).
Proof. unfold wakeup_if. change (running (dispatch ev (abs h))) with (running (dispatch ev (hk h))). cbn [abs on_k hp hstores hpend hk]. unfold abs. cbn [on_k hp hstores hpend hk]. destruct (running (dispatch ev (hk h))); reflexivity. Qed.
Definition on_obj (h : hstate) (e : result nat) : result task := match e with Ok r => Ok (hp h r) | Err x => Err x end.
Lemma ref_update c id want fn ups h h3 e : inv h -> h_update c id want fn ups h = (h3, e) ->
  update c id want fn ups (abs h) = (abs h3, on_obj h3 e) /\ inv h3.
Proof.
  intros I. unfold h_update, update. destruct (h_lookup id want h) as [h1 e1] eqn:L. destruct (ref_lookup _ _ _ _ _ I L) as (A & I1 & K & FL & H). destruct e1 as [[r w]|x1].
  2:{ intros [= <- <-]. rewrite H, A. auto. }
  destruct H as [H F]. rewrite H. destruct (update_task (c_tenv c) (hp h1 r) (Some (c_self c)) fn ups) as [t' [[]|x]] eqn:U.
  2:{ intros [= <- <-]. rewrite A. auto. }
  apply update_submitted in U as [U1 U2]. destruct w as [a|].
  - destruct (h_store_update a r (hput r t' h1)) as [h2 e2] eqn:E. destruct (ref_store_update a r t' h1 I1) with (h3 := h2) (e := e2) as (B & I2 & K2 & P & _); auto.
    { destruct (found_slot _ _ _ _ _ I1 F) as [(m & x & y & D & R & S)|N]; [left|right; exact N]. exists m, x, y. sp; auto; congruence. }
    rewrite <- A, B. destruct e2 as [[]|x2]; intros [= <- <-]; [|auto]. split; [|apply inv_on_k, I2]. rewrite abs_note. cbn [on_obj on_k hp]. rewrite P. reflexivity.
  - destruct F as [S F]. assert (R : In r (prefs h1)) by (eapply find_in; eauto). intros [= <- <-]. split.
    + assert (AP : abs_pend (fun q => if Nat.eqb q r then t' else hp h1 q) (hpend h1) = set_pending_task want id t' (abs_pend (hp h1) (hpend h1))). { symmetry. apply (set_pending_ref h1 want id r t'); [apply I1|exact F]. }
      assert (AS : abs_stores (fun q => if Nat.eqb q r then t' else hp h1 q) (hstores h1) = abs_stores (hp h1) (hstores h1)).
      { apply abs_stores_ext; [apply I1|]. intros b m x y D. apply mmap_agree; [eapply (i_good h1 I1); eauto|]. intros q Q. destruct (Nat.eqb_spec q r) as [->|]; [|reflexivity]. destruct (i_split h1 I1 _ _ _ _ _ R D Q). }
      assert (AB : abs (hput r t' h1) = w_pend (set_pending_task want id t' (pend (abs h1))) (abs h1)). { unfold abs. cbn [hput hp hstores hpend hk]. rewrite AP, AS. reflexivity. }
      rewrite abs_note, AB, A. cbn [on_obj on_k hp hput]. rewrite Nat.eqb_refl. reflexivity.
    + apply inv_on_k, inv_pend_put; auto. rewrite U1. apply (i_old h1 I1). left. exact R.
Qed.
Lemma ref_reschedule c e id want tr h h3 x : inv h -> h_reschedule c e id want tr h = (h3, x) -> reschedule_task c e id want tr (abs h) = (abs h3, on_obj h3 x) /\ inv h3.
Proof.
  intros I. unfold h_reschedule, h_ask, reschedule_task, ask. change (draws (abs h)) with (draws (hk h)). destruct (answers _ _ _ _ _ _) as [n|y].
  - intros E. apply (ref_update _ _ _ _ _ (on_k (w_draws (S (draws (hk h)))) h)) in E; [exact E|]. apply inv_on_k, I.
  - intros [= <- <-]. split; [reflexivity|apply inv_on_k, I].
Qed.

(** ** delete_task *)
Lemma del_pending_ref h want id : forall l, del_pending want id (abs_pend (hp h) l) = (abs_pend (hp h) (fst (h_del_pending h want id l)), snd (h_del_pending h want id l)).
Proof.
  induction l as [|[[r a] b] l IH]; cbn [abs_pend map del_pending h_del_pending fst snd]; [reflexivity|]. unfold hid. destruct (String.eqb (t_id (hp h r)) id && task_in want (hp h r)); [reflexivity|].
  unfold abs_pend in IH. rewrite IH. destruct (h_del_pending h want id l). reflexivity.
Qed.
Lemma del_pending_sub h want id l : let l' := fst (h_del_pending h want id l) in NoDup (map (fun p => fst (fst p)) l) -> NoDup (map (fun p => fst (fst p)) l') /\ incl (map (fun p => fst (fst p)) l') (map (fun p => fst (fst p)) l).
Proof.
  induction l as [|[[r a] b] l IH]; cbn; [intros _; split; [constructor|intros x []]|]. intros K. inversion K as [|? ? K1 K2]; subst. destruct (String.eqb (hid h r) id && task_in want (hp h r)); cbn.
  - split; [exact K2|]. intros x X. right. exact X.
  - destruct (h_del_pending h want id l) as [l2 o]. cbn in *. destruct (IH K2) as [A B]. split; [constructor; auto|]. intros x [->|X]; [left; reflexivity|right; auto].
Qed.
Lemma del_stores_ref h want id : forall l, NoDup (dkeys l) -> (forall a m x y, dget a l = Some (HMem m x y) -> goodm (hp h) m) ->
  del_stores want id (abs_stores (hp h) l) = (abs_stores (hp h) (fst (h_del_stores h want id l)), snd (h_del_stores h want id l)) /\
  dkeys (fst (h_del_stores h want id l)) = dkeys l /\
  (forall a m x y, dget a (fst (h_del_stores h want id l)) = Some (HMem m x y) -> goodm (hp h) m /\ exists m0 x0 y0, dget a l = Some (HMem m0 x0 y0) /\ incl (ms_all m) (ms_all m0)).
Proof.
  induction l as [|[k s] l IH]; intros K G.
  - cbn. sp; auto. discriminate.
  - cbn [abs_stores map del_stores h_del_stores fst snd]. cbn [dkeys map fst] in K. inversion K as [|? ? K1 K2]; subst.
    assert (T : forall a v, dget a l = Some v -> dget a ((k, s) :: l) = Some v). { intros a v D. cbn. destruct (String.eqb_spec a k) as [->|]; [|exact D]. destruct K1. eapply dget_Some_key; eauto. }
    assert (Gl : forall a m x y, dget a l = Some (HMem m x y) -> goodm (hp h) m). { intros a m x y D. eapply G, T, D. }
    destruct (IH K2 Gl) as (E1 & E2 & E3). unfold abs_stores in E1.
    assert (Ks : forall m x y, s = HMem m x y -> goodm (hp h) m). { intros m x y ->. apply (G k m x y). cbn. rewrite String.eqb_refl. reflexivity. }
    assert (Rest : forall s', (forall m x y, s' = HMem m x y -> goodm (hp h) m /\ exists m0 x0 y0, s = HMem m0 x0 y0 /\ incl (ms_all m) (ms_all m0)) ->
       forall l2, (forall a m x y, dget a l2 = Some (HMem m x y) -> goodm (hp h) m /\ exists m0 x0 y0, dget a l = Some (HMem m0 x0 y0) /\ incl (ms_all m) (ms_all m0)) ->
       forall a m x y, dget a ((k, s') :: l2) = Some (HMem m x y) -> goodm (hp h) m /\ exists m0 x0 y0, dget a ((k, s) :: l) = Some (HMem m0 x0 y0) /\ incl (ms_all m) (ms_all m0)).
    { intros s' H1 l2 H2 a m x y D. cbn in D. destruct (String.eqb_spec a k) as [->|N].
      - injection D as ->. destruct (H1 m x y eq_refl) as (A1 & m0 & x0 & y0 & A2 & A3). split; [exact A1|]. exists m0, x0, y0. cbn. rewrite String.eqb_refl. split; [congruence|exact A3].
      - destruct (H2 _ _ _ _ D) as (A1 & m0 & x0 & y0 & A2 & A3). split; [exact A1|]. exists m0, x0, y0. split; [apply T, A2|exact A3]. }
    assert (Self : forall m x y, s = HMem m x y -> goodm (hp h) m /\ exists m0 x0 y0, s = HMem m0 x0 y0 /\ incl (ms_all m) (ms_all m0)). { intros m x y ->. split; [eapply Ks; eauto|]. exists m, x, y. split; [reflexivity|apply incl_refl]. }
    assert (Keep : forall a m x y, dget a l = Some (HMem m x y) -> goodm (hp h) m /\ exists m0 x0 y0, dget a l = Some (HMem m0 x0 y0) /\ incl (ms_all m) (ms_all m0)). { intros a m x y D. split; [eapply Gl; eauto|]. exists m, x, y. split; [exact D|apply incl_refl]. }
    destruct (wanted want k).
    + destruct s as [m x y|m x y]; unfold st_delete, h_st_delete; cbn [abs_store s_mem].
      * pose proof (obj_delete (hp h) m id (Ks _ _ _ eq_refl)) as O. destruct (ms_lookup m id) as [r|].
        -- destruct O as (m' & O1 & O2 & O3 & O4). change (hid h) with (fun q => t_id (hp h q)). rewrite O1, O3. cbn [fst snd abs_stores map abs_store on_mem s_memory s_starts s_stops]. sp; auto.
           apply Rest; [|exact Keep]. intros m1 x1 y1 [= <- <- <-]. split; [exact O2|]. exists m, x, y. split; [reflexivity|]. intros q Q. apply O4 in Q. tauto.
        -- destruct O as [O1 O3]. change (hid h) with (fun q => t_id (hp h q)). rewrite O1, O3. rewrite E1. destruct (h_del_stores h want id l) as [l2 o] eqn:HD. cbn [fst snd abs_stores map abs_store dkeys] in *. sp; auto; [f_equal; exact E2|].
           apply Rest; [exact Self|exact E3].
      * destruct (ms_delete t_id m id) as [m' [u|er]].
        -- cbn [fst snd abs_stores map abs_store on_mem s_memory s_starts s_stops]. sp; auto. apply Rest; [intros ? ? ?; discriminate|exact Keep].
        -- rewrite E1. destruct (h_del_stores h want id l) as [l2 o] eqn:HD. cbn [fst snd abs_stores map abs_store dkeys] in *. sp; auto; [f_equal; exact E2|]. apply Rest; [exact Self|exact E3].
    + rewrite E1. destruct (h_del_stores h want id l) as [l2 o] eqn:HD. cbn [fst snd abs_stores map abs_store dkeys] in *. sp; auto; [f_equal; exact E2|]. apply Rest; [exact Self|exact E3].
Qed.
Lemma ref_delete id want h h3 e : inv h -> h_delete id want h = (h3, e) -> delete_task id want (abs h) = (abs h3, e) /\ inv h3 /\ hk h3 = w_evs (evs (hk h3)) (hk h).
Proof.
  intros I. unfold h_delete, delete_task. destruct (String.eqb id ""); [intros [= <- <-]; sp; auto; destruct (hk h); reflexivity|].
  change (stopped (abs h)) with (stopped (hk h)). destruct (stopped (hk h)).
  - cbn [abs w_pend pend]. rewrite del_pending_ref. pose proof (del_pending_sub h want id (hpend h) (i_once h I)) as [S1 S2]. destruct (h_del_pending h want id (hpend h)) as [l o]. cbn [fst snd] in *.
    assert (I2 : inv (with_hpend l h)). { apply (inv_sub h); auto; [apply I|]. intros a m x y D. split; [eapply I; eauto|]. right. exists m, x, y. split; [exact D|apply incl_refl]. }
    destruct (match o with Some a => a | None => None end); intros [= <- <-]; sp; auto; try (apply inv_on_k, I2); cbn; destruct (hk h); reflexivity.
  - cbn [abs w_pend w_stores stores]. destruct (del_stores_ref h want id (hstores h) (i_keys h I) (i_good h I)) as (E1 & E2 & E3). rewrite E1. destruct (h_del_stores h want id (hstores h)) as [l o]. cbn [fst snd] in *.
    assert (I2 : inv (with_hstores l h)). { apply (inv_sub h); auto; [change (NoDup (dkeys l)); rewrite E2; apply I|apply I|apply incl_refl|]. intros a m x y D. destruct (E3 _ _ _ _ D) as [A B]. auto. }
    destruct o; intros [= <- <-]; sp; auto; try (apply inv_on_k, I2); cbn; destruct (hk h); reflexivity.
Qed.
Lemma ref_resume c e id want h h3 x : inv h -> h_resume c e id want h = (h3, x) ->
  resume_task c e id want (abs h) = (abs h3, match x with Ok (Some r) => Ok (Some (hp h3 r)) | Ok None => Ok None | Err y => Err y end) /\ inv h3.
Proof.
  intros I. unfold h_resume, resume_task. destruct (h_lookup id want h) as [h1 e1] eqn:L. destruct (ref_lookup _ _ _ _ _ I L) as (A & I1 & K & FL & H). destruct e1 as [[r w]|x1].
  2:{ intros [= <- <-]. rewrite H, A. auto. }
  destruct H as [H F]. rewrite H. unfold h_ask, ask. rewrite <- A. change (draws (abs h1)) with (draws (hk h1)). pose proof (inv_on_k (w_draws (S (draws (hk h1)))) h1 I1) as I2.
  destruct (answers _ _ _ _ _ _) as [[n|]|y].
  - destruct (h_update c id w VNone _ (on_k (w_draws (S (draws (hk h1)))) h1)) as [h4 e4] eqn:U. destruct (ref_update _ _ _ _ _ _ _ _ I2 U) as [B I4]. intros [= <- <-].
    change (w_draws (S (draws (hk h1))) (abs h1)) with (abs (on_k (w_draws (S (draws (hk h1)))) h1)). rewrite B. split; [|exact I4]. destruct e4; reflexivity.
  - destruct (h_delete _ w (on_k (w_draws (S (draws (hk h1)))) h1)) as [h4 e4] eqn:U. destruct (ref_delete _ _ _ _ _ I2 U) as (B & I4 & _). intros [= <- <-].
    change (w_draws (S (draws (hk h1))) (abs h1)) with (abs (on_k (w_draws (S (draws (hk h1)))) h1)). unfold hid in B. cbn [on_k hp] in B. rewrite B. split; [|exact I4]. destruct e4; reflexivity.
  - intros [= <- <-]. auto.
Qed.
