(** Objects and values agree: every call on objects does to the values what Scheduler.v says. *)
From Verif Require Import Prelude PreludeFacts MemStore StoreSpec MemStoreProofs CallArgs Cron Triggers Task TaskProofs Scheduler SchedReach LifeAll Handles HandlesProofs.
Open Scope Z_scope.
Local Ltac sp := repeat match goal with |- _ /\ _ => split end.

Definition prefs (h : hstate) : list nat := map (fun p => fst (fst p)) (hpend h).
(** the object is pending or in a memory store *)
Definition slot (h : hstate) (r : nat) : Prop := In r (prefs h) \/ exists a m x y, dget a (hstores h) = Some (HMem m x y) /\ In r (ms_all m).
Record inv (h : hstate) : Prop := MkInv {
  i_keys : NoDup (dkeys (hstores h));
  i_good : forall a m x y, dget a (hstores h) = Some (HMem m x y) -> goodm (hp h) m;
  i_apart : forall a m x y b m' x' y' r, dget a (hstores h) = Some (HMem m x y) -> dget b (hstores h) = Some (HMem m' x' y') -> In r (ms_all m) -> In r (ms_all m') -> a = b;
  i_once : NoDup (prefs h);
  i_split : forall r a m x y, In r (prefs h) -> dget a (hstores h) = Some (HMem m x y) -> ~ In r (ms_all m);
  i_old : forall r, slot h r -> (r < hn h)%nat /\ t_submitted (hp h r) = true }.
Lemma inv_empty c : inv (h_empty c).
Proof. constructor; cbn; try constructor; try discriminate; try tauto; intros; try contradiction; destruct H as [[]|(? & ? & ? & ? & ? & _)]; discriminate. Qed.
Lemma inv_on_k F h : inv h -> inv (on_k F h). Proof. intros []. constructor; auto. Qed.

(** ** the values of a changed heap *)
Lemma dkeys_abs f l : dkeys (abs_stores f l) = dkeys l. Proof. unfold dkeys, abs_stores. rewrite map_map. reflexivity. Qed.
Lemma dget_abs f l a : dget a (abs_stores f l) = option_map (abs_store f) (dget a l).
Proof. induction l as [|[k x] l IH]; cbn; [reflexivity|]. destruct (String.eqb a k); [reflexivity|exact IH]. Qed.
Lemma abs_stores_ext f f' l : NoDup (dkeys l) -> (forall a m x y, dget a l = Some (HMem m x y) -> mmap f' m = mmap f m) -> abs_stores f' l = abs_stores f l.
Proof.
  intros K H. unfold abs_stores. apply map_ext_in. intros [a [m x y|m x y]] X; cbn; [|reflexivity]. rewrite (H a m x y); [reflexivity|]. apply In_dget; auto.
Qed.
Lemma abs_stores_set f f' a x' : forall l, NoDup (dkeys l) -> In a (dkeys l) -> (forall b m x y, b <> a -> dget b l = Some (HMem m x y) -> mmap f' m = mmap f m) ->
  abs_stores f' (dset a x' l) = dset a (abs_store f' x') (abs_stores f l).
Proof.
  induction l as [|[k v] l IH]; intros K X H; [destruct X|]. cbn [dset abs_stores map fst snd]. cbn [dkeys map fst] in K. inversion K as [|? ? K1 K2]; subst.
  assert (T : forall b m x y, dget b l = Some (HMem m x y) -> b <> k). { intros b m x y D ->. apply K1. eapply dget_Some_key; eauto. }
  destruct (String.eqb_spec a k) as [->|N]; cbn [map fst snd].
  - f_equal. apply abs_stores_ext; [exact K2|]. intros b m x y D. apply (H b m x y); [eapply T; eauto|]. cbn. destruct (String.eqb_spec b k) as [->|]; [|exact D]. destruct (T _ _ _ _ D eq_refl).
  - f_equal.
    + f_equal. destruct v as [m x y|m x y]; cbn; [|reflexivity]. rewrite (H k m x y); [reflexivity|congruence|]. cbn. rewrite String.eqb_refl. reflexivity.
    + apply IH; [exact K2|destruct X as [X|X]; [cbn in X; congruence|exact X]|]. intros b m x y D E. apply (H b m x y D). cbn. destruct (String.eqb_spec b k) as [->|]; [|exact E]. destruct (T _ _ _ _ E eq_refl).
Qed.
Lemma abs_eq h h' : hk h' = hk h -> abs_stores (hp h') (hstores h') = abs_stores (hp h) (hstores h) -> abs_pend (hp h') (hpend h') = abs_pend (hp h) (hpend h) -> abs h' = abs h.
Proof. unfold abs. intros -> -> ->. reflexivity. Qed.
Lemma abs_put h r t : inv h -> ~ slot h r -> abs (hput r t h) = abs h.
Proof.
  intros I N. apply abs_eq; [reflexivity| |].
  - apply abs_stores_ext; [apply I|]. intros a m x y D. apply mmap_agree; [eapply I; eauto|]. intros q Q. cbn. destruct (Nat.eqb_spec q r) as [->|]; [|reflexivity]. destruct N. right. eauto 6.
  - cbn [hput hp hpend]. apply map_ext_in. intros [[q b] b'] Q. cbn. destruct (Nat.eqb_spec q r) as [->|]; [|reflexivity]. destruct N. left. unfold prefs. apply in_map_iff. exists (r, b, b'). auto.
Qed.
Lemma inv_put h r t : inv h -> ~ slot h r -> inv (hput r t h).
Proof.
  intros I N. assert (E : forall q, slot h q -> hp (hput r t h) q = hp h q). { intros q Q. cbn. destruct (Nat.eqb_spec q r) as [->|]; [contradiction|reflexivity]. }
  destruct I as [A B C D F G]. constructor; auto.
  - intros a m x y X. eapply good_ext; [eapply B; eauto|]. intros q Q. apply E. right. exists a, m, x, y. auto.
  - intros q Q. change (slot h q) in Q. rewrite E by exact Q. apply G, Q.
Qed.
Lemma abs_new h t : inv h -> abs (fst (hnew t h)) = abs h /\ inv (fst (hnew t h)) /\ ~ slot (fst (hnew t h)) (hn h) /\ hp (fst (hnew t h)) (hn h) = t.
Proof.
  intros I. assert (N : ~ slot h (hn h)). { intros X. apply (i_old h I) in X. lia. }
  pose proof (abs_put h (hn h) t I N) as A. pose proof (inv_put h (hn h) t I N) as B. sp.
  - exact A.
  - destruct B as [B1 B2 B3 B4 B5 B6]. constructor; auto. intros r X. apply B6 in X as [X Y]. cbn in *. split; [lia|exact Y].
  - exact N.
  - cbn. rewrite Nat.eqb_refl. reflexivity.
Qed.

(** ** what a call leaves as it was: all objects but those of [R]; stores keep their kind and lose at most objects of [R] *)
Record frame (R : nat -> Prop) (h h' : hstate) : Prop := MkFrame {
  fr_n : (hn h <= hn h')%nat;
  fr_hp : forall q, ~ R q -> (q < hn h)%nat -> hp h' q = hp h q;
  fr_id : forall q, (q < hn h)%nat -> t_id (hp h' q) = t_id (hp h q);
  fr_mem : forall a m x y, dget a (hstores h) = Some (HMem m x y) -> exists m' x' y', dget a (hstores h') = Some (HMem m' x' y') /\ incl (ms_all m') (ms_all m) /\ (forall q, In q (ms_all m) -> ~ R q -> In q (ms_all m'));
  fr_dur : forall a m x y, dget a (hstores h) = Some (HDur m x y) -> exists m' x' y', dget a (hstores h') = Some (HDur m' x' y');
  fr_back : forall a m' x y, dget a (hstores h') = Some (HMem m' x y) -> exists m x0 y0, dget a (hstores h) = Some (HMem m x0 y0) /\ incl (ms_all m') (ms_all m);
  fr_pend : incl (prefs h') (prefs h) }.
Lemma frame_refl R h : frame R h h.
Proof. constructor; auto; try apply incl_refl; intros; eauto 10 using incl_refl. Qed.
Lemma frame_trans R h1 h2 h3 : frame R h1 h2 -> frame R h2 h3 -> frame R h1 h3.
Proof.
  intros [A1 A2 A3 A4 A5 A6 A7] [B1 B2 B3 B4 B5 B6 B7]. constructor.
  - lia.
  - intros q N Q. rewrite B2, A2; auto; lia.
  - intros q Q. rewrite B3, A3; auto; lia.
  - intros a m x y D. destruct (A4 _ _ _ _ D) as (m2 & x2 & y2 & D2 & I2 & K2). destruct (B4 _ _ _ _ D2) as (m3 & x3 & y3 & D3 & I3 & K3). exists m3, x3, y3. sp; auto. eapply incl_tran; eauto.
  - intros a m x y D. destruct (A5 _ _ _ _ D) as (m2 & x2 & y2 & D2). eauto.
  - intros a m x y D. destruct (B6 _ _ _ _ D) as (m2 & x2 & y2 & D2 & I2). destruct (A6 _ _ _ _ D2) as (m3 & x3 & y3 & D3 & I3). exists m3, x3, y3. split; [auto|]. eapply incl_tran; eauto.
  - eapply incl_tran; eauto.
Qed.
Lemma frame_weak (R R' : nat -> Prop) h h' : (forall q, R q -> R' q) -> frame R h h' -> frame R' h h'.
Proof.
  intros W [A1 A2 A3 A4 A5 A6 A7]. constructor; auto. intros a m x y D. destruct (A4 _ _ _ _ D) as (m2 & x2 & y2 & D2 & I2 & K2). exists m2, x2, y2. sp; auto.
Qed.
Lemma frame_slot R h h' q : frame R h h' -> slot h' q -> slot h q.
Proof. intros F [X|(a & m & x & y & D & X)]; [left; apply (fr_pend _ _ _ F), X|]. destruct (fr_back _ _ _ F _ _ _ _ D) as (m0 & x0 & y0 & D0 & I0). right. exists a, m0, x0, y0. auto. Qed.
Lemma frame_on_k R F h : frame R h (on_k F h).
Proof. destruct (frame_refl R h). constructor; assumption. Qed.
Lemma frame_k R F h h' : frame R h h' -> frame R h (on_k F h').
Proof. intros []. constructor; assumption. Qed.
Lemma frame_new R t h : frame R h (fst (hnew t h)).
Proof.
  destruct (frame_refl R h) as [A1 A2 A3 A4 A5 A6 A7]. constructor; auto; cbn; try lia; intros q; intros; cbn; destruct (Nat.eqb_spec q (hn h)); auto; lia.
Qed.
Lemma frame_put (R : nat -> Prop) r t h : R r -> t_id t = t_id (hp h r) -> frame R h (hput r t h).
Proof.
  intros X E. destruct (frame_refl R h) as [A1 A2 A3 A4 A5 A6 A7]. constructor; auto; intros q; intros; cbn; destruct (Nat.eqb_spec q r) as [->|]; auto. contradiction.
Qed.
(** ** looking up *)
(** what is known of an object that was looked up *)
Definition found (h : hstate) (id : string) (want : option string) (r : nat) (w : option string) : Prop :=
  match w with
  | None => stopped (hk h) = true /\ h_find_pending h want id (hpend h) = Some r
  | Some a => stopped (hk h) = false /\ ((exists m x y, dget a (hstores h) = Some (HMem m x y) /\ ms_lookup m id = Some r)
                \/ (exists m x y, dget a (hstores h) = Some (HDur m x y) /\ ~ slot h r /\ ms_lookup m id = Some (hp h r)))
  end.
Lemma find_pending_ref h want id l : find_pending want id (abs_pend (hp h) l) = option_map (hp h) (h_find_pending h want id l).
Proof. induction l as [|[[r a] b] l IH]; cbn; [reflexivity|]. unfold hid. destruct (String.eqb (t_id (hp h r)) id && task_in want (hp h r)); [reflexivity|exact IH]. Qed.
Lemma find_store_ref f want id l : find_store want id (abs_stores f l) = option_map (fun p => (match fst p with inl r => f r | inr t => t end, snd p)) (h_find_store want id l).
Proof.
  induction l as [|[k x] l IH]; cbn [abs_stores map find_store h_find_store fst snd]; [reflexivity|]. destruct (wanted want k); [|exact IH].
  destruct x as [m x y|m x y]; cbn [abs_store s_mem].
  - rewrite lookup_map. destruct (ms_lookup m id); cbn [option_map]; [reflexivity|exact IH].
  - destruct (ms_lookup m id); [reflexivity|exact IH].
Qed.
Lemma find_store_hit want id l : NoDup (dkeys l) -> forall o a, h_find_store want id l = Some (o, a) ->
  wanted want a = true /\ match o with inl r => exists m x y, dget a l = Some (HMem m x y) /\ ms_lookup m id = Some r | inr t => exists m x y, dget a l = Some (HDur m x y) /\ ms_lookup m id = Some t end.
Proof.
  induction l as [|[k x] l IH]; intros K o a; cbn [h_find_store]; [discriminate|]. cbn [dkeys map fst] in K. inversion K as [|? ? K1 K2]; subst.
  assert (T : forall v, dget a l = Some v -> dget a ((k, x) :: l) = Some v). { intros v D. cbn. destruct (String.eqb_spec a k) as [->|]; [|exact D]. destruct K1. eapply dget_Some_key; eauto. }
  destruct (wanted want k) eqn:W.
  - destruct x as [m b b'|m b b']; destruct (ms_lookup m id) as [v|] eqn:L.
    1,3: intros [= <- <-]; split; [exact W|]; exists m, b, b'; cbn; rewrite String.eqb_refl; auto.
    all: intros H; destruct (IH K2 o a H) as [H1 H2]; split; [exact H1|]; destruct o; destruct H2 as (m' & c & c' & D & L'); exists m', c, c'; split; auto.
  - intros H. destruct (IH K2 o a H) as [H1 H2]. split; [exact H1|]. destruct o; destruct H2 as (m' & c & c' & D & L'); exists m', c, c'; split; auto.
Qed.
Lemma ref_lookup id want h h1 e : inv h -> h_lookup id want h = (h1, e) -> abs h1 = abs h /\ inv h1 /\ hk h1 = hk h /\ (forall R, frame R h h1) /\
  match e with Err x => lookup_task id want (abs h) = Err x | Ok (r, w) => lookup_task id want (abs h) = Ok (hp h1 r, w) /\ found h1 id want r w end.
Proof.
  intros I. unfold h_lookup, lookup_task. change (stopped (abs h)) with (stopped (hk h)). destruct (stopped (hk h)) eqn:S.
  - cbn [abs w_pend pend]. rewrite find_pending_ref. destruct (h_find_pending h want id (hpend h)) as [r|] eqn:F; intros [= <- <-]; sp; auto using frame_refl. cbn. auto.
  - cbn [abs w_pend w_stores stores]. rewrite find_store_ref. destruct (h_find_store want id (hstores h)) as [[[r|t] a]|] eqn:F.
    + intros [= <- <-]. sp; auto using frame_refl. cbn [found option_map fst snd]. destruct (find_store_hit want id _ (i_keys h I) _ _ F) as [_ H]. split; auto.
    + destruct (abs_new h t I) as (A1 & A2 & A3 & A4). cbn [hnew]. cbn [hnew fst] in A1, A2, A3, A4. intros [= <- <-]. sp; auto; [intros R; exact (frame_new R t h)|cbn [option_map fst snd]; rewrite A4; reflexivity|].
      destruct (find_store_hit want id _ (i_keys h I) _ _ F) as [_ (m & x & y & D & L)]. cbn [found]. split; [exact S|]. right. exists m, x, y. rewrite A4. auto.
    + intros [= <- <-]. sp; auto using frame_refl.
Qed.
Lemma found_id h id want r w : inv h -> (forall m x y a, dget a (hstores h) = Some (HDur m x y) -> Inv t_id t_next m) -> found h id want r w -> t_id (hp h r) = id.
Proof.
  intros I D. destruct w as [a|]; cbn [found].
  - intros [_ [(m & x & y & E & L)|(m & x & y & E & N & L)]].
    + apply (good_lookup (hp h)) in L; [tauto|]. eapply I; eauto.
    + pose proof (content_In t_id t_next m id (hp h r) (D _ _ _ _ E)) as [C _]. apply C. exact L.
  - intros [_ F]. revert F. induction (hpend h) as [|[[q b] b'] l IH]; cbn; [discriminate|]. destruct (String.eqb (hid h q) id) eqn:E; cbn; [|exact IH]. destruct (task_in want (hp h q)); [|exact IH]. intros [= ->]. apply String.eqb_eq. exact E.
Qed.
Lemma find_in h want id l r : h_find_pending h want id l = Some r -> In r (map (fun p => fst (fst p)) l).
Proof. induction l as [|[[q b] b'] l IH]; cbn; [discriminate|]. destruct (String.eqb (hid h q) id && task_in want (hp h q)); [intros [= ->]; auto|auto]. Qed.
Lemma found_submitted h id want r w : inv h -> found h id want r w -> t_submitted (hp h r) = true \/ ~ slot h r.
Proof.
  intros I. destruct w as [a|]; cbn [found].
  - intros [_ [(m & x & y & E & L)|(m & x & y & E & N & L)]]; [left|right; exact N]. apply I. right. exists a, m, x, y. split; [exact E|]. apply (good_lookup (hp h)) in L; [tauto|]. eapply I; eauto.
  - intros [_ F]. left. apply I. left. eapply find_in; eauto.
Qed.

(** ** changing an object in place, then telling the store *)
Definition same_else (h : hstate) (r : nat) (t : task) : nat -> task := fun q => if Nat.eqb q r then t else hp h q.
Lemma ref_store_update a r t' h : inv h ->
  (exists m x y, dget a (hstores h) = Some (HMem m x y) /\ In r (ms_all m) /\ t_id t' = t_id (hp h r) /\ t_submitted t' = true) \/ (exists m x y, dget a (hstores h) = Some (HDur m x y) /\ ~ slot h r) ->
  forall h3 e, h_store_update a r (hput r t' h) = (h3, e) -> store_update a t' (abs h) = (abs h3, e) /\ inv h3 /\ hk h3 = hk h /\ hp h3 r = t' /\ (t_id t' = t_id (hp h r) -> frame (eq r) h h3).
Proof.
  intros I H h3 e. unfold h_store_update, store_update. cbn [hput hstores]. cbn [abs w_pend w_stores stores]. rewrite dget_abs.
  assert (PT : (if Nat.eqb r r then t' else hp h r) = t') by (rewrite Nat.eqb_refl; reflexivity).
  destruct H as [(m & x & y & D & R & T & SB)|(m & x & y & D & N)]; rewrite D; cbn [option_map abs_store].
  - destruct (obj_update (hp h) (same_else h r t') (same_else h r t') m r) as (m' & E1 & G' & E2 & M).
    + eapply I; eauto.
    + intros q _ Nq. unfold same_else. destruct (Nat.eqb_spec q r); congruence.
    + intros q _. unfold same_else. destruct (Nat.eqb_spec q r) as [->|]; congruence.
    + reflexivity.
    + reflexivity.
    + intros _. unfold same_else. rewrite Nat.eqb_refl. auto.
    + unfold h_st_update, st_update, hid, hnext. cbn [s_mem s_memory hput hp]. cbn [negb andb].
      change (fun q : nat => t_id (if Nat.eqb q r then t' else hp h q)) with (fun q => t_id (same_else h r t' q)).
      change (fun q : nat => t_next (if Nat.eqb q r then t' else hp h q)) with (fun q => t_next (same_else h r t' q)).
      rewrite E1. intros [= <- <-]. assert (E3 : ms_update t_id t_next (mmap (hp h) m) t' = (mmap (same_else h r t') m', Ok tt)).
      { rewrite <- E2. unfold same_else. rewrite Nat.eqb_refl. reflexivity. }
      rewrite E3. unfold on_mem. cbn [s_mem s_memory s_starts s_stops].
      assert (OTHER : forall b m2 x2 y2, b <> a -> dget b (hstores h) = Some (HMem m2 x2 y2) -> forall q, In q (ms_all m2) -> q <> r).
      { intros b m2 x2 y2 Nb Db q Q ->. apply Nb. eapply (i_apart h I); eauto. }
      assert (MM : forall q, In q (ms_all m') <-> In q (ms_all m)).
      { intros q. rewrite M. unfold same_else at 1. rewrite Nat.eqb_refl. rewrite T. split; [intros [->|[X _]]; auto|]. intros X. destruct (Nat.eq_dec q r) as [->|Nq]; [auto|]. right. sp; auto. intros E. apply Nq. apply (good_unique (hp h) m); auto. eapply (i_good h I); eauto. }
      assert (SL : forall q, slot (with_hstores (dset a (HMem m' x y) (hstores h)) (hput r t' h)) q -> slot h q).
      { intros q [X|(b & m2 & x2 & y2 & Db & Q)]; [left; exact X|]. cbn in Db. destruct (String.eqb_spec b a) as [->|Nb].
        - rewrite dget_dset_eq in Db. injection Db as <- <- <-. right. exists a, m, x, y. split; [exact D|]. apply MM, Q.
        - rewrite dget_dset_ne in Db by auto. right. exists b, m2, x2, y2. auto. }
      assert (FR : frame (eq r) h (with_hstores (dset a (HMem m' x y) (hstores h)) (hput r t' h))).
      { destruct (frame_put (eq r) r t' h eq_refl T) as [F1 F2 F3 F4 F5 F6 F7]. constructor; auto.
        - intros b m2 x2 y2 Db. cbn. destruct (String.eqb_spec b a) as [->|Nb].
          + rewrite dget_dset_eq. exists m', x, y. assert (m2 = m) as -> by congruence. sp; auto; intros q Q; [|intros _]; apply MM, Q.
          + rewrite dget_dset_ne by auto. exists m2, x2, y2. sp; auto. apply incl_refl.
        - intros b m2 x2 y2 Db. cbn. destruct (String.eqb_spec b a) as [->|Nb]; [congruence|]. rewrite dget_dset_ne by auto. eauto.
        - intros b m2 x2 y2 Db. cbn in Db. destruct (String.eqb_spec b a) as [->|Nb].
          + rewrite dget_dset_eq in Db. injection Db as <- <- <-. exists m, x, y. split; [exact D|]. intros q Q. apply MM, Q.
          + rewrite dget_dset_ne in Db by auto. exists m2, x2, y2. split; [exact Db|apply incl_refl]. }
      sp; [|constructor|reflexivity|exact PT|intros _; exact FR].
      * f_equal. unfold abs. cbn [with_hstores hput hp hstores hpend hk w_pend w_stores]. change (fun q : nat => if Nat.eqb q r then t' else hp h q) with (same_else h r t').
        rewrite (abs_stores_set (hp h)).
        -- cbn [abs_store]. assert (PE : abs_pend (same_else h r t') (hpend h) = abs_pend (hp h) (hpend h)).
           { apply map_ext_in. intros [[q b] b'] Q. cbn. unfold same_else. destruct (Nat.eqb_spec q r) as [->|]; [|reflexivity]. exfalso. eapply (i_split h I r); eauto. unfold prefs. apply in_map_iff. exists (r, b, b'). auto. }
           rewrite PE. reflexivity.
        -- apply I.
        -- eapply dget_Some_key; eauto.
        -- intros b m2 x2 y2 Nb Db. apply mmap_agree; [eapply I; eauto|]. intros q Q. unfold same_else. destruct (Nat.eqb_spec q r) as [->|]; [|reflexivity]. destruct (OTHER b m2 x2 y2 Nb Db r Q eq_refl).
      * cbn. apply dset_NoDup, I.
      * intros b m2 x2 y2 Db. cbn in Db |- *. change (fun q : nat => if Nat.eqb q r then t' else hp h q) with (same_else h r t'). destruct (String.eqb_spec b a) as [->|Nb].
        -- rewrite dget_dset_eq in Db. injection Db as <- <- <-. exact G'.
        -- rewrite dget_dset_ne in Db by auto. eapply good_ext; [eapply I; eauto|]. intros q Q. unfold same_else. destruct (Nat.eqb_spec q r) as [->|]; [|reflexivity]. destruct (OTHER b m2 x2 y2 Nb Db r Q eq_refl).
      * intros b m2 x2 y2 b' m3 x3 y3 q Db Db' Q Q'. cbn in Db, Db'. destruct (String.eqb_spec b a) as [->|Nb], (String.eqb_spec b' a) as [->|Nb']; auto.
        -- rewrite dget_dset_eq in Db. injection Db as <- <- <-. rewrite dget_dset_ne in Db' by auto. apply MM in Q. eapply (i_apart h I); eauto.
        -- rewrite dget_dset_eq in Db'. injection Db' as <- <- <-. rewrite dget_dset_ne in Db by auto. apply MM in Q'. eapply (i_apart h I); eauto.
        -- rewrite dget_dset_ne in Db, Db' by auto. eapply (i_apart h I); eauto.
      * apply I.
      * intros q b m2 x2 y2 Q Db. cbn in Db. destruct (String.eqb_spec b a) as [->|Nb].
        -- rewrite dget_dset_eq in Db. injection Db as <- <- <-. rewrite MM. eapply (i_split h I); eauto.
        -- rewrite dget_dset_ne in Db by auto. eapply (i_split h I); eauto.
      * intros q Q. apply SL in Q. apply (i_old h I) in Q as [Q1 Q2]. cbn. split; [exact Q1|]. destruct (Nat.eqb_spec q r); auto.
  - unfold h_st_update, st_update, hid. cbn [s_mem s_memory hput hp]. rewrite Nat.eqb_refl. cbn [negb andb].
    pose proof (abs_put h r t' I N) as A. pose proof (inv_put h r t' I N) as B.
    assert (Z : forall m', let h' := with_hstores (dset a (HDur m' x y) (hstores h)) (hput r t' h) in w_stores (dset a (MkStore m' false x y) (abs_stores (hp h) (hstores h))) (abs h) = abs h' /\ inv h' /\ hk h' = hk h /\ hp h' r = t' /\ (t_id t' = t_id (hp h r) -> frame (eq r) h h')).
    { intros m' h'. assert (DG : forall b m2 x2 y2, dget b (dset a (HDur m' x y) (hstores h)) = Some (HMem m2 x2 y2) -> dget b (hstores h) = Some (HMem m2 x2 y2)).
      { intros b m2 x2 y2 Db. destruct (String.eqb_spec b a) as [->|Nb]; [rewrite dget_dset_eq in Db; discriminate|]. rewrite dget_dset_ne in Db by auto. exact Db. }
      assert (SL : forall q, slot h' q -> slot h q). { intros q [X|(b & m2 & x2 & y2 & Db & Q)]; [left; exact X|]. right. exists b, m2, x2, y2. auto. }
      assert (FR : t_id t' = t_id (hp h r) -> frame (eq r) h h').
      { intros T. destruct (frame_put (eq r) r t' h eq_refl T) as [F1 F2 F3 F4 F5 F6 F7]. constructor; auto.
        - intros b m2 x2 y2 Db. cbn. destruct (String.eqb_spec b a) as [->|Nb]; [congruence|]. rewrite dget_dset_ne by auto. exists m2, x2, y2. sp; auto. apply incl_refl.
        - intros b m2 x2 y2 Db. cbn. destruct (String.eqb_spec b a) as [->|Nb]; [rewrite dget_dset_eq; eauto|]. rewrite dget_dset_ne by auto. eauto.
        - intros b m2 x2 y2 Db. apply DG in Db. exists m2, x2, y2. split; [exact Db|apply incl_refl]. }
      sp; [|constructor|reflexivity|exact PT|exact FR].
      - unfold abs, h'. cbn [with_hstores hput hp hstores hpend hk w_pend w_stores]. change (fun q : nat => if Nat.eqb q r then t' else hp h q) with (same_else h r t').
        rewrite (abs_stores_set (hp h)).
        + cbn [abs_store]. apply (f_equal pend) in A. change (abs_pend (same_else h r t') (hpend h) = abs_pend (hp h) (hpend h)) in A. rewrite A. reflexivity.
        + apply I.
        + eapply dget_Some_key; eauto.
        + intros b m2 x2 y2 Nb Db. apply mmap_agree; [eapply I; eauto|]. intros q Q. unfold same_else. destruct (Nat.eqb_spec q r) as [->|]; [|reflexivity]. destruct N. right. exists b, m2, x2, y2. auto.
      - cbn. apply dset_NoDup, I.
      - intros b m2 x2 y2 Db. apply DG in Db. apply (i_good _ B b m2 x2 y2 Db).
      - intros b m2 x2 y2 b' m3 x3 y3 q Db Db'. apply DG in Db. apply DG in Db'. eapply (i_apart h I); eauto.
      - apply I.
      - intros q b m2 x2 y2 Q Db. apply DG in Db. eapply (i_split h I); eauto.
      - intros q Q. apply SL in Q. apply (i_old _ B q Q). }
    destruct (negb (dmem (t_id t') (ms_index m))).
    + intros [= <- <-]. destruct (Z m) as (Z1 & Z2 & Z3 & Z4 & Z5). sp; auto. f_equal. exact Z1.
    + destruct (ms_update t_id t_next m t') as [m' e']. intros [= <- <-]. destruct (Z m') as (Z1 & Z2 & Z3 & Z4 & Z5). sp; auto. f_equal. exact Z1.
Qed.
