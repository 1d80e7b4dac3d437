(** Objects and values agree: adding, starting, processing. *)
From Verif Require Import Prelude PreludeFacts MemStore StoreSpec MemStoreProofs CallArgs Cron Triggers Task TaskProofs Scheduler SchedReach LifeAll Handles HandlesProofs HandlesProofs2 HandlesProofs3.
Open Scope Z_scope.
Local Ltac sp := repeat match goal with |- _ /\ _ => split end.

(** ** a new object takes its place in a store *)
Definition placed (h : hstate) (r : nat) (v : task) (x x' : hstore) : Prop :=
  match x, x' with
  | HMem m _ _, HMem m' _ _ => goodm (same_else h r v) m' /\ (forall q, In q (ms_all m') -> q = r \/ In q (ms_all m))
  | HDur _ _ _, HDur _ _ _ => True
  | _, _ => False
  end.
Lemma place h r v a x x' : inv h -> ~ slot h r -> (r < hn h)%nat -> t_submitted v = true -> dget a (hstores h) = Some x -> placed h r v x x' ->
  let h' := hput r v (with_hstores (dset a x' (hstores h)) h) in
  abs h' = w_stores (dset a (abs_store (same_else h r v) x') (stores (abs h))) (abs h) /\ inv h' /\ (forall q, slot h' q -> q = r \/ slot h q).
Proof.
  intros I N RN SB D P h'. pose proof (abs_put h r v I N) as AP. pose proof (inv_put h r v I N) as IP.
  assert (DG : forall b m y z, dget b (hstores h') = Some (HMem m y z) -> b <> a /\ dget b (hstores h) = Some (HMem m y z) \/ b = a /\ goodm (same_else h r v) m /\ exists m0 y0 z0, dget a (hstores h) = Some (HMem m0 y0 z0) /\ (forall q, In q (ms_all m) -> q = r \/ In q (ms_all m0))).
  { intros b m y z X. cbn in X. destruct (String.eqb_spec b a) as [->|Nb].
    - rewrite dget_dset_eq in X. injection X as ->. right. destruct x as [m0 y0 z0|]; cbn in P; [|contradiction]. destruct P as [P1 P2]. sp; auto. exists m0, y0, z0. auto.
    - rewrite dget_dset_ne in X by auto. left. auto. }
  assert (SL : forall q, slot h' q -> q = r \/ slot h q).
  { intros q [X|(b & m & y & z & X & Q)]; [right; left; exact X|]. destruct (DG _ _ _ _ X) as [[_ Y]|(-> & _ & m0 & y0 & z0 & Y & Z)]; [right; right; exists b, m, y, z; auto|].
    destruct (Z q Q) as [->|Q2]; [left; reflexivity|]. right. right. exists a, m0, y0, z0. auto. }
  sp; [|constructor|exact SL].
  - apply (f_equal pend) in AP. change (abs_pend (same_else h r v) (hpend h) = abs_pend (hp h) (hpend h)) in AP. unfold abs, h'. cbn [with_hstores hput hp hstores hpend hk].
    change (fun q : nat => if Nat.eqb q r then v else hp h q) with (same_else h r v). rewrite AP. rewrite (abs_stores_set (hp h)); [reflexivity|apply I|eapply dget_Some_key; eauto|].
    intros b m y z Nb Db. apply mmap_agree; [eapply (i_good h I); eauto|]. intros q Q. apply same_o. intros ->. apply N. right. exists b, m, y, z. auto.
  - cbn. apply dset_NoDup, I.
  - intros b m y z X. destruct (DG _ _ _ _ X) as [[_ Y]|(-> & Y & _)]; [|exact Y]. apply (i_good _ IP b m y z Y).
  - intros b m y z b' m' y' z' q X X' Q Q'. destruct (DG _ _ _ _ X) as [[Nb Y]|(-> & _ & m0 & y0 & z0 & Y & Z)], (DG _ _ _ _ X') as [[Nb' Y']|(-> & _ & m1 & y1 & z1 & Y' & Z')]; auto.
    + eapply (i_apart h I); eauto.
    + destruct (Z' q Q') as [->|Q2]; [exfalso; apply N; right; exists b, m, y, z; auto|]. eapply (i_apart h I b m y z a m1 y1 z1 q); auto.
    + destruct (Z q Q) as [->|Q2]; [exfalso; apply N; right; exists b', m', y', z'; auto|]. eapply (i_apart h I a m0 y0 z0 b' m' y' z' q); auto.
  - apply I.
  - intros q b m y z Q X Y. destruct (DG _ _ _ _ X) as [[_ Z]|(-> & _ & m0 & y0 & z0 & Z & W)]; [eapply (i_split h I); eauto|]. destruct (W q Y) as [->|Y2]; [apply N; left; exact Q|]. eapply (i_split h I); eauto.
  - intros q Q. cbn. destruct (Nat.eqb_spec q r) as [->|Nq]; [auto|]. apply SL in Q as [->|Q]; [contradiction|]. apply (i_old h I q Q).
Qed.
Lemma put_twice h r u v a x' : heq (hput r v (with_hstores (dset a x' (hstores h)) h)) (hput r v (with_hstores (dset a x' (hstores (hput r u h))) (hput r u h))).
Proof. constructor; try reflexivity. intros q. cbn. destruct (Nat.eqb q r); reflexivity. Qed.

Definition same_frame (h h' : hstate) : Prop := hpend h' = hpend h /\ st (hk h') = st (hk h).
Lemma abs_added ev b h : abs (on_k (fun k => let k1 := dispatch ev k in wakeup_if (b && running k1) k1) h) = wakeup_if (b && running (dispatch ev (abs h))) (dispatch ev (abs h)).
Proof. unfold wakeup_if. change (running (dispatch ev (abs h))) with (running (dispatch ev (hk h))). unfold abs. cbn [on_k hp hstores hpend hk]. destruct (b && running (dispatch ev (hk h))); reflexivity. Qed.
Lemma ref_real_add c now r replace start_task md h h' e : inv h -> ~ slot h r -> (r < hn h)%nat -> t_submitted (hp h r) = true -> h_real_add c now r replace start_task md h = (h', e) ->
  real_add_task c now (hp h r) replace start_task md (abs h) = (abs h', e) /\ inv h' /\ same_frame h h' /\ hn h' = hn h /\ (forall q, q <> r -> hp h' q = hp h q) /\ (forall q, slot h' q -> q = r \/ slot h q).
Proof.
  intros I N RN SB. unfold h_real_add, real_add_task.
  set (t := hp h r) in *.
  (* the first run time *)
  assert (STEP : forall h1 rn s1 rn', inv h1 -> abs h1 = s1 -> rn' = rn -> hp h1 = hp h -> hn h1 = hn h -> hstores h1 = hstores h -> hpend h1 = hpend h -> st (hk h1) = st (hk h) ->
     match rn with
     | Err e0 => (h1, Err e0)
     | Ok n =>
       let h2 := hput r (set_next n t) h1 in
       match t_store t with
       | None => (h2, Err AssertionError)
       | Some alias => match dget alias (hstores h2) with
         | None => (h2, Err KeyError)
         | Some x =>
           let added x' := let h3 := hput r (set_pending false (hp h2 r)) (with_hstores (dset alias x' (hstores h2)) h2) in
                (on_k (fun k => let k1 := dispatch (task_event TASK_ADDED (t_id t) (Some alias)) k in wakeup_if (start_task && running k1) k1) h3, Ok tt) in
           match h_st_add h2 x r with
           | (x1, Ok _) => added x1
           | (_, Err ConflictIdError) => if replace then match h_st_update h2 x r (set_pending false (hp h2 r)) with (x2, Ok _) => added x2 | (_, Err TaskLookupError) => (h2, Ok tt) | (_, Err e0) => (h2, Err e0) end else (h2, Err ConflictIdError)
           | (_, Err e0) => (h2, Err e0)
           end
         end
       end
     end = (h', e) ->
     match rn' with
     | Err e0 => (s1, Err e0)
     | Ok n =>
      let t1 := set_pending false (set_next n t) in
      match t_store t with
      | None => (s1, Err AssertionError)
      | Some alias =>
          match dget alias (stores s1) with
          | None => (s1, Err KeyError)
          | Some x =>
              let (x1, r1) := st_add x t1 in
              match r1 with
              | Ok _ =>
                  let s2 := dispatch (task_event TASK_ADDED (t_id t) (Some alias)) (w_stores (dset alias x1 (stores s1)) s1) in
                  (wakeup_if (start_task && running s2) s2, Ok tt)
              | Err ConflictIdError =>
                  if replace then
                    let (x2, r2) := st_update x t1 in
                    match r2 with
                    | Ok _ =>
                        let s2 := dispatch (task_event TASK_ADDED (t_id t) (Some alias)) (w_stores (dset alias x2 (stores s1)) s1) in
                        (wakeup_if (start_task && running s2) s2, Ok tt)
                    | Err TaskLookupError => (s1, Ok tt)
                    | Err e => (s1, Err e)
                    end
                  else (s1, Err ConflictIdError)
              | Err e => (s1, Err e)
              end
          end
      end
     end = (abs h', e) /\ inv h' /\ same_frame h h' /\ hn h' = hn h /\ (forall q, q <> r -> hp h' q = hp h q) /\ (forall q, slot h' q -> q = r \/ slot h q)).
  { intros h1 rn s1 rn' I1 <- -> HP HN HS HPE HST. destruct rn as [n|e0].
    2:{ intros [= <- <-]. sp; auto; [split; auto|intros q _; rewrite HP; reflexivity|]. intros q Q. right. unfold slot, prefs in *. rewrite HS, HPE in Q. exact Q. }
    assert (N1 : ~ slot h1 r). { unfold slot, prefs in *. rewrite HS, HPE. exact N. }
    assert (RN1 : (r < hn h1)%nat) by (rewrite HN; exact RN).
    set (u := set_next n t). set (v := set_pending false u).
    (* nothing but the object changes *)
    assert (STOP : forall e0, (hput r u h1, e0) = (h', e) -> (abs h1, e0) = (abs h', e) /\ inv h' /\ same_frame h h' /\ hn h' = hn h /\ (forall q, q <> r -> hp h' q = hp h q) /\ (forall q, slot h' q -> q = r \/ slot h q)).
    { intros e0 [= <- <-]. sp; auto.
      - f_equal. symmetry. apply abs_put; auto.
      - apply inv_put; auto.
      - split; cbn; auto.
      - intros q Q. cbn. rewrite HP. destruct (Nat.eqb_spec q r); congruence.
      - intros q Q. right. unfold slot, prefs in *. cbn in Q. rewrite HS, HPE in Q. exact Q. }
    cbv zeta. destruct (t_store t) as [alias|]; [|apply STOP].
    cbn [hput hstores abs w_pend w_stores stores]. rewrite dget_abs. destruct (dget alias (hstores h1)) as [x|] eqn:D; cbn [option_map]; [|apply STOP].
    assert (PUT : forall x', placed h1 r v x x' ->
       (on_k (fun k => let k1 := dispatch (task_event TASK_ADDED (t_id t) (Some alias)) k in wakeup_if (start_task && running k1) k1)
          (hput r (set_pending false (hp (hput r u h1) r)) (with_hstores (dset alias x' (hstores (hput r u h1))) (hput r u h1))), Ok tt) = (h', e) ->
       (let s2 := dispatch (task_event TASK_ADDED (t_id t) (Some alias)) (w_stores (dset alias (abs_store (same_else h1 r v) x') (abs_stores (hp h1) (hstores h1))) (abs h1)) in (wakeup_if (start_task && running s2) s2, Ok tt)) = (abs h', e)
         /\ inv h' /\ same_frame h h' /\ hn h' = hn h /\ (forall q, q <> r -> hp h' q = hp h q) /\ (forall q, slot h' q -> q = r \/ slot h q)).
    { intros x' P E. destruct (place h1 r v alias x x' I1 N1 RN1) as (P1 & P2 & P3); auto.
      pose proof (put_twice h1 r u v alias x') as HE. assert (PU : set_pending false (hp (hput r u h1) r) = v). { cbn. rewrite Nat.eqb_refl. reflexivity. }
      rewrite PU in E. set (h4 := hput r v (with_hstores (dset alias x' (hstores (hput r u h1))) (hput r u h1))) in *. injection E as <- <-. sp.
      - rewrite abs_added. rewrite (abs_heq _ _ HE), P1. reflexivity.
      - apply inv_on_k. eapply inv_heq; eauto.
      - split; cbn; [exact HPE|]. unfold wakeup_if. match goal with |- context [if ?b then _ else _] => destruct b end; cbn; exact HST.
      - cbn. exact HN.
      - intros q Q. cbn. rewrite HP. destruct (Nat.eqb_spec q r); congruence.
      - intros q Q. assert (Q' : slot (hput r v (with_hstores (dset alias x' (hstores h1)) h1)) q) by exact Q. apply P3 in Q' as [->|Q']; [left; reflexivity|]. right. unfold slot, prefs in *. rewrite HS, HPE in Q'. exact Q'. }
    assert (F1 : forall q, In q (match x with HMem m _ _ => ms_all m | HDur _ _ _ => [] end) -> q <> r).
    { intros q Q ->. destruct x as [m y z|]; [|destruct Q]. apply N1. right. exists alias, m, y, z. auto. }
    destruct x as [m y z|m y z].
    - assert (Gm : goodm (hp h1) m) by (eapply (i_good h1 I1); eauto).
      pose proof (obj_add (hp h1) (same_else h1 r u) (same_else h1 r v) m r Gm) as OA. pose proof (obj_update (hp h1) (same_else h1 r u) (same_else h1 r v) m r Gm) as OU.
      rewrite !same_r in OA, OU.
      assert (C1 : forall q, In q (ms_all m) -> q <> r -> same_else h1 r v q = hp h1 q) by (intros; apply same_o; auto).
      assert (C2 : forall q, In q (ms_all m) -> t_id (same_else h1 r u q) = t_id (hp h1 q)) by (intros; rewrite same_o; auto).
      assert (C3 : In r (ms_all m) -> t_id (hp h1 r) = t_id v) by (intros Q; destruct (F1 r Q eq_refl)).
      specialize (OA C1 C2 eq_refl eq_refl C3). specialize (OU C1 C2 eq_refl eq_refl C3).
      assert (H1 : h_st_add (hput r u h1) (HMem m y z) r = let (m', e1) := ms_add (fun q => t_id (same_else h1 r u q)) (fun q => t_next (same_else h1 r u q)) m r in (HMem m' y z, e1)) by reflexivity.
      assert (H2 : forall w, h_st_update (hput r u h1) (HMem m y z) r w = let (m', e1) := ms_update (fun q => t_id (same_else h1 r u q)) (fun q => t_next (same_else h1 r u q)) m r in (HMem m' y z, e1)) by reflexivity.
      fold (hput r u h1). rewrite H1, H2. unfold st_add, st_update, on_mem. cbn [abs_store s_mem s_memory s_starts s_stops negb andb]. fold v. change (t_id v) with (t_id t) in OA.
      destruct OU as (mu & U1 & U2 & U3 & U4). destruct (ms_lookup m (t_id t)) as [q0|].
      + destruct OA as [A1 A2]. rewrite A1, A2. destruct replace; [|apply STOP]. rewrite U1, U3.
        apply (PUT (HMem mu y z)). split; [exact U2|]. intros q Q. apply U4 in Q. tauto.
      + destruct OA as (ma & A1 & A2 & A3 & A4). rewrite A1, A3. apply (PUT (HMem ma y z)). split; [exact A2|]. intros q Q. apply A4 in Q. tauto.
    - assert (H0 : set_pending false (hp (hput r u h1) r) = v). { cbn. rewrite Nat.eqb_refl. reflexivity. }
      fold (hput r u h1). unfold h_st_add, h_st_update. rewrite H0. assert (HI : hid (hput r u h1) r = t_id v). { unfold hid. cbn. rewrite Nat.eqb_refl. reflexivity. } rewrite HI.
      unfold st_add, st_update, on_mem. cbn [abs_store s_mem s_memory s_starts s_stops negb andb]. fold v. rewrite <- H0 in *.
      rewrite H0. destruct (ms_add t_id t_next m v) as [ma [[]|ea]].
      + intros E. rewrite <- H0 in E. apply (PUT (HDur ma y z) Logic.I E).
      + destruct ea; try apply STOP. destruct replace; [|apply STOP]. destruct (negb (dmem (t_id v) (ms_index m))); [apply STOP|].
        destruct (ms_update t_id t_next m v) as [mu [[]|eu]]; [|destruct eu; apply STOP]. intros E. rewrite <- H0 in E. apply (PUT (HDur mu y z) Logic.I E). }
  pose (lift z := Some (match md with Some m => Z.max m z | None => z end) : option Z).
  destruct (t_next t) as [z|].
  - intros E. exact (STEP h (Ok (lift z)) (abs h) (Ok (lift z)) I eq_refl eq_refl eq_refl eq_refl eq_refl eq_refl eq_refl E).
  - destruct start_task.
    + unfold h_ask, ask. change (draws (abs h)) with (draws (hk h)). pose proof (inv_on_k (w_draws (S (draws (hk h)))) h I) as I1. destruct (answers _ _ _ _ _ _) as [[z|]|x]; intros E.
      * exact (STEP _ (Ok (lift z)) _ (Ok (lift z)) I1 eq_refl eq_refl eq_refl eq_refl eq_refl eq_refl eq_refl E).
      * exact (STEP _ (Ok None) _ (Ok None) I1 eq_refl eq_refl eq_refl eq_refl eq_refl eq_refl eq_refl E).
      * exact (STEP _ (Err x) _ (Err x) I1 eq_refl eq_refl eq_refl eq_refl eq_refl eq_refl eq_refl E).
    + intros E. exact (STEP h (Ok None) (abs h) (Ok None) I eq_refl eq_refl eq_refl eq_refl eq_refl eq_refl eq_refl E).
Qed.
