(** Objects and values agree: add_task, add_store, remove_all_tasks, start. *)
From Verif Require Import Prelude PreludeFacts MemStore StoreSpec MemStoreProofs CallArgs Cron Triggers Task TaskProofs Scheduler SchedReach LifeAll Handles HandlesProofs HandlesProofs2 HandlesProofs3 HandlesProofs4.
Open Scope Z_scope.
Local Ltac sp := repeat match goal with |- _ /\ _ => split end.

Lemma nodup_one {A} (l : list A) x : NoDup l -> ~ In x l -> NoDup (l ++ [x]).
Proof. intros N X. apply (Permutation.Permutation_NoDup (l := x :: l)); [apply Permutation.Permutation_cons_append|constructor; auto]. Qed.
(** ** add_task *)
Lemma fresh_not_slot h r : inv h -> t_submitted (hp h r) = false -> ~ slot h r.
Proof. intros I E X. apply (i_old h I) in X as [_ X]. congruence. Qed.
Lemma hput_r h r t : hp (hput r t h) r = t. Proof. cbn. rewrite Nat.eqb_refl. reflexivity. Qed.
Lemma ref_add c e r replace next h h' x : inv h -> (r < hn h)%nat -> h_add c e r replace next h = (h', x) ->
  add_task c e (hp h r) replace next (abs h) = (abs h', x) /\ inv h'.
Proof.
  intros I RN. unfold h_add, add_task. destruct (t_submitted (hp h r)) eqn:SB; [intros [= <- <-]; auto|]. pose proof (fresh_not_slot h r I SB) as N.
  match goal with |- context [if ?b then _ else _] => destruct b eqn:FS end.
  { intros [= <- <-]. split; [f_equal; symmetry; apply abs_put; auto|apply inv_put; auto]. }
  change (stopped (abs h)) with (stopped (hk h)). set (t1 := with_default_aliases (c_self c) (given_next next (hp h r))). assert (S1 : t_submitted t1 = true) by reflexivity.
  pose proof (abs_put h r t1 I N) as A. pose proof (inv_put h r t1 I N) as I1. destruct (stopped (hk h)).
  - intros [= <- <-]. split.
    + f_equal. unfold abs. cbn [with_hpend hput hp hstores hpend hk]. unfold abs in A. cbn [hput hp hstores hpend hk] in A. pose proof (f_equal pend A) as A1. pose proof (f_equal stores A) as A2. cbn in A1, A2. rewrite A2.
      change (pend (w_pend (abs_pend (hp h) (hpend h)) (w_stores (abs_stores (hp h) (hstores h)) (hk h)))) with (abs_pend (hp h) (hpend h)). rewrite <- A1. unfold abs_pend. rewrite map_app. cbn [map fst snd]. rewrite Nat.eqb_refl. reflexivity.
    + assert (PR : prefs (with_hpend (hpend h ++ [(r, replace, starts next)]) (hput r t1 h)) = prefs h ++ [r]). { unfold prefs. cbn. rewrite map_app. reflexivity. }
      destruct I1 as [B1 B2 B3 B4 B5 B6]. constructor; auto.
      * rewrite PR. apply nodup_one; [exact (i_once h I)|]. intros X. apply N. left. exact X.
      * intros q a m y z Q D. rewrite PR in Q. apply in_app_iff in Q as [Q|[<-|[]]]; [eapply B5; eauto|]. intros X. apply N. right. exists a, m, y, z. auto.
      * intros q [Q|Q].
        -- rewrite PR in Q. apply in_app_iff in Q as [Q|[<-|[]]]; [apply B6; left; exact Q|]. split; [exact RN|]. cbn. rewrite Nat.eqb_refl. exact S1.
        -- apply B6. right. exact Q.
  - intros E. destruct (ref_real_add c (e_now e) r replace (starts next) None (hput r t1 h) h' x I1) as (R1 & R2 & _); auto.
    + rewrite hput_r. exact S1.
    + rewrite hput_r, A in R1. auto.
Qed.

(** ** add_store *)
Lemma abs_stores_new f a x l : abs_stores f (dset a x l) = dset a (abs_store f x) (abs_stores f l).
Proof. induction l as [|[k v] l IH]; [reflexivity|]. cbn [dset abs_stores map fst snd]. destruct (String.eqb a k); [reflexivity|]. cbn [map fst snd]. unfold abs_stores in IH. rewrite IH. reflexivity. Qed.
Lemma dmem_abs f l a : dmem a (abs_stores f l) = dmem a l.
Proof. unfold dmem. rewrite dget_abs. destruct (dget a l); reflexivity. Qed.
Lemma abs_wake b h : abs (on_k (wakeup_if b) h) = wakeup_if b (abs h). Proof. destruct b; reflexivity. Qed.
Lemma good_empty f : goodm f ms_empty.
Proof. constructor; [|constructor]. exact (MemStoreProofs.inv_empty pid pnext). Qed.
Lemma ref_add_store a memory h h' e : inv h -> h_add_store a memory h = (h', e) -> add_store a (new_store memory) (abs h) = (abs h', e) /\ inv h'.
Proof.
  intros I. unfold h_add_store, add_store. change (stores (abs h)) with (abs_stores (hp h) (hstores h)). rewrite dmem_abs. change (stopped (abs h)) with (stopped (hk h)). destruct (dmem a (hstores h)) eqn:M; [intros [= <- <-]; auto|].
  intros [= <- <-]. split.
  - f_equal. rewrite abs_wake. f_equal. unfold abs. cbn [on_k with_hstores hp hstores hpend hk]. rewrite abs_stores_new. destruct memory, (stopped (hk h)); reflexivity.
  - do 2 apply inv_on_k. set (x := if stopped (hk h) then _ else _).
    assert (X : forall m y z, x = HMem m y z -> m = ms_empty). { intros m y z. unfold x. destruct memory, (stopped (hk h)); cbn; congruence. }
    apply (inv_sub h); auto; try (apply I); [cbn; apply dset_NoDup, I|apply incl_refl|].
    intros b m y z D. cbn in D. destruct (String.eqb_spec b a) as [->|Nb].
    + rewrite dget_dset_eq in D. injection D as D. apply X in D as ->. split; [apply good_empty|left; reflexivity].
    + rewrite dget_dset_ne in D by auto. split; [eapply (i_good h I); eauto|]. right. exists m, y, z. split; [exact D|apply incl_refl].
Qed.

(** ** remove_all_tasks *)
Lemma dget_map2 {V W} (g : string -> V -> W) (l : dict V) a : dget a (map (fun ax => (fst ax, g (fst ax) (snd ax))) l) = option_map (g a) (dget a l).
Proof. induction l as [|[k v] l IH]; cbn; [reflexivity|]. destruct (String.eqb_spec a k) as [->|]; [reflexivity|exact IH]. Qed.
Lemma filter_refs (P : nat * bool * bool -> bool) l : NoDup (map (fun p => fst (fst p)) l) -> NoDup (map (fun p => fst (fst p)) (filter P l)) /\ incl (map (fun p => fst (fst p)) (filter P l)) (map (fun p => fst (fst p)) l).
Proof.
  induction l as [|p l IH]; cbn; [intros _; split; [constructor|intros x []]|]. intros K. inversion K as [|? ? K1 K2]; subst. destruct (IH K2) as [A B]. destruct (P p); cbn.
  - split; [constructor; auto|]. intros x [->|X]; [left; reflexivity|right; auto].
  - split; [exact A|]. intros x X. right. auto.
Qed.
Lemma filter_abs f (P : task * bool * bool -> bool) (P' : nat * bool * bool -> bool) l : (forall p, P' p = P (f (fst (fst p)), snd (fst p), snd p)) -> filter P (abs_pend f l) = abs_pend f (filter P' l).
Proof. intros H. induction l as [|p l IH]; cbn; [reflexivity|]. rewrite H. destruct (P (f (fst (fst p)), snd (fst p), snd p)); cbn; unfold abs_pend in IH; rewrite IH; reflexivity. Qed.
Lemma ref_remove_all want h : inv h -> remove_all_tasks want (abs h) = abs (h_remove_all want h) /\ inv (h_remove_all want h).
Proof.
  intros I. unfold h_remove_all, remove_all_tasks. change (stopped (abs h)) with (stopped (hk h)). destruct (stopped (hk h)).
  - assert (G : forall l, NoDup (map (fun p => fst (fst p)) l) -> incl (map (fun p => fst (fst p)) l) (prefs h) -> inv (with_hpend l h)).
    { intros l L1 L2. apply (inv_sub h); auto; try apply I. intros a m x y D. split; [eapply (i_good h I); eauto|]. right. exists m, x, y. split; [exact D|apply incl_refl]. }
    assert (G0 : inv (with_hpend [] h)). { apply G; [constructor|intros x []]. }
    destruct want as [w|]; [destruct (String.eqb w "")|].
    + split; [reflexivity|apply inv_on_k, G0].
    + destruct (filter_refs (fun p => negb (task_in (Some w) (hp h (fst (fst p))))) (hpend h) (i_once h I)) as [F1 F2]. split; [|apply inv_on_k, G; auto].
      change (pend (abs h)) with (abs_pend (hp h) (hpend h)). rewrite (filter_abs (hp h) _ (fun p => negb (task_in (Some w) (hp h (fst (fst p)))))) by reflexivity. reflexivity.
    + split; [reflexivity|apply inv_on_k, G0].
  - split.
    + assert (E : map (fun ax => (fst ax, if wanted want (fst ax) then on_mem ms_empty (snd ax) else snd ax)) (abs_stores (hp h) (hstores h)) = abs_stores (hp h) (map (fun ax => (fst ax, if wanted want (fst ax) then h_clear_store (snd ax) else snd ax)) (hstores h))).
      { unfold abs_stores. rewrite !map_map. apply map_ext. intros [a [m x y|m x y]]; cbn [fst snd]; destruct (wanted want a); reflexivity. }
      change (stores (abs h)) with (abs_stores (hp h) (hstores h)). rewrite E. reflexivity.
    + apply inv_on_k. apply (inv_sub h); auto; try apply I; [|apply incl_refl|].
      * cbn. unfold dkeys. rewrite map_map. cbn. apply I.
      * intros a m x y D. cbn in D. rewrite (dget_map2 (fun a v => if wanted want a then h_clear_store v else v)) in D. destruct (dget a (hstores h)) as [[m0 x0 y0|m0 x0 y0]|] eqn:E; cbn in D; destruct (wanted want a); cbn in D; try discriminate; injection D as <- <- <-.
        -- split; [apply good_empty|left; reflexivity].
        -- split; [eapply (i_good h I); eauto|]. right. exists m0, x0, y0. split; [reflexivity|apply incl_refl].
Qed.

(** ** start *)
Lemma real_add_pend c now t rp st md p s : real_add_task c now t rp st md (w_pend p s) = (w_pend p (fst (real_add_task c now t rp st md s)), snd (real_add_task c now t rp st md s)).
Proof.
  unfold real_add_task, ask. cbn [w_pend draws].
  assert (H : forall s1 rn, stores s1 = stores s ->
    (match rn with
     | Err e => (w_pend p s1, Err e)
     | Ok n =>
      let t1 := set_pending false (set_next n t) in
      match t_store t with
      | None => (w_pend p s1, Err AssertionError)
      | Some alias =>
          match dget alias (stores (w_pend p s1)) with
          | None => (w_pend p s1, Err KeyError)
          | Some x =>
              let (x1, r1) := st_add x t1 in
              match r1 with
              | Ok _ =>
                  let s2 := dispatch (task_event TASK_ADDED (t_id t) (Some alias)) (w_stores (dset alias x1 (stores (w_pend p s1))) (w_pend p s1)) in
                  (wakeup_if (st && running s2) s2, Ok tt)
              | Err ConflictIdError =>
                  if rp then
                    let (x2, r2) := st_update x t1 in
                    match r2 with
                    | Ok _ =>
                        let s2 := dispatch (task_event TASK_ADDED (t_id t) (Some alias)) (w_stores (dset alias x2 (stores (w_pend p s1))) (w_pend p s1)) in
                        (wakeup_if (st && running s2) s2, Ok tt)
                    | Err TaskLookupError => (w_pend p s1, Ok tt)
                    | Err e => (w_pend p s1, Err e)
                    end
                  else (w_pend p s1, Err ConflictIdError)
              | Err e => (w_pend p s1, Err e)
              end
          end
      end
     end) = let z := (match rn with
     | Err e => (s1, Err e)
     | Ok n =>
      let t1 := set_pending false (set_next n t) in
      match t_store t with
      | None => (s1, Err AssertionError)
      | Some alias =>
          match dget alias (stores s1) with
          | None => (s1, Err KeyError)
          | Some x =>
              let (x1, r1) := st_add x t1 in
              match r1 with
              | Ok _ =>
                  let s2 := dispatch (task_event TASK_ADDED (t_id t) (Some alias)) (w_stores (dset alias x1 (stores s1)) s1) in
                  (wakeup_if (st && running s2) s2, Ok tt)
              | Err ConflictIdError =>
                  if rp then
                    let (x2, r2) := st_update x t1 in
                    match r2 with
                    | Ok _ =>
                        let s2 := dispatch (task_event TASK_ADDED (t_id t) (Some alias)) (w_stores (dset alias x2 (stores s1)) s1) in
                        (wakeup_if (st && running s2) s2, Ok tt)
                    | Err TaskLookupError => (s1, Ok tt)
                    | Err e => (s1, Err e)
                    end
                  else (s1, Err ConflictIdError)
              | Err e => (s1, Err e)
              end
          end
      end
     end) in (w_pend p (fst z), snd z)).
  { intros s1 rn _. cbv zeta. destruct rn as [n|e]; [|reflexivity]. destruct (t_store t) as [a|]; [|reflexivity]. cbn [w_pend stores]. destruct (dget a (stores s1)) as [x|]; [|reflexivity].
    assert (W : forall x1, (wakeup_if (st && running (dispatch (task_event TASK_ADDED (t_id t) (Some a)) (w_stores (dset a x1 (stores s1)) (w_pend p s1)))) (dispatch (task_event TASK_ADDED (t_id t) (Some a)) (w_stores (dset a x1 (stores s1)) (w_pend p s1))))
       = w_pend p (wakeup_if (st && running (dispatch (task_event TASK_ADDED (t_id t) (Some a)) (w_stores (dset a x1 (stores s1)) s1))) (dispatch (task_event TASK_ADDED (t_id t) (Some a)) (w_stores (dset a x1 (stores s1)) s1)))).
    { intros x1. unfold wakeup_if. change (running (dispatch (task_event TASK_ADDED (t_id t) (Some a)) (w_stores (dset a x1 (stores s1)) (w_pend p s1)))) with (running s1). change (running (dispatch (task_event TASK_ADDED (t_id t) (Some a)) (w_stores (dset a x1 (stores s1)) s1))) with (running s1). destruct (st && running s1); reflexivity. }
    destruct (st_add x _) as [x1 [u|e1]]; [cbn [fst snd]; rewrite <- W; reflexivity|]. destruct e1; try reflexivity. destruct rp; [|reflexivity]. destruct (st_update x _) as [x2 [u|e2]]; [cbn [fst snd]; rewrite <- W; reflexivity|]. destruct e2; reflexivity. }
  destruct (t_next t) as [z|].
  - exact (H s (Ok (Some (match md with Some m => Z.max m z | None => z end))) eq_refl).
  - destruct st.
    + destruct (answers _ _ _ _ _ _) as [[z|]|x].
      * exact (H (w_draws (Datatypes.S (draws s)) s) (Ok (Some (match md with Some m => Z.max m z | None => z end))) eq_refl).
      * exact (H (w_draws (Datatypes.S (draws s)) s) (Ok None) eq_refl).
      * reflexivity.
    + exact (H s (Ok None) eq_refl).
Qed.

Lemma h_real_add_pend c now r rp st md p h : h_real_add c now r rp st md (with_hpend p h) = (with_hpend p (fst (h_real_add c now r rp st md h)), snd (h_real_add c now r rp st md h)).
Proof.
  unfold h_real_add, h_ask, h_st_add, h_st_update, hid, hnext. cbn [with_hpend hput on_k hp hn hstores hpend hk]. rewrite Nat.eqb_refl.
  Ltac brk := repeat match goal with |- context [match ?x with _ => _ end] => lazymatch x with context [match _ with _ => _ end] => fail | _ => destruct x end; cbn [with_hpend hput on_k hp hn hstores hpend hk with_hstores fst snd]; try reflexivity end.
  destruct (t_next (hp h r)) as [z|]; [|destruct st; [destruct (answers _ _ _ _ _ _) as [[z|]|x]|]]; cbn [with_hpend hput on_k hp hn hstores hpend hk fst snd]; try reflexivity;
  (destruct (t_store (hp h r)) as [a|]; [|reflexivity]); (destruct (dget a (hstores h)) as [[m x y|m x y]|]; [| |reflexivity]).
  all: try (destruct (ms_add _ _ m _) as [m1 [u|e1]]; [reflexivity|destruct e1; try reflexivity]; (destruct rp; [|reflexivity])).
  all: try (destruct (ms_update _ _ m _) as [m2 [u|e2]]; [reflexivity|destruct e2; reflexivity]).
  all: try (destruct (negb _); [reflexivity|]; destruct (ms_update _ _ m _) as [m2 [u|e2]]; [reflexivity|destruct e2; reflexivity]).
Qed.
Lemma abs_pend_w p h : abs (with_hpend p h) = w_pend (abs_pend (hp h) p) (abs h). Proof. reflexivity. Qed.
Lemma ref_add_pending c now md : forall l h h', inv (with_hpend l h) -> h_add_pending c now md l h = (h', Ok tt) ->
  (forall p, add_pending c now md (abs_pend (hp h) l) (w_pend p (abs h)) = (w_pend p (abs h'), Ok tt)) /\ inv (with_hpend [] h') /\ hpend h' = hpend h.
Proof.
  induction l as [|[[r rp] st] l IH]; intros h h' I; cbn [h_add_pending].
  - intros [= <-]. auto.
  - assert (I1 : inv (with_hpend l h)).
    { apply (inv_sub (with_hpend ((r, rp, st) :: l) h)); auto; try apply I.
      - pose proof (i_once _ I) as K. inversion K; auto.
      - intros x X. right. exact X.
      - intros a m x y D. split; [eapply (i_good _ I); eauto|]. right. exists m, x, y. split; [exact D|apply incl_refl]. }
    assert (N : ~ slot (with_hpend l h) r).
    { intros [X|(a & m & x & y & D & X)]; [pose proof (i_once _ I) as K; inversion K; contradiction|]. eapply (i_split _ I r); eauto. left. reflexivity. }
    destruct (i_old _ I r) as [RN SB]; [left; left; reflexivity|].
    destruct (h_real_add c now r rp st md h) as [h1 e1] eqn:E. pose proof (h_real_add_pend c now r rp st md l h) as EP. rewrite E in EP. cbn [fst snd] in EP.
    destruct (ref_real_add c now r rp st md (with_hpend l h) _ _ I1 N RN SB EP) as (R1 & R2 & [R3 _] & R4 & R5 & _). intros H.
    pose proof (h_real_add_pend c now r rp st md (hpend h) h) as PP. assert (EE : with_hpend (hpend h) h = h) by (destruct h; reflexivity). rewrite EE, E in PP. cbn [fst snd] in PP. injection PP as PP.
    assert (HPE : hpend h1 = hpend h). { rewrite PP. reflexivity. }
    assert (AP : abs_pend (hp h) l = abs_pend (hp h1) l).
    { apply map_ext_in. intros [[q b] b'] Q. cbn. f_equal. f_equal. symmetry. apply (R5 q). intros ->. apply N. left. unfold prefs. apply in_map_iff. exists (r, b, b'). auto. }
    assert (STEP : forall p, real_add_task c now (hp h r) rp st md (w_pend p (abs h)) = (w_pend p (abs h1), e1)).
    { intros p. change (w_pend p (abs h)) with (w_pend p (abs (with_hpend l h))). rewrite real_add_pend. change (hp h r) with (hp (with_hpend l h) r). rewrite R1. reflexivity. }
    assert (GO : h_add_pending c now md l h1 = (h', Ok tt) -> (forall p, add_pending c now md (abs_pend (hp h) l) (w_pend p (abs h1)) = (w_pend p (abs h'), Ok tt)) /\ inv (with_hpend [] h') /\ hpend h' = hpend h).
    { intros H2. rewrite AP, <- HPE. apply IH; auto. }
    cbn [abs_pend map add_pending fst snd]. destruct e1 as [u|e1]; [|destruct e1; try discriminate H]; destruct (GO H) as (G1 & G2 & G3); sp; auto; intros p; rewrite STEP; apply G1.
Qed.
Lemma inv_started h : inv h -> inv (with_hstores (map (fun ax => (fst ax, h_st_start (snd ax))) (hstores h)) h).
Proof.
  intros I. apply (inv_sub h); auto; try apply I; [cbn; unfold dkeys; rewrite map_map; apply I|apply incl_refl|].
  intros a m x y D. cbn in D. rewrite (dget_map2 (fun _ v => h_st_start v)) in D. destruct (dget a (hstores h)) as [[m0 x0 y0|m0 x0 y0]|] eqn:E; cbn in D; try discriminate. injection D as <- <- <-.
  split; [eapply (i_good h I); eauto|]. right. exists m0, x0, y0. split; [reflexivity|apply incl_refl].
Qed.
Definition FE (k : sched) : sched := let k := if dmem "default" (execs k) then k else fst (add_executor "default" k) in w_execs (map_dict x_start (execs k)) k.
Lemma abs_execs h : abs (on_k FE h) = FE (abs h).
Proof.
  unfold FE. cbv zeta. change (execs (abs h)) with (execs (hk h)). unfold abs at 1. cbn [on_k hp hstores hpend hk]. unfold add_executor. change (execs (abs h)) with (execs (hk h)). change (stopped (abs h)) with (stopped (hk h)).
  destruct (dmem "default" (execs (hk h))) eqn:E; [rewrite ?E; reflexivity|]. rewrite ?E. reflexivity.
Qed.
Lemma abs_started h : abs (with_hstores (map (fun ax => (fst ax, h_st_start (snd ax))) (hstores h)) h) = w_stores (map_dict st_start (stores (abs h))) (abs h).
Proof.
  assert (E : abs_stores (hp h) (map (fun ax => (fst ax, h_st_start (snd ax))) (hstores h)) = map_dict st_start (abs_stores (hp h) (hstores h))).
  { unfold abs_stores, map_dict. rewrite !map_map. apply map_ext. intros [a [m x y|m x y]]; reflexivity. }
  unfold abs at 1. cbn [with_hstores hp hstores hpend hk]. rewrite E. reflexivity.
Qed.
Lemma ref_start c e paused h h' b : inv h -> h_start c e paused h = (h', Ok b) -> start c e paused (abs h) = (abs h', Ok b) /\ inv h'.
Proof.
  intros I. unfold h_start, start. cbv zeta. change (refc (w_refc (refc (abs h) + 1) (abs h))) with (refc (hk h) + 1). change (refc (abs h)) with (refc (hk h)).
  change (refc (hk (on_k (fun k : sched => w_refc (refc k + 1) k) h))) with (refc (hk h) + 1).
  destruct (refc (hk h) + 1 >? 1); [intros [= <- <-]; split; [reflexivity|apply inv_on_k, I]|].
  change (stopped (hk (on_k (fun k : sched => w_refc (refc k + 1) k) h))) with (stopped (hk h)). change (stopped (w_refc (refc (hk h) + 1) (abs h))) with (stopped (hk h)). destruct (negb (stopped (hk h))); [discriminate|].
  pose proof (inv_on_k (fun k : sched => w_refc (refc k + 1) k) h I) as I0. change (w_refc (refc (hk h) + 1) (abs h)) with (abs (on_k (fun k : sched => w_refc (refc k + 1) k) h)). set (h0 := on_k (fun k : sched => w_refc (refc k + 1) k) h) in *. clearbody h0.
  pose proof (inv_on_k FE h0 I0) as I1. pose proof (abs_execs h0) as A1. unfold FE in A1 at 2. cbv zeta in A1. rewrite <- A1.
  match goal with |- context [on_k ?F h0] => change F with FE end. set (h1 := on_k FE h0) in *. clearbody h1. clear A1.
  assert (X : exists h2, h2 = (if dmem "default" (hstores h1) then h1 else fst (h_add_store "default" true h1)) /\ inv h2 /\ abs h2 = (if dmem "default" (stores (abs h1)) then abs h1 else fst (add_store "default" (new_store true) (abs h1)))).
  { eexists. split; [reflexivity|]. change (stores (abs h1)) with (abs_stores (hp h1) (hstores h1)). rewrite dmem_abs. destruct (dmem "default" (hstores h1)); [auto|]. destruct (h_add_store "default" true h1) as [h2 e2] eqn:E. destruct (ref_add_store _ _ _ _ _ I1 E) as [B1 B2]. rewrite B1. auto. }
  destruct X as (h2 & X1 & I2 & X2). rewrite <- X1, <- X2. clear X1 X2.
  pose proof (inv_started h2 I2) as I3. rewrite <- (abs_started h2). set (h3 := with_hstores (map (fun ax => (fst ax, h_st_start (snd ax))) (hstores h2)) h2) in *. clearbody h3.
  destruct (h_add_pending c (e_now e) _ (hpend h3) h3) as [h4 e4] eqn:E. destruct e4 as [[]|x4]; [|discriminate].
  assert (I3' : inv (with_hpend (hpend h3) h3)) by (destruct h3; exact I3). destruct (ref_add_pending _ _ _ _ _ _ I3' E) as (B1 & B2 & B3).
  specialize (B1 (pend (abs h3))). assert (W : w_pend (pend (abs h3)) (abs h3) = abs h3) by reflexivity. rewrite W in B1. change (abs_pend (hp h3) (hpend h3)) with (pend (abs h3)) in B1. rewrite B1.
  intros [= <- <-]. split; [|apply inv_on_k, B2]. f_equal. destruct paused; reflexivity.
Qed.
