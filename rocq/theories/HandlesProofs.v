(** Objects and values agree: every call on objects does to the values what Scheduler.v says. *)
From Verif Require Import Prelude PreludeFacts MemStore StoreSpec MemStoreProofs CallArgs Cron Triggers Task TaskProofs Scheduler SchedReach LifeAll Handles.
Open Scope Z_scope.
Local Ltac sp := repeat match goal with |- _ /\ _ => split end.

(** ** the values behind the objects *)
Definition mmap {A B} (g : A -> B) (m : memstore A) : memstore B :=
  MkMem (map (fun p => (g (fst p), snd p)) (ms_tasks m)) (map (fun kv => (fst kv, (g (fst (snd kv)), snd (snd kv)))) (ms_index m)).
Definition abs_store (f : nat -> task) (x : hstore) : store :=
  match x with HMem m a b => MkStore (mmap f m) true a b | HDur m a b => MkStore m false a b end.
Definition abs_stores (f : nat -> task) (l : dict hstore) : dict store := map (fun kv => (fst kv, abs_store f (snd kv))) l.
Definition abs_pend (f : nat -> task) (l : list (nat * bool * bool)) : list (task * bool * bool) := map (fun p => (f (fst (fst p)), snd (fst p), snd p)) l.
(** the scheduler of Scheduler.v: every object replaced by its present attributes *)
Definition abs (h : hstate) : sched := w_pend (abs_pend (hp h) (hpend h)) (w_stores (abs_stores (hp h) (hstores h)) (hk h)).

(** ** the store's functions only look at ids and times *)
Lemma in_skipn {A} n (l : list A) x : In x (skipn n l) -> In x l.
Proof. revert l. induction n as [|n IH]; intros [|y l]; cbn; auto. Qed.
Lemma in_firstn {A} n (l : list A) x : In x (firstn n l) -> In x l.
Proof. revert l. induction n as [|n IH]; intros [|y l]; cbn; auto; [tauto|]. intros [E|E]; auto. Qed.
Section Map.
  Context {A B : Type} (g : A -> B) (ia : A -> string) (na : A -> option Z) (ib : B -> string) (nb : B -> option Z).
  Notation mp := (map (fun p : A * option Z => (g (fst p), snd p))).
  Lemma map_insert i x l : mp (insert_at i x l) = insert_at i (g (fst x), snd x) (mp l).
  Proof. unfold insert_at. rewrite map_app, firstn_map, skipn_map. reflexivity. Qed.
  Lemma gti_map l ts id : (forall x, In x l -> ib (g (fst x)) = ia (fst x)) -> forall fuel lo hi, gti_loop ib fuel (mp l) ts id lo hi = gti_loop ia fuel l ts id lo hi.
  Proof.
    intros H. induction fuel as [|n IH]; intros lo hi; cbn [gti_loop]; [reflexivity|]. destruct (Nat.ltb lo hi); [|reflexivity].
    rewrite nth_error_map. destruct (nth_error l ((lo + hi) / 2)) as [[x y]|] eqn:E; cbn [option_map]; [|reflexivity].
    apply nth_error_In in E. apply H in E. cbn [fst snd] in *. rewrite E. rewrite !IH. reflexivity.
  Qed.
  Lemma index_map l ts id : (forall x, In x l -> ib (g (fst x)) = ia (fst x)) -> get_task_index ib (mp l) ts id = get_task_index ia l ts id.
  Proof. intros H. unfold get_task_index. rewrite map_length, gti_map; auto. Qed.
  Lemma dget_map id (d : dict (A * option Z)) : dget id (map (fun kv => (fst kv, (g (fst (snd kv)), snd (snd kv)))) d) = option_map (fun v => (g (fst v), snd v)) (dget id d).
  Proof. induction d as [|[k v] d IH]; cbn; [reflexivity|]. destruct (String.eqb id k); [reflexivity|exact IH]. Qed.
  Lemma dset_map id v (d : dict (A * option Z)) :
    map (fun kv => (fst kv, (g (fst (snd kv)), snd (snd kv)))) (dset id v d) = dset id (g (fst v), snd v) (map (fun kv => (fst kv, (g (fst (snd kv)), snd (snd kv)))) d).
  Proof. induction d as [|[k w] d IH]; cbn; [reflexivity|]. destruct (String.eqb id k); cbn; [reflexivity|]. rewrite IH. reflexivity. Qed.
  Lemma ddel_map id (d : dict (A * option Z)) :
    map (fun kv => (fst kv, (g (fst (snd kv)), snd (snd kv)))) (ddel id d) = ddel id (map (fun kv => (fst kv, (g (fst (snd kv)), snd (snd kv)))) d).
  Proof. unfold ddel. induction d as [|[k w] d IH]; cbn; [reflexivity|]. destruct (String.eqb id k); cbn; rewrite ?IH; reflexivity. Qed.
  Lemma lookup_map m id : ms_lookup (mmap g m) id = option_map g (ms_lookup m id).
  Proof. unfold ms_lookup. cbn [mmap ms_index]. rewrite dget_map. destruct (dget id (ms_index m)) as [[a z]|]; reflexivity. Qed.
  Lemma all_map m : ms_all (mmap g m) = map g (ms_all m).
  Proof. unfold ms_all. cbn [mmap ms_tasks]. rewrite !map_map. reflexivity. Qed.
  Lemma due_map m now : ms_due (mmap g m) now = map g (ms_due m now).
  Proof.
    unfold ms_due. cbn [mmap ms_tasks]. induction (ms_tasks m) as [|[x [z|]] l IH]; cbn; try reflexivity. destruct (now <? z); cbn; [reflexivity|]. rewrite IH. reflexivity.
  Qed.
  (** what is in a store, by either of its two tables *)
  Definition inside (m : memstore A) (x : A) : Prop := In x (map fst (ms_tasks m)) \/ In x (map (fun kv => fst (snd kv)) (ms_index m)).
  Lemma inside_task m x z : In (x, z) (ms_tasks m) -> inside m x. Proof. intros H. left. apply in_map_iff. exists (x, z). auto. Qed.
  Lemma inside_index m i x z : dget i (ms_index m) = Some (x, z) -> inside m x. Proof. intros H. right. apply in_map_iff. exists (i, (x, z)). split; [reflexivity|]. apply dget_In. exact H. Qed.
  Lemma dmem_map id (d : dict (A * option Z)) : dmem id (map (fun kv => (fst kv, (g (fst (snd kv)), snd (snd kv)))) d) = dmem id d.
  Proof. unfold dmem. rewrite dget_map. destruct (dget id d); reflexivity. Qed.
  Lemma set_map i x (l : list (A * option Z)) : set_at i (g (fst x), snd x) (mp l) = match set_at i x l with Ok l' => Ok (mp l') | Err e => Err e end.
  Proof. unfold set_at. rewrite map_length. destruct (Nat.ltb i (List.length l)); [|reflexivity]. rewrite map_app, firstn_map, skipn_map. reflexivity. Qed.
  Lemma del_map i (l : list (A * option Z)) : del_at i (mp l) = match del_at i l with Ok l' => Ok (mp l') | Err e => Err e end.
  Proof. unfold del_at. rewrite map_length. destruct (Nat.ltb i (List.length l)); [|reflexivity]. rewrite map_app, firstn_map, skipn_map. reflexivity. Qed.

  Variable m : memstore A.
  Hypothesis ids : forall x, inside m x -> ib (g x) = ia x.
  Lemma ids_tasks x : In x (ms_tasks m) -> ib (g (fst x)) = ia (fst x).
  Proof. destruct x as [x z]. intros H. apply ids. eapply inside_task, H. Qed.
  Lemma add_map a : ib (g a) = ia a -> nb (g a) = na a -> ms_add ib nb (mmap g m) (g a) = (mmap g (fst (ms_add ia na m a)), snd (ms_add ia na m a)).
  Proof.
    intros I N. unfold ms_add. cbn [mmap ms_index ms_tasks]. rewrite dmem_map, I, N. destruct (dmem (ia a) (ms_index m)); [reflexivity|].
    rewrite (index_map (ms_tasks m)) by (intros; apply ids_tasks; auto). destruct (get_task_index ia (ms_tasks m) (na a) (ia a)); [|reflexivity].
    cbn [fst snd]. unfold mmap. cbn [ms_tasks ms_index]. rewrite map_insert, dset_map. reflexivity.
  Qed.
  Lemma update_map a : ib (g a) = ia a -> nb (g a) = na a -> ms_update ib nb (mmap g m) (g a) = (mmap g (fst (ms_update ia na m a)), snd (ms_update ia na m a)).
  Proof.
    intros I N. unfold ms_update. cbn [mmap ms_index ms_tasks]. rewrite dget_map, I, N. destruct (dget (ia a) (ms_index m)) as [[o z]|] eqn:E; cbn [option_map fst snd].
    - rewrite (ids o) by (eapply inside_index; eauto). rewrite (index_map (ms_tasks m)) by (intros; apply ids_tasks; auto). destruct (get_task_index ia (ms_tasks m) z (ia o)) as [i|]; [|reflexivity].
      destruct (teqb z (na a)).
      + rewrite (set_map i (a, na a)). destruct (set_at i (a, na a) (ms_tasks m)) as [l|]; [|reflexivity]. cbn [fst snd]. unfold mmap. cbn [ms_tasks ms_index]. rewrite dset_map. reflexivity.
      + rewrite del_map. destruct (del_at i (ms_tasks m)) as [l|] eqn:D; [|reflexivity].
        assert (L : forall x, In x l -> ib (g (fst x)) = ia (fst x)).
        { intros x X. apply ids_tasks. unfold del_at in D. destruct (Nat.ltb i (List.length (ms_tasks m))); [|discriminate]. injection D as <-. apply in_app_or in X. destruct X as [X|X]; [eapply in_firstn, X|apply (in_skipn (S i)), X]. }
        rewrite (index_map l) by exact L. destruct (get_task_index ia l (na a) (ia a)) as [j|]; cbn [fst snd]; unfold mmap; cbn [ms_tasks ms_index]; [|reflexivity]. rewrite map_insert, dset_map. reflexivity.
    - rewrite (index_map (ms_tasks m)) by (intros; apply ids_tasks; auto). destruct (get_task_index ia (ms_tasks m) (na a) (ia a)); [|reflexivity].
      cbn [fst snd]. unfold mmap. cbn [ms_tasks ms_index]. rewrite map_insert, dset_map. reflexivity.
  Qed.
  Lemma delete_map id : ms_delete ib (mmap g m) id = (mmap g (fst (ms_delete ia m id)), snd (ms_delete ia m id)).
  Proof.
    unfold ms_delete. cbn [mmap ms_index ms_tasks]. rewrite dget_map. destruct (dget id (ms_index m)) as [[o z]|]; cbn [option_map fst snd]; [|reflexivity].
    rewrite (index_map (ms_tasks m)) by (intros; apply ids_tasks; auto). destruct (get_task_index ia (ms_tasks m) z id) as [i|]; [|reflexivity].
    rewrite del_map. destruct (del_at i (ms_tasks m)) as [l|]; [|reflexivity]. cbn [fst snd]. unfold mmap. cbn [ms_tasks ms_index]. rewrite ddel_map. reflexivity.
  Qed.
End Map.
Lemma mmap_mmap {A B C} (f : A -> B) (g : B -> C) m : mmap g (mmap f m) = mmap (fun x => g (f x)) m.
Proof. destruct m as [l d]. unfold mmap. cbn [ms_tasks ms_index]. rewrite !map_map. reflexivity. Qed.
Lemma mmap_ext {A B} (f g : A -> B) m : (forall x, inside m x -> f x = g x) -> mmap f m = mmap g m.
Proof.
  intros H. unfold mmap. f_equal; apply map_ext_in.
  - intros [x z] X. cbn. rewrite (H x); [reflexivity|]. eapply inside_task, X.
  - intros [k [x z]] X. cbn. rewrite (H x); [reflexivity|]. right. apply in_map_iff. exists (k, (x, z)). auto.
Qed.
Lemma mmap_id {A} (m : memstore A) : mmap (fun x => x) m = m.
Proof. destruct m as [l d]. unfold mmap. cbn. f_equal; rewrite <- (map_id l) at 2 || rewrite <- (map_id d) at 2; apply map_ext; [intros []; reflexivity|intros [? []]; reflexivity]. Qed.

(** ** one store of objects *)
Definition pid (p : nat * task) : string := t_id (snd p).
Definition pnext (p : nat * task) : option Z := t_next (snd p).
Definition pairs (f : nat -> task) (m : memstore nat) : memstore (nat * task) := mmap (fun r => (r, f r)) m.
Record goodm (f : nat -> task) (m : memstore nat) : Prop := MkGood { gm_inv : Inv pid pnext (pairs f m); gm_keys : NoDup (dkeys (ms_index m)) }.
Lemma pairs_snd f m : mmap snd (pairs f m) = mmap f m. Proof. unfold pairs. rewrite mmap_mmap. reflexivity. Qed.
Lemma pairs_fst f m : mmap fst (pairs f m) = m. Proof. unfold pairs. rewrite mmap_mmap. exact (mmap_id m). Qed.
Lemma inside_pairs f m p : inside (pairs f m) p <-> inside m (fst p) /\ snd p = f (fst p).
Proof.
  unfold inside, pairs, mmap. cbn [ms_tasks ms_index]. rewrite !map_map. cbn [fst snd]. rewrite !in_map_iff. split.
  - intros [([r z] & <- & X)|([k [r z]] & <- & X)]; cbn; (split; [|reflexivity]); [left|right].
    + exists (r, z). auto.
    + exists (k, (r, z)). auto.
  - destruct p as [r t]. cbn [fst snd]. intros [[([q z] & E & X)|([k [q z]] & E & X)] ->]; cbn in E; subst q; [left|right].
    + exists (r, z). auto.
    + exists (k, (r, z)). auto.
Qed.
Lemma good_inside f m r : goodm f m -> (inside m r <-> In r (ms_all m)).
Proof.
  intros [G K]. split; [|intros X; left; exact X]. intros [X|X]; [exact X|]. apply in_map_iff in X as ([k [q z]] & E & X). cbn in E. subst q.
  assert (D : dget k (ms_index (pairs f m)) = Some ((r, f r), z)). { transitivity (option_map (fun v => ((fst v, f (fst v)), snd v)) (dget k (ms_index m))); [exact (dget_map (fun r => (r, f r)) k (ms_index m))|]. rewrite (In_dget k (r, z)); auto. }
  apply (inv_idx _ _ _ G) in D as [D _]. unfold pairs, mmap in D. cbn [ms_tasks] in D. apply in_map_iff in D as ([q y] & D & Y). cbn in D. injection D as D1 _ _. subst q. apply in_map_iff. exists (r, y). split; [reflexivity|exact Y].
Qed.
Lemma good_lookup f m id r : goodm f m -> ms_lookup m id = Some r <-> In r (ms_all m) /\ t_id (f r) = id.
Proof.
  intros [G K]. pose proof (content_In pid pnext (pairs f m) id (r, f r) G) as C. unfold ms_content in C. unfold pairs in C at 1. rewrite lookup_map in C. unfold pairs in C. rewrite all_map in C.
  split.
  - intros E. rewrite E in C. cbn [option_map] in C. destruct C as [C _]. destruct (C eq_refl) as [C1 C2]. apply in_map_iff in C1 as (q & Q & X). split; [congruence|exact C2].
  - intros [X E]. destruct C as [_ C]. destruct (ms_lookup m id) as [q|].
    + assert (D : option_map (fun r0 => (r0, f r0)) (Some q) = Some (r, f r)). { apply C. split; [apply in_map_iff; eauto|exact E]. } cbn in D. congruence.
    + assert (D : @option_map nat (nat * task) (fun r0 => (r0, f r0)) None = Some (r, f r)). { apply C. split; [apply in_map_iff; eauto|exact E]. } discriminate D.
Qed.
Lemma good_unique f m q r : goodm f m -> In q (ms_all m) -> In r (ms_all m) -> t_id (f q) = t_id (f r) -> q = r.
Proof. intros G X Y E. assert (A : ms_lookup m (t_id (f r)) = Some q) by (apply (good_lookup f); auto). assert (B : ms_lookup m (t_id (f r)) = Some r) by (apply (good_lookup f); auto). congruence. Qed.
Lemma good_ext f f' m : goodm f m -> (forall q, In q (ms_all m) -> f' q = f q) -> goodm f' m.
Proof.
  intros G H. pose proof (good_inside f m) as GI. constructor; [|apply G]. unfold pairs. rewrite (mmap_ext _ (fun r => (r, f r))); [apply G|]. intros q X. apply GI in X; auto. rewrite H; auto.
Qed.
Lemma mmap_agree f f' m : goodm f m -> (forall q, In q (ms_all m) -> f' q = f q) -> mmap f' m = mmap f m.
Proof. intros G H. apply mmap_ext. intros q X. apply (good_inside f) in X; auto. Qed.
Lemma keys_mmap {A B} (g : A -> B) m : dkeys (ms_index (mmap g m)) = dkeys (ms_index m).
Proof. unfold mmap, dkeys. cbn [ms_index]. rewrite map_map. reflexivity. Qed.
Lemma keys_update {A} (i : A -> string) n m a : NoDup (dkeys (ms_index m)) -> NoDup (dkeys (ms_index (fst (ms_update i n m a)))).
Proof.
  intros H. unfold ms_update. destruct (dget (i a) (ms_index m)) as [[o z]|].
  - destruct (get_task_index i (ms_tasks m) z (i o)) as [j|]; [|exact H]. destruct (teqb z (n a)).
    + destruct (set_at j (a, n a) (ms_tasks m)); [|exact H]. apply dset_NoDup, H.
    + destruct (del_at j (ms_tasks m)) as [l|]; [|exact H]. destruct (get_task_index i l (n a) (i a)); [|exact H]. apply dset_NoDup, H.
  - destruct (get_task_index i (ms_tasks m) (n a) (i a)); [|exact H]. apply dset_NoDup, H.
Qed.
Lemma keys_add {A} (i : A -> string) n m a : NoDup (dkeys (ms_index m)) -> NoDup (dkeys (ms_index (fst (ms_add i n m a)))).
Proof. intros H. unfold ms_add. destruct (dmem (i a) (ms_index m)); [exact H|]. destruct (get_task_index i (ms_tasks m) (n a) (i a)); [|exact H]. apply dset_NoDup, H. Qed.
Lemma keys_delete {A} (i : A -> string) m id : NoDup (dkeys (ms_index m)) -> NoDup (dkeys (ms_index (fst (ms_delete i m id)))).
Proof.
  intros H. unfold ms_delete. destruct (dget id (ms_index m)) as [[o z]|]; [|exact H]. destruct (get_task_index i (ms_tasks m) z id) as [j|]; [|exact H].
  destruct (del_at j (ms_tasks m)); [|exact H]. apply ddel_NoDup, H.
Qed.
(** a store of pairs that are right about the objects is the store of the objects *)
Lemma pairs_back f mp : (forall p, inside mp p -> snd p = f (fst p)) -> pairs f (mmap fst mp) = mp.
Proof.
  intros H. unfold pairs. rewrite mmap_mmap. rewrite (mmap_ext _ (fun p => p)); [apply mmap_id|]. intros [r t] X. apply H in X. cbn in *. congruence.
Qed.
Lemma inside_all {A} (i : A -> string) n (m : memstore A) x : Inv i n m -> NoDup (dkeys (ms_index m)) -> inside m x -> In x (ms_all m).
Proof.
  intros G K [X|X]; [exact X|]. apply in_map_iff in X as ([k [q z]] & E & X). cbn in E. subst q. apply In_dget in X; [|exact K]. apply (inv_idx _ _ _ G) in X as [X _]. apply in_map_iff. exists (x, z). auto.
Qed.
(** adding and replacing: [fa]: the attributes when the store is called, [ff]: those the objects have afterwards *)
Section One.
  Context (f fa ff : nat -> task) (m : memstore nat) (r : nat).
  Hypothesis G : goodm f m.
  Hypothesis same_ff : forall q, In q (ms_all m) -> q <> r -> ff q = f q.
  Hypothesis same_fa : forall q, In q (ms_all m) -> t_id (fa q) = t_id (f q).
  Hypothesis same_id : t_id (fa r) = t_id (ff r).
  Hypothesis same_next : t_next (fa r) = t_next (ff r).
  Hypothesis own : In r (ms_all m) -> t_id (f r) = t_id (ff r).
  Lemma back mp' : Inv pid pnext mp' -> NoDup (dkeys (ms_index mp')) -> (forall p, In p (ms_all mp') <-> p = (r, ff r) \/ (In p (ms_all (pairs f m)) /\ pid p <> t_id (ff r))) ->
    goodm ff (mmap fst mp') /\ mmap ff (mmap fst mp') = mmap snd mp' /\ (forall q, In q (ms_all (mmap fst mp')) <-> q = r \/ (In q (ms_all m) /\ q <> r /\ t_id (f q) <> t_id (ff r))).
  Proof using G same_ff own.
    intros I K H.
    assert (R : forall p, In p (ms_all mp') -> snd p = ff (fst p)).
    { intros p X. apply H in X as [->|[X N]]; [reflexivity|]. unfold pairs in X. rewrite all_map in X. apply in_map_iff in X as (q & <- & X). cbn. symmetry. apply same_ff; [exact X|]. intros ->. apply N. unfold pid. cbn. apply own, X. }
    assert (R' : forall p, inside mp' p -> snd p = ff (fst p)) by (intros p X; apply R; eapply inside_all; eauto).
    sp.
    - constructor; [rewrite pairs_back; auto|rewrite keys_mmap; auto].
    - rewrite <- pairs_snd, pairs_back; auto.
    - intros q. rewrite all_map, in_map_iff. split.
      + intros (p & <- & X). apply H in X as [->|[X N]]; [left; reflexivity|]. unfold pairs in X. rewrite all_map in X. apply in_map_iff in X as (q & <- & X). cbn in *. right. sp; auto. intros ->. apply N. apply own, X.
      + intros [->|(X & N & D)]; [exists (r, ff r); split; [reflexivity|]; apply H; auto|]. exists (q, f q). split; [reflexivity|]. apply H. right. split; [|exact D]. unfold pairs. rewrite all_map. apply in_map_iff. eauto.
  Qed.
  Lemma obj_update : exists m', ms_update (fun q => t_id (fa q)) (fun q => t_next (fa q)) m r = (m', Ok tt) /\ goodm ff m' /\
      ms_update t_id t_next (mmap f m) (ff r) = (mmap ff m', Ok tt) /\ (forall q, In q (ms_all m') <-> q = r \/ (In q (ms_all m) /\ q <> r /\ t_id (f q) <> t_id (ff r))).
  Proof using G same_ff same_fa same_id same_next own.
    pose proof (update_ok pid pnext (pairs f m) (r, ff r) (gm_inv _ _ G)) as U.
    pose proof (keys_update pid pnext (pairs f m) (r, ff r)) as K.
    assert (N : NoDup (dkeys (ms_index (pairs f m)))) by (unfold pairs; rewrite keys_mmap; apply G). specialize (K N).
    pose proof (update_map fst pid pnext (fun q => t_id (fa q)) (fun q => t_next (fa q)) (pairs f m)) as M1. rewrite pairs_fst in M1.
    pose proof (update_map snd pid pnext t_id t_next (pairs f m)) as M2. rewrite pairs_snd in M2.
    assert (E1 : forall x, inside (pairs f m) x -> t_id (fa (fst x)) = pid x).
    { intros x X. apply inside_pairs in X as [X Y]. unfold pid. rewrite Y. apply same_fa. eapply good_inside; eauto. }
    specialize (M1 E1 (r, ff r) same_id same_next). specialize (M2 (fun x _ => eq_refl) (r, ff r) eq_refl eq_refl). cbn [fst snd] in M1, M2.
    destruct (ms_update pid pnext (pairs f m) (r, ff r)) as [mp' e]. cbn [fst snd] in *. destruct U as (I & -> & C).
    assert (H : forall p, In p (ms_all mp') <-> p = (r, ff r) \/ (In p (ms_all (pairs f m)) /\ pid p <> t_id (ff r))).
    { intros p. pose proof (content_In pid pnext mp' (pid p) p I) as C1. pose proof (content_In pid pnext (pairs f m) (pid p) p (gm_inv _ _ G)) as C2. rewrite C in C1. unfold c_set in C1.
      change (pid (r, ff r)) with (t_id (ff r)) in C1. destruct (String.eqb_spec (pid p) (t_id (ff r))) as [E|E].
      - split; [intros X; left; destruct C1 as [_ C1]; specialize (C1 (conj X eq_refl)); congruence|]. intros [->|[_ D]]; [apply C1; reflexivity|contradiction].
      - split; [intros X; right; split; [|exact E]; apply C2; apply C1; auto|]. intros [->|[X _]]; [destruct E; reflexivity|]. apply C1. apply C2. auto. }
    destruct (back mp' I K H) as (B1 & B2 & B3). exists (mmap fst mp'). rewrite M1, M2, B2. auto.
  Qed.
  Lemma obj_add : match ms_lookup m (t_id (ff r)) with
      | Some _ => ms_add (fun q => t_id (fa q)) (fun q => t_next (fa q)) m r = (m, Err ConflictIdError) /\ ms_add t_id t_next (mmap f m) (ff r) = (mmap f m, Err ConflictIdError)
      | None => exists m', ms_add (fun q => t_id (fa q)) (fun q => t_next (fa q)) m r = (m', Ok tt) /\ goodm ff m' /\
          ms_add t_id t_next (mmap f m) (ff r) = (mmap ff m', Ok tt) /\ (forall q, In q (ms_all m') <-> q = r \/ In q (ms_all m))
      end.
  Proof using G same_ff same_fa same_id same_next own.
    destruct (ms_lookup m (t_id (ff r))) as [q|] eqn:L.
    - assert (D : dmem (t_id (ff r)) (ms_index m) = true). { unfold ms_lookup in L. unfold dmem. destruct (dget (t_id (ff r)) (ms_index m)) as [[]|]; congruence. }
      unfold ms_add. rewrite same_id, D. cbn [mmap ms_index]. rewrite dmem_map, D. auto.
    - pose proof (add_ok pid pnext (pairs f m) (r, ff r) (gm_inv _ _ G)) as U.
      pose proof (keys_add pid pnext (pairs f m) (r, ff r)) as K.
      assert (N : NoDup (dkeys (ms_index (pairs f m)))) by (unfold pairs; rewrite keys_mmap; apply G). specialize (K N).
      pose proof (add_map fst pid pnext (fun q => t_id (fa q)) (fun q => t_next (fa q)) (pairs f m)) as M1. rewrite pairs_fst in M1.
      pose proof (add_map snd pid pnext t_id t_next (pairs f m)) as M2. rewrite pairs_snd in M2.
      assert (E1 : forall x, inside (pairs f m) x -> t_id (fa (fst x)) = pid x).
      { intros x X. apply inside_pairs in X as [X Y]. unfold pid. rewrite Y. apply same_fa. eapply good_inside; eauto. }
      specialize (M1 E1 (r, ff r) same_id same_next). specialize (M2 (fun x _ => eq_refl) (r, ff r) eq_refl eq_refl). cbn [fst snd] in M1, M2.
      assert (L' : ms_content (pairs f m) (pid (r, ff r)) = None). { unfold ms_content, pairs. rewrite lookup_map. unfold pid. cbn [snd]. rewrite L. reflexivity. }
      rewrite L' in U. destruct (ms_add pid pnext (pairs f m) (r, ff r)) as [mp' e]. cbn [fst snd] in *. destruct U as (I & -> & C).
      assert (A : forall p, In p (ms_all (pairs f m)) -> pid p <> t_id (ff r)).
      { intros p X E. pose proof (content_In pid pnext (pairs f m) (pid p) p (gm_inv _ _ G)) as C2. assert (ms_content (pairs f m) (pid p) = Some p) by (apply C2; auto). change (pid (r, ff r)) with (t_id (ff r)) in L'. congruence. }
      assert (H : forall p, In p (ms_all mp') <-> p = (r, ff r) \/ (In p (ms_all (pairs f m)) /\ pid p <> t_id (ff r))).
      { intros p. pose proof (content_In pid pnext mp' (pid p) p I) as C1. pose proof (content_In pid pnext (pairs f m) (pid p) p (gm_inv _ _ G)) as C2. rewrite C in C1. unfold c_set in C1.
        change (pid (r, ff r)) with (t_id (ff r)) in C1. destruct (String.eqb_spec (pid p) (t_id (ff r))) as [E|E].
        - split; [intros X; left; destruct C1 as [_ C1]; specialize (C1 (conj X eq_refl)); congruence|]. intros [->|[_ D]]; [apply C1; reflexivity|contradiction].
        - split; [intros X; right; split; [|exact E]; apply C2; apply C1; auto|]. intros [->|[X _]]; [destruct E; reflexivity|]. apply C1. apply C2. auto. }
      destruct (back mp' I K H) as (B1 & B2 & B3). exists (mmap fst mp'). rewrite M1, M2, B2. sp; auto.
      intros q. rewrite B3. split; [tauto|]. intros [->|X]; [auto|]. destruct (Nat.eq_dec q r) as [->|Nq]; [auto|]. right. sp; auto. apply (A (q, f q)). unfold pairs. rewrite all_map. apply in_map_iff. eauto.
  Qed.
End One.
Lemma obj_delete f m id : goodm f m -> match ms_lookup m id with
    | None => ms_delete (fun q => t_id (f q)) m id = (m, Err TaskLookupError) /\ ms_delete t_id (mmap f m) id = (mmap f m, Err TaskLookupError)
    | Some r => exists m', ms_delete (fun q => t_id (f q)) m id = (m', Ok tt) /\ goodm f m' /\ ms_delete t_id (mmap f m) id = (mmap f m', Ok tt) /\ (forall q, In q (ms_all m') <-> In q (ms_all m) /\ q <> r)
    end.
Proof.
  intros G. pose proof (delete_ok pid pnext (pairs f m) id (gm_inv _ _ G)) as U. pose proof (good_lookup f m id) as GL.
  pose proof (keys_delete pid (pairs f m) id) as K.
  assert (N : NoDup (dkeys (ms_index (pairs f m)))) by (unfold pairs; rewrite keys_mmap; apply G). specialize (K N).
  pose proof (delete_map fst pid (fun q => t_id (f q)) (pairs f m)) as M1. rewrite pairs_fst in M1.
  pose proof (delete_map snd pid t_id (pairs f m)) as M2. rewrite pairs_snd in M2.
  assert (E1 : forall x, inside (pairs f m) x -> t_id (f (fst x)) = pid x). { intros x X. apply inside_pairs in X as [X Y]. unfold pid. rewrite Y. reflexivity. }
  specialize (M1 E1 id). specialize (M2 (fun x _ => eq_refl) id).
  assert (L' : ms_content (pairs f m) id = option_map (fun r => (r, f r)) (ms_lookup m id)). { unfold ms_content, pairs. apply lookup_map. }
  rewrite L' in U. destruct (ms_lookup m id) as [r|] eqn:L; cbn [option_map] in U, L'.
  - destruct (ms_delete pid (pairs f m) id) as [mp' e]. cbn [fst snd] in *. destruct U as (I & -> & C).
    assert (H : forall p, In p (ms_all mp') <-> In p (ms_all (pairs f m)) /\ p <> (r, f r)).
    { intros p. pose proof (content_In pid pnext mp' (pid p) p I) as C1. pose proof (content_In pid pnext (pairs f m) (pid p) p (gm_inv _ _ G)) as C2. rewrite C in C1. unfold c_del in C1.
      destruct (GL r) as [GL1 _]; auto. destruct (GL1 eq_refl) as [R1 R2].
      destruct (String.eqb_spec (pid p) id) as [E|E].
      - split; [intros X; destruct C1 as [_ C1]; specialize (C1 (conj X eq_refl)); congruence|]. intros [X Y]. exfalso. destruct C2 as [_ C2]. specialize (C2 (conj X eq_refl)). rewrite E in C2. congruence.
      - split; [intros X; split; [apply C2, C1; auto|]; intros ->; apply E; exact R2|]. intros [X _]. apply C1, C2. auto. }
    assert (R : forall p, inside mp' p -> snd p = f (fst p)). { intros p X. eapply inside_all in X; eauto. apply H in X as [X _]. unfold pairs in X. rewrite all_map in X. apply in_map_iff in X as (q & <- & X). reflexivity. }
    exists (mmap fst mp'). rewrite M1, M2. rewrite <- pairs_snd, pairs_back by auto. sp; auto.
    + constructor; [rewrite pairs_back; auto|rewrite keys_mmap; auto].
    + intros q. rewrite all_map, in_map_iff. split.
      * intros (p & <- & X). apply H in X as [X Y]. unfold pairs in X. rewrite all_map in X. apply in_map_iff in X as (q & <- & X). cbn. split; [exact X|]. intros ->. apply Y. reflexivity.
      * intros [X Y]. exists (q, f q). split; [reflexivity|]. apply H. split; [unfold pairs; rewrite all_map; apply in_map_iff; eauto|congruence].
  - unfold ms_lookup in L. destruct (dget id (ms_index m)) as [[]|] eqn:D; [discriminate|]. unfold ms_delete. rewrite D. cbn [mmap ms_index]. rewrite dget_map, D. auto.
Qed.
