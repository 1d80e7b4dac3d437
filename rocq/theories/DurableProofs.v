From Verif Require Import Prelude PreludeFacts MemStore StoreSpec SortList Durable DurableSpec.
From Coq Require Import Sorting.Sorted Sorting.Permutation.
Open Scope Z_scope.
Ltac sp := repeat match goal with |- _ /\ _ => split end.

Lemma Forall2_sorted {A B} (Q : A -> B -> Prop) (R : A -> A -> Prop) (R' : B -> B -> Prop) l l' :
  (forall a b a' b', Q a a' -> Q b b' -> R a b -> R' a' b') -> Forall2 Q l l' -> StronglySorted R l -> StronglySorted R' l'.
Proof.
  intros H F. induction F as [|a a' l l' q F IH]; intros S; [constructor|]. inversion S as [|x y S1 S2]; subst. constructor; [auto|].
  clear IH S S1. induction F as [|b b' l l' q' F IH]; constructor; inversion S2; subst; eauto.
Qed.
Lemma Forall2_In_r {A B} (Q : A -> B -> Prop) l l' b : Forall2 Q l l' -> In b l' -> exists a, In a l /\ Q a b.
Proof. induction 1; intros []; subst; eauto with datatypes. destruct IHForall2 as (a & ? & ?); auto. exists a; auto with datatypes. Qed.
Lemma Forall2_In_l {A B} (Q : A -> B -> Prop) l l' a : Forall2 Q l l' -> In a l -> exists b, In b l' /\ Q a b.
Proof. induction 1; intros []; subst; eauto with datatypes. destruct IHForall2 as (b & ? & ?); auto. exists b; auto with datatypes. Qed.
Lemma Forall2_strengthen {A B} (Q Q' : A -> B -> Prop) l l' : Forall2 Q l l' -> (forall a b, In a l -> Q a b -> Q' a b) -> Forall2 Q' l l'.
Proof. induction 1; intros H1; constructor; auto with datatypes. Qed.
Lemma Perm_filter {A} (p : A -> bool) l l' : Permutation l l' -> Permutation (filter p l) (filter p l').
Proof.
  induction 1 as [|x l l' P IH|x y l|l1 l2 l3 P1 IH1 P2 IH2]; cbn; auto.
  - destruct (p x); auto.
  - destruct (p x), (p y); auto. apply perm_swap.
  - etransitivity; eauto.
Qed.
Lemma drop_all_nil {V} (d : dict V) : drop_all [] d = d.
Proof. unfold drop_all. cbn [existsb negb]. induction d as [|kv d IH]; cbn; auto. f_equal. exact IH. Qed.
Lemma Sorted_impl {A} (R R' : A -> A -> Prop) l : (forall a b, R a b -> R' a b) -> StronglySorted R l -> StronglySorted R' l.
Proof. intros H. induction 1 as [|a l S IH F]; constructor; auto. apply Forall_impl with (2 := F). auto. Qed.
Lemma Sorted_filter {A} (R : A -> A -> Prop) p l : StronglySorted R l -> StronglySorted R (filter p l).
Proof.
  induction 1 as [|a l S IH F]; cbn; [constructor|]. destruct (p a); auto. constructor; auto.
  apply Forall_forall. intros x Hx. apply filter_In in Hx. rewrite Forall_forall in F. apply F. tauto.
Qed.
Lemma Sorted_map {A B} (f : A -> B) (R : B -> B -> Prop) l : StronglySorted (fun a b => R (f a) (f b)) l -> StronglySorted R (map f l).
Proof. induction 1 as [|a l S IH F]; cbn; constructor; auto. apply Forall_forall. intros y Hy. apply in_map_iff in Hy as (x & <- & Hx). rewrite Forall_forall in F. auto. Qed.
Lemma NoDup_filter_map {A B} (f : A -> B) p l : NoDup (map f l) -> NoDup (map f (filter p l)).
Proof.
  induction l as [|a l IH]; cbn; auto. intros N. inversion N; subst. destruct (p a); cbn; auto. constructor; auto.
  intros I. apply in_map_iff in I as (x & E & Hx). apply filter_In in Hx. apply H1. rewrite <- E. apply in_map. tauto.
Qed.
Lemma nulls_last_total a b : nulls_last a b = true \/ nulls_last b a = true.
Proof. unfold nulls_last, tltb. destruct (fst (snd a)), (fst (snd b)); cbn; auto. lia. Qed.
Lemma nulls_last_trans a b c : nulls_last a b = true -> nulls_last b c = true -> nulls_last a c = true.
Proof. unfold nulls_last, tltb. destruct (fst (snd a)), (fst (snd b)), (fst (snd c)); cbn; auto; try discriminate. lia. Qed.
Lemma nulls_first_total a b : nulls_first a b = true \/ nulls_first b a = true.
Proof. unfold nulls_first. destruct (fst (snd a)), (fst (snd b)); cbn; auto. lia. Qed.
Lemma nulls_first_trans a b c : nulls_first a b = true -> nulls_first b c = true -> nulls_first a c = true.
Proof. unfold nulls_first. destruct (fst (snd a)), (fst (snd b)), (fst (snd c)); cbn; auto; try discriminate. lia. Qed.

Section Proofs.
  Context {T : Type} (tid : T -> string) (tnext : T -> option Z).
  Context (ser : string -> T -> result string) (de : string -> option T) (back : T -> T).

  Lemma rebuild_good rows : (forall k b, In (k, b) rows -> exists t, de b = Some t) ->
    exists ts, rebuild de rows = (ts, []) /\ Forall2 (fun kb t => de (snd kb) = Some t) rows ts.
  Proof.
    induction rows as [|[k b] rows IH]; cbn; intros H; [exists []; auto|].
    destruct IH as (ts & R & F); [eauto|]. destruct (H k b) as [t D]; auto. rewrite R, D. exists (t :: ts). auto.
  Qed.

  (** ** histories *)
  Lemma run_spec {S} (step : S -> senv * sop T -> S * sout T) (inv : S -> Prop) (abs : S -> content) (okop : senv * sop T -> Prop) :
    (forall s eo, inv s -> okop eo -> let (s', r) := step s eo in inv s' /\ dspec_step tid tnext ser back (abs s) eo r (abs s')) ->
    forall os s m, inv s -> (forall i, m i = abs s i) -> (forall eo, In eo os -> okop eo) -> dspec_run tid tnext ser back m os (snd (d_run step s os)).
  Proof.
    intros H. induction os as [|o os IH]; intros s m I E K; cbn; [exact Logic.I|].
    specialize (H s o I (K o (or_introl eq_refl))). destruct (step s o) as [s' r] eqn:ST. destruct H as [I' D].
    specialize (IH s' (abs s') I' (fun _ => eq_refl) (fun eo h => K eo (or_intror h))). destruct (d_run step s' os) as [s'' rs]. cbn.
    exists (abs s'). split; auto. clear - D E. unfold dspec_step in *. destruct o as [e o]. cbn [fst snd] in *.
    destruct (written o) as [t|] eqn:W.
    - destruct (ser (nonce e) t).
      + destruct o; try discriminate; cbn in *; rewrite ?E; destruct (abs s (tid (back t0))); intuition; try (rewrite H0; unfold c_set; rewrite E; reflexivity); rewrite H0; auto.
      + destruct D as [D1 D2]. split; auto. intros i. rewrite D2. auto.
    - destruct o; try discriminate; cbn in *.
      + rewrite E. destruct (abs s id); destruct D as [-> D]; split; auto; intros i; rewrite D; unfold c_del; rewrite ?E; auto.
      + auto.
      + rewrite E. destruct D as [-> D]. split; auto. intros i. rewrite D; auto.
      + destruct D as [(l & -> & [L1 L2] & L3) D]. split; [|intros i; rewrite D; auto]. exists l. sp; auto. split; auto. intros i t. rewrite E. apply L2.
      + destruct D as [(l & -> & L1 & L2 & L3) D]. split; [|intros i; rewrite D; auto]. exists l. sp; auto. intros t. rewrite E. apply L3.
      + destruct D as [(x & -> & L) D]. split; [|intros i; rewrite D; auto]. exists x. split; auto. unfold least_next in *.
        destruct x as [x|]; [destruct L as [(i & t & L1) L2]; split|]; intros; rewrite ?E in *; eauto. exists i, t. rewrite E. auto.
  Qed.

  (** ** tables (SQLAlchemy, MongoDB) *)
  Definition t_abs (tbl : table) : content := fun i => match dget i tbl with Some (_, b) => de b | None => None end.
  Definition t_good (tbl : table) : Prop :=
    NoDup (dkeys tbl) /\ forall i n b, dget i tbl = Some (n, b) -> exists t, de b = Some t /\ tid t = i /\ tnext t = n.
  Definition rowrel (r : row) (t : T) : Prop := de (snd (snd r)) = Some t /\ tid t = fst r /\ tnext t = fst (snd r).

  Lemma select_ok tbl rows cond (cc : string -> option Z -> bool) :
    t_good tbl -> Permutation rows (filter cond tbl) -> (forall r, cond r = cc (fst r) (fst (snd r))) ->
    exists ts, rebuild de (map row_key rows) = (ts, []) /\ Forall2 rowrel rows ts /\ NoDup (map tid ts) /\
      forall t, In t ts <-> (t_abs tbl (tid t) = Some t /\ cc (tid t) (tnext t) = true).
  Proof.
    intros [ND G] P C.
    assert (RI : forall i n b, In (i, (n, b)) rows <-> dget i tbl = Some (n, b) /\ cc i n = true).
    { intros i n b. split.
      - intros I. apply (Permutation_in _ P), filter_In in I. destruct I as [I1 I2]. rewrite C in I2. split; auto. apply In_dget; auto.
      - intros [D H]. apply (Permutation_in _ (Permutation_sym P)), filter_In. split; [apply dget_In; auto|]. rewrite C. auto. }
    destruct (rebuild_good (map row_key rows)) as (ts & R & F).
    { intros k b I. apply in_map_iff in I as ([i [n b']] & [= <- <-] & I). apply RI in I as [I _]. destruct (G _ _ _ I) as (t & D & _). eauto. }
    assert (F' : Forall2 rowrel rows ts).
    { assert (F0 : Forall2 (fun (r : row) t => de (snd (snd r)) = Some t) rows ts) by (clear - F; revert ts F; induction rows; cbn; intros ts F; inversion F; subst; constructor; auto).
      apply Forall2_strengthen with (1 := F0). intros [i [n b]] t I D. apply RI in I as [I _]. destruct (G _ _ _ I) as (t' & D' & E). cbn in D. assert (t' = t) as -> by congruence. split; auto. }
    exists ts. sp; auto.
    - replace (map tid ts) with (map fst rows).
      + apply Permutation_NoDup with (map fst (filter cond tbl)); [apply Permutation_map; symmetry; auto|]. apply NoDup_filter_map. exact ND.
      + clear - F'. induction F' as [|r t rows ts (_ & E & _) F IH]; cbn; auto. congruence.
    - intros t. split.
      + intros I. destruct (Forall2_In_r _ _ _ _ F' I) as ([i [n b]] & I' & D & E1 & E2). cbn in *. apply RI in I' as [I1 I2].
        unfold t_abs. rewrite E1, I1, E2. auto.
      + intros [A H]. unfold t_abs in A. destruct (dget (tid t) tbl) as [[n b]|] eqn:D; [|discriminate].
        destruct (G _ _ _ D) as (t' & D' & _ & E). assert (t' = t) as -> by congruence. subst n.
        assert (I : In (tid t, (tnext t, b)) rows) by (apply RI; auto).
        destruct (Forall2_In_l _ _ _ _ F' I) as (t' & I' & D2 & _). cbn in D2. assert (t' = t) as -> by congruence. exact I'.
  Qed.

  Lemma t_good_nil : t_good []. Proof. split; [constructor|intros i n b; discriminate]. Qed.
  Lemma t_good_set tbl t b : t_good tbl -> de b = Some (back t) -> tid (back t) = tid t -> tnext (back t) = tnext t ->
    t_good (dset (tid t) (tnext t, b) tbl) /\ forall i, t_abs (dset (tid t) (tnext t, b) tbl) i = c_set tid (t_abs tbl) (back t) i.
  Proof.
    intros [ND G] D E1 E2. split; [split|].
    - apply dset_NoDup; auto.
    - intros i n b'. destruct (string_dec i (tid t)) as [->|N]; [rewrite dget_dset_eq; intros [= <- <-]; eauto|]. rewrite dget_dset_ne by auto. apply G.
    - intros i. unfold t_abs, c_set. rewrite E1. destruct (String.eqb_spec i (tid t)) as [->|N]; [rewrite dget_dset_eq; auto|]. rewrite dget_dset_ne by auto. auto.
  Qed.
  Lemma t_good_del tbl id : t_good tbl -> t_good (ddel id tbl) /\ forall i, t_abs (ddel id tbl) i = c_del (t_abs tbl) id i.
  Proof.
    intros [ND G]. split; [split|].
    - apply ddel_NoDup; auto.
    - intros i n b'. destruct (string_dec i id) as [->|N]; [rewrite dget_ddel_eq; discriminate|]. rewrite dget_ddel_ne by auto. apply G.
    - intros i. unfold t_abs, c_del. destruct (String.eqb_spec i id) as [->|N]; [rewrite dget_ddel_eq; auto|]. rewrite dget_ddel_ne by auto. auto.
  Qed.
  Lemma t_abs_some tbl i : t_good tbl -> dmem i tbl = true <-> exists t, t_abs tbl i = Some t.
  Proof.
    intros [_ G]. rewrite dmem_true. unfold t_abs. split.
    - intros [[n b] D]. rewrite D. destruct (G _ _ _ D) as (t & Dt & _). eauto.
    - intros [t H]. destruct (dget i tbl); [eauto|discriminate].
  Qed.
  Lemma t_abs_none tbl i : t_good tbl -> dmem i tbl = false -> t_abs tbl i = None.
  Proof. intros _ H. apply dmem_false in H. unfold t_abs. rewrite H. auto. Qed.

  Definition ok_op (eo : senv * sop T) : Prop :=
    (forall A (l : list A), Permutation (pm (fst eo) A l) l) /\
    forall t, written (snd eo) = Some t -> forall b, ser (nonce (fst eo)) t = Ok b -> de b = Some (back t) /\ tid (back t) = tid t /\ tnext (back t) = tnext t.

  Lemma sql_add_ok e t tbl : t_good tbl -> ok_op (e, SAdd t) ->
    let (tbl', r) := sql_add tid tnext ser e t tbl in t_good tbl' /\ dspec_step tid tnext ser back (t_abs tbl) (e, SAdd t) r (t_abs tbl').
  Proof.
    intros G [_ K]. unfold sql_add, dspec_step. cbn in *. specialize (K t eq_refl). destruct (ser (nonce e) t) as [b|x]; [|split; auto; split; eauto].
    destruct (K b eq_refl) as (D & E1 & E2). rewrite E1. destruct (dmem (tid t) tbl) eqn:M.
    - destruct (proj1 (t_abs_some tbl (tid t) G) M) as [t0 ->]. auto.
    - rewrite t_abs_none by auto. rewrite <- dset_keys_notin by (apply dget_None, dmem_false; auto). destruct (t_good_set tbl t b G D E1 E2). auto.
  Qed.
  Lemma sql_update_ok e t tbl : t_good tbl -> ok_op (e, SUpdate t) ->
    let (tbl', r) := sql_update tid tnext ser e t tbl in t_good tbl' /\ dspec_step tid tnext ser back (t_abs tbl) (e, SUpdate t) r (t_abs tbl').
  Proof.
    intros G [_ K]. unfold sql_update, dspec_step. cbn in *. specialize (K t eq_refl). destruct (ser (nonce e) t) as [b|x]; [|split; auto; split; eauto].
    destruct (K b eq_refl) as (D & E1 & E2). rewrite E1. destruct (dmem (tid t) tbl) eqn:M.
    - destruct (proj1 (t_abs_some tbl (tid t) G) M) as [t0 ->]. destruct (t_good_set tbl t b G D E1 E2). auto.
    - rewrite t_abs_none by auto. auto.
  Qed.
  Lemma sql_delete_ok e id tbl : t_good tbl ->
    let (tbl', r) := sql_delete id tbl in t_good tbl' /\ dspec_step tid tnext ser back (t_abs tbl) (e, SDelete id) r (t_abs tbl').
  Proof.
    intros G. unfold sql_delete, dspec_step. cbn. destruct (dmem id tbl) eqn:M.
    - destruct (proj1 (t_abs_some tbl id G) M) as [t0 ->]. destruct (t_good_del tbl id G). auto.
    - rewrite t_abs_none by auto. auto.
  Qed.
  Lemma least_of rows tbl : t_good tbl -> (forall i n b, In (i, (n, b)) rows <-> dget i tbl = Some (n, b) /\ n <> None) ->
    (forall r0 l, rows = r0 :: l -> forall r, In r l -> exists x y, fst (snd r0) = Some x /\ fst (snd r) = Some y /\ x <= y) ->
    least_next tnext (t_abs tbl) (match rows with [] => None | r :: _ => fst (snd r) end).
  Proof.
    intros [ND G] RI LE. assert (UP : forall i t w, t_abs tbl i = Some t -> tnext t = Some w -> exists b, In (i, (Some w, b)) rows).
    { intros i t w A W. unfold t_abs in A. destruct (dget i tbl) as [[n b]|] eqn:D; [|discriminate]. destruct (G _ _ _ D) as (t' & D' & _ & E).
      assert (t' = t) as -> by congruence. exists b. apply RI. split; congruence. }
    destruct rows as [|[i [n b]] rows]; cbn.
    - intros i t A. destruct (tnext t) as [w|] eqn:W; auto. destruct (UP i t w A W) as [b []].
    - destruct (proj1 (RI i n b) (or_introl eq_refl)) as [D N]. destruct n as [x|]; [|congruence]. split.
      + destruct (G _ _ _ D) as (t & D' & _ & E). exists i, t. unfold t_abs. rewrite D. auto.
      + intros j t w A W. destruct (UP j t w A W) as [b' [[= <- <- <-]|I]]; [lia|]. destruct (LE _ _ eq_refl _ I) as (x' & y & [= <-] & [= <-] & H). exact H.
  Qed.

  Lemma sql_ok tbl eo : t_good tbl -> ok_op eo ->
    let (tbl', r) := sql_step tid tnext ser de tbl eo in t_good tbl' /\ dspec_step tid tnext ser back (t_abs tbl) eo r (t_abs tbl').
  Proof.
    intros G K. destruct eo as [e o]. pose proof (proj1 K) as P. cbn in P. destruct o as [t|t|id| |id| |now|]; cbn [sql_step].
    - apply sql_add_ok; auto.
    - apply sql_update_ok; auto.
    - apply sql_delete_ok; auto.
    - split; [apply t_good_nil|]. cbn. auto.
    - unfold sql_get, dspec_step; cbn -[firstn]. set (cond := fun r : row => String.eqb (fst r) id).
      destruct (select_ok tbl (firstn 1 (isort nulls_last (filter cond (pm e row tbl)))) cond (fun i _ => String.eqb i id) G) as (ts & R & F & ND & I); auto.
      { assert (PP : Permutation (isort nulls_last (filter cond (pm e row tbl))) (filter cond tbl)).
        { rewrite isort_perm. apply Perm_filter, P. }
        rewrite <- PP. clear - PP G. destruct (isort nulls_last (filter cond (pm e row tbl))) as [|r1 [|r2 l]]; [reflexivity|reflexivity|]. exfalso.
        destruct G as [ND _]. apply (NoDup_filter_map fst cond) in ND. apply (Permutation_NoDup (Permutation_map fst (Permutation_sym PP))) in ND.
        assert (fst r1 = id /\ fst r2 = id) as [E1 E2].
        { split; apply String.eqb_eq; [apply (proj2 (proj1 (filter_In cond r1 tbl) (Permutation_in _ PP (or_introl eq_refl))))|apply (proj2 (proj1 (filter_In cond r2 tbl) (Permutation_in _ PP (or_intror (or_introl eq_refl)))))]. }
        cbn in ND. inversion ND; subst. apply H1. left. congruence. }
      rewrite R, drop_all_nil. split; auto. split; auto. f_equal.
      destruct (t_abs tbl id) as [t|] eqn:A.
      + assert (E : tid t = id) by (clear - A G; unfold t_abs in A; destruct G as [_ G]; destruct (dget id tbl) as [[n b]|] eqn:D; [|discriminate]; destruct (G _ _ _ D) as (t' & ? & ? & _); congruence).
        assert (In t ts) as H by (apply I; rewrite E, String.eqb_refl; auto). destruct ts as [|t1 ts]; [destruct H|]. destruct (proj1 (I t1) (or_introl eq_refl)) as [H1 H2]. apply String.eqb_eq in H2. congruence.
      + destruct ts as [|t1 ts]; auto. destruct (proj1 (I t1) (or_introl eq_refl)) as [H1 H2]. apply String.eqb_eq in H2. congruence.
    - unfold sql_get, dspec_step. cbn. set (rows := isort nulls_last _).
      destruct (select_ok tbl rows (fun _ => true) (fun _ _ => true) G) as (ts & R & F & ND & I); auto.
      { subst rows. rewrite isort_perm. apply Perm_filter, P. }
      rewrite R, drop_all_nil. split; auto. split; auto. exists ts. sp; auto.
      + split; auto. intros i t. rewrite I. split.
        * intros A. assert (E : tid t = i) by (clear - A G; unfold t_abs in A; destruct G as [_ G]; destruct (dget i tbl) as [[n b]|] eqn:D; [|discriminate]; destruct (G _ _ _ D) as (t' & ? & ? & _); congruence). rewrite E; auto.
        * intros [[A _] <-]. auto.
      + eapply Forall2_sorted with (2 := F) (R := fun a b => nulls_last a b = true); [|apply isort_sorted; [apply nulls_last_total|apply nulls_last_trans]].
        intros a b a' b' (_ & _ & E1) (_ & _ & E2). unfold nulls_last, time_le, tltb. rewrite E1, E2. destruct (fst (snd a)), (fst (snd b)); auto; try discriminate; lia.
    - unfold sql_get, dspec_step. cbn. set (rows := isort nulls_last _).
      destruct (select_ok tbl rows (next_lte now) (fun _ n => match n with Some x => x <=? now | None => false end) G) as (ts & R & F & ND & I); auto.
      { subst rows. rewrite isort_perm. apply Perm_filter, P. }
      rewrite R, drop_all_nil. split; auto. split; auto. exists ts. sp; auto.
      + eapply Forall2_sorted with (2 := F) (R := fun a b => nulls_last a b = true); [|apply isort_sorted; [apply nulls_last_total|apply nulls_last_trans]].
        intros a b a' b' (_ & _ & E1) (_ & _ & E2). unfold nulls_last, time_le, tltb. rewrite E1, E2. destruct (fst (snd a)), (fst (snd b)); auto; try discriminate; lia.
      + intros t. rewrite I. unfold is_due. destruct (tnext t) as [x|]; split; intros [A H]; split; auto; try discriminate.
        * exists x. split; auto. lia.
        * destruct H as (y & [= <-] & H). lia.
        * destruct H as (y & [=] & _).
    - split; auto. unfold dspec_step. cbn. split; auto. eexists. split; [reflexivity|]. unfold sql_next.
      set (rows := isort nulls_last _). assert (PP : Permutation rows (filter has_next tbl)).
      { subst rows. rewrite isort_perm. apply Perm_filter, P. }
      assert (RI : forall i n b, In (i, (n, b)) rows <-> dget i tbl = Some (n, b) /\ n <> None).
      { intros i n b. split.
        - intros H. apply (Permutation_in _ PP), filter_In in H. destruct H as [H1 H2]. split; [apply In_dget; auto; apply G|]. destruct n; [discriminate|cbn in H2; discriminate].
        - intros [H1 H2]. apply (Permutation_in _ (Permutation_sym PP)), filter_In. split; [apply dget_In; auto|]. destruct n; [reflexivity|congruence]. }
      apply least_of; auto. intros r0 l E r Hr. assert (S : StronglySorted (fun a b => nulls_last a b = true) rows) by (apply isort_sorted; [apply nulls_last_total|apply nulls_last_trans]).
      rewrite E in S. inversion S as [|? ? _ FA]; subst. rewrite Forall_forall in FA. specialize (FA r Hr).
      destruct r0 as [i0 [n0 b0]], r as [i [n b]]. destruct (proj1 (RI i0 n0 b0)) as [_ N0]; [rewrite E; left; auto|]. destruct (proj1 (RI i n b)) as [_ N1]; [rewrite E; right; auto|].
      destruct n0 as [x|], n as [y|]; try congruence. exists x, y. cbn. sp; auto. unfold nulls_last, tltb in FA. cbn in FA. lia.
  Qed.
End Proofs.
