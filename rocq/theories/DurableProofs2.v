From Verif Require Import Prelude PreludeFacts MemStore StoreSpec SortList Durable DurableSpec DurableProofs.
From Coq Require Import Sorting.Sorted Sorting.Permutation.
Open Scope Z_scope.

Section Proofs2.
  Context {T : Type} (tid : T -> string) (tnext : T -> option Z).
  Context (ser : string -> T -> result string) (de : string -> option T) (back : T -> T).

  Definition first_le (a b : T) : Prop := match tnext a, tnext b with None, _ => True | Some _, None => False | Some x, Some y => x <= y end.
  Lemma split_paused_ok l : let (p, r) := split_paused tnext l in
    l = p ++ r /\ (forall t, In t p -> tnext t = None) /\ match r with [] => True | t :: _ => tnext t <> None end.
  Proof.
    induction l as [|t l IH]; cbn; [sp; auto; intros t []|]. destruct (tnext t) as [x|] eqn:E.
    - cbn. sp; auto. intros t0 []. congruence.
    - destruct (split_paused tnext l) as [p r]. destruct IH as (-> & H1 & H2). sp; auto. intros t0 [<-|H]; auto.
  Qed.
  Lemma all_paused_sorted p : (forall t, In t p -> tnext t = None) -> StronglySorted (time_le tnext) p.
  Proof.
    induction p as [|t p IH]; intros H; constructor; auto with datatypes. apply Forall_forall. intros x Hx. unfold time_le. rewrite (H t), (H x); auto with datatypes.
  Qed.
  Lemma fix_paused_ok l : StronglySorted first_le l -> Permutation (fix_paused tnext l) l /\ StronglySorted (time_le tnext) (fix_paused tnext l).
  Proof.
    intros S. unfold fix_paused. pose proof (split_paused_ok l) as H. destruct (split_paused tnext l) as [p r]. destruct H as (-> & H1 & H2).
    destruct r as [|t r]; [rewrite app_nil_r in *; split; auto; apply all_paused_sorted; auto|]. split; [apply Permutation_app_comm|].
    assert (S2 : StronglySorted first_le (t :: r)) by (clear - S; induction p; cbn in *; auto; inversion S; auto).
    assert (N : forall u, In u (t :: r) -> tnext u <> None).
    { intros u [<-|Hu]; auto. inversion S2 as [|? ? _ F]; subst. rewrite Forall_forall in F. specialize (F u Hu). unfold first_le in F. destruct (tnext t); [|congruence]. destruct (tnext u); congruence. }
    clear S H2. induction S2 as [|u l S2 IH F]; cbn; [apply all_paused_sorted; auto|]. constructor; [apply IH; auto with datatypes|].
    apply Forall_forall. intros v Hv. apply in_app_iff in Hv as [Hv|Hv].
    - rewrite Forall_forall in F. specialize (F v Hv). unfold first_le, time_le in *. specialize (N u (or_introl eq_refl)). destruct (tnext u); [|congruence]. destruct (tnext v); auto.
    - unfold time_le. rewrite (H1 v Hv). destruct (tnext u); auto.
  Qed.

  Notation t_abs := (t_abs de). Notation t_good := (t_good tid tnext de). Notation rowrel := (rowrel tid tnext de).
  Notation ok_op := (ok_op tid tnext ser de back).
  Lemma abs_tid tbl i t : t_good tbl -> t_abs tbl i = Some t -> tid t = i.
  Proof. intros [_ G] A. unfold t_abs in A. destruct (dget i tbl) as [[n b]|] eqn:D; [|discriminate]. destruct (G _ _ _ D) as (t' & ? & ? & _). congruence. Qed.

  Lemma mongo_ok tbl eo : t_good tbl -> ok_op eo ->
    let (tbl', r) := mongo_step tid tnext ser de tbl eo in t_good tbl' /\ dspec_step tid tnext ser back (t_abs tbl) eo r (t_abs tbl').
  Proof.
    intros G K. destruct eo as [e o]. pose proof (proj1 K) as P. cbn in P.
    assert (SRT : forall cond, StronglySorted (fun a b => nulls_first a b = true) (isort nulls_first (filter cond (pm e row tbl)))) by (intros; apply isort_sorted; [apply nulls_first_total|apply nulls_first_trans]).
    assert (TS : forall rows ts, Forall2 rowrel rows ts -> StronglySorted (fun a b => nulls_first a b = true) rows -> StronglySorted first_le ts).
    { intros rows ts F S. eapply Forall2_sorted with (2 := F) (3 := S). intros a b a' b' (_ & _ & E1) (_ & _ & E2). unfold nulls_first, first_le. rewrite E1, E2.
      destruct (fst (snd a)), (fst (snd b)); auto; try discriminate; lia. }
    destruct o as [t|t|id| |id| |now|]; cbn [mongo_step].
    - apply sql_add_ok; auto.
    - apply sql_update_ok; auto.
    - apply sql_delete_ok; auto.
    - split; [apply t_good_nil|]. cbn. auto.
    - split; auto. unfold dspec_step. cbn. split; auto. unfold t_abs. destruct (dget id tbl) as [[n b]|] eqn:D; auto. destruct (proj2 G _ _ _ D) as (t & -> & _). auto.
    - unfold mongo_get, dspec_step. cbn. set (rows := isort nulls_first _).
      destruct (select_ok tid tnext de tbl rows (fun _ => true) (fun _ _ => true) G) as (ts & R & F & ND & I); auto.
      { subst rows. rewrite isort_perm. apply Perm_filter, P. }
      rewrite R, drop_all_nil. destruct (fix_paused_ok ts) as [P1 P2]; [apply TS with rows; auto; apply SRT|]. split; auto. split; auto. exists (fix_paused tnext ts). sp; auto. split.
      + apply Permutation_NoDup with (2 := ND). apply Permutation_map. symmetry. exact P1.
      + intros i t. split.
        * intros A. pose proof (abs_tid tbl i t G A) as E. split; auto. apply (Permutation_in _ (Permutation_sym P1)), I. rewrite E. auto.
        * intros [H <-]. apply (Permutation_in _ P1), I in H. tauto.
    - unfold mongo_get, dspec_step. cbn. set (rows := isort nulls_first _).
      destruct (select_ok tid tnext de tbl rows (next_lte now) (fun _ n => match n with Some x => x <=? now | None => false end) G) as (ts & R & F & ND & I); auto.
      { subst rows. rewrite isort_perm. apply Perm_filter, P. }
      rewrite R, drop_all_nil. split; auto. split; auto. exists ts.
      assert (DUE : forall t, In t ts <-> t_abs tbl (tid t) = Some t /\ is_due tnext now t).
      { intros t. rewrite I. unfold is_due. destruct (tnext t) as [x|]; split; intros [A H]; split; auto; try discriminate.
        * exists x. split; auto. lia.
        * destruct H as (y & [= <-] & H). lia.
        * destruct H as (y & [=] & _). }
      sp; auto. specialize (TS rows ts F (SRT _)). clear - TS DUE.
      assert (N : forall t, In t ts -> tnext t <> None) by (intros t Ht; apply DUE in Ht as (_ & x & -> & _); discriminate). clear DUE.
      induction TS as [|t ts S IH F]; constructor; [apply IH; auto with datatypes|]. apply Forall_forall. intros u Hu. rewrite Forall_forall in F. specialize (F u Hu).
      pose proof (N u (or_intror Hu)). pose proof (N t (or_introl eq_refl)). unfold first_le, time_le in *. destruct (tnext t), (tnext u); congruence || auto.
    - split; auto. unfold dspec_step. cbn. split; auto. eexists. split; [reflexivity|].
      set (rows := isort nulls_first _). assert (PP : Permutation rows (filter has_next tbl)) by (subst rows; rewrite isort_perm; apply Perm_filter, P).
      assert (RI : forall i n b, In (i, (n, b)) rows <-> dget i tbl = Some (n, b) /\ n <> None).
      { intros i n b. split.
        - intros H. apply (Permutation_in _ PP), filter_In in H. destruct H as [H1 H2]. split; [apply In_dget; auto; apply G|]. destruct n; [discriminate|cbn in H2; discriminate].
        - intros [H1 H2]. apply (Permutation_in _ (Permutation_sym PP)), filter_In. split; [apply dget_In; auto|]. destruct n; [reflexivity|congruence]. }
      eapply least_of; eauto. intros r0 l E r Hr. pose proof (SRT has_next : StronglySorted _ rows) as S.
      rewrite E in S. inversion S as [|? ? _ FA]; subst. rewrite Forall_forall in FA. specialize (FA r Hr).
      destruct r0 as [i0 [n0 b0]], r as [i [n b]]. destruct (proj1 (RI i0 n0 b0)) as [_ N0]; [rewrite E; left; auto|]. destruct (proj1 (RI i n b)) as [_ N1]; [rewrite E; right; auto|].
      destruct n0 as [x|], n as [y|]; try congruence. exists x, y. cbn. sp; auto. unfold nulls_first in FA. cbn in FA. lia.
  Qed.

  (** ** Redis *)
  Definition r_abs (s : redis) : content := fun i => match dget i (rd_tasks s) with Some b => de b | None => None end.
  Record r_good (s : redis) : Prop := {
    rg_nd : NoDup (dkeys (rd_tasks s)); rg_nd2 : NoDup (dkeys (rd_times s));
    rg_ok : forall i b, dget i (rd_tasks s) = Some b -> exists t, de b = Some t /\ tid t = i /\ tnext t = dget i (rd_times s);
    rg_no : forall i, dget i (rd_tasks s) = None -> dget i (rd_times s) = None;
    rg_era : forall i x, dget i (rd_times s) = Some x -> 0 <= x < paused_key;
    rg_ne : forall i, dget i (rd_tasks s) <> Some ""%string }.
  (** Redis: non-empty ids, run times between 1970 and 9999-12-31, non-empty states *)
  Definition redis_op (eo : senv * sop T) : Prop :=
    forall t, written (snd eo) = Some t -> tid t <> ""%string /\ (forall x, tnext t = Some x -> 0 <= x < paused_key) /\ (forall b, ser (nonce (fst eo)) t = Ok b -> b <> ""%string).

  Lemma r_good_nil : r_good (MkRedis [] []). Proof. constructor; cbn; try constructor; try discriminate. Qed.
  Lemma r_set s t b : r_good s -> de b = Some (back t) -> tid (back t) = tid t -> tnext (back t) = tnext t ->
    (forall x, tnext t = Some x -> 0 <= x < paused_key) -> b <> ""%string ->
    let s' := MkRedis (dset (tid t) b (rd_tasks s)) (match tnext t with Some _ => rd_mark tid tnext t (rd_times s) | None => ddel (tid t) (rd_times s) end) in
    r_good s' /\ forall i, r_abs s' i = c_set tid (r_abs s) (back t) i.
  Proof.
    intros [N1 N2 OK NO ER NE] D E1 E2 RG B s'.
    assert (TM : forall i, dget i (rd_times s') = if String.eqb i (tid t) then tnext t else dget i (rd_times s)).
    { intros i. subst s'. cbn. unfold rd_mark. destruct (tnext t) as [x|], (String.eqb_spec i (tid t)) as [->|Q].
      - apply dget_dset_eq.
      - apply dget_dset_ne; auto.
      - apply dget_ddel_eq.
      - apply dget_ddel_ne; auto. }
    assert (TK : forall i, dget i (rd_tasks s') = if String.eqb i (tid t) then Some b else dget i (rd_tasks s)).
    { intros i. subst s'. cbn. destruct (String.eqb_spec i (tid t)) as [->|Q]; [apply dget_dset_eq|apply dget_dset_ne; auto]. }
    split; [constructor|].
    - apply dset_NoDup; auto.
    - subst s'. cbn. unfold rd_mark. destruct (tnext t); [apply dset_NoDup|apply ddel_NoDup]; auto.
    - intros i b'. rewrite TK, TM. destruct (String.eqb_spec i (tid t)) as [->|Q]; [|apply OK]. intros [= <-]. eauto.
    - intros i. rewrite TK, TM. destruct (String.eqb i (tid t)); [discriminate|apply NO].
    - intros i x. rewrite TM. destruct (String.eqb i (tid t)); [apply RG|apply ER].
    - intros i. rewrite TK. destruct (String.eqb i (tid t)); [congruence|apply NE].
    - intros i. unfold r_abs, c_set. rewrite TK, E1. destruct (String.eqb i (tid t)); auto.
  Qed.
  Lemma r_add s t : r_good s -> dget (tid t) (rd_tasks s) = None -> rd_mark tid tnext t (rd_times s) = match tnext t with Some _ => rd_mark tid tnext t (rd_times s) | None => ddel (tid t) (rd_times s) end.
  Proof. intros G N. unfold rd_mark. destruct (tnext t); auto. rewrite ddel_notin; auto. apply (rg_no s G). auto. Qed.

  Lemma rd_rebuild_good rows : (forall k b, In (k, b) rows -> exists x t, b = Some x /\ de x = Some t) ->
    exists ts, rd_rebuild de rows = (ts, []) /\ Forall2 (fun kb t => match snd kb with Some x => de x | None => None end = Some t) rows ts.
  Proof.
    induction rows as [|[k b] rows IH]; cbn; intros H; [exists []; auto|].
    destruct IH as (ts & R & F); [eauto|]. destruct (H k b) as (x & t & -> & D); auto. rewrite R, D. exists (t :: ts). auto.
  Qed.
  Lemma r_abs_iff s i t : r_good s -> r_abs s i = Some t -> tid t = i /\ tnext t = dget i (rd_times s).
  Proof. intros G A. unfold r_abs in A. destruct (dget i (rd_tasks s)) as [b|] eqn:D; [|discriminate]. destruct (rg_ok s G _ _ D) as (t' & D' & E). assert (t' = t) as -> by congruence. auto. Qed.
  Lemma rd_drop_nil s : rd_drop [] s = s. Proof. destruct s. unfold rd_drop. f_equal; apply drop_all_nil. Qed.
  Lemma str_ltb_asym a b : str_ltb a b = true -> str_ltb b a = false.
  Proof. intros H. destruct (str_ltb b a) eqn:E; auto. pose proof (str_ltb_trans _ _ _ H E) as X. rewrite str_ltb_irrefl in X. discriminate. Qed.
  Lemma score_total a b : score_le a b = true \/ score_le b a = true.
  Proof. unfold score_le. destruct (str_ltb (fst b) (fst a)) eqn:E1; [pose proof (str_ltb_asym _ _ E1) as E2; rewrite E2|]; cbn; lia. Qed.
  Lemma score_trans a b c : score_le a b = true -> score_le b c = true -> score_le a c = true.
  Proof.
    unfold score_le. destruct (str_ltb (fst b) (fst a)) eqn:E1, (str_ltb (fst c) (fst b)) eqn:E2, (str_ltb (fst c) (fst a)) eqn:E3; cbn; try lia.
    destruct (str_ltb_total (fst a) (fst b)) as [H|[H|H]]; [|congruence|congruence]. pose proof (str_ltb_trans _ _ _ E3 H). congruence.
  Qed.
  Lemma zset_perm d : Permutation (zset d) d. Proof. apply isort_perm. Qed.
  Lemma zset_sorted d : StronglySorted (fun a b => snd a <= snd b) (zset d).
  Proof. eapply Sorted_impl; [|apply isort_sorted; [apply score_total|apply score_trans]]. intros a b H. unfold score_le in H. lia. Qed.

  Lemma redis_ok s eo : r_good s -> ok_op eo -> redis_op eo ->
    let (s', r) := redis_step tid tnext ser de s eo in r_good s' /\ dspec_step tid tnext ser back (r_abs s) eo r (r_abs s').
  Proof.
    intros G K RO. destruct eo as [e o]. pose proof (proj1 K) as P. cbn in P. destruct o as [t|t|id| |id| |now|]; cbn [redis_step].
    - destruct (RO t eq_refl) as (NE & ER & NB). apply String.eqb_neq in NE. rewrite NE. pose proof (proj2 K t eq_refl) as KB. cbn in KB, NB. unfold dspec_step. cbn.
      destruct (dmem (tid t) (rd_tasks s)) eqn:M.
      + split; auto. destruct (ser (nonce e) t) as [b|x]; [|split; eauto]. destruct (KB b eq_refl) as (D & E1 & E2). rewrite E1.
        apply dmem_true in M as [v M]. destruct (rg_ok s G _ _ M) as (t0 & D0 & _). unfold r_abs. rewrite M, D0. auto.
      + destruct (ser (nonce e) t) as [b|x]; [|split; auto; split; eauto]. destruct (KB b eq_refl) as (D & E1 & E2). rewrite E1.
        apply dmem_false in M. rewrite (r_add s t G M). destruct (r_set s t b G D E1 E2 ER (NB b eq_refl)) as [G' A]. split; auto.
        unfold r_abs at 1. rewrite M. auto.
    - destruct (RO t eq_refl) as (NE & ER & NB). apply String.eqb_neq in NE. rewrite NE. pose proof (proj2 K t eq_refl) as KB. cbn in KB, NB. unfold dspec_step. cbn.
      destruct (dmem (tid t) (rd_tasks s)) eqn:M; cbn.
      + destruct (ser (nonce e) t) as [b|x]; [|split; auto; split; eauto]. destruct (KB b eq_refl) as (D & E1 & E2). rewrite E1.
        destruct (r_set s t b G D E1 E2 ER (NB b eq_refl)) as [G' A]. split; auto.
        apply dmem_true in M as [v M]. destruct (rg_ok s G _ _ M) as (t0 & D0 & _). unfold r_abs at 1. rewrite M, D0. auto.
      + split; auto. destruct (ser (nonce e) t) as [b|x]; [|split; eauto]. destruct (KB b eq_refl) as (D & E1 & E2). rewrite E1.
        apply dmem_false in M. unfold r_abs at 1. rewrite M. auto.
    - unfold dspec_step. cbn. destruct (dmem id (rd_tasks s)) eqn:M.
      + destruct G as [N1 N2 OK NO ER NE]. split.
        * constructor; cbn.
          -- apply ddel_NoDup; auto.
          -- apply ddel_NoDup; auto.
          -- intros i b. destruct (string_dec i id) as [->|Q]; [rewrite dget_ddel_eq; discriminate|]. rewrite !dget_ddel_ne by auto. apply OK.
          -- intros i. destruct (string_dec i id) as [->|Q]; [rewrite !dget_ddel_eq; auto|]. rewrite !dget_ddel_ne by auto. apply NO.
          -- intros i x. destruct (string_dec i id) as [->|Q]; [rewrite dget_ddel_eq; discriminate|]. rewrite dget_ddel_ne by auto. apply ER.
          -- intros i. destruct (string_dec i id) as [->|Q]; [rewrite dget_ddel_eq; discriminate|]. rewrite dget_ddel_ne by auto. apply NE.
        * apply dmem_true in M as [v M]. destruct (OK _ _ M) as (t0 & D0 & _). unfold r_abs at 1. rewrite M, D0. split; auto. intros i. unfold r_abs, c_del. cbn.
          destruct (String.eqb_spec i id) as [->|Q]; [rewrite dget_ddel_eq; auto|rewrite dget_ddel_ne by auto; auto].
      + split; auto. apply dmem_false in M. unfold r_abs at 1. rewrite M. auto.
    - split; [apply r_good_nil|]. unfold dspec_step. cbn. auto.
    - split; auto. unfold dspec_step. cbn. split; auto. unfold r_abs. pose proof (rg_ne s G id) as NE. destruct (dget id (rd_tasks s)) as [b|] eqn:D; auto.
      destruct (rg_ok s G _ _ D) as (t & -> & _). destruct b; [congruence|auto].
    - unfold rd_all, dspec_step. cbn. set (rows := map _ _).
      assert (RI : forall k b, In (k, b) rows <-> exists x, b = Some x /\ dget k (rd_tasks s) = Some x).
      { intros k b. subst rows. rewrite in_map_iff. split.
        - intros ([k' x] & [= <- <-] & H). exists x. split; auto. apply In_dget; [apply G|]. apply (Permutation_in _ (P _ _)). exact H.
        - intros (x & -> & H). exists (k, x). split; auto. apply (Permutation_in _ (Permutation_sym (P _ _))). apply dget_In; auto. }
      destruct (rd_rebuild_good rows) as (ts & R & F).
      { intros k b H. apply RI in H as (x & -> & H). destruct (rg_ok s G _ _ H) as (t & D & _). eauto. }
      rewrite R, rd_drop_nil. split; auto. split; auto. exists (isort (all_le tnext) ts). pose proof (isort_perm (all_le tnext) ts) as PP.
      assert (MT : map tid ts = map fst rows).
      { assert (Q : forall kb t, In kb rows -> (match snd kb with Some x => de x | None => None end) = Some t -> tid t = fst kb).
        { intros [k b] t H D. apply RI in H as (x & -> & H). cbn in *. destruct (rg_ok s G _ _ H) as (t' & D' & E & _). congruence. }
        clear - F Q. induction F as [|kb t rows ts D F IH]; cbn; auto. rewrite (Q kb t (or_introl eq_refl) D), IH; auto with datatypes. }
      assert (IN : forall t, In t ts <-> r_abs s (tid t) = Some t).
      { intros t. split.
        - intros H. destruct (Forall2_In_r _ _ _ _ F H) as ([k b] & H1 & D). apply RI in H1 as (x & -> & H1). cbn in D. destruct (rg_ok s G _ _ H1) as (t' & D' & E & _). assert (t' = t) as -> by congruence. unfold r_abs. rewrite E, H1. auto.
        - unfold r_abs. destruct (dget (tid t) (rd_tasks s)) as [b|] eqn:D; [|discriminate]. intros A. destruct (Forall2_In_l _ _ _ (tid t, Some b) F) as (t' & H1 & H2); [apply RI; eauto|]. cbn in H2. congruence. }
      sp; auto.
      + split.
        * apply Permutation_NoDup with (map tid ts); [apply Permutation_map; symmetry; auto|]. rewrite MT. subst rows. rewrite map_map. cbn. apply Permutation_NoDup with (dkeys (rd_tasks s)); [|apply G].
          apply Permutation_map. symmetry. apply P.
        * intros i t. split.
          -- intros A. destruct (r_abs_iff s i t G A) as [E _]. split; auto. apply (Permutation_in _ (Permutation_sym PP)), IN. rewrite E; auto.
          -- intros [H <-]. apply (Permutation_in _ PP), IN in H. auto.
      + assert (RG : forall t x, In t (isort (all_le tnext) ts) -> tnext t = Some x -> x < paused_key).
        { intros t x H E. apply (Permutation_in _ PP), IN in H. apply (r_abs_iff s _ _ G) in H as [_ H]. rewrite E in H. symmetry in H. apply (rg_era s G) in H. lia. }
        assert (SS : StronglySorted (fun a b => all_le tnext a b = true) (isort (all_le tnext) ts)).
        { apply isort_sorted; unfold all_le; intros; lia. }
        revert RG SS. generalize (isort (all_le tnext) ts). clear. intros l RG SS. induction SS as [|t l S IH F]; constructor; [apply IH; eauto with datatypes|].
        apply Forall_forall. intros u Hu. rewrite Forall_forall in F. specialize (F u Hu). unfold all_le in F. unfold time_le.
        pose proof (fun x => RG t x (or_introl eq_refl)) as R1. pose proof (fun x => RG u x (or_intror Hu)) as R2. clear - F R1 R2.
        destruct (tnext t) as [x|], (tnext u) as [y|]; auto; try lia.
    - unfold rd_due, dspec_step. cbn. set (ids := map fst _). set (rows := map _ ids).
      assert (II : forall k, In k ids <-> exists x, dget k (rd_times s) = Some x /\ x <= now).
      { intros k. subst ids. rewrite in_map_iff. split.
        - intros ([k' x] & [= <-] & H). apply filter_In in H as [H1 H2]. exists x. split; [|cbn in H2; lia]. apply In_dget; [apply G|]. apply (Permutation_in _ (zset_perm _)). exact H1.
        - intros (x & D & H). exists (k, x). split; auto. apply filter_In. split; [apply (Permutation_in _ (Permutation_sym (zset_perm _))), dget_In; auto|]. apply (rg_era s G) in D. cbn. lia. }
      assert (RI : forall k b, In (k, b) rows -> In k ids /\ b = dget k (rd_tasks s)).
      { intros k b H. subst rows. apply in_map_iff in H as (k' & [= <- <-] & H). auto. }
      assert (HAS : forall k, In k ids -> exists b t x, dget k (rd_tasks s) = Some b /\ de b = Some t /\ tid t = k /\ tnext t = Some x /\ x <= now).
      { intros k H. apply II in H as (x & D & H). destruct (dget k (rd_tasks s)) as [b|] eqn:E; [|rewrite (rg_no s G k E) in D; discriminate].
        destruct (rg_ok s G _ _ E) as (t & D' & E1 & E2). exists b, t, x. rewrite D in E2. sp; auto. }
      destruct (rd_rebuild_good rows) as (ts & R & F).
      { intros k b H. apply RI in H as (H & ->). destruct (HAS k H) as (b & t & x & -> & D & _). eauto. }
      rewrite R, rd_drop_nil. split; auto. split; auto. exists ts.
      assert (F2 : Forall2 (fun kv t => tid t = fst kv /\ tnext t = Some (snd kv)) (filter (fun kv => (0 <=? snd kv) && (snd kv <=? now)) (zset (rd_times s))) ts).
      { assert (Z1 : forall kv, In kv (filter (fun kv => (0 <=? snd kv) && (snd kv <=? now)) (zset (rd_times s))) -> dget (fst kv) (rd_times s) = Some (snd kv)).
        { intros [k x] H. apply filter_In in H as [H _]. cbn. apply In_dget; [apply G|]. apply (Permutation_in _ (zset_perm _)). exact H. }
        clear R II HAS RI. subst rows ids. rewrite map_map in F. revert ts F. generalize dependent (filter (fun kv : string * Z => (0 <=? snd kv) && (snd kv <=? now)) (zset (rd_times s))). intros l Z1.
        induction l as [|kv l IH]; cbn; intros ts F; inversion F as [|? t ? ? D F']; subst; constructor; [|apply IH; auto with datatypes]. cbn in D.
        destruct (dget (fst kv) (rd_tasks s)) as [b|] eqn:E; [|discriminate]. destruct (rg_ok s G _ _ E) as (t' & D' & E1 & E2). assert (t' = t) as -> by congruence.
        rewrite E2. split; [congruence|]. apply Z1. left. reflexivity. }
      sp.
      + reflexivity.
      + replace (map tid ts) with ids.
        * subst ids. apply (NoDup_filter_map fst). apply Permutation_NoDup with (dkeys (rd_times s)); [apply Permutation_map; symmetry; apply zset_perm|apply G].
        * subst ids. clear - F2. induction F2 as [|kv t l ts [E _] F IH]; cbn; auto. congruence.
      + eapply Forall2_sorted with (2 := F2) (R := fun a b => snd a <= snd b); [|apply Sorted_filter, zset_sorted].
        intros a b a' b' [_ E1] [_ E2] H. unfold time_le. rewrite E1, E2. exact H.
      + intros t. split.
        * intros H. destruct (Forall2_In_r _ _ _ _ F H) as ([k b] & H1 & D). apply RI in H1 as [H1 ->]. cbn in D. destruct (HAS k H1) as (b & t' & x & E & D' & E1 & E2 & LE). rewrite E in D. assert (t' = t) as -> by congruence.
          unfold r_abs. rewrite E1, E. split; auto. exists x. auto.
        * intros [A (x & E & LE)]. destruct (r_abs_iff s _ _ G A) as [_ E2]. rewrite E in E2. symmetry in E2.
          assert (HI : In (tid t) ids) by (apply II; eauto). destruct (Forall2_In_l _ _ _ (tid t, dget (tid t) (rd_tasks s)) F) as (t' & H1 & H2); [subst rows; apply in_map_iff; eauto|].
          cbn in H2. unfold r_abs in A. congruence.
    - split; auto. unfold dspec_step. cbn. split; auto. eexists. split; [reflexivity|].
      pose proof (zset_perm (rd_times s)) as ZP. pose proof (zset_sorted (rd_times s)) as ZS.
      assert (UP : forall i t w, r_abs s i = Some t -> tnext t = Some w -> In (i, w) (zset (rd_times s))).
      { intros i t w A W. destruct (r_abs_iff s _ _ G A) as [_ E]. apply (Permutation_in _ (Permutation_sym ZP)), dget_In. congruence. }
      destruct (zset (rd_times s)) as [|[k x] l]; cbn.
      + intros i t A. destruct (tnext t) as [w|] eqn:W; auto. destruct (UP i t w A W).
      + split.
        * assert (D : dget k (rd_times s) = Some x) by (apply In_dget; [apply G|]; apply (Permutation_in _ ZP); left; auto).
          destruct (dget k (rd_tasks s)) as [b|] eqn:E; [|rewrite (rg_no s G k E) in D; discriminate].
          destruct (rg_ok s G _ _ E) as (t & D' & E1 & E2). exists k, t. unfold r_abs. rewrite E. split; congruence.
        * intros i t w A W. destruct (UP i t w A W) as [[= <- <-]|H]; [lia|]. inversion ZS as [|? ? _ FA]; subst. rewrite Forall_forall in FA. apply (FA (i, w) H).
  Qed.
End Proofs2.
