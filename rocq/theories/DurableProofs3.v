From Verif Require Import Prelude PreludeFacts MemStore StoreSpec SortList Durable DurableSpec DurableProofs.
From Coq Require Import Sorting.Sorted Sorting.Permutation.
Open Scope Z_scope.

Lemma str_len_app a b : String.length (a ++ b)%string = (String.length a + String.length b)%nat.
Proof. induction a; cbn; auto. Qed.
Lemma app_str_inv a b s : (a ++ s)%string = (b ++ s)%string -> a = b.
Proof.
  revert b. induction a as [|c a IH]; destruct b as [|c' b]; cbn; intros H; auto.
  - apply (f_equal String.length) in H. cbn in H. rewrite str_len_app in H. lia.
  - apply (f_equal String.length) in H. cbn in H. rewrite str_len_app in H. lia.
  - injection H as -> H. f_equal. auto.
Qed.
Lemma ends_with_app suffix p : ends_with suffix (p ++ suffix)%string = true.
Proof. induction p as [|c p IH]; cbn. - destruct suffix; cbn; auto. rewrite Ascii.eqb_refl, String.eqb_refl. auto. - rewrite IH. apply orb_true_r. Qed.
Lemma ends_with_inv suffix n : ends_with suffix n = true -> exists p, n = (p ++ suffix)%string.
Proof.
  induction n as [|c n IH]; cbn [ends_with]; intros H; apply orb_prop in H as [H|H].
  - apply String.eqb_eq in H. exists ""%string. auto.
  - discriminate.
  - apply String.eqb_eq in H. exists ""%string. auto.
  - destruct (IH H) as [p ->]. exists (String c p). auto.
Qed.

Section FileProofs.
  Context {T : Type} (tid : T -> string) (tnext : T -> option Z).
  Context (ser : string -> T -> result string) (de : string -> option T) (back : T -> T) (suffix : string).
  Notation fname := (fname suffix). Notation ends := (ends_with suffix).
  Notation ok_op := (ok_op tid tnext ser de back).

  Definition f_abs (d : folder) : content := fun i => match dget (fname i) d with Some b => de b | None => None end.
  Record f_good (d : folder) : Prop := {
    fg_nd : NoDup (dkeys d);
    fg_ok : forall n b, dget n d = Some b -> ends n = true -> exists t, de b = Some t /\ n = fname (tid t) }.
  (** valid ids and tasks that can be serialised *)
  Definition file_op (eo : senv * sop T) : Prop :=
    match snd eo with
    | SAdd t | SUpdate t => valid_id (tid t) = true /\ exists b, ser (nonce (fst eo)) t = Ok b
    | SDelete id | SLookup id => valid_id id = true
    | _ => True
    end.

  Lemma fname_inj i j : fname i = fname j -> i = j. Proof. apply app_str_inv. Qed.
  Lemma fname_ends i : ends (fname i) = true. Proof. apply ends_with_app. Qed.
  Lemma f_set d t b : f_good d -> de b = Some (back t) -> tid (back t) = tid t ->
    f_good (dset (fname (tid t)) b d) /\ forall i, f_abs (dset (fname (tid t)) b d) i = c_set tid (f_abs d) (back t) i.
  Proof.
    intros [ND OK] D E. split; [constructor|].
    - apply dset_NoDup; auto.
    - intros n b'. destruct (string_dec n (fname (tid t))) as [->|N]; [rewrite dget_dset_eq; intros [= <-] _; exists (back t); rewrite E; auto|]. rewrite dget_dset_ne by auto. apply OK.
    - intros i. unfold f_abs, c_set. rewrite E. destruct (String.eqb_spec i (tid t)) as [->|N]; [rewrite dget_dset_eq; auto|]. rewrite dget_dset_ne; auto. intros H. apply N, fname_inj, H.
  Qed.
  Lemma f_del d id : f_good d -> f_good (ddel (fname id) d) /\ forall i, f_abs (ddel (fname id) d) i = c_del (f_abs d) id i.
  Proof.
    intros [ND OK]. split; [constructor|].
    - apply ddel_NoDup; auto.
    - intros n b'. destruct (string_dec n (fname id)) as [->|N]; [rewrite dget_ddel_eq; discriminate|]. rewrite dget_ddel_ne by auto. apply OK.
    - intros i. unfold f_abs, c_del. destruct (String.eqb_spec i id) as [->|N]; [rewrite dget_ddel_eq; auto|]. rewrite dget_ddel_ne; auto. intros H. apply N, fname_inj, H.
  Qed.
  Lemma f_abs_tid d i t : f_good d -> f_abs d i = Some t -> tid t = i.
  Proof.
    intros G A. unfold f_abs in A. destruct (dget (fname i) d) as [b|] eqn:D; [|discriminate]. destruct (fg_ok d G _ _ D (fname_ends i)) as (t' & D' & E).
    apply fname_inj in E. congruence.
  Qed.
  Lemma f_has d i b : f_good d -> dget (fname i) d = Some b -> exists t, f_abs d i = Some t /\ de b = Some t.
  Proof. intros G D. unfold f_abs. rewrite D. destruct (fg_ok d G _ _ D (fname_ends i)) as (t & D' & _). eauto. Qed.

  Lemma file_tasks_ok e d : f_good d -> (forall A (l : list A), Permutation (pm e A l) l) ->
    exists ts, file_tasks tnext de suffix e d = (d, ts) /\ lists tid (f_abs d) ts /\ StronglySorted (time_le tnext) ts.
  Proof.
    intros G P. unfold file_tasks. set (rows := filter _ _).
    assert (RI : forall n b, In (n, b) rows <-> dget n d = Some b /\ ends n = true).
    { intros n b. subst rows. rewrite filter_In. cbn. split; intros [H1 H2]; split; auto.
      - apply In_dget; [apply G|]. apply (Permutation_in _ (P _ _)). exact H1.
      - apply (Permutation_in _ (Permutation_sym (P _ _))). apply dget_In. exact H1. }
    destruct (rebuild_good de rows) as (ts & R & F).
    { intros n b H. apply RI in H as [H1 H2]. destruct (fg_ok d G _ _ H1 H2) as (t & D & _). eauto. }
    rewrite R, drop_all_nil. exists (isort (task_le tnext) ts). split; [reflexivity|].
    pose proof (isort_perm (task_le tnext) ts) as PP. split; [split|].
    - apply Permutation_NoDup with (map tid ts); [apply Permutation_map; symmetry; auto|].
      assert (ND : NoDup (map fst rows)).
      { apply (NoDup_filter_map fst). apply Permutation_NoDup with (dkeys d); [apply Permutation_map; symmetry; apply P|apply G]. }
      assert (MT : map fname (map tid ts) = map fst rows).
      { assert (Q : forall nb t, In nb rows -> de (snd nb) = Some t -> fname (tid t) = fst nb).
        { intros [n b] t H D. apply RI in H as [H1 H2]. destruct (fg_ok d G _ _ H1 H2) as (t' & D' & E). cbn in *. congruence. }
        clear - F Q. induction F as [|nb t rows ts D F IH]; cbn; auto. rewrite (Q nb t (or_introl eq_refl) D), IH; auto with datatypes. }
      rewrite <- MT in ND. apply NoDup_map_inv in ND. exact ND.
    - intros i t. split.
      + intros A. pose proof (f_abs_tid d i t G A) as E. split; auto. apply (Permutation_in _ (Permutation_sym PP)).
        unfold f_abs in A. destruct (dget (fname i) d) as [b|] eqn:D; [|discriminate].
        destruct (Forall2_In_l _ _ _ (fname i, b) F) as (t' & H1 & H2); [apply RI; split; auto; apply fname_ends|]. cbn in H2. congruence.
      + intros [H <-]. apply (Permutation_in _ PP) in H. destruct (Forall2_In_r _ _ _ _ F H) as ([n b] & H1 & D). apply RI in H1 as [H1 H2]. cbn in D.
        destruct (fg_ok d G _ _ H1 H2) as (t' & D' & E). assert (t' = t) as -> by congruence. unfold f_abs. rewrite <- E, H1. auto.
    - eapply Sorted_impl; [|apply isort_sorted].
      + intros a b H. unfold task_le, tltb in H. unfold time_le. destruct (tnext a), (tnext b); auto; cbn in H; try discriminate; lia.
      + intros a b. unfold task_le, tltb. destruct (tnext a), (tnext b); cbn; auto; lia.
      + intros a b c. unfold task_le, tltb. destruct (tnext a), (tnext b), (tnext c); cbn; auto; try discriminate; lia.
  Qed.
  (** on a sorted list the scan keeps the first value *)
  Lemma next_loop_first l a : (forall t, In t l -> match tnext t with Some x => a <= x | None => True end) -> StronglySorted (time_le tnext) l -> next_loop tnext (Some a) l = Some a.
  Proof.
    intros H S. revert H. induction S as [|t l S IH F]; cbn; intros H; auto. pose proof (H t (or_introl eq_refl)) as Ht. destruct (tnext t) as [x|]; auto.
    destruct (Z.leb_spec x a); [assert (x = a) as -> by lia|]; apply IH; intros u Hu; apply H; right; exact Hu.
  Qed.

  Lemma file_ok d eo : f_good d -> ok_op eo -> file_op eo ->
    let (d', r) := file_step tid tnext ser de suffix d eo in f_good d' /\ dspec_step tid tnext ser back (f_abs d) eo r (f_abs d').
  Proof.
    intros G K FO. destruct eo as [e o]. pose proof (proj1 K) as P. cbn in P. destruct o as [t|t|id| |id| |now|]; cbn [file_step]; unfold file_op in FO; cbn in FO.
    - destruct FO as (V & b & S). rewrite V, S. cbn [negb]. unfold dspec_step. cbn. rewrite S. destruct (proj2 K t eq_refl b S) as (D & E1 & E2). rewrite E1.
      destruct (dmem (fname (tid t)) d) eqn:M.
      + apply dmem_true in M as [b' M]. destruct (f_has d _ _ G M) as (t' & -> & _). auto.
      + apply dmem_false in M. unfold f_abs at 1. rewrite M. destruct (f_set d t b G D E1). auto.
    - destruct FO as (V & b & S). rewrite V, S. cbn [negb]. unfold dspec_step. cbn. rewrite S. destruct (proj2 K t eq_refl b S) as (D & E1 & E2). rewrite E1.
      destruct (dmem (fname (tid t)) d) eqn:M; cbn.
      + apply dmem_true in M as [b' M]. destruct (f_has d _ _ G M) as (t' & -> & _). destruct (f_set d t b G D E1). auto.
      + apply dmem_false in M. unfold f_abs at 1. rewrite M. auto.
    - rewrite FO. cbn [negb]. unfold dspec_step. cbn. destruct (dmem (fname id) d) eqn:M.
      + apply dmem_true in M as [b' M]. destruct (f_has d _ _ G M) as (t' & -> & _). destruct (f_del d id G). auto.
      + apply dmem_false in M. unfold f_abs at 1. rewrite M. auto.
    - unfold dspec_step. cbn.
      assert (Q : forall n, ends n = true -> dget n (filter (fun kv => negb (ends (fst kv))) d) = None).
      { intros n E. apply dget_None. intros H. apply in_map_iff in H as ([n' b] & <- & H). apply filter_In in H as [_ H]. cbn in *. rewrite E in H. discriminate. }
      split.
      + constructor.
        * apply (NoDup_filter_map fst). apply G.
        * intros n b D E. rewrite Q in D; auto. discriminate.
      + split; auto. intros i. unfold f_abs. rewrite Q; auto. apply fname_ends.
    - unfold file_lookup, dspec_step. rewrite FO. cbn [negb]. cbn. destruct (dget (fname id) d) as [b|] eqn:D.
      + destruct (f_has d _ _ G D) as (t & A & ->). rewrite A. auto.
      + unfold f_abs at 1. rewrite D. auto.
    - destruct (file_tasks_ok e d G P) as (ts & -> & L & S). unfold dspec_step. cbn. split; auto. split; auto. exists ts. auto.
    - destruct (file_tasks_ok e d G P) as (ts & -> & [L1 L2] & S). unfold dspec_step. cbn. split; auto. split; auto. eexists. split; [reflexivity|]. sp.
      + apply NoDup_filter_map. exact L1.
      + apply Sorted_filter. exact S.
      + intros t. rewrite filter_In. split.
        * intros [H1 H2]. split; [apply L2; auto|]. unfold is_due. destruct (tnext t) as [x|]; [|discriminate]. exists x. split; auto. lia.
        * intros [A (x & E & LE)]. split; [apply (proj1 (L2 (tid t) t)); auto|]. rewrite E. lia.
    - destruct (file_tasks_ok e d G P) as (ts & -> & [L1 L2] & S). unfold dspec_step. cbn. split; auto. split; auto. eexists. split; [reflexivity|].
      destruct S as [|t l S F]; cbn; [intros i t A; apply L2 in A as [[] _]|]. rewrite Forall_forall in F. destruct (tnext t) as [x|] eqn:E.
      + rewrite next_loop_first; auto; [|intros u Hu; specialize (F u Hu); unfold time_le in F; rewrite E in F; auto]. cbn. split.
        * exists (tid t), t. split; auto. apply L2. auto with datatypes.
        * intros i u w A W. apply L2 in A as [[<-|H] _]; [rewrite E in W; injection W as <-; lia|]. specialize (F u H). unfold time_le in F. rewrite E, W in F. exact F.
      + cbn. intros i u A. apply L2 in A as [[<-|H] _]; auto. specialize (F u H). unfold time_le in F. rewrite E in F. destruct (tnext u); auto. contradiction.
  Qed.
End FileProofs.
