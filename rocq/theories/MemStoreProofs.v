From Verif Require Import Prelude PreludeFacts MemStore StoreSpec.
From Coq Require Import Sorting.Sorted Sorting.Permutation.

(** ** generic facts about strongly sorted lists *)
Section SortedFacts.
  Context {A : Type} (R : A -> A -> Prop).
  Lemma SS_app_iff l1 l2 :
    StronglySorted R (l1 ++ l2) <->
    StronglySorted R l1 /\ StronglySorted R l2 /\ (forall a b, In a l1 -> In b l2 -> R a b).
  Proof.
    induction l1 as [|x l1 IH]; cbn.
    - split; [intros H; repeat split; auto; [constructor|intuition]|intuition].
    - split.
      + intros H; inversion H as [|? ? Hs Hf]; subst. apply IH in Hs as (H1 & H2 & H3).
        rewrite Forall_forall in Hf. repeat split; auto.
        * constructor; auto. apply Forall_forall. intros y Hy. apply Hf, in_or_app; auto.
        * intros a b [Ha|Ha] Hb; subst; auto. apply Hf, in_or_app; auto.
      + intros (H1 & H2 & H3). inversion H1 as [|? ? Hs Hf]; subst. constructor.
        * apply IH. repeat split; auto.
        * apply Forall_forall. intros y Hy. apply in_app_or in Hy as [Hy|Hy]; auto.
          rewrite Forall_forall in Hf; auto.
  Qed.
  Lemma SS_nth_lt l i j a b :
    StronglySorted R l -> i < j -> nth_error l i = Some a -> nth_error l j = Some b -> R a b.
  Proof.
    intros H. revert i j. induction H as [|x l Hs IH Hf]; intros [|i] [|j] Hij Ha Hb; cbn in *; try lia; try congruence.
    - inversion Ha; subst. rewrite Forall_forall in Hf. apply Hf. eapply nth_error_In; eauto.
    - apply (IH i j); auto; lia.
  Qed.
  Lemma SS_map {B} (f : B -> A) l :
    StronglySorted R (map f l) <-> StronglySorted (fun a b => R (f a) (f b)) l.
  Proof.
    induction l as [|x l IH]; cbn; split; intros H; try constructor; inversion H as [|? ? Hs Hf]; subst.
    - apply IH; auto.
    - rewrite Forall_map in Hf. exact Hf.
    - apply IH; auto.
    - apply Forall_map. exact Hf.
  Qed.
  Lemma SS_weaken (R' : A -> A -> Prop) l :
    (forall a b, In a l -> In b l -> R a b -> R' a b) -> StronglySorted R l -> StronglySorted R' l.
  Proof.
    intros HR H; induction H as [|x l Hs IH Hf]; constructor.
    - apply IH. intros a b Ha Hb. apply HR; right; auto.
    - rewrite Forall_forall in *. intros y Hy. apply HR; auto; [left|right]; auto.
  Qed.
End SortedFacts.

Section Proofs.
  Context {T : Type} (tid : T -> string) (tnext : T -> option Z).
  Notation entry := (T * option Z)%type.

  Definition ekey (e : entry) : key := (snd e, tid (fst e)).
  Definition elt (a b : entry) : Prop := key_lt (ekey a) (ekey b).

  (** representation invariant *)
  Record Inv (s : memstore T) : Prop := {
    inv_sorted : StronglySorted elt (ms_tasks s);
    inv_ts : forall e, In e (ms_tasks s) -> snd e = tnext (fst e);
    inv_idx : forall i e, dget i (ms_index s) = Some e <-> (In e (ms_tasks s) /\ tid (fst e) = i) }.

  Definition ms_content (s : memstore T) : content := fun i => ms_lookup s i.

  (** *** binary search *)
  Lemma gti_loop_spec tasks ts id :
    StronglySorted elt tasks ->
    forall fuel low high,
    low <= high <= List.length tasks -> high - low < fuel ->
    (forall j e, j < low -> nth_error tasks j = Some e -> key_lt (ekey e) (ts, id)) ->
    (forall j e, high <= j -> nth_error tasks j = Some e -> key_lt (ts, id) (ekey e)) ->
    exists i, gti_loop tid fuel tasks ts id low high = Some i /\ i <= List.length tasks /\
      (forall j e, j < i -> nth_error tasks j = Some e -> key_lt (ekey e) (ts, id)) /\
      (forall j e, i <= j -> nth_error tasks j = Some e ->
           key_lt (ts, id) (ekey e) \/ (j = i /\ ekey e = (ts, id))).
  Proof.
    intros Hs. induction fuel as [|fuel IH]; intros low high Hr Hf Hlo Hhi; [lia|].
    cbn [gti_loop]. destruct (Nat.ltb_spec low high) as [Hlt|Hge].
    2:{ exists low. repeat split; auto; try lia. intros j e Hj He. left. apply (Hhi j e); auto; lia. }
    set (mid := (low + high) / 2).
    assert (Hmid : low <= mid < high).
    { unfold mid. pose proof (Nat.div_mod (low + high) 2 ltac:(lia)).
      pose proof (Nat.mod_upper_bound (low + high) 2 ltac:(lia)). lia. }
    destruct (nth_error tasks mid) as [[mt mts]|] eqn:Em.
    2:{ apply nth_error_None in Em. lia. }
    assert (HbelowMid : forall P : Prop, (key_lt (ekey (mt, mts)) (ts, id)) ->
             forall j e, j < mid + 1 -> nth_error tasks j = Some e -> key_lt (ekey e) (ts, id)).
    { intros _ Hk j e Hj He. destruct (Nat.eq_dec j mid) as [->|Hne].
      - rewrite Em in He; inversion He; subst; auto.
      - eapply key_lt_trans; [|exact Hk]. eapply (SS_nth_lt elt tasks j mid); auto; lia. }
    assert (HaboveMid : key_lt (ts, id) (ekey (mt, mts)) ->
             forall j e, mid <= j -> nth_error tasks j = Some e -> key_lt (ts, id) (ekey e)).
    { intros Hk j e Hj He. destruct (Nat.eq_dec j mid) as [->|Hne].
      - rewrite Em in He; inversion He; subst; auto.
      - eapply key_lt_trans; [exact Hk|]. eapply (SS_nth_lt elt tasks mid j); auto; lia. }
    destruct (tltb ts mts) eqn:E1.
    { apply IH; try lia; auto. apply HaboveMid. left; exact E1. }
    destruct (tltb mts ts) eqn:E2.
    { apply IH; try lia; auto. apply (HbelowMid True). left; exact E2. }
    assert (Ets : mts = ts).
    { destruct (tltb_total mts ts) as [?|[?|?]]; congruence. }
    destruct (str_ltb id (tid mt)) eqn:E3.
    { apply IH; try lia; auto. apply HaboveMid. right; cbn; auto. }
    destruct (str_ltb (tid mt) id) eqn:E4.
    { apply IH; try lia; auto. apply (HbelowMid True). right; cbn; auto. }
    assert (Eid : tid mt = id).
    { destruct (str_ltb_total (tid mt) id) as [?|[?|?]]; congruence. }
    exists mid. subst ts id. repeat split; auto; try lia.
    - intros j e Hj He. change (mts, tid mt) with (ekey (mt, mts)).
      eapply (SS_nth_lt elt tasks j mid); eauto.
    - intros j e Hj He. destruct (Nat.eq_dec j mid) as [->|Hne].
      + right. rewrite Em in He; inversion He; subst; auto.
      + left. change (mts, tid mt) with (ekey (mt, mts)). eapply (SS_nth_lt elt tasks mid j); auto; lia.
  Qed.

  Lemma get_task_index_spec tasks ts id :
    StronglySorted elt tasks ->
    exists i, get_task_index tid tasks ts id = Ok i /\ i <= List.length tasks /\
      (forall j e, j < i -> nth_error tasks j = Some e -> key_lt (ekey e) (ts, id)) /\
      (forall j e, i <= j -> nth_error tasks j = Some e ->
           key_lt (ts, id) (ekey e) \/ (j = i /\ ekey e = (ts, id))).
  Proof.
    intros Hs. destruct (gti_loop_spec tasks ts id Hs (S (List.length tasks)) 0 (List.length tasks))
      as (i & H & ?); try lia.
    - intros j e Hj He. 
      assert (nth_error tasks j <> None) by congruence. apply nth_error_Some in H. lia.
    - exists i. unfold get_task_index. rewrite H. auto.
  Qed.

  Lemma In_firstn_nth (l : list entry) i e :
    In e (firstn i l) -> exists j, j < i /\ nth_error l j = Some e.
  Proof.
    intros H. apply In_nth_error in H as [j Hj].
    assert (j < i).
    { assert (nth_error (firstn i l) j <> None) by congruence. apply nth_error_Some in H.
      rewrite firstn_length in H. lia. }
    exists j; split; auto.
    rewrite <- (firstn_skipn i l). rewrite nth_error_app1; [auto|].
    apply nth_error_Some. congruence.
  Qed.
  Lemma In_skipn_nth (l : list entry) i e :
    In e (skipn i l) -> exists j, i <= j /\ nth_error l j = Some e.
  Proof.
    intros H. destruct (le_lt_dec (List.length l) i) as [Hl|Hl].
    { rewrite skipn_all2 in H by lia. destruct H. }
    apply In_nth_error in H as [j Hj].
    exists (i + j). split; [lia|]. rewrite <- (firstn_skipn i l).
    rewrite nth_error_app2; rewrite firstn_length_le by lia; [|lia].
    replace (i + j - i) with j by lia. auto.
  Qed.

  (** inserting a key that is not present *)
  Lemma insert_sorted tasks ts id t :
    StronglySorted elt tasks -> tid t = id ->
    (forall e, In e tasks -> ekey e <> (ts, id)) ->
    exists i, get_task_index tid tasks ts id = Ok i /\ i <= List.length tasks /\
      StronglySorted elt (insert_at i (t, ts) tasks).
  Proof.
    intros Hs Ht Hno. destruct (get_task_index_spec tasks ts id Hs) as (i & Hi & Hlen & Hlo & Hhi).
    exists i. repeat split; auto. unfold insert_at.
    rewrite <- (firstn_skipn i tasks) in Hs.
    apply SS_app_iff in Hs as (H1 & H2 & H3).
    apply SS_app_iff. repeat split; auto.
    - constructor; auto. apply Forall_forall. intros e He.
      apply In_skipn_nth in He as (j & Hj & He).
      destruct (Hhi j e Hj He) as [H|[_ H]].
      + unfold elt, ekey in *; cbn in *; rewrite Ht; exact H.
      + exfalso. eapply Hno; [eapply nth_error_In; eauto|exact H].
    - intros a b Ha [Hb|Hb].
      + subst b. apply In_firstn_nth in Ha as (j & Hj & He).
        specialize (Hlo j a Hj He). unfold elt, ekey in *; cbn in *; rewrite Ht; exact Hlo.
      + auto.
  Qed.

  (** finding a key that is present *)
  Lemma find_sorted tasks e :
    StronglySorted elt tasks -> In e tasks ->
    exists i, get_task_index tid tasks (snd e) (tid (fst e)) = Ok i /\ nth_error tasks i = Some e.
  Proof.
    intros Hs He. destruct (get_task_index_spec tasks (snd e) (tid (fst e)) Hs) as (i & Hi & Hlen & Hlo & Hhi).
    exists i. split; auto. apply In_nth_error in He as [j Hj].
    destruct (lt_dec j i) as [Hlt|Hge].
    - specialize (Hlo j e Hlt Hj). exfalso. eapply key_lt_irrefl; eauto.
    - destruct (Hhi j e ltac:(lia) Hj) as [H|[Heq _]].
      + exfalso. eapply key_lt_irrefl; exact H.
      + congruence.
  Qed.

  Lemma nodup_of_sorted l e i j :
    StronglySorted elt l -> nth_error l i = Some e -> nth_error l j = Some e -> i = j.
  Proof.
    intros Hs Hi Hj. destruct (lt_eq_lt_dec i j) as [[H|H]|H]; auto; exfalso;
      apply (key_lt_irrefl (ekey e)); [apply (SS_nth_lt elt l i j)|apply (SS_nth_lt elt l j i)]; auto.
  Qed.

  Lemma In_insert_at (i : nat) (x e : entry) l : In e (insert_at i x l) <-> e = x \/ In e l.
  Proof.
    unfold insert_at. rewrite in_app_iff. cbn.
    rewrite <- (firstn_skipn i l) at 3. rewrite in_app_iff. intuition.
  Qed.

  (** removing position [i] removes exactly the entry there *)
  Lemma In_remove_at (i : nat) (x e : entry) l :
    StronglySorted elt l -> nth_error l i = Some x ->
    (In e (firstn i l ++ skipn (S i) l) <-> (In e l /\ e <> x)).
  Proof.
    intros Hs Hi. pose proof (firstn_skipn_nth _ _ _ Hi) as Hsplit.
    rewrite in_app_iff. split.
    - intros H. split.
      + rewrite Hsplit. rewrite in_app_iff. cbn. intuition.
      + intros ->. rewrite Hsplit in Hs. apply SS_app_iff in Hs as (_ & Hs2 & Hx).
        destruct H as [H|H].
        * eapply key_lt_irrefl. apply (Hx x x H). left; reflexivity.
        * inversion Hs2 as [|? ? _ Hf]; subst. rewrite Forall_forall in Hf.
          eapply key_lt_irrefl. apply (Hf x H).
    - intros [H Hne]. rewrite Hsplit in H. rewrite in_app_iff in H. cbn in H. intuition congruence.
  Qed.

  Lemma SS_remove_at (i : nat) l : StronglySorted elt l -> StronglySorted elt (firstn i l ++ skipn (S i) l).
  Proof.
    intros Hs. destruct (nth_error l i) as [x|] eqn:Hi.
    - pose proof (firstn_skipn_nth _ _ _ Hi) as Hsplit. rewrite Hsplit in Hs.
      apply SS_app_iff in Hs as (H1 & H2 & H3). apply SS_app_iff. inversion H2; subst.
      repeat split; auto. intros a b Ha Hb. apply H3; auto. right; auto.
    - apply nth_error_None in Hi. rewrite firstn_all2, skipn_all2, app_nil_r by lia. auto.
  Qed.

  (** *** the invariant is kept and the operations answer like the map *)
  Lemma inv_empty : Inv ms_empty.
  Proof.
    constructor; cbn; [constructor|intuition|]. intros i e; split; [congruence|intuition].
  Qed.

  Lemma idx_none s i : Inv s -> dget i (ms_index s) = None -> forall e, In e (ms_tasks s) -> tid (fst e) <> i.
  Proof.
    intros HI Hn e He Hid. assert (dget i (ms_index s) = Some e) by (apply (inv_idx s HI); auto). congruence.
  Qed.

  Lemma insert_step s t :
    Inv s -> dget (tid t) (ms_index s) = None ->
    exists i, get_task_index tid (ms_tasks s) (tnext t) (tid t) = Ok i /\
      let s' := MkMem (insert_at i (t, tnext t) (ms_tasks s)) (dset (tid t) (t, tnext t) (ms_index s)) in
      Inv s' /\ forall j, ms_content s' j = c_set tid (ms_content s) t j.
  Proof.
    intros HI Hn. destruct (insert_sorted (ms_tasks s) (tnext t) (tid t) t) as (i & Hi & Hlen & Hs'); auto.
    { apply HI. }
    { intros e He Hk. eapply idx_none; eauto. unfold ekey in Hk; inversion Hk; auto. }
    exists i; split; auto. cbn zeta. split.
    - constructor; cbn; auto.
      + intros e He. apply In_insert_at in He as [->|He]; [reflexivity|apply HI; auto].
      + intros j e. destruct (string_dec j (tid t)) as [->|Hne].
        * rewrite dget_dset_eq, In_insert_at. split.
          -- intros H; inversion H; subst; auto.
          -- intros [[->|He] Hid]; [reflexivity|]. exfalso. eapply idx_none; eauto.
        * rewrite dget_dset_ne by auto. rewrite In_insert_at, (inv_idx s HI). split; [intuition|].
          intros [[->|He] Hid]; [cbn in Hid; congruence|auto].
    - intros j. unfold ms_content, ms_lookup, c_set; cbn.
      destruct (String.eqb_spec j (tid t)) as [->|Hne]; [now rewrite dget_dset_eq|now rewrite dget_dset_ne].
  Qed.

  Lemma add_ok s t : Inv s ->
    let (s', r) := ms_add tid tnext s t in
    Inv s' /\
    match ms_content s (tid t) with
    | Some _ => r = Err ConflictIdError /\ s' = s
    | None => r = Ok tt /\ forall j, ms_content s' j = c_set tid (ms_content s) t j
    end.
  Proof.
    intros HI. unfold ms_add, dmem, ms_content, ms_lookup.
    destruct (dget (tid t) (ms_index s)) as [[t0 ts0]|] eqn:E; [auto|].
    destruct (insert_step s t HI E) as (i & Hi & HI' & Hc). rewrite Hi. auto.
  Qed.

  Lemma update_ok s t : Inv s ->
    let (s', r) := ms_update tid tnext s t in
    Inv s' /\ r = Ok tt /\ forall j, ms_content s' j = c_set tid (ms_content s) t j.
  Proof.
    intros HI. unfold ms_update.
    destruct (dget (tid t) (ms_index s)) as [[old ots]|] eqn:E.
    2:{ destruct (insert_step s t HI E) as (i & Hi & HI' & Hc). rewrite Hi. auto. }
    pose proof E as E0. apply (inv_idx s HI) in E as [HIn Hid]. cbn in Hid.
    destruct (find_sorted (ms_tasks s) (old, ots) (inv_sorted s HI) HIn) as (oi & Hoi & Hnth).
    cbn in Hoi. rewrite Hoi.
    assert (Hlt : oi < List.length (ms_tasks s)) by (apply nth_error_Some; congruence).
    assert (Hcontent : forall l j, ms_content (MkMem l (dset (tid t) (t, tnext t) (ms_index s))) j
                              = c_set tid (ms_content s) t j).
    { intros l j. unfold ms_content, ms_lookup, c_set; cbn.
      destruct (String.eqb_spec j (tid t)) as [->|Hne]; [now rewrite dget_dset_eq|now rewrite dget_dset_ne]. }
    destruct (teqb ots (tnext t)) eqn:Et.
    - apply teqb_eq in Et. unfold set_at. rewrite (proj2 (Nat.ltb_lt _ _) Hlt).
      split; [|split; auto; reflexivity].
      pose proof (firstn_skipn_nth _ _ _ Hnth) as Hsplit.
      assert (Hek : ekey (t, tnext t) = ekey (old, ots)) by (unfold ekey; cbn; congruence).
      assert (Hs' : StronglySorted elt (firstn oi (ms_tasks s) ++ (t, tnext t) :: skipn (S oi) (ms_tasks s))).
      { pose proof (inv_sorted s HI) as Hs. rewrite Hsplit in Hs.
        apply SS_app_iff in Hs as (H1 & H2 & H3). apply SS_app_iff. apply StronglySorted_inv in H2 as [H4 H5].
        repeat split; auto.
        - constructor; auto. rewrite Forall_forall in *. intros e He. unfold elt. rewrite Hek. apply H5; auto.
        - intros a b Ha [Hb|Hb]; [subst b|].
          + unfold elt. rewrite Hek. apply (H3 a (old, ots)); auto. left; auto.
          + apply H3; auto. right; auto. }
      assert (HIn' : forall e, In e (firstn oi (ms_tasks s) ++ (t, tnext t) :: skipn (S oi) (ms_tasks s)) <->
                          e = (t, tnext t) \/ (In e (ms_tasks s) /\ e <> (old, ots))).
      { intros e. rewrite <- (In_remove_at oi (old, ots) e _ (inv_sorted s HI) Hnth).
        rewrite !in_app_iff; cbn. intuition. }
      constructor; cbn; auto.
      + intros e He. apply HIn' in He as [->|[He _]]; [reflexivity|apply HI; auto].
      + intros j e. rewrite HIn'. destruct (string_dec j (tid t)) as [->|Hne].
        * rewrite dget_dset_eq. split; [intros H; inversion H; auto|].
          intros [[->|[He Hne]] Hj]; [reflexivity|]. exfalso. apply Hne.
          assert (dget (tid t) (ms_index s) = Some e) by (apply (inv_idx s HI); auto). congruence.
        * rewrite dget_dset_ne by auto. rewrite (inv_idx s HI). split.
          -- intros [He Hj]. split; auto. right; split; auto. intros ->. cbn in Hj; congruence.
          -- intros [[->|[He _]] Hj]; [cbn in Hj; congruence|auto].
    - unfold del_at. rewrite (proj2 (Nat.ltb_lt _ _) Hlt).
      set (l := firstn oi (ms_tasks s) ++ skipn (S oi) (ms_tasks s)).
      assert (HInl : forall e, In e l <-> In e (ms_tasks s) /\ e <> (old, ots)).
      { intros e. apply In_remove_at; auto. apply HI. }
      destruct (insert_sorted l (tnext t) (tid t) t) as (ni & Hni & Hlen & Hs'); auto.
      { apply SS_remove_at. apply HI. }
      { intros e He Hk. apply HInl in He as [He Hne]. apply Hne.
        assert (dget (tid t) (ms_index s) = Some e).
        { apply (inv_idx s HI); split; auto. unfold ekey in Hk; inversion Hk; auto. }
        congruence. }
      rewrite Hni. split; [|split; auto; reflexivity].
      constructor; cbn; auto.
      + intros e He. apply In_insert_at in He as [->|He]; [reflexivity|].
        apply HInl in He as [He _]; apply HI; auto.
      + intros j e. rewrite In_insert_at, HInl. destruct (string_dec j (tid t)) as [->|Hne].
        * rewrite dget_dset_eq. split; [intros H; inversion H; auto|].
          intros [[->|[He Hne]] Hj]; [reflexivity|]. exfalso. apply Hne.
          assert (dget (tid t) (ms_index s) = Some e) by (apply (inv_idx s HI); auto). congruence.
        * rewrite dget_dset_ne by auto. rewrite (inv_idx s HI). split.
          -- intros [He Hj]. split; auto. right; split; auto. intros ->. cbn in Hj; congruence.
          -- intros [[->|[He _]] Hj]; [cbn in Hj; congruence|auto].
  Qed.

  Lemma delete_ok s id : Inv s ->
    let (s', r) := ms_delete tid s id in
    Inv s' /\
    match ms_content s id with
    | None => r = Err TaskLookupError /\ s' = s
    | Some _ => r = Ok tt /\ forall j, ms_content s' j = c_del (ms_content s) id j
    end.
  Proof.
    intros HI. unfold ms_delete, ms_content, ms_lookup.
    destruct (dget id (ms_index s)) as [[old ots]|] eqn:E; [|auto].
    pose proof E as E0. apply (inv_idx s HI) in E as [HIn Hid]. cbn in Hid.
    destruct (find_sorted (ms_tasks s) (old, ots) (inv_sorted s HI) HIn) as (oi & Hoi & Hnth).
    cbn in Hoi. rewrite Hid in Hoi. rewrite Hoi.
    assert (Hlt : oi < List.length (ms_tasks s)) by (apply nth_error_Some; congruence).
    unfold del_at. rewrite (proj2 (Nat.ltb_lt _ _) Hlt).
    assert (HInl : forall e, In e (firstn oi (ms_tasks s) ++ skipn (S oi) (ms_tasks s))
                        <-> In e (ms_tasks s) /\ e <> (old, ots)).
    { intros e. apply In_remove_at; auto. apply HI. }
    split; [|split; [reflexivity|]].
    - constructor; cbn.
      + apply SS_remove_at, HI.
      + intros e He. apply HInl in He as [He _]. apply HI; auto.
      + intros j e. rewrite HInl. destruct (string_dec j id) as [->|Hne].
        * rewrite dget_ddel_eq. split; [congruence|]. intros [[He Hne] Hj]. exfalso. apply Hne.
          assert (dget id (ms_index s) = Some e) by (apply (inv_idx s HI); auto). congruence.
        * rewrite dget_ddel_ne by auto. rewrite (inv_idx s HI). split; [|intuition].
          intros [He Hj]. repeat split; auto. intros ->. cbn in Hj. congruence.
    - intros j. unfold c_del; cbn. destruct (String.eqb_spec j id) as [->|Hne].
      + now rewrite dget_ddel_eq.
      + now rewrite dget_ddel_ne.
  Qed.

  Lemma clear_ok s : Inv (ms_remove_all s) /\ forall j, ms_content (ms_remove_all s) j = None.
  Proof. split; [apply inv_empty|reflexivity]. Qed.

  Lemma elt_listing s a b : Inv s -> In a (ms_tasks s) -> In b (ms_tasks s) ->
    elt a b -> listing_lt tid tnext (fst a) (fst b).
  Proof.
    intros HI Ha Hb H. unfold elt, key_lt, ekey in H. cbn in H.
    rewrite (inv_ts s HI a Ha), (inv_ts s HI b Hb) in H. unfold listing_lt.
    destruct (tnext (fst a)) as [x|], (tnext (fst b)) as [y|]; cbn in H;
      destruct H as [H|[H1 H2]]; try congruence; auto.
    - left; lia.
    - right; split; [congruence|auto].
  Qed.

  Lemma ids_nodup s : Inv s -> NoDup (map tid (ms_all s)).
  Proof.
    intros HI. unfold ms_all. rewrite map_map.
    apply NoDup_nth_error. intros i j Hi Hij.
    rewrite map_length in Hi.
    destruct (nth_error (ms_tasks s) i) as [e|] eqn:Ei; [|apply nth_error_None in Ei; lia].
    rewrite (map_nth_error _ _ _ Ei) in Hij.
    destruct (nth_error (ms_tasks s) j) as [e'|] eqn:Ej.
    2:{ symmetry in Hij. 
        assert (nth_error (map (fun x => tid (fst x)) (ms_tasks s)) j <> None) by congruence.
        apply nth_error_Some in H. rewrite map_length in H. apply nth_error_None in Ej. lia. }
    rewrite (map_nth_error _ _ _ Ej) in Hij. injection Hij as Hid.
    assert (e = e').
    { assert (dget (tid (fst e)) (ms_index s) = Some e)
        by (apply (inv_idx s HI); split; auto; eapply nth_error_In; eauto).
      assert (dget (tid (fst e)) (ms_index s) = Some e')
        by (apply (inv_idx s HI); split; auto; eapply nth_error_In; eauto).
      congruence. }
    subst e'. eapply nodup_of_sorted; eauto. apply HI.
  Qed.

  Lemma all_sorted s : Inv s -> StronglySorted (listing_lt tid tnext) (ms_all s).
  Proof.
    intros HI. unfold ms_all. apply SS_map. eapply SS_weaken; [|apply HI].
    intros a b Ha Hb. apply (elt_listing s); auto.
  Qed.

  Lemma content_In s i t : Inv s -> (ms_content s i = Some t <-> (In t (ms_all s) /\ tid t = i)).
  Proof.
    intros HI. unfold ms_content, ms_lookup, ms_all. split.
    - destruct (dget i (ms_index s)) as [[t' ts]|] eqn:E; [|congruence].
      intros H; inversion H; subst. apply (inv_idx s HI) in E as [HIn Hid]. split; auto.
      apply in_map_iff. exists (t, ts); auto.
    - intros [HIn Hid]. apply in_map_iff in HIn as ([t' ts] & Ht & HIn). cbn in Ht; subst t'.
      assert (E : dget i (ms_index s) = Some (t, ts)) by (apply (inv_idx s HI); auto).
      rewrite E; reflexivity.
  Qed.

  Lemma all_lists s : Inv s -> lists tid (ms_content s) (ms_all s).
  Proof. intros HI. split; [apply ids_nodup; auto|]. intros; apply content_In; auto. Qed.

  (** the early exit of the due loop is exact on a sorted list *)
  Lemma due_loop_spec now l :
    StronglySorted elt l ->
    exists l1 l2, l = l1 ++ l2 /\ due_loop now l = map fst l1
         /\ (forall e, In e l1 -> exists x, snd e = Some x /\ (x <= now)%Z)
         /\ (forall e, In e l2 -> forall x, snd e = Some x -> (now < x)%Z).
  Proof.
    intros Hs. induction Hs as [|[t ts] l Hs IH Hf]; cbn.
    - exists [], []. cbn. intuition.
    - rewrite Forall_forall in Hf. destruct IH as (l1 & l2 & H1 & H2 & H3 & H4).
      destruct ts as [x|]; [destruct (Z.ltb_spec now x) as [Hx|Hx]|].
      + exists [], ((t, Some x) :: l). cbn. repeat split; auto; [intuition|].
        intros e [<-|He] y Hy; cbn in *; [congruence|]. specialize (Hf e He).
        destruct e as [t' [z|]]; cbn in *; [|congruence]. inversion Hy; subst.
        destruct Hf as [Hf|[Hf _]]; cbn in Hf; [lia|]. inversion Hf; lia.
      + exists ((t, Some x) :: l1), l2. cbn. repeat split; auto; try congruence.
        intros e [<-|He]; cbn; eauto.
      + exists [], ((t, None) :: l). cbn. repeat split; auto; [intuition|].
        intros e [<-|He] y Hy; cbn in *; [congruence|]. specialize (Hf e He).
        destruct e as [t' [z|]]; cbn in *; [|congruence].
        destruct Hf as [Hf|[Hf _]]; cbn in Hf; congruence.
  Qed.

  Lemma NoDup_app_l {A} (l1 l2 : list A) : NoDup (l1 ++ l2) -> NoDup l1.
  Proof.
    induction l1 as [|a l1 IH]; cbn; intros H; [constructor|]. inversion H; subst. constructor; auto.
    intros Hc; apply H2, in_or_app; auto.
  Qed.

  Lemma due_ok s now : Inv s ->
    NoDup (map tid (ms_due s now)) /\ StronglySorted (listing_lt tid tnext) (ms_due s now) /\
    forall t, In t (ms_due s now) <-> (ms_content s (tid t) = Some t /\ is_due tnext now t).
  Proof.
    intros HI. unfold ms_due.
    destruct (due_loop_spec now (ms_tasks s) (inv_sorted s HI)) as (l1 & l2 & H1 & H2 & H3 & H4).
    assert (Hall : ms_all s = due_loop now (ms_tasks s) ++ map fst l2).
    { unfold ms_all. rewrite H2, H1, map_app. reflexivity. }
    pose proof (ids_nodup s HI) as Hnd. pose proof (all_sorted s HI) as Hso.
    rewrite Hall in Hnd, Hso. rewrite map_app in Hnd.
    apply SS_app_iff in Hso as (Hso & _ & _). apply NoDup_app_l in Hnd.
    repeat split; auto.
    - apply content_In; auto. split; auto. rewrite Hall. apply in_or_app; auto.
    - rewrite H2 in H. apply in_map_iff in H as (e & He & HIn).
      destruct (H3 e HIn) as (x & Hx & Hle). exists x. split; auto. rewrite <- He.
      rewrite <- (inv_ts s HI); auto. rewrite H1. apply in_or_app; auto.
    - intros [Hc (x & Hx & Hle)]. apply content_In in Hc as [HIn _]; auto. rewrite Hall in HIn.
      apply in_app_or in HIn as [HIn|HIn]; auto.
      exfalso. apply in_map_iff in HIn as (e & He & HIn).
      assert (snd e = Some x).
      { rewrite (inv_ts s HI); [congruence|]. rewrite H1. apply in_or_app; auto. }
      specialize (H4 e HIn x H). lia.
  Qed.

  Lemma next_ok s : Inv s -> least_next tnext (ms_content s) (ms_next_run_time tnext s).
  Proof.
    intros HI. unfold ms_next_run_time.
    pose proof (all_sorted s HI) as Hso. pose proof (content_In s) as Hc.
    unfold ms_all in *. destruct (ms_tasks s) as [|[t0 ts0] l] eqn:El; cbn.
    - intros i t Hi. apply Hc in Hi as [[] _]; auto.
    - cbn in Hso. inversion Hso as [|? ? Hs Hf]; subst. rewrite Forall_forall in Hf.
      destruct (tnext t0) as [v|] eqn:Ev; cbn.
      + split.
        * exists (tid t0), t0. split; auto. apply Hc; auto. split; auto. left; auto.
        * intros i t w Hi Hw. apply Hc in Hi as [[<-|HIn] _]; auto; cbn in *; [rewrite Ev in Hw; inversion Hw; lia|].
          specialize (Hf t HIn). unfold listing_lt in Hf. rewrite Ev, Hw in Hf. lia.
      + intros i t Hi. apply Hc in Hi as [[<-|HIn] _]; auto. specialize (Hf t HIn).
        unfold listing_lt in Hf. rewrite Ev in Hf. destruct (tnext t); intuition.
  Qed.

  Lemma step_ok s o : Inv s ->
    let (s', r) := ms_step tid tnext s o in
    Inv s' /\ spec_step tid tnext true (listing_lt tid tnext) (ms_content s) o r (ms_content s').
  Proof.
    intros HI. destruct o as [t|t|id| |id| |now|]; cbn [ms_step spec_step].
    - pose proof (add_ok s t HI) as H. destruct (ms_add tid tnext s t) as [s' r].
      destruct H as [HI' H]. split; auto. destruct (ms_content s (tid t)); destruct H as [-> H]; cbn; subst; auto.
    - pose proof (update_ok s t HI) as H. destruct (ms_update tid tnext s t) as [s' r].
      destruct H as (HI' & -> & H). split; auto. destruct (ms_content s (tid t)); auto.
    - pose proof (delete_ok s id HI) as H. destruct (ms_delete tid s id) as [s' r].
      destruct H as [HI' H]. split; auto. destruct (ms_content s id); destruct H as [-> H]; cbn; subst; auto.
    - split; [apply inv_empty|]; auto.
    - auto.
    - split; auto. split; auto. exists (ms_all s). split; [reflexivity|]. split; [apply all_lists; auto|apply all_sorted; auto].
    - split; auto. split; auto. destruct (due_ok s now HI) as (H1 & H2 & H3). exists (ms_due s now); auto.
    - split; auto. split; auto. exists (ms_next_run_time tnext s). split; auto. apply next_ok; auto.
  Qed.

  Lemma run_ok os : forall s, Inv s ->
    Inv (fst (ms_run tid tnext s os)) /\
    spec_run tid tnext true (listing_lt tid tnext) (ms_content s) os (snd (ms_run tid tnext s os)).
  Proof.
    induction os as [|o os IH]; intros s HI; cbn [ms_run]; [cbn; auto|].
    pose proof (step_ok s o HI) as H. destruct (ms_step tid tnext s o) as [s' r]. destruct H as [HI' H].
    specialize (IH s' HI'). destruct (ms_run tid tnext s' os) as [s'' rs]. cbn in *. destruct IH as [IH1 IH2].
    split; auto. exists (ms_content s'); auto.
  Qed.
End Proofs.

Lemma fresh_run_ok (T : Type) (tid : T -> string) (tnext : T -> option Z) (os : list (sop T)) :
  spec_run tid tnext true (listing_lt tid tnext) c_empty os (snd (ms_run tid tnext ms_empty os)).
Proof.
  destruct (run_ok tid tnext os ms_empty (inv_empty tid tnext)) as [_ H]. exact H.
Qed.
Lemma fresh_due_exact (T : Type) (tid : T -> string) (tnext : T -> option Z) (os : list (sop T)) (now : Z) :
  let s := fst (ms_run tid tnext ms_empty os) in
  (forall t, In t (ms_due s now) <-> (ms_lookup s (tid t) = Some t /\ is_due tnext now t)) /\
  NoDup (map tid (ms_due s now)) /\
  StronglySorted (listing_lt tid tnext) (ms_due s now) /\
  least_next tnext (ms_lookup s) (ms_next_run_time tnext s).
Proof.
  cbn zeta. destruct (run_ok tid tnext os ms_empty (inv_empty tid tnext)) as [HI _].
  set (s := fst _) in *. clearbody s.
  pose proof (step_ok tid tnext s (SDue now) HI) as [_ H1]. cbn [ms_step spec_step] in H1.
  destruct H1 as ((l & El & Hnd & Hss & Hin) & _). injection El as <-.
  pose proof (step_ok tid tnext s SNext HI) as [_ H2]. cbn [ms_step spec_step] in H2.
  destruct H2 as ((x & Ex & Hl) & _). injection Ex as <-. auto.
Qed.
