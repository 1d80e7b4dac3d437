From Verif Require Import Prelude.
From Coq Require Import Sorting.Sorted Sorting.Permutation.

Lemma ascii_compare_lt_trans a b c :
  Ascii.compare a b = Lt -> Ascii.compare b c = Lt -> Ascii.compare a c = Lt.
Proof.
  unfold Ascii.compare. rewrite !N.compare_lt_iff. lia.
Qed.

Lemma ascii_compare_refl a : Ascii.compare a a = Eq.
Proof. unfold Ascii.compare. apply N.compare_refl. Qed.

Lemma str_compare_refl s : String.compare s s = Eq.
Proof. induction s as [|a s IH]; cbn; [reflexivity|]. rewrite ascii_compare_refl. exact IH. Qed.

Lemma str_compare_lt_trans a b c :
  String.compare a b = Lt -> String.compare b c = Lt -> String.compare a c = Lt.
Proof.
  revert b c; induction a as [|x a IH]; intros [|y b] [|z c]; cbn; try congruence.
  destruct (Ascii.compare x y) eqn:Exy; destruct (Ascii.compare y z) eqn:Eyz; try congruence; intros H1 H2.
  - apply Ascii.compare_eq_iff in Exy; apply Ascii.compare_eq_iff in Eyz; subst.
    rewrite ascii_compare_refl. eauto.
  - apply Ascii.compare_eq_iff in Exy; subst. rewrite Eyz; reflexivity.
  - apply Ascii.compare_eq_iff in Eyz; subst. rewrite Exy; reflexivity.
  - rewrite (ascii_compare_lt_trans _ _ _ Exy Eyz); reflexivity.
Qed.

Lemma str_ltb_irrefl s : str_ltb s s = false.
Proof. unfold str_ltb. rewrite str_compare_refl. reflexivity. Qed.

Lemma str_ltb_trans a b c : str_ltb a b = true -> str_ltb b c = true -> str_ltb a c = true.
Proof.
  unfold str_ltb. destruct (String.compare a b) eqn:E1; try congruence.
  destruct (String.compare b c) eqn:E2; try congruence.
  rewrite (str_compare_lt_trans _ _ _ E1 E2). reflexivity.
Qed.

Lemma str_ltb_total a b : str_ltb a b = true \/ a = b \/ str_ltb b a = true.
Proof.
  unfold str_ltb. destruct (String.compare a b) eqn:E.
  - right; left. apply String.compare_eq_iff; exact E.
  - left; reflexivity.
  - right; right. rewrite String.compare_antisym, E. reflexivity.
Qed.

Lemma tltb_irrefl a : tltb a a = false.
Proof. destruct a; cbn; lia. Qed.
Lemma tltb_trans a b c : tltb a b = true -> tltb b c = true -> tltb a c = true.
Proof. destruct a, b, c; cbn; lia. Qed.
Lemma tltb_total a b : tltb a b = true \/ a = b \/ tltb b a = true.
Proof.
  destruct a as [x|], b as [y|]; cbn; auto.
  destruct (Z.lt_trichotomy x y) as [?|[?|?]]; [left|right;left|right;right]; try lia; congruence.
Qed.
Lemma teqb_eq a b : teqb a b = true <-> a = b.
Proof. destruct a, b; cbn; split; intros; try congruence; f_equal; try lia. inversion H; lia. Qed.

Lemma key_lt_irrefl a : ~ key_lt a a.
Proof. unfold key_lt. rewrite tltb_irrefl, str_ltb_irrefl. intuition congruence. Qed.
Lemma key_lt_trans a b c : key_lt a b -> key_lt b c -> key_lt a c.
Proof.
  unfold key_lt. intros [H1|[E1 H1]] [H2|[E2 H2]].
  - left; eapply tltb_trans; eauto.
  - left; rewrite <- E2; exact H1.
  - left; rewrite E1; exact H2.
  - right; split; [congruence|eapply str_ltb_trans; eauto].
Qed.
Lemma key_lt_asym a b : key_lt a b -> key_lt b a -> False.
Proof. intros H1 H2. apply (key_lt_irrefl a). eapply key_lt_trans; eauto. Qed.
Lemma key_lt_total a b : key_lt a b \/ a = b \/ key_lt b a.
Proof.
  destruct a as [t i], b as [u j]. unfold key_lt; cbn.
  destruct (tltb_total t u) as [H|[H|H]]; auto. subst.
  destruct (str_ltb_total i j) as [H|[H|H]]; subst; auto.
Qed.

(** ** dictionaries *)
Section DictFacts.
  Context {V : Type}.
  Implicit Types (d : dict V).

  Lemma dget_dset_eq k v d : dget k (dset k v d) = Some v.
  Proof.
    induction d as [|[k' v'] d IH]; cbn; [now rewrite String.eqb_refl|].
    destruct (String.eqb k k') eqn:E; cbn; rewrite ?E; auto.
  Qed.
  Lemma dget_dset_ne k k' v d : k <> k' -> dget k (dset k' v d) = dget k d.
  Proof.
    intros Hne. induction d as [|[k'' v''] d IH]; cbn.
    - destruct (String.eqb_spec k k'); congruence.
    - destruct (String.eqb_spec k' k''); cbn; destruct (String.eqb_spec k k''); try congruence.
  Qed.
  Lemma dget_ddel_eq k d : dget k (ddel k d) = None.
  Proof.
    induction d as [|[k' v'] d IH]; cbn; [reflexivity|].
    destruct (String.eqb k k') eqn:E; cbn; rewrite ?E; auto.
  Qed.
  Lemma dget_ddel_ne k k' d : k <> k' -> dget k (ddel k' d) = dget k d.
  Proof.
    intros Hne. induction d as [|[k'' v''] d IH]; cbn; [reflexivity|].
    destruct (String.eqb_spec k' k''); cbn; destruct (String.eqb_spec k k''); try congruence; exact IH.
  Qed.
  Lemma dget_In k v d : dget k d = Some v -> In (k, v) d.
  Proof.
    induction d as [|[k' v'] d IH]; cbn; [congruence|].
    destruct (String.eqb_spec k k'); subst; intros H; [left; congruence|right; auto].
  Qed.
  Lemma dget_None k d : dget k d = None <-> ~ In k (dkeys d).
  Proof.
    induction d as [|[k' v'] d IH]; cbn; [intuition|].
    destruct (String.eqb_spec k k'); subst; [intuition congruence|]. rewrite IH. intuition congruence.
  Qed.
  Lemma dget_Some_key k v d : dget k d = Some v -> In k (dkeys d).
  Proof. intros H. apply dget_In in H. apply in_map_iff. exists (k, v); auto. Qed.
  Lemma In_dget k v d : NoDup (dkeys d) -> In (k, v) d -> dget k d = Some v.
  Proof.
    induction d as [|[k' v'] d IH]; cbn; [intuition|]. intros Hnd [H|H]; inversion Hnd; subst.
    - inversion H; subst. now rewrite String.eqb_refl.
    - destruct (String.eqb_spec k k'); subst; [|auto].
      exfalso. apply H2. apply in_map_iff. exists (k', v); auto.
  Qed.
  Lemma dset_keys_in k v d : In k (dkeys d) -> dkeys (dset k v d) = dkeys d.
  Proof.
    induction d as [|[k' v'] d IH]; cbn; [intuition|].
    destruct (String.eqb_spec k k'); cbn; [reflexivity|]. intros [H|H]; [congruence|]. f_equal; auto.
  Qed.
  Lemma dset_keys_notin k v d : ~ In k (dkeys d) -> dset k v d = d ++ [(k, v)].
  Proof.
    induction d as [|[k' v'] d IH]; cbn; [reflexivity|]. intros H.
    destruct (String.eqb_spec k k'); [intuition congruence|]. f_equal; auto.
  Qed.
  Lemma dset_NoDup k v d : NoDup (dkeys d) -> NoDup (dkeys (dset k v d)).
  Proof.
    intros Hnd. destruct (in_dec string_dec k (dkeys d)) as [H|H].
    - now rewrite dset_keys_in.
    - rewrite dset_keys_notin by exact H. unfold dkeys; rewrite map_app; cbn.
      apply Permutation_NoDup with (l := k :: dkeys d).
      + apply Permutation_cons_append.
      + now constructor.
  Qed.
  Lemma ddel_keys_incl k k' d : In k' (dkeys (ddel k d)) <-> In k' (dkeys d) /\ k' <> k.
  Proof.
    unfold dkeys, ddel. rewrite !in_map_iff. split.
    - intros [[a b] [E H]]. apply filter_In in H as [H1 H2]. cbn in *; subst.
      destruct (String.eqb_spec k k'); cbn in *; [congruence|]. split; [exists (k', b); auto|congruence].
    - intros [[[a b] [E H]] Hne]. exists (a, b); split; auto. apply filter_In; split; auto. cbn in *; subst.
      destruct (String.eqb_spec k k'); cbn; congruence.
  Qed.
  Lemma ddel_NoDup k d : NoDup (dkeys d) -> NoDup (dkeys (ddel k d)).
  Proof.
    induction d as [|[k' v'] d IH]; cbn; [auto|]. intros H; inversion H; subst.
    destruct (String.eqb_spec k k'); cbn; auto. constructor; auto.
    rewrite (ddel_keys_incl k k' d). intuition.
  Qed.
  Lemma dmem_true k d : dmem k d = true <-> exists v, dget k d = Some v.
  Proof. unfold dmem. destruct (dget k d); split; intros; try congruence; eauto. destruct H; congruence. Qed.
  Lemma dmem_false k d : dmem k d = false <-> dget k d = None.
  Proof. unfold dmem. destruct (dget k d); split; congruence. Qed.
  Lemma ddel_notin k d : dget k d = None -> ddel k d = d.
  Proof.
    induction d as [|[k' v'] d IH]; cbn; [reflexivity|].
    destruct (String.eqb k k') eqn:E; cbn; [congruence|]. intros H; f_equal; auto.
  Qed.
End DictFacts.

(** ** list positions *)
Lemma nth_error_insert_at {A} i (x : A) l : i <= List.length l -> nth_error (insert_at i x l) i = Some x.
Proof.
  intros H. unfold insert_at. rewrite nth_error_app2; rewrite firstn_length_le by lia; [|lia].
  now rewrite Nat.sub_diag.
Qed.
Lemma firstn_skipn_nth {A} i (x : A) l : nth_error l i = Some x -> l = firstn i l ++ x :: skipn (S i) l.
Proof.
  revert l; induction i as [|i IH]; intros [|y l]; cbn; try congruence.
  intros H. f_equal. apply IH; exact H.
Qed.
