(** Python's [sorted] (stable): modelled as insertion sort, which is stable as well. *)
From Verif Require Import Prelude.
From Coq Require Import Sorting.Sorted Sorting.Permutation.

Section Sort.
  Context {A : Type} (le : A -> A -> bool).
  (** insert before the first element that is strictly greater... i.e. after all elements [<=] it
      when sorting from the right: [x] comes before the elements it is [<=] to *)
  Fixpoint ins (x : A) (l : list A) : list A :=
    match l with [] => [x] | y :: l' => if le x y then x :: y :: l' else y :: ins x l' end.
  Definition isort (l : list A) : list A := fold_right ins [] l.

  Lemma ins_perm x l : Permutation (ins x l) (x :: l).
  Proof. induction l as [|y l IH]; cbn; auto. destruct (le x y); auto. rewrite IH. apply perm_swap. Qed.
  Lemma isort_perm l : Permutation (isort l) l.
  Proof. induction l as [|x l IH]; cbn; auto. rewrite ins_perm. auto. Qed.
  Hypothesis total : forall a b, le a b = true \/ le b a = true.
  Hypothesis trans : forall a b c, le a b = true -> le b c = true -> le a c = true.
  Lemma ins_sorted x l : StronglySorted (fun a b => le a b = true) l -> StronglySorted (fun a b => le a b = true) (ins x l).
  Proof.
    induction 1 as [|y l S IH F]; cbn; [repeat constructor|]. destruct (le x y) eqn:E.
    - constructor; [constructor; auto|]. constructor; auto. apply Forall_impl with (2 := F). intros z. apply trans. exact E.
    - constructor; auto. apply Permutation_Forall with (x :: l); [symmetry; apply ins_perm|]. constructor; auto.
      destruct (total x y); congruence.
  Qed.
  Lemma isort_sorted l : StronglySorted (fun a b => le a b = true) (isort l).
  Proof. induction l as [|x l IH]; cbn; [constructor|]. apply ins_sorted. exact IH. Qed.
End Sort.

(** sorting a list that is sorted already changes nothing; equal elements keep their order *)
Lemma isort_id {A} (le : A -> A -> bool) l : StronglySorted (fun a b => le a b = true) l -> isort le l = l.
Proof.
  induction 1 as [|x l S IH F]; auto. change (ins le x (isort le l) = x :: l). rewrite IH. destruct l as [|y l]; auto. cbn. inversion F; subst. rewrite H1. reflexivity.
Qed.
Lemma ins_filter_eq {A} (le : A -> A -> bool) (p : A -> bool) x l :
  p x = true -> (forall y, In y l -> p y = true -> le x y = true) -> filter p (ins le x l) = x :: filter p l.
Proof.
  intros Px. induction l as [|y l IH]; cbn; intros H; [rewrite Px; auto|]. destruct (le x y) eqn:E; cbn; [rewrite Px; auto|].
  destruct (p y) eqn:Py; [rewrite H in E; auto; congruence|]. apply IH. auto.
Qed.
Lemma ins_filter_ne {A} (le : A -> A -> bool) (p : A -> bool) x l : p x = false -> filter p (ins le x l) = filter p l.
Proof. intros Px. induction l as [|y l IH]; cbn; [rewrite Px; auto|]. destruct (le x y); cbn; rewrite ?Px; auto. rewrite IH. auto. Qed.
(** stability: the elements with one and the same key keep their relative order *)
Lemma isort_stable {A} (le : A -> A -> bool) (p : A -> bool) l :
  (forall x y, p x = true -> p y = true -> le x y = true) -> filter p (isort le l) = filter p l.
Proof.
  intros H. induction l as [|x l IH]; auto. change (isort le (x :: l)) with (ins le x (isort le l)). cbn [filter]. destruct (p x) eqn:Px.
  - rewrite ins_filter_eq; auto. rewrite IH. auto.
  - rewrite ins_filter_ne; auto.
Qed.
