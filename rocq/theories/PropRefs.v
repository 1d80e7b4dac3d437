(** C75: references to callables. *)
From Verif Require Import Prelude PreludeFacts Text Refs PropConfig.
Open Scope string_scope.

(** ** specification *)
(** what calling an object with arguments really calls: a function, or a class *)
Inductive invokes (g : graph) : nat -> list nat -> nat -> list nat -> Prop :=
| inv_function o args : kind g o = Function -> invokes g o args o args
| inv_class o args : kind g o = Class -> invokes g o args o args
| inv_method o self f args : kind g o = Method self f -> invokes g o args f (self :: args)
| inv_instance o c f args : kind g o = Instance c -> attr g c "__call__" = Some f -> invokes g o args f (o :: args).
(** where a dotted name leads, in a module *)
Inductive leads (g : graph) : nat -> list string -> nat -> Prop :=
| leads_here o : leads g o [] o
| leads_on o n o' names o'' : attr g o n = Some o' -> leads g o' names o'' -> leads g o (n :: names) o''.
(** [o] is found where its __module__ and __qualname__ say ([x]: what is found there), and it is not a wrapper with an [fn] *)
Definition found_at_home (g : graph) (o x : nat) : Prop :=
  exists mo q names, qualname g o = Some q /\ q = String.concat "." names /\ names <> [] /\ Forall (fun k => ~ exists a b, k = a ++ "." ++ b) names /\
    ~ (exists a b, home g o = a ++ ":" ++ b) /\ import g (home g o) = Some mo /\ leads g mo names x /\ attr g x "fn" = None.
(** functions, classes, static methods and class methods of the class that defines them are found themselves; of a
    method of an object, the function is *)
Definition regular (g : graph) (o : nat) : Prop :=
  match kind g o with
  | Function | Class => found_at_home g o o
  | Method self f => if is_class g self then found_at_home g o o else found_at_home g o f /\ kind g f = Function
  | _ => False
  end.
Definition anonymous (g : graph) (o : nat) : Prop :=
  kind g o = PartialObj \/ (exists a b, callable_name g o = a ++ "<lambda>" ++ b) \/ (exists a b, callable_name g o = a ++ "<locals>" ++ b).

(** ** proofs *)
Lemma split_first_spec c a b : ~ (exists x y, a = x ++ String c y) -> split_first c (a ++ String c b) = Some (a, b).
Proof.
  induction a as [|x a IH]; intros N; cbn [append split_first].
  - rewrite Ascii.eqb_refl. reflexivity.
  - destruct (Ascii.eqb_spec x c) as [->|NE]; [contradiction N; exists "", a; reflexivity|].
    rewrite IH; [reflexivity|]. intros (u & v & ->). apply N. exists (String x u), v. reflexivity.
Qed.
Lemma leads_walk g o names x : leads g o names x <-> walk g o names = Some x.
Proof.
  split.
  - induction 1 as [|o n o' names o'' A L IH]; cbn; [auto|]. rewrite A. exact IH.
  - revert o. induction names as [|n names IH]; intros o; cbn; [intros [= ->]; constructor|]. destruct (attr g o n) as [o'|] eqn:A; [|discriminate]. intros W. econstructor; eauto.
Qed.
Lemma home_resolves g o x : found_at_home g o x -> ref_to_obj g (home g o ++ ":" ++ callable_name g o) = Ok x.
Proof.
  intros (mo & q & names & Q & -> & NE & F & NC & I & L & A). unfold callable_name. rewrite Q. unfold ref_to_obj.
  change (":" ++ String.concat "." names) with (String ":" (String.concat "." names)). rewrite split_first_spec by exact NC. rewrite I.
  rewrite split_concat by auto. apply leads_walk in L. rewrite L, A. reflexivity.
Qed.
Lemma ref_refused g o : (exists e, obj_to_ref g o = Err e) <-> anonymous g o.
Proof.
  unfold obj_to_ref, anonymous. cbv zeta.
  assert (C1 := contains_iff "<lambda>" (callable_name g o)). assert (C2 := contains_iff "<locals>" (callable_name g o)).
  destruct (contains "<lambda>" (callable_name g o)); destruct (contains "<locals>" (callable_name g o)); destruct (kind g o);
    split; try (intros _; first [left; reflexivity|right; left; apply C1; reflexivity|right; right; apply C2; reflexivity]); try (intros _; eexists; reflexivity);
    try (intros [e H]; discriminate); intros [H|[H|H]]; try discriminate; [apply C1 in H|apply C2 in H|apply C1 in H|apply C2 in H|apply C1 in H|apply C2 in H|apply C1 in H|apply C2 in H|apply C1 in H|apply C2 in H]; discriminate.
Qed.
Lemma ref_of g o : ~ anonymous g o -> obj_to_ref g o = Ok (home g o ++ ":" ++ callable_name g o).
Proof.
  intros N. destruct (obj_to_ref g o) as [r|e] eqn:E; [|destruct N; apply ref_refused; eauto]. rewrite <- E. unfold obj_to_ref in *. cbv zeta in *.
  destruct (kind g o); try discriminate; destruct (contains _ _); try discriminate; destruct (contains _ _); try discriminate; reflexivity.
Qed.

(** C75.  A callable without a textual name is refused when the task is saved, and only then ... *)
Theorem C75_refused_iff :
  forall (g : graph) (o : nat) (args : list nat), (exists e, save_call g (call_of g o args) = Err e) <-> anonymous g o.
Proof.
  intros g o args. rewrite <- ref_refused. unfold call_of. cbn [k_ref k_fn k_args]. unfold save_call. cbn [k_ref k_fn k_args].
  destruct (obj_to_ref g o) as [r|e] eqn:E; [|split; eauto].
  assert (NE : exists a x, r = String a x).
  { unfold obj_to_ref in E. cbv zeta in E. destruct (kind g o); try discriminate; destruct (contains _ _); try discriminate; destruct (contains _ _); try discriminate;
    injection E as <-; destruct (home g o); cbn; eauto. }
  destruct NE as (a & x & ->). split; [|intros [? ?]; discriminate].
  destruct (kind g o); try (intros [? ?]; discriminate). destruct (is_class g self); intros [? ?]; discriminate.
Qed.
Print Assumptions C75_refused_iff.
(** ... and otherwise, loaded again, it makes exactly the same call: same function, same arguments (the object of a
    bound method included). *)
Theorem C75_same_call_partial :
  forall (g : graph) (o : nat) (args : list nat), ~ anonymous g o -> regular g o ->
    exists saved k, save_call g (call_of g o args) = Ok saved /\ load_call g saved = Ok k /\
      forall f l, invokes g (k_fn k) (k_args k) f l <-> invokes g o args f l.
Proof.
  intros g o args NA RG. unfold call_of. rewrite (ref_of g o NA). unfold save_call. cbn [k_ref k_fn k_args]. rewrite (ref_of g o NA), String.eqb_refl.
  assert (NE : forall x, home g o ++ ":" ++ x <> "") by (intros x; destruct (home g o); discriminate).
  unfold regular in RG.
  destruct (home g o ++ ":" ++ callable_name g o) as [|a s] eqn:E; [destruct (NE _ E)|]. rewrite <- E. clear NE.
  destruct (kind g o) as [| |self fn| | |] eqn:K; try contradiction.
  - eexists _, _. split; [reflexivity|]. unfold load_call. cbn [fst snd]. rewrite (home_resolves g o o RG). split; [reflexivity|]. cbn. tauto.
  - eexists _, _. split; [reflexivity|]. unfold load_call. cbn [fst snd]. rewrite (home_resolves g o o RG). split; [reflexivity|]. cbn. tauto.
  - destruct (is_class g self) eqn:C.
    + eexists _, _. split; [reflexivity|]. unfold load_call. cbn [fst snd]. rewrite (home_resolves g o o RG). split; [reflexivity|]. cbn. tauto.
    + destruct RG as [RG KF]. eexists _, _. split; [reflexivity|]. unfold load_call. cbn [fst snd]. rewrite (home_resolves g o fn RG). split; [reflexivity|]. cbn [k_fn k_args].
      intros f l. split; intros H; inversion H; subst; try congruence.
      * apply (inv_method g o self f args K).
      * assert (f = fn) as -> by congruence. assert (self0 = self) as -> by congruence. constructor. exact KF.
Qed.
Print Assumptions C75_same_call_partial.
(** a task given by reference is saved with that very reference, and loads the very object it had *)
Theorem C75_by_reference_partial :
  forall (g : graph) (ref : string) (args : list nat) (k : call), call_of_ref g ref args = Ok k -> ref <> "" ->
    (forall self f, kind g (k_fn k) = Method self f -> is_class g self = false -> exists r, obj_to_ref g (k_fn k) = Ok r /\ r <> ref) ->
    exists saved, save_call g k = Ok saved /\ load_call g saved = Ok k.
Proof.
  intros g ref args k H NE M. unfold call_of_ref in H. destruct (ref_to_obj g ref) as [o|e] eqn:R; [|discriminate]. injection H as <-. unfold save_call. cbn [k_ref k_fn k_args] in *.
  destruct ref as [|a s]; [congruence|]. set (ref := String a s) in *.
  assert (L : load_call g (ref, args) = Ok (MkCall o (Some ref) args)) by (unfold load_call; cbn [fst snd]; rewrite R; reflexivity).
  destruct (kind g o) eqn:K; try (eexists; split; [reflexivity|exact L]). destruct (is_class g self) eqn:C; [eexists; split; [reflexivity|exact L]|].
  destruct (M self fn eq_refl C) as (r & -> & N). destruct (String.eqb_spec r ref); [congruence|]. eexists. split; [reflexivity|exact L].
Qed.
Print Assumptions C75_by_reference_partial.

(** ** where the full statement fails *)
Definition changed_call (g : graph) (o : nat) (args : list nat) : Prop :=
  exists saved k f l f' l', save_call g (call_of g o args) = Ok saved /\ load_call g saved = Ok k /\
    invokes g o args f l /\ invokes g (k_fn k) (k_args k) f' l' /\ (f, l) <> (f', l') /\ (forall x y, invokes g (k_fn k) (k_args k) x y -> x = f' /\ y = l').
Definition table {A} (d : A) (l : list (nat * A)) (n : nat) : A := match find (fun x => Nat.eqb (fst x) n) l with Some (_, x) => x | None => d end.
Definition names_in (l : list (nat * string * nat)) (o : nat) (n : string) : option nat :=
  match find (fun x => Nat.eqb (fst (fst x)) o && String.eqb (snd (fst x)) n) l with Some (_, x) => Some x | None => None end.
(** module m (0): class Base (1) with class method make (function 3), class Child(Base) (2); class Job (7) with __call__ (8) and an
    object job (6) of it; an object Foo (10) that hides its class Foo (9), with method run (11); a function old (13) with an attribute fn (14) *)
Definition ex_graph : graph := MkGraph
  (table Function [(0, Module); (1, Class); (2, Class); (3, Function); (4, Method 1 3); (5, Method 2 3); (6, Instance 7); (7, Class); (8, Function); (9, Class); (10, Instance 9);
                   (11, Function); (12, Method 10 11); (13, Function); (14, Function); (15, Method 6 16); (16, Function)])%nat
  (table None [(1, Some "Base"); (2, Some "Child"); (3, Some "Base.make"); (4, Some "Base.make"); (5, Some "Base.make"); (7, Some "Job"); (8, Some "Job.__call__"); (9, Some "Foo");
               (11, Some "Foo.run"); (12, Some "Foo.run"); (13, Some "old"); (14, Some "new"); (15, Some "Job.work"); (16, Some "Job.work")])%nat
  (table None [(1, Some "Base"); (2, Some "Child"); (7, Some "Job"); (9, Some "Foo")])%nat
  (fun _ => "m")
  (names_in [(0, "Base", 1); (0, "Child", 2); (0, "Job", 7); (0, "job", 6); (0, "Foo", 10); (0, "old", 13); (0, "new", 14); (1, "make", 4); (2, "make", 5); (7, "__call__", 8);
             (7, "work", 16); (6, "work", 15); (10, "run", 12); (13, "fn", 14)])%nat
  (fun n => if String.eqb n "m" then Some 0%nat else None).
Ltac only_one := intros x y H; inversion H; subst; try discriminate; repeat match goal with E : _ = _ |- _ => progress cbn in E end; try discriminate; try (split; congruence); auto.
(** an inherited class method comes back bound to the class that defines it *)
Theorem C75_inherited_class_method_refuted : exists g o args, changed_call g o args /\ exists sub f, kind g o = Method sub f /\ kind g sub = Class.
Proof.
  exists ex_graph, 5%nat, []. split; [|exists 2%nat, 3%nat; split; reflexivity].
  exists ("m:Base.make", []). eexists (MkCall 4 _ []). exists 3%nat, [2%nat], 3%nat, [1%nat]. split; [reflexivity|]. split; [reflexivity|].
  split; [apply inv_method; reflexivity|]. split; [apply inv_method; reflexivity|]. split; [discriminate|]. only_one; inversion H0; subst; auto.
Qed.
Print Assumptions C75_inherited_class_method_refuted.
(** a callable object comes back as its class: the call makes an object instead *)
Theorem C75_callable_object_refuted : exists g o args, changed_call g o args /\ exists c, kind g o = Instance c.
Proof.
  exists ex_graph, 6%nat, []. split; [|exists 7%nat; reflexivity].
  exists ("m:Job", []). eexists (MkCall 7 _ []). exists 8%nat, [6%nat], 7%nat, []. split; [reflexivity|]. split; [reflexivity|].
  split; [eapply inv_instance; reflexivity|]. split; [apply inv_class; reflexivity|]. split; [discriminate|]. only_one.
Qed.
Print Assumptions C75_callable_object_refuted.
(** a method of an object that hides its class gets the object twice *)
Theorem C75_hidden_class_refuted : exists g o args, changed_call g o args /\ exists self f c, kind g o = Method self f /\ kind g self = Instance c.
Proof.
  exists ex_graph, 12%nat, []. split; [|exists 10%nat, 11%nat, 9%nat; split; reflexivity].
  exists ("m:Foo.run", [10%nat]). eexists (MkCall 12 _ [10%nat]). exists 11%nat, [10%nat], 11%nat, [10%nat; 10%nat]. split; [reflexivity|]. split; [reflexivity|].
  split; [apply inv_method; reflexivity|]. split; [apply inv_method; reflexivity|]. split; [discriminate|]. only_one; inversion H0; subst; auto.
Qed.
Print Assumptions C75_hidden_class_refuted.
(** a function with an attribute fn comes back as that *)
Theorem C75_attribute_fn_refuted : exists g o args, changed_call g o args /\ kind g o = Function.
Proof.
  exists ex_graph, 13%nat, []. split; [|reflexivity].
  exists ("m:old", []). eexists (MkCall 14 _ []). exists 13%nat, [], 14%nat, []. split; [reflexivity|]. split; [reflexivity|].
  split; [apply inv_function; reflexivity|]. split; [apply inv_function; reflexivity|]. split; [discriminate|]. only_one.
Qed.
Print Assumptions C75_attribute_fn_refuted.
Example C75_case : regular ex_graph 15 /\ ~ anonymous ex_graph 15 /\ save_call ex_graph (call_of ex_graph 15 [1]%nat) = Ok ("m:Job.work", [6; 1]%nat) /\
  load_call ex_graph ("m:Job.work", [6; 1]%nat) = Ok (MkCall 16 (Some "m:Job.work") [6; 1]%nat).
Proof.
  split; [|split; [|split; reflexivity]].
  - split; [|reflexivity]. exists 0%nat, "Job.work", ["Job"; "work"]. split; [reflexivity|]. split; [reflexivity|]. split; [discriminate|].
    assert (D : forall k, contains "." k = false -> ~ exists a b, k = a ++ "." ++ b) by (intros k E X; apply contains_iff in X; congruence).
    split; [repeat constructor; apply D; reflexivity|]. split; [intros X; apply (proj2 (contains_iff ":" "m")) in X; discriminate|]. split; [reflexivity|].
    split; [|reflexivity]. eapply leads_on; [reflexivity|]. eapply leads_on; [reflexivity|]. constructor.
  - intros H. apply ref_refused in H. destruct H; discriminate.
Qed.
