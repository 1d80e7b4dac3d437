(** C48: the Shape registry; C60: plain dumping. *)
From Verif Require Import Prelude PreludeFacts SortList DurableProofs Inspect Shapes.
From Coq Require Import Sorted Permutation.

(** *** C48, specification: what is registered after a history of calls *)
Definition names := string -> option shape_class.
Definition accepts (o : rop) (s : names) : Prop :=
  match o with
  | ORegister n c rep => exists name cls, n = AText name /\ name <> ""%string /\ c = AClass cls /\ (s name = None \/ rep = true)
  | OUnregister n => s n <> None
  end.
Definition effect (o : rop) (s s' : names) : Prop :=
  match o with
  | ORegister n c _ => exists name cls, n = AText name /\ c = AClass cls /\ s' name = Some cls /\ forall x, x <> name -> s' x = s x
  | OUnregister n => s' n = None /\ forall x, x <> n -> s' x = s x
  end.
Inductive evolves : list rop -> names -> names -> Prop :=
| e_nil s s' : (forall x, s' x = s x) -> evolves [] s s'
| e_ok o ops s s1 s' : accepts o s -> effect o s s1 -> evolves ops s1 s' -> evolves (o :: ops) s s'
| e_refused o ops s s' : ~ accepts o s -> evolves ops s s' -> evolves (o :: ops) s s'.
Definition view (r : registry) : names := fun n => dget n r.

Lemma dmem_iff n (r : registry) : dmem n r = true <-> view r n <> None.
Proof. unfold dmem, view. destruct (dget n r); split; congruence. Qed.
Lemma rstep_spec o r : (accepts o (view r) -> exists r', rstep o r = Done r' /\ effect o (view r) (view r')) /\ (~ accepts o (view r) -> exists e, rstep o r = Failed e).
Proof.
  destruct o as [n c rep|n]; cbn.
  - split.
    + intros (name & cls & -> & N & -> & H). cbn. destruct (String.eqb_spec name ""); [congruence|]. assert (dmem name r && negb rep = false) as ->.
      { destruct H as [H| ->]; [|apply andb_false_r]. destruct (dmem name r) eqn:E; auto. apply dmem_iff in E. congruence. }
      eexists. split; [reflexivity|]. exists name, cls. unfold view. split; auto. split; auto. split; [apply dget_dset_eq|]. intros x X. apply dget_dset_ne. auto.
    + intros H. destruct n as [| |n| |]; cbn; try (eexists; reflexivity). destruct (String.eqb_spec n ""); [eexists; reflexivity|]. destruct c as [cls| | | |]; try (eexists; reflexivity).
      destruct (dmem n r) eqn:E; cbn; [destruct rep; cbn; [|eexists; reflexivity]|]; destruct H; exists n, cls; (split; [auto|split; [auto|split; auto]]).
      left. destruct (view r n) eqn:V; auto. assert (dmem n r = true) by (apply dmem_iff; congruence). congruence.
  - unfold unregister. split.
    + intros H. rewrite (proj2 (dmem_iff n r) H). eexists. split; [reflexivity|]. unfold view. split; [apply dget_ddel_eq|]. intros x X. apply dget_ddel_ne. auto.
    + intros H. destruct (dmem n r) eqn:E; [apply dmem_iff in E; destruct H; auto|]. eexists. reflexivity.
Qed.
Lemma accepts_dec o s : accepts o s \/ ~ accepts o s.
Proof.
  destruct o as [n c rep|n]; cbn.
  - destruct n as [| |n| |]; try (right; intros (a & b & E & _); discriminate). destruct c as [c| | | |]; try (right; intros (a & b & _ & _ & E & _); discriminate).
    destruct (string_dec n ""); [right; intros (a & b & E & N & _); congruence|]. destruct (s n) eqn:E, rep.
    + left. exists n, c. auto.
    + right. intros (a & b & E1 & _ & _ & [H|H]); congruence.
    + left. exists n, c. auto.
    + left. exists n, c. auto.
  - destruct (s n); [left|right]; congruence.
Qed.
(** C48.  After any history of calls, starting with the built-in Shapes: a name resolves to what the
    accepted calls left it as (refused calls change nothing), unknown names raise, and the listing has
    exactly the names that resolve, each once, in order. *)
Theorem C48_registry_history ops :
  let r := rrun ops builtin in
  evolves ops (view builtin) (view r) /\
  (forall n, match view r n with Some c => get n r = Done c /\ resolve (AText n) r = Done c | None => get n r = Failed (ShapeNotFound n) /\ resolve (AText n) r = Failed (ShapeNotFound n) end) /\
  (forall n, In n (available r) <-> view r n <> None) /\ NoDup (available r) /\ StronglySorted (fun a b => str_ltb b a = false) (available r).
Proof.
  intros r. split; [|split; [|split]].
  - unfold r. generalize builtin. clear r. induction ops as [|o ops IH]; intros r; cbn [rrun]; [apply e_nil; auto|]. destruct (rstep_spec o r) as [A B]. destruct (accepts_dec o (view r)) as [H|H].
    + destruct (A H) as (r' & -> & E). eapply e_ok; eauto.
    + destruct (B H) as (e & ->). apply e_refused; auto.
  - intros n. unfold view, resolve, get. destruct (dget n r); auto.
  - intros n. unfold available. rewrite (Permutation_in' eq_refl (isort_perm str_leb (dkeys r))). unfold view. rewrite (dget_None n r). destruct (in_dec string_dec n (dkeys r)); tauto.
  - assert (N : NoDup (dkeys r)).
    { unfold r. assert (N0 : NoDup (dkeys builtin)) by (cbn; repeat constructor; cbn; intuition discriminate). revert N0. generalize builtin. clear r. induction ops as [|o ops IH]; intros r N; cbn [rrun]; auto. apply IH.
      destruct (rstep o r) as [r'|] eqn:E; auto. destruct o as [n c rep|n]; cbn in E.
      - destruct (register n c rep r) as [[c' r'']|] eqn:G; [|discriminate]. injection E as ->. destruct n as [| |n| |]; cbn in G; try discriminate. destruct (String.eqb n ""); [discriminate|].
        destruct c as [c| | | |]; try discriminate. destruct (dmem n r && negb rep); [discriminate|]. injection G as <- <-. apply dset_NoDup; auto.
      - unfold unregister in E. destruct (dmem n r); [|discriminate]. injection E as <-. apply ddel_NoDup; auto. }
    split.
    + unfold available. apply (Permutation_NoDup (Permutation_sym (isort_perm str_leb (dkeys r)))). auto.
    + unfold available. apply (Sorted_impl (fun a b => str_leb a b = true)); [unfold str_leb; intros a b; apply negb_true_iff|]. apply isort_sorted; unfold str_leb.
      * intros a b. destruct (str_ltb b a) eqn:E; auto. right. destruct (str_ltb a b) eqn:F; auto. pose proof (str_ltb_trans _ _ _ E F) as X. rewrite str_ltb_irrefl in X. discriminate.
      * intros a b c. rewrite !negb_true_iff. intros E F. destruct (str_ltb c a) eqn:G; auto. destruct (str_ltb_total a b) as [H|[->|H]]; [|congruence|congruence].
        pose proof (str_ltb_trans _ _ _ G H). congruence.
Qed.
(** None is the default Shape, classes and instances stand for themselves, anything else is refused. *)
Theorem C48_resolution r : (forall c, resolve (AClass c) r = Done c /\ resolve (AInstance c) r = Done c) /\ resolve ANone r = resolve (AText "pydantic") r /\ resolve AOther r = Failed ShapeInvalid.
Proof. split; auto. Qed.
(** Registering returns the class and never replaces another one silently. *)
Theorem C48_never_silently_replaces n c r c0 : dget n r = Some c0 -> register (AText n) (AClass c) false r = Failed ShapeRegistration.
Proof. intros H. unfold register, dmem. rewrite H. destruct (String.eqb n ""); auto. Qed.
(** The built-in Shapes, with Pydantic's the default. *)
Theorem C48_builtin_shapes :
  (forall n c, get n builtin = Done c <-> In (n, c) [("any", "AnyShape"); ("attrs", "AttrsShape"); ("dataclass", "DataclassShape"); ("msgspec", "MsgspecShape"); ("pydantic", "PydanticShape")]%string) /\
  resolve ANone builtin = Done "PydanticShape"%string.
Proof.
  split; [|reflexivity]. intros n c. unfold get, builtin. cbn [dget]. split.
  - repeat match goal with |- context [String.eqb n ?k] => destruct (String.eqb_spec n k) as [->|]; [intros [= <-]; cbn; tauto|] end. discriminate.
  - intros [[= <- <-]|[[= <- <-]|[[= <- <-]|[[= <- <-]|[[= <- <-]|[]]]]]]; reflexivity.
Qed.
Example C48_example : let r := rrun [ORegister (AText "mine") (AClass "Mine") false; ORegister (AText "any") (AClass "Mine") false; OUnregister "attrs"; OUnregister "attrs"]%string builtin in
  available r = ["any"; "dataclass"; "mine"; "msgspec"; "pydantic"]%string /\ get "any" r = Done "AnyShape"%string /\ get "attrs" r = Failed (ShapeNotFound "attrs").
Proof. vm_compute. auto. Qed.

(** *** C60, specification *)
(** built from None, atoms, mappings, tuples and lists only *)
Inductive plain : pyval -> Prop :=
| pl_none : plain PNone
| pl_atom a : plain (PAtom a)
| pl_map l : (forall k v, In (k, v) l -> plain v) -> plain (PMap l)
| pl_tuple l : (forall v, In v l -> plain v) -> plain (PTuple l)
| pl_list l : (forall v, In v l -> plain v) -> plain (PList l).
(** no mapping, at any depth, has None as a value *)
Inductive no_none : pyval -> Prop :=
| nn_none : no_none PNone
| nn_atom a : no_none (PAtom a)
| nn_map l : (forall k v, In (k, v) l -> v <> PNone /\ no_none v) -> no_none (PMap l)
| nn_tuple l : (forall v, In v l -> no_none v) -> no_none (PTuple l)
| nn_list l : (forall v, In v l -> no_none v) -> no_none (PList l).
(** [w] holds the data of [v]: the same atoms in the same places, records as mappings *)
Inductive holds (ex : bool) (md : bool -> list (string * pyval) -> pyval) : pyval -> pyval -> Prop :=
| h_none : holds ex md PNone PNone
| h_atom a : holds ex md (PAtom a) (PAtom a)
| h_model f : holds ex md (PModel f) (md ex f)
| h_record f l : entries ex md f l -> holds ex md (PRecord f) (PMap l)
| h_map f l : entries ex md f l -> holds ex md (PMap f) (PMap l)
| h_tuple l l' : Forall2 (holds ex md) l l' -> holds ex md (PTuple l) (PTuple l')
| h_list l l' : Forall2 (holds ex md) l l' -> holds ex md (PList l) (PList l')
| h_seq l l' : Forall2 (holds ex md) l l' -> holds ex md (PSeq l) (PList l')
with entries (ex : bool) (md : bool -> list (string * pyval) -> pyval) : list (string * pyval) -> list (string * pyval) -> Prop :=
| en_nil : entries ex md [] []
| en_drop k f l : ex = true -> entries ex md f l -> entries ex md ((k, PNone) :: f) l
| en_keep k v w f l : (ex = false \/ v <> PNone) -> holds ex md v w -> entries ex md f l -> entries ex md ((k, v) :: f) ((k, w) :: l).

Section Induction.
  Context (P : pyval -> Prop) (HN : P PNone) (HA : forall a, P (PAtom a))
    (HM : forall f, (forall k v, In (k, v) f -> P v) -> P (PModel f)) (HR : forall f, (forall k v, In (k, v) f -> P v) -> P (PRecord f)) (HP : forall f, (forall k v, In (k, v) f -> P v) -> P (PMap f))
    (HT : forall l, (forall v, In v l -> P v) -> P (PTuple l)) (HL : forall l, (forall v, In v l -> P v) -> P (PList l)) (HS : forall l, (forall v, In v l -> P v) -> P (PSeq l)).
  Fixpoint py_ind (v : pyval) : P v :=
    let items := fix items (f : list (string * pyval)) : forall k v, In (k, v) f -> P v :=
      match f return forall k v, In (k, v) f -> P v with
      | [] => fun k v I => match I with end
      | (k0, x) :: f' => fun k v I => match I with
          | or_introl E => match E in _ = kv return P (snd kv) with eq_refl => py_ind x end
          | or_intror I' => items f' k v I' end
      end in
    let elems := fix elems (l : list pyval) : forall v, In v l -> P v :=
      match l return forall v, In v l -> P v with
      | [] => fun v I => match I with end
      | x :: l' => fun v I => match I with or_introl E => match E in _ = w return P w with eq_refl => py_ind x end | or_intror I' => elems l' v I' end
      end in
    match v with
    | PNone => HN | PAtom a => HA a
    | PModel f => HM f (items f) | PRecord f => HR f (items f) | PMap f => HP f (items f)
    | PTuple l => HT l (elems l) | PList l => HL l (elems l) | PSeq l => HS l (elems l)
    end.
End Induction.
Definition dump_items md ex := fix items (l : list (string * pyval)) : list (string * pyval) :=
    match l with [] => [] | (k, x) :: l' => if negb ex || negb (is_none x) then (k, dump_plain md ex x) :: items l' else items l' end.
Lemma in_items md ex f k w : In (k, w) (dump_items md ex f) <-> exists v, In (k, v) f /\ (ex = false \/ v <> PNone) /\ w = dump_plain md ex v.
Proof.
  induction f as [|[k' x] f IH]; cbn; [split; [tauto|intros (v & [] & _)]|]. destruct (negb ex || negb (is_none x)) eqn:E.
  - assert (K : ex = false \/ x <> PNone) by (destruct ex; [right; intros ->; discriminate|auto]). cbn. rewrite IH. split.
    + intros [[= <- <-]|(v & I & HH)]; [exists x; auto|exists v; tauto].
    + intros (v & [[= <- <-]|I] & HH & ->); [auto|right; exists v; auto].
  - assert (K : ex = true /\ x = PNone) by (destruct ex; [destruct x; try discriminate; auto|discriminate]). destruct K as [-> ->]. rewrite IH. split.
    + intros (v & I & HH). exists v. tauto.
    + intros (v & [[= <- <-]|I] & HH & ->); [destruct HH; congruence|exists v; auto].
Qed.
(** C60.  Dumping keeps the data, in order, and gives plain values; with [exclude_none] it leaves out
    exactly the None entries. *)
Theorem C60_dump_keeps_data md ex v : holds ex md v (dump_plain md ex v).
Proof.
  assert (E : forall f, (forall k v, In (k, v) f -> holds ex md v (dump_plain md ex v)) -> entries ex md f (dump_items md ex f)).
  { induction f as [|[k x] f IH]; intros H; [constructor|]. cbn. destruct (negb ex || negb (is_none x)) eqn:B.
    - apply en_keep; [destruct ex; [right; intros ->; discriminate|auto]|apply (H k); left; auto|apply IH; intros; apply (H k0); right; auto].
    - assert (K : ex = true /\ x = PNone) by (destruct ex; [destruct x; try discriminate; auto|discriminate]). destruct K as [-> ->]. apply en_drop; auto. apply IH; intros; apply (H k0); right; auto. }
  assert (L : forall l, (forall v, In v l -> holds ex md v (dump_plain md ex v)) -> Forall2 (holds ex md) l (map (dump_plain md ex) l)).
  { induction l as [|x l IH]; intros H; [constructor|]. constructor; [apply H; left; auto|apply IH; intros; apply H; right; auto]. }
  induction v using py_ind; cbn [dump_plain].
  - constructor.
  - constructor.
  - constructor.
  - apply h_record. apply (E f). auto.
  - apply h_map. apply (E f). auto.
  - apply h_tuple. auto.
  - apply h_list. auto.
  - apply h_seq. auto.
Qed.
Theorem C60_dump_is_plain md ex v : (forall f, plain (md ex f)) -> plain (dump_plain md ex v).
Proof.
  intros M. induction v using py_ind; cbn [dump_plain]; [constructor|constructor|auto| | | | |].
  - apply pl_map. intros k w I. apply (in_items md ex f) in I as (v & I & _ & ->). eauto.
  - apply pl_map. intros k w I. apply (in_items md ex f) in I as (v & I & _ & ->). eauto.
  - apply pl_tuple. intros w I. apply in_map_iff in I as (v & <- & I). auto.
  - apply pl_list. intros w I. apply in_map_iff in I as (v & <- & I). auto.
  - apply pl_list. intros w I. apply in_map_iff in I as (v & <- & I). auto.
Qed.
Theorem C60_exclude_none md v : (forall f, no_none (md true f) /\ md true f <> PNone) -> no_none (dump_plain md true v).
Proof.
  intros M. assert (NN : forall v, v <> PNone -> dump_plain md true v <> PNone).
  { intros [| |f| | | | |]; cbn; intros; try discriminate; try congruence. apply M. }
  induction v using py_ind; cbn [dump_plain]; [constructor|constructor|apply M| | | | |].
  - apply nn_map. intros k w I. apply (in_items md true f) in I as (v & I & [H0|H0] & ->); [discriminate|]. eauto.
  - apply nn_map. intros k w I. apply (in_items md true f) in I as (v & I & [H0|H0] & ->); [discriminate|]. eauto.
  - apply nn_tuple. intros w I. apply in_map_iff in I as (v & <- & I). auto.
  - apply nn_list. intros w I. apply in_map_iff in I as (v & <- & I). auto.
  - apply nn_list. intros w I. apply in_map_iff in I as (v & <- & I). auto.
Qed.
(** What is plain already is not changed. *)
Theorem C60_plain_unchanged md ex v : plain v -> (ex = true -> no_none v) -> dump_plain md ex v = v.
Proof.
  induction v using py_ind; intros PL N; cbn [dump_plain]; auto; try solve [inversion PL].
  - f_equal. change (dump_items md ex f = f). inversion PL as [| |l HP| |]; subst. assert (HN : ex = true -> forall k v, In (k, v) f -> v <> PNone /\ no_none v) by (intros E; specialize (N E); inversion N; auto).
    clear PL N. induction f as [|[k x] f IH]; auto. cbn. assert (negb ex || negb (is_none x) = true) as ->.
    { destruct ex; auto. destruct (HN eq_refl k x (or_introl eq_refl)). destruct x; auto. }
    f_equal; [f_equal; apply (H k); [left; auto|apply (HP k); left; auto|intros E; apply (HN E k); left; auto]|].
    apply IH; intros; [apply (H k0); auto; right; auto|apply (HP k0); right; auto|apply (HN H0 k0); right; auto].
  - f_equal. inversion PL as [| | |l0 HP|]; subst. assert (HN : ex = true -> forall v, In v l -> no_none v) by (intros E; specialize (N E); inversion N; auto).
    rewrite <- (map_id l) at 2. apply map_ext_in. intros v I. apply H; auto.
  - f_equal. inversion PL as [| | | |l0 HP]; subst. assert (HN : ex = true -> forall v, In v l -> no_none v) by (intros E; specialize (N E); inversion N; auto).
    rewrite <- (map_id l) at 2. apply map_ext_in. intros v I. apply H; auto.
Qed.
Example C60_example : dump_plain (fun _ f => PMap f) true (PRecord [("a", PNone); ("b", PSeq [PNone; PRecord [("c", PAtom "1"); ("d", PNone)]])]%string)
  = PMap [("b", PList [PNone; PMap [("c", PAtom "1")]])]%string.
Proof. reflexivity. Qed.
