(** C94: dataclass, attrs and Any Shapes. *)
From Verif Require Import Prelude PreludeFacts Shapes PropShapes DataShape.
Ltac sp := repeat match goal with |- _ /\ _ => split end.

(** *** Specification *)
(** the value field [f] has after __init__ was called with [kw]; None: it is not set *)
Inductive gets (k : kind) (kw : dict pyval) (f : dfield) : option pyval -> Prop :=
| g_given v : f_init f = true -> dget (param k f) kw = Some v -> gets k kw f (Some v)
| g_default v : (f_init f = false \/ dget (param k f) kw = None) -> default_value f = Some v -> gets k kw f (Some v)
| g_unset : f_init f = false -> default_value f = None -> gets k kw f None.
Inductive set_up (k : kind) (kw : dict pyval) : list dfield -> dict pyval -> Prop :=
| su_nil : set_up k kw [] []
| su_set f fs v a : gets k kw f (Some v) -> set_up k kw fs a -> set_up k kw (f :: fs) ((f_name f, v) :: a)
| su_unset f fs a : gets k kw f None -> set_up k kw fs a -> set_up k kw (f :: fs) a.
(** the keywords the class takes: nothing it does not know, nothing required missing *)
Definition fits (c : dclass) (kw : dict pyval) : Prop :=
  (forall key v, In (key, v) kw -> exists f, In f (c_fields c) /\ f_init f = true /\ param (c_kind c) f = key) /\
  (forall f, In f (c_fields c) -> f_init f = true -> default_value f = None -> exists v, In (param (c_kind c) f, v) kw).
(** the class as it is: converters, validators and __post_init__ change nothing *)
Definition ordinary (c : dclass) : Prop := forall a, c_finish c a = Some a.

Lemma dget_In {V} k (d : dict V) v : dget k d = Some v -> In (k, v) d.
Proof. induction d as [|[k' v'] d IH]; cbn; [discriminate|]. destruct (String.eqb_spec k k') as [->|]; [intros [= ->]; auto|auto]. Qed.
Lemma In_dget {V} k (d : dict V) v : In (k, v) d -> exists v', dget k d = Some v'.
Proof. induction d as [|[k' v'] d IH]; cbn; [intros []|]. destruct (String.eqb_spec k k') as [->|N]; [eauto|]. intros [[= -> ->]|I]; [congruence|auto]. Qed.

Ltac fin := repeat match goal with H : _ \/ _ |- _ => destruct H end; first [exfalso; congruence | match goal with |- Some ((_, ?a) :: _) = Some ((_, ?b) :: _) => replace b with a by congruence; reflexivity end | reflexivity].
Lemma bind_spec k fs kw a : bind k fs kw = Some a <-> set_up k kw fs a.
Proof.
  revert a. induction fs as [|f fs IH]; intros a; cbn [bind].
  - split; [intros [= <-]; constructor|inversion 1; auto].
  - destruct (bind k fs kw) as [rest|] eqn:B.
    + assert (R : set_up k kw fs rest) by (apply IH; auto). assert (U : forall a', set_up k kw fs a' -> a' = rest) by (intros a' X; apply IH in X; congruence).
      destruct (f_init f) eqn:F; [destruct (dget (param k f) kw) as [v|] eqn:G|].
      * split; [intros [= <-]; constructor; auto; constructor; auto|]. inversion 1 as [|f' fs' v' a' X Y|f' fs' a' X Y]; subst; inversion X; subst; try congruence; rewrite (U _ Y); fin.
      * destruct (default_value f) as [v|] eqn:D.
        -- split; [intros [= <-]; constructor; auto; apply g_default; auto|]. inversion 1 as [|f' fs' v' a' X Y|f' fs' a' X Y]; subst; inversion X; subst; try congruence; rewrite (U _ Y); fin.
        -- split; [discriminate|]. inversion 1 as [|f' fs' v' a' X Y|f' fs' a' X Y]; subst; inversion X; subst; congruence.
      * destruct (default_value f) as [v|] eqn:D.
        -- split; [intros [= <-]; constructor; auto; apply g_default; auto|]. inversion 1 as [|f' fs' v' a' X Y|f' fs' a' X Y]; subst; inversion X; subst; try congruence; rewrite (U _ Y); fin.
        -- split; [intros [= <-]; apply su_unset; auto; constructor; auto|]. inversion 1 as [|f' fs' v' a' X Y|f' fs' a' X Y]; subst; inversion X; subst; try congruence; rewrite (U _ Y); fin.
    + split; [discriminate|]. inversion 1 as [|f' fs' v' a' X Y|f' fs' a' X Y]; subst; apply IH in Y; congruence.
Qed.
Lemma bind_ok k fs kw : (exists a, bind k fs kw = Some a) <-> forall f, In f fs -> f_init f = true -> default_value f = None -> exists v, In (param k f, v) kw.
Proof.
  induction fs as [|f fs IH]; cbn [bind]; [split; [intros _ f []|eauto]|]. split.
  - intros [a E]. destruct (bind k fs kw) as [rest|] eqn:B; [|discriminate]. intros g [<-|I] F D; [|apply (proj1 IH); eauto].
    rewrite F, D in E. destruct (dget (param k f) kw) as [v|] eqn:G; [|discriminate]. exists v. apply dget_In; auto.
  - intros H. destruct (proj2 IH) as [rest B]; [intros; apply H; auto; right; auto|]. rewrite B. destruct (default_value f) as [v|] eqn:D.
    + destruct (if f_init f then dget (param k f) kw else None); eauto.
    + destruct (f_init f) eqn:F; [|eauto]. destruct (H f (or_introl eq_refl) F D) as [v I]. apply In_dget in I as [v' ->]. eauto.
Qed.
Lemma known_spec c (kw : dict pyval) : forallb (known (c_kind c) (c_fields c)) (dkeys kw) = true <-> forall key v, In (key, v) kw -> exists f, In f (c_fields c) /\ f_init f = true /\ param (c_kind c) f = key.
Proof.
  rewrite forallb_forall. split.
  - intros H key v I. assert (X : known (c_kind c) (c_fields c) key = true) by (apply H; apply in_map_iff; exists (key, v); auto).
    apply existsb_exists in X as (f & I' & E). apply andb_true_iff in E as [E1 E2]. apply String.eqb_eq in E2. eauto.
  - intros H key I. apply in_map_iff in I as ([k v] & <- & I). destruct (H _ _ I) as (f & I' & F & E). apply existsb_exists. exists f. split; auto. rewrite F. cbn [fst]. apply String.eqb_eq. auto.
Qed.
Lemma call_spec c kw o : call c kw = Some o <-> fits c kw /\ exists a a', set_up (c_kind c) kw (c_fields c) a /\ c_finish c a = Some a' /\ o = {| i_class := c_name c; i_attrs := a' |}.
Proof.
  unfold call. destruct (forallb _ (dkeys kw)) eqn:K.
  - pose proof (proj1 (known_spec c kw) K) as K'. destruct (bind _ _ kw) as [a|] eqn:B.
    + assert (F : fits c kw) by (split; auto; apply (bind_ok (c_kind c) (c_fields c) kw); eauto). split.
      * destruct (c_finish c a) as [a'|] eqn:E; [|discriminate]. intros [= <-]. split; auto. exists a, a'. split; [apply bind_spec; auto|auto].
      * intros (_ & a0 & a' & S & E & ->). apply bind_spec in S. rewrite B in S. injection S as <-. rewrite E. auto.
    + split; [discriminate|]. intros (_ & a & a' & S & _). apply bind_spec in S. congruence.
  - split; [discriminate|]. intros ([F _] & _). apply (known_spec c kw) in F. congruence.
Qed.

(** C94.  A mapping is turned into an instance exactly when it gives every required field and nothing the
    class does not take, and the class's own code does not raise; every field then has the given value or its
    default.  Anything else is refused with a validation error - a deserialization error when loading - and no
    other exception. *)
Theorem C94_construct s c kw :
  (forall o, construct s c (IMap kw) = Got o <-> fits c kw /\ exists a a', set_up (c_kind c) kw (c_fields c) a /\ c_finish c a = Some a' /\ o = {| i_class := c_name c; i_attrs := a' |}) /\
  ((forall o, construct s c (IMap kw) <> Got o) -> construct s c (IMap kw) = Raised Validation /\ load s c (IMap kw) = Raised Deserialization) /\
  validate s c (IMap kw) = construct s c (IMap kw) /\ (forall o, load s c (IMap kw) = Got o <-> construct s c (IMap kw) = Got o).
Proof.
  assert (E : construct s c (IMap kw) = match call c kw with Some o => Got o | None => Raised Validation end) by (destruct s; unfold construct; destruct (c_kind c); auto).
  unfold load, validate. rewrite E. sp; auto.
  - intros o. rewrite <- call_spec. destruct (call c kw); split; congruence.
  - intros H. destruct (call c kw) as [o|]; [exfalso; apply (H o); auto|]. auto.
  - intros o. destruct (call c kw); split; congruence.
Qed.
(** An ordinary class takes every mapping that fits. *)
Theorem C94_construct_ordinary s c kw : ordinary c -> ((exists o, construct s c (IMap kw) = Got o) <-> fits c kw).
Proof.
  intros H. split.
  - intros [o E]. apply (proj1 (C94_construct s c kw)) in E. exact (proj1 E).
  - intros F. destruct (proj2 (bind_ok (c_kind c) (c_fields c) kw) (proj2 F)) as [a B]. apply bind_spec in B. exists {| i_class := c_name c; i_attrs := a |}. apply (proj1 (C94_construct s c kw)). split; auto. exists a, a. auto.
Qed.
(** An existing instance is returned as it is; other values are refused, except that the Any Shape calls the
    class with them, and takes anything for Any and object. *)
Theorem C94_instances s c o : c_isa c (i_class o) = true -> construct s c (IInst o) = Got o /\ load s c (IInst o) = Got o.
Proof. intros H. unfold load, construct, base_construct. destruct s, (c_kind c); rewrite H; auto. Qed.
Theorem C94_others s c x : (forall kw, x <> IMap kw) -> (forall o, x = IInst o -> c_isa c (i_class o) = false) ->
  (s <> ShAny -> construct s c x = Raised Validation /\ load s c x = Raised Deserialization) /\
  (s = ShAny -> forall v a, x = IOther v -> construct s c x = Got {| i_class := c_name c; i_attrs := a |} <-> c_single c v = Some a) /\ any_construct_anything x = Got x.
Proof.
  intros M I. sp; auto.
  - intros N. unfold load, construct, base_construct. destruct x as [kw|o|v]; [exfalso; apply (M kw); auto| |]; [rewrite (I o eq_refl)|]; destruct s; try congruence; destruct (c_kind c); auto.
  - intros -> v a ->. cbn. destruct (c_single c v); split; congruence.
Qed.

(** *** The round trip *)
Lemma items_eq md ex f : dump_items md ex f = f -> forall k v, In (k, v) f -> dump_plain md ex v = v /\ (ex = true -> v <> PNone).
Proof.
  assert (L : forall f, (List.length (dump_items md ex f) <= List.length f)%nat).
  { clear f. induction f as [|[k x] f IH]; cbn; auto. destruct (negb ex || negb (is_none x)); cbn; lia. }
  induction f as [|[k x] f IH]; cbn; [intros _ k v []|]. destruct (negb ex || negb (is_none x)) eqn:E.
  - intros [= X Y] k' v [[= <- <-]|I]; [|apply (IH Y k' v I)]. split; auto. intros ->. destruct x; discriminate.
  - intros X. exfalso. pose proof (L f) as Q. fold (dump_items md ex f) in X. rewrite X in Q. cbn in Q. lia.
Qed.
Lemma map_eq md ex l : map (dump_plain md ex) l = l -> forall v, In v l -> dump_plain md ex v = v.
Proof. induction l as [|x l IH]; cbn; [intros _ v []|]. intros [= X Y] v [<-|I]; auto. Qed.
Lemma unchanged_plain md ex v : (forall f, exists l, md ex f = PMap l) -> dump_plain md ex v = v -> plain v /\ (ex = true -> no_none v).
Proof.
  intros M. induction v using py_ind; cbn [dump_plain]; intros E; try discriminate.
  - split; constructor.
  - split; constructor.
  - destruct (M f) as [l X]. congruence.
  - injection E as E. pose proof (items_eq md ex f E) as Q. split; [apply pl_map; intros k v I; apply (H k v I); apply (Q k v I)|]. intros X. apply nn_map. intros k v I. destruct (Q k v I) as [Q1 Q2]. split; auto. apply (H k v I); auto.
  - injection E as E. pose proof (map_eq md ex l E) as Q. split; [apply pl_tuple|intros X; apply nn_tuple]; intros v I; apply (H v I); auto.
  - injection E as E. pose proof (map_eq md ex l E) as Q. split; [apply pl_list|intros X; apply nn_list]; intros v I; apply (H v I); auto.
Qed.

(** [comes_back k ex f v]: the value [v] of field [f] survives dumping and loading - it was left out as None and
    None is the default, or it was written, as it is, under a name __init__ takes *)
Definition comes_back (k : kind) (ex : bool) (f : dfield) (v : pyval) : Prop :=
  (ex = true /\ v = PNone /\ default_value f = Some PNone) \/
  ((ex = false \/ v <> PNone) /\ f_init f = true /\ (k = Attrs -> strip_underscores (f_name f) = f_name f) /\ plain v /\ (ex = true -> no_none v)).
(** an instance of [c] with all attributes *)
Definition whole (c : dclass) (o : instance) : Prop := i_class o = c_name c /\ dkeys (i_attrs o) = map f_name (c_fields c) /\ NoDup (map f_name (c_fields c)).

Lemma attributes_whole fs a : dkeys a = map f_name fs -> NoDup (map f_name fs) -> attributes fs a = Some a.
Proof.
  assert (G : forall fs a pre, dkeys a = map f_name fs -> NoDup (map f_name fs) -> (forall f, In f fs -> ~ In (f_name f) (dkeys pre)) -> attributes fs (pre ++ a) = Some a).
  { clear. induction fs as [|f fs IH]; intros [|[k v] a] pre E N D; cbn in *; try discriminate; auto. injection E as -> E. inversion N as [|x l NI N']; subst.
    assert (dget (f_name f) (pre ++ (f_name f, v) :: a) = Some v) as ->.
    { assert (X : ~ In (f_name f) (dkeys pre)) by (apply D; auto). clear - X. induction pre as [|[k w] pre IH]; cbn in *; [rewrite String.eqb_refl; auto|]. destruct (String.eqb_spec (f_name f) k); [exfalso; apply X; auto|]. apply IH. tauto. }
    replace (pre ++ (f_name f, v) :: a) with ((pre ++ [(f_name f, v)]) ++ a) by (rewrite <- app_assoc; auto). rewrite (IH a); auto.
    intros g I. unfold dkeys. rewrite map_app, in_app_iff. cbn. intros [X|[X|[]]]; [apply (D g); auto|]. apply NI. rewrite X. apply in_map. auto. }
  intros E N. apply (G fs a []); auto.
Qed.
Lemma strip_idem s : strip_underscores (strip_underscores s) = strip_underscores s.
Proof. induction s as [|c s IH]; auto. cbn. destruct (Ascii.eqb c "_") eqn:E; auto. cbn. rewrite E. auto. Qed.
Lemma param_name k f : (k = Attrs -> strip_underscores (f_name f) = f_name f) <-> param k f = f_name f.
Proof. destruct k; cbn; split; auto. congruence. Qed.
Lemma param_other k f g : param k g = f_name f -> param k f = f_name f.
Proof. destruct k; cbn; auto. intros <-. apply strip_idem. Qed.

Definition well_formed (c : dclass) : Prop :=
  NoDup (map f_name (c_fields c)) /\ NoDup (map (param (c_kind c)) (filter f_init (c_fields c))).
Lemma nodup_map_inj {A B} (h : A -> B) l x y : NoDup (map h l) -> In x l -> In y l -> h x = h y -> x = y.
Proof.
  induction l as [|z l IH]; [intros _ []|]. cbn. intros N Ix Iy E. inversion N as [|b bs NI N']; subst. destruct Ix as [->|Ix], Iy as [->|Iy]; auto; exfalso; apply NI; [rewrite E|rewrite <- E]; apply in_map; auto.
Qed.
Lemma set_up_gets k kw fs a : NoDup (map f_name fs) -> dkeys a = map f_name fs ->
  (set_up k kw fs a <-> forall f v, In (f, v) (combine fs (map snd a)) -> gets k kw f (Some v)).
Proof.
  revert a. induction fs as [|g fs IH]; intros a N K.
  - destruct a; [|discriminate]. split; [intros _ f v []|constructor].
  - destruct a as [|[n w] a]; [discriminate|]. cbn in K. injection K as -> K. inversion N as [|x l NI N']; subst. cbn [combine map snd]. split.
    + intros S f v I. inversion S as [|f' fs' v' a' X Y|f' fs' a' X Y]; subst.
      * destruct I as [[= <- <-]|I]; auto. apply (proj1 (IH a N' K) Y f v I).
      * exfalso. assert (Z : forall b, set_up k kw fs b -> forall x, In x (dkeys b) -> In x (map f_name fs)).
        { clear. induction 1; cbn; auto; firstorder. }
        apply NI. apply (Z _ Y). left. auto.
    + intros H. constructor; [apply H; left; auto|]. apply (IH a N' K). intros f v I. apply H. right. auto.
Qed.

  Lemma not_none (md : bool -> list (string * pyval) -> pyval) (ex : bool) (M : forall f, exists l, md ex f = PMap l) v : v <> PNone -> dump_plain md ex v <> PNone.
  Proof. destruct v as [|a|f|f|f|l|l|l]; cbn; try congruence. intros _. destruct (M f) as [l ->]. discriminate. Qed.
  Lemma dget_items_ne (md : bool -> list (string * pyval) -> pyval) (ex : bool) n a : ~ In n (dkeys a) -> dget n (dump_items md ex a) = None.
  Proof.
    induction a as [|[k v] a IH]; cbn; auto. intros H. destruct (negb ex || negb (is_none v)); [cbn; destruct (String.eqb_spec n k); [exfalso; apply H; auto|]|]; apply IH; tauto.
  Qed.
  Lemma dget_items (md : bool -> list (string * pyval) -> pyval) (ex : bool) n a v : NoDup (dkeys a) -> In (n, v) a -> dget n (dump_items md ex a) = if negb ex || negb (is_none v) then Some (dump_plain md ex v) else None.
  Proof.
    induction a as [|[k w] a IH]; cbn; [intros _ []|]. intros N I. inversion N as [|x l NI N']; subst. destruct I as [[= -> ->]|I].
    - destruct (negb ex || negb (is_none v)); [cbn; rewrite String.eqb_refl; auto|apply dget_items_ne; auto].
    - assert (n <> k) by (intros ->; apply NI; apply in_map_iff; exists (k, v); auto). destruct (negb ex || negb (is_none w)); [cbn; destruct (String.eqb_spec n k); [congruence|]|]; apply IH; auto.
  Qed.
  Lemma round (md : bool -> list (string * pyval) -> pyval) (ex : bool) (M : forall f, exists l, md ex f = PMap l) c a : well_formed c -> dkeys a = map f_name (c_fields c) ->
    (fits c (dump_items md ex a) /\ set_up (c_kind c) (dump_items md ex a) (c_fields c) a <-> forall f v, In (f, v) (combine (c_fields c) (map snd a)) -> comes_back (c_kind c) ex f v).
  Proof.
    intros [N NP] K. set (kw := dump_items md ex a) in *. assert (NA : NoDup (dkeys a)) by (rewrite K; auto).
    assert (P : forall f v, In (f, v) (combine (c_fields c) (map snd a)) -> In (f_name f, v) a /\ In f (c_fields c)).
    { clear - K. revert a K. induction (c_fields c) as [|f fs IH]; intros [|[k v] a] K; cbn in *; try discriminate; try (intros ? ? []; fail). intros g w [[= <- <-]|I]; injection K as -> K; auto. destruct (IH a K g w I). auto. }
    assert (P' : forall n v, In (n, v) a -> exists f, In (f, v) (combine (c_fields c) (map snd a)) /\ f_name f = n).
    { clear - K. revert a K. induction (c_fields c) as [|f fs IH]; intros [|[k v] a] K; cbn in *; try discriminate; try (intros ? ? []; fail). intros n w [[= <- <-]|I]; injection K as -> K; [exists f; auto|]. destruct (IH a K n w I) as (g & ? & ?). exists g. auto. }
    assert (P'' : forall f, In f (c_fields c) -> exists v, In (f, v) (combine (c_fields c) (map snd a))).
    { clear - K. revert a K. induction (c_fields c) as [|f fs IH]; intros [|[k v] a] K; cbn in *; try discriminate; [intros ? []|]. injection K as -> K. intros g [<-|I]; [eauto|]. destruct (IH a K g I) as [w ?]. eauto. }
    assert (KEPT : forall v, negb ex || negb (is_none v) = true <-> (ex = false \/ v <> PNone)).
    { intros v. destruct ex, v; cbn; intuition congruence. }
    rewrite (set_up_gets (c_kind c) kw (c_fields c) a N K). split.
    - intros [[F1 F2] S] f v I. destruct (P f v I) as [Ia If]. pose proof (S f v I) as GV. pose proof (dget_items md ex (f_name f) a v NA Ia) as G. fold kw in G. destruct (negb ex || negb (is_none v)) eqn:E.
      + right. pose proof (proj1 (KEPT v) E) as E'.
        destruct (F1 (f_name f) (dump_plain md ex v) (dget_In _ _ _ G)) as (g & Ig & Fg & Pg). pose proof (param_other _ _ _ Pg) as Pf.
        inversion GV as [v0 F G' Q1|v0 F G' Q1|]; subst.
        * rewrite Pf, G in G'. injection G' as G'. destruct (unchanged_plain md _ v M G'). sp; auto. apply param_name. auto.
        * destruct F as [F|F]; [|rewrite Pf, G in F; discriminate]. exfalso.
          destruct (P'' g Ig) as [w Iw]. destruct (P g w Iw) as [Iwa _]. pose proof (dget_items md ex (f_name g) a w NA Iwa) as GW. fold kw in GW.
          destruct (negb ex || negb (is_none w)) eqn:EW.
          -- destruct (F1 _ _ (dget_In _ _ _ GW)) as (h & _ & _ & Ph). apply param_other in Ph. assert (f = g) by (apply (nodup_map_inj f_name (c_fields c)); auto; congruence). congruence.
          -- assert (ex = true /\ w = PNone) as [EX ->] by (destruct ex, w; cbn in EW; auto; discriminate). pose proof (S g PNone Iw) as W. inversion W as [v1 F3 G3 Q3|v1 F3 G3 Q3|]; subst.
             ++ rewrite Pg, G in G3. injection G3 as G3. apply (not_none md _ M v); [|auto]. destruct E'; [congruence|auto].
             ++ destruct F3 as [F3|F3]; [congruence|]. rewrite Pg, G in F3. discriminate.
      + left. assert (ex = true /\ v = PNone) as [EX ->] by (destruct ex, v; cbn in E; auto; discriminate). sp; auto.
        inversion GV as [v0 F G' Q1|v0 F G' Q1|]; subst; auto. exfalso.
        apply dget_In in G'. apply (in_items md _ a) in G' as (w & Iw & HN & HW). destruct HN as [HN|HN]; [congruence|]. apply (not_none md _ M w HN). auto.
    - intros H. split; [split|].
      + intros key v I. apply (in_items md ex a) in I as (w & Iw & Q & ->). destruct (P' _ _ Iw) as (f & If & Ef). destruct (H f w If) as [(X & Y & _)|(_ & F & U & _)]; [destruct Q; congruence|].
        exists f. sp; auto; [apply (P f w If)|]. rewrite (proj1 (param_name _ _) U). auto.
      + intros f If F D. destruct (P'' f If) as [v I]. destruct (P f v I) as [Ia _]. destruct (H f v I) as [(X & Y & Z)|(Q & _ & U & _)]; [congruence|].
        exists (dump_plain md ex v). rewrite (proj1 (param_name _ _) U). apply dget_In. fold kw. unfold kw. rewrite (dget_items md ex (f_name f) a v NA Ia). rewrite (proj2 (KEPT v) Q). auto.
      + intros f v I. destruct (P f v I) as [Ia If]. pose proof (dget_items md ex (f_name f) a v NA Ia) as G. fold kw in G. destruct (H f v I) as [(EX & -> & D)|(Q & F & U & PL & NN)].
        * apply g_default; auto. destruct (f_init f) eqn:F; auto. right. destruct (dget (param (c_kind c) f) kw) as [w|] eqn:GW; auto. exfalso.
          apply dget_In in GW. apply (in_items md ex a) in GW as (x & Ix & HN & HW). destruct (P' _ _ Ix) as (g & Ig & Eg). destruct (P g x Ig) as [_ Ig'].
          destruct (H g x Ig) as [(_ & -> & _)|(Qg & Fg & Ug & _)]; [destruct HN; congruence|]. apply param_name in Ug.
          assert (f = g) by (apply (nodup_map_inj (param (c_kind c)) (filter f_init (c_fields c))); try apply filter_In; auto; congruence). subst g.
          assert (x = PNone) by (rewrite <- Eg in Ix; assert (Z : (f_name f, x) = (f_name f, PNone)) by (apply (nodup_map_inj fst a); auto); congruence).
          destruct HN; congruence.
        * apply g_given; auto. rewrite (proj1 (param_name (c_kind c) f) U), G. rewrite (proj2 (KEPT v) Q). f_equal. apply C60_plain_unchanged; auto.
  Qed.

(** C94.  Dumping an instance of an ordinary class and loading the result gives an equal instance exactly when
    every field comes back. *)
Theorem C94_round_trip md ex s s' c o : (forall f, exists l, md ex f = PMap l) -> well_formed c -> ordinary c -> whole c o ->
  exists l, dump md s ex c o = Got (PMap l) /\
    (load s' c (IMap l) = Got o <-> forall f v, In (f, v) (combine (c_fields c) (map snd (i_attrs o))) -> comes_back (c_kind c) ex f v).
Proof.
  intros M W O (EC & K & N). destruct o as [cn a]. cbn [i_class i_attrs] in *. subst cn. exists (dump_items md ex a). split.
  - unfold dump. cbn [i_attrs]. rewrite (attributes_whole _ _ K N). reflexivity.
  - rewrite <- (round md ex M c a W K). rewrite (proj2 (proj2 (proj2 (C94_construct s' c (dump_items md ex a))))). rewrite (proj1 (C94_construct s' c (dump_items md ex a))). split.
    + intros (F & b & b' & S & E & Q). rewrite O in E. injection E as <-. injection Q as <-. auto.
    + intros [F S]. split; auto. exists a, a. auto.
Qed.
(** In particular: fields holding plain values, all of them parameters under their own names, come back. *)
Corollary C94_plain_round_trip md s s' c o : (forall f, exists l, md false f = PMap l) -> well_formed c -> ordinary c -> whole c o -> c_kind c = Dataclass ->
  (forall f, In f (c_fields c) -> f_init f = true) -> (forall n v, In (n, v) (i_attrs o) -> plain v) ->
  exists l, dump md s false c o = Got (PMap l) /\ load s' c (IMap l) = Got o.
Proof.
  intros M W O H KD F PL. destruct (C94_round_trip md false s s' c o M W O H) as (l & D & L). exists l. split; auto. apply L. intros f v I. right. sp; auto.
  - apply F. apply in_combine_l in I. auto.
  - congruence.
  - apply in_combine_r in I. apply in_map_iff in I as ([n v'] & <- & I). apply (PL n). auto.
  - discriminate.
Qed.
(** Dumping fails exactly when a field was never set; then it is a serialization error - except that the attrs
    Shape lets the bare AttributeError of an attrs class escape. *)
Theorem C94_dump_fails md s ex c o : let unset := exists f, In f (c_fields c) /\ dget (f_name f) (i_attrs o) = None in
  ((exists d, dump md s ex c o = Got d) <-> ~ unset) /\
  (unset -> dump md s ex c o = if match s, c_kind c with ShAttrs, Attrs => true | _, _ => false end then Raised RawAttributeError else Raised Serialization).
Proof.
  intros unset. assert (A : attributes (c_fields c) (i_attrs o) = None <-> unset).
  { unfold unset. induction (c_fields c) as [|f fs IH]; cbn; [split; [discriminate|intros (f & [] & _)]|]. destruct (dget (f_name f) (i_attrs o)) eqn:G.
    - destruct (attributes fs (i_attrs o)).
      + split; [discriminate|]. intros (g & [<-|I] & E); [congruence|]. destruct IH as [_ IH]. discriminate IH. eauto.
      + split; auto. intros _. destruct (proj1 IH eq_refl) as (g & I & E). eauto.
    - split; auto. eauto. }
  unfold dump. destruct (attributes (c_fields c) (i_attrs o)).
  - split; [split; [intros _ U; apply A in U; discriminate|eauto]|]. intros U. apply A in U. discriminate.
  - assert (U : unset) by (apply A; auto). split; [split; [intros [d E]; destruct s, (c_kind c); discriminate|tauto]|]. intros _. destruct s, (c_kind c); auto.
Qed.
(** The field list names the fields in order and marks as required those without default. *)
Theorem C94_fields c : map sf_name (fields c) = map f_name (c_fields c) /\
  (forall f, In f (c_fields c) -> exists sf, In sf (fields c) /\ sf_name sf = f_name f /\ (sf_required sf = true <-> default_value f = None) /\
    (forall v, f_default f = Value v -> sf_default sf = Shown v) /\ (default_value f = None -> sf_default sf = Shown PNone)) /\
  (forall sf, In sf (fields c) -> exists f, In f (c_fields c) /\ sf_name sf = f_name f).
Proof.
  unfold fields. sp.
  - rewrite map_map. auto.
  - intros f I. eexists. split; [apply in_map_iff; exists f; split; [reflexivity|auto]|]. cbn. unfold default_value. destruct (f_default f); sp; auto; try congruence; split; congruence.
  - intros sf I. apply in_map_iff in I as (f & <- & I). exists f. auto.
Qed.
(** "Required" does not mean that the constructor needs it: a field outside __init__ is listed as required and
    refused when given. *)
Theorem C94_required_but_refused_refuted : ~ (forall s c kw sf, ordinary c -> well_formed c -> In sf (fields c) -> sf_required sf = true -> (exists o, construct s c (IMap kw) = Got o) -> exists v, In (sf_name sf, v) kw).
Proof.
  intros H. set (c := {| c_name := "A"; c_kind := Dataclass; c_fields := [{| f_name := "n"; f_init := false; f_default := NoDefault |}]; c_isa := String.eqb "A"; c_finish := Some; c_single := fun _ => None |}%string).
  destruct (H ShDataclass c [] {| sf_name := "n"; sf_required := true; sf_default := Shown PNone |}%string) as [v []]; cbn; auto.
  - intros a. reflexivity.
  - split; repeat constructor; intros [].
  - exists {| i_class := "A"; i_attrs := [] |}%string. reflexivity.
Qed.
(** A round trip can fail: a nested dataclass comes back as a mapping. *)
Definition ex_config : dclass := {| c_name := "Config"; c_kind := Dataclass; c_isa := String.eqb "Config"; c_finish := Some; c_single := fun _ => None;
  c_fields := [{| f_name := "retries"; f_init := true; f_default := NoDefault |}; {| f_name := "label"; f_init := true; f_default := Value PNone |}; {| f_name := "tags"; f_init := true; f_default := Factory (PList []) |}] |}%string.
Definition ex_obj (label tags : pyval) : instance := {| i_class := "Config"; i_attrs := [("retries", PAtom "3"); ("label", label); ("tags", tags)] |}%string.
Example C94_example : let md := fun (_ : bool) l => PMap l in
  ordinary ex_config /\ well_formed ex_config /\ whole ex_config (ex_obj PNone (PList [PAtom "x"])) /\
  construct ShDataclass ex_config (IMap [("retries", PAtom "3")])%string = Got (ex_obj PNone (PList [])) /\
  construct ShDataclass ex_config (IMap [("label", PAtom "3")])%string = Raised Validation /\
  construct ShDataclass ex_config (IMap [("retries", PAtom "3"); ("retry", PAtom "3")])%string = Raised Validation /\
  dump md ShDataclass true ex_config (ex_obj PNone (PList [PAtom "x"])) = Got (PMap [("retries", PAtom "3"); ("tags", PList [PAtom "x"])])%string /\
  load ShDataclass ex_config (IMap [("retries", PAtom "3"); ("tags", PList [PAtom "x"])])%string = Got (ex_obj PNone (PList [PAtom "x"])) /\
  load ShDataclass ex_config (IMap [("retries", PAtom "3"); ("label", PMap [("a", PAtom "1")]); ("tags", PList [])])%string <> Got (ex_obj (PRecord [("a", PAtom "1")])%string (PList [])).
Proof.
  intros md. sp; try reflexivity; try (vm_compute; discriminate).
  - repeat constructor; cbn; intuition discriminate.
  - repeat constructor; cbn; intuition discriminate.
  - repeat constructor; cbn; intuition discriminate.
Qed.
(** An attrs class with a private field: its dump is not taken back. *)
Theorem C94_attrs_private_refuted : ~ (forall md c o l, ordinary c -> well_formed c -> whole c o -> (forall n v, In (n, v) (i_attrs o) -> plain v) -> dump md ShAttrs false c o = Got (PMap l) -> load ShAttrs c (IMap l) = Got o).
Proof.
  intros H. set (c := {| c_name := "A"; c_kind := Attrs; c_fields := [{| f_name := "_n"; f_init := true; f_default := NoDefault |}]; c_isa := String.eqb "A"; c_finish := Some; c_single := fun _ => None |}%string).
  specialize (H (fun _ l => PMap l) c {| i_class := "A"; i_attrs := [("_n", PAtom "1")] |}%string [("_n", PAtom "1")]%string). vm_compute in H. discriminate H; auto.
  - repeat constructor; intros [].
  - repeat constructor; intros [].
  - intros n v [[= <- <-]|[]]. constructor.
Qed.
