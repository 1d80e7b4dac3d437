(** C87: where a setting's value comes from.  C88: dumping the settings. *)
From Verif Require Import Prelude PreludeFacts Text Dash Forms FormsSpec PropForms2 Settings.
Open Scope Z_scope.
Ltac sp := repeat match goal with |- _ /\ _ => split end.

(** *** specification *)
(** what a text in the environment says for a type: the words for true, any other text for false; a number;
    the text itself; what the class makes of it.  Of a union, only with None. *)
Inductive reads : styp -> string -> sval -> Prop :=
| rd_true b w s : plain b BBool -> In w ["true"; "1"; "yes"; "on"; "y"]%string -> lower s = w -> reads b s (SBool true)
| rd_false b s : plain b BBool -> (forall w, In w ["true"; "1"; "yes"; "on"; "y"]%string -> lower s <> w) -> reads b s (SBool false)
| rd_int b s n : plain b BInt -> int_text s n -> reads b s (SInt n)
| rd_text b s : plain b BStr -> reads b s (SText s)
| rd_class b f s v : plain b (BClass f) -> f s = Some v -> reads b s v
with plain : styp -> sbase -> Prop :=
| pl_one b : plain (TPlain b) b
| pl_opt b : plain (TUnion [b]) b.
(** the value of setting [k]: the environment's, else the argument's, else the class's, else None *)
Inductive comes_to (c : sclass) (env : dict string) (kwargs : dict sval) (k : string) (t : styp) : sval -> Prop :=
| from_env s v : dget (upper k) env = Some s -> reads t s v -> comes_to c env kwargs k t v
| from_argument v : dget (upper k) env = None -> dget k kwargs = Some v -> comes_to c env kwargs k t v
| from_class v : dget (upper k) env = None -> dget k kwargs = None -> dget k (sc_attrs c) = Some v -> comes_to c env kwargs k t v
| from_nothing : dget (upper k) env = None -> dget k kwargs = None -> dget k (sc_attrs c) = None -> comes_to c env kwargs k t SNone.
(** the class is put together sensibly: one hint for a name, no setting that is a property; arguments are a dictionary *)
Record sensible (c : sclass) : Prop := { se_hints : NoDup (map fst (sc_hints c)); se_apart : forall k, In k (map fst (sc_hints c)) -> dget k (sc_props c) = None }.

(** *** proofs *)
Lemma word_in_iff w l : word_in w l = true <-> In w l.
Proof. unfold word_in. rewrite existsb_exists. split; [intros (x & I & E); apply String.eqb_eq in E; subst; auto|]. intros I. exists w. split; auto. apply String.eqb_refl. Qed.
Lemma call_type_iff b s v t : plain t b -> call_type b s = Some v <-> reads t s v.
Proof.
  intros P. assert (U : forall b', plain t b' -> b' = b) by (intros b' Q; inversion P; subst; inversion Q; auto). split.
  - destruct b as [| | |f]; cbn [call_type]; intros H.
    + assert (v = SBool (word_in (lower s) truthy_words)) as -> by congruence. destruct (word_in (lower s) truthy_words) eqn:W; [apply word_in_iff in W; eapply rd_true; eauto|]. apply rd_false; auto. intros w I E. subst w. apply word_in_iff in I. unfold truthy_words in W. congruence.
    + destruct (py_int s) as [n|] eqn:E; [|discriminate]. injection H as <-. apply rd_int; auto. apply py_int_iff. auto.
    + injection H as <-. apply rd_text. auto.
    + eapply rd_class; eauto.
  - intros R. destruct R as [t' w s' Q I E|t' s' Q N|t' s' n Q I|t' s' Q|t' f s' w Q F]; rewrite <- (U _ Q); cbn [call_type].
    + rewrite E. apply word_in_iff in I. unfold truthy_words. rewrite I. auto.
    + destruct (word_in (lower s') truthy_words) eqn:W; auto. apply word_in_iff in W. destruct (N _ W eq_refl).
    + apply py_int_iff in I. rewrite I. auto.
    + auto.
    + auto.
Qed.
Lemma reads_plain t s v : reads t s v -> exists b, plain t b.
Proof. destruct 1; eauto. Qed.
Lemma cast_iff t s v : cast t s = Ok v <-> reads t s v.
Proof.
  unfold cast. destruct t as [b|[|b [|b' l]]].
  - rewrite <- (call_type_iff b s v (TPlain b) (pl_one b)). destruct (call_type b s); split; congruence.
  - split; [discriminate|]. intros R. destruct (reads_plain _ _ _ R) as (b & P). inversion P.
  - rewrite <- (call_type_iff b s v (TUnion [b]) (pl_opt b)). destruct (call_type b s); split; congruence.
  - split; [discriminate|]. intros R. destruct (reads_plain _ _ _ R) as (x & P). inversion P.
Qed.
Lemma cast_err t s e : cast t s = Err e -> e = ValueError.
Proof. unfold cast. destruct (match t with TPlain b => call_type b s | TUnion [b] => call_type b s | TUnion _ => None end); congruence. Qed.
Lemma set_all_spec c kwargs : forall o, match set_all c kwargs o with
  | Ok o' => (forall k, In k (map fst kwargs) -> dget k (sc_props c) = None) /\ (NoDup (map fst kwargs) -> forall k, dget k o' = match dget k kwargs with Some v => Some v | None => dget k o end)
  | Err e => e = AttributeError /\ exists k, In k (map fst kwargs) /\ dget k (sc_props c) <> None
  end.
Proof.
  induction kwargs as [|[k v] l IH]; intros o; cbn [set_all]; [split; [intros k []|auto]|]. unfold set_attr. destruct (dget k (sc_props c)) eqn:P.
  - split; auto. exists k. cbn. split; auto. congruence.
  - specialize (IH (dset k v o)). destruct (set_all c l (dset k v o)) as [o'|e].
    + destruct IH as [A B]. split; [intros x [<-|I]; auto|]. intros N x. inversion N as [|? ? N1 N2]; subst. rewrite (B N2 x). cbn [dget]. destruct (String.eqb_spec x k) as [->|NE].
      * assert (dget k l = None) as -> by (apply dget_None; auto). apply dget_dset_eq.
      * rewrite dget_dset_ne by auto. auto.
    + destruct IH as (E & x & I & X). split; auto. exists x. split; auto. right. auto.
Qed.
Lemma resolve_spec c env : forall hints o, NoDup (map fst hints) -> (forall k, In k (map fst hints) -> dget k (sc_props c) = None) ->
  match resolve c env hints o with
  | Ok o' => (forall k t, In (k, t) hints -> exists v, dget k o' = Some v /\ match dget (upper k) env with Some s => cast t s = Ok v | None => v = get_attr c k o end) /\ (forall k, ~ In k (map fst hints) -> dget k o' = dget k o)
  | Err e => e = ValueError /\ exists k t s, In (k, t) hints /\ dget (upper k) env = Some s /\ forall v, cast t s <> Ok v
  end.
Proof.
  induction hints as [|[k t] l IH]; intros o N P; cbn [resolve]; [split; [intros k t []|auto]|]. inversion N as [|? ? N1 N2]; subst. cbn [fst map] in *.
  destruct (match dget (upper k) env with Some text => cast t text | None => Ok (get_attr c k o) end) as [v|e] eqn:E.
  - unfold set_attr. rewrite (P k (or_introl eq_refl)). specialize (IH (dset k v o) N2 (fun x I => P x (or_intror I))). destruct (resolve c env l (dset k v o)) as [o'|e].
    + destruct IH as [A B]. split.
      * intros x t' [[= <- <-]|I].
        { exists v. rewrite (B k N1), dget_dset_eq. split; auto. destruct (dget (upper k) env); congruence. }
        { destruct (A x t' I) as (w & G & H). exists w. split; auto. destruct (dget (upper x) env); auto. rewrite H. unfold get_attr. rewrite dget_dset_ne; auto. intros ->. apply N1. apply (in_map fst) in I. auto. }
      * intros x NI. rewrite B by (intros X; apply NI; right; auto). apply dget_dset_ne. intros ->. apply NI. left. auto.
    + destruct IH as (EE & x & t' & s & I & G & H). split; auto. exists x, t', s. split; auto. right. auto.
  - destruct (dget (upper k) env) as [s|] eqn:G; [|discriminate]. split; [eapply cast_err; eauto|]. exists k, t, s. sp; auto; [left; auto|]. intros v. congruence.
Qed.
(** *** C87 *)
(** Making the settings gives every declared setting the value it comes to, and every other argument as it
    is; it fails with a ValueError exactly when the environment names a declared setting with a text its type
    does not read, and with an AttributeError exactly when an argument names a property. *)
Theorem C87_resolution :
  forall (c : sclass) (env : dict string) (kwargs : dict sval), sensible c -> NoDup (map fst kwargs) ->
    match make c env kwargs with
    | Ok o => (forall k t, In (k, t) (sc_hints c) -> exists v, dget k o = Some v /\ comes_to c env kwargs k t v) /\
              (forall k, ~ In k (map fst (sc_hints c)) -> dget k o = dget k kwargs) /\
              (forall k, In k (map fst kwargs) -> dget k (sc_props c) = None)
    | Err e => (e = AttributeError /\ exists k, In k (map fst kwargs) /\ dget k (sc_props c) <> None) \/
               (e = ValueError /\ exists k t s, In (k, t) (sc_hints c) /\ dget (upper k) env = Some s /\ forall v, ~ reads t s v)
    end.
Proof.
  intros c env kwargs [N P] NK. unfold make. pose proof (set_all_spec c kwargs []) as S. destruct (set_all c kwargs []) as [o|e]; [|left; auto]. destruct S as [S1 S2]. specialize (S2 NK).
  pose proof (resolve_spec c env (sc_hints c) o N P) as R. destruct (resolve c env (sc_hints c) o) as [o'|e].
  - destruct R as [A B]. sp; auto.
    + intros k t I. destruct (A k t I) as (v & G & H). exists v. split; auto. destruct (dget (upper k) env) as [s|] eqn:E; [apply cast_iff in H; eapply from_env; eauto|].
      unfold get_attr in H. rewrite S2 in H. cbn [dget] in H. destruct (dget k kwargs) as [w|] eqn:K; [subst; apply from_argument; auto|]. destruct (dget k (sc_attrs c)) as [w|] eqn:D; [subst; apply from_class; auto|subst; apply from_nothing; auto].
    + intros k NI. rewrite (B k NI), S2. cbn. destruct (dget k kwargs); auto.
  - right. destruct R as (E & k & t & s & I & G & H). split; auto. exists k, t, s. sp; auto. intros v R. apply cast_iff in R. apply (H v R).
Qed.
Print Assumptions C87_resolution.
Lemma asyncz_sensible version : sensible (asyncz_settings version).
Proof. constructor; cbn; [repeat constructor; cbn; intuition discriminate|]. intros k H. intuition (subst; auto). Qed.
Example C87_instance : NoDup (map fst [("secret_key", SText "s"); ("debug", SBool true)]%string) /\
  exists o, make (asyncz_settings "1.0") [("VERSION", "2"); ("PATH", "/bin")]%string [("secret_key", SText "s"); ("debug", SBool true)]%string = Ok o /\ dget "version" o = Some (SText "2") /\ dget "debug" o = Some (SBool true) /\ dget "secret_key" o = Some (SText "s").
Proof. split; [repeat constructor; cbn; intuition discriminate|]. eexists. cbn. sp; reflexivity. Qed.
(** What is passed explicitly is what is used: not if the environment has a variable of that - unprefixed - name. *)
Theorem C87_environment_beats_arguments :
  ~ forall version env kwargs o k v, NoDup (map fst kwargs) -> make (asyncz_settings version) env kwargs = Ok o -> dget k kwargs = Some v -> dget k o = Some v.
Proof.
  intros H. specialize (H "1.0"%string [("DEBUG", "1")]%string [("debug", SBool false)]%string _ "debug"%string (SBool false) ltac:(repeat constructor; cbn; intuition) eq_refl eq_refl). vm_compute in H. discriminate.
Qed.
Print Assumptions C87_environment_beats_arguments.

(** *** C88 *)
(** the entries wanted, in the order of the declarations *)
Definition kept_value (exclude_none : bool) (v : sval) : Prop := exclude_none = true -> v <> SNone.
Inductive listing (value : string -> sval) (exclude_none : bool) (exclude : list string) : list string -> list (string * sval) -> Prop :=
| li_nil : listing value exclude_none exclude [] []
| li_take k l r : ~ In k exclude -> kept_value exclude_none (value k) -> listing value exclude_none exclude l r -> listing value exclude_none exclude (k :: l) ((k, value k) :: r)
| li_skip k l r : In k exclude \/ ~ kept_value exclude_none (value k) -> listing value exclude_none exclude l r -> listing value exclude_none exclude (k :: l) r.
Lemma kept_iff en v : en && is_snone v = false <-> kept_value en v.
Proof. unfold kept_value. destruct en, v; cbn; split; intros H; auto; try congruence; intros; try congruence. all: try (destruct (H eq_refl eq_refl)). Qed.
Lemma dump_hints_spec c o en up ex : forall hints, NoDup (map (fun h => out_key up (fst h)) hints) -> forall r, (forall k, In k (map (fun h => out_key up (fst h)) hints) -> ~ In k (map fst r)) ->
  exists l, listing (fun k => get_attr c k o) en ex (map fst hints) l /\ dump_hints c o en up ex hints r = r ++ map (fun kv => (out_key up (fst kv), snd kv)) l.
Proof.
  induction hints as [|[k t] hints IH]; intros N r D; cbn [dump_hints map fst] in *; [exists []; rewrite app_nil_r; split; auto; constructor|]. inversion N as [|? ? N1 N2]; subst.
  assert (D' : forall x, In x (map (fun h => out_key up (fst h)) hints) -> ~ In x (map fst r)) by (intros x I; apply D; right; auto).
  destruct (word_in k ex) eqn:W.
  - apply word_in_iff in W. destruct (IH N2 r D') as (l & L & E). exists l. split; auto. apply li_skip; auto.
  - assert (NW : ~ In k ex) by (intros I; apply word_in_iff in I; congruence). destruct (en && is_snone (get_attr c k o)) eqn:K.
    + destruct (IH N2 r D') as (l & L & E). exists l. split; auto. apply li_skip; auto. right. intros X. apply kept_iff in X. congruence.
    + apply kept_iff in K. rewrite dset_keys_notin by (apply (D (out_key up k)); left; auto).
      destruct (IH N2 (r ++ [(out_key up k, get_attr c k o)])) as (l & L & E).
      { intros x I. rewrite map_app, in_app_iff. cbn. intros [X|[X|[]]]; [apply (D' x I X)|subst; auto]. }
      exists ((k, get_attr c k o) :: l). split; [apply li_take; auto|]. rewrite E, <- app_assoc. auto.
Qed.
(** [dict()] lists the declared settings with their values, in order of declaration, without those excluded
    and, if so asked, those that are None (names that differ only in case must not be merged by [upper]). *)
Theorem C88_dict :
  forall (c : sclass) (o : dict sval) (exclude_none up : bool) (exclude : list string),
    NoDup (map (fun h => if up then upper (fst h) else fst h) (sc_hints c)) -> (forall k t, In (k, t) (sc_hints c) -> exists v, dget k o = Some v) ->
    exists l, listing (fun k => match dget k o with Some v => v | None => SNone end) exclude_none exclude (map fst (sc_hints c)) l /\
      dump c o exclude_none up exclude false = map (fun kv => (if up then upper (fst kv) else fst kv, snd kv)) l.
Proof.
  intros c o en up ex N V. destruct (dump_hints_spec c o en up ex (sc_hints c) N []) as (l & L & E); [intros k _ []|]. exists l. split; [|exact E].
  assert (X : forall hints : list (string * styp), (forall k t, In (k, t) hints -> exists v, dget k o = Some v) -> forall l, listing (fun k => get_attr c k o) en ex (map fst hints) l -> listing (fun k => match dget k o with Some v => v | None => SNone end) en ex (map fst hints) l).
  { clear. induction hints as [|[k t] hints IH]; intros V l L; cbn [map fst] in *; inversion L; subst; [constructor| |].
    - assert (G : get_attr c k o = match dget k o with Some v => v | None => SNone end) by (unfold get_attr; destruct (V k t (or_introl eq_refl)) as (v & ->); auto). rewrite G in *. apply li_take; auto. apply IH; auto. intros; eapply V; right; eauto.
    - assert (G : get_attr c k o = match dget k o with Some v => v | None => SNone end) by (unfold get_attr; destruct (V k t (or_introl eq_refl)) as (v & ->); auto). apply li_skip; [rewrite <- G; auto|]. apply IH; auto. intros; eapply V; right; eauto. }
  apply X; auto.
Qed.
Print Assumptions C88_dict.
Lemma dump_props_keeps c o en up ex props : forall r k, In k (map fst r) -> In k (map fst (dump_props c o en up ex props r)).
Proof.
  induction props as [|[p f] props IH]; intros r k I; cbn [dump_props]; auto. destruct (_ || _); auto. destruct (f o) as [v|]; auto. destruct (_ && _); auto. apply IH. destruct (in_dec string_dec (out_key up p) (map fst r)) as [J|J].
  - pose proof (dset_keys_in (out_key up p) v r J) as E. unfold dkeys in E. rewrite E. auto.
  - pose proof (dset_keys_notin (out_key up p) v r J) as E. rewrite E, map_app, in_app_iff. auto.
Qed.
(** the properties listed: those that are no setting and do not raise *)
Definition property_values (c : sclass) (o : dict sval) (props : list (string * (dict sval -> option sval))) : list (string * sval) :=
  flat_map (fun p => match snd p o with Some v => if in_dec string_dec (fst p) (map fst (sc_hints c)) then [] else [(fst p, v)] | None => [] end) props.
Lemma dump_props_spec c o en up ex : forall props, NoDup (map (fun h => out_key up (fst h)) props) -> forall r, (forall k, In k (map (fun h => out_key up (fst h)) props) -> ~ In k (map fst r)) ->
  dump_props c o en up ex props r = r ++ map (fun kv => (out_key up (fst kv), snd kv)) (filter (fun kv => negb (word_in (fst kv) ex) && negb (en && is_snone (snd kv))) (property_values c o props)).
Proof.
  induction props as [|[k f] props IH]; intros N r D; cbn [dump_props map fst property_values flat_map snd] in *; [rewrite app_nil_r; auto|]. inversion N as [|? ? N1 N2]; subst.
  assert (D' : forall x, In x (map (fun h => out_key up (fst h)) props) -> ~ In x (map fst r)) by (intros x I; apply D; right; auto).
  change (flat_map _ props) with (property_values c o props).
  assert (H : word_in k (map fst (sc_hints c)) = if in_dec string_dec k (map fst (sc_hints c)) then true else false).
  { destruct (in_dec string_dec k (map fst (sc_hints c))) as [I|I]; [apply word_in_iff; auto|]. destruct (word_in k (map fst (sc_hints c))) eqn:W; auto. apply word_in_iff in W. tauto. }
  rewrite H. destruct (f o) as [v|]; [|destruct (_ || _); apply IH; auto]. destruct (in_dec string_dec k (map fst (sc_hints c))) as [I|I]; [rewrite orb_true_r; apply IH; auto|]. rewrite orb_false_r. cbn [app filter fst snd].
  destruct (word_in k ex); cbn [negb andb]; [apply IH; auto|]. destruct (en && is_snone v); cbn [negb]; [apply IH; auto|].
  rewrite dset_keys_notin by (apply (D (out_key up k)); left; auto). rewrite IH; auto.
  - cbn [map fst snd]. rewrite <- app_assoc. reflexivity.
  - intros x X. rewrite map_app. intros Y. apply in_app_or in Y as [Y|[Y|[]]]; [apply (D' x X Y)|]. cbn in Y. subst x. tauto.
Qed.
(** With include_properties come, after them, the values of the properties that are no setting, in the order of
    their names, under the same conditions; a property that raises is left out. *)
Theorem C88_properties :
  forall (c : sclass) (o : dict sval) (exclude_none up : bool) (exclude : list string),
    let name (k : string) := if up then upper k else k in
    NoDup (map (fun h => name (fst h)) (sc_hints c)) -> NoDup (map (fun h => name (fst h)) (sc_props c)) ->
    (forall h p, In h (sc_hints c) -> In p (sc_props c) -> name (fst h) <> name (fst p)) ->
    exists l, dump c o exclude_none up exclude true = dump c o exclude_none up exclude false ++ map (fun kv => (name (fst kv), snd kv)) l /\
      (forall k v, In (k, v) l <-> (exists f, In (k, f) (sc_props c) /\ f o = Some v) /\ ~ In k exclude /\ (exclude_none = true -> v <> SNone)) /\
      exists ps, map fst l = map fst ps /\ exists keep, ps = filter keep (sc_props c).
Proof.
  intros c o en up ex name NH NP DJ. destruct (dump_hints_spec c o en up ex (sc_hints c) NH []) as (l0 & L & E); [intros k _ []|]. cbn [app] in E.
  exists (filter (fun kv => negb (word_in (fst kv) ex) && negb (en && is_snone (snd kv))) (property_values c o (sc_props c))). split; [|split].
  - unfold dump. apply dump_props_spec; auto. intros k Hk Hr. apply in_map_iff in Hk as (p & <- & Hp). rewrite E, map_map in Hr. apply in_map_iff in Hr as ((k', v') & Ek & Hl). cbn [fst] in Ek.
    assert (Hk : In k' (map fst (sc_hints c))). { clear -L Hl. induction L; [destruct Hl| |right; auto]. destruct Hl as [[= <- <-]|Hl]; [left; auto|right; auto]. }
    apply in_map_iff in Hk as (h & <- & Hh). exact (DJ h p Hh Hp Ek).
  - intros k v. rewrite filter_In. cbn [fst snd]. unfold property_values. rewrite in_flat_map. split.
    + intros ((p & Hp & Q) & F). destruct p as [k0 f]. cbn [fst snd] in Q. destruct (f o) as [v0|] eqn:Fo; [|destruct Q]. destruct (in_dec string_dec k0 (map fst (sc_hints c))); [destruct Q|]. destruct Q as [[= -> ->]|[]].
      apply andb_prop in F as [F1 F2]. split; [eauto|]. split; [intros X; apply word_in_iff in X; rewrite X in F1; discriminate|]. intros -> ->. discriminate.
    + intros ((f & Hp & Fo) & NE & NN). split.
      * exists (k, f). split; auto. cbn [fst snd]. rewrite Fo. destruct (in_dec string_dec k (map fst (sc_hints c))) as [I|_]; [|left; auto]. apply in_map_iff in I as (h & Eh & Hh). exfalso. apply (DJ h (k, f) Hh Hp). cbn. congruence.
      * apply andb_true_intro. split; apply negb_true_iff; [destruct (word_in k ex) eqn:W; auto; apply word_in_iff in W; tauto|]. destruct en, v; auto. destruct (NN eq_refl eq_refl).
  - exists (filter (fun p => match snd p o with Some v => (if in_dec string_dec (fst p) (map fst (sc_hints c)) then false else true) && (negb (word_in (fst p) ex) && negb (en && is_snone v)) | None => false end) (sc_props c)).
    split; [|eexists; reflexivity]. induction (sc_props c) as [|[k f] props IH]; auto. cbn [property_values flat_map fst snd filter]. change (flat_map _ props) with (property_values c o props).
    assert (IH' := IH ltac:(inversion NP; auto) ltac:(intros h p Hh Hp; apply DJ; auto; right; auto)). destruct (f o) as [v|]; cbn [app]; [|exact IH']. destruct (in_dec string_dec k (map fst (sc_hints c))); cbn [app andb]; [exact IH'|]. cbn [filter fst snd].
    destruct (negb (word_in k ex) && negb (en && is_snone v)); cbn [map fst]; [f_equal|]; exact IH'.
Qed.
Print Assumptions C88_properties.
(** asyncz's own settings: what is there without environment and arguments, and what is dumped *)
Theorem C88_asyncz_settings :
  forall version env kwargs o, NoDup (map fst kwargs) -> make (asyncz_settings version) env kwargs = Ok o ->
    map fst (dump (asyncz_settings version) o false false [] true) = ["__type_hints__"; "__truthy__"; "debug"; "version"; "secret_key"; "dashboard_config"]%string /\
    (dget "DEBUG" env = None -> dget "debug" o = Some (match dget "debug" kwargs with Some v => v | None => SBool false end)) /\
    (dget "VERSION" env = None -> dget "version" o = Some (match dget "version" kwargs with Some v => v | None => SText version end)) /\
    (dget "SECRET_KEY" env = None -> dget "secret_key" o = Some (match dget "secret_key" kwargs with Some v => v | None => SNone end)) /\
    (forall s, dget "VERSION" env = Some s -> dget "version" o = Some (SText s)) /\ (forall s, dget "SECRET_KEY" env = Some s -> dget "secret_key" o = Some (SText s)) /\
    (forall s, dget "DEBUG" env = Some s -> dget "debug" o = Some (SBool (if in_dec string_dec (lower s) ["true"; "1"; "yes"; "on"; "y"]%string then true else false))).
Proof.
  intros version env kwargs o NK M. pose proof (C87_resolution (asyncz_settings version) env kwargs (asyncz_sensible version) NK) as R. rewrite M in R. destruct R as (A & _).
  assert (D : forall t, In ("debug"%string, t) (sc_hints (asyncz_settings version)) -> t = TPlain BBool) by (cbn; intros t I; intuition congruence).
  assert (C : forall k t, In (k, t) (sc_hints (asyncz_settings version)) -> dget (upper k) env = None -> dget k o = Some (match dget k kwargs with Some v => v | None => match dget k (sc_attrs (asyncz_settings version)) with Some v => v | None => SNone end end)).
  { intros k t I E. destruct (A k t I) as (v & -> & CT). inversion CT as [s v' F|v' F G|v' F G K|F G K]; subst; rewrite ?G, ?K; congruence. }
  assert (E : forall k t s, In (k, t) (sc_hints (asyncz_settings version)) -> dget (upper k) env = Some s -> exists v, dget k o = Some v /\ reads t s v).
  { intros k t s I F. destruct (A k t I) as (v & G & CT). exists v. split; auto. inversion CT; subst; congruence. }
  assert (ID : In ("debug"%string, TPlain BBool) (sc_hints (asyncz_settings version))) by (cbn; auto). assert (IV : In ("version"%string, TPlain BStr) (sc_hints (asyncz_settings version))) by (cbn; auto). assert (IS : In ("secret_key"%string, TUnion [BStr]) (sc_hints (asyncz_settings version))) by (cbn; auto 6).
  split; [|split; [|split; [|split; [|split; [|split]]]]].
  - destruct (C88_dict (asyncz_settings version) o false false []) as (l & L & Dm); [apply (asyncz_sensible version)|intros k t I; destruct (A k t I) as (v & G & _); eauto|].
    unfold dump in *. rewrite dump_props_spec.
    + rewrite map_app, Dm, map_map. cbn [fst]. cbn [asyncz_settings sc_hints map fst] in L.
      repeat match goal with L : listing _ _ _ _ _ |- _ => inversion L as [|? ? ? _ _ L'|? ? ? Q L']; subst; clear L; [rename L' into L|exfalso; destruct Q as [[]|Q]; apply Q; unfold kept_value; discriminate] end.
      inversion L; subst. reflexivity.
    + cbn. repeat constructor. intros [].
    + intros k Hk Hr. rewrite Dm, map_map in Hr. cbn [fst] in Hr. assert (In k (map fst (sc_hints (asyncz_settings version)))).
      { clear -L Hr. set (hs := map fst (sc_hints (asyncz_settings version))) in *. clearbody hs. induction L; [destruct Hr| |right; auto]. destruct Hr as [Hr|Hr]; [left; auto|right; auto]. }
      cbn in Hk. destruct Hk as [<-|[]]. cbn in H. intuition discriminate.
  - exact (C "debug"%string _ ID).
  - exact (C "version"%string _ IV).
  - exact (C "secret_key"%string _ IS).
  - intros s F. destruct (E "version"%string _ s IV F) as (v & -> & Rd). inversion Rd as [? ? ? P|? ? P|? ? ? P|? ? P|? ? ? ? P]; subst; inversion P; subst; auto.
  - intros s F. destruct (E "secret_key"%string _ s IS F) as (v & -> & Rd). inversion Rd as [? ? ? P|? ? P|? ? ? P|? ? P|? ? ? ? P]; subst; inversion P; subst; auto.
  - intros s F. destruct (E "debug"%string _ s ID F) as (v & -> & Rd). inversion Rd as [? ? ? P I1 I2|? ? P NI|? ? ? P|? ? P|? ? ? ? P]; subst; try (inversion P; fail); destruct (in_dec _ _ _) as [J|J]; auto; exfalso; [apply J; auto|apply (NI (lower s)); auto].
Qed.
Print Assumptions C88_asyncz_settings.
(** The settings dump only settings: every dump of asyncz's own settings also lists two internals. *)
Theorem C88_internals_are_dumped :
  forall version env kwargs o exclude_none include_properties, NoDup (map fst kwargs) -> make (asyncz_settings version) env kwargs = Ok o ->
    dget "__TRUTHY__" env = None -> dget "__truthy__" kwargs = None ->
    In "__truthy__"%string (map fst (dump (asyncz_settings version) o exclude_none false [] include_properties)).
Proof.
  intros version env kwargs o en ip NK M E K. pose proof (C87_resolution (asyncz_settings version) env kwargs (asyncz_sensible version) NK) as R. rewrite M in R. destruct R as (A & _). destruct (C88_dict (asyncz_settings version) o en false []) as (l & L & D).
  - apply (asyncz_sensible version).
  - intros k t I. destruct (A k t I) as (v & G & _). eauto.
  - assert (X : In "__truthy__"%string (map fst (dump (asyncz_settings version) o en false [] false))).
    { rewrite D, map_map. destruct (A "__truthy__"%string _ ltac:(right; left; reflexivity)) as (v & G & C). assert (NN : v <> SNone) by (inversion C as [s v' F|v' _ F|v' _ _ F|_ _ F]; subst; try (change (upper "__truthy__") with "__TRUTHY__"%string in F; congruence); try (cbn in F; congruence); try congruence).
      cbn [asyncz_settings sc_hints map fst] in L. apply in_map_iff. exists ("__truthy__"%string, v). split; auto. inversion L as [|? ? ? _ _ L2|? ? ? _ L2]; subst; inversion L2 as [|? ? ? _ _ L3|? ? ? Q L3]; subst; try (cbv beta; rewrite G; cbn; auto; fail);
      (exfalso; destruct Q as [[]|Q]; apply Q; unfold kept_value; rewrite G; auto). }
    unfold dump in X |- *. destruct ip; auto. apply dump_props_keeps. exact X.
Qed.
Print Assumptions C88_internals_are_dumped.
Example C88_instance : NoDup (map (fun h => upper (fst h)) (sc_hints (asyncz_settings "1"))) /\
  exists o, make (asyncz_settings "1") [] [] = Ok o /\ dump (asyncz_settings "1") o true true ["__truthy__"; "__type_hints__"]%string true = [("DEBUG", SBool false); ("VERSION", SText "1"); ("DASHBOARD_CONFIG", SObj 3)]%string.
Proof. split; [cbn; repeat constructor; cbn; intuition discriminate|]. eexists. split; reflexivity. Qed.
