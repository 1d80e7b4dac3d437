From Verif Require Import Prelude PreludeFacts MemStore StoreSpec CallArgs CallArgsProofs Cron Triggers TriggerSpec Task TaskSpec TaskProofs Scheduler AddTask AddSpec.
Open Scope Z_scope.

(** ** dictionaries *)
Fixpoint look (k : string) (l : list (string * option pyval)) : option pyval :=
  match l with
  | [] => None
  | (k', o) :: l' => if String.eqb k k' then match o with Some v => Some v | None => look k l' end else look k l'
  end.
Lemma dget_app {V} k (a b : dict V) : dget k (a ++ b) = match dget k a with Some v => Some v | None => dget k b end.
Proof. induction a as [|[k' v] a IH]; cbn; [auto|]. destruct (String.eqb k k'); auto. Qed.
Lemma dget_present k l : dget k (present l) = look k l.
Proof.
  unfold present. induction l as [|[k' [v|]] l IH]; cbn [flat_map fst snd look app]; [auto| |].
  - cbn [dget]. destruct (String.eqb k k'); auto.
  - rewrite IH. destruct (String.eqb k k'); auto.
Qed.
Lemma present_keys k l : In k (dkeys (present l)) -> In k (map fst l).
Proof. unfold present, dkeys. induction l as [|[k' [v|]] l IH]; cbn; [auto| |]; intros H; [destruct H; auto|auto]. Qed.
Lemma present_NoDup l : NoDup (map fst l) -> NoDup (dkeys (present l)).
Proof.
  unfold present, dkeys. induction l as [|[k' [v|]] l IH]; cbn; intros H; [constructor| |]; inversion H; subst; [constructor|]; auto.
  intros X. apply H2. apply (present_keys k' l X).
Qed.
Lemma dget_setdefault k k0 v d : dget k (setdefault k0 v d) = match dget k d with Some x => Some x | None => if String.eqb k k0 then Some v else None end.
Proof.
  unfold setdefault. destruct (dmem k0 d) eqn:M.
  - destruct (dget k d) eqn:E; [auto|]. destruct (String.eqb_spec k k0) as [->|]; [|auto]. unfold dmem in M. rewrite E in M. discriminate.
  - rewrite dget_app. destruct (dget k d); auto.
Qed.
Lemma setdefault_NoDup k v d : NoDup (dkeys d) -> NoDup (dkeys (setdefault k v d)).
Proof.
  intros H. unfold setdefault. destruct (dmem k d) eqn:M; [auto|]. apply dmem_false in M. rewrite <- (dset_keys_notin k v d); [apply dset_NoDup, H|].
  apply dget_None, M.
Qed.
Lemma setdefault_keys k0 v d k : In k (dkeys (setdefault k0 v d)) -> k = k0 \/ In k (dkeys d).
Proof.
  unfold setdefault. destruct (dmem k0 d); [auto|]. unfold dkeys. rewrite map_app, in_app_iff. cbn. intuition.
Qed.

Definition good_keys (ups : dict pyval) : Prop := NoDup (dkeys ups) /\ forall k, In k (dkeys ups) -> In k modifiable.
Lemma fold_default_good l ups : (forall kv, In kv l -> In (fst kv) modifiable) -> good_keys ups -> good_keys (fold_left (fun u kv => setdefault (fst kv) (snd kv) u) l ups).
Proof.
  revert ups. induction l as [|kv l IH]; intros ups H [A B]; cbn; [split; auto|]. apply IH; [intros; apply H; right; auto|]. split; [apply setdefault_NoDup, A|].
  intros k K. apply setdefault_keys in K. destruct K as [->|K]; [apply H; left; auto|auto].
Qed.
Lemma fold_default_get l ups k : dget k (fold_left (fun u kv => setdefault (fst kv) (snd kv) u) l ups) = match dget k ups with Some v => Some v | None => dget k l end.
Proof.
  revert ups. induction l as [|[k0 v0] l IH]; intros ups; cbn [fold_left fst snd]; [destruct (dget k ups); auto|]. rewrite IH, dget_setdefault. cbn [dget].
  destruct (dget k ups); [auto|]. destruct (String.eqb k k0); auto.
Qed.
Ltac inmod := repeat (first [left; reflexivity | right]).
Lemma in_mod_of k l : In k (map fst (l : list (string * option pyval))) -> (forall x, In x (map fst l) -> In x modifiable) -> In k modifiable.
Proof. auto. Qed.
Lemma args_good o : good_keys (task_kwargs o).
Proof.
  split.
  - apply present_NoDup. cbn. repeat (constructor; [cbn; intuition congruence|]). constructor.
  - intros k K. apply present_keys in K. cbn in K. cbn. intuition (subst; auto 20).
Qed.
Lemma defaults_good d o : good_keys (with_defaults d o).
Proof.
  unfold with_defaults. apply fold_default_good.
  - intros [k v] H. assert (K : In k (dkeys (dump_defaults d))) by (apply in_map_iff; exists (k, v); auto).
    apply present_keys in K. cbn in K. cbn. intuition (subst; auto 20).
  - destruct (o_late_ok o); [|apply args_good]. destruct (args_good o) as [A B]. split; [apply setdefault_NoDup, A|].
    intros k K. apply setdefault_keys in K. destruct K as [->|K]; [inmod|auto].
Qed.
Lemma copied_good t : good_keys (copied t).
Proof.
  split.
  - apply present_NoDup. cbn. repeat (constructor; [cbn; intuition congruence|]). constructor.
  - intros k K. apply present_keys in K. cbn in K. cbn. intuition (subst; auto 20).
Qed.
Lemma get_defaults d o k : dget k (with_defaults d o) =
  match look k [("trigger", Some (VTrigger (o_trigger o))); ("args", Some (VList (positional o))); ("kwargs", Some (VDict (keywords o)));
           ("name", Some (none_or VStr (o_name o)));
           ("mistrigger_grace_time", o_grace o); ("coalesce", o_coalesce o); ("max_instances", o_max o);
           ("next_run_time", o_next o); ("executor", text (o_exec o)); ("store_alias", text (o_store o))]%string with
  | Some v => Some v
  | None => if o_late_ok o && String.eqb k "mistrigger_grace_time" then Some VNone
            else look k [("mistrigger_grace_time", option_map VFloat (d_grace d)); ("coalesce", Some (VBool (d_coalesce d)));
                         ("max_instances", Some (VInt (d_max d)))]%string
  end.
Proof.
  unfold with_defaults. rewrite fold_default_get. unfold dump_defaults. rewrite dget_present. destruct (o_late_ok o).
  - rewrite dget_setdefault. unfold task_kwargs. rewrite dget_present. unfold positional, keywords. destruct (look _ _); [auto|]. cbn [andb]. destruct (String.eqb k _); auto.
  - unfold task_kwargs. rewrite dget_present. unfold positional, keywords. destruct (look _ _); auto.
Qed.

(** ** construction, in terms of what the keyword arguments say *)
Definition resolved (env : tenv) (fn : pyval) : result (option callable * option string) :=
  if truthy fn then
    match fn with
    | VStr s => match resolve env s with Ok c => Ok (Some c, Some s) | Err e => Err e end
    | VFn c => Ok (Some c, c_ref c)
    | _ => Err TypeError
    end
  else Ok (None, None).
Definition named (c : option callable) (n : option pyval) : option pyval :=
  match c with Some f => match n with None | Some VNone => Some (VStr (c_name f)) | _ => n end | None => n end.
Definition build (env : tenv) (self : nat) (tr : trigger) (id : string) (fn : pyval) (G : string -> option pyval) : result task :=
  do p <- resolved env fn;
  let '(c, ref) := p in
  let a := match G "args"%string with Some v => v | None => VList [] end in
  let kw := match G "kwargs"%string with Some v => v | None => VDict [] end in
  do n <- match arg_count a with Some n => Ok n | None => Err TypeError end;
  do ks <- match kwarg_names kw with Some n => Ok n | None => Err TypeError end;
  do _u <- match c with Some f => check_callable_args (c_sig f) n ks | None => Ok tt end;
  do name <- name_check (named c (G "name"%string));
  do grace <- grace_check (G "mistrigger_grace_time"%string);
  do coal <- coalesce_check (G "coalesce"%string);
  do store <- str_check (G "store_alias"%string);
  do mx <- max_check (G "max_instances"%string);
  do tr' <- trigger_check (G "trigger"%string);
  do ex <- str_check (G "executor"%string);
  do nx <- next_check env (Some self) (G "next_run_time"%string);
  Ok (MkTask id (dflt name ""%string) (dflt tr' tr) (dflt nx None) ex store (dflt grace (Some us)) (dflt coal true) (dflt mx 1) c ref a kw (Some self) true false).

Lemma construct_build env self tr id fn ups : good_keys ups -> dget "args"%string ups <> None ->
  construct env (Some self) tr id fn ups = build env self tr id fn (fun k => dget k ups).
Proof.
  intros [ND KM] HA. unfold construct, update_task, validate, build. cbn [t_sched blank]. rewrite Nat.eqb_refl. cbn [bind].
  assert (I : dmem "id" ups = false).
  { apply dmem_false. apply dget_None. intros H. apply KM in H. cbn in H. intuition discriminate. }
  rewrite I. unfold fn_block. assert (M : dmem "args" ups = true) by (unfold dmem; destruct (dget "args" ups); congruence). rewrite M, orb_true_r. cbn [orb].
  cbn [t_args t_kwargs t_fn t_name blank String.eqb].
  set (a := match dget "args" ups with Some v => v | None => VList [] end). set (kw := match dget "kwargs" ups with Some v => v | None => VDict [] end).
  replace (match (if truthy fn then fn else VNone) with VNone => Ok (None, None) | VStr s => match resolve env s with Ok c => Ok (Some c, Some s) | Err e => Err e end
           | VFn c => Ok (Some c, c_ref c) | _ => Err TypeError end) with (resolved env fn).
  2:{ unfold resolved. destruct (truthy fn) eqn:T; [|auto]. destruct fn; auto; discriminate T. }
  destruct (resolved env fn) as [[c ref]|x]; [|reflexivity]. cbn [bind].
  destruct (arg_count a) as [n|]; [|reflexivity]. destruct (kwarg_names kw) as [ks|]; [|reflexivity]. cbn [bind].
  set (u1 := ddel "kwargs" (ddel "args" ups)).
  set (u2 := match c with Some c0 => _ | None => u1 end).
  assert (G : forall k, k <> "args"%string -> k <> "kwargs"%string -> k <> "name"%string -> dget k u2 = dget k ups).
  { intros k A B C. unfold u2. destruct c as [f|]; [destruct (true && _)|]; rewrite ?dget_dset_ne by auto; apply ddel2_get; auto. }
  assert (GN : dget "name" u2 = named c (dget "name" ups)).
  { unfold u2, named. assert (E : dget "name" u1 = dget "name" ups) by (apply ddel2_get; discriminate). destruct c as [f|]; [|exact E]. rewrite E. cbn [andb].
    destruct (dget "name" ups) as [[]|]; rewrite ?dget_dset_eq; auto. }
  assert (K : existsb (fun kv : string * pyval => negb (mem (fst kv) known_keys)) u2 = false).
  { destruct (existsb _ u2) eqn:X; [|auto]. apply existsb_exists in X. destruct X as ([k v] & H & N). cbn [fst] in N.
    assert (HK : In k (dkeys u2)) by (apply in_map_iff; exists (k, v); auto).
    assert (HK2 : k = "name"%string \/ In k (dkeys u1)).
    { unfold u2 in HK. destruct c as [f|]; [|auto]. destruct (true && _); [|auto]. destruct (string_dec k "name") as [|NE]; [auto|]. right.
      destruct (dget k u1) eqn:E; [apply dget_Some_key in E; exact E|]. exfalso. rewrite <- (dget_dset_ne k "name" (VStr (c_name f)) u1 NE) in E. apply dget_None in E. auto. }
    assert (HK3 : In k known_keys).
    { destruct HK2 as [->|H2]; [inmod|]. unfold u1 in H2. apply ddel_keys_incl in H2. destruct H2 as [H2 N1]. apply ddel_keys_incl in H2. destruct H2 as [H2 N2].
      apply KM in H2. cbn in H2. destruct H2 as [E|[E|H2]]; [congruence|congruence|]. exact H2. }
    apply mem_In in HK3. rewrite HK3 in N. discriminate. }
  assert (Body : forall af,
    match match (do name <- name_check (dget "name" u2); do grace <- grace_check (dget "mistrigger_grace_time" u2); do coal <- coalesce_check (dget "coalesce" u2);
      do store <- str_check (dget "store_alias" u2); do mx <- max_check (dget "max_instances" u2); do tr0 <- trigger_check (dget "trigger" u2); do ex <- str_check (dget "executor" u2);
      do nx <- next_check env (Some self) (dget "next_run_time" u2);
      if existsb (fun kv : string * pyval => negb (mem (fst kv) known_keys)) u2 then Err AttributeError else Ok (MkApproved (Some self) (Some (c, ref, a, kw)) name grace coal store mx tr0 ex nx))
    with Ok ap => (apply_approved ap (blank id tr (Some self)), Ok tt) | Err e => (blank id tr (Some self), Err e) end with (t, Ok _) => Ok t | (_, Err x) => Err x end = af <->
    (do name <- name_check (named c (dget "name" ups)); do grace <- grace_check (dget "mistrigger_grace_time" ups); do coal <- coalesce_check (dget "coalesce" ups);
      do store <- str_check (dget "store_alias" ups); do mx <- max_check (dget "max_instances" ups); do tr' <- trigger_check (dget "trigger" ups); do ex <- str_check (dget "executor" ups);
      do nx <- next_check env (Some self) (dget "next_run_time" ups);
      Ok (MkTask id (dflt name ""%string) (dflt tr' tr) (dflt nx None) ex store (dflt grace (Some us)) (dflt coal true) (dflt mx 1) c ref a kw (Some self) true false)) = af).
  { intros af. rewrite GN, !G by discriminate. rewrite K. clear.
    destruct (name_check _) as [name|]; [|cbn; tauto]. destruct (grace_check _) as [grace|]; [|cbn; tauto]. destruct (coalesce_check _) as [coal|]; [|cbn; tauto].
    destruct (str_check _) as [store|]; [|cbn; tauto]. destruct (max_check _) as [mx|]; [|cbn; tauto]. destruct (trigger_check _) as [tr'|]; [|cbn; tauto].
    cbn [bind]. destruct (str_check (dget "executor" ups)) as [ex|]; [|cbn; tauto]. cbn [bind]. destruct (next_check _ _ _) as [nx|]; [|cbn; tauto]. cbn.
    destruct ex, store; tauto. }
  destruct c as [f|].
  - destruct (check_callable_args (c_sig f) n ks) as [[]|e]; [|reflexivity]. cbn [bind]. apply Body. reflexivity.
  - cbn [bind]. apply Body. reflexivity.
Qed.
