(** C64, C73, C74: the CLI commands that change tasks. *)
From Verif Require Import Prelude PreludeFacts MemStore StoreSpec CallArgs CallArgsProofs Cron Triggers TriggerSpec Task TaskSpec TaskProofs Scheduler Executor SchedSpec SchedProofs SchedProofs2 SchedReach LifeSpec LifeAcc LifeAll LifeProofs LifeProofs2 PropSched PropLife2 AddTask AddSpec AddProofs Text CliTask.
Open Scope Z_scope.
Ltac sp := repeat match goal with |- _ /\ _ => split end.

(** ** specification of the update command *)
(** the words for true and false, in any case and with blanks around *)
Definition says (b : bool) (s : string) : Prop :=
  In (lower (strip s)) (if b then ["1"; "true"; "yes"; "on"] else ["0"; "false"; "no"; "off"])%string.
(** the options given ask for [t'] instead of [t]; whatever is not given stays *)
Record asked_for (json : string -> result pyval) (env : tenv) (o : update_options) (t t' : task) : Prop := {
  af_same : t_id t' = t_id t /\ t_trigger t' = t_trigger t /\ t_next t' = t_next t /\ t_store t' = t_store t /\ t_pending t' = t_pending t /\ t_submitted t' = t_submitted t;
  af_name : match u_name o with
            | Some n => t_name t' = n /\ n <> ""%string
            | None => t_name t' = t_name t \/ (t_name t = ""%string /\ exists f, t_fn t' = Some f /\ t_name t' = c_name f)
            end;
  af_executor : t_exec t' = match u_executor o with Some x => Some x | None => t_exec t end;
  af_coalesce : match u_coalesce o with Some x => says (t_coalesce t') x | None => t_coalesce t' = t_coalesce t end;
  af_max : match u_max o with Some z => t_max t' = z /\ 0 < z | None => t_max t' = t_max t end;
  af_grace : if u_clear o then t_grace t' = None else match u_grace o with Some g => t_grace t' = Some g /\ 0 < g | None => t_grace t' = t_grace t end;
  af_args : match u_args o with Some x => json x = Ok (t_args t') /\ (exists l, t_args t' = VList l) | None => t_args t' = t_args t end;
  af_kwargs : match u_kwargs o with Some x => json x = Ok (t_kwargs t') /\ (exists d, t_kwargs t' = VDict d) | None => t_kwargs t' = t_kwargs t end;
  af_callable : match u_callable o with
                | Some (String a x) => exists f, resolve env (String a x) = Ok f /\ t_fn t' = Some f /\ t_ref t' = Some (String a x)
                | _ => t_fn t' = t_fn t /\ (t_ref t' = t_ref t \/ t_ref t' = match t_fn t with Some f => c_ref f | None => None end)
                end;
  af_fits : (u_args o <> None \/ u_kwargs o <> None \/ exists a x, u_callable o = Some (String a x)) -> fits (t_fn t') (t_args t') (t_kwargs t') }.

Section Update.
  Variable json : string -> result pyval.
  Variable same : pyval -> pyval -> bool.

  Lemma coalesce_says x b : parse_coalesce (Some x) = Ok (Some b) -> says b x.
  Proof.
    unfold parse_coalesce, says. destruct (mem _ ["1"; "true"; "yes"; "on"]%string) eqn:M1; [intros [= <-]; apply mem_In; exact M1|].
    destruct (mem _ ["0"; "false"; "no"; "off"]%string) eqn:M2; [intros [= <-]; apply mem_In; exact M2|discriminate].
  Qed.
  Lemma array_spec o v : json_array json o = Ok v -> match o with None => v = None | Some x => exists l, json x = Ok (VList l) /\ v = Some (VList l) end.
  Proof. destruct o as [x|]; cbn; [|intros [= <-]; auto]. destruct (json x) as [[]|]; try discriminate. intros [= <-]. eauto. Qed.
  Lemma object_spec o v : json_object json o = Ok v -> match o with None => v = None | Some x => exists d, json x = Ok (VDict d) /\ v = Some (VDict d) end.
  Proof. destruct o as [x|]; cbn; [|intros [= <-]; auto]. destruct (json x) as [[]|]; try discriminate. intros [= <-]. eauto. Qed.

  Lemma updates_spec o fn ups : updates_of json o = Ok (fn, ups) -> NoDup (dkeys ups) /\
    (forall env t t' self, applied env t self fn ups t' -> asked_for json env o t t').
  Proof.
    unfold updates_of. intros H.
    apply bind_ok in H. destruct H as (co & HC & H). apply bind_ok in H. destruct H as (ar & HA & H). apply bind_ok in H. destruct H as (kw & HK & H).
    set (l := [("name", text (u_name o)); ("args", ar); ("kwargs", kw); ("executor", text (u_executor o)); ("coalesce", option_map VBool co); ("max_instances", option_map VInt (u_max o)); ("mistrigger_grace_time", if u_clear o then Some VNone else option_map VFloat (u_grace o))]%string) in *.
    assert (E : ups = present l /\ fn = match u_callable o with Some f => VStr f | None => VNone end).
    { destruct (u_callable o); [injection H as <- <-; auto|]. destruct (present l); [discriminate|]. injection H as <- <-. auto. }
    destruct E as [-> ->]. clear H. split.
    - apply present_NoDup. cbn. repeat (constructor; [cbn; intuition discriminate|]). constructor.
    - intros env t t' self A. unfold applied, given, not_given in A.
      destruct A as (A1 & A2 & A3 & _ & G1 & G2 & C1 & C2 & _ & S2 & X1 & X2 & M1 & M2 & _ & T2 & _ & N2 & F1 & F2 & NM1 & NM2 & _).
      rewrite !dget_present in *.
      assert (K1 : look "name" l = text (u_name o)) by (cbn; destruct (u_name o); reflexivity).
      assert (K2 : look "args" l = ar) by (cbn; destruct ar; reflexivity).
      assert (K3 : look "kwargs" l = kw) by (cbn; destruct kw; reflexivity).
      assert (K4 : look "executor" l = text (u_executor o)) by (cbn; destruct (u_executor o); reflexivity).
      assert (K5 : look "coalesce" l = option_map VBool co) by (cbn; destruct co; reflexivity).
      assert (K6 : look "max_instances" l = option_map VInt (u_max o)) by (cbn; destruct (u_max o); reflexivity).
      assert (K7 : look "mistrigger_grace_time" l = if u_clear o then Some VNone else option_map VFloat (u_grace o)) by (cbn; destruct (u_clear o); [|destruct (u_grace o)]; reflexivity).
      assert (K8 : look "store_alias" l = None) by reflexivity. assert (K9 : look "trigger" l = None) by reflexivity. assert (K10 : look "next_run_time" l = None) by reflexivity.
      rewrite ?K1, ?K4, ?K5, ?K6, ?K7, ?K8, ?K9, ?K10 in *. clearbody l.
      pose proof (array_spec _ _ HA) as VA. pose proof (object_spec _ _ HK) as VK.
      assert (T : touches_call (match u_callable o with Some f => VStr f | None => VNone end) (present l) <-> u_args o <> None \/ u_kwargs o <> None \/ exists a x, u_callable o = Some (String a x)).
      { unfold touches_call, given. rewrite !dget_present, K2, K3. split.
        - intros [X|[[v X]|[v X]]].
          + right. right. destruct (u_callable o) as [[|a x]|]; try discriminate. eauto.
          + left. destruct (u_args o); [discriminate|]. congruence.
          + right. left. destruct (u_kwargs o); [discriminate|]. congruence.
        - intros [X|[X|(a & x & ->)]]; [right; left|right; right|left; reflexivity].
          + destruct (u_args o); [|congruence]. destruct VA as (? & _ & ->). eauto.
          + destruct (u_kwargs o); [|congruence]. destruct VK as (? & _ & ->). eauto. }
      constructor.
      + sp; auto.
      + destruct (u_name o) as [n|]; cbn in NM1, NM2.
        * destruct (NM1 (VStr n) eq_refl ltac:(discriminate)) as (s & [= <-] & B & C). auto.
        * destruct (NM2 (or_introl eq_refl)) as [B|(B & _ & f & C & D & _)]; [auto|]. right. eauto.
      + destruct (u_executor o) as [x|]; cbn in X1, X2; [|auto]. destruct (X1 (VStr x) eq_refl) as (s & [= <-] & B). auto.
      + destruct (u_coalesce o) as [x|].
        * destruct co as [b|]; [|unfold parse_coalesce in HC; cbv zeta in HC; repeat match type of HC with (if ?b then _ else _) = _ => destruct b; try discriminate end]. apply coalesce_says.
          rewrite HC. cbn in C1. rewrite (C1 _ eq_refl). destruct b; reflexivity.
        * injection HC as <-. apply C2. reflexivity.
      + destruct (u_max o) as [z|]; cbn in M1, M2; [|auto]. destruct (M1 (VInt z) eq_refl) as (y & B & C & D). cbn in B. subst. auto.
      + destruct (u_clear o).
        * destruct (G1 VNone eq_refl) as [[_ B]|(x & B & _)]; [auto|destruct B].
        * destruct (u_grace o) as [g|]; cbn in G1, G2; [|auto]. destruct (G1 (VFloat g) eq_refl) as [[B _]|(x & B & C & D)]; [discriminate|]. cbn in B. subst. auto.
      + destruct (u_args o) as [x|].
        * destruct VA as (l0 & J & ->). destruct F1 as (_ & V & _); [apply T; left; discriminate|]. unfold value_or, given, not_given in V. rewrite dget_present, K2 in V.
          destruct V as [[= <-]|[B _]]; [eauto|discriminate].
        * rewrite VA in K2. destruct (touches_dec (match u_callable o with Some f => VStr f | None => VNone end) (present l)) as [D1 D2].
          destruct (truthy (match u_callable o with Some f => VStr f | None => VNone end) || dmem "args" (present l) || dmem "kwargs" (present l)) eqn:B.
          -- destruct F1 as (_ & V & _); [auto|]. unfold value_or, given, not_given in V. rewrite dget_present, K2 in V. destruct V as [V|[_ V]]; [discriminate|exact V].
          -- destruct F2 as (_ & _ & V & _); [intros X; specialize (D2 X); discriminate|exact V].
      + destruct (u_kwargs o) as [x|].
        * destruct VK as (l0 & J & ->). destruct F1 as (_ & _ & V & _); [apply T; right; left; discriminate|]. unfold value_or, given, not_given in V. rewrite dget_present, K3 in V.
          destruct V as [[= <-]|[B _]]; [eauto|discriminate].
        * rewrite VK in K3. destruct (touches_dec (match u_callable o with Some f => VStr f | None => VNone end) (present l)) as [D1 D2].
          destruct (truthy (match u_callable o with Some f => VStr f | None => VNone end) || dmem "args" (present l) || dmem "kwargs" (present l)) eqn:B.
          -- destruct F1 as (_ & _ & V & _); [auto|]. unfold value_or, given, not_given in V. rewrite dget_present, K3 in V. destruct V as [V|[_ V]]; [discriminate|exact V].
          -- destruct F2 as (_ & _ & _ & V); [intros X; specialize (D2 X); discriminate|exact V].
      + destruct (u_callable o) as [[|a x]|] eqn:UC.
        2:{ destruct F1 as (NC & _); [apply T; eauto|]. cbn in NC. destruct NC as (cc & B & C & D). eauto. }
        all: match type of F1 with touches_call ?f ?u -> _ => destruct (touches_dec f u) as [D1 D2]; destruct (truthy f || dmem "args" u || dmem "kwargs" u) eqn:B;
          [destruct F1 as (NC & _); [auto|]; cbn in NC; destruct NC as [-> ->]; auto|destruct F2 as (V1 & V2 & _); [intros X; specialize (D2 X); discriminate|auto]] end.
      + intros X. apply F1, T, X.
  Qed.

  (** ** the whole command *)
  Lemma diff_spec before after k b a : In (k, (b, a)) (build_diff same before after) <-> In (k, b) before /\ a = dflt (dget k after) VNone /\ same b a = false.
  Proof.
    induction before as [|[k0 b0] l IH]; cbn [build_diff In]; [tauto|]. destruct (same b0 (dflt (dget k0 after) VNone)) eqn:S.
    - rewrite IH. split; [tauto|]. intros ([[= <- <-]|H] & -> & S'); [congruence|auto].
    - cbn [In]. rewrite IH. split.
      + intros [[= <- <- <-]|H]; [auto|tauto].
      + intros ([[= <- <-]|H] & -> & S'); auto.
  Qed.

  (** C73.  The command changes nothing unless it says so: a dry run, a refusal, a declined question or an update
      that makes no difference leave the scheduler as it was. *)
  Theorem C73_nothing_unless_applied :
    forall (c : config) (o : update_options) (dry confirmed : bool) (id : string) (s s' : sched) (r : result reply),
      reachable c s -> cli_update json same c o dry confirmed id s = (s', r) ->
      (forall rep, r = Ok rep -> r_applied rep = false) -> s' = s.
  Proof.
    intros c o dry confirmed id s s' r R H NA. unfold cli_update in H. destruct (updates_of json o) as [[fn ups]|e] eqn:U; [|congruence].
    destruct (lookup_task id None s) as [[t w]|e] eqn:LK; [|congruence]. destruct (update_task (c_tenv c) t (Some (c_self c)) fn ups) as [t1 [u|e]] eqn:UT; [|congruence].
    destruct (build_diff same (snapshot t) (snapshot t1)) as [|x l]; [congruence|]. destruct dry; [congruence|]. destruct confirmed; [|congruence].
    destruct (update c id w fn ups s) as [s1 [t'|e]] eqn:UP; injection H as <- <-; [specialize (NA _ eq_refl); discriminate|].
    destruct (stopped s) eqn:ST.
    - pose proof (update_stopped _ _ _ _ _ _ _ _ ST UP) as K. cbn in K. apply K.
    - destruct (update_running _ _ _ _ _ _ _ _ (reachable_wf _ _ R) ST UP) as [_ K]. cbn in K. apply K.
  Qed.
  Lemma diff_get before after k : NoDup (dkeys before) -> dget k (build_diff same before after) =
    match dget k before with Some b => let a := dflt (dget k after) VNone in if same b a then None else Some (b, a) | None => None end.
  Proof.
    induction before as [|[k0 b0] l IH]; intros ND; [reflexivity|]. inversion ND as [|x y N1 N2]; subst. cbn [build_diff dget]. destruct (String.eqb_spec k k0) as [->|NE].
    - cbv zeta. destruct (same b0 (dflt (dget k0 after) VNone)) eqn:S.
      + rewrite IH by auto. rewrite (proj2 (dget_None k0 l) N1). reflexivity.
      + cbn [dget]. rewrite String.eqb_refl. reflexivity.
    - cbv zeta. destruct (same b0 _); [apply IH; auto|]. cbn [dget]. destruct (String.eqb_spec k k0); [congruence|]. apply IH. auto.
  Qed.
  Lemma snapshot_keys t t' k : In k (dkeys (snapshot t)) -> exists x, dget k (snapshot t') = Some x.
  Proof. cbn. intros [<-|[<-|[<-|[<-|[<-|[<-|[<-|[<-|[]]]]]]]]]; cbn; eauto. Qed.
  (** what is shown of a task: eight fields by name; positional arguments kept as a dictionary show as its keys *)
  Inductive shows (t : task) : string -> pyval -> Prop :=
  | sh_name : t_name t <> ""%string -> shows t "name" (VStr (t_name t))
  | sh_no_name : t_name t = ""%string -> shows t "name" VNone
  | sh_executor x : t_exec t = Some x -> shows t "executor" (VStr x)
  | sh_no_executor : t_exec t = None -> shows t "executor" VNone
  | sh_callable x : t_ref t = Some x -> shows t "callable_reference" (VStr x)
  | sh_no_callable : t_ref t = None -> shows t "callable_reference" VNone
  | sh_args : (forall d, t_args t <> VDict d) -> shows t "args" (t_args t)
  | sh_dict_args d : t_args t = VDict d -> shows t "args" (VList (map (fun kv => VStr (fst kv)) d))
  | sh_kwargs : shows t "kwargs" (t_kwargs t)
  | sh_coalesce : shows t "coalesce" (VBool (t_coalesce t))
  | sh_max : shows t "max_instances" (VInt (t_max t))
  | sh_grace g : t_grace t = Some g -> shows t "mistrigger_grace_time" (VFloat g)
  | sh_no_grace : t_grace t = None -> shows t "mistrigger_grace_time" VNone.
  Lemma shows_iff t k v : dget k (snapshot t) = Some v <-> shows t k v.
  Proof.
    split.
    - intros H. apply dget_In in H. cbn [snapshot In] in H. unfold none_or, elements in H.
      repeat (destruct H as [H|H]; [injection H as <- <-|]); [..|destruct H].
      + destruct (String.eqb_spec (t_name t) ""); constructor; auto.
      + destruct (t_exec t) eqn:E; constructor; auto.
      + destruct (t_ref t) eqn:E; constructor; auto.
      + destruct (t_args t) eqn:E; try (rewrite <- E; apply sh_args; intros d X; congruence). apply sh_dict_args. exact E.
      + apply sh_kwargs.
      + apply sh_coalesce.
      + apply sh_max.
      + destruct (t_grace t) eqn:E; constructor; auto.
    - destruct 1; cbn; unfold none_or, elements; try rewrite H; try reflexivity.
      + destruct (String.eqb_spec (t_name t) ""); [congruence|reflexivity].
      + destruct (t_args t) eqn:E; try reflexivity. destruct (H _ eq_refl).
  Qed.
  (** the differences are those between the two tasks: all of them, and nothing else *)
  Definition truthful (diff : list (string * (pyval * pyval))) (t t' : task) : Prop :=
    (forall k b x, In (k, (b, x)) diff -> shows t k b /\ shows t' k x /\ same b x = false) /\
    (forall k b x, shows t k b -> shows t' k x -> same b x = false -> In (k, (b, x)) diff).
  Lemma diff_truthful t t' : truthful (build_diff same (snapshot t) (snapshot t')) t t'.
  Proof.
    assert (ND : NoDup (dkeys (snapshot t))) by (cbn; repeat (constructor; [cbn; intuition discriminate|]); constructor). split.
    - intros k b x I. apply diff_spec in I. destruct I as (I & -> & S). assert (Ik : In k (dkeys (snapshot t))) by (apply in_map_iff; exists (k, b); auto).
      destruct (snapshot_keys t t' k Ik) as (y & G). rewrite G in *. cbn [dflt] in *. sp; auto; apply shows_iff; auto. apply In_dget; auto.
    - intros k b x G1 G2 S. apply shows_iff in G1, G2. apply diff_spec. rewrite G2. sp; auto. apply dget_In. exact G1.
  Qed.
  (** What it shows is what was asked for: the task found, and the differences to the proposed one. *)
  Theorem C73_shown_as_asked :
    forall (c : config) (o : update_options) (dry confirmed : bool) (id : string) (s s' : sched) (rep : reply),
      reachable c s -> st s <> STOPPED -> cli_update json same c o dry confirmed id s = (s', Ok rep) ->
      exists a t t', r_where rep = Some a /\ stored s a id = Some t /\ asked_for json (c_tenv c) o t t' /\ truthful (r_diff rep) t t' /\
        (r_applied rep = true <-> r_diff rep <> [] /\ dry = false) /\ (r_applied rep = true -> confirmed = true).
  Proof.
    intros c o dry confirmed id s s' rep R St H. unfold cli_update in H. destruct (updates_of json o) as [[fn ups]|e] eqn:U; [|discriminate].
    destruct (updates_spec o fn ups U) as [ND AF].
    pose proof (lookup_running id None s (reachable_wf _ _ R) (not_stopped _ St)) as L. destruct (lookup_task id None s) as [[t w]|e] eqn:LK; [|discriminate].
    destruct L as (a & -> & Wa & Sa & Ia). destruct (update_task (c_tenv c) t (Some (c_self c)) fn ups) as [t1 [u|e]] eqn:UT; [|discriminate].
    pose proof (update_spec _ _ _ _ _ _ _ ND UT) as AP. cbn in AP. pose proof (diff_truthful t t1) as DT.
    destruct (build_diff same (snapshot t) (snapshot t1)) as [|x l].
    - injection H as <- <-. exists a, t, t1. cbn. sp; auto; try discriminate. + eapply AF; eauto. + split; [discriminate|intros [X _]; congruence].
    - destruct dry; [|destruct confirmed; [|discriminate]].
      + injection H as <- <-. exists a, t, t1. cbn. sp; auto; try discriminate. * eapply AF; eauto. * split; [discriminate|intros [_ X]; discriminate].
      + destruct (update c id (Some a) fn ups s) as [s1 [t'|e]]; [|discriminate]. injection H as <- <-. exists a, t, t1. cbn. sp; auto. * eapply AF; eauto. * split; [split; [discriminate|auto]|auto].
  Qed.
  (** What it applies is what it showed: the running scheduler then holds, in the same store, the proposed task instead,
      one TASK_MODIFIED event was sent, and nothing else changed. *)
  Theorem C73_applied_as_shown :
    forall (c : config) (o : update_options) (dry confirmed : bool) (id : string) (s s' : sched) (rep : reply),
      reachable c s -> st s <> STOPPED -> cli_update json same c o dry confirmed id s = (s', Ok rep) -> r_applied rep = true ->
      exists a t t', r_where rep = Some a /\ stored s a id = Some t /\ asked_for json (c_tenv c) o t t' /\ truthful (r_diff rep) t t' /\
        (exists after, r_after rep = Some after /\ forall k v, dget k after = Some v <-> shows t' k v) /\ only a id (Some t') s s' /\ rest_same s s' /\ evs s' = evs s ++ [task_event TASK_MODIFIED id (Some a)].
  Proof.
    intros c o dry confirmed id s s' rep R St H AP. unfold cli_update in H. destruct (updates_of json o) as [[fn ups]|e] eqn:U; [|discriminate].
    destruct (updates_spec o fn ups U) as [ND AF].
    pose proof (lookup_running id None s (reachable_wf _ _ R) (not_stopped _ St)) as L. destruct (lookup_task id None s) as [[t w]|e] eqn:LK; [|discriminate].
    destruct L as (a & -> & Wa & Sa & Ia). destruct (update_task (c_tenv c) t (Some (c_self c)) fn ups) as [t1 [u|e]] eqn:UT; [|discriminate].
    pose proof (update_spec _ _ _ _ _ _ _ ND UT) as AS. cbn in AS. pose proof (diff_truthful t t1) as DT.
    destruct (build_diff same (snapshot t) (snapshot t1)) as [|x l]; [injection H as <- <-; discriminate|]. destruct dry; [injection H as <- <-; discriminate|].
    destruct confirmed; [|discriminate]. destruct (update c id (Some a) fn ups s) as [s1 [t'|e]] eqn:UP; [|discriminate]. injection H as <- <-.
    destruct (update_running _ _ _ _ _ _ _ _ (reachable_wf _ _ R) (not_stopped _ St) UP) as [RS (a' & t0 & W' & S' & I' & _ & U' & O' & E' & _)].
    assert (a' = a) as -> by (unfold wanted in W'; apply String.eqb_eq in W'; auto). assert (t0 = t) as -> by congruence. assert (t1 = t') as -> by congruence.
    exists a, t, t'. cbn [r_where r_diff r_after]. sp; auto; [eapply AF; eauto|]. eexists. split; [reflexivity|]. intros k v. apply shows_iff.
  Qed.
  (** why it may refuse *)
  Inductive unusable (c : config) (o : update_options) (confirmed : bool) (id : string) (s : sched) : Prop :=
  | un_none : o = MkOptions None None None None None None None None false -> unusable c o confirmed id s
  | un_coalesce x : u_coalesce o = Some x -> (forall b, ~ says b x) -> unusable c o confirmed id s
  | un_args x : u_args o = Some x -> (forall l, json x <> Ok (VList l)) -> unusable c o confirmed id s
  | un_kwargs x : u_kwargs o = Some x -> (forall d, json x <> Ok (VDict d)) -> unusable c o confirmed id s
  | un_task : (forall a, stored s a id = None) -> unusable c o confirmed id s
  | un_update a t fn ups : stored s a id = Some t -> updates_of json o = Ok (fn, ups) -> invalid (c_tenv c) t (Some (c_self c)) fn ups -> unusable c o confirmed id s
  | un_declined : confirmed = false -> unusable c o confirmed id s.
  Theorem C73_refused_only_if :
    forall (c : config) (o : update_options) (dry confirmed : bool) (id : string) (s s' : sched) (e : exn),
      reachable c s -> st s <> STOPPED -> cli_update json same c o dry confirmed id s = (s', Err e) -> unusable c o confirmed id s.
  Proof.
    intros c o dry confirmed id s s' e R St H. unfold cli_update in H. destruct (updates_of json o) as [[fn ups]|x] eqn:U.
    2:{ clear H. unfold updates_of in U. destruct (parse_coalesce (u_coalesce o)) as [co|] eqn:PC; cbn [bind] in U.
        2:{ destruct (u_coalesce o) as [y|] eqn:UC; [|discriminate]. apply (un_coalesce _ _ _ _ _ y UC). intros b S. unfold parse_coalesce in PC. cbv zeta in PC.
            unfold says in S. apply mem_In in S. destruct b; rewrite S in PC; [discriminate|]. destruct (mem (lower (strip y)) ["1"; "true"; "yes"; "on"]%string); discriminate. }
        destruct (json_array json (u_args o)) as [ar|] eqn:JA; cbn [bind] in U.
        2:{ destruct (u_args o) as [y|] eqn:UA; [|discriminate]. apply (un_args _ _ _ _ _ y UA). intros l E. cbn in JA. rewrite E in JA. discriminate. }
        destruct (json_object json (u_kwargs o)) as [kw|] eqn:JK; cbn [bind] in U.
        2:{ destruct (u_kwargs o) as [y|] eqn:UK; [|discriminate]. apply (un_kwargs _ _ _ _ _ y UK). intros l E. cbn in JK. rewrite E in JK. discriminate. }
        apply un_none. destruct (u_callable o) as [f|] eqn:UF; [discriminate|].
        pose proof (array_spec _ _ JA) as VA. pose proof (object_spec _ _ JK) as VK.
        destruct o as [n f a k ex cl mx g cr]; cbn [u_name u_callable u_args u_kwargs u_executor u_coalesce u_max u_grace u_clear] in *.
        destruct n; [discriminate|]. destruct a; [destruct VA as (? & _ & ->); discriminate|]. destruct k; [destruct VK as (? & _ & ->); rewrite VA in U; discriminate|].
        rewrite VA, VK in U. destruct ex; [discriminate|].
        assert (cl = None /\ co = None) as [-> ->].
        { destruct cl as [y|]; [|injection PC as <-; auto]. destruct co; [discriminate|]. exfalso. unfold parse_coalesce in PC; cbv zeta in PC; repeat match type of PC with (if ?b then _ else _) = _ => destruct b; try discriminate end. }
        destruct mx; [discriminate|]. destruct cr; [discriminate|]. destruct g; [discriminate|]. congruence. }
    destruct (updates_spec o fn ups U) as [ND _].
    pose proof (lookup_running id None s (reachable_wf _ _ R) (not_stopped _ St)) as L. destruct (lookup_task id None s) as [[t w]|y] eqn:LK.
    2:{ apply un_task. intros a. apply L. reflexivity. }
    destruct L as (a & -> & Wa & Sa & Ia). destruct (update_task (c_tenv c) t (Some (c_self c)) fn ups) as [t1 [u|y]] eqn:UT.
    2:{ apply (un_update _ _ _ _ _ a t fn ups Sa U). eapply update_rejects_invalid; eauto. }
    destruct (build_diff same (snapshot t) (snapshot t1)) as [|d l]; [discriminate|]. destruct dry; [discriminate|]. destruct confirmed; [|apply un_declined; reflexivity].
    destruct (update c id (Some a) fn ups s) as [s1 [t'|y]] eqn:UP; [discriminate|].
    destruct (update_running _ _ _ _ _ _ _ _ (reachable_wf _ _ R) (not_stopped _ St) UP) as [_ [_ [[_ K]|(a' & t0 & t2 & W' & S' & LK' & U')]]].
    - rewrite (K a) in Sa; [discriminate|]. cbn. apply String.eqb_refl.
    - exfalso. assert (a' = a) as -> by (unfold wanted in W'; apply String.eqb_eq in W'; auto). congruence.
  Qed.
End Update.
Print Assumptions C73_nothing_unless_applied.
Print Assumptions C73_shown_as_asked.
Print Assumptions C73_applied_as_shown.
Print Assumptions C73_refused_only_if.

(** Python's == on the values json gives: numbers by value (a truth value is a number), lists and dictionaries entry by entry *)
Definition number_of (v : pyval) : option Z :=
  match v with VInt z => Some (z * us) | VFloat m => Some m | VBool b => Some (if b then us else 0) | _ => None end.
Fixpoint py_eq (v w : pyval) {struct v} : bool :=
  match number_of v, number_of w with
  | Some a, Some b => a =? b
  | _, _ =>
      match v, w with
      | VNone, VNone => true
      | VStr a, VStr b => String.eqb a b
      | VList l, VList m => (fix eqs l m := match l, m with [], [] => true | x :: l', y :: m' => py_eq x y && eqs l' m' | _, _ => false end) l m
      | VDict l, VDict m => (fix eqs (l m : list (string * pyval)) := match l, m with [], [] => true | (k, x) :: l', (k', y) :: m' => String.eqb k k' && py_eq x y && eqs l' m' | _, _ => false end) l m
      | _, _ => false
      end
  end.
Definition ex_json (s : string) : result pyval :=
  if String.eqb s "[true]" then Ok (VList [VBool true]) else if String.eqb s "[2]" then Ok (VList [VInt 2]) else Err ValueError.
Definition ex_fn1 : callable := MkCallable "report" (Some "app:report"%string) [MkParam "x" PosOrKw false].
Definition ex_args1 : task :=
  MkTask "a" "job" (every 2 None) None (Some "default"%string) None (Some (sec 1)) false 1 (Some ex_fn1) (Some "app:report"%string) (VList [VInt 1]) (VDict []) (Some 0%nat) true false.
Definition ex_one : sched := run_ops ex_cfg [(quiet 0, OStart false); (quiet 0, OAddTask ex_args1 false None)] sched_init.
(** Refuted: "an update that is asked for and confirmed is made".  True for 1 (or 1 for 1.0) counts as no change. *)
Theorem C73_equal_counts_as_no_change :
  exists c o id s rep a t, reachable c s /\ st s = RUNNING /\ cli_update ex_json py_eq c o false true id s = (s, Ok rep) /\ r_diff rep = [] /\
    stored s a id = Some t /\ u_args o = Some "[true]"%string /\ ex_json "[true]" = Ok (VList [VBool true]) /\ t_args t = VList [VInt 1].
Proof.
  exists ex_cfg, (MkOptions None None (Some "[true]"%string) None None None None None false), "a"%string, ex_one.
  eexists _, "default"%string, _. split; [exists [(quiet 0, OStart false); (quiet 0, OAddTask ex_args1 false None)]; reflexivity|]. sp; vm_compute; reflexivity.
Qed.
Print Assumptions C73_equal_counts_as_no_change.
Example C73_case :
  let o := MkOptions (Some "new"%string) None (Some "[2]"%string) None None (Some " Yes "%string) None (Some 5) true in
  let (s', r) := cli_update ex_json py_eq ex_cfg o false true "a" ex_one in
  match r with
  | Ok rep => map fst (r_diff rep) = ["name"; "args"; "coalesce"; "mistrigger_grace_time"]%string /\ r_applied rep = true
  | Err _ => False
  end /\ option_map t_args (stored s' "default" "a") = Some (VList [VInt 2]) /\ option_map t_grace (stored s' "default" "a") = Some None /\
  snd (cli_update ex_json py_eq ex_cfg o false true "b" ex_one) = Err TaskLookupError /\
  fst (cli_update ex_json py_eq ex_cfg o true true "a" ex_one) = ex_one.
Proof. vm_compute. auto 10. Qed.

(** ** C64.  Refuted: "loading a module or a file adds one task per entry".  No entry can be loaded: any non-empty list
    raises and adds nothing; the empty one adds nothing and says so. *)
Lemma job_task_fails env fresh tr j : is_ok (job_task env fresh tr j) = false.
Proof.
  unfold job_task. destruct (j_func j) as [f|e]; [|reflexivity]. unfold construct. destruct (update_task env (blank fresh tr None) None VNone _) as [t [u|e]] eqn:U; [|reflexivity].
  exfalso. assert (ND : NoDup (dkeys [("func", f); ("name", j_name j)]%string)) by (cbn; repeat (constructor; [cbn; intuition discriminate|]); constructor).
  pose proof (update_spec _ _ _ _ _ _ _ ND U) as A. cbn in A. destruct A as (_ & _ & _ & _ & _ & _ & _ & _ & _ & _ & _ & _ & _ & _ & _ & _ & _ & _ & _ & _ & _ & _ & K).
  specialize (K "func"%string f eq_refl). cbn in K. intuition discriminate.
Qed.
Theorem C64_nothing_can_be_loaded_refuted :
  forall (c : config) (e : envir) (from_file : bool) (fresh : nat -> string) (j : job) (jobs : list job) (s : sched),
    exists x, load_jobs c e from_file fresh 0 (j :: jobs) s = (s, Err x).
Proof.
  intros c e from_file fresh j jobs s. cbn [load_jobs]. destruct (j_trigger j) as [tr|x].
  - pose proof (job_task_fails (c_tenv c) (fresh 0%nat) tr j) as F. destruct (job_task (c_tenv c) (fresh 0%nat) tr j); [discriminate|eauto].
  - destruct from_file; [eauto|]. destruct (job_task (c_tenv c) (fresh 0%nat) (TInterval 1 0 None None) j); eauto.
Qed.
Print Assumptions C64_nothing_can_be_loaded_refuted.
Theorem C64_empty_partial : forall c e from_file fresh s, load_jobs c e from_file fresh 0 [] s = (s, Ok 0%nat).
Proof. reflexivity. Qed.
Print Assumptions C64_empty_partial.
Example C64_case : load_jobs ex_cfg (quiet 0) true (fun _ => "u"%string) 0 [MkJob (Ok (VStr "app:report")) (VStr "ping") (Ok (every 5 None)) [] []] ex_one = (ex_one, Err AttributeError).
Proof. reflexivity. Qed.

(** ** C74.  The schedulers of --bootstrap paths. *)
(** specification: what the thing a path names should give *)
Definition gives (t : target) (n : nat) (x : nat) : Prop :=
  if b_class t then
    exists i, b_new t n = Ok i /\
      match i with
      | Some g => g n = Ok (Scheduler_ x)
      | None => match b_get t with Some g => g n = Ok (Scheduler_ x) | None => exists f, b_call t = Some f /\ f n = Ok (Scheduler_ x) end
      end
  else match b_get t with Some g => g n = Ok (Scheduler_ x) | None => exists f, b_call t = Some f /\ f n = Ok (Scheduler_ x) end.
Lemma check_thing_ok r x : check_thing r = Ok x <-> r = Ok (Scheduler_ x).
Proof. destruct r as [[n|]|]; cbn; split; try discriminate; intros [= ->]; reflexivity. Qed.
Lemma bootstrap_gives t n x : bootstrap t n = Ok x <-> gives t n x.
Proof.
  unfold bootstrap, gives.
  assert (R : match b_get t with Some g => check_thing (g n) | None => match b_call t with Some f => check_thing (f n) | None => Err TypeError end end = Ok x <->
    match b_get t with Some g => g n = Ok (Scheduler_ x) | None => exists f, b_call t = Some f /\ f n = Ok (Scheduler_ x) end).
  { destruct (b_get t) as [g|]; [apply check_thing_ok|]. destruct (b_call t) as [f|]; [rewrite check_thing_ok; split; [eauto|intros (f' & [= <-] & H); exact H]|].
    split; [discriminate|intros (f & H & _); discriminate]. }
  destruct (b_class t); [|exact R]. destruct (b_new t n) as [[g|]|e].
  - rewrite check_thing_ok. split; [eauto|intros (i & [= <-] & H); exact H].
  - rewrite R. split; [eauto|intros (i & [= <-] & H); exact H].
  - split; [discriminate|intros (i & H & _); discriminate].
Qed.
(** the answer to the [i]-th operation of a history *)
Definition answer (import : string -> nat -> result target) (ops : list boot_op) (i : nat) : option (option (result nat)) := nth_error (boots import ops 0 []) i.

Lemma boots_length import ops : forall n cache, List.length (boots import ops n cache) = List.length ops.
Proof.
  induction ops as [|[p|] ops IH]; intros n cache; [reflexivity| |]; cbn [boots].
  - destruct (load_bootstrap import p n cache). cbn [List.length]. rewrite IH. reflexivity.
  - cbn [List.length]. rewrite IH. reflexivity.
Qed.
(** the cache after a history *)
Fixpoint boot_cache (import : string -> nat -> result target) (ops : list boot_op) (n : nat) (cache : dict nat) : dict nat :=
  match ops with
  | [] => cache
  | Clear :: ops' => boot_cache import ops' (Datatypes.S n) []
  | Load p :: ops' => boot_cache import ops' (Datatypes.S n) (fst (load_bootstrap import p n cache))
  end.
Lemma boots_app import a : forall b n cache, boots import (a ++ b) n cache = boots import a n cache ++ boots import b (n + List.length a)%nat (boot_cache import a n cache).
Proof.
  induction a as [|[p|] a IH]; intros b n cache; cbn [app boots boot_cache List.length].
  - rewrite Nat.add_0_r. reflexivity.
  - destruct (load_bootstrap import p n cache) as [c' r]. cbn [fst app]. rewrite IH. replace (Datatypes.S n + List.length a)%nat with (n + Datatypes.S (List.length a))%nat by lia. reflexivity.
  - cbn [app]. rewrite IH. replace (Datatypes.S n + List.length a)%nat with (n + Datatypes.S (List.length a))%nat by lia. reflexivity.
Qed.
(** what a path stands for after a history: the first scheduler loaded since the last clear *)
Lemma cache_keeps import ops p : forall n cache x, ~ In Clear ops -> dget p cache = Some x -> dget p (boot_cache import ops n cache) = Some x.
Proof.
  induction ops as [|[q|] ops IH]; intros n cache x NC G; cbn [boot_cache]; [exact G| |destruct NC; left; reflexivity].
  apply IH; [intros X; apply NC; right; exact X|]. unfold load_bootstrap. destruct (dget q cache) eqn:Q; [exact G|].
  destruct (import q n); [|exact G]. destruct (bootstrap a n); [|exact G]. cbn [fst]. rewrite dget_dset_ne; [exact G|]. intros ->. congruence.
Qed.
(** One scheduler per path: once a path has been loaded, every later load answers the same scheduler, until the
    cache is cleared. *)
Theorem C74_same_scheduler :
  forall (import : string -> nat -> result target) (before between : list boot_op) (p : string) (x : nat),
    answer import (before ++ Load p :: between ++ [Load p])%list (List.length before) = Some (Some (Ok x)) -> ~ In Clear between ->
    answer import (before ++ Load p :: between ++ [Load p])%list (List.length before + List.length between + 1)%nat = Some (Some (Ok x)).
Proof.
  intros import before between p x H NC. unfold answer in *. rewrite boots_app in *. cbn [boots] in *.
  destruct (load_bootstrap import p (0 + List.length before) (boot_cache import before 0 [])) as [c' r] eqn:LB.
  rewrite nth_error_app2 in * by (rewrite boots_length; lia). rewrite boots_length in *. rewrite Nat.sub_diag in H. cbn [nth_error] in H. injection H as ->.
  replace (List.length before + List.length between + 1 - List.length before)%nat with (Datatypes.S (List.length between)) by lia. cbn [nth_error].
  rewrite boots_app, nth_error_app2 by (rewrite boots_length; lia). rewrite boots_length, Nat.sub_diag. cbn [boots].
  assert (G : dget p c' = Some x).
  { unfold load_bootstrap in LB. destruct (dget p (boot_cache import before 0 [])) eqn:Q; [injection LB as <- <-; exact Q|].
    destruct (import p _); [|discriminate]. destruct (bootstrap a _); [|discriminate]. injection LB as <- <-. apply dget_dset_eq. }
  unfold load_bootstrap. rewrite (cache_keeps import between p _ c' x NC G). reflexivity.
Qed.
Print Assumptions C74_same_scheduler.
Lemma cache_of_loads import ops p x : forall n cache, dget p (boot_cache import ops n cache) = Some x ->
  (dget p cache = Some x /\ ~ In Clear ops) \/
  exists a b t, ops = (a ++ Load p :: b)%list /\ ~ In Clear b /\ import p (n + List.length a)%nat = Ok t /\ gives t (n + List.length a)%nat x.
Proof.
  induction ops as [|[q|] ops IH]; intros n cache G; cbn [boot_cache] in G; [auto| |].
  - destruct (IH _ _ G) as [[G' NC]|(a & b & t & -> & NC & I & X)].
    + unfold load_bootstrap in G'.
      assert (K : dget p cache = Some x -> (dget p cache = Some x /\ ~ In Clear (Load q :: ops)) \/ (exists a b t, Load q :: ops = (a ++ Load p :: b)%list /\ ~ In Clear b /\ import p (n + List.length a)%nat = Ok t /\ gives t (n + List.length a)%nat x)).
      { intros K. left. split; [exact K|]. intros [?|?]; [discriminate|auto]. }
      destruct (dget q cache) eqn:Q; [auto|]. destruct (import q n) as [t|e] eqn:I; [|auto]. destruct (bootstrap t n) as [y|e] eqn:B; [|auto]. cbn [fst] in G'.
      destruct (string_dec p q) as [->|NE].
      * rewrite dget_dset_eq in G'. injection G' as ->. right. exists [], ops, t. cbn. rewrite Nat.add_0_r. apply bootstrap_gives in B. auto.
      * rewrite dget_dset_ne in G' by auto. auto.
    + right. exists (Load q :: a), b, t. cbn [app List.length]. replace (n + Datatypes.S (List.length a))%nat with (Datatypes.S n + List.length a)%nat by lia. auto.
  - destruct (IH _ _ G) as [[G' NC]|(a & b & t & -> & NC & I & X)]; [discriminate|].
    right. exists (Clear :: a), b, t. cbn [app List.length]. replace (n + Datatypes.S (List.length a))%nat with (Datatypes.S n + List.length a)%nat by lia. auto.
Qed.
(** Every answer is a scheduler that the path itself gave at some load since the last clear; failures are not kept:
    a path whose loads all failed is tried again, and answers what it gives now. *)
Theorem C74_what_the_path_gives :
  forall (import : string -> nat -> result target) (before : list boot_op) (p : string) (x : nat),
    answer import (before ++ [Load p])%list (List.length before) = Some (Some (Ok x)) ->
    exists a b t, (before ++ [Load p] = a ++ Load p :: b)%list /\ ~ In Clear b /\ import p (List.length a) = Ok t /\ gives t (List.length a) x.
Proof.
  intros import before p x H. unfold answer in H. rewrite boots_app in H. rewrite nth_error_app2 in H by (rewrite boots_length; lia). rewrite boots_length, Nat.sub_diag in H. cbn [boots] in H.
  destruct (load_bootstrap import p (0 + List.length before) (boot_cache import before 0 [])) as [c' r] eqn:LB. cbn [nth_error] in H. injection H as ->. unfold load_bootstrap in LB.
  destruct (dget p (boot_cache import before 0 [])) as [y|] eqn:Q.
  - injection LB as <- ->. destruct (cache_of_loads import before p x 0 [] Q) as [[G _]|(a & b & t & -> & NC & I & X)]; [discriminate|].
    exists a, (b ++ [Load p])%list, t. rewrite <- app_assoc. sp; auto. intros Y. apply in_app_iff in Y. destruct Y as [Y|[Y|[]]]; [auto|discriminate].
  - destruct (import p (0 + List.length before)%nat) as [t|e] eqn:I; [|discriminate]. destruct (bootstrap t _) as [y|e] eqn:B; [|discriminate]. injection LB as <- ->.
    apply bootstrap_gives in B. exists before, [], t. auto.
Qed.
Print Assumptions C74_what_the_path_gives.
Theorem C74_retries :
  forall (import : string -> nat -> result target) (before : list boot_op) (p : string) (t : target) (x : nat),
    (forall a b y, (before = a ++ Load p :: b)%list -> ~ In Clear b -> answer import before (List.length a) <> Some (Some (Ok y))) ->
    import p (List.length before) = Ok t -> gives t (List.length before) x ->
    answer import (before ++ [Load p])%list (List.length before) = Some (Some (Ok x)).
Proof.
  intros import before p t x NO I G. unfold answer. rewrite boots_app, nth_error_app2 by (rewrite boots_length; lia). rewrite boots_length, Nat.sub_diag. cbn [boots].
  unfold load_bootstrap. destruct (dget p (boot_cache import before 0 [])) as [y|] eqn:Q.
  - exfalso. destruct (cache_of_loads import before p y 0 [] Q) as [[X _]|(a & b & t' & -> & NC & I' & X)]; [discriminate|]. cbn [Nat.add] in *.
    revert NO. intros NO. apply bootstrap_gives in X.
    (* the load at [a] answered: either from its cache or from the path *)
    destruct (dget p (boot_cache import a 0 [])) as [z|] eqn:QA.
    + apply (NO a b z eq_refl NC). unfold answer. rewrite boots_app, nth_error_app2 by (rewrite boots_length; lia). rewrite boots_length, Nat.sub_diag. cbn [boots].
      unfold load_bootstrap. rewrite QA. reflexivity.
    + apply (NO a b y eq_refl NC). unfold answer. rewrite boots_app, nth_error_app2 by (rewrite boots_length; lia). rewrite boots_length, Nat.sub_diag. cbn [boots Nat.add].
      unfold load_bootstrap. rewrite QA, I', X. reflexivity.
  - cbn [Nat.add]. rewrite I. apply bootstrap_gives in G. rewrite G. reflexivity.
Qed.
Print Assumptions C74_retries.
Example C74_case :
  let fn n := MkTarget false (fun _ => Err TypeError) None (Some (fun k => if Nat.ltb k 1 then Ok Something else Ok (Scheduler_ k))) in
  boots (fun p n => if String.eqb p "m:f" then Ok (fn n) else Err ValueError) [Load "m:f"; Load "m:f"; Load "m:f"; Load "m:g"; Clear; Load "m:f"]%string 0 [] =
  [Some (Err TypeError); Some (Ok 1); Some (Ok 1); Some (Err ValueError); None; Some (Ok 5)]%nat.
Proof. reflexivity. Qed.
