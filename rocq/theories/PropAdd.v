(** C69, C70: adding functions, and functions decorated. *)
From Verif Require Import Prelude PreludeFacts MemStore StoreSpec CallArgs CallArgsProofs Cron Triggers TriggerSpec Task TaskSpec TaskProofs Scheduler Executor SchedSpec SchedProofs SchedProofs2 SchedReach LifeSpec LifeProofs PropSched PropLife AddTask AddSpec AddProofs.
Open Scope Z_scope.

Lemma name_check_ok v n : name_check v = Ok n ->
  match v with None | Some VNone => n = None | Some (VStr s) => s <> ""%string /\ n = Some s | _ => False end.
Proof. destruct v as [[]|]; cbn; try discriminate; try (intros [= <-]; auto). destruct (String.eqb_spec s ""); [discriminate|]. intros [= <-]. auto. Qed.
Lemma grace_check_ok v g : grace_check v = Ok g ->
  match v with None => g = None | Some VNone => g = Some None | Some w => exists x, number w x /\ 0 < x /\ g = Some (Some x) end.
Proof.
  destruct v as [[]|]; cbn; try discriminate; try (intros [= <-]; auto).
  - destruct b; [|discriminate]. intros [= <-]. exists us. unfold us. sp; auto; lia.
  - destruct (Z.leb_spec z 0); [discriminate|]. intros [= <-]. exists (z * us). unfold us. sp; auto; lia.
  - destruct (Z.leb_spec m 0); [discriminate|]. intros [= <-]. exists m. sp; auto; lia.
Qed.
Lemma max_check_ok v g : max_check v = Ok g -> match v with None => g = None | Some w => exists x, integer w x /\ 0 < x /\ g = Some x end.
Proof.
  destruct v as [[]|]; cbn; try discriminate; try (intros [= <-]; auto).
  - destruct b; [|discriminate]. intros [= <-]. exists 1. sp; auto; lia.
  - destruct (Z.leb_spec z 0); [discriminate|]. intros [= <-]. exists z. sp; auto; lia.
Qed.
Lemma next_check_ok env self v g : next_check env (Some self) v = Ok g ->
  match v with None => g = None | Some w => exists x, to_datetime env w = Ok x /\ g = Some x end.
Proof. destruct v as [w|]; cbn; [|intros [= <-]; auto]. destruct (to_datetime env w) as [x|]; [|discriminate]. intros [= <-]. eauto. Qed.
Lemma str_check_text o g : str_check (text o) = Ok g -> g = o.
Proof. destruct o; cbn; intros [= <-]; auto. Qed.

(** the task built, before the scheduler takes it *)
Lemma built env self d o id fn t : construct env (Some self) (o_trigger o) id fn (with_defaults d o) = Ok t ->
  exists c ref nx, resolved env fn = Ok (c, ref) /\ next_check env (Some self) (o_next o) = Ok nx /\
    t_id t = id /\ t_trigger t = o_trigger o /\ t_fn t = c /\ t_ref t = ref /\ t_args t = VList (positional o) /\ t_kwargs t = VDict (keywords o) /\
    (forall f, c = Some f -> check_callable_args (c_sig f) (List.length (positional o)) (map fst (keywords o)) = Ok tt) /\
    (t_name t = match o_name o with Some n => n | None => match c with Some f => c_name f | None => ""%string end end /\
       (c <> None -> t_name t <> ""%string) /\ (o_name o <> None -> t_name t <> ""%string)) /\
    (match o_grace o with
     | Some VNone => t_grace t = None
     | Some v => exists x, number v x /\ 0 < x /\ t_grace t = Some x
     | None => if o_late_ok o then t_grace t = None else match d_grace d with Some g => 0 < g /\ t_grace t = Some g | None => t_grace t = Some us end
     end) /\
    t_coalesce t = match o_coalesce o with Some v => truthy v | None => d_coalesce d end /\
    (match o_max o with Some v => integer v (t_max t) | None => t_max t = d_max d end /\ 0 < t_max t) /\
    t_exec t = o_exec o /\ t_store t = o_store o /\ t_sched t = Some self /\ t_next t = dflt nx None /\ t_pending t = true /\ t_submitted t = false.
Proof.
  intros H. rewrite construct_build in H; [|apply defaults_good|rewrite get_defaults; discriminate]. unfold build in H.
  rewrite !get_defaults in H. cbn [look String.eqb Ascii.eqb Bool.eqb andb] in H. rewrite ?andb_false_r, ?andb_true_r in H.
  apply bind_ok in H. destruct H as ([c ref] & HR & H). cbn [arg_count kwarg_names bind] in H.
  apply bind_ok in H. destruct H as ([] & HC & H). apply bind_ok in H. destruct H as (name & HN & H). apply bind_ok in H. destruct H as (grace & HG & H).
  apply bind_ok in H. destruct H as (coal & HCo & H). apply bind_ok in H. destruct H as (store & HSt & H). apply bind_ok in H. destruct H as (mx & HM & H).
  cbn [trigger_check bind] in H. apply bind_ok in H. destruct H as (ex & HE & H). apply bind_ok in H. destruct H as (nx & HX & H). injection H as <-.
  assert (HX' : next_check env (Some self) (o_next o) = Ok nx) by (destruct (o_next o); exact HX).
  exists c, ref, nx. cbn [t_id t_trigger t_fn t_ref t_args t_kwargs t_name t_grace t_coalesce t_max t_exec t_store t_sched t_next t_pending t_submitted dflt].
  split; [exact HR|]. split; [exact HX'|]. do 6 (split; [reflexivity|]). split; [intros f ->; exact HC|].
  split.
  { apply name_check_ok in HN. unfold named in HN. destruct (o_name o) as [n|]; cbn [none_or] in HN.
    - destruct c; destruct HN as [A ->]; cbn; sp; auto.
    - destruct c; [destruct HN as [A ->]|subst name]; cbn; sp; auto; congruence. }
  split.
  { apply grace_check_ok in HG. destruct (o_grace o) as [v|].
    - destruct v; try (destruct HG as (x & A & B & ->); exists x; cbn; auto). subst grace. reflexivity.
    - destruct (o_late_ok o); [subst grace; reflexivity|]. destruct (d_grace d) as [g|]; cbn in HG; [|subst grace; reflexivity].
      destruct HG as (x & -> & B & ->). cbn. auto. }
  split; [destruct (o_coalesce o) as [v|]; injection HCo as <-; reflexivity|].
  split.
  { apply max_check_ok in HM. destruct (o_max o) as [v|]; destruct HM as (x & A & B & ->); cbn; [auto|]. cbn in A. subst. auto. }
  split; [apply (str_check_text (o_exec o)); destruct (o_exec o); exact HE|].
  split; [apply (str_check_text (o_store o)); destruct (o_store o); exact HSt|]. auto.
Qed.

Lemma resolved_callable env fn f ref : resolved env fn = Ok (Some f, ref) -> callable_of env fn f ref.
Proof.
  unfold resolved, callable_of. destruct (truthy fn) eqn:T; [|discriminate]. destruct fn; try discriminate.
  - destruct (resolve env s) as [g|] eqn:R; [|discriminate]. intros [= -> <-]. cbn in T. split; [|auto]. intros ->. discriminate.
  - intros [= -> <-]. auto.
Qed.
Lemma resolved_none env fn ref : resolved env fn = Ok (None, ref) -> truthy fn = false.
Proof. unfold resolved. destruct (truthy fn); [|auto]. destruct fn; try discriminate. destruct (resolve env s); discriminate. Qed.

(** C69.  [t]: the task as get_task shows it afterwards. *)
Definition id_of (o : add_args) (fresh : string) : string := match o_id o with Some i => i | None => fresh end.
Theorem C69_added_as_described :
  forall (c : config) (d : defaults) (e : envir) (o : add_args) (fresh : string) (fn : pyval) (s s' : sched) (r : result outcome),
    reachable c s -> add_function c d e o fresh fn s = (s', r) ->
    match r with
    | Err _ => same_tasks s s' /\ rest_same s s' /\ evs s' = evs s
    | Ok (Decorator _) => truthy fn = false /\ s' = s
    | Ok (Added _) => exists f ref t,
        callable_of (c_tenv c) fn f ref /\ described (c_tenv c) (c_self c) d o (id_of o fresh) f ref t /\
        grace_asked d o (t_grace t) /\
        if stopped s then
          get_tasks None s' = get_tasks None s ++ [t] /\ stores s' = stores s /\ evs s' = evs s /\ t_pending t = true /\ first_known (c_tenv c) o (t_next t)
        else
          only (match o_store o with Some a => a | None => "default"%string end) (id_of o fresh) (Some t) s s' /\
          (o_replace o = false -> stored s (match o_store o with Some a => a | None => "default"%string end) (id_of o fresh) = None) /\
          rest_same s s' /\ evs s' = evs s ++ [task_event TASK_ADDED (id_of o fresh) (t_store t)] /\ t_pending t = false /\ first_asked c (e_now e) o (t_next t)
    end.
Proof.
  intros c d e o fresh fn s s' r R H. unfold add_function in H.
  assert (Unch : same_tasks s s /\ rest_same s s /\ evs s = evs s) by (unfold same_tasks, rest_same; sp; auto; tauto).
  set (oid := match o_id o with Some i => Some i | None => _ end) in H.
  destruct (construct _ _ _ _ _ _) as [t0|x] eqn:K; [|injection H as <- <-; exact Unch].
  pose proof K as K0. apply built in K. destruct K as (cc & ref & nx & HR & HX & T1 & T2 & T3 & T4 & T5 & T6 & T7 & T8 & T9 & T10 & T11 & T12 & T13 & T14 & T15 & T16 & T17).
  destruct (t_fn t0) as [f|] eqn:F.
  2:{ injection H as <- <-. split; [|auto]. subst cc. apply resolved_none in HR. exact HR. }
  subst cc. apply resolved_callable in HR.
  assert (ID : dflt oid ""%string = id_of o fresh).
  { unfold oid, id_of. destruct (o_id o); [auto|]. destruct fn; auto. destruct HR. }
  rewrite ID in *. clear oid ID.
  destruct (add_task c e t0 (o_replace o) (inner_next (c_tenv c) (o_next o)) s) as [s1 r1] eqn:A. injection H as -> <-.
  assert (Desc : forall p n, described (c_tenv c) (c_self c) d o (id_of o fresh) f ref (kept (c_self c) t0 p n) /\
                 grace_asked d o (t_grace (kept (c_self c) t0 p n))).
  { intros p n. split.
    - unfold kept. rewrite T12, T13. constructor; cbn [t_id t_trigger t_fn t_ref t_args t_kwargs t_name t_grace t_coalesce t_max t_exec t_store t_sched]; auto.
      + intros SO ND. apply check_sound; auto.
      + destruct T8 as (E & N & _). split; [exact E|]. apply N. discriminate.
    - unfold grace_asked. cbn [t_grace kept]. destruct (o_grace o) as [v|]; [exact T9|]. destruct (o_late_ok o); [exact T9|].
      destruct (d_grace d) as [g|]; [tauto|exact T9]. }
  assert (NX : match inner_next (c_tenv c) (o_next o) with Some n => n | None => t_next t0 end = t_next t0).
  { rewrite T15. apply next_check_ok in HX. unfold inner_next. destruct (o_next o) as [v|]; [|auto]. destruct HX as (x & E & ->). cbn [dflt].
    destruct v; rewrite ?E; try (destruct x; auto; fail). cbn in E. congruence. }
  destruct (stopped s) eqn:ST.
  - assert (St : st s = STOPPED) by (unfold stopped in ST; destruct (st s); auto; discriminate).
    destruct (C27_added_while_stopped c e t0 (o_replace o) (inner_next (c_tenv c) (o_next o)) s St T17 (or_intror T14)) as (s2 & E & G & S1 & S2 & _).
    rewrite E in A. injection A as -> <-. eexists f, ref, _. destruct (Desc (t_pending t0) (match inner_next (c_tenv c) (o_next o) with Some n => n | None => t_next t0 end)) as [D1 D2].
    split; [exact HR|]. split; [exact D1|]. split; [exact D2|]. split; [exact G|]. split; [exact S1|]. split; [exact S2|]. split; [exact T16|].
    cbn [t_next kept]. rewrite NX, T15. unfold first_known. apply next_check_ok in HX. destruct (o_next o) as [v|]; [|subst nx; reflexivity]. destruct HX as (x & E' & ->). exact E'.
  - assert (St : st s <> STOPPED) by (intros X; unfold stopped in ST; rewrite X in ST; discriminate).
    pose proof (C26_add_task c e t0 (o_replace o) (inner_next (c_tenv c) (o_next o)) s s' r1 R St T17 (or_intror T14) A) as C. cbn zeta in C.
    rewrite T13, T1 in C. replace (or_default (o_store o)) with (match o_store o with Some a => a | None => "default"%string end) in C by (destruct (o_store o); auto).
    destruct C as [RS C]. destruct r1 as [u|x].
    + destruct C as (n & FR & HS & C3 & C4 & C5 & C6). exists f, ref, (kept (c_self c) t0 false n). destruct (Desc false n) as [D1 D2].
      split; [exact HR|]. split; [exact D1|]. split; [exact D2|]. split; [exact C4|]. split; [exact C3|]. split; [exact RS|].
      split; [rewrite (ds_store _ _ _ _ _ _ _ _ D1); exact C5|]. split; [reflexivity|]. cbn [t_next kept].
      apply next_check_ok in HX. unfold first_asked, trigger_first. rewrite <- T2. unfold inner_next in FR. destruct (o_next o) as [v|].
      * destruct HX as (x & E & EN). subst nx. cbn [dflt] in T15. destruct v; try (cbn in E; injection E as <-; inversion FR; subst; auto; fail).
        all: rewrite E in FR; destruct x as [x|]; [left; exists x; split; [exact E|]; inversion FR; auto|right; split; [exact E|]; inversion FR; subst; [congruence|eauto]].
      * subst nx. cbn [dflt] in T15. inversion FR; subst; [congruence|eauto].
    + destruct C as (C1 & C2 & C3 & _). auto.
Qed.
Print Assumptions C69_added_as_described.

Lemma check_err_grace v x : grace_check v = Err x -> exists w, v = Some w /\ ~ (w = VNone \/ exists y, number w y /\ 0 < y).
Proof.
  destruct v as [w|]; [|discriminate]. intros H. exists w. split; [auto|]. intros [->|(y & N & P)]; [discriminate|].
  destruct w; cbn in *; try contradiction; subst.
  - destruct b; [discriminate|lia].
  - destruct (Z.leb_spec z 0); [unfold us in *; lia|discriminate].
  - destruct (Z.leb_spec m 0); [lia|discriminate].
Qed.
Lemma check_err_max v x : max_check v = Err x -> exists w, v = Some w /\ ~ (exists y, integer w y /\ 0 < y).
Proof.
  destruct v as [w|]; [|discriminate]. intros H. exists w. split; [auto|]. intros (y & N & P).
  destruct w; cbn in *; try contradiction; subst.
  - destruct b; [discriminate|lia].
  - destruct (Z.leb_spec z 0); [lia|discriminate].
Qed.
Lemma bind_err {A B} (r : result A) (f : A -> result B) x : bind r f = Err x -> r = Err x \/ exists a, r = Ok a /\ f a = Err x.
Proof. destruct r; cbn; [right; eauto|intros [= ->]; auto]. Qed.

(** an error says that the arguments are not acceptable, or comes from where the task should go *)
Theorem C69_refused_only_if :
  forall (c : config) (d : defaults) (e : envir) (o : add_args) (fresh : string) (fn : pyval) (s s' : sched) (x : exn),
    reachable c s -> add_function c d e o fresh fn s = (s', Err x) ->
    let alias := match o_store o with Some a => a | None => "default"%string end in
    bad_args (c_tenv c) d o fn \/
    (st s <> STOPPED /\
     ((x = ConflictIdError /\ o_replace o = false /\ stored s alias (id_of o fresh) <> None) \/
      (x = KeyError /\ ~ has_store s alias) \/
      exists k, answers (c_fuel c) (c_oracle c) (o_trigger o) (e_now e) k None = Err x)).
Proof.
  intros c d e o fresh fn s s' x R H alias. unfold add_function in H.
  set (oid := match o_id o with Some i => Some i | None => _ end) in H.
  destruct (construct _ _ _ _ _ _) as [t0|y] eqn:K.
  - apply built in K. destruct K as (cc & ref & nx & HR & HX & T1 & T2 & T3 & T4 & T5 & T6 & T7 & T8 & T9 & T10 & T11 & T12 & T13 & T14 & T15 & T16 & T17).
    destruct (t_fn t0) as [f|] eqn:F; [|discriminate]. subst cc. apply resolved_callable in HR.
    assert (ID : dflt oid ""%string = id_of o fresh). { unfold oid, id_of. destruct (o_id o); [auto|]. destruct fn; auto. destruct HR. }
    rewrite ID in *. clear oid ID.
    destruct (add_task c e t0 (o_replace o) (inner_next (c_tenv c) (o_next o)) s) as [s1 r1] eqn:A. destruct r1 as [u|x1]; [discriminate|]. injection H as -> ->.
    right. destruct (stopped s) eqn:ST.
    { unfold add_task in A. rewrite T17, T14, Nat.eqb_refl, ST in A. discriminate. }
    assert (St : st s <> STOPPED) by (intros X; unfold stopped in ST; rewrite X in ST; discriminate). split; [exact St|].
    pose proof (C26_add_task c e t0 (o_replace o) (inner_next (c_tenv c) (o_next o)) s s' _ R St T17 (or_intror T14) A) as C. cbn zeta in C.
    rewrite T13, T1, T2 in C. replace (or_default (o_store o)) with alias in C by (unfold alias; destruct (o_store o); auto).
    destruct C as (_ & _ & _ & _ & C). destruct C as [C|[C|(_ & _ & C)]]; auto.
  - injection H as <- <-. left. rewrite construct_build in K; [|apply defaults_good|rewrite get_defaults; discriminate]. unfold build in K.
    rewrite !get_defaults in K. cbn [look String.eqb Ascii.eqb Bool.eqb andb] in K. rewrite ?andb_false_r, ?andb_true_r in K.
    apply bind_err in K. destruct K as [K|([cc ref] & HR & K)].
    { apply bad_callable; unfold resolved in K; destruct (truthy fn) eqn:T; try discriminate; auto.
      intros f ref. unfold callable_of. destruct fn as [| | | |w| | | | | |]; auto; [|discriminate K]. destruct (resolve (c_tenv c) w); [discriminate|]. intros (_ & X & _). discriminate. }
    cbn [arg_count kwarg_names bind] in K. apply bind_err in K. destruct K as [K|([] & _ & K)].
    { destruct cc as [f|]; [|discriminate]. apply resolved_callable in HR. apply (bad_call _ _ _ _ f ref HR). unfold positional, keywords in *. congruence. }
    apply bind_err in K. destruct K as [K|(name & _ & K)].
    { destruct (o_name o) as [n|] eqn:EN; cbn [none_or] in K.
      - apply bad_name. rewrite EN. assert (K' : name_check (Some (VStr n)) = Err y) by (destruct cc; exact K). cbn in K'. destruct (String.eqb_spec n ""); [congruence|discriminate].
      - destruct cc as [f|]; [|discriminate]. cbn in K. destruct (String.eqb_spec (c_name f) ""); [|discriminate]. apply resolved_callable in HR. eapply bad_anonymous; eauto. }
    apply bind_err in K. destruct K as [K|(grace & _ & K)].
    { apply check_err_grace in K. destruct K as (w & E & N). destruct (o_grace o) as [v|] eqn:EG.
      - injection E as ->. apply (bad_grace _ _ _ _ w EG N).
      - destruct (o_late_ok o) eqn:EL; [injection E as <-; contradiction N; auto|]. destruct (d_grace d) as [g|] eqn:ED; [|discriminate]. injection E as <-.
        apply (bad_default_grace _ _ _ _ g EG EL ED). destruct (Z.leb_spec g 0); [auto|]. contradiction N. right. exists g. cbn. auto. }
    apply bind_err in K. destruct K as [K|(coal & _ & K)]; [destruct (o_coalesce o); discriminate|].
    apply bind_err in K. destruct K as [K|(store & _ & K)]; [destruct (o_store o); discriminate|].
    apply bind_err in K. destruct K as [K|(mx & _ & K)].
    { apply check_err_max in K. destruct K as (w & E & N). destruct (o_max o) as [v|] eqn:EM.
      - injection E as ->. apply (bad_max _ _ _ _ w EM N).
      - injection E as <-. apply (bad_default_max _ _ _ _ EM). destruct (Z.leb_spec (d_max d) 0); [auto|]. contradiction N. exists (d_max d). cbn. auto. }
    cbn [trigger_check bind] in K. apply bind_err in K. destruct K as [K|(ex & _ & K)]; [destruct (o_exec o); discriminate|].
    apply bind_err in K. destruct K as [K|(nx & _ & K)]; [|discriminate].
    assert (K' : next_check (c_tenv c) (Some (c_self c)) (o_next o) = Err y) by (destruct (o_next o); exact K).
    destruct (o_next o) as [v|] eqn:EN; [|discriminate]. apply (bad_next _ _ _ _ v EN). intros (z & Hz). cbn in K'. rewrite Hz in K'. discriminate.
Qed.
Print Assumptions C69_refused_only_if.

(** ** C70 *)
Lemma add_task_next c e t rep next s : match next with Some n => n = t_next t /\ n <> None | None => True end ->
  add_task c e t rep next s = add_task c e t rep None s.
Proof.
  destruct next as [n|]; [|auto]. intros [-> N]. unfold add_task. destruct (t_submitted t); [auto|]. destruct (match t_sched t with Some k => _ | None => _ end); [auto|].
  replace (given_next (Some (t_next t)) t) with t by (destruct t; auto). cbn [given_next].
  replace (starts (Some (t_next t))) with true by (destruct (t_next t); [auto|congruence]). reflexivity.
Qed.

Lemma copy_builds env self d o id0 id f t0 : construct env (Some self) (o_trigger o) id0 VNone (with_defaults d o) = Ok t0 ->
  construct env (Some self) (t_trigger t0) id (VFn f) (copied t0) = construct env (Some self) (o_trigger o) id (VFn f) (with_defaults d o).
Proof.
  intros H. pose proof H as H0. apply built in H0. destruct H0 as (cc & ref & nx & HR & HX & T1 & T2 & T3 & T4 & T5 & T6 & T7 & T8 & T9 & T10 & T11 & T12 & T13 & T14 & T15 & T16 & T17).
  injection HR as <- <-.
  rewrite (construct_build env self (t_trigger t0)); [|apply copied_good|unfold copied; rewrite dget_present; discriminate].
  rewrite construct_build; [|apply defaults_good|rewrite get_defaults; discriminate].
  rewrite construct_build in H; [|apply defaults_good|rewrite get_defaults; discriminate]. unfold build in *.
  rewrite !get_defaults in *. unfold copied. rewrite !dget_present. cbn [look String.eqb Ascii.eqb Bool.eqb andb] in *. rewrite ?andb_false_r, ?andb_true_r in *.
  cbn [resolved truthy bind arg_count kwarg_names] in *.
  rewrite T5, T6. cbn [arg_count kwarg_names bind].
  destruct (check_callable_args (c_sig f) (List.length (positional o)) (map fst (keywords o))) as [[]|x]; [|reflexivity]. cbn [bind].
  apply bind_ok in H. destruct H as (name & HN & H). apply bind_ok in H. destruct H as (grace & HG & H).
  apply bind_ok in H. destruct H as (coal & HCo & H). apply bind_ok in H. destruct H as (store & HSt & H). apply bind_ok in H. destruct H as (mx & HM & H).
  cbn [trigger_check bind] in H. apply bind_ok in H. destruct H as (ex & HE & H). apply bind_ok in H. destruct H as (nx' & HX' & H). injection H as Ht0.
  assert (EN : named (Some f) (Some (if String.eqb (t_name t0) "" then VNone else VStr (t_name t0))) = named (Some f) (Some (none_or VStr (o_name o)))).
  { destruct T8 as (E & _ & N). destruct (o_name o) as [n|]; rewrite E; cbn; [|reflexivity]. specialize (N ltac:(discriminate)). rewrite E in N.
    destruct (String.eqb_spec n ""); [congruence|reflexivity]. }
  rewrite EN. destruct (name_check (named (Some f) (Some (none_or VStr (o_name o))))) as [nm|x]; [|reflexivity]. cbn [bind].
  rewrite HG. cbn [bind].
  assert (EG : grace_check (Some (none_or VFloat (t_grace t0))) = Ok (Some (t_grace t0)) /\ t_grace t0 = dflt grace (Some us)).
  { split; [|rewrite <- Ht0; reflexivity]. destruct (t_grace t0) as [g|] eqn:E; [|reflexivity]. cbn.
    assert (P : 0 < g).
    { clear -T9. destruct (o_grace o) as [w|].
      - destruct w; first [discriminate T9 | destruct T9 as (y & _ & Y & [= ->]); exact Y].
      - destruct (o_late_ok o); [discriminate|]. destruct (d_grace d) as [g0|]; [destruct T9 as [Y [= ->]]; exact Y|]. injection T9 as ->. unfold us. lia. }
    destruct (Z.leb_spec g 0); [lia|]. reflexivity. }
  destruct EG as [-> EG]. cbn [bind].
  rewrite HCo. cbn [coalesce_check bind truthy]. rewrite HSt, HM. cbn [bind].
  assert (ES : str_check (match text (t_store t0) with Some v => Some v | None => None end) = Ok store).
  { rewrite <- Ht0. cbn [t_store]. destruct (o_store o) as [a|]; cbn in HSt; injection HSt as <-; reflexivity. }
  rewrite ES. cbn [bind].
  assert (EM : max_check (Some (VInt (t_max t0))) = Ok (Some (t_max t0))).
  { cbn. destruct T11 as [_ P]. destruct (Z.leb_spec (t_max t0) 0); [lia|reflexivity]. }
  rewrite EM. cbn [bind trigger_check]. rewrite HE, HX'. cbn [bind].
  assert (EE : str_check (match text (t_exec t0) with Some v => Some v | None => None end) = Ok ex).
  { rewrite <- Ht0. cbn [t_exec]. destruct (o_exec o) as [a|]; cbn in HE; injection HE as <-; reflexivity. }
  rewrite EE. cbn [bind].
  assert (EX : next_check env (Some self) (Some (none_or VDate (t_next t0))) = Ok (Some (t_next t0))) by (destruct (t_next t0); reflexivity).
  rewrite EX. cbn [bind dflt]. rewrite T2, EG, <- Ht0. cbn [t_next t_coalesce t_max t_grace dflt]. reflexivity.
Qed.

Lemma remembered_builds env self d o id fn : 
  construct env (Some self) (o_trigger o) id fn (with_defaults d (remembered env o)) = construct env (Some self) (o_trigger o) id fn (with_defaults d o).
Proof.
  rewrite construct_build; [|apply defaults_good|rewrite get_defaults; discriminate].
  rewrite construct_build; [|apply defaults_good|rewrite get_defaults; discriminate]. unfold build.
  rewrite !get_defaults. cbn [look String.eqb Ascii.eqb Bool.eqb andb remembered o_args o_kwargs o_name o_grace o_late_ok o_coalesce o_max o_store o_exec o_trigger o_next].
  rewrite ?andb_false_r, ?andb_true_r.
  assert (BE : forall (A B : Type) (r : result A) (g h : A -> result B), (forall a, g a = h a) -> bind r g = bind r h) by (intros A B r g h X; destruct r; [apply X|reflexivity]).
  repeat (apply BE; intro). match goal with |- (let '(_, _) := ?q in _) = _ => destruct q as [cc ref] end. cbn zeta.
  do 10 (apply BE; intro).
  destruct (o_next o) as [v|]; [|reflexivity]. cbn. destruct (to_datetime env v) as [[x|]|y] eqn:D; cbn; rewrite ?D; reflexivity.
Qed.

(** C70.  Decorating a function with a definition that was made without one is adding that function with the arguments
    remembered by the definition: same effect and same success in every state. *)
Theorem C70_decorating_is_adding :
  forall (c : config) (d : defaults) (e0 e : envir) (o : add_args) (fresh0 fresh : string) (f : callable) (s0 s0' s : sched) (p : template),
    add_function c d e0 o fresh0 VNone s0 = (s0', Ok (Decorator p)) ->
    let direct := add_function c d e (remembered (c_tenv c) o) fresh (VFn f) s in
    s0' = s0 /\ fst (decorate c e p fresh f s) = fst direct /\
    match snd direct with
    | Ok (Added t) => snd (decorate c e p fresh f s) = Ok (t, match remembered_id o with Some _ => false | None => true end)
    | Ok (Decorator _) => False
    | Err x => snd (decorate c e p fresh f s) = Err x
    end.
Proof.
  intros c d e0 e o fresh0 fresh f s0 s0' s p H direct. unfold add_function in H.
  set (oid0 := match o_id o with Some i => Some i | None => None end) in H.
  destruct (construct _ _ _ _ _ _) as [t0|y] eqn:K; [|discriminate].
  pose proof K as K0. apply built in K0. destruct K0 as (cc & ref & nx & HR & HX & T1 & T2 & T3 & T4 & T5 & T6 & T7 & T8 & T9 & T10 & T11 & T12 & T13 & T14 & T15 & T16 & T17).
  injection HR as <- <-. rewrite T3 in H. injection H as <- <-. split; [reflexivity|]. unfold decorate. cbn [p_id p_task]. rewrite T14.
  assert (GV : match oid0 with Some (String _ _) => true | _ => false end = match remembered_id o with Some _ => true | None => false end).
  { unfold oid0, remembered_id. destruct (o_id o) as [[|]|]; reflexivity. }
  rewrite GV. set (given := match remembered_id o with Some _ => true | None => false end) in *.
  assert (IDE : (if given then dflt oid0 ""%string else fresh) = id_of (remembered (c_tenv c) o) fresh).
  { unfold given, oid0, id_of. cbn [o_id remembered]. unfold remembered_id. destruct (o_id o) as [[|]|]; reflexivity. }
  rewrite IDE. rewrite (copy_builds _ _ d o _ (id_of (remembered (c_tenv c) o) fresh) f t0 K). subst direct. unfold add_function.
  change (o_trigger (remembered (c_tenv c) o)) with (o_trigger o). rewrite remembered_builds.
  replace (dflt (match o_id (remembered (c_tenv c) o) with Some i => Some i | None => Some fresh end) ""%string) with (id_of (remembered (c_tenv c) o) fresh)
    by (unfold id_of; destruct (o_id (remembered (c_tenv c) o)); auto).
  destruct (construct (c_tenv c) (Some (c_self c)) (o_trigger o) (id_of (remembered (c_tenv c) o) fresh) (VFn f) (with_defaults d o)) as [t|y] eqn:K1; [|split; reflexivity].
  apply built in K1. destruct K1 as (cc & ref & nx' & HR & HX' & U1 & U2 & U3 & U4 & U5 & U6 & U7 & U8 & U9 & U10 & U11 & U12 & U13 & U14 & U15 & U16 & U17).
  injection HR as <- <-. rewrite U3. change (o_replace (remembered (c_tenv c) o)) with given.
  rewrite (add_task_next c e t given (inner_next (c_tenv c) (o_next (remembered (c_tenv c) o)))).
  2:{ rewrite U15. apply next_check_ok in HX'. cbn [o_next remembered]. destruct (o_next o) as [v|]; [|exact I]. destruct HX' as (x & E & ->). rewrite E. cbn [dflt].
      destruct x as [x|]; [|exact I]. cbn [inner_next]. destruct v; [discriminate E|..]; rewrite E; (split; [reflexivity|discriminate]). }
  destruct (add_task c e t given None s) as [s1 [u|x]]; cbn [fst snd]; split; auto. f_equal. f_equal. unfold given. destruct (remembered_id o); reflexivity.
Qed.
Print Assumptions C70_decorating_is_adding.
(** making a definition changes nothing *)
Theorem C70_definition_changes_nothing :
  forall c d e o fresh s, fst (add_function c d e o fresh VNone s) = s.
Proof.
  intros c d e o fresh s. unfold add_function. destruct (construct _ _ _ _ _ _) as [t0|y] eqn:K; [|reflexivity].
  apply built in K. destruct K as (cc & ref & nx & HR & _ & _ & _ & T3 & _). injection HR as <- _. rewrite T3. reflexivity.
Qed.
Print Assumptions C70_definition_changes_nothing.
(** a task made without a scheduler cannot be used as a decorator at all *)
Theorem C70_without_scheduler_raises :
  forall c e p fresh f s, t_sched (p_task p) = None -> exists x, decorate c e p fresh f s = (s, Err x).
Proof.
  intros c e p fresh f s N. unfold decorate. rewrite N. unfold construct. destruct (update_task _ _ _ _ _) as [t [u|x]] eqn:U; [|eauto]. exfalso.
  apply update_spec in U; [|apply copied_good]. destruct U as (_ & _ & _ & A & _ & _ & _ & _ & _ & _ & _ & _ & _ & _ & _ & _ & B & _). cbn in A.
  destruct (B _ (eq_refl : given "next_run_time" (copied (p_task p)) (none_or VDate (t_next (p_task p))))) as [B1 _]. congruence.
Qed.
Print Assumptions C70_without_scheduler_raises.

(** A default grace time of None ("run however late") is not used: the task gets one second. *)
Theorem C69_none_grace_default_is_one_second :
  forall (c : config) (d : defaults) (e : envir) (o : add_args) (fresh : string) (fn : pyval) (s s' : sched) (t : task),
    d_grace d = None -> o_grace o = None -> o_late_ok o = false ->
    add_function c d e o fresh fn s = (s', Ok (Added t)) -> t_grace t = Some us.
Proof.
  intros c d e o fresh fn s s' t A B C H. unfold add_function in H. destruct (construct _ _ _ _ _ _) as [t0|y] eqn:K; [|discriminate].
  apply built in K. destruct K as (cc & ref & nx & HR & HX & T1 & T2 & T3 & T4 & T5 & T6 & T7 & T8 & T9 & _). rewrite A, B, C in T9.
  destruct (t_fn t0); [|discriminate]. destruct (add_task c e t0 (o_replace o) (inner_next (c_tenv c) (o_next o)) s) as [s1 [u|x]]; [|discriminate]. injection H as _ <-. exact T9.
Qed.
Print Assumptions C69_none_grace_default_is_one_second.

(** A definition made with next_run_time=None ("add paused") does not pause: the decorated function is scheduled. *)
Theorem C70_paused_definition_runs :
  forall (c : config) (d : defaults) (e0 e : envir) (o : add_args) (fresh0 fresh : string) (f : callable) (s0 s0' s s' : sched) (p : template) t listed,
    add_function c d e0 o fresh0 VNone s0 = (s0', Ok (Decorator p)) -> o_next o = Some VNone ->
    reachable c s -> st s <> STOPPED -> decorate c e p fresh f s = (s', Ok (t, listed)) ->
    exists t', stored s' (match o_store o with Some a => a | None => "default"%string end) (t_id t) = Some t' /\ trigger_first c (e_now e) o (t_next t').
Proof.
  intros c d e0 e o fresh0 fresh f s0 s0' s s' p t listed H NX R St D. unfold add_function in H.
  destruct (construct _ _ _ _ _ _) as [t0|y] eqn:K; [|discriminate].
  pose proof K as K0. apply built in K0. destruct K0 as (cc & ref & nx & HR & HX & T1 & T2 & T3 & T4 & T5 & T6 & T7 & T8 & T9 & T10 & T11 & T12 & T13 & T14 & T15 & T16 & T17).
  injection HR as <- <-. rewrite T3 in H. injection H as _ <-. unfold decorate in D. cbn [p_id p_task] in D. rewrite T14 in D.
  rewrite (copy_builds _ _ d o _ _ f t0 K) in D. destruct (construct _ _ _ _ (VFn f) (with_defaults d o)) as [t1|y] eqn:K1; [|discriminate].
  apply built in K1. destruct K1 as (cc & ref & nx' & HR & HX' & U1 & U2 & U3 & U4 & U5 & U6 & U7 & U8 & U9 & U10 & U11 & U12 & U13 & U14 & U15 & U16 & U17).
  match type of D with context [add_task c e t1 ?b None s] => destruct (add_task c e t1 b None s) as [s1 [u|x]] eqn:A; [|discriminate] end. injection D as -> -> _.
  destruct (C26_add_task _ _ _ _ _ _ _ _ R St U17 (or_intror U14) A) as (_ & n & FR & _ & _ & ON & _). rewrite U13 in ON.
  exists (kept (c_self c) t false n). split.
  - specialize (ON (or_default (o_store o)) (t_id t)). rewrite !String.eqb_refl in ON. cbn in ON. destruct (o_store o); exact ON.
  - cbn [t_next kept]. rewrite NX in HX'. injection HX' as <-. cbn [dflt] in U15. unfold trigger_first. rewrite <- U2. inversion FR; subst; [congruence|eauto].
Qed.
Print Assumptions C70_paused_definition_runs.

Definition ex_fn : callable := MkCallable "report" (Some "app:report"%string) [].
Definition ex_args (id : option string) (next : option pyval) (grace : option pyval) : add_args :=
  MkArgs (every 60 None) false None None id None grace None (Some (VInt 3)) next None None false.
Definition ex_defaults : defaults := MkDefaults None false 7.
Example C69_case :
  let (s1, r1) := add_function ex_cfg ex_defaults (quiet (sec 1)) (ex_args (Some "r"%string) None (Some (VInt 5))) "uuid" (VFn ex_fn) ex_state in
  let (s2, r2) := add_function ex_cfg ex_defaults (quiet (sec 1)) (ex_args None (Some VNone) None) "uuid" (VFn ex_fn) ex_state in
  option_map (fun t => (t_name t, t_grace t, t_max t, t_coalesce t)) (stored s1 "default" "r") = Some ("report"%string, Some (5 * us), 3, false) /\
  option_map (fun t => (t_next t, t_grace t)) (stored s2 "default" "uuid") = Some (None, Some us) /\
  snd (add_function ex_cfg ex_defaults (quiet (sec 1)) (ex_args None None (Some (VInt 0))) "uuid" (VFn ex_fn) ex_state) = Err TypeError.
Proof. vm_compute. auto. Qed.
Example C70_case :
  match add_function ex_cfg ex_defaults (quiet (sec 1)) (ex_args None (Some VNone) None) "uuid" VNone ex_state with
  | (_, Ok (Decorator p)) =>
      let (s1, r1) := decorate ex_cfg (quiet (sec 1)) p "one" ex_fn ex_state in
      let (s2, r2) := decorate ex_cfg (quiet (sec 1)) p "two" ex_fn s1 in
      is_ok r1 = true /\ is_ok r2 = true /\ option_map t_next (stored s2 "default" "one") = Some (Some (sec 60)) /\
      option_map t_name (stored s2 "default" "two") = Some "report"%string
  | _ => False
  end.
Proof. vm_compute. auto. Qed.
