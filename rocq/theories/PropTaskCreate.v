(** C81: creating a task with the dashboard's form. *)
From Verif Require Import Prelude PreludeFacts MemStore StoreSpec Text CronParse CronParseSpec Forms FormsSpec PropForms PropForms2 CallArgs Cron Triggers TriggerSpec Task TaskSpec Scheduler Executor SchedSpec SchedReach LifeSpec TrigZone AddTask AddSpec AddProofs PropAdd PropSched TaskPages TaskCreate.
Open Scope Z_scope.
Ltac sp := repeat match goal with |- _ /\ _ => split end.

(** ** specification *)
(** the text of a field without the space around it; [d] when it is absent or empty *)
Inductive entered (form : dict string) (k d : string) : string -> Prop :=
| en_given v : dget k form = Some v -> v <> ""%string -> entered form k d (strip v)
| en_default : dget k form = None \/ dget k form = Some ""%string -> entered form k d (strip d).
(** positional and keyword arguments JSON stands for *)
Inductive letters : string -> list pyval -> Prop :=
| let_none : letters "" []
| let_more a s l : letters s l -> letters (String a s) (VStr (String a "") :: l).
Inductive positional_json : pyval -> list pyval -> Prop :=
| pj_null : positional_json VNone []
| pj_list l : positional_json (VList l) l
| pj_text s l : letters s l -> positional_json (VStr s) l
| pj_object d : positional_json (VDict d) (map (fun kv => VStr (fst kv)) d).
Inductive keyword_json (pairs : list pyval -> result (dict pyval)) : pyval -> dict pyval -> Prop :=
| kj_null : keyword_json pairs VNone []
| kj_object d : keyword_json pairs (VDict d) d
| kj_pairs l d : pairs l = Ok d -> keyword_json pairs (VList l) d
| kj_empty : keyword_json pairs (VStr "") [].
(** what a field of JSON says; blank is [d] *)
Inductive json_field (loads : string -> result pyval) (form : dict string) (k : string) (d : pyval) : result pyval -> Prop :=
| jf_blank : entered form k "" "" -> json_field loads form k d (Ok d)
| jf_text x : entered form k "" x -> x <> ""%string -> json_field loads form k d (loads x).
(** the trigger the two trigger fields ask for: [None] when they cannot be read, an exception when a cron field is wrong *)
Definition seconds_of (u : string) (n : Z) : Z := match u with "hours"%string => 3600 * n | "minutes"%string => 60 * n | _ => n end.
Definition instant (zone : Z) (d : stamp) : Z := match d with Aware i _ => i | Naive w => w - zone * us end.
Definition readable_interval (v u : string) (n : Z) : Prop := exists p w q, spaces p /\ spaces q /\ v = (p ++ w ++ q)%string /\ interval_text w u n.
Inductive trigger_asked (fromiso : string -> option stamp) (zone now : Z) (ty v : string) : option (result Triggers.trigger) -> Prop :=
| ta_interval u n iv : says "interval" ty -> readable_interval v u n -> iv = (if n =? 0 then 1 else seconds_of u n) * us ->
    trigger_asked fromiso zone now ty v (Some (Ok (TInterval iv (now + iv) None None)))
| ta_no_interval : says "interval" ty -> (forall u n, ~ readable_interval v u n) -> trigger_asked fromiso zone now ty v None
| ta_cron tb : says "cron" ty -> from_crontab v = Ok tb -> trigger_asked fromiso zone now ty v (Some (Ok (TCron tb zone None None None)))
| ta_bad_cron ws x : says "cron" ty -> spaced ws v -> List.length ws = 5%nat -> from_crontab v = Err x -> trigger_asked fromiso zone now ty v (Some (Err x))
| ta_no_cron ws : says "cron" ty -> spaced ws v -> List.length ws <> 5%nat -> trigger_asked fromiso zone now ty v None
| ta_date m d : says "date" ty -> mended (strip v) m -> fromiso m = Some d -> trigger_asked fromiso zone now ty v (Some (Ok (TDate (instant zone d))))
| ta_no_date m : says "date" ty -> mended (strip v) m -> fromiso m = None -> trigger_asked fromiso zone now ty v None
| ta_other : ~ says "interval" ty -> ~ says "cron" ty -> ~ says "date" ty -> trigger_asked fromiso zone now ty v None.
(** the arguments of add_task the form stands for *)
Record asked (loads : string -> result pyval) (pairs : list pyval -> result (dict pyval)) (fromiso : string -> option stamp) (zone now : Z) (form : dict string) (o : add_args) : Prop := {
  as_trigger : exists ty v, entered form "trigger_type" "interval" ty /\ entered form "trigger_value" "10s" v /\ trigger_asked fromiso zone now ty v (Some (Ok (o_trigger o)));
  as_args : exists v, json_field loads form "args" (VList []) (Ok v) /\ exists a, o_args o = Some a /\ positional_json v a;
  as_kwargs : exists v, json_field loads form "kwargs" (VDict []) (Ok v) /\ exists k, o_kwargs o = Some k /\ keyword_json pairs v k;
  as_name : (exists n, n <> ""%string /\ dget "name" form = Some n /\ o_name o = Some n) \/ ((dget "name" form = None \/ dget "name" form = Some ""%string) /\ o_name o = None);
  as_store : (exists x, x <> ""%string /\ entered form "store" "default" x /\ o_store o = Some x) \/ (entered form "store" "default" "" /\ o_store o = Some "default"%string);
  as_rest : o_late_ok o = false /\ o_id o = None /\ o_grace o = None /\ o_coalesce o = None /\ o_max o = None /\ o_next o = None /\ o_exec o = None /\ o_replace o = false }.
(** why the form may break off with an exception *)
Inductive broken (loads : string -> result pyval) (pairs : list pyval -> result (dict pyval)) (fromiso : string -> option stamp) (zone now : Z) (form : dict string) : exn -> Prop :=
| br_args x : json_field loads form "args" (VList []) (Err x) -> broken loads pairs fromiso zone now form x
| br_kwargs x : json_field loads form "kwargs" (VDict []) (Err x) -> broken loads pairs fromiso zone now form x
| br_cron ty v x : entered form "trigger_type" "interval" ty -> entered form "trigger_value" "10s" v -> trigger_asked fromiso zone now ty v (Some (Err x)) -> broken loads pairs fromiso zone now form x
| br_no_args v x : json_field loads form "args" (VList []) (Ok v) -> (forall a, ~ positional_json v a) -> broken loads pairs fromiso zone now form x
| br_no_kwargs v x : json_field loads form "kwargs" (VDict []) (Ok v) -> (forall k, ~ keyword_json pairs v k) -> broken loads pairs fromiso zone now form x.

(** ** proofs *)
Lemma form_or_entered form k d : entered form k d (form_or form k d).
Proof. unfold form_or. destruct (dget k form) as [[|a v]|] eqn:E; [apply en_default; auto|apply en_given; [exact E|discriminate]|apply en_default; auto]. Qed.
Lemma entered_one form k d x : entered form k d x -> x = form_or form k d.
Proof. unfold form_or. intros [v E N|[E|E]]; rewrite E; [destruct v; [congruence|]|..]; reflexivity. Qed.
Lemma json_field_is loads form k d : json_field loads form k d (if String.eqb (form_or form k "") "" then Ok d else loads (form_or form k "")).
Proof.
  pose proof (form_or_entered form k "") as E. destruct (String.eqb_spec (form_or form k "") "") as [B|B]; [rewrite B in E; apply jf_blank; exact E|apply jf_text; auto].
Qed.
Lemma chars_letters s l : chars s = l <-> letters s l.
Proof.
  revert l. induction s as [|a s IH]; intros l; cbn [chars]; split.
  - intros <-. constructor.
  - inversion 1. reflexivity.
  - intros <-. constructor. apply IH. reflexivity.
  - inversion 1; subst. f_equal. apply IH. assumption.
Qed.
Lemma tuple_iff v a : tuple_of v = Ok a <-> positional_json v a.
Proof.
  split.
  - destruct v; cbn [tuple_of]; intros H; try discriminate; injection H as <-; constructor. apply chars_letters. reflexivity.
  - destruct 1 as [|l|s l L|d]; cbn [tuple_of]; try reflexivity. f_equal. apply chars_letters. exact L.
Qed.
Lemma dict_iff pairs v k : dict_of pairs v = Ok k <-> keyword_json pairs v k.
Proof.
  split.
  - destruct v as [| | | |s|l|d| | | |]; cbn [dict_of]; intros H; try discriminate.
    + injection H as <-. constructor.
    + destruct s; [|discriminate]. injection H as <-. constructor.
    + constructor. exact H.
    + injection H as <-. constructor.
  - destruct 1 as [|d|l d L|]; cbn [dict_of]; auto.
Qed.

Lemma trigger_is fromiso zone now ty v :
  trigger_asked fromiso zone now ty v (match parse_trigger_config fromiso (Some ty) (Some v) with Ok tf => Some (form_trigger_of zone now tf) | Err _ => None end).
Proof.
  destruct (string_dec (lower (strip ty)) "interval") as [E|N1]; [|destruct (string_dec (lower (strip ty)) "cron") as [E|N2]; [|destruct (string_dec (lower (strip ty)) "date") as [E|N3]]].
  - apply lower_says in E. destruct (C59_interval fromiso ty v E) as (A & B & _). destruct (parse_trigger_config fromiso (Some ty) (Some v)) as [tf|x] eqn:P.
    + destruct (B _ eq_refl) as (u & n & ->). pose proof (proj1 (A u n) eq_refl) as I. unfold form_trigger_of. cbv zeta.
      set (iv := interval_of _ _ _ _ _). unfold interval_trigger, own_zone, interval_start_stamp, read_stamp, kept_stamp. apply ta_interval with (u := u) (n := n); [exact E|exact I|].
      destruct I as (p & w & q & _ & _ & _ & IT). assert (U : u = "seconds"%string \/ u = "minutes"%string \/ u = "hours"%string) by (destruct IT; auto).
      unfold iv, interval_of. destruct U as [->|[->| ->]]; cbn [String.eqb Ascii.eqb Bool.eqb seconds_of]; (destruct (Z.eqb_spec n 0) as [->|N]; [reflexivity|]);
        match goal with |- (if ?x =? 0 then _ else _) = _ => destruct (Z.eqb_spec x 0); [lia|] end; lia.
    + apply ta_no_interval; [exact E|]. intros u n (p & w & q & P1 & Q1 & V & IT). assert (H : @Err (trigger_form stamp) x = Ok (FInterval u n)); [|discriminate]. apply A. exists p, w, q. auto.
  - apply lower_says in E. destruct (C59_cron fromiso ty v E) as (A & B & C). destruct (parse_trigger_config fromiso (Some ty) (Some v)) as [tf|x] eqn:P.
    + destruct (proj1 (A tf) eq_refl) as (mi & h & d & mo & dw & L & ->). unfold parse_trigger in C. rewrite P in C. unfold form_trigger_of.
      destruct (cron_new _) as [tb|y] eqn:CN; destruct (from_crontab v) as [tb'|y'] eqn:F; try discriminate.
      * injection C as <-. apply ta_cron; auto.
      * injection C as <-. eapply ta_bad_cron; [exact E|exact L|reflexivity|exact F].
    + apply ta_no_cron with (ws := words v); [exact E|apply words_iff; reflexivity|]. intros L. pose proof (proj1 (words_iff v (words v)) eq_refl) as W.
      destruct (words v) as [|mi [|h [|d [|mo [|dw [|z l]]]]]]; try discriminate. assert (H : @Err (trigger_form stamp) x = Ok (FCron mi h d mo dw)); [|discriminate]. apply A. eexists _, _, _, _, _. split; [exact W|reflexivity].
  - apply lower_says in E. destruct (C59_date fromiso ty v E) as (A & B). destruct (parse_trigger_config fromiso (Some ty) (Some v)) as [tf|x] eqn:P.
    + destruct (proj1 (A tf) eq_refl) as (m & d & M & F & ->). unfold form_trigger_of. replace (read_stamp (Some zone) zone d) with (instant zone d) by (destruct d; reflexivity). eapply ta_date; eauto.
    + destruct (B x eq_refl) as (_ & m & M & F). eapply ta_no_date; eauto.
  - assert (M1 : ~ says "interval" ty) by (intros X; apply says_iff in X; [contradiction|cbn; auto]). assert (M2 : ~ says "cron" ty) by (intros X; apply says_iff in X; [contradiction|cbn; auto]).
    assert (M3 : ~ says "date" ty) by (intros X; apply says_iff in X; [contradiction|cbn; auto]). rewrite (C59_other fromiso ty (Some v) M1 M2 M3). apply ta_other; auto.
Qed.

Section C81.
  Variable loads : string -> result pyval.
  Variable pairs : list pyval -> result (dict pyval).
  Variable fromiso : string -> option stamp.
  Variable imported : string -> result pyval.
  Notation post := (create_post loads pairs fromiso imported).
  Notation asked_ := (asked loads pairs fromiso).
  Notation trigger_ := (trigger_asked fromiso).

  (** what happens, in the words of the scheduler's add_task (C69) *)
  Lemma unfolds c zone d e fresh form s s' es x : post c zone d e fresh form s = (s', es, x) ->
    (s' = s /\ es = [] /\ exists y, x = Some y /\ broken loads pairs fromiso zone (e_now e) form y) \/
    (s' = s /\ x = None /\ exists path ty v, entered form "callable_path" "" path /\ entered form "trigger_type" "interval" ty /\ entered form "trigger_value" "10s" v /\
       es = [MkEntry "task.create" (if String.eqb path "" then None else Some path) "failed"] /\ ((exists y, imported path = Err y) \/ trigger_ zone (e_now e) ty v None)) \/
    (exists path fn o r, entered form "callable_path" "" path /\ imported path = Ok fn /\ asked_ zone (e_now e) form o /\ add_function c d e o fresh fn s = (s', r) /\
       match r with Err y => es = [] /\ x = Some y | Ok (Added t) => es = [succeeded "create" (t_id t)] /\ x = None | Ok (Decorator p) => es = [MkEntry "task.create" (p_id p) "succeeded"] /\ x = None end).
  Proof.
    intros H. unfold create_post in H. cbv zeta in H.
    pose proof (json_field_is loads form "args" (VList [])) as JA. pose proof (json_field_is loads form "kwargs" (VDict [])) as JK.
    destruct (if String.eqb (form_or form "args" "") "" then _ else _) as [av|y] in H, JA; [|injection H as <- <- <-; left; sp; auto; exists y; split; [reflexivity|apply br_args; exact JA]].
    destruct (if String.eqb (form_or form "kwargs" "") "" then _ else _) as [kv|y] in H, JK; [|injection H as <- <- <-; left; sp; auto; exists y; split; [reflexivity|apply br_kwargs; exact JK]].
    pose proof (form_or_entered form "callable_path" "") as EP. pose proof (form_or_entered form "trigger_type" "interval") as ET. pose proof (form_or_entered form "trigger_value" "10s") as EV.
    set (path := form_or form "callable_path" "") in *. set (ty := form_or form "trigger_type" "interval") in *. set (v := form_or form "trigger_value" "10s") in *. clearbody path ty v.
    pose proof (trigger_is fromiso zone (e_now e) ty v) as T.
    destruct (imported path) as [fn|y] eqn:I; [|injection H as <- <- <-; right; left; sp; auto; exists path, ty, v; sp; eauto].
    destruct (parse_trigger_config fromiso (Some ty) (Some v)) as [tf|y]; [|injection H as <- <- <-; right; left; sp; auto; exists path, ty, v; sp; auto].
    destruct (form_trigger_of zone (e_now e) tf) as [tr|y]; [|injection H as <- <- <-; left; sp; auto; exists y; split; [reflexivity|eapply br_cron; eauto]].
    destruct (tuple_of av) as [a|y] eqn:TA; [|injection H as <- <- <-; left; sp; auto; exists y; split; [reflexivity|eapply br_no_args; [exact JA|]; intros a X; apply tuple_iff in X; congruence]].
    destruct (dict_of pairs kv) as [k|y] eqn:DK; [|injection H as <- <- <-; left; sp; auto; exists y; split; [reflexivity|eapply br_no_kwargs; [exact JK|]; intros k X; apply dict_iff in X; congruence]].
    apply tuple_iff in TA. apply dict_iff in DK. right; right.
    match type of H with context [add_function c d e ?O fresh fn s] => set (o := O) in H end. destruct (add_function c d e o fresh fn s) as [s1 r] eqn:A.
    exists path, fn, o, r. split; [exact EP|]. split; [exact I|]. split; [|split].
    - constructor.
      + exists ty, v. sp; auto.
      + exists av. split; [exact JA|]. exists a. split; [reflexivity|exact TA].
      + exists kv. split; [exact JK|]. exists k. split; [reflexivity|exact DK].
      + unfold o. cbn [o_name]. destruct (dget "name" form) as [[|b n]|]; [right; auto|left; exists (String b n); sp; auto; discriminate|right; auto].
      + unfold o. cbn [o_store]. pose proof (form_or_entered form "store" "default") as ES. unfold or_text. destruct (String.eqb_spec (form_or form "store" "default") "") as [B|B]; [right; split; [rewrite B in ES; exact ES|reflexivity]|left; eexists; split; [exact B|split; [exact ES|reflexivity]]].
      + unfold o. cbn. sp; reflexivity.
    - destruct r as [[t|p]|y]; injection H as <- <- <-; exact A.
    - destruct r as [[t|p]|y]; injection H as <- <- <-; auto.
  Qed.

  (** When the trail says that a task was created, the task the form describes was added: the callable and the
      trigger of the form, its arguments, name and store, and the scheduler's defaults for the rest, under a fresh id
      (provided the path does not name something false, like None or 0: see below). *)
  Theorem C81_created_as_asked_partial :
    forall (c : config) (zone : Z) (d : defaults) (e : envir) (fresh : string) (form : dict string) (s s' : sched) (es : list entry) (x : option exn),
      reachable c s -> post c zone d e fresh form s = (s', es, x) -> es = [succeeded "create" fresh] ->
      (forall path fn, entered form "callable_path" "" path -> imported path = Ok fn -> truthy fn = true) ->
      x = None /\
      exists path fn f ref o t alias,
        entered form "callable_path" "" path /\ imported path = Ok fn /\ callable_of (c_tenv c) fn f ref /\ asked_ zone (e_now e) form o /\ o_store o = Some alias /\
        described (c_tenv c) (c_self c) d o fresh f ref t /\ t_grace t = Some (match d_grace d with Some g => g | None => us end) /\
        if stopped s then get_tasks None s' = get_tasks None s ++ [t] /\ stores s' = stores s /\ evs s' = evs s /\ t_pending t = true /\ t_next t = None
        else only alias fresh (Some t) s s' /\ stored s alias fresh = None /\ rest_same s s' /\ evs s' = evs s ++ [task_event TASK_ADDED fresh (Some alias)] /\ t_pending t = false /\
             trigger_first c (e_now e) o (t_next t).
  Proof.
    intros c zone d e fresh form s s' es x R H E TR. subst es. apply unfolds in H. destruct H as [(_ & E & _)|[(_ & _ & path & ty & v & _ & _ & _ & E & _)|(path & fn & o & r & EP & I & AS & A & K)]]; try discriminate.
    pose proof (as_rest _ _ _ _ _ _ _ AS) as (OL & OI & OG & OC & OM & ON & OX & OR).
    pose proof (C69_added_as_described _ _ _ _ _ _ _ _ _ R A) as C. destruct r as [[t0|p]|y]; [|exfalso|exfalso; destruct K; discriminate].
    2: { destruct C as [C _]. rewrite (TR _ _ EP I) in C. discriminate. }
    destruct K as [_ ->]. split; [reflexivity|]. destruct C as (f & ref & t & CO & DS & GR & C).
    assert (OS : exists alias, o_store o = Some alias) by (destruct (as_store _ _ _ _ _ _ _ AS) as [(z & _ & _ & Z)|(_ & Z)]; eauto). destruct OS as [alias OS].
    assert (ID : id_of o fresh = fresh) by (unfold id_of; rewrite OI; reflexivity). rewrite ID, OS in *.
    exists path, fn, f, ref, o, t, alias. sp; auto.
    - unfold grace_asked in GR. rewrite OG, OL in GR. exact GR.
    - destruct (stopped s).
      + destruct C as (C1 & C2 & C3 & C4 & C5). sp; auto. unfold first_known in C5. rewrite ON in C5. exact C5.
      + destruct C as (C1 & C2 & C3 & C4 & C5 & C6). pose proof (ds_store _ _ _ _ _ _ _ _ DS) as ST. rewrite OS in ST. rewrite ST in C4. sp; auto. unfold first_asked in C6. rewrite ON in C6. exact C6.
  Qed.
  (** No other answer changes anything. *)
  Theorem C81_otherwise_nothing :
    forall (c : config) (zone : Z) (d : defaults) (e : envir) (fresh : string) (form : dict string) (s s' : sched) (es : list entry) (x : option exn),
      reachable c s -> post c zone d e fresh form s = (s', es, x) -> es <> [succeeded "create" fresh] -> same_tasks s s' /\ rest_same s s' /\ evs s' = evs s.
  Proof.
    intros c zone d e fresh form s s' es x R H N. assert (Unch : same_tasks s s /\ rest_same s s /\ evs s = evs s) by (unfold same_tasks, rest_same; sp; auto; tauto).
    apply unfolds in H. destruct H as [(-> & _)|[(-> & _)|(path & fn & o & r & EP & I & AS & A & K)]]; try exact Unch.
    pose proof (as_rest _ _ _ _ _ _ _ AS) as (OL & OI & OG & OC & OM & ON & OX & OR).
    pose proof (C69_added_as_described _ _ _ _ _ _ _ _ _ R A) as C. destruct r as [[t0|p]|y]; [exfalso|destruct C as [_ ->]; exact Unch|exact C].
    destruct K as [K _]. apply N. rewrite K. f_equal. unfold succeeded. do 2 f_equal.
    unfold add_function in A. destruct (construct _ _ _ _ _ _) as [t|z] eqn:CT; [|discriminate]. destruct (t_fn t) as [g|] eqn:F; [|discriminate]. destruct (add_task _ _ _ _ _ _) as [? [?|?]]; [|discriminate]. injection A as _ <-.
    apply built in CT. destruct CT as (cc & ref & nx & HR & HX & T1 & T2 & T3 & _). rewrite T1, OI. destruct fn; try reflexivity. cbn in HR. injection HR as <- _. congruence.
  Qed.
  (** When nothing is created the form says why: a callable that cannot be imported or a trigger that cannot be read are
      recorded as a failure; everything else breaks off with an exception and records nothing. *)
  Theorem C81_why_not :
    forall (c : config) (zone : Z) (d : defaults) (e : envir) (fresh : string) (form : dict string) (s s' : sched) (es : list entry) (x : option exn),
      reachable c s -> post c zone d e fresh form s = (s', es, x) ->
      es = [succeeded "create" fresh] \/
      (x = None /\ exists path ty v, entered form "callable_path" "" path /\ entered form "trigger_type" "interval" ty /\ entered form "trigger_value" "10s" v /\
         es = [MkEntry "task.create" (if String.eqb path "" then None else Some path) "failed"] /\ ((exists y, imported path = Err y) \/ trigger_ zone (e_now e) ty v None)) \/
      (es = [] /\ exists y, x = Some y /\
         (broken loads pairs fromiso zone (e_now e) form y \/
          exists path fn o alias, entered form "callable_path" "" path /\ imported path = Ok fn /\ asked_ zone (e_now e) form o /\ o_store o = Some alias /\
            (bad_args (c_tenv c) d o fn \/
             (st s <> STOPPED /\ ((y = ConflictIdError /\ stored s alias fresh <> None) \/ (y = KeyError /\ ~ has_store s alias) \/
                                 exists k, answers (c_fuel c) (c_oracle c) (o_trigger o) (e_now e) k None = Err y))))) \/
      (x = None /\ exists path fn tgt, entered form "callable_path" "" path /\ imported path = Ok fn /\ truthy fn = false /\ es = [MkEntry "task.create" tgt "succeeded"]).
  Proof.
    intros c zone d e fresh form s s' es x R H. pose proof H as H0. apply unfolds in H. destruct H as [(_ & -> & y & -> & B)|[(_ & -> & path & ty & v & K)|(path & fn & o & r & EP & I & AS & A & K)]].
    - right; right; left. split; [reflexivity|]. exists y. auto.
    - right; left. split; [reflexivity|]. exists path, ty, v. exact K.
    - pose proof (as_rest _ _ _ _ _ _ _ AS) as (OL & OI & OG & OC & OM & ON & OX & OR).
      assert (OS : exists alias, o_store o = Some alias) by (destruct (as_store _ _ _ _ _ _ _ AS) as [(z & _ & _ & Z)|(_ & Z)]; eauto). destruct OS as [alias OS].
      assert (ID : id_of o fresh = fresh) by (unfold id_of; rewrite OI; reflexivity).
      destruct r as [[t0|p]|y].
      + left. destruct K as [K _]. destruct (list_eq_dec (fun a b : entry => ltac:(decide equality; [apply string_dec|decide equality; apply string_dec|apply string_dec])) es [succeeded "create" fresh]) as [Q|Q]; [exact Q|].
        exfalso. unfold add_function in A. destruct (construct _ _ _ _ _ _) as [t|z] eqn:CT; [|discriminate]. destruct (t_fn t) as [g|] eqn:F; [|discriminate]. destruct (add_task _ _ _ _ _ _) as [? [?|?]]; [|discriminate]. injection A as _ <-.
        apply built in CT. destruct CT as (cc & ref & nx & HR & HX & T1 & T2 & T3 & _). apply Q. rewrite K, T1, OI. destruct fn; try reflexivity. cbn in HR. injection HR as <- _. congruence.
      + do 3 right. destruct K as [-> ->]. split; [reflexivity|]. exists path, fn, (p_id p). pose proof (C69_added_as_described _ _ _ _ _ _ _ _ _ R A) as [C _]. auto.
      + right; right; left. destruct K as [-> ->]. split; [reflexivity|]. exists y. split; [reflexivity|]. right. exists path, fn, o, alias. sp; auto.
        pose proof (C69_refused_only_if _ _ _ _ _ _ _ _ _ R A) as C. cbv zeta in C. rewrite OS, ID in C. destruct C as [C|(St & [(-> & _ & C)|[(-> & C)|C]])]; [left; exact C|right; split; [exact St|]..]; auto.
  Qed.
End C81.
Print Assumptions C81_created_as_asked_partial.
Print Assumptions C81_otherwise_nothing.
Print Assumptions C81_why_not.

(** Refuted: "a task recorded as created exists".  A path that names a module attribute which is None (or empty) makes a
    decorator, not a task: nothing is added, the trail records a creation without a task. *)
Definition ex_json (s : string) : result pyval := match s with "[1, 2]"%string => Ok (VList [VInt 1; VInt 2]) | "null"%string => Ok VNone | "3"%string => Ok (VInt 3) | _ => Err ValueError end.
Definition ex_pairs (l : list pyval) : result (dict pyval) := match l with [] => Ok [] | _ => Err ValueError end.
Definition ex_iso (s : string) : option stamp := match s with "2024-01-01T10:00:00+02:00"%string => Some (Aware (8 * 3600 * us) 7200) | "2024-01-01T10:00"%string => Some (Naive (10 * 3600 * us)) | _ => None end.
Definition ex_import (s : string) : result pyval := match s with "app:report"%string => Ok (VFn (MkCallable "report" (Some "app:report"%string) [MkParam "x" PosOrKw false; MkParam "y" PosOrKw false])) | "app:nothing"%string => Ok VNone | _ => Err OtherError end.
Definition ex_defaults : defaults := MkDefaults (Some us) true 1.
Theorem C81_recorded_but_not_created_refuted :
  exists c s form, reachable c s /\ st s = RUNNING /\
    create_post ex_json ex_pairs ex_iso ex_import c 0 ex_defaults (quiet 0) "u1" form s = (s, [MkEntry "task.create" None "succeeded"], None).
Proof.
  exists ex_cfg, ex_state, [("callable_path", "app:nothing")]%string. split; [exists ex_ops; reflexivity|]. split; vm_compute; reflexivity.
Qed.
Print Assumptions C81_recorded_but_not_created_refuted.
(** Refuted: "a form that is refused is recorded as failed".  Arguments that are not JSON are an error page, and not recorded. *)
Theorem C81_bad_json_not_recorded_refuted :
  exists c s form, reachable c s /\ st s = RUNNING /\
    create_post ex_json ex_pairs ex_iso ex_import c 0 ex_defaults (quiet 0) "u1" form s = (s, [], Some ValueError).
Proof.
  exists ex_cfg, ex_state, [("callable_path", "app:report"); ("args", "[1, 2")]%string. split; [exists ex_ops; reflexivity|]. split; vm_compute; reflexivity.
Qed.
Print Assumptions C81_bad_json_not_recorded_refuted.
Example C81_case :
  let go := create_post ex_json ex_pairs ex_iso ex_import ex_cfg 7200 ex_defaults (quiet 0) "u1" in
  match go [("callable_path", " app:report "); ("args", "[1, 2]"); ("trigger_value", "5m"); ("name", "R "); ("kwargs", "null")]%string ex_state with
  | (s', es, x) => es = [succeeded "create" "u1"] /\ x = None /\ option_map t_trigger (stored s' "default" "u1") = Some (TInterval (300 * us) (300 * us) None None) /\
      option_map t_args (stored s' "default" "u1") = Some (VList [VInt 1; VInt 2]) /\ option_map t_name (stored s' "default" "u1") = Some "R "%string /\
      option_map t_next (stored s' "default" "u1") = Some (Some (300 * us))
  end /\
  match go [("callable_path", "app:report"); ("args", "[1, 2]"); ("trigger_type", "Date"); ("trigger_value", "2024-01-01T10:00:00 02:00")]%string ex_state with
  | (s', es, x) => es = [succeeded "create" "u1"] /\ option_map t_trigger (stored s' "default" "u1") = Some (TDate (8 * 3600 * us)) end /\
  go [("callable_path", "app:report"); ("trigger_value", "often")]%string ex_state = (ex_state, [MkEntry "task.create" (Some "app:report"%string) "failed"], None) /\
  go [("callable_path", "app:report"); ("args", "3")]%string ex_state = (ex_state, [], Some TypeError) /\
  snd (go [("callable_path", "app:report"); ("args", "[1, 2]"); ("store", "nowhere")]%string ex_state) = Some KeyError.
Proof. vm_compute. sp; reflexivity. Qed.
