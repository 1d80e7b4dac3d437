(** C79, C80, C81: the dashboard's task pages. *)
From Verif Require Import Prelude PreludeFacts MemStore StoreSpec Text CronParse Forms FormsSpec PropForms PropForms2 PropDash Remote PropRemote CallArgs CallArgsProofs Cron Triggers TriggerSpec TriggersErr Task TaskSpec TaskProofs Scheduler Executor SchedSpec SchedProofs SchedProofs2 SchedReach LifeSpec LifeAcc LifeAll LifeProofs LifeProofs2 PropSched PropLife2 AddTask AddSpec AddProofs CliTask PropTimer PropCliTask TaskPages.
Open Scope Z_scope.
Ltac sp := repeat match goal with |- _ /\ _ => split end.

(** the entries of the audit trail: the action, the task and how it went *)
Definition succeeded (act id : string) : entry := MkEntry ("task." ++ act) (Some id) "succeeded".
Definition failed (act id : string) : entry := MkEntry ("task." ++ act) (Some id) "failed".
Definition warned (act id : string) : entry := MkEntry ("task." ++ act) (Some id) "warning".
(** what each button is called there *)
Definition action_name (b : button) : string := match b with BRun => "run" | BPause => "pause" | BResume => "resume" | BRemove => "remove" end.

(** ** specification of the edit page *)
(** the text of a field of the form; a field that was not sent is empty *)
Definition field (form : dict string) (k : string) : string := match dget k form with Some v => v | None => EmptyString end.
Definition sent (form : dict string) (k : string) : Prop := exists v, dget k form = Some v.
(** a field that is blank *)
Definition blank_field (form : dict string) (k : string) : Prop := strip (field form k) = ""%string.
(** what JSON an argument field stands for: blank is [d] *)
Definition json_text (form : dict string) (k d x : string) : Prop := (blank_field form k /\ x = d) \/ (~ blank_field form k /\ x = strip (field form k)).

(** the form asks for [t'] instead of [t] *)
Record edited (loads : string -> result pyval) (seconds : string -> option Z) (env : tenv) (form : dict string) (t t' : task) : Prop := {
  ed_same : t_id t' = t_id t /\ t_trigger t' = t_trigger t /\ t_next t' = t_next t /\ t_store t' = t_store t /\ t_pending t' = t_pending t /\ t_submitted t' = t_submitted t;
  ed_name : ~ blank_field form "name" -> t_name t' = strip (field form "name");
  ed_no_name : blank_field form "name" -> (t_name t = ""%string \/ ~ sent form "name") /\
               (t_name t' = t_name t \/ (t_name t = ""%string /\ exists f, t_fn t' = Some f /\ t_name t' = c_name f));
  ed_callable : ~ blank_field form "callable_path" -> exists f, resolve env (strip (field form "callable_path")) = Ok f /\ t_fn t' = Some f /\ t_ref t' = Some (strip (field form "callable_path"));
  ed_no_callable : blank_field form "callable_path" -> (t_ref t = None \/ t_ref t = Some ""%string) /\ t_fn t' = t_fn t /\ t_ref t' = match t_fn t with Some f => c_ref f | None => None end;
  ed_executor : ~ blank_field form "executor" /\ t_exec t' = Some (strip (field form "executor"));
  ed_args : exists x l, json_text form "args" "[]" x /\ loads x = Ok (VList l) /\ t_args t' = VList l;
  ed_kwargs : exists x d, json_text form "kwargs" "{}" x /\ loads x = Ok (VDict d) /\ t_kwargs t' = VDict d;
  ed_coalesce : says (t_coalesce t') (field form "coalesce");
  ed_max : int_text (field form "max_instances") (t_max t') /\ 0 < t_max t';
  ed_grace_none : sent form "clear_mistrigger_grace_time" \/ blank_field form "mistrigger_grace_time" -> t_grace t' = None;
  ed_grace : ~ sent form "clear_mistrigger_grace_time" -> ~ blank_field form "mistrigger_grace_time" ->
             exists m, seconds (strip (field form "mistrigger_grace_time")) = Some m /\ 0 < m /\ t_grace t' = Some m;
  ed_fits : fits (t_fn t') (t_args t') (t_kwargs t') }.
(** the fields that cannot be used *)
Inductive bad_field (loads : string -> result pyval) (seconds : string -> option Z) (form : dict string) (t : task) : string -> Prop :=
| bad_name : blank_field form "name" -> sent form "name" -> t_name t <> ""%string -> bad_field loads seconds form t "name"
| bad_callable r : blank_field form "callable_path" -> t_ref t = Some r -> r <> ""%string -> bad_field loads seconds form t "callable_path"
| bad_executor : blank_field form "executor" -> bad_field loads seconds form t "executor"
| bad_args x : json_text form "args" "[]" x -> (forall l, loads x <> Ok (VList l)) -> bad_field loads seconds form t "args"
| bad_kwargs x : json_text form "kwargs" "{}" x -> (forall d, loads x <> Ok (VDict d)) -> bad_field loads seconds form t "kwargs"
| bad_coalesce : (forall b, ~ says b (field form "coalesce")) -> bad_field loads seconds form t "coalesce"
| bad_max : (forall n, int_text (field form "max_instances") n -> n <= 0) -> bad_field loads seconds form t "max_instances"
| bad_grace : ~ sent form "clear_mistrigger_grace_time" -> ~ blank_field form "mistrigger_grace_time" ->
              (forall m, seconds (strip (field form "mistrigger_grace_time")) = Some m -> m <= 0) -> bad_field loads seconds form t "mistrigger_grace_time".
(** "apply", in any case and with blanks around *)
Definition asks_apply (form : dict string) : Prop := lower (strip (field form "intent")) = "apply"%string.

(** ** proofs *)
Lemma strip_idem s : strip (strip s) = strip s.
Proof. destruct (strip_split s) as (p & q & P & Q & E). rewrite E at 2. rewrite strip_strip; auto. Qed.
Lemma lower_lower s : lower (lower s) = lower s.
Proof. induction s as [|a s IH]; cbn; auto. rewrite IH. f_equal. destruct a as [[] [] [] [] [] [] [] []]; reflexivity. Qed.
Lemma posted_field form k : posted form k = strip (field form k).
Proof. reflexivity. Qed.
Lemma says_posted b s : says b (lower (strip s)) <-> says b s.
Proof. unfold says. rewrite lower_strip, strip_idem, lower_lower. tauto. Qed.
Lemma dmem_sent k form : dmem k form = true <-> sent form k.
Proof. unfold sent, dmem. destruct (dget k form); split; eauto; try discriminate. intros [v H]; discriminate. Qed.
Lemma coalesce_iff x b : parse_coalesce (Some x) = Ok (Some b) <-> says b x.
Proof.
  split; [apply coalesce_says|]. unfold parse_coalesce, says. cbv zeta. intros H. destruct b.
  - apply mem_In in H. rewrite H. reflexivity.
  - destruct (mem (lower (strip x)) ["1"; "true"; "yes"; "on"]%string) eqn:M; [|apply mem_In in H; rewrite H; reflexivity].
    exfalso. apply mem_In in M. cbn in M, H. intuition congruence.
Qed.
Lemma coalesce_shape x : parse_coalesce (Some x) <> Ok None.
Proof. unfold parse_coalesce. cbv zeta. destruct (mem _ _); [discriminate|]. destruct (mem _ _); discriminate. Qed.

Section Edit.
  Variable loads : string -> result pyval.
  Variable dumps : pyval -> result string.
  Variable seconds : string -> option Z.
  Variable show_seconds : Z -> string.
  Variable same : pyval -> pyval -> bool.

  Lemma or_text_json form k d : json_text form k d (or_text (posted form k) d) /\ (forall x, json_text form k d x -> x = or_text (posted form k) d).
  Proof.
    unfold or_text, json_text, blank_field. rewrite posted_field. destruct (String.eqb_spec (strip (field form k)) "") as [E|E]; split; auto; intros x [[A B]|[A B]]; congruence.
  Qed.
  Lemma name_part_spec form t : match name_part form t with
    | Ok (Some v) => ~ blank_field form "name" /\ v = VStr (strip (field form "name"))
    | Ok None => blank_field form "name" /\ (t_name t = ""%string \/ ~ sent form "name")
    | Err _ => bad_field loads seconds form t "name" end.
  Proof.
    unfold name_part, blank_field. rewrite posted_field. destruct (String.eqb_spec (strip (field form "name")) "") as [E|E]; cbn [negb]; [|auto].
    destruct (String.eqb_spec (t_name t) "") as [N|N]; cbn [negb andb]; [auto|]. pose proof (dmem_sent "name" form) as M. destruct (dmem "name" form).
    - apply bad_name; [exact E|apply M; reflexivity|exact N].
    - split; [exact E|]. right. intros X. apply M in X. discriminate.
  Qed.
  Lemma callable_part_spec form t : match callable_part form t with
    | Ok (Some v) => ~ blank_field form "callable_path" /\ v = VStr (strip (field form "callable_path"))
    | Ok None => blank_field form "callable_path" /\ (t_ref t = None \/ t_ref t = Some ""%string)
    | Err _ => bad_field loads seconds form t "callable_path" end.
  Proof.
    unfold callable_part, blank_field. rewrite posted_field. destruct (String.eqb_spec (strip (field form "callable_path")) "") as [E|E]; cbn [negb]; [|auto].
    destruct (t_ref t) as [[|a r]|] eqn:R; [auto| |auto]. eapply bad_callable; [exact E|exact R|discriminate].
  Qed.
  Lemma executor_part_spec form t : match executor_part form with
    | Ok (Some v) => ~ blank_field form "executor" /\ v = VStr (strip (field form "executor"))
    | Ok None => False
    | Err _ => bad_field loads seconds form t "executor" end.
  Proof.
    unfold executor_part, blank_field. rewrite posted_field. destruct (String.eqb_spec (strip (field form "executor")) "") as [E|E]; cbn [negb]; [|auto]. apply bad_executor. exact E.
  Qed.
  Lemma args_part_spec form t : match args_part loads form with
    | Ok (Some v) => exists x l, json_text form "args" "[]" x /\ loads x = Ok (VList l) /\ v = VList l
    | Ok None => False
    | Err _ => bad_field loads seconds form t "args" end.
  Proof.
    unfold args_part. destruct (or_text_json form "args" "[]") as [J _]. destruct (loads (or_text (posted form "args") "[]")) as [[]|] eqn:L;
      try (eapply bad_args; [exact J|intros l0 X; rewrite L in X; discriminate]). eexists _, _. split; [exact J|]. split; [exact L|reflexivity].
  Qed.
  Lemma kwargs_part_spec form t : match kwargs_part loads form with
    | Ok (Some v) => exists x d, json_text form "kwargs" "{}" x /\ loads x = Ok (VDict d) /\ v = VDict d
    | Ok None => False
    | Err _ => bad_field loads seconds form t "kwargs" end.
  Proof.
    unfold kwargs_part. destruct (or_text_json form "kwargs" "{}") as [J _]. destruct (loads (or_text (posted form "kwargs") "{}")) as [[]|] eqn:L;
      try (eapply bad_kwargs; [exact J|intros l0 X; rewrite L in X; discriminate]). eexists _, _. split; [exact J|]. split; [exact L|reflexivity].
  Qed.
  Lemma coalesce_part_spec form t : match coalesce_part form with
    | Ok (Some v) => exists b, v = VBool b /\ says b (field form "coalesce")
    | Ok None => False
    | Err _ => bad_field loads seconds form t "coalesce" end.
  Proof.
    unfold coalesce_part. rewrite posted_field. destruct (parse_coalesce (Some (lower (strip (field form "coalesce"))))) as [[b|]|e] eqn:P.
    - exists b. split; [reflexivity|]. apply says_posted, coalesce_iff. exact P.
    - exfalso. exact (coalesce_shape _ P).
    - apply bad_coalesce. intros b S. apply says_posted, coalesce_iff in S. congruence.
  Qed.
  Lemma max_part_spec form t : match max_part form with
    | Ok (Some v) => exists n, v = VInt n /\ int_text (field form "max_instances") n /\ 0 < n
    | Ok None => False
    | Err _ => bad_field loads seconds form t "max_instances" end.
  Proof.
    unfold max_part. rewrite posted_field.
    assert (I : forall n, py_int (strip (field form "max_instances")) = Some n <-> int_text (field form "max_instances") n).
    { intros n. rewrite <- py_int_iff. unfold py_int. rewrite strip_idem. tauto. }
    destruct (py_int (strip (field form "max_instances"))) as [n|] eqn:P.
    - destruct (Z.leb_spec n 0).
      + apply bad_max. intros m M. apply I in M. injection M as <-. assumption.
      + exists n. split; [reflexivity|]. split; [apply I; reflexivity|assumption].
    - apply bad_max. intros m M. apply I in M. discriminate.
  Qed.
  Lemma grace_part_spec form t : match grace_part seconds form with
    | Ok (Some VNone) => sent form "clear_mistrigger_grace_time" \/ blank_field form "mistrigger_grace_time"
    | Ok (Some v) => ~ sent form "clear_mistrigger_grace_time" /\ ~ blank_field form "mistrigger_grace_time" /\
        exists m, seconds (strip (field form "mistrigger_grace_time")) = Some m /\ 0 < m /\ number v m
    | Ok None => False
    | Err _ => bad_field loads seconds form t "mistrigger_grace_time" end.
  Proof.
    unfold grace_part, blank_field. rewrite posted_field. pose proof (dmem_sent "clear_mistrigger_grace_time" form) as M. destruct (dmem "clear_mistrigger_grace_time" form); [left; apply M; reflexivity|].
    assert (NS : ~ sent form "clear_mistrigger_grace_time") by (intros X; apply M in X; discriminate).
    destruct (String.eqb_spec (strip (field form "mistrigger_grace_time")) "") as [E|E]; [right; exact E|].
    destruct (seconds (strip (field form "mistrigger_grace_time"))) as [m|] eqn:S.
    - destruct (Z.leb_spec m 0).
      + apply bad_grace; [exact NS|exact E|]. intros m' M'. rewrite S in M'. injection M' as <-. assumption.
      + destruct (Z.eqb_spec (m mod us) 0) as [D|D]; (split; [exact NS|]; split; [exact E|]); exists m; (split; [reflexivity|]; split; [assumption|]); cbn [number]; [|reflexivity].
        unfold us in *. pose proof (Z.div_mod m 1000000 ltac:(lia)). lia.
    - apply bad_grace; [exact NS|exact E|]. intros m' M'. congruence.
  Qed.

  (** the errors are exactly the fields that cannot be used *)
  Lemma edit_errors_spec form t k : In k (edit_errors loads seconds form t) <-> bad_field loads seconds form t k.
  Proof.
    unfold edit_errors, errors_of. cbn [flat_map fst snd]. rewrite !app_nil_r.
    pose proof (name_part_spec form t) as P1. pose proof (callable_part_spec form t) as P2. pose proof (executor_part_spec form t) as P3. pose proof (args_part_spec form t) as P4.
    pose proof (kwargs_part_spec form t) as P5. pose proof (coalesce_part_spec form t) as P6. pose proof (max_part_spec form t) as P7. pose proof (grace_part_spec form t) as P8.
    rewrite !in_app_iff. split.
    - intros H. repeat destruct H as [H|H]; match type of H with In _ (match ?p with _ => _ end) => destruct p; [destruct H|destruct H as [<-|[]]; assumption] end.
    - intros H. inversion H; subst.
      + left. destruct (name_part form t) as [[v|]|]; [destruct P1; contradiction|destruct P1 as [_ [X|X]]; contradiction|left; reflexivity].
      + right; left. destruct (callable_part form t) as [[v|]|]; [destruct P2; contradiction|destruct P2 as [_ [X|X]]; congruence|left; reflexivity].
      + do 2 right; left. destruct (executor_part form) as [[v|]|]; [destruct P3; contradiction|contradiction|left; reflexivity].
      + do 3 right; left. destruct (args_part loads form) as [[v|]|]; [|contradiction|left; reflexivity]. destruct P4 as (y & l & J & L & _).
        rewrite (proj2 (or_text_json form "args" "[]") _ J), <- (proj2 (or_text_json form "args" "[]") _ H0) in L. destruct (H1 _ L).
      + do 4 right; left. destruct (kwargs_part loads form) as [[v|]|]; [|contradiction|left; reflexivity]. destruct P5 as (y & l & J & L & _).
        rewrite (proj2 (or_text_json form "kwargs" "{}") _ J), <- (proj2 (or_text_json form "kwargs" "{}") _ H0) in L. destruct (H1 _ L).
      + do 5 right; left. destruct (coalesce_part form) as [[v|]|]; [|contradiction|left; reflexivity]. destruct P6 as (b & _ & S). destruct (H0 b S).
      + do 6 right; left. destruct (max_part form) as [[v|]|]; [|contradiction|left; reflexivity]. destruct P7 as (n & _ & I & L). specialize (H0 n I). lia.
      + do 7 right. destruct (grace_part seconds form) as [[v|]|]; [|contradiction|left; reflexivity]. exfalso.
        destruct v; try (destruct P8 as (_ & _ & m0 & S & L & _); specialize (H2 m0 S); lia). destruct P8; contradiction.
  Qed.

  (** without errors, what is asked of the task is what the form says *)
  Lemma edit_asks form t : edit_errors loads seconds form t = [] ->
    NoDup (dkeys (edit_updates loads seconds form t)) /\
    forall env t' self, applied env t self (edit_fn form t) (edit_updates loads seconds form t) t' -> edited loads seconds env form t t'.
  Proof.
    intros NE.
    assert (NB : forall k, ~ bad_field loads seconds form t k) by (intros k B; apply edit_errors_spec in B; rewrite NE in B; destruct B).
    pose proof (name_part_spec form t) as P1. pose proof (callable_part_spec form t) as P2. pose proof (executor_part_spec form t) as P3. pose proof (args_part_spec form t) as P4.
    pose proof (kwargs_part_spec form t) as P5. pose proof (coalesce_part_spec form t) as P6. pose proof (max_part_spec form t) as P7. pose proof (grace_part_spec form t) as P8.
    unfold edit_fn, edit_updates. split.
    { apply present_NoDup. cbn. repeat (constructor; [cbn; intuition discriminate|]). constructor. }
    intros env t' self A.
    destruct (executor_part form) as [[vx|]|]; [|contradiction|exfalso; eapply NB; exact P3].
    destruct (args_part loads form) as [[va|]|]; [|contradiction|exfalso; eapply NB; exact P4].
    destruct (kwargs_part loads form) as [[vk|]|]; [|contradiction|exfalso; eapply NB; exact P5].
    destruct (coalesce_part form) as [[vc|]|]; [|contradiction|exfalso; eapply NB; exact P6].
    destruct (max_part form) as [[vm|]|]; [|contradiction|exfalso; eapply NB; exact P7].
    destruct (grace_part seconds form) as [[vg|]|]; [|contradiction|exfalso; eapply NB; exact P8].
    destruct (name_part form t) as [on|]; [|exfalso; eapply NB; exact P1].
    destruct (callable_part form t) as [oc|]; [|exfalso; eapply NB; exact P2].
    cbn [value_of] in A.
    set (l := [("name", on); ("executor", Some vx); ("args", Some va); ("kwargs", Some vk); ("coalesce", Some vc); ("max_instances", Some vm); ("mistrigger_grace_time", Some vg)]%string) in *.
    set (fn := match oc with Some v => v | None => VNone end) in *.
    unfold applied, given, not_given in A.
    destruct A as (A1 & A2 & A3 & _ & G1 & G2 & C1 & C2 & _ & S2 & X1 & X2 & M1 & M2 & _ & T2 & _ & N2 & F1 & F2 & NM1 & NM2 & _).
    rewrite !dget_present in *.
    assert (K1 : look "name" l = on) by (cbn; destruct on; reflexivity).
    change (look "executor" l) with (Some vx) in *. change (look "coalesce" l) with (Some vc) in *. change (look "max_instances" l) with (Some vm) in *.
    change (look "mistrigger_grace_time" l) with (Some vg) in *. change (look "store_alias" l) with (@None pyval) in *. change (look "trigger" l) with (@None pyval) in *.
    change (look "next_run_time" l) with (@None pyval) in *. rewrite K1 in *.
    assert (TC : touches_call fn (present l)) by (right; left; exists va; unfold given; rewrite dget_present; reflexivity).
    destruct (F1 TC) as (NC & VA & VK & FT). clear F1 F2. unfold value_or, given, not_given in VA, VK. rewrite !dget_present in VA, VK.
    change (look "args" l) with (Some va) in VA. change (look "kwargs" l) with (Some vk) in VK.
    assert (EA : t_args t' = va) by (destruct VA as [[= <-]|[B _]]; [reflexivity|discriminate]). assert (EK : t_kwargs t' = vk) by (destruct VK as [[= <-]|[B _]]; [reflexivity|discriminate]).
    clearbody l. constructor.
    - sp; auto.
    - intros NB1. destruct on as [v|]; [|destruct P1; contradiction]. destruct P1 as [_ ->]. destruct (NM1 _ eq_refl ltac:(discriminate)) as (s & [= <-] & _ & B). exact B.
    - intros B. destruct on as [v|]; [destruct P1; contradiction|]. destruct P1 as [_ P1]. split; [exact P1|]. destruct (NM2 (or_introl eq_refl)) as [E|(E & _ & f & F & G & _)]; [auto|]. right. eauto.
    - intros NB1. destruct oc as [v|]; [|destruct P2; contradiction]. destruct P2 as [_ ->]. unfold fn in NC. unfold new_callable in NC. cbn [truthy] in NC.
      unfold blank_field in NB1. destruct (String.eqb_spec (strip (field form "callable_path")) ""); [contradiction|]. cbn in NC. destruct NC as (cc & B & C & D). eauto.
    - intros B. destruct oc as [v|]; [destruct P2; contradiction|]. destruct P2 as [_ P2]. unfold fn, new_callable in NC. cbn [truthy] in NC. split; [exact P2|exact NC].
    - destruct P3 as [NB1 ->]. split; [exact NB1|]. destruct (X1 _ eq_refl) as (s & [= <-] & B). exact B.
    - destruct P4 as (x & l0 & J & L & ->). exists x, l0. auto.
    - destruct P5 as (x & l0 & J & L & ->). exists x, l0. auto.
    - destruct P6 as (b & -> & S). rewrite (C1 _ eq_refl). exact S.
    - destruct P7 as (n & -> & I & L). destruct (M1 _ eq_refl) as (y & B & C & D). cbn in B. rewrite D, B. auto.
    - intros NS. destruct (G1 _ eq_refl) as [[_ B]|(x & B & C & D)]; [exact B|]. destruct vg; try (destruct P8 as (N1' & N2' & _); destruct NS; contradiction). destruct B.
    - intros NS NB1. destruct (G1 _ eq_refl) as [[-> B]|(x & B & C & D)]; [destruct P8; contradiction|]. destruct vg; cbn [number] in B; try contradiction.
      all: destruct P8 as (_ & _ & m0 & S & L & NM); cbn in NM; exists m0; split; [exact S|]; split; [exact L|]; rewrite D; f_equal; congruence.
    - rewrite EA, EK in *. exact FT.
  Qed.

  Lemma intent_iff form : String.eqb (lower (strip (match dget "intent" form with Some v => v | None => "preview"%string end))) "apply" = true <-> asks_apply form.
  Proof.
    unfold asks_apply, field. rewrite String.eqb_eq. destruct (dget "intent" form); [tauto|]. split; [intros H; vm_compute in H; discriminate|intros H; vm_compute in H; discriminate].
  Qed.
  Lemma render_page p : (exists k b x, In (k, (b, x)) (p_diff p) /\ (is_ok (dumps b) = false \/ is_ok (dumps x) = false)) /\ render dumps p = Escaped TypeError \/ render dumps p = Page p.
  Proof.
    unfold render. destruct (forallb _ (p_diff p)) eqn:F; [auto|]. left. split; [|reflexivity].
    assert (H : exists d, In d (p_diff p) /\ dumpable dumps (fst (snd d)) && dumpable dumps (snd (snd d)) = false).
    { revert F. generalize (p_diff p). induction l as [|d l IH]; cbn [forallb]; [discriminate|]. destruct (dumpable dumps (fst (snd d)) && dumpable dumps (snd (snd d))) eqn:D; intros F.
      - destruct (IH F) as (d' & I & D'). exists d'. cbn. auto.
      - exists d. cbn. auto. }
    destruct H as ([k [b x]] & I & D). exists k, b, x. split; [exact I|]. unfold dumpable in D. cbn in D. apply andb_false_iff in D. exact D.
  Qed.

  (** C79.  The edit page changes nothing it does not record: unless the audit trail gets a "succeeded" entry (a preview,
      a refusal, an unknown task, an edit that makes no difference), the scheduler is as it was. *)
  Theorem C79_nothing_unless_recorded :
    forall (c : config) (form : dict string) (id : string) (s s' : sched) (es : list entry) (pg : page),
      reachable c s -> edit_post loads dumps seconds show_seconds same c form id s = (s', es, pg) -> ~ In (succeeded "update" id) es -> s' = s.
  Proof.
    intros c form id s s' es pg R H NI. unfold edit_post in H. destruct (lookup_task id None s) as [[t w]|e]; [|congruence]. cbv zeta in H.
    destruct (edit_errors loads seconds form t) as [|k l]; [|congruence].
    destruct (update_task (c_tenv c) t (Some (c_self c)) (edit_fn form t) (edit_updates loads seconds form t)) as [t1 [u|e]]; [|congruence].
    destruct (negb _ || negb _); [congruence|].
    destruct (update c id w (edit_fn form t) (edit_updates loads seconds form t) s) as [s1 [t'|e]] eqn:UP; injection H as <- <- <-; [destruct NI; left; reflexivity|].
    destruct (stopped s) eqn:ST.
    - pose proof (update_stopped _ _ _ _ _ _ _ _ ST UP) as K. cbn in K. apply K.
    - destruct (update_running _ _ _ _ _ _ _ _ (reachable_wf _ _ R) ST UP) as [_ K]. cbn in K. apply K.
  Qed.
  (** No such task: the page says so (404) and the attempt is recorded; and only then. *)
  Theorem C79_unknown_task :
    forall (c : config) (form : dict string) (id : string) (s s' : sched) (es : list entry) (pg : page),
      reachable c s -> st s <> STOPPED -> edit_post loads dumps seconds show_seconds same c form id s = (s', es, pg) ->
      (pg = NotFound <-> forall a, stored s a id = None) /\ (pg = NotFound -> s' = s /\ es = [failed "update" id]).
  Proof.
    intros c form id s s' es pg R St H. unfold edit_post in H.
    pose proof (lookup_running id None s (reachable_wf _ _ R) (not_stopped _ St)) as L. destruct (lookup_task id None s) as [[t w]|e].
    2:{ injection H as <- <- <-. split; [|auto]. split; [|auto]. intros _ a. apply L. reflexivity. }
    destruct L as (a & -> & Wa & Sa & Ia). cbv zeta in H.
    assert (NP : pg <> NotFound).
    { assert (NR : forall p, render dumps p <> NotFound) by (intros p; destruct (render_page p) as [[_ ->]| ->]; discriminate).
      destruct (edit_errors loads seconds form t) as [|k l]; [|injection H as <- <- <-; apply NR].
      destruct (update_task (c_tenv c) t (Some (c_self c)) (edit_fn form t) (edit_updates loads seconds form t)) as [t1 [u|e]]; [|injection H as <- <- <-; apply NR].
      destruct (negb _ || negb _); [injection H as <- <- <-; apply NR|].
      destruct (update c id (Some a) (edit_fn form t) (edit_updates loads seconds form t) s) as [s1 [t'|e]]; injection H as <- <- <-; [|discriminate].
      destruct (edit_form dumps show_seconds t') as [f|x] eqn:EF; [apply NR|discriminate]. }
    split; [|intros X; contradiction]. split; [intros X; contradiction|]. intros X. rewrite X in Sa. discriminate.
  Qed.
  (** An edit that is refused (400) changes nothing and is recorded; its messages name exactly the fields that cannot be
      used, or, when every field can, the change as a whole is one the task does not accept. *)
  Theorem C79_refused :
    forall (c : config) (form : dict string) (id : string) (s s' : sched) (es : list entry) (p : shown),
      reachable c s -> st s <> STOPPED -> edit_post loads dumps seconds show_seconds same c form id s = (s', es, Page p) -> p_status p = 400 ->
      s' = s /\ es = [failed "update" id] /\ p_applied p = false /\ p_diff p = [] /\ p_errors p <> [] /\
      exists a t, stored s a id = Some t /\
        ((forall k, In k (p_errors p) <-> bad_field loads seconds form t k) \/
         (p_errors p = ["update"%string] /\ (forall k, ~ bad_field loads seconds form t k) /\ invalid (c_tenv c) t (Some (c_self c)) (edit_fn form t) (edit_updates loads seconds form t))).
  Proof.
    intros c form id s s' es p R St H P4. unfold edit_post in H.
    pose proof (lookup_running id None s (reachable_wf _ _ R) (not_stopped _ St)) as L. destruct (lookup_task id None s) as [[t w]|e]; [|congruence].
    destruct L as (a & -> & Wa & Sa & Ia). cbv zeta in H. pose proof (edit_errors_spec form t) as EE.
    destruct (edit_errors loads seconds form t) as [|k l] eqn:ER.
    2:{ unfold render in H. cbn [p_diff forallb] in H. injection H as <- <- <-. cbn. sp; auto; [discriminate|]. exists a, t. split; [exact Sa|left; exact EE]. }
    destruct (edit_asks form t ER) as [ND _].
    destruct (update_task (c_tenv c) t (Some (c_self c)) (edit_fn form t) (edit_updates loads seconds form t)) as [t1 [u|e]] eqn:UT.
    - exfalso. assert (NR : forall d b q, render dumps (MkShown 200 d [] b) = Page q -> p_status q = 200).
      { intros d b q. destruct (render_page (MkShown 200 d [] b)) as [[_ ->]| ->]; [discriminate|]. intros [= <-]. reflexivity. }
      destruct (negb _ || negb _); [injection H as _ _ H; apply NR in H; lia|].
      destruct (update c id (Some a) (edit_fn form t) (edit_updates loads seconds form t) s) as [s1 [t'|e]]; [|discriminate].
      destruct (edit_form dumps show_seconds t') as [f|x]; [injection H as _ _ H; apply NR in H; lia|discriminate].
    - unfold render in H. cbn [p_diff forallb] in H. injection H as <- <- <-. cbn. sp; auto; [discriminate|]. exists a, t. split; [exact Sa|]. right. split; [reflexivity|]. split.
      + intros k B. apply EE in B. destruct B.
      + eapply update_rejects_invalid; eauto.
  Qed.
  (** Otherwise (200) it shows the differences between the task and the task the form asks for; it applies them exactly when
      the form's button says so and there are any, and records it. *)
  Theorem C79_shown_as_asked :
    forall (c : config) (form : dict string) (id : string) (s s' : sched) (es : list entry) (p : shown),
      reachable c s -> st s <> STOPPED -> edit_post loads dumps seconds show_seconds same c form id s = (s', es, Page p) -> p_status p <> 400 ->
      p_status p = 200 /\ p_errors p = [] /\
      exists a t t', stored s a id = Some t /\ edited loads seconds (c_tenv c) form t t' /\ truthful same (p_diff p) t t' /\
        (p_applied p = true <-> asks_apply form /\ p_diff p <> []) /\ es = (if p_applied p then [succeeded "update" id] else []).
  Proof.
    intros c form id s s' es p R St H P4. unfold edit_post in H.
    pose proof (lookup_running id None s (reachable_wf _ _ R) (not_stopped _ St)) as L. destruct (lookup_task id None s) as [[t w]|e]; [|congruence].
    destruct L as (a & -> & Wa & Sa & Ia). cbv zeta in H.
    assert (NR : forall q q', render dumps q = Page q' -> q' = q) by (intros q q'; destruct (render_page q) as [[_ ->]| ->]; congruence).
    destruct (edit_errors loads seconds form t) as [|k l] eqn:ER; [|injection H as _ _ H; first [apply NR in H|symmetry in H]; subst p; cbn in P4; lia].
    destruct (edit_asks form t ER) as [ND AS].
    destruct (update_task (c_tenv c) t (Some (c_self c)) (edit_fn form t) (edit_updates loads seconds form t)) as [t1 [u|e]] eqn:UT; [|injection H as _ _ H; first [apply NR in H|symmetry in H]; subst p; cbn in P4; lia].
    pose proof (update_spec _ _ _ _ _ _ _ ND UT) as AP. cbn in AP. apply AS in AP. pose proof (diff_truthful loads same t t1) as DT. pose proof (intent_iff form) as II.
    set (diff := build_diff same (snapshot t) (snapshot t1)) in *. clearbody diff.
    destruct (String.eqb _ "apply"); cbn [negb orb] in H.
    2:{ injection H as <- <- H. first [apply NR in H|symmetry in H]. subst p. cbn. sp; auto. exists a, t, t1. sp; auto. split; [discriminate|]. intros [X _]. apply II in X. discriminate. }
    destruct diff as [|d l]; cbn [nonempty negb] in H.
    { injection H as <- <- H. first [apply NR in H|symmetry in H]. subst p. cbn. sp; auto. exists a, t, t1. sp; auto. split; [discriminate|]. intros [_ X]. congruence. }
    destruct (update c id (Some a) (edit_fn form t) (edit_updates loads seconds form t) s) as [s1 [t'|e]]; [|discriminate].
    destruct (edit_form dumps show_seconds t') as [f|x]; [|discriminate]. injection H as <- <- H. first [apply NR in H|symmetry in H]. subst p. cbn. sp; auto. exists a, t, t1. sp; auto.
    split; [|auto]. intros _. split; [apply II; reflexivity|discriminate].
  Qed.
  (** What it records as applied was applied: the running scheduler then holds, in the same store, the task asked for
      instead, one TASK_MODIFIED event was sent and nothing else changed.  The page shows it, unless the task has
      arguments that JSON cannot show. *)
  Theorem C79_applied_as_shown :
    forall (c : config) (form : dict string) (id : string) (s s' : sched) (es : list entry) (pg : page),
      reachable c s -> st s <> STOPPED -> edit_post loads dumps seconds show_seconds same c form id s = (s', es, pg) -> In (succeeded "update" id) es ->
      es = [succeeded "update" id] /\ asks_apply form /\
      exists a t t', stored s a id = Some t /\ edited loads seconds (c_tenv c) form t t' /\ only a id (Some t') s s' /\ rest_same s s' /\ evs s' = evs s ++ [task_event TASK_MODIFIED id (Some a)] /\
        ((exists p, pg = Page p /\ p_status p = 200 /\ p_applied p = true /\ p_errors p = [] /\ p_diff p <> [] /\ truthful same (p_diff p) t t') \/ pg = Escaped TypeError).
  Proof.
    intros c form id s s' es pg R St H IN. unfold edit_post in H.
    pose proof (lookup_running id None s (reachable_wf _ _ R) (not_stopped _ St)) as L. destruct (lookup_task id None s) as [[t w]|e]; [|injection H as <- <- <-; destruct IN as [X|[]]; discriminate].
    destruct L as (a & -> & Wa & Sa & Ia). cbv zeta in H.
    destruct (edit_errors loads seconds form t) as [|k l] eqn:ER; [|injection H as <- <- <-; destruct IN as [X|[]]; discriminate].
    destruct (edit_asks form t ER) as [ND AS].
    destruct (update_task (c_tenv c) t (Some (c_self c)) (edit_fn form t) (edit_updates loads seconds form t)) as [t1 [u|e]] eqn:UT; [|injection H as <- <- <-; destruct IN as [X|[]]; discriminate].
    pose proof (update_spec _ _ _ _ _ _ _ ND UT) as AP. cbn in AP. apply AS in AP. pose proof (diff_truthful loads same t t1) as DT. pose proof (intent_iff form) as II.
    set (diff := build_diff same (snapshot t) (snapshot t1)) in *. clearbody diff.
    destruct (String.eqb _ "apply"); cbn [negb orb] in H; [|injection H as <- <- <-; destruct IN].
    destruct diff as [|d l]; cbn [nonempty negb] in H; [injection H as <- <- <-; destruct IN|].
    destruct (update c id (Some a) (edit_fn form t) (edit_updates loads seconds form t) s) as [s1 [t'|e]] eqn:UP; injection H as <- <- <-; [|destruct IN].
    destruct (update_running _ _ _ _ _ _ _ _ (reachable_wf _ _ R) (not_stopped _ St) UP) as [RS (a' & t0 & W' & S' & I' & _ & U' & O' & E' & _)].
    assert (a' = a) as -> by (unfold wanted in W'; apply String.eqb_eq in W'; auto). assert (t0 = t) as -> by congruence. assert (t1 = t') as -> by congruence.
    split; [reflexivity|]. split; [apply II; reflexivity|]. exists a, t, t'. sp; auto.
    destruct (edit_form dumps show_seconds t') as [f|x] eqn:EF.
    - destruct (render_page (MkShown 200 (d :: l) [] true)) as [[_ ->]| ->]; [auto|]. left. eexists. split; [reflexivity|]. cbn. sp; auto. discriminate.
    - right. unfold edit_form in EF. destruct (dumps (elements (t_args t'))); [destruct (dumps (t_kwargs t')); congruence|congruence].
  Qed.
  (** The only page that is not shown: some argument of the task, before or after, cannot be written as JSON. *)
  Theorem C79_escapes_only_if :
    forall (c : config) (form : dict string) (id : string) (s s' : sched) (es : list entry) (x : exn),
      reachable c s -> st s <> STOPPED -> edit_post loads dumps seconds show_seconds same c form id s = (s', es, Escaped x) ->
      x = TypeError /\ exists a t t' k v, stored s a id = Some t /\ edited loads seconds (c_tenv c) form t t' /\
        (shows t k v \/ shows t' k v) /\ is_ok (dumps v) = false.
  Proof.
    intros c form id s s' es x R St H. unfold edit_post in H.
    pose proof (lookup_running id None s (reachable_wf _ _ R) (not_stopped _ St)) as L. destruct (lookup_task id None s) as [[t w]|e]; [|discriminate].
    destruct L as (a & -> & Wa & Sa & Ia). cbv zeta in H.
    destruct (edit_errors loads seconds form t) as [|k l] eqn:ER; [|unfold render in H; cbn [p_diff forallb] in H; discriminate].
    destruct (edit_asks form t ER) as [ND AS].
    destruct (update_task (c_tenv c) t (Some (c_self c)) (edit_fn form t) (edit_updates loads seconds form t)) as [t1 [u|e]] eqn:UT; [|unfold render in H; cbn [p_diff forallb] in H; discriminate].
    pose proof (update_spec _ _ _ _ _ _ _ ND UT) as AP. cbn in AP. apply AS in AP.
    assert (NR : forall b y, render dumps (MkShown 200 (build_diff same (snapshot t) (snapshot t1)) [] b) = Escaped y -> y = TypeError /\ exists k v, (shows t k v \/ shows t1 k v) /\ is_ok (dumps v) = false).
    { intros b y HR. destruct (render_page (MkShown 200 (build_diff same (snapshot t) (snapshot t1)) [] b)) as [[(k & v & v' & I & Q) HR2]|HR2]; [|congruence]. split; [congruence|].
      cbn [p_diff] in I. apply (proj1 (diff_truthful loads same t t1)) in I. destruct I as (I1 & I2 & _). destruct Q as [Q|Q]; [exists k, v|exists k, v']; auto. }
    destruct (negb _ || negb _).
    { injection H as _ _ H. apply NR in H. destruct H as [-> (k & v & D & Q)]. split; [reflexivity|]. exists a, t, t1, k, v. auto. }
    destruct (update c id (Some a) (edit_fn form t) (edit_updates loads seconds form t) s) as [s1 [t'|e]] eqn:UP.
    - destruct (update_running _ _ _ _ _ _ _ _ (reachable_wf _ _ R) (not_stopped _ St) UP) as [RS (a' & t0 & W' & S' & I' & _ & U' & O' & E' & _)].
      assert (a' = a) as -> by (unfold wanted in W'; apply String.eqb_eq in W'; auto). assert (t0 = t) as -> by congruence. assert (t1 = t') as -> by congruence.
      destruct (edit_form dumps show_seconds t') as [f|y] eqn:EF.
      + injection H as _ _ H. apply NR in H. destruct H as [-> (k & v & D & Q)]. split; [reflexivity|]. exists a, t, t', k, v. auto.
      + injection H as _ _ <-. unfold edit_form in EF. destruct (dumps (elements (t_args t'))) eqn:DA.
        * destruct (dumps (t_kwargs t')) eqn:DK; [discriminate|]. injection EF as <-. split; [reflexivity|]. exists a, t, t', "kwargs"%string, (t_kwargs t'). sp; auto; [right; apply sh_kwargs|]. rewrite DK. reflexivity.
        * injection EF as <-. split; [reflexivity|]. exists a, t, t', "args"%string, (elements (t_args t')). sp; auto; [right; apply shows_iff; reflexivity|]. rewrite DA. reflexivity.
    - exfalso. destruct (update_running _ _ _ _ _ _ _ _ (reachable_wf _ _ R) (not_stopped _ St) UP) as [_ [_ [[_ K]|(a' & t0 & t2 & W' & S' & LK' & U')]]].
      + rewrite (K a) in Sa; [discriminate|]. cbn. apply String.eqb_refl.
      + assert (a' = a) as -> by (unfold wanted in W'; apply String.eqb_eq in W'; auto). congruence.
  Qed.

  (** a task whose fields can be written in a form and read back: nothing begins or ends with a blank, the arguments survive
      JSON, the reference leads to the task's own callable and the call binds, the numbers are in range *)
  Record writable (env : tenv) (t : task) : Prop := {
    wr_name : strip (t_name t) = t_name t /\ t_name t <> ""%string;
    wr_call : exists r f n ks, t_ref t = Some r /\ strip r = r /\ r <> ""%string /\ t_fn t = Some f /\ resolve env r = Ok f /\
              arg_count (t_args t) = Some n /\ kwarg_names (t_kwargs t) = Some ks /\ check_callable_args (c_sig f) n ks = Ok tt;
    wr_exec : exists x, t_exec t = Some x /\ strip x = x /\ x <> ""%string;
    wr_args : exists l a, t_args t = VList l /\ dumps (VList l) = Ok a /\ strip a <> ""%string /\ loads (strip a) = Ok (VList l);
    wr_kwargs : exists d a, t_kwargs t = VDict d /\ dumps (VDict d) = Ok a /\ strip a <> ""%string /\ loads (strip a) = Ok (VDict d);
    wr_max : 0 < t_max t;
    wr_grace : forall g, t_grace t = Some g -> 0 < g /\ strip (show_seconds g) <> ""%string /\ seconds (strip (show_seconds g)) = Some g;
    wr_same : forall k v, shows t k v -> same v v = true }.
  (** The page as it is shown, sent back unchanged with whichever button, changes nothing and shows no difference. *)
  Theorem C79_round_trip :
    forall (c : config) (id : string) (s : sched) (f form : dict string),
      reachable c s -> st s <> STOPPED -> edit_get dumps show_seconds id s = Ok (Some f) ->
      (forall k, k <> "intent"%string -> dget k form = dget k f) -> (forall a t, stored s a id = Some t -> writable (c_tenv c) t) ->
      edit_post loads dumps seconds show_seconds same c form id s = (s, [], Page (MkShown 200 [] [] false)).
  Proof.
    intros c id s f form R St HG FE WR. unfold edit_get in HG. unfold edit_post.
    pose proof (lookup_running id None s (reachable_wf _ _ R) (not_stopped _ St)) as L. destruct (lookup_task id None s) as [[t w]|e] eqn:LK; [|discriminate].
    destruct L as (a & -> & Wa & Sa & Ia). specialize (WR a t Sa). destruct (owned_all c s R) as [OW _]. destruct (OW _ _ _ Sa) as [Ow _]. clear OW.
    destruct WR as [(W1 & W1') (r & fn & n & ks & W2 & W3 & W4 & W5 & W6 & W7 & W8 & W9) (x & X1 & X2 & X3) (l & aa & A1 & A2 & A3 & A4) (d & ka & K1 & K2 & K3 & K4) M G SM].
    assert (EF : edit_form dumps show_seconds t = Ok f) by (destruct (edit_form dumps show_seconds t); congruence). clear HG.
    unfold edit_form in EF. rewrite A1, K1, W2, X1 in EF. cbn [elements] in EF. rewrite A2, K2 in EF. injection EF as <-.
    assert (F1 : posted form "name" = t_name t) by (unfold posted; rewrite FE by discriminate; cbn; exact W1).
    assert (F2 : posted form "callable_path" = r) by (unfold posted; rewrite FE by discriminate; cbn; exact W3).
    assert (F3 : posted form "args" = strip aa) by (unfold posted; rewrite FE by discriminate; reflexivity).
    assert (F4 : posted form "kwargs" = strip ka) by (unfold posted; rewrite FE by discriminate; reflexivity).
    assert (F5 : posted form "executor" = x) by (unfold posted; rewrite FE by discriminate; change (strip (or_text x "default") = x); unfold or_text; destruct (String.eqb_spec x ""); [contradiction|exact X2]).
    assert (F6 : posted form "coalesce" = if t_coalesce t then "true"%string else "false"%string) by (unfold posted; rewrite FE by discriminate; cbn; destruct (t_coalesce t); reflexivity).
    assert (F7 : posted form "max_instances" = strip (show_int (t_max t))) by (unfold posted; rewrite FE by discriminate; reflexivity).
    assert (F8 : posted form "mistrigger_grace_time" = strip (match t_grace t with Some g => show_seconds g | None => ""%string end)) by (unfold posted; rewrite FE by discriminate; reflexivity).
    assert (F9 : dmem "clear_mistrigger_grace_time" form = match t_grace t with Some _ => false | None => true end) by (unfold dmem; rewrite FE by discriminate; cbn; destruct (t_grace t); reflexivity).
    assert (E : forall u : string, u <> ""%string -> String.eqb u "" = false) by (intros u U; apply String.eqb_neq; exact U).
    assert (P1 : name_part form t = Ok (Some (VStr (t_name t)))) by (unfold name_part; rewrite F1, E by exact W1'; reflexivity).
    assert (P2 : callable_part form t = Ok (Some (VStr r))) by (unfold callable_part; rewrite F2, E by exact W4; reflexivity).
    assert (P3 : executor_part form = Ok (Some (VStr x))) by (unfold executor_part; rewrite F5, E by exact X3; reflexivity).
    assert (P4 : args_part loads form = Ok (Some (VList l))) by (unfold args_part, or_text; rewrite F3, E by exact A3; rewrite A4; reflexivity).
    assert (P5 : kwargs_part loads form = Ok (Some (VDict d))) by (unfold kwargs_part, or_text; rewrite F4, E by exact K3; rewrite K4; reflexivity).
    assert (P6 : coalesce_part form = Ok (Some (VBool (t_coalesce t)))) by (unfold coalesce_part; rewrite F6; destruct (t_coalesce t); reflexivity).
    assert (P7 : max_part form = Ok (Some (VInt (t_max t)))).
    { unfold max_part. rewrite F7. assert (PI : py_int (strip (show_int (t_max t))) = Some (t_max t)) by (pose proof (show_int_int (t_max t)) as SI; unfold py_int in *; rewrite strip_idem; exact SI).
      rewrite PI. destruct (Z.leb_spec (t_max t) 0); [lia|reflexivity]. }
    set (gv := match t_grace t with None => VNone | Some g => if g mod us =? 0 then VInt (g / us) else VFloat g end).
    assert (P8 : grace_part seconds form = Ok (Some gv)).
    { unfold grace_part, gv. rewrite F9, F8. destruct (t_grace t) as [g|]; [|reflexivity]. destruct (G g eq_refl) as (G1 & G2 & G3). rewrite E by exact G2. rewrite G3. destruct (Z.leb_spec g 0); [lia|reflexivity]. }
    assert (ER : edit_errors loads seconds form t = []) by (unfold edit_errors; rewrite P1, P2, P3, P4, P5, P6, P7, P8; reflexivity).
    cbv zeta. rewrite ER. unfold edit_fn, edit_updates. rewrite P1, P2, P3, P4, P5, P6, P7, P8. cbn [value_of].
    set (ups := present [("name", Some (VStr (t_name t))); ("executor", Some (VStr x)); ("args", Some (VList l)); ("kwargs", Some (VDict d)); ("coalesce", Some (VBool (t_coalesce t)));
                         ("max_instances", Some (VInt (t_max t))); ("mistrigger_grace_time", Some gv)]%string).
    assert (GC : grace_check (Some gv) = Ok (Some (t_grace t))).
    { unfold gv. destruct (t_grace t) as [g|]; [|reflexivity]. destruct (G g eq_refl) as (G1 & _). destruct (Z.eqb_spec (g mod us) 0) as [Z0|Z0]; cbn.
      - unfold us in *. pose proof (Z.div_mod g 1000000 ltac:(lia)). destruct (Z.leb_spec (g / 1000000) 0); [lia|]. do 3 f_equal. lia.
      - destruct (Z.leb_spec g 0); [lia|reflexivity]. }
    assert (UT : exists t1, update_task (c_tenv c) t (Some (c_self c)) (VStr r) ups = (t1, Ok tt) /\ snapshot t1 = snapshot t).
    { unfold update_task, validate. rewrite Ow, Nat.eqb_refl. cbn [bind].
      change (dmem "id" ups) with false. cbv iota. unfold fn_block. cbn [truthy]. rewrite (E r W4). cbn [negb orb]. cbv zeta.
      change (dget "args" ups) with (Some (VList l)). change (dget "kwargs" ups) with (Some (VDict d)). cbv iota beta. rewrite W6. rewrite (E _ W1'). cbn [andb]. cbv iota.
      rewrite A1 in W7. rewrite K1 in W8. rewrite W7, W8, W9. cbn [bind].
      set (ups' := ddel "kwargs" (ddel "args" ups)). change (dget "name" ups') with (Some (VStr (t_name t))). change (dget "mistrigger_grace_time" ups') with (Some gv).
      change (dget "coalesce" ups') with (Some (VBool (t_coalesce t))). change (dget "store_alias" ups') with (@None pyval). change (dget "max_instances" ups') with (Some (VInt (t_max t))).
      change (dget "trigger" ups') with (@None pyval). change (dget "executor" ups') with (Some (VStr x)). change (dget "next_run_time" ups') with (@None pyval).
      rewrite GC. cbn [name_check]. rewrite (E _ W1'). cbn [bind coalesce_check str_check trigger_check next_check max_check]. destruct (Z.leb_spec (t_max t) 0); [lia|]. cbn [bind].
      change (existsb (fun kv => negb (mem (fst kv) known_keys)) ups') with false. cbv iota. eexists. split; [reflexivity|].
      unfold snapshot. cbn. rewrite A1, K1, W2, X1. reflexivity. }
    destruct UT as (t1 & UT & SE). rewrite UT, SE.
    assert (DE : build_diff same (snapshot t) (snapshot t) = []).
    { destruct (build_diff same (snapshot t) (snapshot t)) as [|[k [b v]] l0] eqn:BD; [reflexivity|]. exfalso. destruct (proj1 (diff_truthful loads same t t) k b v) as (D1 & D2 & D3).
      - rewrite BD. left. reflexivity.
      - assert (v = b) as -> by (apply shows_iff in D1, D2; congruence). rewrite (SM k b D1) in D3. discriminate. }
    rewrite DE. cbn [nonempty negb]. rewrite orb_true_r. reflexivity.
  Qed.
End Edit.
Print Assumptions C79_nothing_unless_recorded.
Print Assumptions C79_unknown_task.
Print Assumptions C79_refused.
Print Assumptions C79_shown_as_asked.
Print Assumptions C79_applied_as_shown.
Print Assumptions C79_escapes_only_if.
Print Assumptions C79_round_trip.

(** ** where the full statement of C79 fails *)
Definition ex_dumps (v : pyval) : result string :=
  match v with VList [VInt 1] => Ok "[1]"%string | VList [VInt 2] => Ok "[2]"%string | VDict [] => Ok "{}"%string | VBool _ | VInt _ | VFloat _ | VStr _ | VNone => Ok "x"%string | _ => Err TypeError end.
Definition ex_loads (s : string) : result pyval :=
  if String.eqb s "[1]" then Ok (VList [VInt 1]) else if String.eqb s "[2]" then Ok (VList [VInt 2]) else if String.eqb s "[true]" then Ok (VList [VBool true])
  else if String.eqb s "[]" then Ok (VList []) else if String.eqb s "{}" then Ok (VDict []) else Err ValueError.
Definition ex_seconds (s : string) : option Z := option_map (fun n => n * us) (py_int s).
Definition ex_show (g : Z) : string := show_int (g / us).
Definition ex_method : callable := MkCallable "Job.run" (Some "app:Job.run"%string) [MkParam "x" PosOrKw false].
Definition ex_function : callable := MkCallable "Job.run" (Some "app:Job.run"%string) [MkParam "self" PosOrKw false; MkParam "x" PosOrKw false].
Definition ex_env : tenv := MkEnv (fun r => if String.eqb r "app:report" then Ok ex_fn1 else if String.eqb r "app:Job.run" then Ok ex_function else Err LookupError) (fun _ => Err ValueError).
Definition page_cfg : config := MkCfg false (sec 1) (sec 10) (sec 4294967) 100 alternating 0 ex_env.
Definition page_task (f : callable) (args : list pyval) : task :=
  MkTask "a" "job" (every 2 None) None (Some "default"%string) None (Some (sec 1)) false 1 (Some f) (c_ref f) (VList args) (VDict []) (Some 0%nat) true false.
Definition page_ops (f : callable) (args : list pyval) : list (envir * op) := [(quiet 0, OStart false); (quiet 0, OAddTask (page_task f args) false None)].
(** Refuted: "the form sent back unchanged is accepted".  The reference of a bound method leads to the function, which wants
    one argument more. *)
Theorem C79_bound_method_refuted :
  exists c id s f p, reachable c s /\ st s = RUNNING /\ edit_get ex_dumps ex_show id s = Ok (Some f) /\
    edit_post ex_loads ex_dumps ex_seconds ex_show py_eq c f id s = (s, [failed "update" id], Page p) /\ p_status p = 400.
Proof.
  exists page_cfg, "a"%string, (run_ops page_cfg (page_ops ex_method [VInt 1]) sched_init). eexists _, _. split; [eexists; reflexivity|]. sp; try (vm_compute; reflexivity).
Qed.
Print Assumptions C79_bound_method_refuted.
(** Refuted: "a change that is asked for is applied".  true for 1 counts as no change. *)
Theorem C79_equal_but_different_refuted :
  exists c id s form a t p, reachable c s /\ st s = RUNNING /\ asks_apply form /\ field form "args" = "[true]"%string /\ stored s a id = Some t /\ t_args t = VList [VInt 1] /\
    edit_post ex_loads ex_dumps ex_seconds ex_show py_eq c form id s = (s, [], Page p) /\ p_status p = 200 /\ p_applied p = false.
Proof.
  exists page_cfg, "a"%string, (run_ops page_cfg (page_ops ex_fn1 [VInt 1]) sched_init),
    [("name", "job"); ("callable_path", "app:report"); ("args", "[true]"); ("kwargs", "{}"); ("executor", "default"); ("coalesce", "false"); ("max_instances", "1"); ("mistrigger_grace_time", "1"); ("intent", "apply")]%string,
    "default"%string. eexists _, _. split; [eexists; reflexivity|]. sp; vm_compute; reflexivity.
Qed.
Print Assumptions C79_equal_but_different_refuted.
(** Refuted: "the page answers".  A task with an argument that JSON cannot write has no edit page; and an edit that replaces
    the argument is applied and recorded, and then answered with an error. *)
Theorem C79_applied_but_escapes_refuted :
  exists c id s s' form, reachable c s /\ st s = RUNNING /\ edit_get ex_dumps ex_show id s = Err TypeError /\
    edit_post ex_loads ex_dumps ex_seconds ex_show py_eq c form id s = (s', [succeeded "update" id], Escaped TypeError) /\
    option_map t_args (stored s "default" id) = Some (VList [VDate 0]) /\ option_map t_args (stored s' "default" id) = Some (VList [VInt 2]).
Proof.
  exists page_cfg, "a"%string, (run_ops page_cfg (page_ops ex_fn1 [VDate 0]) sched_init). eexists.
  exists [("name", "job"); ("callable_path", "app:report"); ("args", "[2]"); ("kwargs", "{}"); ("executor", "default"); ("coalesce", "false"); ("max_instances", "1"); ("mistrigger_grace_time", "1"); ("intent", "apply")]%string.
  split; [eexists; reflexivity|]. sp; vm_compute; reflexivity.
Qed.
Print Assumptions C79_applied_but_escapes_refuted.
Definition page_state : sched := run_ops page_cfg (page_ops ex_fn1 [VInt 1]) sched_init.
Example C79_case :
  match edit_get ex_dumps ex_show "a" page_state with
  | Ok (Some f) =>
      edit_post ex_loads ex_dumps ex_seconds ex_show py_eq page_cfg (("intent", "apply") :: f)%string "a" page_state = (page_state, [], Page (MkShown 200 [] [] false)) /\
      let form := ([("intent", " Apply"); ("args", "[2]"); ("coalesce", "ON"); ("name", " new name ")]%string ++ f)%list in
      let '(s', es, pg) := edit_post ex_loads ex_dumps ex_seconds ex_show py_eq page_cfg form "a" page_state in
      es = [succeeded "update" "a"] /\ (exists p, pg = Page p /\ map fst (p_diff p) = ["name"; "args"; "coalesce"]%string) /\
      option_map t_name (stored s' "default" "a") = Some "new name"%string /\ option_map t_args (stored s' "default" "a") = Some (VList [VInt 2]) /\
      edit_post ex_loads ex_dumps ex_seconds ex_show py_eq page_cfg [("args", "[")]%string "a" page_state =
        (page_state, [failed "update" "a"], Page (MkShown 400 [] ["callable_path"; "executor"; "args"; "coalesce"; "max_instances"]%string false)) /\
      snd (edit_post ex_loads ex_dumps ex_seconds ex_show py_eq page_cfg form "b" page_state) = NotFound
  | _ => False
  end.
Proof. vm_compute. sp; try reflexivity. eexists. split; reflexivity. Qed.
(** the hypotheses of the round trip are met *)
Example C79_writable_case : exists t, stored page_state "default" "a" = Some t /\ writable ex_loads ex_dumps ex_seconds ex_show py_eq ex_env t.
Proof.
  eexists. split; [vm_compute; reflexivity|]. constructor; cbn.
  - split; [reflexivity|discriminate].
  - eexists _, _, _, _. sp; try reflexivity. discriminate.
  - eexists. sp; try reflexivity. discriminate.
  - eexists _, _. sp; try reflexivity. discriminate.
  - eexists _, _. sp; try reflexivity. discriminate.
  - reflexivity.
  - intros g [= <-]. sp; try reflexivity; discriminate.
  - intros k v H. apply shows_iff in H. cbn in H. repeat match type of H with (if ?b then _ else _) = _ => destruct b; [injection H as <-; reflexivity|] end. discriminate.
Qed.

(** ** C80.  The buttons *)
(** what a button is for, done to task [id] (of store [a]) *)
Inductive done (c : config) (e : envir) (id : string) (s s' : sched) : button -> Prop :=
| done_pause a t : stored s a id = Some t -> only a id (Some (set_next None t)) s s' -> rest_same s s' -> evs s' = evs s ++ [task_event TASK_MODIFIED id (Some a)] -> done c e id s s' BPause
| done_resume a t k x : stored s a id = Some t -> answers (c_fuel c) (c_oracle c) (t_trigger t) (e_now e) k None = Ok (Some x) -> only a id (Some (set_next (Some x) t)) s s' ->
    rest_same s s' -> evs s' = evs s ++ [task_event TASK_MODIFIED id (Some a)] -> done c e id s s' BResume
| done_finished a t k : stored s a id = Some t -> answers (c_fuel c) (c_oracle c) (t_trigger t) (e_now e) k None = Ok None -> only a id None s s' ->
    rest_same s s' -> evs s' = evs s ++ [task_event TASK_REMOVED id (Some a)] -> done c e id s s' BResume
| done_remove a t : stored s a id = Some t -> only a id None s s' -> rest_same s s' -> evs s' = evs s ++ [task_event TASK_REMOVED id (Some a)] -> done c e id s s' BRemove
| done_run a t due times left_out xa n : stored s a id = Some t -> due_times c (e_now e) t due -> asked_times t (e_now e) due times left_out -> t_exec t = Some xa -> has_exec s xa ->
    count id s < t_max t -> one_more id (MkSub xa id times (t_max t)) s s' -> only a id (Some (set_next n t)) s s' -> (forall x, n = Some x -> e_now e < x) ->
    st s' = st s -> execs s' = execs s -> pend s' = pend s -> evs s' = evs s ++ [MkEvent TASK_SUBMITTED (Some id) (Some a) times left_out] -> done c e id s s' BRun.
(** One press of a button on a running scheduler does its thing to that task once and records it; or, no such task, does
    nothing and records the failure; or (run only) finds the task at its limit and records a warning; or an exception of
    the trigger or the executor gets through, and nothing is recorded. *)
Theorem C80_press_partial :
  forall (c : config) (e : envir) (b : button) (id : string) (s s' : sched) (es : list entry) (x : option exn),
    reachable c s -> st s <> STOPPED -> id <> ""%string -> press c e b id s = (s', es, x) ->
    (es = [succeeded (action_name b) id] /\ x = None /\ done c e id s s' b) \/
    (es = [failed (action_name b) id] /\ x = None /\ (forall a, stored s a id = None) /\ unchanged s s') \/
    (es = [warned (action_name b) id] /\ x = None /\ b = BRun /\ rest_same s s' /\ same_tasks s s' /\ exists a t, stored s a id = Some t /\ t_max t <= count id s) \/
    (es = [] /\ x <> None /\ (b = BRun \/ b = BResume) /\ same_tasks s s' /\ exists a t, stored s a id = Some t).
Proof.
  intros c e b id s s' es x R St Hid H. unfold press in H. destruct (made c e b id s) as [s1 r] eqn:MD. destruct b; cbn [made] in MD.
  - unfold forget in MD. destruct (run_task c e id None true false s) as [s2 r2] eqn:RT. cbn [fst snd] in MD. injection MD as <- <-.
    destruct (C32_run_task _ _ _ _ _ _ _ _ _ R St Hid RT) as [_ [(U & -> & N)|(a & t & _ & Sa & K)]].
    { injection H as <- <- <-. right; left. sp; auto. }
    assert (ESC : forall y, r2 = Err y -> y <> TaskLookupError -> y <> MaximumInstancesError -> same_tasks s s2 ->
      (es = [] /\ x <> None /\ (BRun = BRun \/ BRun = BResume) /\ same_tasks s s' /\ exists a t, stored s a id = Some t)).
    { intros y -> N1 N2 SM. destruct y; try congruence; injection H as <- <- <-; sp; auto; try discriminate; eauto. }
    destruct K as [(y & U & E & OR)|(due & DT & K)].
    { do 3 right. apply (ESC y E); [| |apply U]; destruct OR as [->|(z & k & A)]; try discriminate; apply answers_no_conflict in A; apply A. }
    destruct K as [(_ & F & _)|(_ & times & lo & AT & K)]; [discriminate|].
    destruct K as [(U & OR & NX)|(xa & X1 & X2 & K)].
    { do 3 right. destruct OR as [E|E]; (eapply ESC; [exact E|discriminate|discriminate|apply U]). }
    destruct K as [(LM & -> & RS & SM & EV)|[(SF & U & E)|(LM & OM & E1 & E2 & E3 & E4 & E5 & lastt & removal & LT & EV & K)]].
    + injection H as <- <- <-. do 2 right; left. cbn [action_name]. sp; auto. exists a, t. auto.
    + do 3 right. apply (ESC _ E); [discriminate|discriminate|apply U].
    + destruct K as [(y & k & E & A & SM & _)|(n & NF & K)].
      * do 3 right. apply (ESC y E); [| |exact SM]; apply answers_no_conflict in A; apply A.
      * assert (Q : exists t', r2 = Ok (Some t') /\ only a id (Some t') s s2 /\ removal = [] /\ t' = set_next (t_next t') t /\ (forall z, t_next t' = Some z -> e_now e < z)).
        { destruct n as [z|]; destruct K as (t' & K1 & K2 & K3 & K4 & K5); exists t'; sp; auto; intros w W; [destruct K5 as (y & K5 & K6 & _)|]; congruence. }
        destruct Q as (t' & -> & K2 & -> & K4 & K5). injection H as <- <- <-. left. sp; auto. rewrite K4 in K2.
        eapply (done_run c e id s s2 a t due times lo xa (t_next t')); eauto.
  - unfold forget in MD. destruct (pause_task c id None s) as [s2 r2] eqn:PT. cbn [fst snd] in MD. injection MD as <- <-.
    pose proof (C56_pause_task _ _ _ _ _ _ R St PT) as K. destruct r2 as [t'|y].
    + injection H as <- <- <-. left. sp; auto. destruct K as (RS & a & t & _ & Sa & -> & O & EV & _). eapply done_pause; eauto.
    + destruct K as (-> & -> & N). injection H as <- <- <-. right; left. sp; auto. apply unchanged_refl.
  - unfold forget in MD. destruct (resume_task c e id None s) as [s2 r2] eqn:RT. cbn [fst snd] in MD. injection MD as <- <-.
    pose proof (C31_resume_task _ _ _ _ _ _ _ R St Hid RT) as K. destruct r2 as [o|y].
    + injection H as <- <- <-. left. sp; auto. destruct K as (RS & a & t & k & n & _ & Sa & AN & K). destruct n as [z|].
      * destruct K as (-> & O & EV & _). eapply done_resume; eauto.
      * destruct K as (-> & O & EV & _). eapply done_finished; eauto.
    + destruct K as (U & [(-> & N)|(a & t & k & _ & Sa & AN)]).
      * injection H as <- <- <-. right; left. sp; auto.
      * apply answers_no_conflict in AN. destruct AN as (_ & N1 & N2). do 3 right. destruct y; try congruence; injection H as <- <- <-; (sp; [auto|discriminate|auto|apply U|eauto]).
  - pose proof (C33_delete _ _ _ _ _ _ R St Hid MD) as K. destruct r as [u|y].
    + injection H as <- <- <-. left. sp; auto. destruct K as (RS & _ & a & t & _ & Sa & O & EV). eapply done_remove; eauto.
    + destruct K as (U & -> & N). injection H as <- <- <-. right; left. sp; auto.
Qed.
Print Assumptions C80_press_partial.

(** ** the bulk buttons *)
(** the ids pressed one after the other, nothing getting through *)
Inductive pressed (c : config) (b : button) : list (string * envir) -> sched -> list entry -> sched -> Prop :=
| pressed_none s : pressed c b [] s [] s
| pressed_next id e l s s1 s2 es1 es2 : press c e b id s = (s1, es1, None) -> pressed c b l s1 es2 s2 -> pressed c b ((id, e) :: l) s (es1 ++ es2) s2.
(** A bulk button presses the ids in order, each on the state the one before left; it stops at the first exception that gets
    through: the ids after it are not pressed. *)
Theorem C80_bulk_partial :
  forall (c : config) (b : button) (l : list (string * envir)) (s s' : sched) (es : list entry) (x : option exn),
    bulk c b l s = (s', es, x) ->
    match x with
    | None => pressed c b l s es s'
    | Some y => exists l1 id e l2 s1, l = l1 ++ (id, e) :: l2 /\ pressed c b l1 s es s1 /\ press c e b id s1 = (s', [], Some y)
    end.
Proof.
  intros c b l. induction l as [|[id e] l IH]; intros s s' es x H; cbn [bulk] in H.
  - injection H as <- <- <-. constructor.
  - destruct (press c e b id s) as [[s1 es1] [y|]] eqn:P.
    + injection H as <- <- <-. exists [], id, e, l, s. split; [reflexivity|].
      assert (es1 = []) as ->; [|split; [constructor|exact P]]. unfold press in P. destruct (made c e b id s) as [s2 r]. destruct r as [u|z]; [congruence|]. destruct z; try congruence. destruct b; congruence.
    + destruct (bulk c b l s1) as [[s2 es2] x2] eqn:B. injection H as <- <- <-. specialize (IH _ _ _ _ B). destruct x2 as [y|].
      * destruct IH as (l1 & id' & e' & l2 & s3 & -> & PR & PL). exists ((id, e) :: l1), id', e', l2, s3. split; [reflexivity|]. split; [econstructor; eauto|exact PL].
      * econstructor; eauto.
Qed.
Print Assumptions C80_bulk_partial.
(** Refuted: "a bulk button does its thing to every task it names".  An executor that refuses one run ends the whole
    action; the tasks after it are not run. *)
Definition refusing (now : Z) : envir := MkEnvir now (fun _ => false) (fun _ => false) false (fun _ id => String.eqb id "a").
Theorem C80_bulk_stops_refuted :
  exists c s s', reachable c s /\ st s = RUNNING /\ bulk c BRun [("a", refusing 0); ("b", refusing 0)]%string s = (s', [], Some OtherError) /\
    subs s' = [] /\ stored s "default" "b" <> None /\ snd (press c (refusing 0) BRun "b" s) = None /\ snd (fst (press c (refusing 0) BRun "b" s)) = [succeeded "run" "b"].
Proof.
  exists ex_cfg, ex_state. eexists. split; [exists ex_ops; reflexivity|]. sp; try (vm_compute; reflexivity). vm_compute. discriminate.
Qed.
Print Assumptions C80_bulk_stops_refuted.

(** entries, one for each id in turn: succeeded if it is there at its turn ([there]), failed if not; pressing an id takes it
    out of the scheduler ([takes]) or not *)
Inductive records (act : string) (takes : bool) : (string -> Prop) -> list string -> list entry -> Prop :=
| rec_none there : records act takes there [] []
| rec_there (there : string -> Prop) id l es : there id -> records act takes (fun j => there j /\ (takes = true -> j <> id)) l es -> records act takes there (id :: l) (succeeded act id :: es)
| rec_not (there : string -> Prop) id l es : ~ there id -> records act takes there l es -> records act takes there (id :: l) (failed act id :: es).
Definition held (s : sched) (id : string) : Prop := exists a, stored s a id <> None.
Definition in_one_store (s : sched) (id : string) : Prop := forall a a', stored s a id <> None -> stored s a' id <> None -> a = a'.
Lemma records_iff act takes l : forall (p q : string -> Prop) es, (forall j, p j <-> q j) -> records act takes p l es -> records act takes q l es.
Proof.
  induction l as [|id l IH]; intros p q es E H; inversion H; subst; [constructor| |].
  - constructor; [apply E; assumption|]. eapply IH; [|eassumption]. intros j. cbn. rewrite (E j). tauto.
  - constructor; [rewrite <- E; assumption|]. eapply IH; [exact E|eassumption].
Qed.
Lemma press_reachable c e b id s : reachable c s -> reachable c (fst (fst (press c e b id s))).
Proof.
  intros R. assert (K : reachable c (fst (made c e b id s))).
  { destruct b; cbn [made forget fst].
    - exact (reachable_step c e (ORunTask id None true false) s R).
    - exact (reachable_step c e (OPauseTask id None) s R).
    - exact (reachable_step c e (OResumeTask id None) s R).
    - exact (reachable_step c e (ODeleteTask id None) s R). }
  unfold press. destruct (made c e b id s) as [s1 r]. cbn [fst] in K. destruct r as [u|z]; [exact K|]. destruct z; try exact K. destruct b; exact K.
Qed.
(** Removing (pausing) in bulk on a running scheduler, tasks of one store each: exactly the named tasks are removed
    (paused), every other task is as it was, nothing gets through, and each id gets its entry. *)
Theorem C80_bulk_remove :
  forall (c : config) (l : list (string * envir)) (s s' : sched) (es : list entry) (x : option exn),
    reachable c s -> st s <> STOPPED -> (forall id, In id (map fst l) -> id <> ""%string /\ in_one_store s id) -> bulk c BRemove l s = (s', es, x) ->
    x = None /\ (forall a j, stored s' a j = if mem j (map fst l) then None else stored s a j) /\ rest_same s s' /\ records "remove" true (held s) (map fst l) es.
Proof.
  intros c l. induction l as [|[id e] l IH]; intros s s' es x R St OK H; cbn [bulk] in H.
  - injection H as <- <- <-. sp; auto; [apply rest_refl|constructor].
  - cbn [map fst] in OK |- *. destruct (OK id (or_introl eq_refl)) as [Hid One]. pose proof (press_reachable c e BRemove id s R) as R1.
    destruct (press c e BRemove id s) as [[s1 es1] x1] eqn:P. cbn [fst] in R1.
    assert (K : x1 = None /\ rest_same s s1 /\ (forall a j, stored s1 a j = if String.eqb j id then None else stored s a j) /\ ((held s id /\ es1 = [succeeded "remove" id]) \/ (~ held s id /\ es1 = [failed "remove" id]))).
    { destruct (C80_press_partial _ _ _ _ _ _ _ _ R St Hid P) as [(-> & -> & D)|[(-> & -> & N & U)|[(_ & _ & B & _)|(_ & _ & [B|B] & _)]]]; try discriminate.
      - inversion D as [| | |a t Sa O RS EV|]; subst. sp; auto.
        + intros a' j. rewrite O. destruct (String.eqb_spec j id) as [->|NE]; [|rewrite andb_false_r; reflexivity]. rewrite andb_true_r. destruct (String.eqb_spec a' a) as [->|NA]; [reflexivity|].
          destruct (stored s a' id) as [t'|] eqn:SA; [|reflexivity]. destruct NA. apply One; congruence.
        + left. split; [exists a; congruence|reflexivity].
      - destruct U as (RS & SM & _). sp; auto.
        + intros a' j. rewrite SM. destruct (String.eqb_spec j id) as [->|NE]; [apply N|reflexivity].
        + right. split; [intros [a A]; apply A, N|reflexivity]. }
    destruct K as (-> & RS & S1 & OR). destruct (bulk c BRemove l s1) as [[s2 es2] x2] eqn:B. injection H as <- <- <-.
    assert (SS : st s1 = st s) by apply RS.
    destruct (IH s1 s2 es2 x2 R1 ltac:(congruence)) as (-> & S2 & RS2 & RC).
    { intros j J. destruct (OK j (or_intror J)) as [J1 J2]. split; [exact J1|]. intros a a' A A'. rewrite S1 in A, A'. destruct (String.eqb j id); [congruence|]. apply J2; assumption. }
    { exact B. }
    split; [reflexivity|]. split; [|split; [eapply rest_trans; eauto|]].
    + intros a j. rewrite S2, S1. change (mem j (id :: map fst l)) with (String.eqb j id || mem j (map fst l)). destruct (String.eqb j id); cbn [orb]; [destruct (mem j (map fst l)); reflexivity|reflexivity].
    + destruct OR as [[HD ->]|[ND ->]]; cbn [app].
      * apply rec_there; [exact HD|]. eapply records_iff; [|exact RC]. intros j. unfold held. cbn. split.
        -- intros [a A]. rewrite S1 in A. destruct (String.eqb_spec j id) as [->|NE]; [congruence|]. split; [eauto|intros _; exact NE].
        -- intros [[a A] N]. exists a. rewrite S1. destruct (String.eqb_spec j id) as [->|NE]; [destruct (N eq_refl eq_refl)|exact A].
      * apply rec_not; [exact ND|]. eapply records_iff; [|exact RC]. intros j. unfold held. cbn. split.
        -- intros [a A]. rewrite S1 in A. destruct (String.eqb j id); [congruence|eauto].
        -- intros [a A]. exists a. rewrite S1. destruct (String.eqb_spec j id) as [->|NE]; [destruct ND; exists a; exact A|exact A].
Qed.
Print Assumptions C80_bulk_remove.
Theorem C80_bulk_pause :
  forall (c : config) (l : list (string * envir)) (s s' : sched) (es : list entry) (x : option exn),
    reachable c s -> st s <> STOPPED -> (forall id, In id (map fst l) -> id <> ""%string /\ in_one_store s id) -> bulk c BPause l s = (s', es, x) ->
    x = None /\ (forall a j, stored s' a j = if mem j (map fst l) then option_map (set_next None) (stored s a j) else stored s a j) /\ rest_same s s' /\ records "pause" false (held s) (map fst l) es.
Proof.
  intros c l. induction l as [|[id e] l IH]; intros s s' es x R St OK H; cbn [bulk] in H.
  - injection H as <- <- <-. sp; auto; [apply rest_refl|constructor].
  - cbn [map fst] in OK |- *. destruct (OK id (or_introl eq_refl)) as [Hid One]. pose proof (press_reachable c e BPause id s R) as R1.
    destruct (press c e BPause id s) as [[s1 es1] x1] eqn:P. cbn [fst] in R1.
    assert (K : x1 = None /\ rest_same s s1 /\ (forall a j, stored s1 a j = if String.eqb j id then option_map (set_next None) (stored s a j) else stored s a j) /\ ((held s id /\ es1 = [succeeded "pause" id]) \/ (~ held s id /\ es1 = [failed "pause" id]))).
    { destruct (C80_press_partial _ _ _ _ _ _ _ _ R St Hid P) as [(-> & -> & D)|[(-> & -> & N & U)|[(_ & _ & B & _)|(_ & _ & [B|B] & _)]]]; try discriminate.
      - inversion D as [a t Sa O RS EV| | | |]; subst. sp; auto.
        + intros a' j. rewrite O. destruct (String.eqb_spec j id) as [->|NE]; [|rewrite andb_false_r; reflexivity]. rewrite andb_true_r. destruct (String.eqb_spec a' a) as [->|NA]; [rewrite Sa; reflexivity|].
          destruct (stored s a' id) as [t'|] eqn:SA; [|reflexivity]. destruct NA. apply One; congruence.
        + left. split; [exists a; congruence|reflexivity].
      - destruct U as (RS & SM & _). sp; auto.
        + intros a' j. rewrite SM. destruct (String.eqb_spec j id) as [->|NE]; [rewrite N; reflexivity|reflexivity].
        + right. split; [intros [a A]; apply A, N|reflexivity]. }
    destruct K as (-> & RS & S1 & OR). destruct (bulk c BPause l s1) as [[s2 es2] x2] eqn:B. injection H as <- <- <-.
    assert (SS : st s1 = st s) by apply RS.
    assert (HE : forall a j, stored s1 a j <> None <-> stored s a j <> None).
    { intros a j. rewrite S1. destruct (String.eqb j id); [|tauto]. destruct (stored s a j); cbn; split; congruence. }
    destruct (IH s1 s2 es2 x2 R1 ltac:(congruence)) as (-> & S2 & RS2 & RC).
    { intros j J. destruct (OK j (or_intror J)) as [J1 J2]. split; [exact J1|]. intros a a' A A'. apply HE in A, A'. apply J2; assumption. }
    { exact B. }
    split; [reflexivity|]. split; [|split; [eapply rest_trans; eauto|]].
    + intros a j. rewrite S2, S1. change (mem j (id :: map fst l)) with (String.eqb j id || mem j (map fst l)). destruct (String.eqb j id); cbn [orb]; [|reflexivity]. destruct (mem j (map fst l)); [|reflexivity]. destruct (stored s a j); reflexivity.
    + destruct OR as [[HD ->]|[ND ->]]; cbn [app]; [apply rec_there; [exact HD|]|apply rec_not; [exact ND|]]; (eapply records_iff; [|exact RC]); intros j; unfold held; cbn; split.
      * intros [a A]. apply HE in A. split; [eauto|discriminate].
      * intros [[a A] _]. exists a. apply HE. exact A.
      * intros [a A]. apply HE in A. eauto.
      * intros [a A]. exists a. apply HE. exact A.
Qed.
Print Assumptions C80_bulk_pause.
Example C80_case :
  let l := map (fun i => (i, quiet (sec 5))) ["b"; "zzz"; "a"; "b"]%string in
  let '(s', es, x) := bulk ex_cfg BRemove l ex_state in
  x = None /\ es = [succeeded "remove" "b"; failed "remove" "zzz"; succeeded "remove" "a"; failed "remove" "b"]%string /\
  stored s' "default" "a" = None /\ stored s' "default" "c" <> None /\
  snd (fst (press ex_cfg (quiet 0) BRun "d" ex_state)) = [warned "run" "d"] /\ snd (press ex_cfg (quiet 0) BRun "c" ex_state) = Some KeyError /\
  option_map t_next (stored (fst (fst (bulk ex_cfg BPause l ex_state))) "default" "a") = Some None.
Proof. vm_compute. sp; try reflexivity. discriminate. Qed.
