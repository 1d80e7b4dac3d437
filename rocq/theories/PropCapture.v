(** C84: messages logged for a task are captured under that task.  C85: the logs page. *)
From Verif Require Import Prelude PreludeFacts Text Forms Dash DashSpec FormsSpec PropDash PropForms2 PropTaskPages History Capture CaptureSpec CaptureProofs.
Open Scope Z_scope.

(** *** C84 *)
(** What exactly is captured, in any process: a call leaves the entry [captured] describes - and no
    other - in the storage of the installed handler, which keeps its newest; calls that are not
    captured leave every storage as it was. *)
Theorem C84_what_is_captured :
  forall (s : lproc) (c : lcall), (forall k, c_extra c = Some k -> (k < List.length (lp_dicts s))%nat) ->
    let s' := snd (log_call s c) in
    (forall i e, captured s c i e ->
       (forall n held, nth_error (lp_bufs s) i = Some (n, held) -> exists held', nth_error (lp_bufs s') i = Some (n, held') /\ newest n (held ++ [e]) held') /\
       (forall j, j <> i -> nth_error (lp_bufs s') j = nth_error (lp_bufs s) j)) /\
    ((forall i e, ~ captured s c i e) -> lp_bufs s' = lp_bufs s).
Proof.
  intros s c TH. cbv zeta. assert (T : there s c) by (unfold there; destruct (c_extra c) as [k|]; auto). destruct (log_call_spec s c) as (G & U & _). split.
  - intros i e C. apply captured_iff in C; auto. rewrite (G i e C). split.
    + intros n held E. rewrite nth_upd_get, Nat.eqb_refl, E. cbn [option_map add_entry fst snd]. eexists. split; [reflexivity|].
      exists (firstn (List.length held + 1 - n) (held ++ [e])). unfold push. sp; [rewrite firstn_skipn; auto|rewrite skipn_length, app_length; cbn; lia|].
      intros N. rewrite skipn_length, app_length. cbn. destruct (List.length held + 1 - n)%nat as [|k] eqn:K; [cbn in N; congruence|lia].
    + intros j N. rewrite nth_upd_get. destruct (Nat.eqb_spec i j); [congruence|auto].
  - intros X. apply U. intros i e H. apply captured_iff in H; auto. apply (X i e H).
Qed.
Print Assumptions C84_what_is_captured.
(** Once a dashboard is mounted, and as long as the host does not touch the settings of logging, every
    message of level INFO or above that is logged through [get_task_logger(task, name)] with a name in
    the "asyncz" namespace, whose text can be formatted, without [extra] or with a dictionary that
    names neither a task nor a reserved field, is captured in the storage the pages read, under that task. *)
Lemma alone_config ops : forall s, Forall leaves_logging_alone ops ->
  let s' := lrun s ops in
  lp_disable s' = lp_disable s /\ lp_off s' = lp_off s /\ (forall n, n <> "asyncz"%string -> lp_level s' n = lp_level s n /\ lp_prop s' n = lp_prop s n) /\
  ((exists st, In (OMount st) ops) \/ (lp_level s "asyncz"%string = 20 /\ exists i, lp_handler s = Some (i, 20) /\ lp_current s = Some i) -> lp_level s' "asyncz"%string = 20 /\ exists i, lp_handler s' = Some (i, 20) /\ lp_current s' = Some i).
Proof.
  induction ops as [|o ops IH]; intros s F; cbv zeta; cbn [lrun].
  - sp; auto. intros [(st & [])|H]; auto.
  - inversion F as [|? ? F1 F2]; subst. specialize (IH (lstep s o) F2). cbv zeta in IH. destruct IH as (A & B & C & D). rewrite A, B.
    destruct o as [st|c| | | | | |d|i d]; cbn in F1; try contradiction; cbn [lstep] in *.
    + assert (M : lp_disable (mount s st) = lp_disable s /\ lp_off (mount s st) = lp_off s /\ (forall n, n <> "asyncz"%string -> lp_level (mount s st) n = lp_level s n /\ lp_prop (mount s st) n = lp_prop s n) /\
        lp_level (mount s st) "asyncz"%string = 20 /\ exists i, lp_handler (mount s st) = Some (i, 20) /\ lp_current (mount s st) = Some i).
      { unfold mount. destruct (get_log_storage s st) as [i s1] eqn:G. destruct (install_same s1 i 20) as (B2 & C2 & D2 & H2 & E2 & O2). cbn [lp_disable lp_off lp_level lp_prop lp_handler lp_current]. rewrite E2, O2, C2, H2.
        assert (X : lp_disable s1 = lp_disable s /\ lp_off s1 = lp_off s /\ lp_level s1 = lp_level s /\ lp_prop s1 = lp_prop s /\ lp_current s1 = Some i).
        { unfold get_log_storage in G. destruct st as [j|]; [injection G as <- <-; sp; auto|]. destruct (lp_current s) as [j|] eqn:CU; injection G as <- <-; sp; auto. }
        destruct X as (X1 & X2 & X3 & X4 & X5). sp; auto; [|eauto].
        intros n N. unfold upd. destruct (String.eqb_spec n "asyncz"); [congruence|]. unfold install_handler. destruct (lp_handler s1); cbn [lp_level lp_prop]; rewrite ?X3, ?X4; auto. unfold upd. destruct (String.eqb_spec n "asyncz"); [congruence|auto]. }
      destruct M as (M1 & M2 & M3 & M4 & M5). sp; auto. * intros n N. destruct (C n N) as [-> ->]. apply M3. auto.
    + destruct (log_call_spec s c) as (_ & _ & H & CU & P & L & O & DI & _). rewrite P, L in C. rewrite L, H, CU in D. sp; auto. intros [(st & [E|E])|E]; [discriminate| |]; apply D; eauto.
    + sp; auto. intros [(st & [E|E])|E]; [discriminate| |]; apply D; eauto.
    + sp; auto. intros [(st & [E|E])|E]; [discriminate| |]; apply D; eauto.
Qed.
Theorem C84_task_logger_partial :
  forall sizes ops c task text,
    Forall leaves_logging_alone ops -> (exists st, In (OMount st) ops) ->
    let s := lrun (fresh sizes) ops in
    c_adapter c = Some task -> task <> ""%string -> in_asyncz (c_logger c) -> 20 <= c_level c -> c_text c = Some text ->
    (forall k, c_extra c = Some k -> exists d, nth_error (lp_dicts s) k = Some d /\ dget "task_id" d = None /\ forall f v, dget f d = Some v -> ~ reserved f) ->
    exists i e, captured s c i e /\ lp_current s = Some i /\
      l_task e = Some task /\ l_message e = text /\ l_level e = c_levelname c /\ l_logger e = c_logger c /\ l_ts e = c_ts c.
Proof.
  intros sizes ops c task text F M. cbv zeta. destruct (alone_config ops (fresh sizes) F) as (DI & O & C & D). destruct (D (or_introl M)) as (L20 & i & H & CU). set (s := lrun (fresh sizes) ops) in *. clearbody s.
  intros A T I L X E. assert (TH : there s c). { unfold there. destruct (c_extra c) as [k|]; auto. destruct (E k eq_refl) as (d & N & _). apply nth_error_Some. congruence. }
  assert (GO : goes s c i (entry_of c text (extra_of s c))).
  { exists 20, text. sp; auto.
    - unfold enabled. rewrite O, DI. cbn [fresh lp_off lp_disable negb]. assert (FL : first_level (lp_level s) (chain (c_logger c)) = 20).
      { symmetry. apply applies_iff. exists "asyncz"%string. sp; auto; [destruct I; auto| left; lia|]. intros b NB U LB. destruct (string_dec b "asyncz") as [->|NE]; [lia|]. destruct (C b NE) as [-> _]. cbn. destruct (String.eqb_spec b ""); [congruence|auto]. }
      rewrite FL. rewrite !andb_true_iff. sp; auto; [apply Z.ltb_lt|apply Z.leb_le]; lia.
    - apply reaches_chain. split; auto. intros n U UA. destruct (string_dec n "asyncz") as [->|NE]; [destruct UA as (_ & r & X'); discriminate|]. destruct (C n NE) as [_ ->]. auto.
    - apply clashes_iff. intros k v G. rewrite (extra_carries s c k) in G. unfold given_of in G. rewrite A in G. destruct (c_extra c) as [j|].
      + destruct (E j eq_refl) as (d & N & TK & R). rewrite N in G. destruct (dget k d) as [w|] eqn:K; [apply (R k w K)|]. destruct (String.eqb_spec k "task_id") as [->|]; [|discriminate]. unfold reserved. cbn. intuition discriminate.
      + cbn in G. destruct (String.eqb_spec k "task_id") as [->|]; [|discriminate]. unfold reserved. cbn. intuition discriminate. }
  exists i, (entry_of c text (extra_of s c)). split; [apply captured_iff; auto|]. split; auto. cbn [entry_of l_task l_message l_level l_logger l_ts]. sp; auto.
  symmetry. apply filed_iff. apply f_task. left. split; auto. rewrite (extra_carries s c "task_id"%string). unfold given_of. rewrite A. destruct (c_extra c) as [j|]; [destruct (E j eq_refl) as (d & N & TK & R); rewrite N, TK; auto|auto].
Qed.
Print Assumptions C84_task_logger_partial.
(** Installing the handler directly, for the first time, at a level other than NOTSET: from then on whatever
    loggers under "asyncz" without settings of their own log at that level is captured - the level of
    "asyncz" is lowered if it has to be, never raised - and still goes to the handlers above. *)
Theorem C84_installing :
  forall s i level c text, lp_handler s = None -> 0 < level ->
    let s' := lstep s (OInstall i level) in
    (forall n, (n = c_logger c \/ under (c_logger c) n) -> under n "asyncz" -> lp_level s n = 0 /\ lp_prop s n = true) ->
    in_asyncz (c_logger c) -> lp_off s (c_logger c) = false -> lp_disable s < c_level c -> level <= c_level c -> c_text c = Some text -> c_extra c = None ->
    (exists e, captured s' c i e) /\ lp_prop s' "asyncz"%string = true /\
    (0 < lp_level s "asyncz"%string <= level -> lp_level s' "asyncz"%string = lp_level s "asyncz"%string).
Proof.
  intros s i level c text H P. cbv zeta. cbn [lstep]. intros U I O DI L T E. assert (TH : there (install_handler s i level) c) by (unfold there; rewrite E; exact Logic.I).
  destruct (install_same s i level) as (B2 & C2 & D2 & H2 & DI2 & O2).
  assert (LV : lp_level (install_handler s i level) = upd (lp_level s) "asyncz" (Z.min (if lp_level s "asyncz"%string =? 0 then level else lp_level s "asyncz"%string) level)) by (unfold install_handler; rewrite H; auto).
  assert (PR : lp_prop (install_handler s i level) = upd (lp_prop s) "asyncz" true) by (unfold install_handler; rewrite H; auto).
  set (v := Z.min (if lp_level s "asyncz"%string =? 0 then level else lp_level s "asyncz"%string) level) in *. assert (LE : v <= level) by (unfold v; lia).
  assert (NA : forall n, under n "asyncz" -> String.eqb n "asyncz" = false) by (intros n (_ & r & ->); reflexivity).
  split; [|split].
  - exists (entry_of c text (extra_of (install_handler s i level) c)). apply captured_iff; auto. exists level, text. sp; auto.
    + unfold enabled. rewrite O2, O, DI2. cbn [negb]. rewrite !andb_true_iff. sp; auto; [apply Z.ltb_lt; lia|]. apply Z.leb_le. destruct (Z.eq_dec v 0) as [V0|V0].
      * unfold v in V0. destruct (Z.eqb_spec (lp_level s "asyncz"%string) 0) as [Y|Y]; [lia|]. lia.
      * assert (v = first_level (lp_level (install_handler s i level)) (chain (c_logger c))) as <-; [|lia]. apply applies_iff. rewrite LV. exists "asyncz"%string. sp; auto; [destruct I; auto|].
        intros b NB UB LB. unfold upd. destruct (String.eqb_spec b "asyncz") as [->|NE]; [lia|]. apply U; auto. assert (Q : exists u, c_logger c = (b ++ u)%string) by (destruct UB as [->|(_ & r & ->)]; [exists ""%string; rewrite sapp_nil; auto|eauto]). destruct Q as (u & Q).
        destruct I as [I|(_ & r & I)]; [rewrite I in Q; apply (f_equal String.length) in Q; rewrite slen in Q; cbn in Q, LB; lia|]. rewrite I in Q. destruct (prefixes_cmp _ _ _ _ Q ltac:(lia)) as (w & ->). rewrite sapp_assoc in Q. apply sapp_inv in Q. split; [discriminate|]. destruct w as [|x w]; [rewrite sapp_nil in LB; lia|]. cbn in Q. injection Q as <- Q. exists w. auto.
    + apply reaches_chain. split; auto. intros n UN UA. rewrite PR. unfold upd. rewrite (NA n UA). apply U; auto.
    + apply clashes_iff. intros k w G. rewrite (extra_carries _ c k) in G. unfold given_of in G. rewrite E in G. cbn in G. destruct (c_adapter c); [|discriminate]. destruct (String.eqb_spec k "task_id") as [->|]; [|discriminate]. unfold reserved. cbn. intuition discriminate.
  - rewrite PR. reflexivity.
  - intros B. rewrite LV. unfold upd, v. change (String.eqb "asyncz" "asyncz") with true. cbn iota. destruct (Z.eqb_spec (lp_level s "asyncz"%string) 0); cbv beta iota; lia.
Qed.
Print Assumptions C84_installing.
(** At NOTSET the level of the root logger decides: in a fresh process nothing below WARNING is captured. *)
Theorem C84_notset :
  forall sizes i level text, let s := lrun (fresh sizes) [OInstall i 0] in let c := MkCall None "asyncz.a" level "L" (Some text) None 0 in
    (exists e, captured s c i e) <-> 30 <= level.
Proof.
  intros sizes i level text. cbv zeta. set (c := MkCall _ _ _ _ _ _ _). assert (TH : there (lrun (fresh sizes) [OInstall i 0]) c) by exact Logic.I. split.
  - intros (e & C). apply captured_iff in C; auto. destruct C as (hl & m & _ & _ & E & _). unfold enabled in E. rewrite !andb_true_iff in E. destruct E as [_ E]. apply Z.leb_le in E. exact E.
  - intros L. exists (entry_of c text (extra_of (lrun (fresh sizes) [OInstall i 0]) c)). apply captured_iff; auto. exists 0, text. sp; auto; [cbn; lia|]. unfold enabled. rewrite !andb_true_iff. sp; auto; [apply Z.ltb_lt; cbn; lia|apply Z.leb_le; exact L].
Qed.
Print Assumptions C84_notset.
(** In a fresh process a positive level of the handler is the level of what it captures. *)
Theorem C84_positive_level :
  forall sizes i lv level text, 0 < lv -> let s := lrun (fresh sizes) [OInstall i lv] in let c := MkCall None "asyncz.a" level "L" (Some text) None 0 in
    (exists e, captured s c i e) <-> lv <= level.
Proof.
  intros sizes i lv level text P. cbv zeta. set (c := MkCall _ _ _ _ _ _ _). assert (TH : there (lrun (fresh sizes) [OInstall i lv]) c) by exact Logic.I. split.
  - intros (e & C). apply captured_iff in C; auto. destruct C as (hl & m & H & L & _). cbn in H. injection H as <-. exact L.
  - intros L. refine (proj1 (C84_installing (fresh sizes) i lv c text eq_refl P _ _ _ _ L _ _)).
    + intros n _ (N & r & ->). split; reflexivity.
    + right. split; [discriminate|]. exists "a"%string. reflexivity.
    + reflexivity.
    + cbn. lia.
    + reflexivity.
    + reflexivity.
Qed.
Print Assumptions C84_positive_level.
(** Mounting a dashboard sets the asyncz logger to INFO and makes it pass records on to the application's
    own handlers; it changes no other logger, switches none off and leaves the global threshold alone. *)
Theorem C84_mounting :
  forall s st, let s' := lstep s (OMount st) in
    (forall n, lp_level s' n = if String.eqb n "asyncz" then 20 else lp_level s n) /\ (forall n, lp_prop s' n = if String.eqb n "asyncz" then true else lp_prop s n) /\ (forall n, lp_off s' n = lp_off s n) /\ lp_disable s' = lp_disable s /\ lp_dicts s' = lp_dicts s.
Proof.
  intros s st. cbn [lstep]. unfold mount. destruct (get_log_storage s st) as [i s1] eqn:G.
  assert (S1 : lp_level s1 = lp_level s /\ lp_prop s1 = lp_prop s /\ lp_off s1 = lp_off s /\ lp_disable s1 = lp_disable s /\ lp_dicts s1 = lp_dicts s).
  { revert G. unfold get_log_storage. repeat match goal with |- context [match ?x with _ => _ end] => destruct x end; intros [= <- <-]; auto. }
  destruct S1 as (<- & <- & <- & <- & <-). unfold install_handler. cbv zeta. cbn [lp_level lp_prop lp_off lp_disable lp_dicts]. sp; intros; destruct (lp_handler s1); cbn; unfold upd; auto; destruct (String.eqb n "asyncz"); auto.
Qed.
Print Assumptions C84_mounting.
(** What is logged under another name - [get_task_logger("t", "myapp")] - reaches no storage. *)
Theorem C84_outside_the_namespace :
  forall s c, ~ in_asyncz (c_logger c) -> lp_bufs (snd (log_call s c)) = lp_bufs s.
Proof. intros s c N. destruct (log_call_spec s c) as (_ & U & _). apply U. intros i e (hl & m & _ & _ & _ & R & _). apply reaches_chain in R. tauto. Qed.
Print Assumptions C84_outside_the_namespace.
(** Nor does a message whose arguments do not fit its format: it is dropped without a trace. *)
Theorem C84_unformattable_messages_vanish :
  forall s c, c_text c = None -> lp_bufs (snd (log_call s c)) = lp_bufs s.
Proof. intros s c N. destruct (log_call_spec s c) as (_ & U & _). apply U. intros i e (hl & m & _ & _ & _ & _ & _ & T & _). congruence. Qed.
Print Assumptions C84_unformattable_messages_vanish.

Definition ask_task (t : string) : log_params := MkLPar (Some t) None None None None.
Definition info (task name text : string) (extra : option nat) (ts : Z) : lop := OLog (MkCall (Some task) name 20 "INFO" (Some text) extra ts).
(** a non-trivial instance: two dashboards, a dictionary, three messages *)
Example C84_instance :
  let ops := [OMount None; OMount (Some 0%nat); ODict [("region"%string, LText "eu")]; info "a" "asyncz.jobs" "one" (Some 0%nat) 1; info "b" "asyncz" "two" None 2] in
  Forall leaves_logging_alone ops /\ (exists st, In (OMount st) ops) /\ sound_ops 0 1 ops /\
  fst (logs_page (lrun (fresh [2%nat]) ops) (ask_task "a")) = [MkLog 1 "INFO" "one" "asyncz.jobs" (Some "a"%string) (Some "None"%string)].
Proof. cbv zeta. split; [repeat constructor|]. split; [exists None; left; auto|]. split; [cbn; repeat split; auto|reflexivity]. Qed.

(** The adapter writes its task into the dictionary the caller passed.  Two tasks logging with one
    shared dictionary: the second task's message is filed under the first. *)
Theorem C84_shared_extra_refuted :
  ~ forall ops task name text k ts, Forall leaves_logging_alone ops -> sound_ops 0 0 (ops ++ [info task name text (Some k) ts]) -> (exists st, In (OMount st) ops) ->
      (forall o, In o ops -> forall d, o = ODict d -> dget "task_id" d = None) -> (forall o i d, In o ops -> o <> OChange i d) ->
      in_asyncz name -> task <> ""%string ->
      exists e, In e (fst (logs_page (lrun (fresh []) (ops ++ [info task name text (Some k) ts])) (ask_task task))) /\ l_message e = text.
Proof.
  intros H. specialize (H [OMount None; ODict [("region"%string, LText "eu")]; info "a" "asyncz" "one" (Some 0%nat) 1] "b"%string "asyncz"%string "two"%string 0%nat 2).
  destruct H as (e & I & _).
  - repeat constructor.
  - cbn. repeat split; auto.
  - exists None. left. auto.
  - intros o [<-|[<-|[<-|[]]]] d E; inversion E. auto.
  - intros o i d [<-|[<-|[<-|[]]]]; discriminate.
  - left. auto.
  - discriminate.
  - vm_compute in I. exact I.
Qed.
Print Assumptions C84_shared_extra_refuted.
(** Installing the handler again with a lower level does not capture the lower level. *)
Theorem C84_lower_level_refuted :
  ~ forall sizes i level c e, (i < List.length sizes)%nat -> let s := lrun (fresh sizes) [OInstall i 20; OInstall i level] in
      0 < level -> level <= c_level c -> c_logger c = "asyncz"%string -> c_text c = Some e -> c_extra c = None -> exists i' e', captured s c i' e'.
Proof.
  intros H. destruct (H [5%nat] 0%nat 10 (MkCall (Some "a"%string) "asyncz" 10 "DEBUG" (Some "x"%string) None 0) "x"%string) as (i & e & C); auto; try (cbn; lia).
  apply captured_iff in C; [|exact I]. destruct C as (hl & m & _ & _ & E & _). vm_compute in E. discriminate.
Qed.
Print Assumptions C84_lower_level_refuted.

(** *** C85 *)
(** the storage the pages show: the one given when a dashboard was last mounted with one, else the
    storage made by default, after the user's *)
Fixpoint shown (default : nat) (ops : list lop) : nat := match ops with [] => default | OMount (Some i) :: ops' => shown i ops' | _ :: ops' => shown default ops' end.
Lemma current_shown sizes ops : forall s n, inv sizes s -> List.length (lp_dicts s) = n -> sound_ops n (List.length sizes) ops ->
  forall d, d = match lp_current s with Some i => i | None => List.length sizes end -> match lp_current (lrun s ops) with Some i => i | None => List.length sizes end = shown d ops.
Proof.
  induction ops as [|o ops IH]; intros s n I N SO d D; cbn [lrun shown]; auto. apply sound_cons in SO. destruct SO as [SO SS]. destruct (step_spec sizes s o n I N SO) as (I' & N' & _ & C).
  destruct o as [[i|]| | | | | | | |]; cbn [shown]; apply (IH _ _ I' N' SS); rewrite C; auto. destruct (lp_current s); auto.
Qed.
Lemma or_none_filter t s : is_filter (or_none t) s <-> t = s /\ s <> ""%string.
Proof. unfold is_filter, or_none. destruct (String.eqb_spec t "") as [->|N]; [split; intros [A B]; congruence|split; intros [A B]; split; congruence]. Qed.
Lemma strip_of o : forall P : string -> Prop, (forall t, strip (or_empty o) = t /\ t <> ""%string -> P t) <-> forall s, o = Some s -> strip s <> ""%string -> P (strip s).
Proof. intros P. destruct o as [s|]; cbn; split; intros H; [intros x [= <-] N; apply H; auto|intros t [<- N]; apply H; auto|intros x; discriminate|intros t [<- N]; destruct (N eq_refl)]. Qed.
Lemma upper_strip s : strip (upper s) = upper (strip s).
Proof.
  assert (SU : forall a, is_space (upper_ascii a) = is_space a) by (intros [[] [] [] [] [] [] [] []]; reflexivity).
  unfold strip. assert (L : forall u, lstrip (upper u) = upper (lstrip u)) by (induction u as [|a u IH]; cbn; auto; rewrite SU; destruct (is_space a); auto).
  rewrite L. generalize (lstrip s). induction s0 as [|a u IH]; cbn; auto. rewrite IH. destruct (rstrip u); cbn; auto. rewrite SU. destruct (is_space a); auto.
Qed.
Lemma upper_nil s : upper s = ""%string <-> s = ""%string.
Proof. destruct s; cbn; split; congruence. Qed.
Lemma page_query_iff p e : log_matches (MkLQ (or_none (text_param (p_task p))) (or_none (text_param (p_run p))) (or_none (upper (text_param (p_level p)))) (or_none (text_param (p_q p))) None None (log_limit (limit_param (p_limit p)))) e <-> wanted p e.
Proof.
  unfold text_param. split.
  - intros [A B C _ _ F]. cbn [lq_task lq_run lq_level lq_q] in *. constructor.
    + apply (strip_of (p_task p) (fun t => l_task e = Some t)). intros t H. apply A, or_none_filter. auto.
    + apply (strip_of (p_run p) (fun t => l_run e = Some t)). intros t H. apply B, or_none_filter. auto.
    + intros s E N. rewrite (C (upper (strip s))); [apply lower_upper|]. apply or_none_filter. rewrite E. cbn. split; auto. rewrite upper_nil. auto.
    + intros s E. specialize (F (strip s)). rewrite E in F. cbn [or_empty] in F. unfold found in *. rewrite strip_idem in F. unfold or_none in F. destruct (String.eqb_spec (strip s) "") as [X|X]; [rewrite X; exists ""%string, (lower (l_message e)); auto|]. exact (F eq_refl).
  - intros [A B C F]. constructor; cbn [lq_task lq_run lq_level lq_q lq_since lq_until]; try discriminate.
    + intros t H. apply or_none_filter in H. revert t H. apply (strip_of (p_task p) (fun t => l_task e = Some t)). auto.
    + intros t H. apply or_none_filter in H. revert t H. apply (strip_of (p_run p) (fun t => l_run e = Some t)). auto.
    + intros t H. apply or_none_filter in H. destruct H as [<- N]. rewrite lower_upper. rewrite upper_nil in N. destruct (p_level p) as [s|]; cbn in *; [apply C; auto|destruct (N eq_refl)].
    + intros s H. unfold or_none in H. destruct (String.eqb_spec (strip (or_empty (p_q p))) "") as [X|X]; [discriminate|]. injection H as <-. unfold found. rewrite strip_idem. destruct (p_q p) as [s|]; [apply (F s); auto|destruct (X eq_refl)].
Qed.
Lemma asked_limit o : asked o (log_limit (limit_param o)).
Proof.
  unfold log_limit, limit_param. assert (P2 : forall n, py_int "200" = Some n -> n = 200) by (intros n H; vm_compute in H; congruence).
  assert (NB : forall s, strip s = ""%string -> forall n, ~ int_text s n). { intros s E n H. apply py_int_iff in H. unfold py_int in H. rewrite E in H. discriminate. }
  assert (ST : forall s, py_int (strip s) = py_int s) by (intros s; unfold py_int; rewrite strip_idem; auto).
  destruct o as [s|]; cbn [given or_empty].
  - unfold given. cbn [or_empty]. destruct (String.eqb_spec s "") as [->|N]; cbn [negb].
    + change (strip "200") with "200"%string. cbn [String.eqb]. vm_compute. apply as_default. intros n (x & [= <-] & H). apply (NB ""%string eq_refl n H).
    + destruct (String.eqb_spec (strip s) "") as [E|E].
      * vm_compute. apply as_default. intros n (x & [= <-] & H). apply (NB s E n H).
      * rewrite ST. destruct (py_int s) as [n|] eqn:P; [apply as_number; exists s; split; auto; apply py_int_iff; auto|]. apply as_default. intros n (x & [= <-] & H). apply py_int_iff in H. congruence.
  - vm_compute. apply as_default. intros n (x & X & _). discriminate.
Qed.
Lemma asked_pos o n : asked o n -> 1 <= n <= 1000.
Proof. intros []; lia. Qed.
(** After any history of mounts, log calls and changes to the settings of logging, the logs page shows,
    newest first, those of the entries captured in the storage last mounted - as far as it still
    holds them: its newest [n], 20000 for the storage made by default - that satisfy the filters:
    200 unless the query asks for another number, 1 to 1000. *)
Theorem C85_logs_page :
  forall sizes ops p, sound_ops 0 (List.length sizes) ops ->
    let i := shown (List.length sizes) ops in
    exists l n held limit,
      told i (fresh sizes) ops l /\ nth_error (sizes ++ [Z.to_nat 20000]) i = Some n /\ newest n l held /\
      asked (p_limit p) limit /\ answers_query (wanted p) limit held (fst (logs_page (lrun (fresh sizes) ops) p)).
Proof.
  intros sizes ops p SO. cbv zeta. pose proof (current_shown sizes ops (fresh sizes) 0%nat (fresh_inv sizes) eq_refl SO (List.length sizes) eq_refl) as CU. rewrite <- CU. clear CU.
  set (s := lrun (fresh sizes) ops) in *. assert (I : inv sizes s). { unfold s. clear s. generalize (fresh_inv sizes). assert (N : List.length (lp_dicts (fresh sizes)) = 0%nat) by reflexivity. revert SO N. generalize (fresh sizes) 0%nat. induction ops as [|o ops IH]; intros s n SO N I; cbn [lrun]; auto.
    apply sound_cons in SO. destruct SO as [SO SS]. destruct (step_spec sizes s o n I N SO) as (I' & N' & _). eapply IH; eauto. }
  set (i := match lp_current s with Some i => i | None => List.length sizes end) in *.
  destruct (run_told sizes ops (fresh sizes) 0%nat (fresh_inv sizes) eq_refl SO i) as (l & T & R). fold s in R.
  pose proof (get_storage_spec sizes s None I Logic.I) as G. unfold logs_page. destruct (get_log_storage s None) as [i' s'] eqn:GE. destruct G as (I' & C' & E' & L' & (new & B' & W) & _).
  assert (EI : i' = i) by (rewrite E'; unfold i; destruct (lp_current s); auto). rewrite EI in *. clear EI E'. cbn [fst].
  assert (H : exists n b, nth_error (lp_bufs s') i = Some (n, b) /\ newest n l b).
  { destruct (nth_error (lp_bufs (fresh sizes)) i) as [[m b0]|] eqn:F.
    - destruct R as (b' & E & Q). exists m, b'. split; [rewrite B'; apply nth_app_nil; auto|]. apply (Q []). cbn in F. rewrite nth_error_map in F. destruct (nth_error sizes i); [|discriminate]. injection F as <- <-. apply newest_nil.
    - destruct R as [[E ->]|(E1 & b' & E & Q)]; [|exists (Z.to_nat 20000), b'; split; auto; rewrite B'; apply nth_app_nil; auto].
      destruct W as [->|(-> & Ei & _)]; [rewrite app_nil_r in B'; rewrite B' in L'; apply nth_error_None in E; lia|]. exists (Z.to_nat 20000), []. split; [|apply newest_nil]. rewrite B', Ei, nth_error_app2, Nat.sub_diag by auto. auto. }
  destruct H as (n & b & E & NW). exists l, n, b, (log_limit (limit_param (p_limit p))). sp; auto.
  - assert (F : nth_error (map fst (lp_bufs s')) i = Some n) by (rewrite nth_error_map, E; auto). destruct (inv_sizes _ _ I') as [X|X]; rewrite X in F; auto. apply nth_app_nil. auto.
  - apply asked_limit.
  - rewrite E. unfold log_find. cbn [lq_limit]. apply scan_answers; [intros x; rewrite log_keep_iff; apply page_query_iff|]. apply (asked_pos (p_limit p)), asked_limit.
Qed.
Print Assumptions C85_logs_page.
(** Looking at the page changes no storage that exists. *)
Theorem C85_looking_changes_nothing :
  forall s p, exists new, lp_bufs (snd (logs_page s p)) = lp_bufs s ++ new /\ (lp_current s <> None -> snd (logs_page s p) = s).
Proof.
  intros s p. unfold logs_page, get_log_storage. destruct (lp_current s) as [i|] eqn:E; cbn [snd].
  - exists []. rewrite app_nil_r. auto.
  - eexists. split; [reflexivity|]. congruence.
Qed.
Print Assumptions C85_looking_changes_nothing.
Example C85_instance :
  let ops := [OMount (Some 0%nat); info "a" "asyncz" "one" None 1; info "b" "asyncz.x" "two" None 2; info "a" "asyncz.y" "three" None 3; info "a" "other" "four" None 4] in
  sound_ops 0 1 ops /\ map l_message (fst (logs_page (lrun (fresh [2%nat]) ops) (MkLPar None None (Some " info"%string) None (Some "5"%string)))) = ["three"; "two"]%string.
Proof. split; [cbn; repeat split; auto|reflexivity]. Qed.

(** *** C86 *)
Lemma thinned_refl {A} (l : list A) : thinned l l.
Proof. induction l; constructor; auto. Qed.
Lemma thinned_app {A} (a b c d : list A) : thinned a b -> thinned c d -> thinned (a ++ c) (b ++ d).
Proof. induction 1; cbn; intros; try constructor; auto. Qed.
Lemma thinned_in {A} (l r : list A) : thinned l r -> forall x, In x r -> In x l.
Proof. induction 1; cbn; intros y; [auto| |]; intuition. Qed.
Lemma thinned_trans {A} (a b c : list A) : thinned a b -> thinned b c -> thinned a c.
Proof. intros H. revert c. induction H as [|x l r H IH|x l r H IH]; intros c K; [auto| |constructor; auto]. inversion K; subst; constructor; auto. Qed.
Lemma thinned_filter {A} (f : A -> bool) l : thinned l (filter f l).
Proof. induction l as [|x l IH]; cbn; [constructor|]. destruct (f x); constructor; auto. Qed.
Lemma thinned_firstn {A} n (l : list A) : thinned l (firstn n l).
Proof. revert n. induction l as [|x l IH]; intros [|n]; cbn; constructor; auto. clear. induction l; constructor; auto. Qed.
Lemma log_key_eqb_eq a b : log_key_eqb a b = true <-> a = b.
Proof. destruct a as [[[t1 l1] n1] m1], b as [[[t2 l2] n2] m2]. cbn. rewrite !andb_true_iff, Z.eqb_eq, !String.eqb_eq. split; [intros [[[-> ->] ->] ->]; auto|]. intros [= -> -> -> ->]. auto. Qed.
Lemma same_line_iff a b : same_line a b <-> log_key_of a = log_key_of b.
Proof. unfold same_line, log_key_of. split; [intros (-> & -> & -> & ->); auto|]. intros [= -> -> -> ->]. auto. Qed.
Lemma seen_iff e seen : existsb (log_key_eqb (log_key_of e)) seen = true <-> In (log_key_of e) seen.
Proof. rewrite existsb_exists. split; [intros (x & I & E); apply log_key_eqb_eq in E; subst; auto|]. intros I. exists (log_key_of e). split; auto. apply log_key_eqb_eq. auto. Qed.
Lemma nodup_snoc {A} (l : list A) x : NoDup l -> ~ In x l -> NoDup (l ++ [x]).
Proof. induction 1 as [|y l N D IH]; intros H; cbn; [repeat constructor; auto|]. constructor; [rewrite in_app_iff; cbn; intros [K|[K|[]]]; [auto|subst; apply H; left; auto]|apply IH; intros K; apply H; right; auto]. Qed.
Lemma nodup_left {A} (l l' : list A) : NoDup (l ++ l') -> NoDup l.
Proof. induction l as [|y l IH]; cbn; [constructor|]. inversion 1; subst. constructor; auto. intros K. apply H2. rewrite in_app_iff. auto. Qed.
Lemma foe_spec limit l : forall out, NoDup (map log_key_of out) -> (List.length out < limit)%nat ->
  exists c, first_of_each limit (map log_key_of out) out l = out ++ c /\ thinned l c /\ NoDup (map log_key_of (out ++ c)) /\ (List.length (out ++ c) <= limit)%nat /\
    ((List.length (out ++ c) < limit)%nat -> forall e, In e l -> In (log_key_of e) (map log_key_of (out ++ c))).
Proof.
  induction l as [|e l IH]; intros out N L; cbn [first_of_each].
  - exists []. rewrite app_nil_r. sp; auto; [constructor|lia|]. intros _ e [].
  - destruct (existsb (log_key_eqb (log_key_of e)) (map log_key_of out)) eqn:X.
    + apply seen_iff in X. destruct (IH out N L) as (c & E & T & D & Q & A). exists c. sp; auto; [constructor; auto|]. intros Y e' [<-|I]; auto. rewrite map_app, in_app_iff. auto.
    + assert (NI : ~ In (log_key_of e) (map log_key_of out)) by (intros I; apply seen_iff in I; congruence).
      assert (N' : NoDup (map log_key_of (out ++ [e]))) by (rewrite map_app; apply nodup_snoc; auto).
      destruct (Nat.leb_spec limit (List.length (out ++ [e]))) as [G|G].
      * exists [e]. sp; auto; [constructor|rewrite app_length in *; cbn in *; lia|lia]. clear. induction l; constructor; auto.
      * destruct (IH (out ++ [e]) N' G) as (c & E & T & D & Q & A). rewrite map_app in E. cbn [map] in E. exists (e :: c). replace (out ++ e :: c) with ((out ++ [e]) ++ c) by (rewrite <- app_assoc; auto). sp; auto; [constructor; auto|]. intros Y e' [<-|I]; auto. rewrite !map_app, !in_app_iff. cbn. auto.
Qed.
Lemma foe_app limit l2 l1 : forall out, (List.length out + List.length l1 < limit)%nat ->
  first_of_each limit (map log_key_of out) out (l1 ++ l2) = first_of_each limit (map log_key_of (first_of_each limit (map log_key_of out) out l1)) (first_of_each limit (map log_key_of out) out l1) l2.
Proof.
  induction l1 as [|e l IH]; intros out L; cbn [first_of_each app]; auto. cbn [List.length] in L. destruct (existsb _ _); [apply IH; lia|].
  assert (G : (List.length (out ++ [e]) < limit)%nat) by (rewrite app_length; cbn; lia). destruct (Nat.leb_spec limit (List.length (out ++ [e]))); [lia|].
  specialize (IH (out ++ [e])). rewrite map_app in IH. cbn [map] in IH. apply IH. rewrite app_length. cbn. lia.
Qed.
(** The page of a run shows at most [limit] of the held entries, each of them of the run itself or of its
    task at the time of the run; the run's own entries come first, newest first, then the others,
    newest first.  When the run's own entries alone reach the limit, only they are shown; else no line
    is shown twice, and none is missing as long as there is room - unless the task's entries of that time
    outnumber the limit and contain the same line twice. *)
Theorem C86_logs_of_a_run :
  forall (r : run_record) (limit : nat) (held : list log_entry), (1 <= limit)%nat -> h_id r <> ""%string ->
    let out := logs_for_run r limit held in
    (List.length out <= limit)%nat /\
    (forall e, In e out -> In e held /\ (of_the_run r e \/ around_the_run r e)) /\
    (exists own others, out = own ++ others /\ thinned (rev held) own /\ thinned (rev held) others /\ (forall e, In e own -> of_the_run r e) /\ (forall e, In e others -> ~ of_the_run r e)) /\
    (forall own, picked (of_the_run r) (rev held) own ->
       ((limit <= List.length own)%nat -> out = firstn limit own) /\
       ((List.length own < limit)%nat -> (forall a b l1 l2 l3, out = l1 ++ a :: l2 ++ b :: l3 -> ~ same_line a b) /\
          forall e, In e held -> of_the_run r e -> exists e', In e' out /\ same_line e e')) /\
    (forall all, picked (around_the_run r) (rev held) all -> (List.length all <= limit)%nat \/ (forall a b l1 l2 l3, all = l1 ++ a :: l2 ++ b :: l3 -> ~ same_line a b) ->
       forall e, In e all -> (exists e', In e' out /\ same_line e e') \/ List.length out = limit).
Proof.
  intros r limit held L1 NI. cbv zeta. unfold logs_for_run. cbv zeta.
  set (q1 := MkLQ None (Some (h_id r)) None None None None (Z.of_nat limit)). set (q2 := MkLQ (Some (fst (fst (h_key r)))) _ _ _ _ _ _).
  assert (M1 : forall e, log_keep q1 e = true <-> of_the_run r e).
  { intros e. rewrite log_keep_iff. unfold of_the_run. split; [intros [_ B _ _ _ _]; apply B; split; auto|]. intros H. constructor; cbn; try discriminate; intros s [E N]; try discriminate; congruence. }
  assert (M2 : forall e, log_keep q2 e = true <-> around_the_run r e).
  { intros e. rewrite log_keep_iff. unfold around_the_run, run_task_id. cbn [first_time fold_right]. split.
    - intros [A _ _ S U _]. cbn in A, S, U. specialize (S _ eq_refl). specialize (U _ eq_refl). split; [intros N; apply A; split; auto|]. unfold time_or in *. lia.
    - intros [A B]. constructor; cbn; try (intros s [E N]; discriminate); try discriminate.
      + intros s [[= <-] N]. auto. + intros t [= <-]. unfold time_or. lia. + intros t [= <-]. unfold time_or. lia. }
  assert (FD : forall q, lq_limit q = Z.of_nat limit -> log_find q held = firstn limit (filter (log_keep q) (rev held))) by (intros q E; unfold log_find; rewrite E, scan_spec by (cbn; lia); rewrite Nat2Z.id; auto).
  rewrite (FD q1 eq_refl), (FD q2 eq_refl). set (A := filter (log_keep q1) (rev held)). set (B := filter (log_keep q2) (rev held)).
  assert (PA : forall own, picked (of_the_run r) (rev held) own -> own = A).
  { unfold A. clear - M1. intros own H. induction H as [|x l o P H IH|x l o P H IH]; cbn; auto; destruct (log_keep q1 x) eqn:K; [f_equal; auto|apply M1 in P; congruence|apply M1 in K; congruence|auto]. }
  assert (PB : forall all, picked (around_the_run r) (rev held) all -> all = B).
  { unfold B. clear - M2. intros all H. induction H as [|x l o P H IH|x l o P H IH]; cbn [filter]; auto; destruct (log_keep q2 x) eqn:K; [f_equal; auto|apply M2 in P; congruence|apply M2 in K; congruence|auto]. }
  assert (IA : forall e, In e A <-> In e held /\ of_the_run r e) by (intros e; unfold A; rewrite filter_In, <- in_rev, M1; tauto).
  assert (IB : forall e, In e B <-> In e held /\ around_the_run r e) by (intros e; unfold B; rewrite filter_In, <- in_rev, M2; tauto).
  destruct (Nat.leb_spec limit (List.length (firstn limit A))) as [G|G].
  - assert (LA : (limit <= List.length A)%nat) by (rewrite firstn_length in G; lia). rewrite firstn_firstn, Nat.min_id. sp.
    + rewrite firstn_length. lia.
    + intros e H. assert (In e A) by (rewrite <- (firstn_skipn limit A), in_app_iff; auto). apply IA in H0. tauto.
    + exists (firstn limit A), []. rewrite app_nil_r. sp; auto.
      * eapply thinned_trans; [apply (thinned_filter (log_keep q1))|apply thinned_firstn]. * clear. induction (rev held); constructor; auto. * intros e H. assert (H0 : In e A) by (rewrite <- (firstn_skipn limit A), in_app_iff; auto). apply IA in H0. tauto.
    + intros own P. apply PA in P. subst own. split; auto. lia.
    + intros all _ _ e _. right. rewrite firstn_length. lia.
  - assert (LA : (List.length A < limit)%nat) by (rewrite firstn_length in G; lia). rewrite (firstn_all2 A) by lia. set (B' := firstn limit B).
    pose proof (foe_app limit B' A [] LA) as FA. cbn [map] in FA. rewrite FA. clear FA. pose proof (foe_spec limit A []) as SA. cbn [map app List.length] in SA. destruct (SA ltac:(constructor) ltac:(lia)) as (a & EA & TA & NA & QA & CA). rewrite EA. clear SA.
    assert (La : (List.length a <= List.length A)%nat) by (clear - TA; induction TA; cbn; lia).
    destruct (foe_spec limit B' a NA ltac:(lia)) as (c & EC & TC & NC & QC & CC). rewrite EC.
    assert (IBB : forall e, In e B' -> In e B) by (intros e H; rewrite <- (firstn_skipn limit B), in_app_iff; auto).
    assert (KA : forall e, In e A -> In (log_key_of e) (map log_key_of a)) by (intros e H; apply CA; auto; lia).
    assert (FIN : forall e l, In (log_key_of e) (map log_key_of l) -> exists e', In e' l /\ same_line e e') by (intros e l H; apply in_map_iff in H; destruct H as (e' & K & I); exists e'; split; auto; apply same_line_iff; auto).
    sp; auto.
    + intros e H. rewrite in_app_iff in H. destruct H as [H|H]; [apply (thinned_in _ _ TA), IA in H; tauto|apply (thinned_in _ _ TC), IBB, IB in H; tauto].
    + exists a, c. sp; auto.
      * eapply thinned_trans; [apply (thinned_filter (log_keep q1))|exact TA]. * eapply thinned_trans; [|exact TC]. eapply thinned_trans; [apply (thinned_filter (log_keep q2))|apply thinned_firstn].
      * intros e H. apply (thinned_in _ _ TA), IA in H. tauto.
      * intros e H O. assert (HA : In e A) by (apply IA; split; auto; apply (thinned_in _ _ TC), IBB, IB in H; tauto). apply KA in HA. rewrite map_app in NC. apply (in_map log_key_of) in H. clear - NC HA H. induction (map log_key_of a) as [|k l IH]; [destruct HA|]. cbn in NC. inversion NC as [|? ? N1 N2]; subst. destruct HA as [->|HA]; [apply N1; rewrite in_app_iff; auto|auto].
    + intros own P. apply PA in P. subst own. split; [lia|]. intros _. split.
      * intros x y l1 l2 l3 E S. apply same_line_iff in S. rewrite E in NC. rewrite map_app in NC. cbn [map] in NC. rewrite map_app in NC. cbn [map] in NC. apply NoDup_remove_2 in NC. apply NC. rewrite !in_app_iff. right. right. left. auto.
      * intros e I O. destruct (FIN e a (KA e ltac:(apply IA; auto))) as (e' & I' & S'). exists e'. rewrite in_app_iff. auto.
    + intros all P W e I. apply PB in P. subst all. destruct (Nat.eq_dec (List.length (a ++ c)) limit) as [E|E]; auto. left. assert (LT : (List.length (a ++ c) < limit)%nat) by lia. apply FIN, CC; auto.
      unfold B'. destruct (Nat.le_gt_cases (List.length B) limit) as [LB|LB]; [rewrite firstn_all2 by auto; auto|].
      exfalso. destruct W as [W|W]; [lia|]. assert (HB : List.length B' = limit) by (unfold B'; rewrite firstn_length; lia).
      assert (ND : NoDup (map log_key_of B)).
      { clear - W. induction B as [|x l IH]; cbn; constructor.
        - intros H. apply in_map_iff in H. destruct H as (y & K & I). apply in_split in I. destruct I as (l2 & l3 & ->). apply (W x y [] l2 l3 eq_refl). apply same_line_iff. auto.
        - apply IH. intros u v l1 l2 l3 E. apply (W u v (x :: l1) l2 l3). rewrite E. auto. }
      assert (ND' : NoDup (map log_key_of B')) by (unfold B'; rewrite <- firstn_map; rewrite <- (firstn_skipn limit (map log_key_of B)) in ND; apply nodup_left in ND; auto).
      assert (X : (List.length (map log_key_of B') <= List.length (map log_key_of (a ++ c)))%nat) by (apply NoDup_incl_length; auto; intros k K; apply in_map_iff in K; destruct K as (y & <- & Y); apply CC; auto).
      rewrite !map_length in X. lia.
Qed.
Print Assumptions C86_logs_of_a_run.
Definition ex_run : run_record := MkRun "run-1" ("a"%string, None, "t"%string) None None None None 1 "scheduled" Succeeded (Some 10000000) (Some 11000000) None 0 11000000.
Example C86_instance :
  map l_message (logs_for_run ex_run 4 [MkLog 1000000 "INFO" "long before" "asyncz" (Some "a"%string) None; MkLog 10000000 "INFO" "submitted" "asyncz" (Some "a"%string) (Some "run-1"%string);
    MkLog 10500000 "INFO" "working" "asyncz" (Some "a"%string) None; MkLog 10600000 "INFO" "another" "asyncz" (Some "b"%string) None; MkLog 11000000 "INFO" "done" "asyncz" (Some "a"%string) (Some "run-1"%string)])
  = ["done"; "submitted"; "working"]%string.
Proof. reflexivity. Qed.
