(** C78: the worker's HTTP API, request by request: which call on the scheduler a request asks for, and how its
    outcome is answered. *)
From Verif Require Import Prelude PreludeFacts Text CronParse CronParseSpec PropCronText Forms FormsSpec PropForms PropForms2 Remote RemoteSpec PropRemote.
Open Scope Z_scope.

(** *** the specification *)
(** the value of a key in a query or a JSON object: that of its first occurrence *)
Definition first_value {V} (k : string) (l : list (string * V)) (v : V) : Prop := exists l1 l2, l = l1 ++ (k, v) :: l2 /\ ~ In k (map fst l1).
(** a query parameter: absent and empty are the same *)
Definition query_is (r : request) (k : string) (o : option string) : Prop :=
  match o with
  | Some v => v <> ""%string /\ first_value k (r_query r) v
  | None => ~ In k (map fst (r_query r)) \/ first_value k (r_query r) ""%string
  end.
Definition says_yes (r : request) : Prop := exists v, first_value "descending"%string (r_query r) v /\ In (lower v) ["1"; "true"; "yes"]%string.
(** the body: an object; an empty one when there is none, when it is not JSON and when it is null *)
Definition body_is (r : request) (b : list (string * json)) : Prop := r_body r = Some (JObj b) \/ (b = [] /\ (r_body r = None \/ r_body r = Some JNull)).
Definition entry_is (b : list (string * json)) (k : string) (j : json) : Prop := first_value k b j \/ (~ In k (map fst b) /\ j = JNull).
Definition falsy (j : json) : Prop := In j [JNull; JBool false; JNum 0; JStr ""; JArr []; JObj []]%string.
Definition flag_is (b : list (string * json)) (k : string) (f : bool) : Prop :=
  (~ In k (map fst b) /\ f = true) \/ exists j, first_value k b j /\ (f = false <-> falsy j).
(** an entry that is a dictionary, an empty one when it is falsy *)
Definition dictionary_is (b : list (string * json)) (k : string) (d : list (string * json)) : Prop := exists j, entry_is b k j /\ ((falsy j /\ d = []) \/ j = JObj d).
Definition ADDABLE : list string := ["id"; "name"; "args"; "kwargs"; "mistrigger_grace_time"; "coalesce"; "max_instances"; "next_run_time"; "store"; "executor"; "replace_existing"]%string.
Definition keywords_are (b kw : list (string * json)) : Prop := NoDup (map fst kw) /\ forall k j, In (k, j) kw <-> In k ADDABLE /\ first_value k b j.
Definition at_path (r : request) (m p : string) : Prop := r_method r = m /\ unquote (r_path r) = p.

Inductive asks (r : request) : op -> Prop :=
| asks_info : at_path r "GET" "/info" -> asks r OInfo
| asks_instances : at_path r "GET" "/instances" -> asks r OInstances
| asks_list store state ex tr q sort desc : at_path r "GET" "/tasks" ->
    query_is r "store" store -> query_is r "schedule_state" state -> query_is r "executor" ex -> query_is r "trigger" tr -> query_is r "q" q ->
    (query_is r "sort_by" (Some sort) \/ (query_is r "sort_by" None /\ sort = "next_run_time"%string)) -> (desc = true <-> says_yes r) -> asks r (OList store state ex tr q sort desc)
| asks_task id store : at_path r "GET" ("/tasks/" ++ id) -> routable id -> query_is r "store" store -> asks r (OTask id store)
| asks_preview id store n : at_path r "GET" ("/tasks/" ++ id ++ "/preview") -> routable id -> query_is r "store" store ->
    ((exists c, query_is r "count" (Some c) /\ int_text c n) \/ (query_is r "count" None /\ n = 5)) -> asks r (OPreview id store n)
| asks_add b fn tr kw targs : at_path r "POST" "/tasks" -> body_is r b -> entry_is b "fn" fn -> dictionary_is b "trigger_args" targs -> keywords_are b kw ->
    (exists p, entry_is b "trigger_pickle" p /\ ((falsy p /\ exists j, entry_is b "trigger" j /\ tr = TJson j) \/ (~ falsy p /\ exists t, p = JStr t /\ tr = TUnpickled t))) -> asks r (OAdd fn tr kw targs)
| asks_update id b store u : at_path r "PATCH" ("/tasks/" ++ id) -> routable id -> body_is r b -> entry_is b "store" store -> dictionary_is b "updates" u -> asks r (OUpdate id store u)
| asks_run id b store f rf : at_path r "POST" ("/tasks/" ++ id ++ "/run") -> routable id -> body_is r b -> entry_is b "store" store -> flag_is b "force" f -> flag_is b "remove_finished" rf -> asks r (ORun id store f rf)
| asks_pause id b store : at_path r "POST" ("/tasks/" ++ id ++ "/pause") -> routable id -> body_is r b -> entry_is b "store" store -> asks r (OPause id store)
| asks_resume id b store : at_path r "POST" ("/tasks/" ++ id ++ "/resume") -> routable id -> body_is r b -> entry_is b "store" store -> asks r (OResume id store)
| asks_remove id b store : at_path r "POST" ("/tasks/" ++ id ++ "/remove") -> routable id -> body_is r b -> entry_is b "store" store -> asks r (ORemove id store).

(** the id a call is about, and the answer to its outcome *)
Definition about (o : op) : option string := match o with OTask i _ | OPreview i _ _ | OUpdate i _ _ | ORun i _ _ _ | OPause i _ | OResume i _ | ORemove i _ => Some i | _ => None end.
Definition failure_body (x : exc) (id : option string) : json :=
  JObj ([("error", JStr (x_class x)); ("message", JStr (x_text x))]%string ++
        (if String.eqb (x_class x) "MaximumInstancesError" then [("task_id", JStr (x_task x)); ("max_instances", JNum (x_total x))]%string
         else match id with Some i => [("task_id"%string, JStr i)] | None => [] end)).
Definition finds_or_404 (o : op) : Prop := match o with OTask _ _ | OPreview _ _ _ => True | _ => False end.
Definition unguarded (o : op) : Prop := match o with OInfo | OInstances | OTask _ _ | OPreview _ _ _ => True | _ => False end.
Definition changes (o : op) : Prop := match o with ORun _ _ _ _ | OPause _ _ | OResume _ _ | ORemove _ _ => True | _ => False end.
Inductive failed_with (o : op) (c : string) : Z -> Prop :=
| fw_missing : (changes o \/ exists i s u, o = OUpdate i s u) -> c = "TaskLookupError"%string -> failed_with o c 404
| fw_conflict : changes o -> In c ["SchedulerNotRunningError"; "MaximumInstancesError"]%string -> failed_with o c 409
| fw_other : ~ ((changes o \/ exists i s u, o = OUpdate i s u) /\ c = "TaskLookupError"%string) -> ~ (changes o /\ In c ["SchedulerNotRunningError"; "MaximumInstancesError"]%string) -> failed_with o c 400.
Inductive answered (o : op) : outcome -> response -> Prop :=
| an_data j : (finds_or_404 o -> j <> JNull) -> answered o (Ret j) (Answer 200 (JObj [("data"%string, j)]))
| an_missing i : finds_or_404 o -> about o = Some i -> answered o (Ret JNull) (Answer 404 (JObj [("error", JStr "TaskLookupError"); ("message", JStr ("The task by the id of " ++ i ++ " was not found.")); ("task_id", JStr i)]%string))
| an_crash x : unguarded o -> answered o (Raised x) Crashed
| an_failure x status : ~ unguarded o -> failed_with o (x_class x) status -> answered o (Raised x) (Answer status (failure_body x (about o))).
(** the parts of a payload the model does not follow: an array in place of a dictionary (a list of pairs is one to
    dict()), and a pickled trigger that is not text *)
Definition followed (r : request) : Prop := forall b, body_is r b ->
  (forall k l, In k ["trigger_args"; "updates"]%string -> ~ (l <> [] /\ entry_is b k (JArr l))) /\ (forall j, entry_is b "trigger_pickle" j -> falsy j \/ exists t, j = JStr t).

(** *** the pieces *)
Lemma dget_first {V} k (l : dict V) v : dget k l = Some v <-> first_value k l v.
Proof.
  split.
  - induction l as [|[k' v'] l IH]; [discriminate|]. cbn [dget]. destruct (String.eqb_spec k k') as [->|N]; intros E; [injection E as ->; exists [], l; split; [reflexivity|intros []]|].
    destruct (IH E) as (l1 & l2 & -> & NI). exists ((k', v') :: l1), l2. split; [reflexivity|]. cbn. intros [->|I]; auto.
  - intros (l1 & l2 & -> & NI). induction l1 as [|[k' v'] l1 IH]; cbn [app dget]; [rewrite String.eqb_refl; reflexivity|]. destruct (String.eqb_spec k k') as [->|N]; [destruct NI; cbn; auto|]. apply IH. intros I. apply NI. cbn. auto.
Qed.
Lemma dget_absent {V} k (l : dict V) : dget k l = None <-> ~ In k (map fst l).
Proof. split; [|apply dget_None]. intros E I. apply in_map_iff in I as ([k' v] & K & I). cbn in K. subst k'. induction l as [|[k' v'] l IH]; [destruct I|]. cbn [dget] in E. destruct (String.eqb_spec k k'); [discriminate|]. destruct I as [[= -> ->]|I]; [congruence|auto]. Qed.
Lemma query_is_param r k o : query_is r k o <-> o = param k r.
Proof.
  unfold query_is, param. destruct o as [v|].
  - rewrite <- dget_first. destruct (dget k (r_query r)) as [[|a w]|]; split; try discriminate; try (intros [H1 H2]; congruence).
    intros [= ->]. split; [discriminate|reflexivity].
  - rewrite <- dget_first, <- dget_absent. destruct (dget k (r_query r)) as [[|a w]|]; split; try discriminate; auto; intros [H|H]; congruence.
Qed.
Lemma entry_is_field b k j : entry_is b k j <-> j = field_of k b.
Proof. unfold entry_is, field_of. rewrite <- dget_first, <- dget_absent. destruct (dget k b) as [v|]; split; intros H; subst; auto; destruct H as [H|[H ?]]; congruence. Qed.
Lemma truthy_falsy j : truthy j = false <-> falsy j.
Proof.
  unfold falsy. split.
  - destruct j as [|[]|n|w|[|]|[|]]; cbn; try discriminate; auto 10; [destruct (Z.eqb_spec n 0); [subst; auto 10|discriminate]|destruct (String.eqb_spec w ""); [subst; auto 10|discriminate]].
  - cbn. intros [<-|[<-|[<-|[<-|[<-|[<-|[]]]]]]]; reflexivity.
Qed.
Lemma flag_is_flag b k f : flag_is b k f <-> f = flag k b.
Proof.
  unfold flag_is, flag. rewrite <- dget_absent. destruct (dget k b) as [v|] eqn:D; split.
  - intros [[? _]|(j & F & E)]; [discriminate|]. apply dget_first in F. assert (j = v) as -> by congruence. destruct (truthy v) eqn:T; destruct f; try reflexivity.
    + exfalso. assert (falsy v) as X by (apply E; reflexivity). apply truthy_falsy in X. congruence.
    + exfalso. assert (true = false) by (apply E, truthy_falsy, T). discriminate.
  - intros ->. right. exists v. split; [apply dget_first, D|apply truthy_falsy].
  - intros [[_ ->]|(j & F & E)]; [reflexivity|]. apply dget_first in F. congruence.
  - intros ->. auto.
Qed.
Lemma says_yes_iff r : existsb (String.eqb (lower (match dget "descending" (r_query r) with Some x => x | None => EmptyString end))) ["1"; "true"; "yes"]%string = true <-> says_yes r.
Proof.
  unfold says_yes. rewrite existsb_exists. split.
  - intros (w & I & E). apply String.eqb_eq in E. destruct (dget "descending" (r_query r)) as [v|] eqn:D; [exists v; split; [apply dget_first, D|rewrite E; exact I]|]. exfalso. rewrite <- E in I. cbn in I. intuition discriminate.
  - intros (v & F & I). apply dget_first in F. rewrite F. eexists. split; [exact I|apply String.eqb_refl].
Qed.
Lemma json_body_is r b : json_body r = Some b <-> body_is r b.
Proof.
  unfold json_body, body_is. destruct (r_body r) as [[]|]; split; intros H; try discriminate; try (injection H as <-); auto; try (destruct H as [H|[? [H|H]]]; try discriminate; try injection H as <-; subst; auto).
Qed.
Lemma as_dict_is b k d : (forall l, ~ (l <> [] /\ entry_is b k (JArr l))) -> (as_dict (field_of k b) = Some d <-> dictionary_is b k d).
Proof.
  intros NA. unfold as_dict, dictionary_is. destruct (truthy (field_of k b)) eqn:T.
  - split.
    + intros E. exists (field_of k b). split; [apply entry_is_field; reflexivity|]. right. destruct (field_of k b); try discriminate. congruence.
    + intros (j & E & [[F ->]| ->]); apply entry_is_field in E; [subst j; apply truthy_falsy in F; congruence|]. rewrite <- E. reflexivity.
  - split.
    + intros [= <-]. exists (field_of k b). split; [apply entry_is_field; reflexivity|]. left. split; [apply truthy_falsy, T|reflexivity].
    + intros (j & E & [[F ->]| ->]); [reflexivity|]. apply entry_is_field in E. rewrite <- E in T. destruct d; [reflexivity|discriminate].
Qed.
Lemma kept_keywords b : keywords_are b (kept b).
Proof.
  assert (G : forall ks, NoDup ks -> NoDup (map fst (flat_map (fun k => match dget k b with Some j => [(k, j)] | None => [] end) ks)) /\ forall k j, In (k, j) (flat_map (fun k => match dget k b with Some j => [(k, j)] | None => [] end) ks) <-> In k ks /\ first_value k b j).
  { induction ks as [|k ks IH]; intros ND; [split; [constructor|cbn; tauto]|]. inversion_clear ND as [|? ? NI ND']. destruct (IH ND') as [A B]. cbn [flat_map]. split.
    - destruct (dget k b); cbn; [|exact A]. constructor; [|exact A]. intros I. apply in_map_iff in I as ([k' j'] & [= ->] & I). apply B in I. tauto.
    - intros k' j'. rewrite in_app_iff, B. destruct (dget k b) as [j|] eqn:D; cbn; split.
      + intros [[[= <- <-]|[]]|[I F]]; [split; [auto|apply dget_first, D]|auto].
      + intros [[->|I] F]; [|auto]. apply dget_first in F. left. left. congruence.
      + intros [[]|[I F]]; auto.
      + intros [[->|I] F]; [|auto]. apply dget_first in F. congruence. }
  apply (G ADDABLE). repeat constructor; cbn; intuition discriminate.
Qed.
Definition shape (o : op) : string * list string :=
  match o with
  | OInfo => ("GET", [""; "info"]) | OInstances => ("GET", [""; "instances"]) | OList _ _ _ _ _ _ _ => ("GET", [""; "tasks"]) | OAdd _ _ _ _ => ("POST", [""; "tasks"])
  | OTask i _ => ("GET", [""; "tasks"; i]) | OUpdate i _ _ => ("PATCH", [""; "tasks"; i]) | OPreview i _ _ => ("GET", [""; "tasks"; i; "preview"])
  | ORun i _ _ _ => ("POST", [""; "tasks"; i; "run"]) | OPause i _ => ("POST", [""; "tasks"; i; "pause"]) | OResume i _ => ("POST", [""; "tasks"; i; "resume"]) | ORemove i _ => ("POST", [""; "tasks"; i; "remove"])
  end%string.
Lemma split_join s : exists l, split_on "/" s = l /\ s = String.concat "/" l /\ Forall (fun w => forall u v, w <> (u ++ "/" ++ v)%string) l.
Proof.
  induction s as [|a s (l & S & J & F)]; [exists [""%string]; repeat constructor; intros [] v; discriminate|]. cbn [split_on]. destruct (Ascii.eqb_spec a "/") as [->|N].
  - exists (""%string :: l). rewrite S. split; [reflexivity|]. split; [|constructor; [intros [] v; discriminate|exact F]]. destruct l as [|w l]; [destruct (split_on_nonempty "/" s S)|]. cbn [String.concat] in *. rewrite J at 1. reflexivity.
  - rewrite S. destruct l as [|w l]; [destruct (split_on_nonempty "/" s S)|]. exists (String a w :: l). split; [reflexivity|]. split.
    + rewrite J. destruct l; reflexivity.
    + inversion_clear F as [|? ? W F']. constructor; [|exact F']. intros [|b u] v E; [injection E as E _; congruence|]. injection E as _ E. exact (W u v E).
Qed.
Lemma asks_shape r o : asks r o -> (r_method r, split_on "/" (unquote (r_path r))) = shape o.
Proof.
  intros []; cbn [shape]; repeat match goal with H : at_path _ _ _ |- _ => destruct H as [-> ->] | H : routable _ |- _ => destruct H as [? H]; destruct (split_slash _ H) end; try reflexivity; cbn [append split_on Ascii.eqb Bool.eqb];
  repeat match goal with H : split_on "/" ?i = _ |- context [split_on "/" ?i] => rewrite H | H : forall t, split_on "/" (?i ++ _) = _ |- context [(?i ++ _)%string] => rewrite H end; reflexivity.
Qed.
Lemma guarded_answered {St} (exec : op -> St -> St * outcome) o s h : ~ unguarded o -> (forall x, exists status, h x = Answer status (failure_body x (about o)) /\ failed_with o (x_class x) status) ->
  exists a, guarded exec o s h = (fst (exec o s), [EOp o], a) /\ answered o (snd (exec o s)) a.
Proof.
  intros NU H. unfold guarded. destruct (exec o s) as [s' [j|x]]; cbn [fst snd]; eexists; (split; [reflexivity|]).
  - apply an_data. intros F. destruct NU. destruct o; cbn in F |- *; tauto.
  - destruct (H x) as (st & -> & F). apply an_failure; assumption.
Qed.
Lemma error_body x st id : error x st id = Answer st (failure_body x id).
Proof. unfold error, failure_body. destruct (String.eqb (x_class x) "MaximumInstancesError"); reflexivity. Qed.
Lemma action_answered {St} (exec : op -> St -> St * outcome) o s id : changes o -> about o = Some id -> exists a, guarded exec o s (action_error id) = (fst (exec o s), [EOp o], a) /\ answered o (snd (exec o s)) a.
Proof.
  intros C A. apply guarded_answered; [destruct o; cbn in *; tauto|]. intros x. unfold action_error. rewrite A.
  destruct (String.eqb_spec (x_class x) "TaskLookupError") as [E|N1]; [exists 404; rewrite error_body, E; split; [reflexivity|apply fw_missing; auto]|].
  destruct (String.eqb_spec (x_class x) "SchedulerNotRunningError") as [E|N2]; [exists 409; rewrite error_body, E; split; [reflexivity|apply fw_conflict; cbn; auto]|].
  destruct (String.eqb_spec (x_class x) "MaximumInstancesError") as [E|N3]; [exists 409; rewrite error_body, E; split; [reflexivity|apply fw_conflict; cbn; auto]|].
  exists 400. rewrite error_body. split; [reflexivity|]. apply fw_other; [tauto|]. intros [_ [E|[E|[]]]]; congruence.
Qed.
Lemma plain_answered {St} (exec : op -> St -> St * outcome) o s : ~ unguarded o -> ~ changes o -> about o = None -> exists a, guarded exec o s (fun x => error x 400 None) = (fst (exec o s), [EOp o], a) /\ answered o (snd (exec o s)) a.
Proof.
  intros NU NC A. apply guarded_answered; [exact NU|]. intros x. exists 400. rewrite error_body, A. split; [reflexivity|]. apply fw_other; [|tauto]. intros [[?|(i & st & u & ->)] _]; [tauto|discriminate].
Qed.
Lemma bare_answered {St} (exec : op -> St -> St * outcome) o s : o = OInfo \/ o = OInstances -> exists a, bare exec o s success = (fst (exec o s), [EOp o], a) /\ answered o (snd (exec o s)) a.
Proof.
  intros H. unfold bare. destruct (exec o s) as [s' [j|x]]; cbn [fst snd]; eexists; (split; [reflexivity|]).
  - apply an_data. destruct H as [-> | ->]; intros [].
  - apply an_crash. destruct H as [-> | ->]; exact I.
Qed.
Lemma found_answered {St} (exec : op -> St -> St * outcome) o s id : finds_or_404 o -> about o = Some id ->
  exists a, bare exec o s (fun j => match j with JNull => error (lookup_error id) 404 (Some id) | _ => success j end) = (fst (exec o s), [EOp o], a) /\ answered o (snd (exec o s)) a.
Proof.
  intros F A. unfold bare. destruct (exec o s) as [s' [j|x]]; cbn [fst snd]; eexists; (split; [reflexivity|]).
  - destruct j; try (apply an_data; discriminate). rewrite error_body. apply (an_missing o id F A).
  - apply an_crash. destruct o; cbn in *; tauto.
Qed.
Definition carries (token : option string) (r : request) : Prop :=
  match token with None => True | Some t => exists l1 k l2, r_headers r = l1 ++ (k, t) :: l2 /\ lower k = "x-asyncz-remote-token"%string /\ forall k' v, In (k', v) l1 -> lower k' <> "x-asyncz-remote-token"%string end.
Lemma carries_allowed token r : carries token r -> allowed token r = true.
Proof.
  destruct token as [t|]; [|reflexivity]. intros (l1 & k & l2 & E & K & N). unfold allowed. rewrite E.
  assert (header "x-asyncz-remote-token" (l1 ++ (k, t) :: l2) = Some t) as ->; [|apply String.eqb_refl].
  clear E. induction l1 as [|[k' v] l1 IH]; cbn [app header]; [rewrite K, String.eqb_refl; reflexivity|]. destruct (String.eqb_spec (lower k') "x-asyncz-remote-token") as [E|_]; [destruct (N k' v); cbn; auto|]. apply IH. intros k2 v2 I. apply (N k2 v2). cbn. auto.
Qed.
(** a request that is not carried out: no JSON from the router (404, 405) or from the server (500), or an error:
    400 for an update (PATCH) without usable updates, 404 for an unknown action (POST) *)
Definition refusal (r : request) (a : response) : Prop :=
  match a with NoRoute | Crashed => True | Answer status _ => (r_method r = "PATCH"%string /\ status = 400) \/ (r_method r = "POST"%string /\ status = 404) end.

(** C78.  An authorised request either asks for one call on the scheduler, which is made once, with the arguments
    asked for, after unpickling exactly the trigger sent, and is answered as its outcome says; or asks for none, and
    then it is refused, with nothing called, nothing unpickled and nothing changed. *)
Theorem C78_one_call {St} (exec : op -> St -> St * outcome) token r s : carries token r -> followed r ->
  (exists o pre a, asks r o /\ worker exec token r s = (fst (exec o s), pre ++ [EOp o], a) /\ answered o (snd (exec o s)) a /\
     pre = match o with OAdd _ (TUnpickled p) _ _ => [EUnpickle p] | _ => [] end) \/
  ((forall o, ~ asks r o) /\ exists a, worker exec token r s = (s, [], a) /\ refusal r a).
Proof.
  intros AL FO. apply carries_allowed in AL. unfold worker. rewrite AL. cbv zeta. destruct (split_join (unquote (r_path r))) as (l & S & J & F). rewrite S.
  assert (NO : forall a, refusal r a -> (forall o, asks r o -> (r_method r, l) <> shape o) -> ((forall o, ~ asks r o) /\ exists a', ret s a = (s, [], a') /\ refusal r a')).
  { intros a RA H. split; [|exists a; auto]. intros o A. apply (H o A). rewrite <- S. apply asks_shape, A. }
  destruct l as [|e [|x [|i [|act [|? ?]]]]]; try (right; apply NO; [exact I|]; intros [] _; discriminate).
  - (* /x *)
    destruct (String.eqb_spec e "") as [->|NE]; cbn [negb]; [|right; apply NO; [exact I|]; intros [] _; cbn; congruence].
    destruct (String.eqb_spec x "info") as [->|N1].
    { destruct (String.eqb_spec (r_method r) "GET") as [M|NM]; [|right; apply NO; [exact I|]; intros [] _; cbn; congruence]. left. exists OInfo, []. destruct (bare_answered exec OInfo s (or_introl eq_refl)) as (a & E & A). exists a. split; [constructor; split; auto|]. auto. }
    destruct (String.eqb_spec x "instances") as [->|N2].
    { destruct (String.eqb_spec (r_method r) "GET") as [M|NM]; [|right; apply NO; [exact I|]; intros [] _; cbn; congruence]. left. exists OInstances, []. destruct (bare_answered exec OInstances s (or_intror eq_refl)) as (a & E & A). exists a. split; [constructor; split; auto|]. auto. }
    destruct (String.eqb_spec x "tasks") as [->|N3]; [|right; apply NO; [exact I|]; intros [] _; cbn; congruence].
    destruct (String.eqb_spec (r_method r) "GET") as [M|NM].
    { left. unfold h_list. match goal with |- context [guarded exec ?o s] => exists o, []; destruct (plain_answered exec o s) as (a & E & A); [intros []|intros []|reflexivity|] end. exists a. split; [|auto].
      apply asks_list; try (apply query_is_param; reflexivity); [split; auto| |apply says_yes_iff].
      destruct (param "sort_by" r) as [w|] eqn:W; [left|right; split; [|reflexivity]]; apply query_is_param; auto. }
    destruct (String.eqb_spec (r_method r) "POST") as [M|NP]; [|right; apply NO; [exact I|]; intros [] _; cbn; congruence].
    unfold h_add. destruct (json_body r) as [b|] eqn:B.
    2: { right. split; [|exists Crashed; split; [reflexivity|exact I]]. intros o A. pose proof (asks_shape r o A) as SH. rewrite S, M in SH. destruct A; try discriminate. match goal with H : body_is r _ |- _ => apply json_body_is in H; congruence end. }
    apply json_body_is in B. destruct (FO b B) as [FA FP].
    assert (BU : forall b', body_is r b' -> b' = b) by (intros b' H; apply json_body_is in H; apply json_body_is in B; congruence).
    destruct (as_dict (field_of "trigger_args" b)) as [targs|] eqn:D.
    2: { right. split; [|exists Crashed; split; [reflexivity|exact I]]. intros o A. pose proof (asks_shape r o A) as SH. rewrite S, M in SH. destruct A; try discriminate. match goal with H : body_is r _ |- _ => apply BU in H; subst end. match goal with H : dictionary_is b "trigger_args" _ |- _ => apply as_dict_is in H; [congruence|intros ?; apply FA; cbn; auto] end. }
    apply as_dict_is in D; [|intros ?; apply FA; cbn; auto]. left. destruct (truthy (field_of "trigger_pickle" b)) eqn:T.
    + destruct (FP (field_of "trigger_pickle" b)) as [X|[t X]]; [apply entry_is_field; reflexivity|apply truthy_falsy in X; congruence|]. rewrite X. cbn [as_text].
      set (o := OAdd _ (TUnpickled t) _ _). exists o, [EUnpickle t]. destruct (plain_answered exec o s) as (a & E & A); [intros []|intros []|reflexivity|]. exists a. rewrite E. split; [|auto].
      eapply asks_add; [split; auto|exact B|apply entry_is_field; reflexivity|exact D|apply kept_keywords|]. exists (JStr t). split; [apply entry_is_field; auto|]. right. split; [|exists t; auto]. intros X'. apply truthy_falsy in X'. congruence.
    + set (o := OAdd _ (TJson _) _ _). exists o, []. destruct (plain_answered exec o s) as (a & E & A); [intros []|intros []|reflexivity|]. exists a. split; [|auto].
      eapply asks_add; [split; auto|exact B|apply entry_is_field; reflexivity|exact D|apply kept_keywords|]. exists (field_of "trigger_pickle" b). split; [apply entry_is_field; auto|]. left. split; [apply truthy_falsy, T|]. eexists. split; [apply entry_is_field; reflexivity|reflexivity].
  - (* /tasks/i *)
    destruct (String.eqb_spec e "") as [->|NE]; cbn [andb]; [|right; apply NO; [exact I|]; intros [] _; cbn; congruence].
    destruct (String.eqb_spec x "tasks") as [->|N3]; cbn [andb]; [|right; apply NO; [exact I|]; intros [] _; cbn; congruence].
    destruct (String.eqb_spec i "") as [->|NI]; cbn [negb andb]; [right; apply NO; [exact I|]; intros o A; destruct A; cbn; try congruence; match goal with H : routable _ |- _ => destruct H; congruence end|].
    assert (RI : routable i) by (split; [exact NI|inversion_clear F as [|? ? _ F1]; inversion_clear F1 as [|? ? _ F2]; inversion_clear F2 as [|? ? F3 _]; exact F3]).
    destruct (String.eqb_spec (r_method r) "GET") as [M|NM].
    { left. unfold h_task. exists (OTask i (param "store" r)), []. destruct (found_answered exec (OTask i (param "store" r)) s i I eq_refl) as (a & E & A). exists a. split; [|auto]. apply asks_task; [split; auto|exact RI|apply query_is_param; reflexivity]. }
    destruct (String.eqb_spec (r_method r) "PATCH") as [M|NP]; [|right; apply NO; [exact I|]; intros [] _; cbn; congruence].
    unfold h_update. destruct (json_body r) as [b|] eqn:B.
    2: { right. split; [|exists Crashed; split; [reflexivity|exact I]]. intros o A. pose proof (asks_shape r o A) as SH. rewrite S, M in SH. destruct A; try discriminate. match goal with H : body_is r _ |- _ => apply json_body_is in H; congruence end. }
    apply json_body_is in B. destruct (FO b B) as [FA FP].
    assert (BU : forall b', body_is r b' -> b' = b) by (intros b' H; apply json_body_is in H; apply json_body_is in B; congruence).
    destruct (as_dict (field_of "updates" b)) as [u|] eqn:D.
    2: { right. split; [|eexists; split; [reflexivity|rewrite error_body; left; auto]]. intros o A. pose proof (asks_shape r o A) as SH. rewrite S, M in SH. destruct A; try discriminate. match goal with H : body_is r _ |- _ => apply BU in H; subst end. match goal with H : dictionary_is b "updates" _ |- _ => apply as_dict_is in H; [congruence|intros ?; apply FA; cbn; auto] end. }
    apply as_dict_is in D; [|intros ?; apply FA; cbn; auto]. left. set (o := OUpdate i (field_of "store" b) u). exists o, [].
    destruct (guarded_answered exec o s (fun x => if String.eqb (x_class x) "TaskLookupError" then error x 404 (Some i) else error x 400 (Some i))) as (a & E & A); [intros []| |].
    { intros x. destruct (String.eqb_spec (x_class x) "TaskLookupError") as [EX|NX]; [exists 404|exists 400]; rewrite error_body; (split; [reflexivity|]); [apply fw_missing; [right; do 3 eexists; reflexivity|exact EX]|apply fw_other; [tauto|intros [[] _]]]. }
    exists a. split; [|auto]. eapply asks_update; [split; auto|exact RI|exact B|apply entry_is_field; reflexivity|exact D].
  - (* /tasks/i/act *)
    destruct (String.eqb_spec e "") as [->|NE]; cbn [andb]; [|right; apply NO; [exact I|]; intros [] _; cbn; congruence].
    destruct (String.eqb_spec x "tasks") as [->|N3]; cbn [andb]; [|right; apply NO; [exact I|]; intros [] _; cbn; congruence].
    destruct (String.eqb_spec i "") as [->|NI]; cbn [negb andb]; [right; apply NO; [exact I|]; intros o A; destruct A; cbn; try congruence; match goal with H : routable _ |- _ => destruct H; congruence end|].
    assert (RI : routable i) by (split; [exact NI|inversion_clear F as [|? ? _ F1]; inversion_clear F1 as [|? ? _ F2]; inversion_clear F2 as [|? ? F3 _]; exact F3]).
    destruct (String.eqb_spec act "") as [->|NA]; cbn [negb andb]; [right; apply NO; [exact I|]; intros [] _; cbn; congruence|].
    destruct (String.eqb_spec (r_method r) "GET") as [M|NM]; cbn [andb].
    { destruct (String.eqb_spec act "preview") as [->|NP].
      - unfold h_preview. destruct (py_int _) as [n|] eqn:P.
        + left. exists (OPreview i (param "store" r) n), []. destruct (found_answered exec (OPreview i (param "store" r) n) s i I eq_refl) as (a & E & A). exists a. split; [|auto].
          apply asks_preview; [split; auto|exact RI|apply query_is_param; reflexivity|]. destruct (param "count" r) as [c|] eqn:C; [left; exists c; split; [apply query_is_param; auto|apply py_int_iff, P]|right; split; [apply query_is_param; auto|]]. injection P as <-. reflexivity.
        + right. split; [|exists Crashed; split; [reflexivity|exact I]]. intros o A. pose proof (asks_shape r o A) as SH. rewrite S, M in SH. destruct A as [| | | |id st n AP RO Q [(c & QC & IT)|[QC ->]]| | | | | |]; try discriminate; apply query_is_param in QC; rewrite <- QC in P; [apply py_int_iff in IT; congruence|discriminate].
      - rewrite M. cbn [String.eqb Ascii.eqb Bool.eqb]. right. apply NO; [exact I|]. rewrite M. intros [] _; cbn; congruence. }
    destruct (String.eqb_spec (r_method r) "POST") as [M|NP]; [|right; apply NO; [exact I|]; intros [] _; cbn; congruence].
    unfold h_action. destruct (json_body r) as [b|] eqn:B.
    2: { right. split; [|exists Crashed; split; [reflexivity|exact I]]. intros o A. pose proof (asks_shape r o A) as SH. rewrite S, M in SH. destruct A; try discriminate; match goal with H : body_is r _ |- _ => apply json_body_is in H; congruence end. }
    apply json_body_is in B.
    destruct (String.eqb_spec act "run") as [->|A1]; [left; set (o := ORun i _ _ _); exists o, []; destruct (action_answered exec o s i I eq_refl) as (a & E & A); exists a; split; [|auto]; eapply asks_run; [split; auto|exact RI|exact B|apply entry_is_field; reflexivity|apply flag_is_flag; reflexivity|apply flag_is_flag; reflexivity]|].
    destruct (String.eqb_spec act "pause") as [->|A2]; [left; set (o := OPause i _); exists o, []; destruct (action_answered exec o s i I eq_refl) as (a & E & A); exists a; split; [|auto]; eapply asks_pause; [split; auto|exact RI|exact B|apply entry_is_field; reflexivity]|].
    destruct (String.eqb_spec act "resume") as [->|A3]; [left; set (o := OResume i _); exists o, []; destruct (action_answered exec o s i I eq_refl) as (a & E & A); exists a; split; [|auto]; eapply asks_resume; [split; auto|exact RI|exact B|apply entry_is_field; reflexivity]|].
    destruct (String.eqb_spec act "remove") as [->|A4]; [left; set (o := ORemove i _); exists o, []; destruct (action_answered exec o s i I eq_refl) as (a & E & A); exists a; split; [|auto]; eapply asks_remove; [split; auto|exact RI|exact B|apply entry_is_field; reflexivity]|].
    right. apply NO; [rewrite error_body; right; auto|]. intros o' A. pose proof (asks_shape r o' A) as SH. rewrite S, M in SH. destruct o'; cbn in SH |- *; try congruence.
Qed.

(** The call asked for is determined by the request, up to the order of the keywords of add_task. *)
Definition same_call (o1 o2 : op) : Prop :=
  match o1, o2 with OAdd f1 t1 k1 g1, OAdd f2 t2 k2 g2 => f1 = f2 /\ t1 = t2 /\ g1 = g2 /\ forall k j, In (k, j) k1 <-> In (k, j) k2 | _, _ => o1 = o2 end.
Lemma dictionary_unique b k d1 d2 : dictionary_is b k d1 -> dictionary_is b k d2 -> d1 = d2.
Proof.
  intros (j1 & E1 & H1) (j2 & E2 & H2). apply entry_is_field in E1. apply entry_is_field in E2. assert (j1 = j2) by congruence. clear E1 E2. subst j2.
  assert (X : forall d, falsy (JObj d) -> d = []) by (intros d F; apply truthy_falsy in F; destruct d; [reflexivity|discriminate]).
  destruct H1 as [[F1 ->]| ->], H2 as [[F2 ->]|E]; try reflexivity; [subst; symmetry; auto|auto|congruence].
Qed.
Theorem C78_unambiguous r o1 o2 : asks r o1 -> asks r o2 -> same_call o1 o2.
Proof.
  intros A1 A2. pose proof (asks_shape _ _ A1) as S1. pose proof (asks_shape _ _ A2) as S2. rewrite S1 in S2. clear S1.
  assert (BU : forall b b', body_is r b -> body_is r b' -> b' = b) by (intros b b' H1 H2; apply json_body_is in H1; apply json_body_is in H2; congruence).
  destruct A1; destruct A2; try discriminate S2; try (injection S2 as <-); cbn [same_call];
    repeat match goal with H1 : body_is r ?b, H2 : body_is r ?b' |- _ => lazymatch b with b' => fail | _ => pose proof (BU _ _ H1 H2); subst b'; clear H2 end end;
    repeat match goal with H : query_is _ _ _ |- _ => apply query_is_param in H | H : entry_is _ _ _ |- _ => apply entry_is_field in H | H : flag_is _ _ _ |- _ => apply flag_is_flag in H end; try congruence.
  - match goal with |- OList _ _ _ _ _ ?x ?d = OList _ _ _ _ _ ?y ?d' => assert (x = y /\ d = d') as [<- <-]; [split|congruence] end.
    + repeat match goal with H : _ \/ _ |- _ => destruct H as [H|[H ?]]; apply query_is_param in H end; congruence.
    + destruct desc, desc0; try reflexivity; exfalso; [assert (false = true) by tauto|assert (false = true) by tauto]; discriminate.
  - assert (n = n0); [|congruence]. repeat match goal with H : _ \/ _ |- _ => destruct H as [(? & H & ?)|[H ?]]; apply query_is_param in H end; try congruence.
    repeat match goal with H : int_text _ _ |- _ => apply py_int_iff in H end. congruence.
  - split; [congruence|]. split; [|split; [eapply dictionary_unique; eassumption|]].
    + repeat match goal with H : exists p, entry_is _ _ _ /\ _ |- _ => destruct H as (? & H & H'); apply entry_is_field in H; destruct H' as [[? (? & ? & ->)]|[? (? & ? & ->)]] end;
      repeat match goal with H : entry_is _ _ _ |- _ => apply entry_is_field in H end; subst; try contradiction; congruence.
    + intros k j. match goal with K1 : keywords_are _ kw, K2 : keywords_are _ kw0 |- _ => destruct K1 as [_ K1], K2 as [_ K2]; rewrite K1, K2; tauto end.
  - f_equal; [congruence|eapply dictionary_unique; eassumption].
Qed.
(** an action there is none of is answered with 404 and its name *)
Theorem C78_unknown_action {St} (exec : op -> St -> St * outcome) token r s id action b :
  carries token r -> at_path r "POST" ("/tasks/" ++ id ++ "/" ++ action) -> routable id -> routable action -> body_is r b ->
  ~ In action ["run"; "pause"; "resume"; "remove"]%string ->
  worker exec token r s = (s, [], Answer 404 (JObj [("error", JStr "ValueError"); ("message", JStr ("Unsupported task action: " ++ action))]%string)).
Proof.
  intros C [M P] [RI1 RI2] [RA1 RA2] B N. apply carries_allowed in C. apply json_body_is in B.
  destruct (split_slash id RI2) as [_ S1]. destruct (split_slash action RA2) as [S2 _].
  assert (S : split_on "/" (unquote (r_path r)) = [""; "tasks"; id; action]%string).
  { rewrite P. change ("/tasks/" ++ id ++ "/" ++ action)%string with (String "/" ("tasks" ++ String "/" (id ++ String "/" action)))%string. cbn [split_on Ascii.eqb Bool.eqb]. 
    destruct (split_slash "tasks"%string) as [_ S3]. { intros [|? [|? [|? [|? [|? [|? ?]]]]]] v; cbn; congruence. } rewrite S3, S1, S2. reflexivity. }
  unfold worker. rewrite S, C, M. destruct (String.eqb_spec id ""); [contradiction|]. destruct (String.eqb_spec action ""); [contradiction|]. cbn [String.eqb Ascii.eqb Bool.eqb negb andb].
  unfold h_action. rewrite B. repeat match goal with |- context [String.eqb action ?x] => destruct (String.eqb_spec action x); [exfalso; apply N; subst; cbn; auto|] end. reflexivity.
Qed.
Print Assumptions C78_unknown_action.
(** a request that runs a task, one that lists tasks and one with an action there is none of *)
Definition ex_run : request := MkReq "POST" "/tasks/daily%20report/run" [("X-Asyncz-Remote-Token", "k")]%string [] (Some (JObj [("force", JNum 0)])%string).
Example C78_asks : carries (Some "k"%string) ex_run /\ followed ex_run /\ asks ex_run (ORun "daily report" JNull false true).
Proof.
  split; [exists [], "X-Asyncz-Remote-Token"%string, []; split; [reflexivity|split; [reflexivity|intros ? ? []]]|]. split.
  - intros b H. apply json_body_is in H. injection H as <-. split; [intros k l [<-|[<-|[]]] [_ E]|intros j E]; apply entry_is_field in E; cbn in E; try discriminate. left. subst. cbn. auto.
  - eapply (asks_run _ _ [("force", JNum 0)]%string); [split; reflexivity| |left; reflexivity|apply entry_is_field; reflexivity|apply flag_is_flag; reflexivity|apply flag_is_flag; reflexivity].
    split; [discriminate|]. intros u v E. do 12 (destruct u as [|? u]; [discriminate|injection E as _ E]). destruct u; discriminate.
Qed.
Example C78_run : worker (fun o n => (Datatypes.S n, Raised (MkExc "MaximumInstancesError" "full" "daily report" 3))) (Some "k"%string) ex_run 0%nat
  = (1%nat, [EOp (ORun "daily report" JNull false true)], Answer 409 (JObj [("error", JStr "MaximumInstancesError"); ("message", JStr "full"); ("task_id", JStr "daily report"); ("max_instances", JNum 3)])%string).
Proof. reflexivity. Qed.
Example C78_no_such_action r : r = MkReq "POST" "/tasks/t/explode" [] [] None -> forall o, ~ asks r o.
Proof. intros -> o A. pose proof (asks_shape _ _ A) as S. destruct o; discriminate S. Qed.
