(** C50, C61, C62: the remote scheduler. *)
From Verif Require Import Prelude PreludeFacts Text CronParse CronParseSpec PropCronText Forms FormsSpec PropForms PropForms2 Remote RemoteSpec.
Open Scope Z_scope.

(** *** paths *)
Lemma hex_round a : hex_value (hex_digit (N_of_ascii a / 16)) = Some (N_of_ascii a / 16)%N /\ hex_value (hex_digit (N_of_ascii a mod 16)) = Some (N_of_ascii a mod 16)%N /\ ascii_of_N (16 * (N_of_ascii a / 16) + N_of_ascii a mod 16) = a.
Proof. destruct a as [[] [] [] [] [] [] [] []]; vm_compute; auto. Qed.
Lemma unquote_quote s : unquote (quote s) = s.
Proof.
  induction s as [|a s IH]; auto. cbn [quote]. destruct (unreserved a) eqn:U.
  - cbn [unquote]. destruct (Ascii.eqb_spec a "%") as [->|]; [discriminate|]. rewrite IH. auto.
  - cbn [unquote Ascii.eqb Bool.eqb]. destruct (hex_round a) as (-> & -> & ->). rewrite IH. auto.
Qed.
Lemma unquote_app s : forall t, (forall u v, s <> (u ++ "%" ++ v)%string) -> unquote (s ++ t) = (s ++ unquote t)%string.
Proof.
  induction s as [|a s IH]; intros t N; auto. cbn [append unquote]. destruct (Ascii.eqb_spec a "%") as [->|NE]; [destruct (N ""%string s); auto|]. f_equal. apply IH. intros u v E. apply (N (String a u) v). rewrite E. reflexivity.
Qed.
Lemma unquote_quote_app s t : unquote (quote s ++ t) = (s ++ unquote t)%string.
Proof.
  induction s as [|a s IH]; auto. cbn [quote]. destruct (unreserved a) eqn:U.
  - cbn [append unquote]. destruct (Ascii.eqb_spec a "%") as [->|]; [discriminate|]. rewrite IH. auto.
  - cbn [append unquote Ascii.eqb Bool.eqb]. destruct (hex_round a) as (-> & -> & ->). rewrite IH. auto.
Qed.
Lemma split_slash u : (forall x v, u <> (x ++ "/" ++ v)%string) -> split_on "/" u = [u] /\ forall t, split_on "/" (u ++ String "/" t) = u :: split_on "/" t.
Proof.
  induction u as [|a u IH]; intros N; [cbn; auto|]. destruct IH as [A B]; [intros x v E; apply (N (String a x) v); rewrite E; reflexivity|]. cbn [split_on append]. destruct (Ascii.eqb_spec a "/") as [->|NE]; [destruct (N ""%string u); auto|].
  rewrite A. split; auto. intros t. rewrite B. auto.
Qed.
Lemma route id tail : routable id -> split_on "/" (unquote (task_path id (if String.eqb tail "" then "" else String "/" tail))) = ""%string :: "tasks"%string :: id :: (if String.eqb tail "" then [] else split_on "/" (unquote tail)).
Proof.
  intros [N S]. destruct (split_slash id S) as [A B]. unfold task_path. cbn [append]. cbn [unquote Ascii.eqb Bool.eqb]. rewrite unquote_quote_app. cbn [split_on Ascii.eqb Bool.eqb].
  destruct (String.eqb tail "") eqn:E.
  - cbn [unquote]. rewrite app_nil_s, A. auto.
  - cbn [unquote Ascii.eqb Bool.eqb]. rewrite B. auto.
Qed.
Lemma show_nat_grouped f : forall n, 0 <= n -> n < Z.of_nat f -> grouped (show_nat f n) n.
Proof.
  induction f as [|f IH]; intros n L H; [lia|]. cbn [show_nat]. assert (D : forall k, 0 <= k < 10 -> digit k (ascii_of_N (Z.to_N (48 + k)))) by (intros k K; split; [lia|]; assert (C : k = 0 \/ k = 1 \/ k = 2 \/ k = 3 \/ k = 4 \/ k = 5 \/ k = 6 \/ k = 7 \/ k = 8 \/ k = 9) by lia; repeat (destruct C as [->|C]; [reflexivity|]); subst; reflexivity).
  destruct (Z.ltb_spec n 10); [constructor; apply D; lia|]. pose proof (Z.div_mod n 10 ltac:(lia)) as E. rewrite E at 3. constructor; [|apply D; apply Z.mod_pos_bound; lia]. apply IH; [apply Z.div_pos; lia|]. assert (n / 10 < n) by (apply Z.div_lt; lia). lia.
Qed.
Lemma show_int_int n : py_int (show_int n) = Some n.
Proof.
  apply py_int_iff. exists ""%string, (show_int n), ""%string. cbn. rewrite app_nil_s. split; auto. split; auto. split; auto. unfold show_int. destruct (Z.ltb_spec n 0).
  - replace n with (- - n) at 3 by lia. apply s_minus. apply show_nat_grouped; lia.
  - apply s_plain. apply show_nat_grouped; lia.
Qed.
Lemma show_int_some n : exists a s, show_int n = String a s.
Proof. pose proof (show_int_int n) as H. destruct (show_int n); [discriminate|eauto]. Qed.

(** *** the token *)
Definition unauthorized : response := Answer 401 (JObj [("error", JStr "Unauthorized"); ("message", JStr "Invalid remote token.")])%string.
(** C50.  A request that does not carry the configured token changes nothing, calls nothing on the scheduler
    and unpickles nothing: the answer is 401 or "no such route". *)
Theorem C50_rejected {St} (exec : op -> St -> St * outcome) t r s :
  ~ (exists k, lower k = "x-asyncz-remote-token"%string /\ In (k, t) (r_headers r)) ->
  worker exec (Some t) r s = (s, [], unauthorized) \/ worker exec (Some t) r s = (s, [], NoRoute).
Proof.
  intros N. assert (A : allowed (Some t) r = false).
  { unfold allowed. destruct (header _ (r_headers r)) as [h|] eqn:H; auto. apply String.eqb_neq. intros ->. apply N. clear N. induction (r_headers r) as [|[k v] l IH]; [discriminate|]. cbn in H.
    destruct (String.eqb_spec (lower k) "x-asyncz-remote-token"); [injection H as ->; exists k; cbn; auto|]. destruct (IH H) as (k' & E & I). exists k'. cbn. auto. }
  unfold worker. rewrite A. cbv zeta. unfold ret.
  destruct (split_on "/" (unquote (r_path r))) as [|e [|x [|i [|act [|? ?]]]]]; auto; repeat match goal with |- context [if ?x then _ else _] => destruct x; auto end.
Qed.
(** where the calls of the client arrive *)
Definition arrives {St} (exec : op -> St -> St * outcome) (c : call) (r : request) (s : St) : St * list effect * response :=
  match c with
  | CInfo => bare exec OInfo s success | CInstances => bare exec OInstances s success
  | CList _ _ _ _ _ _ _ => h_list exec r s | CAdd _ => h_add exec r s
  | CTask i _ => h_task exec i r s | CPreview i _ _ _ => h_preview exec i r s | CUpdate i _ _ => h_update exec i r s
  | CRun i _ _ _ => h_action exec i "run" r s | CPause i _ => h_action exec i "pause" r s | CResume i _ => h_action exec i "resume" r s | CDelete i _ => h_action exec i "remove" r s
  end.
Lemma routed {St} (exec : op -> St -> St * outcome) wt tok c s : (forall i, target c = Some i -> routable i) ->
  worker exec wt (request_of tok c) s = if allowed wt (request_of tok c) then arrives exec c (request_of tok c) s else (s, [], unauthorized).
Proof.
  intros RT. assert (SP : split_on "/" (unquote (r_path (request_of tok c))) =
    (""%string :: match c with CInfo => ["info"] | CInstances => ["instances"] | CList _ _ _ _ _ _ _ | CAdd _ => ["tasks"] | CTask i _ | CUpdate i _ _ => ["tasks"; i] | CPreview i _ _ _ => ["tasks"; i; "preview"]
      | CRun i _ _ _ => ["tasks"; i; "run"] | CPause i _ => ["tasks"; i; "pause"] | CResume i _ => ["tasks"; i; "resume"] | CDelete i _ => ["tasks"; i; "remove"] end%string)).
  { destruct c; try reflexivity; cbn [request_of r_path]; match goal with |- context [task_path ?i ?t] => 
      match t with EmptyString => apply (route i "") | String _ ?tl => apply (route i tl) end end; apply RT; reflexivity. }
  unfold worker. rewrite SP. cbv zeta. unfold ret.
  destruct c; try reflexivity; specialize (RT _ eq_refl); destruct RT as [N _]; apply String.eqb_neq in N; cbn [String.eqb Ascii.eqb Bool.eqb andb negb]; rewrite N; reflexivity.
Qed.
(** A client without the token gets that refusal as an error, and its call is not made. *)
Theorem C50_client {St} (exec : op -> St -> St * outcome) t tok c s : tok <> Some t -> (forall i, target c = Some i -> routable i) ->
  remote exec (Some t) tok c s = (s, [], XRemote "Invalid remote token.").
Proof.
  intros N RT. unfold remote. rewrite routed by auto. assert (allowed (Some t) (request_of tok c) = false) as ->; [|destruct c; reflexivity].
  assert (HD : r_headers (request_of tok c) = headers tok) by (destruct c; auto). unfold allowed. rewrite HD. destruct tok as [t'|]; cbn; auto. apply String.eqb_neq. congruence.
Qed.
Lemma same_token {St} (exec : op -> St -> St * outcome) wt tok c s : wt = None \/ wt = tok -> (forall i, target c = Some i -> routable i) ->
  remote exec wt tok c s = let '(s', es, a) := arrives exec c (request_of tok c) s in (s', es, receive c a).
Proof.
  intros T RT. unfold remote. rewrite routed by auto. assert (allowed wt (request_of tok c) = true) as ->; auto.
  assert (HD : r_headers (request_of tok c) = headers tok) by (destruct c; auto). unfold allowed. destruct wt as [t|]; auto. destruct T as [|<-]; [discriminate|]. rewrite HD. cbn. apply String.eqb_refl.
Qed.
(** how an answered failure is read *)
Lemma raised_read c x status tid : ~ is_read c -> x_class x <> ""%string -> 400 <= status -> tid = target c ->
  same_failure c x (receive c (error x status tid)).
Proof.
  intros NR NE ST ->. unfold error. cbv zeta.
  assert (C : forall body, receive c (Answer status body) = raise_remote body) by (intros body; unfold receive; assert (status <? 400 = false) as -> by (apply Z.ltb_ge; auto); destruct c; auto; destruct NR; exact I). rewrite C. clear C.
  destruct x as [cl tx tk tot]. cbn [x_class x_text x_task x_total] in *. set (b := if String.eqb cl "MaximumInstancesError" then _ else _).
  assert (E : field_of "error" b = JStr cl) by (unfold b; destruct (String.eqb cl "MaximumInstancesError"); reflexivity).
  assert (M : field_of "message" b = JStr tx) by (unfold b; destruct (String.eqb cl "MaximumInstancesError"); reflexivity).
  assert (MS : match field_of "message" b with JStr (String a s) => String a s | _ => match JStr cl with JStr (String a s) => String a s | _ => "Remote scheduler error."%string end end = shown (MkExc cl tx tk tot)).
  { rewrite M. unfold shown. cbn [x_text x_class]. destruct tx as [|a tx]; auto. destruct cl; [congruence|auto]. }
  unfold raise_remote. cbv zeta. rewrite E, MS.
  destruct (String.eqb_spec cl "TaskLookupError") as [->|N1].
  { replace (field_of "task_id" b) with (opt_json (target c)); [apply sf_lookup; auto|]. unfold b. destruct (target c); reflexivity. }
  destruct (String.eqb_spec cl "SchedulerNotRunningError") as [->|N2]; [apply sf_stopped; auto|].
  destruct (String.eqb_spec cl "MaximumInstancesError") as [->|N3].
  { unfold b. cbn. destruct tk as [|a tk]; [apply (sf_max c (MkExc "MaximumInstancesError" tx "" tot)); auto|apply (sf_max c (MkExc "MaximumInstancesError" tx (String a tk) tot)); auto]. }
  destruct (String.eqb_spec cl "ValueError") as [->|N4]; [apply sf_value; auto|]. apply sf_other; auto. cbn. intuition congruence.
Qed.
Lemma param_query k o l tok m p b : named o -> param k (MkReq m p (headers tok) (query_of ((k, o) :: l)) b) = match o with Some _ => o | None => param k (MkReq m p (headers tok) (query_of l) b) end.
Proof. intros N. unfold param. cbn [r_query query_of flat_map snd fst]. destruct o as [[|a o]|]; [destruct N; auto| |auto]. cbn. rewrite String.eqb_refl. auto. Qed.
Lemma param_skip k k' o l tok m p b : k <> k' -> param k (MkReq m p (headers tok) (query_of ((k', o) :: l)) b) = param k (MkReq m p (headers tok) (query_of l) b).
Proof. intros N. unfold param. cbn [r_query query_of flat_map snd fst]. destruct o as [[|a o]|]; auto. cbn. destruct (String.eqb_spec k k'); [congruence|auto]. Qed.
Lemma dget_query_skip k k' o l : k <> k' -> dget k (query_of ((k', o) :: l)) = dget k (query_of l).
Proof. intros N. cbn [query_of flat_map snd fst]. destruct o as [[|a o]|]; auto. cbn. destruct (String.eqb_spec k k'); [congruence|auto]. Qed.
(** C61.  Through the client, every call other than add_task does on the worker's scheduler exactly the call the
    same code would make locally, once, and brings back what it returned or the matching failure. *)
Theorem C61_same_as_local {St} (exec : op -> St -> St * outcome) wt tok c s : wt = None \/ wt = tok -> ordinary c ->
  (forall x, snd (exec (local_op c) s) = Raised x -> x_class x <> ""%string) ->
  exists g, remote exec wt tok c s = (fst (exec (local_op c) s), [EOp (local_op c)], g) /\
    match snd (exec (local_op c) s) with Ret j => g = Got j | Raised x => same_failure c x g end.
Proof.
  intros T [RT O] XC. rewrite same_token by auto.
  assert (GU : forall o h, o = local_op c -> ~ is_read c -> (forall x, x_class x <> ""%string -> same_failure c x (receive c (h x))) ->
     exists g, (let '(s', es, a) := guarded exec o s h in (s', es, receive c a)) = (fst (exec (local_op c) s), [EOp (local_op c)], g) /\ match snd (exec (local_op c) s) with Ret j => g = Got j | Raised x => same_failure c x g end).
  { intros o h -> NR H. unfold guarded. destruct (exec (local_op c) s) as [s' [j|x]]; cbn [fst snd] in *; (eexists; split; [reflexivity|]); [destruct c; reflexivity|apply H; auto]. }
  assert (BA : forall o k, o = local_op c -> is_read c -> (forall j, receive c (k j) = Got j) ->
     exists g, (let '(s', es, a) := bare exec o s k in (s', es, receive c a)) = (fst (exec (local_op c) s), [EOp (local_op c)], g) /\ match snd (exec (local_op c) s) with Ret j => g = Got j | Raised x => same_failure c x g end).
  { intros o k -> R H. unfold bare. destruct (exec (local_op c) s) as [s' [j|x]]; cbn [fst snd] in *; (eexists; split; [reflexivity|]); [apply H|apply sf_read; auto]. }
  assert (ACT : forall id, target c = Some id -> ~ is_read c -> forall x, x_class x <> ""%string -> same_failure c x (receive c (action_error id x))).
  { intros id TI NR x NE. unfold action_error. destruct (String.eqb (x_class x) "TaskLookupError"); [|destruct (String.eqb (x_class x) "SchedulerNotRunningError"); [|destruct (String.eqb (x_class x) "MaximumInstancesError")]]; apply raised_read; auto; lia. }
  destruct c as [| |st state ex tr q sort desc|id st|id st n now|a|id st u|id st f rf|id st|id st|id st]; cbn [arrives].
  - apply BA; auto; exact I.
  - apply BA; auto; exact I.
  - destruct O as (O1 & O2 & O3 & O4 & O5 & O6). unfold h_list. apply GU; [|intros []|intros x NE; apply raised_read; auto; try lia; intros []].
    cbn [request_of local_op]. assert (NS : named (Some sort)) by (intros [= E]; congruence). cbn [r_query].
    rewrite (param_query "store" st) by auto. rewrite !(param_skip "schedule_state") by discriminate. rewrite (param_query "schedule_state" state) by auto.
    rewrite !(param_skip "executor") by discriminate. rewrite (param_query "executor" ex) by auto. rewrite !(param_skip "trigger") by discriminate. rewrite (param_query "trigger" tr) by auto.
    rewrite !(param_skip "q") by discriminate. rewrite (param_query "q" q) by auto. rewrite !(param_skip "sort_by") by discriminate. rewrite (param_query "sort_by" (Some sort)) by auto.
    rewrite !(param_skip "store") by discriminate. rewrite !(param_skip "schedule_state") by discriminate. rewrite !(param_skip "executor") by discriminate. rewrite !(param_skip "trigger") by discriminate. rewrite !(param_skip "q") by discriminate.
    rewrite !(dget_query_skip "descending") by discriminate.
    f_equal; try (match goal with |- match ?o with _ => _ end = _ => destruct o; reflexivity end). destruct desc; reflexivity.
  - unfold h_task. apply BA; [|exact I|intros j; destruct j; reflexivity]. cbn [request_of local_op]. unfold q_store. rewrite (param_query "store" st) by auto. destruct st; reflexivity.
  - unfold h_preview. assert (PC : param "count" (request_of tok (CPreview id st n now)) = Some (show_int n)).
    { unfold param. cbn [request_of r_query dget]. rewrite String.eqb_refl. destruct (show_int_some n) as (a & x & ->). auto. }
    rewrite PC, show_int_int. apply BA; [|exact I|intros j; destruct j; reflexivity]. cbn [request_of local_op]. f_equal. unfold param. cbn [r_query dget]. cbn [String.eqb Ascii.eqb Bool.eqb].
    unfold q_store. cbn. destruct st as [[|a st]|]; [destruct O; auto|destruct now; auto|destruct now; auto].
  - destruct O.
  - unfold h_update. cbn [request_of json_body r_body]. cbn [field_of dget String.eqb Ascii.eqb Bool.eqb]. assert (AD : as_dict (JObj u) = Some u) by (destruct u; reflexivity). rewrite AD.
    apply GU; [reflexivity|intros []|]. intros x NE. destruct (String.eqb (x_class x) "TaskLookupError"); apply raised_read; auto; try lia; intros [].
  - unfold h_action. cbn [request_of json_body r_body]. apply GU; [reflexivity|intros []|]. apply ACT; [reflexivity|intros []].
  - unfold h_action. cbn [request_of json_body r_body]. apply GU; [reflexivity|intros []|]. apply ACT; [reflexivity|intros []].
  - unfold h_action. cbn [request_of json_body r_body]. apply GU; [reflexivity|intros []|]. apply ACT; [reflexivity|intros []].
  - unfold h_action. cbn [request_of json_body r_body]. apply GU; [reflexivity|intros []|]. apply ACT; [reflexivity|intros []].
Qed.
(** An id that is empty or contains "/" cannot be reached: whatever the call does, it is nothing to that task. *)
Lemma piece_no_slash s : forall w, In w (split_on "/" s) -> forall u v, w <> (u ++ "/" ++ v)%string.
Proof.
  induction s as [|a s IH]; cbn [split_on].
  - intros w [<-|[]] u v E. destruct u; discriminate.
  - destruct (Ascii.eqb_spec a "/") as [->|N].
    + intros w [<-|Hw]; [intros u v E; destruct u; discriminate|exact (IH w Hw)].
    + destruct (split_on "/" s) as [|w0 l].
      * intros w [<-|[]] u v E. destruct u as [|b u]; [injection E as -> _; contradiction|]. injection E as _ E. destruct u; discriminate.
      * intros w [<-|Hw]; [|exact (IH w (or_intror Hw))]. intros u v E. destruct u as [|b u]; [injection E as -> _; contradiction|].
        injection E as _ E. exact (IH w0 (or_introl eq_refl) u v E).
Qed.
Lemma worker_about {St} (exec : op -> St -> St * outcome) wt r s o i :
  In (EOp o) (snd (fst (worker exec wt r s))) -> about o = Some i -> routable i.
Proof.
  assert (B : forall o' k, In (EOp o) (snd (fst (bare exec o' s k))) -> o = o') by (intros o' k; unfold bare; destruct (exec o' s); cbn; intros [[= ->]|[]]; reflexivity).
  assert (G : forall o' k, In (EOp o) (snd (fst (guarded exec o' s k))) -> o = o') by (intros o' k; unfold guarded; destruct (exec o' s); cbn; intros [[= ->]|[]]; reflexivity).
  unfold worker. pose proof (piece_no_slash (unquote (r_path r))) as P.
  destruct (split_on "/" (unquote (r_path r))) as [|e [|x [|w [|act [|? ?]]]]]; try (intros []).
  - destruct (negb _); [intros []|]. destruct (String.eqb x "info"); [destruct (String.eqb _ _), (allowed wt r); try (intros []); intros H A; apply B in H; subst; discriminate|].
    destruct (String.eqb x "instances"); [destruct (String.eqb _ _), (allowed wt r); try (intros []); intros H A; apply B in H; subst; discriminate|].
    destruct (String.eqb x "tasks"); [|intros []]. destruct (String.eqb _ "GET").
    + destruct (allowed wt r); [|intros []]. unfold h_list. intros H A. apply G in H. subst. discriminate.
    + destruct (String.eqb _ "POST"); [|intros []]. destruct (allowed wt r); [|intros []]. unfold h_add. destruct (json_body r) as [b|]; [|intros []].
      destruct (as_dict _); [|intros []]. destruct (truthy _).
      * match goal with |- context [guarded exec ?o' s ?k] => specialize (G o' k); destruct (guarded exec o' s k) as [[s' es] a] end. cbn in *. intros [H|H] A; [discriminate|]. apply G in H. subst. discriminate.
      * intros H A. apply G in H. subst. discriminate.
  - destruct (String.eqb e "" && String.eqb x "tasks" && negb (String.eqb w ""))%bool eqn:C; [|intros []].
    assert (R : routable w).
    { apply andb_prop in C as [_ C]. split; [destruct (String.eqb_spec w ""); [discriminate|auto]|]. apply P. right; right; left; reflexivity. }
    destruct (String.eqb _ "GET").
    + destruct (allowed wt r); [|intros []]. intros H A. apply B in H. subst. injection A as <-. exact R.
    + destruct (String.eqb _ "PATCH"); [|intros []]. destruct (allowed wt r); [|intros []]. unfold h_update. destruct (json_body r); [|intros []]. destruct (as_dict _); [|intros []].
      intros H A. apply G in H. subst. injection A as <-. exact R.
  - destruct (String.eqb e "" && String.eqb x "tasks" && negb (String.eqb w "") && negb (String.eqb act ""))%bool eqn:C; [|intros []].
    assert (R : routable w).
    { apply andb_prop in C as [C _]. apply andb_prop in C as [_ C]. split; [destruct (String.eqb_spec w ""); [discriminate|auto]|]. apply P. right; right; left; reflexivity. }
    destruct (String.eqb _ "GET" && String.eqb act "preview")%bool.
    + destruct (allowed wt r); [|intros []]. unfold h_preview. destruct (py_int _); [|intros []]. intros H A. apply B in H. subst. injection A as <-. exact R.
    + destruct (String.eqb _ "POST"); [|intros []]. destruct (allowed wt r); [|intros []]. unfold h_action. destruct (json_body r); [|intros []].
      repeat match goal with |- context [if String.eqb act ?k then _ else _] => destruct (String.eqb act k); [intros H A; apply G in H; subst; injection A as <-; exact R|] end.
      intros [].
Qed.
Theorem C61_unreachable_ids {St} (exec : op -> St -> St * outcome) wt tok c s : forall i o,
  target c = Some i -> ~ routable i -> In (EOp o) (snd (fst (remote exec wt tok c s))) -> about o <> Some i.
Proof.
  intros i o T N H A. apply N. unfold remote in H. destruct (worker exec wt (request_of tok c) s) as [[s' es] a] eqn:W. cbn in H.
  apply (worker_about exec wt (request_of tok c) s o i); [rewrite W; exact H|exact A].
Qed.
(** It may even be done to another task: asking for "a/preview" asks for a preview of "a". *)
Theorem C61_slash_misroutes :
  (forall St (exec : op -> St -> St * outcome) s, snd (fst (remote exec None None (CTask "a/preview" None) s)) = [EOp (OPreview "a" None 5)]) /\
  (forall St (exec : op -> St -> St * outcome) s, remote exec None None (CPause "a/b" None) s = (s, [], XProtocol)).
Proof.
  split; intros.
  - cbv [remote]. match goal with |- context [worker exec None ?r s] => assert (E : worker exec None r s = h_preview exec "a" (request_of None (CTask "a/preview" None)) s) by reflexivity end. rewrite E. unfold h_preview.
    replace (py_int _) with (Some 5) by reflexivity. unfold bare. replace (param "store" _) with (@None string) by reflexivity. destruct (exec (OPreview "a" None 5) s) as [s' o]. reflexivity.
  - reflexivity.
Qed.
Definition not_none (f : field) : Prop := f <> Given JNull.
Definition fields_of (a : add_call) : list (string * field) :=
  [("id", a_id a); ("name", a_name a); ("mistrigger_grace_time", a_grace a); ("coalesce", a_coalesce a); ("max_instances", a_max a); ("next_run_time", a_next a); ("store", a_store a); ("executor", a_executor a)]%string.
Lemma dget_app {V} k (l1 l2 : dict V) : dget k (l1 ++ l2) = match dget k l1 with Some v => Some v | None => dget k l2 end.
Proof. induction l1 as [|[k' v] l1 IH]; auto. cbn. destruct (String.eqb k k'); auto. Qed.
Lemma dget_fields (f : field -> option json) k fs : NoDup (map fst fs) ->
  dget k (flat_map (fun kf => match f (snd kf) with Some j => [(fst kf, j)] | None => [] end) fs) = match dget k fs with Some x => f x | None => None end.
Proof.
  induction fs as [|[k' x] fs IH]; auto. cbn [map fst]. intros ND. inversion ND as [|? ? NI ND']; subst. cbn [flat_map snd fst]. rewrite dget_app, IH by auto. cbn [dget].
  destruct (String.eqb_spec k k') as [->|N]; [|destruct (f x); cbn; [destruct (String.eqb_spec k k'); [congruence|auto]|auto]].
  destruct (f x); cbn; [rewrite String.eqb_refl; auto|]. assert (dget k' fs = None) as -> by (apply dget_None; auto). auto.
Qed.
Lemma dget_kept k b : dget k (kept b) = if existsb (String.eqb k) ADD_KEYS then dget k b else None.
Proof.
  unfold kept. generalize ADD_KEYS. induction l as [|k' l IH]; auto. cbn [flat_map existsb]. rewrite dget_app, IH. destruct (String.eqb_spec k k') as [->|N].
  - destruct (dget k' b) as [j|] eqn:D; [cbn; rewrite String.eqb_refl; auto|]. cbn. destruct (existsb _ l); auto.
  - destruct (dget k' b) as [j|]; cbn; [destruct (String.eqb_spec k k'); [congruence|]|]; auto.
Qed.
Lemma add_without_none {St} (exec : op -> St -> St * outcome) wt tok a s : wt = None \/ wt = tok ->
  not_none (a_grace a) -> not_none (a_coalesce a) -> not_none (a_max a) -> not_none (a_next a) ->
  (forall p, a_trigger a = AnObject p -> a_targs a = [] /\ p <> ""%string) ->
  exists o es g, remote exec wt tok (CAdd a) s = (fst (exec o s), es ++ [EOp o], g) /\
    (forall p, In (EUnpickle p) es <-> a_trigger a = AnObject p) /\
    same_addition o (local_op (CAdd a)) /\
    match snd (exec o s) with Ret j => g = Got j | Raised x => x_class x <> ""%string -> same_failure (CAdd a) x g end.
Proof.
  intros T NG NC NM NN TO. rewrite same_token by (auto; discriminate). cbn [arrives]. unfold h_add. cbn [request_of json_body r_body].
  assert (ND : NoDup (map fst (fields_of a))) by (repeat constructor; cbn; intuition discriminate).
  assert (PF : forall k, dget k (payload_fields a) = match dget k (fields_of a) with Some (Given JNull) | Some Undefined | None => None | Some (Given j) => Some j end).
  { intros k. transitivity (dget k (flat_map (fun kf => match (match snd kf with Given JNull | Undefined => None | Given j => Some j end) with Some j => [(fst kf, j)] | None => [] end) (fields_of a))).
    - f_equal. unfold payload_fields, fields_of. apply flat_map_ext. intros [x [|[]]]; reflexivity.
    - rewrite (dget_fields (fun f => match f with Given JNull | Undefined => None | Given j => Some j end)) by auto. destruct (dget k (fields_of a)) as [[|[]]|]; reflexivity. }
  assert (GF : forall k, dget k (given_fields a) = match dget k (fields_of a) with Some (Given j) => Some j | _ => None end).
  { intros k. transitivity (dget k (flat_map (fun kf => match (match snd kf with Undefined => None | Given j => Some j end) with Some j => [(fst kf, j)] | None => [] end) (fields_of a))).
    - f_equal. unfold given_fields, fields_of. apply flat_map_ext. intros [x [|j]]; reflexivity.
    - rewrite (dget_fields (fun f => match f with Undefined => None | Given j => Some j end)) by auto. destruct (dget k (fields_of a)) as [[|]|]; reflexivity. }
  set (pay := add_payload a). assert (PAY : forall k, ~ In k ["fn"; "trigger"; "trigger_args"; "trigger_pickle"]%string -> dget k pay = dget k ([("args", JArr (a_args a)); ("kwargs", JObj (a_kwargs a)); ("replace_existing", JBool (a_replace a))]%string ++ payload_fields a)).
  { intros k NI. unfold pay, add_payload. rewrite !dget_app. cbn [dget]. destruct (String.eqb_spec k "fn"); [destruct NI; cbn; auto|]. destruct (String.eqb k "args"); auto. destruct (String.eqb k "kwargs"); auto. destruct (String.eqb k "replace_existing"); auto.
    destruct (a_trigger a); cbn [dget]; [destruct (String.eqb_spec k "trigger"); [destruct NI; cbn; auto|]; destruct (String.eqb_spec k "trigger_args"); [destruct NI; cbn; auto|auto]|destruct (String.eqb_spec k "trigger_pickle"); [destruct NI; cbn; auto 6|auto]]. }
  assert (KD : forall k, argument k (kept pay) = argument k ([("args", JArr (a_args a)); ("kwargs", JObj (a_kwargs a)); ("replace_existing", JBool (a_replace a))]%string ++ given_fields a)).
  { intros k. unfold argument. rewrite dget_kept, dget_app, GF. destruct (existsb (String.eqb k) ADD_KEYS) eqn:AK.
    - apply existsb_exists in AK as (k' & I & E). apply String.eqb_eq in E as <-. rewrite PAY by (cbn in I |- *; intuition (subst; discriminate)). rewrite dget_app, PF.
      cbn in I. repeat destruct I as [<-|I]; try destruct I; cbn; try reflexivity;
        repeat match goal with |- context [match ?f with Undefined => _ | Given _ => _ end] => destruct f as [|[]] eqn:?; try reflexivity; try congruence end.
    - cbn [dget]. destruct (String.eqb_spec k "args") as [->|]; [discriminate|]. destruct (String.eqb_spec k "kwargs") as [->|]; [discriminate|]. destruct (String.eqb_spec k "replace_existing") as [->|]; [discriminate|].
      assert (dget k (fields_of a) = None) as ->; [|auto]. apply dget_None. intros I. assert (existsb (String.eqb k) ADD_KEYS = true); [|congruence]. apply existsb_exists. exists k. split; [|apply String.eqb_refl]. cbn in I |- *. tauto. }
  assert (F1 : field_of "fn" pay = JStr (a_fn a)) by reflexivity.
  assert (FT : field_of "trigger_pickle" pay = match a_trigger a with AnObject p => JStr p | _ => JNull end).
  { unfold field_of, pay, add_payload. rewrite !dget_app, PF. cbn. destruct (a_trigger a); reflexivity. }
  assert (FA : as_dict (field_of "trigger_args" pay) = Some (match a_trigger a with ByName _ => a_targs a | _ => [] end)).
  { unfold field_of, pay, add_payload. rewrite !dget_app, PF. cbn. destruct (a_trigger a); cbn; [destruct (a_targs a)|]; reflexivity. }
  rewrite FA, FT. destruct (a_trigger a) as [n|p] eqn:TR.
  - assert (FN : field_of "trigger" pay = opt_json n) by (unfold field_of, pay, add_payload; rewrite TR; reflexivity). cbn [truthy]. rewrite F1, FN. unfold guarded.
    exists (OAdd (JStr (a_fn a)) (TJson (opt_json n)) (kept pay) (a_targs a)), []. destruct (exec _ s) as [s' out]. cbn [fst snd]. eexists. split; [reflexivity|]. split; [intros p; split; [intros []|discriminate]|]. split; [cbn [local_op same_addition]; rewrite TR; auto|].
    destruct out as [j|x]; [reflexivity|]. intros NE. apply raised_read; auto; lia.
  - destruct (TO p eq_refl) as [TG PN]. assert (TP : truthy (JStr p) = true) by (cbn; destruct (String.eqb_spec p ""); [congruence|auto]). rewrite TP, F1. cbn [as_text]. unfold guarded.
    exists (OAdd (JStr (a_fn a)) (TUnpickled p) (kept pay) []), [EUnpickle p]. destruct (exec _ s) as [s' out]. cbn [fst snd]. eexists. split; [reflexivity|]. split; [intros p'; cbn; split; [intros [[= <-]|[]]; auto|intros [= <-]; auto]|]. split; [cbn [local_op same_addition]; rewrite TR, TG; auto|].
    destruct out as [j|x]; [reflexivity|]. intros NE. apply raised_read; auto; lia.
Qed.
(** C62.  Adding a task remotely makes the worker add the task the same local call would add, were the options
    given as None left out. *)
Theorem C62_add {St} (exec : op -> St -> St * outcome) wt tok a s : wt = None \/ wt = tok ->
  (forall p, a_trigger a = AnObject p -> a_targs a = [] /\ p <> ""%string) ->
  exists o es g, remote exec wt tok (CAdd a) s = (fst (exec o s), es ++ [EOp o], g) /\
    (forall p, In (EUnpickle p) es <-> a_trigger a = AnObject p) /\
    same_addition o (local_op (CAdd (without_none a))) /\
    match snd (exec o s) with Ret j => g = Got j | Raised x => x_class x <> ""%string -> same_failure (CAdd a) x g end.
Proof.
  intros T TO. assert (E : remote exec wt tok (CAdd a) s = remote exec wt tok (CAdd (without_none a)) s).
  { unfold remote. replace (request_of tok (CAdd (without_none a))) with (request_of tok (CAdd a)); [reflexivity|].
    cbn [request_of]. replace (add_payload (without_none a)) with (add_payload a); [reflexivity|].
    unfold add_payload. f_equal. f_equal. unfold payload_fields, without_none. cbn [a_id a_name a_grace a_coalesce a_max a_next a_store a_executor flat_map snd].
    destruct (a_grace a) as [|[]], (a_coalesce a) as [|[]], (a_max a) as [|[]], (a_next a) as [|[]]; reflexivity. }
  rewrite E. assert (D : forall f, not_none (dropped f)) by (intros [|[]]; cbn; discriminate).
  destruct (add_without_none exec wt tok (without_none a) s T (D _) (D _) (D _) (D _) TO) as (o & es & g & A & B & C & F).
  exists o, es, g. split; [exact A|]. split; [exact B|]. split; [exact C|]. destruct (snd (exec o s)) as [j|x]; [exact F|].
  intros NE. specialize (F NE). destruct F as [N X|N X|N X|N X|N X|N]; [apply (sf_lookup (CAdd a))|apply (sf_stopped (CAdd a))|apply (sf_max (CAdd a))|apply (sf_value (CAdd a))|apply (sf_other (CAdd a))|destruct N]; assumption.
Qed.
Print Assumptions C62_add.
(** An explicit None is lost: a task added paused ([next_run_time=None]) is added with the trigger's first time,
    and one without a grace time gets the scheduler's. *)
Definition paused_add : add_call := MkAdd "m:f" (ByName (Some "interval"%string)) [] [] (Given (JStr "t")) Undefined (Given JNull) Undefined Undefined (Given JNull) Undefined Undefined false [].
Theorem C62_explicit_none_is_lost :
  (forall k, In k ["next_run_time"; "mistrigger_grace_time"]%string -> match local_op (CAdd paused_add) with OAdd _ _ kw _ => argument k kw = Given JNull | _ => False end) /\
  forall St (exec : op -> St -> St * outcome) s, exists kw, snd (fst (remote exec None None (CAdd paused_add) s)) = [EOp (OAdd (JStr "m:f") (TJson (JStr "interval")) kw [])] /\
    forall k, In k ["next_run_time"; "mistrigger_grace_time"]%string -> argument k kw = Undefined.
Proof.
  split; [intros k [<-|[<-|[]]]; reflexivity|]. intros. exists (kept (add_payload paused_add)). split; [|intros k [<-|[<-|[]]]; reflexivity].
  rewrite same_token by (auto; discriminate). cbn [arrives]. unfold h_add, guarded. cbn. destruct (exec _ s). reflexivity.
Qed.
Example C61_example : ordinary (CRun "daily report %2F" None true false) /\ 
  remote (fun o s => (o :: s, match o with ORun i _ _ _ => Raised (MkExc "MaximumInstancesError" "full" i 3) | _ => Ret JNull end)) (Some "k"%string) (Some "k"%string) (CRun "daily report %2F" None true false) []
  = ([ORun "daily report %2F" JNull true false], [EOp (ORun "daily report %2F" JNull true false)], XMaxInstances "daily report %2F" 3).
Proof.
  split; [|reflexivity]. split; [|exact I]. intros i [= <-]. split; [discriminate|]. intros u v E.
  do 16 (destruct u as [|? u]; [discriminate|injection E as _ E]). destruct u; discriminate.
Qed.

(** What an incomplete error answer is taken for (of any worker): no task id, no limit, no message. *)
Theorem C61_incomplete_errors : forall c l status, 400 <= status -> ~ is_read c -> field_of "task_id" l = JNull -> field_of "max_instances" l = JNull -> field_of "message" l = JNull ->
  (field_of "error" l = JStr "MaximumInstancesError" -> receive c (Answer status (JObj l)) = XMaxInstances "unknown" 0) /\
  (field_of "error" l = JStr "TaskLookupError" -> receive c (Answer status (JObj l)) = XLookup JNull) /\
  (field_of "error" l = JStr "ValueError" -> receive c (Answer status (JObj l)) = XValue "ValueError") /\
  (field_of "error" l = JNull -> receive c (Answer status (JObj l)) = XRemote "Remote scheduler error.").
Proof.
  intros c l status S. unfold receive. destruct (Z.ltb_spec status 400); [lia|]. unfold raise_remote. intros R A B M. rewrite A, B, M. repeat split; intros ->; destruct c; try reflexivity; destruct (R Logic.I).
Qed.
Example C61_incomplete_case : receive (CRun "a" None true false) (Answer 409 (JObj [("error"%string, JStr "MaximumInstancesError")])) = XMaxInstances "unknown" 0.
Proof. apply C61_incomplete_errors; try reflexivity; [lia|intros []]. Qed.
