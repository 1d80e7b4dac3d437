(** C76: who gets past the dashboard's gate.  C77: prefixes and headers. *)
From Verif Require Import Prelude PreludeFacts Text CronParseSpec CliSpec PropCronText PropConfig PropCli Gate.
Open Scope string_scope.
Ltac sp := repeat match goal with |- _ /\ _ => split end.

(** ** specification *)
(** a path is an entry or lies below it *)
Definition under (entry path : string) : Prop := path = entry \/ exists rest, path = entry ++ "/" ++ rest.
Definition rooted (s : string) : Prop := exists t, s = "/" ++ t.
(** [c]: the path as the dashboard sees it, without the mount point [root] *)
Inductive relative (root path : string) : string -> Prop :=
| rel_mount : root <> "" -> path = root -> relative root path "/"
| rel_below rest : root <> "" -> path = root ++ rest -> rooted rest -> relative root path rest
| rel_glued rest : root <> "" -> path = root ++ rest -> rest <> "" -> ~ rooted rest -> relative root path ("/" ++ rest)
| rel_whole : (root = "" \/ ~ exists rest, path = root ++ rest) -> rooted path -> relative root path path
| rel_bare : (root = "" \/ ~ exists rest, path = root ++ rest) -> ~ rooted path -> relative root path ("/" ++ path).
(** whose session it is after some visits *)
Inductive logged_in (verify : string -> string -> option user) : list visit -> option user -> Prop :=
| li_nobody : logged_in verify [] None
| li_welcome l o n core p x u : logged_in verify l o -> trims n core -> verify core p = Some u -> logged_in verify (l ++ [Login n p x]) (Some u)
| li_refused l o n core p x : logged_in verify l o -> trims n core -> verify core p = None -> logged_in verify (l ++ [Login n p x]) o
| li_bye l o : logged_in verify l o -> logged_in verify (l ++ [Logout]) None
| li_other l o : logged_in verify l o -> logged_in verify (l ++ [Other]) o.
(** a user whose extra data are a dictionary with other keys than those of the user *)
Definition plain_user (u : user) : Prop :=
  NoDup (dkeys (us_extra u)) /\ forall k, In k (dkeys (us_extra u)) -> k <> "id" /\ k <> "name" /\ k <> "is_admin".

(** ** proofs: paths *)
Lemma str_assoc (a b c : string) : (a ++ b) ++ c = a ++ b ++ c. Proof. induction a; cbn; congruence. Qed.
Lemma str_nil (a : string) : a ++ "" = a. Proof. induction a; cbn; congruence. Qed.
Lemma without_iff p s r : without p s = Some r <-> s = p ++ r.
Proof.
  revert s. induction p as [|a p IH]; intros s; cbn; [split; congruence|]. destruct s as [|b s]; [split; discriminate|].
  destruct (Ascii.eqb_spec a b) as [->|N]; [rewrite IH; split; congruence|split; congruence].
Qed.
Lemma without_none p s : without p s = None <-> ~ exists r, s = p ++ r.
Proof.
  split.
  - intros E (r & H). apply without_iff in H. congruence.
  - intros N. destruct (without p s) as [r|] eqn:E; [|reflexivity]. apply without_iff in E. destruct N. eauto.
Qed.
Lemma rooted_iff s : starts_with "/" s = true <-> rooted s.
Proof. rewrite starts_with_iff. reflexivity. Qed.
Lemma lead_rooted s : rooted s -> lead_slash s = s.
Proof. unfold lead_slash. rewrite <- rooted_iff. intros ->. reflexivity. Qed.
Lemma lead_bare s : ~ rooted s -> lead_slash s = "/" ++ s.
Proof. unfold lead_slash. rewrite <- rooted_iff. destruct (starts_with "/" s); [intros []; reflexivity|reflexivity]. Qed.
Lemma or_slash_some s : s <> "" -> or_slash s = s. Proof. destruct s; [congruence|reflexivity]. Qed.
Lemma relative_det root path c1 c2 : relative root path c1 -> relative root path c2 -> c1 = c2.
Proof.
  assert (K : forall c, relative root path c ->
     (root <> "" /\ exists r, path = root ++ r /\ c = lead_slash (or_slash r)) \/ ((root = "" \/ ~ exists r, path = root ++ r) /\ c = lead_slash path)).
  { intros c [N E|r N E S|r N E Z S|W S|W S].
    - left. split; [exact N|]. exists "". rewrite str_nil. auto.
    - left. split; [exact N|]. exists r. split; [exact E|]. rewrite or_slash_some; [rewrite lead_rooted; auto|]. destruct S as (t & ->). discriminate.
    - left. split; [exact N|]. exists r. split; [exact E|]. rewrite or_slash_some by auto. rewrite lead_bare; auto.
    - right. rewrite lead_rooted; auto.
    - right. rewrite lead_bare; auto. }
  intros A B. apply K in A. apply K in B. destruct A as [(N & r & E & ->)|(W & ->)], B as [(N' & r' & E' & ->)|(W' & ->)].
  - assert (r = r') by (apply (append_inj root); congruence). subst. reflexivity.
  - destruct W' as [W'|W']; [congruence|destruct W'; eauto].
  - destruct W as [W|W]; [congruence|destruct W; eauto].
  - reflexivity.
Qed.
Lemma child_path_iff q c : child_path q = c <-> relative (q_root q) (or_slash (q_path q)) c.
Proof.
  assert (A : relative (q_root q) (or_slash (q_path q)) (child_path q)).
  { unfold child_path. set (path := or_slash (q_path q)). destruct (q_root q) as [|a root] eqn:R.
    - destruct (starts_with "/" path) eqn:S; [rewrite lead_rooted|rewrite lead_bare].
      + apply rel_whole; [left; reflexivity|apply rooted_iff; exact S].
      + apply rooted_iff. exact S.
      + apply rel_bare; [left; reflexivity|rewrite <- rooted_iff, S; discriminate].
      + rewrite <- rooted_iff, S. discriminate.
    - destruct (without (String a root) path) as [rest|] eqn:W.
      + apply without_iff in W. destruct rest as [|b rest].
        * rewrite str_nil in W. cbn. apply rel_mount; [discriminate|exact W].
        * rewrite or_slash_some by discriminate. destruct (starts_with "/" (String b rest)) eqn:S; [rewrite lead_rooted|rewrite lead_bare].
          -- apply rel_below; [discriminate|exact W|apply rooted_iff; exact S].
          -- apply rooted_iff. exact S.
          -- apply rel_glued; [discriminate|exact W|discriminate|rewrite <- rooted_iff, S; discriminate].
          -- rewrite <- rooted_iff, S. discriminate.
      + apply without_none in W. destruct (starts_with "/" path) eqn:S; [rewrite lead_rooted|rewrite lead_bare].
        * apply rel_whole; [right; exact W|apply rooted_iff; exact S].
        * apply rooted_iff. exact S.
        * apply rel_bare; [right; exact W|rewrite <- rooted_iff, S; discriminate].
        * rewrite <- rooted_iff, S. discriminate. }
  split; [intros <-; exact A|]. intros B. exact (relative_det _ _ _ _ A B).
Qed.
Lemma allowed_iff allow c : allowed allow c = true <-> exists e, In e allow /\ under e c.
Proof.
  unfold allowed, under. rewrite existsb_exists. split; intros (e & I & H); exists e; (split; [exact I|]).
  - apply orb_true_iff in H. rewrite String.eqb_eq, starts_with_iff in H. destruct H as [H|(r & H)]; [left; exact H|right]. exists r. rewrite H. apply str_assoc.
  - apply orb_true_iff. rewrite String.eqb_eq, starts_with_iff. destruct H as [H|(r & H)]; [left; exact H|right]. exists r. rewrite H. symmetry. apply str_assoc.
Qed.

(** ** C76 *)
Theorem C76_who_passes : forall (U : Type) allow login_path (who : option U) q c u,
  relative (q_root q) (or_slash (q_path q)) c ->
  (gate allow login_path who q = PassOn u <->
   (q_http q = false \/ exists e, In e allow /\ under e c) /\ u = None
   \/ q_http q = true /\ ~ (exists e, In e allow /\ under e c) /\ who = u /\ u <> None).
Proof.
  intros U allow lp who q c u R. apply child_path_iff in R. unfold gate. rewrite R. destruct (q_http q); cbn [negb].
  - destruct (allowed allow c) eqn:A.
    + apply allowed_iff in A. split; [intros [= <-]; left; auto|]. intros [(_ & ->)|(_ & N & _)]; [reflexivity|contradiction].
    + assert (N : ~ exists e, In e allow /\ under e c) by (rewrite <- allowed_iff, A; discriminate). destruct who as [w|].
      * split; [intros [= <-]; right; sp; auto; discriminate|]. intros [([H|H] & _)|(_ & _ & E & _)]; [discriminate|contradiction|congruence].
      * split; [discriminate|]. intros [([H|H] & _)|(_ & _ & E & Z)]; [discriminate|contradiction|congruence].
  - split; [intros [= <-]; left; auto|]. intros [(_ & ->)|(H & _)]; [reflexivity|discriminate].
Qed.
Theorem C76_others_are_sent_to_login : forall (U : Type) allow login_path (who : option U) q c status location,
  relative (q_root q) (or_slash (q_path q)) c ->
  (gate allow login_path who q = SendTo status location <->
   q_http q = true /\ ~ (exists e, In e allow /\ under e c) /\ who = None /\
   status = (if q_hx q then 401 else 303)%nat /\ location = q_root q ++ login_path ++ "?next=" ++ or_slash (q_path q)).
Proof.
  intros U allow lp who q c st lo R. apply child_path_iff in R. unfold gate. rewrite R. destruct (q_http q); cbn [negb]; [|split; [discriminate|intros (H & _); discriminate]].
  destruct (allowed allow c) eqn:A.
  - apply allowed_iff in A. split; [discriminate|]. intros (_ & N & _). contradiction.
  - assert (N : ~ exists e, In e allow /\ under e c) by (rewrite <- allowed_iff, A; discriminate). destruct who as [w|].
    + split; [discriminate|]. intros (_ & _ & E & _). discriminate.
    + split; [intros [= <- <-]; sp; auto|]. intros (_ & _ & _ & -> & ->). reflexivity.
Qed.
Lemma child_total q : exists c, relative (q_root q) (or_slash (q_path q)) c.
Proof. exists (child_path q). apply child_path_iff. reflexivity. Qed.

Lemma rstrip_slash_last s : rstrip_slash s = "" \/ exists u a, rstrip_slash s = u ++ String a "" /\ a <> "/"%char.
Proof.
  induction s as [|a s IH]; [left; reflexivity|]. cbn [rstrip_slash]. destruct IH as [->|(u & b & -> & N)].
  - destruct (Ascii.eqb_spec a "/"); [left; reflexivity|right; exists "", a; auto].
  - right. exists (String a u), b. split; [destruct u; reflexivity|exact N].
Qed.
Fixpoint slashes (n : nat) : string := match n with O => "" | Datatypes.S n => "/" ++ slashes n end.
Lemma rstrip_slashes n : rstrip_slash (slashes n) = "".
Proof. induction n; cbn; [reflexivity|]. rewrite IHn. reflexivity. Qed.
Lemma rstrip_slash_split s : exists n, s = rstrip_slash s ++ slashes n.
Proof.
  induction s as [|a s (n & IH)]; [exists 0%nat; reflexivity|]. cbn [rstrip_slash]. destruct (rstrip_slash s) as [|b r] eqn:R.
  - destruct (Ascii.eqb_spec a "/") as [->|N]; [exists (Datatypes.S n); rewrite IH at 1; reflexivity|exists n; rewrite IH at 1; reflexivity].
  - exists n. rewrite IH at 1. reflexivity.
Qed.
Lemma rstrip_slash_app u a n : a <> "/"%char -> rstrip_slash (u ++ String a (slashes n)) = u ++ String a "".
Proof.
  intros N. induction u as [|b u IH]; cbn [append rstrip_slash].
  - rewrite rstrip_slashes. destruct (Ascii.eqb_spec a "/"); [contradiction|reflexivity].
  - rewrite IH. destruct u; reflexivity.
Qed.
Lemma snoc_tail (u : string) a (t : string) : (u ++ String a "") ++ t = u ++ String a t.
Proof. induction u as [|b u IH]; cbn; congruence. Qed.

(** the pages of the dashboard, mounted under a prefix that no open path covers or lies below *)
Lemma under_apart e p rest : rooted p -> (rest = "" \/ rooted rest) -> under e (p ++ rest) -> under e p \/ under p e.
Proof.
  intros _ R U. assert (H : exists t, (t = "" \/ rooted t) /\ p ++ rest = e ++ t).
  { destruct U as [U|(t & U)]; [exists ""; rewrite str_nil; auto|exists ("/" ++ t); split; [right; exists t; reflexivity|exact U]]. }
  clear U. destruct H as (t & T & E). unfold under. revert e E. induction p as [|a p IH]; intros e E.
  - cbn in E. destruct e as [|b e]; [left; left; reflexivity|]. destruct R as [->|(r & ->)]; [discriminate|]. injection E as <- E. right. right. exists e. reflexivity.
  - destruct e as [|b e].
    + cbn in E. destruct T as [->|(t' & ->)]; [discriminate|]. injection E as -> E. left. right. exists p. reflexivity.
    + injection E as -> E. specialize (IH e E). destruct IH as [[->|(r & ->)]|[->|(r & ->)]]; [left; left; reflexivity|left; right; exists r; reflexivity|right; left; reflexivity|right; right; exists r; reflexivity].
Qed.
Theorem C76_pages_need_login_partial : forall (U : Type) allowlist url_prefix p root page q login_path,
  (exists n, url_prefix = p ++ slashes n) -> rooted p -> ~ (exists u, p = u ++ "/") ->
  (forall e, In e allowlist -> ~ under e p /\ ~ under p e) ->
  page = "" \/ rooted page -> ~ under "/static" page -> ~ under "/assets" page ->
  q_http q = true -> q_root q = root -> q_path q = root ++ p ++ page ->
  (forall w : U, gate (gate_allow allowlist url_prefix) login_path (Some w) q = PassOn (Some w)) /\
  gate (gate_allow allowlist url_prefix) login_path (@None U) q = SendTo (if q_hx q then 401 else 303)%nat (root ++ login_path ++ "?next=" ++ q_path q).
Proof.
  intros U al up p root page q lp UP' R E0 AP PG NS NA H QR QP.
  assert (RS : rstrip_slash up = p).
  { destruct UP' as (n & ->). destruct (rstrip_slash_split p) as (k & E). destruct (rstrip_slash_last p) as [L|(u & a & L & N)].
    - rewrite L in E. destruct R as (t & R). destruct k as [|k]; [rewrite E in R; discriminate|]. exfalso. apply E0. clear - E. rewrite E. clear E. cbn [append].
      induction k as [|k (u & IH)]; [exists ""; reflexivity|]. exists (String "/" u). cbn [slashes append] in *. rewrite IH. reflexivity.
    - rewrite L, snoc_tail in E. destruct k as [|k].
      + rewrite E, snoc_tail. apply rstrip_slash_app. exact N.
      + exfalso. apply E0. rewrite E. clear - k. assert (Z : exists v, slashes (Datatypes.S k) = v ++ "/") by (induction k as [|k (v & IH)]; [exists ""; reflexivity|exists (String "/" v); cbn [slashes append] in *; rewrite IH; reflexivity]).
        destruct Z as (v & ->). exists (u ++ String a v). rewrite str_assoc. reflexivity. }
  assert (GA : gate_allow al up = (al ++ [(p ++ "/static")%string; (p ++ "/assets")%string])%list) by (unfold gate_allow; rewrite RS; destruct R as (t & ->); reflexivity).
  assert (RP : rooted (p ++ page)) by (destruct R as (t & ->); exists (t ++ page); reflexivity).
  assert (QN : or_slash (q_path q) = q_path q) by (apply or_slash_some; rewrite QP; destruct R as (t & ->); destruct root; discriminate).
  assert (C : relative (q_root q) (or_slash (q_path q)) (p ++ page)).
  { rewrite QN, QR, QP. destruct root as [|a root]; [apply rel_whole; [left; reflexivity|exact RP]|]. apply rel_below; [discriminate|reflexivity|exact RP]. }
  assert (NO : ~ exists e, In e (gate_allow al up) /\ under e (p ++ page)).
  { rewrite GA. intros (e & I & UN). apply in_app_or in I. destruct I as [I|I].
    - destruct (under_apart e p page R PG UN) as [F|F]; destruct (AP e I); contradiction.
    - destruct I as [<-|[<-|[]]]; [apply NS|apply NA]; unfold under in *; destruct UN as [UN|(r & UN)]; rewrite ?str_assoc in UN; apply append_inj in UN; eauto. }
  split.
  - intros w. apply (C76_who_passes U _ lp (Some w) q _ (Some w) C). right. sp; auto. discriminate.
  - apply (C76_others_are_sent_to_login U _ lp None q _ _ _ C). rewrite QN, QR. sp; auto.
Qed.
(** false for a dashboard mounted under an open path *)
Theorem C76_open_prefix_refuted : ~ (forall (U : Type) url_prefix page q login_path,
  rooted url_prefix -> rooted page -> ~ under "/static" page -> ~ under "/assets" page ->
  q_http q = true -> q_root q = "" -> q_path q = url_prefix ++ page ->
  gate (gate_allow ["/login"; "/logout"; "/static"; "/assets"] url_prefix) login_path (@None U) q <> PassOn None).
Proof.
  intros H. apply (H unit "/assets/jobs" "/tasks" (MkRequest true "" "/assets/jobs/tasks" false) "/login"); try reflexivity; try (eexists; reflexivity).
  - intros [E|(r & E)]; discriminate.
  - intros [E|(r & E)]; discriminate.
Qed.

(** sessions *)
Lemma merge_extra (ex : dict sval) : forall d : dict sval, NoDup (dkeys ex) -> (forall k, In k (dkeys ex) -> dget k d = None) ->
  fold_left (fun d kv => dset (fst kv) (snd kv) d) ex d = (d ++ ex)%list.
Proof.
  induction ex as [|[k v] ex IH]; intros d N F; cbn [fold_left]; [symmetry; apply app_nil_r|]. inversion N as [|? ? A B]; subst. rewrite IH; auto.
  - cbn [fst snd]. rewrite dset_keys_notin; [rewrite <- app_assoc; reflexivity|]. apply dget_None. apply F. left. reflexivity.
  - intros k' I. cbn [fst snd]. rewrite dget_dset_ne; [apply F; right; exact I|]. intros ->. contradiction.
Qed.
Lemma ddel_absent (k : string) (d : dict sval) : ~ In k (dkeys d) -> ddel k d = d.
Proof. intros N. apply ddel_notin. apply dget_None. exact N. Qed.
Lemma user_kept key u s : plain_user u -> authenticate key (dset key (user_data u) s) = Ok (Some u).
Proof.
  intros (N & F). unfold authenticate. rewrite dget_dset_eq. unfold user_data.
  rewrite merge_extra; [|exact N|].
  2:{ intros k I. destruct (F k I) as (A & B & C). cbn [dget]. destruct (String.eqb_spec k "id"); [congruence|]. destruct (String.eqb_spec k "name"); [congruence|]. destruct (String.eqb_spec k "is_admin"); [congruence|reflexivity]. }
  assert (D : forall k, k = "id" \/ k = "name" \/ k = "is_admin" -> ddel k (us_extra u) = us_extra u).
  { intros k K. apply ddel_absent. intros I. destruct (F k I) as (A & B & C). destruct K as [?|[?|?]]; congruence. }
  destruct u as [i n ad ex]. cbn [us_id us_name us_admin us_extra] in *. cbn [app]. unfold user_of.
  cbn [dget String.eqb Ascii.eqb Bool.eqb]. 
  assert (X : ddel "is_admin" (ddel "name" (ddel "id" (("id", i) :: ("name", n) :: ("is_admin", ad) :: ex))) = ddel "is_admin" (ddel "name" (ddel "id" ex))) by reflexivity.
  rewrite X, (D "id"), (D "name"), (D "is_admin") by auto. reflexivity.
Qed.
Theorem C76_login_history : forall key verify index l o s,
  logged_in verify l o -> (forall n p u, verify n p = Some u -> plain_user u) -> authenticate key s = Ok None ->
  authenticate key (visits key verify index l s) = Ok o /\
  forall k, k <> key -> dget k (visits key verify index l s) = dget k s.
Proof.
  intros key verify index l o s L PL A0. induction L as [|l o n core p x u L IH T V|l o n core p x L IH T V|l o L IH|l o L IH].
  - split; [exact A0|reflexivity].
  - unfold visits in *. rewrite fold_left_app. cbn [fold_left visit_step login]. apply trims_iff in T. unfold login. rewrite T, V. cbn [fst]. destruct IH as (_ & IH). split.
    + apply user_kept. eapply PL; eauto.
    + intros k K. rewrite dget_dset_ne by auto. auto.
  - unfold visits in *. rewrite fold_left_app. cbn [fold_left visit_step login]. apply trims_iff in T. unfold login. rewrite T, V. exact IH.
  - unfold visits in *. rewrite fold_left_app. cbn [fold_left visit_step]. unfold logout. destruct IH as (_ & IH). split.
    + unfold authenticate. rewrite dget_ddel_eq. reflexivity.
    + intros k K. rewrite dget_ddel_ne by auto. auto.
  - unfold visits in *. rewrite fold_left_app. exact IH.
Qed.
Theorem C76_every_history_has_its_user : forall verify l, exists o, logged_in verify l o.
Proof.
  intros verify l. induction l as [|v l (o & IH)] using rev_ind; [exists None; constructor|]. destruct v as [n p x| |].
  - destruct (verify (strip n) p) as [u|] eqn:V; eexists; [eapply li_welcome|eapply li_refused]; eauto; apply trims_iff; reflexivity.
  - exists None. eapply li_bye; eauto.
  - exists o. apply li_other. exact IH.
Qed.
(** after a login the browser is sent where the form says, anywhere; the dashboard only if it says nothing *)
Theorem C76_where_login_leads : forall key verify index n core p x s u, trims n core -> verify core p = Some u ->
  snd (login key verify index n p x s) = Some (match x with Some (String a t) => String a t | _ => index end).
Proof. intros key verify index n core p x s u T V. apply trims_iff in T. unfold login. rewrite T, V. reflexivity. Qed.
Theorem C76_open_redirect_refuted : ~ (forall key verify index n p x s place, rooted index ->
  snd (login key verify index n p (Some x) s) = Some place -> rooted place).
Proof.
  intros H. destruct (H "k" (fun _ _ => Some (MkUser (SNum 1) (SText "ann") (SBool true) [])) "/" "ann" "pw" "https://elsewhere.example/" [] "https://elsewhere.example/") as (t & T); [exists ""; reflexivity|reflexivity|discriminate].
Qed.
(** cases *)
Example C76_case_pages : gate (gate_allow ["/login"; "/logout"; "/static"; "/assets"] "/dashboard/") "/login" (@None nat) (MkRequest true "/app" "/app/dashboard/tasks" false)
  = SendTo 303 "/app/login?next=/app/dashboard/tasks".
Proof.
  refine (proj2 (C76_pages_need_login_partial nat ["/login"; "/logout"; "/static"; "/assets"] "/dashboard/" "/dashboard" "/app" "/tasks" _ "/login" _ _ _ _ _ _ _ _ _ _)); try reflexivity.
  - exists 1%nat. reflexivity.
  - eexists. reflexivity.
  - intros (u & E). do 10 (destruct u as [|? u]; [discriminate|injection E as _ E]). destruct u; discriminate.
  - intros e I. cbn in I. destruct I as [<-|[<-|[<-|[<-|[]]]]]; split; intros [E|(r & E)]; discriminate.
  - right. eexists. reflexivity.
  - intros [E|(r & E)]; discriminate.
  - intros [E|(r & E)]; discriminate.
Qed.
Example C76_case_history :
  let ann := MkUser (SNum 7) (SText "ann") (SBool true) [("mail", SText "a@b")] in
  let verify n p := if String.eqb n "ann" && String.eqb p "pw" then Some ann else None in
  logged_in verify [Login " ann " "pw" None; Login "bob" "x" None; Other] (Some ann) /\ plain_user ann.
Proof.
  intros ann verify. split.
  - apply (li_other verify [Login " ann " "pw" None; Login "bob" "x" None]). apply (li_refused verify [Login " ann " "pw" None] _ "bob" "bob").
    + apply (li_welcome verify [] None " ann " "ann"); [constructor|apply trims_iff; reflexivity|reflexivity].
    + apply trims_iff. reflexivity.
    + reflexivity.
  - split; [constructor; [intros []|constructor]|]. intros k [<-|[]]. sp; discriminate.
Qed.

(** ** C77: specification *)
(** a prefix in good form: a leading slash, no trailing one *)
Definition tidy_prefix (p : string) : Prop := exists u a, p = "/" ++ u ++ String a "" /\ a <> "/"%char.
(** ways to write it: with slashes behind it, without the one in front *)
Definition writes (t p : string) : Prop := exists core n, t = core ++ slashes n /\ (core = p \/ ~ rooted core /\ "/" ++ core = p).
Definition spells (t p : string) : Prop := exists core, trims t core /\ writes core p.
(** what a text says: nothing or one slash is the root *)
Definition says_prefix (t p : string) : Prop := p = "/" /\ (trims t "" \/ trims t "/") \/ tidy_prefix p /\ spells t p.
Inductive link_prefix (configured app_root root : string) : string -> Prop :=
| lp_proxy_only e : says_prefix app_root e -> e <> "/" -> says_prefix configured "/" -> link_prefix configured app_root root e
| lp_both e c : says_prefix app_root e -> e <> "/" -> says_prefix configured c -> c <> "/" -> ~ (exists x, e = x ++ c) -> link_prefix configured app_root root (e ++ c)
| lp_already x c : says_prefix app_root (x ++ c) -> x ++ c <> "/" -> says_prefix configured c -> c <> "/" -> link_prefix configured app_root root (x ++ c)
| lp_configured c : says_prefix app_root "/" -> says_prefix configured c -> c <> "/" -> link_prefix configured app_root root c
| lp_mount r : says_prefix app_root "/" -> says_prefix configured "/" -> says_prefix root r -> link_prefix configured app_root root r.
Definition trusts (in_network : string -> string -> bool) (trusted : list string) (client : string) : Prop :=
  In "*" trusted \/ client <> "" /\ (In client trusted \/ exists n, In n trusted /\ in_network client n = true).

Lemma trusts_iff net tr cl : is_trusted net tr cl = true <-> trusts net tr cl.
Proof.
  unfold is_trusted, trusts. rewrite orb_true_iff, andb_true_iff, orb_true_iff, !existsb_exists. split.
  - intros [(x & I & E)|(N & [(x & I & E)|(x & I & E)])].
    + apply String.eqb_eq in E. subst. left. exact I.
    + apply String.eqb_eq in E. subst. right. split; [|left; exact I]. intros ->. discriminate.
    + right. split; [intros ->; discriminate|right; eauto].
  - intros [I|(N & [I|(n & I & E)])].
    + left. exists "*". auto.
    + right. destruct (String.eqb_spec cl ""); [contradiction|]. split; [reflexivity|]. left. exists cl. rewrite String.eqb_refl. auto.
    + right. destruct (String.eqb_spec cl ""); [contradiction|]. split; [reflexivity|]. right. eauto.
Qed.
Lemma writes_norm t p : tidy_prefix p -> writes t p -> rstrip_slash (lead_slash t) = p /\ t <> "" /\ t <> "/" /\ lead_slash t <> "/".
Proof.
  intros (u & a & P & N) (core & n & -> & H).
  assert (L : lead_slash (core ++ slashes n) = p ++ slashes n).
  { destruct H as [->|(R & <-)].
    - apply lead_rooted. rewrite P. eexists. reflexivity.
    - destruct core as [|b core]; [exfalso; destruct u; injection P; intros; subst; congruence || discriminate|].
      rewrite lead_bare; [reflexivity|]. intros (t & E). apply R. exists core. injection E as -> _. reflexivity. }
  assert (E : p ++ slashes n = String "/" u ++ String a (slashes n)) by (rewrite P; apply (snoc_tail (String "/" u))).
  rewrite L. sp.
  - rewrite E, rstrip_slash_app by exact N. subst p. reflexivity.
  - intros Z. rewrite Z in L. rewrite E in L. cbn in L. destruct u; injection L; intros; discriminate || congruence.
  - intros Z. rewrite Z in L. rewrite E in L. cbn in L. destruct u; discriminate.
  - rewrite E. cbn. destruct u; discriminate.
Qed.
Lemma says_norm t p : says_prefix t p -> normalize_prefix t = p.
Proof.
  unfold normalize_prefix. intros [(-> & [T|T])|(TP & core & T & W)]; apply trims_iff in T.
  - destruct (String.eqb_spec t ""); [reflexivity|]. rewrite T. reflexivity.
  - destruct (String.eqb_spec t ""); [reflexivity|]. rewrite T. reflexivity.
  - destruct (writes_norm core p TP W) as (A & B & C & D). destruct (String.eqb_spec t "") as [->|N]; [cbn in T; congruence|].
    rewrite T. destruct (String.eqb_spec (lead_slash core) "/"); [contradiction|exact A].
Qed.
Lemma tidy_neq p : tidy_prefix p -> p <> "/" /\ p <> "".
Proof. intros (u & a & -> & N). split; [|discriminate]. cbn. intros [= E]. destruct u; discriminate. Qed.
Lemma tidy_self p : tidy_prefix p -> writes p p.
Proof. intros _. exists p, 0%nat. cbn. rewrite str_nil. auto. Qed.
Lemma norm_tidy p : p = "/" \/ tidy_prefix p -> strip p = p -> normalize_prefix p = p.
Proof.
  intros [->|T] S; [reflexivity|]. apply says_norm. right. split; [exact T|]. exists p. split; [apply trims_iff; exact S|apply tidy_self; exact T].
Qed.
Lemma app_tidy p e : tidy_prefix p -> tidy_prefix e -> tidy_prefix (p ++ e).
Proof. intros (u & a & -> & N) (v & b & -> & M). exists (u ++ String a "" ++ "/" ++ v), b. split; [|exact M]. rewrite !str_assoc. reflexivity. Qed.
(** any text says something, but for two or more slashes and nothing else *)
Lemma says_total t : (exists p, says_prefix t p) \/ exists n, trims t (slashes (Datatypes.S (Datatypes.S n))).
Proof.
  pose proof (proj1 (trims_iff t (strip t)) eq_refl) as T. set (c := strip t) in *. clearbody c.
  destruct (rstrip_slash_split c) as (n & E). destruct (rstrip_slash_last c) as [L|(u & a & L & N)].
  - rewrite L in E. cbn [append] in E. rewrite E in T. destruct n as [|[|n]]; [left; exists "/"; left; split; [reflexivity|left; exact T]|left; exists "/"; left; split; [reflexivity|right; exact T]|].
    right. exists n. exact T.
  - left. rewrite L in E. destruct (starts_with "/" (u ++ String a "")) eqn:R.
    + apply rooted_iff in R. exists (u ++ String a ""). right. split.
      * destruct R as (r & R). destruct u as [|b u]; [injection R as -> _; congruence|]. injection R as -> R. exists u, a. split; [reflexivity|exact N].
      * exists c. split; [exact T|]. exists (u ++ String a ""), n. auto.
    + exists ("/" ++ u ++ String a ""). right. split; [exists u, a; auto|]. exists c. split; [exact T|]. exists (u ++ String a ""), n. split; [exact E|]. right.
      split; [rewrite <- rooted_iff, R; discriminate|reflexivity].
Qed.
Lemma strip_slashes n : strip (slashes n) = slashes n.
Proof.
  destruct n as [|n]; [reflexivity|]. apply trims_iff. exists "", "". sp; try exact I. { cbn. rewrite str_nil. reflexivity. }
  right. split; [exists "/"%char, (slashes n); auto|]. assert (Z : exists v, slashes (Datatypes.S n) = v ++ "/") by (induction n as [|n (v & IH)]; [exists ""; reflexivity|exists (String "/" v); cbn [slashes append] in *; rewrite IH; reflexivity]).
  destruct Z as (v & ->). exists v, "/"%char. auto.
Qed.

(** ** C77 *)
Theorem C77_written_prefixes_partial : forall t p, says_prefix t p -> normalize_prefix t = p /\ (p = "/" \/ tidy_prefix p).
Proof. intros t p H. split; [apply says_norm; exact H|]. destruct H as [(-> & _)|(T & _)]; auto. Qed.
Theorem C77_every_text_but_slashes : forall t, (exists p, says_prefix t p) \/ exists n, trims t (slashes (Datatypes.S (Datatypes.S n))).
Proof. exact says_total. Qed.
Theorem C77_slashes_refuted : ~ (forall t, rooted (normalize_prefix t)).
Proof. intros H. destruct (H "//") as (t & E). discriminate. Qed.
Theorem C77_links_carry_the_prefix : forall configured app_root root p, link_prefix configured app_root root p ->
  (forall e, says_prefix app_root e -> strip e = e) -> (forall c, says_prefix configured c -> strip c = c) ->
  effective_prefix configured app_root root = p /\ (p = "/" \/ tidy_prefix p).
Proof.
  intros cf ar rt p L SE SC.
  assert (F : forall t q, says_prefix t q -> q = "/" \/ tidy_prefix q) by (intros t q [(-> & _)|(T & _)]; auto).
  assert (K : forall e c, says_prefix ar e -> says_prefix cf c -> e <> "/" ->
     effective_prefix cf ar rt = if String.eqb c "/" then e else if String.eqb e c || ends_with c e then e else e ++ c).
  { intros e c E C NE. unfold effective_prefix. rewrite (says_norm _ _ E), (says_norm _ _ C). destruct (String.eqb_spec e "/"); [contradiction|]. cbn [negb].
    unfold combine_prefixes. rewrite (norm_tidy e (F _ _ E) (SE _ E)), (norm_tidy c (F _ _ C) (SC _ C)). destruct (String.eqb_spec e "/"); [contradiction|]. reflexivity. }
  assert (EW : forall c e, ends_with c e = true <-> exists x, e = x ++ c).
  { intros c e. induction e as [|a e IH]; cbn [ends_with]; rewrite orb_true_iff, String.eqb_eq.
    - split; [intros [<-|[=]]; exists ""; reflexivity|]. intros ([|b x] & E); [left; exact E|discriminate].
    - rewrite IH. split; [intros [<-|(x & ->)]; [exists ""; reflexivity|exists (String a x); reflexivity]|].
      intros ([|b x] & E); [left; exact E|right]. injection E as -> ->. eauto. }
  destruct L as [e E NE C|e c E NE C NC NX|x c E NE C NC|c E C NC|r E C R].
  - rewrite (K _ _ E C NE). cbn. split; [reflexivity|eauto].
  - rewrite (K _ _ E C NE). destruct (String.eqb_spec c "/"); [contradiction|]. destruct (ends_with c e) eqn:X; [apply EW in X; contradiction|].
    destruct (String.eqb_spec e c) as [->|]; [destruct NX; exists ""; reflexivity|]. cbn. split; [reflexivity|]. right. apply app_tidy.
    + destruct (F _ _ E); [contradiction|auto].
    + destruct (F _ _ C); [contradiction|auto].
  - rewrite (K _ _ E C NE). destruct (String.eqb_spec c "/"); [contradiction|]. assert (X : ends_with c (x ++ c) = true) by (apply EW; eauto). rewrite X, orb_true_r. split; [reflexivity|eauto].
  - unfold effective_prefix. rewrite (says_norm _ _ E), (says_norm _ _ C). cbn [String.eqb negb Ascii.eqb Bool.eqb]. destruct (String.eqb_spec c "/"); [contradiction|]. split; [reflexivity|eauto].
  - unfold effective_prefix. rewrite (says_norm _ _ E), (says_norm _ _ C), (says_norm _ _ R). split; [reflexivity|eauto].
Qed.
(** the header of a proxy *)
Theorem C77_strangers_change_nothing : forall net trusted client header app_root existing,
  ~ trusts net trusted client -> forwarded net trusted client header app_root existing = app_root.
Proof. intros net tr cl h ar ex N. unfold forwarded. destruct (is_trusted net tr cl) eqn:T; [apply trusts_iff in T; contradiction|reflexivity]. Qed.
Theorem C77_trusted_prefix_in_front : forall net trusted client app_root existing h p,
  trusts net trusted client -> tidy_prefix p -> spells h p ->
  (existing = "" \/ (exists n, existing = slashes n) -> forwarded net trusted client (Some h) app_root existing = p) /\
  (forall e, tidy_prefix e -> writes existing e -> forwarded net trusted client (Some h) app_root existing = p ++ e).
Proof.
  intros net tr cl ar ex h p T TP (core & TR & W). apply trusts_iff in T. apply trims_iff in TR. destruct (writes_norm core p TP W) as (A & B & C & D).
  assert (R : forwarded net tr cl (Some h) ar ex = or_slash (rstrip_slash (p ++ (if String.eqb ex "" then "" else lead_slash ex)))).
  { unfold forwarded. rewrite T, TR. destruct (String.eqb_spec core ""); [contradiction|]. destruct (String.eqb_spec core "/"); [contradiction|]. cbn [orb]. rewrite A. reflexivity. }
  assert (Z : forall q n, tidy_prefix q -> or_slash (rstrip_slash (q ++ slashes n)) = q).
  { intros q n (u & a & -> & N). change ("/" ++ u ++ String a "") with (String "/" u ++ String a ""). rewrite snoc_tail, rstrip_slash_app by exact N. reflexivity. }
  rewrite R. split.
  - intros [->|(n & ->)]; [exact (Z p 0%nat TP)|]. destruct n as [|n]; [exact (Z p 0%nat TP)|]. cbn [slashes append String.eqb]. apply (Z p (Datatypes.S n) TP).
  - intros e TE (c & n & -> & H). destruct (String.eqb_spec (c ++ slashes n) "") as [E|_].
    { destruct (writes_norm (c ++ slashes n) e TE) as (_ & X & _); [exists c, n; auto|contradiction]. }
    replace (lead_slash (c ++ slashes n)) with (e ++ slashes n).
    + rewrite <- str_assoc. apply Z. apply app_tidy; auto.
    + destruct H as [->|(N & <-)].
      * symmetry. apply lead_rooted. destruct TE as (u & a & -> & _). eexists. reflexivity.
      * destruct c as [|b c]; [destruct (tidy_neq _ TE) as (X & _); exfalso; apply X; reflexivity|].
        rewrite lead_bare; [reflexivity|]. intros (t & E). apply N. injection E as -> _. exists c. reflexivity.
Qed.
Theorem C77_no_prefix_no_change : forall net trusted client app_root existing h, trims h "" \/ trims h "/" ->
  forwarded net trusted client (Some h) app_root existing = app_root /\ forwarded net trusted client None app_root existing = app_root.
Proof. intros net tr cl ar ex h [T|T]; apply trims_iff in T; unfold forwarded; destruct (is_trusted net tr cl); rewrite ?T; auto. Qed.
(** among several headers of that name the last one counts *)
Theorem C77_last_header : forall n l, match header_named n l with
  | None => forall h, In h l -> lower (fst h) <> lower n
  | Some v => exists before m after, l = (before ++ (m, v) :: after)%list /\ lower m = lower n /\ forall h, In h after -> lower (fst h) <> lower n end.
Proof.
  intros n l. unfold header_named. induction l as [|[m v] l IH] using rev_ind; [intros h []|]. rewrite fold_left_app. cbn [fold_left fst snd]. destruct (String.eqb_spec (lower m) (lower n)) as [E|N].
  - exists l, m, []. sp; auto. 
  - destruct (fold_left _ l None) as [w|].
    + destruct IH as (b & m' & a & -> & E & F). exists b, m', (a ++ [(m, v)])%list. sp; [rewrite <- app_assoc; reflexivity|exact E|]. intros h I. apply in_app_or in I. destruct I as [I|[<-|[]]]; auto.
    + intros h I. apply in_app_or in I. destruct I as [I|[<-|[]]]; auto.
Qed.
(** the mount point of the dashboard *)
Theorem C77_mount_point : forall given configured p,
  admin_prefix given configured = Ok p <-> tidy_prefix p /\ exists n, (match given with Some (String a s) => String a s | _ => configured end) = p ++ slashes n.
Proof.
  intros g cf p. unfold admin_prefix. set (v := match g with Some (String a s) => String a s | _ => cf end). clearbody v.
  destruct (rstrip_slash_split v) as (n & E). split.
  - destruct (starts_with "/" (rstrip_slash v)) eqn:R; [|discriminate]. intros [= <-]. split; [|eauto]. apply rooted_iff in R. destruct R as (t & R).
    destruct (rstrip_slash_last v) as [L|(u & a & L & N)]; [rewrite L in R; discriminate|]. rewrite L in *. destruct u as [|b u]; [injection R as -> _; congruence|]. injection R as -> _. exists u, a. auto.
  - intros ((u & a & -> & N) & k & ->). change ("/" ++ u ++ String a "") with (String "/" u ++ String a ""). rewrite snoc_tail, rstrip_slash_app by exact N. reflexivity.
Qed.
Theorem C77_root_mount_refuted : ~ (forall given configured, rooted given -> exists p, admin_prefix (Some given) configured = Ok p).
Proof. intros H. destruct (H "/" "/dashboard") as (p & E); [exists ""; reflexivity|discriminate]. Qed.
(** the headers *)
Theorem C77_security_headers : forall wanted https headers,
  NoDup (map fst wanted) -> ~ In "strict-transport-security" (map fst wanted) ->
  exists added, add_headers wanted https headers = (headers ++ added)%list /\ NoDup (map fst added) /\
    forall n v, In (n, v) added <->
      (In (n, v) wanted \/ https = true /\ (n, v) = ("strict-transport-security", "max-age=31536000; includeSubDomains")) /\
      ~ exists m w, In (m, w) headers /\ lower m = n.
Proof.
  intros wanted https headers ND NS. unfold add_headers. cbv zeta. set (have := fun n => existsb (String.eqb n) (map (fun h : string * string => lower (fst h)) headers)).
  assert (HV : forall n, have n = true <-> exists m w, In (m, w) headers /\ lower m = n).
  { intros n. unfold have. rewrite existsb_exists. split.
    - intros (x & I & E). apply String.eqb_eq in E. subst. apply in_map_iff in I. destruct I as ([m w] & <- & I). eauto.
    - intros (m & w & I & <-). exists (lower m). split; [apply in_map_iff; exists (m, w); auto|apply String.eqb_refl]. }
  exists (filter (fun h => negb (have (fst h))) wanted ++ (if https && negb (have "strict-transport-security") then [("strict-transport-security", "max-age=31536000; includeSubDomains")] else []))%list.
  split; [reflexivity|]. clearbody have. split.
  - rewrite map_app. 
    assert (SUB : forall l, NoDup (map fst l) -> NoDup (map fst (filter (fun h : string * string => negb (have (fst h))) l))).
    { induction l as [|[n v] l IH]; cbn; [auto|]. intros X. inversion X; subst. destruct (have n); cbn [negb]; [auto|]. cbn. constructor; [|auto].
      intros I. apply H1. apply in_map_iff in I. destruct I as (h & <- & I). apply filter_In in I. apply in_map. tauto. }
    destruct (https && negb (have "strict-transport-security")); [|cbn [map]; rewrite app_nil_r; auto]. cbn [map fst]. apply NoDup_rev in ND. 
    apply (Permutation.Permutation_NoDup (l := "strict-transport-security" :: map fst (filter (fun h => negb (have (fst h))) wanted))).
    + apply Permutation.Permutation_cons_append.
    + constructor; [|apply SUB; rewrite <- (rev_involutive (map fst wanted)); apply NoDup_rev; exact ND]. intros I. apply NS. apply in_map_iff in I. destruct I as (h & <- & I). apply filter_In in I. apply in_map. tauto.
  - intros n v. rewrite in_app_iff, filter_In. cbn [fst]. rewrite <- HV. split.
    + intros [(I & H)|I]; [split; [left; exact I|]; destruct (have n); [discriminate|discriminate]|].
      destruct https; cbn [andb] in I; [|destruct I]. destruct (have "strict-transport-security") eqn:X; cbn [negb] in I; [destruct I|]. destruct I as [I|[]]. injection I as <- <-. split; [right; auto|]. rewrite X. discriminate.
    + intros ([I|(-> & E)] & H); [left; split; [exact I|]; destruct (have n); [destruct H; reflexivity|reflexivity]|]. right. injection E as -> ->. cbn [andb]. destruct (have "strict-transport-security"); [destruct H; reflexivity|]. left. reflexivity.
Qed.
(** cases *)
Example C77_case_links : link_prefix "/dashboard" " team/ " "" "/team/dashboard" /\ effective_prefix "/dashboard" " team/ " "" = "/team/dashboard".
Proof.
  split; [|reflexivity]. apply (lp_both _ _ _ "/team" "/dashboard").
  - right. split; [exists "tea", "m"%char; split; [reflexivity|discriminate]|]. exists "team/". split; [apply trims_iff; reflexivity|]. exists "team", 1%nat. split; [reflexivity|]. right. split; [intros (t & E); discriminate|reflexivity].
  - discriminate.
  - right. split; [exists "dashboar", "d"%char; split; [reflexivity|discriminate]|]. exists "/dashboard". split; [apply trims_iff; reflexivity|]. exists "/dashboard", 0%nat. auto.
  - discriminate.
  - intros (x & E). do 5 (destruct x as [|? x]; [discriminate|injection E as _ E]). destruct x; discriminate.
Qed.
Example C77_case_forwarded : forwarded (fun _ _ => false) ["10.0.0.1"] "10.0.0.1" (Some "team/") "" "/jobs" = "/team/jobs".
Proof.
  refine (proj2 (C77_trusted_prefix_in_front _ _ _ _ _ "team/" "/team" _ _ _) "/jobs" _ _).
  - right. split; [discriminate|left; left; reflexivity].
  - exists "tea", "m"%char. split; [reflexivity|discriminate].
  - exists "team/". split; [apply trims_iff; reflexivity|]. exists "team", 1%nat. split; [reflexivity|]. right. split; [intros (t & E); discriminate|reflexivity].
  - exists "job", "s"%char. split; [reflexivity|discriminate].
  - exists "/jobs", 0%nat. auto.
Qed.
(** The headers themselves: every answer of the dashboard forbids framing, type sniffing, foreign scripts and foreign referrers,
    unless the answer already says otherwise; over https it also asks for https. *)
Theorem C77_default_headers : forall https headers n v,
  In (n, v) [("content-security-policy", "default-src 'self'; script-src 'self'; style-src 'self' 'unsafe-inline'; img-src 'self' data:; font-src 'self' data:; connect-src 'self'; object-src 'none'; base-uri 'self'; frame-ancestors 'none'; form-action 'self'");
             ("referrer-policy", "same-origin"); ("x-content-type-options", "nosniff"); ("x-frame-options", "DENY"); ("permissions-policy", "camera=(), microphone=(), geolocation=()")] ->
  let answered := add_headers default_headers https headers in
  (In (n, v) answered \/ exists m w, In (m, w) headers /\ lower m = n) /\
  (https = true -> (exists w, In ("strict-transport-security", w) answered) \/ exists m w, In (m, w) headers /\ lower m = "strict-transport-security").
Proof.
  intros https headers n v I answered.
  destruct (C77_security_headers default_headers https headers) as (added & E & _ & A).
  { repeat (constructor; [cbn; intuition discriminate|]). constructor. }
  { cbn. intuition discriminate. }
  assert (D : forall k, (exists m w, In (m, w) headers /\ lower m = k) \/ ~ (exists m w, In (m, w) headers /\ lower m = k)).
  { intros k. clear. induction headers as [|[m w] l [(m' & w' & J & Q)|IH]]; [right; intros (m & w & [] & _)|left; exists m', w'; cbn; auto|].
    destruct (string_dec (lower m) k) as [Q|Q]; [left; exists m, w; cbn; auto|]. right. intros (m' & w' & [J|J] & X); [congruence|apply IH; eauto]. }
  unfold answered. rewrite E. split.
  - destruct (D n) as [X|X]; [right; exact X|]. left. apply in_or_app. right. apply A. split; [left; exact I|exact X].
  - intros ->. destruct (D "strict-transport-security") as [X|X]; [right; exact X|]. left. eexists. apply in_or_app. right. apply A. split; [right; split; reflexivity|exact X].
Qed.
Print Assumptions C77_default_headers.
Example C77_case_headers : NoDup (map fst default_headers) /\ ~ In "strict-transport-security" (map fst default_headers) /\
  List.length (add_headers default_headers true [("Content-Type", "text/html"); ("X-Frame-Options", "SAMEORIGIN")]) = 7%nat.
Proof. cbn. sp; [|intuition discriminate|reflexivity]. repeat (constructor; [cbn; intuition discriminate|]). constructor. Qed.
