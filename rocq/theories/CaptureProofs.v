(** Facts about capturing (C84-C86). *)
From Coq Require Import Sorted.
From Verif Require Import Prelude PreludeFacts Text Dash DashSpec FormsSpec History Capture CaptureSpec PropDash PropForms2.
Open Scope Z_scope.
Ltac sp := repeat match goal with |- _ /\ _ => split end.

(** *** strings *)
Lemma sapp_assoc a b c : ((a ++ b) ++ c = a ++ b ++ c)%string.
Proof. induction a; cbn; congruence. Qed.
Lemma sapp_nil a : (a ++ "" = a)%string.
Proof. induction a; cbn; congruence. Qed.
Lemma slen a b : String.length (a ++ b) = (String.length a + String.length b)%nat.
Proof. induction a; cbn; congruence. Qed.
Lemma sapp_inv a b c : (a ++ b = a ++ c)%string -> b = c.
Proof. induction a; cbn; auto. intros [= H]. auto. Qed.
Lemma prefixes_cmp a : forall b u v, (a ++ u = b ++ v)%string -> (String.length a <= String.length b)%nat -> exists w, b = (a ++ w)%string.
Proof.
  induction a as [|x a IH]; intros b u v E L; cbn in *; [eauto|]. destruct b as [|y b]; cbn in *; [lia|]. injection E as <- E. destruct (IH b u v E ltac:(lia)) as (w & ->). eauto.
Qed.
(** *** the chain of a name *)
Lemma dot_prefixes_in s : forall pre n, In n (dot_prefixes pre s) <-> n <> ""%string /\ exists u r, s = (u ++ "." ++ r)%string /\ n = (pre ++ u)%string.
Proof.
  induction s as [|a s IH]; intros pre n; cbn [dot_prefixes].
  - split; [intros []|]. intros (_ & u & r & E & _). destruct u; discriminate.
  - rewrite in_app_iff, IH. split.
    + intros [H|(N & u & r & -> & ->)].
      * destruct (Ascii.eqb_spec a "."); [|destruct H]. destruct (String.eqb_spec pre ""); cbn in H; [destruct H|]. destruct H as [<-|[]]. subst a. split; auto. exists ""%string, s. split; auto. rewrite sapp_nil. auto.
      * split; auto. exists (String a u), r. split; auto. rewrite sapp_assoc. auto.
    + intros (N & u & r & E & ->). destruct u as [|b u]; cbn in E.
      * injection E as -> ->. rewrite sapp_nil in *. left. cbn. destruct (String.eqb_spec pre ""); [congruence|]. left. auto.
      * injection E as -> ->. right. split; auto. exists u, r. split; auto. rewrite sapp_assoc. auto.
Qed.
Lemma chain_in name n : In n (chain name) <-> name <> ""%string /\ (n = name \/ under name n).
Proof.
  unfold chain. destruct (String.eqb_spec name "") as [->|N]; [split; [intros []|tauto]|]. cbn [In]. rewrite <- in_rev, dot_prefixes_in. unfold under. split.
  - intros [<-|(M & u & r & E & ->)]; auto. cbn in *. split; auto. right. split; auto. eauto.
  - intros [_ [->|(M & r & E)]]; auto. right. split; auto. exists n, r. auto.
Qed.
Definition longer (a b : string) : Prop := (String.length b < String.length a)%nat.
Lemma ss_app {A} (R : A -> A -> Prop) l x : StronglySorted R l -> Forall (fun y => R y x) l -> StronglySorted R (l ++ [x]).
Proof. induction 1 as [|y l S IH F]; intros G; cbn; [repeat constructor|]. inversion G; subst. constructor; auto. rewrite Forall_app. split; auto. Qed.
Lemma dot_prefixes_sorted s : forall pre, StronglySorted longer (rev (dot_prefixes pre s)) /\ Forall (fun n => (String.length pre <= String.length n)%nat) (dot_prefixes pre s).
Proof.
  induction s as [|a s IH]; intros pre; cbn [dot_prefixes]; [split; constructor|]. destruct (IH (pre ++ String a "")%string) as [S F].
  assert (F' : Forall (fun n => (String.length pre < String.length n)%nat) (dot_prefixes (pre ++ String a "") s)).
  { eapply Forall_impl; [|exact F]. cbn. intros n. rewrite slen. cbn. lia. }
  destruct (_ && _); cbn [app rev].
  - split; [|constructor; auto; eapply Forall_impl; [|exact F']; cbn; intros; lia]. apply ss_app; auto. apply Forall_rev. auto.
  - split; auto. eapply Forall_impl; [|exact F']; cbn; intros; lia.
Qed.
Lemma chain_sorted name : StronglySorted longer (chain name).
Proof.
  unfold chain. destruct (String.eqb_spec name "") as [->|N]; [constructor|]. constructor; [apply dot_prefixes_sorted|]. apply Forall_rev, Forall_forall. intros n H. apply dot_prefixes_in in H.
  destruct H as (_ & u & r & E & ->). unfold longer. cbn. rewrite E, slen. cbn. lia.
Qed.
(** *** levels *)
Lemma first_level_spec lv l : StronglySorted longer l -> Forall (fun n => n <> ""%string) l ->
  exists a, (In a l \/ a = ""%string) /\ lv a = first_level lv l /\ (first_level lv l <> 0 \/ a = ""%string) /\ forall b, In b l -> (String.length a < String.length b)%nat -> lv b = 0.
Proof.
  induction 1 as [|x l S IH F]; intros N; cbn [first_level].
  - exists ""%string. sp; auto. intros b [].
  - inversion N; subst. destruct (Z.eqb_spec (lv x) 0) as [Z0|Z0].
    + destruct IH as (a & I & E & W & B); auto. exists a. sp; auto; [destruct I; [left; right|right]; auto|]. intros b [<-|Ib] L; auto.
    + exists x. sp; auto; [left; left; auto|]. intros b [<-|Ib] L; [lia|]. rewrite Forall_forall in F. specialize (F b Ib). unfold longer in F. lia.
Qed.
Lemma chain_nonempty name : Forall (fun n => n <> ""%string) (chain name).
Proof. apply Forall_forall. intros n H. apply chain_in in H. destruct H as [N [->|[M _]]]; auto. Qed.
Lemma applies_iff lv name v : applies lv name v <-> v = first_level lv (chain name).
Proof.
  destruct (first_level_spec lv (chain name) (chain_sorted name) (chain_nonempty name)) as (a & I & E & W & B). set (f := first_level lv (chain name)) in *. clearbody f.
  assert (UN : forall n, In n (chain name) <-> n <> ""%string /\ (n = name \/ under name n)).
  { intros n. rewrite chain_in. split; [intros [N [->|U]]; auto; split; auto; destruct U; auto|]. intros [N [->|U]]; auto. split; auto. intros ->. destruct U as (_ & r & X). destruct n; discriminate. }
  split.
  - intros (a' & I' & E' & W' & B'). destruct (Nat.lt_trichotomy (String.length a) (String.length a')) as [L|[L|L]].
    + destruct W' as [W'| ->]; [|cbn in L; lia]. destruct (string_dec a' "") as [->|N]; [cbn in L; lia|]. rewrite <- E' in *. rewrite B in W'; [congruence| |auto]. apply UN. split; auto. tauto.
    + assert (a = a'); [|congruence]. destruct (string_dec a "") as [->|N]; [destruct a'; [auto|cbn in L; discriminate]|]. destruct (string_dec a' "") as [->|N']; [destruct a; [auto|cbn in L; discriminate]|].
      destruct I as [I|]; [|congruence]. apply UN in I. assert (P : exists u, name = (a ++ u)%string) by (destruct I as [_ [->|(_ & r & ->)]]; [exists ""%string; rewrite sapp_nil; auto|eauto]).
      assert (P' : exists u, name = (a' ++ u)%string) by (destruct I' as [->|[(_ & r & ->)|]]; [exists ""%string; rewrite sapp_nil; auto|eauto|congruence]).
      destruct P as (u & Pu), P' as (u' & Pu'). rewrite Pu in Pu'. destruct (prefixes_cmp _ _ _ _ Pu' ltac:(lia)) as (w & ->). rewrite slen in L. destruct w; [symmetry; apply sapp_nil|cbn in L; lia].
    + destruct W as [W| ->]; [|cbn in L; lia]. destruct (string_dec a "") as [->|N]; [cbn in L; lia|]. rewrite <- E in W. rewrite B' in W; [congruence|auto| |auto]. destruct I as [I|]; [|congruence]. apply UN in I. tauto.
  - intros ->. exists a. sp; auto. + destruct I as [I|]; auto. apply UN in I. tauto. + intros b N U L. apply B; auto. apply UN. auto.
Qed.
(** *** propagation *)
Lemma reaches_iff prop l : reaches prop l = true <-> exists l1 l2, l = l1 ++ "asyncz"%string :: l2 /\ (forall n, In n l1 -> n <> "asyncz"%string /\ prop n = true).
Proof.
  induction l as [|x l IH]; cbn [reaches].
  - split; [discriminate|]. intros (l1 & l2 & E & _). destruct l1; discriminate.
  - destruct (String.eqb_spec x "asyncz") as [->|N].
    + split; auto. intros _. exists [], l. split; [reflexivity|intros n []].
    + rewrite andb_true_iff, IH. split.
      * intros (P & l1 & l2 & -> & F). exists (x :: l1), l2. split; auto. intros n [<-|I]; auto.
      * intros (l1 & l2 & E & F). destruct l1 as [|y l1]; cbn in E; [congruence|]. injection E as -> ->. destruct (F y (or_introl eq_refl)). split; auto. exists l1, l2. split; auto. intros n I. apply F. right; auto.
Qed.
Lemma sorted_split (l1 l2 : list string) x : StronglySorted longer (l1 ++ x :: l2) -> (forall n, In n l1 -> longer n x) /\ (forall n, In n l2 -> longer x n).
Proof.
  induction l1 as [|y l1 IH]; cbn; intros H; inversion H as [|? ? S F]; subst.
  - split; [intros n []|]. rewrite Forall_forall in F. auto.
  - destruct (IH S) as [A B]. split; auto. intros n [<-|I]; auto. rewrite Forall_forall in F. apply F. rewrite in_app_iff. right; left; auto.
Qed.
Lemma reaches_chain prop name : reaches prop (chain name) = true <-> in_asyncz name /\ passes_up prop name.
Proof.
  rewrite reaches_iff. split.
  - intros (l1 & l2 & E & F). assert (I : In "asyncz"%string (chain name)) by (rewrite E, in_app_iff; right; left; auto). apply chain_in in I. destruct I as [N I].
    split; [destruct I; [left|right]; auto|]. intros n Hn U. assert (J : In n (chain name)) by (apply chain_in; auto). pose proof (chain_sorted name) as S. rewrite E in S, J. destruct (sorted_split _ _ _ S) as [A B].
    rewrite in_app_iff in J. destruct J as [J|[J|J]]; [apply F; auto| |].
    + subst n. destruct U as (_ & r & X). discriminate.
    + specialize (B n J). unfold longer in B. destruct U as (_ & r & ->). rewrite slen in B. lia.
  - intros [I P]. assert (J : In "asyncz"%string (chain name)) by (apply chain_in; unfold in_asyncz in I; destruct I as [->|I]; [split; [discriminate|auto]|split; auto; intros ->; destruct I as (_ & r & X); discriminate]).
    destruct (in_split _ _ J) as (l1 & l2 & E). exists l1, l2. split; auto. intros n K. pose proof (chain_sorted name) as S. rewrite E in S. destruct (sorted_split _ _ _ S) as [A B]. specialize (A n K). unfold longer in A.
    split; [intros ->; lia|]. assert (Kn : In n (chain name)) by (rewrite E, in_app_iff; auto). apply chain_in in Kn. destruct Kn as [_ Kn]. apply P; auto. split; [discriminate|].
    assert (Q : exists u, name = (n ++ u)%string) by (destruct Kn as [->|(_ & r & ->)]; [exists ""%string; rewrite sapp_nil; auto|eauto]). destruct Q as (u & Q).
    destruct I as [->|(_ & r & E2)].
    + rewrite Q, slen in A. lia.
    + rewrite E2 in Q. destruct (prefixes_cmp _ _ _ _ Q ltac:(lia)) as (w & ->). rewrite sapp_assoc in Q. apply sapp_inv in Q. destruct w as [|b w]; [rewrite sapp_nil in A; lia|]. cbn in Q. injection Q as <- Q. exists w. auto.
Qed.
(** *** what a record carries *)
Lemma setdefault_get {V} k (v : V) d k' : dget k' (setdefault k v d) = match dget k' d with Some x => Some x | None => if String.eqb k' k then Some v else None end.
Proof.
  unfold setdefault. destruct (String.eqb_spec k' k) as [->|N].
  - destruct (dget k d) as [x|] eqn:G; [rewrite G; auto|]. apply dget_dset_eq.
  - destruct (dget k d) as [x|] eqn:G; [destruct (dget k' d); auto|]. rewrite dget_dset_ne by auto. destruct (dget k' d); auto.
Qed.
Definition given_of (s : lproc) (c : lcall) : dict lval := match c_extra c with Some i => match nth_error (lp_dicts s) i with Some d => d | None => [] end | None => [] end.
Definition extra_of (s : lproc) (c : lcall) : dict lval := fst (process s c).
Lemma extra_carries s c : carries (given_of s c) (c_adapter c) (extra_of s c).
Proof.
  intros k. unfold extra_of, process. fold (given_of s c). destruct (c_adapter c) as [t|]; cbn [fst]; [rewrite setdefault_get|]; destruct (dget k (given_of s c)); auto.
Qed.
Definition there (s : lproc) (c : lcall) : Prop := match c_extra c with Some i => (i < List.length (lp_dicts s))%nat | None => True end.
Lemma given_dict_iff s c d : there s c -> given_dict s c d <-> d = given_of s c.
Proof.
  unfold there, given_dict, given_of. destruct (c_extra c) as [i|]; [|tauto]. intros L. destruct (nth_error (lp_dicts s) i) as [x|] eqn:E; [split; congruence|].
  apply nth_error_None in E. lia.
Qed.
Lemma clashes_iff d : clashes d = false <-> forall k v, dget k d = Some v -> ~ reserved k.
Proof.
  unfold clashes. split.
  - intros H k v G R. apply dget_In in G. assert (X : existsb (fun kv => is_in (fst kv) ("message" :: "asctime" :: standard_keys)%string) d = true); [|congruence].
    apply existsb_exists. exists (k, v). split; auto. cbn [fst]. unfold is_in. apply existsb_exists. exists k. split; auto. apply String.eqb_refl.
  - intros H. destruct (existsb _ d) eqn:E; auto. apply existsb_exists in E. destruct E as ((k & v) & I & X). cbn [fst] in X. unfold is_in in X. apply existsb_exists in X. destruct X as (k' & I' & Q). apply String.eqb_eq in Q. subst k'.
    destruct (dget k d) as [v'|] eqn:G; [destruct (H k v' G I')|]. apply dget_None in G. destruct G. unfold dkeys. apply (in_map fst) in I. auto.
Qed.
Lemma says_iff d k t : says d k t <-> exists v, dget k d = Some v /\ lv_truthy v = true /\ lv_str v = t.
Proof.
  unfold says. split.
  - intros [[G N]|G]; eexists; (split; [exact G|]); cbn; auto. split; auto. destruct (String.eqb_spec t ""); auto.
  - intros (v & G & T & <-). destruct v as [|s|b s]; cbn in *; [discriminate| |subst b; auto]. left. split; auto. destruct (String.eqb_spec s ""); [discriminate|auto].
Qed.
Lemma filed_ext d d' o : (forall k, dget k d = dget k d') -> filed d o -> filed d' o.
Proof.
  intros E. assert (S : forall k t, says d k t <-> says d' k t) by (intros; unfold says; rewrite E; tauto). assert (Q : forall k, silent d k -> silent d' k) by (intros k H t X; apply S in X; apply (H t X)).
  destruct 1; [apply f_task|apply f_job|apply f_asyncz|apply f_none]; auto; try (apply S; auto).
Qed.
Lemma filed_iff d o : filed d o <-> o = extract_task_id d.
Proof.
  unfold extract_task_id. cbn [first_truthy].
  assert (X : forall k, (exists t, says d k t /\ (match dget k d with Some v => if lv_truthy v then Some (lv_str v) else None | None => None end) = Some t) \/ (silent d k /\ (match dget k d with Some v => if lv_truthy v then Some (lv_str v) else None | None => None end) = None)).
  { intros k. destruct (dget k d) as [v|] eqn:G; [destruct (lv_truthy v) eqn:T|].
    - left. exists (lv_str v). split; auto. apply says_iff. eauto.
    - right. split; auto. intros t H. apply says_iff in H. destruct H as (v' & G' & T' & _). congruence.
    - right. split; auto. intros t H. apply says_iff in H. destruct H as (v' & G' & _). congruence. }
  assert (UN : forall k t t', says d k t -> says d k t' -> t = t').
  { intros k t t' A B. apply says_iff in A, B. destruct A as (v & G & _ & <-), B as (v' & G' & _ & <-). congruence. }
  assert (FN : forall a b, filed d a -> filed d b -> a = b).
  { intros a b H1 H2. destruct H1, H2; auto; try (f_equal; eapply UN; eassumption); exfalso; match goal with Q : silent d ?k, Y : says d ?k ?t |- _ => exact (Q t Y) end. }
  assert (H : filed d (first_truthy ["task_id"; "job_id"; "asyncz_task_id"]%string d)).
  { cbn [first_truthy]. destruct (X "task_id"%string) as [(t & S & E)|(S & E)]; destruct (dget "task_id" d) as [v|]; try (destruct (lv_truthy v)); try discriminate; try (injection E as ->); try (apply f_task; auto; fail);
    destruct (X "job_id"%string) as [(t' & S' & E')|(S' & E')]; destruct (dget "job_id" d) as [v'|]; try (destruct (lv_truthy v')); try discriminate; try (injection E' as ->); try (apply f_job; auto; fail);
    destruct (X "asyncz_task_id"%string) as [(t'' & S'' & E'')|(S'' & E'')]; destruct (dget "asyncz_task_id" d) as [v''|]; try (destruct (lv_truthy v'')); try discriminate; try (injection E'' as ->); try (apply f_asyncz; auto; fail); apply f_none; auto. }
  cbn [first_truthy] in H. split; [intros F; eapply FN; eauto|intros ->; auto].
Qed.
Lemma dget_filter {V} (f : string -> bool) k (d : dict V) : dget k (filter (fun kv => f (fst kv)) d) = if f k then dget k d else None.
Proof.
  induction d as [|[k' v] d IH]; cbn [filter dget fst]; [destruct (f k); auto|]. destruct (f k') eqn:F; cbn [dget]; destruct (String.eqb_spec k k') as [->|N]; auto; rewrite ?IH, ?F; auto.
Qed.
Lemma of_run_iff d o : clashes d = false -> of_run d o <-> o = run_text (extract_extra d).
Proof.
  intros CL. assert (V : forall k v, dget k d = Some v -> is_in k standard_keys = false).
  { intros k v G. destruct (is_in k standard_keys) eqn:E; auto. exfalso. rewrite clashes_iff in CL. apply (CL k v G). unfold is_in in E. apply existsb_exists in E. destruct E as (k' & I & Q). apply String.eqb_eq in Q. subst k'.
    right. right. exact I. }
  assert (Hd : forall k, starts_with "_" k = true <-> hidden k) by (intros k; rewrite starts_with_iff; unfold hidden; split; intros (r & ->); exists r; auto).
  set (f := fun k => negb (is_in k standard_keys) && negb (starts_with "_" k)).
  assert (G : forall k, dget k (extract_extra d) = if f k then dget k d else None) by (intros k; apply (dget_filter f)).
  assert (R : dget "run_id" (extract_extra d) = dget "run_id" d) by (rewrite G; destruct (dget "run_id" d) as [v|] eqn:E; [unfold f; rewrite (V _ _ E); auto|destruct (f _); auto]).
  assert (NE : extract_extra d = [] <-> forall k v, dget k d = Some v -> hidden k).
  { split.
    - intros E k v K. rewrite E in G. specialize (G k). cbn in G. unfold f in G. rewrite (V _ _ K) in G. cbn [negb andb] in G. apply Hd. destruct (starts_with "_" k); auto. cbn in G. congruence.
    - intros H. destruct (extract_extra d) as [|[k v] x] eqn:E; auto. exfalso. assert (X : dget k (extract_extra d) = Some v) by (rewrite E; cbn; rewrite String.eqb_refl; auto). rewrite E in X. rewrite G in X. destruct (f k) eqn:F; [|discriminate].
      pose proof (H k v X) as HH. apply Hd in HH. unfold f in F. rewrite HH, andb_false_r in F. discriminate. }
  unfold run_text. split.
  - intros [v E|k v E K HK|E].
    + destruct (extract_extra d) as [|y x] eqn:X; [rewrite <- R in E; discriminate|]. rewrite R, E. destruct v; auto.
    + destruct (extract_extra d) as [|y x] eqn:X; [destruct HK; apply (proj1 NE eq_refl k v K)|]. rewrite R, E. auto.
    + apply NE in E. rewrite E. auto.
  - intros ->. destruct (extract_extra d) as [|[k v] x] eqn:X; [apply r_none, NE; auto|]. rewrite R. destruct (dget "run_id" d) as [w|] eqn:E; [apply (r_some d w E)|].
    apply (r_other d k v); auto.
    + specialize (G k). cbn in G. rewrite String.eqb_refl in G. destruct (f k); congruence.
    + intros HK. specialize (G k). cbn in G. rewrite String.eqb_refl in G. apply Hd in HK. unfold f in G. rewrite HK, andb_false_r in G. discriminate.
Qed.
Lemma of_run_ext d d' o : (forall k, dget k d = dget k d') -> of_run d o -> of_run d' o.
Proof.
  intros E [v H|k v H K N|H]; [rewrite E in H; apply r_some; auto|rewrite E in H, K; eapply r_other; eauto|]. apply r_none. intros k v. rewrite <- E. apply H.
Qed.
(** *** one call *)
Definition goes (s : lproc) (c : lcall) (i : nat) (e : log_entry) : Prop :=
  exists hl m, lp_handler s = Some (i, hl) /\ hl <= c_level c /\ enabled s (c_logger c) (c_level c) = true /\ reaches (lp_prop s) (chain (c_logger c)) = true /\
    clashes (extra_of s c) = false /\ c_text c = Some m /\ e = entry_of c m (extra_of s c).
Lemma captured_iff s c i e : there s c -> captured s c i e <-> goes s c i e.
Proof.
  intros TH. unfold captured, goes. assert (EN : enabled s (c_logger c) (c_level c) = true <-> lp_off s (c_logger c) = false /\ lp_disable s < c_level c /\ exists v, applies (lp_level s) (c_logger c) v /\ v <= c_level c).
  { unfold enabled. rewrite !andb_true_iff, negb_true_iff, Z.ltb_lt, Z.leb_le. split; [intros [[A B] C]; sp; auto; eexists; split; [apply applies_iff; auto|auto]|]. intros (A & B & v & V & C). apply applies_iff in V. subst v. auto. }
  assert (CR : carries (given_of s c) (c_adapter c) (extra_of s c)) by apply extra_carries.
  split.
  - intros ((hl & Hh & L) & O & D & V & I & P & d & x & Gd & Cx & NR & T & E1 & E2 & E3 & F & R). apply given_dict_iff in Gd; auto. subst d. assert (X : forall k, dget k x = dget k (extra_of s c)) by (intros k; rewrite (Cx k), (CR k); auto).
    assert (CL : clashes (extra_of s c) = false) by (apply clashes_iff; intros k v; rewrite <- X; apply NR).
    exists hl, (l_message e). sp; auto; [apply EN; auto|apply reaches_chain; auto|]. pose proof (filed_ext _ _ _ X F) as F'. apply filed_iff in F'. pose proof (of_run_ext _ _ _ X R) as R'. apply of_run_iff in R'; auto.
    destruct e as [ts lv m nm tk rn]. cbn [l_message l_ts l_level l_logger l_task l_run] in *. unfold entry_of. congruence.
  - intros (hl & m & Hh & L & E & R & CL & T & ->). apply EN in E. destruct E as (O & D & V). apply reaches_chain in R. destruct R as [I P]. sp; auto; [eauto|]. exists (given_of s c), (extra_of s c). sp; auto; cbn [entry_of l_message l_ts l_level l_logger l_task l_run]; auto.
    + apply given_dict_iff; auto. + apply clashes_iff; auto. + apply filed_iff. auto. + apply of_run_iff; auto.
Qed.
Lemma process_same s c : lp_bufs (snd (process s c)) = lp_bufs s /\ lp_handler (snd (process s c)) = lp_handler s /\ lp_current (snd (process s c)) = lp_current s /\ lp_prop (snd (process s c)) = lp_prop s /\
  lp_level (snd (process s c)) = lp_level s /\ lp_off (snd (process s c)) = lp_off s /\ lp_disable (snd (process s c)) = lp_disable s /\ List.length (lp_dicts (snd (process s c))) = List.length (lp_dicts s).
Proof.
  unfold process. destruct (c_adapter c); [|sp; auto]. destruct (c_extra c) as [i|]; sp; auto. cbn. unfold nth_upd. rewrite !app_length, firstn_length. destruct (nth_error (lp_dicts s) i) eqn:E.
  - assert (i < List.length (lp_dicts s))%nat by (apply nth_error_Some; congruence). cbn [List.length]. rewrite skipn_length. lia.
  - apply nth_error_None in E. rewrite skipn_length. cbn. lia.
Qed.
Definition add_entry (e : log_entry) (b : nat * list log_entry) : nat * list log_entry := (fst b, push (fst b) e (snd b)).
Lemma log_call_spec s c : let s' := snd (log_call s c) in
  (forall i e, goes s c i e -> lp_bufs s' = nth_upd i (add_entry e) (lp_bufs s)) /\ ((forall i e, ~ goes s c i e) -> lp_bufs s' = lp_bufs s) /\
  lp_handler s' = lp_handler s /\ lp_current s' = lp_current s /\ lp_prop s' = lp_prop s /\ lp_level s' = lp_level s /\ lp_off s' = lp_off s /\ lp_disable s' = lp_disable s /\ List.length (lp_dicts s') = List.length (lp_dicts s).
Proof.
  cbv zeta. unfold goes, log_call. destruct (enabled s (c_logger c) (c_level c)) eqn:E; cbn [negb].
  2: { cbn [snd]. sp; auto. intros i e (hl & m & _ & _ & X & _). discriminate. }
  pose proof (process_same s c) as (B & H & C & P & L & O & D & N). unfold extra_of. destruct (process s c) as [x s1]. cbn [fst snd] in *. destruct (clashes x) eqn:CL.
  { cbn [snd]. sp; auto; try congruence. intros i e (hl & m & _ & _ & _ & _ & X & _). discriminate. }
  rewrite H. destruct (lp_handler s) as [[i hl]|] eqn:Hh.
  2: { cbn [snd]. sp; auto; try congruence. intros i e (hl & m & X & _). discriminate. }
  rewrite P. destruct (reaches (lp_prop s) (chain (c_logger c))) eqn:R; cbn [andb].
  2: { cbn [snd]. sp; auto; try congruence. intros i' e (hl' & m & _ & _ & _ & X & _). discriminate. }
  destruct (Z.leb_spec hl (c_level c)) as [LE|LE].
  2: { cbn [snd]. sp; auto; try congruence. intros i' e (hl' & m & [= <- <-] & X & _). lia. }
  unfold emit. destruct (c_text c) as [m|] eqn:T.
  2: { cbn [snd]. sp; auto; try congruence. intros i' e (hl' & m & _ & _ & _ & _ & _ & X & _). discriminate. }
  cbn [snd with_bufs lp_bufs lp_handler lp_current lp_prop lp_level lp_off lp_disable lp_dicts]. sp; auto.
  - intros i' e (hl' & m' & [= <- <-] & _ & _ & _ & _ & [= <-] & ->). rewrite B. reflexivity.
  - intros X. exfalso. apply (X i (entry_of c m x)). exists hl, m. sp; auto.
Qed.
(** *** histories *)
Lemma nth_upd_get {A} i (f : A -> A) l j : nth_error (nth_upd i f l) j = if Nat.eqb i j then option_map f (nth_error l j) else nth_error l j.
Proof.
  unfold nth_upd. revert l j. induction i as [|i IH]; intros l j.
  - destruct l as [|x l]; cbn; destruct j; cbn; auto.
  - destruct l as [|x l]; cbn [firstn nth_error skipn app].
    + destruct (Nat.eqb (Datatypes.S i) j); destruct j; auto.
    + destruct j as [|j]; cbn [nth_error Nat.eqb]; auto. apply IH.
Qed.
Lemma nth_upd_length {A} i (f : A -> A) l : List.length (nth_upd i f l) = List.length l.
Proof.
  unfold nth_upd. rewrite !app_length, firstn_length, skipn_length. destruct (nth_error l i) eqn:E.
  - assert (i < List.length l)%nat by (apply nth_error_Some; congruence). cbn. lia.
  - apply nth_error_None in E. cbn. lia.
Qed.
Lemma nth_upd_map {A B} i (f : A -> A) (g : A -> B) l : (forall x, g (f x) = g x) -> map g (nth_upd i f l) = map g l.
Proof.
  intros H. unfold nth_upd. revert i. induction l as [|x l IH]; intros i; destruct i as [|i]; cbn; auto; [rewrite H; auto|]. f_equal. apply IH.
Qed.
Lemma goes_dec s c : (exists i e, goes s c i e) \/ forall i e, ~ goes s c i e.
Proof.
  unfold goes. destruct (lp_handler s) as [[i hl]|]; [|right; intros i e (hl & m & X & _); discriminate].
  destruct (Z.le_decidable hl (c_level c)) as [L|L]; [|right; intros i' e (hl' & m & [= <- <-] & X & _); auto].
  destruct (enabled s (c_logger c) (c_level c)); [|right; intros i' e (hl' & m & _ & _ & X & _); discriminate].
  destruct (reaches (lp_prop s) (chain (c_logger c))); [|right; intros i' e (hl' & m & _ & _ & _ & X & _); discriminate].
  destruct (clashes (extra_of s c)); [right; intros i' e (hl' & m & _ & _ & _ & _ & X & _); discriminate|].
  destruct (c_text c) as [m|]; [|right; intros i' e (hl' & m & _ & _ & _ & _ & _ & X & _); discriminate].
  left. exists i, (entry_of c m (extra_of s c)), hl, m. sp; auto.
Qed.
Lemma goes_fun s c i e i' e' : goes s c i e -> goes s c i' e' -> i = i' /\ e = e'.
Proof. intros (hl & m & H & _ & _ & _ & _ & T & ->) (hl' & m' & H' & _ & _ & _ & _ & T' & ->). split; congruence. Qed.
(** storages exist, and keep their sizes *)
Record inv (sizes : list nat) (s : lproc) : Prop := MkInv {
  inv_sizes : map fst (lp_bufs s) = sizes \/ map fst (lp_bufs s) = sizes ++ [Z.to_nat 20000];
  inv_handler : forall i l, lp_handler s = Some (i, l) -> (i < List.length (lp_bufs s))%nat;
  inv_current : match lp_current s with Some i => (i < List.length (lp_bufs s))%nat | None => map fst (lp_bufs s) = sizes end }.
Lemma fresh_inv sizes : inv sizes (fresh sizes).
Proof. constructor; cbn; [left| |]; try (rewrite map_map; cbn; apply map_id). discriminate. Qed.
Lemma inv_len sizes s : inv sizes s -> (List.length sizes <= List.length (lp_bufs s))%nat.
Proof. intros [[H|H] _ _]; rewrite <- (map_length fst (lp_bufs s)), H; [|rewrite app_length]; lia. Qed.
(** get_log_storage *)
Lemma get_storage_spec sizes s st : inv sizes s -> match st with Some i => (i < List.length sizes)%nat | None => True end ->
  let (i, s') := get_log_storage s st in
  inv sizes s' /\ lp_current s' = Some i /\ i = match st, lp_current s with Some j, _ => j | None, Some j => j | None, None => List.length sizes end /\
  (i < List.length (lp_bufs s'))%nat /\ (exists new, lp_bufs s' = lp_bufs s ++ new /\ (new = [] \/ new = [(Z.to_nat 20000, [])] /\ i = List.length (lp_bufs s) /\ List.length (lp_bufs s) = List.length sizes)) /\
  lp_handler s' = lp_handler s /\ lp_dicts s' = lp_dicts s /\ lp_disable s' = lp_disable s /\ lp_level s' = lp_level s /\ lp_prop s' = lp_prop s /\ lp_off s' = lp_off s.
Proof.
  intros I B. pose proof (inv_len _ _ I) as LN. destruct I as [Z H C]. unfold get_log_storage. destruct st as [j|].
  - cbn [lp_current lp_bufs lp_handler lp_dicts lp_disable lp_level lp_prop lp_off]. sp; auto; [constructor; auto; cbn; lia|lia|]. exists []. rewrite app_nil_r. auto.
  - destruct (lp_current s) as [j|] eqn:E.
    + sp; auto; [constructor; auto; rewrite E; auto|]. exists []. rewrite app_nil_r. auto.
    + assert (LE : List.length (lp_bufs s) = List.length sizes) by (rewrite <- C; symmetry; apply map_length).
      cbn [lp_current lp_bufs lp_handler lp_dicts lp_disable lp_level lp_prop lp_off]. sp; auto.
      * constructor; cbn [lp_current lp_bufs lp_handler]; [right; rewrite map_app, C; auto| |rewrite app_length; cbn; lia]. intros i l X. rewrite app_length. specialize (H i l X). lia.
      * rewrite app_length. cbn. lia.
      * exists [(Z.to_nat 20000, [])]. auto.
Qed.
Lemma nth_app_nil {A} (l new : list A) i x : nth_error l i = Some x -> nth_error (l ++ new) i = Some x.
Proof. intros H. rewrite nth_error_app1; auto. apply nth_error_Some. congruence. Qed.
(** a step other than logging leaves what the storages hold alone *)
Definition grown (sizes : list nat) (s s' : lproc) : Prop :=
  exists new, lp_bufs s' = lp_bufs s ++ new /\ (new = [] \/ new = [(Z.to_nat 20000, [])] /\ List.length (lp_bufs s) = List.length sizes).
Definition dict_count (n : nat) (o : lop) : nat := match o with ODict _ => S n | _ => n end.
Definition sound_op (dicts storages : nat) (o : lop) : Prop :=
  match o with
  | OMount (Some i) | OInstall i _ => (i < storages)%nat
  | OLog c => match c_extra c with Some i => (i < dicts)%nat | None => True end
  | _ => True
  end.
Lemma sound_cons n m o ops : sound_ops n m (o :: ops) <-> sound_op n m o /\ sound_ops (dict_count n o) m ops.
Proof. destruct o as [[i|]|c|i l|a l|a b|a b|l|d|i d]; cbn; tauto. Qed.
Lemma install_same s i l : lp_bufs (install_handler s i l) = lp_bufs s /\ lp_current (install_handler s i l) = lp_current s /\ lp_dicts (install_handler s i l) = lp_dicts s /\ lp_handler (install_handler s i l) = Some (i, l) /\
  lp_disable (install_handler s i l) = lp_disable s /\ lp_off (install_handler s i l) = lp_off s.
Proof. unfold install_handler. destruct (lp_handler s); sp; auto. Qed.
Lemma step_spec sizes s o n : inv sizes s -> List.length (lp_dicts s) = n -> sound_op n (List.length sizes) o ->
  inv sizes (lstep s o) /\ List.length (lp_dicts (lstep s o)) = dict_count n o /\
  ((forall c, o <> OLog c) -> grown sizes s (lstep s o)) /\
  lp_current (lstep s o) = match o with OMount (Some i) => Some i | OMount None => match lp_current s with Some i => Some i | None => Some (List.length sizes) end | _ => lp_current s end.
Proof.
  intros I N SO. destruct o as [st|c|i l|a l|a b|a b|l|d|i d]; cbn [lstep dict_count].
  - unfold mount. pose proof (get_storage_spec sizes s st I ltac:(destruct st; auto)) as G. destruct (get_log_storage s st) as [i s1]. destruct G as (I1 & C1 & -> & L1 & (new & B1 & W) & H1 & D1 & _).
    set (i := match st with Some j => j | None => match lp_current s with Some j => j | None => List.length sizes end end) in *.
    destruct (install_same s1 i 20) as (B2 & C2 & D2 & H2 & _). cbn [lp_bufs lp_current lp_dicts lp_handler]. sp.
    + destruct I1 as [Z1 HH1 CC1]. constructor; cbn [lp_bufs lp_current lp_handler]; rewrite ?B2, ?C2, ?H2; auto. intros j l [= <- <-]. auto.
    + rewrite D2, D1. auto.
    + intros _. exists new. cbn [lp_bufs]. rewrite B2. split; auto. destruct W as [W|(W & _ & E)]; auto.
    + rewrite C2, C1. unfold i. destruct st; auto. destruct (lp_current s); auto.
  - destruct (log_call_spec s c) as (G & U & H & C & P & L & O & D & DD). sp; auto; [|lia|intros X; destruct (X c); auto].
    assert (F : map fst (lp_bufs (snd (log_call s c))) = map fst (lp_bufs s)).
    { destruct (goes_dec s c) as [(i & e & Y)|Y]; [rewrite (G i e Y); apply nth_upd_map; auto|rewrite (U Y); auto]. }
    assert (FL : List.length (lp_bufs (snd (log_call s c))) = List.length (lp_bufs s)) by (rewrite <- (map_length fst), F; apply map_length).
    destruct I as [Z HH CC]. constructor; rewrite ?F, ?FL, ?H, ?C; auto.
  - destruct (install_same s i l) as (B2 & C2 & D2 & H2 & _). cbn in SO. pose proof (inv_len _ _ I) as LN. sp; [|congruence| |auto].
    + destruct I as [Z HH CC]. constructor; rewrite ?B2, ?C2, ?H2; auto. intros j l' [= <- <-]. lia.
    + intros _. exists []. rewrite B2, app_nil_r. auto.
  - sp; auto; [destruct I; constructor; auto|]. intros _. exists []. cbn. rewrite app_nil_r. auto.
  - sp; auto; [destruct I; constructor; auto|]. intros _. exists []. cbn. rewrite app_nil_r. auto.
  - sp; auto; [destruct I; constructor; auto|]. intros _. exists []. cbn. rewrite app_nil_r. auto.
  - sp; auto; [destruct I; constructor; auto|]. intros _. exists []. cbn. rewrite app_nil_r. auto.
  - sp; auto; [destruct I; constructor; auto|cbn; rewrite app_length; cbn; lia|]. intros _. exists []. cbn. rewrite app_nil_r. auto.
  - sp; auto; [destruct I; constructor; auto|cbn; rewrite nth_upd_length; auto|]. intros _. exists []. cbn. rewrite app_nil_r. auto.
Qed.
Definition log_of (o : lop) : option lcall := match o with OLog c => Some c | _ => None end.
Lemma not_log o : log_of o = None -> forall c, o <> OLog c.
Proof. intros H c ->. discriminate. Qed.
Lemma run_told sizes ops : forall s n, inv sizes s -> List.length (lp_dicts s) = n -> sound_ops n (List.length sizes) ops -> forall i, exists l, told i s ops l /\
  match nth_error (lp_bufs s) i with
  | Some (m, b) => exists b', nth_error (lp_bufs (lrun s ops)) i = Some (m, b') /\ forall l0, newest m l0 b -> newest m (l0 ++ l) b'
  | None => (nth_error (lp_bufs (lrun s ops)) i = None /\ l = []) \/ (i = List.length sizes /\ exists b', nth_error (lp_bufs (lrun s ops)) i = Some (Z.to_nat 20000, b') /\ newest (Z.to_nat 20000) l b')
  end.
Proof.
  induction ops as [|o ops IH]; intros s n I N SO i.
  - exists []. split; [constructor|]. cbn [lrun]. destruct (nth_error (lp_bufs s) i) as [[m b]|]; [|auto]. exists b. split; auto. intros l0. rewrite app_nil_r. auto.
  - apply sound_cons in SO. destruct SO as [SO SS]. destruct (step_spec sizes s o n I N SO) as (I' & N' & G & _). destruct (IH _ _ I' N' SS i) as (l & T & R). cbn [lrun].
    destruct (log_of o) as [c|] eqn:LO.
    + destruct o; try discriminate. injection LO as ->. assert (TH : there s c) by (unfold there; cbn in SO; rewrite N; auto). cbn [lstep] in *. destruct (log_call_spec s c) as (GG & UU & _).
      destruct (goes_dec s c) as [(j & e & Y)|Y].
      * specialize (GG j e Y). rewrite GG, nth_upd_get in R. destruct (Nat.eqb_spec j i) as [->|NE].
        { exists (e :: l). split; [apply t_in; auto; apply captured_iff; auto|]. destruct Y as (hl & m & H & _). pose proof (inv_handler _ _ I _ _ H) as B. destruct (nth_error (lp_bufs s) i) as [[m' b]|] eqn:E; [|apply nth_error_None in E; lia].
          cbn [option_map add_entry fst snd] in R. destruct R as (b' & F & W). exists b'. split; auto. intros l0 Q. replace (l0 ++ e :: l) with ((l0 ++ [e]) ++ l) by (rewrite <- app_assoc; auto). apply W. apply push_newest. auto. }
        { exists l. split; [apply t_out; auto; intros c' e' [= <-] X; apply captured_iff in X; auto; destruct (goes_fun _ _ _ _ _ _ X Y); congruence|]. auto. }
      * rewrite (UU Y) in R. exists l. split; [apply t_out; auto; intros c' e' [= <-] X; apply captured_iff in X; auto; apply (Y _ _ X)|]. auto.
    + exists l. split; [apply t_out; auto; intros c e -> _; discriminate|]. destruct (G (not_log _ LO)) as (new & B & W). rewrite B in R.
      destruct (nth_error (lp_bufs s) i) as [[m b]|] eqn:E; [rewrite (nth_app_nil _ _ _ _ E) in R; auto|].
      destruct W as [->|(-> & LE)]; [rewrite app_nil_r, E in R; auto|]. apply nth_error_None in E. rewrite nth_error_app2 in R by auto. destruct (i - List.length (lp_bufs s))%nat as [|k] eqn:K.
      * cbn in R. destruct R as (b' & F & Q). right. split; [lia|]. exists b'. split; auto. apply (Q []). apply newest_nil.
      * cbn in R. destruct k; cbn in R; destruct R as [R|R]; auto.
Qed.
