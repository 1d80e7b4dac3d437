(** C40, C41: crash points and concurrent processes on a file store. *)
From Verif Require Import Prelude PreludeFacts MemStore StoreSpec SortList Durable DurableSpec DurableProofs DurableProofs3 FileSys PropDurable.
From Coq Require Import Sorting.Permutation.
Open Scope Z_scope.

Lemma firstn_In {A} k (l : list A) a : In a (firstn k l) -> In a l.
Proof. revert l. induction k as [|k IH]; intros [|x l]; cbn [firstn In]; [tauto|tauto|tauto|]. intros [H|H]; auto. Qed.

Section Link.
  Context {T : Type} (tid : T -> string) (tnext : T -> option Z) (ser : string -> T -> result string) (de : string -> option T) (suffix : string).
  Lemma fs_run_app l1 l2 d : fs_run (l1 ++ l2) d = fs_run l2 (fs_run l1 d). Proof. apply fold_left_app. Qed.
  Lemma str_app_assoc a b c : ((a ++ b) ++ c)%string = (a ++ (b ++ c))%string. Proof. induction a; cbn; congruence. Qed.
  Lemma str_app_nil a : (a ++ "")%string = a. Proof. induction a; cbn; congruence. Qed.
  Lemma dset_dset {V} k (v w : V) d : dset k w (dset k v d) = dset k w d.
  Proof. induction d as [|[k' v'] d IH]; cbn; [rewrite String.eqb_refl; auto|]. destruct (String.eqb k k') eqn:E; cbn; rewrite E; auto. rewrite IH. auto. Qed.
  Lemma appends n l : forall b d, dget n d = Some b -> fs_run (map (FAppend n) l) d = dset n (b ++ join l)%string d \/ (l = [] /\ fs_run (map (FAppend n) l) d = d).
  Proof.
    induction l as [|c l IH]; intros b d D; [right; auto|]. left. cbn. rewrite D. destruct (IH (b ++ c)%string (dset n (b ++ c)%string d)) as [E|[-> E]]; [apply dget_dset_eq| |].
    - unfold fs_run in E. rewrite E, dset_dset, str_app_assoc. auto.
    - cbn. rewrite str_app_nil. auto.
  Qed.
  Lemma appends_get n l b d : dget n d = Some b -> dget n (fs_run (map (FAppend n) l) d) = Some (b ++ join l)%string.
  Proof. intros D. destruct (appends n l b d D) as [->|[-> ->]]; [apply dget_dset_eq|]. cbn. rewrite str_app_nil. exact D. Qed.
  (** what the actions touch *)
  Definition act_name (a : fsact) : string := match a with FCreate n | FTruncate n | FAppend n _ | FUnlink n => n end.
  Lemma fs_run_other l n d : (forall a, In a l -> act_name a <> n) -> dget n (fs_run l d) = dget n d.
  Proof.
    revert d. induction l as [|a l IH]; cbn; intros d H; auto. unfold fs_run in IH. rewrite IH by auto. specialize (H a (or_introl eq_refl)). destruct a; cbn in *.
    - apply dget_dset_ne; auto.
    - apply dget_dset_ne; auto.
    - destruct (dget n0 d); auto. apply dget_dset_ne; auto.
    - apply dget_ddel_ne; auto.
  Qed.
  Definition own_name (o : sop T) : string := match o with SAdd t | SUpdate t => fname suffix (tid t) | SDelete id => fname suffix id | _ => ""%string end.
  Lemma fs_actions_names e chunks d o a : In a (fs_actions tid ser suffix e chunks d o) -> act_name a = own_name o.
  Proof.
    assert (M : forall n, In a (map (FAppend n) chunks) -> act_name a = n) by (intros n H; apply in_map_iff in H as (c & <- & _); auto).
    destruct o; cbn; try contradiction.
    - destruct (_ && _); [|intros []]. destruct (ser _ t); intros [<-|H]; auto; destruct H.
    - destruct (_ && _); [|intros []]. destruct (ser _ t); intros [<-|H]; auto; destruct H.
    - destruct (_ && _); [|intros []]. intros [<-|[]]. auto.
  Qed.
End Link.

(** the actions, run to the end, are the operation of the store (PropDurable speaks about those) *)
Theorem C40_actions_are_the_operation :
  forall (T : Type) (tid : T -> string) (tnext : T -> option Z) ser de (suffix : string) (e : senv) (chunks : list string) (d : folder) (o : sop T),
    chunks_of ser e chunks o -> match o with SAdd _ | SUpdate _ | SDelete _ => True | _ => False end ->
    forall n, dget n (fs_run (fs_actions tid ser suffix e chunks d o) d) = dget n (fst (file_step tid tnext ser de suffix d (e, o))).
Proof.
  intros T tid tnext ser de suffix e chunks d o C O n. destruct (string_dec n (own_name tid suffix o)) as [->|N].
  - destruct o as [t|t|id| |id| |now|]; try contradiction; cbn in *.
    + destruct (valid_id (tid t)); cbn; auto. destruct (dmem _ d) eqn:M; cbn; auto. destruct (ser (nonce e) t) as [b|x]; cbn; auto.
      rewrite <- C. change (dget (fname suffix (tid t)) (fs_run (map (FAppend (fname suffix (tid t))) chunks) (dset (fname suffix (tid t)) ""%string d)) = dget (fname suffix (tid t)) (dset (fname suffix (tid t)) (join chunks) d)).
      rewrite (appends_get _ _ ""%string) by apply dget_dset_eq. rewrite dget_dset_eq. auto.
    + destruct (valid_id (tid t)); cbn; auto. destruct (dmem _ d) eqn:M; cbn; auto. destruct (ser (nonce e) t) as [b|x]; cbn; auto.
      rewrite <- C. change (dget (fname suffix (tid t)) (fs_run (map (FAppend (fname suffix (tid t))) chunks) (dset (fname suffix (tid t)) ""%string d)) = dget (fname suffix (tid t)) (dset (fname suffix (tid t)) (join chunks) d)).
      rewrite (appends_get _ _ ""%string) by apply dget_dset_eq. rewrite dget_dset_eq. auto.
    + destruct (valid_id id); cbn; auto. destruct (dmem _ d) eqn:M; cbn; auto.
  - rewrite (fs_run_other _ n d); [|intros a Ha; rewrite (fs_actions_names tid ser suffix e chunks d o a Ha); auto].
    destruct o as [t|t|id| |id| |now|]; try contradiction; cbn in *.
    + destruct (valid_id (tid t)); cbn; auto. destruct (dmem _ d); cbn; auto. destruct (ser _ t); cbn; symmetry; apply dget_dset_ne; auto.
    + destruct (valid_id (tid t)); cbn; auto. destruct (dmem _ d); cbn; auto. destruct (ser _ t); cbn; symmetry; apply dget_dset_ne; auto.
    + destruct (valid_id id); cbn; auto. destruct (dmem _ d); cbn; auto. symmetry; apply dget_ddel_ne; auto.
Qed.
Print Assumptions C40_actions_are_the_operation.

(** what a restarted store finds under an id *)
Definition finds {T} (de : string -> option T) (suffix : string) (d : folder) (id : string) : option T :=
  match dget (fname suffix id) d with Some b => de b | None => None end.
Definition id_of {T} (tid : T -> string) (o : sop T) : string := match o with SAdd t | SUpdate t => tid t | SDelete id => id | _ => ""%string end.

(** the process dies after any number [k] of actions: every other task, and every other file, is intact *)
Theorem C40_other_tasks_intact_partial :
  forall (T : Type) (tid : T -> string) ser de (suffix : string) (e : senv) (chunks : list string) (d : folder) (o : sop T) (k : nat),
    match o with SAdd _ | SUpdate _ | SDelete _ => True | _ => False end ->
    let d' := fs_run (firstn k (fs_actions tid ser suffix e chunks d o)) d in
    (forall n, n <> fname suffix (id_of tid o) -> dget n d' = dget n d) /\
    (forall id, id <> id_of tid o -> finds (T := T) de suffix d' id = finds de suffix d id).
Proof.
  intros T tid ser de suffix e chunks d o k O d'.
  assert (H : forall n, n <> fname suffix (id_of tid o) -> dget n d' = dget n d).
  { intros n N. apply fs_run_other. intros a Ha. apply firstn_In in Ha. rewrite (fs_actions_names tid ser suffix e chunks d o a Ha). destruct o; cbn in *; try contradiction; auto. }
  split; auto. intros id N. unfold finds. rewrite H; auto. intros E. apply N. apply (fname_inj suffix). exact E.
Qed.
Print Assumptions C40_other_tasks_intact_partial.

Fixpoint prefix_str (p s : string) : Prop := match p, s with EmptyString, _ => True | String a p', String b s' => a = b /\ prefix_str p' s' | _, _ => False end.
Lemma prefix_app p q : prefix_str p (p ++ q)%string. Proof. induction p; cbn; auto. Qed.
(** the task being written: what is found is its old version, its new one, or nothing, never a mixture *)
Theorem C40_written_task_old_new_or_lost_partial :
  forall (T : Type) (tid : T -> string) ser de (back : T -> T) (suffix : string) (e : senv) (chunks : list string) (d : folder) (t : T) (b : string) (o : sop T) (k : nat),
    (o = SAdd t \/ o = SUpdate t) -> ser (nonce e) t = Ok b -> join chunks = b -> de b = Some (back t) ->
    (* a truncated state cannot be restored *)
    (forall p, prefix_str p b -> p <> b -> de p = None) ->
    let found := finds de suffix (fs_run (firstn k (fs_actions tid ser suffix e chunks d o)) d) (tid t) in
    found = finds de suffix d (tid t) \/ found = Some (back t) \/ found = None.
Proof.
  intros T tid ser de back suffix e chunks d t b o k O S J D TR found. set (n := fname suffix (tid t)) in *.
  assert (GO : forall a0, (a0 = FCreate n \/ a0 = FTruncate n) -> let f := finds de suffix (fs_run (firstn k (a0 :: map (FAppend n) chunks)) d) (tid t) in f = finds de suffix d (tid t) \/ f = Some (back t) \/ f = None).
  { intros a0 A f. destruct k as [|k]; [left; reflexivity|]. right. subst f. cbn [firstn]. unfold finds. fold n.
    replace (fs_run (a0 :: firstn k (map (FAppend n) chunks)) d) with (fs_run (map (FAppend n) (firstn k chunks)) (dset n ""%string d)) by (rewrite <- firstn_map; destruct A as [->| ->]; reflexivity).
    rewrite (appends_get _ _ ""%string) by apply dget_dset_eq. cbn [append].
    assert (PX : prefix_str (join (firstn k chunks)) b).
    { rewrite <- J. clear. revert k. induction chunks as [|c l IH]; intros [|k]; cbn; auto. induction c; cbn; auto. }
    destruct (string_dec (join (firstn k chunks)) b) as [->|N]; auto. }
  destruct O as [-> | ->]; subst found; cbn [fs_actions]; rewrite S; fold n; destruct (_ && _); try (destruct k; left; reflexivity); apply GO; auto.
Qed.
Print Assumptions C40_written_task_old_new_or_lost_partial.

(** every update has a crash point (just after the file is truncated) at which the stored task is lost *)
Theorem C40_update_crash_loses_the_task_refuted :
  forall (T : Type) (tid : T -> string) ser de (suffix : string) (e : senv) (chunks : list string) (d : folder) (old t : T),
    valid_id (tid t) = true -> finds de suffix d (tid t) = Some old -> de ""%string = None ->
    exists k, finds de suffix (fs_run (firstn k (fs_actions tid ser suffix e chunks d (SUpdate t))) d) (tid t) = None.
Proof.
  intros T tid ser de suffix e chunks d old t V F E0. exists 1%nat. unfold finds in *. cbn. rewrite V.
  destruct (dmem (fname suffix (tid t)) d) eqn:M.
  - cbn [andb firstn fs_run fold_left fs_apply]. rewrite dget_dset_eq. exact E0.
  - apply dmem_false in M. rewrite M in F. discriminate.
Qed.
Print Assumptions C40_update_crash_loses_the_task_refuted.
Example C40_case :
  let d := [("a.task", "sa"); ("b.task", "sb")]%string in
  map (fun k => (finds xde ".task" (fs_run (firstn k (fs_actions xid xser ".task" (xenv false) ["s"; "b"]%string d (SUpdate "b"%string))) d) "a",
                 finds xde ".task" (fs_run (firstn k (fs_actions xid xser ".task" (xenv false) ["s"; "b"]%string d (SUpdate "b"%string))) d) "b")) [0; 1; 2; 3]%nat
  = [(Some "a", Some "b"); (Some "a", None); (Some "a", Some ""); (Some "a", Some "b")]%string.
Proof. vm_compute. reflexivity. Qed.

(** * C41 *)
Section C41.
  Context {T : Type} (de : string -> option T) (n : string) (i : nat) (b : string).
  Definition quiet_proc (p : proc) : Prop :=
    match p with
    | Writer _ m _ _ g => m <> n /\ match g with WLock j | WTrunc j | WPre j | WUnlock j | WPost j => j <> i | _ => True end
    | Reader m g => m = n -> match g with ROpen => True | RLock j | RRead j => j = i | RUnlock _ x => x = b | RDone r => r = Some b | RUnlink => False end
    end.
  Record idle (s : fsys) : Prop := {
    id_here : dget n (dir s) = Some i; id_data : data s i = b; id_sep : separate s;
    id_procs : forall k p, nth_error (procs s) k = Some p -> quiet_proc p }.
  Lemma nth_set_proc l k p j q : nth_error (set_proc k p l) j = Some q -> q = p \/ nth_error l j = Some q.
  Proof.
    unfold set_proc. destruct (Nat.lt_ge_cases j (List.length (firstn k l))) as [H|H].
    - rewrite nth_error_app1 by auto. intros E. right. rewrite <- (firstn_skipn k l). rewrite nth_error_app1; auto.
    - rewrite nth_error_app2 by auto. destruct (j - List.length (firstn k l))%nat as [|m] eqn:D; cbn [nth_error]; [intros [= <-]; auto|]. intros E. right.
      rewrite firstn_length in *. destruct (Nat.le_gt_cases (List.length l) k) as [L|L].
      + rewrite skipn_all2 in E by lia. destruct m; discriminate.
      + rewrite Nat.min_l in * by lia. rewrite <- (firstn_skipn (S k) l). rewrite nth_error_app2; rewrite firstn_length, Nat.min_l by lia; [|lia]. rewrite <- E. f_equal. lia.
  Qed.
  Hypothesis readable : de b <> None.
  Lemma idle_move s k p s' : idle s -> nth_error (procs s) k = Some p -> fmove de s k p s' -> idle s'.
  Proof.
    intros [H D [S1 S2] Q] P M. pose proof (Q k p P) as QP.
    assert (PR : forall p', quiet_proc p' -> forall j q, nth_error (set_proc k p' (procs s)) j = Some q -> quiet_proc q).
    { intros p' QP' j q E. apply nth_set_proc in E as [->|E]; eauto. }
    inversion M; subst; cbn in QP; (constructor; cbn [dir data fresh held procs]; [| |split; cbn [dir data fresh held procs]|apply PR; cbn]); auto; try tauto.
    - rewrite dget_dset_ne; tauto || auto. intros ->. tauto.
    - unfold set_data. destruct (Nat.eqb_spec i (fresh s)) as [E|]; auto. specialize (S2 n i H). lia.
    - intros a c j. destruct (string_dec a n0) as [->|Na], (string_dec c n0) as [->|Nc]; rewrite ?dget_dset_eq, ?dget_dset_ne by auto; auto.
      + intros [= <-] E. specialize (S2 _ _ E). lia.
      + intros E [= <-]. specialize (S2 _ _ E). lia.
      + apply S1.
    - intros a j. destruct (string_dec a n0) as [->|Na]; rewrite ?dget_dset_eq, ?dget_dset_ne by auto; [intros [= <-]; lia|]. intros E. specialize (S2 _ _ E). lia.
    - split; [tauto|]. intros <-. specialize (S2 _ _ H). lia.
    - destruct QP as [QN _]. split; [exact QN|]. intros E. subst i0. apply QN. eapply S1; eauto.
    - unfold set_data. destruct (Nat.eqb_spec i i0); auto. subst. tauto.
    - unfold set_data. destruct (Nat.eqb_spec i i0); auto. subst. tauto.
    - unfold set_data. destruct (Nat.eqb_spec i i0); auto. subst. tauto.
    - intros ->. congruence.
    - intros ->. congruence.
    - intros ->. rewrite (QP eq_refl). auto.
    - intros ->. rewrite (QP eq_refl) in *. destruct (de b); congruence.
    - rewrite dget_ddel_ne; auto. 
    - intros a c j. destruct (string_dec a n0) as [->|Na]; [rewrite dget_ddel_eq; discriminate|]. destruct (string_dec c n0) as [->|Nc]; [rewrite dget_ddel_eq; discriminate|]. rewrite !dget_ddel_ne by auto. apply S1.
    - intros a j. destruct (string_dec a n0) as [->|Na]; [rewrite dget_ddel_eq; discriminate|]. rewrite dget_ddel_ne by auto. apply S2.
  Qed.
End C41.

(** Any readers and writers, interleaved in any way: a task that nobody is writing stays where it is,
    unchanged, and every finished lookup found it. *)
Theorem C41_idle_tasks_safe_partial :
  forall (T : Type) (de : string -> option T) (s0 s : fsys) (n : string) (i : nat),
    separate s0 -> (forall p, In p (procs s0) -> starting p) ->
    (forall new m pre post g, In (Writer new m pre post g) (procs s0) -> m <> n) ->
    dget n (dir s0) = Some i -> de (data s0 i) <> None -> fruns de s0 s ->
    dget n (dir s) = Some i /\ data s i = data s0 i /\
    forall k found, nth_error (procs s) k = Some (Reader n (RDone found)) -> found = Some (data s0 i).
Proof.
  intros T de s0 s n i SEP ST NW H D R.
  assert (I : idle n i (data s0 i) s).
  { induction R as [|s k p s' R IH P M]; [|eapply idle_move; eauto]. constructor; auto. intros k p P. apply nth_error_In in P. specialize (ST p P).
    destruct p as [new m pre post []|m []]; try contradiction; cbn; auto. split; auto. apply (NW new m pre post WOpen). exact P. }
  destruct I as [I1 I2 I3 I4]. repeat split; auto. intros k found P. specialize (I4 k _ P). cbn in I4. apply I4. reflexivity.
Qed.
Print Assumptions C41_idle_tasks_safe_partial.

Lemma fr_cons {T} (de : string -> option T) k p s0 s1 s : nth_error (procs s0) k = Some p -> fmove de s0 k p s1 -> fruns de s1 s -> fruns de s0 s.
Proof. intros P M R. induction R as [|s k' p' s' R IH P' M']; [eapply fr_step; [apply fr_start| |]; eauto|]. eapply fr_step; eauto. Qed.

(** one process updates a task while another looks it up: the lock is released before the data
    reaches the file, the reader finds it empty and deletes it; both processes end normally *)
Theorem C41_reader_deletes_task_being_updated_refuted :
  exists s0 s, separate s0 /\ procs s0 = [Writer false "a.task" "" "snew" WOpen; Reader "a.task" ROpen] /\
    option_map (fun i => xde (data s0 i)) (dget "a.task"%string (dir s0)) = Some (Some "old"%string) /\ fruns xde s0 s /\
    procs s = [Writer false "a.task" "" "snew" WDone; Reader "a.task" (RDone None)] /\ dir s = [].
Proof.
  exists (MkFs [("a.task"%string, 0%nat)] (fun _ => "sold"%string) 1 [] [Writer false "a.task" "" "snew" WOpen; Reader "a.task" ROpen]). eexists.
  split; [split; cbn; [intros n m i|intros n i]; destruct (String.eqb_spec n "a.task"); try discriminate; [destruct (String.eqb_spec m "a.task"); congruence|intros [= <-]; lia]|].
  split; [reflexivity|]. split; [reflexivity|]. split.
  - eapply (fr_cons _ 0); [reflexivity|apply w_open; reflexivity|]; cbn.
    eapply (fr_cons _ 0); [reflexivity|apply w_lock; intros k x []|]; cbn.
    eapply (fr_cons _ 0); [reflexivity|apply w_trunc|]; cbn.
    eapply (fr_cons _ 0); [reflexivity|apply w_pre|]; cbn.
    eapply (fr_cons _ 0); [reflexivity|apply w_unlock|]; cbn.
    eapply (fr_cons _ 1); [reflexivity|apply r_open; reflexivity|]; cbn.
    eapply (fr_cons _ 1); [reflexivity|apply r_lock; intros k x []|]; cbn.
    eapply (fr_cons _ 1); [reflexivity|apply r_read|]; cbn.
    eapply (fr_cons _ 1); [reflexivity|apply r_unlock|]; cbn.
    eapply (fr_cons _ 1); [reflexivity|apply r_unlink|]; cbn.
    eapply (fr_cons _ 0); [reflexivity|apply w_post|]; cbn.
    apply fr_start.
  - vm_compute. auto.
Qed.
Print Assumptions C41_reader_deletes_task_being_updated_refuted.

(** looking up an id that does not exist yet, while another process adds it, deletes it *)
Theorem C41_lookup_deletes_task_being_added_refuted :
  exists s0 s, separate s0 /\ procs s0 = [Writer true "a.task" "" "snew" WOpen; Reader "a.task" ROpen] /\ fruns xde s0 s /\
    procs s = [Writer true "a.task" "" "snew" WDone; Reader "a.task" (RDone None)] /\ dir s = [].
Proof.
  exists (MkFs [] (fun _ => ""%string) 0 [] [Writer true "a.task" "" "snew" WOpen; Reader "a.task" ROpen]). eexists.
  split; [split; cbn; [intros n m i H|intros n i H]; discriminate|]. split; [reflexivity|]. split.
  - eapply (fr_cons _ 1); [reflexivity|apply r_absent; reflexivity|]; cbn.
    eapply (fr_cons _ 0); [reflexivity|apply w_create; reflexivity|]; cbn.
    eapply (fr_cons _ 0); [reflexivity|apply w_lock; intros k x []|]; cbn.
    eapply (fr_cons _ 0); [reflexivity|apply w_trunc|]; cbn.
    eapply (fr_cons _ 0); [reflexivity|apply w_pre|]; cbn.
    eapply (fr_cons _ 0); [reflexivity|apply w_unlock|]; cbn.
    eapply (fr_cons _ 0); [reflexivity|apply w_post|]; cbn.
    eapply (fr_cons _ 1); [reflexivity|apply r_unlink|]; cbn.
    apply fr_start.
  - vm_compute. auto.
Qed.
Print Assumptions C41_lookup_deletes_task_being_added_refuted.
(** two processes update the same task: the second truncates before the first one's data reaches the
    file, and the shorter state is written over the longer one; the file holds neither *)
Theorem C41_updates_mix_refuted :
  exists s0 s, separate s0 /\ procs s0 = [Writer false "a.task" "" "slonger" WOpen; Writer false "a.task" "" "snew" WOpen] /\
    held s0 = [] /\ dget "a.task"%string (dir s0) = Some 0%nat /\ fruns xde s0 s /\
    procs s = [Writer false "a.task" "" "slonger" WDone; Writer false "a.task" "" "snew" WDone] /\
    dget "a.task"%string (dir s) = Some 0%nat /\ data s 0%nat = "snewger"%string.
Proof.
  exists (MkFs [("a.task"%string, 0%nat)] (fun _ => "sold"%string) 1 [] [Writer false "a.task" "" "slonger" WOpen; Writer false "a.task" "" "snew" WOpen]). eexists.
  split; [split; cbn; [intros n m i|intros n i]; destruct (String.eqb_spec n "a.task"); try discriminate; [destruct (String.eqb_spec m "a.task"); congruence|intros [= <-]; lia]|].
  split; [reflexivity|]. split; [reflexivity|]. split; [reflexivity|]. split.
  - eapply (fr_cons _ 0); [reflexivity|apply w_open; reflexivity|]; cbn.
    eapply (fr_cons _ 0); [reflexivity|apply w_lock; intros k x []|]; cbn.
    eapply (fr_cons _ 0); [reflexivity|apply w_trunc|]; cbn.
    eapply (fr_cons _ 0); [reflexivity|apply w_pre|]; cbn.
    eapply (fr_cons _ 0); [reflexivity|apply w_unlock|]; cbn.
    eapply (fr_cons _ 1); [reflexivity|apply w_open; reflexivity|]; cbn.
    eapply (fr_cons _ 1); [reflexivity|apply w_lock; intros k x []|]; cbn.
    eapply (fr_cons _ 1); [reflexivity|apply w_trunc|]; cbn.
    eapply (fr_cons _ 1); [reflexivity|apply w_pre|]; cbn.
    eapply (fr_cons _ 1); [reflexivity|apply w_unlock|]; cbn.
    eapply (fr_cons _ 0); [reflexivity|apply w_post|]; cbn.
    eapply (fr_cons _ 1); [reflexivity|apply w_post|]; cbn.
    apply fr_start.
  - vm_compute. auto.
Qed.
Print Assumptions C41_updates_mix_refuted.

(** What the locks do give.  A process is inside when it has locked a file and not yet unlocked it. *)
Definition inside (p : proc) (i : nat) : Prop :=
  match p with
  | Writer _ _ _ _ (WTrunc j) | Writer _ _ _ _ (WPre j) | Writer _ _ _ _ (WUnlock j) => j = i
  | Reader _ (RRead j) | Reader _ (RUnlock j _) => j = i
  | _ => False
  end.
Definition is_writer (p : proc) : bool := match p with Writer _ _ _ _ _ => true | _ => false end.
Record locked (s : fsys) : Prop := {
  lk_in : forall k p i, nth_error (procs s) k = Some p -> inside p i -> In (k, i, is_writer p) (held s);
  lk_ex : forall k1 k2 i x1 x2, In (k1, i, x1) (held s) -> In (k2, i, x2) (held s) -> k1 <> k2 -> x1 = false /\ x2 = false }.
Lemma nth_set_proc_eq l k p q : nth_error (set_proc k p l) k = Some q -> (k < List.length l)%nat -> q = p.
Proof.
  unfold set_proc. intros E L. rewrite nth_error_app2 in E; rewrite firstn_length, Nat.min_l in * by lia; [|lia].
  rewrite Nat.sub_diag in E. cbn in E. congruence.
Qed.
Lemma nth_set_proc_ne l k p j : (k < List.length l)%nat -> j <> k -> nth_error (set_proc k p l) j = nth_error l j.
Proof.
  intros L N. unfold set_proc. destruct (Nat.lt_ge_cases j k).
  - rewrite nth_error_app1 by (rewrite firstn_length; lia). rewrite <- (firstn_skipn k l) at 2. rewrite nth_error_app1 by (rewrite firstn_length; lia). reflexivity.
  - rewrite nth_error_app2; rewrite firstn_length, Nat.min_l by lia; [|lia]. destruct (j - k)%nat as [|m] eqn:D; [lia|]. cbn [nth_error].
    rewrite <- (firstn_skipn (S k) l) at 2. rewrite nth_error_app2; rewrite firstn_length, Nat.min_l by lia; [|lia]. f_equal. lia.
Qed.
Lemma released k i l x : In x (release_lock k i l) <-> In x l /\ (fst (fst x) <> k \/ snd (fst x) <> i).
Proof. unfold release_lock. rewrite filter_In. destruct (Nat.eqb_spec (fst (fst x)) k), (Nat.eqb_spec (snd (fst x)) i); cbn; intuition congruence. Qed.
Lemma locked_move {T} (de : string -> option T) s k p s' : locked s -> nth_error (procs s) k = Some p -> fmove de s k p s' -> locked s'.
Proof.
  intros [A B] P M. assert (L : (k < List.length (procs s))%nat) by (apply nth_error_Some; congruence).
  assert (SAME : forall d f fr p', (forall i, inside p' i -> inside p i /\ is_writer p' = is_writer p) -> locked (MkFs d f fr (held s) (set_proc k p' (procs s)))).
  { intros d f fr p' I. constructor; cbn [held procs]; [|exact B]. intros j q i E Q. destruct (Nat.eq_dec j k) as [->|N].
    - apply nth_set_proc_eq in E; auto. subst q. destruct (I i Q) as (I1 & I2). rewrite I2. eauto.
    - rewrite nth_set_proc_ne in E by auto. eauto. }
  assert (TAKE : forall p' i0 x, is_writer p' = x -> (forall i, inside p' i -> i = i0) -> may_lock x i0 (held s) ->
     (forall d f fr, locked (MkFs d f fr ((k, i0, x) :: held s) (set_proc k p' (procs s))))).
  { intros p' i0 x X I ML d f fr. constructor; cbn [held procs].
    - intros j q i E Q. destruct (Nat.eq_dec j k) as [->|N].
      + apply nth_set_proc_eq in E; auto. subst q. left. rewrite (I i Q), X. reflexivity.
      + rewrite nth_set_proc_ne in E by auto. right. eauto.
    - intros k1 k2 i x1 x2 [E1|H1] [E2|H2] N.
      + congruence.
      + injection E1 as <- <- <-. apply (ML k2 x2) in H2. tauto.
      + injection E2 as <- <- <-. apply (ML k1 x1) in H1. tauto.
      + eauto. }
  assert (DROP : forall p' i0 f, (forall i, ~ inside p' i) -> forall d fr, (forall i, inside p i -> i = i0) ->
     locked (MkFs d f fr (release_lock k i0 (held s)) (set_proc k p' (procs s)))).
  { intros p' i0 f I d fr I0. constructor; cbn [held procs].
    - intros j q i E Q. destruct (Nat.eq_dec j k) as [->|N].
      + apply nth_set_proc_eq in E; auto. subst q. destruct (I i Q).
      + rewrite nth_set_proc_ne in E by auto. apply released. split; [eauto|left; cbn; auto].
    - intros k1 k2 i x1 x2 H1 H2. apply released in H1 as (H1 & _). apply released in H2 as (H2 & _). eauto. }
  inversion M; subst; try (apply SAME; cbn; tauto); try (apply TAKE; cbn; auto; intros; subst; auto; fail).
  - apply DROP; cbn; auto.
  - apply DROP; [intros i1; destruct (de b); cbn; auto|cbn; auto].
Qed.
(** No lookup ever reads, and no other update touches, a file while an update has it locked, however
    the processes are interleaved. *)
Theorem C41_locks_exclude :
  forall (T : Type) (de : string -> option T) (s0 s : fsys) (k1 k2 : nat) (p1 p2 : proc) (i : nat),
    (forall p, In p (procs s0) -> starting p) -> held s0 = [] -> fruns de s0 s ->
    nth_error (procs s) k1 = Some p1 -> nth_error (procs s) k2 = Some p2 -> k1 <> k2 ->
    inside p1 i -> inside p2 i -> is_writer p1 = false /\ is_writer p2 = false.
Proof.
  intros T de s0 s k1 k2 p1 p2 i ST H0 R P1 P2 N I1 I2.
  assert (LK : locked s).
  { clear -R ST H0. induction R as [|s k p s' R IH P M].
    - constructor; [|rewrite H0; contradiction]. intros k p j P. apply nth_error_In in P. specialize (ST p P).
      destruct p as [? ? ? ? []|? []]; cbn in *; contradiction.
    - eapply locked_move; eauto. }
  destruct LK as [A B]. eapply B; eauto.
Qed.
Print Assumptions C41_locks_exclude.

(** Were the whole state written before the lock is released ([post] empty), concurrent updates and
    lookups of one task would be safe: the late flush is the only hole. *)
Section Flushed.
  Context {T : Type} (de : string -> option T) (n : string) (i : nat) (allowed : string -> Prop).
  Definition flushed_proc (s : fsys) (p : proc) : Prop :=
    match p with
    | Writer _ m pre post g => (m = n -> post = ""%string /\ allowed pre) /\
        match g with WLock j | WTrunc j | WUnlock j | WPost j => j = i -> m = n | WPre j => j = i -> m = n /\ data s i = ""%string | _ => True end
    | Reader m g => m = n -> match g with ROpen => True | RLock j | RRead j => j = i | RUnlock _ x => allowed x | RDone r => exists x, r = Some x /\ allowed x | RUnlink => False end
    end.
  Definition mid_write (p : proc) : Prop := match p with Writer _ _ _ _ (WPre j) => j = i | _ => False end.
  Record flushed (s : fsys) : Prop := {
    fl_here : dget n (dir s) = Some i; fl_sep : separate s; fl_locked : locked s;
    fl_procs : forall k p, nth_error (procs s) k = Some p -> flushed_proc s p;
    fl_data : (forall k p, nth_error (procs s) k = Some p -> ~ mid_write p) -> allowed (data s i) }.
  Hypothesis readable : forall x, allowed x -> de x <> None.
  Lemma write_empty c : write_at 0 c "" = c.
  Proof. unfold write_at. destruct (String.eqb_spec c ""); [auto|]. cbn. induction c; cbn; auto. destruct c; [reflexivity|]. f_equal. apply IHc. discriminate. Qed.
  Ltac keep := match goal with
    | KEEP : forall s'', _ -> _ -> locked s'' -> _, LK' : locked _, H : dget n _ = Some i, SP0 : forall f h ps, separate _ |- _ =>
        eapply KEEP; [ | |exact LK'| |reflexivity| | ]; cbn [dir data fresh held procs]; [try exact H|try apply SP0|try reflexivity| | ] end.
  Lemma flushed_move s k p s' : flushed s -> nth_error (procs s) k = Some p -> fmove de s k p s' -> flushed s'.
  Proof.
    intros [H [S1 S2] LK Q D] P M. pose proof (Q k p P) as QP. pose proof (locked_move de s k p s' LK P M) as LK'.
    assert (L : (k < List.length (procs s))%nat) by (apply nth_error_Some; congruence).
    (* another process that has the file open for writing *)
    assert (ALONE : forall j q, nth_error (procs s) j = Some q -> j <> k -> mid_write q -> ~ inside p i).
    { intros j q E N MW I. destruct LK as [A B]. assert (inside q i) by (destruct q as [? ? ? ? []|]; cbn in *; auto; contradiction).
      pose proof (A _ _ _ E H0) as X1. pose proof (A _ _ _ P I) as X2. destruct (B _ _ _ _ _ X1 X2 N) as (X3 & _).
      destruct q as [? ? ? ? []|]; cbn in MW; try contradiction. discriminate. }
    (* steps that leave the file's data alone *)
    assert (KEEP : forall s'', dget n (dir s'') = Some i -> separate s'' -> locked s'' -> data s'' i = data s i ->
        forall p', procs s'' = set_proc k p' (procs s) -> flushed_proc s'' p' -> (mid_write p -> mid_write p') -> flushed s'').
    { intros s'' H1 SP LK2 DS p' PS F MW. constructor; auto.
      - rewrite PS. intros j q E. destruct (Nat.eq_dec j k) as [->|N]; [apply nth_set_proc_eq in E; auto; subst; auto|].
        rewrite nth_set_proc_ne in E by auto. specialize (Q j q E). destruct q as [? ? ? ? []|? []]; cbn in *; auto. rewrite DS. auto.
      - rewrite DS. intros NM. apply D. intros j q E MQ. destruct (Nat.eq_dec j k) as [->|N].
        + rewrite P in E. injection E as <-. apply (NM k p'); [|auto]. rewrite PS. unfold set_proc. rewrite nth_error_app2; rewrite firstn_length, Nat.min_l by lia; [|lia]. rewrite Nat.sub_diag. reflexivity.
        + apply (NM j q); auto. rewrite PS, nth_set_proc_ne by auto. exact E. }
    assert (SP0 : forall f h ps, separate (MkFs (dir s) f (fresh s) h ps)) by (intros; split; assumption).
    inversion M; subst; cbn in QP; clear M.
    - (* create *) assert (n0 <> n) by congruence. assert (fresh s <> i) by (specialize (S2 _ _ H); lia). keep.
      + rewrite dget_dset_ne; auto.
      + split; cbn [dir fresh].
        * intros a c j. destruct (string_dec a n0) as [->|Na], (string_dec c n0) as [->|Nc]; rewrite ?dget_dset_eq, ?dget_dset_ne by auto; auto.
          -- intros [= <-] E. specialize (S2 _ _ E). lia.
          -- intros E [= <-]. specialize (S2 _ _ E). lia.
          -- apply S1.
        * intros a j. destruct (string_dec a n0) as [->|Na]; rewrite ?dget_dset_eq, ?dget_dset_ne by auto; [intros [= <-]; lia|]. intros E. specialize (S2 _ _ E). lia.
      + unfold set_data. destruct (Nat.eqb_spec i (fresh s)); congruence.
      + cbn. split; [tauto|]. intros E. congruence.
      + contradiction.
    - keep; [|contradiction]. cbn. split; [tauto|]. intros ->. eapply S1; eauto.
    - keep; [|contradiction]. cbn. tauto.
    - keep; [|contradiction]. cbn. tauto.
    - (* truncate *) destruct (Nat.eq_dec i0 i) as [->|N].
      + destruct QP as (QP1 & QP2). specialize (QP2 eq_refl). subst n0. constructor; cbn [dir data fresh held procs]; [exact H|apply SP0|exact LK'| |].
        * intros j q E. destruct (Nat.eq_dec j k) as [->|N].
          -- apply nth_set_proc_eq in E; auto. subst q. cbn. unfold set_data. rewrite Nat.eqb_refl. auto.
          -- rewrite nth_set_proc_ne in E by auto. pose proof (Q j q E) as QJ. pose proof (ALONE j q E N) as AL.
             destruct q as [? ? ? ? []|? []]; cbn in *; auto. split; [tauto|]. intros ->. exfalso. apply AL; auto.
        * intros NM. exfalso. apply (NM k (Writer new n pre post (WPre i))); [|cbn; auto].
          unfold set_proc. rewrite nth_error_app2; rewrite firstn_length, Nat.min_l by lia; [|lia]. rewrite Nat.sub_diag. reflexivity.
      + keep.
        * unfold set_data. destruct (Nat.eqb_spec i i0); congruence.
        * cbn. split; [tauto|]. congruence.
        * contradiction.
    - (* write *) destruct (Nat.eq_dec i0 i) as [->|N].
      + destruct QP as (QP1 & QP2). specialize (QP2 eq_refl) as (-> & E0). destruct (QP1 eq_refl) as (-> & AP). constructor; cbn [dir data fresh held procs]; [exact H|apply SP0|exact LK'| |].
        * intros j q E. destruct (Nat.eq_dec j k) as [->|N].
          -- apply nth_set_proc_eq in E; auto. subst q. cbn. auto.
          -- rewrite nth_set_proc_ne in E by auto. pose proof (Q j q E) as QJ. pose proof (ALONE j q E N) as AL.
             destruct q as [? ? ? ? []|? []]; cbn in *; auto. split; [tauto|]. intros ->. exfalso. apply AL; auto.
        * intros _. unfold set_data. rewrite Nat.eqb_refl, E0, write_empty. exact AP.
      + keep.
        * unfold set_data. destruct (Nat.eqb_spec i i0); congruence.
        * cbn. split; [tauto|]. congruence.
        * cbn. congruence.
    - keep; [|contradiction]. cbn. tauto.
    - (* close *) keep; [| |contradiction].
      + unfold set_data. destruct (Nat.eqb_spec i i0) as [->|]; auto. destruct QP as (QP1 & QP2). destruct (QP1 (QP2 eq_refl)) as (-> & _). reflexivity.
      + cbn. tauto.
    - keep; [|contradiction]. cbn. intros ->. congruence.
    - keep; [|contradiction]. cbn. intros ->. congruence.
    - keep; [|contradiction]. exact QP.
    - (* read *) keep; [|contradiction]. cbn. intros ->. specialize (QP eq_refl). subst i0.
      apply D. intros j q E MW. destruct (Nat.eq_dec j k) as [->|N]; [rewrite P in E; injection E as <-; exact MW|]. apply (ALONE j q E N MW). reflexivity.
    - keep; [|contradiction]. intros ->. specialize (QP eq_refl). pose proof (readable _ QP).
      destruct (de b); [|congruence]. eauto.
    - assert (n0 <> n) by (intros ->; auto). keep; [| | |contradiction].
      + rewrite dget_ddel_ne; auto.
      + split; cbn [dir fresh].
        * intros a c j. destruct (string_dec a n0) as [->|Na]; [rewrite dget_ddel_eq; discriminate|]. destruct (string_dec c n0) as [->|Nc]; [rewrite dget_ddel_eq; discriminate|]. rewrite !dget_ddel_ne by auto. apply S1.
        * intros a j. destruct (string_dec a n0) as [->|Na]; [rewrite dget_ddel_eq; discriminate|]. rewrite dget_ddel_ne by auto. apply S2.
      + cbn. intros ->. contradiction.
  Qed.
End Flushed.
Theorem C41_flushed_updates_safe_partial :
  forall (T : Type) (de : string -> option T) (s0 s : fsys) (n : string) (i : nat),
    separate s0 -> (forall p, In p (procs s0) -> starting p) -> held s0 = [] ->
    dget n (dir s0) = Some i -> de (data s0 i) <> None ->
    (forall new pre post g, In (Writer new n pre post g) (procs s0) -> post = ""%string /\ de pre <> None) ->
    fruns de s0 s ->
    let old_or_new b := b = data s0 i \/ exists new post, In (Writer new n b post WOpen) (procs s0) in
    dget n (dir s) = Some i /\
    (forall k found, nth_error (procs s) k = Some (Reader n (RDone found)) -> exists b, found = Some b /\ old_or_new b) /\
    ((forall p, In p (procs s) -> ~ inside p i) -> old_or_new (data s i)).
Proof.
  intros T de s0 s n i SEP ST H0 H D W R oon.
  assert (A : forall x, oon x -> de x <> None).
  { intros x [->|(new & post & X)]; auto. apply W in X. tauto. }
  assert (I : flushed n i oon s).
  { clear - SEP ST H0 H W R A. induction R as [|s k p s' R IH P M]; [|eapply flushed_move; eauto]. constructor; auto.
    - constructor; [|rewrite H0; contradiction]. intros k p j P. apply nth_error_In in P. specialize (ST p P).
      destruct p as [? ? ? ? []|? []]; cbn in *; contradiction.
    - intros k p P. apply nth_error_In in P. pose proof (ST p P) as SP. destruct p as [new m pre post []|m []]; cbn in *; try contradiction; auto.
      split; [|auto]. intros ->. split; [eapply W; eauto|]. right. eauto.
    - left. reflexivity. }
  destruct I as [I1 I2 I3 I4 I5]. split; [exact I1|]. split.
  - intros k found P. specialize (I4 k _ P). cbn in I4. apply I4. reflexivity.
  - intros NI. apply I5. intros k p P MW. apply (NI p); [eapply nth_error_In; eauto|]. destruct p as [? ? ? ? []|]; cbn in *; auto; contradiction.
Qed.
Print Assumptions C41_flushed_updates_safe_partial.

Example C41_case : (* a reader of "b" and a writer of "a": the hypotheses of C41_idle_tasks_safe_partial hold *)
  let s0 := MkFs [("a.task", 0%nat); ("b.task", 1%nat)]%string (fun _ => "sold"%string) 2 [] [Writer false "a.task" "" "snew" WOpen; Reader "b.task" ROpen] in
  separate s0 /\ (forall p, In p (procs s0) -> starting p) /\ (forall new m pre post g, In (Writer new m pre post g) (procs s0) -> m <> "b.task"%string) /\
  dget "b.task"%string (dir s0) = Some 1%nat /\ xde (data s0 1) <> None.
Proof.
  cbn zeta. split; [split; cbn [dir fresh dget]; [intros n m i|intros n i]|].
  { destruct (String.eqb_spec n "a.task"), (String.eqb_spec m "a.task"); try congruence; destruct (String.eqb_spec n "b.task"), (String.eqb_spec m "b.task"); congruence. }
  { destruct (String.eqb_spec n "a.task"); [intros [= <-]; lia|]. destruct (String.eqb_spec n "b.task"); [intros [= <-]; lia|discriminate]. }
  split; [intros p [<-|[<-|[]]]; exact I|]. split; [intros new m pre post g [[= <- <- <- <- <-]|[[=]|[]]]; discriminate|]. split; [reflexivity|discriminate].
Qed.
