(** C03, C42: the durable stores. *)
From Verif Require Import Prelude PreludeFacts MemStore StoreSpec SortList Durable DurableSpec DurableProofs DurableProofs2 DurableProofs3.
From Coq Require Import Sorting.Sorted Sorting.Permutation.
Open Scope Z_scope.

Lemma ok_ops {T} tid tnext ser de (back : T -> T) os : fair os -> restorable tid tnext ser de back os -> forall eo, In eo os -> ok_op tid tnext ser de back eo.
Proof. intros F R [e o] I. split; [intros A l; apply (F e o I)|]. intros t W b S. apply (R e o t I W b S). Qed.

(** * C03.  [ser], [de], [back]: how tasks are written and what they are when restored (DurableSpec).
    Every history on a fresh store gets, answer by answer, the answers of a plain map. *)
Theorem C03_sqlalchemy_store_is_a_map :
  forall (T : Type) (tid : T -> string) (tnext : T -> option Z) ser de (back : T -> T) (os : list (senv * sop T)),
    fair os -> restorable tid tnext ser de back os ->
    dspec_run tid tnext ser back c_empty os (snd (d_run (sql_step tid tnext ser de) [] os)).
Proof.
  intros T tid tnext ser de back os F R. eapply run_spec with (inv := t_good tid tnext de) (abs := t_abs de) (okop := ok_op tid tnext ser de back).
  - intros s eo G K. apply sql_ok; auto.
  - apply t_good_nil.
  - reflexivity.
  - apply ok_ops; auto.
Qed.
Print Assumptions C03_sqlalchemy_store_is_a_map.

Theorem C03_mongodb_store_is_a_map :
  forall (T : Type) (tid : T -> string) (tnext : T -> option Z) ser de (back : T -> T) (os : list (senv * sop T)),
    fair os -> restorable tid tnext ser de back os ->
    dspec_run tid tnext ser back c_empty os (snd (d_run (mongo_step tid tnext ser de) [] os)).
Proof.
  intros T tid tnext ser de back os F R. eapply run_spec with (inv := t_good tid tnext de) (abs := t_abs de) (okop := ok_op tid tnext ser de back).
  - intros s eo G K. apply mongo_ok; auto.
  - apply t_good_nil.
  - reflexivity.
  - apply ok_ops; auto.
Qed.
Print Assumptions C03_mongodb_store_is_a_map.

(** Redis: ids are not empty, run times lie between 1970 and 9999-12-31 (exclusive), states are not empty *)
Theorem C03_redis_store_is_a_map :
  forall (T : Type) (tid : T -> string) (tnext : T -> option Z) ser de (back : T -> T) (os : list (senv * sop T)),
    fair os -> restorable tid tnext ser de back os ->
    (forall e o t, In (e, o) os -> written o = Some t ->
       tid t <> ""%string /\ (forall x, tnext t = Some x -> 0 <= x < 253402214400000000) /\ (forall b, ser (nonce e) t = Ok b -> b <> ""%string)) ->
    dspec_run tid tnext ser back c_empty os (snd (d_run (redis_step tid tnext ser de) (MkRedis [] []) os)).
Proof.
  intros T tid tnext ser de back os F R H.
  eapply run_spec with (inv := r_good tid tnext de) (abs := r_abs de) (okop := fun eo => ok_op tid tnext ser de back eo /\ redis_op tid tnext ser eo).
  - intros s eo G [K RO]. apply redis_ok; auto.
  - apply r_good_nil.
  - reflexivity.
  - intros [e o] I. split; [apply (ok_ops tid tnext ser de back os); auto|]. intros t W. apply (H e o t I W).
Qed.
Print Assumptions C03_redis_store_is_a_map.

(** Files: ids the store accepts, and tasks that can be serialised; the directory may hold other files *)
Theorem C03_file_store_is_a_map :
  forall (T : Type) (tid : T -> string) (tnext : T -> option Z) ser de (back : T -> T) (suffix : string) (d : folder) (os : list (senv * sop T)),
    NoDup (dkeys d) -> (forall n, In n (dkeys d) -> ends_with suffix n = false) ->
    fair os -> restorable tid tnext ser de back os ->
    (forall e o, In (e, o) os -> match o with
       | SAdd t | SUpdate t => valid_id (tid t) = true /\ exists b, ser (nonce e) t = Ok b
       | SDelete id | SLookup id => valid_id id = true
       | _ => True
       end) ->
    dspec_run tid tnext ser back c_empty os (snd (d_run (file_step tid tnext ser de suffix) d os)).
Proof.
  intros T tid tnext ser de back suffix d os ND NS F R H.
  assert (NONE : forall n, ends_with suffix n = true -> dget n d = None).
  { intros n E. apply dget_None. intros I. rewrite (NS n I) in E. discriminate. }
  eapply run_spec with (inv := f_good tid de suffix) (abs := f_abs de suffix) (okop := fun eo => ok_op tid tnext ser de back eo /\ file_op tid ser eo).
  - intros s eo G [K RO]. apply file_ok; auto.
  - constructor; auto. intros n b D E. rewrite NONE in D; auto. discriminate.
  - intros i. unfold f_abs. rewrite NONE; auto. apply fname_ends.
  - intros [e o] I. split; [apply (ok_ops tid tnext ser de back os); auto|]. apply (H e o I).
Qed.
Print Assumptions C03_file_store_is_a_map.

(** a toy task type to exhibit histories: the text is the id, its length the run time (paused if it begins with "p") *)
Definition xid (t : string) : string := t.
Definition xnext (t : string) : option Z := match t with String "p" _ => None | _ => Some (Z.of_nat (String.length t)) end.
Definition xser (n : string) (t : string) : result string := match t with String "!" _ => Err TypeError | _ => Ok (String "s" t) end.
Definition xde (b : string) : option string := match b with String "s" t => Some t | _ => None end.
Definition xenv (r : bool) : senv := MkEnv (fun A l => if r then rev l else l) "".
Definition xops : list (senv * sop string) :=
  [(xenv false, SAdd "pa"%string); (xenv true, SAdd "xyz"%string); (xenv true, SAdd "q"%string); (xenv true, SAdd "q"%string); (xenv true, SAll);
   (xenv false, SDue 2); (xenv false, SNext); (xenv true, SDelete "q"%string); (xenv true, SUpdate "zz"%string); (xenv true, SLookup "xyz"%string); (xenv true, SNext)].
Lemma xops_fair : fair xops.
Proof.
  assert (H : forall r A (l : list A), Permutation (pm (xenv r) A l) l) by (intros []; cbn; intros; [symmetry; apply Permutation_rev|auto]).
  intros e o I. cbn in I. repeat (destruct I as [I|I]; [injection I as <- _; apply H|]). destruct I.
Qed.
Lemma xops_restorable : restorable xid xnext xser xde (fun t => t) xops.
Proof.
  intros e o t I W b S. clear I W. unfold xser in S. destruct t as [|c t]; [injection S as <-; cbn; auto|].
  assert (b = String "s" (String c t)) as -> by (destruct c as [[] [] [] [] [] [] [] []]; congruence). cbn. auto.
Qed.
Example C03_case :
  let answers := [ODone; ODone; ODone; ORaise ConflictIdError; OTasks ["q"; "xyz"; "pa"]%string; OTasks ["q"%string]; OTime (Some 1); ODone; ORaise TaskLookupError; OTask (Some "xyz"%string); OTime (Some 3)] in
  fair xops /\ restorable xid xnext xser xde (fun t => t) xops /\
  snd (d_run (sql_step xid xnext xser xde) [] xops) = answers /\ snd (d_run (mongo_step xid xnext xser xde) [] xops) = answers /\
  snd (d_run (redis_step xid xnext xser xde) (MkRedis [] []) xops) = answers /\ snd (d_run (file_step xid xnext xser xde ".task") [("notes.txt", "hello")]%string xops) = answers.
Proof. cbn zeta. split; [apply xops_fair|]. split; [apply xops_restorable|]. vm_compute. repeat split. Qed.

(** ** The conditions on Redis and on files are needed *)
(** a Redis store never finds a task due whose run time is before 1970, although it reports it as the
    next run time *)
Theorem C03_redis_before_1970_refuted :
  exists (T : Type) (tid : T -> string) (tnext : T -> option Z) ser de (t : T),
    let os := [(xenv false, SAdd t); (xenv false, SNext); (xenv false, SDue 0)] in
    tnext t = Some (-1) /\ snd (d_run (redis_step tid tnext ser de) (MkRedis [] []) os) = [ODone; OTime (Some (-1)); OTasks []].
Proof.
  exists string, xid, (fun _ => Some (-1)), xser, xde, "a"%string. vm_compute. repeat split.
Qed.
Print Assumptions C03_redis_before_1970_refuted.
Definition bnext (t : string * bool) : option Z := None.
Definition bser (n : string) (t : string * bool) : result string := if snd t then Err TypeError else Ok (String "s" (fst t)).
Definition bde (b : string) : option (string * bool) := match b with String "s" t => Some (t, false) | _ => None end.
(** updating a task of a file store to something that cannot be serialised destroys the stored task *)
Theorem C03_file_failed_update_refuted :
  exists (T : Type) (tid : T -> string) (tnext : T -> option Z) ser de (t bad : T),
    let os := [(xenv false, SAdd t); (xenv false, SUpdate bad); (xenv false, SLookup (tid t)); (xenv false, SAll)] in
    tid bad = tid t /\ snd (d_run (file_step tid tnext ser de ".task") [] os) = [ODone; ORaise TypeError; OTask None; OTasks []].
Proof.
  exists (string * bool)%type, fst, bnext, bser, bde, ("a"%string, false), ("a"%string, true).
  vm_compute. repeat split.
Qed.
Print Assumptions C03_file_failed_update_refuted.
(** a failed add leaves a file behind, so a second, correct add of the same id is refused *)
Theorem C03_file_failed_add_refuted :
  exists (T : Type) (tid : T -> string) (tnext : T -> option Z) ser de (t bad : T),
    let os := [(xenv false, SAdd bad); (xenv false, SAdd t)] in
    tid bad = tid t /\ snd (d_run (file_step tid tnext ser de ".task") [] os) = [ORaise TypeError; ORaise ConflictIdError].
Proof.
  exists (string * bool)%type, fst, bnext, bser, bde, ("a"%string, false), ("a"%string, true).
  vm_compute. repeat split.
Qed.
Print Assumptions C03_file_failed_add_refuted.
(** updating an absent task: the memory store inserts it, the others refuse *)
Theorem C03_memory_update_absent_refuted :
  exists os : list (senv * sop string), fair os /\ snd (ms_run xid xnext ms_empty (map snd os)) <> snd (d_run (sql_step xid xnext xser xde) [] os).
Proof.
  exists [(xenv false, SUpdate "a"%string)]. split; [|vm_compute; discriminate]. intros e o [I|[]]. injection I as <- _. cbn. auto.
Qed.
Print Assumptions C03_memory_update_absent_refuted.

(** * C42.  What an operation of the file store may touch. *)
(** a file name that denotes an entry of the directory it is used in: one path component, not a
    special one *)
Definition inside (n : string) : Prop := any_char (Ascii.eqb "/"%char) n = false /\ n <> "."%string /\ n <> ".."%string /\ n <> ""%string.
(** file names read, created, changed or removed by an operation, besides those found by scanning the directory *)
Definition touched {T} (tid : T -> string) (suffix : string) (o : sop T) : option string :=
  match o with
  | SAdd t | SUpdate t => if valid_id (tid t) then Some (fname suffix (tid t)) else None
  | SDelete id | SLookup id => if valid_id id then Some (fname suffix id) else None
  | _ => None
  end.
Lemma any_char_app p a b : any_char p (a ++ b)%string = any_char p a || any_char p b.
Proof. induction a; cbn; auto. rewrite IHa. apply orb_assoc. Qed.
Lemma valid_no_slash id : valid_id id = true -> any_char (Ascii.eqb "/"%char) id = false.
Proof.
  unfold valid_id. intros H. apply andb_prop in H as [_ H]. apply negb_true_iff in H. revert H. induction id as [|c id IH]; [reflexivity|]. cbn [any_char]. intros H.
  apply orb_false_elim in H as [H1 H2]. rewrite IH by auto. unfold forbidden in H1. cbn [existsb] in H1. rewrite Ascii.eqb_sym. destruct (Ascii.eqb c "/"); [discriminate|auto].
Qed.
Theorem C42_accepted_names_stay_inside :
  forall (suffix id : string), valid_id id = true -> any_char (Ascii.eqb "/"%char) suffix = false ->
    suffix <> ""%string -> suffix <> "."%string -> suffix <> ".."%string -> inside (fname suffix id).
Proof.
  intros suffix id V S N0 N1 N2. split; [|split; [|split]].
  - unfold fname. rewrite any_char_app, valid_no_slash, S; auto.
  - unfold fname. destruct id as [|c id]; cbn; [auto|]. unfold valid_id in V. intros [= -> _]. discriminate V.
  - unfold fname. destruct id as [|c id]; cbn; [auto|]. unfold valid_id in V. intros [= -> _]. discriminate V.
  - unfold fname. destruct id; cbn; [auto|discriminate].
Qed.
Print Assumptions C42_accepted_names_stay_inside.
Theorem C42_distinct_ids_distinct_files :
  forall (suffix i j : string), fname suffix i = fname suffix j -> i = j.
Proof. apply fname_inj. Qed.
Print Assumptions C42_distinct_ids_distinct_files.

Lemma drop_all_get {V} ks (d : dict V) n : ~ In n ks -> dget n (drop_all ks d) = dget n d.
Proof.
  intros N. unfold drop_all. induction d as [|[k v] d IH]; cbn; auto. destruct (existsb (String.eqb k) ks) eqn:E; cbn.
  - rewrite IH. destruct (String.eqb_spec n k) as [->|]; auto. exfalso. apply existsb_exists in E as (x & I & X). apply String.eqb_eq in X. subst. auto.
  - rewrite IH. auto.
Qed.
Lemma rebuild_failed {T} (de : string -> option T) rows k : In k (snd (rebuild de rows)) -> exists b, In (k, b) rows /\ de b = None.
Proof.
  induction rows as [|[k0 b0] rows IH]; cbn; [intros []|]. destruct (rebuild de rows) as [ts failed]. cbn in IH. destruct (de b0) eqn:D; cbn.
  - intros H. destruct (IH H) as (b & I & E). eauto.
  - intros [<-|H]; [eauto|]. destruct (IH H) as (b & I & E). eauto.
Qed.
(** whatever the contents of the directory: an operation changes no file other than its own task's,
    except that listings and remove_all_tasks remove files whose name ends with the suffix, and a
    listing only those that cannot be restored *)
Theorem C42_only_its_own_files_change :
  forall (T : Type) (tid : T -> string) (tnext : T -> option Z) ser de (suffix : string) (d : folder) (e : senv) (o : sop T) (n : string),
    NoDup (dkeys d) -> (forall A (l : list A), Permutation (pm e A l) l) ->
    dget n (fst (file_step tid tnext ser de suffix d (e, o))) <> dget n d ->
    touched tid suffix o = Some n \/
    (ends_with suffix n = true /\ dget n (fst (file_step tid tnext ser de suffix d (e, o))) = None /\
       match o with SClear => True | SAll | SDue _ | SNext => forall b, dget n d = Some b -> de b = None | _ => False end).
Proof.
  intros T tid tnext ser de suffix d e o n ND P.
  assert (LIST : forall ds : folder * list T, ds = file_tasks tnext de suffix e d -> dget n (fst ds) <> dget n d ->
            ends_with suffix n = true /\ dget n (fst ds) = None /\ forall b, dget n d = Some b -> de b = None).
  { intros ds ->. unfold file_tasks. pose proof (rebuild_failed de (filter (fun kv => ends_with suffix (fst kv)) (pm e (string * string) d)) n) as RF.
    destruct (rebuild de _) as [ts failed]. cbn in RF |- *. intros NE. destruct (in_dec string_dec n failed) as [I|I]; [|rewrite drop_all_get in NE; auto; congruence].
    destruct (RF I) as (b & Ib & Db). apply filter_In in Ib as [I1 I2]. apply (Permutation_in _ (P _ _)) in I1. apply In_dget in I1; auto. split; auto. split.
    - apply dget_None. intros Hk. apply in_map_iff in Hk as ([k v] & <- & Hk). apply filter_In in Hk as [_ Hk]. cbn in *. apply negb_true_iff in Hk.
      assert (X : existsb (String.eqb k) failed = true) by (apply existsb_exists; exists k; split; auto; apply String.eqb_refl). congruence.
    - intros b' H. congruence. }
  destruct o as [t|t|id| |id| |now|]; cbn [file_step touched]; intros NE.
  - left. destruct (valid_id (tid t)); cbn in NE; [|congruence]. destruct (string_dec n (fname suffix (tid t))) as [->|N]; auto. exfalso. apply NE.
    destruct (dmem _ d); auto. destruct (ser _ t); cbn; apply dget_dset_ne; auto.
  - left. destruct (valid_id (tid t)); cbn in NE; [|congruence]. destruct (string_dec n (fname suffix (tid t))) as [->|N]; auto. exfalso. apply NE.
    destruct (dmem _ d); auto. cbn. destruct (ser _ t); cbn; apply dget_dset_ne; auto.
  - left. destruct (valid_id id); cbn in NE; [|congruence]. destruct (string_dec n (fname suffix id)) as [->|N]; auto. exfalso. apply NE.
    destruct (dmem _ d); auto. cbn. apply dget_ddel_ne; auto.
  - right. cbn in *. destruct (ends_with suffix n) eqn:E.
    + split; auto. split; auto. apply dget_None. intros H. apply in_map_iff in H as ([k v] & <- & H). apply filter_In in H as [_ H]. cbn in *. rewrite E in H. discriminate.
    + exfalso. apply NE. clear - E. induction d as [|[k v] d IH]; cbn; auto. destruct (ends_with suffix k) eqn:Ek; cbn; rewrite IH; [|reflexivity].
      destruct (String.eqb_spec n k) as [->|]; [congruence|reflexivity].
  - left. unfold file_lookup in NE. destruct (valid_id id); cbn in NE; [|congruence]. destruct (string_dec n (fname suffix id)) as [->|N]; auto. exfalso. apply NE.
    destruct (dget (fname suffix id) d) as [b|]; auto. destruct (de b); auto. cbn. apply dget_ddel_ne; auto.
  - right. destruct (file_tasks tnext de suffix e d) as [d' ts] eqn:E. apply (LIST (d', ts)); auto.
  - right. destruct (file_tasks tnext de suffix e d) as [d' ts] eqn:E. apply (LIST (d', ts)); auto.
  - right. destruct (file_tasks tnext de suffix e d) as [d' ts] eqn:E. apply (LIST (d', ts)); auto.
Qed.
Print Assumptions C42_only_its_own_files_change.
Example C42_case : valid_id "nightly-report" = true /\ valid_id "../../etc/passwd" = false /\ valid_id "..\x" = false /\ valid_id "a/b" = false /\ valid_id "C:x" = false /\
  fname ".task" "nightly-report" = "nightly-report.task"%string /\ inside ("nightly-report.task"%string).
Proof. vm_compute. repeat split; discriminate. Qed.
