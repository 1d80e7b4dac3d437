(** C71, C72: configuration. *)
From Verif Require Import Prelude PreludeFacts Text Config.
Open Scope string_scope.
Ltac sp := repeat match goal with |- _ /\ _ => split end.

(** ** specification *)
(** the value at a path of a nested configuration *)
Fixpoint at_path (v : cval) (p : list string) : option cval :=
  match p with
  | [] => Some v
  | k :: p' => match v with CDict d => match dget k d with Some w => at_path w p' | None => None end | _ => None end
  end.
(** the parts of a dotted key after the prefix *)
Definition names_path (prefix key : string) (p : list string) : Prop :=
  p <> [] /\ Forall (fun k => ~ exists a b, k = a ++ "." ++ b) p /\ key = prefix ++ String.concat "." p.
Definition under (q p : list string) : Prop := exists r, p = (q ++ r)%list.
(** no key of the configuration lies under another one *)
Definition no_clash (prefix : string) (g : conf) : Prop :=
  forall k1 v1 p1 k2 v2 p2, In (k1, v1) g -> In (k2, v2) g -> names_path prefix k1 p1 -> names_path prefix k2 p2 -> under p1 p2 -> k1 = k2.

(** ** proofs *)
Lemma put_path_cons k k2 p v d : put_path (k :: k2 :: p) v d =
  match dget k d with
  | None => match put_path (k2 :: p) v [] with Ok d' => Ok (dset k (CDict d') d) | Err e => Err e end
  | Some (CDict d0) => match put_path (k2 :: p) v d0 with Ok d' => Ok (dset k (CDict d') d) | Err e => Err e end
  | Some _ => Err TypeError
  end.
Proof. reflexivity. Qed.

Lemma at_nil p : p <> [] -> at_path (CDict []) p = None.
Proof. destruct p; [congruence|reflexivity]. Qed.
Lemma put_under p v : p <> [] -> forall d d' r, put_path p v d = Ok d' -> at_path (CDict d') (p ++ r)%list = at_path v r.
Proof.
  induction p as [|k p IH]; [congruence|]. intros _ d d' r. destruct p as [|k2 p].
  - cbn [put_path]. intros [= <-]. cbn [app at_path]. rewrite dget_dset_eq. reflexivity.
  - rewrite put_path_cons. intros H.
    assert (exists d0 d1, put_path (k2 :: p) v d0 = Ok d1 /\ d' = dset k (CDict d1) d) as (d0 & d1 & P & ->).
    { destruct (dget k d) as [[]|]; try discriminate; (destruct (put_path (k2 :: p) v _) as [d1|] eqn:E; [|discriminate]); injection H as <-; eauto. }
    change ((k :: k2 :: p) ++ r)%list with (k :: ((k2 :: p) ++ r))%list. cbn [at_path]. rewrite dget_dset_eq. eapply IH; [discriminate|exact P].
Qed.
Lemma put_apart p v : forall d d' q, p <> [] -> put_path p v d = Ok d' -> ~ under p q -> ~ under q p -> at_path (CDict d') q = at_path (CDict d) q.
Proof.
  induction p as [|k p IH]; [congruence|]. intros d d' q _ H N1 N2.
  destruct q as [|j q]; [contradiction N2; exists (k :: p); reflexivity|].
  destruct (string_dec j k) as [->|NE].
  - destruct p as [|k2 p]; [contradiction N1; exists q; reflexivity|].
    assert (M1 : ~ under (k2 :: p) q) by (intros (r & ->); apply N1; exists r; reflexivity).
    assert (M2 : ~ under q (k2 :: p)) by (intros (r & E); apply N2; exists r; cbn; rewrite E; reflexivity).
    rewrite put_path_cons in H. cbn [at_path]. destruct (dget k d) as [w|] eqn:G.
    + destruct w; try discriminate. destruct (put_path (k2 :: p) v d0) as [d1|] eqn:E; [|discriminate]. injection H as <-. rewrite dget_dset_eq. eapply IH; eauto. discriminate.
    + destruct (put_path (k2 :: p) v []) as [d1|] eqn:E; [|discriminate]. injection H as <-. rewrite dget_dset_eq.
      rewrite (IH _ _ q ltac:(discriminate) E M1 M2). apply at_nil. intros ->. apply M2. exists (k2 :: p). reflexivity.
  - assert (X : exists w, d' = dset k w d).
    { destruct p as [|k2 p]; [injection H as <-; eauto|]. rewrite put_path_cons in H. destruct (dget k d) as [[]|]; try discriminate;
      (destruct (put_path (k2 :: p) v _) as [d1|]; [|discriminate]); injection H as <-; eauto. }
    destruct X as (w & ->). cbn [at_path]. rewrite dget_dset_ne by auto. reflexivity.
Qed.
Lemma put_works p v : forall d, p <> [] -> (forall q w, q <> [] -> q <> p -> under q p -> at_path (CDict d) q = Some w -> exists d0, w = CDict d0) ->
  exists d', put_path p v d = Ok d'.
Proof.
  induction p as [|k p IH]; [congruence|]. intros d _ H. destruct p as [|k2 p]; [cbn; eauto|]. rewrite put_path_cons.
  assert (Step : forall d0, dget k d = Some (CDict d0) \/ (d0 = [] /\ dget k d = None) -> exists d', put_path (k2 :: p) v d0 = Ok d').
  { intros d0 H0. apply IH; [discriminate|]. intros q w NQ NP U A. destruct H0 as [G|[-> _]].
    - apply (H (k :: q) w); [discriminate|congruence|destruct U as (r & ->); exists r; reflexivity|]. cbn [at_path]. rewrite G. exact A.
    - rewrite at_nil in A by auto. discriminate. }
  destruct (dget k d) as [w|] eqn:G.
  - destruct (H [k] w ltac:(discriminate) ltac:(congruence) ltac:(exists (k2 :: p); reflexivity)) as (d0 & ->).
    { cbn. rewrite G. reflexivity. }
    destruct (Step d0 ltac:(auto)) as (d1 & ->). eauto.
  - destruct (Step [] ltac:(auto)) as (d1 & ->). eauto.
Qed.

(** ** dotted keys *)
Lemma split_concat p : p <> [] -> Forall (fun k => ~ exists a b, k = a ++ "." ++ b) p -> split_on "." (String.concat "." p) = p.
Proof.
  assert (W : forall k r, (~ exists a b, k = a ++ "." ++ b) -> split_on "." (k ++ "." ++ r) = k :: split_on "." r /\ split_on "." k = [k]).
  { induction k as [|a k IH]; intros r N; [split; reflexivity|]. cbn [append split_on].
    assert (NA : Ascii.eqb a "." = false). { destruct (Ascii.eqb_spec a "."); [|auto]. subst. contradiction N. exists "", k. reflexivity. }
    destruct (IH r) as [I1 I2]; [intros (x & y & E); apply N; exists (String a x), y; cbn; rewrite E; reflexivity|].
    cbn [append] in I1. rewrite NA, I1, I2. auto. }
  induction p as [|k p IH]; [congruence|]. intros _ F. inversion F as [|k' p' N F' E]; subst. destruct p as [|k2 p].
  - cbn [String.concat]. apply (W k ""), N.
  - change (String.concat "." (k :: k2 :: p)) with (k ++ "." ++ String.concat "." (k2 :: p)). destruct (W k (String.concat "." (k2 :: p)) N) as [-> _].
    f_equal. apply IH; [discriminate|exact F'].
Qed.
Lemma concat_split s : exists p, p <> [] /\ Forall (fun k => ~ exists a b, k = a ++ "." ++ b) p /\ s = String.concat "." p /\ split_on "." s = p.
Proof.
  induction s as [|a s (p & NE & F & E & S)].
  - exists [""]. sp; auto; [discriminate|]. constructor; [|constructor]. intros (x & y & H). destruct x; discriminate.
  - destruct (Ascii.eqb_spec a ".") as [->|NA].
    + exists ("" :: p). sp; [discriminate| | |].
      * constructor; [|exact F]. intros (x & y & H). destruct x; discriminate.
      * destruct p as [|k p]; [congruence|]. change (String.concat "." ("" :: k :: p)) with ("." ++ String.concat "." (k :: p)). rewrite <- E. reflexivity.
      * cbn [split_on]. cbn. rewrite S. reflexivity.
    + destruct p as [|k p]; [congruence|]. exists (String a k :: p). inversion F; subst. sp; [discriminate| | |].
      * constructor; [|auto]. intros (x & y & H). destruct x as [|b x]; [injection H as -> _; congruence|]. injection H as -> H. apply H1. exists x, y. exact H.
      * destruct p; reflexivity.
      * cbn [split_on]. destruct (Ascii.eqb_spec a "."); [congruence|]. rewrite S. reflexivity.
Qed.
Lemma drop_prefix p s : drop (String.length p) (p ++ s) = s.
Proof. induction p as [|a p IH]; cbn; [destruct s; reflexivity|exact IH]. Qed.
Lemma append_inj p a b : p ++ a = p ++ b -> a = b.
Proof. induction p as [|x p IH]; cbn; [auto|]. intros [= H]. auto. Qed.

(** the entries, by path *)
Definition entries (prefix : string) (g : conf) : list (list string * cval) := map (fun kv => (split_on "." (fst kv), snd kv)) (prefixed prefix g).
Lemma in_entries prefix g p v : In (p, v) (entries prefix g) <-> exists key, In (key, v) g /\ names_path prefix key p.
Proof.
  unfold entries, prefixed. rewrite in_map_iff. split.
  - intros ([k w] & E & H). cbn in E. injection E as <- <-. apply in_flat_map in H. destruct H as ([key w'] & H & I). cbn [fst snd] in I.
    destruct (starts_with prefix key) eqn:S; [|destruct I]. destruct I as [I|[]]. injection I as <- <-. apply starts_with_iff in S. destruct S as (r & ->).
    rewrite drop_prefix. exists (prefix ++ r). split; [exact H|]. destruct (concat_split r) as (q & A & B & C & D). rewrite D. split; [exact A|]. split; [exact B|]. congruence.
  - intros (key & H & A & B & ->). exists (String.concat "." p, v). split; [cbn; rewrite split_concat by auto; reflexivity|].
    apply in_flat_map. exists (prefix ++ String.concat "." p, v). split; [exact H|]. cbn [fst snd].
    assert (S : starts_with prefix (prefix ++ String.concat "." p) = true) by (apply starts_with_iff; eauto). rewrite S, drop_prefix. left. reflexivity.
Qed.

Fixpoint put_all (l : list (list string * cval)) (d : conf) : result conf :=
  match l with [] => Ok d | (p, v) :: l' => match put_path p v d with Ok d' => put_all l' d' | Err e => Err e end end.
Lemma unfold_put l d : unfold_keys l d = put_all (map (fun kv => (split_on "." (fst kv), snd kv)) l) d.
Proof. revert d. induction l as [|[k v] l IH]; intros d; cbn; [auto|]. destruct (put_path _ v d); auto. Qed.

Definition apart (l : list (list string * cval)) : Prop :=
  forall l1 p v l2 q w l3, l = (l1 ++ (p, v) :: l2 ++ (q, w) :: l3)%list -> ~ under p q /\ ~ under q p.
Definition holds (l : list (list string * cval)) (d : conf) : Prop :=
  (forall p v, In (p, v) l -> at_path (CDict d) p = Some v) /\
  (forall q w, at_path (CDict d) q = Some w -> q = [] \/ exists p v, In (p, v) l /\ (under p q \/ under q p)).
Lemma at_app v p r : at_path v (p ++ r) = match at_path v p with Some w => at_path w r | None => None end.
Proof. revert v. induction p as [|k p IH]; intros v; cbn [app at_path]; [auto|]. destruct v; auto. destruct (dget k d); auto. Qed.
Lemma put_all_holds l : forall done d, holds done d -> Forall (fun e => fst e <> []) l -> apart (done ++ l)%list -> exists d', put_all l d = Ok d' /\ holds (done ++ l)%list d'.
Proof.
  induction l as [|[p v] l IH]; intros done d Hd F A; [exists d; rewrite app_nil_r; auto|]. inversion F as [|e l' NE F' E]; subst. cbn [fst] in NE.
  assert (AP : forall q w, In (q, w) done -> ~ under q p /\ ~ under p q).
  { intros q w I. apply in_split in I. destruct I as (d1 & d2 & ->). destruct (A d1 q w d2 p v l) as [X Y]; [rewrite <- app_assoc; reflexivity|auto]. }
  destruct (put_works p v d NE) as (d1 & P).
  { intros q w NQ NP U Aw. destruct Hd as [H1 H2]. destruct (H2 q w Aw) as [->|(p' & v' & I & [U'|U'])]; [congruence| |].
    - exfalso. apply (proj1 (AP p' v' I)). destruct U' as (r1 & ->), U as (r2 & ->). exists (r1 ++ r2)%list. rewrite app_assoc. reflexivity.
    - destruct U' as (r & E). pose proof (H1 _ _ I) as X. rewrite E, at_app, Aw in X. destruct r as [|k r].
      + rewrite app_nil_r in E. subst q. exfalso. apply (proj1 (AP p' v' I)). exact U.
      + cbn [at_path] in X. destruct w; try discriminate. eauto. }
  cbn [put_all]. rewrite P. destruct (IH (done ++ [(p, v)])%list d1) as (d' & P' & H').
  - split.
    + intros q w I. apply in_app_iff in I. destruct I as [I|[I|[]]].
      * destruct (AP q w I). rewrite (put_apart p v d d1 q NE P) by auto. apply (proj1 Hd), I.
      * injection I as <- <-. rewrite <- (app_nil_r p). rewrite (put_under p v NE d d1 [] P). reflexivity.
    + intros q w Aw. destruct (list_eq_dec string_dec q []) as [|NQ]; [auto|]. right.
      destruct (Bool.bool_dec (starts_with "" "") true) as [_|X]; [|contradiction X; reflexivity].
      assert (D : (under p q \/ under q p) \/ (~ under p q /\ ~ under q p)).
      { clear. revert q. induction p as [|k p IH]; intros q; [left; left; exists q; reflexivity|]. destruct q as [|j q]; [left; right; exists (k :: p); reflexivity|].
        destruct (string_dec k j) as [->|N].
        - destruct (IH q) as [[(r & ->)|(r & ->)]|[N1 N2]]; [left; left; exists r; reflexivity|left; right; exists r; reflexivity|right].
          split; intros (r & E); injection E as E; [apply N1|apply N2]; exists r; exact E.
        - right. split; intros (r & E); injection E as E1 _; congruence. }
      destruct D as [D|[D1 D2]].
      * exists p, v. split; [apply in_app_iff; right; left; reflexivity|exact D].
      * rewrite (put_apart p v d d1 q NE P D1 D2) in Aw. destruct (proj2 Hd q w Aw) as [->|(p' & v' & I & U)]; [congruence|].
        exists p', v'. split; [apply in_app_iff; auto|exact U].
  - exact F'.
  - rewrite <- app_assoc. exact A.
  - exists d'. split; [exact P'|]. rewrite <- app_assoc in H'. exact H'.
Qed.

Lemma update_get options d k : NoDup (dkeys options) -> dget k (update_with options d) = match dget k options with Some v => Some v | None => dget k d end.
Proof.
  unfold update_with. revert d. induction options as [|[k0 v0] l IH]; intros d ND; cbn [fold_left fst snd dget]; [auto|]. inversion ND as [|a b N1 N2]; subst. rewrite IH by auto.
  destruct (String.eqb_spec k k0) as [->|NE].
  - rewrite (proj2 (dget_None k0 l) N1), dget_dset_eq. reflexivity.
  - rewrite dget_dset_ne by auto. reflexivity.
Qed.

(** C71.  Every prefixed key ends up at the path its dots spell, keyword arguments win over whole top-level
    entries, and there is nothing else: in particular keys without the prefix do not matter, nor does the order. *)
Theorem C71_dotted_keys :
  forall (prefix : string) (g options : conf), NoDup (dkeys g) -> NoDup (dkeys options) -> no_clash prefix g ->
    exists d, setup true prefix g options = Ok d /\
      (forall k v, In (k, v) options -> dget k d = Some v) /\
      (forall key v k p, In (key, v) g -> names_path prefix key (k :: p) -> ~ In k (dkeys options) -> at_path (CDict d) (k :: p) = Some v) /\
      (forall k q w, at_path (CDict d) (k :: q) = Some w -> In k (dkeys options) \/
         exists key v p, In (key, v) g /\ names_path prefix key p /\ (under p (k :: q) \/ under (k :: q) p)).
Proof.
  intros prefix g options NG NO NC. unfold setup. rewrite unfold_put. fold (entries prefix g).
  assert (INJ : forall key1 key2 p, names_path prefix key1 p -> names_path prefix key2 p -> key1 = key2) by (intros k1 k2 p (_ & _ & ->) (_ & _ & ->); reflexivity).
  destruct (put_all_holds (entries prefix g) [] []) as (d & P & H).
  - split; [intros p v []|]. intros q w A. destruct q; [auto|]. rewrite at_nil in A by discriminate. discriminate.
  - apply Forall_forall. intros [p v] I. apply in_entries in I. destruct I as (key & _ & N & _). exact N.
  - cbn [app]. intros l1 p v l2 q w l3 E.
    assert (I1 : In (p, v) (entries prefix g)) by (rewrite E; apply in_app_iff; right; left; reflexivity).
    assert (I2 : In (q, w) (entries prefix g)) by (rewrite E; apply in_app_iff; right; right; apply in_app_iff; right; left; reflexivity).
    assert (ND : NoDup (map fst (entries prefix g))).
    { clear -NG. unfold entries, prefixed. induction g as [|[k v] g IH]; cbn; [constructor|]. inversion NG as [|a b N1 N2]; subst. rewrite map_app, map_app.
      destruct (starts_with prefix k) eqn:S; cbn [map app fst]; [|apply IH, N2]. constructor; [|apply IH, N2]. intros X. apply in_map_iff in X. destruct X as ([p v'] & E & I).
      apply (in_entries prefix g p v') in I. destruct I as (key & I & _ & F & ->). cbn in E. apply starts_with_iff in S. destruct S as (r & ->). rewrite drop_prefix in E.
      destruct (concat_split r) as (q & Q1 & Q2 & Q3 & Q4). assert (p = q) as -> by congruence. rewrite Q3 in N1. apply N1. apply in_map_iff. eexists. split; [|exact I]. reflexivity. }
    apply in_entries in I1. apply in_entries in I2. destruct I1 as (k1 & I1 & N1), I2 as (k2 & I2 & N2).
    assert (PQ : p <> q). { rewrite E, map_app in ND. cbn [map fst] in ND. apply NoDup_remove_2 in ND. intros ->. apply ND. rewrite map_app. cbn [map fst]. apply in_app_iff. right. apply in_app_iff. right. left. reflexivity. }
    assert (KEY : k1 = k2 -> False). { intros <-. apply PQ. destruct N1 as (A1 & A2 & A3), N2 as (B1 & B2 & B3). rewrite A3 in B3. apply append_inj in B3. rewrite <- (split_concat p), <- (split_concat q); congruence. }
    split; intros U; apply KEY; [|symmetry]; eauto using NC.
  - rewrite P. cbn [app] in H. exists (update_with options d). split; [reflexivity|]. destruct H as [H1 H2].
    split; [intros k v I; rewrite update_get by auto; rewrite (In_dget k v options NO I); reflexivity|]. split.
    + intros key v k p I N O. cbn [at_path]. rewrite update_get by auto. rewrite (proj2 (dget_None k options) O).
      specialize (H1 (k :: p) v). cbn [at_path] in H1. apply H1. apply in_entries. eauto.
    + intros k q w A. cbn [at_path] in A. rewrite update_get in A by auto. destruct (dget k options) as [v|] eqn:G; [left; apply dget_Some_key in G; exact G|]. right.
      destruct (H2 (k :: q) w A) as [X|(p & v & I & U)]; [discriminate|]. apply in_entries in I. destruct I as (key & I & N). eauto 10.
Qed.
Print Assumptions C71_dotted_keys.
(** so two listings of the same keys give the same value at every path that holds no dictionary *)
Theorem C71_order_does_not_matter :
  forall prefix g g' options d d', NoDup (dkeys g) -> NoDup (dkeys g') -> NoDup (dkeys options) -> no_clash prefix g -> (forall kv, In kv g <-> In kv g') ->
    setup true prefix g options = Ok d -> setup true prefix g' options = Ok d' ->
    forall key v k p, In (key, v) g -> names_path prefix key (k :: p) -> ~ In k (dkeys options) -> at_path (CDict d) (k :: p) = at_path (CDict d') (k :: p).
Proof.
  intros prefix g g' options d d' N1 N2 NO NC S E1 E2 key v k p I N O.
  destruct (C71_dotted_keys prefix g options N1 NO NC) as (d1 & X1 & _ & Y1 & _).
  assert (NC' : no_clash prefix g') by (intros k1 v1 p1 k2 v2 p2 I1 I2; apply (NC k1 v1 p1 k2 v2 p2); apply S; auto).
  destruct (C71_dotted_keys prefix g' options N2 NO NC') as (d2 & X2 & _ & Y2 & _).
  assert (d1 = d) as -> by congruence. assert (d2 = d') as -> by congruence. rewrite (Y1 key v k p), (Y2 key v k p); auto. apply S, I.
Qed.
Print Assumptions C71_order_does_not_matter.
(** with a key under another one the order matters: one way the longer key is lost, the other way it raises *)
Theorem C71_clash_depends_on_order :
  exists prefix g g', NoDup (dkeys g) /\ NoDup (dkeys g') /\ (forall kv, In kv g <-> In kv g') /\
    is_ok (setup true prefix g []) = true /\ is_ok (setup true prefix g' []) = false.
Proof.
  exists "asyncz.", [("asyncz.executors.x", CStr "pool"); ("asyncz.executors", CVal 1)], [("asyncz.executors", CVal 1); ("asyncz.executors.x", CStr "pool")].
  split; [repeat constructor; cbn; intuition discriminate|]. split; [repeat constructor; cbn; intuition discriminate|]. split; [cbn; tauto|]. split; reflexivity.
Qed.
Print Assumptions C71_clash_depends_on_order.
Theorem C71_only_when_stopped : forall prefix g options, setup false prefix g options = Err SchedulerAlreadyRunningError.
Proof. reflexivity. Qed.
Print Assumptions C71_only_when_stopped.
Example C71_case :
  match setup true "asyncz." [("asyncz.executors.io.type", CStr "pool"); ("other.executors.io.type", CStr "debug"); ("asyncz.executors.io.max_workers", CVal 4); ("asyncz.timezone", CStr "UTC")] [("timezone", CStr "CET")] with
  | Ok d => at_path (CDict d) ["executors"; "io"; "type"] = Some (CStr "pool") /\ at_path (CDict d) ["executors"; "io"; "max_workers"] = Some (CVal 4) /\ dget "timezone" d = Some (CStr "CET")
  | Err _ => False
  end.
Proof. vm_compute. auto. Qed.

(** ** executors and stores *)
(** specification: the class a plugin alias stands for, and what a configured entry asks for *)
Definition plugin_class (w : world) (r : registry) (alias : string) (cls : nat) : Prop :=
  dget alias (classes r) = Some cls \/ (dget alias (classes r) = None /\ exists path, dget alias (plugins r) = Some path /\ load w path = Some cls).
Definition named (d : conf) (k : string) (v : cval) : Prop := dget k d = Some v /\ v <> CNone /\ v <> CStr "" /\ v <> CDict [].
Definition unnamed (d : conf) (k : string) : Prop := forall v, ~ named d k v.
Definition other_options (d o : conf) : Prop := o = filter (fun kv => negb (String.eqb (fst kv) "class" || String.eqb (fst kv) "type")) d.
Inductive asks (w : world) (r : registry) : cval -> made -> Prop :=
| asks_object n : asks w r (CObj n) (Given n)
| asks_plugin d o alias cls : named d "type" (CStr alias) -> plugin_class w r alias cls -> other_options d o -> asks w r (CDict d) (Made cls o)
| asks_reference d o s cls : unnamed d "type" -> named d "class" (CStr s) -> refer w s = Some cls -> other_options d o -> asks w r (CDict d) (Made cls o)
| asks_class d o cls : unnamed d "type" -> named d "class" (CCls cls) -> other_options d o -> asks w r (CDict d) (Made cls o).
(** it is an executor (a store) and can be built *)
Definition usable (w : world) (m : made) : Prop := match m with Given _ => True | Made cls o => of_kind w cls = true /\ takes w cls o = true end.
Definition good_entry (w : world) (r : registry) (v : cval) : Prop := exists m, asks w r v m /\ usable w m.

Lemma options_other d : other_options d (ddel "type" (ddel "class" d)).
Proof.
  unfold other_options, ddel. induction d as [|[k v] d IH]; [reflexivity|]. cbn [filter fst].
  rewrite (String.eqb_sym "class" k). destruct (String.eqb_spec k "class") as [->|N1].
  - cbn. exact IH.
  - cbn [negb orb filter fst]. destruct (String.eqb_spec k "type") as [->|N2]; cbn [negb]; 
    [exact IH|]. destruct (String.eqb_spec "type" k); [congruence|]. cbn [negb]. f_equal. exact IH.
Qed.
Lemma given_named d k v : given k d = Some v <-> named d k v.
Proof.
  unfold given, named. destruct (dget k d) as [v0|]; [|split; [discriminate|intros [? _]; discriminate]].
  split.
  - destruct (ctruthy v0) eqn:T; [|discriminate]. intros [= ->]. sp; auto; intros ->; discriminate.
  - intros ([= ->] & A & B & C). destruct v as [s| | | | |d0]; try reflexivity; try congruence; [destruct s|destruct d0]; try reflexivity; congruence.
Qed.
Lemma given_unnamed d k : given k d = None <-> unnamed d k.
Proof.
  unfold unnamed. split.
  - intros G v N. apply given_named in N. congruence.
  - intros U. destruct (given k d) as [v|] eqn:G; [|auto]. apply given_named in G. destruct (U v G).
Qed.
Lemma named_fun d k v v' : named d k v -> named d k v' -> v = v'.
Proof. intros [A _] [B _]. congruence. Qed.
(** the classes remembered only grow, by what is loaded *)
Definition knows (w : world) (r r' : registry) : Prop :=
  plugins r' = plugins r /\
  forall alias, dget alias (classes r') = dget alias (classes r) \/ (dget alias (classes r) = None /\ exists path cls, dget alias (plugins r) = Some path /\ load w path = Some cls /\ dget alias (classes r') = Some cls).
Lemma knows_refl w r : knows w r r. Proof. split; auto. Qed.
Lemma knows_trans w r1 r2 r3 : knows w r1 r2 -> knows w r2 r3 -> knows w r1 r3.
Proof.
  intros [P1 K1] [P2 K2]. split; [congruence|]. intros a. destruct (K1 a) as [E1|(N1 & p & c & A & B & C)], (K2 a) as [E2|(N2 & p' & c' & A' & B' & C')].
  - left. congruence.
  - right. split; [congruence|]. exists p', c'. rewrite P1 in A'. auto.
  - right. split; [auto|]. exists p, c. rewrite E2. auto.
  - congruence.
Qed.
Lemma knows_class w r r' alias cls : knows w r r' -> plugin_class w r' alias cls <-> plugin_class w r alias cls.
Proof.
  intros [P K]. unfold plugin_class. rewrite P. destruct (K alias) as [->|(N & p & c & A & B & C)]; [tauto|]. rewrite N, C. split.
  - intros [[= ->]|[X _]]; [|discriminate]. right. eauto.
  - intros [X|(_ & p' & A' & B')]; [discriminate|]. left. congruence.
Qed.
Lemma knows_asks w r r' v m : knows w r r' -> asks w r' v m <-> asks w r v m.
Proof.
  intros K. split; intros A; destruct A as [n|d o al c N P O|d o s c U N R O|d o c U N O]; [constructor| | | |constructor| | |].
  1,4: eapply asks_plugin; [exact N| |exact O]; apply (knows_class w r r' al c K); exact P.
  1,3: eapply asks_reference; eauto.
  1,2: eapply asks_class; eauto.
Qed.

Lemma create_plugin_facts w alias options r : let (r', x) := create_plugin w alias options r in
  knows w r r' /\ instances r' = instances r /\
  match x with
  | Ok m => exists cls, m = Made cls options /\ plugin_class w r alias cls /\ takes w cls options = true
  | Err _ => forall cls, plugin_class w r alias cls -> of_kind w cls = false \/ takes w cls options = false
  end.
Proof.
  unfold create_plugin, plugin_class, instantiate. destruct (dget alias (classes r)) as [cls|] eqn:C.
  - split; [apply knows_refl|]. split; [auto|]. destruct (takes w cls options) eqn:T; [eauto|]. intros cls' [[= ->]|[X _]]; [auto|discriminate].
  - destruct (dget alias (plugins r)) as [path|] eqn:P.
    2:{ split; [apply knows_refl|]. split; [auto|]. intros cls [X|(_ & p & X & _)]; discriminate. }
    destruct (load w path) as [cls|] eqn:L.
    2:{ split; [apply knows_refl|]. split; [auto|]. intros cls [X|(_ & p & [= <-] & X)]; congruence. }
    split; [|split; [reflexivity|]].
    + split; [reflexivity|]. cbn [classes]. intros a. destruct (string_dec a alias) as [->|NE]; [rewrite dget_dset_eq; right; eauto 10|rewrite dget_dset_ne by auto; auto].
    + destruct (of_kind w cls) eqn:K; [destruct (takes w cls options) eqn:T|].
      * exists cls. eauto 10.
      * intros cls' [X|(_ & p & [= <-] & X)]; [discriminate|]. right. congruence.
      * intros cls' [X|(_ & p & [= <-] & X)]; [discriminate|]. left. congruence.
Qed.
Lemma make_entry_facts w v r : let (r', x) := make_entry w v r in
  knows w r r' /\ instances r' = instances r /\
  match x with
  | Ok m => asks w r v m /\ match m with Given _ => True | Made cls o => takes w cls o = true end
  | Err _ => ~ good_entry w r v
  end.
Proof.
  assert (BadT : forall v, (forall n, v <> CObj n) -> (forall d, v <> CDict d) -> ~ good_entry w r v).
  { intros v0 A B (m & Hm & _). destruct Hm; [eapply A|eapply B|eapply B|eapply B]; reflexivity. }
  destruct v as [s|n|n|n| |d]; cbn [make_entry]; try (split; [apply knows_refl|]; split; [reflexivity|]; apply BadT; discriminate).
  { split; [apply knows_refl|]. split; [reflexivity|]. split; [constructor|exact I]. }
  pose proof (options_other d) as OO. unfold other_options in OO.
  destruct (given "type" d) as [t|] eqn:GT.
  - apply given_named in GT. destruct t as [alias| | | | |];
      try (split; [apply knows_refl|]; split; [reflexivity|]; intros (m & Hm & _); inversion Hm; subst;
           [match goal with H : named d "type" (CStr _) |- _ => pose proof (named_fun _ _ _ _ GT H); discriminate end
           | match goal with H : unnamed d "type" |- _ => apply (H _ GT) end | match goal with H : unnamed d "type" |- _ => apply (H _ GT) end]).
    pose proof (create_plugin_facts w alias (ddel "type" (ddel "class" d)) r) as F. destruct (create_plugin w alias _ r) as [r' x]. destruct F as (F1 & F2 & F3).
    split; [exact F1|]. split; [exact F2|]. destruct x as [m|e].
    + destruct F3 as (cls & -> & PC & T). split; [|exact T]. eapply asks_plugin; eauto.
    + intros (m & Hm & U). inversion Hm; subst.
      * match goal with H : named d "type" (CStr _) |- _ => pose proof (named_fun _ _ _ _ GT H) as X; injection X as <- end.
        match goal with H : other_options d _ |- _ => unfold other_options in H; rewrite <- OO in H; subst end.
        destruct U as [U1 U2]. destruct (F3 cls); auto; congruence.
      * match goal with H : unnamed d "type" |- _ => apply (H _ GT) end.
      * match goal with H : unnamed d "type" |- _ => apply (H _ GT) end.
  - apply given_unnamed in GT. destruct (given "class" d) as [c|] eqn:GC.
    2:{ split; [apply knows_refl|]. split; [reflexivity|]. apply given_unnamed in GC. intros (m & Hm & _). inversion Hm; subst;
        [eapply GT; eassumption|eapply GC; eassumption|eapply GC; eassumption]. }
    apply given_named in GC.
    assert (Bad : (forall s, c <> CStr s) -> (forall cls, c <> CCls cls) -> ~ good_entry w r (CDict d)).
    { intros A B (m & Hm & _). inversion Hm; subst; [eapply GT; eassumption|eapply A|eapply B]; eapply named_fun; eassumption. }
    destruct c as [s|n|cls|n| |d0]; try (split; [apply knows_refl|]; split; [reflexivity|]; apply Bad; discriminate).
    + split; [apply knows_refl|]. split; [reflexivity|]. destruct (refer w s) as [cls|] eqn:RF.
      * unfold instantiate. destruct (takes w cls _) eqn:T; [split; [eapply asks_reference; eauto|exact T]|].
        intros (m & Hm & U). inversion Hm as [|d' o' al k' A B C|d' o' s' k' A B C D|d' o' k' A B C]; subst; [eapply GT; eassumption| |];
          pose proof (named_fun _ _ _ _ GC B) as X; try discriminate. injection X as <-. unfold other_options in D. rewrite <- OO in D. subst. destruct U. congruence.
      * intros (m & Hm & U). inversion Hm as [|d' o' al k' A B C|d' o' s' k' A B C D|d' o' k' A B C]; subst; [eapply GT; eassumption| |];
          pose proof (named_fun _ _ _ _ GC B) as X; try discriminate. injection X as <-. congruence.
    + split; [apply knows_refl|]. split; [reflexivity|]. unfold instantiate. destruct (takes w cls _) eqn:T; [split; [eapply asks_class; eauto|exact T]|].
      intros (m & Hm & U). inversion Hm as [|d' o' al k' A B C|d' o' s' k' A B C D|d' o' k' A B C]; subst; [eapply GT; eassumption| |];
        pose proof (named_fun _ _ _ _ GC B) as X; try discriminate. injection X as <-. unfold other_options in C. rewrite <- OO in C. subst. destruct U. congruence.
Qed.
Lemma kind_usable w m : match m with Given _ => True | Made cls o => takes w cls o = true end -> kind_ok w m = true <-> usable w m.
Proof. destruct m; cbn; intuition. Qed.
Lemma asks_fun w r v m m' : asks w r v m -> asks w r v m' -> m = m'.
Proof.
  intros A B. inversion A; subst; inversion B; subst; auto;
  repeat match goal with
  | U : unnamed ?d ?k, N : named ?d ?k _ |- _ => destruct (U _ N)
  | N : named ?d ?k ?a, M : named ?d ?k ?b |- _ => pose proof (named_fun _ _ _ _ N M) as X; first [discriminate X|injection X as ->]; clear N
  | O : other_options _ ?o |- _ => unfold other_options in O; subst o
  end; try congruence.
  f_equal. unfold plugin_class in *. match goal with H : _ \/ _, H' : _ \/ _ |- _ => destruct H as [X|(X & p1 & Y & Z)], H' as [X'|(X' & p2 & Y' & Z')]; congruence end.
Qed.

(** the table after some good entries *)
Definition matches_all (w : world) (r : registry) (l : conf) (t : dict made) : Prop :=
  Forall2 (fun e i => fst i = fst e /\ asks w r (snd e) (snd i) /\ usable w (snd i)) l t.
Lemma configure_from_facts w r l : forall done t r0, NoDup (dkeys (done ++ l)%list) -> knows w r r0 -> instances r0 = t -> matches_all w r done t ->
  let (r', x) := configure_from w l r0 in
  plugins r' = plugins r /\
  match x with
  | Ok _ => matches_all w r (done ++ l)%list (instances r')
  | Err _ => exists l1 alias v l2, (l = l1 ++ (alias, v) :: l2)%list /\ matches_all w r (done ++ l1)%list (instances r') /\ ~ good_entry w r v
  end.
Proof.
  induction l as [|[alias v] l IH]; intros done t r0 ND K <- M; cbn [configure_from].
  - split; [apply K|]. rewrite app_nil_r. exact M.
  - pose proof (make_entry_facts w v r0) as F. destruct (make_entry w v r0) as [r1 [m|e]]; destruct F as (F1 & F2 & F3).
    2:{ split; [destruct (knows_trans _ _ _ _ K F1); auto|]. exists [], alias, v, l. rewrite app_nil_r, F2. sp; auto. intros (m & A & U). apply F3. exists m. split; [|exact U]. apply (knows_asks w r r0); auto. }
    destruct F3 as [A T]. apply (knows_asks w r r0) in A; [|auto]. unfold register. rewrite F2.
    assert (NI : dmem alias (instances r0) = false).
    { unfold dmem. destruct (dget alias (instances r0)) as [x|] eqn:G; [|auto]. exfalso. apply dget_Some_key in G.
      assert (KS : dkeys (instances r0) = dkeys done). { clear -M. unfold dkeys. induction M as [|e i d t (E & _) M IH]; cbn; [auto|]. rewrite IH, E. reflexivity. }
      rewrite KS in G. unfold dkeys in ND, G. rewrite map_app in ND. cbn [map fst] in ND. apply NoDup_remove_2 in ND. apply ND, in_app_iff. auto. }
    rewrite NI. destruct (kind_ok w m) eqn:KO.
    + assert (E : dset alias m (instances r0) = (instances r0 ++ [(alias, m)])%list).
      { unfold dmem in NI. revert NI. generalize (instances r0). induction d as [|[k x] d IHd]; cbn; [auto|]. destruct (String.eqb alias k); [discriminate|]. intros H. rewrite IHd by auto. reflexivity. }
      rewrite E. pose proof (IH (done ++ [(alias, v)])%list (instances r0 ++ [(alias, m)])%list (MkReg (plugins r1) (classes r1) (instances r0 ++ [(alias, m)])%list)) as G.
      assert (M' : matches_all w r (done ++ [(alias, v)])%list (instances r0 ++ [(alias, m)])%list).
      { apply Forall2_app; [exact M|]. constructor; [|constructor]. cbn. sp; auto. apply kind_usable; auto. }
      rewrite <- app_assoc in G. cbn [app] in G. specialize (G ND).
      assert (K' : knows w r (MkReg (plugins r1) (classes r1) (instances r0 ++ [(alias, m)])%list)) by (destruct (knows_trans _ _ _ _ K F1); split; auto).
      specialize (G K' eq_refl M'). destruct (configure_from w l _) as [r2 [u|e]]; destruct G as [G1 G2]; (split; [exact G1|]).
      * exact G2.
      * destruct G2 as (l1 & a & v2 & l2 & -> & G3 & G4). exists ((alias, v) :: l1), a, v2, l2. sp; auto. rewrite <- app_assoc in G3. exact G3.
    + split; [destruct (knows_trans _ _ _ _ K F1); auto|]. exists [], alias, v, l. rewrite app_nil_r, F2. sp; auto.
      intros (m' & A' & U'). rewrite (asks_fun _ _ _ _ _ A' A) in U'. apply (kind_usable w m T) in U'. congruence.
Qed.

(** C72.  Configuring succeeds exactly when every entry can be made, and then there is exactly one executor (store)
    per configured alias, in order, the one asked for: the object given, or the class of 'type', or else of 'class',
    built with the remaining options.  Otherwise the first bad entry is refused: those before it are there, in order,
    and nothing else (the former ones are gone). *)
Theorem C72_configured_as_described :
  forall (w : world) (l : conf) (r : registry), NoDup (dkeys l) ->
    let (r', x) := configure w l r in
    match x with
    | Ok _ => Forall2 (fun e i => fst i = fst e /\ asks w r (snd e) (snd i) /\ usable w (snd i)) l (instances r')
    | Err _ => exists l1 alias v l2, (l = l1 ++ (alias, v) :: l2)%list /\ ~ good_entry w r v /\
        Forall2 (fun e i => fst i = fst e /\ asks w r (snd e) (snd i) /\ usable w (snd i)) l1 (instances r')
    end.
Proof.
  intros w l r ND. pose proof (configure_from_facts w r l [] [] (MkReg (plugins r) (classes r) [])) as F. unfold configure. cbn [app] in F.
  assert (K : knows w r (MkReg (plugins r) (classes r) [])) by (split; auto). specialize (F ND K eq_refl (Forall2_nil _)).
  destruct (configure_from w l _) as [r' [u|e]]; destruct F as [_ F]; [exact F|]. destruct F as (l1 & a & v & l2 & E & M & B). exists l1, a, v, l2. auto.
Qed.
Print Assumptions C72_configured_as_described.
Theorem C72_accepted_iff :
  forall (w : world) (l : conf) (r : registry), NoDup (dkeys l) ->
    (snd (configure w l r) = Ok tt <-> forall alias v, In (alias, v) l -> good_entry w r v).
Proof.
  intros w l r ND. pose proof (C72_configured_as_described w l r ND) as F. destruct (configure w l r) as [r' [u|e]]; cbn [snd].
  - split; [|destruct u; auto]. intros _ alias v I. induction F as [|[a b] i l t (E & A & U) F IH]; [destruct I|]. destruct I as [[= -> ->]|I]; [exists (snd i); auto|]. apply IH; [inversion ND; auto|exact I].
  - split; [discriminate|]. intros G. destruct F as (l1 & a & v & l2 & -> & B & _). destruct B. apply (G a). apply in_app_iff. right. left. reflexivity.
Qed.
Print Assumptions C72_accepted_iff.
(** a bad executor leaves the stores alone *)
Theorem C72_bad_executor_keeps_stores :
  forall we ws le ls re rs re' rs' e, configure_both we ws le ls re rs = (re', rs', Err e) ->
    (exists alias v, In (alias, v) le /\ ~ good_entry we re v) -> NoDup (dkeys le) -> rs' = rs.
Proof.
  intros we ws le ls re rs re' rs' e H (alias & v & I & B) ND. unfold configure_both in H. destruct (configure we le re) as [r1 [u|x]] eqn:C; [|congruence].
  exfalso. apply B. apply (proj1 (C72_accepted_iff we le re ND)) with alias; [rewrite C; destruct u; reflexivity|exact I].
Qed.
Print Assumptions C72_bad_executor_keeps_stores.
(** Adding by plugin alias (add_executor("x", "pool", ...), add_store): what is registered under a free alias is the
    plugin's class with exactly the options given, if the constructor takes them and - but only when the class has
    to be imported, not when it is remembered from an earlier attempt - it is of the right kind.  Nothing else is
    ever registered, and a refusal registers nothing. *)
Theorem C72_by_plugin_alias :
  forall (w : world) (alias plugin : string) (options : conf) (r : registry),
    let (r', x) := register_plugin w alias plugin options r in
    let free := ~ In alias (dkeys (instances r)) in
    let remembered := exists cls, dget plugin (classes r) = Some cls in
    (x = Ok tt <-> free /\ exists cls, plugin_class w r plugin cls /\ (remembered \/ of_kind w cls = true) /\ takes w cls options = true) /\
    (x = Ok tt -> exists cls, plugin_class w r plugin cls /\ instances r' = (instances r ++ [(alias, Made cls options)])%list) /\
    (x <> Ok tt -> instances r' = instances r).
Proof.
  intros w alias plugin o r. unfold register_plugin, dmem.
  destruct (dget alias (instances r)) as [m|] eqn:A.
  { assert (I : In alias (dkeys (instances r))) by (apply dget_Some_key in A; exact A). split; [split; [discriminate|intros [N _]; contradiction]|]. split; [discriminate|auto]. }
  assert (F : ~ In alias (dkeys (instances r))) by (apply dget_None; exact A).
  assert (AP : forall m, dset alias m (instances r) = (instances r ++ [(alias, m)])%list).
  { intros m. revert A. generalize (instances r). induction d as [|[k y] d IHd]; cbn; [auto|]. destruct (String.eqb alias k); [discriminate|]. intros H. rewrite IHd by auto. reflexivity. }
  unfold create_plugin, instantiate, plugin_class. destruct (dget plugin (classes r)) as [cls|] eqn:C.
  - destruct (takes w cls o) eqn:T; cbn [instances].
    + split; [split; [intros _; split; [exact F|]; exists cls; sp; eauto|auto]|]. split; [intros _; exists cls; rewrite AP; auto|congruence].
    + split; [split; [discriminate|]|split; [discriminate|auto]]. intros (_ & cls' & [P|[P _]] & _ & T'); congruence.
  - destruct (dget plugin (plugins r)) as [path|] eqn:P; [destruct (load w path) as [cls|] eqn:L|].
    + destruct (of_kind w cls) eqn:K; [destruct (takes w cls o) eqn:T|]; cbn [instances].
      * split; [split; [intros _; split; [exact F|]; exists cls; sp; eauto 6|auto]|]. split; [intros _; exists cls; rewrite AP; split; eauto|congruence].
      * split; [split; [discriminate|]|split; [discriminate|auto]]. intros (_ & cls' & [P'|(_ & p & P' & L')] & _ & T'); congruence.
      * split; [split; [discriminate|]|split; [discriminate|auto]]. intros (_ & cls' & [P'|(_ & p & P' & L')] & [(c2 & R)|K'] & T'); congruence.
    + split; [split; [discriminate|]|split; [discriminate|auto]]. intros (_ & cls' & [P'|(_ & p & P' & L')] & _); congruence.
    + split; [split; [discriminate|]|split; [discriminate|auto]]. intros (_ & cls' & [P'|(_ & p & P' & L')] & _); congruence.
Qed.
Print Assumptions C72_by_plugin_alias.
(** So a plugin that points to a class of the wrong kind is refused with TypeError the first time it is asked for,
    and accepted from the second time on. *)
Theorem C72_wrong_plugin_accepted_later :
  forall (w : world) (plugin path : string) (cls : nat) (r : registry), dget plugin (classes r) = None -> dget plugin (plugins r) = Some path -> load w path = Some cls -> of_kind w cls = false ->
    forall alias options, ~ In alias (dkeys (instances r)) ->
    exists r1, register_plugin w alias plugin options r = (r1, Err TypeError) /\ instances r1 = instances r /\
      forall alias2 options2, ~ In alias2 (dkeys (instances r)) -> takes w cls options2 = true ->
        exists r2, register_plugin w alias2 plugin options2 r1 = (r2, Ok tt) /\ dget alias2 (instances r2) = Some (Made cls options2).
Proof.
  intros w plugin path cls r C P L K alias o F. apply dget_None in F. unfold register_plugin at 1. unfold dmem. rewrite F. unfold create_plugin. rewrite C, P, L, K.
  eexists. split; [reflexivity|]. split; [reflexivity|]. intros a2 o2 F2 T. apply dget_None in F2. unfold register_plugin, dmem. cbn [instances]. rewrite F2.
  unfold create_plugin. cbn [classes]. rewrite dget_dset_eq. unfold instantiate. rewrite T. eexists. split; [reflexivity|]. cbn [instances]. apply dget_dset_eq.
Qed.
Print Assumptions C72_wrong_plugin_accepted_later.
(** hypotheses met: *)
Example C72_wrong_plugin_case :
  exists w alias plugin r r1 r2 cls, register_plugin w alias plugin [] r = (r1, Err TypeError) /\ register_plugin w alias plugin [] r1 = (r2, Ok tt) /\
    dget alias (instances r2) = Some (Made cls []) /\ of_kind w cls = false.
Proof.
  exists (MkWorld (fun _ => Some 7%nat) (fun _ => None) (fun _ => false) (fun _ _ => true)), "default", "bad", (MkReg [("bad", "pkg:Thing")] [] []).
  exists (MkReg [("bad", "pkg:Thing")] [("bad", 7%nat)] []), (MkReg [("bad", "pkg:Thing")] [("bad", 7%nat)] [("default", Made 7%nat [])]), 7%nat. repeat split.
Qed.
Example C72_case :
  let w := MkWorld (fun p => if String.eqb p "a:P" then Some 1%nat else None) (fun p => if String.eqb p "b:Q" then Some 2%nat else None) (fun _ => true) (fun _ _ => true) in
  configure w [("x", CDict [("type", CStr "pool"); ("class", CStr "b:Q"); ("max_workers", CVal 5%nat)]); ("y", CObj 9%nat); ("z", CDict [("class", CStr "b:Q")])]
    (MkReg [("pool", "a:P")] [] [("old", Given 3%nat)]) =
  (MkReg [("pool", "a:P")] [("pool", 1%nat)] [("x", Made 1%nat [("max_workers", CVal 5%nat)]); ("y", Given 9%nat); ("z", Made 2%nat [])], Ok tt).
Proof. reflexivity. Qed.
