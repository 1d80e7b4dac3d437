(** C95: the preview of a remote edit. *)
From Verif Require Import Prelude PreludeFacts CallArgs Cron Triggers Task TaskSpec TaskProofs Preview.
Open Scope Z_scope.
Ltac sp := repeat match goal with |- _ /\ _ => split end.

(** *** specification *)
Definition editable : list string := ["name"; "fn"; "args"; "kwargs"; "executor"; "coalesce"; "max_instances"; "mistrigger_grace_time"]%string.
(** the values each attribute takes *)
Definition takes (k : string) (v : pyval) : Prop :=
  ((k = "name" /\ (v = VNone \/ exists s, v = VStr s /\ s <> "")) \/
  (k = "fn" /\ ((exists s, v = VStr s) \/ exists c r, v = VFn c /\ c_ref c = Some r)) \/
  (k = "args" /\ exists l, v = VList l) \/ (k = "kwargs" /\ exists d, v = VDict d) \/
  (k = "executor" /\ exists s, v = VStr s) \/ k = "coalesce" \/
  (k = "max_instances" /\ exists z, integer v z /\ (0 < z)%Z) \/
  (k = "mistrigger_grace_time" /\ (v = VNone \/ exists x, number v x /\ (0 < x)%Z)))%string.
(** the attributes after the edit: what was asked for, and everything else as it was *)
Record shows (ups : dict pyval) (m m' : meta) : Prop := MkShows {
  s_name : (forall s, given "name" ups (VStr s) -> m_name m' = s) /\ (not_given "name" ups \/ given "name" ups VNone -> m_name m' = m_name m);
  s_ref : (forall s, given "fn" ups (VStr s) -> m_ref m' = Some s) /\ (forall c, given "fn" ups (VFn c) -> m_ref m' = c_ref c) /\ (not_given "fn" ups -> m_ref m' = m_ref m);
  s_args : value_or "args" ups (m_args m) (m_args m');
  s_kwargs : value_or "kwargs" ups (m_kwargs m) (m_kwargs m');
  s_exec : (forall s, given "executor" ups (VStr s) -> m_exec m' = Some s) /\ (not_given "executor" ups -> m_exec m' = m_exec m);
  s_coalesce : (forall v, given "coalesce" ups v -> m_coalesce m' = truthy v) /\ (not_given "coalesce" ups -> m_coalesce m' = m_coalesce m);
  s_max : (forall v z, given "max_instances" ups v -> integer v z -> m_max m' = z) /\ (not_given "max_instances" ups -> m_max m' = m_max m);
  s_grace : (given "mistrigger_grace_time" ups VNone -> m_grace m' = None) /\
    (forall v x, given "mistrigger_grace_time" ups v -> number v x -> m_grace m' = Some x) /\ (not_given "mistrigger_grace_time" ups -> m_grace m' = m_grace m) }.

(** *** proofs *)
Definition new_name (o : option pyval) (d : string) := match o with Some (VStr s) => s | _ => d end.
Definition new_ref (o : option pyval) (d : option string) := match o with Some (VStr s) => Some s | Some (VFn c) => c_ref c | _ => d end.
Definition new_val (o : option pyval) (d : pyval) := match o with Some v => v | None => d end.
Definition new_exec (o : option pyval) (d : option string) := match o with Some (VStr s) => Some s | _ => d end.
Definition new_coalesce (o : option pyval) (d : bool) := match o with Some v => truthy v | None => d end.
Definition new_max (o : option pyval) (d : Z) := match o with Some (VInt z) => z | Some (VBool b) => if b then 1 else 0 | _ => d end.
Definition new_grace (o : option pyval) (d : option Z) := match o with Some VNone => None | Some (VInt z) => Some (z * us) | Some (VFloat x) => Some x | Some (VBool b) => Some (if b then us else 0) | _ => d end.
Definition final (g : string -> option pyval) (m : meta) : meta :=
  MkMeta (new_name (g "name"%string) (m_name m)) (new_ref (g "fn"%string) (m_ref m)) (new_val (g "args"%string) (m_args m)) (new_val (g "kwargs"%string) (m_kwargs m))
    (new_exec (g "executor"%string) (m_exec m)) (new_coalesce (g "coalesce"%string) (m_coalesce m)) (new_max (g "max_instances"%string) (m_max m)) (new_grace (g "mistrigger_grace_time"%string) (m_grace m)).

Fixpoint run (es : list (string * (pyval -> meta -> result meta))) (g : string -> option pyval) (m : meta) : result meta :=
  match es with
  | [] => Ok m
  | (k, f) :: es' => match (match g k with None => Ok m | Some v => f v m end) with Ok m' => run es' g m' | Err e => Err e end
  end.
Fixpoint del_all (ks : list string) (ups : dict pyval) : dict pyval := match ks with [] => ups | k :: ks' => del_all ks' (ddel k ups) end.
Lemma run_ext es g g' m : (forall k, In k (map fst es) -> g k = g' k) -> run es g m = run es g' m.
Proof.
  revert m. induction es as [|[k f] es IH]; intros m H; cbn; auto. rewrite <- (H k) by (left; auto).
  destruct (match g k with None => Ok m | Some v => f v m end); auto. apply IH. intros. apply H. right. auto.
Qed.
Lemma apply_run es ups m : NoDup (map fst es) ->
  match run es (fun k => dget k ups) m with
  | Ok m' => apply_edits es ups m = (m', Ok (del_all (map fst es) ups))
  | Err e => exists m', apply_edits es ups m = (m', Err e)
  end.
Proof.
  revert ups m. induction es as [|[k f] es IH]; intros ups m N; cbn [run apply_edits map fst del_all]; auto. inversion N as [|x l NI N']; subst. destruct (dget k ups) as [v|] eqn:G.
  - destruct (f v m) as [m'|e]; [|eauto]. specialize (IH (ddel k ups) m' N'). rewrite (run_ext es _ (fun k0 => dget k0 ups)) in IH; auto.
    intros k' I. apply dget_ddel_ne. intros ->. auto.
  - rewrite (ddel_notin k ups G). apply IH. auto.
Qed.
Lemma del_all_nil ks ups : del_all ks ups = [] <-> forall k, In k (dkeys ups) -> In k ks.
Proof.
  revert ups. induction ks as [|k ks IH]; intros ups; cbn [del_all].
  - split; [intros ->; intros k []|]. intros H. destruct ups as [|[k v] ups]; auto. destruct (H k). left. auto.
  - rewrite IH. split.
    + intros H x I. destruct (string_dec x k) as [->|N]; [left; auto|right; apply H]. apply ddel_keys_incl. auto.
    + intros H x I. apply ddel_keys_incl in I as [I N]. destruct (H x I); [congruence|auto].
Qed.
Lemma eta m : MkMeta (m_name m) (m_ref m) (m_args m) (m_kwargs m) (m_exec m) (m_coalesce m) (m_max m) (m_grace m) = m.
Proof. destruct m. reflexivity. Qed.
Definition ok_at (k : string) (g : string -> option pyval) : Prop := forall v, g k = Some v -> takes k v.
Lemma takes_name v : takes "name" v <-> v = VNone \/ exists s, v = VStr s /\ s <> ""%string.
Proof. unfold takes. intuition discriminate. Qed.
Lemma takes_fn v : takes "fn" v <-> (exists s, v = VStr s) \/ exists c r, v = VFn c /\ c_ref c = Some r.
Proof. unfold takes. intuition discriminate. Qed.
Lemma takes_args v : takes "args" v <-> exists l, v = VList l.
Proof. unfold takes. intuition discriminate. Qed.
Lemma takes_kwargs v : takes "kwargs" v <-> exists l, v = VDict l.
Proof. unfold takes. intuition discriminate. Qed.
Lemma takes_exec v : takes "executor" v <-> exists l, v = VStr l.
Proof. unfold takes. intuition discriminate. Qed.
Lemma takes_max v : takes "max_instances" v <-> exists z, integer v z /\ 0 < z.
Proof. unfold takes. intuition discriminate. Qed.
Lemma takes_grace v : takes "mistrigger_grace_time" v <-> v = VNone \/ exists x, number v x /\ 0 < x.
Proof. unfold takes. intuition discriminate. Qed.
Lemma step_name g m m' : (match g "name"%string with None => Ok m | Some v => edit_name v m end) = Ok m' <-> ok_at "name" g /\ m' = set_name (new_name (g "name"%string) (m_name m)) m.
Proof.
  unfold ok_at, set_name. destruct (g "name"%string) as [v|].
  - unfold edit_name. split.
    + destruct v; try discriminate; cbn.
      * intros [= <-]. rewrite eta. split; auto. intros v [= <-]. apply takes_name. auto.
      * destruct (String.eqb_spec s ""); [discriminate|]. intros [= <-]. split; auto. intros v [= <-]. apply takes_name. eauto.
    + intros [H ->]. specialize (H v eq_refl). apply takes_name in H. destruct H as [->|(s & -> & N)]; cbn; [rewrite eta; auto|]. destruct (String.eqb_spec s ""); [congruence|]. auto.
  - cbn. rewrite eta. split; [intros [= <-]; split; auto; discriminate|intros [_ ->]; auto].
Qed.
Lemma step_fn g m m' : (match g "fn"%string with None => Ok m | Some v => edit_fn v m end) = Ok m' <-> ok_at "fn" g /\ m' = set_ref (new_ref (g "fn"%string) (m_ref m)) m.
Proof.
  unfold ok_at, set_ref. destruct (g "fn"%string) as [v|].
  - unfold edit_fn. split.
    + destruct v; try discriminate; cbn.
      * intros [= <-]. split; auto. intros v [= <-]. apply takes_fn. eauto.
      * destruct (c_ref c) as [r|] eqn:E; [|discriminate]. intros [= <-]. split; auto. intros v [= <-]. apply takes_fn. eauto 6.
    + intros [H ->]. specialize (H v eq_refl). apply takes_fn in H. destruct H as [(s & ->)|(c & r & -> & N)]; cbn; auto. rewrite N. auto.
  - cbn. rewrite eta. split; [intros [= <-]; split; auto; discriminate|intros [_ ->]; auto].
Qed.
Lemma step_args g m m' : (match g "args"%string with None => Ok m | Some v => edit_args v m end) = Ok m' <-> ok_at "args" g /\ m' = set_args (new_val (g "args"%string) (m_args m)) m.
Proof.
  unfold ok_at, set_args. destruct (g "args"%string) as [v|].
  - unfold edit_args. split.
    + destruct v; try discriminate; cbn. intros [= <-]. split; auto. intros v [= <-]. apply takes_args. eauto.
    + intros [H ->]. specialize (H v eq_refl). apply takes_args in H. destruct H as (s & ->); cbn; auto.
  - cbn. rewrite eta. split; [intros [= <-]; split; auto; discriminate|intros [_ ->]; auto].
Qed.
Lemma step_kwargs g m m' : (match g "kwargs"%string with None => Ok m | Some v => edit_kwargs v m end) = Ok m' <-> ok_at "kwargs" g /\ m' = set_kwargs (new_val (g "kwargs"%string) (m_kwargs m)) m.
Proof.
  unfold ok_at, set_kwargs. destruct (g "kwargs"%string) as [v|].
  - unfold edit_kwargs. split.
    + destruct v; try discriminate; cbn. intros [= <-]. split; auto. intros v [= <-]. apply takes_kwargs. eauto.
    + intros [H ->]. specialize (H v eq_refl). apply takes_kwargs in H. destruct H as (s & ->); cbn; auto.
  - cbn. rewrite eta. split; [intros [= <-]; split; auto; discriminate|intros [_ ->]; auto].
Qed.
Lemma step_exec g m m' : (match g "executor"%string with None => Ok m | Some v => edit_exec v m end) = Ok m' <-> ok_at "executor" g /\ m' = set_exec (new_exec (g "executor"%string) (m_exec m)) m.
Proof.
  unfold ok_at, set_exec. destruct (g "executor"%string) as [v|].
  - unfold edit_exec. split.
    + destruct v; try discriminate; cbn. intros [= <-]. split; auto. intros v [= <-]. apply takes_exec. eauto.
    + intros [H ->]. specialize (H v eq_refl). apply takes_exec in H. destruct H as (s & ->); cbn; auto.
  - cbn. rewrite eta. split; [intros [= <-]; split; auto; discriminate|intros [_ ->]; auto].
Qed.
Lemma step_coalesce g m m' : (match g "coalesce"%string with None => Ok m | Some v => edit_coalesce v m end) = Ok m' <-> ok_at "coalesce" g /\ m' = set_coalesce (new_coalesce (g "coalesce"%string) (m_coalesce m)) m.
Proof.
  unfold ok_at, set_coalesce, edit_coalesce. assert (T : forall v, takes "coalesce" v) by (unfold takes; tauto). destruct (g "coalesce"%string) as [v|]; cbn.
  - split; [intros [= <-]; auto|intros [_ ->]; auto].
  - rewrite eta. split; [intros [= <-]; auto|intros [_ ->]; auto].
Qed.
Lemma step_max g m m' : (match g "max_instances"%string with None => Ok m | Some v => edit_max v m end) = Ok m' <-> ok_at "max_instances" g /\ m' = set_max (new_max (g "max_instances"%string) (m_max m)) m.
Proof.
  unfold ok_at, set_max. destruct (g "max_instances"%string) as [v|].
  - unfold edit_max. split.
    + destruct v as [|b|z| | | | | | | |]; try discriminate; cbn.
      * destruct b; [|discriminate]. intros [= <-]. split; auto. intros v [= <-]. apply takes_max. exists 1. cbn. split; auto. lia.
      * destruct (Z.leb_spec z 0); [discriminate|]. intros [= <-]. split; auto. intros v [= <-]. apply takes_max. exists z. cbn. auto.
    + intros [H ->]. specialize (H v eq_refl). apply takes_max in H. destruct H as (z & I & L). destruct v as [|b|z'| | | | | | | |]; cbn in I; try contradiction; subst; cbn.
      * destruct b; [auto|lia].
      * destruct (Z.leb_spec z' 0); [lia|auto].
  - cbn. rewrite eta. split; [intros [= <-]; split; auto; discriminate|intros [_ ->]; auto].
Qed.
Lemma step_grace g m m' : (match g "mistrigger_grace_time"%string with None => Ok m | Some v => edit_grace v m end) = Ok m' <-> ok_at "mistrigger_grace_time" g /\ m' = set_grace (new_grace (g "mistrigger_grace_time"%string) (m_grace m)) m.
Proof.
  unfold ok_at, set_grace. destruct (g "mistrigger_grace_time"%string) as [v|].
  - unfold edit_grace. split.
    + destruct v as [|b|z|x| | | | | | |]; try discriminate; cbn.
      * intros [= <-]. split; auto. intros v [= <-]. apply takes_grace. auto.
      * destruct b; [|discriminate]. intros [= <-]. split; auto. intros v [= <-]. apply takes_grace. right. exists us. cbn. unfold us. split; auto. lia.
      * destruct (Z.leb_spec z 0); [discriminate|]. intros [= <-]. split; auto. intros v [= <-]. apply takes_grace. right. exists (z * us). cbn. unfold us. split; auto. lia.
      * destruct (Z.leb_spec x 0); [discriminate|]. intros [= <-]. split; auto. intros v [= <-]. apply takes_grace. right. exists x. cbn. auto.
    + intros [H ->]. specialize (H v eq_refl). apply takes_grace in H. destruct H as [->|(x & I & L)]; [auto|]. unfold us in *. destruct v as [|b|z'|x'| | | | | | |]; cbn in I; try contradiction; subst; cbn.
      * destruct b; [auto|lia].
      * unfold us in *. destruct (Z.leb_spec z' 0); [lia|auto].
      * destruct (Z.leb_spec x' 0); [lia|auto].
  - cbn. rewrite eta. split; [intros [= <-]; split; auto; discriminate|intros [_ ->]; auto].
Qed.
Lemma run_cons k f es g m m' : run ((k, f) :: es) g m = Ok m' <-> exists m1, (match g k with None => Ok m | Some v => f v m end) = Ok m1 /\ run es g m1 = Ok m'.
Proof. cbn [run]. destruct (match g k with None => Ok m | Some v => f v m end) as [m1|e]; split; [eauto|intros (x & [= <-] & H); auto|discriminate|intros (x & E & _); discriminate]. Qed.
Lemma run_spec g m m' : run edits g m = Ok m' <-> (forall k, In k editable -> ok_at k g) /\ m' = final g m.
Proof.
  unfold edits. rewrite run_cons. setoid_rewrite run_cons. setoid_rewrite run_cons. setoid_rewrite run_cons. setoid_rewrite run_cons. setoid_rewrite run_cons. setoid_rewrite run_cons. setoid_rewrite run_cons.
  split.
  - intros (m1 & H1 & m2 & H2 & m3 & H3 & m4 & H4 & m5 & H5 & m6 & H6 & m7 & H7 & m8 & H8 & E).
    apply step_name in H1 as [O1 ->]. apply step_fn in H2 as [O2 ->]. apply step_args in H3 as [O3 ->]. apply step_kwargs in H4 as [O4 ->]. apply step_exec in H5 as [O5 ->]. apply step_coalesce in H6 as [O6 ->]. apply step_max in H7 as [O7 ->]. apply step_grace in H8 as [O8 ->].
    cbn [run] in E. injection E as <-. split; [|reflexivity]. intros k I. cbn in I. destruct I as [<-|[<-|[<-|[<-|[<-|[<-|[<-|[<-|[]]]]]]]]]; auto.
  - intros [O ->]. exists (set_name (new_name (g "name"%string) (m_name m)) m). split; [apply step_name; split; [apply O; cbn; tauto|reflexivity]|].
    eexists. split; [apply step_fn; split; [apply O; cbn; tauto|reflexivity]|]. eexists. split; [apply step_args; split; [apply O; cbn; tauto|reflexivity]|]. eexists. split; [apply step_kwargs; split; [apply O; cbn; tauto|reflexivity]|].
    eexists. split; [apply step_exec; split; [apply O; cbn; tauto|reflexivity]|]. eexists. split; [apply step_coalesce; split; [apply O; cbn; tauto|reflexivity]|]. eexists. split; [apply step_max; split; [apply O; cbn; tauto|reflexivity]|].
    eexists. split; [apply step_grace; split; [apply O; cbn; tauto|reflexivity]|]. reflexivity.
Qed.
Definition acceptable (ups : dict pyval) : Prop := forall k v, given k ups v -> In k editable /\ takes k v.
Lemma update_ok p ups : snd (update p ups) = Ok tt <-> acceptable ups.
Proof.
  unfold update. assert (N : NoDup (map fst edits)) by (repeat constructor; cbn; intuition discriminate). pose proof (apply_run edits ups (p_meta p) N) as A. split.
  - destruct (dmem "id" ups) eqn:D; [discriminate|]. destruct (run edits (fun k => dget k ups) (p_meta p)) as [m'|e] eqn:R.
    + rewrite A. cbn [snd]. intros E. destruct (del_all (map fst edits) ups) eqn:X; [|discriminate]. rewrite del_all_nil in X. apply run_spec in R as [O _]. intros k v G.
      assert (I : In k editable) by (apply X; destruct (in_dec string_dec k (dkeys ups)); auto; apply dget_None in n; unfold given in G; congruence). split; auto. apply O; auto.
    + destruct A as [m' ->]. discriminate.
  - intros H. assert (D : dmem "id" ups = false).
    { unfold dmem. destruct (dget "id" ups) as [v|] eqn:G; auto. destruct (H "id"%string v G) as [I _]. cbn in I. intuition discriminate. }
    rewrite D. destruct (run edits (fun k => dget k ups) (p_meta p)) as [m'|e] eqn:R.
    + rewrite A. cbn [snd]. assert (del_all (map fst edits) ups = []) as ->; auto. apply del_all_nil. intros k I. destruct (dget k ups) as [v|] eqn:G; [apply (H k v G)|]. apply dget_None in G. tauto.
    + exfalso. assert (run edits (fun k => dget k ups) (p_meta p) = Ok (final (fun k => dget k ups) (p_meta p))) by (apply run_spec; split; auto; intros k _ v G; apply (H k v G)). congruence.
Qed.
Lemma update_final p ups : acceptable ups -> update p ups = (MkProxy (p_info p) (final (fun k => dget k ups) (p_meta p)), Ok tt).
Proof.
  intros H. pose proof (proj2 (update_ok p ups) H) as E. unfold update in *. assert (N : NoDup (map fst edits)) by (repeat constructor; cbn; intuition discriminate). pose proof (apply_run edits ups (p_meta p) N) as A.
  destruct (dmem "id" ups); [discriminate|]. assert (R : run edits (fun k => dget k ups) (p_meta p) = Ok (final (fun k => dget k ups) (p_meta p))) by (apply run_spec; split; auto; intros k _ v G; apply (H k v G)).
  rewrite R in A. rewrite A in *. cbn [snd] in E. rewrite E. reflexivity.
Qed.

(** C95.  The preview of an edit is refused exactly when a key is not editable or a value is not of the kind the
    attribute takes; otherwise it shows exactly the changes asked for.  The snapshot of the worker is kept. *)
Theorem C95_preview_exact p ups :
  (snd (update p ups) = Ok tt <-> forall k v, given k ups v -> In k editable /\ takes k v) /\
  (snd (update p ups) = Ok tt -> shows ups (p_meta p) (p_meta (fst (update p ups)))) /\
  p_info (fst (update p ups)) = p_info p.
Proof.
  sp.
  - apply update_ok.
  - intros E. apply update_ok in E. rewrite (update_final p ups E). cbn [fst p_meta]. unfold final. split; cbn [m_name m_ref m_args m_kwargs m_exec m_coalesce m_max m_grace]; unfold value_or, given, not_given, new_name, new_ref, new_val, new_exec, new_coalesce, new_max, new_grace; sp.
    + intros s ->. auto.
    + intros [->| ->]; auto.
    + intros s ->. auto.
    + intros c ->. auto.
    + intros ->. auto.
    + destruct (dget "args" ups); auto.
    + destruct (dget "kwargs" ups); auto.
    + intros s ->. auto.
    + intros ->. auto.
    + intros v ->. auto.
    + intros ->. auto.
    + intros v z ->. destruct v; cbn; intros I; try contradiction; auto.
    + intros ->. auto.
    + intros ->. auto.
    + intros v x ->. destruct v; cbn; intros I; try contradiction; subst; auto.
    + intros ->. auto.
  - unfold update. destruct (dmem "id" ups); auto. destruct (apply_edits edits ups (p_meta p)) as [m [r|e]]; auto.
Qed.
(** A copy of the stand-in equals it, and its snapshot is the worker's with the edited attributes. *)
Theorem C95_snapshot i ups : snapshot (remote_task i) = i /\ model_copy (remote_task i) = remote_task i /\
  fixed_of (snapshot (fst (update (model_copy (remote_task i)) ups))) = fixed_of i /\ meta_of (snapshot (fst (update (remote_task i) ups))) = p_meta (fst (update (remote_task i) ups)).
Proof.
  assert (E : snapshot (remote_task i) = i) by (destruct i; reflexivity). assert (C : model_copy (remote_task i) = remote_task i) by (unfold model_copy; rewrite E; auto).
  sp; auto. rewrite C. unfold snapshot. cbn [fixed_of]. rewrite (proj2 (proj2 (C95_preview_exact (remote_task i) ups))). reflexivity.
Qed.

(** What the worker's snapshot says of its task. *)
Lemma after_colon_app m f : (forall a b, f <> (a ++ ":" ++ b)%string) -> forall acc, after_colon (m ++ ":" ++ f) acc = f.
Proof.
  intros N. assert (P : forall x acc, (forall a b, x <> (a ++ ":" ++ b)%string) -> after_colon x acc = acc).
  { induction x as [|c x IH]; intros acc H; [reflexivity|]. cbn [after_colon]. destruct (Ascii.eqb_spec c ":") as [->|NE]; [exfalso; apply (H ""%string x); reflexivity|]. apply IH. intros a b ->. apply (H (String c a) b). reflexivity. }
  induction m as [|c m IH]; intros acc; cbn [append after_colon].
  - rewrite Ascii.eqb_refl. apply P. exact N.
  - destruct (Ascii.eqb c ":"); apply IH.
Qed.
Theorem C95_worker_snapshot t : let i := fixed_of (snapshot_of t) in let m := meta_of (snapshot_of t) in
  i_id i = t_id t /\ i_trigger i = t_trigger t /\ i_next i = t_next t /\ i_pending i = t_pending t /\ i_submitted i = t_submitted t /\ i_store i = t_store t /\
  (i_paused i = true <-> t_pending t = false /\ t_next t = None) /\
  (forall c, t_fn t = Some c -> i_callable i = Some (c_name c)) /\
  (t_fn t = None -> (t_ref t = None \/ t_ref t = Some ""%string -> i_callable i = None) /\
     forall a b, t_ref t = Some (a ++ ":" ++ b)%string -> (forall x y, b <> (x ++ ":" ++ y)%string) -> i_callable i = Some b) /\
  m_name m = t_name t /\ m_ref m = t_ref t /\ m_args m = t_args t /\ m_kwargs m = t_kwargs t /\ m_exec m = t_exec t /\ m_coalesce m = t_coalesce t /\ m_max m = t_max t /\ m_grace m = t_grace t.
Proof.
  cbv zeta. unfold snapshot_of. cbn [fixed_of meta_of i_id i_callable i_trigger i_next i_pending i_paused i_submitted i_store m_name m_ref m_args m_kwargs m_exec m_coalesce m_max m_grace]. sp; try reflexivity.
  - unfold state_of. destruct (t_pending t), (t_next t); cbn; split; auto; intros; intuition discriminate.
  - intros c ->. reflexivity.
  - intros ->. split; [intros [->| ->]; reflexivity|]. intros a b -> N. destruct (String.eqb_spec (a ++ ":" ++ b) "") as [E|E]; [destruct a; discriminate|]. f_equal. apply after_colon_app. exact N.
Qed.

(** an edit the form can send: editable keys only, a callable that has a reference, positional arguments as a list *)
Definition ordinary_edit (ups : dict pyval) : Prop :=
  NoDup (dkeys ups) /\ (forall k v, given k ups v -> In k editable) /\
  (forall v, given "fn" ups v -> (exists s, v = VStr s /\ s <> ""%string) \/ exists c r, v = VFn c /\ c_ref c = Some r) /\
  (forall v, given "args" ups v -> exists l, v = VList l).
(** the task has a name, and its reference is that of its callable *)
Definition ordinary_task (t : task) : Prop := t_name t <> ""%string /\ exists c, t_fn t = Some c /\ t_ref t = c_ref c.
(** C95.  Whatever edit the worker accepts, the preview accepted, and the attributes it showed are those the task now
    has. *)
Theorem C95_preview_agrees env t sched ups t' : ordinary_edit ups -> ordinary_task t ->
  worker_update env t sched ups = (t', Ok tt) ->
  exists p, update (remote_task (snapshot_of t)) ups = (p, Ok tt) /\ p_meta p = meta_of (snapshot_of t').
Proof.
  intros (ND & ED & FN & AR) (TN & c0 & TF & TR) W. unfold worker_update in W. set (fn := match dget "fn" ups with Some v => v | None => VNone end) in *. set (u := ddel "fn" ups) in *.
  assert (NU : NoDup (dkeys u)) by (apply ddel_NoDup; auto). pose proof (update_spec env t sched fn u t' (Ok tt) NU W) as AP. cbn beta iota in AP.
  assert (G : forall k, k <> "fn"%string -> dget k u = dget k ups) by (intros; apply dget_ddel_ne; auto).
  destruct AP as (_ & _ & _ & _ & Ag1 & Ag2 & Ac1 & Ac2 & _ & _ & Ae1 & Ae2 & Am1 & Am2 & _ & _ & _ & _ & At1 & At2 & An1 & An2 & _).
  unfold given, not_given in *. rewrite !G in * by discriminate.
  assert (TC : touches_call fn u \/ ~ touches_call fn u).
  { destruct (truthy fn || dmem "args" u || dmem "kwargs" u) eqn:E; [left|right]; rewrite <- touches_dec; congruence. }
  assert (TF' : forall v, dget "fn" ups = Some v -> fn = v /\ truthy v = true).
  { intros v E. unfold fn. rewrite E. split; auto. destruct (FN v E) as [(s & -> & N)|(c & r & -> & _)]; cbn; auto. destruct (String.eqb_spec s ""%string); [congruence|reflexivity]. }
  assert (TK : forall k, k = "args"%string \/ k = "kwargs"%string -> forall v, dget k ups = Some v -> touches_call fn u).
  { intros k K v E. unfold touches_call, given. destruct K as [->| ->]; rewrite !G by discriminate; eauto. }
  assert (AC : acceptable ups).
  { intros k v E. split; [apply (ED k v E)|]. pose proof (ED k v E) as I. unfold given in E. cbn in I. destruct I as [<-|[<-|[<-|[<-|[<-|[<-|[<-|[<-|[]]]]]]]]].
    - apply takes_name. assert (X : v = VNone \/ v <> VNone) by (destruct v; auto; right; discriminate). destruct X as [->|X]; auto. right. destruct (An1 v E X) as (s & -> & N & _). eauto.
    - apply takes_fn. destruct (FN v E) as [(s & -> & _)|(c & r & -> & R)]; eauto.
    - apply takes_args. apply AR. auto.
    - apply takes_kwargs. assert (X : touches_call fn u) by (apply (TK "kwargs"%string) with v; auto). destruct (At1 X) as (_ & _ & VK & (n & ks & _ & KN & _)). unfold value_or, given, not_given in VK. rewrite G, E in VK by discriminate.
      destruct VK as [[= ->]|[VK _]]; [|discriminate]. destruct (t_kwargs t'); try discriminate. eauto.
    - apply takes_exec. destruct (Ae1 v E) as (s & -> & _). eauto.
    - unfold takes. tauto.
    - apply takes_max. destruct (Am1 v E) as (z & I & L & _). eauto.
    - apply takes_grace. destruct (Ag1 v E) as [[-> _]|(x & I & L & _)]; eauto. }
  eexists. split; [apply (update_final _ _ AC)|]. unfold final, snapshot_of, remote_task. cbn [p_meta meta_of m_name m_ref m_args m_kwargs m_exec m_coalesce m_max m_grace].
  assert (CALL : new_ref (dget "fn" ups) (t_ref t) = t_ref t' /\ new_val (dget "args" ups) (t_args t) = t_args t' /\ new_val (dget "kwargs" ups) (t_kwargs t) = t_kwargs t').
  { destruct TC as [TC|TC].
    - destruct (At1 TC) as (NC & VA & VK & _). unfold value_or, given, not_given in VA, VK. rewrite !G in VA, VK by discriminate. sp.
      + unfold new_callable in NC. destruct (dget "fn" ups) as [v|] eqn:E.
        * destruct (TF' v eq_refl) as [E1 E2]. rewrite E1, E2 in NC. destruct (FN v eq_refl) as [(s & -> & _)|(c & r & -> & _)]; cbn.
          -- destruct NC as (cc & _ & _ & ->). auto.
          -- destruct NC as [_ ->]. auto.
        * unfold fn in NC. cbn in NC. destruct NC as [_ ->]. cbn. rewrite TF. auto.
      + destruct (dget "args" ups); cbn; destruct VA as [VA|[VA ->]]; congruence.
      + destruct (dget "kwargs" ups); cbn; destruct VK as [VK|[VK ->]]; congruence.
    - destruct (At2 TC) as (E1 & E2 & E3 & E4). rewrite E2, E3, E4. sp.
      + destruct (dget "fn" ups) as [v|] eqn:E; auto. exfalso. apply TC. left. destruct (TF' v eq_refl) as [-> E']. auto.
      + destruct (dget "args" ups) as [v|] eqn:E; auto. exfalso. apply TC. apply (TK "args"%string) with v; auto.
      + destruct (dget "kwargs" ups) as [v|] eqn:E; auto. exfalso. apply TC. apply (TK "kwargs"%string) with v; auto. }
  destruct CALL as (-> & -> & ->). f_equal.
  - destruct (dget "name" ups) as [v|] eqn:E; cbn.
    + assert (X : v = VNone \/ v <> VNone) by (destruct v; auto; right; discriminate). destruct X as [->|X].
      * destruct (An2 (or_intror eq_refl)) as [->|(Q & _)]; congruence.
      * destruct (An1 v eq_refl X) as (s & -> & _ & ->). auto.
    + destruct (An2 (or_introl eq_refl)) as [->|(Q & _)]; congruence.
  - destruct (dget "executor" ups) as [v|] eqn:E; cbn; [destruct (Ae1 v eq_refl) as (s & -> & ->)|rewrite Ae2]; auto.
  - destruct (dget "coalesce" ups) as [v|] eqn:E; cbn; [rewrite (Ac1 v eq_refl)|rewrite Ac2]; auto.
  - destruct (dget "max_instances" ups) as [v|] eqn:E; cbn; [|rewrite Am2; auto]. destruct (Am1 v eq_refl) as (z & I & L & ->). destruct v; cbn in I; try contradiction; subst; auto.
  - destruct (dget "mistrigger_grace_time" ups) as [v|] eqn:E; cbn; [|rewrite Ag2; auto]. destruct (Ag1 v eq_refl) as [[-> ->]|(x & I & L & ->)]; auto. destruct v; cbn in I; try contradiction; subst; auto.
Qed.
Definition ex_fn : callable := MkCallable "work" (Some "app.jobs:work"%string) [MkParam "a" PosOrKw false].
Definition ex_env : tenv := MkEnv (fun s => if String.eqb s "app.jobs:work" then Ok ex_fn else Err OtherError) (fun _ => Err OtherError).
Definition ex_task (ref : string) : task :=
  MkTask "t" "job" (TDate 5) (Some 5) (Some "default"%string) (Some "default"%string) (Some 1000000) false 1 (Some ex_fn) (Some ref) (VList [VInt 1]) (VDict []) None false true.
Definition ex_edit : dict pyval := [("max_instances", VInt 3); ("args", VList [VInt 2]); ("mistrigger_grace_time", VNone)]%string.
Example C95_example : ordinary_edit ex_edit /\ ordinary_task (ex_task "app.jobs:work") /\ snd (worker_update ex_env (ex_task "app.jobs:work") None ex_edit) = Ok tt /\
  p_meta (fst (update (remote_task (snapshot_of (ex_task "app.jobs:work"))) ex_edit)) = MkMeta "job" (Some "app.jobs:work"%string) (VList [VInt 2]) (VDict []) (Some "default"%string) false 3 None.
Proof.
  sp; try reflexivity.
  - unfold ordinary_edit. sp.
    + repeat constructor; cbn; intuition discriminate.
    + intros k v G. unfold given, ex_edit in G. cbn [dget] in G. destruct (String.eqb_spec k "max_instances") as [->|]; [cbn; tauto|]. destruct (String.eqb_spec k "args") as [->|]; [cbn; tauto|].
      destruct (String.eqb_spec k "mistrigger_grace_time") as [->|]; [cbn; tauto|discriminate].
    + intros v G. discriminate.
    + intros v [= <-]. eauto.
  - split; [discriminate|]. exists ex_fn. auto.
Qed.
(** The preview can promise what the worker then refuses: it does not look at the callable. *)
Theorem C95_worker_may_refuse_refuted : ~ (forall env t sched ups p, ordinary_edit ups -> ordinary_task t -> update (remote_task (snapshot_of t)) ups = (p, Ok tt) -> exists t', worker_update env t sched ups = (t', Ok tt)).
Proof.
  intros H. destruct (H ex_env (ex_task "app.jobs:work") None [("args", VList [])]%string (fst (update (remote_task (snapshot_of (ex_task "app.jobs:work"))) [("args", VList [])]%string))) as [t' E].
  - unfold ordinary_edit. sp.
    + repeat constructor; cbn; intuition discriminate.
    + intros k v G. unfold given in G. cbn [dget] in G. destruct (String.eqb_spec k "args") as [->|]; [cbn; tauto|discriminate].
    + intros v G. discriminate.
    + intros v [= <-]. eauto.
  - split; [discriminate|]. exists ex_fn. auto.
  - reflexivity.
  - discriminate E.
Qed.
(** A task whose callable was named by another path (a re-export): editing only its arguments changes the reference
    at the worker, which the preview does not show. *)
Theorem C95_reference_moves_refuted : ~ (forall env t sched ups t', ordinary_edit ups -> t_name t <> ""%string -> worker_update env t sched ups = (t', Ok tt) ->
  exists p, update (remote_task (snapshot_of t)) ups = (p, Ok tt) /\ m_ref (p_meta p) = t_ref t').
Proof.
  intros H. destruct (H ex_env (ex_task "app:work") None [("args", VList [VInt 2])]%string (fst (worker_update ex_env (ex_task "app:work") None [("args", VList [VInt 2])]%string))) as (p & E & R).
  - unfold ordinary_edit. sp.
    + repeat constructor; cbn; intuition discriminate.
    + intros k v G. unfold given in G. cbn [dget] in G. destruct (String.eqb_spec k "args") as [->|]; [cbn; tauto|discriminate].
    + intros v G. discriminate.
    + intros v [= <-]. eauto.
  - discriminate.
  - reflexivity.
  - injection E as <-. discriminate R.
Qed.
(** Unlike an update of a real task (C23), a refused edit leaves the earlier attributes of the stand-in changed; the pages
    edit a copy. *)
Theorem C95_refused_edit_is_half_done : exists p ups e, snd (update p ups) = Err e /\ p_meta (fst (update p ups)) <> p_meta p /\ p_info (fst (update p ups)) = p_info p.
Proof.
  exists (remote_task (snapshot_of (ex_task "app.jobs:work"))), [("name", VStr "new"); ("args", VNone)]%string, TypeError. sp; try reflexivity. discriminate.
Qed.
