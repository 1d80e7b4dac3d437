(** C105: what the options of a scheduler mean, at every setup. *)
From Verif Require Import Prelude Text CallArgs Cron Triggers TriggerSpec Task TaskSpec Scheduler SchedSpec SchedReach LifeSpec PropSched PropLife AddTask AddSpec PropAdd Shapes Options.
Open Scope Z_scope.
Local Ltac sp := repeat match goal with |- _ /\ _ => split end.

(** * The statement's own words *)
Definition asked (k : string) (otherwise : oval) (c : oconf) : oval := match dget k c with Some v => v | None => otherwise end.
Definition false_value (v : oval) : Prop := In v [ONone; OBool false; OInt 0; OFloat 0; OText ""; OMap []].
Inductive is_seconds (l : lang) : oval -> Z -> Prop :=
| sec_false : is_seconds l (OBool false) 0
| sec_true : is_seconds l (OBool true) 1000000
| sec_int n : is_seconds l (OInt n) (n * 1000000)
| sec_float m : is_seconds l (OFloat m) m
| sec_text s m : text_seconds l s = Some m -> is_seconds l (OText s) m.
Inductive is_integer (l : lang) : oval -> Z -> Prop :=
| int_false : is_integer l (OBool false) 0
| int_true : is_integer l (OBool true) 1
| int_int n : is_integer l (OInt n) n
| int_float m : is_integer l (OFloat m) (Z.quot m 1000000)
| int_text s n : text_integer l s = Some n -> is_integer l (OText s) n.
Inductive is_zone (l : lang) : oval -> nat -> Prop :=
| zone_named_ s z : zone_named l s = Some z -> is_zone l (OText s) z
| zone_itself z : is_zone l (OZone z) z
| zone_local : is_zone l ONone (local_zone l).
Inductive is_shape (reg : registry) : oval -> shape_class -> Prop :=
| shape_itself s : is_shape reg (OInst s) s
| shape_class_ s : is_shape reg (OClass s) s
| shape_named n s : dget n reg = Some s -> is_shape reg (OText n) s
| shape_usual s : dget "pydantic"%string reg = Some s -> is_shape reg ONone s.
Inductive is_grace (l : lang) : oval -> option Z -> Prop :=
| grace_unlimited : is_grace l ONone None
| grace_seconds v m : is_seconds l v m -> is_grace l v (Some m).
(** yes and no in words, in any case, with blanks around; any other text is true unless empty *)
Definition yes : list string := ["1"; "true"; "t"; "yes"; "y"; "on"]%string.
Definition no : list string := ["0"; "false"; "f"; "no"; "n"; "off"]%string.
Definition is_true (v : oval) : Prop :=
  match v with
  | OText s => In (lower (strip s)) yes \/ (~ In (lower (strip s)) no /\ s <> ""%string)
  | _ => ~ false_value v
  end.
(** a text, or what str() makes of a true value; nothing for a false one *)
Definition is_text (l : lang) (v : oval) (s : string) : Prop := ~ false_value v /\ match v with OText t => s = t | _ => s = shown l v end.
Record are_defaults (l : lang) (c : oconf) (d : defaults) : Prop := MkAre {
  ad_grace : is_grace l (asked "mistrigger_grace_time" (OInt 1) c) (d_grace d);
  ad_coalesce : d_coalesce d = true <-> is_true (asked "coalesce" (OBool true) c);
  ad_max : is_integer l (asked "max_instances" (OInt 1) c) (d_max d) }.
Definition identified (l : lang) (fresh : string) (c : oconf) (before after : string) : Prop :=
  is_text l (asked "identity" ONone c) after \/ (false_value (asked "identity" ONone c) /\ (before <> ""%string /\ after = before \/ before = ""%string /\ after = fresh)).
Record configured (l : lang) (reg : registry) (fresh : string) (c : oconf) (before after : opts) : Prop := MkConfigured {
  cf_identity : identified l fresh c (p_identity before) (p_identity after);
  cf_started : p_started after = None;
  cf_seen : p_seen after = None;
  cf_stale : is_seconds l (asked "heartbeat_stale_after" (OInt 30) c) (p_stale_after after);
  cf_shape : is_shape reg (asked "shape" (OInst (p_shape before)) c) (p_shape after);
  cf_zone : is_zone l (asked "timezone" ONone c) (p_zone after);
  cf_lock : is_text l (asked "lock_path" ONone c) (p_lock_path after) \/ (false_value (asked "lock_path" ONone c) /\ p_lock_path after = ""%string);
  cf_retry : is_seconds l (asked "store_retry_interval" (OInt 10) c) (p_retry after);
  cf_delay : forall usual, (p_lock_path after = ""%string /\ usual = 0 \/ p_lock_path after <> ""%string /\ usual = 1) -> is_seconds l (asked "startup_delay" (OInt usual) c) (p_delay after);
  cf_defaults : exists d, (asked "task_defaults" ONone c = OMap d \/ false_value (asked "task_defaults" ONone c) /\ d = []) /\ are_defaults l d (p_defaults after);
  cf_logger : (exists s, is_text l (asked "logger_name" ONone c) s /\ p_logger after = ("asyncz.schedulers." ++ s)%string) \/
              (false_value (asked "logger_name" ONone c) /\ p_logger after = "asyncz.schedulers"%string) }.

(** * Proofs *)
Lemma falsy v : otruthy v = false <-> false_value v.
Proof.
  unfold false_value. split.
  - destruct v as [|[]|n|m|s|z|s|s|[|? ?]|n]; cbn; try discriminate; auto 10.
    + destruct (Z.eqb_spec n 0) as [->|]; [auto 10|discriminate].
    + destruct (Z.eqb_spec m 0) as [->|]; [auto 10|discriminate].
    + destruct (String.eqb_spec s "") as [->|]; [auto 10|discriminate].
  - intros H. repeat destruct H as [<-|H]; try reflexivity. destruct H.
Qed.
Lemma truthy_iff v : otruthy v = true <-> ~ false_value v.
Proof. rewrite <- falsy. destruct (otruthy v); intuition congruence. Qed.
Lemma seconds_iff l v m : as_seconds l v = Ok m <-> is_seconds l v m.
Proof.
  split.
  - destruct v as [|[]|n|x|s|z|s|s|d|n]; cbn; try discriminate; try (intros [= <-]; constructor). destruct (text_seconds l s) eqn:E; [|discriminate]. intros [= <-]. constructor. exact E.
  - intros []; cbn; try reflexivity. rewrite H. reflexivity.
Qed.
Lemma integer_iff l v m : as_integer l v = Ok m <-> is_integer l v m.
Proof.
  split.
  - destruct v as [|[]|n|x|s|z|s|s|d|n]; cbn; try discriminate; try (intros [= <-]; constructor). destruct (text_integer l s) eqn:E; [|discriminate]. intros [= <-]. constructor. exact E.
  - intros []; cbn; try reflexivity. rewrite H. reflexivity.
Qed.
Lemma zone_iff l v z : as_zone l v = Ok z <-> is_zone l v z.
Proof.
  split.
  - destruct v; cbn; try discriminate; try (intros [= <-]; constructor). destruct (zone_named l s) eqn:E; [|discriminate]. intros [= <-]. constructor. exact E.
  - intros []; cbn; try reflexivity. rewrite H. reflexivity.
Qed.
Lemma shape_iff reg v s : as_shape reg v = Ok s <-> is_shape reg v s.
Proof.
  unfold as_shape. split.
  - destruct v as [|b|n|m|t|z|k|k|d|n]; cbn [resolve]; try discriminate; unfold get.
    + destruct (dget _ reg) eqn:E; [|discriminate]. intros [= <-]. constructor. exact E.
    + destruct (dget _ reg) eqn:E; [|discriminate]. intros [= <-]. constructor. exact E.
    + intros [= <-]. constructor.
    + intros [= <-]. constructor.
  - intros []; cbn [resolve]; unfold get; rewrite ?H; reflexivity.
Qed.
Lemma in_words n ws : existsb (String.eqb n) ws = true <-> In n ws.
Proof. rewrite existsb_exists. split; [intros (x & X & E); apply String.eqb_eq in E; congruence|intros H; exists n; split; [exact H|apply String.eqb_refl]]. Qed.
Lemma bool_iff v : as_bool v = true <-> is_true v.
Proof.
  destruct v; try apply truthy_iff. cbn [as_bool is_true]. fold yes no. destruct (existsb (String.eqb (lower (strip s))) yes) eqn:Y; [apply in_words in Y; tauto|].
  assert (NY : ~ In (lower (strip s)) yes) by (rewrite <- in_words; congruence). destruct (existsb (String.eqb (lower (strip s))) no) eqn:N.
  - apply in_words in N. split; [discriminate|tauto].
  - assert (NN : ~ In (lower (strip s)) no) by (rewrite <- in_words; congruence). cbn [otruthy]. rewrite negb_true_iff, String.eqb_neq. tauto.
Qed.
Lemma grace_iff l v x : as_grace l v = Ok x <-> is_grace l v x.
Proof.
  assert (S : forall w, (match as_seconds l w with Ok m => Ok (Some m) | Err e => Err e end) = Ok x <-> exists m, is_seconds l w m /\ x = Some m).
  { intros w. split; [destruct (as_seconds l w) as [m|] eqn:E; [|discriminate]; intros [= <-]; exists m; split; [apply seconds_iff, E|reflexivity]|]. intros (m & A & ->). apply seconds_iff in A. rewrite A. reflexivity. }
  split.
  - destruct v; intros H; try (apply S in H as (m' & A & ->); constructor; exact A). injection H as <-. constructor.
  - intros H. destruct H as [|v m A]; [reflexivity|]. pose proof A as A0. apply seconds_iff in A. destruct A0; cbn [as_grace]; rewrite ?A; cbn in A; rewrite ?A; try reflexivity.
Qed.
Lemma defaults_iff l c d : as_defaults l c = Ok d <-> are_defaults l c d.
Proof.
  unfold as_defaults. change (get_or ?k c ?v) with (asked k v c). split.
  - intros H. destruct (as_grace l (asked "mistrigger_grace_time" (OInt 1) c)) as [x|y] eqn:G; [|discriminate]. destruct (as_integer l (asked "max_instances" (OInt 1) c)) as [n|y] eqn:E; [|discriminate]. injection H as <-. constructor; cbn [d_grace d_coalesce d_max].
    + apply grace_iff, G.
    + apply bool_iff.
    + apply integer_iff, E.
  - intros [G C M]. apply integer_iff in M. apply grace_iff in G. rewrite G, M. destruct d as [g b n]. cbn [d_grace d_coalesce d_max] in *.
    assert (B : as_bool (asked "coalesce" (OBool true) c) = b). { pose proof (bool_iff (asked "coalesce" (OBool true) c)) as W. destruct (as_bool (asked "coalesce" (OBool true) c)), b; intuition congruence. }
    rewrite B. reflexivity.
Qed.
Lemma text_iff l v s : (otruthy v = true /\ as_text l v = s) <-> is_text l v s.
Proof. unfold is_text. rewrite truthy_iff. destruct v; cbn [as_text]; intuition congruence. Qed.

Lemma identified_iff l fresh c a b :
  b = (if otruthy (asked "identity" ONone c) then as_text l (asked "identity" ONone c) else if String.eqb a "" then fresh else a) <-> identified l fresh c a b.
Proof.
  unfold identified. rewrite <- text_iff, <- falsy. destruct (otruthy (asked "identity" ONone c)); [intuition congruence|]. destruct (String.eqb_spec a ""); intuition congruence.
Qed.
(** [configured] says what every option is: the record and the assignments determine the same state *)
Lemma set_options_iff l reg fresh c o o' : set_options l reg fresh c o = (o', Ok tt) <-> configured l reg fresh c o o'.
Proof.
  unfold set_options, steps. cbn [assign]. change (get_or ?k c ?v) with (asked k v c).
  cbn [p_identity p_started p_seen p_stale_after p_shape p_zone p_lock_path p_retry p_delay p_defaults p_logger].
  assert (LP : forall v, v = asked "lock_path" (OText "") c -> (if otruthy v then as_text l v else ""%string) = (if otruthy (asked "lock_path" ONone c) then as_text l (asked "lock_path" ONone c) else ""%string)).
  { intros v ->. unfold asked. destruct (dget "lock_path" c); reflexivity. }
  rewrite (LP _ eq_refl). clear LP. set (lock := if otruthy (asked "lock_path" ONone c) then as_text l (asked "lock_path" ONone c) else ""%string).
  assert (LK : forall x, x = lock <-> is_text l (asked "lock_path" ONone c) x \/ (false_value (asked "lock_path" ONone c) /\ x = ""%string)).
  { intros x. unfold lock. rewrite <- text_iff, <- falsy. destruct (otruthy (asked "lock_path" ONone c)); intuition congruence. }
  assert (DF : forall d, (if otruthy (asked "task_defaults" ONone c) then match asked "task_defaults" ONone c with OMap m => as_defaults l m | _ => Err TypeError end else as_defaults l []) = Ok d <->
    exists m, (asked "task_defaults" ONone c = OMap m \/ false_value (asked "task_defaults" ONone c) /\ m = []) /\ are_defaults l m d).
  { intros d. set (v := asked "task_defaults" ONone c). destruct (otruthy v) eqn:T.
    - assert (N : ~ false_value v) by (apply truthy_iff, T). split.
      + destruct v as [|b|n|m|t|z|k|k|m|n]; try discriminate. intros H. exists m. split; [auto|]. apply defaults_iff, H.
      + intros (m & [->|[F _]] & H); [|contradiction]. apply defaults_iff, H.
    - assert (N : false_value v) by (apply falsy, T). split.
      + intros H. exists []. split; [auto|]. apply defaults_iff, H.
      + intros (m & [E|[_ ->]] & H); [|apply defaults_iff, H]. rewrite E in T. destruct m; [|discriminate]. apply defaults_iff, H. }
  assert (LG : forall x, x = (if otruthy (asked "logger_name" ONone c) then "asyncz.schedulers." ++ as_text l (asked "logger_name" ONone c) else "asyncz.schedulers")%string <->
    (exists s, is_text l (asked "logger_name" ONone c) s /\ x = ("asyncz.schedulers." ++ s)%string) \/ (false_value (asked "logger_name" ONone c) /\ x = "asyncz.schedulers"%string)).
  { intros x. rewrite <- falsy. destruct (otruthy (asked "logger_name" ONone c)) eqn:T.
    - split; [intros ->; left; eexists; split; [apply text_iff; split; [exact T|reflexivity]|reflexivity]|]. intros [(s & A & ->)|[A _]]; [|discriminate]. apply text_iff in A as [_ <-]. reflexivity.
    - split; [auto|]. intros [(s & A & _)|[_ A]]; [|exact A]. apply text_iff in A as [A _]. congruence. }
  assert (DL : forall m, (as_seconds l (asked "startup_delay" (OInt (if String.eqb lock "" then 0 else 1)) c) = Ok m <->
    forall usual, (lock = ""%string /\ usual = 0 \/ lock <> ""%string /\ usual = 1) -> is_seconds l (asked "startup_delay" (OInt usual) c) m)).
  { intros m. rewrite seconds_iff. destruct (String.eqb_spec lock "") as [E|E]; split; intros H; auto; intros u [[A ->]|[A ->]]; congruence. }
  split.
  - destruct (as_seconds l (asked "heartbeat_stale_after" (OInt 30) c)) as [stale|] eqn:E1; [|intros X; discriminate X]; cbn [p_identity p_started p_seen p_stale_after p_shape p_zone p_lock_path p_retry p_delay p_defaults p_logger].
    destruct (as_shape reg (asked "shape" (OInst (p_shape o)) c)) as [sh|] eqn:E2; [|intros X; discriminate X]; cbn [p_identity p_started p_seen p_stale_after p_shape p_zone p_lock_path p_retry p_delay p_defaults p_logger].
    destruct (as_zone l (asked "timezone" ONone c)) as [z|] eqn:E3; [|intros X; discriminate X]; cbn [p_identity p_started p_seen p_stale_after p_shape p_zone p_lock_path p_retry p_delay p_defaults p_logger].
    destruct (as_seconds l (asked "store_retry_interval" (OInt 10) c)) as [re|] eqn:E4; [|intros X; discriminate X]; cbn [p_identity p_started p_seen p_stale_after p_shape p_zone p_lock_path p_retry p_delay p_defaults p_logger].
    destruct (as_seconds l (asked "startup_delay" _ c)) as [de|] eqn:E5; [|intros X; discriminate X]; cbn [p_identity p_started p_seen p_stale_after p_shape p_zone p_lock_path p_retry p_delay p_defaults p_logger].
    destruct (if otruthy (asked "task_defaults" ONone c) then _ else _) as [d|] eqn:E6; [|intros X; discriminate X]; cbn [p_identity p_started p_seen p_stale_after p_shape p_zone p_lock_path p_retry p_delay p_defaults p_logger].
    cbn [p_identity p_started p_seen p_stale_after p_shape p_zone p_lock_path p_retry p_delay p_defaults p_logger]. intros [= <-].
    constructor; cbn [p_identity p_started p_seen p_stale_after p_shape p_zone p_lock_path p_retry p_delay p_defaults p_logger]; auto.
    + apply identified_iff. reflexivity.
    + apply seconds_iff, E1.
    + apply shape_iff, E2.
    + apply zone_iff, E3.
    + apply LK. reflexivity.
    + apply seconds_iff, E4.
    + apply DL. reflexivity.
    + apply DF. reflexivity.
    + apply LG. reflexivity.
  - intros [H1 H2 H3 H4 H5 H6 H7 H8 H9 H10 H11]. destruct o' as [id sta seen stale sh z lk re de d lg]. cbn [p_identity p_started p_seen p_stale_after p_shape p_zone p_lock_path p_retry p_delay p_defaults p_logger] in *.
    apply identified_iff in H1. apply seconds_iff in H4. apply shape_iff in H5. apply zone_iff in H6. apply LK in H7. apply seconds_iff in H8. rewrite H7 in H9. apply DL in H9. apply DF in H10. apply LG in H11.
    rewrite H4; cbn [p_identity p_started p_seen p_stale_after p_shape p_zone p_lock_path p_retry p_delay p_defaults p_logger]; rewrite H5; cbn [p_identity p_started p_seen p_stale_after p_shape p_zone p_lock_path p_retry p_delay p_defaults p_logger]; rewrite H6; cbn [p_identity p_started p_seen p_stale_after p_shape p_zone p_lock_path p_retry p_delay p_defaults p_logger]; rewrite H8; cbn [p_identity p_started p_seen p_stale_after p_shape p_zone p_lock_path p_retry p_delay p_defaults p_logger]; rewrite H9; cbn [p_identity p_started p_seen p_stale_after p_shape p_zone p_lock_path p_retry p_delay p_defaults p_logger]; rewrite H10. cbn [p_identity p_started p_seen p_stale_after p_shape p_zone p_lock_path p_retry p_delay p_defaults p_logger]. subst. reflexivity.
Qed.

(** what a setup accepts and what every option is then *)
Theorem C105_options :
  forall (l : lang) (reg : registry) (fresh : string) (c : oconf) (before after : opts),
    set_options l reg fresh c before = (after, Ok tt) <-> configured l reg fresh c before after.
Proof. exact set_options_iff. Qed.
Print Assumptions C105_options.

Lemma identified_ex l fresh c a : exists b, identified l fresh c a b.
Proof. eexists. apply identified_iff. reflexivity. Qed.
(** the last setup decides: whatever was configured before, only the identity and the shape can be left of it *)
Theorem C105_last_setup_decides :
  forall (l : lang) (reg : registry) (f1 f2 : string) (c : oconf) (o1 o2 n1 : opts),
    set_options l reg f1 c o1 = (n1, Ok tt) ->
    exists n2, set_options l reg f2 c o2 = (n2, Ok tt) /\
      p_started n2 = p_started n1 /\ p_seen n2 = p_seen n1 /\ p_stale_after n2 = p_stale_after n1 /\ p_zone n2 = p_zone n1 /\ p_lock_path n2 = p_lock_path n1 /\
      p_retry n2 = p_retry n1 /\ p_delay n2 = p_delay n1 /\ p_defaults n2 = p_defaults n1 /\ p_logger n2 = p_logger n1 /\
      (~ false_value (asked "identity" ONone c) -> p_identity n2 = p_identity n1) /\
      ((exists v, dget "shape"%string c = Some v) -> p_shape n2 = p_shape n1) /\ (dget "shape"%string c = None -> p_shape n2 = p_shape o2).
Proof.
  intros l reg f1 f2 c o1 o2 n1 H. apply set_options_iff in H. destruct H as [H1 H2 H3 H4 H5 H6 H7 H8 H9 H10 H11].
  destruct (identified_ex l f2 c (p_identity o2)) as (id & ID).
  set (sh := match dget "shape"%string c with Some _ => p_shape n1 | None => p_shape o2 end).
  exists (MkOpts id (p_started n1) (p_seen n1) (p_stale_after n1) sh (p_zone n1) (p_lock_path n1) (p_retry n1) (p_delay n1) (p_defaults n1) (p_logger n1)). split.
  - apply set_options_iff. constructor; cbn [p_identity p_started p_seen p_stale_after p_shape p_zone p_lock_path p_retry p_delay p_defaults p_logger]; auto.
    unfold sh. unfold asked in *. destruct (dget "shape"%string c); [exact H5|constructor].
  - cbn [p_identity p_started p_seen p_stale_after p_shape p_zone p_lock_path p_retry p_delay p_defaults p_logger]. sp; auto.
    + intros N. apply identified_iff in ID, H1. rewrite ID, H1. apply truthy_iff in N. rewrite N. reflexivity.
    + unfold sh. intros (v & ->). reflexivity.
    + unfold sh. intros ->. reflexivity.
Qed.
Print Assumptions C105_last_setup_decides.

(** * Identity over any number of setups, and what a refused setup leaves *)
Definition step_keeps (P : opts -> Prop) (f : opts -> result opts) : Prop := forall o o', P o -> f o = Ok o' -> P o'.
Lemma assign_keeps (P : opts -> Prop) fs : Forall (step_keeps P) fs -> forall o, P o -> P (fst (assign fs o)).
Proof.
  induction 1 as [|f fs K _ IH]; intros o H; cbn [assign]; [exact H|]. destruct (f o) as [o'|x] eqn:E; [|exact H]. apply IH. exact (K o o' H E).
Qed.
Lemma assign_cons f fs o o1 : f o = Ok o1 -> assign (f :: fs) o = assign fs o1.
Proof. intros H. cbn [assign]. rewrite H. reflexivity. Qed.
(** one setup, accepted or refused, gives the identity the configuration asks for and forgets the start *)
Lemma setup_identity l reg fresh c o : let o' := fst (set_options l reg fresh c o) in identified l fresh c (p_identity o) (p_identity o') /\ p_started o' = None /\ p_seen o' = None.
Proof.
  cbv zeta. unfold set_options, steps. erewrite assign_cons by reflexivity.
  apply (assign_keeps (fun x => identified l fresh c (p_identity o) (p_identity x) /\ p_started x = None /\ p_seen x = None)).
  - assert (R : forall f, (forall a b, f a = Ok b -> p_identity b = p_identity a /\ p_started b = p_started a /\ p_seen b = p_seen a) ->
      step_keeps (fun x => identified l fresh c (p_identity o) (p_identity x) /\ p_started x = None /\ p_seen x = None) f).
    { intros f F a b K E. destruct (F a b E) as (-> & -> & ->). exact K. }
    repeat (apply Forall_cons; [apply R; intros a b E; cbv beta zeta in E;
      try (match type of E with (match ?x with Ok _ => _ | Err _ => _ end) = _ => destruct x; [|discriminate E] end); injection E as <-; sp; reflexivity|]). apply Forall_nil.
  - split; [|auto]. apply identified_iff. reflexivity.
Qed.
Theorem C105_identity_kept :
  forall (l : lang) (reg : registry) (cs : list (string * oconf)) (o : opts),
    let o' := fst (setups l reg cs o) in
    (Forall (fun fc => false_value (asked "identity" ONone (snd fc))) cs -> p_identity o <> ""%string -> p_identity o' = p_identity o) /\
    ((forall fc, In fc cs -> fst fc <> ""%string /\ (forall v, ~ false_value v -> as_text l v <> ""%string)) -> (p_identity o <> ""%string \/ cs <> []) -> p_identity o' <> ""%string) /\
    (forall fresh c cs', cs = cs' ++ [(fresh, c)] -> identified l fresh c (p_identity (fst (setups l reg cs' o))) (p_identity o') /\ p_started o' = None /\ p_seen o' = None).
Proof.
  intros l reg cs o. cbv zeta. sp.
  - revert o. induction cs as [|[f c] cs IH]; intros o H N; [reflexivity|]. cbn [setups]. destruct (set_options l reg f c o) as [o1 x] eqn:E. pose proof (setup_identity l reg f c o) as (ID & _). rewrite E in ID. cbn [fst] in ID.
    inversion_clear H as [|? ? F K]. cbn [snd] in F. specialize (IH o1 K). destruct (setups l reg cs o1) as [o2 xs] eqn:E2. cbn [fst] in *.
    assert (A : p_identity o1 = p_identity o). { destruct ID as [[T _]|[_ [[_ A]|[A _]]]]; congruence. }
    rewrite IH; congruence.
  - revert o. induction cs as [|[f c] cs IH]; intros o H N; [destruct N; [auto|congruence]|]. cbn [setups]. destruct (set_options l reg f c o) as [o1 x] eqn:E. pose proof (setup_identity l reg f c o) as (ID & _). rewrite E in ID. cbn [fst] in ID.
    specialize (IH o1). destruct (setups l reg cs o1) as [o2 xs] eqn:E2. cbn [fst] in *. apply IH; [intros fc I; apply H; right; exact I|]. left.
    destruct (H (f, c) (or_introl eq_refl)) as (A & B). cbn [fst] in A. destruct ID as [T|[_ [[T ->]|[T ->]]]]; [|exact T|exact A].
    apply text_iff in T as [T <-]. apply B, truthy_iff, T.
  - intros f c cs' ->. clear. revert o. induction cs' as [|[g d] cs' IH]; intros o.
    + cbn [List.app setups]. pose proof (setup_identity l reg f c o) as K. destruct (set_options l reg f c o) as [o1 x]. exact K.
    + cbn [List.app setups]. destruct (set_options l reg g d o) as [o1 x]. specialize (IH o1). destruct (setups l reg cs' o1) as [u us1]. destruct (setups l reg (cs' ++ [(f, c)]) o1) as [w ws]. exact IH.
Qed.
Print Assumptions C105_identity_kept.

(** a refused setup stops at the first unacceptable option: those before it are as configured, that one and those after it as they were *)
Definition upto (n k : nat) (configured_ untouched unacceptable : Prop) : Prop := ((k < n)%nat -> configured_) /\ ((n <= k)%nat -> untouched) /\ (n = k -> unacceptable).
Record stopped_at (l : lang) (reg : registry) (fresh : string) (c : oconf) (before after : opts) (n : nat) : Prop := MkStopped {
  st_identity : identified l fresh c (p_identity before) (p_identity after) /\ p_started after = None /\ p_seen after = None;
  st_stale : let v := asked "heartbeat_stale_after" (OInt 30) c in upto n 0 (is_seconds l v (p_stale_after after)) (p_stale_after after = p_stale_after before) (forall m, ~ is_seconds l v m);
  st_shape : let v := asked "shape" (OInst (p_shape before)) c in upto n 1 (is_shape reg v (p_shape after)) (p_shape after = p_shape before) (forall s, ~ is_shape reg v s);
  st_zone : let v := asked "timezone" ONone c in upto n 2 (is_zone l v (p_zone after)) (p_zone after = p_zone before) (forall z, ~ is_zone l v z);
  st_lock : ((2 < n)%nat -> is_text l (asked "lock_path" ONone c) (p_lock_path after) \/ (false_value (asked "lock_path" ONone c) /\ p_lock_path after = ""%string)) /\ ((n <= 2)%nat -> p_lock_path after = p_lock_path before);
  st_retry : let v := asked "store_retry_interval" (OInt 10) c in upto n 3 (is_seconds l v (p_retry after)) (p_retry after = p_retry before) (forall m, ~ is_seconds l v m);
  st_delay : forall usual, (p_lock_path after = ""%string /\ usual = 0 \/ p_lock_path after <> ""%string /\ usual = 1) -> let v := asked "startup_delay" (OInt usual) c in
             upto n 4 (is_seconds l v (p_delay after)) (p_delay after = p_delay before) (forall m, ~ is_seconds l v m);
  st_defaults : p_defaults after = p_defaults before /\ (n = 5%nat -> forall d d', asked "task_defaults" ONone c = OMap d \/ false_value (asked "task_defaults" ONone c) /\ d = [] -> ~ are_defaults l d d');
  st_logger : p_logger after = p_logger before }.
(** the exception says what was wrong with the value *)
Definition refusal (n : nat) (before : opts) (c : oconf) (e : exn) : Prop :=
  match n with
  | 0%nat => e = match asked "heartbeat_stale_after" (OInt 30) c with OText _ => ValueError | _ => TypeError end
  | 1%nat => e = match asked "shape" (OInst (p_shape before)) c with OText _ | ONone => LookupError | _ => TypeError end
  | 2%nat => e = match asked "timezone" ONone c with OText _ => KeyError | _ => TypeError end
  | 3%nat => e = match asked "store_retry_interval" (OInt 10) c with OText _ => ValueError | _ => TypeError end
  | 4%nat => e = match asked "startup_delay" ONone c with OText _ => ValueError | _ => TypeError end
  | _ => match asked "task_defaults" ONone c with OMap _ => e = TypeError \/ e = ValueError | _ => e = TypeError end
  end.
Lemma seconds_err l v x : as_seconds l v = Err x -> x = match v with OText _ => ValueError | _ => TypeError end.
Proof. destruct v; cbn; try congruence. destruct (text_seconds l s); congruence. Qed.
Lemma integer_err l v x : as_integer l v = Err x -> x = match v with OText _ => ValueError | _ => TypeError end.
Proof. destruct v; cbn; try congruence. destruct (text_integer l s); congruence. Qed.
Lemma shape_err reg v x : as_shape reg v = Err x -> x = match v with OText _ | ONone => LookupError | _ => TypeError end.
Proof. unfold as_shape. destruct v; cbn [resolve]; unfold get; try congruence; destruct (dget _ reg); congruence. Qed.
Lemma zone_err l v x : as_zone l v = Err x -> x = match v with OText _ => KeyError | _ => TypeError end.
Proof. destruct v; cbn; try congruence. destruct (zone_named l s); congruence. Qed.
Lemma defaults_err l m x : as_defaults l m = Err x -> x = TypeError \/ x = ValueError.
Proof.
  unfold as_defaults. destruct (as_grace l _) as [g|y] eqn:G.
  - destruct (as_integer l _) as [n|y] eqn:E; [discriminate|]. intros [= <-]. apply integer_err in E. destruct (get_or "max_instances" m (OInt 1)); auto.
  - intros [= <-]. unfold as_grace in G. destruct (get_or "mistrigger_grace_time" m (OInt 1)) as [|q|q|q|q|q|q|q|q|q]; try discriminate G;
      match type of G with (match ?a with Ok _ => _ | Err _ => _ end) = _ => destruct a as [?|z] eqn:E; [discriminate G|]; injection G as <-; apply seconds_err in E; auto end.
Qed.
Theorem C105_refused_setup :
  forall (l : lang) (reg : registry) (fresh : string) (c : oconf) (before after : opts) (e : exn),
    set_options l reg fresh c before = (after, Err e) -> exists n, (n < 6)%nat /\ refusal n before c e /\ stopped_at l reg fresh c before after n.
Proof.
  intros l reg fresh c o o' e. pose proof (setup_identity l reg fresh c o) as ID. cbv zeta in ID. destruct (set_options l reg fresh c o) as [o1 r] eqn:E. cbn [fst] in ID. intros [= -> ->]. revert E.
  unfold set_options, steps. cbn [assign]. change (get_or ?k c ?v) with (asked k v c).
  cbn [p_identity p_started p_seen p_stale_after p_shape p_zone p_lock_path p_retry p_delay p_defaults p_logger].
  assert (LP : forall v, v = asked "lock_path" (OText "") c -> (if otruthy v then as_text l v else ""%string) = (if otruthy (asked "lock_path" ONone c) then as_text l (asked "lock_path" ONone c) else ""%string)).
  { intros v ->. unfold asked. destruct (dget "lock_path" c); reflexivity. }
  rewrite (LP _ eq_refl). clear LP. set (lock := if otruthy (asked "lock_path" ONone c) then as_text l (asked "lock_path" ONone c) else ""%string).
  assert (LK : is_text l (asked "lock_path" ONone c) lock \/ (false_value (asked "lock_path" ONone c) /\ lock = ""%string)).
  { unfold lock. rewrite <- !text_iff, <- !falsy. destruct (otruthy (asked "lock_path" ONone c)); intuition congruence. }
  assert (NS : forall v x, as_seconds l v = Err x -> forall m, ~ is_seconds l v m) by (intros v x A m B; apply seconds_iff in B; congruence).
  assert (NH : forall v x, as_shape reg v = Err x -> forall m, ~ is_shape reg v m) by (intros v x A m B; apply shape_iff in B; congruence).
  assert (NZ : forall v x, as_zone l v = Err x -> forall m, ~ is_zone l v m) by (intros v x A m B; apply zone_iff in B; congruence).
  assert (UD : forall x y z : Prop, forall n k, (n < k)%nat -> y -> upto n k x y z) by (intros x y z n k L Y; repeat split; intros; [lia|exact Y|lia]).
  assert (US : forall x y z : Prop, forall k, y -> z -> upto k k x y z) by (intros x y z k Y Z; repeat split; intros; [lia|exact Y|exact Z]).
  assert (UL : forall x y z : Prop, forall n k, (k < n)%nat -> x -> upto n k x y z) by (intros x y z n k L X; repeat split; intros; [exact X|lia|lia]).
  destruct (as_seconds l (asked "heartbeat_stale_after" (OInt 30) c)) as [stale|x] eqn:E1.
  2:{ intros [= <- <-]. exists 0%nat. split; [lia|]. split; [exact (seconds_err _ _ _ E1)|]. constructor; cbn [p_identity p_started p_seen p_stale_after p_shape p_zone p_lock_path p_retry p_delay p_defaults p_logger] in *; cbv zeta; eauto;
      try (intros; apply UD; [lia|reflexivity]). all: split; intros; try lia; reflexivity. }
  cbn [p_identity p_started p_seen p_stale_after p_shape p_zone p_lock_path p_retry p_delay p_defaults p_logger].
  destruct (as_shape reg (asked "shape" (OInst (p_shape o)) c)) as [sh|x] eqn:E2.
  2:{ intros [= <- <-]. exists 1%nat. split; [lia|]. split; [exact (shape_err _ _ _ E2)|]. apply seconds_iff in E1. constructor; cbn [p_identity p_started p_seen p_stale_after p_shape p_zone p_lock_path p_retry p_delay p_defaults p_logger] in *; cbv zeta; eauto;
      try (intros; apply UD; [lia|reflexivity]). all: split; intros; try lia; reflexivity. }
  cbn [p_identity p_started p_seen p_stale_after p_shape p_zone p_lock_path p_retry p_delay p_defaults p_logger].
  destruct (as_zone l (asked "timezone" ONone c)) as [z|x] eqn:E3.
  2:{ intros [= <- <-]. exists 2%nat. split; [lia|]. split; [exact (zone_err _ _ _ E3)|]. apply seconds_iff in E1. apply shape_iff in E2. constructor; cbn [p_identity p_started p_seen p_stale_after p_shape p_zone p_lock_path p_retry p_delay p_defaults p_logger] in *; cbv zeta; eauto;
      try (intros; apply UD; [lia|reflexivity]). all: split; intros; try lia; reflexivity. }
  cbn [p_identity p_started p_seen p_stale_after p_shape p_zone p_lock_path p_retry p_delay p_defaults p_logger].
  destruct (as_seconds l (asked "store_retry_interval" (OInt 10) c)) as [re|x] eqn:E4.
  2:{ intros [= <- <-]. exists 3%nat. split; [lia|]. split; [exact (seconds_err _ _ _ E4)|]. apply seconds_iff in E1. apply shape_iff in E2. apply zone_iff in E3. constructor; cbn [p_identity p_started p_seen p_stale_after p_shape p_zone p_lock_path p_retry p_delay p_defaults p_logger] in *; cbv zeta; eauto;
      try (intros; apply UD; [lia|reflexivity]); try (split; intros; try lia; auto; reflexivity). }
  cbn [p_identity p_started p_seen p_stale_after p_shape p_zone p_lock_path p_retry p_delay p_defaults p_logger].
  destruct (as_seconds l (asked "startup_delay" _ c)) as [de|x] eqn:E5.
  2:{ intros [= <- <-]. exists 4%nat. split; [lia|]. split; [cbn [refusal]; pose proof (seconds_err _ _ _ E5) as Q; unfold asked in Q |- *; destruct (dget "startup_delay"%string c) as [w|]; exact Q|]. apply seconds_iff in E1, E4. apply shape_iff in E2. apply zone_iff in E3. constructor; cbn [p_identity p_started p_seen p_stale_after p_shape p_zone p_lock_path p_retry p_delay p_defaults p_logger] in *; cbv zeta; eauto;
      try (split; intros; try lia; auto; reflexivity).
      all: try (apply UL; [lia|assumption]).
      intros u W. apply US; [reflexivity|]. intros m. apply (NS _ x). rewrite <- E5. do 3 f_equal. destruct (String.eqb_spec lock ""); intuition congruence. }
  cbn [p_identity p_started p_seen p_stale_after p_shape p_zone p_lock_path p_retry p_delay p_defaults p_logger].
  destruct (if otruthy (asked "task_defaults" ONone c) then _ else _) as [d|x] eqn:E6; [intros X; discriminate X|].
  intros [= <- <-]. exists 5%nat. split; [lia|]. split.
  { cbn [refusal]. destruct (asked "task_defaults" ONone c) as [|q|q|q|q|q|q|q|m|q] eqn:V; cbn [otruthy] in E6.
    9:{ destruct m as [|p m]; apply (defaults_err l _ _ E6). }
    all: repeat match type of E6 with context [if ?b then _ else _] => destruct b end; try congruence; exfalso; cbn in E6; discriminate E6. }
 apply seconds_iff in E1, E4, E5. apply shape_iff in E2. apply zone_iff in E3. constructor; cbn [p_identity p_started p_seen p_stale_after p_shape p_zone p_lock_path p_retry p_delay p_defaults p_logger] in *; cbv zeta; eauto;
    try (apply UL; [lia|assumption]).
  - split; intros; [exact LK|lia].
  - intros u W. apply UL; [lia|]. replace u with (if String.eqb lock "" then 0 else 1); [exact E5|]. destruct (String.eqb_spec lock ""); intuition congruence.
  - split; [reflexivity|]. intros _ m d' W A. apply defaults_iff in A. destruct W as [W|[F ->]].
    + rewrite W in E6. destruct m as [|p m]; cbn [otruthy] in E6; congruence.
    + apply falsy in F. rewrite F in E6. congruence.
Qed.
Print Assumptions C105_refused_setup.

(** the task defaults reach the tasks added without options of their own *)
Theorem C105_defaults_reach_tasks :
  forall (l : lang) (reg : registry) (fresh : string) (oc : oconf) (before after : opts) (asked_defaults : oconf) (c : config) (e : envir) (o : add_args) (id : string) (fn : Task.pyval) (s s' : sched) (t : task),
    set_options l reg fresh oc before = (after, Ok tt) -> dget "task_defaults"%string oc = Some (OMap asked_defaults) -> asked_defaults <> [] ->
    reachable c s -> add_function c (p_defaults after) e o id fn s = (s', Ok (Added t)) -> o_coalesce o = None -> o_max o = None -> o_grace o = None -> o_late_ok o = false ->
    exists f ref t', callable_of (c_tenv c) fn f ref /\ described (c_tenv c) (c_self c) (p_defaults after) o (id_of o id) f ref t' /\
      (t_coalesce t' = true <-> is_true (asked "coalesce" (OBool true) asked_defaults)) /\ is_integer l (asked "max_instances" (OInt 1) asked_defaults) (t_max t') /\ 0 < t_max t' /\
      (forall m, is_seconds l (asked "mistrigger_grace_time" (OInt 1) asked_defaults) m -> t_grace t' = Some m) /\
      (if stopped s then get_tasks None s' = get_tasks None s ++ [t'] else stored s' (match o_store o with Some a => a | None => "default"%string end) (id_of o id) = Some t').
Proof.
  intros l reg fresh oc o1 o2 ad c e o id fn s s' t H D NE R A OC OM OG OL. apply set_options_iff in H. destruct H as [_ _ _ _ _ _ _ _ _ (dd & W & DD) _].
  assert (dd = ad) as ->. { unfold asked in W. rewrite D in W. destruct W as [W|[F _]]; [congruence|]. exfalso. unfold false_value in F. cbn [In] in F. repeat destruct F as [F|F]; try discriminate F; try congruence. }
  pose proof (C69_added_as_described c (p_defaults o2) e o id fn s s' _ R A) as (f & ref & t' & CO & DS & GR & PL). exists f, ref, t'.
  split; [exact CO|]. split; [exact DS|]. destruct DS as [_ _ _ _ _ _ DC DM _ _ _]. rewrite OC in DC. rewrite OM in DM. destruct DM as [DM POS]. destruct DD as [AG AC AM]. sp.
  - rewrite DC. apply AC.
  - rewrite DM. exact AM.
  - exact POS.
  - intros m SM. unfold grace_asked in GR. rewrite OG, OL in GR. rewrite GR. inversion AG as [Q|v m' SM' Q].
    + rewrite <- Q in SM. inversion SM.
    + apply seconds_iff in SM, SM'. rewrite SM in SM'. congruence.
  - destruct (stopped s); [exact (proj1 PL)|]. destruct PL as (ON & _). rewrite ON, !String.eqb_refl. reflexivity.
Qed.
Print Assumptions C105_defaults_reach_tasks.

(** a scheduler can be made exactly when the usual Shape is known and the options are acceptable; it is then as configured *)
Theorem C105_created :
  forall (l : lang) (reg : registry) (fresh : string) (c : oconf) (o : opts),
    create l reg fresh c = Ok o <->
    exists before, p_identity before = ""%string /\ dget "pydantic"%string reg = Some (p_shape before) /\ configured l reg fresh c before o.
Proof.
  intros l reg fresh c o. unfold create. split.
  - destruct (as_shape reg ONone) as [s|] eqn:E; [|discriminate]. apply shape_iff in E. destruct (set_options l reg fresh c (unset s)) as [o' [[]|]] eqn:S; [|discriminate]. intros [= ->]. exists (unset s).
    apply set_options_iff in S. inversion E; subst. auto.
  - intros (b & I & D & C). assert (E : as_shape reg ONone = Ok (p_shape b)) by (apply shape_iff; constructor; exact D). rewrite E.
    assert (S : set_options l reg fresh c (unset (p_shape b)) = (o, Ok tt)). { apply set_options_iff. destruct C as [ID]. rewrite I in ID. constructor; auto. }
    rewrite S. reflexivity.
Qed.
Print Assumptions C105_created.
(** without options: the usual ones *)
Theorem C105_usual_options :
  forall (l : lang) (reg : registry) (fresh : string) (s : shape_class),
    dget "pydantic"%string reg = Some s ->
    create l reg fresh [] = Ok (MkOpts fresh None None 30000000 s (local_zone l) "" 10000000 0 (MkDefaults (Some 1000000) true 1) "asyncz.schedulers").
Proof.
  intros l reg fresh s D. unfold create. assert (E : as_shape reg ONone = Ok s) by (apply shape_iff; constructor; exact D). rewrite E. reflexivity.
Qed.
Print Assumptions C105_usual_options.

(** * Cases *)
Definition ex_lang : lang :=
  MkLang (fun s => if String.eqb s "2.5" then Some 2500000 else None) (fun s => if String.eqb s "3" then Some 3 else None) (fun v => match v with OInt 7 => "7"%string | _ => "<object>"%string end)
         (fun s => if String.eqb s "UTC" then Some 1%nat else None) 9%nat.
Definition ex_oconf : oconf :=
  [("lock_path", OText "/tmp/lock"); ("store_retry_interval", OText "2.5"); ("timezone", OText "UTC"); ("logger_name", OInt 7);
   ("task_defaults", OMap [("coalesce", OText " Off "); ("max_instances", OText "3"); ("other", OObj 4)])]%string.
Definition ex_first : opts * result unit := set_options ex_lang builtin "AsyncIOScheduler-0123456789ab" ex_oconf (unset "PydanticShape"%string).
Example C105_case :
  (let (a, r) := ex_first in
   r = Ok tt /\ a = MkOpts "AsyncIOScheduler-0123456789ab" None None 30000000 "PydanticShape"%string 1%nat "/tmp/lock" 2500000 1000000 (MkDefaults (Some 1000000) false 3) "asyncz.schedulers.7") /\
  (let (n, r) := set_options ex_lang builtin "other" [] (fst ex_first) in
   r = Ok tt /\ p_identity n = "AsyncIOScheduler-0123456789ab"%string /\ p_zone n = 9%nat /\ p_lock_path n = ""%string /\ p_delay n = 0 /\ p_defaults n = MkDefaults (Some 1000000) true 1) /\
  (let (n, r) := set_options ex_lang builtin "other" [("identity", OText "worker"); ("store_retry_interval", OText "soon")]%string (fst ex_first) in
   r = Err ValueError /\ p_identity n = "worker"%string /\ p_zone n = 9%nat /\ p_retry n = 2500000).
Proof. vm_compute. auto 20. Qed.
Example C105_reaches_case :
  let (s1, r1) := add_function ex_cfg (p_defaults (fst ex_first)) (quiet (sec 1)) (MkArgs (every 60 None) false None None None None None None None None None None false) "uuid" (Task.VFn ex_fn) ex_state in
  is_ok r1 = true /\ option_map (fun t => (t_grace t, t_coalesce t, t_max t)) (stored s1 "default" "uuid") = Some (Some 1000000, false, 3).
Proof. vm_compute. auto. Qed.
