(** C49: command-line options. *)
From Verif Require Import Prelude PreludeFacts Text Calendar Cron CronSpec CronParse CronParseSpec PropCronText Triggers Forms FormsSpec PropForms PropForms2 Cli CliSpec.
Open Scope Z_scope.
Ltac sp := repeat match goal with |- _ /\ _ => split end.

Lemma partition_iff c s : match partition c s with (u, Some v) => s = (u ++ String c v)%string /\ free_of c u | (u, None) => u = s /\ free_of c s end.
Proof.
  induction s as [|a s IH]; cbn; [split; auto; intros [|b u] v; discriminate|]. destruct (Ascii.eqb_spec a c) as [->|N]; [split; auto; intros [|b u] v; discriminate|].
  destruct (partition c s) as [u [v|]]; destruct IH as [-> F]; (split; auto); intros [|b w] x [= E]; subst; try congruence; eapply F; eauto.
Qed.
Lemma partition_app c u v : free_of c u -> partition c (u ++ String c v) = (u, Some v).
Proof.
  induction u as [|a u IH]; cbn; intros F; [rewrite Ascii.eqb_refl; auto|]. destruct (Ascii.eqb_spec a c) as [->|N]; [destruct (F ""%string u); auto|].
  rewrite IH; auto. intros x y E. apply (F (String a x) y). cbn. congruence.
Qed.
Lemma partition_free c u : free_of c u -> partition c u = (u, None).
Proof. intros F. pose proof (partition_iff c u) as H. destruct (partition c u) as [x [v|]]; destruct H as [E ?]; [destruct (F _ _ E)|congruence]. Qed.
Lemma trims_iff s core : strip s = core <-> trims s core.
Proof.
  split.
  - intros <-. destruct (strip_split s) as (p & q & P & Q & E). exists p, q. split; auto. split; auto. split; auto. clear. unfold strip.
    assert (A : lstrip s = ""%string \/ exists a u, lstrip s = String a u /\ is_space a = false) by (induction s as [|a s IH]; cbn; auto; destruct (is_space a) eqn:S; eauto).
    destruct A as [->|(a & u & -> & A)]; [left; auto|right]. cbn [rstrip]. split.
    + destruct (rstrip u) as [|b r]; [rewrite A|]; eauto.
    + revert a A. induction u as [|b u IH]; intros a A; cbn [rstrip]; [rewrite A; exists ""%string, a; auto|]. destruct (is_space b) eqn:B.
      * destruct (rstrip u) as [|c r] eqn:R; [rewrite A; exists ""%string, a; auto|]. specialize (IH "x"%char eq_refl). destruct IH as (w & z & E & Z). destruct w as [|y w]; [discriminate|]. injection E as <- E. exists (String a (String b w)), z. rewrite E. auto.
      * destruct (IH b B) as (w & z & E & Z). rewrite B in E. destruct (rstrip u) as [|c r]; rewrite ?B; (exists (String a w), z; split; auto; cbn; rewrite <- E; auto).
  - intros (p & q & P & Q & -> & [->|[A B]]); [rewrite strip_strip by auto; reflexivity|]. apply strip_listed; auto.
Qed.
Lemma says_iff2 core t : trims core core -> core <> ""%string -> says core t <-> lower (strip t) = core.
Proof.
  intros T N. split; [|apply lower_says]. apply trims_iff in T. intros S. apply says_lower; auto; apply trims_iff in T as (p & q & _ & _ & _ & [->|[A B]]); auto; congruence.
Qed.
Ltac known := try (apply trims_iff; reflexivity).

Lemma class_iff w c : class_of w = Some c <-> type_names w c.
Proof.
  unfold class_of. cbn [existsb]. split.
  - destruct (String.eqb_spec w "asyncio") as [->|]; [intros [= <-]; constructor|].
    destruct (String.eqb_spec w "thread") as [->|]; [intros [= <-]; apply tn_thread; cbn; auto|].
    destruct (String.eqb_spec w "threads") as [->|]; [intros [= <-]; apply tn_thread; cbn; auto|].
    destruct (String.eqb_spec w "pool") as [->|]; [intros [= <-]; apply tn_thread; cbn; auto|].
    destruct (String.eqb_spec w "process") as [->|]; [intros [= <-]; apply tn_process; cbn; auto|].
    destruct (String.eqb_spec w "proc") as [->|]; [intros [= <-]; apply tn_process; cbn; auto|].
    destruct (String.eqb_spec w "processpool") as [->|]; [intros [= <-]; apply tn_process; cbn; auto|].
    cbn. destruct (String.eqb_spec w "debug") as [->|]; [intros [= <-]; constructor|discriminate].
  - destruct 1 as [|w [<-|[<-|[<-|[]]]]|w [<-|[<-|[<-|[]]]]|]; reflexivity.
Qed.
Lemma type_known w c : type_names w c -> trims w w /\ w <> ""%string.
Proof. destruct 1 as [|w [<-|[<-|[<-|[]]]]|w [<-|[<-|[<-|[]]]]|]; (split; [known|discriminate]). Qed.
Lemma executor_iff s a c : (exists e w, parse_executor s = Ok (a, (e, w)) /\ class_of e = Some (fst c) /\ w = snd c) <-> executor_option s a c.
Proof.
  split.
  - intros (e & w & H & C & W). unfold parse_executor in H. pose proof (partition_iff "=" s) as P. destruct (partition "=" s) as [al [rhs|]]; [|discriminate]. destruct P as [-> F].
    pose proof (partition_iff ":" rhs) as P2. destruct (partition ":" rhs) as [typ wk]. assert (TS : lower (strip typ) = e -> says e typ /\ type_names e (fst c)) by (intros <-; split; [apply lower_says; auto|apply class_iff; auto]).
    destruct c as [c n]. cbn in *. subst n. destruct wk as [[|k0 k]|].
    + destruct P2 as [-> F2]. injection H as <- <- <-. destruct (TS eq_refl). eapply (eo_plain al typ _ (lower (strip typ)) c ":"); eauto. apply trims_iff; auto.
    + destruct P2 as [-> F2]. destruct (py_int (String k0 k)) as [n|] eqn:I; [|discriminate]. injection H as <- <- <-. destruct (TS eq_refl). eapply (eo_workers al typ); eauto; [apply trims_iff; auto|apply py_int_iff; auto].
    + destruct P2 as [-> F2]. injection H as <- <- <-. destruct (TS eq_refl). rewrite <- (app_nil_s rhs). eapply (eo_plain al rhs _ (lower (strip rhs)) c ""); eauto. apply trims_iff; auto.
  - intros H. destruct H as [a t al w c tail FA FT T N S TL|a t al w c k n FA FT T N S K]; destruct (type_known w c N) as [TK NE]; apply (says_iff2 w t TK NE) in S; apply trims_iff in T; apply class_iff in N; exists w.
    + exists None. split; auto. unfold parse_executor. cbn [append]. rewrite partition_app by auto. destruct TL as [->| ->]; [rewrite app_nil_s, partition_free by auto|change (t ++ ":")%string with (t ++ String ":" "")%string; rewrite partition_app by auto]; rewrite S, T; auto.
    + exists (Some n). split; auto. unfold parse_executor. cbn [append]. rewrite !partition_app by auto. rewrite S, T. apply py_int_iff in K. destruct k as [|k0 k]; [discriminate|]. rewrite K. auto.
Qed.
Lemma store_iff (first : bool) s a c : (exists h, parse_store_option s = Ok (c, h) /\ a = match h with Some (String x y) => String x y | _ => if first then "default"%string else plugin_of c end) <-> store_option first s a c.
Proof.
  assert (SA : forall k, match store_alias k with Some "sqlalchemy"%string => In k ["durable"; "sql"; "sqlite"; "sqlalchemy"]%string | Some "memory"%string => k = "memory"%string | None => ~ In k ["durable"; "sql"; "sqlite"; "sqlalchemy"; "memory"]%string | _ => False end).
  { intros k. unfold store_alias. cbn [existsb]. destruct (String.eqb_spec k "durable"); [cbn; auto|]. destruct (String.eqb_spec k "sql"); [cbn; auto|]. destruct (String.eqb_spec k "sqlite"); [cbn; auto|]. destruct (String.eqb_spec k "sqlalchemy"); [cbn; auto|].
    cbn. destruct (String.eqb_spec k "memory"); auto. intuition congruence. }
  split.
  - intros (h & H & ->). unfold parse_store_option in H. destruct (String.eqb_spec s "") as [->|N]; [injection H as <- <-; apply so_empty|].
    pose proof (partition_iff "=" s) as P. destruct (partition "=" s) as [k [v|]]; destruct P as [E F].
    + specialize (SA (lower (strip k))). destruct (store_alias (lower (strip k))) as [x|]; [|discriminate].
      destruct (String.eqb_spec x "sqlalchemy") as [->|N1]; [|destruct (String.eqb_spec x "memory") as [->|N2]].
      * destruct (strip v) as [|v0 v'] eqn:V; [discriminate|]. injection H as <- <-. subst s. apply trims_iff in V.
        destruct (lower (strip k)) as [|k0 k'] eqn:K; [cbn in SA; intuition discriminate|]. eapply (so_sql first k); eauto; [apply lower_says; auto|discriminate].
      * injection H as <- <-. rewrite SA. subst s. apply so_memory_named; auto. apply lower_says; auto.
      * exfalso. revert SA. clear - N1 N2. repeat (destruct x as [|[[] [] [] [] [] [] [] []] x]; try tauto).
    + subst k. specialize (SA (lower (strip s))). destruct (store_alias (lower (strip s))) as [x|]; [|discriminate].
      destruct (String.eqb_spec x "sqlalchemy") as [->|N1]; [discriminate|destruct (String.eqb_spec x "memory") as [->|N2]].
      * injection H as <- <-. cbn. apply so_memory; auto. apply lower_says; auto.
      * exfalso. revert SA. clear - N1 N2. repeat (destruct x as [|[[] [] [] [] [] [] [] []] x]; try tauto).
  - destruct 1 as [|s S F|k v S F|k w v url I S F T NE].
    + exists None. auto.
    + exists None. apply (says_iff2 "memory") in S; [|known|discriminate]. split; auto. unfold parse_store_option. destruct (String.eqb_spec s "") as [->|]; auto. rewrite partition_free, S; auto.
    + exists (Some "memory"%string). apply (says_iff2 "memory") in S; [|known|discriminate]. split; auto. unfold parse_store_option. destruct (String.eqb_spec (k ++ "=" ++ v) "") as [E|]; [destruct k; discriminate|]. cbn [append]. rewrite partition_app, S by auto. auto.
    + exists (Some w). apply (says_iff2 w) in S; [|destruct I as [<-|[<-|[<-|[<-|[]]]]]; known|destruct I as [<-|[<-|[<-|[<-|[]]]]]; discriminate].
      split; [|destruct I as [<-|[<-|[<-|[<-|[]]]]]; auto]. unfold parse_store_option. destruct (String.eqb_spec (k ++ "=" ++ v) "") as [E|]; [destruct k; discriminate|]. cbn [append]. rewrite partition_app, S by auto. apply trims_iff in T. rewrite T.
      destruct url as [|u0 u]; [congruence|]. destruct I as [<-|[<-|[<-|[<-|[]]]]]; reflexivity.
Qed.

(** *** lists of options *)
Section Entries.
  Context {C : Type}.
  Definition collect (l : list (string * C)) : dict C := fold_left (fun d e => dset (fst e) (snd e) d) l [].
  Lemma collect_snoc l e : collect (l ++ [e]) = dset (fst e) (snd e) (collect l).
  Proof. unfold collect. rewrite fold_left_app. auto. Qed.
  Lemma collect_get l a c : dget a (collect l) = Some c <-> exists l1 l2, l = l1 ++ (a, c) :: l2 /\ ~ In a (map fst l2).
  Proof.
    induction l as [|[b d] l IH] using rev_ind; [split; [discriminate|intros ([|? ?] & l2 & E & _); discriminate]|]. rewrite collect_snoc. cbn [fst snd].
    destruct (String.string_dec a b) as [<-|N].
    - rewrite dget_dset_eq. split; [intros [= ->]; exists l, []; auto|]. intros (l1 & l2 & E & NI). destruct l2 as [|e l2] using rev_ind; [apply app_inj_tail in E as [_ [= ->]]; auto|].
      clear IHl2. rewrite app_comm_cons, app_assoc in E. apply app_inj_tail in E as [_ <-]. destruct NI. rewrite map_app. apply in_app_iff. right. cbn. auto.
    - rewrite dget_dset_ne, IH by auto. split.
      + intros (l1 & l2 & -> & NI). exists l1, (l2 ++ [(b, d)]). rewrite <- app_assoc. split; auto. rewrite map_app, in_app_iff. cbn. intuition congruence.
      + intros (l1 & l2 & E & NI). destruct l2 as [|e l2] using rev_ind; [apply app_inj_tail in E as [_ [= -> ->]]; congruence|]. clear IHl2. rewrite app_comm_cons, app_assoc in E. apply app_inj_tail in E as [-> <-].
        exists l1, l2. split; auto. intros I. apply NI. rewrite map_app, in_app_iff. auto.
  Qed.
  Lemma collect_keys l : first_occurrences (map fst l) (dkeys (collect l)).
  Proof.
    induction l as [|[b d] l IH] using rev_ind; [repeat split; try constructor; auto; intros [|? ?] x r2; discriminate|]. rewrite collect_snoc, map_app. cbn [fst snd map]. destruct IH as (ND & IN & FI).
    destruct (in_dec String.string_dec b (dkeys (collect l))) as [I|NI].
    - rewrite dset_keys_in by auto. split; [auto|split].
      + intros x. rewrite IN, in_app_iff. cbn. split; [auto|]. intros [H|[<-|[]]]; auto. apply IN. auto.
      + intros r1 x r2 E. destruct (FI r1 x r2 E) as (l1 & l2 & -> & H). exists l1, (l2 ++ [b]). rewrite <- app_assoc. auto.
    - rewrite dset_keys_notin by auto. unfold dkeys in *. rewrite map_app. cbn [map fst]. split; [|split].
      + change (NoDup (dkeys (collect l) ++ [b])). eapply Permutation.Permutation_NoDup; [apply Permutation.Permutation_cons_append|]. constructor; auto.
      + intros x. rewrite !in_app_iff, IN. reflexivity.
      + intros r1 x r2 E. destruct r2 as [|y r2] using rev_ind.
        * apply app_inj_tail in E as [<- <-]. exists (map fst l), []. split; auto. intros y. symmetry. apply IN.
        * clear IHr2. rewrite app_comm_cons, app_assoc in E. apply app_inj_tail in E as [E <-]. destruct (FI r1 x r2 E) as (l1 & l2 & EL & H). exists l1, (l2 ++ [b]). rewrite EL, <- app_assoc. auto.
  Qed.
  Lemma collect_entries (means : nat -> string -> string -> C -> Prop) specs out :
    (exists l, List.length l = List.length specs /\ (forall i s a c, nth_error specs i = Some s -> nth_error l i = Some (a, c) -> means i s a c) /\ out = collect l) -> entries_of means specs out.
  Proof. intros (l & L & M & ->). exists l. split; auto. split; auto. split; [apply collect_keys|apply collect_get]. Qed.
  Lemma nth_meaning (P : nat -> string -> string -> C -> Prop) k specs l : List.length l = List.length specs ->
    (forall i s a c, nth_error specs i = Some s -> nth_error l i = Some (a, c) -> P (k + i)%nat s a c) ->
    forall s rest, specs = s :: rest -> exists a c l', l = (a, c) :: l' /\ P k s a c /\ List.length l' = List.length rest /\ forall i s a c, nth_error rest i = Some s -> nth_error l' i = Some (a, c) -> P (Datatypes.S k + i)%nat s a c.
  Proof.
    intros L M s rest ->. destruct l as [|[a c] l]; [discriminate|]. exists a, c, l. cbn in L. injection L as L. split; auto. split; [rewrite <- (Nat.add_0_r k); apply (M 0%nat); auto|]. split; auto.
    intros i t b d H1 H2. replace (Datatypes.S k + i)%nat with (k + Datatypes.S i)%nat by lia. apply (M (Datatypes.S i)); auto.
  Qed.
End Entries.
(** C49.  A list of executor options is accepted exactly when every one is "alias=type" or
    "alias=type:workers"; the result has one entry per alias, with what was written (last) for it. *)
Theorem C49_executors specs :
  (forall out, build_executors_map specs = Ok out -> entries_of (fun _ => executor_option) specs out) /\
  ((exists out, build_executors_map specs = Ok out) <-> forall s, In s specs -> exists a c, executor_option s a c) /\
  (forall e, build_executors_map specs = Err e -> e = ValueError).
Proof.
  unfold build_executors_map.
  assert (G : forall specs l0, (forall out, build_executors_from (collect l0) specs = Ok out -> exists l, List.length l = List.length specs /\ (forall i s a c, nth_error specs i = Some s -> nth_error l i = Some (a, c) -> executor_option s a c) /\ out = collect (l0 ++ l)) /\
     ((forall s, In s specs -> exists a c, executor_option s a c) -> exists out, build_executors_from (collect l0) specs = Ok out) /\
     (forall e, build_executors_from (collect l0) specs = Err e -> e = ValueError)).
  { clear. induction specs as [|s specs IH]; intros l0; cbn [build_executors_from].
    - split; [intros out [= <-]; exists []; rewrite app_nil_r; split; auto; split; auto; intros [|i]; discriminate|]. split; [eauto|discriminate].
    - pose proof (executor_iff s) as X. destruct (parse_executor s) as [[alias [et w]]|e] eqn:P.
      + destruct (class_of et) as [c|] eqn:CO.
        * assert (O : executor_option s alias (c, w)) by (apply X; exists et, w; auto). change (dset alias (c, w) (collect l0)) with (dset (fst (alias, (c, w))) (snd (alias, (c, w))) (collect l0)). rewrite <- collect_snoc.
          destruct (IH (l0 ++ [(alias, (c, w))])) as (A & B & E). split; [|split; [|auto]].
          -- intros out H. destruct (A out H) as (l & L & M & ->). exists ((alias, (c, w)) :: l). cbn. rewrite L, <- app_assoc. split; auto. split; auto. intros [|i] s' a c' H1 H2; cbn in H1, H2; [injection H1 as <-; injection H2 as <- <-; auto|eauto].
          -- intros H. apply B. intros s' I. apply H. right. auto.
        * split; [discriminate|split; [|intros e [= <-]; auto]]. intros H. destruct (H s (or_introl eq_refl)) as (a & c & O). apply X in O as (e & w' & H1 & H2 & _). congruence.
      + split; [discriminate|split].
        * intros H. destruct (H s (or_introl eq_refl)) as (a & c & O). apply X in O as (e' & w' & H1 & _). congruence.
        * intros e' [= <-]. clear - P. unfold parse_executor in P. destruct (partition "=" s) as [al [r|]]; [|congruence]. destruct (partition ":" r) as [t [[|k0 k]|]]; try congruence. destruct (py_int (String k0 k)); congruence. }
  destruct (G specs []) as (A & B & E). cbn [collect fold_left] in *. split; [|split; [split; [|auto]|auto]].
  - intros out H. apply collect_entries. destruct (A out H) as (l & L & M & ->). exists l. auto.
  - intros (out & H) s I. destruct (A out H) as (l & L & M & _). apply In_nth_error in I as (i & I). assert (LT : (i < List.length l)%nat) by (rewrite L; apply nth_error_Some; congruence). apply nth_error_Some in LT.
    destruct (nth_error l i) as [[a c]|] eqn:N; [|congruence]. eauto.
Qed.
(** The same for stores; no option at all stands for one store in memory. *)
Theorem C49_stores specs :
  (forall out, specs <> [] -> build_stores_map specs = Ok out -> entries_of (fun i => store_option (Nat.eqb i 0)) specs out) /\
  ((exists out, build_stores_map specs = Ok out) <-> forall s, In s specs -> exists a c, store_option true s a c) /\
  (forall e, build_stores_map specs = Err e -> e = ValueError) /\
  build_stores_map [] = Ok [("default"%string, CfgMemory)].
Proof.
  assert (FI : forall f1 f2 s a c, store_option f1 s a c -> exists a', store_option f2 s a' c) by (intros f1 f2 s a c [|s' S F|k v S F|k w v url I S F T N]; eexists; constructor; eauto).
  assert (PE : forall s e, parse_store_option s = Err e -> e = ValueError).
  { intros s e. unfold parse_store_option. destruct (String.eqb s ""); [discriminate|].
    assert (Q : forall (x : option string) (v h : option string), match x with Some "sqlalchemy"%string => match v with Some (String a v') => Ok (CfgSql (String a v'), h) | _ => Err ValueError end | Some "memory"%string => Ok (CfgMemory, h) | _ => Err ValueError end = Err e -> e = ValueError).
    { intros [x|] v h; [|congruence]. destruct (String.eqb_spec x "sqlalchemy") as [->|N1]; [destruct v as [[|? ?]|]; congruence|]. destruct (String.eqb_spec x "memory") as [->|N2]; [discriminate|].
      clear - N1 N2. repeat (destruct x as [|[[] [] [] [] [] [] [] []] x]; try congruence). }
    destruct (partition "=" s) as [k [v|]]; [apply (Q _ (Some (strip v)) (Some (lower (strip k))))|apply (Q _ None None)]. }
  assert (G : forall specs l0, (forall out, build_stores_from (Nat.eqb (List.length l0) 0) (collect l0) specs = Ok out -> exists l, List.length l = List.length specs /\ (forall i s a c, nth_error specs i = Some s -> nth_error l i = Some (a, c) -> store_option (Nat.eqb (List.length l0 + i) 0) s a c) /\ out = collect (l0 ++ l)) /\
     ((forall s, In s specs -> exists a c, store_option true s a c) -> exists out, build_stores_from (Nat.eqb (List.length l0) 0) (collect l0) specs = Ok out) /\
     (forall e, build_stores_from (Nat.eqb (List.length l0) 0) (collect l0) specs = Err e -> e = ValueError)).
  { clear specs. induction specs as [|s specs IH]; intros l0; cbn [build_stores_from].
    - split; [intros out [= <-]; exists []; rewrite app_nil_r; split; auto; split; auto; intros [|i]; discriminate|]. split; [eauto|discriminate].
    - pose proof (store_iff (Nat.eqb (List.length l0) 0) s) as X. destruct (parse_store_option s) as [[cfg h]|e] eqn:P.
      + cbv zeta. set (al := match h with Some (String a h') => String a h' | _ => if Nat.eqb (List.length l0) 0 then "default"%string else plugin_of cfg end).
        assert (O : store_option (Nat.eqb (List.length l0) 0) s al cfg) by (apply X; exists h; auto). change (dset al cfg (collect l0)) with (dset (fst (al, cfg)) (snd (al, cfg)) (collect l0)). rewrite <- collect_snoc. clearbody al.
        specialize (IH (l0 ++ [(al, cfg)])). rewrite app_length in IH. cbn [List.length] in IH. replace (Nat.eqb (List.length l0 + 1) 0) with false in IH by (symmetry; apply Nat.eqb_neq; lia). destruct IH as (A & B & E). split; [|split; [|auto]].
        * intros out H. destruct (A out H) as (l & L & M & ->). exists ((al, cfg) :: l). cbn [List.length]. rewrite L, <- app_assoc. split; auto. split; auto. intros [|i] s' a c' H1 H2; cbn in H1, H2; [injection H1 as <-; injection H2 as <- <-; rewrite Nat.add_0_r; auto|].
          specialize (M i s' a c' H1 H2). replace (List.length l0 + Datatypes.S i)%nat with (List.length l0 + 1 + i)%nat by lia. auto.
        * intros H. apply B. intros s' I. apply H. right. auto.
      + split; [discriminate|split; [|intros e' [= <-]; eauto]]. intros H. destruct (H s (or_introl eq_refl)) as (a & c & O). destruct (FI true (Nat.eqb (List.length l0) 0) s a c O) as (a' & O'). apply X in O' as (h & H1 & _). congruence. }
  assert (U : specs <> [] -> build_stores_map specs = build_stores_from true [] specs) by (destruct specs; [congruence|auto]).
  destruct (G specs []) as (A & B & E). cbn [collect fold_left List.length Nat.eqb Nat.add app] in *. split; [|split; [split|split]].
  - intros out N H. rewrite U in H by auto. apply collect_entries. destruct (A out H) as (l & L & M & ->). exists l. auto.
  - intros (out & H) s I. assert (N : specs <> []) by (intros ->; destruct I). rewrite U in H by auto. destruct (A out H) as (l & L & M & _). apply In_nth_error in I as (i & I). assert (LT : (i < List.length l)%nat) by (rewrite L; apply nth_error_Some; congruence). apply nth_error_Some in LT.
    destruct (nth_error l i) as [[a c]|] eqn:NN; [|congruence]. specialize (M i s a c I NN). destruct (FI _ true s a c M) as (a' & O). eauto.
  - intros H. destruct specs as [|s specs']; [cbn; eauto|]. apply B. auto.
  - intros e H. destruct specs as [|s specs']; [discriminate|]. apply E. auto.
  - reflexivity.
Qed.
(** A duration is a number and one of the letters s, m, h in either case. *)
Lemma unit_iff a m : unit_mult a = Some m <-> unit_letter a m.
Proof.
  split; [|destruct 1; reflexivity]. unfold unit_mult. destruct (Ascii.eqb_spec (lower_ascii a) "s") as [E|N1]; [|destruct (Ascii.eqb_spec (lower_ascii a) "m") as [E|N2]; [|destruct (Ascii.eqb_spec (lower_ascii a) "h") as [E|N3]; [|discriminate]]]; intros [= <-];
    destruct a as [[] [] [] [] [] [] [] []]; vm_compute in E; try discriminate; constructor.
Qed.
Theorem C49_duration s : (forall n, parse_interval s = Ok n <-> duration_text s n) /\ (forall e, parse_interval s = Err e -> e = ValueError).
Proof.
  split; [|intros e; unfold parse_interval; destruct (span is_digit (strip s)) as [d r]; destruct (span is_space r) as [b u]; destruct d; [congruence|]; destruct u as [|u [|? ?]]; try congruence; destruct (unit_mult u); [|congruence]; destruct (py_int _); congruence].
  assert (SS : forall b, allc is_space b = true <-> spaces b) by (induction b as [|x b IH]; cbn; [tauto|rewrite andb_true_iff, IH; tauto]).
  assert (PI : forall d, d <> ""%string -> allc is_digit d = true -> py_int d = Some (dec d)).
  { intros d N A. assert (NU : numeral d (dec d)) by (apply numeral_iff; auto). pose proof (py_int_numeral "" d (dec d) "" I I NU) as [H _]. rewrite app_nil_s in H. auto. }
  intros n. split.
  - unfold parse_interval. destruct (strip_split s) as (p & q & P & Q & E). pose proof (span_spec is_digit (strip s)) as D. destruct (span is_digit (strip s)) as [d r]. destruct D as (ED & AD & SD).
    pose proof (span_spec is_space r) as B. destruct (span is_space r) as [b u]. destruct B as (EB & AB & SB). destruct d as [|d0 d]; [discriminate|]. destruct u as [|u [|? ?]]; try discriminate.
    destruct (unit_mult u) as [m|] eqn:UM; [|discriminate]. rewrite PI by (auto; discriminate). intros [= <-]. exists p, (String d0 d), (dec (String d0 d)), b, u, m, q. apply SS in AB. apply unit_iff in UM. sp; auto.
    + apply numeral_iff. split; [discriminate|auto].
    + rewrite E, ED, EB, !app_assoc_s. auto.
  - intros (p & d & k & b & u & m & q & P & B & Q & N & U & -> & ->). destruct (numeral_ends d k N) as ((x & y & -> & X) & _ & AD & ->).
    assert (UP : is_space u = false /\ is_digit u = false) by (destruct U; auto). destruct UP as [US UD].
    assert (ST : strip (p ++ String x y ++ b ++ String u q) = (String x y ++ b ++ String u "")%string).
    { replace (p ++ String x y ++ b ++ String u q)%string with (p ++ (String x y ++ b ++ String u "") ++ q)%string by (rewrite !app_assoc_s; auto).
      apply strip_listed; auto; [exists x, (y ++ b ++ String u "")%string; split; auto; apply digit_plain; auto|]. exists (String x y ++ b)%string, u. rewrite !app_assoc_s. auto. }
    unfold parse_interval. rewrite ST. rewrite (span_app is_digit (String x y) (b ++ String u "") AD).
    + rewrite (span_app is_space b (String u "")); [|apply SS; auto|cbn; auto]. apply unit_iff in U. rewrite U, PI by (auto; discriminate). auto.
    + destruct b as [|b0 b]; cbn; auto. destruct B as [B _]. destruct (is_digit b0) eqn:BD; auto. apply digit_plain in BD. destruct BD. congruence.
Qed.
(** Exactly one of --cron, --interval and --at must be given (an empty value is none), and it decides. *)
Theorem C49_trigger {D} (fromiso : string -> option D) cron interval at_ :
  let empty o := o = None \/ o = Some ""%string in
  (forall t, cli_trigger fromiso cron interval at_ = Ok t <->
     (exists c k, cron = Some c /\ c <> ""%string /\ empty interval /\ empty at_ /\ from_crontab c = Ok k /\ t = GCron k) \/
     (exists s n, empty cron /\ interval = Some s /\ empty at_ /\ duration_text s n /\ t = GInterval (Z.max 1 n * us)) \/
     (exists s d, empty cron /\ empty interval /\ at_ = Some s /\ s <> ""%string /\ fromiso s = Some d /\ t = GDate d)) /\
  (Nat.eqb (List.length (filter given [cron; interval; at_])) 1 = false -> cli_trigger fromiso cron interval at_ = Err ValueError).
Proof.
  intros empty. assert (EM : forall o, empty o <-> given o = false) by (intros [[|a o]|]; cbn; unfold empty; split; intuition congruence).
  split; [|intros H; unfold cli_trigger; rewrite H; auto]. intros t. setoid_rewrite EM. clear EM empty. unfold cli_trigger.
  assert (GS : forall o, given o = true <-> exists s, o = Some s /\ s <> ""%string) by (intros [[|a o]|]; cbn; split; try discriminate; try (intros (s & E & N); congruence); intros; exists (String a o); split; congruence).
  assert (DN : forall n, duration_text "" n -> False) by (intros n (p & d & k & b & u & m & q & _ & _ & _ & _ & _ & E & _); destruct p, d, b; discriminate).
  assert (IV : forall s n, duration_text s n -> interval_of 0 0 0 0 n = Z.max 1 n * us).
  { intros s n (p & d & k & b & u & m & q & _ & _ & _ & N & U & _ & ->). apply numeral_pos in N. assert (0 < m) by (destruct U; lia). unfold interval_of. assert (0 <= k * m) by nia. revert H0. generalize (k * m). intros n Hn. unfold us. destruct (Z.eqb_spec n 0) as [->|]; [reflexivity|]. match goal with |- (if ?x =? 0 then _ else _) = _ => destruct (Z.eqb_spec x 0) end; lia. }
  destruct (given cron) eqn:GC, (given interval) eqn:GI, (given at_) eqn:GA; cbn [filter]; rewrite ?GC, ?GI, ?GA; cbn [List.length Nat.eqb negb];
    try (split; [discriminate|]; intros [(c & k & _ & _ & E1 & E2 & _)|[(s & n & E1 & _ & E2 & _)|(s & d & E1 & E2 & _)]]; discriminate).
  - destruct cron as [[|c0 c]|]; try discriminate. split.
    + destruct (from_crontab (String c0 c)) as [k|e] eqn:F; [|discriminate]. intros [= <-]. left. exists (String c0 c), k. sp; auto. discriminate.
    + intros [(c1 & k & [= <-] & _ & _ & _ & -> & ->)|[(s & n & E1 & _)|(s & d & E1 & _)]]; auto; discriminate.
  - destruct interval as [[|i0 i]|]; try discriminate. assert (E : match cron with Some (String a c) => match from_crontab (String a c) with Ok t => Ok (GCron t) | Err e => Err e end | _ => match parse_interval (String i0 i) with Ok n => Ok (GInterval (interval_of 0 0 0 0 n)) | Err e => Err e end end
      = match parse_interval (String i0 i) with Ok n => Ok (@GInterval D (interval_of 0 0 0 0 n)) | Err e => Err e end) by (destruct cron as [[|? ?]|]; [|discriminate|]; auto). rewrite E. clear E. destruct (C49_duration (String i0 i)) as [X _]. split.
    + destruct (parse_interval (String i0 i)) as [n|e] eqn:F; [|discriminate]. intros [= <-]. assert (F' : duration_text (String i0 i) n) by (apply X; auto). right. left. exists (String i0 i), n. sp; auto. f_equal. eauto.
    + intros [(c1 & k & -> & N & _)|[(s & n & _ & [= <-] & _ & H & ->)|(s & d & _ & E1 & _)]]; [destruct c1; [congruence|discriminate]| |discriminate]. rewrite (proj2 (X n) H). do 2 f_equal. eauto.
  - destruct at_ as [[|a0 a]|]; try discriminate. assert (E : forall A (x y : result A), match cron with Some (String _ _) => x | _ => y end = y) by (intros; destruct cron as [[|? ?]|]; [|discriminate|]; auto).
    assert (E' : forall A (x y : result A), match interval with Some (String _ _) => x | _ => y end = y) by (intros; destruct interval as [[|? ?]|]; [|discriminate|]; auto).
    replace (match cron with Some (String a c) => _ | _ => _ end) with (match fromiso (String a0 a) with Some d => Ok (GDate d) | None => Err ValueError end) by (destruct cron as [[|? ?]|]; [|discriminate|]; (destruct interval as [[|? ?]|]; [|discriminate|]; auto)).
    split.
    + destruct (fromiso (String a0 a)) as [d|] eqn:F; [|discriminate]. intros [= <-]. right. right. exists (String a0 a), d. sp; auto. discriminate.
    + intros [(c1 & k & -> & N & _)|[(s & n & _ & -> & _ & H & _)|(s & d & _ & _ & [= <-] & _ & -> & ->)]]; auto; [destruct c1; [congruence|discriminate]|destruct s; [destruct (DN n H)|discriminate]].
  - split; [discriminate|]. intros [(c1 & k & -> & N & _)|[(s & n & _ & -> & _ & H & _)|(s & d & _ & _ & -> & N & _)]]; [destruct c1; [congruence|discriminate]|destruct s; [destruct (DN n H)|discriminate]|destruct s; [congruence|discriminate]].
Qed.
(** --watch: a reload is asked for exactly when a watched file has another modification time than at the
    last look, or is missing; the times seen are remembered, so an unchanged set of files asks only once. *)
Theorem C49_watch {M} (eqb : M -> M -> bool) stat targets : (forall a b, eqb a b = true <-> a = b) ->
  (fst (changed eqb stat targets) = true <-> exists p m, In (p, m) targets /\ stat p <> Some m) /\
  snd (changed eqb stat targets) = map (fun t => (fst t, match stat (fst t) with Some m => m | None => snd t end)) targets /\
  ((forall p m, In (p, m) targets -> stat p <> None) -> fst (changed eqb stat (snd (changed eqb stat targets))) = false).
Proof.
  intros EQ. assert (A : forall l, (fst (changed eqb stat l) = true <-> exists p m, In (p, m) l /\ stat p <> Some m) /\ snd (changed eqb stat l) = map (fun t => (fst t, match stat (fst t) with Some m => m | None => snd t end)) l).
  { induction l as [|[p m] l [IH1 IH2]]; [cbn; split; [split; [discriminate|intros (p & m & [] & _)]|auto]|]. cbn [changed map fst snd]. destruct (changed eqb stat l) as [c l']. cbn [fst snd] in *. destruct (stat p) as [m'|] eqn:S.
    - destruct (eqb m m') eqn:E; cbn [fst snd].
      + apply EQ in E as <-. rewrite IH2. split; [|auto]. rewrite IH1. split; [intros (q & k & I & N); exists q, k; split; [right; auto|auto]|]. intros (q & k & [[= <- <-]|I] & N); [congruence|eauto].
      + rewrite IH2. split; [|auto]. split; auto. intros _. exists p, m. split; [left; auto|]. rewrite S. intros [= ->]. assert (eqb m m = true) by (apply EQ; auto). congruence.
    - cbn [fst snd]. rewrite IH2. split; [|auto]. split; auto. intros _. exists p, m. split; [left; auto|]. congruence. }
  split; [apply A|]. split; [apply A|]. intros H. destruct (A (snd (changed eqb stat targets))) as [B _]. destruct (fst (changed eqb stat (snd (changed eqb stat targets)))); auto. destruct (proj1 B eq_refl) as (p & m & I & N). destruct (A targets) as [_ E]. rewrite E in I.
  apply in_map_iff in I as ((q & k) & [= <- <-] & I). specialize (H q k I). cbn in N. destruct (stat q); congruence.
Qed.
Example C49_example :
  build_executors_map ["default=asyncio"; " cpu = Process : 4"; "cpu=thread:"]%string = Ok [("default", (AsyncIOExecutor, None)); ("cpu", (ThreadPoolExecutor, None))]%string /\
  build_stores_map ["memory"; " Durable = sqlite:///a=b.db "]%string = Ok [("default", CfgMemory); ("durable", CfgSql "sqlite:///a=b.db")]%string /\
  build_stores_map ["durable"]%string = Err ValueError /\ parse_interval " 10 M " = Ok 600 /\ parse_interval "-1s" = Err ValueError /\
  fst (changed Z.eqb (fun p => if String.eqb p "a" then Some 2 else None) [("a", 2)]%string) = false.
Proof. repeat split; reflexivity. Qed.
