(** C91: the timeline of upcoming runs. *)
From Verif Require Import Prelude PreludeFacts MemStore StoreSpec MemStoreProofs CallArgs Cron Triggers TriggerSpec TriggersProofs2 Task TaskSpec TaskProofs Scheduler Executor SchedSpec SchedProofs SchedProofs2 SchedReach LifeSpec LifeAcc LifeAll LifeProofs LifeProofs2 PropSched PropLife2 Text SortList Inspect PropInspect Forms FormsSpec PropForms PropForms2 Timeline.
From Coq Require Import Sorting.Sorted Sorting.Permutation.
Open Scope Z_scope.
Ltac sp := repeat match goal with |- _ /\ _ => split end.

(** *** specification *)
(** [l] are the next runs of the task, in order: the first is its next run time or, if it is paused, what its trigger
    answers now; each further one is the trigger's answer to the one before; [rest] is the run after them, if any *)
Definition upcoming (c : config) (now : Z) (t : task) (l : list Z) (rest : option Z) : Prop :=
  exists first, (t_next t = first /\ first <> None \/ t_next t = None /\ exists k, answers (c_fuel c) (c_oracle c) (t_trigger t) now k None = Ok first) /\
    fire_times (fun x m => next_fire c (t_trigger t) x x m) first l rest.
(** no id is in two places (two stores, or twice among the waiting) *)
Definition one_place (s : sched) : Prop := forall id t t', found id None s t -> found id None s t' -> t = t'.
(** the first [n] runs of [t], all of them if there are not so many *)
Definition first_runs (c : config) (now n : Z) (t : task) (l : list Z) (exhausted : bool) : Prop :=
  exists rest, upcoming c now t l rest /\ Z.of_nat (List.length l) <= n /\ match rest with None => exhausted = true | Some _ => exhausted = false /\ Z.of_nat (List.length l) = n end.
Definition earlier_first (l : list row) : Prop := StronglySorted (fun a b => fst a <= fst b) l.

(** *** proofs *)
Lemma listed_found c s t : reachable c s -> In t (get_tasks None s) -> found (t_id t) None s t.
Proof.
  intros R H. apply get_tasks_listed in H. unfold listed_task in H. pose proof (reachable_wf _ _ R) as W. unfold found. destruct (st s) eqn:E.
  - right. split; auto. destruct H as (r & b & H & _). exists r, b. sp; auto.
  - left. split; [discriminate|]. destruct H as (a & x & Hx & _ & H). exists a. split; auto. unfold stored.
    assert (G : dget a (stores s) = Some x) by (apply In_dget; [apply wf_keys; auto|auto]). rewrite G. pose proof (wf_inv _ W a x G) as I.
    apply (content_In t_id t_next (s_mem x) (t_id t) t I). auto.
  - left. split; [discriminate|]. destruct H as (a & x & Hx & _ & H). exists a. split; auto. unfold stored.
    assert (G : dget a (stores s) = Some x) by (apply In_dget; [apply wf_keys; auto|auto]). rewrite G. pose proof (wf_inv _ W a x G) as I.
    apply (content_In t_id t_next (s_mem x) (t_id t) t I). auto.
Qed.
Definition rows_of (descr : trigger -> string) (sh : task * (list Z * bool)) : list row := map (fun x => (x, snapshot descr (fst sh))) (fst (snd sh)).
Lemma gather_spec descr c now n s : reachable c s -> one_place s -> 1 <= n <= 50 -> forall ts, (forall t, In t ts -> In t (get_tasks None s)) ->
  forall rows ex, gather c now n s (map (snapshot descr) ts) = Ok (rows, ex) ->
  exists shown, map fst shown = ts /\ Forall (fun sh => first_runs c now n (fst sh) (fst (snd sh)) (snd (snd sh))) shown /\
    rows = flat_map (rows_of descr) shown /\ ex = List.length (filter (fun sh => snd (snd sh)) shown).
Proof.
  intros R O N. induction ts as [|t ts IH]; intros In_ rows ex; cbn [map gather].
  - intros [= <- <-]. exists []. sp; auto.
  - change (i_id (snapshot descr t)) with (t_id t). destruct (C34_preview c now (t_id t) None n s R) as [_ P]. specialize (P N).
    pose proof (listed_found c s t R (In_ t (or_introl eq_refl))) as Ft. destruct (preview c now (t_id t) None n s) as [[[l b]|]|x]; [..|discriminate]; [|destruct (P t Ft)].
    destruct (gather c now n s (map (snapshot descr) ts)) as [[rows' ex']|x] eqn:G; [|discriminate]. intros [= <- <-].
    destruct (IH ltac:(intros; apply In_; right; auto) _ _ eq_refl) as (shown & E1 & E2 & E3 & E4).
    destruct P as (t' & f & rest & Ft' & F1 & F2 & F3 & F4). rewrite (O _ _ _ Ft' Ft) in *. exists ((t, (l, b)) :: shown). cbn [map fst flat_map filter snd]. sp.
    + rewrite E1; reflexivity.
    + constructor; auto. cbn [fst snd]. exists rest. sp; auto. exists f. auto.
    + rewrite E3. reflexivity.
    + rewrite E4. destruct b; reflexivity.
Qed.
Lemma infos_are_tasks descr s : exists ts, Permutation ts (get_tasks None s) /\
  get_task_infos descr (MkQuery None None None None None "next_run_time" false) s = Ok (map (snapshot descr) ts).
Proof.
  set (q := MkQuery None None None None None "next_run_time" false).
  assert (V : valid_query q) by (split; [cbn; tauto|discriminate]).
  destruct (infos_run descr q s V) as (o & infos & L & E & p & EI & P). rewrite E.
  assert (EI' : infos = map (snapshot descr) (get_tasks None s)).
  { rewrite EI. cbn [q_store q]. assert (A : forall i, p i = true). { intros i. apply P. cbn. unfold wanted_info, typed; cbn. repeat split; intros; try discriminate; destruct H; discriminate. }
    clear -A. induction (map (snapshot descr) (get_tasks None s)) as [|i l IH]; cbn; auto. rewrite A, IH. auto. }
  rewrite EI'. match goal with |- context [isort ?le ?l] => pose proof (isort_perm le l) as PM; set (r := isort le l) in * end.
  clearbody r. apply Permutation_map_inv in PM. destruct PM as (ts & -> & PM). exists ts. split; [symmetry; exact PM|reflexivity].
Qed.
Lemma isort_earlier rows : earlier_first (isort (fun a b : row => fst a <=? fst b) rows).
Proof.
  unfold earlier_first. assert (S := isort_sorted (fun a b : row => fst a <=? fst b) ltac:(intros a b; lia) ltac:(intros a b d; lia) rows).
  induction S as [|x l S IH F]; constructor; auto. apply Forall_impl with (2 := F). intros y. cbn. lia.
Qed.

(** C91.  The timeline is made of the first runs of each task (at most [per_task] of them), all tasks together in the
    order of time, cut after [limit] rows; the counts say how many there were. *)
Theorem C91_timeline :
  forall (descr : trigger -> string) (c : config) (now per_task limit : Z) (s : sched) (tl : timeline),
    reachable c s -> one_place s -> 1 <= per_task <= 50 -> build_timeline descr c now per_task limit s = Ok tl ->
    exists shown : list (task * (list Z * bool)), exists all : list row,
      Permutation (map fst shown) (get_tasks None s) /\
      (forall t l exhausted, In (t, (l, exhausted)) shown -> first_runs c now per_task t l exhausted) /\
      Permutation all (flat_map (fun sh => map (fun x => (x, snapshot descr (fst sh))) (fst (snd sh))) shown) /\ earlier_first all /\
      tl_rows tl = firstn (Z.to_nat limit) all /\ tl_total tl = List.length all /\ tl_returned tl = List.length (tl_rows tl) /\
      tl_tasks tl = List.length (get_tasks None s) /\ tl_exhausted tl = List.length (filter (fun sh => snd (snd sh)) shown).
Proof.
  intros descr c now n lim s tl R O N H. unfold build_timeline in H. destruct (infos_are_tasks descr s) as (ts & PM & E). rewrite E in H.
  destruct (gather c now n s (map (snapshot descr) ts)) as [[rows ex]|x] eqn:G; [|discriminate].
  destruct (gather_spec descr c now n s R O N ts ltac:(intros t I; apply (Permutation_in t PM); auto) rows ex G) as (shown & E1 & E2 & E3 & E4).
  injection H as <-. exists shown, (isort (fun a b : row => fst a <=? fst b) rows). cbn [tl_rows tl_total tl_returned tl_tasks tl_exhausted]. sp; auto.
  - rewrite E1. exact PM.
  - intros t l b I. rewrite Forall_forall in E2. exact (E2 _ I).
  - rewrite <- (f_equal (fun x => x) E3 : rows = flat_map (fun sh => map (fun x => (x, snapshot descr (fst sh))) (fst (snd sh))) shown). apply isort_perm.
  - apply isort_earlier.
  - apply Permutation_length. symmetry. apply isort_perm.
  - rewrite map_length. apply Permutation_length. exact PM.
Qed.
Print Assumptions C91_timeline.

(** nothing is left out *)
Lemma increasing_app l m : increasing (l ++ m) -> forall x y, In x l -> In y m -> x < y.
Proof.
  assert (A : forall l x, increasing (x :: l) -> forall y, In y l -> x < y).
  { clear. induction l as [|z l IH]; intros x I y H; [destruct H|]. destruct I as [L I]. destruct H as [<-|H]; [exact L|]. specialize (IH z I y H). lia. }
  induction l as [|z l IH]; intros I x y Hx Hy; [destruct Hx|]. destruct Hx as [<-|Hx].
  - apply (A (l ++ m) z I). apply in_or_app. auto.
  - apply IH; auto. cbn in I. destruct (l ++ m); [exact Logic.I|apply I].
Qed.
Lemma upcoming_agree c now t l r l' r' : jitter_free (t_trigger t) -> upcoming c now t l r -> upcoming c now t l' r' -> agree l l'.
Proof.
  intros J (f & F1 & F2) (f' & G1 & G2).
  assert (f = f').
  { destruct F1 as [[E N]|[E [k F1]]], G1 as [[E' N']|[E' [k' G1]]]; try congruence.
    unfold answers in F1, G1. rewrite (get_next_oracle _ _ None J _ (sub (c_oracle c) k) now) in G1. congruence. }
  subst f'. eapply fire_times_agree; [|exact F2|exact G2]. intros x n m [k HX] [k' HY]. unfold answers in HX, HY.
  rewrite (get_next_oracle _ _ (Some x) J _ (sub (c_oracle c) k) x) in HY. congruence.
Qed.
Lemma upcoming_increasing c now t l r : fair (c_oracle c) -> forward (t_trigger t) -> upcoming c now t l r -> increasing l.
Proof.
  intros FO FW (f & _ & F). refine (proj1 (fire_times_increasing _ _ _ _ _ F)). intros x u [k H].
  exact (answers_later _ _ _ _ FO FW _ _ _ (Z.le_refl x) H).
Qed.
Lemma fire_times_more (R : Z -> option Z -> Prop) : (forall t n m, R t n -> R t m -> n = m) ->
  forall a l b, fire_times R a l b -> forall y k b', fire_times R a (l ++ y :: k) b' -> b = Some y.
Proof.
  intros D a l b F. induction F as [n|t n l rest HR F IH]; intros y k b' G; cbn in G; [apply fire_times_head in G; auto|].
  inversion G; subst. match goal with HX : R t ?n2, HF : fire_times R ?n2 _ _ |- _ => rewrite (D _ _ _ HX HR) in HF; eauto end.
Qed.
Lemma first_has c now n t l b l' r x : jitter_free (t_trigger t) -> fair (c_oracle c) -> forward (t_trigger t) ->
  first_runs c now n t l b -> upcoming c now t l' r -> In x l' -> In x l \/ n <= Z.of_nat (List.length (filter (fun y => y <? x) l')).
Proof.
  intros J FO FW (rest & U & L & B) U' I. destruct (upcoming_agree _ _ _ _ _ _ _ J U U') as [[k E]|[k E]].
  - left. rewrite E. apply in_or_app. auto.
  - pose proof (upcoming_increasing _ _ _ _ _ FO FW U') as IN. rewrite E in I, IN. apply in_app_or in I. destruct I as [I|I]; auto. right.
    assert (rest <> None).
    { destruct k as [|y k]; [destruct I|]. destruct U as (f & F1 & F2), U' as (f' & G1 & G2).
      assert (f = f').
      { destruct F1 as [[E1 N]|[E1 [j F1]]], G1 as [[E' N']|[E' [j' G1]]]; try congruence.
        unfold answers in F1, G1. rewrite (get_next_oracle _ _ None J _ (sub (c_oracle c) j) now) in G1. congruence. }
      subst f'. subst l'.
      assert (rest = Some y); [|congruence]. refine (fire_times_more _ _ _ _ _ F2 y k _ G2). intros z m m' [j HX] [j' HY]. unfold answers in HX, HY.
      rewrite (get_next_oracle _ _ (Some z) J _ (sub (c_oracle c) j) z) in HY. congruence. }
    destruct rest as [y|]; [|congruence]. destruct B as [_ B]. rewrite <- B. subst l'. rewrite filter_app, app_length.
    assert (E2 : filter (fun y => y <? x) l = l).
    { pose proof (increasing_app _ _ IN) as A. clear -A I. induction l as [|z l IH]; cbn; auto. assert (z <? x = true) as -> by (specialize (A z x (or_introl eq_refl) I); lia).
      rewrite IH; auto. intros; apply A; auto. right; auto. }
    rewrite E2. lia.
Qed.
Lemma sorted_cut (all : list row) n a : earlier_first all -> In a all -> In a (firstn n all) \/ List.length (firstn n all) = n /\ forall r, In r (firstn n all) -> fst r <= fst a.
Proof.
  unfold earlier_first. revert n. induction all as [|z all IH]; intros n SS I; [destruct I|]. inversion SS; subst. destruct n as [|n]; [right; split; [reflexivity|intros r []]|].
  cbn [firstn]. destruct I as [->|I]; [left; left; auto|]. destruct (IH n H1 I) as [J|[L F]]; [left; right; auto|]. right. split; [cbn; rewrite L; auto|].
  intros r [<-|J]; [|auto]. rewrite Forall_forall in H2. apply H2. auto.
Qed.
Theorem C91_nothing_missed :
  forall (descr : trigger -> string) (c : config) (now per_task limit : Z) (s : sched) (tl : timeline) (t : task) (runs : list Z) (rest : option Z) (x : Z),
    reachable c s -> one_place s -> 1 <= per_task <= 50 -> build_timeline descr c now per_task limit s = Ok tl ->
    In t (get_tasks None s) -> jitter_free (t_trigger t) -> forward (t_trigger t) -> fair (c_oracle c) ->
    upcoming c now t runs rest -> In x runs ->
    In (x, snapshot descr t) (tl_rows tl) \/
    List.length (tl_rows tl) = Z.to_nat limit /\ (forall r, In r (tl_rows tl) -> fst r <= x) \/
    per_task <= Z.of_nat (List.length (filter (fun y => y <? x) runs)).
Proof.
  intros descr c now n lim s tl t runs rest x R O N H It J FW FO U Ix.
  destruct (C91_timeline descr c now n lim s tl R O N H) as (shown & all & P1 & P2 & P3 & P4 & E1 & _).
  assert (exists l b, In (t, (l, b)) shown) as (l & b & Ish).
  { apply (Permutation_in t (Permutation_sym P1)) in It. apply in_map_iff in It. destruct It as ([t' [l b]] & <- & It). exists l, b. auto. }
  destruct (first_has c now n t l b runs rest x J FO FW (P2 _ _ _ Ish) U Ix) as [Il|G]; [|auto].
  assert (Ia : In (x, snapshot descr t) all).
  { apply (Permutation_in _ (Permutation_sym P3)). apply in_flat_map. exists (t, (l, b)). split; auto. cbn. apply (in_map (fun x => (x, snapshot descr t))). auto. }
  rewrite E1. destruct (sorted_cut all (Z.to_nat lim) _ P4 Ia) as [G|G]; auto.
Qed.
Print Assumptions C91_nothing_missed.
(** the first row is the next run of all; there is none only when no task has a run *)
Theorem C91_next_run :
  forall (descr : trigger -> string) (c : config) (now per_task limit : Z) (s : sched) (tl : timeline),
    reachable c s -> one_place s -> 1 <= per_task <= 50 -> 1 <= limit -> build_timeline descr c now per_task limit s = Ok tl ->
    match next_run tl with
    | Some (x, i) => exists t l rest, In t (get_tasks None s) /\ i = snapshot descr t /\ upcoming c now t l rest /\ In x l /\
        (forall t' runs' rest' y, In t' (get_tasks None s) -> jitter_free (t_trigger t') -> forward (t_trigger t') -> fair (c_oracle c) ->
           upcoming c now t' runs' rest' -> In y runs' -> x <= y)
    | None => forall t', In t' (get_tasks None s) -> upcoming c now t' [] None
    end.
Proof.
  intros descr c now n lim s tl R O N LI H.
  destruct (C91_timeline descr c now n lim s tl R O N H) as (shown & all & P1 & P2 & P3 & P4 & E1 & _).
  assert (Sh : forall t, In t (get_tasks None s) -> exists l b, In (t, (l, b)) shown).
  { intros t It. apply (Permutation_in t (Permutation_sym P1)) in It. apply in_map_iff in It. destruct It as ([t' [l b]] & <- & It). exists l, b. auto. }
  assert (Al : forall t l b x, In (t, (l, b)) shown -> In x l -> In (x, snapshot descr t) all).
  { intros t l b x Ish Il. apply (Permutation_in _ (Permutation_sym P3)). apply in_flat_map. exists (t, (l, b)). split; auto. cbn. apply (in_map (fun x => (x, snapshot descr t))). auto. }
  unfold next_run. rewrite E1. replace (Z.to_nat lim) with (Datatypes.S (Z.to_nat (lim - 1))) by lia. destruct all as [|[x i] all]; cbn [firstn].
  - intros t It. destruct (Sh t It) as (l & b & Ish). destruct (P2 _ _ _ Ish) as (rest & U & L & B). destruct l as [|x l]; [|destruct (Al _ _ _ x Ish (or_introl eq_refl))].
    destruct rest; [|auto]. destruct B as [_ B]. cbn in B. lia.
  - assert (Ix : In (x, i) ((x, i) :: all)) by (left; auto). apply (Permutation_in _ P3) in Ix. apply in_flat_map in Ix. destruct Ix as ([t [l b]] & Ish & Ix). cbn in Ix.
    apply in_map_iff in Ix. destruct Ix as (y & [= -> <-] & Il). destruct (P2 _ _ _ Ish) as (rest & U & L & B).
    assert (Hd : forall t' l' b' y, In (t', (l', b')) shown -> In y l' -> x <= y).
    { intros t' l' b' y Ish' Iy. inversion P4 as [|? ? _ F]; subst. pose proof (Al _ _ _ _ Ish' Iy) as Ia. destruct Ia as [[= ->]|Ia]; [lia|]. rewrite Forall_forall in F. exact (F _ Ia). }
    exists t, l, rest. sp; auto.
    { apply (Permutation_in t P1). apply in_map_iff. exists (t, (l, b)). auto. }
    intros t' runs' rest' y It' J' FW' FO U' Iy. destruct (Sh t' It') as (l' & b' & Ish'). pose proof (P2 _ _ _ Ish') as FR.
    destruct (first_has c now n t' l' b' runs' rest' y J' FO FW' FR U' Iy) as [Il'|G]; [eauto|].
    destruct runs' as [|h runs']; [destruct Iy|]. assert (x <= h).
    { destruct (first_has c now n t' l' b' (h :: runs') rest' h J' FO FW' FR U' (or_introl eq_refl)) as [Il'|G']; [eauto|]. exfalso.
      pose proof (upcoming_increasing _ _ _ _ _ FO FW' U') as IN. assert (E : filter (fun y => y <? h) (h :: runs') = []); [|rewrite E in G'; cbn in G'; lia].
      cbn. rewrite Z.ltb_irrefl. pose proof (increasing_app [h] runs' IN h) as A. clear -A. induction runs' as [|z m IH]; cbn; auto.
      assert (z <? h = false) as -> by (specialize (A z (or_introl eq_refl) (or_introl eq_refl)); lia). apply IH. intros w Hw Iw. apply A; auto. right; auto. }
    destruct Iy as [<-|Iy]; [lia|]. pose proof (increasing_app [h] runs' (upcoming_increasing _ _ _ _ _ FO FW' U') h y (or_introl eq_refl) Iy). lia.
Qed.
Print Assumptions C91_next_run.
(** the numbers asked for are brought into their bounds; on the page a text that is no number counts as absent *)
Definition nearest (lo hi k n : Z) : Prop := lo <= n <= hi /\ (k <= lo -> n = lo) /\ (hi <= k -> n = hi) /\ (lo <= k <= hi -> n = k).
Definition page_asks (value : option string) (default lo hi n : Z) : Prop :=
  (forall s k, value = Some s -> int_text s k -> nearest lo hi k n) /\
  ((forall s k, value = Some s -> ~ int_text s k) -> n = default).
Lemma bounded_nearest lo hi k : lo <= hi -> nearest lo hi k (bounded k lo hi).
Proof. unfold nearest, bounded. intros; sp; intros; lia. Qed.
Lemma no_int_text k : ~ int_text "" k.
Proof. intros H. apply py_int_iff in H. discriminate. Qed.
Lemma page_number_asks v d lo hi : lo <= d <= hi -> page_asks v d lo hi (page_number v d lo hi).
Proof.
  intros L. assert (B : bounded d lo hi = d) by (unfold bounded; lia). unfold page_asks, page_number. split.
  - intros s k -> I. destruct (String.eqb_spec s ""%string) as [->|N]; [destruct (no_int_text k I)|].
    apply py_int_iff in I. rewrite I. apply bounded_nearest. lia.
  - intros A. destruct v as [s|]; [|auto]. destruct (String.eqb s ""); auto. destruct (py_int s) as [k|] eqn:P; auto. apply py_int_iff in P. destruct (A s k eq_refl P).
Qed.
Theorem C91_bounds :
  forall (descr : trigger -> string) (c : config) (now : Z) (s : sched),
    (forall per_task limit, exists p l, nearest 1 10 per_task p /\ nearest 1 500 limit l /\
       cli_timeline descr c now per_task limit s = build_timeline descr c now p l s) /\
    (forall per_task limit, exists p l, page_asks per_task 3 1 10 p /\ page_asks limit 100 1 500 l /\
       page_timeline descr c now per_task limit s = build_timeline descr c now p l s).
Proof.
  intros descr c now s. split; intros p l; do 2 eexists.
  - split; [apply (bounded_nearest 1 10 p); lia|]. split; [apply (bounded_nearest 1 500 l); lia|reflexivity].
  - split; [apply page_number_asks; lia|]. split; [apply page_number_asks; lia|reflexivity].
Qed.
Print Assumptions C91_bounds.
(** looking changes nothing and fails only when a trigger's answer does *)
Theorem C91_fails :
  forall (descr : trigger -> string) (c : config) (now per_task limit : Z) (s : sched) (x : exn),
    reachable c s -> 1 <= per_task <= 50 -> build_timeline descr c now per_task limit s = Err x ->
    exists t t' y k prev, In t (get_tasks None s) /\ found (t_id t) None s t' /\ answers (c_fuel c) (c_oracle c) (t_trigger t') y k prev = Err x.
Proof.
  intros descr c now n lim s x R N H. unfold build_timeline in H. destruct (infos_are_tasks descr s) as (ts & PM & E). rewrite E in H.
  destruct (gather c now n s (map (snapshot descr) ts)) as [[rows ex]|e] eqn:G; [discriminate|]. injection H as ->.
  assert (A : exists t, In t ts /\ preview c now (t_id t) None n s = Err x).
  { clear PM E. revert G. induction ts as [|t ts IH]; cbn [map gather]; [discriminate|]. change (i_id (snapshot descr t)) with (t_id t).
    destruct (preview c now (t_id t) None n s) as [p|e] eqn:P; [|intros [= ->]; exists t; split; [left|]; auto].
    destruct (gather c now n s (map (snapshot descr) ts)) as [[rows' ex']|e]; [destruct p as [[l b]|]; discriminate|]. intros G. destruct (IH G) as (t' & I & P'). exists t'. split; [right|]; auto. }
  destruct A as (t & I & P). exists t. destruct (C34_preview c now (t_id t) None n s R) as [_ Q]. specialize (Q N). rewrite P in Q.
  destruct Q as (t' & y & k & prev & F & A). exists t', y, k, prev. sp; auto. apply (Permutation_in t PM). auto.
Qed.
Print Assumptions C91_fails.

(** The same id in two stores: the runs of one are shown twice, once with the other's store, and the other's runs are missing. *)
Definition same_id : list (envir * op) :=
  [(quiet 0, OAddStore "db" false); (quiet 0, OStart false);
   (quiet 0, OAddTask (ex_task "a" (every 2 None) "default" 1) false (Some (Some (sec 2))));
   (quiet 0, OAddTask (MkTask "a" "job" (every 5 None) None (Some "default"%string) (Some "db"%string) (Some (sec 1)) false 1 None None (Task.VList []) (Task.VDict []) (Some 0%nat) true false) false (Some (Some (sec 5))))].
Definition same_id_state : sched := run_ops ex_cfg same_id sched_init.
Definition no_descr : trigger -> string := fun _ => ""%string.
Theorem C91_same_id_refuted :
  exists (c : config) (s : sched) (t1 t2 : task) (tl : timeline),
    reachable c s /\ In t1 (get_tasks None s) /\ In t2 (get_tasks None s) /\ t_store t1 = Some "default"%string /\ t_store t2 = Some "db"%string /\
    t_next t1 = Some (sec 2) /\ t_next t2 = Some (sec 5) /\
    build_timeline no_descr c (sec 1) 1 100 s = Ok tl /\ tl_rows tl = [(sec 5, snapshot no_descr t1); (sec 5, snapshot no_descr t2)].
Proof.
  exists ex_cfg, same_id_state.
  destruct (stored same_id_state "default" "a") as [t1|] eqn:E1; [|vm_compute in E1; discriminate].
  destruct (stored same_id_state "db" "a") as [t2|] eqn:E2; [|vm_compute in E2; discriminate].
  destruct (build_timeline no_descr ex_cfg (sec 1) 1 100 same_id_state) as [tl|] eqn:E3; [|vm_compute in E3; discriminate].
  exists t1, t2, tl. split; [exists same_id; reflexivity|].
  vm_compute in E1, E2, E3. injection E1 as <-. injection E2 as <-. injection E3 as <-. vm_compute. sp; auto.
Qed.
Print Assumptions C91_same_id_refuted.
(** A task that is paused is shown with runs it will not have. *)
Definition with_paused : list (envir * op) :=
  [(quiet 0, OStart false);
   (quiet 0, OAddTask (ex_task "a" (every 2 None) "default" 1) false (Some (Some (sec 2))));
   (quiet 0, OAddTask (ex_task "b" (every 3 None) "default" 1) false (Some None));
   (quiet 0, OAddTask (ex_task "c" (TDate (sec 7)) "default" 1) false (Some (Some (sec 7))))].
Example C91_case :
  let s := run_ops ex_cfg with_paused sched_init in
  match build_timeline no_descr ex_cfg (sec 1) 2 4 s with
  | Ok tl => map (fun r => (fst r, i_id (snd r), i_state (snd r))) (tl_rows tl) =
      [(sec 2, "a", SCHEDULED); (sec 3, "b", PAUSED_T); (sec 4, "a", SCHEDULED); (sec 6, "b", PAUSED_T)]%string /\
      tl_total tl = 5%nat /\ tl_returned tl = 4%nat /\ tl_tasks tl = 3%nat /\ tl_exhausted tl = 1%nat
  | Err _ => False
  end.
Proof. vm_compute. sp; reflexivity. Qed.
