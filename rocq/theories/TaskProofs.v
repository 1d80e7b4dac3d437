From Verif Require Import Prelude PreludeFacts CallArgs CallArgsProofs Cron CronSpec Triggers TriggerSpec TriggersProofs TriggersProofs2 Task TaskSpec.
Open Scope Z_scope.

(** * run times *)
Lemma last_opt_cons {A} (x : A) l : last_opt (x :: l) = Some (match last_opt l with Some y => y | None => x end).
Proof.
  unfold last_opt. cbn. destruct (rev l) as [|y r] eqn:E; reflexivity.
Qed.
Lemma last_opt_nil {A} (l : list A) : last_opt l = None <-> l = [].
Proof. destruct l; [split; auto|]. rewrite last_opt_cons. split; discriminate. Qed.
Lemma last_opt_app {A} (l : list A) x : last_opt (l ++ [x]) = Some x.
Proof. unfold last_opt. rewrite rev_app_distr. reflexivity. Qed.
Lemma last_opt_In {A} (l : list A) x : last_opt l = Some x -> In x l.
Proof. unfold last_opt. intros H. apply in_rev. destruct (rev l); [discriminate|]. injection H as ->. left. reflexivity. Qed.

(** generic: whatever the answers *)
Lemma grt_spec gn now (R : Z -> option Z -> Prop) : (forall k t n, t <= now -> gn k (Some t) = Ok n -> R t n) ->
  forall fuel k next l k', grt fuel gn k next now = Ok (l, k') ->
  exists rest, fire_times R next l rest /\ Forall (fun t => t <= now) l /\ after_instant now rest.
Proof.
  intros HR. induction fuel as [|fuel IH]; intros k next l k' H; cbn in H.
  - destruct next as [t|].
    + destruct (Z.leb_spec t now); [discriminate|]. injection H as <- <-. exists (Some t). repeat split; [constructor|constructor|].
      intros x [= <-]. lia.
    + injection H as <- <-. exists None. repeat split; [constructor|constructor|]. intros x [=].
  - destruct next as [t|].
    + destruct (Z.leb_spec t now) as [L|L].
      * destruct (gn k (Some t)) as [n|] eqn:G; [|discriminate].
        destruct (grt fuel gn (S k) n now) as [[l1 k1]|] eqn:E; [|discriminate]. injection H as <- <-.
        destruct (IH _ _ _ _ E) as (rest & F & A & B). exists rest. split; [|split; auto].
        econstructor; [eapply HR; eauto|exact F].
      * injection H as <- <-. exists (Some t). repeat split; [constructor|constructor|]. intros x [= <-]. lia.
    + injection H as <- <-. exists None. repeat split; [constructor|constructor|]. intros x [=].
Qed.

(** the answer after the last element is what is left *)
Lemma fire_times_last R n l rest x : fire_times R n l rest -> last_opt l = Some x -> R x rest.
Proof.
  intros F. revert x. induction F as [|t n l rest HR F IH]; intros x; [discriminate|].
  rewrite last_opt_cons. intros [= <-]. destruct (last_opt l) as [y|] eqn:E; [apply IH; reflexivity|].
  apply last_opt_nil in E. subst. inversion F. subst. exact HR.
Qed.
Lemma fire_times_app R a l b m c : fire_times R a l b -> fire_times R b m c -> fire_times R a (l ++ m) c.
Proof. intros F G. induction F; [exact G|]. cbn. econstructor; eauto. Qed.
Lemma fire_times_head R n t l rest : fire_times R n (t :: l) rest -> n = Some t.
Proof. inversion 1. reflexivity. Qed.

Lemma answer_after_of fuel tr : jitter_free tr -> forall o now t n, t <= now ->
  get_next fuel tr (Some t) o now = Ok n -> answer_after fuel tr t n.
Proof.
  intros J o now t n L H o' now' L'. rewrite (get_next_oracle fuel tr (Some t) J o' o now').
  rewrite (get_next_now_irrelevant fuel tr t now' now L' L). exact H.
Qed.
Lemma answer_after_det fuel tr t n m : answer_after fuel tr t n -> answer_after fuel tr t m -> n = m.
Proof. intros A B. specialize (A (fun _ _ => 0) t (Z.le_refl t)). specialize (B (fun _ _ => 0) t (Z.le_refl t)). congruence. Qed.

Lemma fire_times_det (R : Z -> option Z -> Prop) : (forall t n m, R t n -> R t m -> n = m) ->
  forall a l b, fire_times R a l b -> forall l' b', List.length l = List.length l' -> fire_times R a l' b' -> l = l' /\ b = b'.
Proof.
  intros D a l b F. induction F as [|t n l rest HR F IH]; intros l' b' L G.
  - destruct l'; [|discriminate]. inversion G. auto.
  - destruct l' as [|t' l']; [discriminate|]. inversion G; subst. rewrite (D _ _ _ H2 HR) in H4.
    injection L as L. destruct (IH _ _ L H4). subst. auto.
Qed.

(** C13, one wake-up *)
Theorem run_times_exact fuel o k t now l k' : jitter_free (t_trigger t) ->
  get_run_times fuel o k t now = Ok (l, k') ->
  exists rest, fire_times (answer_after fuel (t_trigger t)) (t_next t) l rest /\ Forall (fun x => x <= now) l /\ after_instant now rest.
Proof.
  intros J H. eapply grt_spec; [|exact H]. intros i x n L E. eapply answer_after_of; eauto.
Qed.

Lemma wake_exact fuel o k t now l n k' : jitter_free (t_trigger t) -> wake fuel o k t now = Ok (l, n, k') ->
  fire_times (answer_after fuel (t_trigger t)) (t_next t) l n /\ Forall (fun x => x <= now) l /\ after_instant now n.
Proof.
  intros J. unfold wake. destruct (get_run_times fuel o k t now) as [[l1 k1]|] eqn:E; [|discriminate].
  destruct (run_times_exact _ _ _ _ _ _ _ J E) as (rest & F & A & B).
  destruct (last_opt l1) as [x|] eqn:L.
  - unfold answers. destruct (get_next fuel (t_trigger t) (Some x) (sub o k1) now) as [m|] eqn:G; [|discriminate].
    intros [= <- <- <-]. assert (Hx : x <= now) by (rewrite Forall_forall in A; apply A, last_opt_In, L).
    pose proof (answer_after_of _ _ J _ _ _ _ Hx G) as HA.
    pose proof (fire_times_last _ _ _ _ _ F L) as HB. rewrite <- (answer_after_det _ _ _ _ _ HB HA). auto.
  - intros [= <- <- <-]. apply last_opt_nil in L. subst l1. inversion F; subst. auto.
Qed.

Lemma set_next_trigger n t : t_trigger (set_next n t) = t_trigger t. Proof. reflexivity. Qed.
Lemma set_next_next n t : t_next (set_next n t) = n. Proof. reflexivity. Qed.

Lemma wakes_exact fuel o tr : jitter_free tr -> forall nows k t ls n, t_trigger t = tr -> non_decreasing nows ->
  wakes fuel o k t nows = Ok (ls, n) ->
  fire_times (answer_after fuel tr) (t_next t) (List.concat ls) n /\
  (forall H, last_opt nows = Some H -> Forall (fun x => x <= H) (List.concat ls) /\ after_instant H n).
Proof.
  intros J. induction nows as [|now nows IH]; intros k t ls n T ND H; cbn in H.
  - injection H as <- <-. cbn. split; [constructor|]. intros H E. discriminate E.
  - destruct (wake fuel o k t now) as [[[l n1] k1]|] eqn:W; [|discriminate].
    destruct (wakes fuel o k1 (set_next n1 t) nows) as [[ls1 n2]|] eqn:Ws; [|discriminate]. injection H as <- <-.
    rewrite <- T in J. destruct (wake_exact _ _ _ _ _ _ _ _ J W) as (F & A & B). rewrite T in F.
    assert (ND' : non_decreasing nows) by (destruct nows; cbn in *; tauto).
    destruct (IH _ (set_next n1 t) _ _ T ND' Ws) as (G & C).
    cbn [List.concat]. split; [eapply fire_times_app; [exact F|exact G]|].
    intros H E. rewrite last_opt_cons in E. destruct nows as [|now2 nows].
    + cbn in E. injection E as <-. cbn in Ws. injection Ws as <- <-. cbn. rewrite app_nil_r. auto.
    + destruct (last_opt (now2 :: nows)) as [y|] eqn:L; [|apply last_opt_nil in L; discriminate].
      injection E as <-. destruct (C _ eq_refl) as [C1 C2]. split; [|exact C2].
      apply Forall_app. split; [|exact C1].
      assert (Hle : now <= y).
      { clear - ND L. revert now now2 y ND L. induction nows as [|a nows IH]; intros now now2 y ND L.
        - cbn in L. injection L as <-. cbn in ND. lia.
        - rewrite last_opt_cons in L. destruct ND as [N1 N2].
          destruct (last_opt (a :: nows)) as [z|] eqn:E; [|apply last_opt_nil in E; discriminate].
          injection L as <-. specialize (IH now2 a z N2 E). lia. }
      eapply Forall_impl; [|exact A]. cbn. intros; lia.
Qed.

(** termination *)
Lemma grt_terminates gn now : (forall k t n, t <= now -> gn k (Some t) = Ok n -> match n with Some u => t < u | None => True end) ->
  forall fuel k next, (match next with Some t => Z.to_nat (now - t + 1) | None => 0%nat end <= fuel)%nat ->
  (forall i t, t <= now -> exists n, gn i (Some t) = Ok n) ->
  exists l k', grt fuel gn k next now = Ok (l, k').
Proof.
  intros HP. induction fuel as [|fuel IH]; intros k next L HT; cbn.
  - destruct next as [t|]; [|eauto]. destruct (Z.leb_spec t now); [lia|eauto].
  - destruct next as [t|]; [|eauto]. destruct (Z.leb_spec t now) as [Hle|Hle]; [|eauto].
    destruct (HT k t Hle) as [n G]. rewrite G. destruct (IH (S k) n) as (l & k' & E); auto.
    + destruct n as [u|]; [|lia]. specialize (HP _ _ _ Hle G). cbn in HP. lia.
    + rewrite E. eauto.
Qed.

Theorem run_times_terminates fuel o k t now : fair o -> forward (t_trigger t) ->
  (forall i x, x <= now -> exists n, get_next fuel (t_trigger t) (Some x) (sub o i) now = Ok n) ->
  (match t_next t with Some x => Z.to_nat (now - x + 1) | None => 0%nat end <= fuel)%nat ->
  exists l k', get_run_times fuel o k t now = Ok (l, k').
Proof.
  intros FO FW HT L. unfold get_run_times. apply grt_terminates; auto.
  intros i x n Hle G. destruct n as [u|]; [|exact I]. unfold answers in G.
  eapply get_next_progress; [exact FW| |exact Hle|exact G].
  intros p j Hj. unfold sub. apply FO. exact Hj.
Qed.


Lemma fire_times_increasing (R : Z -> option Z -> Prop) : (forall t u, R t (Some u) -> t < u) ->
  forall a l b, fire_times R a l b -> increasing l /\ (forall x, last_opt l = Some x -> forall u, b = Some u -> x < u).
Proof.
  intros HR a l b F. induction F as [|t n l rest H F [IH1 IH2]]; [split; [exact I|discriminate]|]. split.
  - destruct l as [|u l]; [exact I|]. pose proof (fire_times_head _ _ _ _ _ F). subst. cbn. split; auto.
  - intros x. rewrite last_opt_cons. intros [= <-] u E. destruct (last_opt l) as [y|] eqn:L; [eapply IH2; eauto|].
    apply last_opt_nil in L. subst l. inversion F; subst. apply HR. exact H.
Qed.

(** the loops never run backwards, jitter or not *)
Theorem run_times_increasing fuel o k t now l k' : fair o -> forward (t_trigger t) ->
  get_run_times fuel o k t now = Ok (l, k') -> increasing l.
Proof.
  intros FO FW H.
  assert (HR : forall i x n, x <= now -> answers fuel o (t_trigger t) now i (Some x) = Ok n -> match n with Some u => x < u | None => True end).
  { intros i x n Hle G. destruct n as [u|]; [|exact I]. unfold answers in G.
    eapply get_next_progress; [exact FW| |exact Hle|exact G].
    intros p j Hj; unfold sub; apply FO; exact Hj. }
  destruct (grt_spec _ now (fun a n => match n with Some u => a < u | None => True end) HR _ _ _ _ _ H) as (rest & F & _).
  destruct (fire_times_increasing _ (fun a u h => h) _ _ _ F) as [X _]. exact X.
Qed.

(** C14 *)
Theorem coalesce_spec c l sub n : l <> [] -> coalesce_run_times c l = (sub, n) ->
  (c = true -> exists x, sub = [x] /\ l = removelast l ++ [x] /\ n = List.length (removelast l)) /\
  (c = false -> sub = l /\ n = 0%nat).
Proof.
  intros Hl. unfold coalesce_run_times. destruct c; intros H; (split; [intros HC|intros HC]); try discriminate.
  - destruct (exists_last Hl) as (l1 & x & ->). rewrite last_opt_app in H. injection H as <- <-.
    exists x. rewrite removelast_last, app_length. cbn. repeat split; auto. lia.
  - injection H as <- <-. auto.
Qed.

(** * C23 *)
Lemma bind_ok {A B} (r : result A) (f : A -> result B) b : bind r f = Ok b -> exists a, r = Ok a /\ f a = Ok b.
Proof. destruct r; [|discriminate]. eauto. Qed.

Lemma ddel2_get k (ups : dict pyval) : k <> "args"%string -> k <> "kwargs"%string ->
  dget k (ddel "kwargs" (ddel "args" ups)) = dget k ups.
Proof. intros A B. rewrite dget_ddel_ne, dget_ddel_ne; auto. Qed.

Lemma touches_dec fn ups : truthy fn || dmem "args" ups || dmem "kwargs" ups = true <-> touches_call fn ups.
Proof.
  unfold touches_call, given. rewrite !orb_true_iff, !dmem_true. tauto.
Qed.

Definition fn_block_post env t fn ups af (ups' : dict pyval) : Prop :=
  (~ touches_call fn ups /\ af = None /\ ups' = ups) \/
  (touches_call fn ups /\ exists c r a kw, af = Some (c, r, a, kw) /\ new_callable env t fn c r /\
     value_or "args" ups (t_args t) a /\ value_or "kwargs" ups (t_kwargs t) kw /\ fits c a kw /\
     (forall k, k <> "args"%string -> k <> "kwargs"%string -> k <> "name"%string -> dget k ups' = dget k ups) /\
     dget "args" ups' = None /\ dget "kwargs" ups' = None /\
     (dget "name" ups' = dget "name" ups \/
      ((dget "name" ups = None \/ dget "name" ups = Some VNone) /\ t_name t = ""%string /\
       exists cc, c = Some cc /\ dget "name" ups' = Some (VStr (c_name cc))))).

Lemma fn_block_spec env t fn ups af ups' : fn_block env t fn ups = Ok (af, ups') -> fn_block_post env t fn ups af ups'.
Proof.
  unfold fn_block, fn_block_post. destruct (truthy fn || dmem "args" ups || dmem "kwargs" ups) eqn:T.
  2:{ intros [= <- <-]. left. split; [|auto]. rewrite <- touches_dec. congruence. }
  apply touches_dec in T. intros H. right. split; [exact T|].
  set (a := match dget "args" ups with Some v => v | None => t_args t end) in *.
  set (kw := match dget "kwargs" ups with Some v => v | None => t_kwargs t end) in *.
  set (u1 := ddel "kwargs" (ddel "args" ups)) in *.
  set (f1 := if truthy fn then fn else match t_fn t with Some c => VFn c | None => VNone end) in *.
  destruct (match f1 with VNone => Ok (None, None) | VStr s => match resolve env s with Ok c => Ok (Some c, Some s) | Err e => Err e end
            | VFn c => Ok (Some c, c_ref c) | _ => Err TypeError end) as [[c r]|e] eqn:R; [|discriminate].
  assert (NC : new_callable env t fn c r).
  { unfold new_callable. subst f1. destruct (truthy fn) eqn:TF.
    - destruct fn; cbn in TF; try discriminate R; try discriminate TF.
      + destruct (resolve env s) as [cc|] eqn:RE; [|discriminate]. injection R as <- <-. exists cc. auto.
      + injection R as <- <-. auto.
    - destruct (t_fn t); injection R as <- <-; auto. }
  set (u2 := match c with Some c0 => _ | None => u1 end) in *.
  destruct (arg_count a) as [n|] eqn:AC; [|discriminate].
  destruct (kwarg_names kw) as [ks|] eqn:KC; [|discriminate].
  assert (HH : af = Some (c, r, a, kw) /\ ups' = u2 /\ fits c a kw).
  { destruct c as [cc|].
    - destruct (check_callable_args (c_sig cc) n ks) as [[]|] eqn:CK; [|discriminate]. injection H as <- <-.
      split; [auto|split; [auto|]]. exists n, ks. split; [exact AC|split; [exact KC|]]. intros c0 [= <-] S ND. apply check_sound; auto.
    - injection H as <- <-. split; [auto|split; [auto|]]. exists n, ks. split; [exact AC|split; [exact KC|]]. discriminate. }
  destruct HH as (-> & -> & FT). exists c, r, a, kw. split; [reflexivity|]. split; [exact NC|].
  split; [|split; [|split; [exact FT|]]].
  - unfold value_or, given, not_given, a. destruct (dget "args" ups); auto.
  - unfold value_or, given, not_given, kw. destruct (dget "kwargs" ups); auto.
  - assert (G1 : forall k, k <> "args"%string -> k <> "kwargs"%string -> dget k u1 = dget k ups) by (intros; apply ddel2_get; auto).
    assert (GA : dget "args" u1 = None) by (unfold u1; rewrite dget_ddel_ne by discriminate; apply dget_ddel_eq).
    assert (GK : dget "kwargs" u1 = None) by (apply dget_ddel_eq).
    unfold u2. destruct c as [cc|].
    + destruct (String.eqb_spec (t_name t) "") as [EN|EN]; cbn [andb].
      * destruct (match dget "name" u1 with None | Some VNone => true | _ => false end) eqn:M.
        -- rewrite dget_dset_eq, !dget_dset_ne by discriminate. split; [intros; rewrite dget_dset_ne by auto; auto|].
           repeat split; auto. right. split; [|split; [exact EN|eauto]]. rewrite <- (G1 "name"%string) by discriminate.
           destruct (dget "name" u1) as [[]|]; auto; discriminate.
        -- repeat split; auto. left. apply G1; discriminate.
      * repeat split; auto. left. apply G1; discriminate.
    + repeat split; auto. left. apply G1; discriminate.
Qed.

Lemma to_known k : In k known_keys -> In k modifiable.
Proof. intros H. right; right. exact H. Qed.

Theorem update_spec env t sched fn ups t' r : NoDup (dkeys ups) -> update_task env t sched fn ups = (t', r) ->
  match r with
  | Ok _ => applied env t sched fn ups t'
  | Err _ => t' = t
  end.
Proof.
  intros ND. unfold update_task. destruct (validate env t sched fn ups) as [a|e] eqn:V; [|intros [= <- <-]; reflexivity].
  intros [= <- <-]. unfold validate in V.
  apply bind_ok in V. destruct V as (s & HS & V).
  assert (Hs : s = sched /\ (forall x, sched = Some x -> t_sched t = None \/ t_sched t = Some x)).
  { destruct sched as [x|]; [|injection HS as <-; split; [auto|discriminate]].
    destruct (t_sched t) as [y|]; [|injection HS as <-; split; auto].
    destruct (Nat.eqb_spec x y); [|discriminate]. injection HS as <-. subst. split; auto. }
  destruct Hs as [-> Hs].
  destruct (dmem "id" ups) eqn:HI; [discriminate|]. apply dmem_false in HI.
  apply bind_ok in V. destruct V as ([af u] & HF & V). apply fn_block_spec in HF.
  apply bind_ok in V. destruct V as (name & Hn & V).
  apply bind_ok in V. destruct V as (gr & Hg & V).
  apply bind_ok in V. destruct V as (co & Hc & V).
  apply bind_ok in V. destruct V as (st & Hst & V).
  apply bind_ok in V. destruct V as (mx & Hm & V).
  apply bind_ok in V. destruct V as (tr & Ht & V).
  apply bind_ok in V. destruct V as (ex & Hex & V).
  apply bind_ok in V. destruct V as (nx & Hnx & V).
  destruct (existsb _ u) eqn:K; [discriminate|]. injection V as <-.
  assert (Ksub : forall k v, dget k u = Some v -> In k known_keys).
  { intros k v G. apply dget_In in G. destruct (mem k known_keys) eqn:M; [apply mem_In, M|].
    enough (X : existsb (fun kv : string * pyval => negb (mem (fst kv) known_keys)) u = true) by congruence.
    apply existsb_exists. exists (k, v). split; [exact G|]. cbn [fst]. rewrite M. reflexivity. }
  assert (OTH : forall k, k <> "args"%string -> k <> "kwargs"%string -> k <> "name"%string -> dget k u = dget k ups).
  { destruct HF as [(_ & _ & ->)|(_ & c & rr & aa & kw & _ & _ & _ & _ & _ & X & _)]; auto. }
  rewrite OTH in Hg, Hc, Hst, Hm, Ht, Hex, Hnx by discriminate.
  unfold applied, given, not_given; cbn [t_id t_pending t_submitted t_sched t_grace t_coalesce t_store t_exec t_max t_trigger t_next t_fn t_ref t_args t_kwargs t_name apply_approved a_sched a_fn a_name a_grace a_coalesce a_store a_max a_trigger a_exec a_next].
  split; [reflexivity|]. split; [reflexivity|]. split; [reflexivity|].
  split; [destruct sched; reflexivity|].
  split. { intros m G. rewrite G in Hg. destruct m; cbn in Hg; try discriminate.
    - injection Hg as <-. left. auto.
    - destruct b; [|discriminate]. injection Hg as <-. right. exists us. cbn. unfold us. repeat split; lia.
    - destruct (Z.leb_spec z 0); [discriminate|]. injection Hg as <-. right. exists (z * us). cbn. unfold us. repeat split; lia.
    - destruct (Z.leb_spec m 0); [discriminate|]. injection Hg as <-. right. exists m. cbn. repeat split; lia. }
  split. { intros G. rewrite G in Hg. injection Hg as <-. reflexivity. }
  split. { intros v G. rewrite G in Hc. injection Hc as <-. reflexivity. }
  split. { intros G. rewrite G in Hc. injection Hc as <-. reflexivity. }
  split. { intros v G. rewrite G in Hst. destruct v; cbn in Hst; try discriminate. injection Hst as <-. eauto. }
  split. { intros G. rewrite G in Hst. injection Hst as <-. reflexivity. }
  split. { intros v G. rewrite G in Hex. destruct v; cbn in Hex; try discriminate. injection Hex as <-. eauto. }
  split. { intros G. rewrite G in Hex. injection Hex as <-. reflexivity. }
  split. { intros v G. rewrite G in Hm. destruct v; cbn in Hm; try discriminate.
    - destruct b; [|discriminate]. injection Hm as <-. exists 1. cbn. repeat split; lia.
    - destruct (Z.leb_spec z 0); [discriminate|]. injection Hm as <-. exists z. cbn. repeat split; lia. }
  split. { intros G. rewrite G in Hm. injection Hm as <-. reflexivity. }
  split. { intros v G. rewrite G in Ht. destruct v; cbn in Ht; try discriminate. injection Ht as <-. reflexivity. }
  split. { intros G. rewrite G in Ht. injection Ht as <-. reflexivity. }
  split. { intros v G. rewrite G in Hnx. cbn in Hnx.
    destruct (match sched with Some _ => sched | None => t_sched t end) as [q|] eqn:Q; [|discriminate].
    split; [destruct sched; [discriminate|congruence]|].
    destruct (to_datetime env v) as [x|]; [|discriminate]. injection Hnx as <-. reflexivity. }
  split. { intros G. rewrite G in Hnx. injection Hnx as <-. reflexivity. }
  split. { intros T. destruct HF as [(NT & _)|(_ & c & rr & aa & kw & -> & NC & VA & VK & FT & _)]; [contradiction|]. auto. }
  split. { intros NT. destruct HF as [(_ & -> & _)|(T & _)]; [auto|contradiction]. }
  split. { intros v G NN. assert (GU : dget "name" u = Some v).
    { destruct HF as [(_ & _ & ->)|(_ & c & rr & aa & kw & _ & _ & _ & _ & _ & _ & _ & _ & [X|([X|X] & _)])]; [exact G|congruence|congruence|].
      rewrite G in X. injection X as ->. contradiction NN; reflexivity. }
    rewrite GU in Hn. destruct v; cbn in Hn; try discriminate; [contradiction NN; reflexivity|].
    destruct (String.eqb_spec s ""); [discriminate|]. injection Hn as <-. exists s. auto. }
  split. { intros G. destruct HF as [(_ & _ & ->)|(T & c & rr & aa & kw & -> & _ & _ & _ & _ & _ & _ & _ & [X|(_ & EN & cc & -> & X)])].
    - left. destruct G as [G|G]; rewrite G in Hn; injection Hn as <-; reflexivity.
    - left. rewrite X in Hn. destruct G as [G|G]; rewrite G in Hn; injection Hn as <-; reflexivity.
    - right. split; [exact EN|]. split; [exact T|]. exists cc. rewrite X in Hn. cbn in Hn.
      destruct (String.eqb_spec (c_name cc) ""); [discriminate|]. injection Hn as <-. auto. }
  intros k v G. destruct (string_dec k "args") as [->|NA]; [left; reflexivity|].
  destruct (string_dec k "kwargs") as [->|NK]; [right; left; reflexivity|].
  destruct (string_dec k "name") as [->|NN]; [right; right; left; reflexivity|].
  apply to_known, (Ksub k v). rewrite OTH; auto.
Qed.

Theorem update_rejects_invalid env t sched fn ups t' e : NoDup (dkeys ups) ->
  update_task env t sched fn ups = (t', Err e) -> invalid env t sched fn ups.
Proof.
  intros ND H. unfold update_task in H. destruct (validate env t sched fn ups) as [a|e0] eqn:V; [discriminate|]. clear H.
  unfold validate in V.
  destruct (match sched with Some s => match t_sched t with Some s' => if Nat.eqb s s' then Ok (Some s) else Err ValueError | None => Ok (Some s) end | None => Ok None end) as [s|e1] eqn:HS.
  2:{ destruct sched as [x|]; [|discriminate]. destruct (t_sched t) as [y|] eqn:TS; [|discriminate].
      destruct (Nat.eqb_spec x y); [discriminate|]. apply inv_sched with x y; auto. }
  assert (Es : s = sched).
  { destruct sched as [x|]; [|congruence]. destruct (t_sched t); [|congruence]. destruct (Nat.eqb x n); congruence. }
  subst s. cbn [bind] in V.
  destruct (dmem "id" ups) eqn:HI. { apply dmem_true in HI. destruct HI as [v G]. apply inv_key with "id"%string v; [exact G|]. cbn. intuition discriminate. }
  destruct (fn_block env t fn ups) as [[af u]|e1] eqn:HF.
  2:{ unfold fn_block in HF. destruct (truthy fn || dmem "args" ups || dmem "kwargs" ups) eqn:T; [|discriminate].
      apply touches_dec in T.
      set (a := match dget "args" ups with Some v => v | None => t_args t end) in *.
      set (kw := match dget "kwargs" ups with Some v => v | None => t_kwargs t end) in *.
      apply inv_call; [exact T|].
      intros (c & r & a' & k' & n & ks & NC & VA & VK & AC & KC & CK).
      assert (a' = a) by (unfold a; destruct VA as [VA|[VA ->]]; unfold given, not_given in VA; rewrite VA; reflexivity).
      assert (k' = kw) by (unfold kw; destruct VK as [VK|[VK ->]]; unfold given, not_given in VK; rewrite VK; reflexivity). subst a' k'.
      unfold new_callable in NC.
      destruct (truthy fn) eqn:TF.
      - destruct fn; try contradiction.
        + destruct NC as (cc & RE & -> & ->). rewrite RE, AC, KC, (CK _ eq_refl) in HF. discriminate.
        + destruct NC as (-> & ->). rewrite AC, KC, (CK _ eq_refl) in HF. discriminate.
      - destruct NC as (-> & ->). destruct (t_fn t) as [cc|].
        + rewrite AC, KC, (CK _ eq_refl) in HF. discriminate.
        + rewrite AC, KC in HF. discriminate. }
  pose proof (fn_block_spec _ _ _ _ _ _ HF) as P. cbn [bind] in V.
  assert (OTH : forall k, k <> "args"%string -> k <> "kwargs"%string -> k <> "name"%string -> dget k u = dget k ups).
  { destruct P as [(_ & _ & ->)|(_ & c & rr & aa & kw & _ & _ & _ & _ & _ & X & _)]; auto. }
  rewrite (OTH "mistrigger_grace_time"%string), (OTH "coalesce"%string), (OTH "store_alias"%string), (OTH "max_instances"%string),
    (OTH "trigger"%string), (OTH "executor"%string), (OTH "next_run_time"%string) in V by discriminate.
  destruct (name_check (dget "name" u)) as [name|e1] eqn:Hn.
  2:{ destruct P as [(_ & _ & ->)|(T & c & rr & aa & kw & -> & NC & _ & _ & _ & _ & _ & _ & [X|(_ & EN & cc & -> & X)])].
      - destruct (dget "name" ups) as [v|] eqn:G; [|discriminate]. apply inv_name with v; [exact G| |].
        + intros ->. discriminate Hn.
        + intros (s & -> & Hs). cbn in Hn. destruct (String.eqb_spec s ""); [contradiction|discriminate Hn].
      - rewrite X in Hn. destruct (dget "name" ups) as [v|] eqn:G; [|discriminate]. apply inv_name with v; [exact G| |].
        + intros ->. discriminate Hn.
        + intros (s & -> & Hs). cbn in Hn. destruct (String.eqb_spec s ""); [contradiction|discriminate Hn].
      - rewrite X in Hn. cbn in Hn. destruct (String.eqb_spec (c_name cc) "") as [E0|]; [|discriminate].
        apply inv_anon with cc rr; auto. }
  cbn [bind] in V.
  destruct (grace_check (dget "mistrigger_grace_time" ups)) as [gr|e1] eqn:Hg.
  2:{ destruct (dget "mistrigger_grace_time" ups) as [v|] eqn:G; [|discriminate]. apply inv_grace with v; [exact G|].
      intros [->|(x & Hx & Px)]; [discriminate Hg|].
      destruct v; cbn in Hx; try contradiction; cbn in Hg; subst.
      - destruct b; [discriminate Hg|lia].
      - destruct (Z.leb_spec z 0); [unfold us in Px; lia|discriminate Hg].
      - destruct (Z.leb_spec m 0); [lia|discriminate Hg]. }
  cbn [bind] in V. destruct (coalesce_check (dget "coalesce" ups)) as [co|e1] eqn:Hc.
  2:{ destruct (dget "coalesce" ups); discriminate. }
  cbn [bind] in V. destruct (str_check (dget "store_alias" ups)) as [st|e1] eqn:Hst.
  2:{ destruct (dget "store_alias" ups) as [v|] eqn:G; [|discriminate]. apply inv_str with "store_alias"%string v; [left; reflexivity|exact G|].
      intros (s & ->). discriminate Hst. }
  cbn [bind] in V. destruct (max_check (dget "max_instances" ups)) as [mx|e1] eqn:Hm.
  2:{ destruct (dget "max_instances" ups) as [v|] eqn:G; [|discriminate]. apply inv_max with v; [exact G|].
      intros (x & Hx & Px). destruct v; cbn in Hx; try contradiction; cbn in Hm; subst.
      - destruct b; [discriminate Hm|lia].
      - destruct (Z.leb_spec z 0); [lia|discriminate Hm]. }
  cbn [bind] in V. destruct (trigger_check (dget "trigger" ups)) as [tr|e1] eqn:Ht.
  2:{ destruct (dget "trigger" ups) as [v|] eqn:G; [|discriminate]. apply inv_trigger with v; [exact G|].
      intros (s & ->). discriminate Ht. }
  cbn [bind] in V. destruct (str_check (dget "executor" ups)) as [ex|e1] eqn:Hex.
  2:{ destruct (dget "executor" ups) as [v|] eqn:G; [|discriminate]. apply inv_str with "executor"%string v; [right; reflexivity|exact G|].
      intros (s & ->). discriminate Hex. }
  cbn [bind] in V.
  destruct (next_check env _ (dget "next_run_time" ups)) as [nx|e1] eqn:Hnx.
  2:{ destruct (dget "next_run_time" ups) as [v|] eqn:G; [|discriminate]. apply inv_next with v; [exact G|].
      intros (HSc & x & Hx). cbn in Hnx. rewrite Hx in Hnx.
      destruct sched; [discriminate|]. destruct (t_sched t); [discriminate|]. destruct HSc; congruence. }
  cbn [bind] in V.
  destruct (existsb _ u) eqn:K; [|discriminate]. apply existsb_exists in K. destruct K as ([k v] & Kin & Km). cbn [fst] in Km.
  apply negb_true_iff, mem_nIn in Km.
  assert (HK : exists w, dget k u = Some w).
  { destruct (dget k u) eqn:G; [eauto|]. apply dget_None in G. exfalso. apply G. change k with (fst (k, v)). apply in_map. exact Kin. }
  destruct HK as [w Hw].
  assert (k <> "name"%string) by (intros ->; apply Km; left; reflexivity).
  assert (Ha : k <> "args"%string /\ k <> "kwargs"%string \/ u = ups /\ ~ touches_call fn ups).
  { destruct P as [(NT & _ & ->)|(T & c & rr & aa & kw & _ & _ & _ & _ & _ & _ & X & Y & _)]; [auto|].
    left. split; intros ->; congruence. }
  destruct Ha as [[Ha Hk]|[-> NT]].
  - apply inv_key with k w; [unfold given; rewrite <- OTH; auto|]. unfold modifiable. cbn [In]. cbn [In known_keys] in Km. intuition congruence.
  - apply inv_key with k w; [exact Hw|].
    assert (k <> "args"%string) by (intros ->; apply NT; right; left; exists w; exact Hw).
    assert (k <> "kwargs"%string) by (intros ->; apply NT; right; right; exists w; exact Hw).
    unfold modifiable. cbn [In]. cbn [In known_keys] in Km. intuition congruence.
Qed.

(** * uniqueness, and the jittered case *)
Lemma fire_times_unique (R : Z -> option Z -> Prop) H : (forall t n m, R t n -> R t m -> n = m) ->
  forall a l b, fire_times R a l b -> Forall (fun x => x <= H) l -> after_instant H b ->
  forall l' b', fire_times R a l' b' -> Forall (fun x => x <= H) l' -> after_instant H b' -> l = l' /\ b = b'.
Proof.
  intros D a l b F. induction F as [n|t n l rest HR F IH]; intros A B l' b' F' A' B'.
  - inversion F'; subst; [auto|]. apply Forall_inv in A'. specialize (B t eq_refl). lia.
  - inversion F'; subst.
    + apply Forall_inv in A. specialize (B' t eq_refl). lia.
    + match goal with HX : R t ?m, HF : fire_times R ?m _ _ |- _ => rewrite (D _ _ _ HX HR) in HF;
        destruct (IH (Forall_inv_tail A) B _ _ HF (Forall_inv_tail A') B') end. subst. auto.
Qed.

Definition later (t : Z) (n : option Z) : Prop := match n with Some u => t < u | None => True end.
Lemma fire_times_swap R a l b x n : fire_times R a l b -> last_opt l = Some x -> R x n -> fire_times R a l n.
Proof.
  intros F. revert x. induction F as [m|t m l rest HR F IH]; intros x L Rx; [discriminate|].
  rewrite last_opt_cons in L. injection L as L. destruct (last_opt l) as [y|] eqn:E.
  - subst y. econstructor; [exact HR|]. apply (IH _ eq_refl Rx).
  - apply last_opt_nil in E. subst. econstructor; [exact Rx|constructor].
Qed.
Lemma answers_later fuel o tr now : fair o -> forward tr -> forall i x n, x <= now -> answers fuel o tr now i (Some x) = Ok n -> later x n.
Proof.
  intros FO FW i x n Hle G. destruct n as [u|]; [|exact I]. unfold answers in G.
  eapply get_next_progress; [exact FW| |exact Hle|exact G]. intros p j Hj; unfold sub; apply FO; exact Hj.
Qed.
Lemma wake_later fuel o k t now l n k' : fair o -> forward (t_trigger t) -> wake fuel o k t now = Ok (l, n, k') ->
  fire_times later (t_next t) l n /\ Forall (fun x => x <= now) l.
Proof.
  intros FO FW. unfold wake. destruct (get_run_times fuel o k t now) as [[l1 k1]|] eqn:E; [|discriminate].
  destruct (grt_spec _ now later (answers_later fuel o _ now FO FW) _ _ _ _ _ E) as (rest & F & A & B).
  destruct (last_opt l1) as [x|] eqn:L.
  - destruct (answers fuel o (t_trigger t) now k1 (Some x)) as [m|] eqn:G; [|discriminate].
    intros [= <- <- <-]. assert (Hx : x <= now) by (rewrite Forall_forall in A; apply A, last_opt_In, L). split; [|exact A].
    eapply fire_times_swap; [exact F|exact L|]. eapply answers_later; [exact FO|exact FW|exact Hx|exact G].
  - intros [= <- <- <-]. apply last_opt_nil in L. subst l1. inversion F; subst. auto.
Qed.
Theorem wakes_increasing fuel o tr : fair o -> forward tr -> forall nows k t ls n, t_trigger t = tr ->
  wakes fuel o k t nows = Ok (ls, n) -> increasing (List.concat ls).
Proof.
  intros FO FW nows k t ls n T H.
  enough (F : fire_times later (t_next t) (List.concat ls) n) by (apply (fire_times_increasing later) with (2 := F); auto).
  revert k t ls n T H. induction nows as [|now nows IH]; intros k t ls n T H; cbn in H.
  - injection H as <- <-. constructor.
  - destruct (wake fuel o k t now) as [[[l n1] k1]|] eqn:W; [|discriminate].
    destruct (wakes fuel o k1 (set_next n1 t) nows) as [[ls1 n2]|] eqn:Ws; [|discriminate]. injection H as <- <-.
    rewrite <- T in FW. destruct (wake_later _ _ _ _ _ _ _ _ FO FW W) as [F _].
    eapply fire_times_app; [exact F|]. apply (IH _ (set_next n1 t) _ _ T Ws).
Qed.

Theorem wakes_are_fire_times fuel o k t nows H ls n : jitter_free (t_trigger t) -> non_decreasing nows -> last_opt nows = Some H ->
  wakes fuel o k t nows = Ok (ls, n) ->
  forall L rest, fire_times (answer_after fuel (t_trigger t)) (t_next t) L rest -> Forall (fun x => x <= H) L -> after_instant H rest ->
  List.concat ls = L /\ n = rest.
Proof.
  intros J ND E W L rest F A B. destruct (wakes_exact _ _ _ J _ _ _ _ _ eq_refl ND W) as [G C]. destruct (C _ E) as [C1 C2].
  eapply fire_times_unique; [|exact G|exact C1|exact C2|exact F|exact A|exact B].
  intros; eapply answer_after_det; eauto.
Qed.
Theorem wakes_is_schedule fuel o k t nows H ls n : jitter_free (t_trigger t) -> non_decreasing nows -> last_opt nows = Some H ->
  wakes fuel o k t nows = Ok (ls, n) ->
  fire_times (answer_after fuel (t_trigger t)) (t_next t) (List.concat ls) n /\ Forall (fun x => x <= H) (List.concat ls) /\ after_instant H n.
Proof.
  intros J ND E W. destruct (wakes_exact _ _ _ J _ _ _ _ _ eq_refl ND W) as [G C]. destruct (C _ E). auto.
Qed.
