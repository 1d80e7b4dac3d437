(** Lemmas for PropCliRun: what a pass of the scheduler leaves alone, whatever happens in it. *)
From Verif Require Import Prelude PreludeFacts MemStore StoreSpec MemStoreProofs CallArgs Cron Triggers TriggerSpec Task TaskSpec TaskProofs
  Scheduler Executor SchedSpec SchedProofs SchedProofs2 SchedReach SchedProofs3 SchedProofs4 LifeSpec LifeAcc LifeAll LifeProofs LifeProofs2 CliRun.
Open Scope Z_scope.
Ltac sp := repeat match goal with |- _ /\ _ => split end.

(** ** the kind of every store stays *)
Definition kind (s : sched) (a : string) : option bool := option_map s_memory (dget a (stores s)).
Lemma kind_same s s' : stores s' = stores s -> forall a, kind s' a = kind s a.
Proof. intros E a. unfold kind. rewrite E. reflexivity. Qed.
Lemma st_update_kind x t : s_memory (fst (st_update x t)) = s_memory x.
Proof. unfold st_update. destruct (_ && _); auto. destruct (ms_update' (s_mem x) t). reflexivity. Qed.
Lemma st_delete_kind x id : s_memory (fst (st_delete x id)) = s_memory x.
Proof. unfold st_delete. destruct (ms_delete' (s_mem x) id). reflexivity. Qed.
Lemma store_update_kind a t s b : kind (fst (store_update a t s)) b = kind s b.
Proof.
  unfold store_update, kind. destruct (dget a (stores s)) as [x|] eqn:G; auto. pose proof (st_update_kind x t) as K. destruct (st_update x t) as [x' r]. cbn in *.
  destruct (String.eqb_spec b a) as [->|N]; [rewrite dget_dset_eq, G; cbn; congruence|rewrite dget_dset_ne by auto; auto].
Qed.
Lemma del_stores_kind want id : forall l b, option_map s_memory (dget b (fst (del_stores want id l))) = option_map s_memory (dget b l).
Proof.
  induction l as [|[k x] l IH]; intros b; cbn [del_stores]; auto. destruct (wanted want k).
  - pose proof (st_delete_kind x id) as K. destruct (st_delete x id) as [x' [u|y]]; cbn in K.
    + cbn. destruct (String.eqb b k); cbn; congruence.
    + specialize (IH b). destruct (del_stores want id l). cbn in *. destruct (String.eqb b k); auto.
  - specialize (IH b). destruct (del_stores want id l). cbn in *. destruct (String.eqb b k); auto.
Qed.
Lemma delete_kind id want s b : kind (fst (delete_task id want s)) b = kind s b.
Proof.
  unfold delete_task, kind. destruct (String.eqb id ""); auto. destruct (stopped s).
  - destruct (del_pending want id (pend s)) as [l r]. destruct (match r with Some x => x | None => None end); auto.
  - pose proof (del_stores_kind want id (stores s) b) as H. destruct (del_stores want id (stores s)) as [l r]. cbn in H. destruct r; cbn; auto.
Qed.
Lemma update_kind c id want fn ups s b : kind (fst (update c id want fn ups s)) b = kind s b.
Proof.
  unfold update. destruct (lookup_task id want s) as [[t w]|]; auto. destruct (update_task _ _ _ _ _) as [t' [u|]]; auto.
  destruct w as [a|].
  - pose proof (store_update_kind a t' s b) as K. destruct (store_update a t' s) as [s1 [v|]]; cbn in *; auto. rewrite <- K. destruct (running _); reflexivity.
  - cbn. destruct (running _); reflexivity.
Qed.
Lemma resume_kind c e id want s b : kind (fst (resume_task c e id want s)) b = kind s b.
Proof.
  unfold resume_task, ask. destruct (lookup_task id want s) as [[t w]|]; auto. destruct (answers _ _ _ _ _ _) as [[n|]|]; auto.
  - match goal with |- context [update c id w VNone ?u ?z] => pose proof (update_kind c id w VNone u z b) as K; destruct (update c id w VNone u z) as [s2 r2] end. exact K.
  - match goal with |- context [delete_task ?i w ?z] => pose proof (delete_kind i w z b) as K; destruct (delete_task i w z) as [s2 r2] end. exact K.
Qed.
Lemma send_kind e xa t times s b : kind (fst (send_task e xa t times s)) b = kind s b.
Proof. apply kind_same. apply (send_same e xa t times s). Qed.
Lemma run_kind c e id want f rf s b : kind (fst (run_task c e id want f rf s)) b = kind s b.
Proof.
  unfold run_task, ask. destruct (stopped s); auto. destruct (lookup_task id want s) as [[t w]|]; auto.
  destruct (get_run_times _ _ _ _ _) as [[due k]|]; auto. destruct (negb (nonempty due) && negb f); auto.
  destruct (if nonempty due then _ else _) as [times n]. destruct (t_exec t) as [xa|]; auto. destruct (negb (dmem xa (execs (w_draws k s)))); auto.
  pose proof (send_kind e xa t times (w_draws k s) b) as K1. destruct (send_task e xa t times (w_draws k s)) as [s1 [u|x]]; [|destruct x; exact K1].
  destruct (last_opt times) as [lt|]; [|exact K1]. set (s2 := w_draws _ _). assert (K2 : kind s2 b = kind s b) by exact K1. clearbody s2.
  destruct (answers _ _ _ _ _ _) as [nx|]; auto.
  destruct (match nx with Some x => _ | None => None end) as [y|].
  - destruct w as [a|]; auto. pose proof (store_update_kind a (set_next (Some y) t) s2 b) as H. destruct (store_update _ _ _) as [s4 [u4|x4]]; cbn in *; congruence.
  - destruct rf.
    + pose proof (delete_kind id w s2 b) as H. destruct (delete_task _ _ _) as [s4 [u4|x4]]; cbn in *; congruence.
    + destruct w as [a|]; auto. pose proof (store_update_kind a (set_next None t) s2 b) as H. destruct (store_update _ _ _) as [s4 [u4|x4]]; cbn in *; congruence.
Qed.
Lemma add_kind c e t rep n s b : wf s -> kind (fst (add_task c e t rep n s)) b = kind s b.
Proof.
  intros W. unfold add_task. destruct (t_submitted t); auto. destruct (match t_sched t with Some _ => _ | None => _ end); auto. destruct (stopped s); auto.
  destruct (real_add_task _ _ _ _ _ _ _) as [s' r] eqn:R. cbn [fst]. destruct (real_add_task_spec _ _ _ _ _ _ _ _ _ W R) as (_ & F & _). unfold kind.
  destruct (dget b (stores s)) as [x|] eqn:G.
  - destruct (fa_kind _ _ F b x G) as (x' & -> & K & _). cbn. congruence.
  - apply dget_None in G. rewrite <- (fa_keys _ _ F) in G. apply dget_None in G. rewrite G. reflexivity.
Qed.

(** ** a pass touches only tasks that were due in stores it could read *)
Lemma del_stores_touch want id : forall l b j, j <> id -> NoDup (dkeys l) -> (forall a x, dget a l = Some x -> InvT (s_mem x)) ->
  match dget b (fst (del_stores want id l)) with Some x => ms_lookup (s_mem x) j | None => None end =
  match dget b l with Some x => ms_lookup (s_mem x) j | None => None end.
Proof.
  induction l as [|[k x] l IH]; intros b j N ND IV; cbn [del_stores]; auto. unfold dkeys in ND; cbn in ND. inversion ND as [|? ? N1 N2]; subst.
  assert (Ix : InvT (s_mem x)) by (apply (IV k); cbn; rewrite String.eqb_refl; auto).
  assert (IV' : forall a y, dget a l = Some y -> InvT (s_mem y)).
  { intros a y G. apply (IV a). cbn. destruct (String.eqb_spec a k) as [->|]; auto. exfalso. apply N1. apply dget_Some_key in G. exact G. }
  specialize (IH b j N N2 IV'). destruct (wanted want k).
  - pose proof (st_delete_ok x id Ix) as D. destruct (st_delete x id) as [x' [u|y]].
    + cbn. destruct (String.eqb b k); auto. destruct D as (_ & _ & _ & _ & D). destruct (ms_lookup (s_mem x) id); [|destruct D; discriminate].
      destruct D as [_ D]. rewrite D. unfold c_del. destruct (String.eqb_spec j id); [tauto|auto].
    + destruct (del_stores want id l). cbn in *. destruct (String.eqb b k); auto.
  - destruct (del_stores want id l). cbn in *. destruct (String.eqb b k); auto.
Qed.
Lemma delete_touch a id s b j : wf s -> (b, j) <> (a, id) -> stored (fst (delete_task id (Some a) s)) b j = stored s b j.
Proof.
  intros W N. destruct (string_dec b a) as [->|Nb].
  - assert (Nj : j <> id) by congruence. unfold stored, delete_task. destruct (String.eqb id ""); auto. destruct (stopped s).
    + destruct (del_pending (Some a) id (pend s)) as [l r]. destruct (match r with Some x => x | None => None end); auto.
    + pose proof (del_stores_touch (Some a) id (stores s) a j Nj (wf_keys _ W) (wf_inv _ W)) as H. destruct (del_stores (Some a) id (stores s)) as [l r]. cbn in H. destruct r; cbn; auto.
  - unfold stored. destruct (delete_other a id s b Nb) as [-> _]. reflexivity.
Qed.
Lemma store_update_touch a t s b j : wf s -> (b, j) <> (a, t_id t) -> stored (fst (store_update a t s)) b j = stored s b j.
Proof.
  intros W N. pose proof (store_update_spec a t s W) as U. destruct (store_update a t s) as [s' r]. cbn [fst].
  destruct U as (_ & _ & _ & _ & _ & _ & [(_ & _ & ->)|[(_ & _ & U & _)|(_ & _ & U)]]); auto. rewrite U.
  destruct (String.eqb_spec b a) as [->|]; auto. destruct (String.eqb_spec j (t_id t)) as [->|]; auto. congruence.
Qed.
Lemma process_one_touch c e a t s ev b j : wf s -> (b, j) <> (a, t_id t) ->
  stored (fst (fst (process_one c e a t (s, ev)))) b j = stored s b j /\ kind (fst (fst (process_one c e a t (s, ev)))) b = kind s b.
Proof.
  intros W N. unfold process_one, ask.
  destruct (match t_exec t with Some xa => if dmem xa (execs s) then Some xa else None | None => None end) as [xa|].
  2:{ pose proof (delete_touch a (t_id t) s b j W N) as H. pose proof (delete_kind (t_id t) (Some a) s b) as K. destruct (delete_task _ _ _); cbn in *. auto. }
  destruct (get_run_times _ _ _ _ _) as [[due k]|]; auto. destruct (coalesce_run_times _ _) as [times n].
  destruct (last_opt times) as [lt|]; auto. pose proof (send_same e xa t times (w_draws k s)) as S1. cbn zeta in S1.
  destruct (send_task e xa t times (w_draws k s)) as [s1 r]. cbn [fst] in S1. destruct S1 as (S1 & S2 & _).
  set (s2 := w_draws (S (draws s1)) s1). assert (E1 : stores s2 = stores s) by exact S1.
  assert (W2 : wf s2) by (apply (wf_same s); auto; exact S2).
  rewrite <- (stored_same s s2 b j E1), <- (kind_same s s2 E1 b).
  destruct (answers _ _ _ _ _ _) as [[x|]|]; auto.
  - pose proof (store_update_touch a (set_next (Some x) t) s2 b j W2 N) as H. pose proof (store_update_kind a (set_next (Some x) t) s2 b) as K. destruct (store_update _ _ _); cbn in *; auto.
  - pose proof (delete_touch a (t_id t) s2 b j W2 N) as H. pose proof (delete_kind (t_id t) (Some a) s2 b) as K. destruct (delete_task _ _ _); cbn in *; auto.
Qed.
Lemma process_one_kind c e a t s ev b : wf s -> kind (fst (fst (process_one c e a t (s, ev)))) b = kind s b.
Proof.
  intros W. apply (process_one_touch c e a t s ev b (t_id t ++ "x")%string W). intros [= _ E].
  assert (L : forall s, (String.length (s ++ "x") = String.length s + 1)%nat) by (induction s0 as [|ch s0 IH]; cbn; auto).
  specialize (L (t_id t)). rewrite E in L. lia.
Qed.
Lemma process_due_touch c e a b j : forall l s ev, wf s -> (forall t, In t l -> (b, j) <> (a, t_id t)) ->
  stored (fst (fst (process_due c e a l (s, ev)))) b j = stored s b j.
Proof.
  induction l as [|t l IH]; intros s ev W N; cbn [process_due]; auto.
  destruct (process_one_touch c e a t s ev b j W (N t (or_introl eq_refl))) as [T _]. pose proof (wf_process_one c e a t s ev W) as W1.
  destruct (process_one c e a t (s, ev)) as [[s1 ev1] [u|x]]; cbn in *; auto. rewrite IH; auto.
Qed.
Lemma process_due_kind c e a b : forall l s ev, wf s -> kind (fst (fst (process_due c e a l (s, ev)))) b = kind s b.
Proof.
  induction l as [|t l IH]; intros s ev W; cbn [process_due]; auto.
  pose proof (process_one_kind c e a t s ev b W) as T. pose proof (wf_process_one c e a t s ev W) as W1.
  destruct (process_one c e a t (s, ev)) as [[s1 ev1] [u|x]]; cbn in *; auto. rewrite IH; auto.
Qed.
(** nothing is due under this id in this store, or the store cannot be read *)
Definition out_of_reach (e : envir) (s : sched) (b j : string) : Prop :=
  forall t, stored s b j = Some t -> ~ (readable e b /\ is_due t_next (e_now e) t).
Lemma process_stores_touch c e b j : forall l w s ev, wf s -> out_of_reach e s b j ->
  stored (fst (fst (process_stores c e l w (s, ev)))) b j = stored s b j /\ kind (fst (fst (process_stores c e l w (s, ev)))) b = kind s b.
Proof.
  induction l as [|a l IH]; intros w s ev W R; cbn [process_stores]; auto.
  assert (H : let s1 := fst (fst (process_store c e a w (s, ev))) in wf s1 /\ stored s1 b j = stored s b j /\ kind s1 b = kind s b).
  { unfold process_store. destruct (dget a (stores s)) as [x|] eqn:G; [|cbn; auto].
    destruct (readable_dec e a) as [[-> _]|[-> Ra]]; [cbn; auto|].
    pose proof (wf_process_due c e a (ms_due (s_mem x) (e_now e)) s ev W) as W1.
    pose proof (process_due_kind c e a b (ms_due (s_mem x) (e_now e)) s ev W) as K1.
    assert (T : stored (fst (fst (process_due c e a (ms_due (s_mem x) (e_now e)) (s, ev)))) b j = stored s b j).
    { apply process_due_touch; auto. intros t Ht [= -> E]. apply (due_ok t_id t_next (s_mem x) (e_now e) (wf_inv _ W _ _ G)) in Ht as [A B].
      apply (R t); [|split; [exact Ra|exact B]]. unfold stored. rewrite G, E. exact A. }
    destruct (process_due c e a (ms_due (s_mem x) (e_now e)) (s, ev)) as [[s1 ev1] [u|y]]; cbn in *; auto. }
  cbn zeta in H. destruct (process_store c e a w (s, ev)) as [[s1 ev1] [w1|x]]; cbn [fst] in *; destruct H as (W1 & T & K); auto.
  destruct (IH w1 s1 ev1 W1) as [T2 K2]; [intros t Ht; rewrite T in Ht; apply R; exact Ht|]. split; congruence.
Qed.
Lemma process_stores_kind c e b : forall l w s ev, wf s -> kind (fst (fst (process_stores c e l w (s, ev)))) b = kind s b.
Proof.
  induction l as [|a l IH]; intros w s ev W; cbn [process_stores]; auto.
  assert (H : let s1 := fst (fst (process_store c e a w (s, ev))) in wf s1 /\ kind s1 b = kind s b).
  { unfold process_store. destruct (dget a (stores s)) as [x|] eqn:G; [|cbn; auto]. destruct (e_busy e a || e_fails e a); [cbn; auto|].
    pose proof (wf_process_due c e a (ms_due (s_mem x) (e_now e)) s ev W) as W1.
    pose proof (process_due_kind c e a b (ms_due (s_mem x) (e_now e)) s ev W) as K1.
    destruct (process_due c e a (ms_due (s_mem x) (e_now e)) (s, ev)) as [[s1 ev1] [u|y]]; cbn in *; auto. }
  cbn zeta in H. destruct (process_store c e a w (s, ev)) as [[s1 ev1] [w1|x]]; cbn [fst] in *; destruct H as (W1 & K); auto. rewrite IH; auto.
Qed.
Theorem pass_touches_due c e s b j : wf s -> out_of_reach e s b j -> stored (fst (process_tasks c e s)) b j = stored s b j.
Proof.
  intros W R. unfold process_tasks. destruct (sstate_eqb (st s) PAUSED); auto. destruct (e_plock e); auto.
  destruct (process_stores_touch c e b j (dkeys (stores s)) None s [] W R) as [T _]. destruct (process_stores _ _ _ _ _) as [[s1 ev1] [u|y]]; exact T.
Qed.
Theorem pass_kind c e s b : wf s -> kind (fst (process_tasks c e s)) b = kind s b.
Proof.
  intros W. unfold process_tasks. destruct (sstate_eqb (st s) PAUSED); auto. destruct (e_plock e); auto.
  pose proof (process_stores_kind c e b (dkeys (stores s)) None s [] W) as T. destruct (process_stores _ _ _ _ _) as [[s1 ev1] [u|y]]; exact T.
Qed.
