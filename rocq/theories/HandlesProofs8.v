(** C104: an object that was submitted once stays submitted. *)
From Verif Require Import Prelude PreludeFacts MemStore CallArgs Cron Triggers Task Scheduler Handles HandlesProofs3.
Open Scope Z_scope.
Local Ltac sp := repeat match goal with |- _ /\ _ => split end.

Definition keeps (h h' : hstate) : Prop := (hn h <= hn h')%nat /\ forall q, (q < hn h)%nat -> t_submitted (hp h q) = true -> t_submitted (hp h' q) = true.
Lemma k_refl h : keeps h h. Proof. split; auto. Qed.
Lemma k_trans a b d : keeps a b -> keeps b d -> keeps a d.
Proof. intros [A1 A2] [B1 B2]. split; [lia|]. intros q Q S. apply B2; [lia|]. auto. Qed.
Lemma k_same h h' : hn h' = hn h -> hp h' = hp h -> keeps h h'.
Proof. intros A B. split; [lia|]. intros q _. rewrite B. auto. Qed.
Lemma k_put h r t : (t_submitted (hp h r) = true -> t_submitted t = true) -> keeps h (hput r t h).
Proof. intros T. split; [auto|]. intros q _ S. cbn. destruct (Nat.eqb_spec q r) as [->|]; auto. Qed.
Lemma k_new h t : keeps h (fst (hnew t h)).
Proof. split; cbn; [lia|]. intros q Q S. destruct (Nat.eqb_spec q (hn h)); [lia|auto]. Qed.
Lemma k_lookup id want h : keeps h (fst (h_lookup id want h)).
Proof.
  unfold h_lookup. destruct (stopped (hk h)); [destruct (h_find_pending _ _ _ _); apply k_refl|]. destruct (h_find_store _ _ _) as [[[r|t] a]|]; try apply k_refl. apply (k_new h t).
Qed.
Lemma k_store_update a r h : keeps h (fst (h_store_update a r h)).
Proof. unfold h_store_update. destruct (dget a (hstores h)) as [x|]; [|apply k_refl]. destruct (h_st_update h x r (hp h r)). apply k_same; reflexivity. Qed.
Lemma k_update c id want fn ups h : keeps h (fst (h_update c id want fn ups h)).
Proof.
  unfold h_update. pose proof (k_lookup id want h) as L. destruct (h_lookup id want h) as [h1 [[r w]|y]]; [|exact L]. cbn [fst] in L. destruct (update_task _ _ _ fn ups) as [t' [[]|y]] eqn:U; [|exact L].
  apply update_submitted in U as [U _]. assert (P : keeps h (hput r t' h1)) by (eapply k_trans; [exact L|apply k_put; congruence]). destruct w as [a|].
  - pose proof (k_store_update a r (hput r t' h1)) as Q. destruct (h_store_update a r (hput r t' h1)) as [h3 [[]|y]]; cbn [fst] in *; eapply k_trans; eauto.
  - eapply k_trans; [exact P|apply k_same; reflexivity].
Qed.
Lemma k_reschedule c e id want tr h : keeps h (fst (h_reschedule c e id want tr h)).
Proof. unfold h_reschedule, h_ask. destruct (answers _ _ _ _ _ _); (eapply k_trans; [|apply k_update || apply k_refl]); apply k_same; reflexivity. Qed.
Lemma k_delete id want h : keeps h (fst (h_delete id want h)).
Proof.
  unfold h_delete. destruct (String.eqb id ""); [apply k_refl|]. destruct (stopped (hk h)).
  - destruct (h_del_pending h want id (hpend h)) as [l r]. destruct r as [[a|]|]; apply k_same; reflexivity.
  - destruct (h_del_stores h want id (hstores h)) as [l r]. destruct r as [a|]; apply k_same; reflexivity.
Qed.
Lemma k_resume c e id want h : keeps h (fst (h_resume c e id want h)).
Proof.
  unfold h_resume. pose proof (k_lookup id want h) as L. destruct (h_lookup id want h) as [h1 [[r w]|y]]; [|exact L]. cbn [fst] in L. unfold h_ask. set (h2 := on_k _ h1). assert (K : keeps h h2) by (eapply k_trans; [exact L|apply k_same; reflexivity]).
  destruct (answers _ _ _ _ _ _) as [[n|]|y]; [| |exact K].
  - pose proof (k_update c id w VNone [("next_run_time"%string, VDate n)] h2) as Q. destruct (h_update _ _ _ _ _ h2). eapply k_trans; eauto.
  - pose proof (k_delete (hid h2 r) w h2) as Q. destruct (h_delete _ _ h2). eapply k_trans; eauto.
Qed.
Lemma k_remove_all want h : keeps h (h_remove_all want h).
Proof. unfold h_remove_all. destruct (stopped (hk h)); apply k_same; reflexivity. Qed.
Lemma k_real_add c now r rp sta md h : keeps h (fst (h_real_add c now r rp sta md h)).
Proof.
  unfold h_real_add. cbv zeta.
  assert (B : forall h1 (rn : result (option Z)), keeps h h1 -> hp h1 r = hp h r -> keeps h (fst match rn with
    | Err e => (h1, Err e)
    | Ok n => let h2 := hput r (set_next n (hp h r)) h1 in
        match t_store (hp h r) with
        | None => (h2, Err AssertionError)
        | Some alias =>
            match dget alias (hstores h2) with
            | None => (h2, Err KeyError)
            | Some x =>
                let added x' :=
                  let h3 := hput r (set_pending false (hp h2 r)) (with_hstores (dset alias x' (hstores h2)) h2) in
                  (on_k (fun k => let k1 := dispatch (task_event TASK_ADDED (t_id (hp h r)) (Some alias)) k in wakeup_if (sta && running k1) k1) h3, Ok tt) in
                match h_st_add h2 x r with
                | (x1, Ok _) => added x1
                | (_, Err ConflictIdError) =>
                    if rp then
                      match h_st_update h2 x r (set_pending false (hp h2 r)) with
                      | (x2, Ok _) => added x2
                      | (_, Err TaskLookupError) => (h2, Ok tt)
                      | (_, Err e) => (h2, Err e)
                      end
                    else (h2, Err ConflictIdError)
                | (_, Err e) => (h2, Err e)
                end
            end
        end
    end)).
  { intros h1 [n|y] K P; [|exact K]. cbv zeta. set (h2 := hput r (set_next n (hp h r)) h1). assert (K2 : keeps h h2) by (eapply k_trans; [exact K|apply k_put; rewrite P; auto]).
    destruct (t_store (hp h r)) as [alias|]; [|exact K2]. destruct (dget alias (hstores h2)) as [x|]; [|exact K2].
    assert (AD : forall x', keeps h (on_k (fun k => let k1 := dispatch (task_event TASK_ADDED (t_id (hp h r)) (Some alias)) k in wakeup_if (sta && running k1) k1) (hput r (set_pending false (hp h2 r)) (with_hstores (dset alias x' (hstores h2)) h2)))).
    { intros x'. eapply k_trans; [exact K2|]. eapply k_trans; [|apply k_same; reflexivity]. eapply k_trans; [|apply k_put; auto]. apply k_same; reflexivity. }
    destruct (h_st_add h2 x r) as [x1 [[]|[]]]; try exact K2; try apply AD. destruct rp; [|exact K2]. destruct (h_st_update h2 x r _) as [x2 [[]|[]]]; try exact K2; apply AD. }
  destruct (t_next (hp h r)) as [z|]; [exact (B h (Ok _) (k_refl h) eq_refl)|]. destruct sta; [|exact (B h (Ok None) (k_refl h) eq_refl)]. unfold h_ask.
  exact (B (on_k _ h) _ (k_same h (on_k _ h) eq_refl eq_refl) eq_refl).
Qed.
Lemma k_add c e r rp next h : keeps h (fst (h_add c e r rp next h)).
Proof.
  unfold h_add. destruct (t_submitted (hp h r)) eqn:S; [apply k_refl|]. match goal with |- context [if ?b then _ else _] => destruct b end; [apply k_put; congruence|].
  assert (P : keeps h (hput r (with_default_aliases (c_self c) (given_next next (hp h r))) h)) by (apply k_put; congruence).
  destruct (stopped (hk h)); [eapply k_trans; [exact P|apply k_same; reflexivity]|eapply k_trans; [exact P|apply k_real_add]].
Qed.
(** adding an object, accepted or refused, uses it up *)
Lemma real_add_submitted c now r rp sta md h : t_submitted (hp h r) = true -> (r < hn h)%nat -> t_submitted (hp (fst (h_real_add c now r rp sta md h)) r) = true.
Proof. intros S L. apply (k_real_add c now r rp sta md h); auto. Qed.
Lemma add_submits c e r rp next h : (r < hn h)%nat -> t_submitted (hp (fst (h_add c e r rp next h)) r) = true.
Proof.
  intros L. unfold h_add. destruct (t_submitted (hp h r)) eqn:S; [exact S|]. match goal with |- context [if ?b then _ else _] => destruct b end; [cbn; rewrite Nat.eqb_refl; reflexivity|].
  assert (W : t_submitted (hp (hput r (with_default_aliases (c_self c) (given_next next (hp h r))) h) r) = true).
  { cbn. rewrite Nat.eqb_refl. unfold with_default_aliases. reflexivity. }
  destruct (stopped (hk h)); [exact W|]. apply real_add_submitted; [exact W|exact L].
Qed.
Lemma k_add_store a memory h : keeps h (fst (h_add_store a memory h)).
Proof. unfold h_add_store. destruct (dmem a (hstores h)); [apply k_refl|]. apply k_same; reflexivity. Qed.
Lemma k_add_pending c now md : forall l h, keeps h (fst (h_add_pending c now md l h)).
Proof.
  induction l as [|[[r rp] sta] l IH]; intros h; [apply k_refl|]. cbn [h_add_pending]. pose proof (k_real_add c now r rp sta md h) as K. destruct (h_real_add c now r rp sta md h) as [h1 [[]|[]]]; try exact K; (eapply k_trans; [exact K|apply IH]).
Qed.
Lemma k_start c e paused h : keeps h (fst (h_start c e paused h)).
Proof.
  unfold h_start. cbv zeta. match goal with |- context [if ?b then _ else _] => destruct b end; [apply k_same; reflexivity|]. match goal with |- context [if ?b then _ else _] => destruct b end; [apply k_same; reflexivity|].
  match goal with |- context [h_add_pending c _ _ _ ?x] => set (h3 := x) end. assert (K3 : keeps h h3).
  { unfold h3. eapply k_trans; [|apply k_same; reflexivity]. match goal with |- context [if ?b then _ else _] => destruct b end; [apply k_same; reflexivity|]. eapply k_trans; [|apply k_add_store]. apply k_same; reflexivity. }
  match goal with |- context [h_add_pending c ?n ?m ?l h3] => pose proof (k_add_pending c n m l h3) as K; destruct (h_add_pending c n m l h3) as [h4 [[]|y]] end; (eapply k_trans; [exact K3|]); [|exact K]. eapply k_trans; [exact K|apply k_same; reflexivity].
Qed.
Lemma k_news l : forall h, keeps h (fst (h_news l h)).
Proof. induction l as [|t l IH]; intros h; [apply k_refl|]. cbn [h_news]. pose proof (k_new h t) as K. destruct (hnew t h) as [h1 r]. specialize (IH h1). destruct (h_news l h1) as [h2 rs]. eapply k_trans; eauto. Qed.
Lemma k_one c e a r h ev : keeps h (fst (fst (h_process_one c e a r (h, ev)))).
Proof.
  unfold h_process_one. cbv zeta. destruct (match t_exec (hp h r) with Some _ => _ | None => _ end) as [xa|].
  2:{ pose proof (k_delete (t_id (hp h r)) (Some a) h) as K. destruct (h_delete _ _ h). exact K. }
  destruct (get_run_times _ _ _ _ _) as [[due k]|y]; [|apply k_refl]. destruct (coalesce_run_times _ due) as [times n]. destruct (last_opt times) as [lastt|]; [|apply k_same; reflexivity].
  destruct (send_task e xa (hp h r) times _) as [k1 res]. unfold h_ask.
  match goal with |- context [hput r _ ?x] => set (h2 := x) end. assert (K2 : keeps h h2) by (apply k_same; reflexivity). assert (P2 : hp h2 = hp h) by reflexivity. clearbody h2.
  destruct (answers _ _ _ _ _ _) as [[z|]|y]; [| |exact K2].
  - pose proof (k_store_update a r (hput r (set_next (Some z) (hp h r)) h2)) as K. destruct (h_store_update a r _) as [h3 r3]. cbn [fst] in *. eapply k_trans; [exact K2|]. eapply k_trans; [|exact K]. apply k_put. rewrite P2. auto.
  - pose proof (k_delete (t_id (hp h r)) (Some a) h2) as K. destruct (h_delete _ _ h2). cbn [fst] in *. eapply k_trans; eauto.
Qed.
Lemma k_due c e a : forall l h ev, keeps h (fst (fst (h_process_due c e a l (h, ev)))).
Proof.
  induction l as [|r l IH]; intros h ev; [apply k_refl|]. cbn [h_process_due]. pose proof (k_one c e a r h ev) as K. destruct (h_process_one c e a r (h, ev)) as [[h1 ev1] [[]|y]]; [|exact K]. eapply k_trans; [exact K|apply IH].
Qed.
Lemma k_store c e a w h ev : keeps h (fst (fst (h_process_store c e a w (h, ev)))).
Proof.
  unfold h_process_store. destruct (dget a (hstores h)) as [s|]; [|apply k_refl]. destruct (_ || _); [apply k_refl|]. assert (K : keeps h (fst (h_due s (e_now e) h))) by (destruct s; [apply k_refl|apply k_news]).
  destruct (h_due s (e_now e) h) as [h0 rs]. pose proof (k_due c e a rs h0 ev) as K1. destruct (h_process_due c e a rs (h0, ev)) as [[h1 ev1] [[]|y]]; cbn [fst] in *; eapply k_trans; eauto.
Qed.
Lemma k_stores c e : forall l w h ev, keeps h (fst (fst (h_process_stores c e l w (h, ev)))).
Proof.
  induction l as [|a l IH]; intros w h ev; [apply k_refl|]. cbn [h_process_stores]. pose proof (k_store c e a w h ev) as K. destruct (h_process_store c e a w (h, ev)) as [[h1 ev1] [w1|y]]; [|exact K]. eapply k_trans; [exact K|apply IH].
Qed.
Lemma k_process c e h : keeps h (fst (h_process c e h)).
Proof.
  unfold h_process. cbv zeta. destruct (sstate_eqb _ _); [apply k_refl|]. destruct (e_plock e); [apply k_same; reflexivity|]. pose proof (k_stores c e (dkeys (hstores h)) None h []) as K. destruct (h_process_stores _ _ _ _ _) as [[h1 ev] [w|y]]; [|exact K]. eapply k_trans; [exact K|apply k_same; reflexivity].
Qed.
Lemma k_call c e o h : keeps h (fst (h_call c e o h)).
Proof.
  destruct o; cbn [h_call void fst].
  - apply k_new.
  - destruct (Nat.ltb r (hn h)); [apply k_add|apply k_refl].
  - unfold h_get. pose proof (k_lookup id want h) as K. destruct (h_lookup id want h) as [h1 [[r w]|y]]; exact K.
  - apply k_update.
  - apply k_reschedule.
  - apply k_resume.
  - apply k_delete.
  - apply k_remove_all.
  - destruct (Nat.ltb r (hn h)); [|apply k_refl]. unfold handle. destruct (t_sched (hp h r)) as [k|]; [|apply k_refl]. destruct (negb _); [apply k_refl|]. destruct a; cbn [void fst].
    + apply k_update.
    + apply k_resume.
    + apply k_reschedule.
    + apply k_update.
    + apply k_delete.
  - apply k_add_store.
  - apply k_start.
  - apply k_process.
Qed.
Lemma k_calls c : forall l h, keeps h (fst (h_calls c l h)).
Proof.
  induction l as [|[e o] l IH]; intros h; [apply k_refl|]. cbn [h_calls]. pose proof (k_call c e o h) as K. destruct (h_call c e o h) as [h1 x]. specialize (IH h1). destruct (h_calls c l h1) as [h2 xs]. eapply k_trans; eauto.
Qed.
