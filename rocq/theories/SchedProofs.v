From Verif Require Import Prelude PreludeFacts MemStore StoreSpec MemStoreProofs CallArgs Cron Triggers TriggerSpec Task TaskSpec TaskProofs Scheduler Executor SchedSpec.
Open Scope Z_scope.

Ltac sp := repeat match goal with |- _ /\ _ => split end.
Notation InvT := (Inv t_id t_next).
Record wf (s : sched) : Prop := {
  wf_keys : NoDup (dkeys (stores s));
  wf_execs : NoDup (dkeys (execs s));
  wf_inv : forall a x, dget a (stores s) = Some x -> InvT (s_mem x) }.

(** two states that agree on stores and executors are equally well formed *)
Lemma wf_same s s' : stores s' = stores s -> execs s' = execs s -> wf s -> wf s'.
Proof. intros E1 E2 [A B C]. constructor; rewrite ?E1, ?E2; auto. Qed.

Lemma wf_set s a x : wf s -> InvT (s_mem x) -> wf (w_stores (dset a x (stores s)) s).
Proof.
  intros [A B C] H. constructor; cbn; auto.
  - apply dset_NoDup, A.
  - intros b y G. destruct (string_dec b a) as [->|N].
    + rewrite dget_dset_eq in G. injection G as <-. exact H.
    + rewrite dget_dset_ne in G by exact N. eauto.
Qed.

Lemma stored_same s s' a id : stores s' = stores s -> stored s' a id = stored s a id.
Proof. unfold stored. intros ->. reflexivity. Qed.

Lemma stored_set s a x b id : stored (w_stores (dset a x (stores s)) s) b id =
  if String.eqb b a then ms_lookup (s_mem x) id else stored s b id.
Proof.
  unfold stored; cbn. destruct (String.eqb_spec b a) as [->|N].
  - rewrite dget_dset_eq. reflexivity.
  - rewrite dget_dset_ne by exact N. reflexivity.
Qed.

(** ** single store operations *)
Lemma st_update_ok x t : InvT (s_mem x) ->
  let (x', r) := st_update x t in
  InvT (s_mem x') /\ s_memory x' = s_memory x /\ s_starts x' = s_starts x /\ s_stops x' = s_stops x /\
  ((r = Ok tt /\ forall j, ms_lookup (s_mem x') j = c_set t_id (ms_lookup (s_mem x)) t j) \/
   (r = Err TaskLookupError /\ x' = x /\ s_memory x = false /\ ms_lookup (s_mem x) (t_id t) = None)).
Proof.
  intros I. unfold st_update. destruct (negb (s_memory x) && negb (dmem (t_id t) (ms_index (s_mem x)))) eqn:E.
  - sp; auto. right. apply andb_prop in E as [E1 E2]. apply negb_true_iff in E1, E2. apply dmem_false in E2.
    sp; auto. unfold ms_lookup. rewrite E2. reflexivity.
  - pose proof (update_ok t_id t_next (s_mem x) t I) as U. destruct (ms_update' (s_mem x) t) as [m r]. cbn.
    destruct U as (U1 & -> & U2). sp; auto.
Qed.
Lemma st_update_present x t t0 : InvT (s_mem x) -> ms_lookup (s_mem x) (t_id t) = Some t0 -> snd (st_update x t) = Ok tt.
Proof.
  intros I H. pose proof (st_update_ok x t I) as U. destruct (st_update x t) as [x' r]. cbn.
  destruct U as (_ & _ & _ & _ & [[-> _]|(_ & _ & _ & N)]); [reflexivity|congruence].
Qed.
Lemma st_delete_ok x id : InvT (s_mem x) ->
  let (x', r) := st_delete x id in
  InvT (s_mem x') /\ s_memory x' = s_memory x /\ s_starts x' = s_starts x /\ s_stops x' = s_stops x /\
  match ms_lookup (s_mem x) id with
  | None => r = Err TaskLookupError /\ x' = x
  | Some _ => r = Ok tt /\ forall j, ms_lookup (s_mem x') j = c_del (ms_lookup (s_mem x)) id j
  end.
Proof.
  intros I. unfold st_delete. pose proof (delete_ok t_id t_next (s_mem x) id I) as U.
  destruct (ms_delete' (s_mem x) id) as [m r]. cbn. destruct U as (U1 & U2). sp; auto.
  unfold ms_content in U2. destruct (ms_lookup (s_mem x) id); auto. destruct U2 as [-> ->]. destruct x; auto.
Qed.
Lemma st_add_ok x t : InvT (s_mem x) ->
  let (x', r) := st_add x t in
  InvT (s_mem x') /\ s_memory x' = s_memory x /\ s_starts x' = s_starts x /\ s_stops x' = s_stops x /\
  match ms_lookup (s_mem x) (t_id t) with
  | Some _ => r = Err ConflictIdError /\ x' = x
  | None => r = Ok tt /\ forall j, ms_lookup (s_mem x') j = c_set t_id (ms_lookup (s_mem x)) t j
  end.
Proof.
  intros I. unfold st_add. pose proof (add_ok t_id t_next (s_mem x) t I) as U.
  destruct (ms_add' (s_mem x) t) as [m r]. cbn. destruct U as (U1 & U2). sp; auto.
  unfold ms_content in U2. destruct (ms_lookup (s_mem x) (t_id t)); auto. destruct U2 as [-> ->]. destruct x; auto.
Qed.

(** ** what processing never touches *)
Record frame (s s' : sched) : Prop := {
  fr_st : st s' = st s; fr_refc : refc s' = refc s; fr_execs : execs s' = execs s; fr_pend : pend s' = pend s;
  fr_ran : ran s' = ran s; fr_wakes : wakes_n s' = wakes_n s; fr_keys : dkeys (stores s') = dkeys (stores s) }.
Lemma frame_refl s : frame s s. Proof. constructor; reflexivity. Qed.
Lemma frame_trans a b c : frame a b -> frame b c -> frame a c.
Proof. intros [] []; constructor; congruence. Qed.

(** ** delete_task *)
Lemma del_stores_spec want id l : NoDup (dkeys l) -> (forall a x, dget a l = Some x -> InvT (s_mem x)) ->
  let (l', r) := del_stores want id l in
  dkeys l' = dkeys l /\
  (forall b x', dget b l' = Some x' -> InvT (s_mem x')) /\
  match r with
  | None => l' = l /\ forall a x, dget a l = Some x -> wanted want a = true -> ms_lookup (s_mem x) id = None
  | Some a => wanted want a = true /\ exists l1 x l2 x' t, l = l1 ++ (a, x) :: l2 /\ l' = l1 ++ (a, x') :: l2 /\
      ms_lookup (s_mem x) id = Some t /\ st_delete x id = (x', Ok tt) /\
      (forall j, ms_lookup (s_mem x') j = c_del (ms_lookup (s_mem x)) id j) /\
      (forall b y, In (b, y) l1 -> wanted want b = true -> ms_lookup (s_mem y) id = None)
  end.
Proof.
  induction l as [|[a x] l IH]; intros ND HI; cbn [del_stores].
  - sp; auto. discriminate.
  - inversion ND as [|? ? Hn ND']; subst.
    assert (HI' : forall a0 x0, dget a0 l = Some x0 -> InvT (s_mem x0)).
    { intros b y G. apply (HI b). cbn. destruct (String.eqb_spec b a) as [->|]; auto.
      exfalso. apply Hn. eapply dget_Some_key; eauto. }
    assert (Ix : InvT (s_mem x)) by (apply (HI a); cbn; rewrite String.eqb_refl; reflexivity).
    specialize (IH ND' HI').
    assert (K : forall b y, dget b ((a, x) :: l) = Some y -> (b = a /\ y = x) \/ dget b l = Some y).
    { intros b y. cbn. destruct (String.eqb_spec b a) as [->|]; [intros [= ->]|]; auto. }
    destruct (wanted want a) eqn:W.
    + pose proof (st_delete_ok x id Ix) as D. destruct (st_delete x id) as [x' r0] eqn:E.
      destruct D as (D1 & _ & _ & _ & D2).
      destruct (ms_lookup (s_mem x) id) as [t|] eqn:L.
      * destruct D2 as [-> D2]. split; [reflexivity|]. split.
        -- intros b y. cbn. destruct (String.eqb_spec b a) as [->|]; [intros [= <-]; auto|eauto].
        -- split; auto. exists [], x, l, x', t. sp; auto. intros ? ? [].
      * destruct D2 as [-> ->]. destruct (del_stores want id l) as [l2 r]. destruct IH as (I1 & I2 & I3). split; [unfold dkeys in *; cbn; congruence|]. split.
        -- intros b y. cbn. destruct (String.eqb_spec b a) as [->|]; [intros [= <-]; auto|eauto].
        -- destruct r as [a0|].
           ++ destruct I3 as (W0 & l1 & x0 & l3 & x0' & t & -> & -> & A & B & C & D). split; auto.
              exists ((a, x) :: l1), x0, l3, x0', t. sp; auto. intros b y [[= <- <-]|]; eauto.
           ++ destruct I3 as [-> I3]. split; auto. intros b y G Wb. apply K in G as [[-> ->]|G]; eauto.
    + destruct (del_stores want id l) as [l2 r]. destruct IH as (I1 & I2 & I3). split; [unfold dkeys in *; cbn; congruence|]. split.
      -- intros b y. cbn. destruct (String.eqb_spec b a) as [->|]; [intros [= <-]; auto|eauto].
      -- destruct r as [a0|].
         ++ destruct I3 as (W0 & l1 & x0 & l3 & x0' & t & -> & -> & A & B & C & D). split; auto.
            exists ((a, x) :: l1), x0, l3, x0', t. sp; auto. intros b y [[= <- <-]|]; [intros Q; congruence|eauto].
         ++ destruct I3 as [-> I3]. split; auto. intros b y G Wb. apply K in G as [[-> ->]|G]; eauto. congruence.
Qed.
Lemma dget_mid {V} (l1 l2 : dict V) a x b : NoDup (dkeys (l1 ++ (a, x) :: l2)) ->
  dget b (l1 ++ (a, x) :: l2) = if String.eqb b a then Some x else dget b (l1 ++ l2).
Proof.
  unfold dkeys. rewrite map_app. cbn. intros ND. apply NoDup_remove_2 in ND. rewrite <- map_app in ND.
  induction l1 as [|[c y] l1 IH]; cbn; [reflexivity|]. cbn in ND.
  rewrite IH by intuition. destruct (String.eqb_spec b c) as [->|]; auto.
  destruct (String.eqb_spec c a) as [->|]; auto. intuition.
Qed.

(** deleting from a running or paused scheduler *)
Lemma delete_task_spec id want s : wf s -> stopped s = false -> id <> ""%string ->
  let (s', r) := delete_task id want s in
  frame s s' /\ wf s' /\ insts s' = insts s /\ subs s' = subs s /\ draws s' = draws s /\
  ((r = Err TaskLookupError /\ evs s' = evs s /\ stores s' = stores s /\ forall a, wanted want a = true -> stored s a id = None) \/
   (exists a t, r = Ok tt /\ wanted want a = true /\ stored s a id = Some t /\
      evs s' = evs s ++ [task_event TASK_REMOVED id (Some a)] /\
      (forall b j, stored s' b j = if String.eqb b a && String.eqb j id then None else stored s b j) /\
      (forall b x, dget b (stores s) = Some x -> exists x', dget b (stores s') = Some x' /\ s_memory x' = s_memory x))).
Proof.
  intros [W1 W2 W3] St Hid. unfold delete_task. apply String.eqb_neq in Hid. rewrite Hid, St.
  pose proof (del_stores_spec want id (stores s) W1 W3) as D. destruct (del_stores want id (stores s)) as [l r].
  destruct D as (D1 & D2 & D3). destruct r as [a|]; cbn.
  - destruct D3 as (Wa & l1 & x & l2 & x' & t & E1 & E2 & L & Dx & C & _).
    assert (N2 : NoDup (dkeys (l1 ++ (a, x') :: l2))) by (rewrite <- E2, D1; auto).
    assert (N1 : NoDup (dkeys (l1 ++ (a, x) :: l2))) by (rewrite <- E1; auto).
    assert (M : s_memory x' = s_memory x).
    { pose proof (st_delete_ok x id (W3 a x ltac:(rewrite E1, dget_mid, String.eqb_refl; auto))) as Y. rewrite Dx in Y. tauto. }
    split; [constructor; cbn -[dkeys]; auto|]. split; [constructor; cbn -[dkeys]; auto; rewrite D1; auto|].
    sp; auto. right. exists a, t. sp; auto.
    + unfold stored. rewrite E1, dget_mid, String.eqb_refl; auto.
    + intros b j. unfold stored; cbn. rewrite E1, E2, !dget_mid by auto.
      destruct (String.eqb_spec b a) as [->|]; cbn; auto. apply C.
    + intros b y. rewrite E1, E2, !dget_mid by auto. destruct (String.eqb_spec b a) as [->|]; eauto. intros [= <-]; eauto.
  - destruct D3 as (-> & D3). split; [constructor; cbn; auto|]. split; [constructor; cbn; auto|].
    sp; auto. left. sp; auto. intros a Wa. unfold stored. destruct (dget a (stores s)) eqn:G; eauto.
Qed.

Lemma store_update_spec a t s : wf s ->
  let (s', r) := store_update a t s in
  wf s' /\
  (has_store s a -> frame s s') /\
  insts s' = insts s /\ subs s' = subs s /\ draws s' = draws s /\ evs s' = evs s /\
  ((r = Err KeyError /\ ~ has_store s a /\ s' = s) \/
   (r = Err TaskLookupError /\ stored s a (t_id t) = None /\ (forall b j, stored s' b j = stored s b j) /\ has_store s a) \/
   (r = Ok tt /\ has_store s a /\ forall b j, stored s' b j = if String.eqb b a && String.eqb j (t_id t) then Some t else stored s b j)).
Proof.
  intros W. unfold store_update. destruct (dget a (stores s)) as [x|] eqn:G.
  2:{ sp; auto using frame_refl. left. sp; auto. intros [x H]; congruence. }
  pose proof (st_update_ok x t (wf_inv _ W _ _ G)) as U. destruct (st_update x t) as [x' r].
  destruct U as (U1 & U2 & U3 & U4 & U5).
  assert (HK : dkeys (dset a x' (stores s)) = dkeys (stores s)) by (apply dset_keys_in; eapply dget_Some_key; eauto).
  split; [apply wf_set; auto|]. split; [intros _; constructor; cbn -[dkeys]; auto|]. sp; auto.
  destruct U5 as [[-> C]|(-> & -> & M & N)]; right; [right|left].
  - split; auto. split; [exists x; auto|]. intros b j. rewrite stored_set. destruct (String.eqb_spec b a) as [->|]; cbn; auto.
    rewrite C. unfold c_set, stored. rewrite G. reflexivity.
  - split; auto. split; [unfold stored; rewrite G; auto|]. split; [|exists x; auto].
    intros b j. rewrite stored_set. destruct (String.eqb_spec b a) as [->|]; auto. unfold stored. rewrite G. reflexivity.
Qed.

(** ** one due task *)
Lemma last_coalesce b l times m x : coalesce_run_times b l = (times, m) -> last_opt times = Some x -> last_opt l = Some x.
Proof.
  unfold coalesce_run_times. destruct b; [|intros [= <- <-]; auto].
  destruct (last_opt l) eqn:E; intros [= <- <-]; [cbn; auto|congruence].
Qed.
Lemma last_coalesce_none b l times m : coalesce_run_times b l = (times, m) -> last_opt times = None -> last_opt l = None.
Proof.
  unfold coalesce_run_times. destruct b; [|intros [= <- <-]; auto].
  destruct (last_opt l) eqn:E; intros [= <- <-]; [discriminate|congruence].
Qed.
Lemma grt_due fuel gn k x now l k' : x <= now -> grt fuel gn k (Some x) now = Ok (l, k') -> l <> [].
Proof.
  intros L. destruct fuel; cbn; replace (x <=? now) with true by lia; [discriminate|].
  destruct (gn k (Some x)) as [n|]; [|discriminate]. destruct (grt fuel gn (S k) n now) as [[l1 k1]|]; [|discriminate].
  intros [= <- <-]. discriminate.
Qed.

Lemma frame_draws s n : frame s (w_draws n s). Proof. constructor; reflexivity. Qed.
Lemma count_dset id id0 v s : count id (w_insts (dset id0 v (insts s)) s) = if String.eqb id id0 then v else count id s.
Proof.
  unfold count; cbn. destruct (String.eqb_spec id id0) as [->|]; [rewrite dget_dset_eq|rewrite dget_dset_ne by auto]; auto.
Qed.
Lemma has_stored s a id t : stored s a id = Some t -> has_store s a.
Proof. unfold stored, has_store. destruct (dget a (stores s)); [eauto|discriminate]. Qed.
Lemma process_one_spec c e a t s ev s' ev' r : wf s -> stopped s = false -> t_id t <> ""%string ->
  stored s a (t_id t) = Some t -> is_due t_next (e_now e) t ->
  process_one c e a t (s, ev) = ((s', ev'), r) ->
  match r with
  | Err x => exists k, wake (c_fuel c) (c_oracle c) k t (e_now e) = Err x
  | Ok _ => exists f n, handled c e (has_exec s) (fun id => count id s) t f n /\ frame s s' /\ wf s' /\
      subs s' = subs s ++ submission_of t f /\ ev' = ev ++ event_of a t f /\ evs s' = evs s ++ removal_of a t n /\
      (forall id, count id s' = bump (fun id => count id s) t f id) /\
      (forall b j, stored s' b j = if String.eqb b a && String.eqb j (t_id t) then option_map (fun x => set_next (Some x) t) n else stored s b j)
  end.
Proof.
  intros W St Hid HS HD. unfold process_one.
  destruct (match t_exec t with Some xa => if dmem xa (execs s) then Some xa else None | None => None end) as [xa|] eqn:EX.
  - assert (Hx : t_exec t = Some xa /\ has_exec s xa).
    { destruct (t_exec t) as [y|]; [|discriminate]. destruct (dmem y (execs s)) eqn:D; [|discriminate].
      injection EX as ->. split; auto. apply dmem_true in D. exact D. }
    destruct (get_run_times (c_fuel c) (c_oracle c) (draws s) t (e_now e)) as [[due k]|x] eqn:G.
    2:{ intros [= <- <- <-]. exists (draws s). unfold wake. rewrite G. reflexivity. }
    destruct (coalesce_run_times (t_coalesce t) due) as [times m] eqn:CO.
    assert (Hne : due <> []).
    { destruct HD as (y & Ey & Ly). unfold get_run_times in G. rewrite Ey in G. eapply grt_due; eauto. }
    destruct (last_opt times) as [lastt|] eqn:LA.
    2:{ exfalso. apply (last_coalesce_none _ _ _ _ CO) in LA. apply last_opt_nil in LA. auto. }
    pose proof (last_coalesce _ _ _ _ _ CO LA) as LD.
    assert (KW : forall n, answers (c_fuel c) (c_oracle c) (t_trigger t) (e_now e) k (Some lastt) = Ok n ->
      wake (c_fuel c) (c_oracle c) (draws s) t (e_now e) = Ok (due, n, S k)).
    { intros n A. unfold wake. rewrite G, LD, A. reflexivity. }
    assert (KE : forall x, answers (c_fuel c) (c_oracle c) (t_trigger t) (e_now e) k (Some lastt) = Err x ->
      wake (c_fuel c) (c_oracle c) (draws s) t (e_now e) = Err x).
    { intros n A. unfold wake. rewrite G, LD, A. reflexivity. }
    set (s0 := w_draws k s) in *.
    assert (SEND : exists f, (forall n, answers (c_fuel c) (c_oracle c) (t_trigger t) (e_now e) k (Some lastt) = Ok n -> handled c e (has_exec s) (fun id => count id s) t f n) /\
        let (s1, r1) := send_task e xa t times s0 in
        frame s0 s1 /\ stores s1 = stores s0 /\ evs s1 = evs s0 /\ draws s1 = k /\
        subs s1 = subs s0 ++ submission_of t f /\ (forall id, count id s1 = bump (fun id => count id s) t f id) /\
        match r1 with
        | Ok _ => ev ++ [MkEvent TASK_SUBMITTED (Some (t_id t)) (Some a) times m]
        | Err MaximumInstancesError => ev ++ [MkEvent TASK_MAX_INSTANCES (Some (t_id t)) (Some a) times m]
        | Err _ => ev
        end = ev ++ event_of a t f).
    { unfold send_task. change (count (t_id t) s0) with (count (t_id t) s). destruct (count (t_id t) s >=? t_max t) eqn:CM.
      - exists (AtLimit times m). split.
        + intros n A. exists xa, due, (draws s), (S k). destruct Hx. sp; auto. lia.
        + sp; cbn; auto using frame_refl, app_nil_r.
      - destruct (e_send_fails e xa (t_id t)) eqn:SF.
        + exists Refused. split.
          * intros n A. exists xa, due, (draws s), (S k). destruct Hx. sp; auto. lia.
          * sp; cbn; auto using frame_refl, app_nil_r.
        + exists (Submitted xa times m). split.
          * intros n A. exists xa, due, (draws s), (S k). destruct Hx. sp; auto. lia.
          * sp; cbn; auto. { constructor; reflexivity. }
            intros id. unfold count; cbn. destruct (String.eqb_spec id (t_id t)) as [->|]; [rewrite dget_dset_eq|rewrite dget_dset_ne by auto]; auto. }
    destruct SEND as (f & HF & SEND). destruct (send_task e xa t times s0) as [s1 r1].
    destruct SEND as (S1 & S2 & S3 & S4 & S5 & S6 & S7). rewrite S7. cbn [ask]. unfold ask. rewrite S4.
    destruct (answers (c_fuel c) (c_oracle c) (t_trigger t) (e_now e) k (Some lastt)) as [[x|]|x] eqn:AN.
    + (* next run *)
      set (s2 := w_draws (S k) s1). assert (W2 : wf s2) by (apply (wf_same s); [exact S2|exact (fr_execs _ _ S1)|exact W]).
      assert (F2 : frame s s2) by (apply (frame_trans _ s1); [apply (frame_trans _ s0); [apply frame_draws|exact S1]|apply frame_draws]).
      pose proof (store_update_spec a (set_next (Some x) t) s2 W2) as U. destruct (store_update a (set_next (Some x) t) s2) as [s3 r3].
      destruct U as (U1 & U2 & U3 & U4 & U5 & U6 & U7).
      assert (SS : forall b j, stored s2 b j = stored s b j) by (intros; apply stored_same; cbn; rewrite S2; reflexivity).
      assert (H2 : has_store s2 a) by (eapply has_stored; rewrite SS; eauto).
      cbn [set_next t_id] in U7. intros [= <- <- <-].
      destruct U7 as [(_ & N & _)|[(_ & N & _)|(-> & _ & U7)]]; [tauto|rewrite SS in N; congruence|].
      exists f, (Some x). sp; auto.
      * apply (frame_trans _ s2); auto.
      * rewrite U4. cbn. exact S5.
      * rewrite U6. cbn. rewrite S3. cbn. rewrite app_nil_r. reflexivity.
      * intros id. rewrite <- S6. unfold count. rewrite U3. reflexivity.
      * intros b j. rewrite U7, SS. reflexivity.
    + set (s2 := w_draws (S k) s1). assert (W2 : wf s2) by (apply (wf_same s); [exact S2|exact (fr_execs _ _ S1)|exact W]).
      assert (F2 : frame s s2) by (apply (frame_trans _ s1); [apply (frame_trans _ s0); [apply frame_draws|exact S1]|apply frame_draws]).
      assert (St2 : stopped s2 = false) by (unfold stopped in *; rewrite (fr_st _ _ F2); auto).
      pose proof (delete_task_spec (t_id t) (Some a) s2 W2 St2 Hid) as U. destruct (delete_task (t_id t) (Some a) s2) as [s3 r3].
      destruct U as (U1 & U2 & U3 & U4 & U5 & U6).
      assert (SS : forall b j, stored s2 b j = stored s b j) by (intros; apply stored_same; cbn; rewrite S2; reflexivity).
      intros [= <- <- <-].
      destruct U6 as [(_ & _ & _ & N)|(b0 & t0 & -> & Wa & _ & U7 & U8 & _)].
      { specialize (N a (String.eqb_refl a)). rewrite SS in N. congruence. }
      cbn in Wa. apply String.eqb_eq in Wa. subst b0.
      exists f, None. sp; auto.
      * apply (frame_trans _ s2); auto.
      * rewrite U4. cbn. exact S5.
      * rewrite U7. cbn. rewrite S3. cbn. reflexivity.
      * intros id. rewrite <- S6. unfold count. rewrite U3. reflexivity.
      * intros b j. rewrite U8, SS. reflexivity.
    + intros [= <- <- <-]. eauto.
  - pose proof (delete_task_spec (t_id t) (Some a) s W St Hid) as U. destruct (delete_task (t_id t) (Some a) s) as [s3 r3].
    destruct U as (U1 & U2 & U3 & U4 & U5 & U6). intros [= <- <- <-].
    destruct U6 as [(_ & _ & _ & N)|(b0 & t0 & -> & Wa & _ & U7 & U8 & _)].
    { specialize (N a (String.eqb_refl a)). congruence. }
    cbn in Wa. apply String.eqb_eq in Wa. subst b0.
    exists Removed, None. sp; auto; cbn; auto using app_nil_r.
    + split; auto. intros (xa & E1 & y & E2). rewrite E1 in EX. unfold dmem in EX. rewrite E2 in EX. discriminate.
    + rewrite U4, app_nil_r. reflexivity.
    + intros id. unfold count. rewrite U3. reflexivity.
Qed.

Lemma handled_ext c e ex ex' cnt cnt' t f n : (forall x, ex x <-> ex' x) -> (forall i, cnt i = cnt' i) ->
  handled c e ex cnt t f n -> handled c e ex' cnt' t f n.
Proof.
  intros E1 E2. unfold handled. destruct f.
  - intros [A B]. split; auto. intros (xa & X & Y). apply B. exists xa. split; auto. apply E1. auto.
  - intros (xa & l & k & k' & A & B & C & D & F). exists xa, l, k, k'. rewrite <- E2, <- E1. auto.
  - intros (xa & l & k & k' & A & B & C & D & F). exists xa, l, k, k'. rewrite <- E2, <- E1. auto.
  - intros (xa & l & k & k' & A & B & C & D & F). exists xa, l, k, k'. rewrite <- E2, <- E1. auto.
Qed.
Lemma bump_ext cnt cnt' t f : (forall i, cnt i = cnt' i) -> forall i, bump cnt t f i = bump cnt' t f i.
Proof. intros E i. unfold bump. destruct f; auto. rewrite E. reflexivity. Qed.
Lemma pass_ext c e ex ex' due : (forall x, ex x <-> ex' x) -> forall fs cnt cnt', (forall i, cnt i = cnt' i) ->
  pass c e ex cnt due fs -> pass c e ex' cnt' due fs.
Proof.
  intros E1. induction due as [|[a t] due IH]; intros [|[f n] fs] cnt cnt' E2; cbn; auto.
  intros [A B]. split; [eapply handled_ext; eauto|]. eapply IH; [|exact B]. apply bump_ext, E2.
Qed.
Lemma counts_ext due : forall fs cnt cnt', (forall i, cnt i = cnt' i) -> forall i, counts_after cnt due fs i = counts_after cnt' due fs i.
Proof.
  induction due as [|[a t] due IH]; intros [|[f n] fs] cnt cnt' E2; cbn; auto. apply IH, bump_ext, E2.
Qed.
Lemma pass_app c e ex due1 : forall due2 fs1 fs2 cnt,
  pass c e ex cnt due1 fs1 -> pass c e ex (counts_after cnt due1 fs1) due2 fs2 -> pass c e ex cnt (due1 ++ due2) (fs1 ++ fs2).
Proof.
  induction due1 as [|[a t] due IH]; intros due2 [|[f n] fs] fs2 cnt; cbn; try tauto. intros [A B] C. split; eauto.
Qed.
Lemma counts_app c e ex due1 : forall due2 fs1 fs2 cnt, pass c e ex cnt due1 fs1 ->
  forall i, counts_after cnt (due1 ++ due2) (fs1 ++ fs2) i = counts_after (counts_after cnt due1 fs1) due2 fs2 i.
Proof.
  induction due1 as [|[a t] due IH]; intros due2 [|[f n] fs] fs2 cnt; cbn; try tauto. intros [A B] i. rewrite IH; auto.
Qed.
Lemma collect_app {A} (g : string -> task -> fate -> option Z -> list A) c e ex due1 : forall due2 fs1 fs2 cnt, pass c e ex cnt due1 fs1 ->
  collect g (due1 ++ due2) (fs1 ++ fs2) = collect g due1 fs1 ++ collect g due2 fs2.
Proof.
  induction due1 as [|[a t] due IH]; intros due2 [|[f n] fs] fs2 cnt; cbn; try tauto. intros [B C]. erewrite IH by eauto. apply app_assoc.
Qed.
Lemma pass_length c e ex due : forall fs cnt, pass c e ex cnt due fs -> List.length due = List.length fs.
Proof. induction due as [|[a t] due IH]; intros [|[f n] fs] cnt; cbn; try tauto. intros [_ H]. f_equal; eauto. Qed.

Definition g_sub (a : string) (t : task) (f : fate) (n : option Z) := submission_of t f.
Definition g_ev (a : string) (t : task) (f : fate) (n : option Z) := event_of a t f.
Definition g_rm (a : string) (t : task) (f : fate) (n : option Z) := removal_of a t n.

(** everything a batch of handled tasks does *)
Record batch (c : config) (e : envir) (s : sched) (ev : list event) (due : list (string * task)) (fs : list (fate * option Z)) (s' : sched) (ev' : list event) : Prop := {
  b_pass : pass c e (has_exec s) (fun id => count id s) due fs;
  b_frame : frame s s'; b_wf : wf s';
  b_subs : subs s' = subs s ++ collect g_sub due fs;
  b_ev : ev' = ev ++ collect g_ev due fs;
  b_evs : evs s' = evs s ++ collect g_rm due fs;
  b_counts : forall id, count id s' = counts_after (fun id => count id s) due fs id;
  b_stores : stores_after s due fs s' }.

Lemma batch_nil c e s ev : wf s -> batch c e s ev [] [] s ev.
Proof.
  intros W. constructor; cbn; auto using frame_refl, app_nil_r. split; cbn; [tauto|auto].
Qed.
Lemma has_exec_frame s s' : frame s s' -> forall x, has_exec s x <-> has_exec s' x.
Proof. intros F x. unfold has_exec. rewrite (fr_execs _ _ F). tauto. Qed.

Lemma combine_app_inv {A B} (l1 l2 : list A) (m1 m2 : list B) p : List.length l1 = List.length m1 ->
  In p (combine (l1 ++ l2) (m1 ++ m2)) -> In p (combine l1 m1) \/ In p (combine l2 m2).
Proof.
  revert m1. induction l1 as [|x l1 IH]; intros [|y m1]; cbn; try discriminate; auto.
  intros [= L] [->|H]; auto. destruct (IH m1 L H); auto.
Qed.
Lemma batch_app c e s ev due1 fs1 s1 ev1 due2 fs2 s2 ev2 :
  batch c e s ev due1 fs1 s1 ev1 -> batch c e s1 ev1 due2 fs2 s2 ev2 ->
  (forall a t1 t2, In (a, t1) due1 -> In (a, t2) due2 -> t_id t1 <> t_id t2) ->
  batch c e s ev (due1 ++ due2) (fs1 ++ fs2) s2 ev2.
Proof.
  intros B1 B2 D. destruct B1 as [A1 A2 A3 A4 A5 A6 A7 A8], B2 as [C1 C2 C3 C4 C5 C6 C7 C8].
  assert (P : pass c e (has_exec s) (fun id => count id s) (due1 ++ due2) (fs1 ++ fs2)).
  { apply pass_app; auto. eapply pass_ext; [| |exact C1].
    - intros x. symmetry. apply has_exec_frame, A2.
    - exact A7. }
  constructor; auto.
  - eapply frame_trans; eauto.
  - rewrite C4, A4, <- app_assoc. f_equal. symmetry. eapply collect_app; eauto.
  - rewrite C5, A5, <- app_assoc. f_equal. symmetry. eapply collect_app; eauto.
  - rewrite C6, A6, <- app_assoc. f_equal. symmetry. eapply collect_app; eauto.
  - intros id. rewrite C7. erewrite counts_app by eauto. apply counts_ext, A7.
  - destruct A8 as [X1 X2], C8 as [Y1 Y2]. split.
    + intros a t f n H. apply combine_app_inv in H; [|eapply pass_length; eauto]. destruct H as [H|H].
      * rewrite Y2; [eauto|]. intros t2 H2 E. apply (in_combine_l _ _ _ _) in H. apply (D a t t2 H H2). congruence.
      * eauto.
    + intros a id H. rewrite Y2, X2; auto; intros t Ht; apply H, in_or_app; auto.
Qed.

Definition ready (c : config) (e : envir) (s : sched) (at_ : string * task) : Prop :=
  stored s (fst at_) (t_id (snd at_)) = Some (snd at_) /\ is_due t_next (e_now e) (snd at_) /\ t_id (snd at_) <> ""%string.

Lemma process_due_spec c e a : forall l s ev s' ev' r, wf s -> stopped s = false -> NoDup (map t_id l) ->
  (forall t, In t l -> ready c e s (a, t)) ->
  process_due c e a l (s, ev) = ((s', ev'), r) ->
  match r with
  | Err x => exists t k, In t l /\ wake (c_fuel c) (c_oracle c) k t (e_now e) = Err x
  | Ok _ => exists fs, batch c e s ev (map (pair a) l) fs s' ev'
  end.
Proof.
  induction l as [|t l IH]; intros s ev s' ev' r W St ND HR; cbn [process_due].
  - intros [= <- <- <-]. exists []. apply batch_nil; auto.
  - inversion ND as [|? ? N1 N2]; subst. destruct (HR t (or_introl eq_refl)) as (R1 & R2 & R3); cbn in R1, R2, R3.
    destruct (process_one c e a t (s, ev)) as [[s1 ev1] r1] eqn:P.
    pose proof (process_one_spec _ _ _ _ _ _ _ _ _ W St R3 R1 R2 P) as Q.
    destruct r1 as [u|x].
    + destruct Q as (f & n & Q1 & Q2 & Q3 & Q4 & Q5 & Q6 & Q7 & Q8). intros H.
      assert (B1 : batch c e s ev [(a, t)] [(f, n)] s1 ev1).
      { constructor; cbn [pass collect counts_after combine]; rewrite ?app_nil_r; auto. split.
        - intros b t0 f0 n0 [[= <- <- <- <-]|[]]. rewrite Q8, !String.eqb_refl. reflexivity.
        - intros b id Hb. rewrite Q8. destruct (String.eqb_spec b a) as [->|]; cbn; auto.
          destruct (String.eqb_spec id (t_id t)) as [->|]; auto. exfalso. apply (Hb t); cbn; auto. }
      assert (St1 : stopped s1 = false) by (unfold stopped in *; rewrite (fr_st _ _ Q2); auto).
      apply (IH s1 ev1 s' ev' r Q3 St1 N2) in H.
      * destruct r as [u0|x]; [|destruct H as (t0 & k & H1 & H2); exists t0, k; split; cbn; auto].
        destruct H as (fs & B2). exists ((f, n) :: fs). change (map (pair a) (t :: l)) with ([(a, t)] ++ map (pair a) l).
        change ((f, n) :: fs) with ([(f, n)] ++ fs). eapply batch_app; eauto.
        intros b t1 t2 [[= <- <-]|[]] H2. apply in_map_iff in H2 as (t3 & [= <-] & H3). intros E. apply N1. rewrite E. apply in_map, H3.
      * intros t0 H0. destruct (HR t0 (or_intror H0)) as (X1 & X2 & X3). split; [|split]; auto. cbn in *.
        rewrite Q8, String.eqb_refl. cbn. destruct (String.eqb_spec (t_id t0) (t_id t)) as [E|]; auto.
        exfalso. apply N1. rewrite <- E. apply in_map, H0.
    + intros [= <- <- <-]. destruct Q as (k & Q). exists t, k. split; [left|]; auto.
Qed.

(** ** the wake-up time computed along the stores *)
Record wake_ok (c : config) (e : envir) (s' : sched) (l : list string) (w w' : option Z) : Prop := {
  wo_next : forall a id t x, In a l -> readable e a -> stored s' a id = Some t -> t_next t = Some x -> exists y, w' = Some y /\ y <= x;
  wo_retry : forall a, In a l -> ~ readable e a -> exists y, w' = Some y /\ y <= e_now e + c_retry c;
  wo_mono : forall y0, w = Some y0 -> exists y, w' = Some y /\ y <= y0;
  wo_exact : forall y, w' = Some y -> w = Some y \/ (exists a, In a l /\ ~ readable e a /\ y = e_now e + c_retry c) \/
      (exists a id t, In a l /\ readable e a /\ stored s' a id = Some t /\ t_next t = Some y) }.

Lemma readable_dec e a : (e_busy e a || e_fails e a = true /\ ~ readable e a) \/ (e_busy e a || e_fails e a = false /\ readable e a).
Proof. unfold readable. destruct (e_busy e a), (e_fails e a); cbn; intuition congruence. Qed.

Definition due_in (e : envir) (s : sched) (l : list string) (due : list (string * task)) : Prop :=
  NoDup (map (fun at_ => (fst at_, t_id (snd at_))) due) /\
  forall a t, In (a, t) due <-> (In a l /\ readable e a /\ stored s a (t_id t) = Some t /\ is_due t_next (e_now e) t).

Lemma sooner_spec w t : exists y, sooner w t = Some y /\ y <= t /\ (forall y0, w = Some y0 -> y <= y0) /\ (w = Some y \/ y = t).
Proof.
  unfold sooner. destruct w as [x|]; [|exists t; sp; auto; try lia; discriminate].
  destruct (x >? t) eqn:E; eexists; (split; [reflexivity|]); (split; [lia|]); (split; [intros y0 [= <-]; lia|]); auto.
Qed.

Lemma process_store_spec c e a w s ev s' ev' r : wf s -> stopped s = false -> no_empty_id s -> has_store s a ->
  process_store c e a w (s, ev) = ((s', ev'), r) ->
  match r with
  | Err x => exists t k, readable e a /\ stored s a (t_id t) = Some t /\ is_due t_next (e_now e) t /\ wake (c_fuel c) (c_oracle c) k t (e_now e) = Err x
  | Ok w' => exists due fs, due_in e s [a] due /\ batch c e s ev due fs s' ev' /\ wake_ok c e s' [a] w w'
  end.
Proof.
  intros W St NE [x HG]. unfold process_store. rewrite HG. destruct (readable_dec e a) as [[-> NR]|[-> R]].
  - intros [= <- <- <-]. exists [], []. destruct (sooner_spec w (e_now e + c_retry c)) as (y & E1 & E2 & E3 & E4). rewrite E1. split.
    + split; [constructor|]. intros b t. split; [intros []|]. intros [[<-|[]] [? _]]. tauto.
    + split; [apply batch_nil; auto|]. constructor.
      * intros b id t z [<-|[]]; tauto.
      * intros b [<-|[]] _. eauto.
      * eauto.
      * intros z [= <-]. destruct E4 as [->| ->]; auto. right; left. exists a. cbn; auto.
  - pose proof (wf_inv _ W _ _ HG) as I. pose proof (due_ok t_id t_next (s_mem x) (e_now e) I) as (D1 & D2 & D3).
    assert (HR : forall t, In t (ms_due (s_mem x) (e_now e)) -> ready c e s (a, t)).
    { intros t Ht. apply D3 in Ht as [H1 H2]. assert (SS : stored s a (t_id t) = Some t) by (unfold stored; rewrite HG; exact H1).
      split; [exact SS|split; [exact H2|]]. cbn. intros E. rewrite E in SS. rewrite (NE a) in SS. discriminate. }
    destruct (process_due c e a (ms_due (s_mem x) (e_now e)) (s, ev)) as [[s1 ev1] r1] eqn:P.
    pose proof (process_due_spec _ _ _ _ _ _ _ _ _ W St D1 HR P) as Q. destruct r1 as [u|x0].
    + destruct Q as (fs & B). intros [= <- <- <-]. exists (map (pair a) (ms_due (s_mem x) (e_now e))), fs. split; [|split; [exact B|]].
      * split.
        -- rewrite map_map. cbn. apply NoDup_map_inv with (f := snd). rewrite map_map. cbn. exact D1.
        -- intros b t. rewrite in_map_iff. split.
           ++ intros (t0 & [= <- <-] & H). apply D3 in H as [H1 H2]. sp; cbn; auto. unfold stored. rewrite HG. exact H1.
           ++ intros ([<-|[]] & _ & H1 & H2). exists t. split; auto. apply D3. unfold stored in H1. rewrite HG in H1. auto.
      * assert (HG1 : exists x1, dget a (stores s1) = Some x1).
        { apply dmem_true. unfold dmem. destruct (dget a (stores s1)) eqn:G1; auto. apply dget_None in G1. rewrite (fr_keys _ _ (b_frame _ _ _ _ _ _ _ _ B)) in G1.
          exfalso. apply G1. eapply dget_Some_key; eauto. }
        destruct HG1 as [x1 HG1]. rewrite HG1. pose proof (next_ok t_id t_next (s_mem x1) (wf_inv _ (b_wf _ _ _ _ _ _ _ _ B) _ _ HG1)) as N.
        assert (SE : forall id, stored s1 a id = ms_content (s_mem x1) id) by (intros; unfold stored; rewrite HG1; reflexivity).
        destruct (ms_next_run_time t_next (s_mem x1)) as [n|]; cbn in N.
        -- destruct N as [(i & t & N1 & N2) N3]. 
           assert (exists y, match w with Some y => if n <? y then Some n else Some y | None => Some n end = Some y /\ y <= n /\ (forall y0, w = Some y0 -> y <= y0) /\ (w = Some y \/ y = n)) as (y & E1 & E2 & E3 & E4).
           { destruct w as [y|]; [|exists n; sp; auto; try lia; discriminate]. destruct (n <? y) eqn:Ny; eexists; (split; [reflexivity|]); sp; auto; try lia; intros y0 [= <-]; lia. }
           replace (match w with Some y => if n <? y then Some n else Some y | None => Some n end) with (Some y).
           constructor.
           ++ intros b id t0 z [<-|[]] _ H1 H2. rewrite SE in H1. exists y. split; auto. specialize (N3 _ _ _ H1 H2). lia.
           ++ intros b [<-|[]]; tauto.
           ++ eauto.
           ++ intros z [= <-]. destruct E4 as [->|E4]; auto. right; right. exists a, i, t. rewrite SE. subst n. cbn; auto.
        -- replace (match w with Some y => Some y | None => None end) with w by (destruct w; auto). constructor.
           ++ intros b id t0 z [<-|[]] _ H1 H2. rewrite SE in H1. rewrite (N _ _ H1) in H2. discriminate.
           ++ intros b [<-|[]]; tauto.
           ++ intros y0 ->. exists y0. split; auto. lia.
           ++ auto.
    + destruct Q as (t & k & H1 & H2). intros [= <- <- <-]. destruct (HR t H1) as (X1 & X2 & X3). exists t, k. auto.
Qed.

Lemma due_not_empty e s l due s' ev ev' c fs : no_empty_id s -> due_in e s l due -> batch c e s ev due fs s' ev' -> no_empty_id s'.
Proof.
  intros NE [_ D] B a. destruct (b_stores _ _ _ _ _ _ _ _ B) as [_ U]. rewrite U; auto.
  intros t Ht E. apply D in Ht as (_ & _ & S & _). rewrite E, NE in S. discriminate.
Qed.
Lemma combine_has {A B} (l : list A) (m : list B) : List.length l = List.length m -> forall x, In x l -> exists y, In (x, y) (combine l m).
Proof.
  revert m. induction l as [|z l IH]; intros [|y m]; cbn; try discriminate; [tauto|].
  intros [= L] x [->|H]; eauto. destruct (IH m L x H) as (y0 & H0). eauto.
Qed.
Lemma batch_other c e s ev due fs s' ev' a : batch c e s ev due fs s' ev' -> (forall t, ~ In (a, t) due) -> forall id, stored s' a id = stored s a id.
Proof. intros B N id. destruct (b_stores _ _ _ _ _ _ _ _ B) as [_ U]. apply U. intros t Ht. destruct (N t Ht). Qed.
Lemma has_store_frame s s' a : frame s s' -> has_store s a -> has_store s' a.
Proof.
  intros F [x G]. apply dget_Some_key in G. rewrite <- (fr_keys _ _ F) in G. unfold has_store.
  destruct (dget a (stores s')) eqn:E; eauto. apply dget_None in E. tauto.
Qed.

Lemma NoDup_app_intro {A} (l1 l2 : list A) : NoDup l1 -> NoDup l2 -> (forall x, In x l1 -> In x l2 -> False) -> NoDup (l1 ++ l2).
Proof.
  induction l1 as [|x l1 IH]; cbn; auto. intros N1 N2 D. inversion N1; subst. constructor.
  - rewrite in_app_iff. intros [H|H]; [auto|]. eapply D; [left; reflexivity|exact H].
  - apply IH; auto. intros y Y1 Y2. eapply D; [right; exact Y1|exact Y2].
Qed.

Lemma process_stores_spec c e : forall l w s ev s' ev' r, wf s -> stopped s = false -> no_empty_id s ->
  NoDup l -> (forall a, In a l -> has_store s a) ->
  process_stores c e l w (s, ev) = ((s', ev'), r) ->
  match r with
  | Err x => exists a t k, In a l /\ readable e a /\ stored s a (t_id t) = Some t /\ is_due t_next (e_now e) t /\ wake (c_fuel c) (c_oracle c) k t (e_now e) = Err x
  | Ok w' => exists due fs, due_in e s l due /\ batch c e s ev due fs s' ev' /\ wake_ok c e s' l w w'
  end.
Proof.
  induction l as [|a l IH]; intros w s ev s' ev' r W St NE ND HS; cbn [process_stores].
  - intros [= <- <- <-]. exists [], []. split; [|split; [apply batch_nil; auto|]].
    + split; [constructor|]. intros b t; cbn; tauto.
    + constructor; [intros ? ? ? ? []|intros ? []|intros y0 ->; exists y0; split; auto; lia|auto].
  - inversion ND as [|? ? N1 N2]; subst.
    destruct (process_store c e a w (s, ev)) as [[s1 ev1] r1] eqn:P.
    pose proof (process_store_spec _ _ _ _ _ _ _ _ _ W St NE (HS a (or_introl eq_refl)) P) as Q. destruct r1 as [w1|x].
    2:{ intros [= <- <- <-]. destruct Q as (t & k & A & B & C & D). exists a, t, k. sp; cbn; auto. }
    destruct Q as (due1 & fs1 & D1 & B1 & K1). intros H.
    pose proof (b_frame _ _ _ _ _ _ _ _ B1) as F1.
    assert (OTH : forall b id, b <> a -> stored s1 b id = stored s b id).
    { intros b id Hb. eapply batch_other; eauto. intros t Ht. apply (proj2 D1) in Ht as ([->|[]] & _). auto. }
    apply IH in H; auto.
    2: exact (b_wf _ _ _ _ _ _ _ _ B1).
    2: unfold stopped in *; rewrite (fr_st _ _ F1); auto.
    2: eapply due_not_empty; eauto.
    2: intros b Hb; eapply has_store_frame; [exact F1|]; apply HS; right; exact Hb.
    destruct r as [w2|x].
    2:{ destruct H as (b & t & k & Hb & R & S & Du & E). exists b, t, k. rewrite OTH in S by congruence. sp; cbn; auto. }
    destruct H as (due2 & fs2 & D2 & B2 & K2). exists (due1 ++ due2), (fs1 ++ fs2).
    assert (OTH2 : forall id, stored s' a id = stored s1 a id).
    { intros id. eapply batch_other; eauto. intros t Ht. apply (proj2 D2) in Ht as (? & _). auto. }
    split; [|split].
    + split.
      * rewrite map_app. apply NoDup_app_intro; [apply D1|apply D2|].
        intros [b i] H1 H2. apply in_map_iff in H1 as ([b1 t1] & [= <- <-] & H1), H2 as ([b2 t2] & [= -> _] & H2).
        apply (proj2 D1) in H1 as ([->|[]] & _). apply (proj2 D2) in H2 as (? & _). auto.
      * intros b t. destruct D1 as [_ D1b], D2 as [_ D2b]. rewrite in_app_iff, D1b, D2b. cbn. split.
        -- intros [([->|[]] & ?)|(Hb & R & S & Du)]; [tauto|]. rewrite OTH in S by congruence. tauto.
        -- intros ([->|Hb] & R & S & Du); [left; tauto|right]. rewrite OTH by congruence. tauto.
    + eapply batch_app; eauto. intros b t1 t2 H1 H2. apply (proj2 D1) in H1 as ([->|[]] & _). apply (proj2 D2) in H2 as (? & _). tauto.
    + destruct K1 as [A1 A2 A3 A4], K2 as [C1 C2 C3 C4]. constructor.
      * intros b id t x [<-|Hb] R S E; [|eauto]. rewrite OTH2 in S. destruct (A1 a id t x) as (y & -> & L); cbn; auto.
        destruct (C3 y eq_refl) as (z & -> & L2). exists z. split; auto. lia.
      * intros b [<-|Hb] R; [|eauto]. destruct (A2 a) as (y & -> & L); cbn; auto. destruct (C3 y eq_refl) as (z & -> & L2). exists z. split; auto. lia.
      * intros y0 ->. destruct (A3 y0 eq_refl) as (y & -> & L). destruct (C3 y eq_refl) as (z & -> & L2). exists z. split; auto. lia.
      * intros y Hy. destruct (C4 y Hy) as [->|[(b & Hb & R & ->)|(b & id & t & Hb & R & S & E)]].
        -- destruct (A4 y eq_refl) as [->|[(b & [<-|[]] & R & ->)|(b & id & t & [<-|[]] & R & S & E)]]; auto.
           ++ right; left. exists a. cbn; auto.
           ++ right; right. exists a, id, t. rewrite OTH2. cbn; auto.
        -- right; left. exists b. cbn; auto.
        -- right; right. exists b, id, t. cbn; auto.
Qed.
