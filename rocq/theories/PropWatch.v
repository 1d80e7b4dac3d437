(** C99: every event of a mounted scheduler is recorded once, where the dashboard looks for it. *)
From Verif Require Import Prelude PreludeFacts Text Forms FormsSpec PropForms2 Cli CliSpec PropCli Dash DashSpec PropDash Events History PropHistory HistoryPages HistoryPagesSpec PropHistoryPages Capture CaptureProofs Remote PropRemote Watch.
Open Scope Z_scope.
Local Ltac sp := repeat match goal with |- _ /\ _ => split end.

(** ** what is to be expected, from the history alone *)
(** the storage meant by an installation: the one given, else the one in use, else the default, which comes
    after the [n] storages of the user *)
Definition meant (n : nat) (o cur : option nat) : nat := match o, cur with Some i, _ => i | None, Some i => i | None, None => n end.
(** [cur]: the storage the pages read; [who s]: the storage scheduler [s] reports to *)
Fixpoint roles {Ev} (n : nat) (cur : option nat) (who : nat -> option nat) (ops : list (wop (Ev := Ev))) : option nat * (nat -> option nat) :=
  match ops with
  | [] => (cur, who)
  | WInstall s o :: ops' => let i := meant n o cur in roles n (Some i) (fun x => if Nat.eqb x s then Some i else who x) ops'
  | WUse o :: ops' => roles n (Some (meant n o cur)) who ops'
  | _ :: ops' => roles n cur who ops'
  end.
(** the events of interest dispatched, since storage [j] was last cleared, by schedulers that reported to it
    at the time, in order *)
Fixpoint noted {Ev} (interesting : Ev -> Prop) (dec : forall e, {interesting e} + {~ interesting e}) (n j : nat) (cur : option nat) (who : nat -> option nat) (sofar : list (nat * Ev)) (ops : list (wop (Ev := Ev))) : list (nat * Ev) :=
  match ops with
  | [] => sofar
  | WInstall s o :: ops' => let i := meant n o cur in noted interesting dec n j (Some i) (fun x => if Nat.eqb x s then Some i else who x) sofar ops'
  | WUse o :: ops' => noted interesting dec n j (Some (meant n o cur)) who sofar ops'
  | WDispatch s e :: ops' => noted interesting dec n j cur who (match who s with Some i => if Nat.eqb i j then (if dec e then sofar ++ [(s, e)] else sofar) else sofar | None => sofar end) ops'
  | WClear i :: ops' => noted interesting dec n j cur who (if Nat.eqb i j then [] else sofar) ops'
  | _ :: ops' => noted interesting dec n j cur who sofar ops'
  end.
(** the storages named are the user's, and user listeners have masks that are numbers *)
Definition sane {Ev} (n : nat) (o : wop (Ev := Ev)) : Prop :=
  match o with
  | WInstall _ (Some i) | WUse (Some i) => (i < n)%nat
  | WAdd _ _ m => m <> None
  | _ => True
  end.
Definition shares (c m : Z) : Prop := Z.land c m <> 0.
Definition shares_dec (m : Z) (c : Z) : {shares c m} + {~ shares c m}.
Proof. unfold shares. destruct (Z.eq_dec (Z.land c m) 0); [right|left]; tauto. Defined.

(** ** the listeners installed *)
Section Generic.
  Context {Ev St : Type} (code_of : Ev -> Z) (wmask : Z) (record : nat -> Ev -> St -> St) (clear : St -> St) (blank : St).
  Context (clear_record : forall s e x, clear (record s e x) = clear x) (clear_clear : forall x, clear (clear x) = clear x) (blank_clear : clear blank = blank).
  Notation wproc := (wproc (St := St)).
  Notation run := (wrun code_of wmask record clear blank).
  Notation stp := (wstep code_of wmask record clear blank).
  (** our listeners in a list: none, or exactly one, bound to the scheduler and its storage *)
  Definition ours (ls : list (callback * option Z)) : list (callback * option Z) := filter (fun x => match fst x with Ours _ => true | _ => false end) ls.
  Record good (n : nat) (cur : option nat) (who : nat -> option nat) (p : wproc) : Prop := {
    g_cur : w_cur p = cur;
    g_len : List.length (w_stores p) = n \/ (List.length (w_stores p) = S n /\ w_cur p <> None);
    g_idx : forall i, w_cur p = Some i \/ (exists s, who s = Some i) -> (i < List.length (w_stores p))%nat;
    g_who : forall s, match who s with
                      | None => w_inst p s = None /\ ours (w_ls p s) = []
                      | Some i => exists k, w_inst p s = Some k /\ ours (w_ls p s) = [(Ours k, Some wmask)] /\ nth_error (w_made p) k = Some (s, i)
                      end;
    g_masks : forall s cb m, In (cb, m) (w_ls p s) -> m <> None }.
  Lemma ours_app a b : ours (a ++ b) = ours a ++ ours b.
  Proof. apply filter_app. Qed.
  Lemma ours_drop_theirs k ls : ours (drop_listener (Theirs k) ls) = ours ls.
  Proof. unfold ours. induction ls as [|[[x|x] m] ls IH]; cbn; auto; [rewrite IH; auto|]. destruct (Nat.eqb k x); cbn; auto. Qed.
  Lemma ours_drop_ours k m ls : ours ls = [(Ours k, m)] -> ours (drop_listener (Ours k) ls) = [].
  Proof. unfold ours. induction ls as [|[[x|x] m'] ls IH]; cbn; auto. intros [= -> <- E]. rewrite Nat.eqb_refl. auto. Qed.
  Lemma drop_in cb ls x : In x (drop_listener cb ls) -> In x ls.
  Proof. induction ls as [|[c m] ls IH]; cbn; auto. destruct (cb_eqb cb c); cbn; tauto. Qed.
  (** a dispatch: the storages change at most at the one reported to, once *)
  Lemma notify_none ev snap : forall p : wproc, (forall cb m, In (cb, m) snap -> m <> None) -> ours snap = [] -> notify code_of record snap ev p = p.
  Proof.
    induction snap as [|[cb [m|]] snap IH]; intros p M O; cbn [notify]; auto. destruct cb as [k|k]; [discriminate|]. destruct (Z.land _ _ =? 0); apply IH; auto; intros c m' I; apply (M c m'); right; auto.
  Qed.
  Lemma notify_one ev k s i snap : forall p : wproc, (forall cb m, In (cb, m) snap -> m <> None) -> ours snap = [(Ours k, Some wmask)] -> nth_error (w_made p) k = Some (s, i) ->
    notify code_of record snap ev p = if Z.land (code_of ev) wmask =? 0 then p else MkW (w_ls p) (w_made p) (w_inst p) (nth_upd i (record s ev) (w_stores p)) (w_cur p).
  Proof.
    induction snap as [|[cb [m|]] snap IH]; intros p M O E; [discriminate| |destruct (M cb None); cbn; auto]. cbn [notify].
    assert (M' : forall c m', In (c, m') snap -> m' <> None) by (intros c m' I; apply (M c m'); right; auto). destruct cb as [x|x].
    - cbn in O. injection O as -> -> O. rewrite E. rewrite notify_none; auto.
    - assert (F : (if Z.land (code_of ev) m =? 0 then p else p) = p) by (destruct (Z.land (code_of ev) m =? 0); reflexivity). rewrite F. apply IH; auto.
  Qed.
  Lemma dispatch_good n cur who p s ev : good n cur who p ->
    let p' := dispatch_to code_of record s ev p in
    w_ls p' = w_ls p /\ w_made p' = w_made p /\ w_inst p' = w_inst p /\ w_cur p' = w_cur p /\
    w_stores p' = match who s with Some i => if shares_dec wmask (code_of ev) then nth_upd i (record s ev) (w_stores p) else w_stores p | None => w_stores p end.
  Proof.
    intros G. cbv zeta. unfold dispatch_to. pose proof (g_who _ _ _ _ G s) as W. destruct (who s) as [i|].
    - destruct W as (k & _ & O & E). rewrite (notify_one ev k s i); auto; [|apply (g_masks _ _ _ _ G)]. destruct (shares_dec wmask (code_of ev)) as [Y|N]; unfold shares in *.
      + destruct (Z.eqb_spec (Z.land (code_of ev) wmask) 0); [congruence|]. cbn. auto.
      + destruct (Z.eqb_spec (Z.land (code_of ev) wmask) 0) as [Q|Q]; [auto|destruct (N Q)].
    - destruct W as (_ & O). rewrite notify_none; auto. apply (g_masks _ _ _ _ G).
  Qed.
  Lemma nth_upd_length {A} i (f : A -> A) l : List.length (nth_upd i f l) = List.length l.
  Proof.
    unfold nth_upd. destruct (nth_error l i) as [x|] eqn:E.
    - assert (i < List.length l)%nat by (apply nth_error_Some; congruence). rewrite !app_length, firstn_length, skipn_length. cbn. lia.
    - apply nth_error_None in E. rewrite !app_length, firstn_length, skipn_length. cbn. lia.
  Qed.
  Lemma storage_good n cur who o p : good n cur who p -> match o with Some i => (i < n)%nat | None => True end ->
    let '(i, p') := get_storage blank o p in
    i = meant n o cur /\ good n (Some i) who p' /\ w_ls p' = w_ls p /\ w_made p' = w_made p /\ w_inst p' = w_inst p /\ (i < List.length (w_stores p'))%nat /\
    (w_stores p' = w_stores p \/ (w_stores p' = w_stores p ++ [blank] /\ List.length (w_stores p) = n)).
  Proof.
    intros G O. pose proof (g_cur _ _ _ _ G) as C. pose proof (g_len _ _ _ _ G) as L. pose proof (g_idx _ _ _ _ G) as D. pose proof (g_who _ _ _ _ G) as W. pose proof (g_masks _ _ _ _ G) as M.
    unfold get_storage, meant. destruct o as [i|].
    - sp; auto; [|cbn; lia]. constructor; auto; cbn [w_cur w_stores]; [destruct L as [L|[L _]]; [auto|right; split; auto; discriminate]|]. intros x [[= <-]|X]; [lia|]. apply D. auto.
    - rewrite C in *. destruct cur as [i|].
      + sp; auto; constructor; auto; rewrite C; auto.
      + assert (NW : List.length (w_stores p) = n) by (destruct L as [L|[_ L]]; congruence). cbn [w_cur w_stores w_ls w_made w_inst]. sp; auto.
        * constructor; auto; cbn [w_cur w_stores]; [right; rewrite app_length; cbn; split; [lia|discriminate]|]. intros x H. rewrite app_length. cbn. destruct H as [[= <-]|X]; [lia|]. specialize (D x (or_intror X)). lia.
        * rewrite app_length. cbn. lia.
  Qed.
  Definition who_after {E} (n : nat) (cur : option nat) (who : nat -> option nat) (o : wop (Ev := E)) : nat -> option nat :=
    match o with WInstall s st => fun x => if Nat.eqb x s then Some (meant n st cur) else who x | _ => who end.
  Definition cur_after {E} (n : nat) (cur : option nat) (o : wop (Ev := E)) : option nat :=
    match o with WInstall _ st | WUse st => Some (meant n st cur) | _ => cur end.
  Lemma step_good n cur who p o : good n cur who p -> sane n o ->
    good n (cur_after n cur o) (who_after n cur who o) (stp p o) /\
    forall j x, nth_error (w_stores (stp p o)) j = Some x <->
      match o with
      | WDispatch s e => exists y, nth_error (w_stores p) j = Some y /\ x = match who s with Some i => if Nat.eqb i j then (if shares_dec wmask (code_of e) then record s e y else y) else y | None => y end
      | WClear i => exists y, nth_error (w_stores p) j = Some y /\ x = if Nat.eqb i j then clear y else y
      | _ => nth_error (w_stores p) j = Some x \/ (j = n /\ x = blank /\ List.length (w_stores p) = n /\ cur = None /\ cur_after n cur o = Some n)
      end.
  Proof.
    intros G SA. assert (NEW : forall st, (match st with Some i => (i < n)%nat | None => True end) -> forall p1, (w_stores p1 = w_stores p \/ (w_stores p1 = w_stores p ++ [blank] /\ List.length (w_stores p) = n /\ cur = None /\ st = None)) ->
      (w_stores p1 = w_stores p -> cur = None -> st = None -> False) -> forall j x, nth_error (w_stores p1) j = Some x <->
      nth_error (w_stores p) j = Some x \/ (j = n /\ x = blank /\ List.length (w_stores p) = n /\ cur = None /\ Some (meant n st cur) = Some n)).
    { intros st OK p1 [E|(E & L & -> & ->)] NN j x; rewrite E.
      - split; [auto|]. intros [H|(-> & -> & L & -> & M)]; auto. exfalso. destruct st as [i|]; [cbn in M; injection M as ->; lia|]. apply NN; auto.
      - destruct (Nat.lt_ge_cases j (List.length (w_stores p))) as [J|J].
        + rewrite nth_error_app1 by auto. split; auto. intros [H|(-> & _ & L' & _)]; auto. lia.
        + rewrite nth_error_app2 by auto. assert (nth_error (w_stores p) j = None) as -> by (apply nth_error_None; auto). split.
          * intros H. right. destruct (j - List.length (w_stores p))%nat as [|d] eqn:DD; [injection H as <-; sp; auto; lia|destruct d; discriminate].
          * intros [H|(-> & -> & _)]; [discriminate|]. rewrite L, Nat.sub_diag. auto. }
    destruct o as [s st|st|s e|s cb m|s cb|i]; cbn [wstep cur_after who_after].
    - (* install *)
      unfold install, install_remove. pose proof (storage_good n cur who st p G) as SG. destruct (get_storage blank st p) as [i p1] eqn:GE. destruct SG as (-> & G1 & LS & MD & IN & LT & ST); [destruct st; auto|].
      cbn beta iota. assert (NN : w_stores p1 = w_stores p -> cur = None -> st = None -> False).
      { intros E -> ->. unfold get_storage in GE. rewrite (g_cur _ _ _ _ G) in GE. apply (f_equal snd) in GE; cbn [snd] in GE; subst p1. cbn in E. apply (f_equal (@List.length _)) in E. rewrite app_length in E. cbn in E. lia. }
      assert (ST' : w_stores p1 = w_stores p \/ (w_stores p1 = w_stores p ++ [blank] /\ List.length (w_stores p) = n /\ cur = None /\ st = None)).
      { unfold get_storage in GE. destruct st as [i0|]; [apply (f_equal snd) in GE; cbn [snd] in GE; subst p1; auto|]. rewrite (g_cur _ _ _ _ G) in GE. destruct cur; apply (f_equal snd) in GE; cbn [snd] in GE; subst p1; auto. right. sp; auto. destruct ST as [E|[_ E]]; auto. exfalso. apply NN; auto. }
      set (i := meant n st cur) in *. clear GE ST.
      set (p2 := match w_inst p1 s with Some k => _ | None => p1 end).
      assert (P2 : w_made p2 = w_made p1 /\ w_inst p2 = w_inst p1 /\ w_stores p2 = w_stores p1 /\ w_cur p2 = w_cur p1 /\ (forall x, x <> s -> w_ls p2 x = w_ls p1 x) /\ ours (w_ls p2 s) = [] /\ (forall x, In x (w_ls p2 s) -> In x (w_ls p1 s))).
      { subst p2. pose proof (g_who _ _ _ _ G1 s) as W. destruct (who s) as [i0|].
        - destruct W as (k & E & O & _). rewrite E. cbn [w_made w_inst w_stores w_cur w_ls]. unfold set_at. rewrite Nat.eqb_refl. sp; auto; [intros x N; destruct (Nat.eqb_spec x s); [congruence|auto]|eapply ours_drop_ours; eauto|intros x; apply drop_in].
        - destruct W as (E & O). rewrite E. sp; auto. }
      destruct P2 as (PM & PI & PS & PC & PL & PO & PIN). clearbody p2. split.
      + unfold install_add. constructor; cbn [w_cur w_stores w_inst w_ls w_made].
        * rewrite PC. apply (g_cur _ _ _ _ G1).
        * rewrite PS, PC. apply (g_len _ _ _ _ G1).
        * rewrite PS, PC. intros j [H|(x & H)]; [apply (g_idx _ _ _ _ G1); auto|]. destruct (Nat.eqb_spec x s); [injection H as <-; auto|]. apply (g_idx _ _ _ _ G1). right. eauto.
        * intros x. unfold set_at. destruct (Nat.eqb_spec x s) as [->|N].
          -- exists (List.length (w_made p2)). sp; auto; [rewrite ours_app, PO; auto|]. rewrite nth_error_app2, Nat.sub_diag by auto. auto.
          -- pose proof (g_who _ _ _ _ G1 x) as W. rewrite PL, PI by auto. destruct (who x) as [i0|]; auto. destruct W as (k & A & B & C). exists k. sp; auto. rewrite PM, nth_error_app1; auto. apply nth_error_Some. congruence.
        * intros x cb m. unfold set_at. destruct (Nat.eqb_spec x s) as [->|N]; [|rewrite PL by auto; apply (g_masks _ _ _ _ G1)]. intros I. apply in_app_or in I as [I|[[= <- <-]|[]]]; [|discriminate]. apply (g_masks _ _ _ _ G1 s cb m). auto.
      + unfold install_add. cbn [w_stores]. rewrite PS. apply NEW; auto.
    - (* use *)
      pose proof (storage_good n cur who st p G) as SG. destruct (get_storage blank st p) as [i p1] eqn:GE. destruct SG as (-> & G1 & LS & MD & IN & LT & ST); [destruct st; auto|]. cbn [snd]. split; auto.
      assert (NN : w_stores p1 = w_stores p -> cur = None -> st = None -> False).
      { intros E -> ->. unfold get_storage in GE. rewrite (g_cur _ _ _ _ G) in GE. apply (f_equal snd) in GE; cbn [snd] in GE; subst p1. cbn in E. apply (f_equal (@List.length _)) in E. rewrite app_length in E. cbn in E. lia. }
      apply NEW; auto.
      unfold get_storage in GE. destruct st as [i0|]; [apply (f_equal snd) in GE; cbn [snd] in GE; subst p1; auto|]. rewrite (g_cur _ _ _ _ G) in GE. destruct cur; apply (f_equal snd) in GE; cbn [snd] in GE; subst p1; auto. right. sp; auto. destruct ST as [E|[_ E]]; auto. exfalso. apply NN; auto.
    - (* dispatch *)
      destruct (dispatch_good n cur who p s e G) as (A & B & C & D & E). split.
      + constructor; rewrite ?A, ?B, ?C, ?D; try apply G; rewrite E; destruct (who s); try destruct (shares_dec _ _); rewrite ?nth_upd_length; apply G.
      + intros j x. rewrite E. destruct (who s) as [i|]; [|split; [eauto|intros (y & H & ->); auto]]. destruct (shares_dec wmask (code_of e)).
        * rewrite nth_upd_get. destruct (Nat.eqb i j); destruct (nth_error (w_stores p) j) as [y|]; cbn; split; [intros [= <-]; eauto|intros (z & [= <-] & ->); auto|discriminate|intros (z & H & _); discriminate|intros [= <-]; eauto|intros (z & [= <-] & ->); auto|discriminate|intros (z & H & _); discriminate].
        * split; [intros H; exists x; split; auto; destruct (Nat.eqb i j); auto|]. intros (y & H & ->). destruct (Nat.eqb i j); auto.
    - (* add *)
      split; [|intros j x; cbn [w_stores]; split; [auto|intros [H|(-> & -> & _ & -> & H)]; [auto|discriminate]]]. constructor; cbn [w_cur w_stores w_inst w_ls w_made]; try apply G.
      + intros x. pose proof (g_who _ _ _ _ G x) as W. unfold set_at. destruct (Nat.eqb_spec x s) as [->|N]; auto. rewrite ours_app. cbn [ours filter fst]. rewrite app_nil_r. auto.
      + intros x c m'. unfold set_at. destruct (Nat.eqb_spec x s) as [->|N]; [|apply (g_masks _ _ _ _ G)]. intros I. apply in_app_or in I as [I|[[= <- <-]|[]]]; [apply (g_masks _ _ _ _ G s c m'); auto|]. exact SA.
    - (* remove *)
      split; [|intros j x; cbn [w_stores]; split; [auto|intros [H|(-> & -> & _ & -> & H)]; [auto|discriminate]]]. constructor; cbn [w_cur w_stores w_inst w_ls w_made]; try apply G.
      + intros x. pose proof (g_who _ _ _ _ G x) as W. unfold set_at. destruct (Nat.eqb_spec x s) as [->|N]; auto. rewrite ours_drop_theirs. auto.
      + intros x c m'. unfold set_at. destruct (Nat.eqb_spec x s) as [->|N]; [|apply (g_masks _ _ _ _ G)]. intros I. apply drop_in in I. apply (g_masks _ _ _ _ G s c m'). auto.
    - (* clear *)
      split.
      + constructor; cbn [w_cur w_stores w_inst w_ls w_made]; rewrite ?nth_upd_length; apply G.
      + intros j x. cbn [w_stores]. rewrite nth_upd_get. destruct (Nat.eqb i j); destruct (nth_error (w_stores p) j) as [y|]; cbn; split; [intros [= <-]; eauto|intros (z & [= <-] & ->); auto|discriminate|intros (z & H & _); discriminate|intros [= <-]; eauto|intros (z & [= <-] & ->); auto|discriminate|intros (z & H & _); discriminate].
  Qed.
  Lemma roles_cons n cur who (o : wop (Ev := Ev)) ops : roles n cur who (o :: ops) = roles n (cur_after n cur o) (who_after n cur who o) ops.
  Proof. destruct o; reflexivity. Qed.
  (** what each storage holds after a history *)
  Definition told_all (l : list (nat * Ev)) (x : St) : St := fold_left (fun x se => record (fst se) (snd se) x) l x.
  Lemma told_clear l : forall x, clear (told_all l x) = clear x.
  Proof. induction l as [|[s e] l IH]; intros x; cbn; auto. unfold told_all in IH. rewrite IH. apply clear_record. Qed.
  Notation nt := (noted (fun e => shares (code_of e) wmask) (fun e => shares_dec wmask (code_of e))).
  Lemma run_spec n ops : forall p cur who, good n cur who p -> Forall (sane n) ops ->
    good n (fst (roles n cur who ops)) (snd (roles n cur who ops)) (run p ops) /\
    forall j x0 sofar, clear x0 = x0 ->
      (nth_error (w_stores p) j = Some (told_all sofar x0) -> nth_error (w_stores (run p ops)) j = Some (told_all (nt n j cur who sofar ops) x0)) /\
      (nth_error (w_stores p) j = None -> sofar = [] -> x0 = blank -> nth_error (w_stores (run p ops)) j = None \/ (j = n /\ nth_error (w_stores (run p ops)) j = Some (told_all (nt n j cur who [] ops) x0))).
  Proof.
    induction ops as [|o ops IH]; intros p cur who G F; cbn [wrun].
    - split; auto.
    - apply Forall_cons_iff in F as [F1 F2]. destruct (step_good n cur who p o G F1) as [G1 S1]. rewrite roles_cons. destruct (IH _ _ _ G1 F2) as [G2 R]. split; auto.
      intros j x0 sofar CX.
      set (sofar' := match o with
        | WDispatch s e => match who s with Some i => if Nat.eqb i j then (if shares_dec wmask (code_of e) then sofar ++ [(s, e)] else sofar) else sofar | None => sofar end
        | WClear i => if Nat.eqb i j then [] else sofar
        | _ => sofar end).
      assert (N1 : nt n j cur who sofar (o :: ops) = nt n j (cur_after n cur o) (who_after n cur who o) sofar' ops) by (destruct o; reflexivity).
      split.
      + intros E. rewrite N1. apply R; auto. apply S1. destruct o as [s st|st|s e|s cb m|s cb|i]; auto; subst sofar'.
        * eexists. split; [exact E|]. destruct (who s) as [i|]; auto. destruct (Nat.eqb i j); auto. destruct (shares_dec wmask (code_of e)); auto. unfold told_all. rewrite fold_left_app. auto.
        * eexists. split; [exact E|]. destruct (Nat.eqb i j); auto. rewrite told_clear. auto.
      + intros E -> ->.
        destruct (nth_error (w_stores (stp p o)) j) as [y|] eqn:E1.
        * right. apply S1 in E1. assert (Y : j = n /\ y = blank /\ sofar' = []).
          { subst sofar'. destruct o as [s st|st|s e|s cb m|s cb|i]; try (destruct E1 as [H|(-> & -> & _)]; [congruence|auto]); destruct E1 as (z & H & _); congruence. }
          destruct Y as (-> & -> & Y). split; auto. rewrite N1, Y. apply R; auto. cbn. apply S1. destruct o as [s st|st|s e|s cb m|s cb|i]; try (destruct E1 as [H|H]; [congruence|right; exact H]); destruct E1 as (z & H & _); congruence.
        * assert (SO : sofar' = [] \/ exists i, (exists s e, o = WDispatch s e /\ who s = Some i) /\ i = j).
          { subst sofar'. destruct o as [s st|st|s e|s cb m|s cb|i]; auto; [|destruct (Nat.eqb i j); auto]. destruct (who s) as [i|] eqn:W; auto. destruct (Nat.eqb_spec i j); auto. right. exists i. split; auto. eauto. }
          destruct SO as [SO|(i & (s & e & -> & W) & ->)].
          -- rewrite N1, SO. apply (proj2 (R j blank [] CX)); auto.
          -- exfalso. assert (j < List.length (w_stores p))%nat by (apply (g_idx _ _ _ _ G); eauto). apply nth_error_None in E. lia.
  Qed.
  Lemma start_good stores : good (List.length stores) None (fun _ => None) (w_start stores).
  Proof. constructor; cbn; auto. intros i [H|(s & H)]; discriminate. Qed.
End Generic.

(** ** C99: the scheduler's events *)
(** the code has a bit in common with the known kinds of events *)
Lemma all_events_ones : all_events = Z.ones 17.
Proof. reflexivity. Qed.
Definition known_bit (c : Z) : Prop := exists k : kind, Z.land c (code k) <> 0.
Lemma land_code c k : Z.land c (code k) <> 0 <-> Z.testbit c (Z.log2 (code k)) = true.
Proof.
  assert (E : code k = 2 ^ Z.log2 (code k)) by (destruct k; reflexivity). assert (P : 0 <= Z.log2 (code k)) by apply Z.log2_nonneg. rewrite E at 1. split.
  - intros N. destruct (Z.testbit c (Z.log2 (code k))) eqn:T; auto. exfalso. apply N. apply Z.bits_inj'. intros i Hi. rewrite Z.land_spec, Z.pow2_bits_eqb, Z.bits_0 by auto. destruct (Z.eqb_spec (Z.log2 (code k)) i); [subst; rewrite T; auto|apply andb_false_r].
  - intros T H. apply (f_equal (fun z => Z.testbit z (Z.log2 (code k)))) in H. rewrite Z.land_spec, Z.pow2_bits_eqb, Z.eqb_refl, Z.bits_0, T in H by auto. discriminate.
Qed.
Lemma known_bit_iff c : shares c all_events <-> known_bit c.
Proof.
  unfold shares, known_bit. rewrite all_events_ones. split.
  - intros N. assert (X : exists i, 0 <= i < 17 /\ Z.testbit c i = true).
    { destruct (existsb (fun i => Z.testbit c (Z.of_nat i)) (seq 0 17)) eqn:E; [apply existsb_exists in E as (i & I & T); apply in_seq in I; exists (Z.of_nat i); split; auto; lia|]. exfalso. apply N. apply Z.bits_inj'. intros i Hi. rewrite Z.land_spec, Z.bits_0.
      destruct (Z.lt_ge_cases i 17) as [L|L]; [|rewrite Z.ones_spec_high by lia; apply andb_false_r]. destruct (Z.testbit c i) eqn:T; auto. assert (Y : existsb (fun i => Z.testbit c (Z.of_nat i)) (seq 0 17) = true) by (apply existsb_exists; exists (Z.to_nat i); split; [apply in_seq; lia|rewrite Z2Nat.id by lia; auto]). congruence. }
    destruct X as (i & B & T).
    assert (K : exists k, Z.log2 (code k) = i).
    { assert (D : i = 0 \/ i = 1 \/ i = 2 \/ i = 3 \/ i = 4 \/ i = 5 \/ i = 6 \/ i = 7 \/ i = 8 \/ i = 9 \/ i = 10 \/ i = 11 \/ i = 12 \/ i = 13 \/ i = 14 \/ i = 15 \/ i = 16) by lia.
      repeat (destruct D as [->|D]); [exists KStarted|exists KShutdown|exists KPaused|exists KResumed|exists KExecAdded|exists KExecRemoved|exists KStoreAdded|exists KStoreRemoved|exists KAllRemoved|exists KTaskAdded|exists KTaskRemoved|exists KTaskModified|exists KExecuted|exists KError|exists KMissed|exists KSubmitted|subst i; exists KMaxInstances]; reflexivity. }
    destruct K as (k & K). exists k. apply land_code. rewrite K. auto.
  - intros (k & N) H. apply N. apply Z.bits_inj'. intros i Hi. apply (f_equal (fun z => Z.testbit z i)) in H. rewrite Z.land_spec, Z.bits_0 in *. destruct (Z.testbit c i); auto. cbn [andb] in *.
    destruct (Z.lt_ge_cases i 17) as [L|L]; [rewrite Z.ones_spec_low in H by lia; discriminate|]. assert (E : code k = 2 ^ Z.log2 (code k)) by (destruct k; reflexivity). rewrite E, Z.pow2_bits_eqb by apply Z.log2_nonneg. apply Z.eqb_neq. assert (Z.log2 (code k) < 17) by (destruct k; reflexivity). lia.
Qed.
Definition event_noted := noted (fun e : sevent => shares (s_code e) all_events) (fun e => shares_dec all_events (s_code e)).
Lemma told_events sha identity l : forall n buf, told_all (note_event sha identity) l (n, buf) = (n, fold_left (fun b se => event_append n (make_record sha (identity (fst se)) (snd se)) b) l buf).
Proof. unfold told_all. induction l as [|[s e] l IH]; intros n buf; [reflexivity|]. cbn [fold_left]. exact (IH n _). Qed.
Lemma fold_newest {A} n (l : list A) : forall full kept, newest n full kept -> newest n (full ++ l) (fold_left (fun b x => Dash.push n x b) l kept).
Proof. induction l as [|x l IH]; intros full kept H; cbn; [rewrite app_nil_r; auto|]. replace (full ++ x :: l) with ((full ++ [x]) ++ l) by (rewrite <- app_assoc; auto). apply IH, push_newest, H. Qed.
Lemma fold_map {A B C} (f : A -> B) (g : C -> B -> C) l : forall c, fold_left (fun b x => g b (f x)) l c = fold_left g (map f l) c.
Proof. induction l; intros; cbn; auto. Qed.
(** After any history of mounts, dispatches, uses of the listeners by others (with numbers for masks) and
    clearings: each storage holds the newest - as many as its size, 10000 for the default one - records of
    exactly the events of a known kind that the schedulers reporting to it dispatched since it was cleared,
    one record for each, in order; the pages read the storage last named, and a scheduler reports to the one
    meant when it was last mounted. *)
Theorem C99_events_recorded_partial :
  forall (sha : string -> string) (identity : nat -> string) (sizes : list nat) (ops : list (wop (Ev := sevent))), Forall (sane (List.length sizes)) ops ->
    let n := List.length sizes in let p := events_run sha identity sizes ops in let '(cur, who) := roles n None (fun _ => None) ops in
    w_cur p = cur /\
    forall j, match nth_error (w_stores p) j with
      | Some (size, held) => nth_error (sizes ++ [Z.to_nat 10000]) j = Some size /\
          newest size (map (fun se => make_record sha (identity (fst se)) (snd se)) (event_noted n j None (fun _ => None) [] ops)) held
      | None => cur <> Some j /\ forall s, who s <> Some j
      end.
Proof.
  intros sha identity sizes ops F. cbv zeta. set (n := List.length sizes) in *. destruct (roles n None (fun _ => None) ops) as [cur who] eqn:R.
  set (st := map (fun n => (n, [])) sizes : list (nat * list event_record)). assert (L : List.length st = n) by (unfold st; apply map_length).
  pose proof (start_good all_events st) as G. rewrite L in G.
  destruct (run_spec s_code all_events (note_event sha identity) clear_events (Z.to_nat 10000, []) ltac:(intros; reflexivity) ltac:(intros; reflexivity) n ops (w_start st) None (fun _ => None) G F) as [G2 S].
  rewrite R in G2. cbn [fst snd] in G2. change (wrun s_code all_events (note_event sha identity) clear_events (Z.to_nat 10000, []) (w_start st) ops) with (events_run sha identity sizes ops) in *. set (p := events_run sha identity sizes ops) in *.
  split; [apply (g_cur _ _ _ _ _ G2)|]. intros j. fold event_noted in S.
  assert (NW : forall m l, newest m (map (fun se => make_record sha (identity (fst se)) (snd se)) l) (snd (told_all (note_event sha identity) l (m, [])))).
  { intros m l. rewrite told_events. cbn [snd]. rewrite (fold_map (fun se => make_record sha (identity (fst se)) (snd se)) (fun b r => event_append m r b)). unfold event_append. apply (fold_newest m _ [] []), newest_nil. }
  destruct (nth_error st j) as [[m b]|] eqn:E.
  - assert (MB : nth_error sizes j = Some m /\ b = []). { unfold st in E. rewrite nth_error_map in E. destruct (nth_error sizes j); [|discriminate]. injection E as <- <-. auto. } destruct MB as [M ->].
    destruct (S j (m, []) [] eq_refl) as [S1 _]. rewrite (S1 E). rewrite (surjective_pairing (told_all (note_event sha identity) _ _)). split; [|].
    + rewrite told_events. cbn [fst]. rewrite nth_error_app1; auto. apply nth_error_Some. congruence.
    + rewrite told_events at 1. cbn [fst]. apply NW.
  - destruct (S j (Z.to_nat 10000, []) [] eq_refl) as [_ S2]. destruct (S2 E eq_refl eq_refl) as [X|[-> X]].
    + rewrite X. apply nth_error_None in X. split; [intros ->; pose proof (g_idx _ _ _ _ _ G2 j (or_introl (g_cur _ _ _ _ _ G2)))|intros s W; pose proof (g_idx _ _ _ _ _ G2 j (or_intror (ex_intro _ s W)))]; lia.
    + rewrite X. rewrite (surjective_pairing (told_all (note_event sha identity) _ _)). split; [|].
      * rewrite told_events. cbn [fst]. rewrite nth_error_app2, Nat.sub_diag by auto. auto.
      * rewrite told_events at 1. cbn [fst]. apply NW.
Qed.
Print Assumptions C99_events_recorded_partial.
(** Of interest are the codes with a bit in common with a known kind: every known kind, and no code of a kind
    unknown to the dashboard. *)
Theorem C99_of_interest : (forall c, shares c all_events <-> known_bit c) /\ (forall k, known_bit (code k)) /\ forall c, 0 <= c -> c mod 2 ^ 17 = 0 -> ~ known_bit c.
Proof.
  split; [apply known_bit_iff|]. split; [intros k; exists k; rewrite Z.land_diag; destruct k; discriminate|].
  intros c P M H. apply known_bit_iff in H. apply H. rewrite all_events_ones, Z.land_ones by lia. auto.
Qed.
Print Assumptions C99_of_interest.

(** ** what a record says *)
(** the names of the kinds *)
Inductive named : Z -> string -> Prop :=
| nm_started : named (code KStarted) "scheduler.started" | nm_shutdown : named (code KShutdown) "scheduler.shutdown"
| nm_paused : named (code KPaused) "scheduler.paused" | nm_resumed : named (code KResumed) "scheduler.resumed"
| nm_ea : named (code KExecAdded) "executor.added" | nm_er : named (code KExecRemoved) "executor.removed"
| nm_sa : named (code KStoreAdded) "store.added" | nm_sr : named (code KStoreRemoved) "store.removed"
| nm_all : named (code KAllRemoved) "task.all_removed" | nm_ta : named (code KTaskAdded) "task.added" | nm_tr : named (code KTaskRemoved) "task.removed" | nm_tm : named (code KTaskModified) "task.modified"
| nm_ok : named (code KExecuted) "task.executed" | nm_err : named (code KError) "task.error" | nm_miss : named (code KMissed) "task.missed"
| nm_sub : named (code KSubmitted) "task.submitted" | nm_max : named (code KMaxInstances) "task.max_instances"
| nm_other c d : (forall k, c <> code k) -> signed d c -> named c ("event." ++ d)%string.
(** the texts that describe a run, in the record's details: each key followed by its value *)
Inductive tells : body -> string -> string -> Prop :=
| te_source t s i ts src c x : (is_filter src x \/ ((forall y, ~ is_filter src y) /\ x = "unknown"%string)) -> tells (BSubmission t s i ts src c) "source" x
| te_count t s i ts src c : tells (BSubmission t s i ts src c) "submitted_run_count" (show_int (Z.of_nat (List.length ts)))
| te_coalesced t s i ts src c : tells (BSubmission t s i ts src c) "coalesced_run_count" (show_int c)
| te_times t s i ts src c : tells (BSubmission t s i ts src c) "scheduled_run_times" (list_text ts)
| te_time t s i x v et em : tells (BExecution t s i (Some x) v et em) "scheduled_run_time" x
| te_value t s i tm x et em : tells (BExecution t s i tm (Some x) et em) "return_value" x
| te_type t s i tm v x em : tells (BExecution t s i tm v (Some x) em) "exception_type" x
| te_message t s i tm v et x : tells (BExecution t s i tm v et (Some x)) "exception_message" x.
Fixpoint flat (l : list (string * string)) : list string := match l with [] => [] | (k, v) :: l' => k :: v :: flat l' end.
Lemma known_code c : In c (map fst event_names) <-> exists k, c = code k.
Proof.
  split.
  - cbn. intros H. repeat (destruct H as [<-|H]); [exists KStarted|exists KShutdown|exists KPaused|exists KResumed|exists KExecAdded|exists KExecRemoved|exists KStoreAdded|exists KStoreRemoved|exists KAllRemoved|exists KTaskAdded|exists KTaskRemoved|exists KTaskModified|exists KExecuted|exists KError|exists KMissed|exists KSubmitted|exists KMaxInstances|destruct H]; reflexivity.
  - intros (k & ->). destruct k; cbn; tauto.
Qed.

Lemma show_int_signed n : signed (show_int n) n.
Proof. unfold show_int. destruct (Z.ltb_spec n 0); [replace n with (- - n) at 3 by lia; apply s_minus, show_nat_grouped; lia|apply s_plain, show_nat_grouped; lia]. Qed.
Lemma name_named c : named c (event_name c).
Proof.
  destruct (in_dec Z.eq_dec c (map fst event_names)) as [I|N].
  - apply known_code in I as (k & ->). destruct k; constructor.
  - assert (K : forall k, c <> code k) by (intros k E; apply N, known_code; eauto).
    assert (F : find (fun kv => fst kv =? c) event_names = None). { destruct (find _ _) as [[a b]|] eqn:E; auto. apply find_some in E as [E1 E2]. apply Z.eqb_eq in E2. cbn in E2. subst a. exfalso. apply N. apply (in_map fst) in E1. auto. }
    unfold event_name. rewrite F. apply nm_other; auto. apply show_int_signed.
Qed.

(** the keys, in the order they are written *)
Definition written : list string := ["source"; "submitted_run_count"; "coalesced_run_count"; "scheduled_run_times"; "scheduled_run_time"; "return_value"; "exception_type"; "exception_message"]%string.
Inductive within {A} : list A -> list A -> Prop :=
| wi_nil l : within [] l
| wi_take x a l : within a l -> within (x :: a) (x :: l)
| wi_skip x a l : within a l -> within a (x :: l).
(** the class of event schedulers dispatch for each kind (schedulers/base.py: _dispatch_event call sites,
    executors/base.py) *)
Definition genuine (ev : sevent) : Prop :=
  exists k, s_code ev = code k /\
  match k with
  | KTaskAdded | KTaskRemoved | KTaskModified => exists t s i, s_body ev = BTask t s i
  | KSubmitted | KMaxInstances => exists t s i ts src c, s_body ev = BSubmission t s i ts src c
  | KExecuted | KError | KMissed => exists t s i tm v et em, s_body ev = BExecution t s i tm v et em
  | _ => s_body ev = BScheduler
  end.
(** A record says of its event: the code, its name, the alias, the task, the store, the scheduler it came from
    (the one named by a task's event, else the scheduler itself), and the details, each key followed by its
    value. *)
Theorem C99_record : forall (sha : string -> string) (identity : string) (ev : sevent), let r := make_record sha identity ev in
  e_code r = s_code ev /\ named (s_code ev) (e_name r) /\ e_alias r = s_alias ev /\
  (s_body ev = BScheduler -> e_task r = None /\ e_store r = None /\ (forall x, e_sched r = Some x <-> trims identity x /\ x <> ""%string)) /\
  (forall t s i, (s_body ev = BTask t s i \/ (exists ts src c, s_body ev = BSubmission t s i ts src c) \/ exists tm v et em, s_body ev = BExecution t s i tm v et em) ->
     e_task r = Some t /\ e_store r = s /\ e_cat r = "task"%string /\ (forall x, i = Some x -> e_sched r = Some x) /\ (i = None -> identity <> ""%string -> e_sched r = Some identity)) /\
  exists l, within (map fst l) written /\ (forall k v, In (k, v) l <-> tells (s_body ev) k v) /\ e_text r = join " " (flat l).
Proof.
  intros sha identity ev r. unfold r, make_record. cbn [e_code e_name e_alias e_task e_store e_sched e_cat e_text]. split; [reflexivity|]. split; [apply name_named|]. split; [reflexivity|]. split; [|split].
  - intros ->. cbn [ev_task ev_store]. split; [reflexivity|]. split; [reflexivity|]. intros x. unfold or_none. split.
    + destruct (strip identity) eqn:E; [discriminate|]. intros [= <-]. split; [|discriminate]. apply trims_iff. auto.
    + intros [T N]. apply trims_iff in T. rewrite T. destruct x; [congruence|reflexivity].
  - intros t s i [->|[(ts & src & c & ->)|(tm & v & et & em & ->)]]; cbn [ev_task ev_store ev_ident event_category]; (split; [reflexivity|]); (split; [reflexivity|]); (split; [reflexivity|]); (split; [intros x ->; reflexivity|intros -> N; unfold filled, or_none; destruct identity; [congruence|reflexivity]]).
  - destruct (s_body ev) as [|t s i|t s i ts src c|t s i tm v et em].
    + exists []. split; [constructor|]. split; [|reflexivity]. intros k v. split; [intros []|inversion 1].
    + exists []. split; [constructor|]. split; [|reflexivity]. intros k v. split; [intros []|inversion 1].
    + exists [("source", if given src then or_empty src else "unknown"); ("submitted_run_count", show_int (Z.of_nat (List.length ts))); ("coalesced_run_count", show_int c); ("scheduled_run_times", list_text ts)]%string.
      split; [cbn [map fst]; unfold written; repeat constructor|]. split; [|reflexivity]. intros k v. split.
      * intros I. cbn [In] in I. destruct I as [[= <- <-]|[[= <- <-]|[[= <- <-]|[[= <- <-]|[]]]]]; try constructor. destruct src as [x|]; unfold given; cbn [or_empty].
        -- destruct (String.eqb_spec x "") as [->|N]; cbn [negb]; [right; split; [intros y [[= <-] H]; apply H; reflexivity|reflexivity]|left; split; [reflexivity|exact N]].
        -- right. split; [intros y [H _]; discriminate|reflexivity].
      * inversion 1 as [t' s' i' ts' src' c' x [[E N]|[N E]]| | | | | | |]; subst; cbn [In]; auto.
        -- left. f_equal. unfold given. cbn [or_empty]. destruct (String.eqb_spec v ""); [congruence|reflexivity].
        -- left. f_equal. unfold given. destruct src as [x|]; cbn [or_empty]; [|reflexivity]. destruct (String.eqb_spec x "") as [->|M]; [reflexivity|]. exfalso. apply (N x). split; [reflexivity|exact M].
    + set (o := fun (k : string) (v : option string) => match v with Some x => [(k, x)] | None => [] end).
      exists (o "scheduled_run_time"%string tm ++ o "return_value"%string v ++ o "exception_type"%string et ++ o "exception_message"%string em)%list.
      split; [destruct tm, v, et, em; unfold o; cbn [app map fst]; unfold written; repeat constructor|]. split.
      * intros k x. split.
        -- intros I. destruct tm, v, et, em; unfold o in I; cbn [app In] in I; repeat (destruct I as [I|I]; [injection I as <- <-; constructor|]); destruct I.
        -- inversion 1; subst; unfold o; rewrite !in_app_iff; cbn [In]; auto 6.
      * destruct tm, v, et, em; reflexivity.
Qed.
Print Assumptions C99_record.
(** The category of an event is the first part of its name - except that the removal of all tasks is filed
    under "scheduler". *)
Theorem C99_category_partial : forall (sha : string -> string) (identity : string) (ev : sevent), genuine ev -> s_code ev <> code KAllRemoved ->
  exists rest, e_name (make_record sha identity ev) = (e_cat (make_record sha identity ev) ++ "." ++ rest)%string.
Proof.
  intros sha identity ev (k & C & B) N. unfold make_record. cbn [e_name e_cat]. rewrite C in *.
  destruct k; try congruence; try (rewrite B; eexists; reflexivity).
  1-3: destruct B as (t & s & i & ->); eexists; reflexivity.
  1-3: destruct B as (t & s & i & tm & v & et & em & ->); eexists; reflexivity.
  all: destruct B as (t & s & i & ts & src & c & ->); eexists; reflexivity.
Qed.
Theorem C99_category_refuted : forall (sha : string -> string) (identity : string) (ev : sevent), genuine ev -> s_code ev = code KAllRemoved ->
  let r := make_record sha identity ev in e_name r = "task.all_removed"%string /\ e_cat r = "scheduler"%string.
Proof.
  intros sha identity ev (k & C & B) N. unfold make_record. cbn [e_name e_cat]. rewrite N in C. assert (k = KAllRemoved) by (destruct k; try discriminate C; reflexivity). subst k. rewrite B, N. auto.
Qed.

(** ** C99: the runs *)
(** the scheduler named in the report *)
Inductive spoke (identity : string) : option string -> option string -> Prop :=
| sp_named x : x <> ""%string -> spoke identity (Some x) (Some x)
| sp_self : identity <> ""%string -> spoke identity None (Some identity)
| sp_blank x : trims identity x -> x <> ""%string -> spoke identity (Some ""%string) (Some x)
| sp_nobody i : (i = None \/ i = Some ""%string) -> trims identity ""%string -> (i = None -> identity = ""%string) -> spoke identity i None.
(** the report an event makes *)
Inductive reports (identity : string) : sevent -> hevent -> Prop :=
| rp_submission c al t s i ts src co seen me now res who full : spoke identity i who -> (c = code KSubmitted /\ full = false \/ c = code KMaxInstances /\ full = true) ->
    reports identity (MkSEv c al (BSubmission t s i ts src co) seen me now res) (Submission t s ts full src co (MkMeta (m_name me) (m_callable me) (m_executor me) who) now)
| rp_execution c al t s i tm x v et em seen me now res who o : spoke identity i who -> (tm = Some x \/ tm = None /\ x = ""%string) ->
    (c = code KExecuted /\ o = OSucceeded \/ c = code KError /\ o = OFailed \/ c = code KMissed /\ o = OMissed) ->
    reports identity (MkSEv c al (BExecution t s i tm v et em) seen me now res) (Execution t s x o res (MkMeta (m_name me) (m_callable me) (m_executor me) who) now).
(** the reports made by the events of several schedulers, in order *)
Inductive reported (identity : nat -> string) : list (nat * sevent) -> list hevent -> Prop :=
| rd_nil : reported identity [] []
| rd_take s e r l rs : reports (identity s) e r -> reported identity l rs -> reported identity ((s, e) :: l) (r :: rs)
| rd_skip s e l rs : (forall r, ~ reports (identity s) e r) -> reported identity l rs -> reported identity ((s, e) :: l) rs.
Lemma spoke_iff identity i who : spoke identity i who <-> (let i := filled identity i in if given i then i else or_none (strip identity)) = who.
Proof.
  assert (OT : forall w, or_none (strip identity) = w <-> match w with Some x => trims identity x /\ x <> ""%string | None => trims identity ""%string end).
  { intros w. unfold or_none. destruct w as [x|]; rewrite <- trims_iff.
    - split; [destruct (strip identity) eqn:E; [discriminate|intros [= <-]; split; [auto|discriminate]]|intros [-> N]; destruct x; [congruence|reflexivity]].
    - split; [destruct (strip identity); [auto|discriminate]|intros ->; reflexivity]. }
  assert (TE : trims ""%string ""%string) by (apply trims_iff; reflexivity).
  cbv zeta. unfold filled. destruct i as [[|a y]|].
  - unfold given. cbn [or_empty String.eqb negb]. rewrite OT. split; [inversion 1; subst; auto; congruence|]. destruct who as [x|]; [intros [T N]; apply sp_blank; auto|intros T; apply sp_nobody; auto; discriminate].
  - unfold given. cbn [or_empty String.eqb negb]. split; [inversion 1 as [| | |i [H1|H1]]; subst; auto; discriminate|intros <-; apply sp_named; discriminate].
  - unfold or_none at 1 2. destruct (String.eqb_spec identity "") as [->|N].
    + change (given None) with false. cbv iota. rewrite OT. split; [inversion 1; subst; [congruence|auto]|]. destruct who as [x|]; [intros [T M]; exfalso; apply trims_iff in T; cbn in T; congruence|intros T; apply sp_nobody; auto].
    + assert (G : given (Some identity) = true) by (unfold given; cbn [or_empty]; destruct (String.eqb_spec identity ""); [congruence|reflexivity]). rewrite G. split; [inversion 1 as [| | |i H1 H2 H3]; subst; auto; specialize (H3 eq_refl); congruence|intros <-; apply sp_self; auto].
Qed.
Lemma reports_iff identity ev r : reports identity ev r <-> report_of identity ev = Some r.
Proof.
  split.
  - intros H. destruct H as [c al t s i ts src co seen me now res who full W C|c al t s i tm x v et em seen me now res who o W X C]; apply spoke_iff in W; unfold report_of; cbn [s_body s_code s_meta s_now s_result ev_ident]; cbv zeta in *; rewrite W.
    + destruct C as [[-> ->]|[-> ->]]; reflexivity.
    + assert (XE : or_empty tm = x) by (destruct X as [->|[-> ->]]; reflexivity). rewrite XE. destruct C as [[-> ->]|[[-> ->]|[-> ->]]]; reflexivity.
  - destruct ev as [c al b seen me now res]. unfold report_of. cbn [s_body s_code s_meta s_now s_result ev_ident]. destruct b as [|t s i|t s i ts src co|t s i tm v et em]; try discriminate; cbn [ev_ident].
    + destruct (Z.eqb_spec c (code KSubmitted)) as [E1|E1], (Z.eqb_spec c (code KMaxInstances)) as [E2|E2]; cbn [orb]; try discriminate; intros [= <-]; apply rp_submission; try (apply spoke_iff; reflexivity); auto.
    + destruct (Z.eqb_spec c (code KExecuted)) as [E1|E1]; cbn [orb]; [intros [= <-]; apply rp_execution; [apply spoke_iff; reflexivity|destruct tm; auto|auto]|].
      destruct (Z.eqb_spec c (code KError)) as [E2|E2]; cbn [orb].
      * destruct (Z.eqb_spec c (code KMissed)) as [E3|E3]; [exfalso; rewrite E2 in E3; discriminate|]. intros [= <-]. apply rp_execution; [apply spoke_iff; reflexivity|destruct tm; auto|auto].
      * destruct (Z.eqb_spec c (code KMissed)) as [E3|E3]; [|discriminate]. intros [= <-]. apply rp_execution; [apply spoke_iff; reflexivity|destruct tm; auto|auto].
Qed.
Definition reps (identity : nat -> string) (l : list (nat * sevent)) : list hevent := flat_map (fun se => match report_of (identity (fst se)) (snd se) with Some r => [r] | None => [] end) l.
Lemma reported_iff identity l rs : reported identity l rs <-> reps identity l = rs.
Proof.
  split.
  - induction 1 as [|s e r l rs H _ IH|s e l rs H _ IH]; cbn; auto.
    + apply reports_iff in H. rewrite H. cbn. f_equal. exact IH.
    + destruct (report_of (identity s) e) as [r|] eqn:E; [exfalso; apply (H r), reports_iff, E|exact IH].
  - intros <-. induction l as [|[s e] l IH]; [constructor|]. cbn. destruct (report_of (identity s) e) as [r|] eqn:E.
    + apply rd_take; auto. apply reports_iff, E.
    + apply rd_skip; auto. intros r H. apply reports_iff in H. congruence.
Qed.
Lemma report_mask identity ev r : report_of identity ev = Some r -> shares (s_code ev) run_mask.
Proof. intros H. apply reports_iff in H. unfold shares. destruct H as [c ? ? ? ? ? ? ? ? ? ? ? ? ? _ C|c ? ? ? ? ? ? ? ? ? ? ? ? ? ? ? _ _ C]; cbn [s_code]; repeat (destruct C as [C|C]); destruct C as [-> _]; discriminate. Qed.
(** every event is of interest *)
Definition all_noted := noted (fun _ : sevent => True) (fun _ => left Logic.I).
Lemma noted_reps identity n j ops : forall cur who a b, reps identity a = reps identity b ->
  reps identity (noted (fun e : sevent => shares (s_code e) run_mask) (fun e => shares_dec run_mask (s_code e)) n j cur who a ops) = reps identity (all_noted n j cur who b ops).
Proof.
  unfold all_noted. induction ops as [|o ops IH]; intros cur who a b H; cbn [noted]; auto.
  destruct o as [s st|st|s e|s cb m|s cb|i]; try (apply IH; auto; fail).
  - apply IH. destruct (who s) as [i|]; auto. destruct (Nat.eqb i j); auto. destruct (shares_dec run_mask (s_code e)) as [Y|Y]; unfold reps in *; rewrite !flat_map_app, H; cbn [flat_map fst snd]; auto.
    destruct (report_of (identity s) e) as [r|] eqn:E; [exfalso; apply Y; eapply report_mask; eauto|]. cbn. rewrite app_nil_r. auto.
  - apply IH. destruct (Nat.eqb i j); auto.
Qed.
Section Runs.
  Context (sha : string -> string) (inj : forall a b, sha a = sha b -> a = b) (identity : nat -> string).
  Lemma told_runs n l : Forall (fun e => Forall plain (keys_of e)) (reps identity l) ->
    exists h, told_all (note_run sha identity) l (n, empty_history) = (n, h) /\ handle_all sha n (reps identity l) empty_history = Ok h.
  Proof.
    induction l as [|[s e] l IH] using rev_ind; intros F; [exists empty_history; auto|].
    assert (R : reps identity (l ++ [(s, e)]) = reps identity l ++ reps identity [(s, e)]) by (unfold reps; apply flat_map_app).
    pose proof F as F0. rewrite R in F. apply Forall_app in F as [F1 F2]. destruct (IH F1) as (h & T & H). unfold told_all in *. rewrite fold_left_app, T. cbn [fold_left fst snd]. unfold note_run. rewrite R. cbn [reps flat_map app fst snd].
    destruct (report_of (identity s) e) as [r|] eqn:E; cbn [app]; [|rewrite app_nil_r; eauto].
    assert (P : reps identity [(s, e)] = [r]) by (cbn [reps flat_map app fst snd]; rewrite E; reflexivity). rewrite R, P in F0.
    destruct (C45_one_record_per_run_partial sha n inj _ F0) as (h' & A & _). rewrite (handle_all_app _ _ _ _ _ _ H) in A. cbn [fst snd]. rewrite A. exists h'. split; [reflexivity|]. rewrite (handle_all_app _ _ _ _ _ _ H). auto.
  Qed.
End Runs.
(** The same history of mounts, dispatches, other listeners and clearings: each history storage is in the state
    that the reports of the schedulers reporting to it - of all events dispatched since it was cleared, whatever
    their code - lead to, in order, from an empty history (C45 and C98 say what it shows then). *)
Theorem C99_runs_recorded_partial :
  forall (sha : string -> string) (identity : nat -> string) (sizes : list nat) (ops : list (wop (Ev := sevent))),
    (forall a b, sha a = sha b -> a = b) -> Forall (sane (List.length sizes)) ops ->
    (forall s e r, In (WDispatch s e) ops -> reports (identity s) e r -> Forall plain (keys_of r)) ->
    let n := List.length sizes in let p := history_run sha identity sizes ops in let '(cur, who) := roles n None (fun _ => None) ops in
    w_cur p = cur /\
    forall j, match nth_error (w_stores p) j with
      | Some (size, h) => nth_error (sizes ++ [Z.to_nat 5000]) j = Some size /\
          exists rs, reported identity (all_noted n j None (fun _ => None) [] ops) rs /\ handle_all sha size rs empty_history = Ok h
      | None => cur <> Some j /\ forall s, who s <> Some j
      end.
Proof.
  intros sha identity sizes ops inj F PL. cbv zeta. set (n := List.length sizes) in *. destruct (roles n None (fun _ => None) ops) as [cur who] eqn:R.
  set (st := map (fun n => (n, empty_history)) sizes : list (nat * history)). assert (L : List.length st = n) by (unfold st; apply map_length).
  pose proof (start_good run_mask st) as G. rewrite L in G.
  assert (CR : forall s e x, clear_runs (note_run sha identity s e x) = clear_runs x) by (intros s e x; unfold note_run; destruct (report_of (identity s) e); reflexivity).
  destruct (run_spec s_code run_mask (note_run sha identity) clear_runs (Z.to_nat 5000, empty_history) CR ltac:(intros; reflexivity) n ops (w_start st) None (fun _ => None) G F) as [G2 S].
  rewrite R in G2. cbn [fst snd] in G2. change (wrun s_code run_mask (note_run sha identity) clear_runs (Z.to_nat 5000, empty_history) (w_start st) ops) with (history_run sha identity sizes ops) in *. set (p := history_run sha identity sizes ops) in *.
  split; [apply (g_cur _ _ _ _ _ G2)|]. intros j.
  set (run_noted := noted (fun e : sevent => shares (s_code e) run_mask) (fun e => shares_dec run_mask (s_code e)) n j None (fun _ => None) [] ops) in *.
  assert (PN : Forall (fun e => Forall plain (keys_of e)) (reps identity run_noted)).
  { assert (IN : forall se, In se run_noted -> In (WDispatch (fst se) (snd se)) ops).
    { unfold run_noted. assert (X : forall ops' (cur : option nat) (who : nat -> option nat) sofar, (forall se, In se sofar -> In (WDispatch (fst se) (snd se)) ops) -> incl ops' ops ->
        forall se, In se (noted (fun e : sevent => shares (s_code e) run_mask) (fun e => shares_dec run_mask (s_code e)) n j cur who sofar ops') -> In (WDispatch (fst se) (snd se)) ops).
      { clear. induction ops' as [|o ops' IH]; intros cur who sofar H1 H2 se; cbn [noted]; auto. assert (H3 : incl ops' ops) by (intros x X; apply H2; right; auto).
        destruct o as [s st|st|s e|s cb m|s cb|i]; try (apply IH; auto; fail).
        - apply IH; auto. destruct (who s) as [i|]; auto. destruct (Nat.eqb i j); auto. destruct (shares_dec run_mask (s_code e)); auto. intros se' I. apply in_app_iff in I as [I|[<-|[]]]; auto. apply H2. left. reflexivity.
        - apply IH; auto. destruct (Nat.eqb i j); auto. intros se' []. }
      apply X; [intros se []|apply incl_refl]. }
    apply Forall_forall. intros r I. unfold reps in I. apply in_flat_map in I as ([s e] & I1 & I2). cbn [fst snd] in I2. destruct (report_of (identity s) e) as [r'|] eqn:E; [|destruct I2]. destruct I2 as [<-|[]]. apply (PL s e); [apply (IN _ I1)|apply reports_iff, E]. }
  assert (TR : forall m, exists h rs, told_all (note_run sha identity) run_noted (m, empty_history) = (m, h) /\ reported identity (all_noted n j None (fun _ => None) [] ops) rs /\ handle_all sha m rs empty_history = Ok h).
  { intros m. destruct (told_runs sha inj identity m run_noted PN) as (h & T & H). exists h, (reps identity run_noted). split; auto. split; auto. apply reported_iff. symmetry. apply noted_reps. reflexivity. }
  destruct (nth_error st j) as [[m b]|] eqn:E.
  - assert (MB : nth_error sizes j = Some m /\ b = empty_history). { unfold st in E. rewrite nth_error_map in E. destruct (nth_error sizes j); [|discriminate]. injection E as <- <-. auto. } destruct MB as [M ->].
    destruct (S j (m, empty_history) [] eq_refl) as [S1 _]. rewrite (S1 E). fold run_noted. destruct (TR m) as (h & rs & -> & R1 & R2). split; [rewrite nth_error_app1; auto; apply nth_error_Some; congruence|eauto].
  - destruct (S j (Z.to_nat 5000, empty_history) [] eq_refl) as [_ S2]. destruct (S2 E eq_refl eq_refl) as [X|[EJ X]].
    + rewrite X. apply nth_error_None in X. split; [intros ->; pose proof (g_idx _ _ _ _ _ G2 j (or_introl (g_cur _ _ _ _ _ G2)))|intros s W; pose proof (g_idx _ _ _ _ _ G2 j (or_intror (ex_intro _ s W)))]; lia.
    + rewrite X. fold run_noted. destruct (TR (Z.to_nat 5000)) as (h & rs & -> & R1 & R2). split; [rewrite EJ, nth_error_app2, Nat.sub_diag by auto; auto|eauto].
Qed.
Print Assumptions C99_runs_recorded_partial.

(** ** where the claim fails *)
Definition ex_ev (c : Z) (b : body) : sevent := MkSEv c None b "2024"%string (MkMeta None None None None) 5 None.
Definition ex_sub : sevent := ex_ev (code KSubmitted) (BSubmission "t" (Some "default") None ["2024-01-01T00:00:00+00:00"] (Some "manual") 0)%string.
Definition ex_done : sevent := ex_ev (code KExecuted) (BExecution "t" (Some "default") None (Some "2024-01-01T00:00:00+00:00") (Some "1") None None)%string.
(** Mounting a scheduler again takes the old listener away before it adds the new one: an event dispatched
    between the two is recorded nowhere, whatever it is. *)
Theorem C99_remount_gap_refuted : forall (sha : string -> string) (identity : nat -> string) (ev : sevent),
  let p0 := events_run sha identity [] [WInstall 0 None] in
  let (i, p1) := install_remove (Z.to_nat 10000, []) 0 None p0 in
  let p3 := install_add all_events 0 i (dispatch_to s_code (note_event sha identity) 0 ev p1) in
  w_stores p3 = w_stores p0 /\ w_inst p3 0%nat <> None.
Proof. intros. cbn. auto. split; [reflexivity|discriminate]. Qed.
(** A listener added earlier with a string for a mask keeps the dashboard from hearing anything. *)
Theorem C99_string_mask_refuted : forall (sha : string -> string) (identity : nat -> string) (evs : list sevent),
  w_stores (events_run sha identity [] ([WAdd 0 7 None; WInstall 0 None] ++ map (fun e => WDispatch 0 e) evs)) = [(Z.to_nat 10000, [])].
Proof.
  intros sha identity evs. unfold events_run. cbn [app wrun]. set (p := wstep _ _ _ _ _ (wstep _ _ _ _ _ _ _) _).
  assert (P : w_ls p 0%nat = [(Theirs 7, None); (Ours 0, Some all_events)] /\ w_stores p = [(Z.to_nat 10000, [])]) by (split; reflexivity). clearbody p. revert p P.
  induction evs as [|e evs IH]; intros p [P1 P2]; cbn [map wrun]; auto. apply IH. unfold wstep, dispatch_to. rewrite P1. cbn [notify]. auto.
Qed.
(** Two schedulers mounted with a storage each: every page reads the storage of the one mounted last, so the
    first one's events are recorded but not shown. *)
Theorem C99_second_mount_refuted : forall (sha : string -> string) (identity : nat -> string) (evs : list sevent),
  let p := events_run sha identity [50; 50]%nat ([WInstall 0 (Some 0%nat); WInstall 1 (Some 1%nat)] ++ map (fun e => WDispatch 0 e) evs) in
  w_cur p = Some 1%nat /\ nth_error (w_stores p) 1 = Some (50%nat, []) /\
  exists held, nth_error (w_stores p) 0 = Some (50%nat, held) /\ newest 50 (map (make_record sha (identity 0%nat)) (filter (fun e => if shares_dec all_events (s_code e) then true else false) evs)) held.
Proof.
  intros sha identity evs p. set (ops := [WInstall 0 (Some 0%nat); WInstall 1 (Some 1%nat)] ++ map (fun e => WDispatch 0 e) evs) in *.
  assert (SN : Forall (sane (List.length [50; 50]%nat)) ops). { unfold ops. apply Forall_app. split; [repeat constructor; cbn; lia|]. apply Forall_map, Forall_forall. intros e _. exact Logic.I. }
  pose proof (C99_events_recorded_partial sha identity [50; 50]%nat ops SN) as H. cbv zeta in H. cbn [List.length] in H.
  assert (RO : exists who, roles 2 None (fun _ => None) ops = (Some 1%nat, who) /\ who 0%nat = Some 0%nat).
  { unfold ops. cbn [app roles meant]. set (w := fun x : nat => _). assert (W : w 0%nat = Some 0%nat) by reflexivity. clearbody w. exists w. split; auto. clear H SN ops p. induction evs as [|e evs IH]; [reflexivity|exact IH]. }
  destruct RO as (who & RO & W0). rewrite RO in H. destruct H as [HC HS]. fold p in HC, HS. split; auto.
  assert (ND : forall j acc (w : nat -> option nat), w 0%nat = Some 0%nat ->
    event_noted 2 j (Some 1%nat) w acc (map (fun e => WDispatch 0 e) evs) = acc ++ if Nat.eqb 0 j then map (fun e => (0%nat, e)) (filter (fun e => if shares_dec all_events (s_code e) then true else false) evs) else []).
  { clear. intros j acc w W. unfold event_noted. revert acc. induction evs as [|e evs IH]; intros acc; cbn [map noted].
    - destruct (Nat.eqb 0 j); cbn; rewrite app_nil_r; auto.
    - rewrite W, IH. destruct (Nat.eqb 0 j); auto. cbn [filter]. destruct (shares_dec all_events (s_code e)); auto. rewrite <- app_assoc. reflexivity. }
  assert (NE : forall j, event_noted 2 j None (fun _ => None) [] ops = if Nat.eqb 0 j then map (fun e => (0%nat, e)) (filter (fun e => if shares_dec all_events (s_code e) then true else false) evs) else []).
  { intros j. unfold ops, event_noted. cbn [app noted meant]. fold event_noted. rewrite ND; [reflexivity|reflexivity]. }
  split.
  - specialize (HS 1%nat). rewrite NE in HS. cbn [Nat.eqb map] in HS. destruct (nth_error (w_stores p) 1) as [[sz held]|]; [|destruct HS; congruence]. destruct HS as [[= <-] N]. destruct N as (pre & E & _). destruct pre, held; try discriminate. auto.
  - specialize (HS 0%nat). rewrite NE in HS. cbn [Nat.eqb] in HS. destruct (nth_error (w_stores p) 0) as [[sz held]|]; [|destruct HS as [_ HS]; destruct (HS 0%nat W0)]. destruct HS as [[= <-] N]. exists held. split; auto. rewrite map_map in N. exact N.
Qed.
Print Assumptions C99_second_mount_refuted.
(** the hypotheses are met: two schedulers, a storage of one record, a remount, a listener of the user *)
Example C99_example :
  let ops := [WAdd 0 3 (Some 1); WInstall 0 (Some 0%nat); WInstall 1 None; WDispatch 0 ex_sub; WInstall 0 (Some 0%nat); WDispatch 1 ex_done; WDispatch 0 (ex_ev 262144 BScheduler); WRemove 0 3] in
  Forall (sane 1) ops /\
  map (fun x => (fst x, map e_name (snd x))) (w_stores (events_run (fun s => s) (fun _ => "me"%string) [1%nat] ops)) = [(1%nat, ["task.executed"%string])] /\
  (forall s e r, In (WDispatch s e) ops -> reports "me"%string e r -> Forall plain (keys_of r)) /\
  map (fun x => map (fun kv => h_status (snd kv)) (records (snd x))) (w_stores (history_run (fun s => s) (fun _ => "me"%string) [1%nat] ops)) = [[Succeeded]].
Proof.
  cbv zeta. split; [repeat constructor; cbn; try lia; discriminate|]. split; [vm_compute; reflexivity|]. split; [|vm_compute; reflexivity].
  assert (NB : no_bar "t"%string /\ no_bar "2024-01-01T00:00:00+00:00"%string /\ no_bar "default"%string).
  { assert (X : forall s, existsb (Ascii.eqb "|") (list_ascii_of_string s) = false -> no_bar s). { intros s H u v ->. revert H. induction u as [|a u IH]; cbn; [discriminate|]. intros H. apply orb_false_iff in H as [_ H]. auto. } repeat split; apply X; reflexivity. }
  destruct NB as (N1 & N2 & N3).
  intros s e r I H. apply reports_iff in H. cbn [In] in I. repeat (destruct I as [I|I]; [try discriminate I; injection I as <- <-; cbv in H; try discriminate H; injection H as <-|]); try destruct I.
  all: repeat constructor; auto; try discriminate; intros x [= <-]; auto.
Qed.
