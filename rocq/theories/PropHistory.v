(** C45: the dashboard's run history. *)
From Verif Require Import Prelude PreludeFacts Text Dash DashSpec History.
Open Scope Z_scope.

(** *** specification *)
(** identifiers without the character that separates the parts of a run key, and named stores *)
Definition no_bar (s : string) : Prop := forall u v, s <> (u ++ String "|" v)%string.
Definition plain (k : rkey) : Prop := match k with (t, s, r) => no_bar t /\ no_bar r /\ s <> Some ""%string /\ forall x, s = Some x -> no_bar x end.
Definition keys_of (e : hevent) : list rkey :=
  match e with
  | Submission t s times _ _ _ _ _ => map (fun r => (t, s, r)) times
  | Execution t s r _ _ _ _ => [(t, s, r)]
  | Clear => []
  end.
Definition one_run (e : hevent) (k : rkey) : Prop := keys_of e = [k].
(** [r] is in the history, where [get] finds it *)
Definition held (h : history) (r : run_record) : Prop := dget (h_id r) (records h) = Some r.
(** what was known stays, what was not is learned *)
Definition known (o : option string) : Prop := exists a s, o = Some (String a s).
Definition learns (old told new : option string) : Prop :=
  (known old -> new = old) /\ (~ known old -> known told -> new = told) /\ (~ known old -> ~ known told -> new = old).
Definition told (e : hevent) : option (meta * Z) :=
  match e with Submission _ _ _ _ _ _ m now => Some (m, now) | Execution _ _ _ _ _ m now => Some (m, now) | Clear => None end.
Definition source_named (src : option string) (s : string) : Prop :=
  (known src -> src = Some s) /\ (~ known src -> s = "scheduled"%string).
(** how an event about one run changes its record *)
Definition changes (e : hevent) (r r' : run_record) : Prop :=
  h_id r' = h_id r /\ h_key r' = h_key r /\ h_created r' = h_created r /\
  (forall m now, told e = Some (m, now) -> h_updated r' = now /\ learns (h_name r) (m_name m) (h_name r') /\ learns (h_callable r) (m_callable m) (h_callable r') /\
     learns (h_executor r) (m_executor m) (h_executor r') /\ learns (h_sched r) (m_sched m) (h_sched r')) /\
  match e with
  | Submission _ _ _ full src c m now =>
      h_status r' = (if terminal (h_status r) then h_status r else if full then MaxInstances else Running) /\
      h_result r' = h_result r /\ h_coalesced r' = Z.max (h_coalesced r) c /\ source_named src (h_source r') /\
      (h_submitted r = None -> h_submitted r' = Some (match h_finished r with Some f => f | None => now end)) /\ (full = true -> h_finished r = None -> h_finished r' = Some now) /\
      (forall t, h_submitted r = Some t -> h_submitted r' = Some t) /\ (forall t, h_finished r = Some t -> h_finished r' = Some t) /\
      (full = false -> h_finished r' = h_finished r)
  | Execution _ _ _ o res m now =>
      h_status r' = status_of o /\ h_result r' = res /\ h_finished r' = Some now /\ h_coalesced r' = h_coalesced r /\ h_source r' = h_source r /\ (h_submitted r = None -> h_submitted r' = Some now) /\
      (forall t, h_submitted r = Some t -> h_submitted r' = Some t)
  | Clear => False
  end.
Definition begins (e : hevent) (r' : run_record) : Prop :=
  (forall m now, told e = Some (m, now) -> h_created r' = now /\ h_updated r' = now /\ h_name r' = m_name m /\ h_callable r' = m_callable m /\ h_executor r' = m_executor m /\ h_sched r' = m_sched m) /\
  match e with
  | Submission _ _ _ full src c m now =>
      h_status r' = (if full then MaxInstances else Running) /\ h_result r' = None /\ h_submitted r' = Some now /\ h_finished r' = (if full then Some now else None) /\
      source_named src (h_source r') /\ h_coalesced r' = Z.max 0 c
  | Execution _ _ _ o res m now => h_status r' = status_of o /\ h_result r' = res /\ h_submitted r' = Some now /\ h_finished r' = Some now /\ h_coalesced r' = 0 /\ h_source r' = "unknown"%string
  | Clear => False
  end.
(** the runs kept after some events, oldest first: a run enters when it is first heard of (or heard of
    again after it was dropped), and the oldest makes room *)
Definition push (maxlen : nat) (ks : list rkey) (k : rkey) : list rkey :=
  if existsb (rkey_eqb k) ks then ks else skipn (S (List.length ks) - maxlen) (ks ++ [k]).
Definition kept (maxlen : nat) (es : list hevent) : list rkey :=
  fold_left (fun ks e => match e with Clear => [] | _ => fold_left (push maxlen) (keys_of e) ks end) es [].
Definition oldest (h : history) (r : run_record) : Prop := exists rest, map snd (records h) = r :: rest.

Ltac sp := repeat (split; [solve [auto]|]).
Ltac spa := repeat match goal with |- _ /\ _ => split end.
(** *** keys *)
Lemma known_given o : Dash.given o = true <-> known o.
Proof. unfold Dash.given, known. destruct o as [[|a s]|]; cbn; split; intros H; try discriminate; eauto; destruct H as (b & t & [=]). Qed.
Lemma learns_first a b : learns a b (first_given a b).
Proof.
  unfold learns, first_given. rewrite <- !known_given. destruct (Dash.given a), (Dash.given b); repeat split; auto; intros; try discriminate; exfalso; auto.
Qed.
Lemma source_says src : source_named src (source_text src).
Proof.
  unfold source_named, source_text. rewrite <- !known_given. destruct (Dash.given src) eqn:G; split; intros H; try discriminate; auto; [|destruct H; auto].
  apply known_given in G. destruct G as (a & s & ->). reflexivity.
Qed.
Lemma rkey_eqb_eq a b : rkey_eqb a b = true <-> a = b.
Proof.
  destruct a as [[t1 s1] r1], b as [[t2 s2] r2]. unfold rkey_eqb. rewrite !andb_true_iff, !String.eqb_eq. destruct s1, s2; rewrite ?String.eqb_eq; split; intros H; try (intuition congruence).
Qed.
Lemma rkey_eqb_refl a : rkey_eqb a a = true.
Proof. apply rkey_eqb_eq. auto. Qed.
Lemma rkey_dec (a b : rkey) : {a = b} + {a <> b}.
Proof. destruct (rkey_eqb a b) eqn:E; [left; apply rkey_eqb_eq; auto|right]. intros ->. rewrite rkey_eqb_refl in E. discriminate. Qed.
Lemma cut_bar a : forall b x y, no_bar a -> no_bar b -> (a ++ String "|" x = b ++ String "|" y)%string -> a = b /\ x = y.
Proof.
  induction a as [|c a IH]; intros [|d b] x y A B E; cbn in E.
  - injection E as ->. auto.
  - injection E as <- ->. destruct (B ""%string b); auto.
  - injection E as -> <-. destruct (A ""%string a); auto.
  - injection E as -> E. destruct (IH b x y) as [-> ->]; auto; intros u v F; [apply (A (String d u) v)|apply (B (String d u) v)]; cbn; congruence.
Qed.
Lemma no_bar_nil : no_bar "".
Proof. intros [|a u] v; cbn; congruence. Qed.
Lemma run_id_inj sha k k' : (forall a b, sha a = sha b -> a = b) -> plain k -> plain k' -> run_id sha k = run_id sha k' -> k = k'.
Proof.
  intros I. destruct k as [[t s] r], k' as [[t' s'] r']. intros (A & B & C & D) (A' & B' & C' & D') E. apply I in E. cbn in E.
  assert (S : no_bar (or_empty s)) by (destruct s; cbn; [apply D; auto|apply no_bar_nil]). assert (S' : no_bar (or_empty s')) by (destruct s'; cbn; [apply D'; auto|apply no_bar_nil]).
  apply cut_bar in E as [-> E]; auto. apply cut_bar in E as [E1 ->]; auto. destruct s as [x|], s' as [y|]; cbn in E1; congruence.
Qed.

(** *** what the store looks like, as a list of records, oldest first *)
Section Inv.
  Context (sha : string -> string) (maxlen : nat).
  Context (inj : forall a b, sha a = sha b -> a = b).
  Notation rid := (run_id sha).
  Definition wf (rs : list run_record) : Prop := NoDup (map h_key rs) /\ Forall (fun r => h_id r = rid (h_key r) /\ plain (h_key r)) rs /\ (List.length rs <= maxlen)%nat.
  Definition shows (h : history) (rs : list run_record) : Prop :=
    records h = map (fun r => (h_id r, r)) rs /\ order h = map h_id rs /\ index h = map (fun r => (h_key r, h_id r)) rs.
  Lemma id_key rs r r' : Forall (fun r => h_id r = rid (h_key r) /\ plain (h_key r)) rs -> In r rs -> In r' rs -> h_id r = h_id r' -> h_key r = h_key r'.
  Proof.
    rewrite Forall_forall. intros F I I' E. destruct (F r I) as [A B], (F r' I') as [A' B']. apply (run_id_inj sha); auto. congruence.
  Qed.
  Lemma kget_in rs k : kget k (map (fun r => (h_key r, h_id r)) rs) = None <-> ~ In k (map h_key rs).
  Proof.
    unfold kget. induction rs as [|r rs IH]; cbn; [tauto|]. destruct (rkey_eqb (h_key r) k) eqn:E.
    - apply rkey_eqb_eq in E. cbn. split; [discriminate|tauto].
    - rewrite IH. assert (h_key r <> k) by (intros Q; rewrite Q, rkey_eqb_refl in E; discriminate). tauto.
  Qed.
  Lemma kget_some rs k id : kget k (map (fun r => (h_key r, h_id r)) rs) = Some id -> exists r, In r rs /\ h_key r = k /\ h_id r = id.
  Proof.
    unfold kget. induction rs as [|r rs IH]; cbn; [discriminate|]. destruct (rkey_eqb (h_key r) k) eqn:E.
    - apply rkey_eqb_eq in E. cbn. intros [= <-]. exists r. auto.
    - intros H. destruct (IH H) as (x & A & B). exists x. auto.
  Qed.
  Lemma nodup_ids rs : NoDup (map h_key rs) -> Forall (fun r => h_id r = rid (h_key r) /\ plain (h_key r)) rs -> NoDup (map h_id rs).
  Proof.
    intros N F. assert (F' := F). revert N. induction F as [|r rs H F IH]; cbn; [constructor|]. intros N. apply NoDup_cons_iff in N as [N1 N2]. constructor.
    - intros I. apply in_map_iff in I as (x & E & I). apply N1. rewrite <- (id_key _ x r F' (or_intror I) (or_introl eq_refl) E). apply in_map; auto.
    - apply IH; auto.
  Qed.
  Lemma dget_shown rs r : NoDup (map h_id rs) -> In r rs -> dget (h_id r) (map (fun r => (h_id r, r)) rs) = Some r.
  Proof.
    intros N I. induction rs as [|x rs IH]; [destruct I|]. cbn in *. inversion N; subst. destruct I as [->|I]; [rewrite String.eqb_refl; auto|].
    destruct (String.eqb (h_id r) (h_id x)) eqn:E; auto. apply String.eqb_eq in E. destruct H1. rewrite <- E. apply in_map. auto.
  Qed.
  Lemma dget_shown_inv rs id r : dget id (map (fun r => (h_id r, r)) rs) = Some r -> In r rs /\ h_id r = id.
  Proof. induction rs as [|x rs IH]; cbn; [discriminate|]. destruct (String.eqb_spec id (h_id x)); [intros [= <-]; auto|]. intros H. destruct (IH H). auto. Qed.
  Lemma held_iff h rs r : shows h rs -> wf rs -> held h r <-> In r rs.
  Proof.
    intros (R & _ & _) (N & F & _). unfold held. rewrite R. split; [intros H; apply dget_shown_inv in H; tauto|]. apply dget_shown. apply nodup_ids; auto.
  Qed.
  (** replacing a record by one with the same key and id *)
  Definition put (r' : run_record) (rs : list run_record) : list run_record := map (fun r => if String.eqb (h_id r') (h_id r) then r' else r) rs.
  Lemma dset_shown r' rs : In (h_id r') (map h_id rs) -> NoDup (map h_id rs) -> dset (h_id r') r' (map (fun r => (h_id r, r)) rs) = map (fun r => (h_id r, r)) (put r' rs).
  Proof.
    unfold put. induction rs as [|x rs IH]; cbn; [tauto|]. intros I N. inversion N; subst. destruct (String.eqb (h_id r') (h_id x)) eqn:E.
    - apply String.eqb_eq in E. cbn. rewrite E. f_equal. rewrite map_map. apply map_ext_in. intros y Y. destruct (String.eqb (h_id x) (h_id y)) eqn:F; auto.
      apply String.eqb_eq in F. destruct H1. rewrite F. apply in_map. auto.
    - cbn. f_equal. apply IH; auto. destruct I as [I|I]; auto. rewrite I in E. rewrite String.eqb_refl in E. discriminate.
  Qed.
  Lemma put_maps r' rs : (forall r, In r rs -> h_id r = h_id r' -> h_key r = h_key r') -> map h_id (put r' rs) = map h_id rs /\ map h_key (put r' rs) = map h_key rs /\
    map (fun r => (h_key r, h_id r)) (put r' rs) = map (fun r => (h_key r, h_id r)) rs /\ List.length (put r' rs) = List.length rs.
  Proof.
    intros H. unfold put. rewrite !map_map, map_length. assert (A : forall r, In r rs -> h_id (if String.eqb (h_id r') (h_id r) then r' else r) = h_id r /\ h_key (if String.eqb (h_id r') (h_id r) then r' else r) = h_key r).
    { intros r I. destruct (String.eqb_spec (h_id r') (h_id r)); auto. split; auto. symmetry. apply H; auto. }
    split; [|split; [|split; auto]]; apply map_ext_in; intros r I; destruct (A r I) as [B C]; congruence.
  Qed.
  Lemma in_put r' rs r : In r (put r' rs) <-> (r = r' /\ In (h_id r') (map h_id rs)) \/ (In r rs /\ h_id r <> h_id r').
  Proof.
    unfold put. rewrite in_map_iff. split.
    - intros (x & E & I). destruct (String.eqb_spec (h_id r') (h_id x)); [left; split; auto; rewrite e; apply in_map; auto|right; subst; auto].
    - intros [[-> I]|[I N]].
      + apply in_map_iff in I as (x & E & I). exists x. rewrite E, String.eqb_refl. auto.
      + exists r. destruct (String.eqb_spec (h_id r') (h_id r)); [congruence|auto].
  Qed.
  Lemma put_shows h rs r' : shows h rs -> wf rs -> In (h_key r') (map h_key rs) -> h_id r' = rid (h_key r') -> plain (h_key r') ->
    shows (MkHist (dset (h_id r') r' (records h)) (order h) (index h)) (put r' rs) /\ wf (put r' rs).
  Proof.
    intros (R & O & X) (N & F & L) I E P. pose proof (nodup_ids rs N F) as NI.
    assert (K : forall r, In r rs -> h_id r = h_id r' -> h_key r = h_key r').
    { intros r J E'. rewrite Forall_forall in F. destruct (F r J). apply (run_id_inj sha); auto. congruence. }
    assert (J : In (h_id r') (map h_id rs)).
    { apply in_map_iff in I as (x & E1 & I). rewrite Forall_forall in F. destruct (F x I) as [F1 _]. rewrite E, <- E1, <- F1. apply in_map. auto. }
    destruct (put_maps r' rs K) as (M1 & M2 & M3 & M4). split; [split; [|split]; cbn|].
    - rewrite R. apply dset_shown; auto.
    - congruence.
    - congruence.
    - split; [congruence|]. split; [|lia]. apply Forall_forall. intros r J'. apply in_put in J' as [[-> _]|[J' _]]; auto. rewrite Forall_forall in F. auto.
  Qed.
  Lemma trim_shows fuel : forall h rs, shows h rs -> NoDup (map h_key rs) -> Forall (fun r => h_id r = rid (h_key r) /\ plain (h_key r)) rs -> (List.length rs <= fuel)%nat ->
    shows (trim maxlen fuel h) (skipn (List.length rs - maxlen) rs).
  Proof.
    induction fuel as [|fuel IH]; intros h rs (R & O & X) N F L; cbn [trim].
    - destruct rs; [|cbn in L; lia]. split; [|split]; cbn; auto.
    - rewrite O, map_length. destruct (Nat.ltb_spec maxlen (List.length rs)).
      + destruct rs as [|r rs]; [cbn in H; lia|]. cbn [map]. rewrite R. cbn [map dget]. rewrite String.eqb_refl.
        replace (List.length (r :: rs) - maxlen)%nat with (S (List.length rs - maxlen)) by (cbn [List.length] in *; lia). cbn [skipn].
        pose proof (nodup_ids (r :: rs) N F) as NI. apply NoDup_cons_iff in NI as [NI _]. apply NoDup_cons_iff in N as [N1 N2]. apply Forall_cons_iff in F as [F1 F2].
        apply IH; auto; [|cbn in L; lia]. split; [|split; cbn; auto].
        * cbn. rewrite String.eqb_refl. cbn. apply ddel_notin. clear - NI. induction rs as [|x rs IH]; cbn; auto. cbn in NI.
          destruct (String.eqb (h_id r) (h_id x)) eqn:E; [apply String.eqb_eq in E; destruct NI; left; auto|]. apply IH. tauto.
        * rewrite X. unfold kdel. cbn. rewrite rkey_eqb_refl. cbn. clear - N1. induction rs as [|x rs IH]; cbn; auto. cbn in N1.
          destruct (rkey_eqb (h_key x) (h_key r)) eqn:E; [apply rkey_eqb_eq in E; destruct N1; left; auto|]. cbn. f_equal. apply IH. tauto.
      + replace (List.length rs - maxlen)%nat with 0%nat by lia. split; [|split]; auto.
  Qed.
  Lemma dset_new {A} k (v : A) d : dget k d = None -> dset k v d = d ++ [(k, v)].
  Proof. induction d as [|[x y] d IH]; cbn; auto. destruct (String.eqb k x); [discriminate|]. intros H. rewrite IH; auto. Qed.
  Lemma dget_notin rs k : ~ In k (map h_id rs) -> dget k (map (fun r => (h_id r, r)) rs) = None.
  Proof.
    induction rs as [|x rs IH]; cbn; auto. intros H. destruct (String.eqb k (h_id x)) eqn:E; [apply String.eqb_eq in E; destruct H; auto|]. apply IH. tauto.
  Qed.
  Definition merged (m : meta) (r : run_record) : run_record :=
    MkRun (h_id r) (h_key r) (first_given (h_name r) (m_name m)) (first_given (h_callable r) (m_callable m)) (first_given (h_executor r) (m_executor m))
      (first_given (h_sched r) (m_sched m)) (h_coalesced r) (h_source r) (h_status r) (h_submitted r) (h_finished r) (h_result r) (h_created r) (h_updated r).
  Definition fresh (k : rkey) (m : meta) (now : Z) : run_record := MkRun (rid k) k (m_name m) (m_callable m) (m_executor m) (m_sched m) 0 "unknown" Running None None None now now.
  Definition keeps (f : run_record -> run_record) : Prop := forall r, h_id (f r) = h_id r /\ h_key (f r) = h_key r.
  Definition upd (k : rkey) (m : meta) (now : Z) (f : run_record -> run_record) (h : history) : result history :=
    match upsert sha maxlen k m now h with Err e => Err e | Ok (id, h) => Ok (touch id f h) end.
  Lemma put_put a b rs : h_id a = h_id b -> put a (put b rs) = put a rs.
  Proof. intros E. unfold put. rewrite map_map. apply map_ext. intros r. destruct (String.eqb (h_id b) (h_id r)) eqn:F; rewrite E; [rewrite String.eqb_refl, F|rewrite F]; auto. Qed.
  Lemma put_last a rs r : h_id a = h_id r -> ~ In (h_id r) (map h_id rs) -> put a (rs ++ [r]) = rs ++ [a].
  Proof.
    intros E N. unfold put. rewrite map_app. cbn. rewrite E, String.eqb_refl. f_equal. rewrite <- (map_id rs) at 2. apply map_ext_in. intros x I.
    destruct (String.eqb (h_id r) (h_id x)) eqn:F; auto. apply String.eqb_eq in F. destruct N. rewrite F. apply in_map. auto.
  Qed.
  Lemma put_skipn a n rs : put a (skipn n rs) = skipn n (put a rs).
  Proof. unfold put. revert rs. induction n as [|n IH]; intros [|x rs]; cbn; auto. Qed.
  Lemma in_skipn {A} n (l : list A) x : In x (skipn n l) -> In x l.
  Proof. revert l. induction n as [|n IH]; intros [|y l]; cbn; auto. Qed.
  Lemma nodup_skipn {A} n (l : list A) : NoDup l -> NoDup (skipn n l).
  Proof. revert l. induction n as [|n IH]; intros [|y l]; cbn; auto. intros H. apply NoDup_cons_iff in H as [_ H]. auto. Qed.
  Lemma map_skipn {A B} (f : A -> B) n l : map f (skipn n l) = skipn n (map f l).
  Proof. revert l. induction n as [|n IH]; intros [|y l]; cbn; auto. Qed.

  Lemma upd_shows h rs k m now f : shows h rs -> wf rs -> plain k -> keeps f ->
    exists h' rs', upd k m now f h = Ok h' /\ shows h' rs' /\ wf rs' /\
      ((exists r, In r rs /\ h_key r = k /\ rs' = put (f (merged m r)) rs) \/
       (~ In k (map h_key rs) /\ rs' = skipn (S (List.length rs) - maxlen) (rs ++ [f (fresh k m now)]))).
  Proof.
    intros S W P K. pose proof S as (R & O & X). pose proof W as (N & F & L). unfold upd, upsert. rewrite X. destruct (kget k _) as [id|] eqn:G.
    - apply kget_some in G as (r & I & <- & <-). pose proof (nodup_ids rs N F) as NI. rewrite R, (dget_shown rs r NI I). fold (merged m r).
      pose proof F as F'. rewrite Forall_forall in F'. destruct (F' r I) as [F1 F2].
      destruct (put_shows h rs (merged m r) S W (in_map h_key rs r I) F1 F2) as [S1 W1]. change (h_id (merged m r)) with (h_id r) in S1. rewrite R, X in S1.
      set (h1 := MkHist _ _ _) in *. destruct (K (merged m r)) as [K1 K2].
      assert (I1 : In (merged m r) (put (merged m r) rs)) by (apply in_put; left; split; auto; apply (in_map h_id) in I; auto).
      destruct (put_shows h1 (put (merged m r) rs) (f (merged m r)) S1 W1) as [S2 W2].
      + rewrite K2. apply in_map. auto.
      + rewrite K1, K2. auto.
      + rewrite K2. auto.
      + rewrite put_put in S2, W2 by auto. eexists _, _. split; [|split; [exact S2|split; [exact W2|left; exists r; auto]]].
        unfold touch. destruct S1 as (R1 & _ & _). destruct W1 as (N1 & F3 & _). pose proof (dget_shown _ _ (nodup_ids _ N1 F3) I1) as D. rewrite <- R1 in D. change (h_id (merged m r)) with (h_id r) in *. fold h1. rewrite D, K1. auto.
    - pose proof G as G0. apply kget_in in G. pose proof (nodup_ids rs N F) as NI. set (r := fresh k m now). assert (NR : ~ In (rid k) (map h_id rs)).
      { intros I. apply in_map_iff in I as (x & E & I). apply G. rewrite Forall_forall in F. destruct (F x I) as [F1 F2]. rewrite <- (run_id_inj sha (h_key x) k); auto; [apply in_map; auto|congruence]. }
      set (h1 := MkHist (dset (rid k) r (records h)) (order h ++ [rid k]) (map (fun r => (h_key r, h_id r)) rs ++ [(k, rid k)])).
      assert (S1 : shows h1 (rs ++ [r])).
      { split; [|split]; cbn; rewrite ?map_app; cbn; [rewrite R; apply dset_new, dget_notin; auto|congruence|auto]. }
      assert (N1 : NoDup (map h_key (rs ++ [r]))).
      { rewrite map_app. cbn. apply NoDup_app_iff || idtac. clear - N G. induction (map h_key rs) as [|x l IH]; cbn; [constructor; [tauto|constructor]|].
        apply NoDup_cons_iff in N as [A B]. constructor; [rewrite in_app_iff; cbn in *; intuition congruence|]. apply IH; auto. cbn in G. tauto. }
      assert (F1 : Forall (fun r => h_id r = rid (h_key r) /\ plain (h_key r)) (rs ++ [r])) by (apply Forall_app; split; auto).
      pose proof (trim_shows (List.length (order h1)) h1 (rs ++ [r]) S1 N1 F1) as T. rewrite app_length in T. cbn [List.length] in T.
      replace (List.length rs + 1 - maxlen)%nat with (Datatypes.S (List.length rs) - maxlen)%nat in T by lia.
      assert (LO : (List.length rs + 1 <= List.length (order h1))%nat) by (cbn; rewrite O, app_length, map_length; cbn; lia). specialize (T LO).
      set (n := (Datatypes.S (List.length rs) - maxlen)%nat) in *. set (h2 := trim maxlen _ h1) in *. 
      assert (U : upd k m now f h = Ok (touch (rid k) f h2)) by (unfold upd, upsert; rewrite X, G0; reflexivity). unfold upd, upsert in U. rewrite X, G0 in U. rewrite U. clear U.
      assert (W2 : wf (skipn n (rs ++ [r]))).
      { split; [rewrite map_skipn; apply nodup_skipn; auto|]. split; [apply Forall_forall; intros x I; apply in_skipn in I; rewrite Forall_forall in F1; auto|]. rewrite skipn_length, app_length. cbn [List.length]. unfold n. lia. }
      destruct (K r) as [K1 K2]. destruct T as (R2 & O2 & X2). destruct W2 as (N2 & F2 & L2). pose proof (nodup_ids _ N2 F2) as NI2. destruct (Nat.eq_dec maxlen 0) as [Z|Z].
      + assert (rs = []) by (destruct rs; auto; cbn in L; lia). subst rs. assert (n = 1%nat) by (unfold n; cbn [List.length]; lia). rewrite H in R2, O2, X2 |- *. cbn [app skipn map] in R2, O2, X2 |- *.
        exists h2, []. split; [unfold touch; rewrite R2; auto|]. split; [split; auto|]. split; [split; cbn; [constructor|split; [constructor|lia]]|]. right. auto.
      + assert (I : In r (skipn n (rs ++ [r]))).
        { rewrite skipn_app. apply in_app_iff. right. replace (n - List.length rs)%nat with 0%nat by (unfold n; lia). left. auto. }
        pose proof (dget_shown _ _ NI2 I) as D. destruct (put_shows h2 _ (f r) (conj R2 (conj O2 X2)) (conj N2 (conj F2 L2))) as [S3 W3].
        * rewrite K2. apply in_map. auto.
        * rewrite K1, K2. auto.
        * rewrite K2. auto.
        * rewrite put_skipn, put_last in S3, W3 by auto. eexists _, _. split; [|split; [exact S3|split; [exact W3|right; auto]]].
          unfold touch. rewrite R2. change (rid k) with (h_id r). rewrite D, <- R2, K1. auto.
  Qed.
  Lemma existsb_key k ks : existsb (rkey_eqb k) ks = true <-> In k ks.
  Proof. rewrite existsb_exists. split; [intros (x & I & E); apply rkey_eqb_eq in E as ->; auto|]. intros I. exists k. split; auto. apply rkey_eqb_refl. Qed.
  Lemma upd_keys h rs k m now f : shows h rs -> wf rs -> plain k -> keeps f ->
    exists h' rs', upd k m now f h = Ok h' /\ shows h' rs' /\ wf rs' /\ map h_key rs' = push maxlen (map h_key rs) k.
  Proof.
    intros S W P K. destruct (upd_shows h rs k m now f S W P K) as (h' & rs' & U & S' & W' & C). exists h', rs'. sp. unfold push. destruct C as [(r & I & <- & ->)|[N ->]].
    - assert (E : existsb (rkey_eqb (h_key r)) (map h_key rs) = true) by (apply existsb_key, in_map; auto). rewrite E. refine (proj1 (proj2 (put_maps _ _ _))). destruct (K (merged m r)) as [K1 K2]. rewrite K1, K2.
      intros x J E'. destruct W as (_ & F & _). apply (id_key rs x r); auto.
    - assert (E : existsb (rkey_eqb k) (map h_key rs) = false) by (destruct (existsb (rkey_eqb k) (map h_key rs)) eqn:E; auto; apply existsb_key in E; tauto).
      rewrite E, map_skipn, map_app, map_length. cbn. destruct (K (fresh k m now)) as [_ K2]. rewrite K2. auto.
  Qed.
  Lemma submit_keeps src st c now : keeps (submit src st c now).
  Proof. intros r. split; auto. Qed.
  Lemma finish_keeps st res now : keeps (finish st res now).
  Proof. intros r. split; auto. Qed.
  Lemma submissions_cons t s x xs st src c m now h :
    submissions sha maxlen t s (x :: xs) st src c m now h =
      match upd (t, s, x) m now (submit src st c now) h with Ok h' => submissions sha maxlen t s xs st src c m now h' | Err e => Err e end.
  Proof. cbn [submissions]. unfold upd. destruct (upsert _ _ _ _ _ _) as [[id h1]|]; auto. Qed.
  Lemma submissions_keys t s xs : forall st src c m now h rs, Forall plain (map (fun r => (t, s, r)) xs) -> shows h rs -> wf rs ->
    exists h' rs', submissions sha maxlen t s xs st src c m now h = Ok h' /\ shows h' rs' /\ wf rs' /\
      map h_key rs' = fold_left (push maxlen) (map (fun r => (t, s, r)) xs) (map h_key rs).
  Proof.
    induction xs as [|x xs IH]; intros st src c m now h rs P S W; [exists h, rs; auto|]. rewrite submissions_cons. cbn [map] in P. apply Forall_cons_iff in P as [P1 P2].
    destruct (upd_keys h rs (t, s, x) m now (submit src st c now) S W P1 (submit_keeps _ _ _ _)) as (h1 & rs1 & U & S1 & W1 & K1). rewrite U.
    destruct (IH st src c m now h1 rs1 P2 S1 W1) as (h2 & rs2 & A & B & C & D). exists h2, rs2. sp. cbn [map fold_left]. rewrite <- K1. auto.
  Qed.
  Definition after (e : hevent) (ks : list rkey) : list rkey := match e with Clear => [] | _ => fold_left (push maxlen) (keys_of e) ks end.
  Lemma handle_keys e h rs : Forall plain (keys_of e) -> shows h rs -> wf rs ->
    exists h' rs', handle sha maxlen e h = Ok h' /\ shows h' rs' /\ wf rs' /\ map h_key rs' = after e (map h_key rs).
  Proof.
    intros P S W. destruct e as [t s xs full src c m now|t s x o res m now|].
    - apply submissions_keys; auto.
    - apply Forall_cons_iff in P as [P _]. destruct (upd_keys h rs (t, s, x) m now (finish (status_of o) res now) S W P (finish_keeps _ _ _)) as (h1 & rs1 & U & S1 & W1 & K1).
      exists h1, rs1. sp. unfold handle. unfold upd in U. destruct (upsert _ _ _ _ _ _) as [[id h']|]; auto.
    - exists empty_history, []. split; auto. split; [split; auto|]. split; auto. split; [constructor|]. split; [constructor|cbn; lia].
  Qed.
  Lemma all_keys es : forall h rs, Forall (fun e => Forall plain (keys_of e)) es -> shows h rs -> wf rs ->
    exists h' rs', handle_all sha maxlen es h = Ok h' /\ shows h' rs' /\ wf rs' /\ map h_key rs' = fold_left (fun ks e => after e ks) es (map h_key rs).
  Proof.
    induction es as [|e es IH]; intros h rs P S W; [exists h, rs; auto|]. apply Forall_cons_iff in P as [P1 P2]. cbn [handle_all].
    destruct (handle_keys e h rs P1 S W) as (h1 & rs1 & A & B & C & D). rewrite A. destruct (IH h1 rs1 P2 B C) as (h2 & rs2 & A' & B' & C' & D').
    exists h2, rs2. sp. cbn [fold_left]. rewrite <- D. auto.
  Qed.
  Lemma reached es h : Forall (fun e => Forall plain (keys_of e)) es -> handle_all sha maxlen es empty_history = Ok h -> exists rs, shows h rs /\ wf rs /\ map h_key rs = kept maxlen es.
  Proof.
    intros P H. destruct (all_keys es empty_history [] P) as (h' & rs & A & B & C & D); [split; auto|split; [constructor|split; [constructor|cbn; lia]]|].
    rewrite H in A. injection A as <-. exists rs. sp. auto.
  Qed.
End Inv.

(** *** the theorems: for any digest that does not confuse run keys, any capacity, any events *)
Section Thms.
  Context (sha : string -> string) (maxlen : nat) (inj : forall a b, sha a = sha b -> a = b).
  (** Nothing makes the history fail; it holds one record per run, the ones [kept] says, in that order,
      each under its own id, and never more than its capacity. *)
  Theorem C45_one_record_per_run_partial es : Forall (fun e => Forall plain (keys_of e)) es ->
    exists h, handle_all sha maxlen es empty_history = Ok h /\
      map (fun kv => h_key (snd kv)) (records h) = kept maxlen es /\ NoDup (kept maxlen es) /\ (List.length (kept maxlen es) <= maxlen)%nat /\
      (forall id r, dget id (records h) = Some r -> h_id r = id /\ id = run_id sha (h_key r)) /\
      (forall k, In k (kept maxlen es) -> exists r, dget (run_id sha k) (records h) = Some r /\ h_key r = k).
  Proof.
    intros P. destruct (all_keys sha maxlen inj es empty_history [] P) as (h & rs & A & B & C & D); [split; auto|split; [constructor|split; [constructor|cbn; lia]]|].
    exists h. split; auto. assert (D' : map h_key rs = kept maxlen es) by auto. clear D. pose proof B as (R & _ & _). pose proof C as (N & F & L). rewrite R, map_map. cbn.
    rewrite <- D', map_length. sp. split.
    - intros id r G. apply dget_shown_inv in G as [I <-]. rewrite Forall_forall in F. destruct (F r I). auto.
    - intros k I. apply in_map_iff in I as (r & <- & I). exists r. split; auto. rewrite Forall_forall in F. destruct (F r I) as [<- _]. apply dget_shown; auto. apply (nodup_ids sha inj); auto. apply Forall_forall; auto.
  Qed.
  (** A submission of several run times is several submissions of one. *)
  Theorem C45_submission_splits_partial t s x xs full src c m now h :
    handle sha maxlen (Submission t s (x :: xs) full src c m now) h =
      match handle sha maxlen (Submission t s [x] full src c m now) h with
      | Ok h' => handle sha maxlen (Submission t s xs full src c m now) h'
      | Err e => Err e
      end.
  Proof. unfold handle. rewrite !submissions_cons. destruct (upd _ _ _ _ _ _ _) as [h'|]; auto. Qed.
  (** What one run's event does: no other record changes; at most the oldest one leaves, and only when a
      new run arrives and the history is full; the run's own record changes as specified, or begins. *)
  Theorem C45_one_event_partial es h e k : Forall (fun e => Forall plain (keys_of e)) es -> handle_all sha maxlen es empty_history = Ok h -> one_run e k -> plain k ->
    exists h', handle sha maxlen e h = Ok h' /\
      (forall r, held h' r -> h_key r <> k -> held h r) /\
      (forall r, held h r -> h_key r <> k -> held h' r \/ (oldest h r /\ List.length (records h) = maxlen /\ forall x, held h x -> h_key x <> k)) /\
      (forall r, held h r -> h_key r = k -> exists r', held h' r' /\ changes e r r') /\
      ((forall r, held h r -> h_key r <> k) -> (1 <= maxlen)%nat -> exists r', held h' r' /\ h_key r' = k /\ begins e r').
  Proof.
    intros P H O PK. destruct (reached sha maxlen inj es h P H) as (rs & S & W & _).
    assert (U : exists m now f, keeps f /\ handle sha maxlen e h = upd sha maxlen k m now f h /\ (forall r, changes e r (f (merged m r))) /\ begins e (f (fresh sha k m now))).
    { destruct e as [t s xs full src c m now|t s x o res m now|]; unfold one_run in O; cbn in O; [| |discriminate].
      - destruct xs as [|x [|y xs]]; try discriminate. injection O as <-. exists m, now, (submit (source_text src) (if full then MaxInstances else Running) c now). split; [apply (submit_keeps sha inj)|].
        split; [unfold handle; rewrite submissions_cons; destruct (upd _ _ _ _ _ _ _); auto|]. split.
        + intros r. destruct r as [a b n d g i j l st su fi res cr up]. unfold changes, submit, merged. cbn. sp.
          split; [intros m' now' [= <- <-]; spa; auto using learns_first|]. split; [destruct full; reflexivity|]. spa; auto using source_says.
          all: destruct full; cbn; try (intros; subst; reflexivity); try (intros; subst; discriminate); try (intros ->; reflexivity).
        + unfold begins, submit, fresh. cbn. split; [intros m' now' [= <- <-]; spa; reflexivity|]. spa; auto using source_says; destruct full; auto.
      - injection O as <-. exists m, now, (finish (status_of o) res now). split; [apply (finish_keeps sha inj)|]. split; [unfold handle, upd; destruct (upsert _ _ _ _ _ _) as [[id h1]|]; auto|].
        split.
        + intros r. unfold changes, finish, merged. cbn. sp. split; [intros m' now' [= <- <-]; spa; auto using learns_first|]. spa; auto; intros; match goal with H : h_submitted _ = _ |- _ => rewrite H end; reflexivity.
        + unfold begins. cbn. split; [intros m' now' [= <- <-]; spa; reflexivity|]. spa; reflexivity. }
    destruct U as (m & now & f & K & -> & CH & BE). destruct (upd_shows sha maxlen inj h rs k m now f S W PK K) as (h' & rs' & U & S' & W' & C). exists h'. split; auto.
    assert (HD : forall r, held h r <-> In r rs) by (intros; apply (held_iff sha maxlen inj); auto). assert (HD' : forall r, held h' r <-> In r rs') by (intros; apply (held_iff sha maxlen inj); auto).
    assert (ID : forall r, In r rs -> h_id r = run_id sha (h_key r) /\ plain (h_key r)) by (destruct W as (_ & F & _); rewrite Forall_forall in F; auto).
    destruct C as [(r0 & I0 & E0 & ->)|[N ->]].
    - destruct (K (merged m r0)) as [K1 K2]. cbn in K1, K2. assert (NE : forall r, In r rs -> h_key r <> k -> h_id r <> h_id (f (merged m r0))).
      { intros r I NK E. apply NK. rewrite <- E0. destruct (ID r I) as [A1 A2], (ID r0 I0) as [B1 B2]. apply (run_id_inj sha); auto. congruence. }
      split; [|split; [|split]].
      + intros r HR NK. apply HD. apply HD' in HR. apply in_put in HR as [[-> _]|[HR _]]; auto. congruence.
      + intros r HR NK. left. apply HD in HR. apply HD'. apply in_put. right. auto.
      + intros r HR KR. apply HD in HR. assert (r = r0).
        { destruct W as (ND & _ & _). clear - ND HR I0 KR E0. induction rs as [|x rs IH]; [destruct HR|]. cbn in ND. apply NoDup_cons_iff in ND as [A B].
          destruct HR as [->|HR], I0 as [->|I0]; auto; destruct A; [rewrite KR, <- E0|rewrite E0, <- KR]; apply in_map; auto. }
        subst r0. exists (f (merged m r)). split; auto. apply HD'. apply in_put. left. split; auto. rewrite K1. apply in_map. auto.
      + intros X. destruct (X r0); auto. apply HD. auto.
    - destruct (K (fresh sha k m now)) as [K1 K2]. cbn in K1, K2. assert (NX : forall x, held h x -> h_key x <> k) by (intros x HX <-; apply N; apply in_map; apply HD; auto).
      set (n := (Datatypes.S (List.length rs) - maxlen)%nat) in *. destruct W as (ND & F & L). split; [|split; [|split]].
      + intros r HR NK. apply HD. apply HD' in HR. apply in_skipn in HR. apply in_app_iff in HR as [HR|[<-|[]]]; auto. congruence.
      + intros r HR NK. pose proof HR as HI. apply HD in HI. destruct (Nat.le_gt_cases (Datatypes.S (List.length rs)) maxlen).
        * left. apply HD'. replace n with 0%nat by (unfold n; lia). cbn [skipn]. apply in_app_iff. auto.
        * assert (n = 1%nat) by (unfold n; lia). destruct rs as [|x rs]; [destruct HI|]. destruct HI as [->|HI].
          -- right. split; [|split; auto]; destruct S as (R & _ & _); [exists (map snd (map (fun r => (h_id r, r)) rs))|]; rewrite R; auto. rewrite map_length. cbn [List.length] in *. lia.
          -- left. apply HD'. rewrite H1. cbn [skipn app]. apply in_app_iff. auto.
      + intros r HR KR. destruct (NX r HR KR).
      + intros _ M. exists (f (fresh sha k m now)). split; auto. apply HD'. rewrite skipn_app. apply in_app_iff. right. replace (n - List.length rs)%nat with 0%nat by (unfold n; lia). left. auto.
  Qed.
End Thms.

(** A separator inside an identifier (or a store named by the empty text) makes two runs share an id:
    a record is overwritten, and later events of a dropped run fail. *)
Definition nometa : meta := MkMeta None None None None.
Theorem C45_separator_collides_refuted : exists es1 es2,
  (exists h, handle_all (fun s => s) 10 es1 empty_history = Ok h /\ List.length (kept 10 es1) = 2%nat /\ List.length (records h) = 1%nat) /\
  handle_all (fun s => s) 2 es2 empty_history = Err KeyError.
Proof.
  set (ex := fun t s => Execution t s "2024"%string OSucceeded None nometa 0).
  exists [ex "a|b"%string (Some "c"%string); ex "a"%string (Some "b|c"%string)].
  exists [ex "a|b"%string (Some "c"%string); ex "a"%string (Some "b|c"%string); ex "z"%string None; ex "a|b"%string (Some "c"%string)].
  split; [|vm_compute; reflexivity]. eexists. split; [vm_compute; reflexivity|]. split; vm_compute; reflexivity.
Qed.
(** When a submission and the execution of the same run are recorded by two threads, the outcome is
    lost in exactly one interleaving. *)
Theorem C45_racing_submission_partial st o steps r : interleaving [SubmitTest; SubmitAssign] [ExecAssign] steps -> terminal (h_status r) = false ->
  (steps <> [SubmitTest; ExecAssign; SubmitAssign] -> h_status (run_race st o steps r) = status_of o) /\
  (steps = [SubmitTest; ExecAssign; SubmitAssign] -> h_status (run_race st o steps r) = st).
Proof.
  intros I T.
  assert (C : steps = [ExecAssign; SubmitTest; SubmitAssign] \/ steps = [SubmitTest; ExecAssign; SubmitAssign] \/ steps = [SubmitTest; SubmitAssign; ExecAssign]).
  { repeat match goal with H : interleaving _ _ _ |- _ => inversion H; clear H; subst end; auto. }
  destruct C as [-> | [-> | ->]]; (split; intros E; [try congruence|try discriminate]); unfold run_race; cbn; rewrite ?T; cbn; auto; destruct o; cbn; auto.
Qed.
Theorem C45_racing_submission_refuted : exists steps, interleaving [SubmitTest; SubmitAssign] [ExecAssign] steps /\
  exists r, h_status (run_race Running OSucceeded steps r) = Running.
Proof.
  exists [SubmitTest; ExecAssign; SubmitAssign]. split; [repeat constructor|].
  exists (MkRun "i" ("t", None, "2024")%string None None None None 0 "unknown" Running None None None 0 0). reflexivity.
Qed.
(** the hypotheses are met by a history in which runs are resubmitted, finished and dropped *)
Example C45_example :
  let ex t o now := Execution t (Some "default"%string) "2024"%string o None nometa now in
  let su t now := Submission t (Some "default"%string) ["2024"%string] false None 0 nometa now in
  let es := [su "a"%string 1; su "b"%string 2; ex "a"%string OFailed 3; su "a"%string 4; su "c"%string 5] in
  kept 2 es = [("b"%string, Some "default"%string, "2024"%string); ("c"%string, Some "default"%string, "2024"%string)] /\
  (exists h, handle_all (fun s => s) 3 es empty_history = Ok h /\ map (fun kv => h_status (snd kv)) (records h) = [Failed; Running; Running]).
Proof. split; [vm_compute; reflexivity|]. eexists. split; vm_compute; reflexivity. Qed.
