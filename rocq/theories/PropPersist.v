(** C25, C39: tasks as bytes. *)
From Verif Require Import Prelude PreludeFacts CallArgs Calendar Cron FloatDiv Triggers Task Persist PersistSpec.
Open Scope Z_scope.
Ltac sp := repeat (split; [solve [auto]|]).

(** induction over triggers *)
Section Ind.
  Context (P : trigger -> Prop).
  Context (pd : forall d, P (TDate d)) (pi : forall a b c d, P (TInterval a b c d)) (pc : forall a b c d e, P (TCron a b c d e)).
  Context (pa : forall l j, Forall P l -> P (TAnd l j)) (po : forall l j, Forall P l -> P (TOr l j)) (ps : P TShutdown).
  Fixpoint trigger_ind2 (tr : trigger) : P tr :=
    let all := fix all l : Forall P l := match l with [] => Forall_nil P | t :: l' => Forall_cons t (trigger_ind2 t) (all l') end in
    match tr with
    | TDate d => pd d | TInterval a b c d => pi a b c d | TCron a b c d e => pc a b c d e
    | TAnd l j => pa l j (all l) | TOr l j => po l j (all l) | TShutdown => ps
    end.
End Ind.

Definition agree (c d : child) : Prop := forall o n, c o n = d o n.
Lemma ask_all_agree cs ds : Forall2 agree cs ds -> forall i o n, ask_all i cs o n = ask_all i ds o n.
Proof. induction 1 as [|c d cs ds A F IH]; intros i o n; cbn; auto. rewrite (A (sub o i) n), IH. auto. Qed.
Lemma ask_some_agree cs ds : Forall2 agree cs ds -> forall i o n, ask_some i cs o n = ask_some i ds o n.
Proof. induction 1 as [|c d cs ds A F IH]; intros i o n; cbn; auto. rewrite (A (sub o i) n), IH. auto. Qed.
Lemma and_agree cs ds j : Forall2 agree cs ds -> forall fuel k o n, and_loop fuel k cs j o n = and_loop fuel k ds j o n.
Proof.
  intros F. induction fuel as [|fuel IH]; intros k o n; cbn; auto. rewrite (ask_all_agree cs ds F). destruct (ask_all 0 ds (sub o k) n) as [[[|t ts]|]|]; auto.
  destruct (_ =? _); auto.
Qed.
Lemma or_agree cs ds j : Forall2 agree cs ds -> forall o n, or_next cs j o n = or_next ds j o n.
Proof. intros F o n. unfold or_next. rewrite (ask_some_agree cs ds F). auto. Qed.
Lemma agree_map {A B} (f : A -> child) (g : B -> child) l m : Forall2 (fun a b => agree (f a) (g b)) l m -> Forall2 agree (map f l) (map g m).
Proof. induction 1; cbn; constructor; auto. Qed.

(** the object in memory answers what Triggers.v says (so the theorems below are about the same
    function as C04-C08) *)
Theorem C25_same_function : forall fuel tr prev o now, rget_next fuel (built tr) prev o now = get_next fuel tr prev o now.
Proof.
  intros fuel tr. induction tr as [d|a b c d|a b c d e|l j IH|l j IH|] using trigger_ind2; intros prev o now; cbn [built rget_next get_next]; auto.
  - unfold rinterval_next, interval_next. destruct prev as [p|]; [destruct c; auto; destruct (_ <=? _); auto|].
    destruct (now <? b); destruct c; auto; destruct (_ <=? _); auto.
  - apply and_agree. rewrite map_map. apply agree_map. induction IH as [|t l H F IH]; constructor; auto. intros o' n'. apply H.
  - apply or_agree. rewrite map_map. apply agree_map. induction IH as [|t l H F IH]; constructor; auto. intros o' n'. apply H.
Qed.

(** what comes back from pickle *)
Fixpoint back (tr : trigger) : robj :=
  match tr with
  | TDate d => RDate d
  | TInterval iv s e j => RInterval iv None s e j
  | TCron tb off s e j => RCron tb off s e j
  | TAnd l j => RAnd (map back l) j
  | TOr l j => ROr (map back l) j
  | TShutdown => RShutdown
  end.
Lemma all_ok_map {A B} (f : A -> result B) (g : A -> B) l : Forall (fun a => f a = Ok (g a)) l -> all_ok (map f l) = Ok (map g l).
Proof. induction 1 as [|a l H F IH]; cbn; auto. rewrite H, IH. auto. Qed.
Lemma load_save tr : without_shutdown tr -> load_trigger (fst (save_trigger tr)) (snd (save_trigger tr)) = Ok (back tr).
Proof.
  induction tr as [d|a b c d|a b c d e|l j IH|l j IH|] using trigger_ind2; cbn [save_trigger back fst snd load_trigger without_shutdown]; auto; try contradiction.
  - intros H. rewrite map_map. rewrite (all_ok_map _ back); auto. revert H. induction IH as [|t l P F IH]; intros H; constructor; [apply P; apply H|apply IH; apply H].
  - intros H. rewrite map_map. rewrite (all_ok_map _ back); auto. revert H. induction IH as [|t l P F IH]; intros H; constructor; [apply P; apply H|apply IH; apply H].
Qed.
Lemma back_next fuel tr prev : prev <> None \/ without_interval tr -> forall o now, rget_next fuel (back tr) prev o now = get_next fuel tr prev o now.
Proof.
  induction tr as [d|a b c d|a b c d e|l j IH|l j IH|] using trigger_ind2; intros H o now; cbn [back rget_next get_next]; auto.
  - unfold rinterval_next, interval_next. destruct prev as [p|]; [destruct c; auto; destruct (_ <=? _); auto|]. destruct H as [H|[]]. congruence.
  - apply and_agree. rewrite map_map. apply agree_map. cbn in H. revert H. induction IH as [|t l P F IH]; intros H; constructor.
    + intros o' n'. apply P. destruct H as [H|H]; [auto|right; apply H].
    + apply IH. destruct H as [H|H]; [auto|right; apply H].
  - apply or_agree. rewrite map_map. apply agree_map. cbn in H. revert H. induction IH as [|t l P F IH]; intros H; constructor.
    + intros o' n'. apply P. destruct H as [H|H]; [auto|right; apply H].
    + apply IH. destruct H as [H|H]; [auto|right; apply H].
Qed.
Lemma take_app u v n : String.length u = n -> take n (u ++ v) = u /\ skip n (u ++ v) = v.
Proof. revert u. induction n as [|n IH]; intros [|a u] E; cbn in *; try discriminate; [destruct v; auto|]. destruct (IH u) as [-> ->]; [lia|auto]. Qed.

(** ** C39 *)
(** with a key, what is written decrypts to what was pickled; without one the bytes are those *)
Theorem C39_round_trip :
  forall (W : codec) (key : option string) (nonce data : string),
    decrypts W -> String.length nonce = 13%nat ->
    conditional_decrypt W key (conditional_encrypt W key nonce data) = Ok data.
Proof. intros W [k|] n d D L; unfold conditional_decrypt, conditional_encrypt; auto. destruct (take_app n (enc W k n d) 13 L) as [-> ->]. apply D. Qed.
Print Assumptions C39_round_trip.
Theorem C39_no_key_verbatim : forall (W : codec) (nonce data : string), conditional_encrypt W None nonce data = data /\ conditional_decrypt W None data = Ok data.
Proof. auto. Qed.
(** [log] is everything ever encrypted with the key.  Bytes that are accepted are, byte for byte, one
    of the records written with it, and give what was written - unless they are a forgery, an encryption
    under the key that was never made with it. *)
Theorem C39_altered_is_rejected :
  forall (W : codec) (k bytes data : string) (log : list (string * string)),
    authenticates W ->
    (forall n m, bytes = (n ++ enc W k n m)%string -> In (n, m) log) ->    (* not a forgery *)
    conditional_decrypt W (Some k) bytes = Ok data ->
    exists nonce, In (nonce, data) log /\ bytes = conditional_encrypt W (Some k) nonce data.
Proof.
  intros W k bytes data log A F D. unfold conditional_decrypt in D. apply A in D. assert (E : bytes = (take 13 bytes ++ skip 13 bytes)%string).
  { clear. generalize 13%nat. intros n. revert bytes. induction n as [|n IH]; intros [|a s]; cbn; auto. rewrite <- IH. auto. }
  exists (take 13 bytes). rewrite D in E. split; [apply F; auto|]. cbn. auto.
Qed.
Print Assumptions C39_altered_is_rejected.
(** a record written with one key, or without a key, is not accepted under another key unless it is a
    forgery under that one *)
Theorem C39_other_key_rejected :
  forall (W : codec) (key : option string) (k' nonce data : string),
    authenticates W ->
    (forall n m, conditional_encrypt W key nonce data <> (n ++ enc W k' n m)%string) ->    (* not a forgery *)
    exists e, conditional_decrypt W (Some k') (conditional_encrypt W key nonce data) = Err e.
Proof.
  intros W key k' nonce data A F. destruct (conditional_decrypt W (Some k') (conditional_encrypt W key nonce data)) as [m|e] eqn:D; [|eauto].
  destruct (C39_altered_is_rejected W k' (conditional_encrypt W key nonce data) m [] A) as (n & [] & _); auto.
Qed.
(** whatever an altered record would do later does not matter: nothing is unpickled *)
Theorem C39_rejected_before_unpickling :
  forall (W : codec) (reg : dict shape) (b : bstore) (bytes : string) (e : exn),
    conditional_decrypt W (b_key b) bytes = Err e ->
    forall ld, rebuild_task (MkCodec (dumps W) ld (enc W) (dec W) (self_of W) (resolve W)) reg b bytes = Err e.
Proof. intros W reg b bytes e D ld. unfold rebuild_task. change (conditional_decrypt _ (b_key b) bytes) with (conditional_decrypt W (b_key b) bytes). rewrite D. auto. Qed.

(** ** C25 *)
Lemma getstate_inv W t s c ref args kwargs : getstate W t = Ok s -> in_order W t c ref args kwargs ->
  s = MkState (t_id t) (t_name t) ref ref (match self_of W c with Some obj => match c_ref c with Some r => if String.eqb r ref then obj :: args else args | None => args end | None => args end)
        (VDict kwargs) (t_coalesce t) (save_trigger (t_trigger t)) (t_exec t) (match t_grace t with Some g => Some (g / us) | None => None end) (t_max t) (t_next t)
  /\ (forall g, t_grace t = Some g -> g mod us = 0) /\ (forall obj, self_of W c = Some obj -> c_ref c <> None).
Proof.
  intros G [F R A K _]. unfold getstate in G. rewrite R, F, A, K in G. destruct (String.eqb ref ""); [discriminate|].
  assert (KW : (if truthy (VDict kwargs) then VDict kwargs else VDict []) = VDict kwargs) by (destruct kwargs; auto). rewrite KW in G.
  destruct (self_of W c) as [obj|]; [destruct (c_ref c) as [r|]; [|discriminate]|]; cbn [tuple_of] in G.
  - destruct (t_grace t) as [g|]; [destruct (Z.eqb_spec (g mod us) 0); [|discriminate]|]; injection G as <-; split; auto; split; try congruence.
  - destruct (t_grace t) as [g|]; [destruct (Z.eqb_spec (g mod us) 0); [|discriminate]|]; injection G as <-; split; auto; split; try congruence.
Qed.
(** C25.  Whatever a store has written for a task without a shutdown trigger, any store with the same
    key reads back (the Shape being registered and the reference importable) as a task with the same
    settings, that calls the same callable with the same arguments, and whose due run times are the
    same; its trigger answers the same whenever it is asked for the time after a given one, and
    altogether if it contains no interval. *)
Theorem C25_round_trip_partial :
  forall (O : Type) (call : callable -> list pyval -> pyval -> O) (W : codec) (reg : dict shape) (b b' : bstore) (nonce bytes : string) (t : task)
         (c f : callable) (ref : string) (args : list pyval) (kwargs : list (string * pyval)) (sh : shape),
    pickles W -> decrypts W -> String.length nonce = 13%nat -> references_lead_back W call ->
    b_key b' = b_key b -> dget (sh_name (b_shape b)) reg = Some sh -> hands_through sh -> resolve W ref = Ok f ->
    in_order W t c ref args kwargs -> without_shutdown (t_trigger t) ->
    save W b nonce t = Ok bytes ->
    exists r, rebuild_task W reg b' bytes = Ok r /\ same_settings t r /\
      r_store r = Some (b_alias b') /\ r_sched r = Some (b_sched b') /\ r_pending r = false /\
      call (r_fn r) (r_args r) (r_kwargs r) = call c args (VDict kwargs) /\
      (forall fuel o k now, grt fuel (fun i prev => rget_next fuel (r_trigger r) prev (sub o i) now) k (r_next r) now = get_run_times fuel o k t now) /\
      (forall fuel prev o now, prev <> None \/ without_interval (t_trigger t) -> rget_next fuel (r_trigger r) prev o now = get_next fuel (t_trigger t) prev o now).
Proof.
  intros O call W reg b b' nonce bytes t c f ref args kwargs sh P D L H K R T RF IO NS S. unfold save, serialize in S.
  destruct (getstate W t) as [s|] eqn:G; [|discriminate]. destruct (dumps W _) as [p|] eqn:DP; [|discriminate]. injection S as <-.
  destruct (getstate_inv W t s c ref args kwargs G IO) as (-> & GR & CR). apply P in DP.
  unfold rebuild_task. rewrite K, (C39_round_trip W (b_key b) nonce p D L), DP. cbn [state_in s_trigger fst snd]. rewrite (load_save _ NS).
  unfold deserialize. rewrite String.eqb_refl, Z.eqb_refl. cbn [negb]. rewrite R, T. cbn [s_trigger]. rewrite (load_save _ NS). unfold setstate. cbn [s_fn]. rewrite RF. eexists. split; [reflexivity|].
  cbn [r_id r_name r_ref r_next r_exec r_grace r_coalesce r_max r_store r_sched r_pending r_fn r_args r_kwargs r_trigger s_id s_name s_ref s_next s_exec s_grace s_coalesce s_max s_args s_kwargs].
  split.
  { unfold same_settings. cbn [r_id r_name r_ref r_next r_exec r_grace r_coalesce r_max]. sp. split; [symmetry; apply (io_ref _ _ _ _ _ _ IO)|]. sp. split; auto. destruct (t_grace t) as [g|]; auto. specialize (GR g eq_refl).
    f_equal. pose proof (Z.div_mod g us). unfold us in *. lia. }
  sp. split.
  { destruct IO as [F1 R1 A1 K1 N1]. destruct (self_of W c) as [obj|] eqn:SO.
    - destruct (c_ref c) as [r|] eqn:CE; [|destruct (CR obj eq_refl eq_refl)]. destruct (String.eqb_spec r ref) as [->|NE].
      + apply (proj2 (H c ref f CE RF)). auto.
      + destruct N1 as [N1|N1]; congruence.
    - destruct N1 as [N1|N1]; [apply (proj1 (H c ref f N1 RF)); auto|congruence]. }
  split.
  { intros fuel o k now. unfold get_run_times, answers. generalize (t_next t). generalize k. generalize fuel at 1 3.
    induction fuel0 as [|n IH]; intros k0 nx; cbn; destruct nx as [x|]; auto; destruct (x <=? now); auto.
    rewrite (back_next fuel (t_trigger t) (Some x)) by (left; discriminate). destruct (get_next fuel (t_trigger t) (Some x) (sub o k0) now) as [y|]; auto. rewrite IH. auto. }
  intros fuel prev o now C. apply back_next. auto.
Qed.
Print Assumptions C25_round_trip_partial.

(** asked for its first time before its start, an interval also answers the same *)
Theorem C25_interval_before_start_partial :
  forall fuel iv start e j o now r, now < start -> load_trigger (fst (save_trigger (TInterval iv start e j))) (snd (save_trigger (TInterval iv start e j))) = Ok r ->
    rget_next fuel r None o now = get_next fuel (TInterval iv start e j) None o now.
Proof.
  intros fuel iv start e j o now r L E. cbn in E. injection E as <-. cbn [rget_next get_next]. unfold rinterval_next, interval_next.
  destruct (Z.ltb_spec now start); [|lia]. destruct e; auto. destruct (_ <=? _); auto.
Qed.
(** C25 fails for intervals: after a round trip, an interval trigger raises when asked for its first
    time at or after its start - which is what resume_task (schedulers/base.py:738) asks *)
Theorem C25_interval_refuted :
  forall fuel iv start e j o now, start <= now ->
    exists r, load_trigger (fst (save_trigger (TInterval iv start e j))) (snd (save_trigger (TInterval iv start e j))) = Ok r /\
              rget_next fuel r None o now = Err AttributeError /\
              (exists a, get_next fuel (TInterval iv start e j) None o now = Ok a).
Proof.
  intros fuel iv start e j o now L. exists (RInterval iv None start e j). split; [reflexivity|]. cbn [rget_next get_next]. unfold rinterval_next.
  destruct (Z.ltb_spec now start); [lia|]. split; [auto|eauto].
Qed.
(** a task with a shutdown trigger is saved without complaint and cannot be loaded again (the stores
    then remove it, C03) *)
Theorem C25_shutdown_refuted :
  forall (W : codec) (reg : dict shape) (b b' : bstore) (nonce bytes : string) (t : task),
    pickles W -> decrypts W -> String.length nonce = 13%nat -> b_key b' = b_key b -> t_trigger t = TShutdown ->
    save W b nonce t = Ok bytes -> rebuild_task W reg b' bytes = Err AttributeError.
Proof.
  intros W reg b b' nonce bytes t P D L K T S. unfold save, serialize in S. destruct (getstate W t) as [s|] eqn:G; [|discriminate].
  destruct (dumps W _) as [p|] eqn:DP; [|discriminate]. injection S as <-. apply P in DP. unfold rebuild_task. rewrite K, (C39_round_trip W (b_key b) nonce p D L), DP.
  assert (E : s_trigger s = (CShutdown, SDict)).
  { unfold getstate in G. rewrite T in G. destruct (t_ref t) as [ref|]; [|discriminate]. destruct (String.eqb ref ""); [discriminate|].
    repeat match type of G with
           | (match ?x with _ => _ end = _) => destruct x; try discriminate
           end; injection G as <-; reflexivity. }
  cbn [state_in]. rewrite E. reflexivity.
Qed.
(** A record names its kind and its version, "task_state" and 1; one of another kind or version is refused. *)
Theorem C25_record_format (W : codec) :
  (forall b nonce t bytes, pickles W -> decrypts W -> String.length nonce = 13%nat -> save W b nonce t = Ok bytes ->
     exists p s, conditional_decrypt W (b_key b) bytes = Ok p /\ loads W p = Ok (Envelope "task_state" 1 (sh_name (b_shape b)) (PState s))) /\
  (forall reg b bytes p entity version shape payload, conditional_decrypt W (b_key b) bytes = Ok p -> loads W p = Ok (Envelope entity version shape payload) ->
     entity <> "task_state"%string \/ version <> 1 -> exists e, rebuild_task W reg b bytes = Err e).
Proof.
  split.
  - intros b nonce t bytes P D L S. unfold save, serialize in S. destruct (getstate W t) as [s|] eqn:G; [|discriminate]. destruct (dumps W _) as [p|] eqn:DP; [|discriminate]. injection S as <-. exists p, s. split; [apply C39_round_trip; assumption|apply P, DP].
  - intros reg b bytes p entity version shape payload E L N. unfold rebuild_task. rewrite E, L. destruct (match state_in _ with Some _ => _ | None => _ end) as [|e]; [|eauto].
    unfold deserialize. unfold ENTITY, VERSION. destruct (String.eqb_spec entity "task_state"); cbn [negb]; [|eauto]. destruct (Z.eqb_spec version 1); cbn [negb]; [|eauto]. destruct N; contradiction.
Qed.
(** nor can one saved by a scheduler whose Shape is not registered under the name it carries *)
Theorem C25_unregistered_shape_refuted :
  forall (W : codec) (reg : dict shape) (b b' : bstore) (nonce bytes : string) (t : task),
    pickles W -> decrypts W -> String.length nonce = 13%nat -> b_key b' = b_key b -> dget (sh_name (b_shape b)) reg = None ->
    save W b nonce t = Ok bytes -> exists e, rebuild_task W reg b' bytes = Err e.
Proof.
  intros W reg b b' nonce bytes t P D L K N S. unfold save, serialize in S. destruct (getstate W t) as [s|] eqn:G; [|discriminate].
  destruct (dumps W _) as [p|] eqn:DP; [|discriminate]. injection S as <-. apply P in DP. unfold rebuild_task. rewrite K, (C39_round_trip W (b_key b) nonce p D L), DP.
  cbn [state_in]. destruct (load_trigger (fst (s_trigger s)) (snd (s_trigger s))); [|eauto]. unfold deserialize. rewrite String.eqb_refl, Z.eqb_refl. cbn [negb]. rewrite N. eauto.
Qed.
(** which tasks in order are refused by durable stores, pickle being willing: exactly those with an
    empty reference or a grace time that is not a whole number of seconds (the latter although
    update_task accepts it), and bound methods without a reference of their own *)
Theorem C25_refused :
  forall (W : codec) (b : bstore) (nonce : string) (t : task) (c : callable) (ref : string) (args : list pyval) (kwargs : list (string * pyval)),
    in_order W t c ref args kwargs -> (forall v, exists p, dumps W v = Ok p) ->
    (exists e, save W b nonce t = Err e) <->
    (ref = ""%string \/ (exists g, t_grace t = Some g /\ g mod us <> 0) \/ (exists obj, self_of W c = Some obj /\ c_ref c = None)).
Proof.
  intros W b nonce t c ref args kwargs IO PK.
  assert (A : (exists e, save W b nonce t = Err e) <-> exists e, getstate W t = Err e).
  { unfold save, serialize. destruct (getstate W t) as [s|e]; [|split; eauto]. split; [|intros (e & E); discriminate]. intros (e & E).
    destruct (PK (Envelope ENTITY VERSION (sh_name (b_shape b)) (PState s))) as (p & EP). rewrite EP in E. discriminate. }
  rewrite A. clear A. destruct (getstate W t) as [s|e] eqn:G.
  - split; [intros (e & E); discriminate|]. destruct (getstate_inv W t s c ref args kwargs G IO) as (-> & GR & CR). intros [->|[(g & E & N)|(obj & E & N)]].
    + unfold getstate in G. rewrite (io_ref _ _ _ _ _ _ IO) in G. discriminate.
    + destruct (N (GR g E)).
    + destruct (CR obj E N).
  - split; [intros _|eauto]. unfold getstate in G. destruct IO as [F R AR K _]. rewrite R, F, AR, K in G.
    destruct (String.eqb_spec ref ""); [auto|]. right. cbn [tuple_of] in G. destruct (self_of W c) as [obj|]; [destruct (c_ref c) as [r|] eqn:CE; [|right; eauto]|].
    + destruct (t_grace t) as [g|]; [|discriminate]. destruct (Z.eqb_spec (g mod us) 0); [discriminate|eauto].
    + destruct (t_grace t) as [g|]; [|discriminate]. destruct (Z.eqb_spec (g mod us) 0); [discriminate|eauto].
Qed.
Print Assumptions C25_interval_refuted. Print Assumptions C25_shutdown_refuted. Print Assumptions C25_unregistered_shape_refuted. Print Assumptions C25_refused.

(** *** a case: an interval task with a bound method, in an encrypted store *)
Definition ex_method : callable := MkCallable "Mailer.send" (Some "app:Mailer.send"%string) [].
Definition ex_function : callable := MkCallable "Mailer.send(function)" (Some "app:Mailer.send"%string) [].
Definition ex_saved : task := MkTask "mail" "send mail" (TInterval (60 * us) 0 None None) (Some (120 * us)) (Some "default"%string) None (Some us) true 1
  (Some ex_method) (Some "app:Mailer.send"%string) (VList [VStr "bob"]) (VDict []) None false true.
Definition ex_state : stored := Envelope "task_state" 1 "pydantic"
  (PState (MkState "mail" "send mail" "app:Mailer.send" "app:Mailer.send" [VOther 7; VStr "bob"] (VDict []) true (CInterval, SInterval (60 * us) 0 None None) (Some "default"%string) (Some 1) 1 (Some (120 * us)))).
(** this pickle can only write that one record *)
Definition ex_is (v : stored) : bool :=
  match v with
  | Envelope a b c (PState (MkState d e f g [VOther 7; VStr h] (VDict []) true (CInterval, SInterval i j None None) (Some k) (Some l) m (Some n))) =>
      String.eqb a "task_state" && (b =? 1) && String.eqb c "pydantic" && String.eqb d "mail" && String.eqb e "send mail" && String.eqb f "app:Mailer.send" && String.eqb g "app:Mailer.send"
      && String.eqb h "bob" && (i =? 60 * us) && (j =? 0) && String.eqb k "default" && (l =? 1) && (m =? 1) && (n =? 120 * us)
  | _ => false
  end.
Fixpoint behind (p s : string) : option string :=
  match p, s with EmptyString, _ => Some s | String a p', String b s' => if Ascii.eqb a b then behind p' s' else None | String _ _, EmptyString => None end.
Definition ex_codec : codec := MkCodec (fun v => if ex_is v then Ok "pickled"%string else Err OtherError) (fun _ => Ok ex_state)
  (fun k n m => (k ++ n ++ m)%string) (fun k n c => match behind (k ++ n) c with Some m => Ok m | None => Err ValueError end)
  (fun c => if String.eqb (c_name c) "Mailer.send" then Some (VOther 7) else None) (fun r => if String.eqb r "app:Mailer.send" then Ok ex_function else Err LookupError).
Definition ex_call (c : callable) (args : list pyval) (kwargs : pyval) : list pyval :=
  if String.eqb (c_name c) "Mailer.send" then VOther 7 :: args else args.
Lemma ex_pickles : pickles ex_codec.
Proof.
  intros v p. cbn. destruct (ex_is v) eqn:E; [|discriminate]. intros _. f_equal. unfold ex_is in E.
  destruct v as [a b c [s|]| |]; try discriminate. destruct s as [d e f g x y co tr ex gr m n].
  repeat match type of E with (match ?x with _ => _ end = true) => destruct x; try discriminate end.
  unfold ex_state. rewrite !andb_true_iff, !String.eqb_eq, !Z.eqb_eq in E. destruct E as (((((((((((((-> & ->) & ->) & ->) & ->) & ->) & ->) & ->) & ->) & ->) & ->) & ->) & ->) & ->). reflexivity.
Qed.
Lemma behind_app p s : behind p (p ++ s) = Some s.
Proof. induction p as [|a p IH]; cbn; [destruct s; auto|]. rewrite Ascii.eqb_refl. auto. Qed.
Lemma ex_decrypts : decrypts ex_codec.
Proof. intros k n m. cbn. assert (E : (k ++ n ++ m)%string = ((k ++ n) ++ m)%string) by (induction k as [|a k IH]; cbn; congruence). rewrite E, behind_app. auto. Qed.
Lemma ex_authenticates : authenticates ex_codec.
Proof.
  intros k n c m. cbn. destruct (behind (k ++ n) c) as [x|] eqn:E; [|discriminate]. intros [= <-].
  assert (A : forall p s y, behind p s = Some y -> s = (p ++ y)%string).
  { induction p as [|a p IH]; intros s y H; [destruct s; cbn in H; injection H as <-; auto|]. destruct s as [|b s]; cbn in H; [discriminate|].
    destruct (Ascii.eqb_spec a b); [|discriminate]. subst. cbn. f_equal. auto. }
  apply A in E. rewrite E. clear. induction k as [|a k IH]; cbn; congruence.
Qed.
Lemma ex_in_order : in_order ex_codec ex_saved ex_method "app:Mailer.send" [VStr "bob"] [].
Proof. split; try reflexivity. left. reflexivity. Qed.
Definition ex_shape : shape := MkShape "pydantic" (fun p => Ok p).
Definition ex_bstore : bstore := MkBStore "main" 0 (Some "secret"%string) ex_shape.
Example ex_round_trip : exists bytes r, save ex_codec ex_bstore "0123456789abc" ex_saved = Ok bytes /\ rebuild_task ex_codec [("pydantic"%string, ex_shape)] ex_bstore bytes = Ok r /\
  same_settings ex_saved r /\ ex_call (r_fn r) (r_args r) (r_kwargs r) = [VOther 7; VStr "bob"] /\ rget_next 0 (r_trigger r) (Some (120 * us)) (fun _ _ => 0) 0 = Ok (Some (180 * us)).
Proof.
  destruct (save ex_codec ex_bstore "0123456789abc" ex_saved) as [bytes|e] eqn:S; [|vm_compute in S; discriminate].
  destruct (C25_round_trip_partial _ ex_call ex_codec [("pydantic"%string, ex_shape)] ex_bstore ex_bstore "0123456789abc" bytes ex_saved ex_method ex_function "app:Mailer.send" [VStr "bob"] [] ex_shape)
    as (r & R & SS & _ & _ & _ & C & _ & N); auto using ex_pickles, ex_decrypts, ex_in_order; try reflexivity.
  - intros c r f E1 E2. cbn in E2. destruct (String.eqb r "app:Mailer.send"); [|discriminate]. injection E2 as <-. unfold ex_call. cbn [self_of ex_codec]. split.
    + destruct (String.eqb (c_name c) "Mailer.send"); [discriminate|]. auto.
    + intros obj. destruct (String.eqb (c_name c) "Mailer.send"); [|discriminate]. intros [= <-]. auto.
  - intros s. reflexivity.
  - exists bytes, r. repeat (split; [solve [auto]|]). rewrite N by (left; discriminate). reflexivity.
Qed.
