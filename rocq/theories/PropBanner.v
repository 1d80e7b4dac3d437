(** C102: what an action has to say is shown in its answer, once, and as plain text. *)
From Verif Require Import Prelude Text Task Scheduler SchedSpec SchedReach LifeSpec LifeAll Forms Remote TaskPages PropTaskPages Banner.
Open Scope string_scope.
Local Ltac sp := repeat match goal with |- _ /\ _ => split end.

(** ** specification *)
(** one list of messages is contained in another, in order *)
Inductive within : list message -> list message -> Prop :=
| in_nil : within [] []
| in_keep m a b : within a b -> within (m :: a) (m :: b)
| in_drop m a b : within a b -> within a (m :: b).
(** the text in the box of each message, as the browser shows it: up to the next tag *)
Definition box : string := "div class=""flex-1 leading-relaxed""".
Fixpoint upto_tag (l : list item) : string := match l with Shown c :: l' => String c (upto_tag l') | _ => "" end.
Fixpoint boxes (l : list item) : list string :=
  match l with
  | [] => []
  | Tag t :: l' => if String.eqb t box then upto_tag l' :: boxes l' else boxes l'
  | Shown _ :: l' => boxes l'
  end.
Definition markup (l : list item) : list string := flat_map (fun x => match x with Tag t => [t] | Shown _ => [] end) l.
Definition plain (s : string) : list item := map Shown (list_ascii_of_string s).
Definition has (c : ascii) (s : string) : Prop := exists u v, s = u ++ String c v.
(** nothing in it is the beginning of a tag: no < followed by a letter, a slash, ! or ? *)
Definition opener (c : ascii) : Prop := In c (list_ascii_of_string "ABCDEFGHIJKLMNOPQRSTUVWXYZabcdefghijklmnopqrstuvwxyz/!?").
Definition inert (s : string) : Prop := ~ exists u c v, s = u ++ String "<" (String c v) /\ opener c.
(** the character references a browser must know *)
Record knows (refs : string -> option (string * nat)) : Prop := MkKnows {
  kn_amp : forall r, refs ("amp;" ++ r) = Some ("&", 4%nat);
  kn_gt : forall r, refs ("gt;" ++ r) = Some (">", 3%nat);
  kn_lt : forall r, refs ("lt;" ++ r) = Some ("<", 3%nat);
  kn_apos : forall r, refs ("#39;" ++ r) = Some ("'", 4%nat);
  kn_quot : forall r, refs ("#34;" ++ r) = Some ("""", 4%nat);
  kn_times : forall r, refs ("times;" ++ r) = Some (String "195" (String "151" ""), 6%nat) }.

(** ** the session *)
Lemma added l : forall s, fold_left (fun s m => add_message m s) l s = match l with [] => s | _ => Some (match s with Some x => x | None => [] end ++ l)%list end.
Proof.
  induction l as [|m l IH]; intros s; [reflexivity|]. cbn [fold_left]. rewrite IH. unfold add_message. destruct l; [reflexivity|]. destruct s; cbn; rewrite <- ?app_assoc; reflexivity.
Qed.
(** The dashboard's own requests: who adds messages answers with the task table.  Then every answer shows exactly the
    messages of its own request, in order, and none is left over: none is lost, none is shown twice. *)
Theorem C102_shown_by_the_answer : forall rs : list request, (forall r, In r rs -> q_adds r = [] \/ q_kind r = Table) ->
  browse rs None = (None, map q_adds rs).
Proof.
  induction rs as [|r rs IH]; intros H; cbn [browse map]; auto. assert (S1 : serve r None = (None, q_adds r)).
  { unfold serve. rewrite added. destruct (H r (or_introl eq_refl)) as [E|E]; rewrite E; [|destruct (q_adds r); reflexivity]. destruct (q_kind r); reflexivity. }
  rewrite S1, IH; [reflexivity|]. intros x X. apply H. right. exact X.
Qed.
Lemma within_refl l : within l l. Proof. induction l; constructor; auto. Qed.
Lemma within_none l : within [] l. Proof. induction l; constructor; auto. Qed.
Lemma within_app a b c d : within a b -> within c d -> within (a ++ c) (b ++ d).
Proof. intros H. induction H; intros K; cbn [app]; [auto|constructor; auto|constructor; auto]. Qed.
Lemma browse_within rs : forall s s' ms, browse rs s = (s', ms) ->
  within (List.concat ms ++ match s' with Some x => x | None => [] end) (match s with Some x => x | None => [] end ++ List.concat (map q_adds rs)).
Proof.
  induction rs as [|r rs IH]; intros s s' ms; cbn [browse map List.concat].
  - intros [= <- <-]. cbn. rewrite app_nil_r. apply within_refl.
  - destruct (serve r s) as [s1 m] eqn:E1. destruct (browse rs s1) as [s2 ms2] eqn:E2. intros [= <- <-]. apply IH in E2. cbn [List.concat]. unfold serve in E1. rewrite added in E1.
    set (l := match s with Some x => x | None => [] end) in *.
    assert (K : m = (l ++ q_adds r)%list /\ s1 = None \/ m = [] /\ s1 = None \/ m = [] /\ match s1 with Some x => x | None => [] end = (l ++ q_adds r)%list).
    { unfold l. destruct (q_kind r), (q_adds r), s; cbn in E1; injection E1 as <- <-; rewrite ?app_nil_r; auto; right; right; rewrite ?app_nil_r; auto. }
    rewrite <- app_assoc, (app_assoc l). destruct K as [[-> ->]|[[-> ->]|[-> K]]].
    + apply within_app; [apply within_refl|exact E2].
    + cbn [app]. apply (within_app [] _ _ _ (within_none _) E2).
    + cbn [app]. rewrite K in E2. exact E2.
Qed.
(** Whatever the requests: no message is shown twice, and the order is kept. *)
Theorem C102_at_most_once : forall (rs : list request) (s' : session) (ms : list (list message)), browse rs None = (s', ms) -> within (List.concat ms) (List.concat (map q_adds rs)).
Proof.
  intros rs s' ms H. apply browse_within in H. cbn [app] in H. revert H. set (x := match s' with Some x => x | None => [] end). generalize (List.concat (map q_adds rs)) (List.concat ms). clear. intros b a H.
  remember (a ++ x)%list as ax. revert a Heqax. induction H as [|m a0 b H IH|m a0 b H IH]; intros a E.
  - destruct a; [constructor|discriminate].
  - destruct a as [|m' a]; [apply within_none|]. injection E as <- ->. constructor. auto.
  - constructor. auto.
Qed.
(** A message whose request ends in an exception is kept for the next page; but if the next request is a refresh of the
    history table or the log table (they come every ten seconds), nobody ever sees it. *)
Theorem C102_lost_refuted : exists m : message,
  browse [MkReq [m] Aside; MkReq [] Whole] None = (None, [[]; [m]]) /\ browse [MkReq [m] Aside; MkReq [] Part; MkReq [] Whole] None = (None, [[]; []; []]).
Proof. exists (MkMsg "warning" "full"). split; reflexivity. Qed.

(** ** what the Run buttons say *)
(** the sentence that belongs to a warning of the audit trail; [n] is the limit of a task kept under that id *)
Definition sentence (id : string) (n : Z) : string := "The task by the id of " ++ id ++ " reached its maximum number of instances " ++ show_int n ++ ".".
Definition says (m : message) (a : entry) : Prop := exists id n, a = warned "run" id /\ m = MkMsg "warning" (sentence id n).
Definition is_warning (a : entry) : bool := String.eqb (a_status a) "warning".
Lemma app_s_assoc (a b c : string) : (a ++ b) ++ c = a ++ (b ++ c).
Proof. induction a; cbn [append]; congruence. Qed.
Lemma rstrip_dot u : rstrip (u ++ ".") = u ++ ".".
Proof. induction u as [|a u IH]; [reflexivity|]. cbn [append rstrip]. rewrite IH. destruct u; reflexivity. Qed.
Lemma full_is id n : full_text id n = sentence id n.
Proof.
  unfold full_text, sentence, strip. change ("The task by the id of " ++ id ++ " reached its maximum number of instances " ++ show_int n ++ ".") with (String "T" ("he task by the id of " ++ id ++ " reached its maximum number of instances " ++ show_int n ++ ".")).
  cbn [lstrip]. replace (is_space "T") with false by reflexivity.
  assert (E : forall x y, String "T" (x ++ id ++ y ++ show_int n ++ ".") = ((String "T" x ++ id ++ y ++ show_int n) ++ ".")%string).
  { intros x y. cbn [append]. f_equal. rewrite !app_s_assoc. reflexivity. }
  rewrite E. apply rstrip_dot.
Qed.
Theorem C102_press_says : forall (c : config) (e : envir) (id : string) (s s' : sched) (es : list entry) (x : option exn),
  reachable c s -> press c e BRun id s = (s', es, x) ->
  (es = [warned "run" id] /\ exists a t, stored s a id = Some t /\ press_messages c e id s = [MkMsg "warning" (sentence id (t_max t))]) \/
  (~ In (warned "run" id) es /\ press_messages c e id s = []).
Proof.
  intros c e id s s' es x R H. unfold press in H. unfold press_messages. destruct (made c e BRun id s) as [s1 r] eqn:MD. cbn [snd].
  assert (LK : forall y, lookup_task id None s = Err y -> r = Err y \/ r = Err SchedulerNotRunningError).
  { intros y E. cbn [made] in MD. unfold forget, run_task in MD. rewrite E in MD. destruct (stopped s); injection MD as <- <-; auto. }
  assert (ST : stopped s = true -> r = Err SchedulerNotRunningError).
  { intros E. cbn [made] in MD. unfold forget, run_task in MD. rewrite E in MD. injection MD as <- <-. reflexivity. }
  assert (NW : forall a b, succeeded a b <> warned "run" id /\ failed a b <> warned "run" id) by (split; discriminate).
  destruct r as [u|y].
  - right. injection H as <- <- <-. split; auto. intros [E|[]]. discriminate.
  - destruct y; try (right; injection H as <- <- <-; split; auto; intros E; cbn in E; intuition discriminate).
    injection H as <- <- <-. left. split; auto. destruct (stopped s) eqn:SS; [specialize (ST eq_refl); discriminate|].
    pose proof (lookup_running id None s (reachable_wf _ _ R) SS) as L. destruct (lookup_task id None s) as [[t w]|y].
    + destruct L as (a & _ & _ & Sa & Ia). exists a, t. split; auto. rewrite Ia, full_is. reflexivity.
    + destruct (LK y eq_refl) as [E|E]; try discriminate. destruct L as [-> _]. discriminate.
Qed.
(** Pressed for one task or for several, Run says one sentence for each warning it records, in that order; and unless an
    exception gets through, the answer is the task table, which shows them. *)
Theorem C102_run_says : forall (c : config) (l : list (string * envir)) (s s' : sched) (es : list entry) (x : option exn),
  reachable c s -> bulk c BRun l s = (s', es, x) ->
  Forall2 says (q_adds (run_request c l s)) (filter is_warning es) /\ (x = None -> q_kind (run_request c l s) = Table).
Proof.
  intros c l s s' es x R H. split; [|intros ->; unfold run_request; rewrite H; reflexivity]. cbn [run_request q_adds]. revert s s' es x R H.
  induction l as [|[id e] l IH]; intros s s' es x R H; cbn [bulk bulk_messages] in *; [injection H as <- <- <-; constructor|].
  pose proof (press_reachable c e BRun id s R) as R1. destruct (press c e BRun id s) as [[s1 es1] x1] eqn:P. cbn [fst] in R1.
  assert (K : Forall2 says (press_messages c e id s) (filter is_warning es1)).
  { pose proof P as P2. destruct (C102_press_says _ _ _ _ _ _ _ R P) as [(-> & a & t & _ & ->)|[N ->]].
    - cbn. repeat constructor. exists id, (t_max t). auto.
    - assert (E : es1 = [] \/ es1 = [succeeded "run" id] \/ es1 = [failed "run" id] \/ es1 = [warned "run" id]).
      { unfold press in P2. destruct (made c e BRun id s) as [q [u|y]]; [injection P2 as <- <- <-; auto|]. destruct y; injection P2 as <- <- <-; auto. }
      destruct E as [->|[->|[->| ->]]]; cbn; try constructor. destruct N. left. reflexivity. }
  destruct x1 as [y|].
  - injection H as <- <- <-. rewrite app_nil_r. exact K.
  - destruct (bulk c BRun l s1) as [[s2 es2] x2] eqn:B. injection H as <- <- <-. rewrite filter_app. apply Forall2_app; auto. eapply IH; eauto.
Qed.

(** ** how the text is shown *)
Lemma list_ascii_app a b : list_ascii_of_string (a ++ b) = (list_ascii_of_string a ++ list_ascii_of_string b)%list.
Proof. induction a; cbn; congruence. Qed.
Lemma cons_inj {A} (a b : A) l m : a :: l = b :: m -> a = b /\ l = m.
Proof. intros [= -> ->]. auto. Qed.
Fixpoint free (p : ascii -> bool) (s : string) : bool := match s with EmptyString => true | String a s' => negb (p a) && free p s' end.
Lemma free_app p a b : free p (a ++ b) = free p a && free p b.
Proof. induction a as [|x a IH]; cbn [append free]; auto. rewrite IH, andb_assoc. reflexivity. Qed.
Definition special (a : ascii) : bool := Ascii.eqb a "&" || Ascii.eqb a "<".
Definition gt (a : ascii) : bool := Ascii.eqb a ">".
Lemma in_by (a : ascii) l : existsb (Ascii.eqb a) l = true <-> In a l.
Proof. rewrite existsb_exists. split; [intros (x & X & E); apply Ascii.eqb_eq in E as <-; auto|intros H; exists a; split; auto; apply Ascii.eqb_refl]. Qed.
Lemma opens_iff a : opens a = true <-> opener a.
Proof.
  unfold opener. split.
  - intros H. apply in_by. revert H. destruct a as [[] [] [] [] [] [] [] []]; vm_compute; intros H; try discriminate; reflexivity.
  - intros H. apply in_by in H. revert H. destruct a as [[] [] [] [] [] [] [] []]; vm_compute; intros H; try discriminate; reflexivity.
Qed.
Fixpoint begins_tag (s : string) : bool :=
  match s with String a s' => Ascii.eqb a "<" && match s' with String b _ => opens b | EmptyString => false end || begins_tag s' | EmptyString => false end.
Lemma inert_iff s : inert s <-> begins_tag s = false.
Proof.
  unfold inert. split.
  - intros N. apply not_true_is_false. intros B. apply N. clear N. induction s as [|a s IH]; [discriminate|]. cbn [begins_tag] in B. apply orb_true_iff in B as [B|B].
    + apply andb_true_iff in B as [B1 B2]. apply Ascii.eqb_eq in B1 as ->. destruct s as [|b s]; [discriminate|]. exists "", b, s. split; auto. apply opens_iff. exact B2.
    + destruct (IH B) as (u & c & v & -> & O). exists (String a u), c, v. auto.
  - intros B (u & c & v & -> & O). induction u as [|a u IH]; cbn [append begins_tag] in B; [apply opens_iff in O; rewrite O in B; discriminate|]. apply orb_false_iff in B as [_ B]. auto.
Qed.
Lemma inert_dec s : inert s \/ ~ inert s.
Proof. rewrite inert_iff. destruct (begins_tag s); [right; discriminate|left; reflexivity]. Qed.
Lemma no_amp s : ~ has "&" s -> free (fun a => Ascii.eqb a "&") s = true.
Proof.
  induction s as [|a s IH]; intros N; [reflexivity|]. cbn [free]. destruct (Ascii.eqb_spec a "&") as [->|NE]; [destruct N; exists "", s; auto|]. cbn [negb andb]. apply IH. intros (u & v & ->). apply N. exists (String a u), v. auto.
Qed.
Lemma digits_free f : forall n, 0 <= n -> free gt (show_nat f n) = true.
Proof.
  assert (D : forall k, 0 <= k < 10 -> free gt (String (ascii_of_N (Z.to_N (48 + k))) "") = true).
  { intros k K. assert (C : k = 0 \/ k = 1 \/ k = 2 \/ k = 3 \/ k = 4 \/ k = 5 \/ k = 6 \/ k = 7 \/ k = 8 \/ k = 9) by lia. repeat (destruct C as [->|C]; [reflexivity|]). subst; reflexivity. }
  induction f as [|f IH]; intros n N; [reflexivity|]. cbn [show_nat]. destruct (Z.ltb_spec n 10); [apply D; lia|]. rewrite free_app, IH by (apply Z.div_pos; lia). apply D. apply Z.mod_pos_bound. lia.
Qed.
Lemma int_free n : free gt (show_int n) = true.
Proof. unfold show_int. destruct (Z.ltb_spec n 0); [cbn [append free]; apply digits_free; lia|apply digits_free; lia]. Qed.
Lemma colour_free lv : free gt (colour lv) = true.
Proof. unfold colour. destruct (String.eqb lv "success"), (String.eqb lv "error"), (String.eqb lv "warning"); reflexivity. Qed.
Definition t_outer (i : Z) (lv : string) : string :=
  "div id=""flash-" ++ show_int i ++ """ class=""relative flex items-start gap-3 p-4 bg-" ++ colour lv ++ "-50" ++ nl ++
  "                  border-l-4 border-" ++ colour lv ++ "-500 text-" ++ colour lv ++ "-700 shadow transition-opacity duration-200""".
Definition t_icon (lv : string) : string := "i data-lucide=""" ++ icon lv ++ """ class=""w-5 h-5 mt-1 flex-shrink-0""".
Definition t_button (i : Z) (lv : string) : string :=
  "button type=""button"" data-dismiss-target=""flash-" ++ show_int i ++ """" ++ nl ++
  "                      class=""absolute top-5 right-6 text-xl font-bold leading-none text-" ++ colour lv ++ "-700 hover:text-" ++ colour lv ++ "-900 focus:outline-none""" ++ nl ++
  "                      aria-label=""Dismiss""".
Lemma outer_free i lv : free gt (t_outer i lv) = true.
Proof. unfold t_outer. rewrite !free_app, int_free, colour_free. reflexivity. Qed.
Lemma icon_free lv : free gt (t_icon lv) = true.
Proof. unfold t_icon, icon. rewrite !free_app. destruct (String.eqb lv "success"), (String.eqb lv "error"), (String.eqb lv "warning"); reflexivity. Qed.
Lemma button_free i lv : free gt (t_button i lv) = true.
Proof. unfold t_button. rewrite !free_app, int_free, colour_free. reflexivity. Qed.
Definition frame_before (i : Z) (lv : string) : list item :=
  (plain (nl ++ "                  ") ++ [Tag (t_outer i lv)] ++ plain (nl ++ "                    ") ++ [Tag (t_icon lv); Tag "/i"] ++ plain (nl ++ "                    ") ++ [Tag box])%list.
Definition frame_after (i : Z) (lv : string) : list item :=
  ([Tag "/div"] ++ plain (nl ++ "                    ") ++ [Tag (t_button i lv)] ++ plain (String "195" (String "151" "")) ++ [Tag "/button"] ++ plain (nl ++ "                  ") ++ [Tag "/div"] ++ plain (nl ++ "                  "))%list.
Fixpoint frames (i : Z) (ms : list message) : list item :=
  match ms with [] => [] | m :: ms' => (frame_before i (level_of m) ++ plain (m_text m) ++ frame_after i (level_of m) ++ frames (i + 1) ms')%list end.
Section Browser.
  Variable refs : string -> option (string * nat).
  Hypothesis KN : knows refs.
  Let reads := Banner.reads refs.
  Lemma read_plain x : forall s, free special x = true -> reads Data (x ++ s) = (plain x ++ reads Data s)%list.
  Proof.
    induction x as [|a x IH]; intros s F; [reflexivity|]. cbn [free] in F. apply andb_true_iff in F as [A F]. unfold special in A. apply negb_true_iff, orb_false_iff in A as [A1 A2].
    cbn [append]. unfold reads. cbn [Banner.reads]. rewrite A1, A2. unfold plain. cbn [list_ascii_of_string map app]. f_equal. apply IH. exact F.
  Qed.
  Lemma in_tag x : forall t s, free gt x = true -> reads (InTag t) (x ++ String ">" s) = Tag (t ++ x) :: reads Data s.
  Proof.
    induction x as [|a x IH]; intros t s F.
    - cbn [append]. unfold reads. cbn [Banner.reads Ascii.eqb Bool.eqb]. replace (t ++ "") with t by (clear; induction t; cbn; congruence). reflexivity.
    - cbn [free] in F. apply andb_true_iff in F as [A F]. apply negb_true_iff in A. unfold gt in A. cbn [append]. unfold reads. cbn [Banner.reads]. rewrite A. fold reads. rewrite IH by auto. rewrite app_s_assoc. reflexivity.
  Qed.
  Lemma read_lt b r : reads Data (String "<" (String b r)) = if opens b then reads (InTag "") (String b r) else Shown "<" :: reads Data (String b r).
  Proof. reflexivity. Qed.
  Lemma read_tag x s : opens (match x with String a _ => a | EmptyString => " "%char end) = true -> free gt x = true -> reads Data (String "<" (x ++ String ">" s)) = Tag x :: reads Data s.
  Proof.
    destruct x as [|a x]; intros O F; [discriminate|]. cbn [append]. rewrite read_lt, O. change (String a (x ++ String ">" s)) with (String a x ++ String ">" s). rewrite in_tag by exact F. reflexivity.
  Qed.
  Lemma read_times s : reads Data ("&times;" ++ s) = (plain (String "195" (String "151" "")) ++ reads Data s)%list.
  Proof.
    change ("&times;" ++ s) with (String "&" ("times;" ++ s)). unfold reads. cbn [Banner.reads]. replace (Ascii.eqb "&" "&") with true by reflexivity. rewrite (kn_times _ KN). reflexivity.
  Qed.
  Lemma read_escaped a s : reads Data (escape_char a ++ s) = Shown a :: reads Data s.
  Proof.
    unfold escape_char. destruct (Ascii.eqb_spec a "&") as [->|N1]; [change ("&amp;" ++ s) with (String "&" ("amp;" ++ s)); unfold reads; cbn [Banner.reads]; replace (Ascii.eqb "&" "&") with true by reflexivity; rewrite (kn_amp _ KN); reflexivity|].
    destruct (Ascii.eqb_spec a ">") as [->|N2]; [change ("&gt;" ++ s) with (String "&" ("gt;" ++ s)); unfold reads; cbn [Banner.reads]; replace (Ascii.eqb "&" "&") with true by reflexivity; rewrite (kn_gt _ KN); reflexivity|].
    destruct (Ascii.eqb_spec a "<") as [->|N3]; [change ("&lt;" ++ s) with (String "&" ("lt;" ++ s)); unfold reads; cbn [Banner.reads]; replace (Ascii.eqb "&" "&") with true by reflexivity; rewrite (kn_lt _ KN); reflexivity|].
    destruct (Ascii.eqb_spec a "'") as [->|N4]; [change ("&#39;" ++ s) with (String "&" ("#39;" ++ s)); unfold reads; cbn [Banner.reads]; replace (Ascii.eqb "&" "&") with true by reflexivity; rewrite (kn_apos _ KN); reflexivity|].
    destruct (Ascii.eqb_spec a """") as [->|N5]; [change ("&#34;" ++ s) with (String "&" ("#34;" ++ s)); unfold reads; cbn [Banner.reads]; replace (Ascii.eqb "&" "&") with true by reflexivity; rewrite (kn_quot _ KN); reflexivity|].
    apply (read_plain (String a "")). cbn [free]. unfold special. apply Ascii.eqb_neq in N1, N3. rewrite N1, N3. reflexivity.
  Qed.
  (** text without an ampersand, in front of a tag *)
  Lemma read_text x s : free (fun a => Ascii.eqb a "&") x = true -> inert x -> reads Data (x ++ String "<" s) = (plain x ++ reads Data (String "<" s))%list.
  Proof.
    induction x as [|a x IH]; intros F N; [reflexivity|]. cbn [free] in F. apply andb_true_iff in F as [A F]. apply negb_true_iff in A.
    assert (N' : inert x) by (intros (u & c & v & -> & O); apply N; exists (String a u), c, v; auto). specialize (IH F N').
    destruct (Ascii.eqb_spec a "<") as [->|NE].
    - destruct x as [|b x]; [reflexivity|]. cbn [append] in *. rewrite read_lt. replace (opens b) with false; [rewrite IH; reflexivity|]. symmetry. apply not_true_is_false. intros O. apply N. exists "", b, x. split; auto. apply opens_iff. exact O.
    - apply Ascii.eqb_neq in NE. cbn [append]. unfold reads. cbn [Banner.reads]. rewrite A, NE. fold reads. rewrite IH. reflexivity.
  Qed.
  Lemma in_tag_upto s : forall t, upto_tag (reads (InTag t) s) = "".
  Proof. induction s as [|a s IH]; intros t; [reflexivity|]. unfold reads. cbn [Banner.reads]. destruct (Ascii.eqb a ">"); [reflexivity|apply IH]. Qed.
  Lemma read_other x s : free (fun a => Ascii.eqb a "&") x = true -> ~ inert x -> (String.length (upto_tag (reads Data (x ++ s))) < String.length x)%nat.
  Proof.
    induction x as [|a x IH]; intros F N; [destruct N; intros ([|? ?] & c & v & E & _); discriminate|]. cbn [free] in F. apply andb_true_iff in F as [A F]. apply negb_true_iff in A. specialize (IH F).
    assert (K : a = "<"%char /\ opens (match x with String b _ => b | EmptyString => " "%char end) = true \/ ~ inert x).
    { destruct (Ascii.eqb a "<" && opens (match x with String b _ => b | EmptyString => " "%char end)) eqn:E; [apply andb_true_iff in E as [E1 E2]; apply Ascii.eqb_eq in E1; auto|].
      right. intros NX. apply N. intros ([|a' u] & c & v & E2 & O); cbn [append] in E2; injection E2 as -> E2.
      - subst x. apply opens_iff in O. rewrite O in E. discriminate.
      - apply NX. eauto. }
    destruct x as [|b x]. { destruct K as [[_ K]|K]; [discriminate|]. destruct K. intros ([|? ?] & c & v & E & _); discriminate. }
    destruct K as [[-> O]|K].
    - cbn [append]. rewrite read_lt, O, in_tag_upto. cbn. lia.
    - specialize (IH K). destruct (Ascii.eqb_spec a "<") as [->|NE].
      + cbn [append] in *. rewrite read_lt. destruct (opens b); [rewrite in_tag_upto; cbn; lia|]. cbn [upto_tag String.length] in *. lia.
      + apply Ascii.eqb_neq in NE. cbn [append] in *. assert (E : reads Data (String a (String b (x ++ s))) = Shown a :: reads Data (String b (x ++ s))) by (unfold reads; cbn [Banner.reads]; rewrite A, NE; reflexivity). rewrite E. cbn [upto_tag String.length] in *. lia.
  Qed.

  (** *** the frame *)
  Lemma read_before i lv s : reads Data (before i lv ++ s) = (frame_before i lv ++ reads Data s)%list.
  Proof.
    assert (E : before i lv ++ s = (nl ++ "                  ") ++ String "<" (t_outer i lv ++ String ">" ((nl ++ "                    ") ++ String "<" (t_icon lv ++ String ">" (String "<" ("/i" ++ String ">" ((nl ++ "                    ") ++ String "<" (box ++ String ">" s)))))))).
    { unfold before, t_outer, t_icon. rewrite !app_s_assoc. reflexivity. }
    rewrite E. unfold frame_before. rewrite (read_plain (nl ++ "                  ")) by reflexivity. rewrite (read_tag (t_outer i lv)) by (reflexivity || apply outer_free). rewrite (read_plain (nl ++ "                    ")) by reflexivity. rewrite (read_tag (t_icon lv)) by (reflexivity || apply icon_free).
    rewrite (read_tag "/i") by reflexivity. rewrite (read_plain (nl ++ "                    ")) by reflexivity. rewrite (read_tag box) by reflexivity. rewrite <- !app_assoc. reflexivity.
  Qed.
  Lemma read_after i lv s : reads Data (after i lv ++ s) = (frame_after i lv ++ reads Data s)%list.
  Proof.
    assert (E : after i lv ++ s = String "<" ("/div" ++ String ">" ((nl ++ "                    ") ++ String "<" (t_button i lv ++ String ">" ("&times;" ++ String "<" ("/button" ++ String ">" ((nl ++ "                  ") ++ String "<" ("/div" ++ String ">" ((nl ++ "                  ") ++ s))))))))).
    { unfold after, t_button. rewrite !app_s_assoc. reflexivity. }
    rewrite E. unfold frame_after. rewrite (read_tag "/div") by reflexivity. rewrite (read_plain (nl ++ "                    ")) by reflexivity. rewrite (read_tag (t_button i lv)) by (reflexivity || apply button_free). rewrite read_times.
    rewrite (read_tag "/button") by reflexivity. rewrite (read_plain (nl ++ "                  ")) by reflexivity. rewrite (read_tag "/div") by reflexivity. rewrite (read_plain (nl ++ "                  ")) by reflexivity. rewrite <- !app_assoc. reflexivity.
  Qed.
  Lemma boxes_plain x l : boxes (plain x ++ l) = boxes l.
  Proof. unfold plain. induction (list_ascii_of_string x); cbn; auto. Qed.
  Lemma upto_plain x t l : upto_tag (plain x ++ Tag t :: l) = x.
  Proof. unfold plain. induction x as [|a x IH]; cbn; [reflexivity|]. f_equal. exact IH. Qed.
  Lemma boxes_before i lv l : boxes (frame_before i lv ++ l) = upto_tag l :: boxes l.
  Proof. unfold frame_before. rewrite <- !app_assoc. rewrite boxes_plain. cbn [app boxes]. replace (String.eqb (t_outer i lv) box) with false by reflexivity. rewrite boxes_plain. cbn [app boxes]. replace (String.eqb (t_icon lv) box) with false by reflexivity. replace (String.eqb "/i" box) with false by reflexivity. rewrite boxes_plain. cbn [app boxes]. rewrite String.eqb_refl. reflexivity. Qed.
  Lemma boxes_after i lv l : boxes (frame_after i lv ++ l) = boxes l.
  Proof. unfold frame_after. rewrite <- !app_assoc. cbn [app boxes]. replace (String.eqb "/div" box) with false by reflexivity. rewrite boxes_plain. cbn [app boxes]. replace (String.eqb (t_button i lv) box) with false by reflexivity. rewrite boxes_plain. cbn [app boxes]. replace (String.eqb "/button" box) with false by reflexivity. rewrite boxes_plain. cbn [app boxes]. replace (String.eqb "/div" box) with false by reflexivity. rewrite boxes_plain. reflexivity. Qed.
  Lemma after_starts i lv s : exists r, after i lv ++ s = String "<" r.
  Proof. eexists. unfold after. cbn [append]. reflexivity. Qed.
  Lemma read_parts ms : forall i s, Forall (fun m => ~ has "&" (m_text m)) ms -> Forall (fun m => inert (m_text m)) ms -> reads Data (parts i ms ++ s) = (frames i ms ++ reads Data s)%list.
  Proof.
    induction ms as [|m ms IH]; intros i s A N; [reflexivity|]. inversion A as [|? ? A1 A2]; inversion N as [|? ? N1 N2]; subst. cbn [parts frames]. rewrite !app_s_assoc, read_before.
    destruct (after_starts i (level_of m) (parts (i + 1) ms ++ s)) as (r & E). rewrite E, read_text by (auto; apply no_amp; auto). rewrite <- E, read_after, IH by auto. rewrite <- !app_assoc. reflexivity.
  Qed.
  Lemma parts_boxes ms : forall i s, boxes (reads Data s) = [] -> Forall (fun m => ~ has "&" (m_text m)) ms ->
    (boxes (reads Data (parts i ms ++ s)) = map m_text ms <-> Forall (fun m => inert (m_text m)) ms).
  Proof.
    induction ms as [|m ms IH]; intros i s B A; [cbn [parts append map]; rewrite B; split; auto|]. inversion A as [|? ? A1 A2]; subst. cbn [parts map]. rewrite !app_s_assoc, read_before, boxes_before.
    destruct (after_starts i (level_of m) (parts (i + 1) ms ++ s)) as (r & E). apply no_amp in A1. split.
    - intros H. apply cons_inj in H as [H1 H2]. assert (N1 : inert (m_text m)).
      { destruct (inert_dec (m_text m)) as [N1|N1]; auto. pose proof (read_other (m_text m) (after i (level_of m) ++ parts (i + 1) ms ++ s) A1 N1) as L. rewrite H1 in L. lia. }
      constructor; auto. rewrite E, read_text in H2 by auto. rewrite boxes_plain, <- E, read_after, boxes_after in H2. apply IH in H2; auto.
    - intros N. inversion N as [|? ? N1 N2]; subst. rewrite E, read_text by auto. rewrite boxes_plain, <- E, read_after, boxes_after. f_equal; [|apply IH; auto].
      unfold frame_after. rewrite <- !app_assoc. cbn [app]. apply upto_plain.
  Qed.
  Lemma read_oob s : reads Data (opening ++ inner ++ s) = Tag "div id=""flash-messages"" hx-swap-oob=""true""" :: Tag "div class=""space-y-4 w-full""" :: reads Data s.
  Proof.
    change (opening ++ inner ++ s) with (String "<" ("div id=""flash-messages"" hx-swap-oob=""true""" ++ String ">" (String "<" ("div class=""space-y-4 w-full""" ++ String ">" s)))). rewrite !read_tag by reflexivity. reflexivity.
  Qed.
  Lemma oob_boxes s : boxes (reads Data (opening ++ inner ++ s)) = boxes (reads Data s).
  Proof. rewrite read_oob. reflexivity. Qed.
End Browser.

(** In front of the task table the boxes show exactly the texts, in order, if and only if no text contains the beginning of
    a tag (texts with an ampersand apart). *)
Theorem C102_banner_text_partial : forall refs (ms : list message), knows refs -> Forall (fun m => ~ has "&" (m_text m)) ms ->
  (boxes (reads refs Data (render_oob ms)) = map m_text ms <-> Forall (fun m => inert (m_text m)) ms).
Proof.
  intros refs ms K A. destruct ms as [|m ms]; [split; auto; reflexivity|]. unfold render_oob. rewrite oob_boxes. apply parts_boxes; auto.
Qed.
(** Then also nothing of the text is taken for markup: the tags are those of the same messages without their texts. *)
Theorem C102_banner_markup : forall refs (ms : list message), knows refs -> Forall (fun m => ~ has "&" (m_text m)) ms -> Forall (fun m => inert (m_text m)) ms ->
  markup (reads refs Data (render_oob ms)) = markup (reads refs Data (render_oob (map (fun m => MkMsg (m_level m) "") ms))).
Proof.
  intros refs ms K A N. destruct ms as [|m0 ms0]; [reflexivity|]. set (ms := m0 :: ms0) in *. set (ms' := map (fun m => MkMsg (m_level m) "") ms).
  assert (E : forall l, l <> [] -> render_oob l = opening ++ inner ++ parts 1 l ++ "</div></div>") by (intros [|? ?]; congruence || reflexivity).
  rewrite !E by discriminate. rewrite !read_oob by auto. assert (A' : Forall (fun m => ~ has "&" (m_text m)) ms') by (apply Forall_forall; intros x X; apply in_map_iff in X as (y & <- & _); intros ([|? ?] & v & E0); discriminate).
  assert (N' : Forall (fun m => inert (m_text m)) ms') by (apply Forall_forall; intros x X; apply in_map_iff in X as (y & <- & _); intros ([|? ?] & c & v & E0 & _); discriminate).
  rewrite !read_parts by auto. unfold markup. cbn [flat_map app]. do 2 f_equal. rewrite !flat_map_app. f_equal. subst ms'. clear. generalize 1 as i. 
  assert (P : forall x, flat_map (fun x => match x with Tag t => [t] | Shown _ => [] end) (plain x) = []) by (intros x; unfold plain; induction (list_ascii_of_string x); auto).
  induction ms as [|m ms IH]; intros i; [reflexivity|]. cbn [map frames]. rewrite !flat_map_app, IH, !P. reflexivity.
Qed.
(** On whole pages the engine escapes: whatever the text, the browser shows it, and reads on as before. *)
Theorem C102_page_text : forall refs (text rest : string), knows refs -> reads refs Data (escape text ++ rest) = (plain text ++ reads refs Data rest)%list.
Proof.
  intros refs text rest K. induction text as [|a t IH]; [reflexivity|]. cbn [escape]. rewrite app_s_assoc, read_escaped by auto. rewrite IH. reflexivity.
Qed.
(** The banner does not escape.  A task id, or the path typed into the create form, goes into the page as it is: an image of
    the id's making is loaded, and the box is left; an ampersand is read as the beginning of a character. *)
Lemma in_markup t l : In (Tag t) l -> In t (markup l).
Proof. intros H. unfold markup. apply in_flat_map. exists (Tag t). split; [exact H|left; reflexivity]. Qed.
Definition rest_of : string := " reached its maximum number of instances 1.".
Lemma sentence_is id : sentence id 1 = "The task by the id of " ++ id ++ rest_of.
Proof. reflexivity. Qed.
Lemma read_img refs r : knows refs -> reads refs Data (sentence "<img src=x>" 1 ++ r) = (plain "The task by the id of " ++ Tag "img src=x" :: plain rest_of ++ reads refs Data r)%list.
Proof.
  intros K. rewrite sentence_is, !app_s_assoc. rewrite (read_plain refs "The task by the id of ") by reflexivity. reflexivity.
Qed.
Lemma read_rd refs r : knows refs -> reads refs Data (sentence "R&amp;D" 1 ++ r) = (plain (sentence "R&D" 1) ++ reads refs Data r)%list.
Proof.
  intros K. rewrite !sentence_is, !app_s_assoc. rewrite (read_plain refs "The task by the id of ") by reflexivity. unfold plain at 2. rewrite list_ascii_app, map_app, <- app_assoc. fold (plain "The task by the id of "). f_equal. remember (rest_of ++ r) as x eqn:X.
  change ("R&amp;D" ++ x) with ("R" ++ (escape_char "&" ++ ("D" ++ x))). rewrite (read_plain refs "R") by reflexivity. rewrite read_escaped by auto. rewrite (read_plain refs "D") by reflexivity. rewrite X. rewrite (read_plain refs rest_of) by reflexivity. rewrite list_ascii_app, map_app. reflexivity.
Qed.
Lemma oob_one t : render_oob [MkMsg "warning" t] = opening ++ inner ++ before 1 "warning" ++ t ++ after 1 "warning" ++ "</div></div>".
Proof. unfold render_oob. cbn [parts m_text]. change (level_of (MkMsg "warning" t)) with "warning". rewrite !app_s_assoc. reflexivity. Qed.
Lemma end_boxes refs : boxes (reads refs Data "</div></div>") = [].
Proof. reflexivity. Qed.
Lemma box_other l : boxes (Tag "img src=x" :: l) = boxes l.
Proof. reflexivity. Qed.
Lemma upto_after x i lv l : upto_tag (plain x ++ frame_after i lv ++ l) = x.
Proof. unfold frame_after. rewrite <- !app_assoc. cbn [app]. apply upto_plain. Qed.
Theorem C102_markup_refuted : forall refs, knows refs ->
  let shown id := reads refs Data (render_oob [MkMsg "warning" (sentence id 1)]) in
  In "img src=x" (markup (shown "<img src=x>")) /\
  boxes (shown "<img src=x>") = ["The task by the id of "] /\
  boxes (shown "R&amp;D") = ["The task by the id of R&D reached its maximum number of instances 1."].
Proof.
  intros refs K. cbv beta zeta. rewrite !oob_one. generalize (end_boxes refs). generalize "</div></div>". intros d D. sp.
  - rewrite read_oob by auto. rewrite read_before by auto. rewrite read_img by auto. apply in_markup. apply in_cons, in_cons. apply in_or_app. right. apply in_or_app. right. apply in_eq.
  - rewrite oob_boxes, read_before, boxes_before by auto. rewrite read_img by auto. rewrite upto_plain, boxes_plain, box_other, boxes_plain, read_after, boxes_after by auto. rewrite D. reflexivity.
  - rewrite oob_boxes, read_before, boxes_before by auto. rewrite read_rd by auto. rewrite read_after by auto. rewrite boxes_plain, boxes_after, upto_after, D. reflexivity.
Qed.
(** the hypotheses are met *)
Definition some_refs (s : string) : option (string * nat) :=
  if starts_with "amp;" s then Some ("&", 4%nat) else if starts_with "gt;" s then Some (">", 3%nat) else if starts_with "lt;" s then Some ("<", 3%nat)
  else if starts_with "#39;" s then Some ("'", 4%nat) else if starts_with "#34;" s then Some ("""", 4%nat) else if starts_with "times;" s then Some (String "195" (String "151" ""), 6%nat) else None.
Example knows_some : knows some_refs.
Proof. constructor; intros r; unfold some_refs; cbn; destruct r; reflexivity. Qed.
Example C102_example :
  let ms := [MkMsg "warning" (sentence "a < b" 3); MkMsg "error" "No module named 'x'"] in
  Forall (fun m => ~ has "&" (m_text m)) ms /\ Forall (fun m => inert (m_text m)) ms /\
  boxes (reads some_refs Data (render_oob ms)) = ["The task by the id of a < b reached its maximum number of instances 3."; "No module named 'x'"].
Proof.
  cbv zeta. sp; [| |reflexivity].
  - assert (H : forall s, free (fun a => Ascii.eqb a "&") s = true -> ~ has "&" s). { intros s F (u & v & ->). rewrite free_app in F. apply andb_true_iff in F as [_ F]. discriminate F. } repeat constructor; apply H; reflexivity.
  - repeat constructor; apply inert_iff; reflexivity.
Qed.

(** ** what a message looks like: the colour and the icon of its level, in any case; an empty or unknown level is an information *)
Definition looks : list (string * (string * string)) :=
  [("success", ("green", "check-circle")); ("error", ("red", "x-circle")); ("warning", ("yellow", "alert-triangle"))].
Definition look (level : string) : string * string :=
  match find (fun p => String.eqb (fst p) (lower level)) looks with Some p => snd p | None => ("blue", "info") end.
Definition icon_tag (name : string) : string := "i data-lucide=""" ++ name ++ """ class=""w-5 h-5 mt-1 flex-shrink-0""".
Definition box_tag (i : Z) (colour : string) : string :=
  "div id=""flash-" ++ show_int i ++ """ class=""relative flex items-start gap-3 p-4 bg-" ++ colour ++ "-50" ++ nl ++
  "                  border-l-4 border-" ++ colour ++ "-500 text-" ++ colour ++ "-700 shadow transition-opacity duration-200""".
Definition close_tag (i : Z) (colour : string) : string :=
  "button type=""button"" data-dismiss-target=""flash-" ++ show_int i ++ """" ++ nl ++
  "                      class=""absolute top-5 right-6 text-xl font-bold leading-none text-" ++ colour ++ "-700 hover:text-" ++ colour ++ "-900 focus:outline-none""" ++ nl ++
  "                      aria-label=""Dismiss""".
Fixpoint numbered {A} (f : Z -> A -> string) (i : Z) (l : list A) : list string := match l with [] => [] | a :: l' => f i a :: numbered f (i + 1) l' end.
Lemma colour_look m : colour (level_of m) = fst (look (m_level m)).
Proof.
  unfold look, level_of, colour. destruct (String.eqb_spec (m_level m) "") as [->|_]; [reflexivity|]. generalize (lower (m_level m)) as x. intros x. cbn [find looks fst snd].
  rewrite (String.eqb_sym "success"), (String.eqb_sym "error"), (String.eqb_sym "warning"). destruct (String.eqb x "success"), (String.eqb x "error"), (String.eqb x "warning"); reflexivity.
Qed.
Lemma icon_look m : icon (level_of m) = snd (look (m_level m)).
Proof.
  unfold look, level_of, icon. destruct (String.eqb_spec (m_level m) "") as [->|_]; [reflexivity|]. generalize (lower (m_level m)) as x. intros x. cbn [find looks fst snd].
  rewrite (String.eqb_sym "success"), (String.eqb_sym "error"), (String.eqb_sym "warning"). destruct (String.eqb x "success"), (String.eqb x "error"), (String.eqb x "warning"); reflexivity.
Qed.
Fixpoint tags_of (i : Z) (ms : list message) : list string :=
  match ms with [] => [] | m :: ms' => ([t_outer i (level_of m); t_icon (level_of m); "/i"; box; "/div"; t_button i (level_of m); "/button"; "/div"] ++ tags_of (i + 1) ms')%list end.
Lemma markup_frames ms : forall i, markup (frames i ms) = tags_of i ms.
Proof.
  assert (P : forall x, markup (plain x) = []) by (intros x; unfold plain, markup; induction (list_ascii_of_string x); auto).
  assert (A : forall a b, markup (a ++ b) = (markup a ++ markup b)%list) by (intros; unfold markup; apply flat_map_app).
  induction ms as [|m ms IH]; intros i; [reflexivity|]. cbn [frames tags_of]. rewrite !A, IH. unfold frame_before, frame_after. rewrite !A, !P. reflexivity.
Qed.
Lemma tags_icons ms : forall i, filter (starts_with "i data-lucide=") (tags_of i ms) = map (fun m => icon_tag (snd (look (m_level m)))) ms.
Proof. induction ms as [|m ms IH]; intros i; [reflexivity|]. cbn [tags_of map]. rewrite filter_app, IH, <- icon_look. reflexivity. Qed.
Lemma tags_boxes ms : forall i, filter (starts_with "div id=""flash-") (tags_of i ms) = numbered (fun i m => box_tag i (fst (look (m_level m)))) i ms.
Proof. induction ms as [|m ms IH]; intros i; [reflexivity|]. cbn [tags_of numbered]. rewrite filter_app, IH, <- colour_look. reflexivity. Qed.
Lemma tags_buttons ms : forall i, filter (starts_with "button ") (tags_of i ms) = numbered (fun i m => close_tag i (fst (look (m_level m)))) i ms.
Proof. induction ms as [|m ms IH]; intros i; [reflexivity|]. cbn [tags_of numbered]. rewrite filter_app, IH, <- colour_look. reflexivity. Qed.
(** Every message gets a numbered box in the colour of its level, with the icon of its level and a button that names the box. *)
Theorem C102_banner_look : forall refs (ms : list message), knows refs -> Forall (fun m => ~ has "&" (m_text m)) ms -> Forall (fun m => inert (m_text m)) ms ->
  let tags := markup (reads refs Data (render_oob ms)) in
  filter (starts_with "i data-lucide=") tags = map (fun m => icon_tag (snd (look (m_level m)))) ms /\
  filter (starts_with "div id=""flash-") (skipn 1 tags) = numbered (fun i m => box_tag i (fst (look (m_level m)))) 1 ms /\
  filter (starts_with "button ") tags = numbered (fun i m => close_tag i (fst (look (m_level m)))) 1 ms.
Proof.
  intros refs ms K A N. cbv zeta. destruct ms as [|m0 ms0]; [sp; reflexivity|]. set (ms := m0 :: ms0) in *.
  assert (M : markup (reads refs Data (render_oob ms)) = "div id=""flash-messages"" hx-swap-oob=""true""" :: "div class=""space-y-4 w-full""" :: tags_of 1 ms ++ ["/div"; "/div"]).
  { assert (E : render_oob ms = opening ++ inner ++ parts 1 ms ++ "</div></div>") by reflexivity. rewrite E, read_oob, read_parts by auto. rewrite <- markup_frames.
    unfold markup at 1. cbn [flat_map app]. rewrite flat_map_app. reflexivity. }
  rewrite M. clearbody ms. clear -ms. cbn [skipn]. rewrite <- tags_icons with (i := 1), <- tags_boxes, <- tags_buttons.
  sp; cbn [filter]; rewrite filter_app; cbn [filter]; [change (starts_with "i data-lucide=" "div id=""flash-messages"" hx-swap-oob=""true""") with false| |]; cbn -[tags_of]; rewrite app_nil_r; reflexivity.
Qed.
Example C102_banner_look_example :
  let tags := markup (reads some_refs Data (render_oob [MkMsg "Warning" "a < b"; MkMsg "error" "no"; MkMsg "" "hello"])) in
  filter (starts_with "i data-lucide=") tags = [icon_tag "alert-triangle"; icon_tag "x-circle"; icon_tag "info"] /\
  filter (starts_with "div id=""flash-") (skipn 1 tags) = [box_tag 1 "yellow"; box_tag 2 "red"; box_tag 3 "blue"].
Proof. vm_compute. split; reflexivity. Qed.
