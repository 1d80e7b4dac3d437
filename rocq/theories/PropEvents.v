(** C36: events reach exactly the listeners registered for them. *)
From Verif Require Import Prelude Events.
Open Scope Z_scope.

(** *** specification *)
(** a callback called directly by a dispatch, and the event it was given *)
Definition direct (c : call) : nat * event := match c with Call cb ev _ => (cb, ev) end.
(** a listener is interested when its mask shares a bit with the event's code *)
Definition interested (ev : event) (l : nat * mask) : bool :=
  match snd l with Some m => negb (Z.eqb (Z.land (ecode ev) m) 0) | None => false end.
Definition integer_masks (ls : listeners) : Prop := forall l, In l ls -> snd l <> None.

(** Whatever the listeners do when called (add and remove listeners, dispatch further events to any
    depth, raise), a dispatch that returns called exactly the interested listeners registered when it
    began, each once per registration, in order of registration, all with the same event, and it
    does not raise. *)
Theorem C36_delivery :
  forall (identity : string) (react : reaction) (fuel n : nat) (ls : listeners) (ev : event) (r : drun),
    integer_masks ls -> dispatch identity react fuel n ls ev = Some r ->
    outcome r = Ok tt /\ map direct (calls r) = map (fun l => (fst l, stamp identity ev)) (filter (interested ev) ls).
Proof.
  intros identity react [|fuel] n ls ev r M; cbn [dispatch]; [discriminate|].
  set (sev := stamp identity ev). assert (SC : ecode sev = ecode ev) by (unfold sev, stamp; destruct (eident ev) as [[|]|]; auto). 
  match goal with |- ?F ls n ls = Some r -> _ => enough (K : forall snap n ls r, integer_masks snap -> F snap n ls = Some r -> outcome r = Ok tt /\ map direct (calls r) = map (fun l => (fst l, sev)) (filter (interested ev) snap)) by (apply (K ls n ls r M)) end.
  clear M n ls r. induction snap as [|[cb m] snap IH]; intros n ls r M H; cbn [filter map].
  - inversion H. subst. cbn. auto.
  - destruct m as [m|]; [|destruct (M (cb, None)); cbn; auto]. cbn in H. unfold interested at 1. cbn [snd]. rewrite <- SC.
    destruct (Z.eqb (Z.land (ecode sev) m) 0); cbn [negb].
    + apply (IH n ls r); auto. intros l Hl. apply M. right. auto.
    + match type of H with match ?P with _ => _ end = _ => destruct P as [r1|]; [|discriminate] end.
      match type of H with match ?P with _ => _ end = _ => destruct P as [r2|] eqn:E2; [|discriminate] end.
      inversion H. subst r. cbn [outcome calls map direct fst]. apply IH in E2 as [E2 E3]; [|intros l Hl; apply M; right; auto]. split; auto. f_equal; auto.
Qed.
Print Assumptions C36_delivery.

(** it does return, whatever they add, remove or raise, if they do not themselves dispatch *)
Theorem C36_returns :
  forall (identity : string) (react : reaction) (fuel n : nat) (ls : listeners) (ev : event),
    (forall n cb ev', ~ exists e, In (LDispatch e) (fst (react n cb ev'))) ->
    exists r, dispatch identity react (S fuel) n ls ev = Some r.
Proof.
  intros identity react fuel n ls ev R. cbn [dispatch]. generalize ls at 1 as snap. intros snap. revert n ls.
  induction snap as [|[cb [m|]] snap IH]; intros n ls; [eauto| |eauto]. destruct (Z.eqb _ 0); [apply IH|].
  set (ops := fst (react n cb (stamp identity ev))). assert (N : forall e, ~ In (LDispatch e) ops) by (intros e H; apply (R n cb (stamp identity ev)); exists e; exact H).
  match goal with |- exists r, match ?P with _ => _ end = _ => enough (K : exists r1, P = Some r1) end.
  { destruct K as [r1 ->]. match goal with |- exists r, match ?P with _ => _ end = _ => destruct (IH (count r1) (now_listening r1)) as [r2 E2] end. rewrite E2. eauto. }
  clearbody ops. generalize (S n) as n1. revert ls. induction ops as [|o ops IHo]; intros ls n1; [eauto|].
  destruct o as [cb' m'|cb'|e]; [| |destruct (N e); cbn; auto]; apply IHo; intros e H; apply (N e); cbn; auto.
Qed.
Print Assumptions C36_returns.

(** Removing takes away the first registration of that callback and nothing else; with none, it
    answers False and changes nothing.  Adding puts the registration last. *)
Theorem C36_remove_listener :
  forall (cb : nat) (ls : listeners),
    ((forall m, ~ In (cb, m) ls) /\ remove_listener cb ls = (false, ls)) \/
    exists l1 m l2, ls = l1 ++ (cb, m) :: l2 /\ (forall m', ~ In (cb, m') l1) /\ remove_listener cb ls = (true, l1 ++ l2).
Proof.
  intros cb. induction ls as [|[cb' m] ls IH]; cbn; [left; auto|]. destruct (Nat.eqb_spec cb cb') as [<-|N].
  - right. exists [], m, ls. auto.
  - destruct IH as [[A ->]|(l1 & m1 & l2 & -> & A & ->)].
    + left. split; auto. intros m' [[=]|H]; [congruence|]. apply (A m' H).
    + right. exists ((cb', m) :: l1), m1, l2. repeat split; auto. intros m' [[=]|H]; [congruence|]. apply (A m' H).
Qed.
Print Assumptions C36_remove_listener.
Theorem C36_add_listener :
  forall (cb : nat) (m : mask) (ls : listeners) (ev : event),
    filter (interested ev) (add_listener cb m ls) = filter (interested ev) ls ++ (if interested ev (cb, m) then [(cb, m)] else []).
Proof. intros. unfold add_listener. rewrite filter_app. cbn. destruct (interested ev (cb, m)); auto. Qed.
Print Assumptions C36_add_listener.

(** Event kinds do not share bits: a mask made of the codes of some kinds selects those kinds and no
    other, and the default mask selects every kind. *)
Definition mask_of (ks : list kind) : Z := fold_right Z.lor 0 (map code ks).
Lemma code_bit k : exists n, code k = 2 ^ n /\ 0 <= n.
Proof. destruct k; [exists 0|exists 1|exists 2|exists 3|exists 4|exists 5|exists 6|exists 7|exists 8|exists 9|exists 10|exists 11|exists 12|exists 13|exists 14|exists 15|exists 16]; (split; [reflexivity|lia]). Qed.
Lemma code_inj k k' : code k = code k' -> k = k'.
Proof. destruct k, k'; auto; discriminate. Qed.
Theorem C36_masks :
  forall (ks : list kind) (k : kind),
    (Z.land (code k) (mask_of ks) <> 0 <-> In k ks) /\ Z.land (code k) all_events <> 0.
Proof.
  intros ks k. split; [|destruct k; vm_compute; discriminate].
  destruct (code_bit k) as (n & E & N). assert (T : In k ks <-> Z.testbit (mask_of ks) n = true).
  { unfold mask_of. induction ks as [|k' ks IH]; cbn [map fold_right In]; [rewrite Z.bits_0; split; [tauto|discriminate]|]. rewrite Z.lor_spec, orb_true_iff, <- IH. split; intros [H|H]; auto; left.
    - subst. rewrite E, Z.pow2_bits_true; auto.
    - destruct (code_bit k') as (n' & E' & N'). rewrite E' in H. apply code_inj. rewrite E, E'. destruct (Z.eq_dec n' n) as [->|D]; auto. rewrite Z.pow2_bits_false in H; auto. discriminate. }
  rewrite T. split; intros H.
  - destruct (Z.testbit (mask_of ks) n) eqn:B; auto. destruct H. apply Z.bits_inj. intros i. rewrite Z.land_spec, E, Z.bits_0. destruct (Z.eq_dec n i) as [<-|D]; [rewrite B; apply andb_false_r|]. rewrite Z.pow2_bits_false; auto.
  - intros Q. apply (f_equal (fun z => Z.testbit z n)) in Q. rewrite Z.land_spec, E, Z.bits_0, H, Z.pow2_bits_true in Q; auto. discriminate.
Qed.
Print Assumptions C36_masks.

(** Outside that scope: a string mask, which the signature allows, makes every later dispatch raise
    TypeError and the listeners registered after it receive nothing. *)
Theorem C36_string_mask_observation :
  forall (identity : string) (react : reaction) (fuel n : nat) (l1 l2 : listeners) (cb : nat) (ev : event) (r : drun),
    integer_masks l1 -> dispatch identity react fuel n (l1 ++ (cb, None) :: l2) ev = Some r ->
    outcome r = Err TypeError /\ map direct (calls r) = map (fun l => (fst l, stamp identity ev)) (filter (interested ev) l1).
Proof.
  intros identity react [|fuel] n l1 l2 cb ev r M; cbn [dispatch]; [discriminate|].
  set (sev := stamp identity ev). assert (SC : ecode sev = ecode ev) by (unfold sev, stamp; destruct (eident ev) as [[|]|]; auto). 
  match goal with |- ?F ?L n _ = Some r -> _ => enough (K : forall n ls r, integer_masks l1 -> F (l1 ++ (cb, None) :: l2) n ls = Some r -> outcome r = Err TypeError /\ map direct (calls r) = map (fun l => (fst l, sev)) (filter (interested ev) l1)) by (apply (K n L r M)) end.
  clear M n r. induction l1 as [|[cb1 m] l1 IH]; intros n ls r M H; cbn [filter map].
  - cbn in H. inversion H. subst. cbn. auto.
  - destruct m as [m|]; [|destruct (M (cb1, None)); cbn; auto]. cbn in H. unfold interested at 1. cbn [snd]. rewrite <- SC.
    destruct (Z.eqb (Z.land (ecode sev) m) 0); cbn [negb].
    + apply (IH n ls r); auto. intros l Hl. apply M. right. auto.
    + match type of H with match ?P with _ => _ end = _ => destruct P as [r1|]; [|discriminate] end.
      match type of H with match ?P with _ => _ end = _ => destruct P as [r2|] eqn:E2; [|discriminate] end.
      inversion H. subst r. cbn [outcome calls map direct fst]. apply IH in E2 as [E2 E3]; [|intros l Hl; apply M; right; auto]. split; auto. f_equal; auto.
Qed.
Print Assumptions C36_string_mask_observation.

Example C36_case : (* 1 removes 2, adds 3 and raises; 2 is still called; 4 is not interested; 1 (again) dispatches another event, which 3 gets *)
  let react := fun n cb ev => match n with O => ([LRemove 2; LAdd 3 (Some all_events)], true) | 2%nat => ([LDispatch (MkEvent 2 None)], false) | _ => ([], false) end in
  option_map (fun r => (calls r, now_listening r)) (dispatch "s" react 5 0 [(1, Some all_events); (2, Some 1%Z); (4, Some 6%Z); (1, Some 1%Z)]%nat (MkEvent 1 (Some None)))
  = Some ([Call 1 (MkEvent 1 (Some (Some "s"%string))) []; Call 2 (MkEvent 1 (Some (Some "s"%string))) [];
           Call 1 (MkEvent 1 (Some (Some "s"%string))) [Call 1 (MkEvent 2 None) []; Call 4 (MkEvent 2 None) []; Call 3 (MkEvent 2 None) []]],
          [(1, Some all_events); (4, Some 6%Z); (1, Some 1%Z); (3, Some all_events)]%nat).
Proof. reflexivity. Qed.
