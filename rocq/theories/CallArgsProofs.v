From Verif Require Import Prelude CallArgs.

Lemma mem_In k l : mem k l = true <-> In k l.
Proof.
  unfold mem. rewrite existsb_exists. split.
  - intros (x & Hx & E). apply String.eqb_eq in E. subst. exact Hx.
  - intros H. exists k. split; [exact H|]. apply String.eqb_refl.
Qed.
Lemma mem_nIn k l : mem k l = false <-> ~ In k l.
Proof. rewrite <- mem_In. destruct (mem k l); split; congruence. Qed.

Lemma remove1_In k x l : NoDup l -> (In x (remove1 k l) <-> In x l /\ x <> k).
Proof.
  intros ND. induction ND as [|y l Hy ND IH]; cbn; [tauto|].
  destruct (String.eqb_spec k y) as [->|Hk].
  - split; [intros H; split; [auto|intros ->; contradiction]|]. intros [[->|H] Hn]; [congruence|exact H].
  - cbn. rewrite IH. split.
    + intros [->|[H1 H2]]; split; auto.
    + intros [[->|H1] H2]; auto.
Qed.
Lemma remove1_NoDup k l : NoDup l -> NoDup (remove1 k l).
Proof.
  intros ND. induction ND as [|y l Hy ND IH]; cbn; [constructor|].
  destruct (String.eqb_spec k y); [exact ND|]. constructor; [|exact IH].
  rewrite remove1_In by exact ND. tauto.
Qed.

(** the loop as a recursive boolean: no complaint was recorded *)
Fixpoint acc (sig : list param) (a : nat) (kws : list string) (va vk : bool) : bool :=
  match sig with
  | [] => (va || negb (Nat.ltb 0 a)) && (vk || negb (nonempty kws))
  | p :: sig' =>
      let n := p_name p in
      match p_kind p with
      | PosOrKw => if Nat.ltb 0 a then negb (mem n kws) && acc sig' (pred a) kws va vk
                   else if mem n kws then acc sig' a (remove1 n kws) va vk
                   else p_default p && acc sig' a kws va vk
      | PosOnly => if Nat.ltb 0 a then acc sig' (pred a) kws va vk
                   else negb (mem n kws) && p_default p && acc sig' a kws va vk
      | KwOnly => if mem n kws then acc sig' a (remove1 n kws) va vk
                  else p_default p && acc sig' a kws va vk
      | VarPos => acc sig' a kws true vk
      | VarKw => acc sig' a kws va true
      end
  end.

Definition verdict (c : cstate) : result unit :=
  if nonempty (c_conflicts c) then Err ValueError
  else if nonempty (c_posonly c) then Err ValueError
  else if nonempty (c_unsat c) then Err ValueError
  else if nonempty (c_unsatkw c) then Err ValueError
  else if negb (c_varargs c) && Nat.ltb 0 (c_args c) then Err ValueError
  else if negb (c_varkw c) && nonempty (c_kws c) then Err ValueError
  else Ok tt.

Definition bad (c : cstate) : bool :=
  nonempty (c_conflicts c) || nonempty (c_posonly c) || nonempty (c_unsat c) || nonempty (c_unsatkw c).

Lemma nonempty_app {A} (l : list A) x : nonempty (l ++ [x]) = true.
Proof. destruct l; reflexivity. Qed.

Lemma bad_step c p : bad c = true -> bad (cstep c p) = true.
Proof.
  destruct c as [cf po u uk a kws va vk]. unfold bad, cstep; cbn. intros H.
  destruct (p_kind p); cbn; auto;
  repeat match goal with |- context[if ?b then _ else _] => destruct b end; cbn; rewrite ?nonempty_app, ?orb_true_r; auto.
Qed.
Lemma bad_fold sig : forall c, bad c = true -> bad (fold_left cstep sig c) = true.
Proof. induction sig; intros c H; cbn; auto. apply IHsig, bad_step, H. Qed.
Lemma bad_verdict c : bad c = true -> verdict c = Err ValueError.
Proof.
  unfold bad, verdict. destruct (nonempty (c_conflicts c)), (nonempty (c_posonly c)), (nonempty (c_unsat c)), (nonempty (c_unsatkw c)); cbn; congruence.
Qed.

Lemma acc_fold sig : forall a kws va vk,
  verdict (fold_left cstep sig (MkC [] [] [] [] a kws va vk)) = if acc sig a kws va vk then Ok tt else Err ValueError.
Proof.
  induction sig as [|p sig IH]; intros a kws va vk.
  - unfold verdict; cbn [fold_left acc c_conflicts c_posonly c_unsat c_unsatkw c_varargs c_args c_varkw c_kws nonempty].
    destruct va, vk, (Nat.ltb 0 a), (nonempty kws); reflexivity.
  - cbn [fold_left acc]. unfold cstep at 2.
    destruct (p_kind p) eqn:K.
    + destruct (Nat.ltb 0 a) eqn:A; [apply IH|]. destruct (mem (p_name p) kws) eqn:M; cbn [negb andb].
      * apply bad_verdict, bad_fold. reflexivity.
      * destruct (p_default p) eqn:D; cbn [negb andb]; [apply IH|]. apply bad_verdict, bad_fold. reflexivity.
    + destruct (Nat.ltb 0 a) eqn:A; destruct (mem (p_name p) kws) eqn:M; cbn [negb andb]; try apply IH.
      * apply bad_verdict, bad_fold. reflexivity.
      * destruct (p_default p) eqn:D; cbn [negb andb]; [apply IH|]. apply bad_verdict, bad_fold. reflexivity.
    + apply IH.
    + destruct (mem (p_name p) kws) eqn:M; [apply IH|].
      destruct (p_default p) eqn:D; cbn [negb andb]; [apply IH|]. apply bad_verdict, bad_fold. reflexivity.
    + apply IH.
Qed.

(** generalised specification *)
Definition gbinds (sig : list param) (n : nat) (kws : list string) (va vk : bool) : Prop :=
  (n <= List.length (filter positional sig) \/ va = true \/ exists p, In p sig /\ is_kind VarPos p) /\
  (forall k, In k kws ->
     (exists p, p_name p = k /\ ((In p (unfilled sig n) /\ is_kind PosOrKw p) \/ (In p sig /\ is_kind KwOnly p))) \/
     ((vk = true \/ exists p, In p sig /\ is_kind VarKw p) /\
      forall p, In p sig -> p_name p = k -> is_kind PosOnly p \/ is_kind VarPos p \/ is_kind VarKw p)) /\
  (forall p, In p (unfilled sig n) -> p_default p = false -> is_kind PosOrKw p /\ In (p_name p) kws) /\
  (forall p, In p sig -> is_kind KwOnly p -> p_default p = false -> In (p_name p) kws) /\
  (forall p, In p (unfilled sig n) -> is_kind PosOnly p -> ~ In (p_name p) kws).

Lemma unfilled_sub sig n p : In p (unfilled sig n) -> In p sig /\ positional p = true.
Proof.
  unfold unfilled. intros H.
  assert (K : In p (filter positional sig)) by (rewrite <- (firstn_skipn n); apply in_or_app; auto).
  apply filter_In in K. tauto.
Qed.

Lemma unf_np p sig n : positional p = false -> unfilled (p :: sig) n = unfilled sig n.
Proof. unfold unfilled; cbn. intros ->. reflexivity. Qed.
Lemma unf_S p sig n : positional p = true -> unfilled (p :: sig) (S n) = unfilled sig n.
Proof. unfold unfilled; cbn. intros ->. reflexivity. Qed.
Lemma unf_0 p sig : positional p = true -> unfilled (p :: sig) 0 = p :: unfilled sig 0.
Proof. unfold unfilled; cbn. intros ->. reflexivity. Qed.

Lemma name_ne p q (sig : list param) : ~ In (p_name p) (map p_name sig) -> In q sig -> p_name q <> p_name p.
Proof. intros H Hq E. apply H. rewrite <- E. apply in_map, Hq. Qed.

Ltac pos_of K := unfold positional; rewrite K; reflexivity.

Lemma acc_gbinds sig : sig_ok sig -> forall a kws va vk, NoDup kws ->
  (acc sig a kws va vk = true <-> gbinds sig a kws va vk).
Proof.
  unfold sig_ok. induction sig as [|p sig IH]; intros OK a kws va vk ND.
  - cbn [acc]. unfold gbinds, unfilled; cbn [filter]. rewrite skipn_nil. cbn [List.length In].
    rewrite andb_true_iff, !orb_true_iff, !negb_true_iff. split.
    + intros [A B]. split; [|split; [|repeat split; tauto]].
      * destruct A as [A|A]; [auto|]. left. apply Nat.ltb_ge in A. lia.
      * intros k Hk. right. split; [|intros ? []]. left. destruct B as [B|B]; [exact B|]. destruct kws; [destruct Hk|discriminate].
    + intros (A & B & _). split.
      * destruct A as [A|[A|(p & [] & _)]]; [right; apply Nat.ltb_ge; lia|auto].
      * destruct kws as [|k kws]; [auto|]. destruct (B k) as [(p & _ & [[[] _]|[[] _]])|[[C|(p & [] & _)] _]]; [left; reflexivity|auto].
  - cbn in OK. apply NoDup_cons_iff in OK. destruct OK as [Hp OK]. specialize (IH OK).
    cbn [acc]. assert (NE : forall q, In q sig -> p_name q <> p_name p) by (intros q; apply name_ne; exact Hp).
    assert (NEu : forall q m, In q (unfilled sig m) -> p_name q <> p_name p) by (intros q m Hq; apply NE, (unfilled_sub _ _ _ Hq)).
    destruct (p_kind p) eqn:K.
    + (* PosOnly *)
      assert (P : positional p = true) by pos_of K.
      destruct a as [|a]; cbn [Nat.ltb Nat.leb pred].
      * rewrite !andb_true_iff, negb_true_iff, mem_nIn, IH by exact ND.
        unfold gbinds. rewrite !(unf_0 _ _ P). cbn [filter]. rewrite P. cbn [List.length In]. split.
        -- intros [[M D] (A & B & C & E & F)]. split; [|split; [|split; [|split]]].
           ++ left. lia.
           ++ intros k Hk. destruct (B k Hk) as [(q & Hq & Q)|[V W]].
              ** left. exists q. split; [exact Hq|]. destruct Q as [[]|[]]; auto.
              ** right. split; [destruct V as [V|(q & ? & ?)]; [auto|right; exists q; auto]|].
                 intros q [<-|Hq]; [left; exact K|apply W; exact Hq].
           ++ intros q [<-|Hq]; [congruence|apply C; exact Hq].
           ++ intros q [<-|Hq] Kq; [unfold is_kind in Kq; congruence|apply E; auto].
           ++ intros q [<-|Hq] Kq; [exact M|apply F; auto].
        -- intros (A & B & C & E & F).
           assert (M : ~ In (p_name p) kws) by (apply F; [left; reflexivity|exact K]).
           split; [split; [exact M|]|split; [|split; [|split; [|split]]]].
           ++ destruct (p_default p) eqn:D; [reflexivity|]. destruct (C p (or_introl eq_refl) D) as [Q _]. unfold is_kind in Q. congruence.
           ++ left. lia.
           ++ intros k Hk. destruct (B k Hk) as [(q & Hq & Q)|[V W]].
              ** left. exists q. split; [exact Hq|].
                 destruct Q as [[[<-|?] Kq]|[[<-|?] Kq]]; auto; unfold is_kind in Kq; congruence.
              ** right. split; [destruct V as [V|(q & [<-|?] & Kq)]; [auto|unfold is_kind in Kq; congruence|right; exists q; auto]|].
                 intros q Hq. apply W. auto.
           ++ intros q Hq. apply C. auto.
           ++ intros q Hq. apply E. auto.
           ++ intros q Hq. apply F. auto.
      * change (0 <? S a)%nat with true. cbn iota. rewrite IH by exact ND.
        unfold gbinds. rewrite !(unf_S _ _ _ P). cbn [filter]. rewrite P. cbn [List.length In]. split.
        -- intros (A & B & C & E & F). split; [|split; [|split; [|split]]].
           ++ destruct A as [A|[A|(q & ? & ?)]]; [left; lia|auto|right; right; exists q; auto].
           ++ intros k Hk. destruct (B k Hk) as [(q & Hq & Q)|[V W]].
              ** left. exists q. split; [exact Hq|]. destruct Q as [[]|[]]; auto.
              ** right. split; [destruct V as [V|(q & ? & ?)]; [auto|right; exists q; auto]|].
                 intros q [<-|Hq]; [left; exact K|apply W; exact Hq].
           ++ exact C.
           ++ intros q [<-|Hq] Kq; [unfold is_kind in Kq; congruence|apply E; auto].
           ++ exact F.
        -- intros (A & B & C & E & F). split; [|split; [|split; [|split]]].
           ++ destruct A as [A|[A|(q & [<-|?] & Kq)]]; [left; lia|auto|unfold is_kind in Kq; congruence|right; right; exists q; auto].
           ++ intros k Hk. destruct (B k Hk) as [(q & Hq & Q)|[V W]].
              ** left. exists q. split; [exact Hq|]. destruct Q as [[? Kq]|[[<-|?] Kq]]; auto; unfold is_kind in Kq; congruence.
              ** right. split; [destruct V as [V|(q & [<-|?] & Kq)]; [auto|unfold is_kind in Kq; congruence|right; exists q; auto]|].
                 intros q Hq. apply W. auto.
           ++ exact C.
           ++ intros q Hq. apply E. auto.
           ++ exact F.
    + (* PosOrKw *)
      assert (P : positional p = true) by pos_of K.
      destruct a as [|a]; cbn [Nat.ltb Nat.leb pred].
      * change (0 <? 0)%nat with false. cbn iota.
        destruct (mem (p_name p) kws) eqn:M.
        -- apply mem_In in M. rewrite IH by (apply remove1_NoDup, ND).
           unfold gbinds. rewrite !(unf_0 _ _ P). cbn [filter]. rewrite P. cbn [List.length In].
           split; intros (A & B & C & E & F); (split; [left; lia|split; [|split; [|split]]]).
           ++ intros k Hk. destruct (string_dec k (p_name p)) as [->|Hn].
              { left. exists p. split; [reflexivity|]. left. auto. }
              destruct (B k) as [(q & Hq & Q)|[V W]]; [apply remove1_In; auto| |].
              ** left. exists q. split; [exact Hq|]. destruct Q as [[]|[]]; auto.
              ** right. split; [destruct V as [V|(q & ? & ?)]; [auto|right; exists q; auto]|].
                 intros q [<-|Hq]; [congruence|apply W; exact Hq].
           ++ intros q [<-|Hq] D; [split; [exact K|exact M]|]. destruct (C q Hq D) as [? X]. apply remove1_In in X; tauto.
           ++ intros q [<-|Hq] Kq D; [unfold is_kind in Kq; congruence|]. pose proof (E q Hq Kq D) as X. apply remove1_In in X; tauto.
           ++ intros q [<-|Hq] Kq; [unfold is_kind in Kq; congruence|]. pose proof (F q Hq Kq) as X. rewrite remove1_In in X by exact ND.
              pose proof (NEu q 0 Hq). tauto.
           ++ intros k Hk. apply remove1_In in Hk; [|exact ND]. destruct Hk as [Hk Hn]. destruct (B k Hk) as [(q & Hq & Q)|[V W]].
              ** left. exists q. split; [exact Hq|].
                 destruct Q as [[[<-|?] Kq]|[[<-|?] Kq]]; auto; congruence.
              ** right. split; [destruct V as [V|(q & [<-|?] & Kq)]; [auto|unfold is_kind in Kq; congruence|right; exists q; auto]|].
                 intros q Hq. apply W. auto.
           ++ intros q Hq D. destruct (C q (or_intror Hq) D). split; [auto|]. apply remove1_In; [exact ND|]. split; [auto|]. apply (NEu q 0 Hq).
           ++ intros q Hq Kq D. apply remove1_In; [exact ND|]. split; [apply (E q); auto|]. apply NE, Hq.
           ++ intros q Hq Kq X. apply remove1_In in X; [|exact ND]. apply (F q); tauto.
        -- apply mem_nIn in M. rewrite andb_true_iff, IH by exact ND.
           unfold gbinds. rewrite !(unf_0 _ _ P). cbn [filter]. rewrite P. cbn [List.length In]. split.
           ++ intros (D & A & B & C & E & F). split; [left; lia|split; [|split; [|split]]].
              ** intros k Hk. destruct (B k Hk) as [(q & Hq & Q)|[V W]].
                 --- left. exists q. split; [exact Hq|]. destruct Q as [[]|[]]; auto.
                 --- right. split; [destruct V as [V|(q & ? & ?)]; [auto|right; exists q; auto]|].
                     intros q [<-|Hq]; [congruence|apply W; exact Hq].
              ** intros q [<-|Hq]; [congruence|apply C; exact Hq].
              ** intros q [<-|Hq] Kq; [unfold is_kind in Kq; congruence|apply E; auto].
              ** intros q [<-|Hq] Kq; [exact M|apply F; auto].
           ++ intros (A & B & C & E & F). split.
              { destruct (p_default p) eqn:D; [reflexivity|]. destruct (C p (or_introl eq_refl) D). contradiction. }
              split; [left; lia|split; [|split; [|split]]].
              ** intros k Hk. destruct (B k Hk) as [(q & Hq & Q)|[V W]].
                 --- left. exists q. split; [exact Hq|].
                     destruct Q as [[[<-|?] Kq]|[[<-|?] Kq]]; auto; congruence.
                 --- right. split; [destruct V as [V|(q & [<-|?] & Kq)]; [auto|unfold is_kind in Kq; congruence|right; exists q; auto]|].
                     intros q Hq. apply W. auto.
              ** intros q Hq. apply C. auto.
              ** intros q Hq. apply E. auto.
              ** intros q Hq. apply F. auto.
      * change (0 <? S a)%nat with true. cbn iota. rewrite andb_true_iff, negb_true_iff, mem_nIn, IH by exact ND.
        unfold gbinds. rewrite !(unf_S _ _ _ P). cbn [filter]. rewrite P. cbn [List.length In]. split.
        -- intros (M & A & B & C & E & F). split; [|split; [|split; [|split]]].
           ++ destruct A as [A|[A|(q & ? & ?)]]; [left; lia|auto|right; right; exists q; auto].
           ++ intros k Hk. destruct (B k Hk) as [(q & Hq & Q)|[V W]].
              ** left. exists q. split; [exact Hq|]. destruct Q as [[]|[]]; auto.
              ** right. split; [destruct V as [V|(q & ? & ?)]; [auto|right; exists q; auto]|].
                 intros q [<-|Hq]; [congruence|apply W; exact Hq].
           ++ exact C.
           ++ intros q [<-|Hq] Kq; [unfold is_kind in Kq; congruence|apply E; auto].
           ++ exact F.
        -- intros (A & B & C & E & F).
           assert (M : ~ In (p_name p) kws).
           { intros M. destruct (B _ M) as [(q & Hq & [[X Kq]|[[<-|X] Kq]])|[V W]].
             - apply (NEu q a X Hq).
             - unfold is_kind in Kq; congruence.
             - apply (NE q X Hq).
             - destruct (W p) as [X|[X|X]]; auto; unfold is_kind in X; congruence. }
           split; [exact M|]. split; [|split; [|split; [|split]]].
           ++ destruct A as [A|[A|(q & [<-|?] & Kq)]]; [left; lia|auto|unfold is_kind in Kq; congruence|right; right; exists q; auto].
           ++ intros k Hk. destruct (B k Hk) as [(q & Hq & Q)|[V W]].
              ** left. exists q. split; [exact Hq|]. destruct Q as [[? Kq]|[[<-|?] Kq]]; auto; congruence.
              ** right. split; [destruct V as [V|(q & [<-|?] & Kq)]; [auto|unfold is_kind in Kq; congruence|right; exists q; auto]|].
                 intros q Hq. apply W. auto.
           ++ exact C.
           ++ intros q Hq. apply E. auto.
           ++ exact F.
    + (* VarPos *)
      assert (P : positional p = false) by pos_of K.
      rewrite IH by exact ND. unfold gbinds. rewrite !(unf_np _ _ _ P). cbn [filter]. rewrite P. cbn [In]. split.
      * intros (A & B & C & E & F). split; [right; right; exists p; split; auto|]. split; [|split; [exact C|split; [|exact F]]].
        -- intros k Hk. destruct (B k Hk) as [(q & Hq & Q)|[V W]].
           ++ left. exists q. split; [exact Hq|]. destruct Q as [[]|[]]; auto.
           ++ right. split; [destruct V as [V|(q & ? & ?)]; [auto|right; exists q; auto]|].
              intros q [<-|Hq]; [right; left; exact K|apply W; exact Hq].
        -- intros q [<-|Hq] Kq; [unfold is_kind in Kq; congruence|apply E; auto].
      * intros (A & B & C & E & F). split; [auto|]. split; [|split; [exact C|split; [|exact F]]].
        -- intros k Hk. destruct (B k Hk) as [(q & Hq & Q)|[V W]].
           ++ left. exists q. split; [exact Hq|]. destruct Q as [[? Kq]|[[<-|?] Kq]]; auto; unfold is_kind in Kq; congruence.
           ++ right. split; [destruct V as [V|(q & [<-|?] & Kq)]; [auto|unfold is_kind in Kq; congruence|right; exists q; auto]|].
              intros q Hq. apply W. auto.
        -- intros q Hq. apply E. auto.
    + (* KwOnly *)
      assert (P : positional p = false) by pos_of K.
      destruct (mem (p_name p) kws) eqn:M.
      * apply mem_In in M. rewrite IH by (apply remove1_NoDup, ND).
        unfold gbinds. rewrite !(unf_np _ _ _ P). cbn [filter]. rewrite P. cbn [In]. split; intros (A & B & C & E & F).
        -- split; [destruct A as [A|[A|(q & ? & ?)]]; [auto|auto|right; right; exists q; auto]|]. split; [|split; [|split]].
           ++ intros k Hk. destruct (string_dec k (p_name p)) as [->|Hn].
              { left. exists p. split; [reflexivity|]. right. auto. }
              destruct (B k) as [(q & Hq & Q)|[V W]]; [apply remove1_In; auto| |].
              ** left. exists q. split; [exact Hq|]. destruct Q as [[]|[]]; auto.
              ** right. split; [destruct V as [V|(q & ? & ?)]; [auto|right; exists q; auto]|].
                 intros q [<-|Hq]; [congruence|apply W; exact Hq].
           ++ intros q Hq D. destruct (C q Hq D) as [? X]. apply remove1_In in X; tauto.
           ++ intros q [<-|Hq] Kq D; [exact M|]. pose proof (E q Hq Kq D) as X. apply remove1_In in X; tauto.
           ++ intros q Hq Kq X. apply (F q Hq Kq). apply remove1_In; [exact ND|]. split; [exact X|apply (NEu q a Hq)].
        -- split; [destruct A as [A|[A|(q & [<-|?] & Kq)]]; [auto|auto|unfold is_kind in Kq; congruence|right; right; exists q; auto]|]. split; [|split; [|split]].
           ++ intros k Hk. apply remove1_In in Hk; [|exact ND]. destruct Hk as [Hk Hn]. destruct (B k Hk) as [(q & Hq & Q)|[V W]].
              ** left. exists q. split; [exact Hq|]. destruct Q as [[? Kq]|[[<-|?] Kq]]; auto; congruence.
              ** right. split; [destruct V as [V|(q & [<-|?] & Kq)]; [auto|unfold is_kind in Kq; congruence|right; exists q; auto]|].
                 intros q Hq. apply W. auto.
           ++ intros q Hq D. destruct (C q Hq D). split; [auto|]. apply remove1_In; [exact ND|]. split; [auto|]. apply (NEu q a Hq).
           ++ intros q Hq Kq D. apply remove1_In; [exact ND|]. split; [apply (E q); auto|]. apply NE, Hq.
           ++ intros q Hq Kq X. apply remove1_In in X; [|exact ND]. apply (F q); tauto.
      * apply mem_nIn in M. rewrite andb_true_iff, IH by exact ND.
        unfold gbinds. rewrite !(unf_np _ _ _ P). cbn [filter]. rewrite P. cbn [In]. split.
        -- intros (D & A & B & C & E & F).
           split; [destruct A as [A|[A|(q & ? & ?)]]; [auto|auto|right; right; exists q; auto]|]. split; [|split; [exact C|split; [|exact F]]].
           ++ intros k Hk. destruct (B k Hk) as [(q & Hq & Q)|[V W]].
              ** left. exists q. split; [exact Hq|]. destruct Q as [[]|[]]; auto.
              ** right. split; [destruct V as [V|(q & ? & ?)]; [auto|right; exists q; auto]|].
                 intros q [<-|Hq]; [congruence|apply W; exact Hq].
           ++ intros q [<-|Hq] Kq; [congruence|apply E; auto].
        -- intros (A & B & C & E & F). split.
           { destruct (p_default p) eqn:D; [reflexivity|]. exfalso. apply M, (E p); auto. }
           split; [destruct A as [A|[A|(q & [<-|?] & Kq)]]; [auto|auto|unfold is_kind in Kq; congruence|right; right; exists q; auto]|]. split; [|split; [exact C|split; [|exact F]]].
           ++ intros k Hk. destruct (B k Hk) as [(q & Hq & Q)|[V W]].
              ** left. exists q. split; [exact Hq|]. destruct Q as [[? Kq]|[[<-|?] Kq]]; auto; congruence.
              ** right. split; [destruct V as [V|(q & [<-|?] & Kq)]; [auto|unfold is_kind in Kq; congruence|right; exists q; auto]|].
                 intros q Hq. apply W. auto.
           ++ intros q Hq. apply E. auto.
    + (* VarKw *)
      assert (P : positional p = false) by pos_of K.
      rewrite IH by exact ND. unfold gbinds. rewrite !(unf_np _ _ _ P). cbn [filter]. rewrite P. cbn [In]. split.
      * intros (A & B & C & E & F).
        split; [destruct A as [A|[A|(q & ? & ?)]]; [auto|auto|right; right; exists q; auto]|]. split; [|split; [exact C|split; [|exact F]]].
        -- intros k Hk. destruct (B k Hk) as [(q & Hq & Q)|[V W]].
           ++ left. exists q. split; [exact Hq|]. destruct Q as [[]|[]]; auto.
           ++ right. split; [right; exists p; auto|].
              intros q [<-|Hq]; [right; right; exact K|apply W; exact Hq].
        -- intros q [<-|Hq] Kq; [unfold is_kind in Kq; congruence|apply E; auto].
      * intros (A & B & C & E & F).
        split; [destruct A as [A|[A|(q & [<-|?] & Kq)]]; [auto|auto|unfold is_kind in Kq; congruence|right; right; exists q; auto]|]. split; [|split; [exact C|split; [|exact F]]].
        -- intros k Hk. destruct (B k Hk) as [(q & Hq & Q)|[V W]].
           ++ left. exists q. split; [exact Hq|]. destruct Q as [[? Kq]|[[<-|?] Kq]]; auto; unfold is_kind in Kq; congruence.
           ++ right. split; [auto|]. intros q Hq. apply W. auto.
        -- intros q Hq. apply E. auto.
Qed.

Lemma check_acc sig n kws : check_callable_args sig n kws = if acc sig n kws false false then Ok tt else Err ValueError.
Proof. apply acc_fold. Qed.

Lemma check_sound sig n kws : sig_ok sig -> NoDup kws -> check_callable_args sig n kws = Ok tt -> binds sig n kws.
Proof.
  intros S ND H. rewrite check_acc in H. destruct (acc sig n kws false false) eqn:A; [|discriminate].
  apply acc_gbinds in A; auto. destruct A as (A & B & C & D & F). split; [|split; [|split; auto]].
  - destruct A as [A|[A|A]]; [auto|discriminate|auto].
  - intros k Hk. destruct (B k Hk) as [X|[[V|V] W]]; [auto|discriminate|auto].
Qed.

Lemma check_complete sig n kws : sig_ok sig -> NoDup kws ->
  (forall p, In p (unfilled sig n) -> is_kind PosOnly p -> ~ In (p_name p) kws) ->
  binds sig n kws -> check_callable_args sig n kws = Ok tt.
Proof.
  intros S ND F (A & B & C & D). rewrite check_acc.
  replace (acc sig n kws false false) with true; [reflexivity|]. symmetry. apply acc_gbinds; auto.
  split; [|split; [|split; [|split]]]; auto.
  - destruct A; auto.
  - intros k Hk. destruct (B k Hk) as [X|[V W]]; auto.
Qed.

Lemma check_total sig n kws : check_callable_args sig n kws = Ok tt \/ check_callable_args sig n kws = Err ValueError.
Proof. rewrite check_acc. destruct (acc _ _ _ _ _); auto. Qed.

Lemma inj_names (sig : list param) : NoDup (map p_name sig) -> forall p q, In p sig -> In q sig -> p_name p = p_name q -> p = q.
Proof.
  induction sig as [|x l IH]; intros ND p q Hp Hq E; [destruct Hp|].
  cbn in ND. apply NoDup_cons_iff in ND. destruct ND as [Hx ND].
  destruct Hp as [->|Hp], Hq as [->|Hq]; auto.
  - exfalso. apply Hx. rewrite E. apply in_map, Hq.
  - exfalso. apply Hx. rewrite <- E. apply in_map, Hp.
Qed.

Lemma check_posonly sig n kws : sig_ok sig -> NoDup kws -> check_callable_args sig n kws = Ok tt ->
  forall p, In p (unfilled sig n) -> is_kind PosOnly p -> ~ In (p_name p) kws.
Proof.
  intros S ND H. rewrite check_acc in H. destruct (acc sig n kws false false) eqn:A; [|discriminate].
  apply acc_gbinds in A; auto. destruct A as (_ & _ & _ & _ & F). exact F.
Qed.

Lemma check_exact sig n kws : sig_ok sig -> NoDup kws ->
  (check_callable_args sig n kws = Ok tt <->
   binds sig n kws /\ forall p, In p (unfilled sig n) -> is_kind PosOnly p -> ~ In (p_name p) kws).
Proof.
  intros S ND. split.
  - intros H. split; [exact (check_sound _ _ _ S ND H)|exact (check_posonly _ _ _ S ND H)].
  - intros [B F]. exact (check_complete _ _ _ S ND F B).
Qed.

Lemma check_refused sig n kws e : sig_ok sig -> NoDup kws -> check_callable_args sig n kws = Err e ->
  e = ValueError /\
  (~ binds sig n kws \/
   exists p q, In p (unfilled sig n) /\ is_kind PosOnly p /\ p_default p = true /\ In (p_name p) kws /\ In q sig /\ is_kind VarKw q).
Proof.
  intros S ND H. split; [destruct (check_total sig n kws) as [X|X]; congruence|].
  destruct (existsb (fun p => match p_kind p with PosOnly => mem (p_name p) kws | _ => false end) (unfilled sig n)) eqn:X.
  - apply existsb_exists in X. destruct X as (p & Hp & X). destruct (p_kind p) eqn:K; try discriminate. apply mem_In in X.
    destruct (existsb (fun q => match p_kind q with VarKw => true | _ => false end) sig) eqn:V.
    + apply existsb_exists in V. destruct V as (q & Hq & V). destruct (p_kind q) eqn:Kq; try discriminate.
      destruct (p_default p) eqn:D.
      * right. exists p, q. unfold is_kind. auto 10.
      * left. intros (_ & _ & C & _). destruct (C p Hp D) as [Kp _]. unfold is_kind in Kp. congruence.
    + left. intros (_ & B & _). destruct (B _ X) as [(q & E & [[Hq Kq]|[Hq Kq]])|[(q & Hq & Kq) _]].
      * assert (q = p). { apply (inj_names sig); auto; [apply (unfilled_sub _ _ _ Hq)|apply (unfilled_sub _ _ _ Hp)]. }
        subst q. unfold is_kind in Kq. congruence.
      * assert (q = p). { apply (inj_names sig); auto. apply (unfilled_sub _ _ _ Hp). }
        subst q. unfold is_kind in Kq. congruence.
      * assert (Y : existsb (fun q => match p_kind q with VarKw => true | _ => false end) sig = true).
        { apply existsb_exists. exists q. split; [exact Hq|]. unfold is_kind in Kq. rewrite Kq. reflexivity. }
        congruence.
  - left. intros B. rewrite (check_complete sig n kws) in H; auto; [discriminate|].
    intros p Hp K Hk. assert (Y : existsb (fun p => match p_kind p with PosOnly => mem (p_name p) kws | _ => false end) (unfilled sig n) = true).
    { apply existsb_exists. exists p. split; [exact Hp|]. unfold is_kind in K. rewrite K. apply mem_In, Hk. }
    congruence.
Qed.
