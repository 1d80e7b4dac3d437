(** C53, C54: what a combination answers after a fire, exactly - and when it never answers. *)
From Verif Require Import Prelude FloatDiv FloatDivProofs Calendar Cron CronSpec CronTop Triggers TriggerSpec TriggersProofs TriggersProofs2 TriggersMore TriggersErr PropTriggers.
Open Scope Z_scope.

(** ** Specification *)

(** the least of the given times, None if there is none *)
Definition least (rs : list (option Z)) (r : option Z) : Prop :=
  match r with
  | Some t => In (Some t) rs /\ forall u, In (Some u) rs -> t <= u
  | None => forall a, In a rs -> a = None
  end.
(** [follows p tr r]: having fired at [p], the trigger goes on with [r].  A date is over; an interval counts
    from [p], wherever the fire came from; a cron trigger looks for its first matching second after [p]
    (start_at plays no part any more); an "or" takes the earliest answer of its parts; an "and" needs all
    parts to give the same time, or one to be over, the ones before it having a time. *)
Inductive follows (p : Z) : trigger -> option Z -> Prop :=
| fo_date d : follows p (TDate d) None
| fo_shutdown : follows p TShutdown None
| fo_interval iv s e j : not_after (p + iv) e -> follows p (TInterval iv s e j) (Some (p + iv))
| fo_interval_over iv s e j : ~ not_after (p + iv) e -> follows p (TInterval iv s e j) None
| fo_cron tb off s e j t : first_from (fun u => matches_at tb off u /\ not_after u e) (p + 1) t -> follows p (TCron tb off s e j) (Some t)
| fo_cron_over tb off s e j : none_from (fun u => matches_at tb off u /\ not_after u e) (p + 1) -> follows p (TCron tb off s e j) None
| fo_or l j rs r : Forall2 (follows p) l rs -> least rs r -> follows p (TOr l j) r
| fo_and l j t : l <> [] -> Forall (fun x => follows p x (Some t)) l -> follows p (TAnd l j) (Some t)
| fo_and_over l1 ts x l2 j : Forall2 (fun y t => follows p y (Some t)) l1 ts -> follows p x None -> follows p (TAnd (l1 ++ x :: l2) j) None.

(** no "and" without parts *)
Fixpoint parts_ok (tr : trigger) : Prop :=
  match tr with
  | TAnd l _ => l <> [] /\ (fix all l := match l with [] => True | x :: l' => parts_ok x /\ all l' end) l
  | TOr l _ => (fix all l := match l with [] => True | x :: l' => parts_ok x /\ all l' end) l
  | _ => True
  end.
(** the second after [p] is within the years 1 to 9999 on the clocks of all cron parts, not the last one *)
Fixpoint in_calendar (p : Z) (tr : trigger) : Prop :=
  match tr with
  | TCron _ off _ _ _ => min_secs <= ceil_secs (p + 1 + off * us) < max_secs
  | TAnd l _ | TOr l _ => (fix all l := match l with [] => True | x :: l' => in_calendar p x /\ all l' end) l
  | _ => True
  end.
Definition plain (p : Z) (tr : trigger) : Prop := forward tr /\ jitter_free tr /\ parts_ok tr /\ in_calendar p tr.

(** ** Proofs *)
Lemma plain_and p l j : plain p (TAnd l j) -> j = None /\ l <> [] /\ Forall (plain p) l.
Proof.
  intros ([_ A] & [-> B] & [C D] & E). cbn in *. apply all_Forall in A, B, D, E. split; [reflexivity|]. split; [exact C|].
  rewrite Forall_forall in *. intros x Hx. repeat split; auto.
Qed.
Lemma plain_or p l j : plain p (TOr l j) -> j = None /\ Forall (plain p) l.
Proof.
  intros ([_ A] & [-> B] & D & E). cbn in *. apply all_Forall in A, B, D, E. split; [reflexivity|].
  rewrite Forall_forall in *. intros x Hx. repeat split; auto.
Qed.

Definition still : oracle := fun _ _ => 0.
Lemma fair_still : fair still.
Proof. intros q j H. unfold still, us. lia. Qed.

(** the answer after [p] depends neither on the clock nor on the draws *)
Definition ans (f : nat) (p : Z) (x : trigger) : result (option Z) := get_next f x (Some p) still p.
Lemma ans_any f p x o now : plain p x -> p <= now -> get_next f x (Some p) o now = ans f p x.
Proof.
  intros (_ & J & _) H. unfold ans. rewrite (get_next_now_irrelevant f x p now p H ltac:(lia)). apply get_next_oracle, J.
Qed.
Lemma ans_later f p x t : plain p x -> ans f p x = Ok (Some t) -> p < t.
Proof. intros (F & _) H. apply (get_next_progress f x p F still p t fair_still ltac:(lia) H). Qed.

Fixpoint all_of (rs : list (result (option Z))) : result (option (list Z)) :=
  match rs with
  | [] => Ok (Some [])
  | r :: rs' => match r with Err e => Err e | Ok None => Ok None | Ok (Some t) => match all_of rs' with Ok (Some l) => Ok (Some (t :: l)) | r => r end end
  end.
Fixpoint some_of (rs : list (result (option Z))) : result (list Z) :=
  match rs with
  | [] => Ok []
  | r :: rs' => match r with Err e => Err e | Ok a => match some_of rs' with Err e => Err e | Ok l => Ok (match a with Some t => t :: l | None => l end) end end
  end.
Lemma ask_all_of f p l : Forall (plain p) l -> forall i o now, p <= now -> ask_all i (map (fun t => get_next f t (Some p)) l) o now = all_of (map (ans f p) l).
Proof.
  intros P. induction P as [|x l Px P IH]; intros i o now H; cbn [map ask_all all_of]; [reflexivity|].
  rewrite (ans_any f p x _ now Px H). destruct (ans f p x) as [[t|]|]; try reflexivity. rewrite IH by exact H. reflexivity.
Qed.
Lemma ask_some_of f p l : Forall (plain p) l -> forall i o now, p <= now -> ask_some i (map (fun t => get_next f t (Some p)) l) o now = some_of (map (ans f p) l).
Proof.
  intros P. induction P as [|x l Px P IH]; intros i o now H; cbn [map ask_some some_of]; [reflexivity|].
  rewrite (ans_any f p x _ now Px H). destruct (ans f p x) as [a|]; try reflexivity. rewrite IH by exact H. reflexivity.
Qed.

Lemma all_of_each l : forall ts, all_of l = Ok (Some ts) <-> l = map (fun t => Ok (Some t)) ts.
Proof.
  induction l as [|r l IH]; intros ts; cbn [all_of].
  - split; [intros [= <-]; reflexivity|]. destruct ts; [reflexivity|discriminate].
  - destruct r as [[t|]|e].
    + destruct (all_of l) as [[l0|]|e].
      * split.
        -- intros [= <-]. cbn [map]. f_equal. apply IH. reflexivity.
        -- destruct ts as [|u ts]; [discriminate|]. cbn [map]. intros [= -> E]. apply IH in E. congruence.
      * split; [discriminate|]. destruct ts as [|u ts]; [discriminate|]. cbn [map]. intros [= -> E]. apply IH in E. discriminate.
      * split; [discriminate|]. destruct ts as [|u ts]; [discriminate|]. cbn [map]. intros [= -> E]. apply IH in E. discriminate.
    + split; [discriminate|]. destruct ts; discriminate.
    + split; [discriminate|]. destruct ts; discriminate.
Qed.
Lemma all_of_none l : all_of l = Ok None <-> exists ts l2, l = map (fun t => Ok (Some t)) ts ++ Ok None :: l2.
Proof.
  induction l as [|r l IH]; cbn [all_of].
  - split; [discriminate|]. intros ([|? ?] & ? & E); discriminate.
  - destruct r as [[t|]|e].
    + transitivity (all_of l = Ok None); [destruct (all_of l) as [[l0|]|e]; split; congruence|]. rewrite IH. split.
      * intros (ts & l2 & ->). exists (t :: ts), l2. reflexivity.
      * intros ([|u ts] & l2 & E); [discriminate|]. injection E as -> ->. eauto.
    + split; [|auto]. intros _. exists [], l. reflexivity.
    + split; [discriminate|]. intros ([|? ?] & ? & E); discriminate.
Qed.
Lemma some_of_each l : forall ts, some_of l = Ok ts <-> exists rs, l = map Ok rs /\ ts = flat_map (fun r => match r with Some t => [t] | None => [] end) rs.
Proof.
  induction l as [|r l IH]; intros ts; cbn [some_of].
  - split; [intros [= <-]; exists []; auto|]. intros ([|? ?] & E & ->); [reflexivity|discriminate].
  - destruct r as [a|e].
    + destruct (some_of l) as [l0|e].
      * split.
        -- intros [= <-]. destruct (proj1 (IH l0) eq_refl) as (rs & -> & ->). exists (a :: rs). destruct a; auto.
        -- intros ([|b rs] & E & ->); [discriminate|]. cbn [map] in E. injection E as -> E. assert (H : Ok l0 = Ok (flat_map (fun r => match r with Some t => [t] | None => [] end) rs)) by (apply IH; eauto).
           injection H as ->. destruct b; reflexivity.
      * split; [discriminate|]. intros ([|b rs] & E & ->); [discriminate|]. cbn [map] in E. injection E as -> E.
        assert (H : @Err (list Z) e = Ok (flat_map (fun r => match r with Some t => [t] | None => [] end) rs)) by (apply IH; eauto). discriminate.
    + split; [discriminate|]. intros ([|b rs] & E & _); discriminate.
Qed.

(** the loop of an "and": it answers in the first round or never *)
Lemma and_once f p l o : Forall (plain p) l -> forall n k now, p <= now ->
  and_loop n k (map (fun t => get_next f t (Some p)) l) None o now =
  match n with O => Err OutOfFuel | S _ =>
    match all_of (map (ans f p) l) with
    | Err e => Err e | Ok None => Ok None | Ok (Some []) => Err ValueError
    | Ok (Some (t :: ts)) => if zmin t ts =? zmax t ts then Ok (Some t) else Err OutOfFuel
    end
  end.
Proof.
  intros P. induction n as [|n IH]; intros k now H; cbn [and_loop]; [reflexivity|].
  rewrite (ask_all_of f p l P) by exact H. destruct (all_of (map (ans f p) l)) as [[[|t ts]|]|e] eqn:A; try reflexivity.
  destruct (zmin t ts =? zmax t ts) eqn:M; [cbn [apply_jitter draw]; rewrite Z.add_0_r; reflexivity|].
  rewrite IH; [destruct n; [reflexivity|]; rewrite ?A, ?M; reflexivity|].
  assert (L : In (zmax t ts) (t :: ts)) by apply zmax_In. apply all_of_each in A.
  assert (X : In (Ok (Some (zmax t ts))) (map (ans f p) l)) by (rewrite A; apply (in_map (fun t => Ok (Some t))); exact L).
  apply in_map_iff in X. destruct X as (x & X & Hx). rewrite Forall_forall in P. pose proof (ans_later f p x _ (P x Hx) X). lia.
Qed.

Lemma cron_answer p tb off s e now : tab_ok tb = true -> min_secs <= ceil_secs (p + 1 + off * us) < max_secs -> p <= now ->
  exists r, cron_next tb off s e 0 (Some p) now = Ok r /\
  match r with Some t => first_from (fun u => matches_at tb off u /\ not_after u e) (p + 1) t | None => none_from (fun u => matches_at tb off u /\ not_after u e) (p + 1) end.
Proof.
  intros Ht C H. pose proof (cron_next_spec tb off s e (Some p) now _ Ht eq_refl) as Hn. cbn zeta in Hn.
  assert (Est : cron_start s (Some p) now = p + 1) by (unfold cron_start; destruct (Z.eqb_spec (Z.min now (p + 1)) p); lia).
  rewrite Est in Hn. destruct (cron_next tb off s e 0 (Some p) now) as [[t|]|x].
  - exists (Some t). split; [reflexivity|]. destruct Hn as (_ & Hm & Hge & He & Hl). split; [split; [exact Hm|exact He]|]. split; [exact Hge|]. intros u [Hu _] Hp. apply Hl; auto.
  - exists None. split; [reflexivity|]. destruct Hn as [_ Hno]. intros u [Hu Hue] Hp. destruct (Hno u Hu Hp) as (y & Ey & Hy). specialize (Hue y Ey). lia.
  - exfalso. destruct Hn as [Hn|[Hn _]]; [apply Hn; unfold representable; lia|lia].
Qed.
Lemma first_unique F a t u : first_from F a t -> first_from F a u -> t = u.
Proof. intros (A & B & C) (D & E & G). specialize (C u D E). specialize (G t A B). lia. Qed.
Lemma first_none F a t : first_from F a t -> none_from F a -> False.
Proof. intros (A & B & _) N. exact (N t A B). Qed.

Lemma least_min rs r : least rs r <->
  r = match flat_map (fun r => match r with Some t => [t] | None => [] end) rs with [] => None | t :: ts => Some (zmin t ts) end.
Proof.
  assert (I : forall t, In (Some t) rs <-> In t (flat_map (fun r => match r with Some t => [t] | None => [] end) rs)).
  { intros t. rewrite in_flat_map. split.
    - intros H. exists (Some t). split; [exact H|left; reflexivity].
    - intros ([u|] & H & K); [|destruct K]. destruct K as [K|K]; [subst u; exact H|destruct K]. }
  set (fl := flat_map _ rs) in *. destruct fl as [|t ts].
  - split.
    + destruct r as [u|]; [|auto]. intros [H _]. apply I in H. destruct H.
    + intros ->. intros [u|] H; [apply I in H; destruct H|reflexivity].
  - split.
    + destruct r as [u|].
      * intros [H M]. f_equal. symmetry. apply zmin_char; [apply I, H|]. intros y Hy. apply M, I, Hy.
      * intros H. specialize (H (Some t) (proj2 (I t) (or_introl eq_refl))). discriminate.
    + intros ->. split; [apply I, zmin_In|]. intros u Hu. apply I in Hu. destruct (zmin_le t ts) as [A B]. destruct Hu as [<-|Hu]; auto.
Qed.

Lemma answers_exactly : forall tr p f, plain p tr -> forall r, ans (S f) p tr = Ok r <-> follows p tr r.
Proof.
  induction tr as [d|iv s e j|tb off s e j|l j IH|l j IH|] using trigger_ind'; intros p f P r; unfold ans; cbn [get_next].
  - cbn. split; [intros [= <-]; constructor|intros F; inversion F; reflexivity].
  - destruct P as (_ & J & _). cbn in J. subst j. destruct (interval_next_fire iv s e still p p 0) as [A B]. cbn [get_next] in A, B. split.
    + intros H. destruct (Z_le_dec (p + iv) (match e with Some x => x | None => p + iv end)) as [L|L].
      * assert (N : not_after (p + iv) e) by (intros x ->; exact L). rewrite (A N) in H. injection H as <-. constructor. exact N.
      * assert (N : ~ not_after (p + iv) e) by (intros X; destruct e as [x|]; [specialize (X x eq_refl)|]; lia). rewrite (B N) in H. injection H as <-. apply fo_interval_over. exact N.
    + intros F. inversion F; subst; auto.
  - destruct P as ([Ht _] & J & _ & C). cbn in J, C. subst j. cbn [draw]. destruct (cron_answer p tb off s e p Ht C ltac:(lia)) as (r0 & -> & R). split.
    + intros [= <-]. destruct r0; constructor; exact R.
    + intros F. f_equal. inversion F as [| | | |tb' off' s' e' j' t H|tb' off' s' e' j' H| | |]; subst; destruct r0 as [t0|]; auto.
      * f_equal. apply (first_unique _ _ _ _ R H).
      * destruct (first_none _ _ _ H R).
      * destruct (first_none _ _ _ R H).
  - destruct (plain_and _ _ _ P) as (-> & NE & PL). rewrite (and_once (S f) p l still PL (S f) 0 p ltac:(lia)).
    assert (EQ : forall x, In x l -> forall r, ans (S f) p x = Ok r <-> follows p x r).
    { intros x Hx. rewrite Forall_forall in IH, PL. apply IH; auto. }
    split.
    + destruct (all_of (map (ans (S f) p) l)) as [[[|t ts]|]|x] eqn:A; try discriminate.
      * destruct (Z.eqb_spec (zmin t ts) (zmax t ts)) as [M|M]; [|discriminate]. intros [= <-]. apply fo_and; [exact NE|]. apply Forall_forall. intros x Hx. apply EQ; [exact Hx|].
        apply all_of_each in A. assert (X : In (ans (S f) p x) (map (ans (S f) p) l)) by (apply in_map; exact Hx). rewrite A in X. apply in_map_iff in X. destruct X as (u & <- & Hu).
        destruct Hu as [->|Hu]; [reflexivity|]. rewrite (zmin_zmax_eq _ _ M u Hu). reflexivity.
      * intros [= <-]. apply all_of_none in A. destruct A as (ts & l2 & A).
        assert (D : exists l1 x l3, l = l1 ++ x :: l3 /\ map (ans (S f) p) l1 = map (fun t => Ok (Some t)) ts /\ ans (S f) p x = Ok None).
        { clear - A. revert l A. induction ts as [|t ts IHt]; intros [|y l] A; try discriminate; cbn [map app] in A.
          - injection A as A1 A2. exists [], y, l. auto.
          - injection A as A1 A2. destruct (IHt l A2) as (l1 & x & l3 & -> & B & C). exists (y :: l1), x, l3. cbn. rewrite A1, B. auto. }
        destruct D as (l1 & x & l3 & -> & B & C). apply (fo_and_over p l1 ts).
        -- clear - B EQ. assert (EQ1 : forall x, In x l1 -> forall r, ans (S f) p x = Ok r <-> follows p x r) by (intros y Hy; apply EQ, in_or_app; auto).
           clear EQ. revert ts B. induction l1 as [|y l1 IHl]; intros [|t ts] B; try discriminate; constructor.
           ++ cbn in B. injection B as B _. apply EQ1; [left; reflexivity|exact B].
           ++ cbn in B. injection B as _ B. apply IHl; [|exact B]. intros z Hz. apply EQ1. right. exact Hz.
        -- apply EQ; [apply in_or_app; right; left; reflexivity|exact C].
    + intros F. inversion F as [| | | | | | |l' j' t NE' FA|l1 ts x l2 j' F1 F2]; subst.
      * assert (A : all_of (map (ans (S f) p) l) = Ok (Some (map (fun _ => t) l))).
        { apply all_of_each. rewrite map_map. apply map_ext_in. intros x Hx. apply EQ; [exact Hx|]. rewrite Forall_forall in FA. auto. }
        rewrite A. destruct l as [|x l]; [contradiction|]. cbn [map].
        assert (Z : forall u, In u (t :: map (fun _ => t) l) -> u = t) by (intros u [->|Hu]; [reflexivity|]; apply in_map_iff in Hu; destruct Hu as (? & <- & _); reflexivity).
        rewrite (Z (zmin t (map (fun _ => t) l)) (zmin_In _ _)), (Z (zmax t (map (fun _ => t) l)) (zmax_In _ _)), Z.eqb_refl. reflexivity.
      * assert (A : all_of (map (ans (S f) p) (l1 ++ x :: l2)) = Ok None).
        { apply all_of_none. exists ts, (map (ans (S f) p) l2). rewrite map_app. cbn [map]. f_equal.
          - assert (EQ1 : forall x, In x l1 -> forall r, ans (S f) p x = Ok r <-> follows p x r) by (intros y Hy; apply EQ, in_or_app; auto).
            clear - EQ1 F1. induction F1 as [|y t l1 ts Hy F1 IHf]; [reflexivity|]. cbn [map]. f_equal; [apply EQ1; [left; reflexivity|exact Hy]|].
            apply IHf. intros z Hz. apply EQ1. right. exact Hz.
          - f_equal. apply EQ; [apply in_or_app; right; left; reflexivity|exact F2]. }
        rewrite A. reflexivity.
  - destruct (plain_or _ _ _ P) as (-> & PL). unfold or_next. rewrite (ask_some_of (S f) p l PL) by lia.
    assert (EQ : forall x, In x l -> forall r, ans (S f) p x = Ok r <-> follows p x r).
    { intros x Hx. rewrite Forall_forall in IH, PL. apply IH; auto. }
    assert (F2 : forall rs, map (ans (S f) p) l = map Ok rs <-> Forall2 (follows p) l rs).
    { clear - EQ. induction l as [|x l IHl]; intros rs.
      - split; [destruct rs; [constructor|discriminate]|intros F; inversion F; reflexivity].
      - specialize (IHl ltac:(intros y Hy; apply EQ; right; exact Hy)). destruct rs as [|r rs]; [split; [discriminate|intros F; inversion F]|]. cbn [map]. split.
        + intros E. injection E as E1 E2. constructor; [apply EQ; [left; reflexivity|exact E1]|apply IHl, E2].
        + intros F. inversion F; subst. f_equal; [apply EQ; [left; reflexivity|assumption]|apply IHl; assumption]. }
    split.
    + destruct (some_of (map (ans (S f) p) l)) as [ts|x] eqn:A; [|discriminate]. apply some_of_each in A. destruct A as (rs & A & ->). intros H.
      apply (fo_or p l None rs); [apply F2, A|]. apply least_min.
      destruct (flat_map _ rs) as [|t ts]; [congruence|]. cbn [apply_jitter draw] in H. rewrite Z.add_0_r in H. congruence.
    + intros F. inversion F as [| | | | | |l' j' rs r' FA L| |]; subst. apply F2 in FA. apply least_min in L. subst r.
      assert (A : some_of (map (ans (S f) p) l) = Ok (flat_map (fun r => match r with Some t => [t] | None => [] end) rs)) by (apply some_of_each; eauto).
      rewrite A. destruct (flat_map _ rs) as [|t ts]; [reflexivity|]. cbn [apply_jitter draw]. rewrite Z.add_0_r. reflexivity.
  - split; [intros [= <-]; constructor|intros F; inversion F; reflexivity].
Qed.

(** the only way not to answer is to go on for ever *)
Lemma answers_or_hangs : forall tr p f, plain p tr -> (exists r, ans f p tr = Ok r) \/ ans f p tr = Err OutOfFuel.
Proof.
  induction tr as [d|iv s e j|tb off s e j|l j IH|l j IH|] using trigger_ind'; intros p f P; unfold ans; cbn [get_next]; eauto.
  - destruct P as ([Ht _] & J & _ & C). cbn in J, C. subst j. cbn [draw]. destruct (cron_answer p tb off s e p Ht C ltac:(lia)) as (r0 & -> & R). eauto.
  - destruct (plain_and _ _ _ P) as (-> & NE & PL). destruct f as [|f]; [right; reflexivity|]. rewrite (and_once (S f) p l still PL (S f) 0 p ltac:(lia)).
    assert (EQ : Forall (fun r => (exists a, r = Ok a) \/ r = Err OutOfFuel) (map (ans (S f) p) l)).
    { apply Forall_map. rewrite Forall_forall in *. intros x Hx. apply IH; auto. }
    assert (A : match all_of (map (ans (S f) p) l) with Err e => e = OutOfFuel | Ok (Some []) => l = [] | _ => True end).
    { clear - EQ. induction l as [|x l IHl]; [reflexivity|]. cbn [map] in *. inversion EQ as [|? ? H1 H2]; subst. specialize (IHl H2). cbn [all_of].
      destruct (ans (S f) p x) as [[t|]|e]; [|exact I|destruct H1 as [[? H1]|H1]; [discriminate|injection H1 as ->; reflexivity]].
      destruct (all_of (map (ans (S f) p) l)) as [[?|]|?]; auto. }
    destruct (all_of (map (ans (S f) p) l)) as [[[|t ts]|]|e]; [contradiction|destruct (_ =? _); eauto|eauto|subst; auto].
  - destruct (plain_or _ _ _ P) as (-> & PL). unfold or_next. rewrite (ask_some_of f p l PL) by lia.
    assert (EQ : Forall (fun r => (exists a, r = Ok a) \/ r = Err OutOfFuel) (map (ans f p) l)).
    { apply Forall_map. rewrite Forall_forall in *. intros x Hx. apply IH; auto. }
    assert (A : match some_of (map (ans f p) l) with Err e => e = OutOfFuel | Ok _ => True end).
    { clear - EQ. induction l as [|x l IHl]; [exact I|]. cbn [map] in *. inversion EQ as [|? ? H1 H2]; subst. specialize (IHl H2). cbn [some_of].
      destruct (ans f p x) as [a|e]; [|destruct H1 as [[? H1]|H1]; [discriminate|injection H1 as ->; reflexivity]].
      destruct (some_of (map (ans f p) l)); auto. }
    destruct (some_of (map (ans f p) l)) as [[|t ts]|e]; [eauto|eauto|subst; auto].
Qed.

(** C53.  Having fired at [p], a trigger of any shape answers exactly with what [follows]. *)
Theorem C53_next_fire_time :
  forall (p : Z) (tr : trigger) (o : oracle) (now : Z) (fuel : nat) (r : option Z), plain p tr -> p <= now ->
    (get_next (S fuel) tr (Some p) o now = Ok r <-> follows p tr r).
Proof. intros p tr o now fuel r P H. rewrite (ans_any (S fuel) p tr o now P H). apply answers_exactly, P. Qed.
Print Assumptions C53_next_fire_time.

(** C54.  If nothing follows, the question is never answered. *)
Theorem C54_otherwise_never_returns :
  forall (p : Z) (tr : trigger) (o : oracle) (now : Z), plain p tr -> p <= now ->
    (exists r, forall fuel, get_next (S fuel) tr (Some p) o now = Ok r) \/
    ((forall r, ~ follows p tr r) /\ forall fuel, get_next fuel tr (Some p) o now = Err OutOfFuel).
Proof.
  intros p tr o now P H. destruct (answers_or_hangs tr p 1 P) as [(r & A)|A].
  - left. exists r. intros fuel. apply C53_next_fire_time; auto. apply (answers_exactly tr p 0 P). exact A.
  - right. assert (N : forall r, ~ follows p tr r) by (intros r F; apply (answers_exactly tr p 0 P) in F; congruence). split; [exact N|].
    intros fuel. rewrite (ans_any fuel p tr o now P H). destruct (answers_or_hangs tr p fuel P) as [(r & B)|B]; [|exact B].
    exfalso. destruct fuel as [|fuel].
    + apply (N r). apply (answers_exactly tr p 0 P). unfold ans in *.
      destruct (get_next_fuel_mono 0 1 tr (Some p) ltac:(lia) still p) as [R|R]; congruence.
    + apply (N r). apply (answers_exactly tr p fuel P). exact B.
Qed.
Print Assumptions C54_otherwise_never_returns.

(** So an "and" of parts that answer returns exactly when one of them is over or all agree at once. *)
Theorem C54_and_returns_iff :
  forall (p : Z) (l : list trigger) (rs : list (option Z)) (o : oracle) (now : Z), plain p (TAnd l None) -> p <= now ->
    Forall2 (follows p) l rs ->
    ((exists fuel r, get_next fuel (TAnd l None) (Some p) o now = Ok r) <-> In None rs \/ exists t, forall a, In a rs -> a = Some t).
Proof.
  intros p l rs o now P H F2. split.
  - intros (fuel & r & G). assert (FO : follows p (TAnd l None) r).
    { destruct fuel as [|fuel]; [discriminate G|]. apply (C53_next_fire_time p _ o now fuel r P H) in G. exact G. }
    destruct (plain_and _ _ _ P) as (_ & _ & PL).
    assert (U : forall x, In x l -> forall a b, follows p x a -> follows p x b -> a = b).
    { intros x Hx a b A B. rewrite Forall_forall in PL. apply (answers_exactly x p 0 (PL x Hx)) in A. apply (answers_exactly x p 0 (PL x Hx)) in B. congruence. }
    inversion FO as [| | | | | | |l' j' t NE FA|l1 ts x l2 j' F1 FN]; subst.
    + right. exists t. intros a Ha. destruct (Forall2_In_r _ _ _ _ F2 Ha) as (x & Hx & Fx). rewrite Forall_forall in FA. apply (U x Hx); auto.
    + left. destruct (Forall2_In_l _ _ _ _ F2 (in_elt x l1 l2)) as (a & Ha & Fx). rewrite (U x (in_elt x l1 l2) _ _ FN Fx). exact Ha.
  - intros C. destruct (plain_and _ _ _ P) as (_ & NE & _). destruct C as [C|(t & C)].
    + assert (D : exists r, follows p (TAnd l None) r).
      { exists None. clear - F2 C.
        assert (X : exists l1 ts x l2, l = l1 ++ x :: l2 /\ Forall2 (fun y t => follows p y (Some t)) l1 ts /\ follows p x None).
        { induction F2 as [|x a l rs Fx F2 IH]; [destruct C|]. destruct a as [t|].
          - destruct C as [C|C]; [discriminate|]. destruct (IH C) as (l1 & ts & y & l2 & -> & A & B). exists (x :: l1), (t :: ts), y, l2. split; [reflexivity|]. split; [constructor; auto|exact B].
          - exists [], [], x, l. split; [reflexivity|]. split; [constructor|exact Fx]. }
        destruct X as (l1 & ts & x & l2 & -> & A & B). exact (fo_and_over p l1 ts x l2 None A B). }
      destruct D as (r & D). exists 1%nat, r. apply C53_next_fire_time; auto.
    + exists 1%nat, (Some t). apply C53_next_fire_time; auto. apply fo_and; [exact NE|]. apply Forall_forall. intros x Hx.
      destruct (Forall2_In_l _ _ _ _ F2 Hx) as (a & Ha & Fx). rewrite <- (C a Ha). exact Fx.
Qed.
Print Assumptions C54_and_returns_iff.

(** A date that is one part of an "or" is lost when another part fires first. *)
Theorem C53_or_date_lost :
  forall (d iv s : Z) (o : oracle) (fuel : nat) (p now : Z), 0 < iv -> p <= now ->
    get_next fuel (TOr [TDate d; TInterval iv s None None] None) (Some p) o now = Ok (Some (p + iv)).
Proof. intros d iv s o fuel p now I H. cbn. rewrite !Z.add_0_r. reflexivity. Qed.
Print Assumptions C53_or_date_lost.

Example C53_case : plain 0 (TOr [TInterval (2 * us) 0 None None; TAnd [TCron minute0 0 None None None; TDate 5] None] None) /\
  follows 0 (TOr [TInterval (2 * us) 0 None None; TInterval (3 * us) 0 None None] None) (Some (2 * us)).
Proof.
  split.
  - unfold plain. cbn. repeat split; try lia; try discriminate; try (intros x; discriminate); unfold us; try lia; vm_compute; congruence.
  - apply (fo_or 0 _ None [Some (0 + 2 * us); Some (0 + 3 * us)]); [repeat constructor; intros x; discriminate|].
    split; [left; reflexivity|]. intros u [[= <-]|[[= <-]|[]]]; unfold us; lia.
Qed.
