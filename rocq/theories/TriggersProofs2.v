From Verif Require Import Prelude FloatDiv FloatDivProofs Calendar CalendarFacts Cron CronSpec CronTop Triggers TriggerSpec TriggersProofs.
Open Scope Z_scope.

(** ** with a previous fire time the current instant is irrelevant *)
Lemma ask_all_ext i cs ds o n1 n2 :
  Forall2 (fun c d : child => forall o, c o n1 = d o n2) cs ds -> ask_all i cs o n1 = ask_all i ds o n2.
Proof.
  intros H. revert i. induction H as [|c d cs ds E H IH]; intros i; cbn [ask_all]; auto.
  rewrite E. destruct (d _ _) as [[t|]|]; auto. rewrite IH; auto.
Qed.
Lemma ask_some_ext i cs ds o n1 n2 :
  Forall2 (fun c d : child => forall o, c o n1 = d o n2) cs ds -> ask_some i cs o n1 = ask_some i ds o n2.
Proof.
  intros H. revert i. induction H as [|c d cs ds E H IH]; intros i; cbn [ask_some]; auto.
  rewrite E. destruct (d _ _) as [[t|]|]; auto; rewrite IH; auto.
Qed.
Lemma Forall2_map_same {A B} (R : B -> B -> Prop) (f g : A -> B) l :
  Forall (fun x => R (f x) (g x)) l -> Forall2 R (map f l) (map g l).
Proof. induction 1; cbn; constructor; auto. Qed.

Lemma get_next_now_irrelevant fuel tr p n1 n2 : p <= n1 -> p <= n2 ->
  forall o, get_next fuel tr (Some p) o n1 = get_next fuel tr (Some p) o n2.
Proof.
  intros H1 H2. induction tr as [d|iv s e j|tb off s e j|l j IH|l j IH|] using trigger_ind'; intros o; cbn [get_next]; auto.
  - unfold cron_next. assert (E : cron_start s (Some p) n1 = cron_start s (Some p) n2).
    { unfold cron_start. destruct (Z.eqb_spec (Z.min n1 (p + 1)) p), (Z.eqb_spec (Z.min n2 (p + 1)) p); lia. }
    rewrite E. reflexivity.
  - destruct fuel as [|f]; auto. cbn [and_loop].
    rewrite (ask_all_ext 0 (map (fun t => get_next (S f) t (Some p)) l) (map (fun t => get_next (S f) t (Some p)) l) (sub o 0) n1 n2); [reflexivity|].
    apply Forall2_map_same. exact IH.
  - unfold or_next. rewrite (ask_some_ext 0 (map (fun t => get_next fuel t (Some p)) l) (map (fun t => get_next fuel t (Some p)) l) o n1 n2); [reflexivity|].
    apply Forall2_map_same. exact IH.
Qed.

(** ** progress: the answer is later than the previous fire time *)
Lemma and_progress p cs jit o : fair o -> jitter_ok jit -> cs <> [] ->
  (forall c, In c cs -> forall o now t, fair o -> p <= now -> c o now = Ok (Some t) -> p < t) ->
  forall fuel k now t, p <= now -> and_loop fuel k cs jit o now = Ok (Some t) -> p < t.
Proof.
  intros Hf Hj Hne Hc. induction fuel as [|fuel IH]; intros k now t Hp; cbn [and_loop]; [discriminate|].
  destruct (ask_all 0 cs (sub o k) now) as [[[|x ts]|]|e] eqn:E; try discriminate.
  destruct (ask_all_each _ _ _ _ _ E) as [_ E2].
  assert (Hgt : forall y, In y (x :: ts) -> p < y).
  { intros y Hy. destruct (E2 y Hy) as (c & j & Hin & Hy'). apply (Hc c Hin (sub (sub o k) j) now y); auto. apply fair_sub, fair_sub, Hf. }
  destruct (_ =? _).
  - cbn [apply_jitter]. intros [= <-]. pose proof (draw_bounds (sub o k) jit (fair_sub o k Hf) Hj). specialize (Hgt x (or_introl eq_refl)). destruct H as [H _]. clear - H Hgt. lia.
  - apply IH. specialize (Hgt _ (zmax_In x ts)). lia.
Qed.

Lemma get_next_progress fuel tr p : forward tr -> forall o now t, fair o -> p <= now ->
  get_next fuel tr (Some p) o now = Ok (Some t) -> p < t.
Proof.
  induction tr as [d|iv s e j|tb off s e j|l j IH|l j IH|] using trigger_ind'; intros Hw o now t Hf Hp; cbn [get_next]; try discriminate.
  - destruct Hw as [Hiv Hj]. intros [= H]. apply interval_jitter_bounds in H; auto. destruct H as (t0 & H0 & Hle & _).
    rewrite interval_after in H0. destruct e as [x|]; [destruct (_ <=? _); [|discriminate]|]; injection H0 as <-; lia.
  - destruct Hw as [Hok Hj]. pose proof (draw_bounds o j Hf Hj) as [D _]. rewrite cron_next_jitter by auto.
    pose proof (cron_next_spec tb off s e (Some p) now _ Hok eq_refl) as Hs. cbn zeta in Hs.
    destruct (cron_next tb off s e 0 (Some p) now) as [[u|]|err]; try discriminate.
    destruct Hs as (_ & _ & Hge & He & _). intros [= <-].
    assert (p < cron_start s (Some p) now) by (unfold cron_start; destruct (Z.eqb_spec (Z.min now (p + 1)) p); lia).
    destruct e as [x|]; [specialize (He x eq_refl)|]; lia.
  - destruct Hw as [Hj Hl]. apply all_Forall in Hl. rewrite Forall_forall in *.
    destruct l as [|x l].
    { cbn [map]. destruct fuel; cbn; discriminate. }
    apply (and_progress p); auto; [discriminate|]. intros c Hc. apply in_map_iff in Hc. destruct Hc as (y & <- & Hy).
    intros o' n' t' ? ? ?. eapply IH; eauto.
  - destruct Hw as [Hj Hl]. apply all_Forall in Hl. rewrite Forall_forall in *.
    unfold or_next. destruct (ask_some 0 _ o now) as [r|err] eqn:E; [|discriminate].
    destruct (ask_some_spec _ _ _ _ _ E) as [S1 _]. destruct r as [|x ts]; [discriminate|].
    cbn [apply_jitter]. intros [= <-]. pose proof (draw_bounds o j Hf Hj).
    destruct (proj1 (S1 _) (zmin_In x ts)) as (i & c & Hi & Hc). apply in_combine_r in Hi. apply in_map_iff in Hi.
    destruct Hi as (y & <- & Hy). apply (IH y Hy (Hl y Hy)) in Hc; auto; [lia|apply fair_sub; auto].
Qed.

(** ** more fuel never changes an answer *)
Definition refines (c d : child) : Prop := forall o n, c o n = Err OutOfFuel \/ c o n = d o n.

Lemma ask_all_refines i cs ds o n : Forall2 refines cs ds ->
  ask_all i cs o n = Err OutOfFuel \/ ask_all i cs o n = ask_all i ds o n.
Proof.
  intros H. revert i. induction H as [|c d cs ds E H IH]; intros i; cbn [ask_all]; auto.
  destruct (E (sub o i) n) as [->| ->]; auto. destruct (d _ _) as [[t|]|]; auto.
  destruct (IH (S i)) as [->| ->]; auto.
Qed.
Lemma ask_some_refines i cs ds o n : Forall2 refines cs ds ->
  ask_some i cs o n = Err OutOfFuel \/ ask_some i cs o n = ask_some i ds o n.
Proof.
  intros H. revert i. induction H as [|c d cs ds E H IH]; intros i; cbn [ask_some]; auto.
  destruct (E (sub o i) n) as [->| ->]; auto. destruct (d _ _) as [a|]; auto.
  destruct (IH (S i)) as [->| ->]; auto.
Qed.
Lemma and_loop_refines cs ds j : Forall2 refines cs ds -> forall f g k o n, (f <= g)%nat ->
  and_loop f k cs j o n = Err OutOfFuel \/ and_loop f k cs j o n = and_loop g k ds j o n.
Proof.
  intros H. induction f as [|f IH]; intros g k o n Hle; cbn [and_loop]; auto.
  destruct g as [|g]; [lia|]. cbn [and_loop].
  destruct (ask_all_refines 0 cs ds (sub o k) n H) as [->| ->]; auto.
  destruct (ask_all 0 ds (sub o k) n) as [[[|t ts]|]|]; auto. destruct (_ =? _); auto. apply IH. lia.
Qed.
Lemma get_next_fuel_mono f g tr p : (f <= g)%nat -> refines (get_next f tr p) (get_next g tr p).
Proof.
  intros Hle. induction tr as [d|iv s e j|tb off s e j|l j IH|l j IH|] using trigger_ind'; intros o n; cbn [get_next]; auto.
  - apply and_loop_refines; auto. apply Forall2_map_same. auto.
  - unfold or_next. destruct (ask_some_refines 0 (map (fun t => get_next f t p) l) (map (fun t => get_next g t p) l) o n) as [->| ->]; auto.
    apply Forall2_map_same. exact IH.
Qed.
Lemma get_next_and_free f g tr p : and_free tr -> forall o n, get_next f tr p o n = get_next g tr p o n.
Proof.
  induction tr as [d|iv s e j|tb off s e j|l j IH|l j IH|] using trigger_ind'; intros Ha o n; cbn [get_next]; auto.
  - destruct Ha.
  - cbn [and_free] in Ha. apply all_Forall in Ha. unfold or_next.
    rewrite (ask_some_ext 0 (map (fun t => get_next f t p) l) (map (fun t => get_next g t p) l) o n n); auto.
    apply Forall2_map_same. rewrite Forall_forall in *. intros x Hx o'. apply (IH x Hx (Ha x Hx)).
Qed.

(** ** without jitter the random source is irrelevant *)
Lemma ask_all_oracle i cs o o' n : Forall (fun c : child => forall o o', c o n = c o' n) cs ->
  ask_all i cs o n = ask_all i cs o' n.
Proof.
  intros H. revert i. induction H as [|c cs E H IH]; intros i; cbn [ask_all]; auto.
  rewrite (E _ (sub o' i)). destruct (c _ _) as [[t|]|]; auto. rewrite IH; auto.
Qed.
Lemma ask_some_oracle i cs o o' n : Forall (fun c : child => forall o o', c o n = c o' n) cs ->
  ask_some i cs o n = ask_some i cs o' n.
Proof.
  intros H. revert i. induction H as [|c cs E H IH]; intros i; cbn [ask_some]; auto.
  rewrite (E _ (sub o' i)). destruct (c _ _) as [a|]; auto. rewrite IH; auto.
Qed.
Lemma and_loop_oracle cs : Forall (fun c : child => forall o o' n, c o n = c o' n) cs ->
  forall f k k' o o' n, and_loop f k cs None o n = and_loop f k' cs None o' n.
Proof.
  intros H. induction f as [|f IH]; intros k k' o o' n; cbn [and_loop]; auto.
  rewrite (ask_all_oracle 0 cs (sub o k) (sub o' k') n).
  2:{ eapply Forall_impl; [|exact H]. cbn. intros c Hc a b. apply Hc. }
  destruct (ask_all 0 cs (sub o' k') n) as [[[|t ts]|]|]; auto.
  destruct (_ =? _); auto.
Qed.
Lemma get_next_oracle f tr p : jitter_free tr -> forall o o' n, get_next f tr p o n = get_next f tr p o' n.
Proof.
  induction tr as [d|iv s e j|tb off s e j|l j IH|l j IH|] using trigger_ind'; intros Ha o o' n; cbn [get_next]; cbn [jitter_free] in Ha.
  - reflexivity.
  - subst. unfold interval_next, draw. reflexivity.
  - subst. reflexivity.
  - destruct Ha as [-> Ha]. apply all_Forall in Ha. apply and_loop_oracle. rewrite Forall_map.
    rewrite Forall_forall in *. intros x Hx o1 o2 m. apply (IH x Hx (Ha x Hx)).
  - destruct Ha as [-> Ha]. apply all_Forall in Ha. unfold or_next.
    rewrite (ask_some_oracle 0 _ o o' n); auto. rewrite Forall_map.
    rewrite Forall_forall in *. intros x Hx o1 o2. apply (IH x Hx (Ha x Hx)).
  - reflexivity.
Qed.

(** ** AND answers a time all its children agree on *)
Lemma and_sound f k cs o now t : and_loop f k cs None o now = Ok (Some t) ->
  cs <> [] /\ exists o' now', forall c, In c cs -> exists i, c (sub o' i) now' = Ok (Some t).
Proof.
  revert k now. induction f as [|f IH]; intros k now; cbn [and_loop]; [discriminate|].
  destruct (ask_all 0 cs (sub o k) now) as [[[|x ts]|]|e] eqn:E; try discriminate.
  destruct (Z.eqb_spec (zmin x ts) (zmax x ts)) as [Em|Em]; [|apply IH].
  cbn [apply_jitter draw]. rewrite Z.add_0_r. intros [= <-]. split.
  - destruct cs; [discriminate|congruence].
  - exists (sub o k), now. destruct (ask_all_each _ _ _ _ _ E) as [E1 _]. intros c Hc.
    destruct (E1 c Hc) as (i & u & Hu & Hcu). exists i.
    destruct Hu as [->|Hu]; auto. rewrite (zmin_zmax_eq _ _ Em u Hu) in Hcu. auto.
Qed.
Lemma and_none f k cs jit o now : and_loop f k cs jit o now = Ok None ->
  exists o' now' c, In c cs /\ c o' now' = Ok None.
Proof.
  revert k now. induction f as [|f IH]; intros k now; cbn [and_loop]; [discriminate|].
  destruct (ask_all 0 cs (sub o k) now) as [[[|x ts]|]|e] eqn:E; try discriminate.
  - destruct (_ =? _); [discriminate|apply IH].
  - intros _. destruct (ask_all_none _ _ _ _ E) as (c & i & Hc & Hn). eauto.
Qed.

(** ** AND with a previous fire time: all children agree at once, or it never returns *)
Lemma and_hangs cs o p now a b x y :
  (forall c, In c cs -> exists t, p < t /\ forall o n, p <= n -> c o n = Ok (Some t)) ->
  p <= now -> In x cs -> In y cs -> x o now = Ok (Some a) -> y o now = Ok (Some b) -> a <> b ->
  forall fuel k, and_loop fuel k cs None o now = Err OutOfFuel.
Proof.
  intros Hall Hp Hx Hy Ha Hb Hab.
  assert (Hxa : forall o n, p <= n -> x o n = Ok (Some a)).
  { destruct (Hall x Hx) as (t & _ & Ht). rewrite Ht in Ha by lia. injection Ha as ->. exact Ht. }
  assert (Hyb : forall o n, p <= n -> y o n = Ok (Some b)).
  { destruct (Hall y Hy) as (t & _ & Ht). rewrite Ht in Hb by lia. injection Hb as ->. exact Ht. }
  clear Ha Hb. intros fuel. revert now Hp. induction fuel as [|f IH]; intros now Hp k; cbn [and_loop]; auto.
  assert (Hsub : forall i ds, (forall c, In c ds -> In c cs) -> exists r, ask_all i ds (sub o k) now = Ok (Some r)).
  { intros i ds. revert i. induction ds as [|c ds IHd]; intros i Hin; cbn [ask_all]; [eauto|].
    destruct (Hall c (Hin c (or_introl eq_refl))) as (t & _ & Ht). rewrite Ht by lia.
    destruct (IHd (S i)) as (r & ->); [intros; apply Hin; now right|]. eauto. }
  destruct (Hsub 0%nat cs ltac:(auto)) as (r & E). rewrite E.
  destruct (ask_all_each _ _ _ _ _ E) as [E1 E2].
  destruct r as [|t ts]; [destruct (E1 x Hx) as (? & ? & [] & _)|].
  destruct (Z.eqb_spec (zmin t ts) (zmax t ts)) as [Em|Em].
  - exfalso. apply Hab.
    destruct (E1 x Hx) as (i & u & Hu & Hxu). rewrite Hxa in Hxu by lia. injection Hxu as <-.
    destruct (E1 y Hy) as (j & v & Hv & Hyv). rewrite Hyb in Hyv by lia. injection Hyv as <-.
    assert (Hone : forall w, In w (t :: ts) -> w = t) by (intros w [->|Hw]; auto; apply (zmin_zmax_eq _ _ Em w Hw)).
    rewrite (Hone a Hu), (Hone b Hv). reflexivity.
  - apply IH. destruct (E2 _ (zmax_In t ts)) as (c & j & Hc & Hct). destruct (Hall c Hc) as (w & Hw & Ht).
    rewrite Ht in Hct by lia. injection Hct as <-. lia.
Qed.

(** the trigger-level statement *)
Theorem and_trigger_hangs l p now o x y a b :
  Forall (fun tr => and_free tr /\ jitter_free tr /\ forward tr /\ exists t, get_next 0 tr (Some p) o now = Ok (Some t)) l ->
  fair o -> p <= now -> In x l -> In y l ->
  get_next 0 x (Some p) o now = Ok (Some a) -> get_next 0 y (Some p) o now = Ok (Some b) -> a <> b ->
  forall fuel, get_next fuel (TAnd l None) (Some p) o now = Err OutOfFuel.
Proof.
  intros Hl Hf Hp Hx Hy Ha Hb Hab fuel. cbn [get_next]. rewrite Forall_forall in Hl.
  apply (and_hangs (map (fun t => get_next fuel t (Some p)) l) o p now a b (get_next fuel x (Some p)) (get_next fuel y (Some p))); auto.
  - intros c Hc. apply in_map_iff in Hc. destruct Hc as (tr & <- & Htr). destruct (Hl tr Htr) as (Ha1 & Hj & Hw & t & Ht).
    exists t. split; [apply (get_next_progress 0 tr p Hw o now t Hf Hp Ht)|].
    intros o' n Hn. rewrite (get_next_and_free fuel 0 tr _ Ha1), (get_next_oracle 0 tr _ Hj o' o).
    rewrite (get_next_now_irrelevant 0 tr p n now Hn Hp). exact Ht.
  - apply (in_map (fun t => get_next fuel t (Some p))). exact Hx.
  - apply (in_map (fun t => get_next fuel t (Some p))). exact Hy.
  - rewrite (get_next_and_free fuel 0 x); auto. apply Hl; auto.
  - rewrite (get_next_and_free fuel 0 y); auto. apply Hl; auto.
Qed.

(** ** AND without previous fire time returns when there is a common fire time *)
Lemma and_terminates H Fs cs o now t : cs <> [] -> Forall2 (tracks H) Fs cs ->
  (forall F, In F Fs -> F t) -> now <= t <= H ->
  (forall c, In c cs -> forall o n, now <= n <= t -> exists r, c o n = Ok r) ->
  exists u, forall fuel k, (Z.to_nat (t - now) < fuel)%nat -> and_loop fuel k cs None o now = Ok (Some u).
Proof.
  intros Hne HF Hcom Hnt Hans.
  assert (Hstep : forall n k, now <= n <= t -> exists t1 ts, ask_all 0 cs (sub o k) n = Ok (Some (t1 :: ts)) /\
             (zmin t1 ts <> zmax t1 ts -> n < zmax t1 ts <= t)).
  { intros n k Hn.
    assert (Hc : forall c, In c cs -> forall o, exists u, n <= u <= t /\ c o n = Ok (Some u)).
    { intros c Hc o'. destruct (Hans c Hc o' n Hn) as (r & Hr). destruct (Forall2_In_r _ _ _ _ HF Hc) as (F & HFin & Htr).
      destruct (Htr o' n) as [_ T2]. specialize (T2 ltac:(lia) r Hr). destruct r as [u|]; cbn [first_until] in T2.
      - exists u. split; auto. split; [apply T2|]. apply T2; [apply Hcom; auto|lia|lia].
      - destruct (T2 t (Hcom F HFin)); lia. }
    assert (Hsub : forall i ds, (forall c, In c ds -> In c cs) -> exists r, ask_all i ds (sub o k) n = Ok (Some r)).
    { intros i ds. revert i. induction ds as [|c ds IHd]; intros i Hin; cbn [ask_all]; [eauto|].
      destruct (Hc c (Hin c (or_introl eq_refl)) (sub (sub o k) i)) as (u & _ & Hu). rewrite Hu.
      destruct (IHd (S i)) as (r & ->); [intros; apply Hin; now right|]. eauto. }
    destruct (Hsub 0%nat cs ltac:(auto)) as (r & E). destruct (ask_all_each _ _ _ _ _ E) as [E1 E2].
    destruct r as [|t1 ts]. { destruct cs as [|c cs']; [congruence|]. destruct (E1 c (or_introl eq_refl)) as (? & ? & [] & _). }
    exists t1, ts. split; auto. intros Hneq.
    assert (Hb : forall v, In v (t1 :: ts) -> n <= v <= t).
    { intros v Hv. destruct (E2 v Hv) as (c & j & Hcin & Hcv). destruct (Hc c Hcin (sub (sub o k) j)) as (u & Hu & Hu').
      rewrite Hu' in Hcv. injection Hcv as <-. exact Hu. }
    pose proof (Hb _ (zmin_In t1 ts)). pose proof (Hb _ (zmax_In t1 ts)). pose proof (zmin_lt_zmax _ _ Hneq). lia. }
  (* the answer with enough fuel, then independence of fuel and k *)
  assert (Hrun : forall fuel n, now <= n <= t -> (Z.to_nat (t - n) < fuel)%nat -> forall k, exists u, and_loop fuel k cs None o n = Ok (Some u)).
  { induction fuel as [|f IH]; intros n Hn Hfu k; [lia|]. cbn [and_loop].
    destruct (Hstep n k Hn) as (t1 & ts & -> & Hlt). destruct (Z.eqb_spec (zmin t1 ts) (zmax t1 ts)); [eexists; reflexivity|].
    specialize (Hlt n0). apply IH; lia. }
  (* uniqueness: any answer is the least common time *)
  assert (Huniq : forall fuel k fuel' k' u v, and_loop fuel k cs None o now = Ok (Some u) -> and_loop fuel' k' cs None o now = Ok (Some v) -> u = v).
  { intros fuel k fuel' k' u v Hu Hv.
    apply (and_tracks H Fs cs Hne HF) in Hu. apply (and_tracks H Fs cs Hne HF) in Hv.
    destruct Hu as [_ Hu], Hv as [_ Hv]. specialize (Hu ltac:(lia)). specialize (Hv ltac:(lia)). cbn [first_until] in *.
    assert (u <= t) by (apply Hu; auto; lia). assert (v <= t) by (apply Hv; auto; lia).
    assert (u <= v) by (apply Hu; [apply Hv; lia|lia|lia]). assert (v <= u) by (apply Hv; [apply Hu; lia|lia|lia]). lia. }
  destruct (Hrun (S (Z.to_nat (t - now))) now ltac:(lia) ltac:(lia) 0%nat) as (u & Hu).
  exists u. intros fuel k Hfu. destruct (Hrun fuel now ltac:(lia) Hfu k) as (v & Hv). rewrite Hv. do 2 f_equal. eapply Huniq; eauto.
Qed.

Theorem and_trigger_least H l o now t : l <> [] -> Forall (regular H) l -> Forall and_free l ->
  (forall x, In x l -> fires x t) -> now <= t <= H ->
  (forall x, In x l -> forall o n, now <= n <= t -> exists r, get_next 0 x None o n = Ok r) ->
  exists u, first_from (fires (TAnd l None)) now u /\
            forall fuel, (Z.to_nat (t - now) < fuel)%nat -> get_next fuel (TAnd l None) None o now = Ok (Some u).
Proof.
  intros Hne Hr Ha Hcom Hnt Hans.
  set (cs := map (fun x => get_next 0 x None) l).
  assert (HT : Forall2 (tracks H) (map fires l) cs).
  { unfold cs. apply Forall2_map_tracks; auto. apply Forall_forall. intros x _. apply regular_tracks. }
  assert (Hcs : cs <> []) by (unfold cs; destruct l; [congruence|discriminate]).
  destruct (and_terminates H (map fires l) cs o now t Hcs HT) as (u & Hu); auto.
  { intros F HF. apply in_map_iff in HF. destruct HF as (x & <- & Hx). auto. }
  { intros c Hc. apply in_map_iff in Hc. destruct Hc as (x & <- & Hx). apply Hans; auto. }
  exists u. 
  assert (Hsame : forall fuel, get_next fuel (TAnd l None) None o now = and_loop fuel 0 cs None o now).
  { intros fuel. cbn [get_next]. clear - Ha.
    assert (E : forall f k n, and_loop f k (map (fun t => get_next fuel t None) l) None o n = and_loop f k cs None o n).
    { induction f as [|f IH]; intros k n; cbn [and_loop]; auto. unfold cs at 1.
      rewrite (ask_all_ext 0 (map (fun t => get_next fuel t None) l) (map (fun x => get_next 0 x None) l) (sub o k) n n).
      - destruct (ask_all 0 (map (fun x => get_next 0 x None) l) (sub o k) n) as [[[|t ts]|]|]; auto. destruct (_ =? _); auto.
      - apply Forall2_map_same. eapply Forall_impl; [|exact Ha]. intros x Hx o'. apply get_next_and_free; auto. }
    apply E. }
  split.
  - specialize (Hu (S (Z.to_nat (t - now))) 0%nat ltac:(lia)).
    apply (and_tracks H _ cs Hcs HT) in Hu. destruct Hu as [_ Hu]. specialize (Hu ltac:(lia)). cbn [first_until] in Hu.
    assert (Eq : forall v, (forall F, In F (map fires l) -> F v) <-> fires (TAnd l None) v).
    { intros v. cbn [fires]. rewrite all_Forall, Forall_forall. split.
      - intros Hv x Hx. apply Hv. apply in_map; auto.
      - intros Hv F HF. apply in_map_iff in HF. destruct HF as (x & <- & Hx). auto. }
    assert (Hct : forall F, In F (map fires l) -> F t) by (intros F HF; apply in_map_iff in HF; destruct HF as (x & <- & Hx); auto).
    destruct Hu as (U1 & U2 & U3). assert (u <= t) by (apply U3; auto; lia).
    split; [apply (proj1 (Eq u)); apply U2; lia|]. split; auto.
    intros v Hv Hnv. destruct (Z.leb_spec v H); [apply U3; auto; apply (proj2 (Eq v)); auto|lia].
  - intros fuel Hfu. rewrite Hsame. apply Hu; auto.
Qed.

(** ** cron-only triggers after a previous fire time *)
Definition next_of (p : Z) (F : Z -> Prop) (c : child) : Prop := forall o now r, p <= now -> c o now = Ok r ->
  match r with Some t => first_from F (p + 1) t | None => none_from F (p + 1) end.

Lemma next_of_ext p F G c : (forall u, F u <-> G u) -> next_of p F c -> next_of p G c.
Proof.
  intros E Hn o now r Hp Hr. specialize (Hn o now r Hp Hr). destruct r as [t|].
  - destruct Hn as (A & B & C). split; [apply E; auto|]. split; auto. intros u Hu. apply C, E, Hu.
  - intros u Hu. apply Hn, E, Hu.
Qed.

Lemma and_next_of p Fs cs o : cs <> [] -> Forall2 (next_of p) Fs cs -> forall fuel k now r, p <= now ->
  and_loop fuel k cs None o now = Ok r ->
  match r with Some t => first_from (fun u => forall F, In F Fs -> F u) (p + 1) t
             | None => none_from (fun u => forall F, In F Fs -> F u) (p + 1) end.
Proof.
  intros Hne HF. induction fuel as [|f IH]; intros k now r Hp; cbn [and_loop]; [discriminate|].
  destruct (ask_all 0 cs (sub o k) now) as [[[|t ts]|]|e] eqn:E; try discriminate.
  - destruct (ask_all_each _ _ _ _ _ E) as [E1 E2].
    destruct (Z.eqb_spec (zmin t ts) (zmax t ts)) as [Em|Em].
    + cbn [apply_jitter draw]. rewrite Z.add_0_r. intros [= <-].
      assert (Hch : forall F, In F Fs -> first_from F (p + 1) t).
      { intros F HFin. destruct (Forall2_In_l _ _ _ _ HF HFin) as (c & Hc & Hn).
        destruct (E1 c Hc) as (j & u & Hu & Hcu).
        assert (Eu : u = t) by (destruct Hu as [->|Hu]; auto; apply (zmin_zmax_eq _ _ Em u Hu)). rewrite Eu in Hcu.
        apply (Hn _ _ _ Hp Hcu). }
      assert (exists F, In F Fs) as (F0 & HF0) by (destruct HF; [congruence|eexists; left; reflexivity]).
      split; [intros F HFin; apply (Hch F HFin)|]. split; [apply (Hch F0 HF0)|].
      intros u Hu Hpu. apply (proj2 (proj2 (Hch F0 HF0)) u (Hu F0 HF0) Hpu).
    + apply IH. destruct (E2 _ (zmax_In t ts)) as (c & j & Hc & Hct). destruct (Forall2_In_r _ _ _ _ HF Hc) as (F & _ & Hn).
      specialize (Hn _ _ _ Hp Hct). cbn in Hn. destruct Hn as (_ & Hn & _). lia.
  - intros [= <-]. destruct (ask_all_none _ _ _ _ E) as (c & j & Hc & Hcn).
    destruct (Forall2_In_r _ _ _ _ HF Hc) as (F & HFin & Hn). specialize (Hn _ _ _ Hp Hcn). cbn in Hn.
    intros u Hu. apply Hn. apply Hu, HFin.
Qed.

Lemma or_next_of p Fs cs o now r : Forall2 (next_of p) Fs cs -> p <= now -> or_next cs None o now = Ok r ->
  match r with Some t => first_from (fun u => exists F, In F Fs /\ F u) (p + 1) t
             | None => none_from (fun u => exists F, In F Fs /\ F u) (p + 1) end.
Proof.
  intros HF Hp Hr. apply or_next_spec in Hr. destruct Hr as [_ Hr]. destruct r as [t|].
  - destruct Hr as ((c & j & Hc & Hcj) & Hmin). destruct (Forall2_In_r _ _ _ _ HF Hc) as (F & HFin & Hn).
    specialize (Hn _ _ _ Hp Hcj). cbn in Hn. destruct Hn as (A & B & C). split; [exists F; auto|]. split; auto.
    intros u (F' & HF' & Hu) Hpu. destruct (Forall2_In_l _ _ _ _ HF HF') as (c' & Hc' & Hn').
    destruct (Hmin c' Hc') as (j' & a & Ha & Hle). specialize (Hn' _ _ _ Hp Ha). destruct a as [v|].
    + specialize (Hle v eq_refl). destruct Hn' as (_ & _ & Hv). specialize (Hv u Hu Hpu). lia.
    + destruct (Hn' u Hu Hpu).
  - intros u (F' & HF' & Hu) Hpu. destruct (Forall2_In_l _ _ _ _ HF HF') as (c' & Hc' & Hn').
    destruct (Hr c' Hc') as (j & Hcj). apply (Hn' _ _ _ Hp Hcj u Hu Hpu).
Qed.

Theorem cron_only_next p fuel tr : cron_only p tr -> next_of p (fires tr) (get_next fuel tr (Some p)).
Proof.
  induction tr as [d|iv s e j|tb off s e j|l j IH|l j IH|] using trigger_ind'; intros Hc; try destruct Hc.
  - destruct H0 as [Hs ->]. intros o now r Hp Hr. cbn [get_next draw] in Hr.
    pose proof (cron_next_spec tb off s e (Some p) now (Ok r) H Hr) as Hn. cbn zeta in Hn.
    assert (Est : cron_start s (Some p) now = p + 1) by (unfold cron_start; destruct (Z.eqb_spec (Z.min now (p + 1)) p); lia).
    rewrite Est in Hn. cbn [fires].
    assert (Hsb : forall u, p + 1 <= u -> not_before u s) by (intros u Hu x Hx; specialize (Hs x Hx); lia).
    destruct r as [t|].
    + destruct Hn as (_ & Hm & Hge & He & Hl). split; [auto|]. split; auto. intros u (Hu & _ & _) Hpu. auto.
    + destruct Hn as (_ & Hno). intros u (Hu & _ & Hue) Hpu. destruct (Hno u Hu Hpu) as (x & Ex & Hx). specialize (Hue x Ex). lia.
  - destruct H0 as [-> Hl]. apply all_Forall in Hl.
    assert (HT : Forall2 (next_of p) (map fires l) (map (fun t => get_next fuel t (Some p)) l)).
    { clear - IH Hl. induction l as [|x l IHl]; cbn; [constructor|]. rewrite Forall_cons_iff in IH, Hl.
      destruct IH as [A B], Hl as [C D]. constructor; auto. }
    apply next_of_ext with (F := fun u => forall F, In F (map fires l) -> F u).
    + intros u. cbn [fires]. rewrite all_Forall, Forall_forall. split.
      * intros Hu x Hx. apply Hu. apply in_map; auto.
      * intros Hu F HF. apply in_map_iff in HF. destruct HF as (x & <- & Hx). auto.
    + intros o now r Hp Hr. cbn [get_next] in Hr. eapply and_next_of in Hr; eauto. destruct l; [congruence|discriminate].
  - subst j. apply all_Forall in H0.
    assert (HT : Forall2 (next_of p) (map fires l) (map (fun t => get_next fuel t (Some p)) l)).
    { clear - IH H0. induction l as [|x l IHl]; cbn; [constructor|]. rewrite Forall_cons_iff in IH, H0.
      destruct IH as [A B], H0 as [C D]. constructor; auto. }
    apply next_of_ext with (F := fun u => exists F, In F (map fires l) /\ F u).
    + intros u. cbn [fires]. rewrite any_Exists, Exists_exists. split.
      * intros (F & HF & Hu). apply in_map_iff in HF. destruct HF as (x & <- & Hx). eauto.
      * intros (x & Hx & Hu). exists (fires x). split; auto. apply in_map; auto.
    + intros o now r Hp Hr. cbn [get_next] in Hr. eapply or_next_of in Hr; eauto.
  - intros o now r Hp [= <-] u [].
Qed.

(** ** jitter of any trigger *)
Lemma and_jitter cs j o : fair o -> jitter_ok j -> forall f k now t,
  and_loop f k cs j o now = Ok (Some t) ->
  exists t0, and_loop f k cs None o now = Ok (Some t0) /\
    t0 <= t /\ (forall x, j = Some x -> t <= t0 + x * us) /\ (j = None -> t = t0) /\ not_after t None.
Proof.
  intros Hf Hj. induction f as [|f IH]; intros k now t; cbn [and_loop]; [discriminate|].
  destruct (ask_all 0 cs (sub o k) now) as [[[|x ts]|]|e]; try discriminate. destruct (_ =? _); [|apply IH].
  cbn [apply_jitter draw]. intros [= <-]. destruct (draw_bounds (sub o k) j (fair_sub _ _ Hf) Hj) as (D1 & D2 & D3).
  exists (x + 0). split; auto. split; [lia|]. split; [intros y Hy; specialize (D2 y Hy); lia|].
  split; [intros En; specialize (D3 En); lia|]. intros y; discriminate.
Qed.
Theorem jitter_bounds fuel tr prev o now t : fair o -> jitter_ok (jitter_of tr) ->
  get_next fuel tr prev o now = Ok (Some t) ->
  exists t0, get_next fuel (with_jitter None tr) prev o now = Ok (Some t0) /\
    t0 <= t /\ (forall j, jitter_of tr = Some j -> t <= t0 + j * us) /\ (jitter_of tr = None -> t = t0) /\ not_after t (end_of tr).
Proof.
  intros Hf Hj.
  destruct tr as [d|iv s e j|tb off s e j|l j|l j|]; cbn [get_next with_jitter jitter_of end_of] in *.
  - intros [= H]. exists t. rewrite H. split; [reflexivity|]. split; [lia|]. split; [discriminate|]. split; [reflexivity|]. intros x; discriminate.
  - intros [= H]. apply interval_jitter_bounds in H; auto. destruct H as (t0 & H0 & Hr). exists t0. rewrite H0. auto.
  - destruct (draw_bounds o j Hf Hj) as (D1 & D2 & D3). rewrite cron_next_jitter by auto. cbn [draw].
    pose proof (cron_next_jitter tb off s e 0 prev now ltac:(lia)) as H0.
    destruct (cron_next tb off s e 0 prev now) as [[u|]|err]; try discriminate. intros [= <-]. exists u.
    assert (Hue : not_after u e).
    { injection H0 as H0. unfold not_after. intros x ->. lia. }
    split; auto. unfold not_after in *. destruct e as [x|].
    + specialize (Hue x eq_refl). split; [lia|]. split; [intros y Hy; specialize (D2 y Hy); lia|]. split; [intros En; specialize (D3 En); lia|]. intros y [= <-]; lia.
    + split; [lia|]. split; [intros y Hy; specialize (D2 y Hy); lia|]. split; [intros En; specialize (D3 En); lia|discriminate].
  - apply and_jitter; auto.
  - unfold or_next. destruct (ask_some 0 _ o now) as [[|x ts]|e]; try discriminate.
    cbn [apply_jitter draw]. intros [= <-]. destruct (draw_bounds o j Hf Hj) as (D1 & D2 & D3).
    exists (zmin x ts + 0). split; auto. split; [lia|]. split; [intros y Hy; specialize (D2 y Hy); lia|]. split; [intros En; specialize (D3 En); lia|]. intros y; discriminate.
  - discriminate.
Qed.

(** ** OR does not depend on the order of its children *)
From Coq Require Import Permutation.
Theorem or_order l l' prev fuel o now r : Permutation l l' -> Forall jitter_free l ->
  get_next fuel (TOr l None) prev o now = Ok r -> get_next fuel (TOr l' None) prev o now = Ok r.
Proof.
  intros HP Hj H. cbn [get_next] in *. unfold or_next in *.
  destruct (ask_some 0 (map (fun t => get_next fuel t prev) l) o now) as [a|e] eqn:Ea; [|discriminate].
  assert (HJ : forall x, In x l -> forall o o' n, get_next fuel x prev o n = get_next fuel x prev o' n).
  { intros x Hx. apply get_next_oracle. rewrite Forall_forall in Hj. auto. }
  assert (Hb : exists b, ask_some 0 (map (fun t => get_next fuel t prev) l') o now = Ok b /\ Permutation a b).
  { clear H r Hj. revert a Ea. 
    assert (G : forall i i' a, ask_some i (map (fun t => get_next fuel t prev) l) o now = Ok a ->
      exists b, ask_some i' (map (fun t => get_next fuel t prev) l') o now = Ok b /\ Permutation a b); [|intros a; apply G].
    induction HP as [|x l l' HP IH|x y l|l m n HP1 IH1 HP2 IH2]; intros i i' a; cbn [map ask_some].
    - intros [= <-]. exists []. auto.
    - rewrite (HJ x (or_introl eq_refl) (sub o i) (sub o i')). destruct (get_next fuel x prev (sub o i') now) as [v|]; [|discriminate].
      destruct (ask_some (S i) _ o now) as [c|] eqn:E; [|discriminate]. intros [= <-].
      destruct (IH ltac:(intros; apply HJ; now right) (S i) (S i') c E) as (b & -> & Hp). eexists. split; [reflexivity|].
      destruct v; auto.
    - rewrite (HJ x (or_intror (or_introl eq_refl)) (sub o i') (sub o (S i))), (HJ y (or_introl eq_refl) (sub o (S i')) (sub o i)).
      destruct (get_next fuel y prev (sub o i) now) as [v|]; [|discriminate].
      destruct (get_next fuel x prev (sub o (S i)) now) as [w|]; [|discriminate].
      assert (E2 : forall i i', ask_some i (map (fun t => get_next fuel t prev) l) o now = ask_some i' (map (fun t => get_next fuel t prev) l) o now).
      { intros q q'. clear - HJ. assert (HJ' : forall z, In z l -> forall o o' n, get_next fuel z prev o n = get_next fuel z prev o' n) by (intros; apply HJ; right; now right).
        clear HJ. revert q q'. induction l as [|z l IHl]; intros q q'; cbn [map ask_some]; auto.
        rewrite (HJ' z (or_introl eq_refl) (sub o q) (sub o q')). destruct (get_next _ _ _ _ _); auto.
        rewrite (IHl ltac:(intros; apply HJ'; now right) (S q) (S q')). reflexivity. }
      rewrite (E2 (S (S i')) (S (S i))). destruct (ask_some (S (S i)) _ o now) as [c|]; [|discriminate]. intros [= <-].
      eexists. split; [reflexivity|]. destruct v, w; auto. apply perm_swap.
    - intros Ha. destruct (IH1 HJ i i' a Ha) as (b & Hb & P1).
      destruct (IH2 ltac:(intros x Hx; apply HJ; eapply Permutation_in; [apply Permutation_sym; eassumption|exact Hx]) i' i' b Hb) as (c & Hc & P2).
      exists c. split; auto. eapply Permutation_trans; eauto. }
  destruct Hb as (b & -> & Hp). destruct a as [|t ts].
  - apply Permutation_nil in Hp. subst. exact H.
  - destruct b as [|u us']; [apply Permutation_sym, Permutation_nil in Hp; discriminate|].
    rewrite <- H. cbn [apply_jitter draw]. do 3 f_equal. symmetry. apply zmin_char.
    + eapply Permutation_in; [apply Permutation_sym, Hp|apply zmin_In].
    + intros y Hy. destruct (zmin_le u us') as [M1 M2]. eapply Permutation_in in Hy; [|exact Hp]. destruct Hy as [<-|Hy]; auto.
Qed.
