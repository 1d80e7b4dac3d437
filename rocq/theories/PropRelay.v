(** C93: the log relay of the process pool. *)
From Verif Require Import Prelude PreludeFacts Relay.
Open Scope Z_scope.
Ltac sp := repeat match goal with |- _ /\ _ => split end.

(** *** specification *)
(** [r] is a merge of the lists [ls]: every element exactly once, each list in its order *)
Inductive merged {A} : list (list A) -> list A -> Prop :=
| mg_none ls : Forall (fun l => l = []) ls -> merged ls []
| mg_next l1 l l2 x r : merged (l1 ++ l :: l2) r -> merged (l1 ++ (l ++ [x]) :: l2) (r ++ [x]).
Definition current (x : writer) : list call := match w_cur x with Some (c, _) => [c] | None => [] end.
(** the calls of a process: sent, being sent, to come *)
Definition follows (program : list call) (x : writer) : Prop := program = w_sent x ++ current x ++ w_todo x.
(** a call the receiving thread does not survive: it cannot be unpickled, or the logger raises *)
Definition breaks (w : wire) (c : call) : Prop := dec w (enc w c) = None \/ hidden c = false /\ raises w c = true.
(** what the logger makes of calls *)
Definition visible (l : list call) : list call := filter (fun c => negb (hidden c)) l.
(** pickling loses nothing, or fails on reading; the frame is written in one piece *)
Definition small (w : wire) (c : call) : Prop := (dec w (enc w c) = Some c \/ dec w (enc w c) = None) /\ 4 + size (enc w c) <= 4096.
Definition all_calls (P : call -> Prop) (programs : list (list call)) : Prop := forall p c, In p programs -> In c p -> P c.
(** the receiving thread and the log, when the calls have gone into the pipe in this order *)
Definition log_of (w : wire) (order : list call) (t : receiver) (log : list call) : Prop :=
  match t with
  | Reading => exists read unread, order = read ++ unread /\ Forall (fun c => ~ breaks w c) read /\ log = visible read
  | Ended => Forall (fun c => ~ breaks w c) order /\ log = visible order
  | Died => exists read c unread, order = read ++ c :: unread /\ Forall (fun c => ~ breaks w c) read /\ breaks w c /\ log = visible read
  end.

(** *** proofs *)
Definition frame (w : wire) (c : call) : list Z := header (size (enc w c)) ++ enc w c.
Lemma size_app {A} (a b : list A) : size (a ++ b) = size a + size b.
Proof. unfold size. rewrite app_length. lia. Qed.
Lemma size_pos {A} (a : list A) : 0 <= size a.
Proof. unfold size. lia. Qed.
Lemma header_back n : 0 <= n < 2147483648 -> exists a b c d, header n = [a; b; c; d] /\ length_of a b c d = Some n.
Proof.
  intros L. unfold header, length_of. do 4 eexists. split; [reflexivity|].
  assert (n / 16777216 mod 256 = n / 16777216) as -> by (apply Z.mod_small; split; [apply Z.div_pos; lia|apply Z.div_lt_upper_bound; lia]).
  assert (n / 16777216 < 128) by (apply Z.div_lt_upper_bound; lia). destruct (Z.ltb_spec (n / 16777216) 128); [|lia]. f_equal.
  replace 16777216 with (65536 * 256) at 1 2 by reflexivity. replace 65536 with (256 * 256) by reflexivity.
  rewrite <- !Z.div_div by lia. pose proof (Z.div_mod n 256). pose proof (Z.div_mod (n / 256) 256). pose proof (Z.div_mod (n / 256 / 256) 256). lia.
Qed.
Lemma read_frame_frame m rest : size m < 2147483648 -> read_frame (header (size m) ++ m ++ rest) = Frame m rest.
Proof.
  intros L. destruct (header_back (size m) (conj (size_pos m) L)) as (a & b & c & d & -> & E). cbn [read_frame app]. rewrite E.
  rewrite size_app. pose proof (size_pos rest). destruct (Z.leb_spec (size m) (size m + size rest)); [|lia].
  unfold size. rewrite Nat2Z.id, firstn_app, skipn_app, firstn_all, skipn_all, Nat.sub_diag. cbn. rewrite app_nil_r. reflexivity.
Qed.
Lemma size_header n : size (header n) = 4.
Proof. reflexivity. Qed.
Lemma pieces_small w c : small w c -> pieces (enc w c) = [(true, frame w c)].
Proof.
  intros [_ L]. unfold pieces, writes, frame. destruct (Z.leb_spec (size (enc w c)) 16384); [|lia]. cbn [map]. rewrite size_app, size_header.
  unfold pipe_buf. destruct (Z.leb_spec (4 + size (enc w c)) 4096); [reflexivity|lia].
Qed.
Lemma merged_snoc_none {A} (ls : list (list A)) : Forall (fun l => l = []) ls -> merged ls [].
Proof. apply mg_none. Qed.

Definition small_inv (w : wire) (programs : list (list call)) (s : relay) : Prop :=
  Forall2 follows programs (r_writers s) /\
  Forall (fun x => forall c ps, w_cur x = Some (c, ps) -> ps = [(true, frame w c)]) (r_writers s) /\
  exists order unread, merged (map w_sent (r_writers s)) order /\
    match r_thread s with
    | Reading => exists read, order = read ++ unread /\ Forall (fun c => ~ breaks w c) read /\ r_log s = visible read /\ r_pipe s = List.concat (map (frame w) unread)
    | _ => log_of w order (r_thread s) (r_log s) /\ (r_thread s = Ended -> Forall (fun x => w_open x = false) (r_writers s))
    end.
Lemma Forall2_mid {A B} (R : A -> B -> Prop) l m1 x m2 : Forall2 R l (m1 ++ x :: m2) ->
  exists l1 y l2, l = l1 ++ y :: l2 /\ Forall2 R l1 m1 /\ R y x /\ Forall2 R l2 m2.
Proof. intros F. apply Forall2_app_inv_r in F. destruct F as (l1 & l2 & F1 & F2 & ->). inversion F2 as [|y ? k ? Ry Fk]; subst. exists l1, y, k. auto. Qed.
Lemma Forall2_mid_back {A B} (R : A -> B -> Prop) l1 y l2 m1 x m2 : Forall2 R l1 m1 -> R y x -> Forall2 R l2 m2 -> Forall2 R (l1 ++ y :: l2) (m1 ++ x :: m2).
Proof. intros. apply Forall2_app; auto. Qed.
Lemma mid_change {A} (P : A -> Prop) l1 x y l2 : Forall P (l1 ++ x :: l2) -> (P x -> P y) -> Forall P (l1 ++ y :: l2).
Proof. intros F H. apply Forall_app in F. destruct F as [F1 F2]. inversion F2; subst. apply Forall_app. split; auto. Qed.

Lemma merged_In {A} (ls : list (list A)) r : merged ls r -> forall c, In c r -> exists l, In l ls /\ In c l.
Proof.
  induction 1 as [|l1 l l2 x r M IH]; intros c I; [destruct I|]. apply in_app_or in I. destruct I as [I|[<-|[]]].
  - destruct (IH c I) as (m & J & K). apply in_app_or in J. destruct J as [J|[<-|J]].
    + exists m. split; auto. apply in_or_app. auto.
    + exists (l ++ [x]). split; [apply in_or_app; right; left; auto|apply in_or_app; auto].
    + exists m. split; auto. apply in_or_app. right; right; auto.
  - exists (l ++ [x]). split; [apply in_or_app; right; left; auto|apply in_or_app; right; left; auto].
Qed.
Lemma sent_all P programs ws order : merged (map w_sent ws) order -> Forall2 follows programs ws -> all_calls P programs -> Forall P order.
Proof.
  intros M F SM. apply Forall_forall. intros c I. destruct (merged_In _ _ M c I) as (l & J & K). apply in_map_iff in J. destruct J as (x & <- & J).
  assert (exists q, In q programs /\ In c q) as (q & A & B); [|exact (SM q c A B)]. clear -F J K. induction F as [|q y programs ws Q F IH]; [destruct J|]. destruct J as [->|J].
  - exists q. split; [left; auto|]. rewrite Q. apply in_or_app. auto.
  - destruct (IH J) as (q' & A & B). exists q'. split; [right|]; auto.
Qed.
Lemma small_step w programs s s' : all_calls (small w) programs -> small_inv w programs s -> step w s s' -> small_inv w programs s'.
Proof.
  intros SM (F2 & FC & order & unread & M & T) ST. destruct ST; unfold small_inv; cbn [r_writers r_log r_thread r_pipe] in *.
  - (* send *) destruct (Forall2_mid _ _ _ _ _ F2) as (q1 & q & q2 & -> & A & B & C).
    assert (S : small w c). { apply (SM q c); [apply in_or_app; right; left; auto|]. rewrite B. cbn. apply in_or_app. right. left. auto. }
    split; [|split].
    + apply Forall2_mid_back; auto.
    + eapply mid_change; [exact FC|]. intros _ c' ps [= <- <-]. apply pieces_small. auto.
    + exists order, unread. split.
      * rewrite map_app in *. exact M.
      * destruct t; auto; destruct T as [T O]; (split; [exact T|]); intros E; try discriminate. specialize (O E). apply Forall_app in O. destruct O as [_ O]. inversion O; subst. discriminate.
  - (* write *) destruct (Forall2_mid _ _ _ _ _ F2) as (q1 & q & q2 & -> & A & B & C).
    assert (E : (true, b) :: ps = [(true, frame w c)]). { apply Forall_app in FC. destruct FC as [_ FC]. inversion FC; subst. eauto. }
    injection E as -> ->. cbn [after_piece w_sent w_todo w_open]. split; [|split].
    + apply Forall2_mid_back; auto. unfold follows in *. rewrite B. cbn. rewrite <- app_assoc. reflexivity.
    + eapply mid_change; [exact FC|]. intros _ c' ps [=].
    + exists (order ++ [c]). destruct t.
      * exists (unread ++ [c]). split; [rewrite map_app in *; apply mg_next; exact M|]. destruct T as (read & -> & T1 & T2 & ->). exists read. sp; auto.
        -- rewrite app_assoc. auto.
        -- rewrite map_app, concat_app. cbn. rewrite app_nil_r. auto.
      * exists []. destruct T as [_ O]. specialize (O eq_refl). apply Forall_app in O. destruct O as [_ O]. inversion O; subst. discriminate.
      * exists []. split; [rewrite map_app in *; apply mg_next; exact M|]. split; [|discriminate]. destruct T as [(read & c0 & un & -> & T1 & T2 & T3) _]. exists read, c0, (un ++ [c]).
        rewrite <- app_assoc. auto.
  - (* part *) exfalso. apply Forall_app in FC. destruct FC as [_ FC]. inversion FC; subst. specialize (H3 _ _ eq_refl). discriminate.
  - (* close *) destruct (Forall2_mid _ _ _ _ _ F2) as (q1 & q & q2 & -> & A & B & C). split; [|split].
    + apply Forall2_mid_back; auto.
    + eapply mid_change; [exact FC|]. intros _ c' ps [=].
    + exists order, unread. split.
      * rewrite map_app in *. exact M.
      * destruct t; auto; destruct T as [T O]; (split; [exact T|]); intros E; try discriminate. specialize (O E). apply Forall_app in O. destruct O as [_ O]. inversion O; subst. discriminate.
  - (* recv *) destruct T as (read & -> & T1 & -> & ->). destruct unread as [|c unread]; [discriminate|].
    cbn [map List.concat] in H. unfold frame at 1 in H. rewrite <- app_assoc in H.
    pose proof (sent_all _ _ _ _ M F2 SM) as FS. apply Forall_app in FS. destruct FS as [_ FS]. assert (S : small w c) by (inversion FS; auto).
    rewrite read_frame_frame in H by (destruct S; lia). injection H as <- <-.
    assert (D : match deliver w (enc w c) (visible read) with Some log' => ~ breaks w c /\ log' = visible (read ++ [c]) | None => breaks w c end).
    { unfold deliver, breaks, visible. destruct S as [[-> | ->] _]; [|auto]. rewrite filter_app. cbn [filter]. destruct (hidden c); cbn [negb].
      - split; [intros [?|[? ?]]; congruence|]. rewrite app_nil_r. auto.
      - destruct (raises w c); auto. split; [intros [?|[? ?]]; congruence|auto]. }
    destruct (deliver w (enc w c) (visible read)) as [log'|]; cbn [r_writers r_log r_thread r_pipe].
    + split; [auto|]. split; [auto|]. exists (read ++ c :: unread), unread. split; auto. destruct D as [D ->]. exists (read ++ [c]). sp; auto; [rewrite <- app_assoc; auto|apply Forall_app; auto].
    + split; [auto|]. split; [auto|]. exists (read ++ c :: unread), unread. split; auto. split; [|discriminate]. exists read, c, unread. auto.
  - (* bad *) exfalso. destruct T as (read & -> & T1 & -> & ->). destruct unread as [|c unread]; [discriminate|].
    cbn [map List.concat] in H. unfold frame at 1 in H. rewrite <- app_assoc in H.
    pose proof (sent_all _ _ _ _ M F2 SM) as FS. apply Forall_app in FS. destruct FS as [_ FS]. assert (S : small w c) by (inversion FS; auto).
    rewrite read_frame_frame in H by (destruct S; lia). discriminate.
  - (* eof *) destruct T as (read & -> & T1 & -> & ->). destruct unread as [|c unread].
    + cbn [map List.concat]. split; [auto|]. split; [auto|]. exists (read ++ []), []. split; auto. rewrite app_nil_r. split; auto. split; auto.
    + exfalso. cbn [map List.concat] in *. unfold frame at 1 in H0. rewrite <- app_assoc in H0.
      pose proof (sent_all _ _ _ _ M F2 SM) as FS. apply Forall_app in FS. destruct FS as [_ FS]. assert (S : small w c) by (inversion FS; auto).
      rewrite read_frame_frame in H0 by (destruct S; lia). discriminate.
Qed.
Lemma small_kill w programs s s' : small_inv w programs s -> killed s s' -> small_inv w programs s'.
Proof.
  intros (F2 & FC & order & unread & M & T) K. destruct K; unfold small_inv; cbn [r_writers r_log r_thread r_pipe] in *.
  destruct (Forall2_mid _ _ _ _ _ F2) as (q1 & q & q2 & -> & A & B & C). split; [|split].
  - apply Forall2_mid_back; auto.
  - eapply mid_change; [exact FC|]. auto.
  - exists order, unread. split; [rewrite map_app in *; exact M|]. destruct t; auto; destruct T as [T O]; (split; [exact T|]); intros E; try discriminate. specialize (O E).
    apply Forall_app in O. destruct O as [_ O]. inversion O; subst. discriminate.
Qed.
Lemma small_start w programs : small_inv w programs (started programs).
Proof.
  unfold started, small_inv; cbn [r_writers r_log r_thread r_pipe]. split; [|split].
  - induction programs; constructor; auto. reflexivity.
  - apply Forall_forall. intros x I. apply in_map_iff in I. destruct I as (l & <- & _). discriminate.
  - exists [], []. split; [|exists []; sp; auto]. apply mg_none. apply Forall_forall. intros x I. apply in_map_iff in I. destruct I as (y & <- & I). apply in_map_iff in I. destruct I as (l & <- & _). auto.
Qed.
Lemma small_run w programs s : all_calls (small w) programs -> run w (started programs) s -> small_inv w programs s.
Proof. intros SM R. induction R; [apply small_start|eapply small_step; eauto|eapply small_kill; eauto]. Qed.

(** C93.  While every message fits into PIPE_BUF bytes, whatever the processes do and whenever they are killed: the log
    shows each call exactly once, merged from the processes with each in its order, up to the first one the receiving
    thread does not survive; what a process has sent are its calls up to some point. *)
Theorem C93_in_order :
  forall (w : wire) (programs : list (list call)) (s : relay),
    all_calls (small w) programs -> run w (started programs) s ->
    Forall2 follows programs (r_writers s) /\
    exists order, merged (map w_sent (r_writers s)) order /\ log_of w order (r_thread s) (r_log s) /\
      (r_thread s = Ended -> Forall (fun x => w_open x = false) (r_writers s)).
Proof.
  intros w programs s SM R. destruct (small_run w programs s SM R) as (F2 & _ & order & unread & M & T). split; auto. exists order. split; auto.
  destruct (r_thread s) eqn:E; [|destruct T as [T O]; auto..]. destruct T as (read & -> & T1 & T2 & _). split; [exists read, unread; auto|discriminate].
Qed.
Print Assumptions C93_in_order.

(** nothing hangs: while no message breaks the thread, somebody can always go on until all calls of the processes that
    were not killed are in the log and the thread has ended, and that takes finitely many steps *)
Lemma open_or_not ws : Forall (fun x => w_open x = false) ws \/ exists l1 x l2, ws = l1 ++ x :: l2 /\ w_open x = true.
Proof.
  induction ws as [|x ws IH]; [left; auto|]. destruct (w_open x) eqn:E; [right; exists [], x, ws; auto|]. destruct IH as [IH|(l1 & y & l2 & -> & H)]; [left; auto|].
  right. exists (x :: l1), y, l2. auto.
Qed.
Theorem C93_never_stuck :
  forall (w : wire) (programs : list (list call)) (s : relay),
    all_calls (fun c => small w c /\ ~ breaks w c) programs -> 4096 <= cap w -> run w (started programs) s -> (forall s', ~ step w s s') ->
    shutdown_returns s /\ r_thread s = Ended /\
    exists order, merged (map w_sent (r_writers s)) order /\ r_log s = visible order /\ Forall2 follows programs (r_writers s) /\
      Forall (fun x => w_open x = false) (r_writers s).
Proof.
  intros w programs s SM CAP R ST. assert (SM1 : all_calls (small w) programs) by (intros p c A B; apply (SM p c A B)).
  destruct (small_run w programs s SM1 R) as (F2 & FC & order & unread & M & T).
  destruct (C93_in_order w programs s SM1 R) as (_ & order' & M' & L & O).
  assert (ND : r_thread s <> Died).
  { intros E. rewrite E in L. destruct L as (read & c & un & -> & _ & B & _). pose proof (sent_all _ _ _ _ M' F2 SM) as FS. apply Forall_app in FS. destruct FS as [_ FS]. inversion FS; subst. tauto. }
  assert (NR : r_thread s <> Reading).
  { intros E. rewrite E in T. destruct T as (read & -> & T1 & T2 & T3). destruct s as [p ws log t]; cbn [r_writers r_log r_thread r_pipe] in *. subst t.
    destruct unread as [|c unread].
    - cbn in T3. subst p. destruct (open_or_not ws) as [C|(l1 & x & l2 & -> & X)].
      + eapply ST. apply st_eof; [exact C|reflexivity].
      + destruct x as [sent cur todo op]; cbn in X; subst op. destruct cur as [[c ps]|].
        * assert (E : ps = [(true, frame w c)]). { apply Forall_app in FC. destruct FC as [_ FC]. inversion FC; subst. eauto. } subst ps.
          eapply ST. apply st_write. destruct (Forall2_mid _ _ _ _ _ F2) as (q1 & q & q2 & -> & A & B & C).
          assert (S : small w c). { apply (SM q c); [apply in_or_app; right; left; auto|]. rewrite B. cbn. apply in_or_app. right. left. auto. }
          unfold frame. rewrite size_app, size_header. destruct S as [_ S]. change (size (@nil Z)) with 0. lia.
        * destruct todo as [|c todo]; eapply ST; [apply st_close|apply st_send].
    - pose proof (sent_all _ _ _ _ M F2 SM1) as FS. apply Forall_app in FS. destruct FS as [_ FS]. assert (S : small w c) by (inversion FS; auto).
      subst p. eapply ST. apply st_recv. cbn [map List.concat]. unfold frame at 1. rewrite <- app_assoc. apply read_frame_frame. destruct S; lia. }
  destruct (r_thread s) eqn:E; [congruence| |congruence]. split; [unfold shutdown_returns; rewrite E; discriminate|]. split; auto. exists order'. destruct L as [_ L]. sp; auto.
Qed.
Print Assumptions C93_never_stuck.
Inductive run_in (w : wire) (s : relay) : nat -> relay -> Prop :=
| ri_now : run_in w s 0 s
| ri_next n s1 s2 : run_in w s n s1 -> step w s1 s2 \/ killed s1 s2 -> run_in w s (Datatypes.S n) s2.
Definition bytes (ps : list (bool * list Z)) : nat := List.length (List.concat (map snd ps)).
Definition weight (w : wire) (x : writer) : nat :=
  ((if w_open x then 1 else 0) + list_sum (map (fun c => 5 + 2 * (4 + List.length (enc w c))) (w_todo x)) +
  match w_cur x with None => 0 | Some (_, ps) => 1 + 2 * bytes ps + List.length ps end)%nat.
Definition measure (w : wire) (s : relay) : nat :=
  (List.length (r_pipe s) + list_sum (map (weight w) (r_writers s)) + match r_thread s with Reading => 1 | _ => 0 end)%nat.
Lemma pieces_weight m : (bytes (pieces m) = 4 + List.length m /\ List.length (pieces m) <= 2)%nat.
Proof. unfold pieces, writes, bytes. destruct (size m <=? 16384); cbn; rewrite ?app_nil_r; split; auto; cbn; lia. Qed.
Lemma read_frame_shorter p m rest : read_frame p = Frame m rest -> (List.length rest < List.length p)%nat.
Proof.
  unfold read_frame. destruct p as [|a [|b [|c [|d p]]]]; try discriminate. destruct (length_of a b c d); [|discriminate]. destruct (_ <=? _); [|discriminate]. intros [= <- <-].
  rewrite skipn_length. cbn. lia.
Qed.
Lemma list_sum_mid {A} (f : A -> nat) l1 x l2 : list_sum (map f (l1 ++ x :: l2)) = (list_sum (map f l1) + f x + list_sum (map f l2))%nat.
Proof. rewrite map_app, list_sum_app. cbn [map]. change (list_sum (f x :: map f l2)) with (f x + list_sum (map f l2))%nat. lia. Qed.
Lemma after_weight w c ps sent todo : (weight w (after_piece c ps (MkWriter sent None todo true)) <= 1 + list_sum (map (fun c => 5 + 2 * (4 + List.length (enc w c))) todo) + (1 + 2 * bytes ps + List.length ps))%nat.
Proof. unfold after_piece, weight. destruct ps; cbn [w_open w_todo w_cur]; lia. Qed.
Lemma step_measure w s s' : step w s s' \/ killed s s' -> (measure w s' < measure w s)%nat.
Proof.
  intros [ST|K].
  - destruct ST; unfold measure; cbn [r_pipe r_writers r_thread]; rewrite ?list_sum_mid.
    + unfold weight at 2 5. cbn [w_open w_todo w_cur map]. destruct (pieces_weight (enc w c)) as [-> L]. change (list_sum (?a :: ?l)) with (a + list_sum l)%nat. lia.
    + pose proof (after_weight w c ps sent todo) as AW. unfold weight at 5. cbn [w_open w_todo w_cur map]. rewrite app_length.
      assert (bytes ((true, b) :: ps) = List.length b + bytes ps)%nat as -> by (unfold bytes; cbn; rewrite app_length; auto). cbn [List.length]. lia.
    + match goal with |- context [after_piece c ?q _] => pose proof (after_weight w c q sent todo) as AW; set (qs := q) in * end. unfold weight at 5. cbn [w_open w_todo w_cur map]. rewrite app_length.
      assert (bytes ((false, b ++ b') :: ps) = List.length b + List.length b' + bytes ps)%nat as -> by (unfold bytes; cbn; rewrite !app_length; auto).
      assert (bytes qs = List.length b' + bytes ps /\ List.length qs <= 1 + List.length ps)%nat as [E1 E2].
      { unfold qs. destruct b'; [cbn; split; auto|]. split; [unfold bytes; cbn; rewrite ?app_length; auto|cbn; auto]. }
      destruct b as [|z b]; [congruence|]. cbn [List.length]. lia.
    + unfold weight at 2 5. cbn [w_open w_todo w_cur map]. lia.
    + apply read_frame_shorter in H. destruct (deliver w m log); cbn [r_pipe r_writers r_thread]; lia.
    + lia.
    + destruct p; lia.
  - destruct K; unfold measure; cbn [r_pipe r_writers r_thread]; rewrite ?list_sum_mid. unfold weight at 2 5. cbn [w_open w_todo w_cur map]. lia.
Qed.
Theorem C93_finitely_many :
  forall (w : wire) (programs : list (list call)), exists bound, forall n s, run_in w (started programs) n s -> (n <= bound)%nat.
Proof.
  intros w programs. exists (measure w (started programs)). intros n s R. enough (n + measure w s <= measure w (started programs))%nat by lia.
  induction R as [|n s1 s2 R IH ST]; [lia|]. apply step_measure in ST. lia.
Qed.
Print Assumptions C93_finitely_many.

(** one process alone may send messages of any length *)
Definition plain (w : wire) (c : call) : Prop := dec w (enc w c) = Some c /\ ~ breaks w c /\ size (enc w c) < 2147483648.
Definition idle (x : writer) : Prop := w_sent x = [] /\ w_cur x = None /\ w_todo x = [].
Definition in_flight (w : wire) (x : writer) (partial : list Z) : Prop :=
  match w_cur x with
  | None => partial = []
  | Some (c, ps) => partial ++ List.concat (map snd ps) = frame w c /\ ps <> [] /\ Forall (fun b => snd b <> []) ps
  end.
Definition one_inv (w : wire) (program : list call) (ws1 : list writer) (x : writer) (ws2 : list writer) (s : relay) : Prop :=
  r_writers s = ws1 ++ x :: ws2 /\ Forall idle ws1 /\ Forall idle ws2 /\ follows program x /\
  exists read unread partial, w_sent x = read ++ unread /\ r_log s = visible read /\ in_flight w x partial /\
  match r_thread s with
  | Reading => r_pipe s = List.concat (map (frame w) unread) ++ partial
  | Ended => unread = [] /\ Forall (fun x => w_open x = false) (r_writers s)
  | Died => unread = [] /\ w_cur x <> None /\ Forall (fun x => w_open x = false) (r_writers s)
  end.
Lemma mid_eq {A} (l1 : list A) y l2 m1 x m2 : l1 ++ y :: l2 = m1 ++ x :: m2 ->
  (l1 = m1 /\ y = x /\ l2 = m2) \/ (exists k, m1 = l1 ++ y :: k /\ l2 = k ++ x :: m2) \/ (exists k, m2 = k ++ y :: l2 /\ l1 = m1 ++ x :: k).
Proof.
  revert m1. induction l1 as [|a l1 IH]; intros m1 E; destruct m1 as [|b m1]; cbn in E.
  - injection E as -> ->. auto.
  - injection E as <- ->. right; left. exists m1. auto.
  - injection E as -> <-. right; right. exists l1. auto.
  - injection E as -> E. destruct (IH _ E) as [(-> & -> & ->)|[(k & -> & ->)|(k & -> & ->)]]; auto; right; [left|right]; exists k; auto.
Qed.
Lemma pieces_flat m : List.concat (map snd (pieces m)) = header (size m) ++ m /\ pieces m <> [] /\ Forall (fun b => snd b <> []) (pieces m).
Proof.
  unfold pieces, writes. destruct (Z.leb_spec (size m) 16384); cbn [map List.concat snd]; rewrite app_nil_r; sp; auto; try discriminate.
  - constructor; [discriminate|auto].
  - constructor; [discriminate|]. constructor; auto. cbn. intros ->. cbn in H. unfold size in H. cbn in H. lia.
Qed.
Lemma frame_unique w c partial rest : size (enc w c) < 2147483648 -> partial ++ rest = frame w c -> rest <> [] -> read_frame partial = Incomplete.
Proof.
  intros L E N. unfold frame in E. destruct (header_back (size (enc w c)) (conj (size_pos _) L)) as (h1 & h2 & h3 & h4 & EH & EL). rewrite EH in E.
  destruct partial as [|a1 [|a2 [|a3 [|a4 p]]]]; auto. cbn in E. injection E as -> -> -> -> E. cbn [read_frame]. rewrite EL.
  destruct (Z.leb_spec (size (enc w c)) (size p)) as [G|G]; auto. exfalso. rewrite <- E in G. rewrite size_app in G. destruct rest; [auto|]. unfold size in G. cbn in G. lia.
Qed.
Lemma in_flight_incomplete w x partial : (forall c ps, w_cur x = Some (c, ps) -> size (enc w c) < 2147483648) -> in_flight w x partial -> read_frame partial = Incomplete.
Proof.
  intros L F. unfold in_flight in F. destruct (w_cur x) as [[c ps]|] eqn:E; [|subst; auto]. destruct F as (F1 & F2 & F3). apply (frame_unique w c partial _ (L _ _ eq_refl) F1).
  destruct ps as [|[b' b] ps]; [congruence|]. inversion F3; subst. cbn in *. destruct b; [congruence|discriminate].
Qed.
Lemma one_step w program ws1 x ws2 s s' : (forall c, In c program -> plain w c) -> one_inv w program ws1 x ws2 s -> step w s s' \/ killed s s' ->
  exists ws1' x' ws2', List.length ws1' = List.length ws1 /\ one_inv w program ws1' x' ws2' s'.
Proof.
  intros PL (W & I1 & I2 & FO & read & unread & partial & E1 & E2 & FL & T) ST.
  assert (PS : forall c, In c (w_sent x) -> plain w c) by (intros c I; apply PL; rewrite FO; apply in_or_app; auto).
  assert (PC : forall c ps, w_cur x = Some (c, ps) -> size (enc w c) < 2147483648) by (intros c ps I; apply PL; rewrite FO; unfold current; rewrite I; apply in_or_app; right; left; auto).
  assert (IDL : forall y l1 l2, Forall idle (l1 ++ y :: l2) -> idle y) by (intros y l1 l2 F; apply Forall_app in F; destruct F as [_ F]; inversion F; auto).
  assert (NOC : r_thread s = Reading \/ Forall (fun x => w_open x = false) (r_writers s)) by (destruct (r_thread s); tauto).
  assert (ACT : forall l1 y l2, r_writers s = l1 ++ y :: l2 -> w_open y = true -> r_thread s = Reading).
  { intros l1 y l2 E O. destruct NOC as [NOC|F]; auto. exfalso. rewrite E in F. apply Forall_app in F. destruct F as [_ F]. inversion F; congruence. }
  destruct ST as [ST|K].
  - destruct ST; cbn [r_writers r_log r_thread r_pipe] in *.
    + (* send *) rewrite (ACT _ _ _ eq_refl eq_refl) in *. destruct (mid_eq _ _ _ _ _ _ W) as [(-> & <- & ->)|[(k & -> & ->)|(k & -> & ->)]].
      * exists ws1; do 2 eexists. split; [auto|]. unfold one_inv. cbn [r_writers r_log r_thread r_pipe]. split; [reflexivity|]. sp; auto.
        exists read, unread, []. unfold in_flight in *. cbn [w_sent w_cur w_todo] in *. subst partial. destruct (pieces_flat (enc w c)) as (P1 & P2 & P3). sp; auto.
      * apply IDL in I1. destruct I1 as (_ & _ & I1); discriminate I1.
      * apply IDL in I2. destruct I2 as (_ & _ & I2); discriminate I2.
    + (* write *) rewrite (ACT _ _ _ eq_refl eq_refl) in *. destruct (mid_eq _ _ _ _ _ _ W) as [(-> & <- & ->)|[(k & -> & ->)|(k & -> & ->)]].
      * exists ws1; do 2 eexists. split; [auto|]. unfold one_inv. cbn [r_writers r_log r_thread r_pipe]. split; [reflexivity|]. split; auto. split; auto.
        unfold in_flight in FL. cbn [w_sent w_cur w_todo] in *. destruct FL as (F1 & F2 & F3). cbn [map snd List.concat] in F1. unfold after_piece. destruct ps as [|q ps].
        -- split; [unfold follows in *; rewrite FO; cbn; rewrite <- app_assoc; auto|]. exists read, (unread ++ [c]), []. cbn [w_sent w_cur w_todo]. cbn [map snd List.concat] in F1. rewrite app_nil_r in F1. sp; auto.
           ++ rewrite app_assoc, E1. auto.
           ++ reflexivity.
           ++ rewrite T, map_app, concat_app, app_nil_r. cbn [map List.concat]. rewrite app_nil_r, <- F1, app_assoc. auto.
        -- split; [auto|]. exists read, unread, (partial ++ b). unfold in_flight. cbn [w_sent w_cur w_todo]. sp; auto.
           ++ rewrite <- app_assoc. auto.
           ++ discriminate.
           ++ inversion F3; auto.
           ++ rewrite T, app_assoc. auto.
      * apply IDL in I1. destruct I1 as (_ & I1 & _); discriminate I1.
      * apply IDL in I2. destruct I2 as (_ & I2 & _); discriminate I2.
    + (* part *) rewrite (ACT _ _ _ eq_refl eq_refl) in *. destruct (mid_eq _ _ _ _ _ _ W) as [(-> & <- & ->)|[(k & -> & ->)|(k & -> & ->)]].
      * exists ws1; do 2 eexists. split; [auto|]. unfold one_inv. cbn [r_writers r_log r_thread r_pipe]. split; [reflexivity|]. split; auto. split; auto.
        unfold in_flight in FL. cbn [w_sent w_cur w_todo] in *. destruct FL as (F1 & F2 & F3). cbn [map snd List.concat] in F1. inversion F3 as [|? ? Q1 Q2].
        destruct b' as [|z b'].
        -- rewrite app_nil_r in F1. unfold after_piece. destruct ps as [|q ps].
           ++ split; [unfold follows in *; rewrite FO; cbn; rewrite <- app_assoc; auto|]. exists read, (unread ++ [c]), []. cbn [w_sent w_cur w_todo]. cbn [map snd List.concat] in F1. rewrite app_nil_r in F1. sp; auto.
              ** rewrite app_assoc, E1. auto.
              ** reflexivity.
              ** rewrite T, map_app, concat_app, app_nil_r. cbn [map List.concat]. rewrite app_nil_r, <- F1, app_assoc. auto.
           ++ split; [auto|]. exists read, unread, (partial ++ b). unfold in_flight. cbn [w_sent w_cur w_todo]. sp; auto.
              ** rewrite <- app_assoc. auto.
              ** discriminate.
              ** rewrite T, app_assoc. auto.
        -- unfold after_piece. split; [auto|]. exists read, unread, (partial ++ b). unfold in_flight. cbn [w_sent w_cur w_todo]. sp; auto.
           ++ rewrite <- app_assoc. cbn [map snd List.concat]. rewrite <- F1. rewrite <- app_assoc. auto.
           ++ discriminate.
           ++ constructor; auto. discriminate.
           ++ rewrite T, app_assoc. auto.
      * apply IDL in I1. destruct I1 as (_ & I1 & _); discriminate I1.
      * apply IDL in I2. destruct I2 as (_ & I2 & _); discriminate I2.
    + (* close *) rewrite (ACT _ _ _ eq_refl eq_refl) in *. destruct (mid_eq _ _ _ _ _ _ W) as [(-> & <- & ->)|[(k & -> & ->)|(k & -> & ->)]].
      * exists ws1; do 2 eexists. split; [auto|]. unfold one_inv. cbn [r_writers r_log r_thread r_pipe]. split; [reflexivity|]. sp; auto. exists read, unread, partial. sp; auto.
      * exists (l1 ++ MkWriter sent None [] false :: k), x, ws2. split; [rewrite !app_length; auto|]. unfold one_inv. cbn [r_writers r_log r_thread r_pipe]. split; [rewrite <- app_assoc; auto|]. sp; auto.
        -- eapply mid_change; [exact I1|]. auto.
        -- exists read, unread, partial. sp; auto.
      * exists ws1, x, (k ++ MkWriter sent None [] false :: l2). split; [auto|]. unfold one_inv. cbn [r_writers r_log r_thread r_pipe]. split; [rewrite <- app_assoc; auto|]. sp; auto.
        -- eapply mid_change; [exact I2|]. auto.
        -- exists read, unread, partial. sp; auto.
    + (* recv *) subst p ws. destruct unread as [|c unread]; [cbn in H; rewrite (in_flight_incomplete w x partial PC FL) in H; discriminate|].
      assert (P : plain w c) by (apply PS; rewrite E1; apply in_or_app; right; left; auto). destruct P as (P1 & P2 & P3).
      cbn [map List.concat] in H. unfold frame at 1 in H. rewrite <- !app_assoc in H. rewrite read_frame_frame in H by auto. injection H as <- <-.
      assert (D : deliver w (enc w c) log = Some (visible (read ++ [c]))).
      { unfold deliver. rewrite P1. unfold visible. rewrite filter_app, E2. cbn [filter]. unfold breaks in P2. destruct (hidden c); cbn [negb]; [rewrite app_nil_r; auto|]. destruct (raises w c); auto. exfalso. apply P2. auto. }
      rewrite D. exists ws1, x, ws2. split; [auto|]. unfold one_inv. cbn [r_writers r_log r_thread r_pipe]. sp; auto. exists (read ++ [c]), unread, partial. sp; auto. rewrite E1, <- app_assoc. auto.
    + (* bad *) exfalso. subst p ws. destruct unread as [|c unread]; [cbn in H; rewrite (in_flight_incomplete w x partial PC FL) in H; discriminate|].
      assert (P : plain w c) by (apply PS; rewrite E1; apply in_or_app; right; left; auto). destruct P as (P1 & P2 & P3).
      cbn [map List.concat] in H. unfold frame at 1 in H. rewrite <- !app_assoc in H. rewrite read_frame_frame in H by auto. discriminate.
    + (* eof *) subst p ws. destruct unread as [|c unread].
      * cbn [map List.concat app]. exists ws1, x, ws2. split; [auto|]. unfold one_inv. cbn [r_writers r_log r_thread r_pipe]. sp; auto. exists read, [], partial. sp; auto.
        destruct partial as [|z partial]; [auto|]. split; auto. split; auto. unfold in_flight in FL. destruct (w_cur x); [discriminate|congruence].
      * exfalso. assert (P : plain w c) by (apply PS; rewrite E1; apply in_or_app; right; left; auto). destruct P as (P1 & P2 & P3).
        cbn [map List.concat] in H0. unfold frame at 1 in H0. rewrite <- !app_assoc in H0. rewrite read_frame_frame in H0 by auto. discriminate.
  - destruct K; cbn [r_writers r_log r_thread r_pipe] in *. rewrite (ACT _ _ _ eq_refl eq_refl) in *. destruct (mid_eq _ _ _ _ _ _ W) as [(-> & <- & ->)|[(k & -> & ->)|(k & -> & ->)]].
    + exists ws1; do 2 eexists. split; [auto|]. unfold one_inv. cbn [r_writers r_log r_thread r_pipe]. split; [reflexivity|]. sp; auto. exists read, unread, partial. sp; auto.
    + exists (l1 ++ MkWriter sent cur todo false :: k), x, ws2. split; [rewrite !app_length; auto|]. unfold one_inv. cbn [r_writers r_log r_thread r_pipe]. split; [rewrite <- app_assoc; auto|]. sp; auto.
      * eapply mid_change; [exact I1|]. auto.
      * exists read, unread, partial. sp; auto.
    + exists ws1, x, (k ++ MkWriter sent cur todo false :: l2). split; [auto|]. unfold one_inv. cbn [r_writers r_log r_thread r_pipe]. split; [rewrite <- app_assoc; auto|]. sp; auto.
      * eapply mid_change; [exact I2|]. auto.
      * exists read, unread, partial. sp; auto.
Qed.
(** If only one process sends at all, its messages may have any length below 2 GiB: the log shows its visible calls in
    order, all of those sent once the thread has ended; the thread dies only when the process is killed inside a message. *)
Theorem C93_one_sender :
  forall (w : wire) (before after : list (list call)) (program : list call) (s : relay),
    (forall l, In l (before ++ after) -> l = []) -> (forall c, In c program -> plain w c) ->
    run w (started (before ++ program :: after)) s ->
    exists x read unread, nth_error (r_writers s) (List.length before) = Some x /\ follows program x /\ w_sent x = read ++ unread /\ r_log s = visible read /\
      (r_thread s <> Reading -> unread = [] /\ Forall (fun y => w_open y = false) (r_writers s)) /\ (r_thread s = Died -> w_cur x <> None).
Proof.
  intros w l1 l2 p s EM PL R.
  assert (G : exists ws1 x ws2, List.length ws1 = List.length l1 /\ one_inv w p ws1 x ws2 s).
  { induction R as [|s1 s2 R IH ST|s1 s2 R IH ST].
    - exists (map (fun l => MkWriter [] None l true) l1), (MkWriter [] None p true), (map (fun l => MkWriter [] None l true) l2).
      split; [rewrite map_length; auto|]. unfold one_inv, started. cbn [r_writers r_log r_thread r_pipe]. rewrite map_app. sp; auto.
      + apply Forall_forall. intros x I. apply in_map_iff in I. destruct I as (l & <- & I). rewrite (EM l) by (apply in_or_app; auto). repeat split.
      + apply Forall_forall. intros x I. apply in_map_iff in I. destruct I as (l & <- & I). rewrite (EM l) by (apply in_or_app; auto). repeat split.
      + reflexivity.
      + exists [], [], []. sp; auto. reflexivity.
    - destruct IH as (a & b & c & L & IH). destruct (one_step w p a b c s1 s2 PL IH (or_introl ST)) as (a' & b' & c' & L' & IH'). exists a', b', c'. split; [congruence|auto].
    - destruct IH as (a & b & c & L & IH). destruct (one_step w p a b c s1 s2 PL IH (or_intror ST)) as (a' & b' & c' & L' & IH'). exists a', b', c'. split; [congruence|auto]. }
  destruct G as (ws1 & x & ws2 & L & W & I1 & I2 & FO & read & unread & partial & E1 & E2 & FL & T). exists x, read, unread. sp; auto.
  - rewrite W, <- L, nth_error_app2, Nat.sub_diag by lia. auto.
  - intros N. destruct (r_thread s); [congruence|tauto|tauto].
  - intros E. rewrite E in T. tauto.
Qed.
Print Assumptions C93_one_sender.

(** once the thread is dead nothing more is logged, and the processes hang when the pipe is full *)
Definition to_write (w : wire) (x : writer) : nat :=
  (match w_cur x with None => 0 | Some (_, ps) => bytes ps end + list_sum (map (fun c => 4 + List.length (enc w c)) (w_todo x)))%nat.
Definition total (w : wire) (ws : list writer) : nat := list_sum (map (to_write w) ws).
Lemma bytes_cons b ps : bytes (b :: ps) = (List.length (snd b) + bytes ps)%nat.
Proof. unfold bytes. cbn. rewrite app_length. auto. Qed.
Lemma after_to_write w c ps sent todo op : to_write w (after_piece c ps (MkWriter sent None todo op)) = (bytes ps + list_sum (map (fun c => 4 + List.length (enc w c)) todo))%nat.
Proof. unfold after_piece, to_write. destruct ps; reflexivity. Qed.
Definition less (w : wire) (x x' : writer) : Prop := (to_write w x' <= to_write w x)%nat.
Lemma less_refl w ws : Forall2 (less w) ws ws.
Proof. induction ws; constructor; auto. unfold less. lia. Qed.
Lemma less_mid w l1 l2 x x' : less w x x' -> Forall2 (less w) (l1 ++ x :: l2) (l1 ++ x' :: l2).
Proof. intros L. apply Forall2_app; [apply less_refl|]. constructor; [auto|apply less_refl]. Qed.
Lemma less_trans w a b d : Forall2 (less w) a b -> Forall2 (less w) b d -> Forall2 (less w) a d.
Proof. intros F. revert d. induction F; intros d G; inversion G; subst; constructor; auto. unfold less in *. lia. Qed.
Lemma dead_step w s s' : step w s s' \/ killed s s' -> r_thread s <> Reading ->
  r_log s' = r_log s /\ r_thread s' = r_thread s /\ Forall2 (less w) (r_writers s) (r_writers s') /\
  (List.length (r_pipe s') + total w (r_writers s') = List.length (r_pipe s) + total w (r_writers s))%nat /\ (size (r_pipe s) <= cap w -> size (r_pipe s') <= cap w).
Proof.
  intros [ST|K] ND.
  - destruct ST; cbn [r_writers r_log r_thread r_pipe] in *; try congruence; split; auto; split; auto; unfold total; rewrite ?list_sum_mid.
    + assert (E : to_write w (MkWriter sent (Some (c, pieces (enc w c))) todo true) = to_write w (MkWriter sent None (c :: todo) true)).
      { unfold to_write. cbn [w_cur w_todo map]. destruct (pieces_weight (enc w c)) as [-> _]. reflexivity. }
      split; [apply less_mid; unfold less; lia|]. split; [lia|auto].
    + rewrite after_to_write. unfold to_write at 4. cbn [w_cur w_todo]. rewrite bytes_cons. cbn [snd]. split; [apply less_mid; unfold less; rewrite after_to_write; unfold to_write; cbn [w_cur w_todo]; rewrite bytes_cons; lia|].
      rewrite app_length, size_app. split; [lia|auto].
    + rewrite after_to_write. unfold to_write at 4. cbn [w_cur w_todo]. rewrite bytes_cons. cbn [snd]. rewrite app_length.
      assert (E : bytes (match b' with [] => ps | _ => (false, b') :: ps end) = (List.length b' + bytes ps)%nat) by (destruct b'; [auto|apply bytes_cons]). rewrite E.
      split; [apply less_mid; unfold less; rewrite after_to_write, E; unfold to_write; cbn [w_cur w_todo]; rewrite bytes_cons; cbn [snd]; rewrite app_length; lia|].
      rewrite app_length, size_app. split; [lia|auto].
    + split; [apply less_mid; unfold less; auto|]. split; auto.
  - destruct K; cbn [r_writers r_log r_thread r_pipe] in *. split; auto; split; auto; unfold total; rewrite ?list_sum_mid. split; [apply less_mid; unfold less; auto|]. split; auto.
Qed.
Lemma pipe_fits w programs s : 0 <= cap w -> run w (started programs) s -> size (r_pipe s) <= cap w.
Proof.
  intros C R. induction R as [|s1 s2 R IH ST|s1 s2 R IH ST]; [exact C| |].
  - destruct ST; cbn [r_pipe] in *; rewrite ?size_app; auto; try lia. apply read_frame_shorter in H. destruct (deliver w m log); cbn [r_pipe]; unfold size in *; lia.
  - destruct ST; auto.
Qed.
Lemma sum_gap w ws ws' : Forall2 (less w) ws ws' -> forall i x x', nth_error ws i = Some x -> nth_error ws' i = Some x' ->
  (to_write w x + total w ws' <= to_write w x' + total w ws)%nat.
Proof.
  assert (T : forall x ws, total w (x :: ws) = (to_write w x + total w ws)%nat) by reflexivity.
  induction 1 as [|y y' ws ws' L F IH]; intros [|i] x x' A B; cbn in A, B; try discriminate; rewrite !T.
  - injection A as ->. injection B as ->. assert (total w ws' <= total w ws)%nat; [|lia]. clear -F T. induction F; [auto|]. rewrite !T. unfold less in H. lia.
  - specialize (IH _ _ _ A B). unfold less in L. lia.
Qed.
Theorem C93_receiver_gone :
  forall (w : wire) (programs : list (list call)) (s s' : relay),
    0 <= cap w -> run w (started programs) s -> r_thread s = Died -> run w s s' ->
    r_log s' = r_log s /\ r_thread s' = Died /\
    forall i x x', nth_error (r_writers s) i = Some x -> nth_error (r_writers s') i = Some x' ->
      cap w < size (List.concat (map (fun c => header (size (enc w c)) ++ enc w c) (w_todo x))) -> w_cur x' <> None \/ w_todo x' <> [].
Proof.
  intros w programs s s' C R D R'. pose proof (pipe_fits w programs s C R) as PF.
  assert (G : r_log s' = r_log s /\ r_thread s' = Died /\ Forall2 (less w) (r_writers s) (r_writers s') /\
    (List.length (r_pipe s') + total w (r_writers s') = List.length (r_pipe s) + total w (r_writers s))%nat /\ size (r_pipe s') <= cap w).
  { induction R' as [|s1 s2 R' IH ST|s1 s2 R' IH ST]; [sp; auto; apply less_refl| |];
      destruct IH as (A1 & A2 & A3 & A4 & A5); [assert (ST' := or_introl ST : step w s1 s2 \/ killed s1 s2)|assert (ST' := or_intror ST : step w s1 s2 \/ killed s1 s2)];
      destruct (dead_step w s1 s2 ST' ltac:(rewrite A2; discriminate)) as (B1 & B2 & B3 & B4 & B5); sp; try congruence; try lia; auto; eapply less_trans; eauto. }
  destruct G as (A1 & A2 & A3 & A4 & A5). sp; auto. intros i x x' N N' BIG. pose proof (sum_gap w _ _ A3 i x x' N N') as GAP.
  destruct (w_cur x') as [[c ps]|] eqn:CU; [left; discriminate|]. right. intros TD.
  assert (Z0 : to_write w x' = 0%nat) by (unfold to_write; rewrite CU, TD; reflexivity).
  assert (LB : size (List.concat (map (fun c => header (size (enc w c)) ++ enc w c) (w_todo x))) <= Z.of_nat (to_write w x)).
  { unfold to_write, size. generalize (w_todo x) as l. intros l. assert (E : List.length (List.concat (map (fun c => header (Z.of_nat (List.length (enc w c))) ++ enc w c) l)) = list_sum (map (fun c => 4 + List.length (enc w c))%nat l)).
    { induction l as [|c l IH]; [reflexivity|]. cbn [map List.concat]. rewrite !app_length, IH. reflexivity. } rewrite E. lia. }
  unfold size in *. lia.
Qed.
Print Assumptions C93_receiver_gone.

(** Longer messages of two processes destroy each other: both processes send their message and end, pickling loses
    nothing, the logger would take both, and neither arrives. *)
Definition long_wire : wire :=
  MkWire (fun c => repeat (hd 0 (cl_args c)) 5000)
         (fun l => match l with x :: _ => if (Nat.eqb (List.length l) 5000 && forallb (Z.eqb x) l)%bool then Some (MkCall "info" [x]) else None | [] => None end)
         (fun _ => false) 65536.
Definition long_call (n : Z) : call := MkCall "info" [n].
Lemma long_pieces n : pieces (enc long_wire (long_call n)) = [(false, header 5000 ++ repeat n 5000)].
Proof. unfold pieces, writes. change (size (enc long_wire (long_call n))) with (size (repeat n 5000)). unfold size. rewrite repeat_length. vm_compute (Z.of_nat 5000). change (5000 <=? 16384) with true. cbn [map].
  change (enc long_wire (long_call n)) with (repeat n 5000). do 2 f_equal. Qed.
Theorem C93_long_messages_refuted :
  exists (w : wire) (c1 c2 : call) (s : relay),
    cap w = 65536 /\ plain w c1 /\ plain w c2 /\ run w (started [[c1]; [c2]]) s /\
    r_writers s = [MkWriter [c1] None [] false; MkWriter [c2] None [] false] /\ r_thread s = Died /\ r_log s = [].
Proof.
  exists long_wire, (long_call 1), (long_call 2).
  assert (P : forall n, n = 1 \/ n = 2 -> plain long_wire (long_call n)).
  { intros n N. assert (D : dec long_wire (enc long_wire (long_call n)) = Some (long_call n)) by (destruct N; subst; vm_compute; reflexivity).
    split; [exact D|]. split; [|destruct N; subst; vm_compute; reflexivity]. intros [E|[_ E]]; [rewrite D in E; discriminate|discriminate E]. }
  pose (h := header 5000). pose (m1 := repeat 1 5000). pose (m2 := repeat 2 5000).
  pose (W := long_wire). pose (A := long_call 1). pose (B := long_call 2).
  eexists. split; [reflexivity|]. split; [apply P; auto|]. split; [apply P; auto|]. split; [|shelve].
  eapply run_step. 2:{ apply (st_recv W ((h ++ h ++ m2) ++ m1) [MkWriter [A] None [] false; MkWriter [B] None [] false] [] (h ++ firstn 4996 m2) (skipn 4996 m2 ++ m1)). vm_compute. reflexivity. }
  eapply run_step. 2:{ apply (st_close W _ [MkWriter [A] None [] false] []). }
  eapply run_step. 2:{ apply (st_close W _ [] [MkWriter [B] None [] true]). }
  eapply run_step. 2:{ apply (st_part W (h ++ h ++ m2) [] [MkWriter [B] None [] true] [] Reading [] A m1 [] [] []); [discriminate|vm_compute; discriminate]. }
  eapply run_step. 2:{ rewrite app_nil_r. replace (h ++ h ++ m2) with (h ++ (h ++ m2)) by reflexivity.
    apply (st_part W h [MkWriter [] (Some (A, [(false, m1)])) [] true] [] [] Reading [] B (h ++ m2) [] [] []); [discriminate|vm_compute; discriminate]. }
  eapply run_step. 2:{ rewrite app_nil_r. unfold h, m2. rewrite <- (long_pieces 2). apply (st_send W _ [MkWriter [] (Some (A, [(false, m1)])) [] true] [] [] Reading [] B []). }
  eapply run_step. 2:{ apply (st_part W [] [] [MkWriter [] None [B] true] [] Reading [] A h m1 [] []); [discriminate|vm_compute; discriminate]. }
  eapply run_step. 2:{ unfold h, m1. rewrite <- (long_pieces 1). apply (st_send W [] [] [MkWriter [] None [B] true] [] Reading [] A []). }
  apply run_now.
  Unshelve. vm_compute. auto.
Qed.
Print Assumptions C93_long_messages_refuted.

(** two workers and three short messages, one of them hidden *)
Definition short_wire : wire :=
  MkWire (fun c => if hidden c then 7 :: cl_args c else cl_args c)
         (fun l => match l with 7 :: l' => Some (MkCall "_x" l') | _ => Some (MkCall "info" l) end) (fun _ => false) 65536.
Example C93_case :
  all_calls (fun c => small short_wire c /\ ~ breaks short_wire c) [[MkCall "info" [1]; MkCall "_x" [2]]; [MkCall "info" [3]]] /\
  exists s, run short_wire (started [[MkCall "info" [1]; MkCall "_x" [2]]; [MkCall "info" [3]]]) s /\ r_log s = [MkCall "info" [1]]%string /\ r_thread s = Reading /\ r_pipe s = header 2 ++ [7; 2].
Proof.
  split.
  - intros p c [<-|[<-|[]]] I; cbn in I; repeat destruct I as [<-|I]; try destruct I;
      (split; [split; [left; reflexivity|vm_compute; discriminate]|intros [E|[E1 E2]]; [discriminate E|discriminate]]).
  - eexists. split; [|shelve].
    eapply run_step. 2:{ apply (st_recv short_wire (header 1 ++ [1] ++ header 2 ++ [7; 2]) [MkWriter [MkCall "info" [1]; MkCall "_x" [2]] None [] true; MkWriter [] None [MkCall "info" [3]] true] [] [1] (header 2 ++ [7; 2])). reflexivity. }
    eapply run_step. 2:{ apply (st_write short_wire (header 1 ++ [1]) [] [MkWriter [] None [MkCall "info" [3]] true] [] Reading [MkCall "info" [1]] (MkCall "_x" [2]) (header 2 ++ [7; 2]) [] []). vm_compute; discriminate. }
    eapply run_step. 2:{ apply (st_send short_wire (header 1 ++ [1]) [] [MkWriter [] None [MkCall "info" [3]] true] [] Reading [MkCall "info" [1]] (MkCall "_x" [2]) []). }
    eapply run_step. 2:{ apply (st_write short_wire [] [] [MkWriter [] None [MkCall "info" [3]] true] [] Reading [] (MkCall "info" [1]) (header 1 ++ [1]) [] [MkCall "_x" [2]]). vm_compute; discriminate. }
    eapply run_step. 2:{ apply (st_send short_wire [] [] [MkWriter [] None [MkCall "info" [3]] true] [] Reading [] (MkCall "info" [1]) [MkCall "_x" [2]]). }
    apply run_now.
    Unshelve. vm_compute. auto.
Qed.
