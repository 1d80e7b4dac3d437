(** C101: the links and buttons beside a task lead to that task. *)
From Verif Require Import Prelude Text Remote Links LinksSpec LinksProofs.
From Verif Require Gate.
Open Scope string_scope.
Local Ltac sp := repeat match goal with |- _ /\ _ => split end.

(** ** simple words *)
Definition odd_char (a : ascii) : bool := low a || stops a || slash a || Ascii.eqb a "%" || Ascii.eqb a ":" || tab_or_newline a || Ascii.eqb a "&" || Ascii.eqb a "+".
Lemma simple_char_fine c : simple_char c -> odd_char c = false.
Proof. unfold simple_char, alpha. cbn [In list_ascii_of_string]. intros [H|H]; repeat destruct H as [<-|H]; try reflexivity; destruct H. Qed.
Lemma simple_fine s : Forall simple_char (list_ascii_of_string s) -> any odd_char s = false.
Proof. induction s as [|a s IH]; cbn [list_ascii_of_string any]; auto. intros H. inversion H; subst. rewrite simple_char_fine, IH by auto. auto. Qed.
Lemma fine_weaken s (p : ascii -> bool) : (forall c, p c = true -> odd_char c = true) -> any odd_char s = false -> any p s = false.
Proof. intros W. apply any_false_weaken. auto. Qed.
Lemma in_list c l : existsb (Ascii.eqb c) l = true -> In c l.
Proof. intros H. apply existsb_exists in H as (x & I & E). apply Ascii.eqb_eq in E as ->. auto. Qed.
Definition simple_b (s : string) : bool :=
  negb (String.eqb s "") && negb (String.eqb s ".") && negb (String.eqb s "..") &&
  forallb (fun c => existsb (Ascii.eqb c) (list_ascii_of_string "ABCDEFGHIJKLMNOPQRSTUVWXYZabcdefghijklmnopqrstuvwxyz") || existsb (Ascii.eqb c) (list_ascii_of_string "0123456789-_.~")) (list_ascii_of_string s).
Lemma simple_by s : simple_b s = true -> simple s.
Proof.
  unfold simple_b. rewrite !andb_true_iff, !negb_true_iff, !String.eqb_neq, forallb_forall. intros (((A & B) & C) & D). unfold simple. sp; auto.
  apply Forall_forall. intros c Hc. specialize (D c Hc). apply orb_true_iff in D as [D|D]; apply in_list in D; [left|right]; exact D.
Qed.
Ltac odd := let c := fresh in let H := fresh in intros c H; unfold odd_char, slash, stops in *; rewrite ?orb_true_iff in *; tauto.
Lemma no_percent s : any odd_char s = false -> ~ has_escape s.
Proof.
  intros F (u & h & l & v & -> & _). rewrite any_app in F. apply orb_false_iff in F as [_ F]. discriminate.
Qed.
Lemma simple_segment s : simple s -> any odd_char s = false /\ dot s = false /\ dot_dot s = false /\ split_on "/" (unquote s) = [s] /\ s <> "".
Proof.
  intros (N & D & DD & F). apply simple_fine in F. pose proof (no_percent s F) as NP. destruct (dots s NP) as [A B]. sp; auto.
  - destruct (dot s); auto. destruct D. apply A. auto.
  - destruct (dot_dot s); auto. destruct DD. apply B. auto.
  - rewrite unquote_id by auto. apply split_none. apply (fine_weaken s); auto. odd.
Qed.

(** ** a reference with the dashboard's prefix *)
Lemma path_text_cons m ms : path_text (m :: ms) = String "/" m ++ path_text ms.
Proof. unfold path_text. cbn [map String.concat]. destruct (map (String "/") ms) eqn:E; cbn [append String.concat]; auto. rewrite app_nil. auto. Qed.
Lemma path_text_any p ms : p "/"%char = false -> Forall (fun m => any p m = false) ms -> any p (path_text ms) = false.
Proof. intros S F. induction F; auto. rewrite path_text_cons, any_app. cbn. rewrite S, H, IHF. auto. Qed.
Lemma split_path ms x : Forall (fun m => any (fun c => Ascii.eqb c "/") m = false) ms -> split_on "/" (path_text ms ++ String "/" x) = "" :: (ms ++ split_on "/" x)%list.
Proof.
  intros F. revert x. induction F as [|m ms H F IH]; intros x; [reflexivity|]. rewrite path_text_cons, app_ass. cbn [append split_on Ascii.eqb Bool.eqb].
  f_equal. destruct ms as [|m' ms]; [cbn [path_text map String.concat append]; rewrite split_app, (split_none "/" m) by auto; auto|].
  specialize (IH x). rewrite path_text_cons in IH |- *. cbn [append split_on Ascii.eqb Bool.eqb] in IH |- *. rewrite split_app, (split_none "/" m) by auto. cbn [app]. f_equal. injection IH as ->. auto.
Qed.
Lemma dle_free A Z : any low A = false -> drop_low_end (A ++ Z) = A ++ drop_low_end Z.
Proof. induction A as [|a A IH]; cbn; auto. intros H. apply orb_false_iff in H as [L H]. rewrite IH by auto. rewrite L. destruct (A ++ drop_low_end Z); auto. Qed.
Lemma walk_plain ms L acc : Forall (fun m => dot m = false /\ dot_dot m = false) ms -> L <> [] -> walk acc (ms ++ L) = walk (acc ++ ms) L.
Proof.
  intros F NE. revert acc. induction F as [|m ms [A B] F IH]; intros acc; [cbn; rewrite app_nil_r; auto|]. cbn [app walk]. rewrite A, B. destruct (ms ++ L)%list eqn:E; [destruct ms; cbn in E; congruence|]. rewrite IH, <- app_assoc. auto.
Qed.
Section Mounted.
  Variables (mount : list string) (scheme : string).
  Hypothesis (MNE : mount <> []) (MS : Forall simple mount).
  Definition tidy (Z : string) : string := without_breaks (drop_low_end Z).
  Lemma resolve_abs dir name Z : simple name ->
    resolve scheme dir (prefix_text mount ++ String "/" name ++ Z) =
    Here (walk [] (mount ++ split_on "/" (name ++ forward (path_of (tidy Z))))) (snd (cut_query (cut_fragment (tidy Z)))).
  Proof.
    intros SN. unfold prefix_text. destruct mount as [|m ms]; [congruence|]. set (A := path_text (m :: ms) ++ String "/" name).
    assert (F : any odd_char name = false) by (apply simple_segment; auto).
    assert (OA : forall p, p "/"%char = false -> (forall c, p c = true -> odd_char c = true) -> any p A = false).
    { intros p S W. unfold A. rewrite any_app. cbn [any]. rewrite S, (fine_weaken name) by auto. rewrite path_text_any; auto. rewrite Forall_forall in *. intros x Hx. apply (fine_weaken x); auto. apply simple_segment; auto. }
    replace (path_text (m :: ms) ++ String "/" name ++ Z) with (A ++ Z) by (unfold A; rewrite app_ass; auto).
    assert (CL : cleaned (A ++ Z) = A ++ tidy Z).
    { unfold cleaned. assert (L : any low A = false) by (apply OA; auto; odd). replace (drop_low (A ++ Z)) with (A ++ Z).
      - rewrite dle_free, wb_app, (wb_id A); auto. apply OA; auto; odd.
      - destruct A eqn:EA; [unfold A in EA; rewrite path_text_cons in EA; discriminate|]. cbn in L |- *. apply orb_false_iff in L as [-> _]. auto. }
    unfold resolve. rewrite CL. assert (SH : exists a B, m = String a B /\ slash a = false).
    { inversion MS as [|? ? [NE SF] ?]; subst. destruct m as [|a B]; [congruence|]. exists a, B. split; auto. assert (X : any odd_char (String a B) = false) by (apply simple_segment; split; auto). cbn [any] in X. apply orb_false_iff in X as [X _]. unfold odd_char in X. rewrite !orb_false_iff in X. tauto. }
    destruct SH as (a & B & EM & SA).
    assert (EA : exists C, A = String "/" (String a C)).
    { unfold A. rewrite path_text_cons, EM. cbn [append]. eauto. }
    destruct EA as (C & EA).
    assert (SC : scheme_of (A ++ tidy Z) = None) by (rewrite EA; reflexivity). rewrite SC. unfold relative.
    assert (CUT : cut_query (cut_fragment (A ++ tidy Z)) = (A ++ path_of (tidy Z), snd (cut_query (cut_fragment (tidy Z))))).
    { assert (ST : any stops A = false) by (apply OA; auto; odd). clear -ST. induction A as [|x A IH]; cbn [append].
      - rewrite <- cut_path. destruct (cut_query _); auto.
      - cbn [any] in ST. apply orb_false_iff in ST as [X ST]. unfold stops in X. apply orb_false_iff in X as [X1 X2]. cbn [cut_fragment]. rewrite X2. cbn [cut_query]. rewrite X1, IH by auto. auto. }
    rewrite CUT, EA. cbn [append]. rewrite SA. cbn [slash Ascii.eqb Bool.eqb orb andb]. f_equal. f_equal.
    assert (E : split_on "/" (forward (A ++ path_of (tidy Z))) = "" :: (m :: ms) ++ split_on "/" (name ++ forward (path_of (tidy Z)))).
    { rewrite fwd_app. assert (FA : forward A = A) by (apply fwd_id, OA; auto; odd). rewrite FA. unfold A. rewrite app_ass. cbn [append]. apply split_path.
      rewrite Forall_forall in *. intros x Hx. apply (fine_weaken x); [odd|]. apply simple_segment; auto. }
    rewrite EA in E. cbn [append forward] in E. unfold slash in E at 1. cbn [Ascii.eqb Bool.eqb orb split_on] in E. injection E as E. exact E.
  Qed.
  Definition dir : list string := (mount ++ ["tasks"])%list.
  Definition flat (l : list string) : list string := flat_map (fun s => split_on "/" (unquote s)) l.
  Lemma tasks_simple : simple "tasks".
  Proof. apply simple_by. reflexivity. Qed.
  Lemma dir_simple : Forall simple dir.
  Proof. unfold dir. apply Forall_app. split; [exact MS|]. constructor; [apply tasks_simple|constructor]. Qed.
  Lemma dir_plain : Forall (fun s => split_on "/" (unquote s) = [s]) dir.
  Proof. eapply Forall_impl; [|exact dir_simple]. intros s H. apply simple_segment in H. tauto. Qed.
  Lemma dir_nodots : Forall (fun m => dot m = false /\ dot_dot m = false) dir.
  Proof. eapply Forall_impl; [|exact dir_simple]. intros s H. apply simple_segment in H. tauto. Qed.
  Lemma flat_dir : flat dir = dir.
  Proof. pose proof (flat_plain dir dir_plain (List.length dir)) as E. rewrite firstn_all in E. exact E. Qed.
  Lemma abs_place d Z : exists q, resolve scheme d (prefix_text mount ++ "/tasks/" ++ Z) = Here (walk dir (split_on "/" (forward (path_of (tidy Z))))) q.
  Proof.
    eexists. change ("/tasks/" ++ Z) with (String "/" "tasks" ++ String "/" Z). rewrite resolve_abs by apply tasks_simple. f_equal.
    assert (T : tidy (String "/" Z) = String "/" (tidy Z)).
    { unfold tidy. rewrite dle_keep by auto. auto. }
    rewrite T. cbn [path_of stops Ascii.eqb Bool.eqb orb forward slash]. rewrite split_app. change (split_on "/" "tasks") with ["tasks"]. rewrite app_assoc. rewrite walk_plain; [|apply dir_nodots|apply split_ne]. reflexivity.
  Qed.
  Lemma tidy_edit id : tidy (id ++ "/edit") = without_breaks id ++ "/edit".
  Proof. unfold tidy. rewrite dle_app by auto. rewrite wb_app. auto. Qed.

  (** ** pages *)
  Lemma only_detail (goes_on : bool) m P q (first : bool) j : answers goes_on first mount m (Here P q) = PDetail j <->
    flat P = (dir ++ [j])%list /\ j <> "" /\ m = Get /\ (j = "create" -> goes_on = true).
  Proof.
    unfold answers. rewrite decoded_flat. fold (flat P). split.
    - destruct (under mount (flat P)) as [segs|] eqn:U; [|discriminate]. apply under_iff in U. unfold dir. rewrite U. intros H.
      destruct segs as [|x r]; [discriminate H|]. cbn [route] in H. destruct (String.eqb_spec x "tasks") as [->|].
      2: { destruct (String.eqb x "history"); [|destruct (String.eqb x "logs"); [|discriminate H]]; destruct r as [|y [|z [|]]]; cbn in H; repeat match type of H with context [if ?b then _ else _] => destruct b end; try destruct m; discriminate H. }
      destruct r as [|y [|z [|w [|]]]]; cbn [task_route] in H.
      + destruct m; discriminate H.
      + destruct (String.eqb_spec y ""); [destruct m; discriminate H|]. destruct (String.eqb_spec y "create") as [->|].
        * destruct m; [|discriminate H]. destruct goes_on; [|discriminate H]. injection H as <-. rewrite <- app_assoc. sp; auto.
        * destruct m; [|discriminate H]. injection H as <-. rewrite <- app_assoc. sp; auto; congruence.
      + repeat match type of H with context [if ?b then _ else _] => destruct b end; try destruct (action_of z); try destruct m; discriminate H.
      + repeat match type of H with context [if ?b then _ else _] => destruct b end; try destruct (action_of w); try destruct m; discriminate H.
      + discriminate H.
    - intros (E & NE & -> & C). assert (U : under mount (flat P) = Some ["tasks"; j]) by (apply under_iff; rewrite E; unfold dir; rewrite <- app_assoc; auto). rewrite U.
      cbn [route String.eqb Ascii.eqb Bool.eqb]. cbn [task_route]. destruct (String.eqb_spec j ""); [congruence|]. destruct (String.eqb_spec j "create"); auto. rewrite C by auto. auto.
  Qed.
  Lemma only_edit (goes_on : bool) m P q (first : bool) j : answers goes_on first mount m (Here P q) = PEdit j <-> flat P = (dir ++ [j; "edit"])%list /\ j <> "".
  Proof.
    unfold answers. rewrite decoded_flat. fold (flat P). split.
    - destruct (under mount (flat P)) as [segs|] eqn:U; [|discriminate]. apply under_iff in U. unfold dir. rewrite U. intros H.
      destruct segs as [|x r]; [discriminate H|]. cbn [route] in H. destruct (String.eqb_spec x "tasks") as [->|].
      2: { destruct (String.eqb x "history"); [|destruct (String.eqb x "logs"); [|discriminate H]]; destruct r as [|y [|z [|]]]; cbn in H; repeat match type of H with context [if ?b then _ else _] => destruct b end; try destruct m; discriminate H. }
      destruct r as [|y [|z [|w [|]]]]; cbn [task_route] in H.
      + destruct m; discriminate H.
      + repeat match type of H with context [if ?b then _ else _] => destruct b end; try destruct m; discriminate H.
      + destruct (String.eqb y "partials" && String.eqb z "table"); [destruct m; discriminate H|]. destruct (String.eqb_spec y ""); [discriminate H|]. destruct (String.eqb_spec z "edit") as [->|].
        * injection H as <-. rewrite <- app_assoc. sp; auto.
        * destruct (action_of z); try destruct m; discriminate H.
      + repeat match type of H with context [if ?b then _ else _] => destruct b end; try destruct (action_of w); try destruct m; discriminate H.
      + discriminate H.
    - intros (E & NE). assert (U : under mount (flat P) = Some ["tasks"; j; "edit"]) by (apply under_iff; rewrite E; unfold dir; rewrite <- app_assoc; auto). rewrite U.
      cbn [route String.eqb Ascii.eqb Bool.eqb]. cbn [task_route]. replace (String.eqb "edit" "table") with false by auto. rewrite andb_false_r. destruct (String.eqb_spec j ""); [congruence|]. auto.
  Qed.
  Lemma action_verb y a : action_of y = Some a <-> y = verb a.
  Proof.
    unfold action_of. split; [|intros ->; destruct a; reflexivity].
    destruct (String.eqb_spec y "run") as [->|]; [intros [= <-]; auto|]. destruct (String.eqb_spec y "pause") as [->|]; [intros [= <-]; auto|].
    destruct (String.eqb_spec y "resume") as [->|]; [intros [= <-]; auto|]. destruct (String.eqb_spec y "remove") as [->|]; [intros [= <-]; auto|discriminate].
  Qed.
  Lemma only_action (goes_on : bool) m P q (first : bool) a j : answers goes_on first mount m (Here P q) = PAction a j <-> flat P = (dir ++ [j; verb a])%list /\ j <> "" /\ m = Post.
  Proof.
    unfold answers. rewrite decoded_flat. fold (flat P). split.
    - destruct (under mount (flat P)) as [segs|] eqn:U; [|discriminate]. apply under_iff in U. unfold dir. rewrite U. intros H.
      destruct segs as [|x r]; [discriminate H|]. cbn [route] in H. destruct (String.eqb_spec x "tasks") as [->|].
      2: { destruct (String.eqb x "history"); [|destruct (String.eqb x "logs"); [|discriminate H]]; destruct r as [|y [|z [|]]]; cbn in H; repeat match type of H with context [if ?b then _ else _] => destruct b end; try destruct m; discriminate H. }
      destruct r as [|y [|z [|w [|]]]]; cbn [task_route] in H.
      + destruct m; discriminate H.
      + repeat match type of H with context [if ?b then _ else _] => destruct b end; try destruct m; discriminate H.
      + destruct (String.eqb y "partials" && String.eqb z "table"); [destruct m; discriminate H|]. destruct (String.eqb_spec y ""); [discriminate H|]. destruct (String.eqb_spec z "edit") as [->|]; [discriminate H|].
        destruct (action_of z) eqn:Z; [|discriminate H]. apply action_verb in Z as ->. destruct m; [discriminate H|]. injection H as -> <-. rewrite <- app_assoc. sp; auto.
      + repeat match type of H with context [if ?b then _ else _] => destruct b end; try destruct (action_of w); try destruct m; discriminate H.
      + discriminate H.
    - intros (E & NE & ->). assert (U : under mount (flat P) = Some ["tasks"; j; verb a]) by (apply under_iff; rewrite E; unfold dir; rewrite <- app_assoc; auto). rewrite U.
      cbn [route String.eqb Ascii.eqb Bool.eqb]. cbn [task_route]. replace (String.eqb (verb a) "table") with false by (destruct a; auto). rewrite andb_false_r. destruct (String.eqb_spec j ""); [congruence|].
      replace (String.eqb (verb a) "edit") with false by (destruct a; auto). replace (action_of (verb a)) with (Some a) by (symmetry; apply action_verb; auto). auto.
  Qed.

  (** ** a reference relative to the page *)
  Lemma rel_any d r : relative d r = Away \/ exists b L q, (b = d \/ b = []) /\ relative d r = Here (walk b L) q /\
    (b = d /\ L = split_on "/" (forward (path_of r)) \/ exists a p', slash a = true /\ path_of r = String a p' /\ L = split_on "/" (forward p')).
  Proof.
    unfold relative. pose proof (cut_path r) as E. destruct (cut_query (cut_fragment r)) as [p q]. cbn [fst] in E. rewrite <- E.
    destruct p as [|a [|b p']].
    - right. exists d, [""], q. auto.
    - destruct (slash a) eqn:S; right.
      + exists [], [""], q. sp; auto. right. exists a, "". auto.
      + exists d, [String a ""], q. sp; auto. left. cbn [forward split_on]. rewrite S. unfold slash in S. apply orb_false_iff in S as [-> _]. auto.
    - destruct (slash a && slash b) eqn:AB; auto. right. destruct (slash a) eqn:S.
      + exists [], (split_on "/" (forward (String b p'))), q. sp; auto. right. exists a, (String b p'). auto.
      + exists d, (split_on "/" (forward (String a (String b p')))), q. auto.
  Qed.
  Lemma split_verb y a : split_on "/" (forward (y ++ String "/" (verb a))) = (split_on "/" (forward y) ++ [verb a])%list.
  Proof. rewrite fwd_app. cbn [forward slash Ascii.eqb Bool.eqb orb]. rewrite split_app. f_equal. destruct a; reflexivity. Qed.
  Definition question (sfx : string) : Prop := sfx = "" \/ exists t, sfx = String "?" t.
  Lemma rel_button d y a sfx : question sfx ->
    relative d (y ++ String "/" (verb a ++ sfx)) = Away \/
    exists b L q, (b = d \/ b = []) /\
      (any stops y = true /\ relative d (y ++ String "/" (verb a ++ sfx)) = Here (walk b L) q /\ (forall s, In s L -> In s (split_on "/" (forward (path_of y)))) \/
       any stops y = false /\ relative d (y ++ String "/" (verb a ++ sfx)) = Here (walk b (L ++ [verb a])) q /\ (forall s, In s L -> In s (split_on "/" (forward y)))).
  Proof.
    intros Q. assert (PV : path_of (String "/" (verb a ++ sfx)) = String "/" (verb a)) by (destruct Q as [->|(t & ->)]; [rewrite app_nil|]; destruct a; reflexivity).
    destruct (rel_any d (y ++ String "/" (verb a ++ sfx))) as [|(b & L & q & B & -> & H)]; auto. right.
    destruct (any stops y) eqn:ST.
    - exists b, L, q. split; auto. left. sp; auto. rewrite path_of_stop in H by auto. destruct H as [[_ ->]|(x & p' & S & E & ->)]; auto.
      intros s Hs. rewrite E. cbn [forward]. rewrite S. cbn [split_on Ascii.eqb Bool.eqb]. right. auto.
    - rewrite path_of_app, PV in H by auto. destruct H as [[_ ->]|(x & p' & S & E & ->)].
      + exists b, (split_on "/" (forward y)), q. split; auto. right. rewrite split_verb. sp; auto.
      + destruct y as [|x' y].
        * injection E as <- <-. exists b, [], q. split; auto. right. sp; auto; [destruct a; auto|]. intros s [].
        * injection E as <- <-. exists b, (split_on "/" (forward y)), q. split; auto. right. rewrite split_verb. sp; auto. intros s Hs. cbn [forward]. rewrite S. cbn [split_on Ascii.eqb Bool.eqb]. right. auto.
  Qed.
  Lemma rel_plain d y a sfx : question sfx -> y <> "" -> any slash y = false -> any stops y = false ->
    exists q, relative d (y ++ String "/" (verb a ++ sfx)) = Here (walk d [y; verb a]) q.
  Proof.
    intros Q NE SL ST. assert (PV : path_of (String "/" (verb a ++ sfx)) = String "/" (verb a)) by (destruct Q as [->|(t & ->)]; [rewrite app_nil|]; destruct a; reflexivity).
    unfold relative. pose proof (cut_path (y ++ String "/" (verb a ++ sfx))) as E. destruct (cut_query (cut_fragment (y ++ String "/" (verb a ++ sfx)))) as [p q]. cbn [fst] in E. rewrite path_of_app, PV in E by auto.
    exists q. assert (X : split_on "/" (forward p) = [y; verb a]).
    { rewrite E, split_verb, fwd_id; [rewrite split_none; auto; eapply any_false_weaken; [|exact SL]; intros c H; unfold slash; rewrite H; auto|]. eapply any_false_weaken; [|exact SL]; intros c H; unfold slash; rewrite H; apply orb_true_r. }
    rewrite <- X. destruct y as [|x y]; [congruence|]. cbn [any] in SL. apply orb_false_iff in SL as [SL _]. rewrite E. cbn [append]. destruct (y ++ String "/" (verb a)) as [|x' y'] eqn:F; [destruct y; discriminate|]. rewrite SL. auto.
  Qed.
End Mounted.

(** ** schemes *)
Lemma letter_iff c : letter c = true <-> alpha c.
Proof.
  unfold alpha. split; [|cbn [In list_ascii_of_string]; intros H; repeat destruct H as [<-|H]; try reflexivity; destruct H].
  intros H. apply in_list. destruct c as [[] [] [] [] [] [] [] []]; try discriminate H; reflexivity.
Qed.
Lemma scheme_iff c : scheme_char c = true <-> scheme_letter c.
Proof.
  unfold scheme_letter. rewrite <- letter_iff. unfold scheme_char. rewrite orb_assoc || idtac. split.
  - destruct (letter c) eqn:L; auto. intros H. right. apply in_list. destruct c as [[] [] [] [] [] [] [] []]; try discriminate H; try discriminate L; reflexivity.
  - intros [->|H]; auto. cbn [In list_ascii_of_string] in H. repeat destruct H as [<-|H]; try reflexivity. destruct H.
Qed.
Lemma rest_spec s p r : scheme_rest s = Some (p, r) <-> s = p ++ String ":" r /\ Forall scheme_letter (list_ascii_of_string p).
Proof.
  revert p. induction s as [|a s IH]; intros p; cbn [scheme_rest]; [split; [discriminate|intros [E _]; destruct p; discriminate]|].
  destruct (Ascii.eqb_spec a ":") as [->|N].
  - split; [intros [= <- <-]; split; auto; constructor|]. intros [E F]. destruct p as [|b p]; [injection E as <-; auto|]. injection E as <- E. inversion F; subst. apply scheme_iff in H1. discriminate.
  - destruct (scheme_char a) eqn:S.
    + destruct (scheme_rest s) as [[p' r']|] eqn:R.
      * split; [intros [= <- <-]|]. { destruct (proj1 (IH p')) as [-> F]; auto. split; auto. constructor; auto. apply scheme_iff; auto. }
        intros [E F]. destruct p as [|b p]; [injection E as -> _; congruence|]. injection E as <- E. inversion F; subst. assert (X : Some (p', r') = Some (p, r)) by (apply IH; auto). congruence.
      * split; [discriminate|]. intros [E F]. destruct p as [|b p]; [injection E as -> _; congruence|]. injection E as <- E. inversion F; subst. assert (X : None = Some (p, r)) by (apply IH; auto). discriminate.
    + split; [discriminate|]. intros [E F]. destruct p as [|b p]; [injection E as -> _; congruence|]. injection E as <- E. inversion F; subst. apply scheme_iff in H1. congruence.
Qed.
Lemma rest_app x t : scheme_rest (x ++ String "/" t) = match scheme_rest x with Some (p, r) => Some (p, r ++ String "/" t) | None => None end.
Proof. induction x as [|a x IH]; cbn [append scheme_rest]; [reflexivity|]. destruct (Ascii.eqb a ":"); auto. destruct (scheme_char a); auto. rewrite IH. destruct (scheme_rest x) as [[]|]; auto. Qed.
Lemma scheme_app x t : scheme_of (x ++ String "/" t) = match scheme_of x with Some (p, r) => Some (p, r ++ String "/" t) | None => None end.
Proof. unfold scheme_of. destruct x as [|a x]; [reflexivity|]. cbn [append]. destruct (letter a); auto. apply (rest_app (String a x)). Qed.
Lemma scheme_names x : (exists p r, scheme_of x = Some (p, r)) <-> names_scheme x.
Proof.
  unfold scheme_of, names_scheme. split.
  - intros (p & r & H). destruct x as [|a x]; [discriminate|]. destruct (letter a) eqn:L; [|discriminate]. apply rest_spec in H as [E F]. apply letter_iff in L.
    destruct p as [|b p]; [injection E as -> _; apply letter_iff in L; discriminate|]. injection E as <- ->. inversion F; subst. exists a, p, r. auto.
  - intros (c & p & r & -> & A & F). exists (String c p), r. rewrite (proj2 (letter_iff c)) by auto. apply rest_spec. split; auto. constructor; auto. left. auto.
Qed.
Lemma scheme_short x p r : scheme_of x = Some (p, r) -> (length r < length x)%nat /\ exists u, x = u ++ r.
Proof.
  unfold scheme_of. destruct x as [|a x]; [discriminate|]. destruct (letter a); [|discriminate]. intros H. apply rest_spec in H as [E _]. rewrite E, len_app. cbn. split; [lia|]. exists (p ++ ":"). rewrite app_ass. auto.
Qed.
Lemma clean_button id a sfx : question sfx -> exists sfx', question sfx' /\ cleaned (id ++ "/" ++ verb a ++ sfx) = without_breaks (drop_low id) ++ String "/" (verb a ++ sfx').
Proof.
  intros Q. unfold cleaned. cbn [append]. rewrite dl_app by auto. rewrite dle_app by auto. rewrite wb_app.
  destruct Q as [->|(t & ->)].
  - exists "". split; [left; auto|]. f_equal. rewrite app_nil. destruct a; reflexivity.
  - exists (String "?" (without_breaks (drop_low_end t))). split; [right; eauto|]. f_equal. rewrite dle_keep by auto. rewrite dle_app by auto. rewrite dle_keep by auto.
    cbn [without_breaks]. replace (tab_or_newline "/") with false by auto. rewrite wb_app. replace (without_breaks (verb a)) with (verb a) by (destruct a; auto). cbn [without_breaks]. replace (tab_or_newline "?") with false by auto. auto.
Qed.

(** ** the claims *)
Lemma flat_simple ms : Forall simple ms -> flat_map (fun s => split_on "/" (unquote s)) ms = ms.
Proof. intros F. induction F as [|m ms H F IH]; [reflexivity|]. cbn [flat_map]. apply simple_segment in H as (_ & _ & _ & -> & _). rewrite IH. reflexivity. Qed.
Lemma seg_facts id : one_segment id <-> id <> "" /\ any slash id = false /\ any stops id = false /\ ~ has_break id /\ ~ has_escape id /\ dot id = false /\ dot_dot id = false.
Proof.
  unfold one_segment. unfold slash. rewrite any_or, orb_false_iff, !any_has_no, stops_iff. split.
  - intros (A & B & C & D & E & F & G & H & I). destruct (dots id I) as [J K]. sp; auto; [destruct (dot id)|destruct (dot_dot id)]; auto; [destruct B; apply J|destruct C; apply K]; auto.
  - intros (A & (B & C) & (D & E) & F & G & H & I). destruct (dots id G) as [J K]. sp; auto; intros ->; discriminate.
Qed.
Lemma seg_flat id : ~ has_escape id -> any slash id = false -> split_on "/" (unquote id) = [id].
Proof. intros E S. rewrite unquote_id by auto. apply split_none. eapply any_false_weaken; [|exact S]. intros c H. unfold slash. rewrite H. auto. Qed.
Lemma fwd_seg id : any slash id = false -> split_on "/" (forward id) = [id].
Proof.
  intros S. rewrite fwd_id; [apply split_none|]; (eapply any_false_weaken; [|exact S]); intros c H; unfold slash; rewrite H; auto. apply orb_true_r.
Qed.
Lemma cf_len x : (length (cut_fragment x) <= length x)%nat /\ (length (cut_fragment x) = length x -> cut_fragment x = x /\ ~ has "#" x).
Proof.
  rewrite <- any_has_no. induction x as [|a x IH]; cbn [cut_fragment any]; auto. destruct (Ascii.eqb a "#"); cbn [length]; [lia|]. destruct IH as [A B]. split; [lia|]. intros [= E]. destruct (B E) as [-> ->]. auto.
Qed.
Lemma cf_id x : ~ has "#" x -> cut_fragment x = x.
Proof. rewrite <- any_has_no. induction x as [|a x IH]; cbn [cut_fragment any]; auto. intros H. apply orb_false_iff in H as [-> H]. rewrite IH; auto. Qed.
Lemma has_in c s : has c s -> In c (list_ascii_of_string s).
Proof. intros (u & v & ->). induction u; cbn; auto. Qed.
Lemma simple_all id : simple id -> one_segment id /\ one_value id /\ ~ blank_first id /\ ~ blank_last id /\ ~ names_scheme id.
Proof.
  intros S. pose proof (simple_segment id S) as (O & D & DD & _ & NE). destruct S as (_ & D1 & D2 & F).
  assert (H : forall c, has c id -> odd_char c = false) by (intros c Hc; apply simple_char_fine; rewrite Forall_forall in F; apply F, has_in; auto).
  assert (HX : forall c, odd_char c = true -> ~ has c id) by (intros c X Hc; rewrite (H c Hc) in X; discriminate).
  assert (HE : ~ has_escape id) by (apply no_percent; auto).
  assert (HB : ~ has_break id) by (intros [X|[X|X]]; apply H in X; discriminate).
  assert (LO : forall c, (N_of_ascii c <= 32)%N -> odd_char c = true) by (intros c L; apply N.leb_le in L; unfold odd_char, low; rewrite L; reflexivity).
  assert (BF : ~ blank_first id) by (intros (c & v & E & L); apply (HX c (LO c L)); exists "", v; auto).
  assert (BL : ~ blank_last id) by (intros (u & c & E & L); apply (HX c (LO c L)); exists u, ""; auto).
  assert (SF : ~ space_first id) by (intros (c & v & E & W); apply BF; exists c, v; split; auto; unfold whitespace in W; lia).
  assert (NS : ~ names_scheme id) by (intros (c & p & r & E & _); apply (HX ":"%char); [reflexivity|]; exists (String c p), r; auto).
  unfold one_segment, one_value. sp; auto; apply HX; reflexivity.
Qed.
Lemma task_key : any (fun x => Ascii.eqb x "=") "task_id" = false /\ any (fun x => Ascii.eqb x "&") "task_id" = false /\ "task_id" <> "" /\ form_text "task_id" = "task_id" /\ any query_escapes "task_id" = false /\ any odd_char "task_id" = false.
Proof. sp; try reflexivity. discriminate. Qed.
Lemma logs_simple : simple "logs". Proof. apply simple_by. reflexivity. Qed.
Lemma history_simple : simple "history". Proof. apply simple_by. reflexivity. Qed.
Section Claims.
  Variables (mount : list string) (scheme suffix : string) (goes_on first : bool).
  Hypothesis (MNE : mount <> []) (MS : Forall simple mount) (SFX : question suffix).
  Let go := follow goes_on first scheme mount suffix.
  Lemma flat_app_dir l : flat (dir mount ++ l) = (dir mount ++ flat l)%list.
  Proof. unfold flat. rewrite flat_map_app. fold (flat (dir mount)). rewrite flat_dir by auto. auto. Qed.
  Lemma low_break id : blank_last id -> ~ (length id <= length (tidy id))%nat.
  Proof. intros B L. apply dle_blank in B. pose proof (wb_len (drop_low_end id)). unfold tidy in L. lia. Qed.

  Theorem C101_details id : go Details id = PDetail id <-> one_segment id /\ ~ blank_last id /\ (id = "create" -> goes_on = true).
  Proof.
    unfold go, follow. cbn [target]. destruct (abs_place mount scheme MNE MS (mount ++ ["tasks"]) id) as (q & ->). rewrite only_detail. split.
    - intros (E & NE & _ & C). set (Y := path_of (tidy id)) in *.
      assert (SH : shape (dir mount) (split_on "/" (forward Y)) (walk (dir mount) (split_on "/" (forward Y)))) by (apply walk_shape; auto using shape_dir).
      destruct (reach _ _ (dir_plain mount MS) _ _ _ SH E NE) as (s & A & B & D & J). destruct (measure Y s id A J B D) as [LE EQ].
      assert (TL : (length (tidy id) <= length id)%nat) by (unfold tidy; pose proof (wb_len (drop_low_end id)); pose proof (dle_len id); lia).
      assert (YL : (length Y <= length (tidy id))%nat /\ (length Y = length (tidy id) -> any stops (tidy id) = false)).
      { unfold Y. destruct (any stops (tidy id)) eqn:ST; [apply path_of_len in ST; lia|]. rewrite path_of_id by auto. auto. }
      assert (TE : length (drop_low_end id) = length id /\ length (tidy id) = length (drop_low_end id)) by (unfold tidy in *; pose proof (wb_len (drop_low_end id)); pose proof (dle_len id); lia).
      destruct TE as [T1 T2]. destruct (dle_eq id T1) as [DE NB]. unfold tidy in T2. destruct (wb_eq (drop_low_end id) T2) as [WE HB]. rewrite DE in WE, HB. assert (TI : tidy id = id) by (unfold tidy; rewrite DE; auto).
      rewrite TI in YL. destruct YL as [YL YS]. assert (LY : length id = length Y) by lia. destruct (EQ LY) as (EY & S1 & S2 & S3 & S4). rewrite <- EY in S1, S2, S3, S4. split; [|split]; auto. apply seg_facts. sp; auto.
    - intros (SEG & NB & C). apply seg_facts in SEG as (NE & SL & ST & HB & HE & D & DD).
      assert (TI : tidy id = id) by (unfold tidy; rewrite dle_id by auto; apply wb_id, tab_no; auto).
      rewrite TI, path_of_id, fwd_seg by auto. cbn [walk]. rewrite D, DD, flat_app_dir. sp; auto. cbn [flat flat_map]. rewrite seg_flat by auto. auto.
  Qed.

  Theorem C101_edit id : go Edit id = PEdit id <-> one_segment id.
  Proof.
    unfold go, follow. cbn [target]. destruct (abs_place mount scheme MNE MS (mount ++ ["tasks"]) (id ++ "/edit")) as (q & ->). rewrite tidy_edit, only_edit. set (x := without_breaks id). split.
    - intros (E & NE). assert (XL : (length x <= length id)%nat) by apply wb_len. destruct (any stops x) eqn:ST.
      + rewrite path_of_stop in E by auto. set (Y := path_of x) in *.
        assert (SH : shape (dir mount) (split_on "/" (forward Y)) (walk (dir mount) (split_on "/" (forward Y)))) by (apply walk_shape; auto using shape_dir).
        destruct (reach _ _ (dir_plain mount MS) _ _ _ SH E NE) as (s & A & B & D & J). destruct (measure Y s id A J B D) as [LE _]. apply path_of_len in ST. unfold Y in LE. lia.
      + rewrite path_of_app in E by auto. change (path_of "/edit") with "/edit" in E. rewrite fwd_app in E. change (forward "/edit") with (String "/" "edit") in E. rewrite split_app in E. change (split_on "/" "edit") with ["edit"] in E.
        destruct (walk_last (dir mount) (split_on "/" (forward x)) (split_on "/" (forward x)) "edit" eq_refl eq_refl (dir mount)) as (l & W & SH); auto using shape_dir.
        rewrite W in E. unfold flat in E. rewrite flat_map_app in E. change (dir mount ++ [id; "edit"])%list with (dir mount ++ ([id] ++ ["edit"]))%list in E. rewrite app_assoc in E. cbn [flat_map] in E. change (split_on "/" (unquote "edit") ++ [])%list with ["edit"] in E. apply app_inj_tail in E as [E _].
        destruct (reach _ _ (dir_plain mount MS) _ _ _ SH E NE) as (s & A & B & D & J). destruct (measure x s id A J B D) as [LE EQ]. assert (LX : length x = length id) by lia. destruct (wb_eq id LX) as [WE HB]. fold x in WE.
        assert (LL : length id = length x) by lia. destruct (EQ LL) as (_ & S1 & S2 & S3 & S4). rewrite WE in *. apply seg_facts. sp; auto.
    - intros SEG. apply seg_facts in SEG as (NE & SL & ST & HB & HE & D & DD). assert (XI : x = id) by (apply wb_id, tab_no; auto).
      rewrite XI, path_of_app by auto. change (path_of "/edit") with "/edit". rewrite fwd_app. change (forward "/edit") with (String "/" "edit"). rewrite split_app, fwd_seg by auto. change (split_on "/" "edit") with ["edit"]. cbn [app walk]. rewrite D, DD. replace (dot_dot "edit") with false by auto. replace (dot "edit") with false by auto. rewrite <- (app_assoc (dir mount)). rewrite flat_app_dir. sp; auto. cbn [app flat flat_map]. rewrite seg_flat by auto. auto.
  Qed.

  Theorem C101_buttons a id : go (Button a) id = PAction a id <-> one_segment id /\ ~ blank_first id /\ ~ names_scheme id.
  Proof.
    unfold go, follow. cbn [target]. unfold resolve. destruct (clean_button id a suffix SFX) as (sfx & Q & ->). set (x := without_breaks (drop_low id)).
    assert (XL : (length x <= length (drop_low id))%nat /\ (length (drop_low id) <= length id)%nat) by (split; [apply wb_len|apply dl_len]). rewrite scheme_app.
    assert (KEY : forall y, (length y <= length x)%nat -> answers goes_on first mount Post (relative (mount ++ ["tasks"]) (y ++ String "/" (verb a ++ sfx))) = PAction a id ->
      length id = length y /\ any slash y = false /\ any stops y = false /\ ~ has_escape y /\ dot y = false /\ dot_dot y = false /\ id <> "").
    { intros y LY H. destruct (rel_button (mount ++ ["tasks"]) y a sfx Q) as [E|(b & L & q & B & [(ST & E & I)|(ST & E & I)])]; rewrite E in H; [discriminate H| |]; apply only_action in H as (F & NE & _).
      - assert (SH : shape (dir mount) (split_on "/" (forward (path_of y))) (walk b L)) by (apply walk_shape; auto; destruct B as [-> | ->]; [apply shape_dir|apply shape_nil]).
        destruct (reach _ _ (dir_plain mount MS) _ _ _ SH F NE) as (s & A & D & DD & J). destruct (measure _ s id A J D DD) as [LE _]. apply path_of_len in ST. lia.
      - destruct (walk_last (dir mount) (split_on "/" (forward y)) L (verb a)) with (acc := b) as (l & W & SH); auto; try (destruct a; reflexivity); [destruct B as [-> | ->]; [apply shape_dir|apply shape_nil]|].
        rewrite W in F. unfold flat in F. rewrite flat_map_app in F. change (dir mount ++ [id; verb a])%list with (dir mount ++ ([id] ++ [verb a]))%list in F. rewrite app_assoc in F. cbn [flat_map] in F. replace (split_on "/" (unquote (verb a)) ++ [])%list with [verb a] in F by (destruct a; reflexivity). apply app_inj_tail in F as [F _].
        destruct (reach _ _ (dir_plain mount MS) _ _ _ SH F NE) as (s & A & D & DD & J). destruct (measure _ s id A J D DD) as [LE EQ]. assert (LL : length id = length y) by lia. destruct (EQ LL) as (_ & S1 & S2 & S3 & S4). sp; auto. }
    split.
    - intros H. destruct (scheme_of x) as [[p r]|] eqn:SC.
      + destruct (scheme_short x p r SC) as [LR _]. destruct (String.eqb (lower p) scheme); [|discriminate H]. apply KEY in H; lia.
      + apply KEY in H as (L & SL & ST & HE & D & DD & NE); auto. assert (L1 : length (drop_low id) = length id) by lia. destruct (dl_eq id L1) as [DE BF].
        assert (L2 : length (without_breaks (drop_low id)) = length (drop_low id)) by (fold x; lia). destruct (wb_eq _ L2) as [WE HB]. fold x in WE. rewrite DE in WE, HB. rewrite WE in *. sp; auto; [apply seg_facts; sp; auto|].
        intros NS. apply scheme_names in NS as (p & r & NS). congruence.
    - intros (SEG & BF & NS). apply seg_facts in SEG as (NE & SL & ST & HB & HE & D & DD). assert (XI : x = id) by (unfold x; rewrite dl_id by auto; apply wb_id, tab_no; auto). rewrite XI.
      destruct (scheme_of id) as [[p r]|] eqn:SC; [destruct NS; apply scheme_names; eauto|].
      destruct (rel_plain (mount ++ ["tasks"]) id a sfx Q NE SL ST) as (q & ->). apply only_action. cbn [walk]. rewrite D, DD. replace (dot_dot (verb a)) with false by (destruct a; auto). replace (dot (verb a)) with false by (destruct a; auto).
      rewrite <- !app_assoc. fold (dir mount). change (mount ++ ["tasks"] ++ [id] ++ [verb a])%list with (mount ++ (["tasks"] ++ ([id] ++ [verb a])))%list. rewrite app_assoc. fold (dir mount). rewrite flat_app_dir. sp; auto. cbn [app flat flat_map]. rewrite seg_flat by auto. destruct a; auto.
  Qed.

  (** ** links with a filter *)
  Definition page_of (name : string) (q : option string) : page := route goes_on first Get [name] q.
  Lemma query_answer d name key id : simple name -> any odd_char key = false ->
    answers goes_on first mount Get (resolve scheme d (prefix_text mount ++ String "/" name ++ String "?" (key ++ String "=" id))) =
    page_of name (Some (encode query_escapes (key ++ String "=" (cut_fragment (tidy id))))).
  Proof.
    intros SN KO. destruct (simple_segment name SN) as (NO & ND & NDD & NF & NN).
    assert (T : tidy (String "?" (key ++ String "=" id)) = String "?" (key ++ String "=" (tidy id))).
    { assert (KL : any low key = false) by (apply (fine_weaken key); auto; odd). assert (KB : any tab_or_newline key = false) by (apply (fine_weaken key); auto; odd).
      unfold tidy. rewrite dle_keep by auto. rewrite dle_free by auto. rewrite dle_keep by auto. cbn [without_breaks]. replace (tab_or_newline "?") with false by auto. f_equal. rewrite wb_app, (wb_id key) by auto. auto. }
    assert (CF : cut_fragment (key ++ String "=" (tidy id)) = key ++ String "=" (cut_fragment (tidy id))).
    { assert (KS : any stops key = false) by (apply (fine_weaken key); auto; odd). clear -KS. induction key as [|a k IH]; [reflexivity|]. cbn [any] in KS. apply orb_false_iff in KS as [X KS]. unfold stops in X. apply orb_false_iff in X as [_ X]. cbn [append cut_fragment]. rewrite X. f_equal. apply IH. exact KS. }
    rewrite resolve_abs, T by auto. cbn [path_of stops Ascii.eqb Bool.eqb orb forward]. rewrite app_nil. cbn [cut_fragment cut_query Ascii.eqb Bool.eqb snd]. rewrite CF.
    rewrite split_none by (apply (fine_weaken name); auto; odd).
    rewrite walk_plain; [|eapply Forall_impl; [|exact MS]; intros s H; apply simple_segment in H; tauto|discriminate]. cbn [app walk]. rewrite ND, NDD. unfold answers. rewrite decoded_flat.
    assert (FL : flat_map (fun s => split_on "/" (unquote s)) (mount ++ [name]) = (mount ++ [name])%list).
    { rewrite flat_map_app. cbn [flat_map]. rewrite NF. cbn [app]. f_equal. apply flat_simple. exact MS. }
    rewrite FL. rewrite (proj2 (under_iff mount (mount ++ [name]) [name]) eq_refl). reflexivity.
  Qed.
  Lemma value_fits id : strip (query_param first "task_id" (Some (encode query_escapes ("task_id" ++ String "=" (cut_fragment (tidy id)))))) = id -> one_value id.
  Proof.
    destruct task_key as (K1 & K2 & K3 & K4 & K5 & _). destruct (first_param "task_id" (cut_fragment (tidy id)) first K1 K2 K3 K4 K5) as (u & -> & LU & EU). intros E.
    pose proof (strip_len (form_text u)) as L1. rewrite E in L1. pose proof (form_len u) as L2. destruct (cf_len (tidy id)) as [L3 E3]. pose proof (wb_len (drop_low_end id)) as L4. pose proof (dle_len id) as L5. fold (tidy id) in L4.
    assert (Q5 : length (drop_low_end id) = length id) by lia. destruct (dle_eq id Q5) as [D5 NB]. assert (Q4 : length (without_breaks (drop_low_end id)) = length (drop_low_end id)) by (fold (tidy id); lia). destruct (wb_eq _ Q4) as [D4 HB].
    rewrite D5 in D4, HB. assert (TI : tidy id = id) by (unfold tidy; rewrite D5; auto). rewrite TI in *. assert (Q3 : length (cut_fragment id) = length id) by lia. destruct (E3 Q3) as [D3 NH]. rewrite D3 in *.
    assert (Q2 : length u = length id) by lia. destruct (EU Q2) as [-> NA]. assert (Q1 : length (form_text id) = length id) by lia. destruct (form_eq id Q1) as [D1 NE]. rewrite D1 in E.
    assert (Q0 : length (strip (plus_to_space id)) = length (plus_to_space id)) by (rewrite E, plus_len; auto). pose proof (strip_same _ Q0) as D0. rewrite E in D0. symmetry in D0. pose proof (strip_eq _ Q0) as NS. rewrite D0 in NS. apply plus_id in D0. unfold one_value. sp; auto.
  Qed.
  Lemma fits_value id k : one_value id -> strip (query_param first k (Some (encode query_escapes ("task_id" ++ String "=" (cut_fragment (tidy id)))))) = if String.eqb k "task_id" then id else "".
  Proof.
    intros (NH & NA & NP & HB & NE & NS & NB). destruct task_key as (K1 & K2 & K3 & K4 & K5 & _). assert (TI : tidy id = id) by (unfold tidy; rewrite dle_id by auto; apply wb_id, tab_no; auto).
    rewrite TI, cf_id, one_param by auto. destruct (String.eqb k "task_id"); auto. unfold form_text. rewrite (proj2 (plus_id id)), unquote_id by auto. apply strip_id; auto.
  Qed.
  Theorem C101_logs id : go LogsOf id = PLogs id "" <-> one_value id.
  Proof.
    unfold go, follow. cbn [target]. change ("/logs?task_id=" ++ id) with (String "/" "logs" ++ String "?" ("task_id" ++ String "=" id)). rewrite query_answer; [|apply logs_simple|apply task_key].
    unfold page_of. cbn [route String.eqb Ascii.eqb Bool.eqb]. cbn [logs_route String.eqb only]. split.
    - intros H. injection H as H _. apply value_fits. exact H.
    - intros V. rewrite !fits_value by auto. auto.
  Qed.
  Theorem C101_history id : go HistoryOf id = PHistory id <-> one_value id.
  Proof.
    unfold go, follow. cbn [target]. change ("/history?task_id=" ++ id) with (String "/" "history" ++ String "?" ("task_id" ++ String "=" id)). rewrite query_answer; [|apply history_simple|apply task_key].
    unfold page_of. cbn [route String.eqb Ascii.eqb Bool.eqb]. cbn [history_route String.eqb only]. split.
    - intros H. injection H as H. apply value_fits. exact H.
    - intros V. rewrite fits_value by auto. auto.
  Qed.

  (** ids of letters, digits and - _ . ~ are right everywhere *)
  Theorem C101_simple_ids id : simple id ->
    (id <> "create" -> go Details id = PDetail id) /\ go Edit id = PEdit id /\ (forall a, go (Button a) id = PAction a id) /\ go LogsOf id = PLogs id "" /\ go HistoryOf id = PHistory id.
  Proof.
    intros S. destruct (simple_all id S) as (A & B & C & D & E). sp.
    - intros N. apply C101_details. sp; auto; congruence.
    - apply C101_edit. auto.
    - intros a. apply C101_buttons. auto.
    - apply C101_logs. auto.
    - apply C101_history. auto.
  Qed.
End Claims.

(** the links to a run, whose id is made of hexadecimal digits (history.py:430-432) *)
Theorem C101_run_links (goes_on first : bool) scheme mount here rid : mount <> [] -> Forall simple mount -> simple rid ->
  follow_run goes_on first scheme mount here run_target rid = PRun rid /\ follow_run goes_on first scheme mount here run_logs_target rid = PLogs "" rid.
Proof.
  intros MNE MS SR. destruct (simple_all rid SR) as (SEG & (V1 & V2 & V3 & V4 & V5 & V6 & V7) & BF & BL & _). apply seg_facts in SEG as (NE & SL & ST & HB & HE & D & DD).
  assert (TI : tidy rid = rid) by (unfold tidy; rewrite dle_id by auto; apply wb_id, tab_no; auto). unfold follow_run. cbn [run_target run_logs_target]. split.
  - change ("/history/" ++ rid) with (String "/" "history" ++ String "/" rid). rewrite resolve_abs by (auto; apply history_simple).
    assert (T : tidy (String "/" rid) = String "/" rid) by (unfold tidy in *; rewrite dle_keep by auto; cbn [without_breaks]; replace (tab_or_newline "/") with false by auto; f_equal; exact TI).
    rewrite T. cbn [path_of stops Ascii.eqb Bool.eqb orb forward slash]. rewrite path_of_id by auto. rewrite split_app. rewrite fwd_seg by auto. change (split_on "/" "history") with ["history"].
    rewrite walk_plain; [|eapply Forall_impl; [|exact MS]; intros s H; apply simple_segment in H; tauto|discriminate]. cbn [app walk]. replace (dot_dot "history") with false by auto. replace (dot "history") with false by auto. rewrite D, DD. rewrite <- app_assoc. cbn [app].
    unfold answers. rewrite decoded_flat, flat_map_app, flat_simple by auto. cbn [flat_map]. change (split_on "/" (unquote "history")) with ["history"]. rewrite seg_flat by auto. cbn [app].
    rewrite (proj2 (under_iff mount (mount ++ ["history"; rid]) ["history"; rid]) eq_refl). cbn [route String.eqb Ascii.eqb Bool.eqb]. cbn [history_route]. destruct (String.eqb_spec rid ""); [congruence|]. reflexivity.
  - change ("/logs?run_id=" ++ rid) with (String "/" "logs" ++ String "?" ("run_id" ++ String "=" rid)). rewrite query_answer; [|auto|auto|apply logs_simple|reflexivity].
    unfold page_of. cbn [route String.eqb Ascii.eqb Bool.eqb]. cbn [logs_route String.eqb only]. rewrite TI, cf_id by auto. rewrite !one_param; auto; try reflexivity; try discriminate.
    replace (String.eqb "task_id" "run_id") with false by auto. rewrite String.eqb_refl. unfold form_text. rewrite (proj2 (plus_id rid)), unquote_id by auto. rewrite (strip_id rid) by auto. reflexivity.
Qed.

(** the controls of the list as a whole reach what they are for, whatever the filters are; they work at the root too *)
Lemma clean_word w sfx : any low w = false -> w <> "" -> question sfx -> exists sfx', question sfx' /\ cleaned (w ++ sfx) = w ++ sfx'.
Proof.
  intros L NE Q. assert (D : forall r, drop_low (w ++ r) = w ++ r) by (intros r; destruct w as [|c w]; [congruence|]; cbn [any] in L; apply orb_false_iff in L as [L _]; cbn [append drop_low]; rewrite L; auto).
  assert (B : any tab_or_newline w = false). { eapply any_false_weaken; [|exact L]. intros c H. unfold tab_or_newline in H. cbn [existsb] in H. repeat (apply orb_true_iff in H as [H|H]; [apply Ascii.eqb_eq in H as ->; reflexivity|]). discriminate. }
  unfold cleaned. rewrite D. destruct Q as [->|(t & ->)].
  - exists "". split; [left; auto|]. rewrite app_nil. rewrite dle_id, wb_id; auto. intros (u & c & E & H). rewrite E in L. clear - L H. induction u as [|x u IH]; cbn [append any] in L; apply orb_false_iff in L as [L1 L2]; auto. unfold low in L1. apply N.leb_gt in L1. lia.
  - exists (String "?" (without_breaks (drop_low_end t))). split; [right; eauto|]. rewrite dle_app by auto. rewrite dle_keep by auto. rewrite wb_app, wb_id by auto. reflexivity.
Qed.
Theorem C101_controls (goes_on first : bool) scheme mount suffix : Forall simple mount -> question suffix ->
  let press := press goes_on first scheme mount in
  (forall a, press (control_target suffix (Bulk a)) = PBulk a) /\ press (control_target suffix Refresh) = PTable /\ press (control_target suffix Create) = PCreate.
Proof.
  intros MS Q pr. unfold pr, press.
  assert (K : forall m r p, Forall simple r -> (forall q', route goes_on first m ("tasks" :: r) q' = p) ->
    forall d0, answers goes_on first mount m (Here ((mount ++ ["tasks"]) ++ r) d0) = p).
  { intros m r p F H d0. unfold answers. rewrite decoded_flat, <- app_assoc, flat_map_app, flat_simple by auto. cbn [app flat_map]. change (split_on "/" (unquote "tasks")) with ["tasks"]. rewrite flat_simple by auto. cbn [app].
    rewrite (proj2 (under_iff mount (mount ++ "tasks" :: r) ("tasks" :: r)) eq_refl). apply H. }
  sp.
  - intros a. cbn [control_target fst snd]. change ("hx/bulk/" ++ verb a ++ suffix) with (("hx/bulk/" ++ verb a) ++ suffix). destruct (clean_word ("hx/bulk/" ++ verb a) suffix) as (sfx & QS & E); [destruct a; reflexivity|discriminate|auto|]. unfold resolve. rewrite E.
    replace (scheme_of (("hx/bulk/" ++ verb a) ++ sfx)) with (@None (string * string)) by (destruct a; reflexivity).
    assert (R : exists q, relative (mount ++ ["tasks"]) (("hx/bulk/" ++ verb a) ++ sfx) = Here ((mount ++ ["tasks"]) ++ ["hx"; "bulk"; verb a]) q).
    { destruct QS as [->|(t & ->)]; destruct a; eexists; unfold relative; cbn -[walk app]; cbn [walk dot_dot dot]; cbn -[app]; rewrite <- !app_assoc; reflexivity. }
    destruct R as (q & ->). apply (K Post ["hx"; "bulk"; verb a] (PBulk a)); [apply Forall_cons; [apply simple_by; reflexivity|]; apply Forall_cons; [apply simple_by; reflexivity|]; apply Forall_cons; [apply simple_by; destruct a; reflexivity|apply Forall_nil]|intros q'; destruct a; reflexivity].
  - cbn [control_target fst snd]. destruct (clean_word "partials/table" suffix) as (sfx & QS & E); [reflexivity|discriminate|auto|]. unfold resolve. rewrite E.
    replace (scheme_of ("partials/table" ++ sfx)) with (@None (string * string)) by reflexivity.
    assert (R : exists q, relative (mount ++ ["tasks"]) ("partials/table" ++ sfx) = Here ((mount ++ ["tasks"]) ++ ["partials"; "table"]) q).
    { destruct QS as [->|(t & ->)]; eexists; unfold relative; cbn -[walk app]; cbn [walk dot_dot dot]; cbn -[app]; rewrite <- !app_assoc; reflexivity. }
    destruct R as (q & ->). apply (K Get ["partials"; "table"] PTable); [apply Forall_cons; [apply simple_by; reflexivity|]; apply Forall_cons; [apply simple_by; reflexivity|apply Forall_nil]|intros q'; reflexivity].
  - cbn [control_target fst snd]. replace (resolve scheme (mount ++ ["tasks"]) "create") with (Here ((mount ++ ["tasks"]) ++ ["create"]) None) by (unfold resolve, relative; cbn -[walk app]; reflexivity).
    apply (K Post ["create"] PCreate); [apply Forall_cons; [apply simple_by; reflexivity|apply Forall_nil]|intros q'; reflexivity].
Qed.
(** the refresh and the paging inside the table; at the root of a host they fail as the links do *)
Theorem C101_turns (goes_on first : bool) scheme mount suffix : mount <> [] -> Forall simple mount -> question suffix ->
  press goes_on first scheme mount (turn_target (prefix_text mount) suffix) = PTable.
Proof.
  intros MNE MS Q. unfold press, turn_target. cbn [fst snd].
  change ("/tasks/partials/table" ++ suffix) with ("/tasks/" ++ "partials/table" ++ suffix).
  destruct (abs_place mount scheme MNE MS (mount ++ ["tasks"]) ("partials/table" ++ suffix)) as (q & ->).
  assert (T : exists sfx, question sfx /\ tidy ("partials/table" ++ suffix) = "partials/table" ++ sfx).
  { destruct (clean_word "partials/table" suffix) as (sfx & QS & C); [reflexivity|discriminate|auto|]. exists sfx. split; auto. }
  destruct T as (sfx & QS & ->).
  assert (R : path_of ("partials/table" ++ sfx) = "partials/table") by (destruct QS as [->|(t & ->)]; reflexivity). rewrite R.
  change (split_on "/" (forward "partials/table")) with ["partials"; "table"]. cbn [walk]. replace (dot_dot "partials") with false by auto. replace (dot "partials") with false by auto. replace (dot_dot "table") with false by auto. replace (dot "table") with false by auto.
  unfold answers. rewrite decoded_flat. unfold dir. rewrite <- !app_assoc, flat_map_app, flat_simple by auto. cbn [app flat_map]. change (split_on "/" (unquote "tasks")) with ["tasks"]. change (split_on "/" (unquote "partials")) with ["partials"]. change (split_on "/" (unquote "table")) with ["table"]. cbn [app].
  rewrite (proj2 (under_iff mount (mount ++ ["tasks"; "partials"; "table"]) ["tasks"; "partials"; "table"]) eq_refl). reflexivity.
Qed.

(** what other ids do: the button beside one task acts on another, or on no task of this dashboard *)
Theorem C101_other_task_refuted (goes_on first : bool) :
  let go := follow goes_on first "http" ["dashboard"] "" in
  go (Button Remove) "x/../b" = PAction Remove "b" /\ go (Button Run) "b/remove?" = PAction Remove "b" /\ go (Button Pause) "http:b" = PAction Pause "b" /\
  go (Button Remove) "%62" = PAction Remove "b" /\ go (Button Run) " b" = PAction Run "b" /\
  go (Button Run) "job:1" = PElse /\ go (Button Run) "a/b" = PElse /\ go (Button Run) "#1" = PWrongMethod /\
  go Details "b?" = PDetail "b" /\ go Edit "a/b" = PElse /\ go LogsOf "a+b" = PLogs "a b" "" /\ go HistoryOf "a&b" = PHistory "a".
Proof. destruct goes_on, first; vm_compute; sp; reflexivity. Qed.
(** the pages of a dashboard at the root of its host: every link with the prefix names a host called "tasks" *)
Theorem C101_root_refuted (goes_on first : bool) scheme suffix l id : (forall a, l <> Button a) -> follow goes_on first scheme [] suffix l id = PElse.
Proof.
  intros N. assert (K : forall d m Z a, answers goes_on first [] m (resolve scheme d (String "/" (String "/" (String a Z)))) = PElse \/ low a = true).
  { intros d m Z a. destruct (low a) eqn:L; auto. left. unfold resolve. assert (C : exists r, cleaned (String "/" (String "/" (String a Z))) = String "/" (String "/" r)).
    { unfold cleaned. cbn [drop_low]. replace (low "/") with false by auto. rewrite !dle_keep by auto. cbn [without_breaks]. replace (tab_or_newline "/") with false by auto. eauto. }
    destruct C as (r & ->). replace (scheme_of (String "/" (String "/" r))) with (@None (string * string)) by reflexivity.
    unfold relative. cbn [cut_fragment cut_query Ascii.eqb Bool.eqb]. destruct (cut_query (cut_fragment r)) as [p q]. reflexivity. }
  unfold follow, prefix_text. destruct l as [| |a| |]; [| |destruct (N a eq_refl)| |]; cbn [target];
    [destruct (K (([] ++ ["tasks"])%list) Get ("asks/" ++ id) "t"%char)|destruct (K (([] ++ ["tasks"])%list) Get ("asks/" ++ id ++ "/edit") "t"%char)|destruct (K (([] ++ ["tasks"])%list) Get ("ogs?task_id=" ++ id) "l"%char)|destruct (K (([] ++ ["tasks"])%list) Get ("istory?task_id=" ++ id) "h"%char)]; auto; discriminate.
Qed.

(** examples *)
Example simple_uuid : simple "3f2504e04f8911d39a0c0305e82c3301". Proof. apply simple_by. reflexivity. Qed.
Example mount_ok : (["dashboard"] : list string) <> [] /\ Forall simple ["dashboard"].
Proof. split; [discriminate|]. constructor; [apply simple_by; reflexivity|constructor]. Qed.
Example odd_id_works : follow true true "http" ["dashboard"] "?q=a" (Button Run) "1st job: 50% <b> & co" = PAction Run "1st job: 50% <b> & co" /\ follow true true "http" ["dashboard"] "" Details "1st job: 50% <b> & co" = PDetail "1st job: 50% <b> & co".
Proof. split; reflexivity. Qed.
Example root_prefix : Gate.effective_prefix "/" "" "" = "/". Proof. reflexivity. Qed.
