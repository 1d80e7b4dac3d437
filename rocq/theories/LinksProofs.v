(** Facts about the text functions of Links.v. *)
From Verif Require Import Prelude Text Remote Links LinksSpec.
Open Scope string_scope.
Local Ltac sp := repeat match goal with |- _ /\ _ => split end.

Fixpoint any (p : ascii -> bool) (s : string) : bool := match s with EmptyString => false | String a s' => p a || any p s' end.
Lemma app_nil s : s ++ "" = s. Proof. induction s; cbn; congruence. Qed.
Lemma app_ass s t u : (s ++ t) ++ u = s ++ (t ++ u). Proof. induction s; cbn; congruence. Qed.
Lemma len_app s t : length (s ++ t) = (length s + length t)%nat. Proof. induction s; cbn; congruence. Qed.
Lemma any_app p s t : any p (s ++ t) = any p s || any p t.
Proof. induction s; cbn; auto. rewrite IHs, orb_assoc. auto. Qed.
Lemma any_iff p s : any p s = true <-> exists u c v, s = u ++ String c v /\ p c = true.
Proof.
  split.
  - induction s as [|a s IH]; cbn; [discriminate|]. intros H. apply orb_true_iff in H as [H|H]; [exists "", a, s; auto|].
    destruct (IH H) as (u & c & v & -> & P). exists (String a u), c, v. auto.
  - intros (u & c & v & -> & P). rewrite any_app. cbn. rewrite P. cbn. apply orb_true_r.
Qed.
Lemma any_has c s : any (fun x => Ascii.eqb x c) s = true <-> has c s.
Proof.
  rewrite any_iff. split; [intros (u & x & v & -> & E); apply Ascii.eqb_eq in E as ->; exists u, v; auto|].
  intros (u & v & ->). exists u, c, v. split; auto. apply Ascii.eqb_refl.
Qed.
Lemma any_has_no c s : any (fun x => Ascii.eqb x c) s = false <-> ~ has c s.
Proof. rewrite <- any_has. destruct (any _ s); split; intros H; try congruence; try discriminate; destruct H; auto. Qed.
Lemma any_or p q s : any (fun x => p x || q x) s = any p s || any q s.
Proof. induction s; cbn; auto. rewrite IHs. destruct (p a), (q a), (any p s), (any q s); auto. Qed.
Lemma any_false_weaken p q s : (forall c, q c = true -> p c = true) -> any p s = false -> any q s = false.
Proof.
  intros W. induction s; cbn; auto. intros H. apply orb_false_iff in H as [A B]. rewrite IHs by auto. destruct (q a) eqn:E; auto. rewrite W in A by auto. discriminate.
Qed.

(** ** trimming *)
Lemma dle_keep a s : low a = false -> drop_low_end (String a s) = String a (drop_low_end s).
Proof. cbn. intros ->. destruct (drop_low_end s); auto. Qed.
Lemma dle_app s a t : low a = false -> drop_low_end (s ++ String a t) = s ++ drop_low_end (String a t).
Proof. intros L. induction s as [|b s IH]; auto. cbn [append]. cbn [drop_low_end] in *. rewrite IH. rewrite L. destruct (drop_low_end t); destruct s; auto. Qed.
Lemma dle_len s : (length (drop_low_end s) <= length s)%nat.
Proof. induction s as [|a s IH]; cbn; auto. destruct (drop_low_end s); [destruct (low a); cbn; lia|]. cbn in *. lia. Qed.
Lemma dle_blank s : blank_last s -> (length (drop_low_end s) < length s)%nat.
Proof.
  intros (u & c & -> & L). induction u as [|a u IH]; cbn.
  - unfold low. destruct (N.leb_spec (N_of_ascii c) 32); [cbn; lia|lia].
  - destruct (drop_low_end (u ++ String c "")) eqn:E; [|cbn in *; lia]. destruct (low a); cbn; [|rewrite len_app; cbn]; lia.
Qed.
Lemma dle_id s : ~ blank_last s -> drop_low_end s = s.
Proof.
  induction s as [|a s IH]; auto. intros B. cbn. rewrite IH.
  - destruct s; auto. destruct (low a) eqn:E; auto. destruct B. exists "", a. split; auto. unfold low in E. apply N.leb_le in E. auto.
  - intros (u & c & -> & L). apply B. exists (String a u), c. auto.
Qed.
Lemma dle_eq s : length (drop_low_end s) = length s -> drop_low_end s = s /\ ~ blank_last s.
Proof. intros E. assert (B : ~ blank_last s) by (intros B; apply dle_blank in B; lia). split; auto using dle_id. Qed.
Lemma dle_any p s : any p s = false -> any p (drop_low_end s) = false.
Proof. induction s as [|a s IH]; cbn; auto. intros H. apply orb_false_iff in H as [A B]. apply IH in B. destruct (drop_low_end s); [destruct (low a); cbn; auto; rewrite A; auto|]. cbn in *. rewrite A. auto. Qed.
Lemma dl_app s a t : low a = false -> drop_low (s ++ String a t) = drop_low s ++ String a t.
Proof. intros L. induction s as [|b s IH]; cbn; [rewrite L; auto|]. destruct (low b); auto. Qed.
Lemma dl_len s : (length (drop_low s) <= length s)%nat.
Proof. induction s as [|a s IH]; cbn; auto. destruct (low a); cbn; lia. Qed.
Lemma dl_eq s : length (drop_low s) = length s -> drop_low s = s /\ ~ blank_first s.
Proof.
  destruct s as [|a s]; cbn; [intros _; split; auto; intros (c & v & [=] & _)|]. pose proof (dl_len s). destruct (low a) eqn:E; [cbn; lia|]. intros _. split; auto.
  intros (c & v & [= <- <-] & L). unfold low in E. apply N.leb_gt in E. lia.
Qed.
Lemma dl_id s : ~ blank_first s -> drop_low s = s.
Proof. destruct s as [|a s]; auto. intros B. cbn. destruct (low a) eqn:E; auto. destruct B. exists a, s. split; auto. apply N.leb_le in E. auto. Qed.
Lemma dl_any p s : any p s = false -> any p (drop_low s) = false.
Proof. induction s as [|a s IH]; cbn; auto. intros H. apply orb_false_iff in H as [A B]. destruct (low a); auto. cbn. rewrite A, B. auto. Qed.
Lemma wb_app s t : without_breaks (s ++ t) = without_breaks s ++ without_breaks t.
Proof. induction s as [|a s IH]; cbn [append without_breaks length any]; auto. destruct (tab_or_newline a); cbn [append]; congruence. Qed.
Lemma wb_len s : (length (without_breaks s) <= length s)%nat.
Proof. induction s as [|a s IH]; cbn [append without_breaks length any]; auto. destruct (tab_or_newline a); cbn; lia. Qed.
Lemma tab_iff s : any tab_or_newline s = true <-> has_break s.
Proof.
  unfold has_break. rewrite <- !any_has. induction s as [|a s IH]; cbn [any]; [split; [discriminate|intuition discriminate]|].
  rewrite !orb_true_iff, IH. assert (E : tab_or_newline a = true <-> Ascii.eqb a "009" = true \/ Ascii.eqb a "010" = true \/ Ascii.eqb a "013" = true);
    [|rewrite E; tauto].
  unfold tab_or_newline. cbn [existsb]. rewrite !orb_true_iff. intuition discriminate.
Qed.
Lemma tab_no s : ~ has_break s <-> any tab_or_newline s = false.
Proof. rewrite <- tab_iff. destruct (any _ s); split; intros H; try congruence; try discriminate; destruct H; auto. Qed.
Lemma wb_id s : any tab_or_newline s = false -> without_breaks s = s.
Proof. induction s as [|a s IH]; cbn [append without_breaks length any]; auto. intros H. apply orb_false_iff in H as [-> B]. rewrite IH; auto. Qed.
Lemma wb_eq s : length (without_breaks s) = length s -> without_breaks s = s /\ ~ has_break s.
Proof.
  rewrite tab_no. induction s as [|a s IH]; cbn [append without_breaks length any]; auto. pose proof (wb_len s). destruct (tab_or_newline a); cbn; [lia|]. intros [= E]. destruct (IH E) as [-> ->]. auto.
Qed.
Lemma wb_any p s : any p s = false -> any p (without_breaks s) = false.
Proof. induction s as [|a s IH]; cbn [append without_breaks length any]; auto. intros H. apply orb_false_iff in H as [A B]. destruct (tab_or_newline a); auto. cbn. rewrite A, IH; auto. Qed.
Lemma low_tab a : tab_or_newline a = true -> low a = true.
Proof. unfold tab_or_newline. cbn. rewrite !orb_true_iff, !Ascii.eqb_eq. intros [->|[->|[->|]]]; try reflexivity. discriminate. Qed.

(** ** cutting *)
Definition stops (a : ascii) : bool := Ascii.eqb a "?" || Ascii.eqb a "#".
Fixpoint path_of (s : string) : string := match s with EmptyString => EmptyString | String a s' => if stops a then EmptyString else String a (path_of s') end.
Lemma cut_path s : fst (cut_query (cut_fragment s)) = path_of s.
Proof.
  induction s as [|a s IH]; auto. cbn [cut_fragment path_of]. unfold stops. destruct (Ascii.eqb_spec a "#") as [->|N]; [reflexivity|].
  cbn [cut_query]. destruct (Ascii.eqb a "?"); auto. cbn. rewrite <- IH. destruct (cut_query (cut_fragment s)). auto.
Qed.
Lemma path_of_app s t : any stops s = false -> path_of (s ++ t) = s ++ path_of t.
Proof. induction s as [|a s IH]; cbn; auto. intros H. apply orb_false_iff in H as [-> B]. rewrite IH; auto. Qed.
Lemma path_of_stop s t : any stops s = true -> path_of (s ++ t) = path_of s.
Proof. induction s as [|a s IH]; cbn; [discriminate|]. destruct (stops a); cbn; auto. intros. rewrite IH; auto. Qed.
Lemma path_of_len s : any stops s = true -> (length (path_of s) < length s)%nat.
Proof. induction s as [|a s IH]; cbn; [discriminate|]. destruct (stops a); cbn; [lia|]. intros H. apply IH in H. lia. Qed.
Lemma path_of_id s : any stops s = false -> path_of s = s.
Proof. intros H. rewrite <- (app_nil s) at 1. rewrite path_of_app; auto using app_nil. Qed.
Lemma path_of_any p s : any p s = false -> any p (path_of s) = false.
Proof. induction s as [|a s IH]; cbn; auto. intros H. apply orb_false_iff in H as [A B]. destruct (stops a); auto. cbn. rewrite A, IH; auto. Qed.
Lemma stops_iff s : any stops s = false <-> ~ has "?" s /\ ~ has "#" s.
Proof. unfold stops. rewrite any_or, orb_false_iff, !any_has_no. tauto. Qed.

(** ** slashes and pieces *)
Lemma fwd_app s t : forward (s ++ t) = forward s ++ forward t.
Proof. induction s; cbn; congruence. Qed.
Lemma fwd_len s : length (forward s) = length s. Proof. induction s; cbn; congruence. Qed.
Lemma fwd_id s : any (fun x => Ascii.eqb x "\") s = false -> forward s = s.
Proof.
  induction s as [|a s IH]; cbn; auto. intros H. apply orb_false_iff in H as [A B]. rewrite IH by auto. unfold slash. rewrite A, orb_false_r. destruct (Ascii.eqb_spec a "/"); congruence.
Qed.
Lemma fwd_slash s : any (fun x => Ascii.eqb x "/") (forward s) = any slash s.
Proof. induction s as [|a s IH]; cbn; auto. rewrite IH. unfold slash. destruct (Ascii.eqb a "/") eqn:E, (Ascii.eqb a "\"); cbn; auto; rewrite ?E; auto. Qed.
Lemma split_none c s : any (fun x => Ascii.eqb x c) s = false -> split_on c s = [s].
Proof. induction s as [|a s IH]; cbn; auto. intros H. apply orb_false_iff in H as [A B]. rewrite A, IH; auto. Qed.
Lemma split_app c s t : split_on c (s ++ String c t) = (split_on c s ++ split_on c t)%list.
Proof.
  induction s as [|a s IH]; cbn; [rewrite Ascii.eqb_refl; auto|]. rewrite IH. destruct (Ascii.eqb a c); auto. destruct (split_on c s) eqn:E; auto. destruct s; cbn in E; [discriminate|]. destruct (Ascii.eqb a0 c); [discriminate|]. destruct (split_on c s); discriminate.
Qed.
Lemma split_ne c s : split_on c s <> [].
Proof. destruct s; cbn; [discriminate|]. destruct (Ascii.eqb a c); [discriminate|]. destruct (split_on c s); discriminate. Qed.
Lemma piece_free c s w : In w (split_on c s) -> any (fun x => Ascii.eqb x c) w = false.
Proof.
  revert w. induction s as [|a s IH]; cbn; intros w; [intros [<-|[]]; auto|]. destruct (Ascii.eqb a c) eqn:E; [intros [<-|H]; auto|].
  destruct (split_on c s) eqn:F; [destruct (split_ne c s F)|]. intros [<-|H]; [cbn; rewrite E; apply IH; cbn; auto|apply IH; cbn; auto].
Qed.
Lemma piece_len c s w : In w (split_on c s) -> (length w <= length s)%nat /\ (length w = length s -> w = s /\ any (fun x => Ascii.eqb x c) s = false).
Proof.
  revert w. induction s as [|a s IH]; cbn; intros w; [intros [<-|[]]; auto|]. destruct (Ascii.eqb a c) eqn:E.
  - intros [<-|H]; [cbn; lia|]. destruct (IH _ H). lia.
  - destruct (split_on c s) eqn:F; [destruct (split_ne c s F)|]. intros [<-|H].
    + destruct (IH s0) as [A B]; cbn; auto. split; [lia|]. intros [= G]. destruct (B G) as [-> ->]. auto.
    + destruct (IH w) as [A B]; cbn; auto. lia.
Qed.

(** ** escapes *)
Lemma hex_iff c : hexadecimal c <-> hex_value c <> None.
Proof.
  unfold hexadecimal. split.
  - cbn. intros H. repeat destruct H as [<-|H]; try discriminate. destruct H.
  - destruct c as [[] [] [] [] [] [] [] []]; cbn; intros H; try (destruct (H eq_refl)); tauto.
Qed.
Lemma hex_dec c : hexadecimal c \/ hex_value c = None.
Proof. destruct (hex_value c) eqn:E; auto. left. apply hex_iff. congruence. Qed.
(** the shape of unquote, by strong induction on the length *)
Lemma string_len_ind (P : string -> Prop) : (forall s, (forall t, (length t < length s)%nat -> P t) -> P s) -> forall s, P s.
Proof.
  intros H s. remember (length s) as n eqn:E. assert (L : (length s <= n)%nat) by lia. clear E. revert s L.
  induction n as [|n IH]; intros s L; apply H; intros t Lt; [lia|]. apply IH. lia.
Qed.
Lemma unquote_other a s : Ascii.eqb a "%" = false -> unquote (String a s) = String a (unquote s).
Proof. cbn. intros ->. auto. Qed.
Lemma unquote_literal s : match s with String h (String l _) => hex_value h = None \/ hex_value l = None | _ => True end -> unquote (String "%" s) = String "%" (unquote s).
Proof. destruct s as [|h [|l s]]; auto. intros [E|E]; change (unquote (String "%" (String h (String l s)))) with (match hex_value h, hex_value l with Some x, Some y => String (ascii_of_N (16 * x + y)) (unquote s) | _, _ => String "%" (unquote (String h (String l s))) end); rewrite E; auto. destruct (hex_value h); auto. Qed.
Lemma unquote_hex h l x y s : hex_value h = Some x -> hex_value l = Some y -> unquote (String "%" (String h (String l s))) = String (ascii_of_N (16 * x + y)) (unquote s).
Proof. intros E F. change (unquote (String "%" (String h (String l s)))) with (match hex_value h, hex_value l with Some x, Some y => String (ascii_of_N (16 * x + y)) (unquote s) | _, _ => String "%" (unquote (String h (String l s))) end). rewrite E, F. auto. Qed.
Inductive escaping : string -> Prop :=
| esc_nil : escaping ""
| esc_char a s : escaping s -> Ascii.eqb a "%" = false -> escaping (String a s)
| esc_lit s : escaping s -> match s with String h (String l _) => hex_value h = None \/ hex_value l = None | _ => True end -> escaping (String "%" s)
| esc_hex h l x y s : escaping s -> hex_value h = Some x -> hex_value l = Some y -> escaping (String "%" (String h (String l s))).
Lemma escaping_all s : escaping s.
Proof.
  induction s as [s IH] using string_len_ind. destruct s as [|a s]; [constructor|]. destruct (Ascii.eqb_spec a "%") as [->|N]; [|apply esc_char; [apply IH; cbn; lia|apply Ascii.eqb_neq; auto]].
  destruct s as [|h [|l s]]; try (apply esc_lit; [apply IH; cbn; lia|auto]; fail).
  destruct (hex_value h) as [x|] eqn:E; [destruct (hex_value l) as [y|] eqn:F|].
  - apply (esc_hex h l x y); try (apply IH; cbn; lia); auto.
  - apply esc_lit; try (apply IH; cbn; lia); auto.
  - apply esc_lit; try (apply IH; cbn; lia); auto.
Qed.
Lemma unquote_len s : (length (unquote s) <= length s)%nat.
Proof.
  induction (escaping_all s); [auto|rewrite unquote_other by auto; cbn; lia|rewrite unquote_literal by auto; cbn; lia|rewrite (unquote_hex _ _ x y) by auto; cbn; lia].
Qed.
Lemma unquote_eq s : length (unquote s) = length s -> unquote s = s /\ ~ has_escape s.
Proof.
  intros E. assert (N : ~ has_escape s).
  { intros (u & h & l & v & -> & H & L). apply hex_iff in H, L. revert E.
    assert (K : forall t, (exists u', t = u' ++ String "%" (String h (String l v))) -> (length (unquote t) < length t)%nat); [|intros E; specialize (K _ (ex_intro _ u eq_refl)); lia].
    intros t. pose proof (escaping_all t) as X. induction X as [|a s X IH N|s X IH N|h' l' x y s X IH F G]; intros (u' & EQ).
    - destruct u'; discriminate.
    - rewrite unquote_other by auto. destruct u' as [|b u']; [injection EQ as -> _; discriminate|]. injection EQ as -> EQ. specialize (IH (ex_intro _ u' EQ)). cbn. lia.
    - rewrite unquote_literal by auto. destruct u' as [|b u']; [injection EQ as ->; destruct N; congruence|]. injection EQ as <- EQ. specialize (IH (ex_intro _ u' EQ)). cbn. lia.
    - rewrite (unquote_hex _ _ x y) by auto. pose proof (unquote_len s). cbn. lia. }
  split; auto. clear E. induction (escaping_all s); auto.
  - rewrite unquote_other by auto. f_equal. apply IHe. intros (u & h9 & l9 & v & -> & HH). apply N. exists (String a u), h9, l9, v. auto.
  - rewrite unquote_literal by auto. f_equal. apply IHe. intros (u & h9 & l9 & v & -> & HH). apply N. exists (String "%" u), h9, l9, v. auto.
  - destruct N. exists "", h, l, s. sp; auto; apply hex_iff; congruence.
Qed.
Lemma unquote_id s : ~ has_escape s -> unquote s = s.
Proof.
  intros N. induction (escaping_all s); auto.
  - rewrite unquote_other by auto. f_equal. apply IHe. intros (u & h9 & l9 & v & -> & HH). apply N. exists (String a u), h9, l9, v. auto.
  - rewrite unquote_literal by auto. f_equal. apply IHe. intros (u & h9 & l9 & v & -> & HH). apply N. exists (String "%" u), h9, l9, v. auto.
  - destruct N. exists "", h, l, s. sp; auto; apply hex_iff; congruence.
Qed.
Lemma unquote_slash s t : unquote (s ++ String "/" t) = unquote s ++ String "/" (unquote t).
Proof.
  induction (escaping_all s) as [|a s X IH N|s X IH N|h l x y s X IH F G]; cbn [append].
  - apply unquote_other. auto.
  - rewrite !unquote_other by auto. cbn. rewrite IH. auto.
  - rewrite !unquote_literal; [cbn; rewrite IH; auto|auto|]. destruct s as [|h [|l s]]; cbn; auto. destruct t; auto.
  - rewrite !(unquote_hex _ _ x y) by auto. cbn. rewrite IH. auto.
Qed.
Lemma escaped_round a s : unquote (escaped a ++ s) = String a (unquote s).
Proof. unfold escaped. cbn [append]. destruct a as [[] [] [] [] [] [] [] []]; reflexivity. Qed.
Lemma unquote_encode esc s : (forall c, hexadecimal c \/ c = "%"%char -> esc c = false) -> unquote (encode esc s) = unquote s.
Proof.
  intros E. assert (Ep : esc "%"%char = false) by auto. induction (escaping_all s) as [|a s X IH N|s X IH N|h l x y s X IH F G]; auto.
  - rewrite (unquote_other a s) by auto. cbn [encode]. destruct (esc a); [rewrite escaped_round|rewrite unquote_other by auto]; congruence.
  - rewrite (unquote_literal s) by auto. cbn [encode]. rewrite Ep. rewrite unquote_literal; [congruence|].
    destruct s as [|h [|l s]]; auto; cbn [encode].
    + destruct (esc h); cbn; auto.
    + destruct (esc h) eqn:Eh; [cbn; auto|]. destruct (esc l) eqn:El; cbn; auto.
  - rewrite (unquote_hex h l x y) by auto. cbn [encode]. rewrite Ep, !E by (left; apply hex_iff; congruence). rewrite (unquote_hex h l x y) by auto. congruence.
Qed.
Lemma path_esc_ok c : hexadecimal c \/ c = "%"%char -> path_escapes c = false.
Proof. unfold hexadecimal. cbn. intros [H| ->]; [|reflexivity]. repeat destruct H as [<-|H]; try reflexivity. destruct H. Qed.
Lemma query_esc_ok c : hexadecimal c \/ c = "%"%char -> query_escapes c = false.
Proof. unfold hexadecimal. cbn. intros [H| ->]; [|reflexivity]. repeat destruct H as [<-|H]; try reflexivity. destruct H. Qed.

(** ** paths *)
Lemma decoded_flat path : decoded path = flat_map (fun s => split_on "/" (unquote s)) path.
Proof.
  destruct path as [|s0 path0]; [reflexivity|]. remember (s0 :: path0) as path eqn:NE0. assert (NE : path <> []) by (rewrite NE0; discriminate). clear NE0.
  unfold decoded. assert (K : forall p, p <> [] -> exists t, unquote (path_text (map (encode path_escapes) p)) = String "/" t /\ split_on "/" t = flat_map (fun s => split_on "/" (unquote s)) p).
  { induction p as [|s p IH]; [congruence|]. intros _. unfold path_text. destruct p as [|s' p].
    - cbn [map String.concat]. rewrite unquote_other by auto. exists (unquote (encode path_escapes s)). split; auto. cbn. rewrite app_nil_r, unquote_encode; auto using path_esc_ok.
    - destruct (IH ltac:(discriminate)) as (t & E & F). unfold path_text in E. cbn [map]. change (String.concat "" (String "/" (encode path_escapes s) :: String "/" (encode path_escapes s') :: map (String "/") (map (encode path_escapes) p))) with (String "/" (encode path_escapes s) ++ "" ++ String.concat "" (map (String "/") (map (encode path_escapes) (s' :: p)))).
      cbn [append]. rewrite unquote_other by auto.
      assert (X : exists r, String.concat "" (map (String "/") (map (encode path_escapes) (s' :: p))) = String "/" r) by (destruct p; cbn; eauto).
      destruct X as (r & X). rewrite X in E |- *. rewrite unquote_other in E by auto. injection E as E. rewrite unquote_slash, E, unquote_encode by auto using path_esc_ok.
      eexists. split; auto. rewrite split_app, F. auto. }
  destruct (K path NE) as (t & -> & <-). cbn. auto.
Qed.

Section Shape.
  Variables (dir L : list string).
  Definition good (s : string) : Prop := s = "" \/ In s L /\ dot s = false /\ dot_dot s = false.
  Definition shape (l : list string) : Prop := exists k M, l = (firstn k dir ++ M)%list /\ Forall good M.
  Lemma shape_dir : shape dir. Proof. exists (List.length dir), []. rewrite firstn_all, app_nil_r. auto. Qed.
  Lemma shape_nil : shape []. Proof. exists O, []. auto. Qed.
  Lemma shape_add l s : shape l -> good s -> shape (l ++ [s]).
  Proof. intros (k & M & -> & F) G. exists k, (M ++ [s])%list. rewrite <- app_assoc. split; auto. apply Forall_app. auto. Qed.
  Lemma shape_drop l : shape l -> shape (removelast l).
  Proof.
    intros (k & M & -> & F). destruct M as [|x M].
    - exists (pred (Nat.min k (List.length dir))), []. rewrite !app_nil_r. split; auto. rewrite removelast_firstn_len, firstn_length, firstn_firstn. f_equal. lia.
    - exists k, (removelast (x :: M)). rewrite removelast_app by discriminate. split; auto. rewrite removelast_firstn_len. apply Forall_forall. intros y Hy. rewrite Forall_forall in F. apply F.
      rewrite <- (firstn_skipn (pred (List.length (x :: M))) (x :: M)). apply in_or_app. auto.
  Qed.
  Lemma walk_shape segs : forall acc, shape acc -> (forall s, In s segs -> In s L) -> shape (walk acc segs).
  Proof.
    induction segs as [|s segs IH]; intros acc A I; auto. assert (G : dot s = false -> dot_dot s = false -> good s) by (right; sp; auto; apply I; cbn; auto).
    cbn [walk]. destruct (dot_dot s) eqn:E, (dot s) eqn:F, segs as [|s' segs]; try (apply IH; [|intros x Hx; apply I; cbn; auto]); auto using shape_drop, shape_add; try (apply shape_add; auto using shape_drop; left; auto).
  Qed.
  Lemma walk_last segs v : dot v = false -> dot_dot v = false -> forall acc, shape acc -> (forall s, In s segs -> In s L) -> exists l, walk acc (segs ++ [v]) = (l ++ [v])%list /\ shape l.
  Proof.
    intros D DD. induction segs as [|s segs IH]; intros acc A I; [cbn [app walk]; rewrite D, DD; eauto|].
    assert (G : dot s = false -> dot_dot s = false -> good s) by (right; sp; auto; apply I; cbn; auto).
    cbn [app walk]. destruct (segs ++ [v])%list eqn:E; [destruct segs; discriminate|]. rewrite <- E in IH |- *.
    destruct (dot_dot s) eqn:EE, (dot s) eqn:F; apply IH; auto using shape_drop, shape_add; intros x Hx; apply I; cbn; auto.
  Qed.
  Lemma beyond k (X : list string) j T : (firstn k dir ++ X = dir ++ j :: T)%list -> In j X.
  Proof.
    clear. revert k. induction dir as [|d l IH]; intros k; [rewrite firstn_nil; cbn; intros ->; cbn; auto|]. destruct k; cbn.
    - intros ->. right. apply in_or_app. right. cbn. auto.
    - intros [= H]. eapply IH; eauto.
  Qed.
  Hypothesis plain : Forall (fun s => split_on "/" (unquote s) = [s]) dir.
  Lemma flat_plain k : flat_map (fun s => split_on "/" (unquote s)) (firstn k dir) = firstn k dir.
  Proof. clear L. revert k. induction plain; intros [|k]; cbn; auto. rewrite H, IHf by auto. auto. Qed.
  Lemma reach l j T : shape l -> flat_map (fun s => split_on "/" (unquote s)) l = (dir ++ j :: T)%list -> j <> "" ->
    exists s, In s L /\ dot s = false /\ dot_dot s = false /\ In j (split_on "/" (unquote s)).
  Proof.
    intros (k & M & -> & F) E NE. rewrite flat_map_app, flat_plain in E. apply beyond, in_flat_map in E as (s & Hs & Hj). rewrite Forall_forall in F. destruct (F s Hs) as [->|(A & B & C)]; eauto 6. cbn in Hj. destruct Hj as [<-|[]]. congruence.
  Qed.
End Shape.
Lemma measure Y s j : In s (split_on "/" (forward Y)) -> In j (split_on "/" (unquote s)) -> dot s = false -> dot_dot s = false ->
  (length j <= length Y)%nat /\ (length j = length Y -> j = Y /\ any slash Y = false /\ ~ has_escape Y /\ dot Y = false /\ dot_dot Y = false).
Proof.
  intros A B D DD. destruct (piece_len _ _ _ A) as [L1 E1], (piece_len _ _ _ B) as [L2 E2]. pose proof (unquote_len s) as L3. rewrite fwd_len in *. split; [lia|].
  intros E. destruct E1 as [-> NS]; [lia|]. destruct E2 as [-> _]; [lia|]. destruct (unquote_eq (forward Y)) as [U NE]; [lia|]. rewrite fwd_slash in NS.
  assert (F : forward Y = Y) by (apply fwd_id; eapply any_false_weaken; [|exact NS]; intros c H; unfold slash; rewrite H; apply orb_true_r).
  rewrite F in *. sp; auto.
Qed.
Lemma under_iff mount segs r : under mount segs = Some r <-> segs = (mount ++ r)%list.
Proof.
  revert segs. induction mount as [|m mount IH]; intros segs; cbn; [split; congruence|]. destruct segs as [|s segs]; [split; discriminate|]. destruct (String.eqb_spec m s) as [->|N]; [rewrite IH; split; congruence|]. split; [discriminate|]. intros [= E _]. congruence.
Qed.
Lemma lower_dot_char a c : lower_ascii a = c -> In c ["."; "%"; "2"]%char -> a = c.
Proof. intros <- H. destruct a as [[] [] [] [] [] [] [] []]; cbn in *; repeat destruct H as [H|H]; try discriminate; try reflexivity; try destruct H. Qed.
Lemma lower_e a : lower_ascii a = "e"%char -> a = "e"%char \/ a = "E"%char.
Proof. destruct a as [[] [] [] [] [] [] [] []]; cbn; intros H; try discriminate H; auto. Qed.
Lemma dots s : ~ has_escape s -> (dot s = true <-> s = ".") /\ (dot_dot s = true <-> s = "..").
Proof.
  intros N. assert (K : forall u t, s = u ++ t -> lower (substring 0 3 t) = "%2e" -> False).
  { intros u t E H. apply N. destruct t as [|a [|b [|c t]]]; try discriminate H. cbn in H.
    injection H as A B C. apply lower_dot_char in A, B; cbn; auto. apply lower_e in C. subst. exists u, "2"%char, c, t. replace (substring 0 0 t) with "" by (destruct t; auto). sp; auto; unfold hexadecimal; cbn; intuition auto. }
  split; (split; [|intros ->; reflexivity]).
  - unfold dot. cbn [existsb]. rewrite !orb_true_iff, !String.eqb_eq. intros [H|[H|H]]; [| |discriminate].
    + destruct s as [|a [|]]; try discriminate. injection H as H. apply lower_dot_char in H; cbn; auto. congruence.
    + destruct (K "" s eq_refl). destruct s as [|a [|b [|c [|]]]]; try discriminate. exact H.
  - unfold dot_dot. cbn [existsb]. rewrite !orb_true_iff, !String.eqb_eq. intros [H|[H|[H|[H|H]]]]; [| | | |discriminate].
    + destruct s as [|a [|b [|]]]; try discriminate. injection H as H H'. apply lower_dot_char in H, H'; cbn; auto. congruence.
    + exfalso. destruct s as [|a s]; try discriminate. injection H as H H'. apply (K (String a "") s eq_refl). destruct s as [|x [|b [|c [|]]]]; try discriminate. exact H'.
    + exfalso. apply (K "" s eq_refl). destruct s as [|x [|b [|c [|y [|]]]]]; try discriminate. cbn in H |- *. congruence.
    + exfalso. apply (K "" s eq_refl). destruct s as [|x [|b [|c s]]]; try discriminate. replace (substring 0 3 (String x (String b (String c s)))) with (String x (String b (String c ""))) by (destruct s; auto). cbn in H |- *. congruence.
Qed.

(** ** queries *)
Fixpoint chunks (e : ascii -> bool) (h : ascii -> ascii) (s : string) : string :=
  match s with EmptyString => EmptyString | String a s' => (if e a then escaped (h a) else String (h a) "") ++ chunks e h s' end.
Fixpoint smap (h : ascii -> ascii) (s : string) : string := match s with EmptyString => EmptyString | String a s' => String (h a) (smap h s') end.
Lemma unquote_chunks e h s :
  (forall c, hexadecimal c \/ c = "%"%char -> e c = false /\ h c = c) -> (forall c, hex_value c = None -> c <> "%"%char -> hex_value (h c) = None /\ h c <> "%"%char) ->
  unquote (chunks e h s) = unquote (smap h s).
Proof.
  intros E H. assert (P : e "%"%char = false /\ h "%"%char = "%"%char) by auto. destruct P as [Pe Ph].
  assert (NP : forall a, a <> "%"%char -> Ascii.eqb (h a) "%" = false).
  { intros a N. apply Ascii.eqb_neq. destruct (hex_dec a) as [X|X]; [|apply H; auto]. destruct (E a) as [_ ->]; auto. }
  assert (NH : forall a, hex_value a = None -> hex_value (h a) = None).
  { intros a N. destruct (Ascii.eqb_spec a "%") as [->|M]; [rewrite Ph; auto|]. apply H; auto. }
  induction (escaping_all s) as [|a s X IH N|s X IH N|c l x y s X IH F G]; auto; cbn [chunks smap].
  - apply Ascii.eqb_neq in N. rewrite (unquote_other (h a)) by auto. destruct (e a); [rewrite escaped_round; congruence|]. cbn [append]. rewrite unquote_other by auto. congruence.
  - rewrite Pe, Ph. cbn [append]. rewrite !unquote_literal; [congruence| |].
    + destruct s as [|c [|l s]]; auto. cbn [smap]. assert (N' : hex_value c = None \/ hex_value l = None) by exact N. destruct N'; auto.
    + destruct s as [|c [|l s]]; auto; cbn [chunks].
      * destruct (e c); cbn; auto.
      * destruct (e c) eqn:Ec; [cbn; auto|]. assert (N' : hex_value c = None \/ hex_value l = None) by exact N. cbn [append]. destruct (e l); unfold escaped; cbn [append]; [right; reflexivity|]. destruct N'; auto.
  - destruct (E c) as [A1 A2]; [left; apply hex_iff; congruence|]. destruct (E l) as [B1 B2]; [left; apply hex_iff; congruence|].
    rewrite Pe, Ph, A1, A2, B1, B2. cbn [append]. rewrite !(unquote_hex c l x y) by auto. congruence.
Qed.
Definition plus (a : ascii) : ascii := if Ascii.eqb a "+" then " "%char else a.
Lemma plus_smap s : plus_to_space s = smap plus s. Proof. induction s; cbn; auto. rewrite IHs. auto. Qed.
Lemma plus_app s t : plus_to_space (s ++ t) = plus_to_space s ++ plus_to_space t. Proof. induction s; cbn; auto. rewrite IHs. auto. Qed.
Lemma hex_digits_plus a : plus_to_space (escaped a) = escaped (plus a) \/ a = "+"%char.
Proof. destruct a as [[] [] [] [] [] [] [] []]; try (left; reflexivity). right; reflexivity. Qed.
Lemma plus_chunks s : plus_to_space (encode query_escapes s) = chunks query_escapes plus s.
Proof.
  induction s as [|a s IH]; auto. cbn [encode chunks]. destruct (query_escapes a) eqn:E.
  - rewrite plus_app, IH. f_equal. destruct (hex_digits_plus a) as [| ->]; [auto|discriminate E].
  - cbn [append plus_to_space]. rewrite IH. auto.
Qed.
Lemma form_encode s : form_text (encode query_escapes s) = form_text s.
Proof.
  unfold form_text. rewrite plus_chunks, plus_smap. apply unquote_chunks.
  - intros c H. split; [apply query_esc_ok; auto|]. unfold plus. destruct (Ascii.eqb_spec c "+") as [->|]; auto. destruct H as [H|H]; [|discriminate]. apply hex_iff in H. destruct H; auto.
  - intros c H N. unfold plus. destruct (Ascii.eqb c "+"); auto. split; auto. discriminate.
Qed.
Lemma plus_len s : length (plus_to_space s) = length s. Proof. induction s; cbn; congruence. Qed.
Lemma plus_escape s : has_escape s -> has_escape (plus_to_space s).
Proof.
  intros (u & h & l & v & -> & H & L). exists (plus_to_space u), h, l, (plus_to_space v). sp; auto. rewrite plus_app. cbn. repeat f_equal.
  - destruct (Ascii.eqb_spec h "+") as [->|]; auto. apply hex_iff in H. destruct H; auto.
  - destruct (Ascii.eqb_spec l "+") as [->|]; auto. apply hex_iff in L. destruct L; auto.
Qed.
Lemma plus_id s : plus_to_space s = s <-> ~ has "+" s.
Proof.
  rewrite <- any_has_no. induction s as [|a s IH]; cbn; [tauto|]. destruct (Ascii.eqb_spec a "+") as [->|]; cbn; [split; discriminate|]. rewrite <- IH. split; congruence.
Qed.
Lemma form_len s : (length (form_text s) <= length s)%nat.
Proof. unfold form_text. pose proof (unquote_len (plus_to_space s)). rewrite plus_len in *. auto. Qed.
Lemma form_eq s : length (form_text s) = length s -> form_text s = plus_to_space s /\ ~ has_escape s.
Proof.
  unfold form_text. intros E. destruct (unquote_eq (plus_to_space s)) as [A B]; [rewrite plus_len; auto|]. split; auto. intros H. apply B. apply plus_escape; auto.
Qed.
Lemma ls_len s : (length (lstrip s) <= length s)%nat. Proof. induction s as [|a s IH]; cbn [lstrip]; auto. destruct (is_space a); cbn; lia. Qed.
Lemma rs_len s : (length (rstrip s) <= length s)%nat. Proof. induction s as [|a s IH]; cbn [rstrip]; auto. destruct (rstrip s); [destruct (is_space a); cbn; lia|]. cbn in *. lia. Qed.
Lemma space_iff a : is_space a = true <-> whitespace a.
Proof. unfold is_space, whitespace. rewrite orb_true_iff, !andb_true_iff, !N.leb_le. tauto. Qed.
Lemma ls_eq s : length (lstrip s) = length s -> lstrip s = s /\ ~ space_first s.
Proof.
  destruct s as [|a s]; cbn [lstrip]; [split; auto; intros (c & v & [=] & _)|]. pose proof (ls_len s). destruct (is_space a) eqn:E; [cbn; lia|]. intros _. split; auto.
  intros (c & v & [= <- <-] & W). apply space_iff in W. congruence.
Qed.
Lemma strip_len s : (length (strip s) <= length s)%nat. Proof. unfold strip. pose proof (ls_len s). pose proof (rs_len (lstrip s)). lia. Qed.
Lemma rs_id s : ~ blank_last s -> rstrip s = s.
Proof.
  induction s as [|a s IH]; auto. intros B. cbn [rstrip]. rewrite IH.
  - destruct s; auto. destruct (is_space a) eqn:E; auto. destruct B. exists "", a. split; auto. apply space_iff in E. unfold whitespace in E. lia.
  - intros (u & c & -> & L). apply B. exists (String a u), c. auto.
Qed.
Lemma strip_id s : ~ space_first s -> ~ blank_last s -> strip s = s.
Proof.
  intros A B. unfold strip. assert (L : lstrip s = s). { destruct s as [|a s]; auto. cbn [lstrip]. destruct (is_space a) eqn:E; auto. destruct A. exists a, s. split; auto. apply space_iff; auto. } rewrite L. apply rs_id; auto.
Qed.
Lemma strip_eq s : length (strip s) = length s -> ~ space_first s.
Proof. unfold strip. intros E. pose proof (ls_len s). pose proof (rs_len (lstrip s)). apply ls_eq. lia. Qed.
Lemma rs_eq s : length (rstrip s) = length s -> rstrip s = s.
Proof. induction s as [|a s IH]; auto. cbn [rstrip]. intros E. pose proof (rs_len s). destruct (rstrip s) eqn:F; [destruct s; [destruct (is_space a); cbn in *; [discriminate|auto]|destruct (is_space a); cbn in *; lia]|]. cbn in E. rewrite IH; auto. Qed.
Lemma strip_same s : length (strip s) = length s -> strip s = s.
Proof. unfold strip. intros E. pose proof (ls_len s). pose proof (rs_len (lstrip s)). destruct (ls_eq s) as [A _]; [lia|]. rewrite A in *. apply rs_eq. auto. Qed.
Lemma escaped_amp c a : c = "&"%char \/ c = "="%char -> any (fun x => Ascii.eqb x c) (escaped a) = false.
Proof. intros [-> | ->]; destruct a as [[] [] [] [] [] [] [] []]; reflexivity. Qed.
Lemma split_free_app c s t w l : any (fun x => Ascii.eqb x c) s = false -> split_on c t = w :: l -> split_on c (s ++ t) = (s ++ w) :: l.
Proof. intros F E. induction s as [|a s IH]; cbn [append]; auto. cbn [any] in F. apply orb_false_iff in F as [A B]. cbn [split_on]. rewrite A, IH by auto. auto. Qed.
Lemma split_encode s : split_on "&" (encode query_escapes s) = map (encode query_escapes) (split_on "&" s).
Proof.
  induction s as [|a s IH]; auto. cbn [encode split_on]. destruct (Ascii.eqb_spec a "&") as [->|N]; [cbn; rewrite IH; auto|].
  destruct (split_on "&" s) as [|w l] eqn:E; [destruct (split_ne "&" s E)|]. cbn [map] in IH |- *. cbn [encode]. destruct (query_escapes a).
  - rewrite (split_free_app "&" _ _ _ _ (escaped_amp "&" a (or_introl eq_refl)) IH). auto.
  - cbn [split_on]. rewrite IH. destruct (Ascii.eqb_spec a "&"); [congruence|]. auto.
Qed.
Lemma cut_equals_encode s : snd (cut_equals (encode query_escapes s)) = encode query_escapes (snd (cut_equals s)).
Proof.
  assert (K : forall p t, any (fun x => Ascii.eqb x "=") p = false -> snd (cut_equals (p ++ t)) = snd (cut_equals t)).
  { induction p as [|a p IH]; intros t F; auto. cbn [any] in F. apply orb_false_iff in F as [A B]. cbn [append cut_equals]. rewrite A. specialize (IH t B). destruct (cut_equals (p ++ t)). auto. }
  induction s as [|a s IH]; auto. cbn [encode]. destruct (query_escapes a) eqn:E.
  - rewrite K by (apply escaped_amp; auto). rewrite IH. cbn [cut_equals]. destruct (Ascii.eqb_spec a "=") as [->|]; [discriminate E|]. destruct (cut_equals s). auto.
  - cbn [cut_equals]. destruct (Ascii.eqb a "="); auto. destruct (cut_equals (encode query_escapes s)), (cut_equals s). auto.
Qed.
Lemma cut_equals_len s : (length (snd (cut_equals s)) <= length s)%nat.
Proof. induction s as [|a s IH]; cbn; auto. destruct (Ascii.eqb a "="); cbn; [lia|]. destruct (cut_equals s); cbn in *; lia. Qed.
Lemma dget_in {A} k (l : list (string * A)) v : dget k l = Some v -> In (k, v) l.
Proof. induction l as [|[k' v'] l IH]; cbn; [discriminate|]. destruct (String.eqb_spec k k') as [->|]; [intros [= ->]; auto|auto]. Qed.
Lemma dget_some {A} k (l : list (string * A)) v : In (k, v) l -> exists w, dget k l = Some w.
Proof. induction l as [|[k' v'] l IH]; cbn; [tauto|]. intros [[= -> ->]|H]; [rewrite String.eqb_refl; eauto|]. destruct (String.eqb k k'); eauto. Qed.

(** the value of the first parameter of a query *)
Lemma first_param key y (first : bool) : any (fun x => Ascii.eqb x "=") key = false -> any (fun x => Ascii.eqb x "&") key = false -> key <> "" -> form_text key = key -> any query_escapes key = false ->
  let v := query_param first key (Some (encode query_escapes (key ++ String "=" y))) in
  exists u, v = form_text u /\ (length u <= length y)%nat /\ (length u = length y -> u = y /\ ~ has "&" y).
Proof.
  intros KE KA KN KF KQ v. assert (EK : encode query_escapes (key ++ String "=" y) = key ++ String "=" (encode query_escapes y)).
  { clear -KQ. induction key as [|a k IH]; auto. cbn [any] in KQ. apply orb_false_iff in KQ as [A B]. cbn [append encode]. rewrite A, IH; auto. }
  destruct (split_on "&" y) as [|w l] eqn:SY; [destruct (split_ne "&" y SY)|].
  assert (SP : split_on "&" (key ++ String "=" (encode query_escapes y)) = (key ++ String "=" (encode query_escapes w)) :: map (encode query_escapes) l).
  { replace (key ++ String "=" (encode query_escapes y)) with ((key ++ "=") ++ encode query_escapes y) by (rewrite app_ass; auto). replace (key ++ String "=" (encode query_escapes w)) with ((key ++ "=") ++ encode query_escapes w) by (rewrite app_ass; auto).
    apply split_free_app; [rewrite any_app, KA; auto|]. rewrite split_encode, SY. auto. }
  assert (CE : forall t, cut_equals (key ++ String "=" t) = (key, t)).
  { clear -KE. induction key as [|a k IH]; intros t; [reflexivity|]. cbn [any] in KE. apply orb_false_iff in KE as [A B]. cbn [append cut_equals]. rewrite A, IH; auto. }
  assert (PQ : exists rest, parse_query (key ++ String "=" (encode query_escapes y)) = (key, form_text (encode query_escapes w)) :: rest /\ (forall k t, In (k, t) rest -> exists f, In f l /\ t = form_text (snd (cut_equals f)))).
  { unfold parse_query. rewrite SP. cbn [filter]. destruct (String.eqb_spec (key ++ String "=" (encode query_escapes w)) "") as [X|_]; [destruct key; discriminate X|]. cbn [negb map]. rewrite CE, KF. eexists. split; [reflexivity|].
    intros k t H. apply in_map_iff in H as (f & E & H). apply filter_In in H as [H _]. apply in_map_iff in H as (f0 & <- & H). exists f0. split; auto. rewrite <- form_encode, <- cut_equals_encode. destruct (cut_equals (encode query_escapes f0)). injection E as _ <-. auto. }
  destruct PQ as (rest & PQ & R).
  assert (VIN : v = form_text w \/ exists f, In f l /\ v = form_text (snd (cut_equals f))).
  { unfold v, query_param. rewrite EK, PQ. destruct first.
    - cbn [dget]. rewrite String.eqb_refl. left. apply form_encode.
    - destruct (dget_some key (rev ((key, form_text (encode query_escapes w)) :: rest)) (form_text (encode query_escapes w))) as (z & Z); [apply in_rev; rewrite rev_involutive; cbn; auto|]. rewrite Z. apply dget_in in Z. apply in_rev in Z. destruct Z as [[= <-]|Z]; [left; apply form_encode|right; eauto]. }
  assert (TL : forall f, In f l -> (length f < length y)%nat).
  { intros f Hf. assert (A : In f (split_on "&" y)) by (rewrite SY; cbn; auto). destruct (piece_len _ _ _ A) as [L E]. destruct (Nat.eq_dec (length f) (length y)) as [Q|]; [|lia]. destruct (E Q) as [_ F]. rewrite (split_none "&" y F) in SY. injection SY as _ <-. destruct Hf. }
  destruct VIN as [->|(f & Hf & ->)].
  - exists w. split; auto. assert (A : In w (split_on "&" y)) by (rewrite SY; cbn; auto). destruct (piece_len _ _ _ A) as [L E]. split; auto. intros Q. destruct (E Q) as [-> F]. split; auto. apply any_has_no. auto.
  - exists (snd (cut_equals f)). split; auto. pose proof (TL f Hf). pose proof (cut_equals_len f). split; lia.
Qed.
Lemma one_param key y (first : bool) k : any (fun x => Ascii.eqb x "=") key = false -> any (fun x => Ascii.eqb x "&") key = false -> key <> "" -> form_text key = key -> any query_escapes key = false -> ~ has "&" y ->
  query_param first k (Some (encode query_escapes (key ++ String "=" y))) = if String.eqb k key then form_text y else "".
Proof.
  intros KE KA KN KF KQ NA. assert (EK : encode query_escapes (key ++ String "=" y) = key ++ String "=" (encode query_escapes y)).
  { clear -KQ. induction key as [|a s IH]; auto. cbn [any] in KQ. apply orb_false_iff in KQ as [A B]. cbn [append encode]. rewrite A, IH; auto. }
  assert (CE : forall t, cut_equals (key ++ String "=" t) = (key, t)).
  { clear -KE. induction key as [|a s IH]; intros t; [reflexivity|]. cbn [any] in KE. apply orb_false_iff in KE as [A B]. cbn [append cut_equals]. rewrite A, IH; auto. }
  apply any_has_no in NA.
  assert (PQ : parse_query (key ++ String "=" (encode query_escapes y)) = [(key, form_text y)]).
  { unfold parse_query. replace (key ++ String "=" (encode query_escapes y)) with ((key ++ "=") ++ encode query_escapes y) by (rewrite app_ass; auto).
    rewrite (split_free_app "&" (key ++ "=") _ (encode query_escapes y) []); [|rewrite any_app, KA; auto|rewrite split_encode, split_none; auto].
    rewrite app_ass. cbn [append filter]. destruct (String.eqb_spec (key ++ String "=" (encode query_escapes y)) "") as [X|_]; [destruct key; discriminate X|]. cbn [negb map]. rewrite CE, KF, form_encode. auto. }
  unfold query_param. rewrite EK, PQ. destruct first; cbn [rev app dget]; destruct (String.eqb k key); auto.
Qed.
