(** Python string methods used by the code, on ASCII text (a byte per character). *)
From Verif Require Import Prelude.
From Coq Require Import NArith.
Open Scope N_scope.

(** str.lower(): A-Z to a-z *)
Definition lower_ascii (a : ascii) : ascii := let n := N_of_ascii a in if (65 <=? n) && (n <=? 90) then ascii_of_N (n + 32) else a.
Fixpoint lower (s : string) : string := match s with EmptyString => EmptyString | String a s' => String (lower_ascii a) (lower s') end.
(** str.isspace() of one character: tab to carriage return, file to unit separator, space *)
Definition is_space (a : ascii) : bool := let n := N_of_ascii a in ((9 <=? n) && (n <=? 13)) || ((28 <=? n) && (n <=? 32)).
(** str.strip() *)
Fixpoint lstrip (s : string) : string := match s with String a s' => if is_space a then lstrip s' else s | EmptyString => EmptyString end.
Fixpoint rstrip (s : string) : string :=
  match s with
  | EmptyString => EmptyString
  | String a s' => match rstrip s' with EmptyString => if is_space a then EmptyString else String a EmptyString | r => String a r end
  end.
Definition strip (s : string) : string := rstrip (lstrip s).
(** str.startswith, and [needle in s] *)
Fixpoint starts_with (p s : string) : bool :=
  match p, s with
  | EmptyString, _ => true
  | String a p', String b s' => Ascii.eqb a b && starts_with p' s'
  | String _ _, EmptyString => false
  end.
Fixpoint contains (p s : string) : bool :=
  starts_with p s || match s with EmptyString => false | String _ s' => contains p s' end.
(** s.split(sep) for a one-character separator: never empty *)
Fixpoint split_on (sep : ascii) (s : string) : list string :=
  match s with
  | EmptyString => [EmptyString]
  | String a s' => if Ascii.eqb a sep then EmptyString :: split_on sep s'
                   else match split_on sep s' with w :: l => String a w :: l | [] => [String a EmptyString] end
  end.

Lemma starts_with_iff p s : starts_with p s = true <-> exists post, s = (p ++ post)%string.
Proof.
  revert s. induction p as [|a p IH]; intros s; cbn; [split; eauto|]. destruct s as [|b s]; [split; [discriminate|intros (q & H); discriminate]|].
  rewrite andb_true_iff, IH, Ascii.eqb_eq. split; [intros (-> & q & ->); eauto|intros (q & [= -> ->]); eauto].
Qed.
Lemma contains_iff p s : contains p s = true <-> exists pre post, s = (pre ++ p ++ post)%string.
Proof.
  induction s as [|a s IH]; cbn [contains]; rewrite orb_true_iff, starts_with_iff.
  - split; [intros [(q & E)|[=]]; exists EmptyString, q; auto|]. intros ([|b pre] & q & E); [left; exists q; auto|discriminate].
  - rewrite IH. split; [intros [(q & E)|(pre & q & ->)]; [exists EmptyString, q; auto|exists (String a pre), q; auto]|].
    intros ([|b pre] & q & E); [left; exists q; auto|]. inversion E. right. eauto.
Qed.
Lemma split_on_nonempty sep s : split_on sep s <> [].
Proof. destruct s as [|a s]; cbn; [discriminate|]. destruct (Ascii.eqb a sep); [discriminate|]. destruct (split_on sep s); discriminate. Qed.
