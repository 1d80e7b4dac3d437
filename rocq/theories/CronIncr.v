From Verif Require Import Prelude Calendar CalendarFacts Cron.
Open Scope Z_scope.
Ltac Zify.zify_post_hook ::= Z.div_mod_to_equations.

(** ** increment_field_value in closed form *)
Definition inc0 (c : civil) := if cy c =? 9999 then None else Some (MkCivil (cy c + 1) 1 1 0 0 0, 0).
Definition inc1 (c : civil) := if cmo c =? 12 then inc0 c else Some (MkCivil (cy c) (cmo c + 1) 1 0 0 0, 1).
Definition inc2 (c : civil) :=
  if cd c =? mdays (cy c) (cmo c) then inc1 c else Some (MkCivil (cy c) (cmo c) (cd c + 1) 0 0 0, 2).
Definition inc5 (c : civil) :=
  if ch c =? 23 then inc2 c else Some (MkCivil (cy c) (cmo c) (cd c) (ch c + 1) 0 0, 5).
Definition inc6 (c : civil) :=
  if cmi c =? 59 then inc5 c else Some (MkCivil (cy c) (cmo c) (cd c) (ch c) (cmi c + 1) 0, 6).
Definition inc7 (c : civil) :=
  if cs c =? 59 then inc6 c else Some (MkCivil (cy c) (cmo c) (cd c) (ch c) (cmi c) (cs c + 1), 7).
Definition inc_at (k : Z) (c : civil) : option (civil * Z) :=
  if k <? 0 then None else if k =? 0 then inc0 c else if k =? 1 then inc1 c
  else if k <=? 4 then inc2 c else if k =? 5 then inc5 c else if k =? 6 then inc6 c else inc7 c.

Definition last_second (c : civil) : Prop := c = MkCivil 9999 12 31 23 59 59.

Lemma vcheck_ok v : valid v = true -> 1 <= cy v <= 9999 ->
  valid v && (1 <=? cy v) && (cy v <=? 9999) = true.
Proof. intros -> H. lia. Qed.

Ltac incr_go := cbn [incr_loop pyidx freal fvalue fmin fmax fmax_const vset negb andb orb
                  Z.ltb Z.leb Z.eqb Z.compare Pos.compare Pos.compare_cont Pos.eqb CompOpp
                  Z.add Z.sub Z.opp Z.pos_sub Z.succ_double Z.pred_double Z.double Pos.add Pos.sub Pos.pred_double
                  Pos.succ Pos.add_carry
                  cy cmo cd ch cmi cs].
Ltac incr_fin :=
  lazymatch goal with
  | |- (if ?v && (1 <=? ?y) && (?y <=? 9999) then _ else _) = _ =>
      replace (v && (1 <=? y) && (y <=? 9999))%bool with true;
      [reflexivity|symmetry; apply andb_true_iff; split; [apply andb_true_iff; split; [apply valid_iff; incr_go|]|]]
  end.

Lemma increment_closed c k :
  valid c = true -> 1 <= cy c <= 9999 -> -1 <= k <= 7 ->
  match inc_at k c with
  | Some r => increment_field_value c k = Ok r
  | None => (exists k', increment_field_value c k = Ok (MkCivil 1970 1 1 0 0 0, k') /\ k' < 0)
            \/ (increment_field_value c k = Err IndexError /\ last_second c /\ 0 <= k)
  end.
Proof.
  intros Hv Hy Hk. apply valid_iff in Hv. destruct c as [y mo d h mi s]. cbn [cy cmo cd ch cmi cs] in *.
  unfold increment_field_value.
  assert (Hc : k = -1 \/ k = 0 \/ k = 1 \/ k = 2 \/ k = 3 \/ k = 4 \/ k = 5 \/ k = 6 \/ k = 7) by lia.
  pose proof (mdays_bounds y mo) as Hmd. pose proof (mdays_bounds y (mo + 1)) as Hmd'.
  pose proof (mdays_bounds (y + 1) 1) as Hmd''.
  unfold inc_at, inc7, inc6, inc5, inc2, inc1, inc0, last_second.
  repeat (destruct Hc as [->|Hc]); [..|subst k]; incr_go;
    repeat (lazymatch goal with |- context [if ?a =? ?b then _ else _] => destruct (Z.eqb_spec a b); incr_go end);
    try (incr_fin; lia);
    try (left; eexists; split; [reflexivity|lia]);
    try (right; split; [reflexivity|split; [|lia]]; subst; reflexivity).
Qed.
