(** C66: the instants datetimes of a zone stand for. *)
From Verif Require Import Prelude Calendar Cron FloatDiv Triggers Zone ZoneSpec.
Open Scope Z_scope.

Lemma shown_after l : forall t d o u, 0 <= d -> spaced t d o l -> t <= u -> t + o <= u + utc_off o l u.
Proof.
  induction l as [|(t', o') l IH]; intros t d o u D S H; cbn [utc_off]; [lia|]. cbn [spaced] in S. destruct S as (A & B & S).
  destruct (Z.leb_spec t' u); [|lia]. specialize (IH t' (Z.abs (o' - o)) o' u ltac:(lia) S ltac:(lia)). lia.
Qed.
Lemma wall_back l : forall t d o u f, 0 <= d -> spaced t d o l -> t <= u -> (f = true -> u < t + d) ->
  wall_off (utc_fold f o l u) o l (u + utc_off o l u) = utc_off o l u.
Proof.
  induction l as [|(t', o') l IH]; intros t d o u f D S H F; cbn [utc_off utc_fold wall_off]; [reflexivity|]. cbn [spaced] in S. destruct S as (A & B & S).
  destruct (Z.leb_spec t' u) as [L|L].
  - assert (IH' := IH t' (Z.abs (o' - o)) o' u (u - t' <? o - o') ltac:(lia) S L). 
    assert (P : u - t' <? o - o' = true -> u < t' + Z.abs (o' - o)) by (destruct (Z.ltb_spec (u - t') (o - o')); [lia|discriminate]). specialize (IH' P).
    set (F' := utc_fold (u - t' <? o - o') o' l u) in *.
    assert (G : t' + (if F' then Z.min o o' else Z.max o o') <= u + utc_off o' l u).
    { destruct l as [|(t2, o2) l].
      - cbn [utc_fold utc_off] in *. unfold F'. destruct (Z.ltb_spec (u - t') (o - o')); lia.
      - cbn [utc_fold utc_off spaced] in *. destruct S as (A2 & B2 & S2). destruct (Z.leb_spec t2 u) as [L2|L2].
        + pose proof (shown_after l t2 (Z.abs (o2 - o')) o2 u ltac:(lia) S2 L2). destruct F'; lia.
        + unfold F'. destruct (Z.ltb_spec (u - t') (o - o')); lia. }
    destruct (Z.leb_spec (t' + (if F' then Z.min o o' else Z.max o o')) (u + utc_off o' l u)); [exact IH'|lia].
  - destruct (Z.leb_spec (t' + (if f then Z.min o o' else Z.max o o')) (u + o)) as [G|G]; [|reflexivity]. destruct f; [specialize (F eq_refl)|]; lia.
Qed.
(** a datetime of the zone, fold included, stands for the instant it was made from *)
Theorem C66_instants_are_kept : forall z u, well_spaced z -> to_utc z (from_utc z u) = u /\ a_wall (from_utc z u) = shown z u.
Proof.
  intros z u W. assert (E : forall l o, offset_at o l u = utc_off o l (u / us)).
  { induction l as [|(t, o') l IH]; intros o; cbn; [reflexivity|]. rewrite IH. unfold us. destruct (Z.leb_spec (t * 1000000) u), (Z.leb_spec t (u / 1000000)); try reflexivity; exfalso; [pose proof (Z.div_le_lower_bound u 1000000 t); lia|pose proof (Z.mul_div_le u 1000000); lia]. }
  split; [|unfold shown; cbn [a_wall from_utc]; rewrite E; unfold us; lia].
  unfold to_utc, from_utc. cbn [a_wall a_fold].
  replace ((u + us * utc_off (z_off0 z) (z_trans z) (u / us)) / us) with (u / us + utc_off (z_off0 z) (z_trans z) (u / us)).
  2:{ rewrite (Z.mul_comm us), Z.div_add by (unfold us; lia). reflexivity. }
  match goal with |- context [wall_off ?f ?o ?l ?w] => assert (K : wall_off f o l w = utc_off (z_off0 z) (z_trans z) (u / us)); [|rewrite K; lia] end.
  unfold well_spaced in W. destruct (z_trans z) as [|(t, o) l]; [reflexivity|]. set (v := u / us). clearbody v.
  assert (S' : exists t0, t0 <= v /\ spaced t0 0 (z_off0 z) ((t, o) :: l)).
  { exists (Z.min v (t - Z.abs (o - z_off0 z) - 1)). cbn [spaced]. repeat split; [lia|lia|lia|exact W]. }
  destruct S' as (t0 & T & S'). apply (wall_back _ t0 0 (z_off0 z) v false); [lia|exact S'|exact T|discriminate].
Qed.
Print Assumptions C66_instants_are_kept.
(** the repeated hour: 1:30 twice on 1 November 2026 in New York *)
Example C66_case_repeated : let z := MkZone (-18000) [(1772953200, -14400); (1793512800, -18000)] in
  well_spaced z /\ shown z 1793511000000000 = shown z 1793514600000000 /\ a_fold (from_utc z 1793511000000000) = false /\ a_fold (from_utc z 1793514600000000) = true.
Proof. cbn zeta. split; [cbn; lia|]. vm_compute. auto. Qed.
