(** C09, C10, C11: cron triggers (CronSpec gives the meaning of a specification). *)
From Verif Require Import Prelude Calendar CalendarFacts Cron CronSpec CronProofs CronTop.
Open Scope Z_scope.

(** C09.  [s] is the instant the search starts from: [now], or the later of [now] and start_at
    when there is no previous fire time, and just after [previous] otherwise (if [now] is not
    before it).  The answer is the least matching second from [s] on; None means that there is
    none (up to end_at); an exception can only be the OverflowError/ValueError of a start outside
    the calendar, or of a search starting in its very last second and finding nothing. *)
Theorem C09_cron_least_match :
  forall (tb : crontab) (off : Z) (start_at end_at prev : option Z) (now : Z) (r : result (option Z)),
    tab_ok tb = true ->
    cron_next tb off start_at end_at 0 prev now = r ->
    let s := match prev with
             | Some p => if now <? p then now else p + 1
             | None => match start_at with Some x => Z.max now x | None => now end
             end in
    match r with
    | Ok (Some t) => matches_at tb off t /\ s <= t /\ (forall e, end_at = Some e -> t <= e) /\
                     (forall u, matches_at tb off u -> s <= u -> t <= u)
    | Ok None => forall u, matches_at tb off u -> s <= u -> exists e, end_at = Some e /\ e < u
    | Err _ => ~ representable off s \/
               (ceil_secs (s + off * us) = max_secs /\ forall u, matches_at tb off u -> ~ s <= u)
    end.
Proof. exact cron_least_match. Qed.
Print Assumptions C09_cron_least_match.

(** C10.  One expression, one date: the least admissible value not below the current one. *)
Theorem C10_expression_next_is_least :
  forall (f : Z) (e : cexpr) (c : civil),
    0 <= f <= 7 -> valid c = true -> expr_ok f e = true ->
    least_from (esem f e c) (fvalue f c) (expr_next f e c) /\
    (forall v, esem f e c v -> fmin f <= v <= fmax f c).
Proof. exact expr_next_least. Qed.
Print Assumptions C10_expression_next_is_least.

(** ... and a comma list admits what one of its members admits. *)
Theorem C10_field_next_is_least :
  forall (tb : crontab) (f : Z) (c : civil),
    tab_ok tb = true -> 0 <= f <= 7 -> valid c = true ->
    least_from (fun v => exists e, In e (tfield tb f) /\ esem f e c v) (fvalue f c) (field_next f (tfield tb f) c).
Proof. exact field_next_least. Qed.
Print Assumptions C10_field_next_is_least.

(** C11.  The search loop always ends (it never runs out of its 2^50 iterations) and, when [now]
    is not before the previous fire time, the answer is strictly later than it. *)
Theorem C11_cron_terminates :
  forall (tb : crontab) (off : Z) (start_at end_at prev : option Z) (now j : Z),
    tab_ok tb = true -> 0 <= j ->
    cron_next tb off start_at end_at j prev now <> Err OtherError /\
    (forall p t, prev = Some p -> p <= now -> cron_next tb off start_at end_at j prev now = Ok (Some t) -> p < t).
Proof. exact cron_terminates. Qed.
Print Assumptions C11_cron_terminates.

(** 31 February: None;  first Monday and 13th... : found *)
Definition everyday := [EAll None].
Definition feb31 := MkTab everyday [ERange 2 (Some 2) None] [ERange 31 (Some 31) None] everyday everyday
                          [ERange 0 (Some 0) None] [ERange 0 (Some 0) None] [ERange 0 (Some 0) None].
(* last Friday of March, at 12:30:00 *)
Definition lastfri := MkTab everyday [ERange 3 (Some 3) None] [EWeekdayPos 5 4] everyday everyday
                            [ERange 12 (Some 12) None] [ERange 30 (Some 30) None] [ERange 0 (Some 0) None].
Example C09_example_none : tab_ok feb31 = true /\ cron_next feb31 0 None (Some (4102444800 * us)) 0 None (1700000000 * us) = Ok None.
Proof. vm_compute. auto. Qed.
Example C09_example_found : tab_ok lastfri = true /\
  cron_next lastfri 0 None None 0 None (1700000000 * us + 1) = Ok (Some (civ_secs (MkCivil 2024 3 29 12 30 0) * us)).
Proof. vm_compute. auto. Qed.
(** the hypothesis [p <= now] of C11 matters: with a clock that went backwards the answer can be
    the previous fire time again *)
Example C11_clock_backwards : exists p, 
  cron_next lastfri 0 None None 0 (Some p) (p - 1) = Ok (Some p).
Proof. exists (civ_secs (MkCivil 2024 3 29 12 30 0) * us). vm_compute. reflexivity. Qed.
