(** What a trigger means, independently of the algorithms: the set of instants at which it is
    scheduled to fire. *)
From Verif Require Import Prelude Calendar Cron CronSpec Triggers.
Open Scope Z_scope.

Definition not_after (t : Z) (end_at : option Z) : Prop := forall e, end_at = Some e -> t <= e.
Definition not_before (t : Z) (start_at : option Z) : Prop := forall s, start_at = Some s -> s <= t.

(** the k-th grid point, k = 0, 1, 2, ... *)
Definition grid (iv start t : Z) : Prop := exists k, 0 <= k /\ t = start + k * iv.

Fixpoint fires (tr : trigger) (t : Z) : Prop :=
  match tr with
  | TDate d => t = d
  | TInterval iv s e _ => grid iv s t /\ not_after t e
  | TCron tb off s e _ => matches_at tb off t /\ not_before t s /\ not_after t e
  | TAnd l _ => (fix all l := match l with [] => True | x :: l' => fires x t /\ all l' end) l
  | TOr l _ => (fix any l := match l with [] => False | x :: l' => fires x t \/ any l' end) l
  | TShutdown => False
  end.

(** [t] is the first element of [F] from [now] on *)
Definition first_from (F : Z -> Prop) (now t : Z) : Prop :=
  F t /\ now <= t /\ forall u, F u -> now <= u -> t <= u.
Definition none_from (F : Z -> Prop) (now : Z) : Prop := forall u, F u -> ~ now <= u.

(** Same, looking no further than the horizon [H]. *)
Definition first_until (F : Z -> Prop) (H now : Z) (r : option Z) : Prop :=
  match r with
  | Some t => now <= t /\ (t <= H -> F t) /\ (forall u, F u -> now <= u -> u <= H -> t <= u)
  | None => forall u, F u -> now <= u -> ~ u <= H
  end.

(** no jitter anywhere, no date or shutdown part, whole-second positive intervals started at most
    2^50 microseconds (35 years) before the horizon, well-formed cron tables, non-empty AND *)
Fixpoint regular (H : Z) (tr : trigger) : Prop :=
  match tr with
  | TDate _ => False
  | TInterval iv s _ j => (exists B, 0 < B < 2 ^ 53 /\ iv = B * us) /\ H - s < 2 ^ 50 /\ j = None
  | TCron tb _ _ _ j => tab_ok tb = true /\ j = None
  | TAnd l j => l <> [] /\ j = None /\ (fix all l := match l with [] => True | x :: l' => regular H x /\ all l' end) l
  | TOr l j => j = None /\ (fix all l := match l with [] => True | x :: l' => regular H x /\ all l' end) l
  | TShutdown => True
  end.

(** built from cron triggers only (and combinations of them), no jitter; started by instant [p] *)
Fixpoint cron_only (p : Z) (tr : trigger) : Prop :=
  match tr with
  | TCron tb _ s _ j => tab_ok tb = true /\ not_before p s /\ j = None
  | TAnd l j => l <> [] /\ j = None /\ (fix all l := match l with [] => True | x :: l' => cron_only p x /\ all l' end) l
  | TOr l j => j = None /\ (fix all l := match l with [] => True | x :: l' => cron_only p x /\ all l' end) l
  | TShutdown => True
  | _ => False
  end.

(** no jitter anywhere *)
Fixpoint jitter_free (tr : trigger) : Prop :=
  match tr with
  | TDate _ | TShutdown => True
  | TInterval _ _ _ j | TCron _ _ _ _ j => j = None
  | TAnd l j | TOr l j => j = None /\ (fix all l := match l with [] => True | x :: l' => jitter_free x /\ all l' end) l
  end.
(** no AND-combination inside *)
Fixpoint and_free (tr : trigger) : Prop :=
  match tr with
  | TAnd _ _ => False
  | TOr l j => (fix all l := match l with [] => True | x :: l' => and_free x /\ all l' end) l
  | _ => True
  end.
(** the same trigger with another top-level jitter *)
Definition with_jitter (j : option Z) (tr : trigger) : trigger :=
  match tr with
  | TInterval iv s e _ => TInterval iv s e j
  | TCron tb off s e _ => TCron tb off s e j
  | TAnd l _ => TAnd l j
  | TOr l _ => TOr l j
  | t => t
  end.
Definition jitter_of (tr : trigger) : option Z :=
  match tr with
  | TInterval _ _ _ j | TCron _ _ _ _ j | TAnd _ j | TOr _ j => j
  | _ => None
  end.
Definition end_of (tr : trigger) : option Z :=
  match tr with TInterval _ _ e _ | TCron _ _ _ e _ => e | _ => None end.

(** positive intervals, well-formed cron tables, non-negative jitter: every trigger that can be
    built and does not run backwards *)
Definition jitter_ok (j : option Z) : Prop := forall x, j = Some x -> 0 <= x.
Fixpoint forward (tr : trigger) : Prop :=
  match tr with
  | TDate _ | TShutdown => True
  | TInterval iv _ _ j => 0 < iv /\ jitter_ok j
  | TCron tb _ _ _ j => tab_ok tb = true /\ jitter_ok j
  | TAnd l j | TOr l j => jitter_ok j /\ (fix all l := match l with [] => True | x :: l' => forward x /\ all l' end) l
  end.
