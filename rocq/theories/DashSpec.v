(** What the dashboard's stores promise (C44). *)
From Verif Require Import Prelude Text Dash.
Open Scope Z_scope.

(** what has been appended since the last clear, oldest first; the last [n] of a list *)
Fixpoint appended {A Q} (sofar : list A) (ops : list (bop A Q)) : list A :=
  match ops with
  | [] => sofar
  | BAppend x :: ops' => appended (sofar ++ [x]) ops'
  | BClear :: ops' => appended [] ops'
  | BQuery _ :: ops' => appended sofar ops'
  end.
Definition newest {A} (n : nat) (l kept : list A) : Prop := exists old, l = old ++ kept /\ (List.length kept <= n)%nat /\ (old <> [] -> List.length kept = n).
(** [r]: the members of [l] that satisfy [P], in the same order *)
Inductive picked {A} (P : A -> Prop) : list A -> list A -> Prop :=
| p_nil : picked P [] []
| p_take x l r : P x -> picked P l r -> picked P (x :: l) (x :: r)
| p_leave x l r : ~ P x -> picked P l r -> picked P (x :: l) r.
(** the answer to a query over the [kept] entries, oldest first, asking for [limit] *)
Definition answers_query {A} (P : A -> Prop) (limit : Z) (kept r : list A) : Prop :=
  exists all, picked P (rev kept) all /\ r = firstn (Z.to_nat limit) all.

(** filters left out, empty or blank match everything; text is searched ignoring case *)
Definition is_filter (o : option string) (s : string) : Prop := o = Some s /\ s <> ""%string.
Definition found (q text : string) : Prop := exists before after, lower text = (before ++ lower (strip q) ++ after)%string.
Record log_matches (q : log_query) (e : log_entry) : Prop := {
  lm_task : forall s, is_filter (lq_task q) s -> l_task e = Some s;
  lm_run : forall s, is_filter (lq_run q) s -> l_run e = Some s;
  lm_level : forall s, is_filter (lq_level q) s -> lower (l_level e) = lower s;
  lm_since : forall t, lq_since q = Some t -> t <= l_ts e;
  lm_until : forall t, lq_until q = Some t -> l_ts e <= t;
  lm_text : forall s, lq_q q = Some s -> found s (l_message e) }.
Record audit_matches (q : audit_query) (r : audit_record) : Prop := {
  am_action : forall s, aq_action q = Some s -> strip s <> ""%string -> a_action r = lower (strip s);
  am_status : forall s, aq_status q = Some s -> strip s <> ""%string -> a_status r = lower (strip s);
  am_text : forall s, aq_q q = Some s ->
     found s (a_id r ++ " " ++ a_action r ++ " " ++ a_status r ++ " " ++ a_ttype r ++ " " ++ or_empty (a_tid r) ++ " " ++ or_empty (a_message r) ++ " " ++ a_actor r) }.
Record event_matches (q : event_query) (r : event_record) : Prop := {
  em_cat : forall s, eq_cat q = Some s -> strip s <> ""%string -> e_cat r = lower (strip s);
  em_name : forall s, eq_name q = Some s -> strip s <> ""%string -> e_name r = lower (strip s);
  em_task : forall s, is_filter (eq_task q) s -> e_task r = Some s;
  em_text : forall s, eq_q q = Some s ->
     found s (e_name r ++ " " ++ e_cat r ++ " " ++ or_empty (e_alias r) ++ " " ++ or_empty (e_task r) ++ " " ++ or_empty (e_store r) ++ " " ++ or_empty (e_sched r) ++ " " ++ e_id r ++ " " ++ e_text r) }.
