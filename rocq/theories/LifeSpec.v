(** Vocabulary of the life-cycle statements (C18, C26-C34, C37). *)
From Verif Require Import Prelude MemStore StoreSpec CallArgs Cron Triggers TriggerSpec Task TaskSpec Scheduler Executor SchedSpec.
Open Scope Z_scope.

(** ** C26, C27: adding *)
Definition or_default (o : option string) : string := match o with Some a => a | None => "default"%string end.
(** the task as it is kept: every attribute as given, the missing aliases filled in, bound to the scheduler *)
Definition kept (self : nat) (t : task) (pending : bool) (n : option Z) : task :=
  MkTask (t_id t) (t_name t) (t_trigger t) n (Some (or_default (t_exec t))) (Some (or_default (t_store t)))
         (t_grace t) (t_coalesce t) (t_max t) (t_fn t) (t_ref t) (t_args t) (t_kwargs t) (Some self) pending true.
(** the first run time: the one asked for in the call, else the task's own, else the trigger's first
    answer at [now]; asking explicitly for None adds the task paused *)
Inductive first_run (c : config) (now : Z) (t : task) : option (option Z) -> option Z -> Prop :=
| run_asked n : first_run c now t (Some n) n
| run_own x : t_next t = Some x -> first_run c now t None (Some x)
| run_trigger k n : t_next t = None -> answers (c_fuel c) (c_oracle c) (t_trigger t) now k None = Ok n -> first_run c now t None n.

(** only (alias, id) differs, where the second state holds [o] *)
Definition only (alias id : string) (o : option task) (s s' : sched) : Prop :=
  forall b j, stored s' b j = if String.eqb b alias && String.eqb j id then o else stored s b j.
Definition same_tasks (s s' : sched) : Prop := forall b j, stored s' b j = stored s b j.
(** neither life cycle, nor executors, nor running instances, nor pending tasks, nor the set of stores changed *)
Definition rest_same (s s' : sched) : Prop :=
  st s' = st s /\ refc s' = refc s /\ execs s' = execs s /\ pend s' = pend s /\ insts s' = insts s /\ subs s' = subs s /\
  ran s' = ran s /\ (forall a, has_store s' a <-> has_store s a).
Definition wakes_by (n : nat) (s s' : sched) : Prop := wakes_n s' = (wakes_n s + n)%nat.

(** ** C27: installing the pending tasks, in order, over contents [m].
    An entry is a task, whether it may replace, whether a first run time is wanted. *)
Definition contents := string -> string -> option task.
Definition put (m : contents) (a : string) (t : task) : contents :=
  fun b j => if String.eqb b a && String.eqb j (t_id t) then Some t else m b j.
Inductive installs (c : config) (now : Z) (earliest : option Z) (has : string -> Prop)
  : list (task * bool * bool) -> contents -> contents -> list event -> Prop :=
| ins_done m m' : (forall b j, m' b j = m b j) -> installs c now earliest has [] m m' []
| ins_kept t start l m m' evts alias old : t_store t = Some alias -> has alias -> m alias (t_id t) = Some old ->
    installs c now earliest has l m m' evts -> installs c now earliest has ((t, false, start) :: l) m m' evts
| ins_put t replace start l m m' evts alias n : t_store t = Some alias -> has alias -> (replace = true \/ m alias (t_id t) = None) ->
    first_time c now t start earliest n ->
    installs c now earliest has l (put m alias (set_pending false (set_next n t))) m' evts ->
    installs c now earliest has ((t, replace, start) :: l) m m' (task_event TASK_ADDED (t_id t) (Some alias) :: evts).

(** ** C28: opens minus closes *)
Definition delta (o : op) : Z := match o with OStart _ => 1 | OShutdown => -1 | _ => 0 end.
Fixpoint opens (l : list (envir * op)) : Z := match l with [] => 0 | (_, o) :: l' => delta o + opens l' end.
(** no shutdown without a start before it *)
Definition nested (l : list (envir * op)) : Prop := forall l1 l2, l = l1 ++ l2 -> 0 <= opens l1.
(** no start of a stopped scheduler raises (it does when a pending task names an unknown store) *)
Definition starts_succeed (c : config) (l : list (envir * op)) : Prop :=
  forall l1 e p l2, l = l1 ++ (e, OStart p) :: l2 -> is_ok (snd (start c e p (run_ops c l1 sched_init))) = true.

(** ** C18: submissions *)
(** [us] are accepted one after the other, each below its own limit, from counts [n] to counts [n'] *)
Fixpoint accepted (n : string -> Z) (us : list submission) (n' : string -> Z) : Prop :=
  match us with
  | [] => forall id, n' id = n id
  | u :: us' => n (sub_task u) < sub_limit u /\
                accepted (fun id => if String.eqb id (sub_task u) then n id + 1 else n id) us' n'
  end.
Definition submitted (id : string) (us : list submission) : Z := Z.of_nat (List.length (filter (fun u => String.eqb id (sub_task u)) us)).
Fixpoint completed (id : string) (l : list (envir * op)) : Z :=
  match l with
  | [] => 0
  | (_, OComplete j _) :: l' => (if String.eqb id j then 1 else 0) + completed id l'
  | _ :: l' => completed id l'
  end.
(** every completion ends an instance that was submitted and is still running *)
Definition completions_match (c : config) (l : list (envir * op)) : Prop :=
  forall l1 e id evts l2, l = l1 ++ (e, OComplete id evts) :: l2 ->
    completed id l1 < submitted id (subs (run_ops c l1 sched_init)).
Definition last_submission (id : string) (us : list submission) : option submission :=
  last_opt (filter (fun u => String.eqb id (sub_task u)) us).

(** ** C30: the announcements of a sequence of pause (true) and resume (false) calls *)
Fixpoint announced (paused : bool) (calls : list bool) : list event :=
  match calls with
  | [] => []
  | p :: calls' => if Bool.eqb p paused then announced paused calls'
                   else sched_event (if p then SCHEDULER_PAUSED else SCHEDULER_RESUMED) None :: announced p calls'
  end.
Fixpoint final (paused : bool) (calls : list bool) : bool := match calls with [] => paused | p :: calls' => final p calls' end.
Definition pause_or_resume (s : sched) (p : bool) : sched := fst (if p then pause s else resume s).

(** ** C27: entries for the same place *)
Definition same_place (t u : task) : Prop := t_id t = t_id u /\ t_store t = t_store u.

(** ** C31-C34 *)
(** the number of times a change wakes the scheduler up: once if it is running *)
Definition wake_n (s : sched) : nat := match st s with RUNNING => 1%nat | _ => 0%nat end.
Definition set_trigger (tr : trigger) (t : task) : task :=
  MkTask (t_id t) (t_name t) tr (t_next t) (t_exec t) (t_store t) (t_grace t) (t_coalesce t)
         (t_max t) (t_fn t) (t_ref t) (t_args t) (t_kwargs t) (t_sched t) (t_pending t) (t_submitted t).
(** the due run times of [t] at [now]: the sequence of fire times from its next run time on, each the
    trigger's answer to the one before, up to [now] *)
Definition next_fire (c : config) (tr : trigger) (now x : Z) (n : option Z) : Prop :=
  exists k, answers (c_fuel c) (c_oracle c) tr now k (Some x) = Ok n.
Definition due_times (c : config) (now : Z) (t : task) (due : list Z) : Prop :=
  exists rest, fire_times (next_fire c (t_trigger t) now) (t_next t) due rest /\ Forall (fun x => x <= now) due /\ after_instant now rest.
(** what a submission asks for: all due times, or only the latest with the number left out *)
Definition asked_times (t : task) (now : Z) (due times : list Z) (left_out : nat) : Prop :=
  match due with
  | [] => times = [now] /\ left_out = 0%nat
  | _ => if t_coalesce t then exists l x, due = l ++ [x] /\ times = [x] /\ left_out = List.length l
         else times = due /\ left_out = 0%nat
  end.
(** nothing observable changed *)
Definition unchanged (s s' : sched) : Prop := rest_same s s' /\ same_tasks s s' /\ evs s' = evs s /\ wakes_by 0 s s'.
(** the pending entry found for [id]: the first of that id in a wanted store *)
Definition first_pending (want : option string) (id : string) (s : sched) l1 t b1 b2 l2 : Prop :=
  pend s = l1 ++ (t, b1, b2) :: l2 /\ t_id t = id /\ task_in want t = true /\
  forall t0 c1 c2, In (t0, c1, c2) l1 -> ~ (t_id t0 = id /\ task_in want t0 = true).
(** the counter of [id] is one more, no other changed; likewise the submissions *)
Definition one_more (id : string) (u : submission) (s s' : sched) : Prop :=
  subs s' = subs s ++ [u] /\ forall j, count j s' = if String.eqb j id then count j s + 1 else count j s.
(** [t] is the task named [id], stored (or pending, if the scheduler is stopped) *)
Definition found (id : string) (want : option string) (s : sched) (t : task) : Prop :=
  (st s <> STOPPED /\ exists a, wanted want a = true /\ stored s a id = Some t) \/
  (st s = STOPPED /\ exists b1 b2, In (t, b1, b2) (pend s) /\ t_id t = id /\ task_in want t = true).
(** one list is the beginning of the other *)
Definition agree (l m : list Z) : Prop := (exists k, l = m ++ k) \/ (exists k, m = l ++ k).
