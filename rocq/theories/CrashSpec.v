(** One stored task through any number of passes, failures, process deaths and restarts. *)
From Verif Require Import Prelude MemStore StoreSpec CallArgs Cron Triggers TriggerSpec Task TaskSpec Scheduler Executor SchedSpec Crash.
Open Scope Z_scope.

(** the submissions that concern the task *)
Definition of_task (id : string) (l : list submission) : list submission := filter (fun u => String.eqb (sub_task u) id) l.
(** no other store of the scheduler has a task of that id *)
Definition nowhere_else (s : sched) (a id : string) : Prop := forall b, b <> a -> stored s b id = None.
Definition durable (s : sched) (a : string) : Prop := exists x, dget a (stores s) = Some x /\ s_memory x = false.
(** the executor of [t] exists, its id is used once, and ids are not empty *)
Definition in_order (s : sched) (a : string) (t : task) : Prop :=
  no_empty_id s /\ nowhere_else s a (t_id t) /\ exists xa, t_exec t = Some xa /\ has_exec s xa.
(** the executor would take [t] in this pass: it is below its instance limit and the executor accepts it *)
Definition willing (t : task) (s : sched) (e : envir) : Prop :=
  count (t_id t) s < t_max t /\ forall xa, e_send_fails e xa (t_id t) = false.

(** [history c a t Q s hs k s']: from [s] to [s'], [hs] are the submissions of the task in the order they were
    made, and [k] counts the interruptions: passes that raised, and deaths of the process.
    [Q] is asked of every pass. *)
Inductive history (c : config) (a : string) (t : task) (Q : sched -> envir -> Prop) : sched -> list submission -> nat -> sched -> Prop :=
| h_end s : history c a t Q s [] 0 s
| h_pass s e s1 d new hs k s2 : st s = RUNNING -> in_order s a t -> Q s e ->
    process_tasks c e s = (s1, Ok d) -> subs s1 = subs s ++ new ->
    history c a t Q s1 hs k s2 -> history c a t Q s (of_task (t_id t) new ++ hs) k s2
| h_raise s e s1 x new hs k s2 : st s = RUNNING -> in_order s a t -> Q s e ->
    process_tasks c e s = (s1, Err x) -> subs s1 = subs s ++ new ->
    history c a t Q s1 hs k s2 -> history c a t Q s (of_task (t_id t) new ++ hs) (S k) s2
| h_death s e s1 e' adds s2 new hs k s3 : st s = RUNNING -> in_order s a t -> Q s e ->
    cut_pass c e s s1 -> durable s1 a -> subs s1 = subs s ++ new ->
    reborn c e' adds s1 = (s2, Ok true) ->
    (* the application does not itself replace the task *)
    (forall x, In x adds -> t_id (ad_task x) = t_id t -> stored s1 a (t_id t) <> None /\ ad_replace x = false) ->
    history c a t Q s2 hs k s3 -> history c a t Q s (of_task (t_id t) new ++ hs) (S k) s3
| h_other s e o hs k s2 : o <> OProcess ->     (* any other call that leaves the task and its store alone *)
    stored (step c e o s) a (t_id t) = stored s a (t_id t) -> of_task (t_id t) (subs (step c e o s)) = of_task (t_id t) (subs s) ->
    history c a t Q (step c e o s) hs k s2 -> history c a t Q s hs k s2.

(** run times handed over *)
Definition times_of (hs : list submission) : list Z := flat_map sub_times hs.
(** how often *)
Definition times_handed (r : Z) (hs : list submission) : nat := count_occ Z.eq_dec (times_of hs) r.
(** [r] was handed over, or merged into a later run by coalescing *)
Definition covered (t : task) (hs : list submission) (r : Z) : Prop :=
  In r (times_of hs) \/ (t_coalesce t = true /\ exists y, In y (times_of hs) /\ r < y).

(** the states a scheduler can be in when processes may also die and be started again *)
Inductive lived (c : config) : sched -> Prop :=
| lived_init : lived c sched_init
| lived_step s e o : lived c s -> lived c (step c e o s)
| lived_death s e s1 e' adds s2 : lived c s -> st s = RUNNING -> no_empty_id s -> cut_pass c e s s1 -> reborn c e' adds s1 = (s2, Ok true) -> lived c s2.
