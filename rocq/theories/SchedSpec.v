(** Observations of a scheduler and the set of states it can reach, used by the statements. *)
From Verif Require Import Prelude MemStore StoreSpec CallArgs Cron Triggers TriggerSpec Task TaskSpec Scheduler Executor.
Open Scope Z_scope.

(** the task stored under [id] in the store called [alias] *)
Definition stored (s : sched) (alias id : string) : option task :=
  match dget alias (stores s) with Some x => ms_lookup (s_mem x) id | None => None end.
Definition has_store (s : sched) (alias : string) : Prop := exists x, dget alias (stores s) = Some x.
Definition has_exec (s : sched) (alias : string) : Prop := exists x, dget alias (execs s) = Some x.
Definition is_memory (s : sched) (alias : string) : Prop := exists x, dget alias (stores s) = Some x /\ s_memory x = true.

(** every public call *)
Inductive op :=
| OStart (paused : bool) | OShutdown | OPause | OResume
| OAddExecutor (alias : string) | ORemoveExecutor (alias : string) (shut : bool)
| OAddStore (alias : string) (memory : bool) | ORemoveStore (alias : string) (shut : bool)
| OAddTask (t : task) (replace : bool) (next : option (option Z))
| OUpdate (id : string) (store : option string) (fn : pyval) (ups : dict pyval)
| OReschedule (id : string) (store : option string) (tr : trigger)
| OPauseTask (id : string) (store : option string) | OResumeTask (id : string) (store : option string)
| ORunTask (id : string) (store : option string) (force remove_finished : bool)
| ODeleteTask (id : string) (store : option string) | ORemoveAll (store : option string)
| OProcess
| OComplete (id : string) (events : list event).   (* an executor finishes an instance *)

(** the state after the call, whether it returned or raised *)
Definition step (c : config) (e : envir) (o : op) (s : sched) : sched :=
  match o with
  | OStart p => fst (start c e p s)
  | OShutdown => fst (shutdown s)
  | OPause => fst (pause s)
  | OResume => fst (resume s)
  | OAddExecutor a => fst (add_executor a s)
  | ORemoveExecutor a b => fst (remove_executor a b s)
  | OAddStore a m => fst (add_store a (new_store m) s)
  | ORemoveStore a b => fst (remove_store a b s)
  | OAddTask t r n => fst (add_task c e t r n s)
  | OUpdate id w fn ups => fst (update c id w fn ups s)
  | OReschedule id w tr => fst (reschedule_task c e id w tr s)
  | OPauseTask id w => fst (pause_task c id w s)
  | OResumeTask id w => fst (resume_task c e id w s)
  | ORunTask id w f r => fst (run_task c e id w f r s)
  | ODeleteTask id w => fst (delete_task id w s)
  | ORemoveAll w => remove_all_tasks w s
  | OProcess => fst (process_tasks c e s)
  | OComplete id evts => complete id evts s
  end.
Fixpoint run_ops (c : config) (l : list (envir * op)) (s : sched) : sched :=
  match l with [] => s | (e, o) :: l' => run_ops c l' (step c e o s) end.
(** the states of a scheduler created with configuration [c] *)
Definition reachable (c : config) (s : sched) : Prop := exists l, s = run_ops c l sched_init.

(** ** What one call of process_tasks does to the due tasks *)

(** the store can be read in this pass *)
Definition readable (e : envir) (a : string) : Prop := e_busy e a = false /\ e_fails e a = false.
(** the due tasks of the readable stores, each once, in an unspecified order *)
Definition all_due (e : envir) (s : sched) (due : list (string * task)) : Prop :=
  NoDup (map (fun at_ => (fst at_, t_id (snd at_))) due) /\
  forall a t, In (a, t) due <-> (readable e a /\ stored s a (t_id t) = Some t /\ is_due t_next (e_now e) t).

Inductive fate :=
| Removed                                            (* no such executor *)
| AtLimit (times : list Z) (coalesced : nat)         (* too many instances *)
| Refused                                            (* the executor raised *)
| Submitted (exec : string) (times : list Z) (coalesced : nat).

(** [cnt]: running instances per id; [n]: the next run time the task is left with, None = it is gone *)
Definition handled (c : config) (e : envir) (ex : string -> Prop) (cnt : string -> Z) (t : task) (f : fate) (n : option Z) : Prop :=
  match f with
  | Removed => n = None /\ ~ (exists xa, t_exec t = Some xa /\ ex xa)
  | _ => exists xa l k k', t_exec t = Some xa /\ ex xa /\ wake (c_fuel c) (c_oracle c) k t (e_now e) = Ok (l, n, k') /\ l <> [] /\
      match f with
      | Removed => False
      | AtLimit times m => t_max t <= cnt (t_id t) /\ coalesce_run_times (t_coalesce t) l = (times, m)
      | Refused => cnt (t_id t) < t_max t /\ e_send_fails e xa (t_id t) = true
      | Submitted xa' times m => cnt (t_id t) < t_max t /\ e_send_fails e xa (t_id t) = false /\ xa' = xa /\
                                 coalesce_run_times (t_coalesce t) l = (times, m)
      end
  end.
Definition bump (cnt : string -> Z) (t : task) (f : fate) : string -> Z :=
  fun id => match f with Submitted _ _ _ => if String.eqb id (t_id t) then cnt id + 1 else cnt id | _ => cnt id end.
Fixpoint pass (c : config) (e : envir) (ex : string -> Prop) (cnt : string -> Z) (due : list (string * task)) (fs : list (fate * option Z)) : Prop :=
  match due, fs with
  | [], [] => True
  | (a, t) :: due', (f, n) :: fs' => handled c e ex cnt t f n /\ pass c e ex (bump cnt t f) due' fs'
  | _, _ => False
  end.

(** observable traces of the fates *)
Definition submission_of (t : task) (f : fate) : list submission :=
  match f with Submitted xa times _ => [MkSub xa (t_id t) times (t_max t)] | _ => [] end.
Definition event_of (a : string) (t : task) (f : fate) : list event :=
  match f with
  | Submitted _ times m => [MkEvent TASK_SUBMITTED (Some (t_id t)) (Some a) times m]
  | AtLimit times m => [MkEvent TASK_MAX_INSTANCES (Some (t_id t)) (Some a) times m]
  | _ => []
  end.
Definition removal_of (a : string) (t : task) (n : option Z) : list event :=
  match n with None => [task_event TASK_REMOVED (t_id t) (Some a)] | Some _ => [] end.
Fixpoint collect {A} (g : string -> task -> fate -> option Z -> list A) (due : list (string * task)) (fs : list (fate * option Z)) : list A :=
  match due, fs with
  | (a, t) :: due', (f, n) :: fs' => g a t f n ++ collect g due' fs'
  | _, _ => []
  end.
Fixpoint counts_after (cnt : string -> Z) (due : list (string * task)) (fs : list (fate * option Z)) : string -> Z :=
  match due, fs with
  | (_, t) :: due', (f, _) :: fs' => counts_after (bump cnt t f) due' fs'
  | _, _ => cnt
  end.
(** each handled task is left with its new next run time or gone; nothing else changes in any store *)
Definition stores_after (s : sched) (due : list (string * task)) (fs : list (fate * option Z)) (s' : sched) : Prop :=
  (forall a t f n, In ((a, t), (f, n)) (combine due fs) -> stored s' a (t_id t) = option_map (fun x => set_next (Some x) t) n) /\
  (forall a id, (forall t, In (a, t) due -> t_id t <> id) -> stored s' a id = stored s a id).

(** ** adding a task *)
Definition no_sooner (m : option Z) (x : Z) : Z := match m with Some y => Z.max y x | None => x end.
(** the run time a task is first stored with: its own if it has one, otherwise, unless it is added
    paused, the trigger's first answer; [m] is the earliest time allowed *)
Inductive first_time (c : config) (now : Z) (t : task) (start : bool) (m : option Z) : option Z -> Prop :=
| first_given x : t_next t = Some x -> first_time c now t start m (Some (no_sooner m x))
| first_paused : t_next t = None -> start = false -> first_time c now t start m None
| first_asked k r : t_next t = None -> start = true -> answers (c_fuel c) (c_oracle c) (t_trigger t) now k None = Ok r ->
    first_time c now t start m (option_map (no_sooner m) r).

(** the same scheduler without the stores that cannot be read in this pass *)
Definition available (e : envir) (a : string) : bool := negb (e_busy e a || e_fails e a).
Definition without_unreadable (e : envir) (s : sched) : sched :=
  w_stores (filter (fun kv => available e (fst kv)) (stores s)) s.
Definition same_result {A} (r1 r2 : result A) : Prop :=
  match r1, r2 with Ok _, Ok _ => True | Err x, Err y => x = y | _, _ => False end.

(** no task is stored under the empty id (delete_task ignores that id, base.py:1182) *)
Definition no_empty_id (s : sched) : Prop := forall a, stored s a "" = None.
