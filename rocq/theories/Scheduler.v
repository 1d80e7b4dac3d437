(** Model of asyncz/schedulers/base.py (BaseScheduler).
    State machine with an explicit trace of what listeners, executors and the timer see.
    Simplifications, all noted where they apply:
    - one clock reading per public call ([e_now]);
    - a store is the map proved correct in C01/C02 plus its kind: a memory store updates absent ids
      and forgets everything on shutdown, a durable one raises TaskLookupError and keeps its data
      (C03 relates the durable back ends to this map);
    - submitted functions run later, on the executor: their completions are separate steps
      (Executor.v); listeners do not call back into the scheduler during the call;
    - locks: a call runs alone (store_lock, executor_lock); the non-blocking store and processing
      locks can be found busy ([e_busy], [e_plock]). *)
From Verif Require Import Prelude MemStore CallArgs Cron Triggers Task.
Open Scope Z_scope.

(** asyncz/enums.py SchedulerState *)
Inductive sstate := STOPPED | RUNNING | PAUSED.
Definition sstate_eqb (a b : sstate) : bool :=
  match a, b with STOPPED, STOPPED | RUNNING, RUNNING | PAUSED, PAUSED => true | _, _ => false end.

(** asyncz/events/constants.py *)
Inductive code :=
| SCHEDULER_START | SCHEDULER_SHUTDOWN | SCHEDULER_PAUSED | SCHEDULER_RESUMED
| EXECUTOR_ADDED | EXECUTOR_REMOVED | STORE_ADDED | STORE_REMOVED | ALL_TASKS_REMOVED
| TASK_ADDED | TASK_REMOVED | TASK_MODIFIED | TASK_EXECUTED | TASK_ERROR | TASK_MISSED
| TASK_SUBMITTED | TASK_MAX_INSTANCES.

(** asyncz/events/base.py; [ev_where] is [alias] or [store], whichever the event carries *)
Record event := MkEvent {
  ev_code : code; ev_task : option string; ev_where : option string;
  ev_times : list Z; ev_coalesced : nat }.
Definition sched_event (c : code) (alias : option string) : event := MkEvent c None alias [] 0.
Definition task_event (c : code) (id : string) (where_ : option string) : event := MkEvent c (Some id) where_ [] 0.

Record store := MkStore { s_mem : memstore task; s_memory : bool; s_starts : nat; s_stops : nat }.
Record executor := MkExec { x_starts : nat; x_stops : nat }.

(** Configuration (base.py:1258-1260) and unbounded-loop fuel and randomness of the model *)
Record config := MkCfg {
  c_lock_path : bool; c_startup_delay : Z; c_retry : Z; c_timeout_max : Z;
  c_fuel : nat; c_oracle : oracle; c_self : nat; c_tenv : tenv }.

(** What happens around one call *)
Record envir := MkEnvir {
  e_now : Z;
  e_busy : string -> bool;                  (* store.lock.protected(blocking=False) fails *)
  e_fails : string -> bool;                 (* store.get_due_tasks raises *)
  e_plock : bool;                           (* store_processing_lock is busy *)
  e_send_fails : string -> string -> bool   (* executor alias, task id: do_send_task raises *) }.

(** a submission accepted by an executor: executor alias, task id, run times,
    and the max_instances of the submitted task *)
Record submission := MkSub { sub_exec : string; sub_task : string; sub_times : list Z; sub_limit : Z }.

Record sched := MkSched {
  st : sstate; refc : Z;
  stores : dict store; execs : dict executor; insts : dict Z;
  pend : list (task * bool * bool);
  evs : list event;             (* dispatched events, oldest first *)
  subs : list submission;       (* accepted submissions, oldest first *)
  ran : list string;            (* shutdown tasks run (or scheduled), by id, oldest first *)
  wakes_n : nat;                (* number of wakeup() calls *)
  draws : nat }.                (* trigger calls made so far, for fresh randomness *)

Definition w_st v s := MkSched v (refc s) (stores s) (execs s) (insts s) (pend s) (evs s) (subs s) (ran s) (wakes_n s) (draws s).
Definition w_refc v s := MkSched (st s) v (stores s) (execs s) (insts s) (pend s) (evs s) (subs s) (ran s) (wakes_n s) (draws s).
Definition w_stores v s := MkSched (st s) (refc s) v (execs s) (insts s) (pend s) (evs s) (subs s) (ran s) (wakes_n s) (draws s).
Definition w_execs v s := MkSched (st s) (refc s) (stores s) v (insts s) (pend s) (evs s) (subs s) (ran s) (wakes_n s) (draws s).
Definition w_insts v s := MkSched (st s) (refc s) (stores s) (execs s) v (pend s) (evs s) (subs s) (ran s) (wakes_n s) (draws s).
Definition w_pend v s := MkSched (st s) (refc s) (stores s) (execs s) (insts s) v (evs s) (subs s) (ran s) (wakes_n s) (draws s).
Definition w_evs v s := MkSched (st s) (refc s) (stores s) (execs s) (insts s) (pend s) v (subs s) (ran s) (wakes_n s) (draws s).
Definition w_subs v s := MkSched (st s) (refc s) (stores s) (execs s) (insts s) (pend s) (evs s) v (ran s) (wakes_n s) (draws s).
Definition w_ran v s := MkSched (st s) (refc s) (stores s) (execs s) (insts s) (pend s) (evs s) (subs s) v (wakes_n s) (draws s).
Definition w_draws v s := MkSched (st s) (refc s) (stores s) (execs s) (insts s) (pend s) (evs s) (subs s) (ran s) (wakes_n s) v.

(** base.py:94-122 __init__ *)
Definition sched_init : sched := MkSched STOPPED 0 [] [] [] [] [] [] [] 0 0.

(** base.py:1394-1412 dispatch_event, as seen from the scheduler (delivery: Events.v) *)
Definition dispatch (ev : event) (s : sched) : sched := w_evs (evs s ++ [ev]) s.
(** base.py:1236-1241 wakeup (asyncio timer: Timer.v) *)
Definition wakeup (s : sched) : sched :=
  MkSched (st s) (refc s) (stores s) (execs s) (insts s) (pend s) (evs s) (subs s) (ran s) (S (wakes_n s)) (draws s).
Definition wakeup_if (b : bool) (s : sched) : sched := if b then wakeup s else s.
Definition running (s : sched) : bool := sstate_eqb (st s) RUNNING.
Definition stopped (s : sched) : bool := sstate_eqb (st s) STOPPED.

(** a call to trigger.get_next_trigger_time *)
Definition ask (c : config) (s : sched) (tr : trigger) (prev : option Z) (now : Z) : sched * result (option Z) :=
  (w_draws (S (draws s)) s, answers (c_fuel c) (c_oracle c) tr now (draws s) prev).

(** * Task stores, as the scheduler uses them *)
Notation ms_add' := (ms_add t_id t_next).
Notation ms_update' := (ms_update t_id t_next).
Notation ms_delete' := (ms_delete t_id).

Definition on_mem (m : memstore task) (x : store) : store := MkStore m (s_memory x) (s_starts x) (s_stops x).
(** store.add_task *)
Definition st_add (x : store) (t : task) : store * result unit :=
  let (m, r) := ms_add' (s_mem x) t in (on_mem m x, r).
(** store.update_task: only the memory store accepts an absent id *)
Definition st_update (x : store) (t : task) : store * result unit :=
  if negb (s_memory x) && negb (dmem (t_id t) (ms_index (s_mem x))) then (x, Err TaskLookupError)
  else let (m, r) := ms_update' (s_mem x) t in (on_mem m x, r).
(** store.delete_task *)
Definition st_delete (x : store) (id : string) : store * result unit :=
  let (m, r) := ms_delete' (s_mem x) id in (on_mem m x, r).
(** store.shutdown (stores/memory.py:104-106 clears; durable stores close their connection) *)
Definition st_shutdown (x : store) : store :=
  MkStore (if s_memory x then ms_empty else s_mem x) (s_memory x) (s_starts x) (S (s_stops x)).
Definition st_start (x : store) : store := MkStore (s_mem x) (s_memory x) (S (s_starts x)) (s_stops x).
Definition new_store (memory : bool) : store := MkStore ms_empty memory 0 0.
Definition x_start (x : executor) : executor := MkExec (S (x_starts x)) (x_stops x).
Definition x_shutdown (x : executor) : executor := MkExec (x_starts x) (S (x_stops x)).
Definition new_exec : executor := MkExec 0 0.

(** [alias in (None, want)] *)
Definition wanted (want : option string) (alias : string) : bool :=
  match want with None => true | Some w => String.eqb w alias end.
Definition task_in (want : option string) (t : task) : bool :=
  match want with None => true | Some w => match t_store t with Some a => String.eqb w a | None => false end end.

(** * Executor and store registration *)

(** base.py:376-401 add_executor (an executor object, or a string already instantiated) *)
Definition add_executor (alias : string) (s : sched) : sched * result unit :=
  if dmem alias (execs s) then (s, Err ValueError)
  else
    let x := if stopped s then new_exec else x_start new_exec in
    (dispatch (sched_event EXECUTOR_ADDED (Some alias)) (w_execs (dset alias x (execs s)) s), Ok tt).
(** base.py:403-414 remove_executor; answers the executor it gives up *)
Definition remove_executor (alias : string) (shut : bool) (s : sched) : sched * result executor :=
  match dget alias (execs s) with
  | None => (s, Err KeyError)
  | Some x =>
      (dispatch (sched_event EXECUTOR_REMOVED (Some alias)) (w_execs (ddel alias (execs s)) s),
       Ok (if shut then x_shutdown x else x))
  end.
(** base.py:416-446 add_store *)
Definition add_store (alias : string) (x : store) (s : sched) : sched * result unit :=
  if dmem alias (stores s) then (s, Err ValueError)
  else
    let x := if stopped s then x else st_start x in
    let s1 := dispatch (sched_event STORE_ADDED (Some alias)) (w_stores (dset alias x (stores s)) s) in
    (wakeup_if (running s1) s1, Ok tt).
(** base.py:448-461 remove_store *)
Definition remove_store (alias : string) (shut : bool) (s : sched) : sched * result store :=
  match dget alias (stores s) with
  | None => (s, Err KeyError)
  | Some x =>
      (dispatch (sched_event STORE_REMOVED (Some alias)) (w_stores (ddel alias (stores s)) s),
       Ok (if shut then st_shutdown x else x))
  end.

(** * Looking tasks up *)

(** base.py:1375-1392 lookup_task; the alias is None for a pending task *)
Fixpoint find_pending (want : option string) (id : string) (l : list (task * bool * bool)) : option task :=
  match l with
  | [] => None
  | (t, _, _) :: l' => if String.eqb (t_id t) id && task_in want t then Some t else find_pending want id l'
  end.
Fixpoint find_store (want : option string) (id : string) (l : dict store) : option (task * string) :=
  match l with
  | [] => None
  | (alias, x) :: l' =>
      if wanted want alias then
        match ms_lookup (s_mem x) id with
        | Some t => Some (t, alias)
        | None => find_store want id l'
        end
      else find_store want id l'
  end.
Definition lookup_task (id : string) (want : option string) (s : sched) : result (task * option string) :=
  if stopped s then
    match find_pending want id (pend s) with Some t => Ok (t, None) | None => Err TaskLookupError end
  else
    match find_store want id (stores s) with Some (t, a) => Ok (t, Some a) | None => Err TaskLookupError end.

(** base.py:872-894 get_tasks *)
Definition get_tasks (want : option string) (s : sched) : list task :=
  if stopped s then filter (task_in want) (map (fun p => fst (fst p)) (pend s))
  else flat_map (fun ax => if wanted want (fst ax) then ms_all (s_mem (snd ax)) else []) (stores s).

(** lookup_store(alias).update_task(task) *)
Definition store_update (alias : string) (t : task) (s : sched) : sched * result unit :=
  match dget alias (stores s) with
  | None => (s, Err KeyError)
  | Some x => let (x', r) := st_update x t in (w_stores (dset alias x' (stores s)) s, r)
  end.

(** the live pending task object is modified in place: the first one found by [lookup_task] *)
Fixpoint set_pending_task (want : option string) (id : string) (t' : task) (l : list (task * bool * bool)) : list (task * bool * bool) :=
  match l with
  | [] => []
  | (t, a, b) :: l' => if String.eqb (t_id t) id && task_in want t then (t', a, b) :: l' else (t, a, b) :: set_pending_task want id t' l'
  end.

(** * Adding tasks *)

(** base.py:1426-1483 real_add_task.  [start_task]: compute a first run time if there is none.
    The task is stored with [pending = False] (set right after storing, same object). *)
Definition real_add_task (c : config) (now : Z) (t : task) (replace start_task : bool) (min_dtime : option Z) (s : sched)
  : sched * result unit :=
  let '(s1, rn) :=
    match t_next t with
    | None => if start_task then
                let '(s1, r) := ask c s (t_trigger t) None now in
                (s1, match r with
                     | Ok (Some x) => Ok (Some (match min_dtime with Some m => Z.max m x | None => x end))
                     | r => r
                     end)
              else (s, Ok None)
    | Some x => (s, Ok (Some (match min_dtime with Some m => Z.max m x | None => x end)))
    end in
  match rn with
  | Err e => (s1, Err e)
  | Ok n =>
      let t1 := set_pending false (set_next n t) in
      match t_store t with
      | None => (s1, Err AssertionError)
      | Some alias =>
          match dget alias (stores s1) with
          | None => (s1, Err KeyError)
          | Some x =>
              let (x1, r1) := st_add x t1 in
              match r1 with
              | Ok _ =>
                  let s2 := dispatch (task_event TASK_ADDED (t_id t) (Some alias)) (w_stores (dset alias x1 (stores s1)) s1) in
                  (wakeup_if (start_task && running s2) s2, Ok tt)
              | Err ConflictIdError =>
                  if replace then
                    let (x2, r2) := st_update x t1 in
                    match r2 with
                    | Ok _ =>
                        let s2 := dispatch (task_event TASK_ADDED (t_id t) (Some alias)) (w_stores (dset alias x2 (stores s1)) s1) in
                        (wakeup_if (start_task && running s2) s2, Ok tt)
                    | Err TaskLookupError => (s1, Ok tt)
                    | Err e => (s1, Err e)
                    end
                  else (s1, Err ConflictIdError)
              | Err e => (s1, Err e)
              end
          end
      end
  end.

(** base.py:561-615 add_task with a Task object whose options were already applied (the options go
    through Task.update_task, C23, which also binds the task to this scheduler and refuses one bound
    to another: tasks/base.py:88-91).  [next]: the next_run_time argument, None = not given,
    Some None = explicitly None (add paused), Some (Some x). *)
Definition with_default_aliases (self : nat) (t : task) : task :=
  MkTask (t_id t) (t_name t) (t_trigger t) (t_next t)
         (match t_exec t with Some e => Some e | None => Some "default"%string end)
         (match t_store t with Some e => Some e | None => Some "default"%string end)
         (t_grace t) (t_coalesce t) (t_max t) (t_fn t) (t_ref t) (t_args t) (t_kwargs t)
         (Some self) (t_pending t) true.
Definition given_next (next : option (option Z)) (t : task) : task :=
  match next with Some n => set_next n t | None => t end.
Definition starts (next : option (option Z)) : bool := match next with Some None => false | _ => true end.
Definition add_task (c : config) (e : envir) (t : task) (replace : bool) (next : option (option Z)) (s : sched)
  : sched * result unit :=
  if t_submitted t then (s, Err AssertionError)
  else if match t_sched t with Some k => negb (Nat.eqb k (c_self c)) | None => false end then (s, Err ValueError)
  else
    let t1 := with_default_aliases (c_self c) (given_next next t) in
    if stopped s then (w_pend (pend s ++ [(t1, replace, starts next)]) s, Ok tt)
    else real_add_task c (e_now e) t1 replace (starts next) None s.

(** * Start and shutdown *)

(** base.py:223-226: install the pending tasks, ConflictIdError suppressed, stop at any other error *)
Fixpoint add_pending (c : config) (now : Z) (min_dtime : option Z) (l : list (task * bool * bool)) (s : sched)
  : sched * result unit :=
  match l with
  | [] => (s, Ok tt)
  | (t, replace, start_task) :: l' =>
      let (s1, r) := real_add_task c now t replace start_task min_dtime s in
      match r with
      | Ok _ | Err ConflictIdError => add_pending c now min_dtime l' s1
      | Err e => (s1, Err e)
      end
  end.

Definition map_dict {V} (f : V -> V) (d : dict V) : dict V := map (fun kv => (fst kv, f (snd kv))) d.

(** base.py:192-236 start; [Ok true] really started, [Ok false] only counted *)
Definition start (c : config) (e : envir) (paused : bool) (s : sched) : sched * result bool :=
  let s := w_refc (refc s + 1) s in
  if refc s >? 1 then (s, Ok false)
  else if negb (stopped s) then (s, Err AssertionError)
  else
    let s := if dmem "default" (execs s) then s else fst (add_executor "default" s) in
    let s := w_execs (map_dict x_start (execs s)) s in
    let min_dtime := if c_lock_path c then Some (e_now e + c_startup_delay c) else None in
    let s := if dmem "default" (stores s) then s else fst (add_store "default" (new_store true) s) in
    let s := w_stores (map_dict st_start (stores s)) s in
    let (s, r) := add_pending c (e_now e) min_dtime (pend s) s in
    match r with
    | Err x => (s, Err x)
    | Ok _ =>
        let s := w_pend [] s in
        let s := dispatch (sched_event SCHEDULER_START None) (w_st (if paused then PAUSED else RUNNING) s) in
        (wakeup_if (negb paused) s, Ok true)
    end.

(** base.py:277-292: run and remove the shutdown tasks of one store *)
Definition is_shutdown (t : task) : bool := match t_trigger t with TShutdown => true | _ => false end.
Fixpoint run_shutdown_tasks (l : list task) (x : store) : store * list string :=
  match l with
  | [] => (x, [])
  | t :: l' =>
      if is_shutdown t then
        let (x1, _) := st_delete x (t_id t) in
        let (x2, ids) := run_shutdown_tasks l' x1 in (x2, t_id t :: ids)
      else run_shutdown_tasks l' x
  end.
Fixpoint shutdown_stores (l : dict store) : dict store * list string :=
  match l with
  | [] => ([], [])
  | (a, x) :: l' =>
      let (x1, ids) := run_shutdown_tasks (ms_all (s_mem x)) x in
      let (l2, ids2) := shutdown_stores l' in
      ((a, x1) :: l2, ids ++ ids2)
  end.

(** base.py:264-301 shutdown *)
Definition shutdown (s : sched) : sched * result bool :=
  let s := w_refc (refc s - 1) s in
  if refc s >? 0 then (s, Ok false)
  else if stopped s then (s, Err SchedulerNotRunningError)
  else
    let s := w_st STOPPED s in
    let s := w_execs (map_dict x_shutdown (execs s)) s in
    let (ss, ids) := shutdown_stores (stores s) in
    let s := w_ran (ran s ++ ids) (w_stores (map_dict st_shutdown ss) s) in
    (dispatch (sched_event SCHEDULER_SHUTDOWN None) s, Ok true).

(** base.py:303-315 pause *)
Definition pause (s : sched) : sched * result unit :=
  match st s with
  | STOPPED => (s, Err SchedulerNotRunningError)
  | RUNNING => (dispatch (sched_event SCHEDULER_PAUSED None) (w_st PAUSED s), Ok tt)
  | PAUSED => (s, Ok tt)
  end.
(** base.py:317-327 resume *)
Definition resume (s : sched) : sched * result unit :=
  match st s with
  | STOPPED => (s, Err SchedulerNotRunningError)
  | PAUSED => (wakeup (dispatch (sched_event SCHEDULER_RESUMED None) (w_st RUNNING s)), Ok tt)
  | RUNNING => (s, Ok tt)
  end.

(** * Changing tasks *)

(** base.py:1175-1214 delete_task *)
Fixpoint del_pending (want : option string) (id : string) (l : list (task * bool * bool))
  : list (task * bool * bool) * option (option string) :=
  match l with
  | [] => ([], None)
  | (t, a, b) :: l' =>
      if String.eqb (t_id t) id && task_in want t then (l', Some (t_store t))
      else let (l2, r) := del_pending want id l' in ((t, a, b) :: l2, r)
  end.
Fixpoint del_stores (want : option string) (id : string) (l : dict store) : dict store * option string :=
  match l with
  | [] => ([], None)
  | (alias, x) :: l' =>
      if wanted want alias then
        match st_delete x id with
        | (x', Ok _) => ((alias, x') :: l', Some alias)
        | (_, Err _) => let (l2, r) := del_stores want id l' in ((alias, x) :: l2, r)
        end
      else let (l2, r) := del_stores want id l' in ((alias, x) :: l2, r)
  end.
Definition delete_task (id : string) (want : option string) (s : sched) : sched * result unit :=
  if String.eqb id "" then (s, Ok tt)
  else
    let '(s1, found) :=
      if stopped s then
        let (l, r) := del_pending want id (pend s) in
        (w_pend l s, match r with Some a => a | None => None end)
      else let (l, r) := del_stores want id (stores s) in (w_stores l s, r) in
    match found with
    | None => (s1, Err TaskLookupError)
    | Some alias => (dispatch (task_event TASK_REMOVED id (Some alias)) s1, Ok tt)
    end.

(** base.py:1216-1234 remove_all_tasks *)
Definition remove_all_tasks (want : option string) (s : sched) : sched :=
  let s1 :=
    if stopped s then
      w_pend (match want with
              | Some w => if String.eqb w "" then []
                          else filter (fun p => negb (task_in (Some w) (fst (fst p)))) (pend s)
              | None => []
              end) s
    else w_stores (map (fun ax => (fst ax, if wanted want (fst ax) then on_mem ms_empty (snd ax) else snd ax)) (stores s)) s in
  dispatch (sched_event ALL_TASKS_REMOVED want) s1.

(** base.py:647-688 update_task (by id) *)
Definition update (c : config) (id : string) (want : option string) (fn : pyval) (ups : dict pyval) (s : sched)
  : sched * result task :=
  match lookup_task id want s with
  | Err e => (s, Err e)
  | Ok (t, where_) =>
      let (t', r) := update_task (c_tenv c) t (Some (c_self c)) fn ups in
      match r with
      | Err e => (s, Err e)
      | Ok _ =>
          let '(s1, r1) :=
            match where_ with
            | Some alias => store_update alias t' s
            | None => (w_pend (set_pending_task want id t' (pend s)) s, Ok tt)
            end in
          match r1 with
          | Err e => (s1, Err e)
          | Ok _ => let s2 := dispatch (task_event TASK_MODIFIED id where_) s1 in
                    (wakeup_if (running s2) s2, Ok t')
          end
      end
  end.

Definition opt_date (n : option Z) : pyval := match n with Some x => VDate x | None => VNone end.

(** base.py:690-710 reschedule_task *)
Definition reschedule_task (c : config) (e : envir) (id : string) (want : option string) (tr : trigger) (s : sched) : sched * result task :=
  let '(s1, r) := ask c s tr None (e_now e) in
  match r with
  | Err x => (s1, Err x)
  | Ok n => update c id want VNone [("trigger"%string, VTrigger tr); ("next_run_time"%string, opt_date n)] s1
  end.
(** base.py:712-720 pause_task *)
Definition pause_task (c : config) (id : string) (want : option string) (s : sched) : sched * result task :=
  update c id want VNone [("next_run_time"%string, VNone)] s.
(** base.py:722-744 resume_task; [Ok None]: removed *)
Definition resume_task (c : config) (e : envir) (id : string) (want : option string) (s : sched) : sched * result (option task) :=
  match lookup_task id want s with
  | Err x => (s, Err x)
  | Ok (t, where_) =>
      let '(s1, r) := ask c s (t_trigger t) None (e_now e) in
      match r with
      | Err x => (s1, Err x)
      | Ok (Some n) =>
          let (s2, r2) := update c id where_ VNone [("next_run_time"%string, VDate n)] s1 in
          (s2, match r2 with Ok t' => Ok (Some t') | Err x => Err x end)
      | Ok None => let (s2, r2) := delete_task (t_id t) where_ s1 in
                   (s2, match r2 with Ok _ => Ok None | Err x => Err x end)
      end
  end.

(** * Submitting *)

Definition count (id : string) (s : sched) : Z := match dget id (insts s) with Some n => n | None => 0 end.
(** executors/base.py:54-69 send_task *)
Definition send_task (e : envir) (alias : string) (t : task) (times : list Z) (s : sched) : sched * result unit :=
  if count (t_id t) s >=? t_max t then (s, Err MaximumInstancesError)
  else if e_send_fails e alias (t_id t) then (s, Err OtherError)
  else (w_subs (subs s ++ [MkSub alias (t_id t) times (t_max t)])
          (w_insts (dset (t_id t) (count (t_id t) s + 1) (insts s)) s), Ok tt).

(** base.py:746-863 run_task; [Ok None]: the task was removed *)
Definition run_task (c : config) (e : envir) (id : string) (want : option string) (force remove_finished : bool) (s : sched)
  : sched * result (option task) :=
  if stopped s then (s, Err SchedulerNotRunningError)
  else
    match lookup_task id want s with
    | Err x => (s, Err x)
    | Ok (t, where_) =>
        let now := e_now e in
        match get_run_times (c_fuel c) (c_oracle c) (draws s) t now with
        | Err x => (s, Err x)
        | Ok (due, k) =>
            let s := w_draws k s in
            if negb (nonempty due) && negb force then (s, Ok (Some t))
            else
              let '(times, n) := if nonempty due then coalesce_run_times (t_coalesce t) due else ([now], 0%nat) in
              match t_exec t with
              | None => (s, Err AssertionError)
              | Some xa =>
                  if negb (dmem xa (execs s)) then (s, Err KeyError)
                  else
                    let (s1, r) := send_task e xa t times s in
                    match r with
                    | Err MaximumInstancesError =>
                        (dispatch (MkEvent TASK_MAX_INSTANCES (Some id) where_ times n) s1, Err MaximumInstancesError)
                    | Err x => (s1, Err x)
                    | Ok _ =>
                        let s2 := dispatch (MkEvent TASK_SUBMITTED (Some id) where_ times n) s1 in
                        match last_opt times with
                        | None => (s2, Err IndexError)
                        | Some lastt =>
                            let '(s3, rn) := ask c s2 (t_trigger t) (Some lastt) now in
                            match rn with
                            | Err x => (s3, Err x)
                            | Ok nx =>
                                let nx := match nx with Some x => if x <=? now then Some (now + 1000) else Some x | None => None end in
                                match nx, remove_finished with
                                | None, true => let (s4, r4) := delete_task id where_ s3 in
                                                (s4, match r4 with Ok _ => Ok None | Err x => Err x end)
                                | _, _ =>
                                    let t' := set_next nx t in
                                    match where_ with
                                    | Some alias => let (s4, r4) := store_update alias t' s3 in
                                                    (s4, match r4 with Ok _ => Ok (Some t') | Err x => Err x end)
                                    | None => (s3, Ok (Some t'))
                                    end
                                end
                            end
                        end
                    end
              end
        end
    end.

(** base.py:1027-1083 preview_task_runs: run times and "exhausted"; [Ok None] unknown task.
    Reads only; the trigger calls draw randomness of their own ([k]). *)
Fixpoint preview_loop (fuel : nat) (o : oracle) (tr : trigger) (k : nat) (todo : nat) (next : option Z) : result (list Z * bool) :=
  match next, todo with
  | None, _ => Ok ([], true)
  | Some _, O => Ok ([], false)
  | Some x, S todo' =>
      match answers fuel o tr x k (Some x) with
      | Err e => Err e
      | Ok n => match preview_loop fuel o tr (S k) todo' n with
                | Err e => Err e
                | Ok (l, b) => Ok (x :: l, b)
                end
      end
  end.
Definition preview (c : config) (now : Z) (id : string) (want : option string) (n : Z) (s : sched) : result (option (list Z * bool)) :=
  if negb ((1 <=? n) && (n <=? 50)) then Err ValueError
  else
    match lookup_task id want s with
    | Err TaskLookupError => Ok None
    | Err x => Err x
    | Ok (t, _) =>
        let first := match t_next t with
                     | Some x => Ok (Some x)
                     | None => answers (c_fuel c) (c_oracle c) (t_trigger t) now (draws s) None
                     end in
        match first with
        | Err x => Err x
        | Ok f => match preview_loop (c_fuel c) (c_oracle c) (t_trigger t) (S (draws s)) (Z.to_nat n) f with
                  | Err x => Err x
                  | Ok r => Ok (Some r)
                  end
        end
    end.

(** * Processing (base.py:1560-1699) *)

(** [if not next_wakeup_time or next_wakeup_time > t] *)
Definition sooner (w : option Z) (t : Z) : option Z :=
  match w with None => Some t | Some x => if x >? t then Some t else Some x end.

(** base.py:1587-1637, one due task; the first component of the result collects the events *)
Definition process_one (c : config) (e : envir) (alias : string) (t : task) (se : sched * list event)
  : (sched * list event) * result unit :=
  let '(s, ev) := se in
  let now := e_now e in
  match match t_exec t with Some xa => if dmem xa (execs s) then Some xa else None | None => None end with
  | None => let (s1, r) := delete_task (t_id t) (Some alias) s in ((s1, ev), r)
  | Some xa =>
      match get_run_times (c_fuel c) (c_oracle c) (draws s) t now with
      | Err x => ((s, ev), Err x)
      | Ok (due, k) =>
          let s := w_draws k s in
          let '(times, n) := coalesce_run_times (t_coalesce t) due in
          match last_opt times with
          | None => ((s, ev), Ok tt)
          | Some lastt =>
              let (s1, r) := send_task e xa t times s in
              let ev1 := match r with
                         | Ok _ => ev ++ [MkEvent TASK_SUBMITTED (Some (t_id t)) (Some alias) times n]
                         | Err MaximumInstancesError => ev ++ [MkEvent TASK_MAX_INSTANCES (Some (t_id t)) (Some alias) times n]
                         | Err _ => ev
                         end in
              let '(s2, rn) := ask c s1 (t_trigger t) (Some lastt) now in
              match rn with
              | Err x => ((s2, ev1), Err x)
              | Ok (Some x) => let (s3, r3) := store_update alias (set_next (Some x) t) s2 in ((s3, ev1), r3)
              | Ok None => let (s3, r3) := delete_task (t_id t) (Some alias) s2 in ((s3, ev1), r3)
              end
          end
      end
  end.
Fixpoint process_due (c : config) (e : envir) (alias : string) (l : list task) (se : sched * list event)
  : (sched * list event) * result unit :=
  match l with
  | [] => (se, Ok tt)
  | t :: l' =>
      match process_one c e alias t se with
      | (se1, Ok _) => process_due c e alias l' se1
      | (se1, Err x) => (se1, Err x)
      end
  end.

(** base.py:1560-1646 _process_tasks_of_store *)
Definition process_store (c : config) (e : envir) (alias : string) (w : option Z) (se : sched * list event)
  : (sched * list event) * result (option Z) :=
  let '(s, ev) := se in
  match dget alias (stores s) with
  | None => (se, Ok w)   (* not reached: aliases are those of the store dictionary *)
  | Some x =>
      if e_busy e alias || e_fails e alias then (se, Ok (sooner w (e_now e + c_retry c)))
      else
        match process_due c e alias (ms_due (s_mem x) (e_now e)) (s, ev) with
        | (se1, Err x) => (se1, Err x)
        | ((s1, ev1), Ok _) =>
            let n := match dget alias (stores s1) with Some x1 => ms_next_run_time t_next (s_mem x1) | None => None end in
            ((s1, ev1),
             Ok (match n, w with
                 | Some t, None => Some t
                 | Some t, Some y => if t <? y then Some t else Some y
                 | None, _ => w
                 end))
        end
  end.
Fixpoint process_stores (c : config) (e : envir) (aliases : list string) (w : option Z) (se : sched * list event)
  : (sched * list event) * result (option Z) :=
  match aliases with
  | [] => (se, Ok w)
  | a :: l' =>
      match process_store c e a w se with
      | (se1, Ok w1) => process_stores c e l' w1 se1
      | (se1, Err x) => (se1, Err x)
      end
  end.

(** base.py:1648-1699 process_tasks; the delay in microseconds, None = no timer *)
Definition process_tasks (c : config) (e : envir) (s : sched) : sched * result (option Z) :=
  if sstate_eqb (st s) PAUSED then (s, Ok None)
  else
    let now := e_now e in
    match (if e_plock e then ((s, []), Ok (sooner None (now + c_retry c)))
           else process_stores c e (dkeys (stores s)) None (s, [])) with
    | ((s1, _), Err x) => (s1, Err x)
    | ((s1, ev), Ok w) =>
        let s2 := w_evs (evs s1 ++ ev) s1 in
        (s2, Ok (if sstate_eqb (st s2) PAUSED then None
                 else match w with
                      | None => if c_lock_path c then Some (c_retry c) else None
                      | Some t => Some (Z.min (Z.max (t - now) 0) (c_timeout_max c))
                      end))
    end.
