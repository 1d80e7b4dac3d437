(** What the doctor, status and instances commands and the dashboard's runtime page say about a scheduler:
    asyncz/cli/commands/doctor.py, asyncz/contrib/dashboard/controllers/runtime.py, asyncz/schedulers/base.py:1134-1180. *)
From Verif Require Import Prelude MemStore Task Triggers Scheduler SchedSpec Text SortList Inspect.
Open Scope Z_scope.

(** base.py:228-229, 278-280 and 1097: [started_at] next to the state.  The state leaves STOPPED only in [start], which sets
    the time, and becomes STOPPED only in [shutdown], which clears it; the snapshot hides it while STOPPED. *)
Definition started_after (now : Z) (s s' : sched) (at_ : option Z) : option Z :=
  match st s, st s' with
  | STOPPED, STOPPED => at_
  | STOPPED, _ => Some now
  | _, STOPPED => None
  | _, _ => at_
  end.
Fixpoint clock (c : config) (l : list (envir * op)) (s : sched) (at_ : option Z) : sched * option Z :=
  match l with
  | [] => (s, at_)
  | (e, o) :: l' => let s' := step c e o s in clock c l' s' (started_after (e_now e) s s' at_)
  end.
(** base.py:330 *)
Definition running (s : sched) : bool := negb (stopped s).

Inductive health := HOk | HWarning | HFailed.
(** doctor.py:28-82: name and status of each check *)
Definition checks (s : sched) (i : sinfo) (started : option Z) : list (string * health) :=
  [("scheduler_running", if running s then HOk else HWarning);
   ("stores_registered", match store_aliases i with [] => HFailed | _ => HOk end);
   ("executors_registered", match executor_aliases i with [] => HFailed | _ => HOk end);
   ("task_inventory", HOk);
   ("lifecycle_clock", if running s then match started with Some _ => HOk | None => HFailed end else HWarning)]%string.
(** doctor.py:20-25 *)
Definition is_h (h : health) (x : string * health) : bool := match h, snd x with HOk, HOk | HWarning, HWarning | HFailed, HFailed => true | _, _ => false end.
Definition health_of (l : list (string * health)) : health :=
  if existsb (is_h HFailed) l then HFailed else if existsb (is_h HWarning) l then HWarning else HOk.
(** doctor.py:85-97: health and ready *)
Definition doctor (descr : trigger -> string) (s : sched) (started : option Z) : result (health * bool) :=
  match get_scheduler_info descr s with
  | Err x => Err x
  | Ok i => let h := health_of (checks s i (if running s then started else None)) in Ok (h, (running s && match h with HOk => true | _ => false end)%bool)
  end.
(** doctor.py:149-152: with --strict the command fails *)
Definition strict_fails (h : health) : bool := match h with HOk => false | _ => true end.
(** base.py:1144-1157: active and stale of the one instance *)
Definition instance (s : sched) : bool * bool := let stale := negb (running s) in ((running s && negb stale)%bool, stale).

(** runtime.py:16-33: one row for each component: alias and number of tasks *)
Definition or_default (a : string) : string := if String.eqb a "" then "default"%string else a.
Definition rows {A} (components : dict A) (labels : list string) : list (string * nat) :=
  map (fun a => (a, List.length (filter (String.eqb a) labels))) (isort str_leb (dkeys components)).
(** runtime.py:45-74: the rows of the stores and of the executors *)
Definition runtime (descr : trigger -> string) (s : sched) : result (list (string * nat) * list (string * nat)) :=
  match get_task_infos descr (MkQuery None None None None None "next_run_time" false) s with
  | Err x => Err x
  | Ok infos => Ok (rows (stores s) (map (fun i => or_default (i_store i)) infos), rows (execs s) (map (fun i => or_default (i_exec i)) infos))
  end.
