(** Building a task from the arguments of add_task, and decorator mode:
    asyncz/schedulers/base.py:491-645 (a callable, a textual reference, or nothing instead of a Task object),
    asyncz/tasks/base.py:52-62 (construction) and 269-293 (a task used as a decorator).
    Simplifications: the trigger argument is the trigger object (aliases: base.py:1529-1546, TrigZone.v);
    pydantic's own refusals and coercions at construction are not modelled (Task.update_task validates the same
    fields right after); the scheduler's Shape dumps the defaults to the plain mapping (C60). *)
From Verif Require Import Prelude CallArgs Cron Triggers Task Scheduler.
Open Scope Z_scope.

(** base.py:491-507, the arguments; None is "not given" (or given as None where the code does not tell) *)
Record add_args := MkArgs {
  o_trigger : trigger;
  o_late_ok : bool;                (* trigger.allow_mistrigger_by_default: a date trigger without a date, date.py:28-32 *)
  o_args : option (list pyval); o_kwargs : option (dict pyval);
  o_id : option string; o_name : option string;
  o_grace : option pyval; o_coalesce : option pyval; o_max : option pyval; o_next : option pyval;
  o_store : option string; o_exec : option string; o_replace : bool }.

(** schedulers/datastructures.py:26-69 TaskDefaultStruct; grace time in microseconds *)
Record defaults := MkDefaults { d_grace : option Z; d_coalesce : bool; d_max : Z }.

(** the entries that are there: [value is not undefined] *)
Definition present (l : list (string * option pyval)) : dict pyval :=
  flat_map (fun kv => match snd kv with Some v => [(fst kv, v)] | None => [] end) l.
(** dict.setdefault *)
Definition setdefault (k : string) (v : pyval) (d : dict pyval) : dict pyval := if dmem k d then d else d ++ [(k, v)].
Definition text (o : option string) : option pyval := option_map VStr o.
Definition none_or {A} (f : A -> pyval) (o : option A) : pyval := match o with Some x => f x | None => VNone end.

(** base.py:606-621 task_kwargs (scheduler, fn and id apart) *)
Definition task_kwargs (o : add_args) : dict pyval :=
  present [("trigger", Some (VTrigger (o_trigger o)));
           ("args", Some (VList (match o_args o with Some l => l | None => [] end)));
           ("kwargs", Some (VDict (match o_kwargs o with Some d => d | None => [] end)));
           ("name", Some (none_or VStr (o_name o)));
           ("mistrigger_grace_time", o_grace o); ("coalesce", o_coalesce o); ("max_instances", o_max o);
           ("next_run_time", o_next o); ("executor", text (o_exec o)); ("store_alias", text (o_store o))]%string.
(** datastructures.py:53-69 model_dump(exclude_none=True) *)
Definition dump_defaults (d : defaults) : dict pyval :=
  present [("mistrigger_grace_time", option_map VFloat (d_grace d)); ("coalesce", Some (VBool (d_coalesce d)));
           ("max_instances", Some (VInt (d_max d)))]%string.
(** base.py:622-638 *)
Definition with_defaults (d : defaults) (o : add_args) : dict pyval :=
  fold_left (fun ups kv => setdefault (fst kv) (snd kv) ups) (dump_defaults d)
    (if o_late_ok o then setdefault "mistrigger_grace_time" VNone (task_kwargs o) else task_kwargs o).

(** tasks/base.py:52-62 Task(fn, id=id, scheduler=..., **ups): the field defaults (tasks/types.py:18-43), then
    update_task.  [tr]: the trigger pydantic has already set from [ups]. *)
Definition blank (id : string) (tr : trigger) (sched : option nat) : task :=
  MkTask id "" tr None None None (Some us) true 1 None None (VList []) (VDict []) sched true false.
Definition construct (env : tenv) (sched : option nat) (tr : trigger) (id : string) (fn : pyval) (ups : dict pyval) : result task :=
  match update_task env (blank id tr sched) sched fn ups with
  | (t, Ok _) => Ok t
  | (_, Err x) => Err x
  end.

(** a task without a callable: its id may be missing ([p_task] then has a meaningless one) *)
Record template := MkTemplate { p_id : option string; p_task : task }.
Inductive outcome := Added (t : task) | Decorator (p : template).

(** the next_run_time argument of the inner call (base.py:640-643), as Scheduler.add_task takes it: a date, an
    explicit None, or nothing; a false value other than None counts as nothing, the task having none either *)
Definition inner_next (env : tenv) (v : option pyval) : option (option Z) :=
  match v with
  | None => None
  | Some VNone => Some None
  | Some w => match to_datetime env w with Ok (Some x) => Some (Some x) | _ => None end
  end.

(** base.py:491-645 add_task of anything but a Task object; [fresh] is uuid4().hex *)
Definition add_function (c : config) (d : defaults) (e : envir) (o : add_args) (fresh : string) (fn : pyval) (s : sched)
  : sched * result outcome :=
  let id := match o_id o with Some i => Some i | None => match fn with VNone => None | _ => Some fresh end end in
  match construct (c_tenv c) (Some (c_self c)) (o_trigger o) (dflt id ""%string) fn (with_defaults d o) with
  | Err x => (s, Err x)
  | Ok t =>
      match t_fn t with
      | None => (s, Ok (Decorator (MkTemplate id t)))
      | Some _ =>
          let (s1, r) := add_task c e t (o_replace o) (inner_next (c_tenv c) (o_next o)) s in
          (s1, match r with Ok _ => Ok (Added t) | Err x => Err x end)
      end
  end.

(** tasks/base.py:269-284: what is passed on to the new task *)
Definition copied (t : task) : dict pyval :=
  present [("name", Some (if String.eqb (t_name t) "" then VNone else VStr (t_name t)));
           ("next_run_time", Some (none_or VDate (t_next t)));
           ("args", Some (t_args t)); ("kwargs", Some (t_kwargs t)); ("trigger", Some (VTrigger (t_trigger t)));
           ("mistrigger_grace_time", Some (none_or VFloat (t_grace t))); ("coalesce", Some (VBool (t_coalesce t)));
           ("max_instances", Some (VInt (t_max t))); ("store_alias", text (t_store t)); ("executor", text (t_exec t))]%string.
(** tasks/base.py:269-293 __call__: the new task, and whether the function's asyncz_tasks lists it *)
Definition decorate (c : config) (e : envir) (p : template) (fresh : string) (fn : callable) (s : sched)
  : sched * result (task * bool) :=
  let given := match p_id p with Some (String _ _) => true | _ => false end in
  let id := if given then dflt (p_id p) ""%string else fresh in
  match construct (c_tenv c) (t_sched (p_task p)) (t_trigger (p_task p)) id (VFn fn) (copied (p_task p)) with
  | Err x => (s, Err x)
  | Ok t =>
      match t_sched (p_task p) with
      | None => (s, Ok (t, negb given))
      | Some _ =>
          let (s1, r) := add_task c e t given None s in
          (s1, match r with Ok _ => Ok (t, negb given) | Err x => Err x end)
      end
  end.
