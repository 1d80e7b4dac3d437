(** What the arguments of add_task ask for (C69, C70). *)
From Verif Require Import Prelude CallArgs Cron Triggers TriggerSpec Task TaskSpec Scheduler AddTask.
Open Scope Z_scope.

(** the callable given directly or by its textual reference, and the reference to save *)
Definition callable_of (env : tenv) (fn : pyval) (f : callable) (ref : option string) : Prop :=
  match fn with
  | VFn g => f = g /\ ref = c_ref g
  | VStr x => x <> ""%string /\ resolve env x = Ok f /\ ref = Some x
  | _ => False
  end.
Definition positional (o : add_args) : list pyval := match o_args o with Some l => l | None => [] end.
Definition keywords (o : add_args) : dict pyval := match o_kwargs o with Some l => l | None => [] end.

(** the task the arguments describe: what is given, and otherwise the scheduler's defaults.  A default
    grace time of None counts as no default: such tasks get one second (finding, C69). *)
Definition grace_asked (d : defaults) (o : add_args) (g : option Z) : Prop :=
  match o_grace o with
  | Some VNone => g = None
  | Some v => exists x, number v x /\ 0 < x /\ g = Some x
  | None => if o_late_ok o then g = None else g = Some (match d_grace d with Some x => x | None => us end)
  end.
Record described (env : tenv) (self : nat) (d : defaults) (o : add_args) (id : string) (f : callable) (ref : option string) (t : task) : Prop := {
  ds_id : t_id t = id;
  ds_trigger : t_trigger t = o_trigger o;
  ds_callable : t_fn t = Some f /\ t_ref t = ref;
  ds_arguments : t_args t = VList (positional o) /\ t_kwargs t = VDict (keywords o);
  ds_fits : sig_ok (c_sig f) -> NoDup (map fst (keywords o)) -> binds (c_sig f) (List.length (positional o)) (map fst (keywords o));
  ds_name : t_name t = match o_name o with Some n => n | None => c_name f end /\ t_name t <> ""%string;
  ds_coalesce : t_coalesce t = match o_coalesce o with Some v => truthy v | None => d_coalesce d end;
  ds_max : match o_max o with Some v => integer v (t_max t) | None => t_max t = d_max d end /\ 0 < t_max t;
  ds_executor : t_exec t = Some (match o_exec o with Some x => x | None => "default"%string end);
  ds_store : t_store t = Some (match o_store o with Some x => x | None => "default"%string end);
  ds_owner : t_sched t = Some self }.

(** the first run time: as asked for, paused when explicitly None, else the trigger's first answer *)
Definition trigger_first (c : config) (now : Z) (o : add_args) (n : option Z) : Prop :=
  exists k, answers (c_fuel c) (c_oracle c) (o_trigger o) now k None = Ok n.
Definition first_asked (c : config) (now : Z) (o : add_args) (n : option Z) : Prop :=
  match o_next o with
  | None => trigger_first c now o n
  | Some VNone => n = None
  | Some v => (exists x, to_datetime (c_tenv c) v = Ok (Some x) /\ n = Some x) \/
              (to_datetime (c_tenv c) v = Ok None /\ trigger_first c now o n)
  end.
(** before the start only an explicit time is known *)
Definition first_known (env : tenv) (o : add_args) (n : option Z) : Prop :=
  match o_next o with None => n = None | Some v => to_datetime env v = Ok n end.

(** why the arguments themselves may be refused *)
Inductive bad_args (env : tenv) (d : defaults) (o : add_args) (fn : pyval) : Prop :=
| bad_callable : truthy fn = true -> (forall f ref, ~ callable_of env fn f ref) -> bad_args env d o fn
| bad_call f ref : callable_of env fn f ref -> check_callable_args (c_sig f) (List.length (positional o)) (map fst (keywords o)) <> Ok tt -> bad_args env d o fn
| bad_name : o_name o = Some ""%string -> bad_args env d o fn
| bad_anonymous f ref : callable_of env fn f ref -> o_name o = None -> c_name f = ""%string -> bad_args env d o fn
| bad_grace v : o_grace o = Some v -> ~ (v = VNone \/ exists x, number v x /\ 0 < x) -> bad_args env d o fn
| bad_max v : o_max o = Some v -> ~ (exists x, integer v x /\ 0 < x) -> bad_args env d o fn
| bad_next v : o_next o = Some v -> ~ (exists x, to_datetime env v = Ok x) -> bad_args env d o fn
| bad_default_grace g : o_grace o = None -> o_late_ok o = false -> d_grace d = Some g -> g <= 0 -> bad_args env d o fn
| bad_default_max : o_max o = None -> d_max d <= 0 -> bad_args env d o fn.

(** what a definition (add_task without a callable) remembers of its arguments: an empty id is no id, a
    first run time of None (or a blank one) is not given, and replace_existing follows from the id *)
Definition remembered_id (o : add_args) : option string := match o_id o with Some (String _ _ as i) => Some i | _ => None end.
Definition remembered (env : tenv) (o : add_args) : add_args :=
  MkArgs (o_trigger o) (o_late_ok o) (o_args o) (o_kwargs o) (remembered_id o) (o_name o) (o_grace o) (o_coalesce o) (o_max o)
         (match o_next o with Some v => match to_datetime env v with Ok None => None | _ => Some v end | None => None end)
         (o_store o) (o_exec o) (match remembered_id o with Some _ => true | None => false end).
