(** What the remote control promises (C50, C61, C62), stated without the worker and the client. *)
From Verif Require Import Prelude Text Remote.
Open Scope Z_scope.

(** the call the same code would make on a scheduler in its own process (a preview from now on: the time a
    remote preview may name is ignored) *)
Definition given_fields (a : add_call) : list (string * json) :=
  flat_map (fun kf => match snd kf with Undefined => [] | Given j => [(fst kf, j)] end)
    [("id", a_id a); ("name", a_name a); ("mistrigger_grace_time", a_grace a); ("coalesce", a_coalesce a); ("max_instances", a_max a); ("next_run_time", a_next a); ("store", a_store a); ("executor", a_executor a)]%string.
Definition local_op (c : call) : op :=
  match c with
  | CInfo => OInfo | CInstances => OInstances
  | CList st state ex tr q sort desc => OList st state ex tr q sort desc
  | CTask id st => OTask id st
  | CPreview id st n now => OPreview id st n
  | CAdd a => OAdd (JStr (a_fn a)) (match a_trigger a with ByName n => TJson (opt_json n) | AnObject p => TUnpickled p end)
      ([("args", JArr (a_args a)); ("kwargs", JObj (a_kwargs a)); ("replace_existing", JBool (a_replace a))]%string ++ given_fields a) (a_targs a)
  | CUpdate id st u => OUpdate id (opt_json st) u
  | CRun id st f rf => ORun id (opt_json st) f rf
  | CPause id st => OPause id (opt_json st)
  | CResume id st => OResume id (opt_json st)
  | CDelete id st => ORemove id (opt_json st)
  end.
(** the id a call is about *)
Definition target (c : call) : option string :=
  match c with CTask i _ | CPreview i _ _ _ | CUpdate i _ _ | CRun i _ _ _ | CPause i _ | CResume i _ | CDelete i _ => Some i | _ => None end.
Definition routable (id : string) : Prop := id <> ""%string /\ forall u v, id <> (u ++ "/" ++ v)%string.
(** the id an operation of the scheduler is about *)
Definition about (o : op) : option string :=
  match o with OTask i _ | OPreview i _ _ | OUpdate i _ _ | ORun i _ _ _ | OPause i _ | OResume i _ | ORemove i _ => Some i | _ => None end.
(** an optional name is absent or not empty *)
Definition named (o : option string) : Prop := o <> Some ""%string.
Definition ordinary (c : call) : Prop :=
  (forall i, target c = Some i -> routable i) /\
  match c with
  | CList st state ex tr q sort _ => named st /\ named state /\ named ex /\ named tr /\ named q /\ sort <> ""%string
  | CTask _ st => named st
  | CPreview _ st _ _ => named st
  | CAdd _ => False
  | _ => True
  end.
(** how a failure of the call comes back: the same exception for the ones the dashboard handles,
    RemoteSchedulerError with the same text for the rest *)
Definition shown (x : exc) : string := if String.eqb (x_text x) "" then x_class x else x_text x.
Definition is_read (c : call) : Prop := match c with CInfo | CInstances | CTask _ _ | CPreview _ _ _ _ => True | _ => False end.
Inductive same_failure (c : call) (x : exc) : got -> Prop :=
| sf_lookup : ~ is_read c -> x_class x = "TaskLookupError"%string -> same_failure c x (XLookup (opt_json (target c)))
| sf_stopped : ~ is_read c -> x_class x = "SchedulerNotRunningError"%string -> same_failure c x XNotRunning
| sf_max : ~ is_read c -> x_class x = "MaximumInstancesError"%string -> same_failure c x (XMaxInstances (if String.eqb (x_task x) "" then "unknown" else x_task x) (x_total x))
| sf_value : ~ is_read c -> x_class x = "ValueError"%string -> same_failure c x (XValue (shown x))
| sf_other : ~ is_read c -> ~ In (x_class x) [""; "TaskLookupError"; "SchedulerNotRunningError"; "MaximumInstancesError"; "ValueError"]%string -> same_failure c x (XRemote (shown x))
| sf_read : is_read c -> same_failure c x XProtocol.
(** what an argument of add_task is, given or not: the default of id, name, store and executor is None *)
Definition argument (k : string) (l : list (string * json)) : field :=
  match dget k l with Some j => Given j | None => if existsb (String.eqb k) ["id"; "name"; "store"; "executor"]%string then Given JNull else Undefined end.
(** the same call without the options that were given as None (id, name, store and executor are None by default) *)
Definition dropped (f : field) : field := match f with Given JNull => Undefined | _ => f end.
Definition without_none (a : add_call) : add_call :=
  MkAdd (a_fn a) (a_trigger a) (a_args a) (a_kwargs a) (a_id a) (a_name a) (dropped (a_grace a)) (dropped (a_coalesce a)) (dropped (a_max a)) (dropped (a_next a))
        (a_store a) (a_executor a) (a_replace a) (a_targs a).
Definition same_addition (o1 o2 : op) : Prop :=
  match o1, o2 with
  | OAdd f1 t1 k1 g1, OAdd f2 t2 k2 g2 => f1 = f2 /\ t1 = t2 /\ g1 = g2 /\ forall k, argument k k1 = argument k k2
  | _, _ => False
  end.
