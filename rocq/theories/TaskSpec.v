(** What "run times", "updates" mean, independently of the algorithms. *)
From Verif Require Import Prelude CallArgs Cron Triggers TriggerSpec Task.
Open Scope Z_scope.

(** [l] is the beginning of the sequence of fire times that starts with [first] and in which each
    one is the trigger's answer to the one before; [rest] is what comes after [l]. *)
Inductive fire_times (next : Z -> option Z -> Prop) : option Z -> list Z -> option Z -> Prop :=
| ft_nil n : fire_times next n [] n
| ft_cons t n l rest : next t n -> fire_times next n l rest -> fire_times next (Some t) (t :: l) rest.

(** the trigger answers [n] after firing at [t] (asked at the very instant of the fire, or later:
    see C55) *)
Definition answer_after (fuel : nat) (tr : trigger) (t : Z) (n : option Z) : Prop :=
  forall o now, t <= now -> get_next fuel tr (Some t) o now = Ok n.

Definition after_instant (now : Z) (n : option Z) : Prop := forall t, n = Some t -> now < t.

(** One wake-up of a task, as the scheduler does it (schedulers/base.py:1585-1631): compute the
    due run times; if there are some, ask the trigger for the time after the last one. *)
Definition wake (fuel : nat) (o : oracle) (k : nat) (t : task) (now : Z) : result (list Z * option Z * nat) :=
  match get_run_times fuel o k t now with
  | Err e => Err e
  | Ok (l, k') =>
      match last_opt l with
      | None => Ok (l, t_next t, k')
      | Some x => match answers fuel o (t_trigger t) now k' (Some x) with
                  | Err e => Err e
                  | Ok n => Ok (l, n, S k')
                  end
      end
  end.
(** a whole sequence of wake-ups; the lists handed out, and the next run time left *)
Fixpoint wakes (fuel : nat) (o : oracle) (k : nat) (t : task) (nows : list Z) : result (list (list Z) * option Z) :=
  match nows with
  | [] => Ok ([], t_next t)
  | now :: nows' =>
      match wake fuel o k t now with
      | Err e => Err e
      | Ok (l, n, k') => match wakes fuel o k' (set_next n t) nows' with
                         | Err e => Err e
                         | Ok (ls, n') => Ok (l :: ls, n')
                         end
      end
  end.

Fixpoint non_decreasing (l : list Z) : Prop :=
  match l with x :: ((y :: _) as l') => x <= y /\ non_decreasing l' | _ => True end.

(** * updates *)
Definition given (k : string) (ups : dict pyval) (v : pyval) : Prop := dget k ups = Some v.
Definition not_given (k : string) (ups : dict pyval) : Prop := dget k ups = None.

(** numeric value in seconds*10^6 of an int, float or bool *)
Definition number (v : pyval) (m : Z) : Prop :=
  match v with VInt z => m = z * us | VFloat x => m = x | VBool b => m = if b then us else 0 | _ => False end.
Definition integer (v : pyval) (z : Z) : Prop :=
  match v with VInt x => z = x | VBool b => z = if b then 1 else 0 | _ => False end.

Definition modifiable : list string :=
  ["args"; "kwargs"; "name"; "mistrigger_grace_time"; "coalesce"; "store_alias"; "max_instances"; "trigger"; "executor"; "next_run_time"]%string.

(** callable, reference, args and kwargs after the update *)
Definition touches_call (fn : pyval) (ups : dict pyval) : Prop :=
  truthy fn = true \/ (exists v, given "args" ups v) \/ (exists v, given "kwargs" ups v).
Definition new_callable (env : tenv) (t : task) (fn : pyval) (c : option callable) (r : option string) : Prop :=
  if truthy fn then
    match fn with
    | VStr s => exists cc, resolve env s = Ok cc /\ c = Some cc /\ r = Some s
    | VFn cc => c = Some cc /\ r = c_ref cc
    | _ => False
    end
  else c = t_fn t /\ r = match t_fn t with Some cc => c_ref cc | None => None end.
Definition value_or (k : string) (ups : dict pyval) (d v : pyval) : Prop :=
  given k ups v \/ (not_given k ups /\ v = d).
(** keyword arguments are a mapping with string keys, positional ones an iterable, and the call binds
    (Python signatures have distinct names and dicts distinct keys) *)
Definition fits (c : option callable) (args kwargs : pyval) : Prop :=
  exists n ks, arg_count args = Some n /\ kwarg_names kwargs = Some ks /\
    forall cc, c = Some cc -> sig_ok (c_sig cc) -> NoDup ks -> binds (c_sig cc) n ks.

(** exactly the given changes are applied to [t], giving [t'] *)
Definition applied (env : tenv) (t : task) (sched : option nat) (fn : pyval) (ups : dict pyval) (t' : task) : Prop :=
  t_id t' = t_id t /\ t_pending t' = t_pending t /\ t_submitted t' = t_submitted t /\
  (match sched with Some s => t_sched t' = Some s | None => t_sched t' = t_sched t end) /\
  (forall m, given "mistrigger_grace_time" ups m ->
     (m = VNone /\ t_grace t' = None) \/ (exists x, number m x /\ 0 < x /\ t_grace t' = Some x)) /\
  (not_given "mistrigger_grace_time" ups -> t_grace t' = t_grace t) /\
  (forall v, given "coalesce" ups v -> t_coalesce t' = truthy v) /\
  (not_given "coalesce" ups -> t_coalesce t' = t_coalesce t) /\
  (forall v, given "store_alias" ups v -> exists s, v = VStr s /\ t_store t' = Some s) /\
  (not_given "store_alias" ups -> t_store t' = t_store t) /\
  (forall v, given "executor" ups v -> exists s, v = VStr s /\ t_exec t' = Some s) /\
  (not_given "executor" ups -> t_exec t' = t_exec t) /\
  (forall v, given "max_instances" ups v -> exists z, integer v z /\ 0 < z /\ t_max t' = z) /\
  (not_given "max_instances" ups -> t_max t' = t_max t) /\
  (forall v, given "trigger" ups v -> v = VTrigger (t_trigger t')) /\
  (not_given "trigger" ups -> t_trigger t' = t_trigger t) /\
  (forall v, given "next_run_time" ups v -> t_sched t' <> None /\ to_datetime env v = Ok (t_next t')) /\
  (not_given "next_run_time" ups -> t_next t' = t_next t) /\
  (touches_call fn ups -> new_callable env t fn (t_fn t') (t_ref t') /\
     value_or "args" ups (t_args t) (t_args t') /\ value_or "kwargs" ups (t_kwargs t) (t_kwargs t') /\
     fits (t_fn t') (t_args t') (t_kwargs t')) /\
  (~ touches_call fn ups -> t_fn t' = t_fn t /\ t_ref t' = t_ref t /\ t_args t' = t_args t /\ t_kwargs t' = t_kwargs t) /\
  (forall v, given "name" ups v -> v <> VNone -> exists s, v = VStr s /\ s <> ""%string /\ t_name t' = s) /\
  (not_given "name" ups \/ given "name" ups VNone ->
     t_name t' = t_name t \/
     (t_name t = ""%string /\ touches_call fn ups /\ exists c, t_fn t' = Some c /\ t_name t' = c_name c /\ c_name c <> ""%string)) /\
  (forall k v, given k ups v -> In k modifiable).

(** the reasons for which an update may be refused *)
Inductive invalid (env : tenv) (t : task) (sched : option nat) (fn : pyval) (ups : dict pyval) : Prop :=
| inv_sched x y : sched = Some x -> t_sched t = Some y -> x <> y -> invalid env t sched fn ups
| inv_key k v : given k ups v -> ~ In k modifiable -> invalid env t sched fn ups
| inv_name v : given "name" ups v -> v <> VNone -> ~ (exists s, v = VStr s /\ s <> ""%string) -> invalid env t sched fn ups
| inv_anon c r : t_name t = ""%string -> new_callable env t fn (Some c) r -> c_name c = ""%string -> invalid env t sched fn ups
| inv_grace v : given "mistrigger_grace_time" ups v -> ~ (v = VNone \/ exists x, number v x /\ 0 < x) -> invalid env t sched fn ups
| inv_max v : given "max_instances" ups v -> ~ (exists x, integer v x /\ 0 < x) -> invalid env t sched fn ups
| inv_str k v : k = "store_alias"%string \/ k = "executor"%string -> given k ups v -> ~ (exists s, v = VStr s) -> invalid env t sched fn ups
| inv_trigger v : given "trigger" ups v -> ~ (exists tr, v = VTrigger tr) -> invalid env t sched fn ups
| inv_next v : given "next_run_time" ups v ->
    ~ ((sched <> None \/ t_sched t <> None) /\ exists x, to_datetime env v = Ok x) -> invalid env t sched fn ups
| inv_call : touches_call fn ups ->
    ~ (exists c r a kw n ks, new_callable env t fn c r /\ value_or "args" ups (t_args t) a /\
       value_or "kwargs" ups (t_kwargs t) kw /\ arg_count a = Some n /\ kwarg_names kw = Some ks /\
       forall cc, c = Some cc -> check_callable_args (c_sig cc) n ks = Ok tt) -> invalid env t sched fn ups.

Fixpoint increasing (l : list Z) : Prop :=
  match l with x :: ((y :: _) as l') => x < y /\ increasing l' | _ => True end.
