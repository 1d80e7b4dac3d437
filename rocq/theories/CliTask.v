(** The commands of the CLI that change tasks: asyncz/cli/commands/update.py, asyncz/cli/loader.py, and the cache of
    schedulers asyncz/cli/bootstrap_loader.py.
    Simplifications: the scheduler's own start and shutdown around a command are C26-C28 and not repeated here; what
    is printed is not modelled; json.loads is a parameter; [==] of argument values is a parameter. *)
From Verif Require Import Prelude CallArgs Cron Triggers Task Scheduler AddTask Text.
Open Scope Z_scope.

(** update.py:17-26 *)
Definition parse_coalesce (v : option string) : result (option bool) :=
  match v with
  | None => Ok None
  | Some s =>
      let n := lower (strip s) in
      if mem n ["1"; "true"; "yes"; "on"]%string then Ok (Some true)
      else if mem n ["0"; "false"; "no"; "off"]%string then Ok (Some false)
      else Err ValueError
  end.

(** update.py:50-73, the options; the grace time in microseconds *)
Record update_options := MkOptions {
  u_name : option string; u_callable : option string; u_args : option string; u_kwargs : option string;
  u_executor : option string; u_coalesce : option string; u_max : option Z; u_grace : option Z; u_clear : bool }.

Section Update.
  Variable json : string -> result pyval.
  Variable same : pyval -> pyval -> bool.

  (** update.py:97-107 *)
  Definition json_array (o : option string) : result (option pyval) :=
    match o with
    | None => Ok None
    | Some s => match json s with Ok (VList l) => Ok (Some (VList l)) | Ok _ => Err ValueError | Err e => Err e end
    end.
  Definition json_object (o : option string) : result (option pyval) :=
    match o with
    | None => Ok None
    | Some s => match json s with Ok (VDict d) => Ok (Some (VDict d)) | Ok _ => Err ValueError | Err e => Err e end
    end.
  (** update.py:87-121: fn, and the other updates in order *)
  Definition updates_of (o : update_options) : result (pyval * dict pyval) :=
    do coalesce <- parse_coalesce (u_coalesce o);
    do args <- json_array (u_args o);
    do kwargs <- json_object (u_kwargs o);
    let ups := present [("name", text (u_name o)); ("args", args); ("kwargs", kwargs); ("executor", text (u_executor o));
                        ("coalesce", option_map VBool coalesce); ("max_instances", option_map VInt (u_max o));
                        ("mistrigger_grace_time", if u_clear o then Some VNone else option_map VFloat (u_grace o))]%string in
    match u_callable o, ups with
    | None, [] => Err OtherError
    | Some f, _ => Ok (VStr f, ups)
    | None, _ => Ok (VNone, ups)
    end.

  (** update.py:29-39; list(task.args) of a dictionary gives its keys *)
  Definition elements (v : pyval) : pyval := match v with VDict d => VList (map (fun kv => VStr (fst kv)) d) | _ => v end.
  Definition snapshot (t : task) : dict pyval :=
    [("name", if String.eqb (t_name t) "" then VNone else VStr (t_name t)); ("executor", none_or VStr (t_exec t));
     ("callable_reference", none_or VStr (t_ref t)); ("args", elements (t_args t)); ("kwargs", t_kwargs t);
     ("coalesce", VBool (t_coalesce t)); ("max_instances", VInt (t_max t));
     ("mistrigger_grace_time", none_or VFloat (t_grace t))]%string.
  (** update.py:42-47 *)
  Fixpoint build_diff (before after : dict pyval) : list (string * (pyval * pyval)) :=
    match before with
    | [] => []
    | (k, b) :: before' =>
        let a := dflt (dget k after) VNone in
        if same b a then build_diff before' after else (k, (b, a)) :: build_diff before' after
    end.

  Record reply := MkReply { r_where : option string; r_applied : bool; r_diff : list (string * (pyval * pyval)); r_after : option (dict pyval) }.
  (** update.py:137-192; [confirmed]: --yes, or the answer to the question *)
  Definition cli_update (c : config) (o : update_options) (dry confirmed : bool) (id : string) (s : sched) : sched * result reply :=
    match updates_of o with
    | Err e => (s, Err e)
    | Ok (fn, ups) =>
        match lookup_task id None s with
        | Err e => (s, Err e)
        | Ok (t, where_) =>
            match update_task (c_tenv c) t (Some (c_self c)) fn ups with
            | (_, Err e) => (s, Err e)
            | (proposed, Ok _) =>
                let diff := build_diff (snapshot t) (snapshot proposed) in
                match diff with
                | [] => (s, Ok (MkReply where_ false diff None))
                | _ =>
                    if dry then (s, Ok (MkReply where_ false diff None))
                    else if confirmed then
                      let (s', r) := update c id where_ fn ups s in
                      (s', match r with Ok t' => Ok (MkReply where_ true diff (Some (snapshot t'))) | Err e => Err e end)
                    else (s, Err OtherError)
                end
            end
        end
    end.
End Update.

(** loader.py:12-33 and 36-65, one entry: [j_trigger] is the trigger object, or what parse_trigger gives;
    [Task(func=..., name=...)]: there is no field of that name *)
Record job := MkJob { j_func : result pyval; j_name : pyval; j_trigger : result trigger; j_args : list pyval; j_kwargs : dict pyval }.
Definition job_task (env : tenv) (fresh : string) (tr : trigger) (j : job) : result task :=
  match j_func j with
  | Err e => Err e
  | Ok f => construct env None tr fresh VNone [("func", f); ("name", j_name j)]%string
  end.
(** from a configuration file the trigger is parsed first; from a module it is looked up after the task is made *)
Fixpoint load_jobs (c : config) (e : envir) (from_file : bool) (fresh : nat -> string) (added : nat) (jobs : list job) (s : sched) : sched * result nat :=
  match jobs with
  | [] => (s, Ok added)
  | j :: jobs' =>
      let step (tr : trigger) : sched * result nat :=
        match job_task (c_tenv c) (fresh added) tr j with
        | Err x => (s, Err x)
        | Ok t =>
            match update_task (c_tenv c) t None VNone [("trigger", VTrigger tr); ("args", VList (j_args j)); ("kwargs", VDict (j_kwargs j))]%string with
            | (_, Err x) => (s, Err x)
            | (t', Ok _) => let (s', r) := add_task c e t' false None s in
                            match r with Ok _ => load_jobs c e from_file fresh (S added) jobs' s' | Err x => (s', Err x) end
            end
        end in
      match j_trigger j with
      | Ok tr => step tr
      | Err x => if from_file then (s, Err x)
                 else match job_task (c_tenv c) (fresh added) (TInterval 1 0 None None) j with Err y => (s, Err y) | Ok _ => (s, Err x) end
      end
  end.

(** * bootstrap_loader.py
    what calling something gives: a scheduler, anything else, or an exception *)
Inductive thing := Scheduler_ (n : nat) | Something.
(** bootstrap_loader.py:39-108: the imported object; each call may answer differently: [n] counts the operations.
    [b_class]: it is a class; [b_new]: what instantiating it gives (whether the instance has get_scheduler, and what that
    answers); [b_get]: its own get_scheduler; [b_call]: calling it, if it can be called *)
Record target := MkTarget {
  b_class : bool; b_new : nat -> result (option (nat -> result thing));
  b_get : option (nat -> result thing); b_call : option (nat -> result thing) }.
Definition check_thing (r : result thing) : result nat :=
  match r with Ok (Scheduler_ n) => Ok n | Ok Something => Err TypeError | Err e => Err e end.
Definition bootstrap (t : target) (n : nat) : result nat :=
  let rest := match b_get t with
              | Some g => check_thing (g n)
              | None => match b_call t with Some f => check_thing (f n) | None => Err TypeError end
              end in
  if b_class t then
    match b_new t n with
    | Err e => Err e
    | Ok (Some g) => check_thing (g n)
    | Ok None => rest
    end
  else rest.
Inductive boot_op := Load (path : string) | Clear.
Definition load_bootstrap (import : string -> nat -> result target) (path : string) (n : nat) (cache : dict nat) : dict nat * result nat :=
  match dget path cache with
  | Some x => (cache, Ok x)
  | None => match import path n with
            | Err e => (cache, Err e)
            | Ok t => match bootstrap t n with Ok x => (dset path x cache, Ok x) | Err e => (cache, Err e) end
            end
  end.
(** a history of loads and clears: the answers *)
Fixpoint boots (import : string -> nat -> result target) (ops : list boot_op) (n : nat) (cache : dict nat) : list (option (result nat)) :=
  match ops with
  | [] => []
  | Clear :: ops' => None :: boots import ops' (S n) []
  | Load p :: ops' => let (cache', r) := load_bootstrap import p n cache in Some r :: boots import ops' (S n) cache'
  end.
