(** Model of asyncz/tasks/base.py and asyncz/tasks/types.py: tasks, their validated updates and
    the computation of due run times.  Not modelled: decorator mode (id None, base.py:269-293),
    pydantic field coercion at construction, [__repr__]/[snapshot]. *)
From Verif Require Import Prelude CallArgs Cron Triggers.
Open Scope Z_scope.

(** a Python callable, as far as tasks look at it: display name (utils.py get_callable_name),
    textual reference if it has one (utils.py obj_to_ref), signature *)
Record callable := MkCallable { c_name : string; c_ref : option string; c_sig : list param }.

(** Python values that can be passed to update_task.  [VFloat m] is the number of seconds m/10^6;
    [VDate t] is a datetime denoting instant t; [VOther] any other object (truthy, not iterable). *)
Inductive pyval :=
| VNone | VBool (b : bool) | VInt (z : Z) | VFloat (m : Z) | VStr (s : string)
| VList (l : list pyval) | VDict (d : list (string * pyval)) | VTrigger (tr : trigger) | VFn (c : callable)
| VDate (t : Z) | VOther (n : nat).

(** Python truth value *)
Definition truthy (v : pyval) : bool :=
  match v with
  | VNone => false
  | VBool b => b
  | VInt z => negb (z =? 0)
  | VFloat m => negb (m =? 0)
  | VStr s => negb (String.eqb s "")
  | VList l => nonempty l
  | VDict d => nonempty d
  | _ => true
  end.

(** tasks/base.py:18-47 and tasks/types.py:18-43; [t_name = ""] stands for no name;
    grace time in microseconds *)
Record task := MkTask {
  t_id : string; t_name : string; t_trigger : trigger; t_next : option Z;
  t_exec : option string; t_store : option string;
  t_grace : option Z; t_coalesce : bool; t_max : Z;
  t_fn : option callable; t_ref : option string;
  t_args : pyval; t_kwargs : pyval;
  t_sched : option nat; t_pending : bool; t_submitted : bool }.

Definition set_next (n : option Z) (t : task) : task :=
  MkTask (t_id t) (t_name t) (t_trigger t) n (t_exec t) (t_store t) (t_grace t) (t_coalesce t)
         (t_max t) (t_fn t) (t_ref t) (t_args t) (t_kwargs t) (t_sched t) (t_pending t) (t_submitted t).
Definition set_pending (b : bool) (t : task) : task :=
  MkTask (t_id t) (t_name t) (t_trigger t) (t_next t) (t_exec t) (t_store t) (t_grace t) (t_coalesce t)
         (t_max t) (t_fn t) (t_ref t) (t_args t) (t_kwargs t) (t_sched t) b (t_submitted t).

(** tasks/types.py:46-63 schedule_state *)
Inductive schedule_state := PENDING | PAUSED_T | SCHEDULED.
Definition state_of (t : task) : schedule_state :=
  if t_pending t then PENDING else match t_next t with None => PAUSED_T | Some _ => SCHEDULED end.

(** * get_run_times (tasks/base.py:64-74)
    [gn k prev] is the answer of the trigger at its [k]-th call (fresh random draws per call). *)
Fixpoint grt (fuel : nat) (gn : nat -> option Z -> result (option Z)) (k : nat) (next : option Z) (now : Z)
  : result (list Z * nat) :=
  match next with
  | None => Ok ([], k)
  | Some t =>
      if t <=? now then
        match fuel with
        | O => Err OutOfFuel
        | S fuel' =>
            match gn k (Some t) with
            | Err e => Err e
            | Ok n' => match grt fuel' gn (S k) n' now with
                       | Ok (l, k') => Ok (t :: l, k')
                       | Err e => Err e
                       end
            end
        end
      else Ok ([], k)
  end.
(** the trigger's answers during one scheduler operation at instant [now]; [o] gives the draws *)
Definition answers (fuel : nat) (o : oracle) (tr : trigger) (now : Z) (k : nat) (prev : option Z) : result (option Z) :=
  get_next fuel tr prev (sub o k) now.
Definition get_run_times (fuel : nat) (o : oracle) (k : nat) (t : task) (now : Z) : result (list Z * nat) :=
  grt fuel (answers fuel o (t_trigger t) now) k (t_next t) now.

(** schedulers/base.py:865-870 _coalesce_run_times: the run times to submit and how many of them
    were coalesced away ([run_times[-1:]] when coalescing) *)
Definition last_opt {A} (l : list A) : option A := match rev l with [] => None | x :: _ => Some x end.
Definition coalesce_run_times (coalesce : bool) (l : list Z) : list Z * nat :=
  if coalesce then
    match last_opt l with
    | Some x => ([x], List.length l - 1)%nat
    | None => (l, 0%nat)
    end
  else (l, 0%nat).

(** * update_task (tasks/base.py:76-197) *)

(** what the surrounding system provides: resolving a textual reference (utils.py ref_to_obj) and
    parsing a date string (utils.py:140-160) *)
Record tenv := MkEnv { resolve : string -> result callable; parse_date : string -> result Z }.

(** utils.py:114-171 to_datetime on an arbitrary value *)
Definition to_datetime (env : tenv) (v : pyval) : result (option Z) :=
  if negb (truthy v) then Ok None
  else match v with
       | VDate t => Ok (Some t)
       | VStr s => match parse_date env s with Ok t => Ok (Some t) | Err e => Err e end
       | _ => Err OtherError
       end.

(** the [approved] dictionary: [None] = key absent *)
Record approved := MkApproved {
  a_sched : option nat;
  a_fn : option (option callable * option string * pyval * pyval);
  a_name : option string; a_grace : option (option Z); a_coalesce : option bool;
  a_store : option string; a_max : option Z; a_trigger : option trigger;
  a_exec : option string; a_next : option (option Z) }.

(** lines 97-98: [isinstance(v, Iterable) and not str]; 99-100: [isinstance(v, Mapping)] *)
Definition arg_count (v : pyval) : option nat :=
  match v with VList l => Some (List.length l) | VDict d => Some (List.length d) | _ => None end.
Definition kwarg_names (v : pyval) : option (list string) :=
  match v with VDict d => Some (map fst d) | _ => None end.

(** lines 91-123: the callable/arguments block; answers the approved part and the rest of the
    updates (with [name] filled in) *)
Definition fn_block (env : tenv) (t : task) (fn : pyval) (ups : dict pyval)
  : result (option (option callable * option string * pyval * pyval) * dict pyval) :=
  if truthy fn || dmem "args" ups || dmem "kwargs" ups then
    let args := match dget "args" ups with Some v => v | None => t_args t end in
    let kwargs := match dget "kwargs" ups with Some v => v | None => t_kwargs t end in
    let ups := ddel "kwargs" (ddel "args" ups) in
    let fn := if truthy fn then fn else match t_fn t with Some c => VFn c | None => VNone end in
    let resolved : result (option callable * option string) :=
      match fn with
      | VNone => Ok (None, None)
      | VStr s => match resolve env s with Ok c => Ok (Some c, Some s) | Err e => Err e end
      | VFn c => Ok (Some c, c_ref c)
      | _ => Err TypeError
      end in
    match resolved with
    | Err e => Err e
    | Ok (c, ref) =>
        let ups := match c with
                   | Some c => if String.eqb (t_name t) ""
                                  && match dget "name" ups with None | Some VNone => true | _ => false end
                               then dset "name" (VStr (c_name c)) ups else ups
                   | None => ups
                   end in
        match arg_count args with
        | None => Err TypeError
        | Some n =>
            match kwarg_names kwargs with
            | None => Err TypeError
            | Some ks =>
                match c with
                | Some cc =>
                    match check_callable_args (c_sig cc) n ks with
                    | Err e => Err e
                    | Ok _ => Ok (Some (c, ref, args, kwargs), ups)
                    end
                | None => Ok (Some (c, ref, args, kwargs), ups)
                end
            end
        end
    end
  else Ok (None, ups).

(** lines 125-133 *)
Definition name_check (v : option pyval) : result (option string) :=
  match v with
  | None | Some VNone => Ok None
  | Some (VStr s) => if String.eqb s "" then Err TypeError else Ok (Some s)
  | Some _ => Err TypeError
  end.
(** lines 135-143; bool is an int in Python *)
Definition grace_check (v : option pyval) : result (option (option Z)) :=
  match v with
  | None => Ok None
  | Some VNone => Ok (Some None)
  | Some (VInt z) => if z <=? 0 then Err TypeError else Ok (Some (Some (z * us)))
  | Some (VFloat m) => if m <=? 0 then Err TypeError else Ok (Some (Some m))
  | Some (VBool b) => if b then Ok (Some (Some us)) else Err TypeError
  | Some _ => Err TypeError
  end.
(** lines 145-147 *)
Definition coalesce_check (v : option pyval) : result (option bool) :=
  match v with None => Ok None | Some w => Ok (Some (truthy w)) end.
(** lines 149-153, 169-173 *)
Definition str_check (v : option pyval) : result (option string) :=
  match v with None => Ok None | Some (VStr s) => Ok (Some s) | Some _ => Err TypeError end.
(** lines 155-159 *)
Definition max_check (v : option pyval) : result (option Z) :=
  match v with
  | None => Ok None
  | Some (VInt z) => if z <=? 0 then Err TypeError else Ok (Some z)
  | Some (VBool b) => if b then Ok (Some 1) else Err TypeError
  | Some _ => Err TypeError
  end.
(** lines 161-167 *)
Definition trigger_check (v : option pyval) : result (option trigger) :=
  match v with None => Ok None | Some (VTrigger tr) => Ok (Some tr) | Some _ => Err TypeError end.
(** lines 175-182 *)
Definition next_check (env : tenv) (sched : option nat) (v : option pyval) : result (option (option Z)) :=
  match v with
  | None => Ok None
  | Some w => match sched with
              | None => Err TypeError
              | Some _ => match to_datetime env w with Ok x => Ok (Some x) | Err e => Err e end
              end
  end.

Definition bind {A B} (r : result A) (f : A -> result B) : result B :=
  match r with Ok a => f a | Err e => Err e end.
Notation "'do' x <- r ; k" := (bind r (fun x => k)) (at level 200, x pattern, r at level 100, k at level 200).

Definition known_keys : list string :=
  ["name"; "mistrigger_grace_time"; "coalesce"; "store_alias"; "max_instances"; "trigger"; "executor"; "next_run_time"]%string.

(** lines 76-192: everything before the assignments *)
Definition validate (env : tenv) (t : task) (sched : option nat) (fn : pyval) (ups : dict pyval) : result approved :=
  do s <- (match sched with
           | Some s => match t_sched t with
                       | Some s' => if Nat.eqb s s' then Ok (Some s) else Err ValueError
                       | None => Ok (Some s)
                       end
           | None => Ok None
           end);
  let cur := match s with Some _ => s | None => t_sched t end in
  if dmem "id" ups then Err ValueError else
  do p <- fn_block env t fn ups;
  let '(af, ups) := p in
  do name <- name_check (dget "name" ups);
  do grace <- grace_check (dget "mistrigger_grace_time" ups);
  do coal <- coalesce_check (dget "coalesce" ups);
  do store <- str_check (dget "store_alias" ups);
  do mx <- max_check (dget "max_instances" ups);
  do tr <- trigger_check (dget "trigger" ups);
  do ex <- str_check (dget "executor" ups);
  do nx <- next_check env cur (dget "next_run_time" ups);
  if existsb (fun kv => negb (mem (fst kv) known_keys)) ups then Err AttributeError
  else Ok (MkApproved s af name grace coal store mx tr ex nx).

Definition dflt {A} (o : option A) (d : A) : A := match o with Some x => x | None => d end.

(** lines 194-195: setattr of every approved value *)
Definition apply_approved (a : approved) (t : task) : task :=
  MkTask (t_id t) (dflt (a_name a) (t_name t)) (dflt (a_trigger a) (t_trigger t)) (dflt (a_next a) (t_next t))
         (match a_exec a with Some e => Some e | None => t_exec t end)
         (match a_store a with Some e => Some e | None => t_store t end)
         (dflt (a_grace a) (t_grace t)) (dflt (a_coalesce a) (t_coalesce t)) (dflt (a_max a) (t_max t))
         (match a_fn a with Some (c, _, _, _) => c | None => t_fn t end)
         (match a_fn a with Some (_, r, _, _) => r | None => t_ref t end)
         (match a_fn a with Some (_, _, x, _) => x | None => t_args t end)
         (match a_fn a with Some (_, _, _, x) => x | None => t_kwargs t end)
         (match a_sched a with Some s => Some s | None => t_sched t end)
         (t_pending t) (t_submitted t).

(** tasks/base.py:76-197 *)
Definition update_task (env : tenv) (t : task) (sched : option nat) (fn : pyval) (ups : dict pyval) : task * result unit :=
  match validate env t sched fn ups with
  | Err e => (t, Err e)
  | Ok a => (apply_approved a t, Ok tt)
  end.
