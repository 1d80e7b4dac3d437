(** Inspection of tasks: asyncz/tasks/types.py:46-63, 137-182 and schedulers/base.py:922-1025, 1085-1135. *)
From Verif Require Import Prelude MemStore CallArgs Cron Triggers Task Scheduler Text SortList.
Open Scope Z_scope.

(** asyncz/enums.py TaskScheduleState values *)
Definition state_text (x : schedule_state) : string :=
  match x with PENDING => "pending" | PAUSED_T => "paused" | SCHEDULED => "scheduled" end%string.
Definition parse_state (s : string) : option schedule_state :=
  if String.eqb s "pending" then Some PENDING else if String.eqb s "paused" then Some PAUSED_T else if String.eqb s "scheduled" then Some SCHEDULED else None.
Definition state_eqb (a b : schedule_state) : bool :=
  match a, b with PENDING, PENDING | PAUSED_T, PAUSED_T | SCHEDULED, SCHEDULED => true | _, _ => false end.

(** triggers: [alias] and class name *)
Definition trigger_alias (tr : trigger) : string :=
  match tr with TDate _ => "date" | TInterval _ _ _ _ => "interval" | TCron _ _ _ _ _ => "cron" | TAnd _ _ => "and" | TOr _ _ => "or" | TShutdown => "shutdown" end%string.
Definition trigger_name (tr : trigger) : string :=
  match tr with TDate _ => "DateTrigger" | TInterval _ _ _ _ => "IntervalTrigger" | TCron _ _ _ _ _ => "CronTrigger" | TAnd _ _ => "AndTrigger" | TOr _ _ => "OrTrigger" | TShutdown => "ShutdownTrigger" end%string.

(** tasks/inspection.py TaskInfo, the fields that listings look at; [None or ""] is "" *)
Record info := MkInfo {
  i_id : string; i_name : string; i_callable : string; i_ref : string; i_alias : string; i_trigger : string; i_descr : string;
  i_exec : string; i_store : string; i_state : schedule_state; i_next : option Z; i_submitted : bool }.
Definition or_empty (o : option string) : string := match o with Some s => s | None => ""%string end.

(** tasks/types.py:137-182 snapshot; [descr] is str(trigger).  A callable without a name falls back to
    the part of the reference after the last colon. *)
Definition snapshot (descr : trigger -> string) (t : task) : info :=
  MkInfo (t_id t) (t_name t)
    (match t_fn t with Some c => c_name c | None => match t_ref t with Some r => last (split_on ":" r) ""%string | None => ""%string end end)
    (or_empty (t_ref t)) (trigger_alias (t_trigger t)) (trigger_name (t_trigger t)) (descr (t_trigger t))
    (or_empty (t_exec t)) (or_empty (t_store t)) (state_of t) (t_next t) (t_submitted t).

Record query := MkQuery {
  q_store : option string; q_state : option string; q_exec : option string; q_trigger : option string; q_text : option string;
  q_sort : string; q_desc : bool }.

(** [if executor:] etc.: absent and empty mean no filter *)
Definition given (o : option string) : option string := match o with Some s => if String.eqb s "" then None else Some s | None => None end.

(** base.py:960-996, the filters *)
Definition keep_state (x : option schedule_state) (i : info) : bool := match x with Some x => state_eqb (i_state i) x | None => true end.
Definition keep_exec (o : option string) (i : info) : bool := match given o with Some e => String.eqb (i_exec i) e | None => true end.
Definition keep_trigger (o : option string) (i : info) : bool :=
  match given o with Some t => let v := lower (strip t) in String.eqb (lower (i_alias i)) v || String.eqb (lower (i_trigger i)) v | None => true end.
Definition keep_text (o : option string) (i : info) : bool :=
  match given o with
  | Some q => let n := lower (strip q) in
      contains n (lower (i_id i)) || contains n (lower (i_name i)) || contains n (lower (i_callable i)) || contains n (lower (i_ref i))
      || contains n (lower (i_alias i)) || contains n (lower (i_trigger i)) || contains n (lower (i_descr i)) || contains n (lower (i_exec i))
      || contains n (lower (i_store i)) || contains n (state_text (i_state i))
  | None => true end.

(** base.py:998-1022, the sort keys: tuples, compared as Python does *)
Inductive kitem := KBool (b : bool) | KTime (t : Z) | KText (s : string).
Definition kcompare (a b : kitem) : comparison :=
  match a, b with
  | KBool x, KBool y => match x, y with false, true => Lt | true, false => Gt | _, _ => Eq end
  | KTime x, KTime y => Z.compare x y
  | KText x, KText y => String.compare x y
  | KBool _, _ => Lt | _, KBool _ => Gt | KTime _, _ => Lt | _, KTime _ => Gt   (* never compared: TypeError in Python *)
  end.
Fixpoint tuple_le (a b : list kitem) : bool :=
  match a, b with
  | x :: a', y :: b' => match kcompare x y with Lt => true | Eq => tuple_le a' b' | Gt => false end
  | [], _ => true
  | _ :: _, [] => false
  end.
(** datetime.max *)
Definition datetime_max : Z := 253402300799999999.
Definition run_key (i : info) : list kitem :=
  [KBool (match i_next i with None => true | Some _ => false end); KTime (match i_next i with Some t => t | None => datetime_max end)].
Definition sorter (by_ : string) : option (info -> list kitem) :=
  let lid := fun i => KText (lower (i_id i)) in
  if String.eqb by_ "id" then Some (fun i => [lid i])
  else if String.eqb by_ "name" then Some (fun i => [KText (lower (i_name i)); lid i])
  else if String.eqb by_ "next_run_time" then Some (fun i => run_key i ++ [KText (lower (i_name i)); lid i])
  else if String.eqb by_ "schedule_state" then Some (fun i => KText (state_text (i_state i)) :: run_key i ++ [lid i])
  else if String.eqb by_ "executor" then Some (fun i => [KText (lower (i_exec i)); lid i])
  else if String.eqb by_ "store" then Some (fun i => [KText (lower (i_store i)); lid i])
  else if String.eqb by_ "trigger" then Some (fun i => [KText (lower (if String.eqb (i_alias i) "" then i_trigger i else i_alias i)); lid i])
  else None.

(** base.py:922-1025 get_task_infos.  sorted(reverse=True) keeps the order of equal elements. *)
Definition get_task_infos (descr : trigger -> string) (q : query) (s : sched) : result (list info) :=
  match match q_state q with None => Ok None | Some x => match parse_state (lower (strip x)) with Some y => Ok (Some y) | None => Err ValueError end end with
  | Err e => Err e
  | Ok x =>
      let infos := map (snapshot descr) (get_tasks (q_store q) s) in
      let infos := filter (keep_state x) infos in
      let infos := filter (keep_exec (q_exec q)) infos in
      let infos := filter (keep_trigger (q_trigger q)) infos in
      let infos := filter (keep_text (q_text q)) infos in
      match sorter (q_sort q) with
      | None => Err ValueError
      | Some key => Ok (isort (fun a b => if q_desc q then tuple_le (key b) (key a) else tuple_le (key a) (key b)) infos)
      end
  end.

(** base.py:1085-1135 get_scheduler_info, the counts and aliases (times and settings not modelled) *)
Record sinfo := MkSinfo { n_tasks : nat; n_scheduled : nat; n_paused : nat; n_pending : nat; n_submitted : nat; executor_aliases : list string; store_aliases : list string }.
Definition str_leb (a b : string) : bool := negb (str_ltb b a).
Definition get_scheduler_info (descr : trigger -> string) (s : sched) : result sinfo :=
  match get_task_infos descr (MkQuery None None None None None "next_run_time" false) s with
  | Err e => Err e
  | Ok l => let n p := List.length (filter p l) in
      Ok (MkSinfo (List.length l) (n (fun i => state_eqb (i_state i) SCHEDULED)) (n (fun i => state_eqb (i_state i) PAUSED_T)) (n (fun i => state_eqb (i_state i) PENDING))
                  (n i_submitted) (isort str_leb (dkeys (execs s))) (isort str_leb (dkeys (stores s))))
  end.
