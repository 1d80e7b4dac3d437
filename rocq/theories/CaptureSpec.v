(** What being captured means, for C84-C86. *)
From Verif Require Import Prelude Text Dash DashSpec FormsSpec History Capture.
Open Scope Z_scope.

(** names: "a.b" lies under "a" *)
Definition under (name n : string) : Prop := n <> ""%string /\ exists r, name = (n ++ "." ++ r)%string.
Definition in_asyncz (name : string) : Prop := name = "asyncz"%string \/ under name "asyncz".
(** the level that applies to a logger: its own if set, else that of the nearest logger above which has
    one, else that of the root logger *)
Definition applies (level : string -> Z) (name : string) (v : Z) : Prop :=
  exists a, (a = name \/ under name a \/ a = ""%string) /\ level a = v /\ (v <> 0 \/ a = ""%string) /\
    forall b, b <> ""%string -> (b = name \/ under name b) -> (String.length a < String.length b)%nat -> level b = 0.
(** nothing between the logger and "asyncz" stops its records *)
Definition passes_up (prop : string -> bool) (name : string) : Prop := forall n, (n = name \/ under name n) -> under n "asyncz" -> prop n = true.

(** the dictionary a call passes, and what a record made by it carries *)
Definition given_dict (s : lproc) (c : lcall) (d : dict lval) : Prop :=
  match c_extra c with Some i => nth_error (lp_dicts s) i = Some d | None => d = [] end.
Definition carries (d : dict lval) (adapter : option string) (extra : dict lval) : Prop :=
  forall k, dget k extra = match dget k d, adapter with
                           | Some v, _ => Some v
                           | None, Some t => if String.eqb k "task_id" then Some (LText t) else None
                           | None, None => None
                           end.
(** names logging itself uses *)
Definition reserved (k : string) : Prop :=
  In k ["message"; "asctime"; "name"; "msg"; "args"; "levelname"; "levelno"; "pathname"; "filename"; "module"; "exc_info"; "exc_text"; "stack_info";
        "lineno"; "funcName"; "created"; "msecs"; "relativeCreated"; "thread"; "threadName"; "processName"; "process"; "taskName"]%string.
(** the task a record is filed under: the first of these that says something *)
Definition says (extra : dict lval) (k t : string) : Prop := (dget k extra = Some (LText t) /\ t <> ""%string) \/ dget k extra = Some (LThing true t).
Definition silent (extra : dict lval) (k : string) : Prop := forall t, ~ says extra k t.
Inductive filed (extra : dict lval) : option string -> Prop :=
| f_task t : says extra "task_id" t -> filed extra (Some t)
| f_job t : silent extra "task_id" -> says extra "job_id" t -> filed extra (Some t)
| f_asyncz t : silent extra "task_id" -> silent extra "job_id" -> says extra "asyncz_task_id" t -> filed extra (Some t)
| f_none : silent extra "task_id" -> silent extra "job_id" -> silent extra "asyncz_task_id" -> filed extra None.
(** the run it belongs to; a record with other data but no [run_id] is filed under "None" *)
Definition hidden (k : string) : Prop := exists r, k = ("_" ++ r)%string.
Inductive of_run (extra : dict lval) : option string -> Prop :=
| r_some v : dget "run_id" extra = Some v -> of_run extra (Some (match v with LNone => "None" | LText s => s | LThing _ t => t end)%string)
| r_other k v : dget "run_id" extra = None -> dget k extra = Some v -> ~ hidden k -> of_run extra (Some "None"%string)
| r_none : (forall k v, dget k extra = Some v -> hidden k) -> of_run extra None.

(** a call leaves entry [e] in storage [i] *)
Definition captured (s : lproc) (c : lcall) (i : nat) (e : log_entry) : Prop :=
  (exists least, lp_handler s = Some (i, least) /\ least <= c_level c) /\
  lp_off s (c_logger c) = false /\ lp_disable s < c_level c /\ (exists v, applies (lp_level s) (c_logger c) v /\ v <= c_level c) /\
  in_asyncz (c_logger c) /\ passes_up (lp_prop s) (c_logger c) /\
  exists d extra, given_dict s c d /\ carries d (c_adapter c) extra /\ (forall k v, dget k extra = Some v -> ~ reserved k) /\
    c_text c = Some (l_message e) /\ l_ts e = c_ts c /\ l_level e = c_levelname c /\ l_logger e = c_logger c /\ filed extra (l_task e) /\ of_run extra (l_run e).
(** the entries left in storage [i] by a history *)
Inductive told (i : nat) : lproc -> list lop -> list log_entry -> Prop :=
| t_nil s : told i s [] []
| t_in s c e ops l : captured s c i e -> told i (lstep s (OLog c)) ops l -> told i s (OLog c :: ops) (e :: l)
| t_out s o ops l : (forall c e, o = OLog c -> ~ captured s c i e) -> told i (lstep s o) ops l -> told i s (o :: ops) l.

(** calls, mounts and installations name things that exist *)
Fixpoint sound_ops (dicts storages : nat) (ops : list lop) : Prop :=
  match ops with
  | [] => True
  | OMount (Some i) :: ops' | OInstall i _ :: ops' => (i < storages)%nat /\ sound_ops dicts storages ops'
  | OLog c :: ops' => match c_extra c with Some i => (i < dicts)%nat | None => True end /\ sound_ops dicts storages ops'
  | ODict d :: ops' => sound_ops (S dicts) storages ops'
  | _ :: ops' => sound_ops dicts storages ops'
  end.
(** histories in which the host leaves the settings of logging alone *)
Definition leaves_logging_alone (o : lop) : Prop := match o with OMount _ | OLog _ | ODict _ | OChange _ _ => True | _ => False end.

(** ** the page *)
Record wanted (p : log_params) (e : log_entry) : Prop := {
  w_task : forall s, p_task p = Some s -> strip s <> ""%string -> l_task e = Some (strip s);
  w_run : forall s, p_run p = Some s -> strip s <> ""%string -> l_run e = Some (strip s);
  w_level : forall s, p_level p = Some s -> strip s <> ""%string -> lower (l_level e) = lower (strip s);
  w_text : forall s, p_q p = Some s -> found s (l_message e) }.
Definition says_int (o : option string) (n : Z) : Prop := exists s, o = Some s /\ int_text s n.
Inductive asked : option string -> Z -> Prop :=
| as_number o n : says_int o n -> asked o (Z.max 1 (Z.min n 1000))
| as_default o : (forall n, ~ says_int o n) -> asked o 200.

(** ** the logs of a run *)
(** [r] arises from [l] by leaving elements out *)
Inductive thinned {A} : list A -> list A -> Prop :=
| th_nil : thinned [] []
| th_keep x l r : thinned l r -> thinned (x :: l) (x :: r)
| th_drop x l r : thinned l r -> thinned (x :: l) r.
(** the same line of text *)
Definition same_line (a b : log_entry) : Prop := l_ts a = l_ts b /\ l_level a = l_level b /\ l_logger a = l_logger b /\ l_message a = l_message b.
Definition first_time (l : list (option Z)) (otherwise : Z) : Z := fold_right (fun o t => match o with Some x => x | None => t end) otherwise l.
Definition run_task_id (r : run_record) : string := fst (fst (h_key r)).
(** an entry of the run itself; an entry of its task (of any task, if the id is empty) during the run, give or take 5 s *)
Definition of_the_run (r : run_record) (e : log_entry) : Prop := l_run e = Some (h_id r).
Definition around_the_run (r : run_record) (e : log_entry) : Prop :=
  (run_task_id r <> ""%string -> l_task e = Some (run_task_id r)) /\
  first_time [h_submitted r; h_finished r] (h_created r) - 5 * 1000000 <= l_ts e <= first_time [h_finished r] (h_updated r) + 5 * 1000000.
