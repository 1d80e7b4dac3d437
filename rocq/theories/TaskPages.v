(** The dashboard's task pages: asyncz/contrib/dashboard/controllers/tasks.py.
    A request is what the controllers read of it: the task id of the path and the form, field names with their
    text (bytes are decoded).  A page is what it shows as far as it matters here; HTML is not modelled.  The audit
    trail is the list of entries recorded (time, message text and details apart; the trail itself is C44).
    json.loads, json.dumps, float and == of argument values are parameters. *)
From Verif Require Import Prelude Text CronParse Forms Remote CallArgs Cron Triggers Task Scheduler AddTask CliTask.
Open Scope Z_scope.

(** audit.py record_audit_event, 201-216 _audit_task_action *)
Record entry := MkEntry { a_action : string; a_target : option string; a_status : string }.
Definition succeeded (act id : string) : entry := MkEntry ("task." ++ act) (Some id) "succeeded".
Definition failed (act id : string) : entry := MkEntry ("task." ++ act) (Some id) "failed".
Definition warned (act id : string) : entry := MkEntry ("task." ++ act) (Some id) "warning".

(** ** buttons: 263-326 (links), 684-775 (HTMX), 556-681 (bulk) *)
Inductive button := BRun | BPause | BResume | BRemove.
Definition action_name (b : button) : string := match b with BRun => "run" | BPause => "pause" | BResume => "resume" | BRemove => "remove" end.
(** the call made: run_task(id, remove_finished=False), pause_task(id), resume_task(id), delete_task(id) *)
Definition forget {A} (x : sched * result A) : sched * result unit := (fst x, match snd x with Ok _ => Ok tt | Err e => Err e end).
Definition made (c : config) (e : envir) (b : button) (id : string) (s : sched) : sched * result unit :=
  match b with
  | BRun => forget (run_task c e id None true false s)
  | BPause => forget (pause_task c id None s)
  | BResume => forget (resume_task c e id None s)
  | BRemove => delete_task id None s
  end.
(** one press: the state, the audit entries, and the exception that escaped (the server's error page) if any *)
Definition press (c : config) (e : envir) (b : button) (id : string) (s : sched) : sched * list entry * option exn :=
  let (s', r) := made c e b id s in
  match r with
  | Ok _ => (s', [succeeded (action_name b) id], None)
  | Err TaskLookupError => (s', [failed (action_name b) id], None)
  | Err MaximumInstancesError => match b with BRun => (s', [warned "run" id], None) | _ => (s', [], Some MaximumInstancesError) end
  | Err x => (s', [], Some x)
  end.
(** the bulk pages: one press for each id of the form (each with its own reading of the clock) *)
Fixpoint bulk (c : config) (b : button) (l : list (string * envir)) (s : sched) : sched * list entry * option exn :=
  match l with
  | [] => (s, [], None)
  | (id, e) :: l' =>
      match press c e b id s with
      | (s1, es, Some x) => (s1, es, Some x)
      | (s1, es, None) => let '(s2, es2, x) := bulk c b l' s1 in (s2, es ++ es2, x)
      end
  end.

(** ** the edit page *)
Section Edit.
  Variable loads : string -> result pyval.     (* json.loads *)
  Variable dumps : pyval -> result string.     (* json.dumps(value, indent=2, sort_keys=True) *)
  Variable seconds : string -> option Z.       (* float(text), in microseconds *)
  Variable show_seconds : Z -> string.         (* str of a grace time *)
  Variable same : pyval -> pyval -> bool.      (* == *)

  (** 33-37 _string_form_value, then strip *)
  Definition posted (form : dict string) (k : string) : string := strip (match dget k form with Some v => v | None => EmptyString end).
  (** 144-198, field by field: refused, given, or left alone *)
  Definition name_part (form : dict string) (t : task) : result (option pyval) :=
    if negb (String.eqb (posted form "name") "") then Ok (Some (VStr (posted form "name")))
    else if negb (String.eqb (t_name t) "") && dmem "name" form then Err ValueError else Ok None.
  Definition callable_part (form : dict string) (t : task) : result (option pyval) :=
    if negb (String.eqb (posted form "callable_path") "") then Ok (Some (VStr (posted form "callable_path")))
    else match t_ref t with Some (String _ _) => Err ValueError | _ => Ok None end.
  Definition executor_part (form : dict string) : result (option pyval) :=
    if negb (String.eqb (posted form "executor") "") then Ok (Some (VStr (posted form "executor"))) else Err ValueError.
  (** 117-128 *)
  Definition or_text (s d : string) : string := if String.eqb s "" then d else s.
  Definition args_part (form : dict string) : result (option pyval) :=
    match loads (or_text (posted form "args") "[]") with Ok (VList l) => Ok (Some (VList l)) | _ => Err ValueError end.
  Definition kwargs_part (form : dict string) : result (option pyval) :=
    match loads (or_text (posted form "kwargs") "{}") with Ok (VDict d) => Ok (Some (VDict d)) | _ => Err ValueError end.
  (** 108-114 (the same words as the CLI's) *)
  Definition coalesce_part (form : dict string) : result (option pyval) :=
    match parse_coalesce (Some (lower (posted form "coalesce"))) with Ok (Some b) => Ok (Some (VBool b)) | _ => Err ValueError end.
  (** 131-135 *)
  Definition max_part (form : dict string) : result (option pyval) :=
    match py_int (posted form "max_instances") with Some n => if n <=? 0 then Err ValueError else Ok (Some (VInt n)) | None => Err ValueError end.
  (** 138-144, 190-196; int(parsed) if parsed.is_integer() *)
  Definition grace_part (form : dict string) : result (option pyval) :=
    if dmem "clear_mistrigger_grace_time" form then Ok (Some VNone)
    else if String.eqb (posted form "mistrigger_grace_time") "" then Ok (Some VNone)
    else match seconds (posted form "mistrigger_grace_time") with
         | None => Err ValueError
         | Some m => if m <=? 0 then Err ValueError else Ok (Some (if m mod us =? 0 then VInt (m / us) else VFloat m))
         end.
  Definition errors_of (l : list (string * result (option pyval))) : list string := flat_map (fun kr => match snd kr with Err _ => [fst kr] | Ok _ => [] end) l.
  Definition value_of (r : result (option pyval)) : option pyval := match r with Ok o => o | Err _ => None end.
  Definition edit_errors (form : dict string) (t : task) : list string :=
    errors_of [("name", name_part form t); ("callable_path", callable_part form t); ("executor", executor_part form); ("args", args_part form); ("kwargs", kwargs_part form);
               ("coalesce", coalesce_part form); ("max_instances", max_part form); ("mistrigger_grace_time", grace_part form)]%string.
  Definition edit_fn (form : dict string) (t : task) : pyval := match value_of (callable_part form t) with Some v => v | None => VNone end.
  Definition edit_updates (form : dict string) (t : task) : dict pyval :=
    present [("name", value_of (name_part form t)); ("executor", value_of (executor_part form)); ("args", value_of (args_part form)); ("kwargs", value_of (kwargs_part form));
             ("coalesce", value_of (coalesce_part form)); ("max_instances", value_of (max_part form)); ("mistrigger_grace_time", value_of (grace_part form))]%string.

  (** what the page shows *)
  Record shown := MkShown { p_status : Z; p_diff : list (string * (pyval * pyval)); p_errors : list string; p_applied : bool }.
  Inductive page := Page (p : shown) | NotFound | Escaped (x : exn).
  (** 66-74 _diff_rows dumps every value of the difference *)
  Definition dumpable (v : pyval) : bool := is_ok (dumps v).
  Definition render (p : shown) : page := if forallb (fun d => dumpable (fst (snd d)) && dumpable (snd (snd d))) (p_diff p) then Page p else Escaped TypeError.
  (** 77-90 _task_edit_form_from_task, as the browser sends it back: the box is sent only when ticked *)
  Definition edit_form (t : task) : result (dict string) :=
    match dumps (elements (t_args t)), dumps (t_kwargs t) with
    | Ok a, Ok k =>
        Ok (([("name", t_name t); ("callable_path", match t_ref t with Some r => r | None => "" end); ("args", a); ("kwargs", k);
             ("executor", match t_exec t with Some x => or_text x "default" | None => "default" end); ("coalesce", if t_coalesce t then "true" else "false");
             ("max_instances", show_int (t_max t)); ("mistrigger_grace_time", match t_grace t with Some g => show_seconds g | None => "" end)]%string
            ++ match t_grace t with Some _ => [] | None => [("clear_mistrigger_grace_time", "1")]%string end)%list)
    | _, _ => Err TypeError
    end.
  (** 478-485 get *)
  Definition edit_get (id : string) (s : sched) : result (option (dict string)) :=
    match lookup_task id None s with
    | Err _ => Ok None
    | Ok (t, _) => match edit_form t with Ok f => Ok (Some f) | Err e => Err e end
    end.
  (** 487-553 post *)
  Definition edit_post (c : config) (form : dict string) (id : string) (s : sched) : sched * list entry * page :=
    match lookup_task id None s with
    | Err _ => (s, [failed "update" id], NotFound)
    | Ok (t, where_) =>
        let intent := lower (strip (match dget "intent" form with Some v => v | None => "preview"%string end)) in
        let fn := edit_fn form t in
        let ups := edit_updates form t in
        let '(diff, errors) :=
          match edit_errors form t with
          | [] => match update_task (c_tenv c) t (Some (c_self c)) fn ups with
                  | (_, Err _) => ([], ["update"%string])
                  | (t', Ok _) => (build_diff same (snapshot t) (snapshot t'), [])
                  end
          | l => ([], l)
          end in
        match errors with
        | _ :: _ => (s, [failed "update" id], render (MkShown 400 diff errors false))
        | [] =>
            if negb (String.eqb intent "apply") || negb (nonempty diff) then (s, [], render (MkShown 200 diff [] false))
            else let (s', r) := update c id where_ fn ups s in
                 match r with
                 | Err x => (s', [], Escaped x)
                 | Ok t' => (s', [succeeded "update" id], match edit_form t' with Ok _ => render (MkShown 200 diff [] true) | Err x => Escaped x end)
                 end
        end
    end.
End Edit.
