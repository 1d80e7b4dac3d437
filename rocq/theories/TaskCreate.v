(** Creating a task from text: the dashboard's create form (asyncz/contrib/dashboard/controllers/tasks.py:390-463).
    A form is its fields with their text.  Parameters: [loads] is json.loads, [fromiso] datetime.fromisoformat,
    [imported] import_callable (cli/utils.py:56-80; with a remote scheduler the path itself), [pairs] dict() of a list.
    The clock is read once ([e_now]); the zone of the scheduler has a constant offset; sizes that overflow a timedelta
    are not modelled.  A path that names a Task object is not modelled. *)
From Verif Require Import Prelude Text Cron CronParse Triggers TrigZone Forms CallArgs Task Scheduler AddTask TaskPages.
Open Scope Z_scope.

(** tuple(x) and dict(x) of what JSON gives, and of None: schedulers/base.py:611-612 *)
Fixpoint chars (s : string) : list pyval := match s with EmptyString => [] | String a s' => VStr (String a EmptyString) :: chars s' end.
Definition tuple_of (v : pyval) : result (list pyval) :=
  match v with
  | VNone => Ok []
  | VList l => Ok l
  | VStr s => Ok (chars s)
  | VDict d => Ok (map (fun kv => VStr (fst kv)) d)
  | _ => Err TypeError
  end.
Definition dict_of (pairs : list pyval -> result (dict pyval)) (v : pyval) : result (dict pyval) :=
  match v with
  | VNone => Ok []
  | VDict d => Ok d
  | VList l => pairs l
  | VStr EmptyString => Ok []
  | VStr _ => Err ValueError
  | _ => Err TypeError
  end.
(** base.py:1529-1546 create_trigger of an alias, with the scheduler's zone ([zone]: seconds east of UTC), then
    interval.py:29-64, cron/trigger.py:60-115, date.py:22-33 *)
Definition form_trigger_of (zone now : Z) (f : trigger_form stamp) : result Triggers.trigger :=
  match f with
  | FInterval unit n =>
      let iv := interval_of 0 0 (if String.eqb unit "hours" then n else 0) (if String.eqb unit "minutes" then n else 0) (if String.eqb unit "seconds" then n else 0) in
      Ok (interval_trigger 0 now iv zone (Some zone) None None)
  | FCron mi h d mo dw => match cron_new [(6, mi); (5, h); (2, d); (1, mo); (4, dw)] with Ok tb => Ok (cron_trigger tb zone (Some zone) None None) | Err e => Err e end
  | FDate d => Ok (TDate (read_stamp (Some zone) zone d))
  end.
(** [(form.get(k) or d).strip()] *)
Definition form_or (form : dict string) (k d : string) : string := match dget k form with Some (String a v) => strip (String a v) | _ => strip d end.
(** controllers/tasks.py:390-463 *)
Definition create_post (loads : string -> result pyval) (pairs : list pyval -> result (dict pyval)) (fromiso : string -> option stamp) (imported : string -> result pyval)
  (c : config) (zone : Z) (d : defaults) (e : envir) (fresh : string) (form : dict string) (s : sched) : sched * list entry * option exn :=
  let path := form_or form "callable_path" "" in
  let store := or_text (form_or form "store" "default") "default" in
  let name := match dget "name" form with Some (String a v) => Some (String a v) | _ => None end in
  match (if String.eqb (form_or form "args" "") "" then Ok (VList []) else loads (form_or form "args" "")) with
  | Err x => (s, [], Some x)
  | Ok args =>
      match (if String.eqb (form_or form "kwargs" "") "" then Ok (VDict []) else loads (form_or form "kwargs" "")) with
      | Err x => (s, [], Some x)
      | Ok kwargs =>
          match imported path, parse_trigger_config fromiso (Some (form_or form "trigger_type" "interval")) (Some (form_or form "trigger_value" "10s")) with
          | Ok fn, Ok tf =>
              match form_trigger_of zone (e_now e) tf with
              | Err x => (s, [], Some x)
              | Ok tr =>
                  match tuple_of args with
                  | Err x => (s, [], Some x)
                  | Ok a =>
                      match dict_of pairs kwargs with
                      | Err x => (s, [], Some x)
                      | Ok k =>
                          let (s', r) := add_function c d e (MkArgs tr false (Some a) (Some k) None name None None None None (Some store) None false) fresh fn s in
                          match r with
                          | Err x => (s', [], Some x)
                          | Ok (Added t) => (s', [succeeded "create" (t_id t)], None)
                          | Ok (Decorator p) => (s', [MkEntry "task.create" (p_id p) "succeeded"], None)
                          end
                      end
                  end
              end
          | _, _ => (s, [MkEntry "task.create" (if String.eqb path "" then None else Some path) "failed"], None)
          end
      end
  end.
