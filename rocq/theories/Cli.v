(** Command-line options: asyncz/cli/_parsers.py, asyncz/cli/utils.py, asyncz/cli/types.py, on ASCII text.
    Not modelled: importing callables (utils.py:56-80), click itself, the output of the commands. *)
From Verif Require Import Prelude Text Cron CronParse Triggers Forms.
Open Scope Z_scope.

(** str.partition(c): the text before the first [c], and the text after it when there is one *)
Fixpoint partition (c : ascii) (s : string) : string * option string :=
  match s with
  | EmptyString => (EmptyString, None)
  | String a s' => if Ascii.eqb a c then (EmptyString, Some s') else let (u, v) := partition c s' in (String a u, v)
  end.

(** ** executors *)
(** utils.py:83-121 parse_executor: alias, type, worker count *)
Definition parse_executor (spec : string) : result (string * (string * option Z)) :=
  match partition "=" spec with
  | (_, None) => Err ValueError
  | (alias, Some rhs) =>
      let (typ, workers) := partition ":" rhs in
      let typ' := lower (strip typ) in
      match workers with
      | None | Some EmptyString => Ok (strip alias, (typ', None))
      | Some w => match py_int w with Some n => Ok (strip alias, (typ', Some n)) | None => Err ValueError end
      end
  end.
(** utils.py:186-197: the class of a type *)
Inductive exec_class := AsyncIOExecutor | ThreadPoolExecutor | ProcessPoolExecutor | DebugExecutor.
Definition class_of (etype : string) : option exec_class :=
  if String.eqb etype "asyncio" then Some AsyncIOExecutor
  else if existsb (String.eqb etype) ["thread"; "threads"; "pool"]%string then Some ThreadPoolExecutor
  else if existsb (String.eqb etype) ["process"; "proc"; "processpool"]%string then Some ProcessPoolExecutor
  else if String.eqb etype "debug" then Some DebugExecutor else None.
(** utils.py:180-199 build_executors_map *)
Fixpoint build_executors_from (out : dict (exec_class * option Z)) (specs : list string) : result (dict (exec_class * option Z)) :=
  match specs with
  | [] => Ok out
  | spec :: rest =>
      match parse_executor spec with
      | Err e => Err e
      | Ok (alias, (etype, workers)) => match class_of etype with Some c => build_executors_from (dset alias (c, workers) out) rest | None => Err ValueError end
      end
  end.
Definition build_executors_map (specs : list string) := build_executors_from [] specs.

(** ** stores *)
Inductive store_cfg := CfgMemory | CfgSql (database : string).
(** _parsers.py:5-11 *)
Definition store_alias (kind : string) : option string :=
  if existsb (String.eqb kind) ["durable"; "sql"; "sqlite"; "sqlalchemy"]%string then Some "sqlalchemy"%string
  else if String.eqb kind "memory" then Some "memory"%string else None.
(** _parsers.py:14-50 parse_store_option (click.BadParameter is written ValueError): configuration and alias hint *)
Definition parse_store_option (spec : string) : result (store_cfg * option string) :=
  if String.eqb spec "" then Ok (CfgMemory, None)
  else
    let '(kind, value, hint) := match partition "=" spec with
      | (k, Some v) => (lower (strip k), Some (strip v), Some (lower (strip k)))
      | (_, None) => (lower (strip spec), None, None) end in
    match store_alias kind with
    | Some "sqlalchemy"%string => match value with Some (String a v) => Ok (CfgSql (String a v), hint) | _ => Err ValueError end
    | Some "memory"%string => Ok (CfgMemory, hint)
    | _ => Err ValueError
    end.
Definition plugin_of (c : store_cfg) : string := match c with CfgMemory => "memory" | CfgSql _ => "sqlalchemy" end.
(** utils.py:217-244 build_stores_map *)
Fixpoint build_stores_from (first : bool) (out : dict store_cfg) (specs : list string) : result (dict store_cfg) :=
  match specs with
  | [] => Ok out
  | spec :: rest =>
      match parse_store_option spec with
      | Err e => Err e
      | Ok (cfg, hint) =>
          let dflt := if first then "default"%string else plugin_of cfg in
          let alias := match hint with Some (String a h) => String a h | _ => dflt end in
          build_stores_from false (dset alias cfg out) rest
      end
  end.
Definition build_stores_map (specs : list string) : result (dict store_cfg) :=
  match specs with [] => Ok [("default"%string, CfgMemory)] | _ => build_stores_from true [] specs end.

(** ** triggers *)
(** types.py:11-40 parse_interval: the number of seconds.  (The code returns it as a float; it is exact up to
    2^53, and the trigger refuses more than 86399999999999 seconds: the rounding beyond that is not modelled.) *)
Definition unit_mult (a : ascii) : option Z :=
  let u := lower_ascii a in if Ascii.eqb u "s" then Some 1 else if Ascii.eqb u "m" then Some 60 else if Ascii.eqb u "h" then Some 3600 else None.
Definition parse_interval (text : string) : result Z :=
  let (d, r) := span is_digit (strip text) in
  let (_, u) := span is_space r in
  match d, u with
  | String _ _, String a EmptyString => match unit_mult a, py_int d with Some m, Some n => Ok (n * m) | _, _ => Err ValueError end
  | _, _ => Err ValueError
  end.
(** types.py:43-82 parse_trigger *)
Definition given (o : option string) : bool := match o with Some (String _ _) => true | _ => false end.
Definition cli_trigger {D} (fromiso : string -> option D) (cron interval at_ : option string) : result (form_trigger D) :=
  if negb (Nat.eqb (List.length (filter given [cron; interval; at_])) 1) then Err ValueError
  else match cron with
  | Some (String a c) => match from_crontab (String a c) with Ok t => Ok (GCron t) | Err e => Err e end
  | _ => match interval with
    | Some (String a i) => match parse_interval (String a i) with Ok n => Ok (GInterval (interval_of 0 0 0 0 n)) | Err e => Err e end
    | _ => match at_ with Some t => match fromiso t with Some d => Ok (GDate d) | None => Err ValueError end | None => Err TypeError end
    end
  end.

(** ** --watch *)
(** utils.py:291-314 changed: [stat path] is the modification time, None when the file is missing *)
Fixpoint changed {M} (eqb : M -> M -> bool) (stat : string -> option M) (targets : list (string * M)) : bool * list (string * M) :=
  match targets with
  | [] => (false, [])
  | (p, m) :: rest =>
      let (c, rest') := changed eqb stat rest in
      match stat p with
      | None => (true, (p, m) :: rest')
      | Some m' => if eqb m m' then (c, (p, m) :: rest') else (true, (p, m') :: rest')
      end
  end.
