(** The options of a scheduler that are neither executors nor stores: asyncz/schedulers/base.py:1244-1284 (_setup up to the
    executors), schedulers/datastructures.py:6-48 (TaskDefaultStruct), utils.py:78-96 (time zones).
    base.py:133-174 setup reads [config] from the caller's dictionaries (Config.v); here it is the resulting dictionary.
    Environment ([lang]): what float() and int() make of a text, what str() makes of other values, which zone names exist.
    Simplifications: seconds are whole microseconds; task_defaults is a dictionary (which Shapes leave as it is, C60) or
    something that is no mapping; loggers_class is not given; a Shape instance stands for its class, as in Shapes.v. *)
From Verif Require Import Prelude Text CallArgs Cron Triggers Task AddTask Shapes.
Open Scope Z_scope.

(** [OObj n]: any other object; true, and neither text, number, zone nor Shape *)
Inductive oval :=
| ONone | OBool (b : bool) | OInt (n : Z) | OFloat (m : Z) | OText (s : string) | OZone (z : nat) | OClass (c : shape_class) | OInst (c : shape_class)
| OMap (d : list (string * oval)) | OObj (n : nat).
Record lang := MkLang { text_seconds : string -> option Z; text_integer : string -> option Z; shown : oval -> string; zone_named : string -> option nat; local_zone : nat }.

Definition oconf := dict oval.
Definition otruthy (v : oval) : bool :=
  match v with ONone => false | OBool b => b | OInt n => negb (n =? 0) | OFloat m => negb (m =? 0) | OText s => negb (String.eqb s "") | OMap [] => false | _ => true end.
(** str(v) *)
Definition as_text (l : lang) (v : oval) : string := match v with OText s => s | _ => shown l v end.
(** float(v) *)
Definition as_seconds (l : lang) (v : oval) : result Z :=
  match v with
  | OBool b => Ok (if b then us else 0)
  | OInt n => Ok (n * us)
  | OFloat m => Ok m
  | OText s => match text_seconds l s with Some m => Ok m | None => Err ValueError end
  | _ => Err TypeError
  end.
(** int(v) *)
Definition as_integer (l : lang) (v : oval) : result Z :=
  match v with
  | OBool b => Ok (if b then 1 else 0)
  | OInt n => Ok n
  | OFloat m => Ok (Z.quot m us)
  | OText s => match text_integer l s with Some n => Ok n | None => Err ValueError end
  | _ => Err TypeError
  end.
(** datastructures.py:6-23 _coerce_bool *)
Definition as_bool (v : oval) : bool :=
  match v with
  | OText s =>
      let n := lower (strip s) in
      if existsb (String.eqb n) ["1"; "true"; "t"; "yes"; "y"; "on"]%string then true
      else if existsb (String.eqb n) ["0"; "false"; "f"; "no"; "n"; "off"]%string then false
      else otruthy v
  | _ => otruthy v
  end.
(** utils.py:78-96 *)
Definition as_zone (l : lang) (v : oval) : result nat :=
  match v with
  | OText s => match zone_named l s with Some z => Ok z | None => Err KeyError end
  | OZone z => Ok z
  | ONone => Ok (local_zone l)
  | _ => Err TypeError
  end.
(** shapes/registry.py:81-102 *)
Definition as_shape (reg : registry) (v : oval) : result shape_class :=
  match resolve (match v with OClass c => AClass c | OInst c => AInstance c | OText s => AText s | ONone => ANone | _ => AOther end) reg with
  | Done c => Ok c
  | Failed (ShapeNotFound _) => Err LookupError
  | Failed _ => Err TypeError
  end.
(** datastructures.py:35-48 TaskDefaultStruct of the entries; others are ignored *)
Definition get_or (k : string) (d : oconf) (v : oval) : oval := match dget k d with Some x => x | None => v end.
Definition as_grace (l : lang) (v : oval) : result (option Z) :=
  match v with ONone => Ok None | _ => match as_seconds l v with Ok m => Ok (Some m) | Err e => Err e end end.
Definition as_defaults (l : lang) (d : oconf) : result defaults :=
  match as_grace l (get_or "mistrigger_grace_time" d (OInt 1)) with
  | Err e => Err e
  | Ok g =>
      match as_integer l (get_or "max_instances" d (OInt 1)) with
      | Err e => Err e
      | Ok n => Ok (MkDefaults g (as_bool (get_or "coalesce" d (OBool true))) n)
      end
  end.

(** the attributes that _setup assigns *)
Record opts := MkOpts {
  p_identity : string; p_started : option Z; p_seen : option Z; p_stale_after : Z; p_shape : shape_class; p_zone : nat;
  p_lock_path : string; p_retry : Z; p_delay : Z; p_defaults : defaults; p_logger : string }.
(** the assignments of _setup in order; [fresh]: the class name, a hyphen and twelve digits of a new uuid; each may raise *)
Definition steps (l : lang) (reg : registry) (fresh : string) (c : oconf) : list (opts -> result opts) :=
  [ (* 1248-1254 *) (fun o => Ok (MkOpts (match get_or "identity" c ONone with v => if otruthy v then as_text l v else if String.eqb (p_identity o) "" then fresh else p_identity o end)
                                 None None (p_stale_after o) (p_shape o) (p_zone o) (p_lock_path o) (p_retry o) (p_delay o) (p_defaults o) (p_logger o)));
    (* 1255 *) (fun o => match as_seconds l (get_or "heartbeat_stale_after" c (OInt 30)) with Err e => Err e | Ok m =>
                                 Ok (MkOpts (p_identity o) (p_started o) (p_seen o) m (p_shape o) (p_zone o) (p_lock_path o) (p_retry o) (p_delay o) (p_defaults o) (p_logger o)) end);
    (* 1256 *) (fun o => match as_shape reg (get_or "shape" c (OInst (p_shape o))) with Err e => Err e | Ok s =>
                                 Ok (MkOpts (p_identity o) (p_started o) (p_seen o) (p_stale_after o) s (p_zone o) (p_lock_path o) (p_retry o) (p_delay o) (p_defaults o) (p_logger o)) end);
    (* 1257 *) (fun o => match as_zone l (get_or "timezone" c ONone) with Err e => Err e | Ok z =>
                                 Ok (MkOpts (p_identity o) (p_started o) (p_seen o) (p_stale_after o) (p_shape o) z (p_lock_path o) (p_retry o) (p_delay o) (p_defaults o) (p_logger o)) end);
    (* 1258 *) (fun o => let v := get_or "lock_path" c (OText "") in
                                 Ok (MkOpts (p_identity o) (p_started o) (p_seen o) (p_stale_after o) (p_shape o) (p_zone o) (if otruthy v then as_text l v else ""%string) (p_retry o) (p_delay o) (p_defaults o) (p_logger o)));
    (* 1259 *) (fun o => match as_seconds l (get_or "store_retry_interval" c (OInt 10)) with Err e => Err e | Ok m =>
                                 Ok (MkOpts (p_identity o) (p_started o) (p_seen o) (p_stale_after o) (p_shape o) (p_zone o) (p_lock_path o) m (p_delay o) (p_defaults o) (p_logger o)) end);
    (* 1260 *) (fun o => match as_seconds l (get_or "startup_delay" c (OInt (if String.eqb (p_lock_path o) "" then 0 else 1))) with Err e => Err e | Ok m =>
                                 Ok (MkOpts (p_identity o) (p_started o) (p_seen o) (p_stale_after o) (p_shape o) (p_zone o) (p_lock_path o) (p_retry o) m (p_defaults o) (p_logger o)) end);
    (* 1262-1273 *) (fun o => let v := get_or "task_defaults" c ONone in
                                 match (if otruthy v then match v with OMap d => as_defaults l d | _ => Err TypeError end else as_defaults l []) with Err e => Err e | Ok d =>
                                 Ok (MkOpts (p_identity o) (p_started o) (p_seen o) (p_stale_after o) (p_shape o) (p_zone o) (p_lock_path o) (p_retry o) (p_delay o) d (p_logger o)) end);
    (* 1278-1282 *) (fun o => let v := get_or "logger_name" c ONone in
                                 Ok (MkOpts (p_identity o) (p_started o) (p_seen o) (p_stale_after o) (p_shape o) (p_zone o) (p_lock_path o) (p_retry o) (p_delay o) (p_defaults o)
                                       (if otruthy v then "asyncz.schedulers." ++ as_text l v else "asyncz.schedulers")%string)) ].
(** an assignment that raises leaves the earlier ones made *)
Fixpoint assign (fs : list (opts -> result opts)) (o : opts) : opts * result unit :=
  match fs with [] => (o, Ok tt) | f :: fs' => match f o with Ok o' => assign fs' o' | Err e => (o, Err e) end end.
Definition set_options (l : lang) (reg : registry) (fresh : string) (c : oconf) (o : opts) : opts * result unit := assign (steps l reg fresh c) o.
(** several setups, one after the other; the answers *)
Fixpoint setups (l : lang) (reg : registry) (cs : list (string * oconf)) (o : opts) : opts * list (result unit) :=
  match cs with [] => (o, []) | (fresh, c) :: cs' => let (o1, x) := set_options l reg fresh c o in let (o2, xs) := setups l reg cs' o1 in (o2, x :: xs) end.
(** base.py:95-123: the constructor; the other attributes, which setup always assigns first, are arbitrary *)
Definition unset (s : shape_class) : opts := MkOpts "" None None (30 * us) s 0 "" 0 0 (MkDefaults None false 0) "".
Definition create (l : lang) (reg : registry) (fresh : string) (c : oconf) : result opts :=
  match as_shape reg ONone with
  | Err e => Err e
  | Ok s => match set_options l reg fresh c (unset s) with (o, Ok _) => Ok o | (_, Err e) => Err e end
  end.
