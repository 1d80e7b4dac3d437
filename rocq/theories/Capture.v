(** How log messages get onto the dashboard: asyncz/contrib/dashboard/logs/handler.py,
    controllers/logs.py, application.py:58-73 and history.py:363-393, over Python's [logging].
    [logging] (CPython Lib/logging/__init__.py) is modelled as far as the handler depends on it:
    levels, the tree of dotted names, propagation, [disable], [disabled], the clash check of [extra].
    Simplified: getLogger("root") (another name for the root logger), filters, other handlers and
    their formatters (which may add [message] and [asctime] to a record), names with adjacent dots, addLevelName (a call carries
    its level name), [extra=None] given explicitly; str() and truth of a value do not raise. *)
From Verif Require Import Prelude Text Dash Forms History.
Open Scope Z_scope.

(** a value in an [extra] dictionary: what str() and bool() make of it *)
Inductive lval := LNone | LText (s : string) | LThing (truth : bool) (text : string).
Definition lv_str (v : lval) : string := match v with LNone => "None" | LText s => s | LThing _ t => t end.
Definition lv_truthy (v : lval) : bool := match v with LNone => false | LText s => negb (String.eqb s "") | LThing b _ => b end.

(** ** logging *)
(** Manager._fixupParents: the names cut at their dots, the longest first; "" is the root logger *)
Fixpoint dot_prefixes (pre s : string) : list string :=
  match s with
  | EmptyString => []
  | String a s' => (if Ascii.eqb a "." && negb (String.eqb pre "") then [pre] else []) ++ dot_prefixes (pre ++ String a "") s'
  end.
Definition chain (name : string) : list string := if String.eqb name "" then [] else name :: rev (dot_prefixes "" name).
(** Logger.getEffectiveLevel *)
Fixpoint first_level (lv : string -> Z) (l : list string) : Z :=
  match l with
  | [] => lv ""%string
  | n :: l' => if lv n =? 0 then first_level lv l' else lv n
  end.
(** Logger.callHandlers, as far as the handler on "asyncz" is concerned *)
Fixpoint reaches (prop : string -> bool) (l : list string) : bool :=
  match l with
  | [] => false
  | n :: l' => if String.eqb n "asyncz" then true else prop n && reaches prop l'
  end.
(** handler.py:14 _STANDARD_LOG_RECORD_KEYS (taskName: from Python 3.12) *)
Definition standard_keys : list string :=
  ["name"; "msg"; "args"; "levelname"; "levelno"; "pathname"; "filename"; "module"; "exc_info"; "exc_text"; "stack_info"; "lineno";
   "funcName"; "created"; "msecs"; "relativeCreated"; "thread"; "threadName"; "processName"; "process"; "taskName"]%string.
Definition is_in (k : string) (l : list string) : bool := existsb (String.eqb k) l.
(** Logger.makeRecord *)
Definition clashes (extra : dict lval) : bool := existsb (fun kv => is_in (fst kv) ("message" :: "asctime" :: standard_keys)%string) extra.

(** a process: the loggers' settings ([lp_off]: [disabled]), the dictionaries user code keeps and passes
    as [extra], the log storages with their sizes, controllers/logs.py:12 [_storage], handler.py:119 [_handler] *)
Record lproc := MkLP {
  lp_disable : Z; lp_level : string -> Z; lp_prop : string -> bool; lp_off : string -> bool;
  lp_dicts : list (dict lval); lp_bufs : list (nat * list log_entry); lp_current : option nat; lp_handler : option (nat * Z) }.
Definition upd {A} (f : string -> A) (k : string) (v : A) : string -> A := fun n => if String.eqb n k then v else f n.
Definition nth_upd {A} (i : nat) (f : A -> A) (l : list A) : list A := firstn i l ++ match nth_error l i with Some x => [f x] | None => [] end ++ skipn (S i) l.

(** ** handler.py *)
(** handler.py:10, 17-25 _extract_task_id *)
Fixpoint first_truthy (keys : list string) (extra : dict lval) : option string :=
  match keys with
  | [] => None
  | k :: ks => match dget k extra with Some v => if lv_truthy v then Some (lv_str v) else first_truthy ks extra | None => first_truthy ks extra end
  end.
Definition extract_task_id (extra : dict lval) : option string := first_truthy ["task_id"; "job_id"; "asyncz_task_id"]%string extra.
(** handler.py:28-34 _extract_extra: what the storage keeps; None when empty *)
Definition extract_extra (extra : dict lval) : dict lval :=
  filter (fun kv => negb (is_in (fst kv) standard_keys) && negb (starts_with "_" (fst kv))) extra.
(** storage.py:203 [str(e.extra.get("run_id"))] *)
Definition run_text (kept : dict lval) : option string :=
  match kept with [] => None | _ => Some (match dget "run_id" kept with Some v => lv_str v | None => "None"%string end) end.

(** a call of [logger.log(level, msg, ..., extra=...)], through [get_task_logger(c_adapter, c_logger)] or on
    [getLogger(c_logger)] itself; [c_text]: what getMessage() gives, None if it raises; [c_extra]: which of
    the user's dictionaries is passed *)
Record lcall := MkCall { c_adapter : option string; c_logger : string; c_level : Z; c_levelname : string; c_text : option string; c_extra : option nat; c_ts : Z }.
(** Logger.isEnabledFor *)
Definition enabled (s : lproc) (name : string) (level : Z) : bool :=
  negb (lp_off s name) && (lp_disable s <? level) && (first_level (lp_level s) (chain name) <=? level).
(** handler.py:83-99 TaskLoggerAdapter.process: [setdefault] on the dictionary the caller passed *)
Definition setdefault {V} (k : string) (v : V) (d : dict V) : dict V := match dget k d with Some _ => d | None => dset k v d end.
Definition with_dicts (s : lproc) (d : list (dict lval)) : lproc := MkLP (lp_disable s) (lp_level s) (lp_prop s) (lp_off s) d (lp_bufs s) (lp_current s) (lp_handler s).
Definition process (s : lproc) (c : lcall) : dict lval * lproc :=
  let given := match c_extra c with Some i => match nth_error (lp_dicts s) i with Some d => d | None => [] end | None => [] end in
  match c_adapter c with
  | None => (given, s)
  | Some t => let d := setdefault "task_id" (LText t) given in
              (d, match c_extra c with Some i => with_dicts s (nth_upd i (fun _ => d) (lp_dicts s)) | None => s end)
  end.
(** handler.py:56-72 emit and storage.py:148-157 append *)
Definition entry_of (c : lcall) (text : string) (extra : dict lval) : log_entry :=
  MkLog (c_ts c) (c_levelname c) text (c_logger c) (extract_task_id extra) (run_text (extract_extra extra)).
Definition with_bufs (s : lproc) (b : list (nat * list log_entry)) : lproc := MkLP (lp_disable s) (lp_level s) (lp_prop s) (lp_off s) (lp_dicts s) b (lp_current s) (lp_handler s).
Definition emit (s : lproc) (i : nat) (c : lcall) (extra : dict lval) : lproc :=
  match c_text c with
  | None => s
  | Some m => with_bufs s (nth_upd i (fun b => (fst b, log_append (fst b) (entry_of c m extra) (snd b))) (lp_bufs s))
  end.
(** Logger.log / LoggerAdapter.log; the first component: the exception raised in the caller, if any *)
Definition log_call (s : lproc) (c : lcall) : option exn * lproc :=
  if negb (enabled s (c_logger c) (c_level c)) then (None, s)
  else let (extra, s) := process s c in
  if clashes extra then (Some KeyError, s)
  else match lp_handler s with
  | Some (i, hl) => if reaches (lp_prop s) (chain (c_logger c)) && (hl <=? c_level c) then (None, emit s i c extra) else (None, s)
  | None => (None, s)
  end.

(** ** mounting *)
(** controllers/logs.py:15-31 get_log_storage *)
Definition get_log_storage (s : lproc) (storage : option nat) : nat * lproc :=
  match storage, lp_current s with
  | Some i, _ => (i, MkLP (lp_disable s) (lp_level s) (lp_prop s) (lp_off s) (lp_dicts s) (lp_bufs s) (Some i) (lp_handler s))
  | None, Some i => (i, s)
  | None, None => let i := List.length (lp_bufs s) in
      (i, MkLP (lp_disable s) (lp_level s) (lp_prop s) (lp_off s) (lp_dicts s) (lp_bufs s ++ [(Z.to_nat 20000, [])]) (Some i) (lp_handler s))
  end.
(** handler.py:122-154 install_task_log_handler *)
Definition install_handler (s : lproc) (i : nat) (level : Z) : lproc :=
  match lp_handler s with
  | Some _ => MkLP (lp_disable s) (lp_level s) (lp_prop s) (lp_off s) (lp_dicts s) (lp_bufs s) (lp_current s) (Some (i, level))
  | None =>
      let l := lp_level s "asyncz"%string in
      MkLP (lp_disable s) (upd (lp_level s) "asyncz" (Z.min (if l =? 0 then level else l) level)) (upd (lp_prop s) "asyncz" true) (lp_off s)
           (lp_dicts s) (lp_bufs s) (lp_current s) (Some (i, level))
  end.
(** application.py:58-73 the part of create_dashboard_app about logs; logging.INFO is 20 *)
Definition mount (s : lproc) (storage : option nat) : lproc :=
  let (i, s) := get_log_storage s storage in
  let s := install_handler s i 20 in
  MkLP (lp_disable s) (upd (lp_level s) "asyncz" 20) (upd (lp_prop s) "asyncz" true) (lp_off s) (lp_dicts s) (lp_bufs s) (lp_current s) (lp_handler s).

(** what happens in the process: mounting dashboards, logging, the host's own use of [logging], and its
    dictionaries *)
Inductive lop := OMount (storage : option nat) | OLog (c : lcall) | OInstall (storage : nat) (level : Z)
| OSetLevel (name : string) (level : Z) | OPropagate (name : string) (b : bool) | OOff (name : string) (b : bool) | ODisable (level : Z)
| ODict (d : dict lval) | OChange (i : nat) (d : dict lval).
Definition lstep (s : lproc) (o : lop) : lproc :=
  match o with
  | OMount st => mount s st
  | OLog c => snd (log_call s c)
  | OInstall i level => install_handler s i level
  | OSetLevel n l => MkLP (lp_disable s) (upd (lp_level s) n l) (lp_prop s) (lp_off s) (lp_dicts s) (lp_bufs s) (lp_current s) (lp_handler s)
  | OPropagate n b => MkLP (lp_disable s) (lp_level s) (upd (lp_prop s) n b) (lp_off s) (lp_dicts s) (lp_bufs s) (lp_current s) (lp_handler s)
  | OOff n b => MkLP (lp_disable s) (lp_level s) (lp_prop s) (upd (lp_off s) n b) (lp_dicts s) (lp_bufs s) (lp_current s) (lp_handler s)
  | ODisable l => MkLP l (lp_level s) (lp_prop s) (lp_off s) (lp_dicts s) (lp_bufs s) (lp_current s) (lp_handler s)
  | ODict d => with_dicts s (lp_dicts s ++ [d])
  | OChange i d => with_dicts s (nth_upd i (fun _ => d) (lp_dicts s))
  end.
Fixpoint lrun (s : lproc) (ops : list lop) : lproc := match ops with [] => s | o :: ops' => lrun (lstep s o) ops' end.
(** a fresh process whose user has made storages of the given sizes; the root logger starts at WARNING *)
Definition fresh (sizes : list nat) : lproc :=
  MkLP 0 (fun n => if String.eqb n "" then 30 else 0) (fun _ => true) (fun _ => false) [] (map (fun n => (n, [])) sizes) None None.

(** ** the logs page *)
Record log_params := MkLPar { p_task : option string; p_run : option string; p_level : option string; p_q : option string; p_limit : option string }.
(** controllers/logs.py:50-58 _log_filters, 61-65 _limit *)
Definition text_param (p : option string) : string := strip (or_empty p).
Definition limit_param (p : option string) : string :=
  let t := strip (if given p then or_empty p else "200") in if String.eqb t "" then "200" else t.
Definition log_limit (t : string) : Z := match py_int t with Some n => Z.max 1 (Z.min n 1000) | None => 200 end.
Definition or_none (t : string) : option string := if String.eqb t "" then None else Some t.
(** controllers/logs.py:68-80 build_log_context: the rows, and the process (reading the storage may create it) *)
Definition logs_page (s : lproc) (p : log_params) : list log_entry * lproc :=
  let (i, s') := get_log_storage s None in
  let q := MkLQ (or_none (text_param (p_task p))) (or_none (text_param (p_run p))) (or_none (upper (text_param (p_level p)))) (or_none (text_param (p_q p)))
                None None (log_limit (limit_param (p_limit p))) in
  (match nth_error (lp_bufs s') i with Some (_, b) => log_find q b | None => [] end, s').

(** ** the logs of one run: history.py:363-393 logs_for_run *)
Definition log_key := (Z * string * string * string)%type.
Definition log_key_eqb (a b : log_key) : bool :=
  match a, b with (t1, l1, n1, m1), (t2, l2, n2, m2) => (t1 =? t2) && String.eqb l1 l2 && String.eqb n1 n2 && String.eqb m1 m2 end.
Definition log_key_of (e : log_entry) : log_key := (l_ts e, l_level e, l_logger e, l_message e).
Fixpoint first_of_each (limit : nat) (seen : list log_key) (out l : list log_entry) : list log_entry :=
  match l with
  | [] => out
  | e :: l' => if existsb (log_key_eqb (log_key_of e)) seen then first_of_each limit seen out l'
               else let out := out ++ [e] in if Nat.leb limit (List.length out) then out else first_of_each limit (seen ++ [log_key_of e]) out l'
  end.
(** an optional time that is set; datetimes are truthy, so [a or b] takes the first that is not None *)
Definition time_or (a : option Z) (b : Z) : Z := match a with Some t => t | None => b end.
(** [created_at] and [updated_at] are always set, so [start] is never None *)
Definition logs_for_run (r : run_record) (limit : nat) (b : list log_entry) : list log_entry :=
  let direct := log_find (MkLQ None (Some (h_id r)) None None None None (Z.of_nat limit)) b in
  if Nat.leb limit (List.length direct) then firstn limit direct
  else
    let start := time_or (h_submitted r) (time_or (h_finished r) (h_created r)) in
    let stop := time_or (h_finished r) (h_updated r) in
    let task := fst (fst (h_key r)) in
    let correlated := log_find (MkLQ (Some task) None None None (Some (start - 5000000)) (Some (stop + 5000000)) (Z.of_nat limit)) b in
    first_of_each limit [] [] (direct ++ correlated).
