(** The remote scheduler: asyncz/contrib/dashboard/remote.py.
    Text is bytes (UTF-8).  The worker's scheduler is any state with any effect for every call ([exec]); what a
    call returns is represented by its JSON dump, so TaskInfo.model_validate (client side) is not modelled, nor are
    the socket and the text of JSON: a payload arrives as the JSON value it was.  As ASGI prescribes, the router sees
    the percent-decoded path.  RemoteTask (52-200) is in Preview.v. *)
From Verif Require Import Prelude Text CronParse Forms.
Open Scope Z_scope.

Inductive json := JNull | JBool (b : bool) | JNum (n : Z) | JStr (s : string) | JArr (l : list json) | JObj (l : list (string * json)).
(** bool(value) *)
Definition truthy (j : json) : bool :=
  match j with JNull => false | JBool b => b | JNum n => negb (n =? 0) | JStr s => negb (String.eqb s "") | JArr l => match l with [] => false | _ => true end | JObj l => match l with [] => false | _ => true end end.

(** ** paths *)
Definition hex_digit (n : N) : ascii := ascii_of_N (if N.ltb n 10 then 48 + n else 55 + n).
(** urllib.parse.quote(text, safe="") *)
Definition unreserved (a : ascii) : bool :=
  let n := N_of_ascii a in ((65 <=? n) && (n <=? 90) || (97 <=? n) && (n <=? 122) || (48 <=? n) && (n <=? 57))%N || existsb (Ascii.eqb a) ["_"; "."; "-"; "~"]%char.
Fixpoint quote (s : string) : string :=
  match s with
  | EmptyString => EmptyString
  | String a s' => if unreserved a then String a (quote s')
                   else String "%" (String (hex_digit (N_of_ascii a / 16)) (String (hex_digit (N_of_ascii a mod 16)) (quote s')))
  end.
(** urllib.parse.unquote, as the server does for scope["path"] *)
Definition hex_value (a : ascii) : option N :=
  let n := N_of_ascii a in
  (if (48 <=? n) && (n <=? 57) then Some (n - 48) else if (65 <=? n) && (n <=? 70) then Some (n - 55) else if (97 <=? n) && (n <=? 102) then Some (n - 87) else None)%N.
Fixpoint unquote (s : string) : string :=
  match s with
  | EmptyString => EmptyString
  | String a s' =>
      if Ascii.eqb a "%" then
        match s' with
        | String h (String l s'') => match hex_value h, hex_value l with Some x, Some y => String (ascii_of_N (16 * x + y)) (unquote s'') | _, _ => String a (unquote s') end
        | _ => String a (unquote s')
        end
      else String a (unquote s')
  end.
(** str(n) of an int, as urlencode writes it *)
Fixpoint show_nat (fuel : nat) (n : Z) : string :=
  match fuel with
  | O => EmptyString
  | Datatypes.S f => if n <? 10 then String (ascii_of_N (Z.to_N (48 + n))) EmptyString else (show_nat f (n / 10) ++ String (ascii_of_N (Z.to_N (48 + n mod 10))) EmptyString)%string
  end.
Definition show_int (n : Z) : string := if n <? 0 then ("-" ++ show_nat (Datatypes.S (Z.to_nat (- n))) (- n))%string else show_nat (Datatypes.S (Z.to_nat n)) n.

(** ** calls on the scheduler of the worker *)
Inductive trig := TJson (j : json) | TUnpickled (p : string).
Inductive op :=
| OInfo | OInstances
| OList (store state executor trigger q : option string) (sort_by : string) (descending : bool)
| OTask (id : string) (store : option string)
| OPreview (id : string) (store : option string) (count : Z)
| OAdd (fn : json) (trigger : trig) (kwargs targs : list (string * json))
| OUpdate (id : string) (store : json) (updates : list (string * json))
| ORun (id : string) (store : json) (force remove_finished : bool)
| OPause (id : string) (store : json)
| OResume (id : string) (store : json)
| ORemove (id : string) (store : json).
(** an exception: its class name, its text, and the attributes of MaximumInstancesError (exceptions.py:78-94) *)
Record exc := MkExc { x_class : string; x_text : string; x_task : string; x_total : Z }.
Inductive outcome := Ret (j : json) | Raised (x : exc).
(** what a request makes the worker do *)
Inductive effect := EUnpickle (p : string) | EOp (o : op).

Record request := MkReq { r_method : string; r_path : string; r_headers : list (string * string); r_query : list (string * string); r_body : option json }.
(** an answer, or an exception that escaped the handler (the server answers 500 with no JSON);
    [NoRoute]: 404 or 405 from the router, with no JSON either *)
Inductive response := Answer (status : Z) (body : json) | Crashed | NoRoute.

Section Worker.
  Context {St : Type} (exec : op -> St -> St * outcome) (token : option string).
  (** 252-260 _success *)
  Definition success (j : json) : response := Answer 200 (JObj [("data"%string, j)]).
  (** 263-283 _error *)
  Definition error (x : exc) (status : Z) (task_id : option string) : response :=
    let base := [("error", JStr (x_class x)); ("message", JStr (x_text x))]%string in
    let tid := match task_id with Some t => [("task_id"%string, JStr t)] | None => [] end in
    Answer status (JObj (if String.eqb (x_class x) "MaximumInstancesError" then base ++ [("task_id"%string, JStr (x_task x)); ("max_instances"%string, JNum (x_total x))] else base ++ tid)).
  (** request.headers.get, names in any case *)
  Fixpoint header (name : string) (l : list (string * string)) : option string :=
    match l with [] => None | (k, v) :: l' => if String.eqb (lower k) name then Some v else header name l' end.
  (** 300-315 _require_token *)
  Definition allowed (r : request) : bool :=
    match token with None => true | Some t => match header "x-asyncz-remote-token" (r_headers r) with Some h => String.eqb h t | None => false end end.
  Definition unauthorized : response := Answer 401 (JObj [("error", JStr "Unauthorized"); ("message", JStr "Invalid remote token.")])%string.
  (** 284-297 _json_body: None when it raises *)
  Definition json_body (r : request) : option (list (string * json)) :=
    match r_body r with None | Some JNull => Some [] | Some (JObj l) => Some l | Some _ => None end.
  (** params.get(k) or None *)
  Definition param (k : string) (r : request) : option string := match dget k (r_query r) with Some (String a s) => Some (String a s) | _ => None end.
  Definition field_of (k : string) (b : list (string * json)) : json := match dget k b with Some j => j | None => JNull end.
  Definition flag (k : string) (b : list (string * json)) : bool := match dget k b with Some j => truthy j | None => true end.
  Definition ret (s : St) (r : response) : St * list effect * response := (s, [], r).
  (** a call whose exceptions escape, and one where they are answered *)
  Definition bare (o : op) (s : St) (k : json -> response) : St * list effect * response :=
    let (s', out) := exec o s in (s', [EOp o], match out with Ret j => k j | Raised _ => Crashed end).
  Definition guarded (o : op) (s : St) (h : exc -> response) : St * list effect * response :=
    let (s', out) := exec o s in (s', [EOp o], match out with Ret j => success j | Raised x => h x end).
  (** 504-511: the status of a failed action *)
  Definition action_error (id : string) (x : exc) : response :=
    if String.eqb (x_class x) "TaskLookupError" then error x 404 (Some id)
    else if String.eqb (x_class x) "SchedulerNotRunningError" then error x 409 (Some id)
    else if String.eqb (x_class x) "MaximumInstancesError" then error x 409 (Some id)
    else error x 400 (Some id).
  Definition lookup_error (id : string) : exc := MkExc "TaskLookupError" ("The task by the id of " ++ id ++ " was not found.") "" 0.
  (** 408-455 add_task: the keywords passed on *)
  Definition ADD_KEYS : list string := ["id"; "name"; "args"; "kwargs"; "mistrigger_grace_time"; "coalesce"; "max_instances"; "next_run_time"; "store"; "executor"; "replace_existing"]%string.
  Definition kept (b : list (string * json)) : list (string * json) := flat_map (fun k => match dget k b with Some j => [(k, j)] | None => [] end) ADD_KEYS.
  (** dict(value or {}), None when it raises (only objects are modelled) *)
  Definition as_dict (j : json) : option (list (string * json)) := if truthy j then match j with JObj l => Some l | _ => None end else Some [].
  (** str(value): only of text (other values are not modelled) *)
  Definition as_text (j : json) : string := match j with JStr s => s | _ => EmptyString end.

  (** 328-512: the handlers, after the token check *)
  Definition h_list (r : request) (s : St) : St * list effect * response :=
    let d := existsb (String.eqb (lower (match dget "descending" (r_query r) with Some x => x | None => EmptyString end))) ["1"; "true"; "yes"]%string in
    guarded (OList (param "store" r) (param "schedule_state" r) (param "executor" r) (param "trigger" r) (param "q" r) (match param "sort_by" r with Some x => x | None => "next_run_time"%string end) d) s (fun x => error x 400 None).
  Definition h_task (id : string) (r : request) (s : St) : St * list effect * response :=
    bare (OTask id (param "store" r)) s (fun j => match j with JNull => error (lookup_error id) 404 (Some id) | _ => success j end).
  Definition h_preview (id : string) (r : request) (s : St) : St * list effect * response :=
    match py_int (match param "count" r with Some c => c | None => "5"%string end) with
    | None => ret s Crashed
    | Some n => bare (OPreview id (param "store" r) n) s (fun j => match j with JNull => error (lookup_error id) 404 (Some id) | _ => success j end)
    end.
  Definition h_add (r : request) (s : St) : St * list effect * response :=
    match json_body r with
    | None => ret s Crashed
    | Some b =>
        match as_dict (field_of "trigger_args" b) with
        | None => ret s Crashed
        | Some targs =>
            if truthy (field_of "trigger_pickle" b) then
              let p := as_text (field_of "trigger_pickle" b) in
              let '(s', es, a) := guarded (OAdd (field_of "fn" b) (TUnpickled p) (kept b) targs) s (fun x => error x 400 None) in (s', EUnpickle p :: es, a)
            else guarded (OAdd (field_of "fn" b) (TJson (field_of "trigger" b)) (kept b) targs) s (fun x => error x 400 None)
        end
    end.
  Definition h_update (id : string) (r : request) (s : St) : St * list effect * response :=
    match json_body r with
    | None => ret s Crashed
    | Some b =>
        match as_dict (field_of "updates" b) with
        | None => ret s (error (MkExc "TypeError" "updates" "" 0) 400 (Some id))
        | Some u => guarded (OUpdate id (field_of "store" b) u) s (fun x => if String.eqb (x_class x) "TaskLookupError" then error x 404 (Some id) else error x 400 (Some id))
        end
    end.
  Definition h_action (id action : string) (r : request) (s : St) : St * list effect * response :=
    match json_body r with
    | None => ret s Crashed
    | Some b =>
        let st := field_of "store" b in
        if String.eqb action "run" then guarded (ORun id st (flag "force" b) (flag "remove_finished" b)) s (action_error id)
        else if String.eqb action "pause" then guarded (OPause id st) s (action_error id)
        else if String.eqb action "resume" then guarded (OResume id st) s (action_error id)
        else if String.eqb action "remove" then guarded (ORemove id st) s (fun x => action_error id x)
        else ret s (error (MkExc "ValueError" ("Unsupported task action: " ++ action) "" 0) 404 None)
    end.
  (** 514-533: the routes.  A parameter is a non-empty piece of the path without "/". *)
  Definition worker (r : request) (s : St) : St * list effect * response :=
    let guard := fun h => if allowed r then h else ret s unauthorized in
    let is := String.eqb (r_method r) in
    let eq := String.eqb in
    match split_on "/" (unquote (r_path r)) with
    | [e; x] =>
        if negb (eq e "")%string then ret s NoRoute
        else if eq x "info"%string then if is "GET"%string then guard (bare OInfo s success) else ret s NoRoute
        else if eq x "instances"%string then if is "GET"%string then guard (bare OInstances s success) else ret s NoRoute
        else if eq x "tasks"%string then if is "GET"%string then guard (h_list r s) else if is "POST"%string then guard (h_add r s) else ret s NoRoute
        else ret s NoRoute
    | [e; x; i] =>
        if (eq e "" && eq x "tasks" && negb (eq i ""))%string then
          if is "GET"%string then guard (h_task i r s) else if is "PATCH"%string then guard (h_update i r s) else ret s NoRoute
        else ret s NoRoute
    | [e; x; i; act] =>
        if (eq e "" && eq x "tasks" && negb (eq i "") && negb (eq act ""))%string then
          if is "GET"%string && eq act "preview"%string then guard (h_preview i r s) else if is "POST"%string then guard (h_action i act r s) else ret s NoRoute
        else ret s NoRoute
    | _ => ret s NoRoute
    end.
End Worker.

(** ** the client *)
Inductive got := Got (j : json) | XLookup (id : json) | XNotRunning | XMaxInstances (id : string) (total : Z) | XValue (m : string) | XRemote (m : string) | XProtocol.
Inductive field := Undefined | Given (j : json).
Inductive add_trigger := ByName (n : option string) | AnObject (pickle : string).
Record add_call := MkAdd { a_fn : string; a_trigger : add_trigger; a_args : list json; a_kwargs : list (string * json); a_id : field; a_name : field; a_grace : field; a_coalesce : field; a_max : field; a_next : field; a_store : field; a_executor : field; a_replace : bool; a_targs : list (string * json) }.
Inductive call :=
| CInfo | CInstances
| CList (store state executor trigger q : option string) (sort_by : string) (descending : bool)
| CTask (id : string) (store : option string)
| CPreview (id : string) (store : option string) (count : Z) (now : option string)
| CAdd (a : add_call)
| CUpdate (id : string) (store : option string) (updates : list (string * json))
| CRun (id : string) (store : option string) (force remove_finished : bool)
| CPause (id : string) (store : option string)
| CResume (id : string) (store : option string)
| CDelete (id : string) (store : option string).
Definition opt_json (o : option string) : json := match o with Some s => JStr s | None => JNull end.
(** 573-584 _headers *)
Definition headers (tok : option string) : list (string * string) := ("content-type", "application/json")%string :: match tok with Some t => [("x-asyncz-remote-token"%string, t)] | None => [] end.
(** {key: value ... if value not in (None, "")} *)
Definition query_of (l : list (string * option string)) : list (string * string) :=
  flat_map (fun kv => match snd kv with Some (String a s) => [(fst kv, String a s)] | _ => [] end) l.
(** {"store": store} if store else None *)
Definition q_store (o : option string) : list (string * string) := query_of [("store"%string, o)].
(** the optional part of the payload of add_task (832-845): undefined and None are left out *)
Definition payload_fields (a : add_call) : list (string * json) :=
  flat_map (fun kf => match snd kf with Given JNull | Undefined => [] | Given j => [(fst kf, j)] end)
    [("id", a_id a); ("name", a_name a); ("mistrigger_grace_time", a_grace a); ("coalesce", a_coalesce a); ("max_instances", a_max a); ("next_run_time", a_next a); ("store", a_store a); ("executor", a_executor a)]%string.
(** 817-849 *)
Definition add_payload (a : add_call) : list (string * json) :=
  [("fn", JStr (a_fn a)); ("args", JArr (a_args a)); ("kwargs", JObj (a_kwargs a)); ("replace_existing", JBool (a_replace a))]%string
  ++ match a_trigger a with ByName n => [("trigger", opt_json n); ("trigger_args", JObj (a_targs a))]%string | AnObject p => [("trigger_pickle"%string, JStr p)] end
  ++ payload_fields a.
(** 688-964: the request of every call *)
Definition task_path (id tail : string) : string := ("/tasks/" ++ quote id ++ tail)%string.
Definition request_of (tok : option string) (c : call) : request :=
  let rq := fun m p q b => MkReq m p (headers tok) q b in
  match c with
  | CInfo => rq "GET" "/info" [] None
  | CInstances => rq "GET" "/instances" [] None
  | CList st state ex tr q sort desc =>
      rq "GET" "/tasks" (query_of [("store", st); ("schedule_state", state); ("executor", ex); ("trigger", tr); ("q", q); ("sort_by", Some sort); ("descending", Some (if desc then "true" else "false"))]) None
  | CTask id st => rq "GET" (task_path id "") (q_store st) None
  | CPreview id st n now => rq "GET" (task_path id "/preview") (("count", show_int n) :: q_store st ++ match now with Some t => [("now", t)] | None => [] end) None
  | CAdd a => rq "POST" "/tasks" [] (Some (JObj (add_payload a)))
  | CUpdate id st u => rq "PATCH" (task_path id "") [] (Some (JObj [("store", opt_json st); ("updates", JObj u)]))
  | CRun id st f rf => rq "POST" (task_path id "/run") [] (Some (JObj [("store", opt_json st); ("force", JBool f); ("remove_finished", JBool rf)]))
  | CPause id st => rq "POST" (task_path id "/pause") [] (Some (JObj [("store", opt_json st)]))
  | CResume id st => rq "POST" (task_path id "/resume") [] (Some (JObj [("store", opt_json st)]))
  | CDelete id st => rq "POST" (task_path id "/remove") [] (Some (JObj [("store", opt_json st)]))
  end%string.
(** 640-664 _raise_remote_error *)
Definition raise_remote (body : json) : got :=
  let b := match body with JObj l => l | _ => [] end in
  let error := field_of "error" b in
  let name := match error with JStr s => s | _ => EmptyString end in
  let message := match field_of "message" b with JStr (String a s) => String a s | _ => match error with JStr (String a s) => String a s | _ => "Remote scheduler error."%string end end in
  if String.eqb name "TaskLookupError" then XLookup (field_of "task_id" b)
  else if String.eqb name "SchedulerNotRunningError" then XNotRunning
  else if String.eqb name "MaximumInstancesError" then
    XMaxInstances (match field_of "task_id" b with JStr (String a s) => String a s | _ => "unknown"%string end) (match field_of "max_instances" b with JNum n => n | _ => 0 end)
  else if String.eqb name "ValueError" then XValue message else XRemote message.
(** 613-638 _request; get_task_info and preview_task_runs (744-796) turn TaskLookupError into None *)
Definition receive (c : call) (a : response) : got :=
  match a with
  | Answer status body =>
      if status <? 400 then Got (match body with JObj l => field_of "data" l | _ => JNull end)
      else match c, raise_remote body with
        | CTask _ _, XLookup _ | CPreview _ _ _ _, XLookup _ => Got JNull
        | _, g => g end
  | Crashed | NoRoute => XProtocol
  end.
(** the client talking to the worker *)
Definition remote {St} (exec : op -> St -> St * outcome) (worker_token client_token : option string) (c : call) (s : St) : St * list effect * got :=
  let '(s', es, a) := worker exec worker_token (request_of client_token c) s in (s', es, receive c a).
