(** The links and buttons of the dashboard's task pages: the templates tasks/_table.html:85,109,118,131,141,151,166,190,
    tasks/detail.html:22-25,163, history/partials/table.html:69, history/detail.html:19, and the routes that answer them,
    asyncz/contrib/dashboard/application.py:73-223.
    Between the two stands the browser, which is not part of the code: it resolves the reference against the page's address
    as the URL standard says, and the server undoes the percent-encoding (ASGI).  Text is bytes (UTF-8).
    Trusted: the template engine's escaping is undone by the browser; the router tries routes in order and a parameter of
    type str is one or more characters other than a slash.
    Simplified: a reference that names a host counts as leaving the dashboard, whatever host it names; control characters
    in the decoded path are treated like any other character. *)
From Verif Require Import Prelude Text Remote.
Open Scope string_scope.

(** ** what the pages write *)
Inductive action := Run | Pause | Resume | Remove.
Definition verb (a : action) : string := match a with Run => "run" | Pause => "pause" | Resume => "resume" | Remove => "remove" end.
Inductive link := Details | Edit | Button (a : action) | LogsOf | HistoryOf.
Inductive method := Get | Post.
(** [url_prefix]: Gate.effective_prefix; [suffix]: query_suffix, the filters of the page (_helpers.py:322-325) *)
Definition target (url_prefix suffix : string) (l : link) (id : string) : method * string :=
  match l with
  | Details => (Get, url_prefix ++ "/tasks/" ++ id)
  | Edit => (Get, url_prefix ++ "/tasks/" ++ id ++ "/edit")
  | Button a => (Post, id ++ "/" ++ verb a ++ suffix)
  | LogsOf => (Get, url_prefix ++ "/logs?task_id=" ++ id)
  | HistoryOf => (Get, url_prefix ++ "/history?task_id=" ++ id)
  end.
(** history/partials/table.html:69, tasks/_table.html:85, tasks/detail.html:163 and history/detail.html:19 *)
Definition run_target (url_prefix run_id : string) : method * string := (Get, url_prefix ++ "/history/" ++ run_id).
Definition run_logs_target (url_prefix run_id : string) : method * string := (Get, url_prefix ++ "/logs?run_id=" ++ run_id).

(** ** the browser *)
Definition code_of_char (a : ascii) : N := N_of_ascii a.
Definition low (a : ascii) : bool := N.leb (N_of_ascii a) 32.
Definition tab_or_newline (a : ascii) : bool := existsb (Ascii.eqb a) ["009"; "010"; "013"]%char.
Fixpoint drop_low (s : string) : string := match s with String a s' => if low a then drop_low s' else s | EmptyString => EmptyString end.
Fixpoint drop_low_end (s : string) : string :=
  match s with
  | EmptyString => EmptyString
  | String a s' => match drop_low_end s' with EmptyString => if low a then EmptyString else String a EmptyString | r => String a r end
  end.
Fixpoint without_breaks (s : string) : string :=
  match s with EmptyString => EmptyString | String a s' => if tab_or_newline a then without_breaks s' else String a (without_breaks s') end.
Definition cleaned (s : string) : string := without_breaks (drop_low_end (drop_low s)).
Definition letter (a : ascii) : bool := let n := N_of_ascii a in ((65 <=? n) && (n <=? 90) || (97 <=? n) && (n <=? 122))%N.
Definition digit (a : ascii) : bool := let n := N_of_ascii a in ((48 <=? n) && (n <=? 57))%N.
Definition scheme_char (a : ascii) : bool := letter a || digit a || existsb (Ascii.eqb a) ["+"; "-"; "."]%char.
Fixpoint scheme_rest (s : string) : option (string * string) :=
  match s with
  | EmptyString => None
  | String a s' => if Ascii.eqb a ":" then Some ("", s')
                   else if scheme_char a then match scheme_rest s' with Some (p, r) => Some (String a p, r) | None => None end else None
  end.
(** the scheme a reference begins with, and the rest *)
Definition scheme_of (s : string) : option (string * string) := match s with String a _ => if letter a then scheme_rest s else None | EmptyString => None end.
Definition slash (a : ascii) : bool := Ascii.eqb a "/" || Ascii.eqb a "\".
(** the path, and the query if there is one; a fragment is not sent *)
Fixpoint cut_fragment (s : string) : string := match s with EmptyString => EmptyString | String a s' => if Ascii.eqb a "#" then EmptyString else String a (cut_fragment s') end.
Fixpoint cut_query (s : string) : string * option string :=
  match s with
  | EmptyString => ("", None)
  | String a s' => if Ascii.eqb a "?" then ("", Some s') else let (p, q) := cut_query s' in (String a p, q)
  end.
Fixpoint forward (s : string) : string := match s with EmptyString => EmptyString | String a s' => String (if slash a then "/"%char else a) (forward s') end.
Definition dot (s : string) : bool := existsb (String.eqb (lower s)) ["."; "%2e"].
Definition dot_dot (s : string) : bool := existsb (String.eqb (lower s)) [".."; ".%2e"; "%2e."; "%2e%2e"].
Fixpoint walk (acc segs : list string) : list string :=
  match segs with
  | [] => acc
  | [s] => if dot_dot s then (removelast acc ++ [""])%list else if dot s then (acc ++ [""])%list else (acc ++ [s])%list
  | s :: segs' => if dot_dot s then walk (removelast acc) segs' else if dot s then walk acc segs' else walk (acc ++ [s]) segs'
  end.
(** where a reference leads: elsewhere, or to this server with a path (its segments) and a query *)
Inductive place := Away | Here (path : list string) (query : option string).
(** [dir]: the directory of the page *)
Definition relative (dir : list string) (r : string) : place :=
  let (p, q) := cut_query (cut_fragment r) in
  match p with
  | String a (String b p') => if slash a && slash b then Away
                              else if slash a then Here (walk [] (split_on "/" (forward (String b p')))) q
                              else Here (walk dir (split_on "/" (forward p))) q
  | String a EmptyString => if slash a then Here (walk [] [""]) q else Here (walk dir [p]) q
  | EmptyString => Here (walk dir [""]) q
  end.
(** [scheme]: the page's, http or https *)
Definition resolve (scheme : string) (dir : list string) (ref : string) : place :=
  let r := cleaned ref in
  match scheme_of r with
  | Some (s, rest) => if String.eqb (lower s) scheme then relative dir rest else Away
  | None => relative dir r
  end.
(** what is sent for a character of the path, or of the query *)
Definition escaped (a : ascii) : string := String "%" (String (hex_digit (N_of_ascii a / 16)) (String (hex_digit (N_of_ascii a mod 16)) "")).
Definition path_escapes (a : ascii) : bool := low a || N.leb 127 (N_of_ascii a) || existsb (Ascii.eqb a) [""""; "#"; "<"; ">"; "?"; "`"; "{"; "}"; "^"]%char.
Definition query_escapes (a : ascii) : bool := low a || N.leb 127 (N_of_ascii a) || existsb (Ascii.eqb a) [""""; "#"; "<"; ">"; "'"]%char.
Fixpoint encode (esc : ascii -> bool) (s : string) : string :=
  match s with EmptyString => EmptyString | String a s' => if esc a then escaped a ++ encode esc s' else String a (encode esc s') end.
Definition path_text (segs : list string) : string := concat "" (map (String "/") segs).

(** ** the server *)
(** the query of the request: parse_qsl and dict *)
Fixpoint plus_to_space (s : string) : string := match s with EmptyString => EmptyString | String a s' => String (if Ascii.eqb a "+" then " "%char else a) (plus_to_space s') end.
Fixpoint cut_equals (s : string) : string * string :=
  match s with EmptyString => ("", "") | String a s' => if Ascii.eqb a "=" then ("", s') else let (k, v) := cut_equals s' in (String a k, v) end.
Definition form_text (s : string) : string := unquote (plus_to_space s).
Definition parse_query (q : string) : list (string * string) :=
  map (fun f => let (k, v) := cut_equals f in (form_text k, form_text v)) (filter (fun f => negb (String.eqb f "")) (split_on "&" q)).
(** query_params.get(k) or "": of several values [first] or the last *)
Definition query_param (first : bool) (k : string) (q : option string) : string :=
  match q with
  | None => ""
  | Some q => match dget k (if first then parse_query q else rev (parse_query q)) with Some v => v | None => "" end
  end.

(** what answers: a page of the task pages, with the task its parameter names; the log page or the history page with its
    filter (controllers/logs.py:52-60, history.py:20-30); something else *)
Inductive page := PIndex | PTable | PCreate | PDetail (id : string) | PEdit (id : string) | PBulk (a : action) | PAction (a : action) (id : string)
| PLogs (task run : string) | PHistory (task : string) | PRun (id : string) | PWrongMethod | PElse.
Definition action_of (s : string) : option action :=
  if String.eqb s "run" then Some Run else if String.eqb s "pause" then Some Pause else if String.eqb s "resume" then Some Resume else if String.eqb s "remove" then Some Remove else None.
Definition only (m wanted : method) (p : page) : page := match m, wanted with Get, Get | Post, Post => p | _, _ => PWrongMethod end.
(** application.py:142-210, in order; [goes_on]: the router tries the next route when the method does not fit *)
Definition task_route (goes_on : bool) (m : method) (segs : list string) : page :=
  match segs with
  | [] => PElse
  | [x] => if String.eqb x "" then only m Get PIndex
           else if String.eqb x "create" then match m with Post => PCreate | Get => if goes_on then PDetail x else PWrongMethod end
           else only m Get (PDetail x)
  | [x; y] => if String.eqb x "partials" && String.eqb y "table" then only m Get PTable
              else if String.eqb x "" then PElse
              else if String.eqb y "edit" then PEdit x
              else match action_of y with Some a => only m Post (PAction a x) | None => PElse end
  | [x; y; z] => if String.eqb x "hx" && String.eqb y "bulk" then match action_of z with Some a => only m Post (PBulk a) | None => PElse end else PElse
  | _ => PElse
  end.
(** application.py:117-141 *)
Definition history_route (first : bool) (m : method) (segs : list string) (q : option string) : page :=
  match segs with
  | [x] => if String.eqb x "" then only m Get (PHistory (strip (query_param first "task_id" q))) else only m Get (PRun x)
  | [x; y] => if String.eqb x "partials" && String.eqb y "table" then only m Get PElse else PElse
  | _ => PElse
  end.
Definition logs_route (first : bool) (m : method) (segs : list string) (q : option string) : page :=
  match segs with
  | [x] => if String.eqb x "" then only m Get (PLogs (strip (query_param first "task_id" q)) (strip (query_param first "run_id" q))) else PElse
  | _ => PElse
  end.
(** the router adds a slash that is missing by a redirect, which keeps the query *)
Definition route (goes_on first : bool) (m : method) (segs : list string) (q : option string) : page :=
  match segs with
  | x :: r => let r := match r with [] => [""] | _ => r end in
              if String.eqb x "tasks" then task_route goes_on m r
              else if String.eqb x "history" then history_route first m r q
              else if String.eqb x "logs" then logs_route first m r q else PElse
  | [] => PElse
  end.
Fixpoint under (mount segs : list string) : option (list string) :=
  match mount, segs with
  | [], _ => Some segs
  | m :: mount', s :: segs' => if String.eqb m s then under mount' segs' else None
  | _ :: _, [] => None
  end.
(** the segments of the path the server sees *)
Definition decoded (path : list string) : list string := tl (split_on "/" (unquote (path_text (map (encode path_escapes) path)))).
Definition answers (goes_on first : bool) (mount : list string) (m : method) (p : place) : page :=
  match p with
  | Away => PElse
  | Here path q => match under mount (decoded path) with
                   | Some segs => route goes_on first m segs (match q with Some x => Some (encode query_escapes x) | None => None end)
                   | None => PElse
                   end
  end.
(** the prefix the pages write before their links, when the dashboard is mounted at [mount] (Gate.effective_prefix) *)
Definition prefix_text (mount : list string) : string := match mount with [] => "/" | _ => path_text mount end.
(** following a link of the task list, which is the page [mount]/tasks/ *)
Definition follow (goes_on first : bool) (scheme : string) (mount : list string) (suffix : string) (l : link) (id : string) : page :=
  let (m, ref) := target (prefix_text mount) suffix l id in
  answers goes_on first mount m (resolve scheme (mount ++ ["tasks"]) ref).
Definition follow_run (goes_on first : bool) (scheme : string) (mount here : list string) (t : string -> string -> method * string) (run_id : string) : page :=
  let (m, ref) := t (prefix_text mount) run_id in answers goes_on first mount m (resolve scheme (mount ++ here) ref).
(** tasks/tasks.html:117-126, 133, 149: the buttons for the chosen tasks, the table's own refresh and the form of a new task *)
Inductive control := Bulk (a : action) | Refresh | Create.
Definition control_target (suffix : string) (c : control) : method * string :=
  match c with
  | Bulk a => (Post, "hx/bulk/" ++ verb a ++ suffix)
  | Refresh => (Get, "partials/table" ++ suffix)
  | Create => (Post, "create")
  end.
(** tasks/_table.html:2, 18, 29: the same refresh, and the pages before and after, with their own suffix *)
Definition turn_target (url_prefix suffix : string) : method * string := (Get, url_prefix ++ "/tasks/partials/table" ++ suffix).
Definition press (goes_on first : bool) (scheme : string) (mount : list string) (t : method * string) : page :=
  answers goes_on first mount (fst t) (resolve scheme (mount ++ ["tasks"]) (snd t)).
