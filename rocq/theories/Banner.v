(** The dashboard's flash messages: asyncz/contrib/dashboard/messages.py:6-23, mixins.py:11-28, who adds them
    (controllers/tasks.py:426-437, 628-641, 704-717), and how they are shown: templates/shared/messages.html on whole pages,
    controllers/_helpers.py:166-242 (_collect_messages, _render_messages_oob) before the task table.
    Environment: a browser's session is carried from answer to request (Lilya's SessionMiddleware, a signed cookie); the
    requests of one browser are answered one after the other.  The template engine escapes {{ }} (Lilya switches Jinja's
    autoescape on).  partials/_messages_oob.html is not among the templates, so the built-in rendering is used.  How a
    browser reads HTML is modelled as far as character data, references and tags go; NUL and carriage return apart. *)
From Verif Require Import Prelude Text Task Scheduler Forms Remote TaskPages.
Open Scope string_scope.

Record message := MkMsg { m_level : string; m_text : string }.
(** request.session.get("_messages") *)
Definition session := option (list message).
(** messages.py:6-12 *)
Definition add_message (m : message) (s : session) : session := Some (match s with Some l => l | None => [] end ++ [m])%list.
(** messages.py:15-20: what is returned, and the session left *)
Definition get_messages (s : session) : list message * session := (match s with Some l => l | None => [] end, None).

(** ** requests.  [Whole]: a page that extends layout.html, or the login page; [Table]: the task table (render_table);
    [Part]: the tables of history and logs, whose templates have no place for messages; [Aside]: an answer that does not
    build the context (a redirect, an exception that gets through, the JSON pages) *)
Inductive kind := Whole | Table | Part | Aside.
Record request := MkReq { q_adds : list message; q_kind : kind }.
(** the session afterwards, and the messages the answer shows *)
Definition serve (r : request) (s : session) : session * list message :=
  let s := fold_left (fun s m => add_message m s) (q_adds r) s in
  match q_kind r with
  | Whole | Table => let (ms, s') := get_messages s in (s', ms)
  | Part => let (_, s') := get_messages s in (s', [])
  | Aside => (s, [])
  end.
Fixpoint browse (rs : list request) (s : session) : session * list (list message) :=
  match rs with
  | [] => (s, [])
  | r :: rs' => let (s1, m) := serve r s in let (s2, ms) := browse rs' s1 in (s2, m :: ms)
  end.

(** ** who adds messages *)
(** exceptions.py:87-94 and 23-24 (str: the text, stripped) *)
Definition full_text (id : string) (total : Z) : string :=
  strip ("The task by the id of " ++ id ++ " reached its maximum number of instances " ++ show_int total ++ ".").
(** tasks.py:704-717 and 628-636: what a press of Run adds (executors/base.py:66: the stored task's id and limit) *)
Definition press_messages (c : config) (e : envir) (id : string) (s : sched) : list message :=
  match snd (made c e BRun id s), lookup_task id None s with
  | Err MaximumInstancesError, Ok (t, _) => [MkMsg "warning" (full_text (t_id t) (t_max t))]
  | _, _ => []
  end.
Fixpoint bulk_messages (c : config) (l : list (string * envir)) (s : sched) : list message :=
  match l with
  | [] => []
  | (id, e) :: l' => (press_messages c e id s ++ match press c e BRun id s with (s1, _, None) => bulk_messages c l' s1 | _ => [] end)%list
  end.
(** the request behind the Run buttons: one id or several *)
Definition run_request (c : config) (l : list (string * envir)) (s : sched) : request :=
  MkReq (bulk_messages c l s) (match bulk c BRun l s with (_, _, None) => Table | _ => Aside end).

(** ** what is written *)
(** _helpers.py:205-221 *)
Definition colour (level : string) : string :=
  if String.eqb level "success" then "green" else if String.eqb level "error" then "red" else if String.eqb level "warning" then "yellow" else "blue".
Definition icon (level : string) : string :=
  if String.eqb level "success" then "check-circle" else if String.eqb level "error" then "x-circle" else if String.eqb level "warning" then "alert-triangle" else "info".
(** (m.get("level") or "info").lower() *)
Definition level_of (m : message) : string := lower (if String.eqb (m_level m) "" then "info" else m_level m).
Definition nl : string := String "010" "".
(** 223-236: the text goes in as it is *)
Definition before (i : Z) (level : string) : string :=
  nl ++ "                  <div id=""flash-" ++ show_int i ++ """ class=""relative flex items-start gap-3 p-4 bg-" ++ colour level ++ "-50" ++ nl ++
  "                  border-l-4 border-" ++ colour level ++ "-500 text-" ++ colour level ++ "-700 shadow transition-opacity duration-200"">" ++ nl ++
  "                    <i data-lucide=""" ++ icon level ++ """ class=""w-5 h-5 mt-1 flex-shrink-0""></i>" ++ nl ++
  "                    <div class=""flex-1 leading-relaxed"">".
Definition after (i : Z) (level : string) : string :=
  "</div>" ++ nl ++
  "                    <button type=""button"" data-dismiss-target=""flash-" ++ show_int i ++ """" ++ nl ++
  "                      class=""absolute top-5 right-6 text-xl font-bold leading-none text-" ++ colour level ++ "-700 hover:text-" ++ colour level ++ "-900 focus:outline-none""" ++ nl ++
  "                      aria-label=""Dismiss"">&times;</button>" ++ nl ++
  "                  </div>" ++ nl ++ "                  ".
Fixpoint parts (i : Z) (ms : list message) : string :=
  match ms with [] => "" | m :: ms' => before i (level_of m) ++ m_text m ++ after i (level_of m) ++ parts (i + 1)%Z ms' end.
Definition opening : string := "<div id=""flash-messages"" hx-swap-oob=""true"">".
Definition inner : string := "<div class=""space-y-4 w-full"">".
(** 192-242 *)
Definition render_oob (ms : list message) : string := match ms with [] => opening ++ "</div>" | _ => opening ++ inner ++ parts 1 ms ++ "</div></div>" end.
(** the template engine's escaping of {{ message.text }} (markupsafe.escape) *)
Definition escape_char (a : ascii) : string :=
  if Ascii.eqb a "&" then "&amp;" else if Ascii.eqb a ">" then "&gt;" else if Ascii.eqb a "<" then "&lt;"
  else if Ascii.eqb a "'" then "&#39;" else if Ascii.eqb a """" then "&#34;" else String a "".
Fixpoint escape (s : string) : string := match s with EmptyString => EmptyString | String a s' => escape_char a ++ escape s' end.

(** ** how a browser reads it *)
Definition opens (a : ascii) : bool :=
  let n := N_of_ascii a in ((65 <=? n) && (n <=? 90) || (97 <=? n) && (n <=? 122))%N || existsb (Ascii.eqb a) ["/"; "!"; "?"]%char.
Inductive item := Shown (c : ascii) | Tag (inside : string).
(** [Data]: character data; [InTag]: between < and >; [Skip n]: n more characters belong to a character reference *)
Inductive reading := Data | InTag (sofar : string) | Skip (n : nat).
Section Reads.
  (** the table of character references: the text shown and how many characters after the ampersand it takes *)
  Variable refs : string -> option (string * nat).
  Fixpoint reads (m : reading) (s : string) : list item :=
    match s with
    | EmptyString => []
    | String a s' =>
        match m with
        | Skip (Datatypes.S n) => reads (match n with O => Data | _ => Skip n end) s'
        | InTag t => if Ascii.eqb a ">" then Tag t :: reads Data s' else reads (InTag (t ++ String a "")) s'
        | _ =>
            if Ascii.eqb a "&" then
              match refs s' with Some (t, n) => (map Shown (list_ascii_of_string t) ++ reads (match n with O => Data | _ => Skip n end) s')%list | None => Shown a :: reads Data s' end
            else if Ascii.eqb a "<" then
              match s' with String b _ => if opens b then reads (InTag "") s' else Shown a :: reads Data s' | EmptyString => [Shown a] end
            else Shown a :: reads Data s'
        end
    end.
End Reads.
