(** The start command: asyncz/cli/commands/start.py, with asyncz/cli/utils.py:244-314 (watched files).  An AsyncIOScheduler's shutdown is deferred: it asks the event loop, which does it when
    the command next suspends (asyncz/schedulers/asyncio.py:59-75), and at the latest when the command ends.
    Simplified: what is awaited either suspends once or not at all; an interrupt is one that reaches the coroutine
    (CancelledError or KeyboardInterrupt raised at an await); console output is left out; no option besides those
    named below matters.  Each boot makes a new scheduler (0, 1, 2, ...), except under --bootstrap, for which see
    Bootstrap.v. *)
From Verif Require Import Prelude.
Open Scope Z_scope.

(** ** watched files *)
(** a file system: modification times *)
Definition files := string -> option Z.
Definition targets := list (string * Z).
(** utils.py:257-288: those that exist (an unimportable module is left out) *)
Definition collect (f : files) (paths : list string) : targets :=
  flat_map (fun p => match f p with Some m => [(p, m)] | None => [] end) paths.
(** utils.py:291-314: the answer, and the times to compare with next *)
Fixpoint changed (f : files) (t : targets) : bool * targets :=
  match t with
  | [] => (false, [])
  | (p, m) :: t' =>
      let (b, r) := changed f t' in
      match f p with
      | Some m' => (negb (m' =? m) || b, (p, m') :: r)
      | None => (true, (p, m) :: r)
      end
  end.

(** start.py:115, 125: the targets are collected once, after the first boot, and asked about at every turn *)
Fixpoint polls (fs : list files) (t : targets) : list bool :=
  match fs with [] => [] | f :: fs' => let (b, t') := changed f t in b :: polls fs' t' end.

(** ** the command *)
Inductive outcome := Fine | Fails | Interrupted.
Definition fine (o : outcome) : bool := match o with Fine => true | _ => false end.
(** something awaited: does it suspend, and how does it end *)
Record awaited := MkAwaited { suspends : bool; ends : outcome }.
Record options := MkOptions { o_watch : bool; o_standalone : bool; o_module : bool; o_on_start : bool; o_on_stop : bool }.
(** start.py:82-104: loading the jobs (with the construction of the scheduler), starting, the hook *)
Record boot := MkBoot { b_load : awaited; b_start : outcome; b_hook : awaited }.
(** one turn of the loop, start.py:124-142 *)
Record turn := MkTurn { t_changed : bool; t_stop : awaited; t_reload : outcome; t_boot : boot; t_sleep : outcome }.

(** what happens: a scheduler starts, is asked to stop, stops; a hook is called *)
Inductive event := Started (k : nat) | OnStart | OnStop | Asked (k : nat) | Stopped (k : nat).
(** what happened, the schedulers running, those whose shutdown waits in the event loop, and the number of the next *)
Record world := MkWorld { trace : list event; running : list nat; waiting : list nat; next : nat }.
Definition say (e : event) (w : world) : world := MkWorld (trace w ++ [e]) (running w) (waiting w) (next w).
(** the event loop gets its turn: the shutdowns that wait are done (one of a stopped scheduler raises there, unseen) *)
Fixpoint stop_all (l : list nat) (tr : list event) (run : list nat) : list event * list nat :=
  match l with
  | [] => (tr, run)
  | k :: l' => if existsb (Nat.eqb k) run then stop_all l' (tr ++ [Stopped k]) (filter (fun x => negb (Nat.eqb k x)) run) else stop_all l' tr run
  end.
Definition drain (w : world) : world :=
  let (tr, run) := stop_all (waiting w) (trace w) (running w) in MkWorld tr run [] (next w).
Definition await (a : awaited) (w : world) : world := if suspends a then drain w else w.
(** utils.py:25-37 _call_hook *)
Definition hook (given : bool) (e : event) (a : awaited) (w : world) : world * outcome :=
  if given then (await a (say e w), ends a) else (w, Fine).
(** asyncio.py:70-75 shutdown *)
Definition ask (k : nat) (w : world) : world := let w := say (Asked k) w in MkWorld (trace w) (running w) (waiting w ++ [k]) (next w).
(** start.py:63-106 boot_once; the scheduler is the number before [next] *)
Definition boot_once (o : options) (b : boot) (w : world) : world * outcome :=
  let w := await (b_load b) w in
  if negb (fine (ends (b_load b))) then (w, ends (b_load b)) else
  if negb (fine (b_start b)) then (w, b_start b) else
  let w := say (Started (next w)) w in
  let w := MkWorld (trace w) (running w ++ [next w]) (waiting w) (S (next w)) in
  hook (o_on_start o) OnStart (b_hook b) w.

Inductive status := Going (current : nat) | Ended (o : outcome).
(** start.py:148-151: the finally clause *)
Definition finally (o : options) (last : awaited) (current : nat) (cause : outcome) (w : world) : world * status :=
  let (w, h) := hook (o_on_stop o) OnStop last w in
  if fine h then (drain (ask current w), Ended cause) else (drain w, Ended h).
(** start.py:144-146: an interrupt ends the loop, other exceptions go on after the finally clause *)
Definition caught (e : outcome) : outcome := match e with Interrupted => Fine | _ => e end.
(** start.py:122-151: the loop; [Going]: it has not ended after these turns *)
Fixpoint loop (o : options) (last : awaited) (ts : list turn) (current : nat) (w : world) : world * status :=
  match ts with
  | [] => (w, Going current)
  | t :: ts' =>
      let '(w, current, r) :=
        if o_watch o && t_changed t then
          let (w, h) := hook (o_on_stop o) OnStop (t_stop t) w in
          if negb (fine h) then (w, current, h) else
          let w := ask current w in
          if o_module o && negb (fine (t_reload t)) then (w, current, t_reload t) else
          let '(w, h) := boot_once o (t_boot t) w in
          if negb (fine h) then (w, current, h) else (w, pred (next w), Fine)
        else (w, current, Fine) in
      if negb (fine r) then finally o last current (caught r) w else
      let w := drain w in
      if negb (fine (t_sleep t)) then finally o last current (caught (t_sleep t)) w else loop o last ts' current w
  end.
Definition nothing : world := MkWorld [] [] [] 0.
(** start.py:108-151 run_forever *)
Definition start (o : options) (first : boot) (ts : list turn) (last : awaited) : world * status :=
  let (w, h) := boot_once o first nothing in
  if negb (fine h) then (drain w, Ended h) else
  let current := pred (next w) in
  if negb (o_watch o) && negb (o_standalone o) then finally o last current Fine w
  else loop o last ts current w.
