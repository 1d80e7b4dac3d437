(** How the dashboard learns what schedulers do: events.py:165-338 and history.py:317-359, 435-470 of
    asyncz/contrib/dashboard, over schedulers/base.py:463-490, 1394-1412.
    The installation of the two listeners is the same code but for the mask and what is recorded, so it is
    modelled once.  An installation and a dispatch are atomic here, except in [install_remove] and
    [install_add], the two halves of an installation.  Callbacks of user code do not touch the dashboard's
    storages (see [Events] for what they may do to the scheduler). *)
From Verif Require Import Prelude Text Forms Dash Events History Capture Remote.
Open Scope Z_scope.

(** a callback: a listener made by the dashboard (the [k]-th of this process), or the user's *)
Inductive callback := Ours (k : nat) | Theirs (k : nat).
Definition cb_eqb (a b : callback) : bool := match a, b with Ours x, Ours y => Nat.eqb x y | Theirs x, Theirs y => Nat.eqb x y | _, _ => false end.
(** base.py:480-489 remove_listener *)
Fixpoint drop_listener (cb : callback) (ls : list (callback * option Z)) : list (callback * option Z) :=
  match ls with [] => [] | (c, m) :: ls' => if cb_eqb cb c then ls' else (c, m) :: drop_listener cb ls' end.
Definition set_at {A} (f : nat -> A) (k : nat) (v : A) : nat -> A := fun n => if Nat.eqb n k then v else f n.

Section Watch.
  Context {Ev St : Type} (code_of : Ev -> Z) (wmask : Z) (record : nat -> Ev -> St -> St) (clear : St -> St) (blank : St).
  (** schedulers and storages are numbered; [w_made]: the scheduler and the storage each listener made by
      the dashboard is bound to; [w_inst]: _installed_listeners; [w_cur]: _storage *)
  Record wproc := MkW { w_ls : nat -> list (callback * option Z); w_made : list (nat * nat); w_inst : nat -> option nat; w_stores : list St; w_cur : option nat }.
  Definition w_start (stores : list St) : wproc := MkW (fun _ => []) [] (fun _ => None) stores None.
  (** events.py:169-177 get_scheduler_event_storage, history.py:320-328 get_run_history_storage *)
  Definition get_storage (o : option nat) (p : wproc) : nat * wproc :=
    match o, w_cur p with
    | Some i, _ => (i, MkW (w_ls p) (w_made p) (w_inst p) (w_stores p) (Some i))
    | None, Some i => (i, p)
    | None, None => let i := List.length (w_stores p) in (i, MkW (w_ls p) (w_made p) (w_inst p) (w_stores p ++ [blank]) (Some i))
    end.
  (** events.py:180-198, history.py:331-359: up to the removal of the listener installed before.  Its weak
      reference is alive: the listener, held by _installed_listeners, refers to the scheduler. *)
  Definition install_remove (sch : nat) (o : option nat) (p : wproc) : nat * wproc :=
    let (i, p) := get_storage o p in
    (i, match w_inst p sch with
        | Some k => MkW (set_at (w_ls p) sch (drop_listener (Ours k) (w_ls p sch))) (w_made p) (w_inst p) (w_stores p) (w_cur p)
        | None => p
        end).
  Definition install_add (sch i : nat) (p : wproc) : wproc :=
    let k := List.length (w_made p) in
    MkW (set_at (w_ls p) sch (w_ls p sch ++ [(Ours k, Some wmask)])) (w_made p ++ [(sch, i)]) (set_at (w_inst p) sch (Some k)) (w_stores p) (w_cur p).
  Definition install (sch : nat) (o : option nat) (p : wproc) : wproc := let (i, p) := install_remove sch o p in install_add sch i p.
  (** base.py:1404-1412: a mask that is a string ([None]) makes dispatch raise *)
  Fixpoint notify (snap : list (callback * option Z)) (ev : Ev) (p : wproc) : wproc :=
    match snap with
    | [] => p
    | (_, None) :: _ => p
    | (cb, Some m) :: snap' =>
        notify snap' ev
          (if Z.land (code_of ev) m =? 0 then p else
           match cb with
           | Theirs _ => p
           | Ours k => match nth_error (w_made p) k with
                       | Some (s, i) => MkW (w_ls p) (w_made p) (w_inst p) (nth_upd i (record s ev) (w_stores p)) (w_cur p)
                       | None => p
                       end
           end)
    end.
  Definition dispatch_to (sch : nat) (ev : Ev) (p : wproc) : wproc := notify (w_ls p sch) ev p.
  (** what happens in the process *)
  Inductive wop := WInstall (sch : nat) (storage : option nat) | WUse (storage : option nat) | WDispatch (sch : nat) (ev : Ev)
  | WAdd (sch cb : nat) (m : option Z) | WRemove (sch cb : nat) | WClear (storage : nat).
  Definition wstep (p : wproc) (o : wop) : wproc :=
    match o with
    | WInstall sch st => install sch st p
    | WUse st => snd (get_storage st p)
    | WDispatch sch ev => dispatch_to sch ev p
    | WAdd sch cb m => MkW (set_at (w_ls p) sch (w_ls p sch ++ [(Theirs cb, m)])) (w_made p) (w_inst p) (w_stores p) (w_cur p)
    | WRemove sch cb => MkW (set_at (w_ls p) sch (drop_listener (Theirs cb) (w_ls p sch))) (w_made p) (w_inst p) (w_stores p) (w_cur p)
    | WClear i => MkW (w_ls p) (w_made p) (w_inst p) (nth_upd i clear (w_stores p)) (w_cur p)
    end.
  Fixpoint wrun (p : wproc) (ops : list wop) : wproc := match ops with [] => p | o :: ops' => wrun (wstep p o) ops' end.
End Watch.
Arguments WInstall {Ev} sch storage. Arguments WUse {Ev} storage. Arguments WDispatch {Ev} sch ev. Arguments WAdd {Ev} sch cb m. Arguments WRemove {Ev} sch cb. Arguments WClear {Ev} storage.

(** ** what is recorded of an event *)
(** events/base.py: the four classes; texts of times, repr()s and exceptions are given (events.py:306-338
    shorten them); run times are in UTC, so that events and history write them alike.  [s_seen], [s_meta], [s_now]: the clock and what the scheduler says about the task when the
    listener is called. *)
Inductive body :=
| BScheduler
| BTask (task : string) (store ident : option string)
| BSubmission (task : string) (store ident : option string) (times : list string) (source : option string) (coalesced : Z)
| BExecution (task : string) (store ident : option string) (time : option string) (value exc_type exc_message : option string).
Record sevent := MkSEv { s_code : Z; s_alias : option string; s_body : body; s_seen : string; s_meta : meta; s_now : Z; s_result : option string }.
(** events.py:39-57 EVENT_NAMES *)
Definition event_names : list (Z * string) :=
  [(1, "scheduler.started"); (2, "scheduler.shutdown"); (4, "scheduler.paused"); (8, "scheduler.resumed"); (16, "executor.added"); (32, "executor.removed");
   (64, "store.added"); (128, "store.removed"); (256, "task.all_removed"); (512, "task.added"); (1024, "task.removed"); (2048, "task.modified");
   (4096, "task.executed"); (8192, "task.error"); (16384, "task.missed"); (32768, "task.submitted"); (65536, "task.max_instances")]%string.
Definition event_name (c : Z) : string := match find (fun kv => fst kv =? c) event_names with Some kv => snd kv | None => ("event." ++ show_int c)%string end.
(** events.py:240-247 _event_category *)
Definition event_category (b : body) (name : string) : string :=
  match b with
  | BScheduler => if starts_with "executor." name then "executor" else if starts_with "store." name then "store" else "scheduler"
  | _ => "task"
  end.
(** str() of a list of texts without quotes *)
Definition list_text (l : list string) : string := ("[" ++ join ", " (map (fun x => "'" ++ x ++ "'") l) ++ "]")%string.
(** events.py:250-268 _event_details and 289-295 _details_text; values that are None are left out *)
Definition detail (k : string) (v : option string) : list string := match v with Some x => [k; x] | None => [] end.
Definition details_text (b : body) : string :=
  match b with
  | BSubmission _ _ _ times source coalesced =>
      join " " (["source"; if given source then or_empty source else "unknown"; "submitted_run_count"; show_int (Z.of_nat (List.length times)); "coalesced_run_count"; show_int coalesced; "scheduled_run_times"; list_text times])%string
  | BExecution _ _ _ time value et em => join " " (detail "scheduled_run_time" time ++ detail "return_value" value ++ detail "exception_type" et ++ detail "exception_message" em)%list
  | _ => ""%string
  end.
Definition ev_task (b : body) : option string := match b with BScheduler => None | BTask t _ _ | BSubmission t _ _ _ _ _ | BExecution t _ _ _ _ _ _ => Some t end.
Definition ev_store (b : body) : option string := match b with BScheduler => None | BTask _ s _ | BSubmission _ s _ _ _ _ | BExecution _ s _ _ _ _ _ => s end.
Definition ev_ident (b : body) : option string := match b with BScheduler => None | BTask _ _ i | BSubmission _ _ i _ _ _ | BExecution _ _ i _ _ _ _ => i end.
(** base.py:1401-1402: the identity of the scheduler is filled in at dispatch *)
Definition filled (identity : string) (i : option string) : option string := match i with Some x => Some x | None => or_none identity end.
(** events.py:201-237 _event_record, 271-286 _event_id, 298-304 _scheduler_identity *)
Definition make_record (sha : string -> string) (identity : string) (ev : sevent) : event_record :=
  let b := s_body ev in let name := event_name (s_code ev) in
  let who := match b with BScheduler => or_none (strip identity) | _ => filled identity (ev_ident b) end in
  Dash.MkEvent (sha (join "|" [s_seen ev; show_int (s_code ev); or_empty (ev_task b); or_empty (s_alias ev); or_empty (ev_store b); details_text b]))
          (s_code ev) name (event_category b name) (s_alias ev) (ev_task b) (ev_store b) who (details_text b).
(** events.py:101-105 append; the storages with their sizes *)
Definition note_event (sha : string -> string) (identity : nat -> string) (sch : nat) (ev : sevent) (x : nat * list event_record) : nat * list event_record :=
  (fst x, event_append (fst x) (make_record sha (identity sch) ev) (snd x)).
Definition clear_events (x : nat * list event_record) : nat * list event_record := (fst x, []).

(** history.py:345-356 _listener: which report an event is, if any *)
Definition report_of (identity : string) (ev : sevent) : option hevent :=
  let m := MkMeta (m_name (s_meta ev)) (m_callable (s_meta ev)) (m_executor (s_meta ev))
                  (let i := filled identity (ev_ident (s_body ev)) in if given i then i else or_none (strip identity)) in
  match s_body ev with
  | BSubmission t s _ times src c =>
      if (s_code ev =? code KSubmitted) || (s_code ev =? code KMaxInstances) then Some (Submission t s times (s_code ev =? code KMaxInstances) src c m (s_now ev)) else None
  | BExecution t s _ time _ _ _ =>
      if (s_code ev =? code KExecuted) || (s_code ev =? code KError) || (s_code ev =? code KMissed)
      then Some (Execution t s (or_empty time) (if s_code ev =? code KExecuted then OSucceeded else if s_code ev =? code KMissed then OMissed else OFailed) (s_result ev) m (s_now ev))
      else None
  | _ => None
  end.
(** history.py:22 RUN_EVENT_MASK *)
Definition run_mask : Z := Z.lor (code KSubmitted) (Z.lor (code KMaxInstances) (Z.lor (code KExecuted) (Z.lor (code KError) (code KMissed)))).
(** an exception of the storage is caught by dispatch_event; what a failing report leaves behind is not modelled *)
Definition note_run (sha : string -> string) (identity : nat -> string) (sch : nat) (ev : sevent) (x : nat * history) : nat * history :=
  match report_of (identity sch) ev with
  | None => x
  | Some e => (fst x, match handle sha (fst x) e (snd x) with Ok h => h | Err _ => snd x end)
  end.
Definition clear_runs (x : nat * history) : nat * history := (fst x, empty_history).

(** ** the two listeners *)
(** application.py:65-71: events.py:180, events/constants.py ALL_EVENTS; sizes events.py:93, history.py:72 *)
Definition events_run (sha : string -> string) (identity : nat -> string) (sizes : list nat) (ops : list (wop (Ev := sevent))) :=
  wrun s_code all_events (note_event sha identity) clear_events (Z.to_nat 10000, []) (w_start (map (fun n => (n, [])) sizes)) ops.
Definition history_run (sha : string -> string) (identity : nat -> string) (sizes : list nat) (ops : list (wop (Ev := sevent))) :=
  wrun s_code run_mask (note_run sha identity) clear_runs (Z.to_nat 5000, empty_history) (w_start (map (fun n => (n, empty_history)) sizes)) ops.
