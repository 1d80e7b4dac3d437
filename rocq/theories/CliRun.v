(** A command of the asyncz command line without --bootstrap, as one process: asyncz/cli/commands/{list,status,
    doctor,instances,preview,inspect,timeline,update,pause,resume,run,remove,add}.py over the scheduler of
    Scheduler.v, on the event loop that `loop.run_until_complete(main())` runs.

    Nothing in main() waits: the calls of an AsyncIOScheduler are not coroutines, so main() runs to its end in
    one go, and wakeup and shutdown, which run_in_event_loop (schedulers/utils.py:6-17) puts on the loop with
    call_soon_threadsafe, run after it.  When main() ends asyncio puts the callback that stops the loop behind
    them; what is queued later than that is never run. *)
From Verif Require Import Prelude MemStore StoreSpec CallArgs Cron Triggers Task Scheduler Executor SchedSpec.
Open Scope Z_scope.

(** what waits on the loop: the body of wakeup (schedulers/asyncio.py:91-95), the first step of the coroutine of
    submission number [k] (executors/asyncio.py:49-53: create_task), the body of _shutdown (asyncio.py:57-68) *)
Inductive item := IWake | IStep (k : nat) | IStop.
(** [futures]: the executor's pending_futures, by number of the submission; [began], [ended]: the coroutines that
    ran at all, and to their end.  Functions that are not coroutines go to a thread, which is not modelled. *)
Record proc := MkProc { p_sched : sched; p_queue : list item; futures : list nat; began : list nat; ended : list nat }.

Section Command.
  Variable c : config.
  Variable coro : string -> bool.   (* the task with this id is a coroutine function *)
  Variable quick : string -> bool.  (* its coroutine returns without waiting for anything *)

  Definition sub_id (s : sched) (k : nat) : string := match nth_error (subs s) k with Some u => sub_task u | None => EmptyString end.
  (** after a call of the scheduler: each submission is a future (executors/asyncio.py:59-60), that of a coroutine
      has its first step queued; each wakeup() is queued *)
  Definition after_call (s' : sched) (p : proc) : proc :=
    let s := p_sched p in
    let new := seq (List.length (subs s)) (List.length (subs s') - List.length (subs s)) in
    MkProc s' (p_queue p ++ map IStep (filter (fun k => coro (sub_id s' k)) new) ++ repeat IWake (wakes_n s' - wakes_n s))
      (futures p ++ new) (began p) (ended p).
  Definition run_item (e : envir) (p : proc) (i : item) : proc :=
    match i with
    | IWake => after_call (fst (process_tasks c e (p_sched p))) p
    | IStep k =>
        if existsb (Nat.eqb k) (futures p) then
          if quick (sub_id (p_sched p) k)
          then MkProc (p_sched p) (p_queue p) (filter (fun j => negb (Nat.eqb k j)) (futures p)) (began p ++ [k]) (ended p ++ [k])
          else MkProc (p_sched p) (p_queue p) (futures p) (began p ++ [k]) (ended p)
        else p                                                       (* cancelled before it began *)
    | IStop =>                                                       (* executors/asyncio.py:30-35 shutdown cancels the futures *)
        let (s, r) := shutdown (p_sched p) in
        MkProc s (p_queue p) (match r with Ok true => [] | _ => futures p end) (began p) (ended p)
    end.

  (** the commands.  CLook: list, status, doctor, instances, preview, inspect, timeline, which only read (and the
      dry run of update).  CUpdate: update.py:142,172 *)
  Inductive command :=
  | CLook | CUpdate (id : string) (fn : pyval) (ups : dict pyval)
  | CPause (id : string) | CResume (id : string) | CRun (id : string) | CRemove (id : string) | CAdd (t : task).
  (** the call each one makes: pause.py:56, resume.py:56, run.py:56, remove.py:59-62, add.py:94-104; and whether
      the scheduler is shut down although the call raised (try/finally) *)
  Definition body (e : envir) (k : command) (s : sched) : sched * result unit :=
    let done {A} (x : sched * result A) := (fst x, match snd x with Ok _ => Ok tt | Err y => Err y end) in
    match k with
    | CLook => (s, Ok tt)
    | CUpdate id fn ups => match lookup_task id None s with Err x => (s, Err x) | Ok (_, a) => done (update c id a fn ups s) end
    | CPause id => done (pause_task c id None s)
    | CResume id => done (resume_task c e id None s)
    | CRun id => done (run_task c e id None true true s)
    | CRemove id => match lookup_task id None s with Err x => (s, Err x) | Ok (_, a) => done (delete_task id a s) end
    | CAdd t => done (add_task c e t false None s)
    end.
  Definition finally (k : command) : bool := match k with CLook | CUpdate _ _ _ => true | _ => false end.

  (** the process: a new scheduler on the stores [d], started; the call; shutdown; then the loop runs what is
      queued.  [e] is the world while main() runs, [e'] while the loop runs the rest. *)
  Definition fresh (d : dict store) : sched := MkSched STOPPED 0 d [] [] [] [] [] [] 0 0.
  Definition main (e : envir) (k : command) (d : dict store) : proc * result unit :=
    let p := MkProc (fresh d) [] [] [] [] in
    let (s1, r1) := start c e false (p_sched p) in
    let p := after_call s1 p in
    match r1 with
    | Err x => (p, Err x)
    | Ok _ =>
        let (s2, r2) := body e k (p_sched p) in
        let p := after_call s2 p in
        (if (is_ok r2 || finally k)%bool then MkProc (p_sched p) (p_queue p ++ [IStop]) (futures p) (began p) (ended p) else p, r2)
    end.
  Definition run_command (e e' : envir) (k : command) (d : dict store) : proc * result unit :=
    let (p, r) := main e k d in (fold_left (run_item e') (p_queue p) p, r).
End Command.
