(** The asyncio scheduler on its event loop: schedulers/asyncio.py:18-95 and schedulers/utils.py:6-17,
    around the scheduler of Scheduler.v. *)
From Verif Require Import Prelude MemStore Task Scheduler Executor SchedSpec.
Open Scope Z_scope.

(** What waits in the loop's queue (asyncio: FIFO): a call of [wakeup] or [_shutdown] put there by
    run_in_event_loop (utils.py:6-17), or a timer handle that has expired. *)
Inductive callback := QWakeup | QShutdown | QTimer (h : nat).
(** [timers]: handles of call_later not expired yet, with their deadlines; [cancelled]: handles
    cancelled; [timer]: the attribute [self.timer].  [last_pass], which the code does not have: the
    circumstances of the last processing, or that it raised. *)
Inductive passed := NoPass | Passed (e : envir) | Failed.
Record aloop := MkLoop {
  sc : sched; queue : list callback; timers : list (nat * Z); cancelled : list nat;
  timer : option nat; next_handle : nat; last_pass : passed }.
Definition loop_init : aloop := MkLoop sched_init [] [] [] None 0 NoPass.

(** asyncio.py:86-89 stop_timer *)
Definition stop_timer (l : aloop) : aloop :=
  match timer l with
  | Some h => MkLoop (sc l) (queue l) (timers l) (h :: cancelled l) None (next_handle l) (last_pass l)
  | None => l end.
(** asyncio.py:81-84 start_timer.  The deadline is counted from the reading of the clock by
    process_tasks (processing takes no time). *)
Definition start_timer (now : Z) (wait : option Z) (l : aloop) : aloop :=
  let l := stop_timer l in
  match wait with
  | Some d => MkLoop (sc l) (queue l) ((next_handle l, now + d) :: timers l) (cancelled l) (Some (next_handle l)) (S (next_handle l)) (last_pass l)
  | None => l end.
Definition with_sched (s : sched) (l : aloop) : aloop := MkLoop s (queue l) (timers l) (cancelled l) (timer l) (next_handle l) (last_pass l).
Definition with_pass (p : passed) (l : aloop) : aloop := MkLoop (sc l) (queue l) (timers l) (cancelled l) (timer l) (next_handle l) p.
Definition enqueue (q : list callback) (l : aloop) : aloop := MkLoop (sc l) (queue l ++ q) (timers l) (cancelled l) (timer l) (next_handle l) (last_pass l).

(** asyncio.py:91-95, the body of wakeup: an exception of process_tasks skips start_timer (and is
    logged by the loop) *)
Definition run_wakeup (c : config) (e : envir) (l : aloop) : aloop :=
  let l := stop_timer l in
  let (s, r) := process_tasks c e (sc l) in
  let l := with_sched s l in
  match r with
  | Ok d => start_timer (e_now e) d (with_pass (Passed e) l)
  | Err _ => with_pass Failed l end.
(** asyncio.py:57-68, the body of _shutdown, with a loop that is not the scheduler's own thread *)
Definition run_shutdown (l : aloop) : aloop :=
  let (s, r) := shutdown (sc l) in
  let l := with_sched s l in
  match r with Ok true => stop_timer l | _ => l end.

(** what can happen: a public call from anywhere; a timer expires; the loop runs the next callback *)
Inductive aact := ACall (e : envir) (o : op) | AExpire (h : nat) | ARun (e : envir).
Definition astep (c : config) (a : aact) (l : aloop) : aloop :=
  match a with
  | ACall e OShutdown => enqueue [QShutdown] l               (* asyncio.py:70-74 *)
  | ACall e OProcess => l                                    (* not public: only wakeup calls it *)
  | ACall e o => let s := step c e o (sc l) in
      enqueue (repeat QWakeup (wakes_n s - wakes_n (sc l))) (with_sched s l)   (* each wakeup() queues one *)
  | AExpire h =>
      if existsb (fun x => Nat.eqb (fst x) h) (timers l)
      then MkLoop (sc l) (queue l ++ [QTimer h]) (filter (fun x => negb (Nat.eqb (fst x) h)) (timers l)) (cancelled l) (timer l) (next_handle l) (last_pass l)
      else l
  | ARun e =>
      match queue l with
      | [] => l
      | q :: rest =>
          let l := MkLoop (sc l) rest (timers l) (cancelled l) (timer l) (next_handle l) (last_pass l) in
          match q with
          | QWakeup => run_wakeup c e l
          | QShutdown => run_shutdown l
          | QTimer h => if existsb (Nat.eqb h) (cancelled l) then l else enqueue [QWakeup] l   (* the handle calls self.wakeup *)
          end
      end
  end.
Fixpoint arun (c : config) (acts : list aact) (l : aloop) : aloop :=
  match acts with [] => l | a :: acts' => arun c acts' (astep c a l) end.
