(** Model of asyncz/executors/base.py: completion bookkeeping and the run loop.  send_task
    (executors/base.py:54-69) is in Scheduler.v. *)
From Verif Require Import Prelude Task Scheduler Cron Triggers.
Open Scope Z_scope.

(** executors/base.py:71-95, run_task_success and run_task_error: one instance less; the success
    path then dispatches the events of the run *)
Definition release (id : string) (s : sched) : sched :=
  let n := count id s - 1 in
  if n =? 0 then w_insts (ddel id (insts s)) s else w_insts (dset id n (insts s)) s.
Definition complete (id : string) (events : list event) (s : sched) : sched :=
  let s1 := release id s in w_evs (evs s1 ++ events) s1.

(** What calling the task's function does, at its n-th call: a value, an Exception, or another
    BaseException (SystemExit, KeyboardInterrupt, CancelledError), which the loop does not catch *)
Inductive outcome := Returned (v : pyval) | Raised (e : exn) | Escaped.

(** an execution event: code, scheduled time, value or exception *)
Record xevent := MkX { xe_code : code; xe_time : Z; xe_value : option outcome }.

(** executors/base.py:98-158 run_task (and run_coroutine_task 161-219, same loop).  [clock i] is the
    time read for the i-th run time, [call n] the behaviour of the n-th call.  Answers the events,
    or None if an exception escaped, and how many calls were made. *)
Fixpoint run_loop (grace : option Z) (clock : nat -> Z) (call : nat -> outcome) (i n : nat) (times : list Z) : option (list xevent) * nat :=
  match times with
  | [] => (Some [], n)
  | t :: times' =>
      let missed := match grace with Some g => clock i - t >? g | None => false end in
      if missed then
        let (l, m) := run_loop grace clock call (S i) n times' in (option_map (cons (MkX TASK_MISSED t None)) l, m)
      else
        match call n with
        | Escaped => (None, S n)
        | out =>
            let (l, m) := run_loop grace clock call (S i) (S n) times' in
            (option_map (cons (MkX (match out with Returned _ => TASK_EXECUTED | _ => TASK_ERROR end) t (Some out))) l, m)
        end
  end.
Definition run_task_events (grace : option Z) (clock : nat -> Z) (call : nat -> outcome) (times : list Z) : option (list xevent) * nat :=
  run_loop grace clock call 0 0 times.

(** executors/asyncio.py:44-51 and executors/pool.py:29-38, the callback of a finished run, and
    executors/debug.py:26-31: run_task_success with the events, or run_task_error *)
Definition to_event (id : string) (store : option string) (x : xevent) : event := MkEvent (xe_code x) (Some id) store [xe_time x] 0.
Definition finished (id : string) (store : option string) (r : option (list xevent)) (s : sched) : sched :=
  match r with Some l => complete id (map (to_event id store) l) s | None => complete id [] s end.
