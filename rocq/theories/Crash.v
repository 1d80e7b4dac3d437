(** The scheduler process can die at any moment, in particular in the middle of
    [_process_tasks_of_store] (schedulers/base.py:1560-1646): what it has written to a durable store stays,
    everything else - instance counters, pending tasks, memory stores, the executors with the runs handed
    to them - is gone.  A new process is then started with the same stores and executors.
    Simplification: a single store write (add, update or delete of one record) is atomic; what a crash
    inside a write of the file store does is C40. *)
From Verif Require Import Prelude MemStore CallArgs Cron Triggers Task Scheduler Executor SchedSpec.
Open Scope Z_scope.

(** base.py:1587-1626: one due task has been handed to its executor, and its next run time is not stored yet *)
Definition hand_over (c : config) (e : envir) (t : task) (s : sched) : sched :=
  match match t_exec t with Some xa => if dmem xa (execs s) then Some xa else None | None => None end with
  | None => s
  | Some xa =>
      match get_run_times (c_fuel c) (c_oracle c) (draws s) t (e_now e) with
      | Err _ => s
      | Ok (due, k) =>
          match fst (coalesce_run_times (t_coalesce t) due) with
          | [] => w_draws k s
          | times => fst (send_task e xa t times (w_draws k s))
          end
      end
  end.

(** base.py:1587-1637: the states in which the loop over the due tasks can be cut short, by the death of the
    process or by an exception: between two tasks, between handing over and storing, or where a task raised *)
Inductive cut_due (c : config) (e : envir) (alias : string) : list task -> sched -> sched -> Prop :=
| cut_here l s : cut_due c e alias l s s
| cut_handed t l s : cut_due c e alias (t :: l) s (hand_over c e t s)
| cut_raised t l s ev s1 ev1 x : process_one c e alias t (s, ev) = ((s1, ev1), Err x) -> cut_due c e alias (t :: l) s s1
| cut_later t l s ev s1 ev1 s2 : process_one c e alias t (s, ev) = ((s1, ev1), Ok tt) -> cut_due c e alias l s1 s2 ->
    cut_due c e alias (t :: l) s s2.
(** base.py:1662-1671: the loop over the stores, likewise *)
Inductive cut_stores (c : config) (e : envir) : list string -> sched -> sched -> Prop :=
| cuts_here l s : cut_stores c e l s s
| cuts_in a l s x s1 : dget a (stores s) = Some x -> e_busy e a || e_fails e a = false ->
    cut_due c e a (ms_due (s_mem x) (e_now e)) s s1 -> cut_stores c e (a :: l) s s1
| cuts_later a l s w ev s1 ev1 w1 s2 : process_store c e a w (s, ev) = ((s1, ev1), Ok w1) -> cut_stores c e l s1 s2 ->
    cut_stores c e (a :: l) s s2.
(** base.py:1648-1671 process_tasks, cut short *)
Definition cut_pass (c : config) (e : envir) (s s' : sched) : Prop :=
  if e_plock e then s' = s else cut_stores c e (dkeys (stores s)) s s'.

(** what the next process finds of a store *)
Definition reopened (x : store) : store := MkStore (if s_memory x then ms_empty else s_mem x) (s_memory x) 0 0.
(** a new scheduler with the same executors and stores, on which the application makes its calls of
    add_task (base.py:463-615) before it starts it *)
Fixpoint with_execs (l : dict executor) (s : sched) : sched :=
  match l with [] => s | (a, _) :: l' => with_execs l' (fst (add_executor a s)) end.
Fixpoint with_stores (l : dict store) (s : sched) : sched :=
  match l with [] => s | (a, x) :: l' => with_stores l' (fst (add_store a (reopened x) s)) end.
Record added := MkAdded { ad_task : task; ad_replace : bool; ad_next : option (option Z) }.
Fixpoint with_tasks (c : config) (e : envir) (l : list added) (s : sched) : sched :=
  match l with [] => s | a :: l' => with_tasks c e l' (fst (add_task c e (ad_task a) (ad_replace a) (ad_next a) s)) end.
Definition prepared (c : config) (e : envir) (adds : list added) (dead : sched) : sched :=
  with_tasks c e adds (with_stores (stores dead) (with_execs (execs dead) sched_init)).
Definition reborn (c : config) (e : envir) (adds : list added) (dead : sched) : sched * result bool :=
  start c e false (prepared c e adds dead).
