(** Threads submitting and completing instances of one task id (executors/base.py:54-95), interleaved
    arbitrarily.  [self.instances] is one dictionary per scheduler (executors/base.py:37-39) while the
    lock is one per executor (line 41).  [self.instances[id] += 1] is a read and a write.  Not modelled:
    re-entrant completion inside do_send_task (DebugExecutor), which runs under the same RLock. *)
From Verif Require Import Prelude.
Open Scope Z_scope.

Inductive stage :=
| SLock (limit : Z) | SCheck (limit : Z) | SSend | SRead | SWrite (reg : Z)     (* lines 64-69 *)
| KLock | KRead | KWrite (reg : Z)                                              (* lines 76-79, 88-91 *)
| Unlock | Finished.
Record thread := MkThread { th_exec : nat; th_stage : stage }.
(** [accepted]: instances handed to the executors; [ending]: completions begun; [ended]: completions
    that updated the counter *)
Record cstate := MkC {
  counter : Z; lock : nat -> option nat; threads : list thread;
  accepted : Z; ending : Z; ended : Z }.
Definition c_init : cstate := MkC 0 (fun _ => None) [] 0 0 0.

Definition set_lock (l : nat -> option nat) (x : nat) (o : option nat) : nat -> option nat := fun y => if Nat.eqb y x then o else l y.
Definition set_thread (i : nat) (th : thread) (l : list thread) : list thread := firstn i l ++ th :: skipn (S i) l.
Definition goes (s : cstate) (i x : nat) (g : stage) : list thread := set_thread i (MkThread x g) (threads s).

(** one step of thread [i], at stage [g] on executor [x] *)
Inductive moves (s : cstate) (i x : nat) : stage -> cstate -> Prop :=
| m_slock m : lock s x = None -> moves s i x (SLock m) (MkC (counter s) (set_lock (lock s) x (Some i)) (goes s i x (SCheck m)) (accepted s) (ending s) (ended s))
| m_full m : m <= counter s -> moves s i x (SCheck m) (MkC (counter s) (lock s) (goes s i x Unlock) (accepted s) (ending s) (ended s))
| m_room m : counter s < m -> moves s i x (SCheck m) (MkC (counter s) (lock s) (goes s i x SSend) (accepted s) (ending s) (ended s))
| m_send : moves s i x SSend (MkC (counter s) (lock s) (goes s i x SRead) (accepted s + 1) (ending s) (ended s))
| m_refused : moves s i x SSend (MkC (counter s) (lock s) (goes s i x Unlock) (accepted s) (ending s) (ended s))
| m_sread : moves s i x SRead (MkC (counter s) (lock s) (goes s i x (SWrite (counter s))) (accepted s) (ending s) (ended s))
| m_swrite r : moves s i x (SWrite r) (MkC (r + 1) (lock s) (goes s i x Unlock) (accepted s) (ending s) (ended s))
| m_klock : lock s x = None -> moves s i x KLock (MkC (counter s) (set_lock (lock s) x (Some i)) (goes s i x KRead) (accepted s) (ending s) (ended s))
| m_kread : moves s i x KRead (MkC (counter s) (lock s) (goes s i x (KWrite (counter s))) (accepted s) (ending s) (ended s))
| m_kwrite r : moves s i x (KWrite r) (MkC (r - 1) (lock s) (goes s i x Unlock) (accepted s) (ending s) (ended s + 1))
| m_unlock : moves s i x Unlock (MkC (counter s) (set_lock (lock s) x None) (goes s i x Finished) (accepted s) (ending s) (ended s)).

(** executors in use satisfy [ok]; a completion begins only for an accepted instance *)
Inductive cstep (ok : nat -> Z -> Prop) (s : cstate) : cstate -> Prop :=
| c_send x m : ok x m -> cstep ok s (MkC (counter s) (lock s) (threads s ++ [MkThread x (SLock m)]) (accepted s) (ending s) (ended s))
| c_end x m : ok x m -> ending s < accepted s -> cstep ok s (MkC (counter s) (lock s) (threads s ++ [MkThread x KLock]) (accepted s) (ending s + 1) (ended s))
| c_move i th s' : nth_error (threads s) i = Some th -> moves s i (th_exec th) (th_stage th) s' -> cstep ok s s'.
Inductive cruns (ok : nat -> Z -> Prop) : cstate -> Prop :=
| cr_init : cruns ok c_init
| cr_step s s' : cruns ok s -> cstep ok s s' -> cruns ok s'.
