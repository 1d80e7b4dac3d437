(** asyncz/locks.py: the processing locks, shared by any number of threads or processes. *)
From Verif Require Import Prelude.

(** ** Thread locks (locks.py:25-46).  [held_by] is the lock object: the thread holding it and how
    often (threading.Lock: [re = false]; threading.RLock: [re = true]).  [blocks] are the protected
    blocks being executed, newest first: the thread and the value it was given ([True] = admitted). *)
Record tlock := MkTlock { held_by : option (nat * nat); blocks : list (nat * bool) }.
Definition unlocked : tlock := MkTlock None [].

(** what a thread does with the lock; [got] is what acquire returned *)
Inductive tact :=
| TEnter (k : nat) (blocking : bool) (timeout : option Z) (got : bool)
| TLeave (k : nat)     (* the block ends normally, by return, break or continue *)
| TRaise (k : nat).    (* an exception leaves the block *)

(** lock.acquire(blocking, timeout) of thread [k]: [None] = it cannot return [got] now.  A failed
    non-blocking attempt returns at once; a blocking one without timeout waits until admitted; one
    with a timeout may also fail.  A timeout on a non-blocking call is a ValueError (CPython). *)
Definition acquirable (re : bool) (k : nat) (o : option (nat * nat)) : bool :=
  match o with None => true | Some (k', _) => re && Nat.eqb k k' end.
Definition acquire (re : bool) (k : nat) (blocking : bool) (timeout : option Z) (got : bool) (o : option (nat * nat)) : option (option (nat * nat)) :=
  match blocking, timeout with
  | false, Some _ => None
  | _, _ =>
    if acquirable re k o then
      if got then Some (match o with None => Some (k, 1) | Some (_, n) => Some (k, S n) end) else None
    else if got then None else match blocking, timeout with true, None => None | _, _ => Some o end
  end.
(** lock.release() *)
Definition release (o : option (nat * nat)) : option (nat * nat) :=
  match o with Some (k, S (S n)) => Some (k, S n) | _ => None end.
(** the innermost block of thread [k] *)
Fixpoint top (k : nat) (l : list (nat * bool)) : option bool :=
  match l with [] => None | (k', b) :: l' => if Nat.eqb k k' then Some b else top k l' end.
Fixpoint pop (k : nat) (l : list (nat * bool)) : list (nat * bool) :=
  match l with [] => [] | (k', b) :: l' => if Nat.eqb k k' then l' else (k', b) :: pop k l' end.

(** locks.py:34-41 [protected]: acquire, yield, release if acquired.  The release comes after the
    yield and outside any try/finally, so an exception thrown in at the yield skips it. *)
Definition tstep (re : bool) (s : tlock) (a : tact) : option tlock :=
  match a with
  | TEnter k blocking timeout got =>
      match acquire re k blocking timeout got (held_by s) with
      | Some o => Some (MkTlock o ((k, got) :: blocks s))
      | None => None
      end
  | TLeave k => match top k (blocks s) with
      | Some got => Some (MkTlock (if got then release (held_by s) else held_by s) (pop k (blocks s)))
      | None => None end
  | TRaise k => match top k (blocks s) with
      | Some _ => Some (MkTlock (held_by s) (pop k (blocks s)))
      | None => None end
  end.
Fixpoint truns (re : bool) (s : tlock) (l : list tact) : option tlock :=
  match l with [] => Some s | a :: l' => match tstep re s a with Some s' => truns re s' l' | None => None end end.

(** ** File locks (locks.py:49-77, file_locking.py:106-120).  One lock path.  [linode] is the file
    the path names now.  Every entry to [protected] opens the path afresh (creating the file if
    absent); flock belongs to that open file.  [opens]: process, open file, its inode and the stage. *)
Inductive lstage := LOpened | LBody (admitted : bool).
Record lopen := MkOpen { lproc : nat; lfile : nat; lino : nat; lst : lstage }.
Record flock := MkFlock { linode : option nat; lfresh : nat; opens : list lopen }.
Definition nolocks : flock := MkFlock None 0 [].

Inductive lact :=
| LOpen (p f : nat)                    (* open(path, "w+"); [f] names the new open file *)
| LLock (f : nat) (blocking : bool)    (* lock(file, LOCK_EX or LOCK_EX|LOCK_NB) *)
| LExit (f : nat) (exc : bool)         (* the block ends, normally or by an exception: unlock, close *)
| LShutdown                            (* os.remove(path), FileNotFoundError suppressed *)
| LDie (p : nat).                      (* the process dies: the kernel closes its files *)

Definition find_open (f : nat) (l : list lopen) : option lopen := find (fun o => Nat.eqb (lfile o) f) l.
Definition is_body (o : lopen) : bool := match lst o with LBody b => b | LOpened => false end.
(** some open file other than [f] holds the flock on inode [i] *)
Definition flocked (f i : nat) (l : list lopen) : bool :=
  existsb (fun o => negb (Nat.eqb (lfile o) f) && Nat.eqb (lino o) i && is_body o) l.
Definition set_open (f : nat) (g : lstage) (l : list lopen) : list lopen :=
  map (fun o => if Nat.eqb (lfile o) f then MkOpen (lproc o) (lfile o) (lino o) g else o) l.
Definition close (f : nat) (l : list lopen) : list lopen := filter (fun o => negb (Nat.eqb (lfile o) f)) l.

Definition lstep (s : flock) (a : lact) : option flock :=
  match a with
  | LOpen p f => match find_open f (opens s) with Some _ => None | None =>
      match linode s with
      | Some i => Some (MkFlock (Some i) (lfresh s) (MkOpen p f i LOpened :: opens s))
      | None => Some (MkFlock (Some (lfresh s)) (S (lfresh s)) (MkOpen p f (lfresh s) LOpened :: opens s))
      end end
  | LLock f blocking => match find_open f (opens s) with
      | Some (MkOpen _ _ i LOpened) =>
          if flocked f i (opens s)
          then if blocking then None (* waits *) else Some (MkFlock (linode s) (lfresh s) (set_open f (LBody false) (opens s)))
          else Some (MkFlock (linode s) (lfresh s) (set_open f (LBody true) (opens s)))
      | _ => None end
  | LExit f _ => match find_open f (opens s) with
      | Some (MkOpen _ _ _ (LBody _)) => Some (MkFlock (linode s) (lfresh s) (close f (opens s)))
      | _ => None end
  | LShutdown => Some (MkFlock None (lfresh s) (opens s))
  | LDie p => Some (MkFlock (linode s) (lfresh s) (filter (fun o => negb (Nat.eqb (lproc o) p)) (opens s)))
  end.
Fixpoint lruns (s : flock) (l : list lact) : option flock :=
  match l with [] => Some s | a :: l' => match lstep s a with Some s' => lruns s' l' | None => None end end.
