(** The file store at the level of file system actions: crash points (asyncz/stores/file.py) and
    interleavings with other processes (file.py and asyncz/file_locking.py:123-127). *)
From Verif Require Import Prelude MemStore SortList Durable.
Open Scope Z_scope.

(** ** Crash points.  Atomic actions on the directory; a file's buffered data reaches it in chunks,
    of which any number (and any last part) may have been written when the process dies. *)
Inductive fsact := FCreate (n : string) | FTruncate (n : string) | FAppend (n chunk : string) | FUnlink (n : string).
Definition fs_apply (d : folder) (a : fsact) : folder :=
  match a with
  | FCreate n => dset n ""%string d
  | FTruncate n => dset n ""%string d
  | FAppend n c => match dget n d with Some b => dset n (b ++ c)%string d | None => d end
  | FUnlink n => ddel n d
  end.
Definition fs_run (l : list fsact) (d : folder) : folder := fold_left fs_apply l d.
Fixpoint join (l : list string) : string := match l with [] => ""%string | c :: l' => (c ++ join l')%string end.

Section Crash.
  Context {T : Type} (tid : T -> string) (ser : string -> T -> result string) (suffix : string).
  (** file.py:138-149 add_task, 151-163 update_task, 165-171 delete_task; [chunks] is how the
      serialised state reaches the file.  Only the writing operations. *)
  Definition fs_actions (e : senv) (chunks : list string) (d : folder) (o : sop T) : list fsact :=
    match o with
    | SAdd t => if valid_id (tid t) && negb (dmem (fname suffix (tid t)) d)
                then FCreate (fname suffix (tid t)) :: match ser (nonce e) t with Ok _ => map (FAppend (fname suffix (tid t))) chunks | Err _ => [] end else []
    | SUpdate t => if valid_id (tid t) && dmem (fname suffix (tid t)) d
                then FTruncate (fname suffix (tid t)) :: match ser (nonce e) t with Ok _ => map (FAppend (fname suffix (tid t))) chunks | Err _ => [] end else []
    | SDelete id => if valid_id id && dmem (fname suffix id) d then [FUnlink (fname suffix id)] else []
    | _ => []
    end.
  (** the chunks make up the state of the task written *)
  Definition chunks_of (e : senv) (chunks : list string) (o : sop T) : Prop :=
    match o with SAdd t | SUpdate t => match ser (nonce e) t with Ok b => join chunks = b | Err _ => True end | _ => True end.
End Crash.

(** ** Interleavings.  Files are inodes; a directory maps names to inodes.  [Writer] is add_task
    (opens with "xb") or update_task (opens with "r+b"): lock, truncate, write, unlock, close.  The
    part [pre] of the data is written before the lock is released, the rest [post] when the file is
    closed at the writer's own position (BufferedWriter keeps up to 8192 bytes, so [pre] is empty for smaller
    states and [post] never is);
    file_locking.py:123-127 releases the lock when the inner [with] ends, before the file is closed.
    [Reader] is lookup_task: open, lock, read, unlock, and on any failure unlink by name. *)
Inductive wstage := WOpen | WLock (i : nat) | WTrunc (i : nat) | WPre (i : nat) | WUnlock (i : nat) | WPost (i : nat) | WDone | WFail.
Inductive rstage := ROpen | RLock (i : nat) | RRead (i : nat) | RUnlock (i : nat) (b : string) | RUnlink | RDone (found : option string).
Inductive proc := Writer (new : bool) (n pre post : string) (g : wstage) | Reader (n : string) (g : rstage).
Record fsys := MkFs {
  dir : dict nat; data : nat -> string; fresh : nat;
  held : list (nat * nat * bool);   (* process, inode, exclusive *)
  procs : list proc }.
Definition set_data (f : nat -> string) (i : nat) (b : string) : nat -> string := fun j => if Nat.eqb j i then b else f j.
(** write at an offset, over what is there (holes are filled with zero bytes) *)
Fixpoint over (off : nat) (c b : string) : string :=
  match off, b with
  | O, _ => (c ++ substring (String.length c) (String.length b - String.length c) b)%string
  | S off', EmptyString => String "000"%char (over off' c ""%string)
  | S off', String a b' => String a (over off' c b')
  end.
Definition write_at (off : nat) (c b : string) : string := if String.eqb c "" then b else over off c b.
Definition set_proc (k : nat) (p : proc) (l : list proc) : list proc := firstn k l ++ p :: skipn (S k) l.
Definition release_lock (k i : nat) (l : list (nat * nat * bool)) : list (nat * nat * bool) :=
  filter (fun x => negb (Nat.eqb (fst (fst x)) k && Nat.eqb (snd (fst x)) i)) l.
Definition may_lock (ex : bool) (i : nat) (l : list (nat * nat * bool)) : Prop :=
  forall k x, In (k, i, x) l -> ex = false /\ x = false.

Section Conc.
  Context {T : Type} (de : string -> option T).
  Inductive fmove (s : fsys) (k : nat) : proc -> fsys -> Prop :=
  | w_create n pre post : dget n (dir s) = None ->
      fmove s k (Writer true n pre post WOpen) (MkFs (dset n (fresh s) (dir s)) (set_data (data s) (fresh s) "") (S (fresh s)) (held s) (set_proc k (Writer true n pre post (WLock (fresh s))) (procs s)))
  | w_open n pre post i : dget n (dir s) = Some i ->
      fmove s k (Writer false n pre post WOpen) (MkFs (dir s) (data s) (fresh s) (held s) (set_proc k (Writer false n pre post (WLock i)) (procs s)))
  | w_fail new n pre post : dmem n (dir s) = new ->
      fmove s k (Writer new n pre post WOpen) (MkFs (dir s) (data s) (fresh s) (held s) (set_proc k (Writer new n pre post WFail) (procs s)))
  | w_lock new n pre post i : may_lock true i (held s) ->
      fmove s k (Writer new n pre post (WLock i)) (MkFs (dir s) (data s) (fresh s) ((k, i, true) :: held s) (set_proc k (Writer new n pre post (WTrunc i)) (procs s)))
  | w_trunc new n pre post i :
      fmove s k (Writer new n pre post (WTrunc i)) (MkFs (dir s) (set_data (data s) i "") (fresh s) (held s) (set_proc k (Writer new n pre post (WPre i)) (procs s)))
  | w_pre new n pre post i :
      fmove s k (Writer new n pre post (WPre i)) (MkFs (dir s) (set_data (data s) i (write_at 0 pre (data s i))) (fresh s) (held s) (set_proc k (Writer new n pre post (WUnlock i)) (procs s)))
  | w_unlock new n pre post i :
      fmove s k (Writer new n pre post (WUnlock i)) (MkFs (dir s) (data s) (fresh s) (release_lock k i (held s)) (set_proc k (Writer new n pre post (WPost i)) (procs s)))
  | w_post new n pre post i :
      fmove s k (Writer new n pre post (WPost i)) (MkFs (dir s) (set_data (data s) i (write_at (String.length pre) post (data s i))) (fresh s) (held s) (set_proc k (Writer new n pre post WDone) (procs s)))
  | r_open n i : dget n (dir s) = Some i ->
      fmove s k (Reader n ROpen) (MkFs (dir s) (data s) (fresh s) (held s) (set_proc k (Reader n (RLock i)) (procs s)))
  | r_absent n : dget n (dir s) = None ->
      fmove s k (Reader n ROpen) (MkFs (dir s) (data s) (fresh s) (held s) (set_proc k (Reader n RUnlink) (procs s)))
  | r_lock n i : may_lock false i (held s) ->
      fmove s k (Reader n (RLock i)) (MkFs (dir s) (data s) (fresh s) ((k, i, false) :: held s) (set_proc k (Reader n (RRead i)) (procs s)))
  | r_read n i :
      fmove s k (Reader n (RRead i)) (MkFs (dir s) (data s) (fresh s) (held s) (set_proc k (Reader n (RUnlock i (data s i))) (procs s)))
  | r_unlock n i b :
      fmove s k (Reader n (RUnlock i b)) (MkFs (dir s) (data s) (fresh s) (release_lock k i (held s))
        (set_proc k (Reader n (match de b with Some _ => RDone (Some b) | None => RUnlink end)) (procs s)))
  | r_unlink n :
      fmove s k (Reader n RUnlink) (MkFs (ddel n (dir s)) (data s) (fresh s) (held s) (set_proc k (Reader n (RDone None)) (procs s))).
  Inductive fruns (s0 : fsys) : fsys -> Prop :=
  | fr_start : fruns s0 s0
  | fr_step s k p s' : fruns s0 s -> nth_error (procs s) k = Some p -> fmove s k p s' -> fruns s0 s'.
End Conc.
(** processes that have not begun, on a directory of separate files *)
Definition starting (p : proc) : Prop := match p with Writer _ _ _ _ WOpen | Reader _ ROpen => True | _ => False end.
Definition separate (s : fsys) : Prop :=
  (forall n m i, dget n (dir s) = Some i -> dget m (dir s) = Some i -> n = m) /\ (forall n i, dget n (dir s) = Some i -> (i < fresh s)%nat).
