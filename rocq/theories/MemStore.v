(** Model of asyncz/stores/memory.py (whole file, lines 12-129).
    Generic in the task type; [tid] is [task.id], [tnext] is [task.next_run_time]
    (instants are exact integers, where the code uses
    [datetime_to_utc_timestamp], asyncz/utils.py:174-182, a float that is exact for microsecond
    instants of this era).  Simplification: tasks are values, so the store's copy of a task only
    changes through the store API (the Python store keeps the live object). *)
From Verif Require Import Prelude.

Section MemStore.
  Context {T : Type} (tid : T -> string) (tnext : T -> option Z).

  (** memory.py:17-20 [__init__]: [self.tasks], [self.tasks_index]. *)
  Record memstore := MkMem {
    ms_tasks : list (T * option Z);
    ms_index : dict (T * option Z) }.

  Definition ms_empty : memstore := MkMem [] [].

  (** memory.py:107-129 [get_task_index]: the binary search loop; [fuel] bounds the number of
      iterations, [None] is fuel exhaustion (proved impossible with fuel [S (length tasks)]). *)
  Fixpoint gti_loop (fuel : nat) (tasks : list (T * option Z)) (ts : option Z) (id : string)
           (low high : nat) : option nat :=
    match fuel with
    | O => None
    | S fuel' =>
        if Nat.ltb low high then
          let mid := (low + high) / 2 in
          match nth_error tasks mid with
          | None => None  (* unreachable: mid < high <= len *)
          | Some (mid_task, mid_ts) =>
              if tltb ts mid_ts then gti_loop fuel' tasks ts id low mid
              else if tltb mid_ts ts then gti_loop fuel' tasks ts id (mid + 1) high
              else if str_ltb id (tid mid_task) then gti_loop fuel' tasks ts id low mid
              else if str_ltb (tid mid_task) id then gti_loop fuel' tasks ts id (mid + 1) high
              else Some mid
          end
        else Some low
    end.
  Definition get_task_index (tasks : list (T * option Z)) (ts : option Z) (id : string) : result nat :=
    match gti_loop (S (List.length tasks)) tasks ts id 0 (List.length tasks) with
    | Some i => Ok i
    | None => Err OtherError
    end.

  (** memory.py:22-23 [lookup_task] *)
  Definition ms_lookup (s : memstore) (id : string) : option T :=
    match dget id (ms_index s) with Some (t, _) => Some t | None => None end.

  (** memory.py:25-34 [get_task] *)
  Definition ms_get_task (s : memstore) (id : string) : result T :=
    match ms_lookup s id with Some t => Ok t | None => Err TaskLookupError end.

  (** memory.py:36-45 [get_due_tasks] *)
  Fixpoint due_loop (now : Z) (l : list (T * option Z)) : list T :=
    match l with
    | [] => []
    | (t, ts) :: l' =>
        match ts with
        | None => []
        | Some x => if Z.ltb now x then [] else t :: due_loop now l'
        end
    end.
  Definition ms_due (s : memstore) (now : Z) : list T := due_loop now (ms_tasks s).

  (** memory.py:47-48 [get_next_run_time] *)
  Definition ms_next_run_time (s : memstore) : option Z :=
    match ms_tasks s with [] => None | (t, _) :: _ => tnext t end.

  (** memory.py:50-51 [get_all_tasks] *)
  Definition ms_all (s : memstore) : list T := map fst (ms_tasks s).

  (** memory.py:53-62 [add_task] *)
  Definition ms_add (s : memstore) (t : T) : memstore * result unit :=
    if dmem (tid t) (ms_index s) then (s, Err ConflictIdError)
    else
      let ts := tnext t in
      match get_task_index (ms_tasks s) ts (tid t) with
      | Err e => (s, Err e)
      | Ok i => (MkMem (insert_at i (t, ts) (ms_tasks s)) (dset (tid t) (t, ts) (ms_index s)), Ok tt)
      end.

  (** memory.py:64-89 [update_task] (an absent id is inserted, lines 70-75) *)
  Definition ms_update (s : memstore) (t : T) : memstore * result unit :=
    let new_ts := tnext t in
    match dget (tid t) (ms_index s) with
    | None =>
        match get_task_index (ms_tasks s) new_ts (tid t) with
        | Err e => (s, Err e)
        | Ok i => (MkMem (insert_at i (t, new_ts) (ms_tasks s)) (dset (tid t) (t, new_ts) (ms_index s)), Ok tt)
        end
    | Some (old, old_ts) =>
        match get_task_index (ms_tasks s) old_ts (tid old) with
        | Err e => (s, Err e)
        | Ok oi =>
            if teqb old_ts new_ts then
              match set_at oi (t, new_ts) (ms_tasks s) with
              | Err e => (s, Err e)
              | Ok l => (MkMem l (dset (tid t) (t, new_ts) (ms_index s)), Ok tt)
              end
            else
              match del_at oi (ms_tasks s) with
              | Err e => (s, Err e)
              | Ok l =>
                  match get_task_index l new_ts (tid t) with
                  | Err e => (MkMem l (ms_index s), Err e)
                  | Ok ni => (MkMem (insert_at ni (t, new_ts) l) (dset (tid t) (t, new_ts) (ms_index s)), Ok tt)
                  end
              end
        end
    end.

  (** memory.py:91-98 [delete_task] *)
  Definition ms_delete (s : memstore) (id : string) : memstore * result unit :=
    match dget id (ms_index s) with
    | None => (s, Err TaskLookupError)
    | Some (_, ts) =>
        match get_task_index (ms_tasks s) ts id with
        | Err e => (s, Err e)
        | Ok i =>
            match del_at i (ms_tasks s) with
            | Err e => (s, Err e)
            | Ok l => (MkMem l (ddel id (ms_index s)), Ok tt)
            end
        end
    end.

  (** memory.py:100-102 [remove_all_tasks]; also memory.py:104-106 [shutdown] *)
  Definition ms_remove_all (s : memstore) : memstore := MkMem [] [].

  (** The store API as one step function (used for histories). *)
  Inductive sop :=
  | SAdd (t : T) | SUpdate (t : T) | SDelete (id : string) | SClear
  | SLookup (id : string) | SAll | SDue (now : Z) | SNext.
  Inductive sout :=
  | ODone | ORaise (e : exn) | OTask (t : option T) | OTasks (l : list T) | OTime (t : option Z).

  Definition out_of (r : result unit) : sout := match r with Ok _ => ODone | Err e => ORaise e end.

  Definition ms_step (s : memstore) (o : sop) : memstore * sout :=
    match o with
    | SAdd t => let (s', r) := ms_add s t in (s', out_of r)
    | SUpdate t => let (s', r) := ms_update s t in (s', out_of r)
    | SDelete id => let (s', r) := ms_delete s id in (s', out_of r)
    | SClear => (ms_remove_all s, ODone)
    | SLookup id => (s, OTask (ms_lookup s id))
    | SAll => (s, OTasks (ms_all s))
    | SDue now => (s, OTasks (ms_due s now))
    | SNext => (s, OTime (ms_next_run_time s))
    end.

  Fixpoint ms_run (s : memstore) (os : list sop) : memstore * list sout :=
    match os with
    | [] => (s, [])
    | o :: os' => let (s', r) := ms_step s o in
                  let (s'', rs) := ms_run s' os' in (s'', r :: rs)
    end.
End MemStore.

Arguments memstore T : clear implicits.
Arguments sop T : clear implicits.
Arguments sout T : clear implicits.
Arguments MkMem {T}.
