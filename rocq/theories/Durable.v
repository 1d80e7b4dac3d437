(** Models of the durable stores' task operations, as seen by one process:
    asyncz/stores/sqlalchemy.py, mongo.py, redis.py, file.py.
    Common simplifications: the back end (SQL engine, MongoDB server, Redis server, file system) is
    modelled by its documented behaviour (uniqueness of keys, ORDER BY, null handling, sorted sets);
    where the back end leaves an order open, any order is possible ([pm]).  Serialisation is
    [ser] (pickle of the task state, encrypted with [nonce] when a key is set; may raise) and [de]
    (None when restoring raises).  Time stamps are exact instants (the code stores
    [datetime.timestamp()], a float that is exact to the microsecond until the year 2242).
    A next run time is never falsy, so [task.next_run_time or None] is [tnext]. *)
From Verif Require Import Prelude MemStore SortList.
Open Scope Z_scope.

(** what the environment decides at each operation: the order in which the back end yields rows it
    is free to order, and the random nonce of the encryption *)
Record senv := MkEnv { pm : forall A : Type, list A -> list A; nonce : string }.

Section Durable.
  Context {T : Type} (tid : T -> string) (tnext : T -> option Z).
  Context (ser : string -> T -> result string) (de : string -> option T).

  (** rebuild_task over rows (sqlalchemy.py:97-111, mongo.py:84-99, redis.py:76-95, file.py:101-112):
      the restored tasks and the keys of the rows that could not be restored *)
  Fixpoint rebuild (rows : list (string * string)) : list T * list string :=
    match rows with
    | [] => ([], [])
    | (k, b) :: rows' =>
        let (ts, failed) := rebuild rows' in
        match de b with Some t => (t :: ts, failed) | None => (ts, k :: failed) end
    end.
  Definition drop_all {V} (ks : list string) (d : dict V) : dict V :=
    filter (fun kv => negb (existsb (String.eqb (fst kv)) ks)) d.

  (** ** SQLAlchemy and MongoDB: a table id -> (next_run_time, state) *)
  Definition table := dict (option Z * string).
  Definition row := (string * (option Z * string))%type.
  Definition row_key (r : row) : string * string := (fst r, snd (snd r)).
  Definition nulls_last (a b : row) : bool := negb (tltb (fst (snd b)) (fst (snd a))).
  (** ascending, missing values first (MongoDB) *)
  Definition nulls_first (a b : row) : bool :=
    match fst (snd a), fst (snd b) with None, _ => true | Some _, None => false | Some x, Some y => x <=? y end.
  Definition next_lte (now : Z) (r : row) : bool := match fst (snd r) with Some x => x <=? now | None => false end.
  Definition has_next (r : row) : bool := match fst (snd r) with Some _ => true | None => false end.

  (** sqlalchemy.py:86-111 get_tasks *)
  Definition sql_get (e : senv) (cond : row -> bool) (limit : nat) (tbl : table) : table * list T :=
    let rows := isort nulls_last (filter cond (pm e row tbl)) in
    let rows := if Nat.eqb limit 0 then rows else firstn limit rows in
    let (ts, failed) := rebuild (map row_key rows) in (drop_all failed tbl, ts).
  (** sqlalchemy.py:128-140 add_task (the state is built before the INSERT) *)
  Definition sql_add (e : senv) (t : T) (tbl : table) : table * sout T :=
    match ser (nonce e) t with
    | Err x => (tbl, ORaise x)
    | Ok b => if dmem (tid t) tbl then (tbl, ORaise ConflictIdError) else (tbl ++ [(tid t, (tnext t, b))], ODone)
    end.
  (** sqlalchemy.py:142-158 update_task *)
  Definition sql_update (e : senv) (t : T) (tbl : table) : table * sout T :=
    match ser (nonce e) t with
    | Err x => (tbl, ORaise x)
    | Ok b => if dmem (tid t) tbl then (dset (tid t) (tnext t, b) tbl, ODone) else (tbl, ORaise TaskLookupError)
    end.
  (** sqlalchemy.py:160-167 delete_task *)
  Definition sql_delete (id : string) (tbl : table) : table * sout T :=
    if dmem id tbl then (ddel id tbl, ODone) else (tbl, ORaise TaskLookupError).
  (** sqlalchemy.py:113-123 get_next_run_time *)
  Definition sql_next (e : senv) (tbl : table) : option Z :=
    match isort nulls_last (filter has_next (pm e row tbl)) with [] => None | r :: _ => fst (snd r) end.
  (** sqlalchemy.py:70-72 lookup_task, 82-84 get_due_tasks, 125-126 get_all_tasks, 169-171 remove_all_tasks *)
  Definition sql_step (tbl : table) (eo : senv * sop T) : table * sout T :=
    let (e, o) := eo in
    match o with
    | SAdd t => sql_add e t tbl
    | SUpdate t => sql_update e t tbl
    | SDelete id => sql_delete id tbl
    | SClear => ([], ODone)
    | SLookup id => let (tbl', ts) := sql_get e (fun r => String.eqb (fst r) id) 1 tbl in (tbl', OTask (match ts with [] => None | t :: _ => Some t end))
    | SAll => let (tbl', ts) := sql_get e (fun _ => true) 0 tbl in (tbl', OTasks ts)
    | SDue now => let (tbl', ts) := sql_get e (next_lte now) 0 tbl in (tbl', OTasks ts)
    | SNext => (tbl, OTime (sql_next e tbl))
    end.

  (** mongo.py:80-99 get_tasks *)
  Definition mongo_get (e : senv) (cond : row -> bool) (tbl : table) : table * list T :=
    let (ts, failed) := rebuild (map row_key (isort nulls_first (filter cond (pm e row tbl)))) in (drop_all failed tbl, ts).
  (** stores/base.py:178-192 fix_paused_tasks: the tasks before the first one that has a next run
      time go to the end *)
  Fixpoint split_paused (l : list T) : list T * list T :=
    match l with
    | [] => ([], [])
    | t :: l' => match tnext t with Some _ => ([], l) | None => let (p, r) := split_paused l' in (t :: p, r) end
    end.
  Definition fix_paused (l : list T) : list T := let (p, r) := split_paused l in match r with [] => l | _ => r ++ p end.
  (** mongo.py:64-66 lookup_task (a state that cannot be restored raises), 76-78 get_due_tasks,
      101-107 get_next_run_time, 109-112 get_all_tasks, 114-149 add, update, delete, remove_all *)
  Definition mongo_step (tbl : table) (eo : senv * sop T) : table * sout T :=
    let (e, o) := eo in
    match o with
    | SAdd t => sql_add e t tbl
    | SUpdate t => sql_update e t tbl
    | SDelete id => sql_delete id tbl
    | SClear => ([], ODone)
    | SLookup id => (tbl, match dget id tbl with None => OTask None | Some (_, b) => match de b with Some t => OTask (Some t) | None => ORaise OtherError end end)
    | SAll => let (tbl', ts) := mongo_get e (fun _ => true) tbl in (tbl', OTasks (fix_paused ts))
    | SDue now => let (tbl', ts) := mongo_get e (next_lte now) tbl in (tbl', OTasks ts)
    | SNext => (tbl, OTime (match isort nulls_first (filter has_next (pm e row tbl)) with [] => None | r :: _ => fst (snd r) end))
    end.

  (** ** Redis: a hash id -> state and a sorted set id -> time stamp, ordered by score then member *)
  Record redis := MkRedis { rd_tasks : dict string; rd_times : dict Z }.
  Definition score_le (a b : string * Z) : bool := (snd a <? snd b) || ((snd a =? snd b) && negb (str_ltb (fst b) (fst a))).
  Definition zset (d : dict Z) : list (string * Z) := isort score_le d.
  (** redis.py:76-95 rebuild_tasks; [None] is a member of the sorted set missing from the hash *)
  Fixpoint rd_rebuild (rows : list (string * option string)) : list T * list string :=
    match rows with
    | [] => ([], [])
    | (k, b) :: rows' =>
        let (ts, failed) := rd_rebuild rows' in
        match match b with Some x => de x | None => None end with Some t => (t :: ts, failed) | None => (ts, k :: failed) end
    end.
  Definition rd_drop (ks : list string) (s : redis) : redis := MkRedis (drop_all ks (rd_tasks s)) (drop_all ks (rd_times s)).
  Definition rd_mark (t : T) (times : dict Z) : dict Z := match tnext t with Some x => dset (tid t) x times | None => times end.
  (** redis.py:68-75 get_due_tasks: scores between 0 and now *)
  Definition rd_due (now : Z) (s : redis) : redis * list T :=
    let ids := map fst (filter (fun kv => (0 <=? snd kv) && (snd kv <=? now)) (zset (rd_times s))) in
    let (ts, failed) := rd_rebuild (map (fun k => (k, dget k (rd_tasks s))) ids) in (rd_drop failed s, ts).
  (** redis.py:103-107 get_all_tasks; 9999-12-31 in microseconds since 1970 *)
  Definition paused_key : Z := 253402214400000000.
  Definition all_le (a b : T) : bool :=
    let k t := match tnext t with Some x => x | None => paused_key end in k a <=? k b.
  Definition rd_all (e : senv) (s : redis) : redis * list T :=
    let (ts, failed) := rd_rebuild (map (fun kv => (fst kv, Some (snd kv))) (pm e _ (rd_tasks s))) in (rd_drop failed s, isort all_le ts).
  (** redis.py:109-129 add_task, 131-152 update_task, 154-161 delete_task, 163-167 remove_all_tasks,
      56-58 lookup_task, 97-101 get_next_run_time.  The pipelines are atomic. *)
  Definition redis_step (s : redis) (eo : senv * sop T) : redis * sout T :=
    let (e, o) := eo in
    match o with
    | SAdd t =>
        if String.eqb (tid t) "" then (s, ORaise AssertionError)
        else if dmem (tid t) (rd_tasks s) then (s, ORaise ConflictIdError)
        else match ser (nonce e) t with
             | Err x => (s, ORaise x)
             | Ok b => (MkRedis (dset (tid t) b (rd_tasks s)) (rd_mark t (rd_times s)), ODone)
             end
    | SUpdate t =>
        if String.eqb (tid t) "" then (s, ORaise AssertionError)
        else if negb (dmem (tid t) (rd_tasks s)) then (s, ORaise TaskLookupError)
        else match ser (nonce e) t with
             | Err x => (s, ORaise x)
             | Ok b => (MkRedis (dset (tid t) b (rd_tasks s)) (match tnext t with Some _ => rd_mark t (rd_times s) | None => ddel (tid t) (rd_times s) end), ODone)
             end
    | SDelete id => if dmem id (rd_tasks s) then (MkRedis (ddel id (rd_tasks s)) (ddel id (rd_times s)), ODone) else (s, ORaise TaskLookupError)
    | SClear => (MkRedis [] [], ODone)
    | SLookup id => (s, match dget id (rd_tasks s) with None | Some EmptyString => OTask None | Some b => match de b with Some t => OTask (Some t) | None => ORaise OtherError end end)
    | SAll => let (s', ts) := rd_all e s in (s', OTasks ts)
    | SDue now => let (s', ts) := rd_due now s in (s', OTasks ts)
    | SNext => (s, OTime (match zset (rd_times s) with [] => None | (_, x) :: _ => Some x end))
    end.

  (** ** Files: a directory of regular files, name -> content *)
  Context (suffix : string).
  Definition folder := dict string.
  (** file.py:51-58 check_task_id *)
  Definition forbidden (c : ascii) : bool := existsb (Ascii.eqb c) ["/"%char; "\"%char; ascii_of_nat 0; ":"%char].
  Fixpoint any_char (p : ascii -> bool) (s : string) : bool := match s with EmptyString => false | String c s' => p c || any_char p s' end.
  Definition valid_id (id : string) : bool :=
    negb (match id with String c _ => Ascii.eqb c "."%char | EmptyString => false end) && negb (any_char forbidden id).
  Definition fname (id : string) : string := (id ++ suffix)%string.
  (** [str.endswith] *)
  Fixpoint ends_with (n : string) : bool := String.eqb n suffix || match n with EmptyString => false | String _ n' => ends_with n' end.
  (** file.py:74-83 lookup_task *)
  Definition file_lookup (id : string) (d : folder) : folder * sout T :=
    if negb (valid_id id) then (d, ORaise OtherError)
    else match dget (fname id) d with
         | None => (d, OTask None)
         | Some b => match de b with Some t => (d, OTask (Some t)) | None => (ddel (fname id) d, OTask None) end
         end.
  Definition task_le (a b : T) : bool := negb (tltb (tnext b) (tnext a)).
  (** file.py:100-124 get_tasks.  Ties are broken by st_ctime in the code, here by the order in which
      the directory is scanned, which is arbitrary. *)
  Definition file_tasks (e : senv) (d : folder) : folder * list T :=
    let (ts, failed) := rebuild (filter (fun kv => ends_with (fst kv)) (pm e _ d)) in (drop_all failed d, isort task_le ts).
  (** file.py:126-133 get_next_run_time *)
  Fixpoint next_loop (acc : option Z) (l : list T) : option Z :=
    match l with
    | [] => acc
    | t :: l' => match tnext t with
                 | None => acc
                 | Some x => next_loop (match acc with None => Some x | Some a => if x <=? a then Some x else acc end) l'
                 end
    end.
  (** file.py:138-149 add_task (the file exists before the state is built), 151-163 update_task (the
      file is truncated before the state is built), 165-171 delete_task, 173-175 remove_all_tasks,
      93-98 get_due_tasks *)
  Definition file_step (d : folder) (eo : senv * sop T) : folder * sout T :=
    let (e, o) := eo in
    match o with
    | SAdd t =>
        if negb (valid_id (tid t)) then (d, ORaise OtherError)
        else if dmem (fname (tid t)) d then (d, ORaise ConflictIdError)
        else match ser (nonce e) t with
             | Err x => (dset (fname (tid t)) ""%string d, ORaise x)
             | Ok b => (dset (fname (tid t)) b d, ODone)
             end
    | SUpdate t =>
        if negb (valid_id (tid t)) then (d, ORaise OtherError)
        else if negb (dmem (fname (tid t)) d) then (d, ORaise TaskLookupError)
        else match ser (nonce e) t with
             | Err x => (dset (fname (tid t)) ""%string d, ORaise x)
             | Ok b => (dset (fname (tid t)) b d, ODone)
             end
    | SDelete id =>
        if negb (valid_id id) then (d, ORaise OtherError)
        else if dmem (fname id) d then (ddel (fname id) d, ODone) else (d, ORaise TaskLookupError)
    | SClear => (filter (fun kv => negb (ends_with (fst kv))) d, ODone)
    | SLookup id => file_lookup id d
    | SAll => let (d', ts) := file_tasks e d in (d', OTasks ts)
    | SDue now => let (d', ts) := file_tasks e d in (d', OTasks (filter (fun t => match tnext t with Some x => x <=? now | None => false end) ts))
    | SNext => let (d', ts) := file_tasks e d in (d', OTime (next_loop None ts))
    end.
End Durable.

(** a history of operations on one store *)
Fixpoint d_run {S T} (step : S -> senv * sop T -> S * sout T) (s : S) (os : list (senv * sop T)) : S * list (sout T) :=
  match os with
  | [] => (s, [])
  | o :: os' => let (s', r) := step s o in let (s'', rs) := d_run step s' os' in (s'', r :: rs)
  end.
