(** Task objects and the variables that hold them.  asyncz/stores/memory.py keeps the Task objects it is given and hands
    out those very objects; the durable stores write a record and build a new object at every look-up
    (stores/redis.py:52-66, stores/sqlalchemy.py, stores/mongo.py, stores/file.py).  Task.update_task
    (tasks/base.py:76-197) changes the object it is called on.  Scheduler.v treats tasks as values; here every Task object
    has an identity, and the calls of schedulers/base.py work on objects, function by function.
    Objects are numbered in the order of their creation.  Simplifications: as in Scheduler.v; a record of a durable store is the value of
    the task (what a round trip keeps is C25); nobody but these calls assigns to the attributes of a Task. *)
From Verif Require Import Prelude MemStore CallArgs Cron Triggers Task Scheduler.
Open Scope Z_scope.

(** stores: [HMem] holds objects, [HDur] holds values; starts and stops as in Scheduler.v *)
Inductive hstore := HMem (m : memstore nat) (starts stops : nat) | HDur (m : memstore task) (starts stops : nat).

(** [hp r]: the attributes of object [r]; [hn]: how many objects there are; [hk]: the rest of the scheduler (its [stores] and [pend] are not used) *)
Record hstate := MkH { hp : nat -> task; hn : nat; hstores : dict hstore; hpend : list (nat * bool * bool); hk : sched }.
Definition on_k (f : sched -> sched) (h : hstate) : hstate := MkH (hp h) (hn h) (hstores h) (hpend h) (f (hk h)).
Definition with_hstores v (h : hstate) : hstate := MkH (hp h) (hn h) v (hpend h) (hk h).
Definition with_hpend v (h : hstate) : hstate := MkH (hp h) (hn h) (hstores h) v (hk h).
(** assignment to the attributes of an object *)
Definition hput (r : nat) (t : task) (h : hstate) : hstate := MkH (fun q => if Nat.eqb q r then t else hp h q) (hn h) (hstores h) (hpend h) (hk h).
(** Task(...), and the objects built by durable stores *)
Definition hnew (t : task) (h : hstate) : hstate * nat := (MkH (fun q => if Nat.eqb q (hn h) then t else hp h q) (S (hn h)) (hstores h) (hpend h) (hk h), hn h).
Definition hid (h : hstate) (r : nat) : string := t_id (hp h r).
Definition hnext (h : hstate) (r : nat) : option Z := t_next (hp h r).

(** stores/memory.py:53-89 and the durable stores, add_task, update_task, delete_task, with the object [r].  The record
    of a durable store does not say "pending" (tasks/base.py:199-213). *)
Definition h_st_add (h : hstate) (x : hstore) (r : nat) : hstore * result unit :=
  match x with
  | HMem m a b => let (m', e) := ms_add (hid h) (hnext h) m r in (HMem m' a b, e)
  | HDur m a b => let (m', e) := ms_add t_id t_next m (set_pending false (hp h r)) in (HDur m' a b, e)
  end.
Definition h_st_update (h : hstate) (x : hstore) (r : nat) (v : task) : hstore * result unit :=
  match x with
  | HMem m a b => let (m', e) := ms_update (hid h) (hnext h) m r in (HMem m' a b, e)
  | HDur m a b => if negb (dmem (hid h r) (ms_index m)) then (x, Err TaskLookupError)
                  else let (m', e) := ms_update t_id t_next m v in (HDur m' a b, e)
  end.
Definition h_st_delete (h : hstate) (x : hstore) (id : string) : hstore * result unit :=
  match x with
  | HMem m a b => let (m', e) := ms_delete (hid h) m id in (HMem m' a b, e)
  | HDur m a b => let (m', e) := ms_delete t_id m id in (HDur m' a b, e)
  end.

(** a call to trigger.get_next_trigger_time *)
Definition h_ask (c : config) (h : hstate) (tr : trigger) (prev : option Z) (now : Z) : hstate * result (option Z) :=
  (on_k (w_draws (S (draws (hk h)))) h, answers (c_fuel c) (c_oracle c) tr now (draws (hk h)) prev).

(** base.py:1371-1392 lookup_task: the object, and the store's alias (None: pending) *)
Fixpoint h_find_pending (h : hstate) (want : option string) (id : string) (l : list (nat * bool * bool)) : option nat :=
  match l with
  | [] => None
  | (r, _, _) :: l' => if String.eqb (hid h r) id && task_in want (hp h r) then Some r else h_find_pending h want id l'
  end.
Fixpoint h_find_store (want : option string) (id : string) (l : dict hstore) : option ((nat + task) * string) :=
  match l with
  | [] => None
  | (alias, x) :: l' =>
      let found := match x with
                   | HMem m _ _ => match ms_lookup m id with Some r => Some (inl r) | None => None end
                   | HDur m _ _ => match ms_lookup m id with Some t => Some (inr t) | None => None end
                   end in
      if wanted want alias then match found with Some o => Some (o, alias) | None => h_find_store want id l' end
      else h_find_store want id l'
  end.
Definition h_lookup (id : string) (want : option string) (h : hstate) : hstate * result (nat * option string) :=
  if stopped (hk h) then
    match h_find_pending h want id (hpend h) with Some r => (h, Ok (r, None)) | None => (h, Err TaskLookupError) end
  else
    match h_find_store want id (hstores h) with
    | Some (inl r, a) => (h, Ok (r, Some a))
    | Some (inr t, a) => let (h', r) := hnew t h in (h', Ok (r, Some a))
    | None => (h, Err TaskLookupError)
    end.
(** base.py:896-908 get_task: the object a caller gets *)
Definition h_get (id : string) (want : option string) (h : hstate) : hstate * option nat :=
  match h_lookup id want h with (h', Ok (r, _)) => (h', Some r) | (h', Err _) => (h', None) end.

(** lookup_store(alias).update_task(object) *)
Definition h_store_update (alias : string) (r : nat) (h : hstate) : hstate * result unit :=
  match dget alias (hstores h) with
  | None => (h, Err KeyError)
  | Some x => let (x', e) := h_st_update h x r (hp h r) in (with_hstores (dset alias x' (hstores h)) h, e)
  end.

(** base.py:1426-1483 real_add_task *)
Definition h_real_add (c : config) (now : Z) (r : nat) (replace start_task : bool) (min_dtime : option Z) (h : hstate) : hstate * result unit :=
  let t := hp h r in
  let '(h1, rn) :=
    match t_next t with
    | None => if start_task then
                let '(h1, a) := h_ask c h (t_trigger t) None now in
                (h1, match a with
                     | Ok (Some x) => Ok (Some (match min_dtime with Some m => Z.max m x | None => x end))
                     | a => a
                     end)
              else (h, Ok None)
    | Some x => (h, Ok (Some (match min_dtime with Some m => Z.max m x | None => x end)))
    end in
  match rn with
  | Err e => (h1, Err e)
  | Ok n =>
      let h2 := hput r (set_next n t) h1 in
      match t_store t with
      | None => (h2, Err AssertionError)
      | Some alias =>
          match dget alias (hstores h2) with
          | None => (h2, Err KeyError)
          | Some x =>
              let added x' :=
                let h3 := hput r (set_pending false (hp h2 r)) (with_hstores (dset alias x' (hstores h2)) h2) in
                (on_k (fun k => let k1 := dispatch (task_event TASK_ADDED (t_id t) (Some alias)) k in wakeup_if (start_task && running k1) k1) h3, Ok tt) in
              match h_st_add h2 x r with
              | (x1, Ok _) => added x1
              | (_, Err ConflictIdError) =>
                  if replace then
                    match h_st_update h2 x r (set_pending false (hp h2 r)) with
                    | (x2, Ok _) => added x2
                    | (_, Err TaskLookupError) => (h2, Ok tt)
                    | (_, Err e) => (h2, Err e)
                    end
                  else (h2, Err ConflictIdError)
              | (_, Err e) => (h2, Err e)
              end
          end
      end
  end.
(** base.py:556-605 add_task with a Task object; it answers that object.  A refused object is marked as submitted all the same (line 558). *)
Definition mark_submitted (t : task) : task :=
  MkTask (t_id t) (t_name t) (t_trigger t) (t_next t) (t_exec t) (t_store t) (t_grace t) (t_coalesce t) (t_max t) (t_fn t) (t_ref t) (t_args t) (t_kwargs t) (t_sched t) (t_pending t) true.
Definition h_add (c : config) (e : envir) (r : nat) (replace : bool) (next : option (option Z)) (h : hstate) : hstate * result unit :=
  let t := hp h r in
  if t_submitted t then (h, Err AssertionError)
  else if match t_sched t with Some k => negb (Nat.eqb k (c_self c)) | None => false end then (hput r (mark_submitted t) h, Err ValueError)
  else
    let h1 := hput r (with_default_aliases (c_self c) (given_next next t)) h in
    if stopped (hk h) then (with_hpend (hpend h ++ [(r, replace, starts next)]) h1, Ok tt)
    else h_real_add c (e_now e) r replace (starts next) None h1.

(** base.py:647-688 update_task (by id); answers the object *)
Definition h_update (c : config) (id : string) (want : option string) (fn : pyval) (ups : dict pyval) (h : hstate) : hstate * result nat :=
  match h_lookup id want h with
  | (h1, Err e) => (h1, Err e)
  | (h1, Ok (r, where_)) =>
      match update_task (c_tenv c) (hp h1 r) (Some (c_self c)) fn ups with
      | (_, Err e) => (h1, Err e)
      | (t', Ok _) =>
          let h2 := hput r t' h1 in
          match match where_ with Some alias => h_store_update alias r h2 | None => (h2, Ok tt) end with
          | (h3, Err e) => (h3, Err e)
          | (h3, Ok _) => (on_k (fun k => let k1 := dispatch (task_event TASK_MODIFIED id where_) k in wakeup_if (running k1) k1) h3, Ok r)
          end
      end
  end.
(** base.py:690-720 *)
Definition h_reschedule (c : config) (e : envir) (id : string) (want : option string) (tr : trigger) (h : hstate) : hstate * result nat :=
  match h_ask c h tr None (e_now e) with
  | (h1, Err x) => (h1, Err x)
  | (h1, Ok n) => h_update c id want VNone [("trigger"%string, VTrigger tr); ("next_run_time"%string, opt_date n)] h1
  end.
Definition h_pause (c : config) (id : string) (want : option string) (h : hstate) : hstate * result nat :=
  h_update c id want VNone [("next_run_time"%string, VNone)] h.
(** base.py:1175-1214 delete_task *)
Fixpoint h_del_pending (h : hstate) (want : option string) (id : string) (l : list (nat * bool * bool)) : list (nat * bool * bool) * option (option string) :=
  match l with
  | [] => ([], None)
  | (r, a, b) :: l' =>
      if String.eqb (hid h r) id && task_in want (hp h r) then (l', Some (t_store (hp h r)))
      else let (l2, x) := h_del_pending h want id l' in ((r, a, b) :: l2, x)
  end.
Fixpoint h_del_stores (h : hstate) (want : option string) (id : string) (l : dict hstore) : dict hstore * option string :=
  match l with
  | [] => ([], None)
  | (alias, x) :: l' =>
      if wanted want alias then
        match h_st_delete h x id with
        | (x', Ok _) => ((alias, x') :: l', Some alias)
        | (_, Err _) => let (l2, r) := h_del_stores h want id l' in ((alias, x) :: l2, r)
        end
      else let (l2, r) := h_del_stores h want id l' in ((alias, x) :: l2, r)
  end.
Definition h_delete (id : string) (want : option string) (h : hstate) : hstate * result unit :=
  if String.eqb id "" then (h, Ok tt)
  else
    let '(h1, found) :=
      if stopped (hk h) then
        let (l, r) := h_del_pending h want id (hpend h) in (with_hpend l h, match r with Some a => a | None => None end)
      else let (l, r) := h_del_stores h want id (hstores h) in (with_hstores l h, r) in
    match found with
    | None => (h1, Err TaskLookupError)
    | Some alias => (on_k (dispatch (task_event TASK_REMOVED id (Some alias))) h1, Ok tt)
    end.
(** base.py:722-744 resume_task; [Ok None]: removed *)
Definition h_resume (c : config) (e : envir) (id : string) (want : option string) (h : hstate) : hstate * result (option nat) :=
  match h_lookup id want h with
  | (h1, Err x) => (h1, Err x)
  | (h1, Ok (r, where_)) =>
      match h_ask c h1 (t_trigger (hp h1 r)) None (e_now e) with
      | (h2, Err x) => (h2, Err x)
      | (h2, Ok (Some n)) =>
          let (h3, e3) := h_update c id where_ VNone [("next_run_time"%string, VDate n)] h2 in
          (h3, match e3 with Ok q => Ok (Some q) | Err x => Err x end)
      | (h2, Ok None) => let (h3, e3) := h_delete (hid h2 r) where_ h2 in
                         (h3, match e3 with Ok _ => Ok None | Err x => Err x end)
      end
  end.
(** base.py:1216-1234 remove_all_tasks *)
Definition h_clear_store (x : hstore) : hstore := match x with HMem _ a b => HMem ms_empty a b | HDur _ a b => HDur ms_empty a b end.
Definition h_remove_all (want : option string) (h : hstate) : hstate :=
  let h1 :=
    if stopped (hk h) then
      with_hpend (match want with
                  | Some w => if String.eqb w "" then [] else filter (fun p => negb (task_in (Some w) (hp h (fst (fst p))))) (hpend h)
                  | None => []
                  end) h
    else with_hstores (map (fun ax => (fst ax, if wanted want (fst ax) then h_clear_store (snd ax) else snd ax)) (hstores h)) h in
  on_k (dispatch (sched_event ALL_TASKS_REMOVED want)) h1.

(** base.py:1587-1637, one due task; [r]: the object the store gave out *)
Definition h_process_one (c : config) (e : envir) (alias : string) (r : nat) (se : hstate * list event) : (hstate * list event) * result unit :=
  let '(h, ev) := se in
  let now := e_now e in
  let t := hp h r in
  match match t_exec t with Some xa => if dmem xa (execs (hk h)) then Some xa else None | None => None end with
  | None => let (h1, x) := h_delete (t_id t) (Some alias) h in ((h1, ev), x)
  | Some xa =>
      match get_run_times (c_fuel c) (c_oracle c) (draws (hk h)) t now with
      | Err x => ((h, ev), Err x)
      | Ok (due, k) =>
          let h := on_k (w_draws k) h in
          let '(times, n) := coalesce_run_times (t_coalesce t) due in
          match last_opt times with
          | None => ((h, ev), Ok tt)
          | Some lastt =>
              let (k1, res) := send_task e xa t times (hk h) in
              let h1 := on_k (fun _ => k1) h in
              let ev1 := match res with
                         | Ok _ => ev ++ [MkEvent TASK_SUBMITTED (Some (t_id t)) (Some alias) times n]
                         | Err MaximumInstancesError => ev ++ [MkEvent TASK_MAX_INSTANCES (Some (t_id t)) (Some alias) times n]
                         | Err _ => ev
                         end in
              match h_ask c h1 (t_trigger t) (Some lastt) now with
              | (h2, Err x) => ((h2, ev1), Err x)
              | (h2, Ok (Some x)) => let (h3, r3) := h_store_update alias r (hput r (set_next (Some x) t) h2) in ((h3, ev1), r3)
              | (h2, Ok None) => let (h3, r3) := h_delete (t_id t) (Some alias) h2 in ((h3, ev1), r3)
              end
          end
      end
  end.
Fixpoint h_process_due (c : config) (e : envir) (alias : string) (l : list nat) (se : hstate * list event) : (hstate * list event) * result unit :=
  match l with
  | [] => (se, Ok tt)
  | r :: l' =>
      match h_process_one c e alias r se with
      | (se1, Ok _) => h_process_due c e alias l' se1
      | (se1, Err x) => (se1, Err x)
      end
  end.
(** store.get_due_tasks: the objects themselves, or new ones *)
Fixpoint h_news (l : list task) (h : hstate) : hstate * list nat :=
  match l with
  | [] => (h, [])
  | t :: l' => let (h1, r) := hnew t h in let (h2, rs) := h_news l' h1 in (h2, r :: rs)
  end.
Definition h_due (x : hstore) (now : Z) (h : hstate) : hstate * list nat :=
  match x with HMem m _ _ => (h, ms_due m now) | HDur m _ _ => h_news (ms_due m now) h end.
Definition h_next_run_time (h : hstate) (x : hstore) : option Z :=
  match x with HMem m _ _ => ms_next_run_time (hnext h) m | HDur m _ _ => ms_next_run_time t_next m end.
(** base.py:1560-1646 _process_tasks_of_store *)
Definition h_process_store (c : config) (e : envir) (alias : string) (w : option Z) (se : hstate * list event) : (hstate * list event) * result (option Z) :=
  let '(h, ev) := se in
  match dget alias (hstores h) with
  | None => (se, Ok w)
  | Some x =>
      if e_busy e alias || e_fails e alias then (se, Ok (sooner w (e_now e + c_retry c)))
      else
        let (h0, rs) := h_due x (e_now e) h in
        match h_process_due c e alias rs (h0, ev) with
        | (se1, Err x) => (se1, Err x)
        | ((h1, ev1), Ok _) =>
            let n := match dget alias (hstores h1) with Some x1 => h_next_run_time h1 x1 | None => None end in
            ((h1, ev1),
             Ok (match n, w with
                 | Some t, None => Some t
                 | Some t, Some y => if t <? y then Some t else Some y
                 | None, _ => w
                 end))
        end
  end.
Fixpoint h_process_stores (c : config) (e : envir) (aliases : list string) (w : option Z) (se : hstate * list event) : (hstate * list event) * result (option Z) :=
  match aliases with
  | [] => (se, Ok w)
  | a :: l' =>
      match h_process_store c e a w se with
      | (se1, Ok w1) => h_process_stores c e l' w1 se1
      | (se1, Err x) => (se1, Err x)
      end
  end.
(** base.py:1648-1699 process_tasks *)
Definition h_process (c : config) (e : envir) (h : hstate) : hstate * result (option Z) :=
  if sstate_eqb (st (hk h)) PAUSED then (h, Ok None)
  else
    let now := e_now e in
    match (if e_plock e then ((h, []), Ok (sooner None (now + c_retry c)))
           else h_process_stores c e (dkeys (hstores h)) None (h, [])) with
    | ((h1, _), Err x) => (h1, Err x)
    | ((h1, ev), Ok w) =>
        let h2 := on_k (fun k => w_evs (evs k ++ ev) k) h1 in
        (h2, Ok (if sstate_eqb (st (hk h2)) PAUSED then None
                 else match w with
                      | None => if c_lock_path c then Some (c_retry c) else None
                      | Some t => Some (Z.min (Z.max (t - now) 0) (c_timeout_max c))
                      end))
    end.

(** base.py:223-226: the pending objects are installed; the list stays as it is until all of them are (line 227) *)
Fixpoint h_add_pending (c : config) (now : Z) (min_dtime : option Z) (l : list (nat * bool * bool)) (h : hstate) : hstate * result unit :=
  match l with
  | [] => (h, Ok tt)
  | (r, replace, start_task) :: l' =>
      match h_real_add c now r replace start_task min_dtime h with
      | (h1, Ok _) | (h1, Err ConflictIdError) => h_add_pending c now min_dtime l' h1
      | (h1, Err e) => (h1, Err e)
      end
  end.
Definition h_st_start (x : hstore) : hstore := match x with HMem m a b => HMem m (S a) b | HDur m a b => HDur m (S a) b end.
(** base.py:416-446 add_store of a new store *)
Definition h_add_store (alias : string) (memory : bool) (h : hstate) : hstate * result unit :=
  if dmem alias (hstores h) then (h, Err ValueError)
  else
    let x := if memory then HMem ms_empty 0 0 else HDur ms_empty 0 0 in
    let x := if stopped (hk h) then x else h_st_start x in
    let h1 := on_k (dispatch (sched_event STORE_ADDED (Some alias))) (with_hstores (dset alias x (hstores h)) h) in
    (on_k (wakeup_if (running (hk h1))) h1, Ok tt).
(** base.py:192-236 start *)
Definition h_start (c : config) (e : envir) (paused : bool) (h : hstate) : hstate * result bool :=
  let h := on_k (fun k => w_refc (refc k + 1) k) h in
  if refc (hk h) >? 1 then (h, Ok false)
  else if negb (stopped (hk h)) then (h, Err AssertionError)
  else
    let h := on_k (fun k => let k := if dmem "default" (execs k) then k else fst (add_executor "default" k) in w_execs (map_dict x_start (execs k)) k) h in
    let min_dtime := if c_lock_path c then Some (e_now e + c_startup_delay c) else None in
    let h := if dmem "default" (hstores h) then h else fst (h_add_store "default" true h) in
    let h := with_hstores (map (fun ax => (fst ax, h_st_start (snd ax))) (hstores h)) h in
    match h_add_pending c (e_now e) min_dtime (hpend h) h with
    | (h, Err x) => (h, Err x)
    | (h, Ok _) =>
        let h := with_hpend [] h in
        (on_k (fun k => wakeup_if (negb paused) (dispatch (sched_event SCHEDULER_START None) (w_st (if paused then PAUSED else RUNNING) k))) h, Ok true)
    end.

(** tasks/types.py:88-135: what a caller does with the Task it holds; [Ok tt]: the call answers the object itself.
    An object that belongs to no scheduler does nothing; calls on another scheduler do not concern this one. *)
Inductive move := MPause | MResume | MReschedule (tr : trigger) | MUpdate (fn : pyval) (ups : dict pyval) | MDelete.
Definition void {A} (x : hstate * result A) : hstate * result unit := (fst x, match snd x with Ok _ => Ok tt | Err e => Err e end).
Definition handle (c : config) (e : envir) (r : nat) (a : move) (h : hstate) : hstate * result unit :=
  let t := hp h r in
  match t_sched t with
  | None => (h, Ok tt)
  | Some k =>
      if negb (Nat.eqb k (c_self c)) then (h, Ok tt) else
      match a with
      | MPause => void (h_pause c (t_id t) (t_store t) h)
      | MResume => void (h_resume c e (t_id t) (t_store t) h)
      | MReschedule tr => void (h_reschedule c e (t_id t) (t_store t) tr h)
      | MUpdate fn ups => void (h_update c (t_id t) (t_store t) fn ups h)
      | MDelete => void (h_delete (t_id t) (t_store t) h)
      end
  end.

(** a program around one scheduler: [CNew]: Task(...) *)
Inductive call :=
| CNew (t : task) | CAdd (r : nat) (replace : bool) (next : option (option Z))
| CGet (id : string) (want : option string) | CUpdate (id : string) (want : option string) (fn : pyval) (ups : dict pyval)
| CReschedule (id : string) (want : option string) (tr : trigger) | CResume (id : string) (want : option string)
| CDelete (id : string) (want : option string) | CClear (want : option string)
| CHandle (r : nat) (a : move) | CStore (alias : string) (memory : bool) | CStart (paused : bool) | CPass.
Definition h_call (c : config) (e : envir) (o : call) (h : hstate) : hstate * result unit :=
  match o with
  | CNew t => (fst (hnew t h), Ok tt)
  | CAdd r replace next => if Nat.ltb r (hn h) then h_add c e r replace next h else (h, Err TypeError)
  | CGet id want => (fst (h_get id want h), Ok tt)
  | CUpdate id want fn ups => void (h_update c id want fn ups h)
  | CReschedule id want tr => void (h_reschedule c e id want tr h)
  | CResume id want => void (h_resume c e id want h)
  | CDelete id want => void (h_delete id want h)
  | CClear want => (h_remove_all want h, Ok tt)
  | CHandle r a => if Nat.ltb r (hn h) then handle c e r a h else (h, Err TypeError)
  | CStore alias memory => h_add_store alias memory h
  | CStart paused => void (h_start c e paused h)
  | CPass => void (h_process c e h)
  end.
Fixpoint h_calls (c : config) (l : list (envir * call)) (h : hstate) : hstate * list (result unit) :=
  match l with
  | [] => (h, [])
  | (e, o) :: l' => let (h1, x) := h_call c e o h in let (h2, xs) := h_calls c l' h1 in (h2, x :: xs)
  end.
Definition h_empty (c : config) : hstate := MkH (fun _ => MkTask "" "" TShutdown None None None None false 1 None None VNone VNone None true false) 0 [] [] sched_init.
