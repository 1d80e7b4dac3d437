(** The remote dashboard's stand-in for a task: asyncz/contrib/dashboard/remote.py:52-200 (RemoteTask), used for the preview
    of an edit (controllers/tasks.py:538-545) before the worker is asked to make it.  Values have gone through JSON, so
    tuples are lists.  Simplified: [__repr__] is left out. *)
From Verif Require Import Prelude CallArgs Cron Triggers Task.
Open Scope Z_scope.

(** the parts of TaskInfo (tasks/inspection.py) an edit cannot reach *)
Record fixed := MkFixed { i_id : string; i_callable : option string; i_trigger : trigger; i_next : option Z; i_pending : bool; i_paused : bool; i_submitted : bool; i_store : option string }.
(** and those it can *)
Record meta := MkMeta { m_name : string; m_ref : option string; m_args : pyval; m_kwargs : pyval; m_exec : option string; m_coalesce : bool; m_max : Z; m_grace : option Z }.
Record info := MkInfo { fixed_of : fixed; meta_of : meta }.
(** tasks/types.py:137-180 snapshot: the callable's name, or the last part of the reference *)
Fixpoint after_colon (s : string) (acc : string) : string :=
  match s with EmptyString => acc | String a s' => if Ascii.eqb a ":" then after_colon s' s' else after_colon s' acc end.
Definition snapshot_of (t : task) : info :=
  MkInfo (MkFixed (t_id t)
           (match t_fn t with Some c => Some (c_name c) | None => match t_ref t with Some r => if String.eqb r "" then None else Some (after_colon r r) | None => None end end)
           (t_trigger t) (t_next t) (t_pending t) (match state_of t with PAUSED_T => true | _ => false end) (t_submitted t) (t_store t))
         (MkMeta (t_name t) (t_ref t) (t_args t) (t_kwargs t) (t_exec t) (t_coalesce t) (t_max t) (t_grace t)).

(** remote.py:61-87: the snapshot kept, and the attributes *)
Record proxy := MkProxy { p_info : info; p_meta : meta }.
Definition remote_task (i : info) : proxy := MkProxy i (meta_of i).
(** 176-198 *)
Definition snapshot (p : proxy) : info := MkInfo (fixed_of (p_info p)) (p_meta p).
(** 99-108 *)
Definition model_copy (p : proxy) : proxy := remote_task (snapshot p).

Definition set_name (s : string) (m : meta) : meta := MkMeta s (m_ref m) (m_args m) (m_kwargs m) (m_exec m) (m_coalesce m) (m_max m) (m_grace m).
Definition set_ref (r : option string) (m : meta) : meta := MkMeta (m_name m) r (m_args m) (m_kwargs m) (m_exec m) (m_coalesce m) (m_max m) (m_grace m).
Definition set_args (v : pyval) (m : meta) : meta := MkMeta (m_name m) (m_ref m) v (m_kwargs m) (m_exec m) (m_coalesce m) (m_max m) (m_grace m).
Definition set_kwargs (v : pyval) (m : meta) : meta := MkMeta (m_name m) (m_ref m) (m_args m) v (m_exec m) (m_coalesce m) (m_max m) (m_grace m).
Definition set_exec (v : option string) (m : meta) : meta := MkMeta (m_name m) (m_ref m) (m_args m) (m_kwargs m) v (m_coalesce m) (m_max m) (m_grace m).
Definition set_coalesce (v : bool) (m : meta) : meta := MkMeta (m_name m) (m_ref m) (m_args m) (m_kwargs m) (m_exec m) v (m_max m) (m_grace m).
Definition set_max (v : Z) (m : meta) : meta := MkMeta (m_name m) (m_ref m) (m_args m) (m_kwargs m) (m_exec m) (m_coalesce m) v (m_grace m).
Definition set_grace (v : option Z) (m : meta) : meta := MkMeta (m_name m) (m_ref m) (m_args m) (m_kwargs m) (m_exec m) (m_coalesce m) (m_max m) v.

(** 120-125 *)
Definition edit_name (v : pyval) (m : meta) : result meta :=
  match v with VNone => Ok m | VStr s => if String.eqb s "" then Err TypeError else Ok (set_name s m) | _ => Err TypeError end.
(** 126-130; utils.py obj_to_ref raises for what has no reference *)
Definition edit_fn (v : pyval) (m : meta) : result meta :=
  match v with
  | VStr s => Ok (set_ref (Some s) m)
  | VFn c => match c_ref c with Some r => Ok (set_ref (Some r) m) | None => Err ValueError end
  | _ => Err TypeError
  end.
(** 131-135 *)
Definition edit_args (v : pyval) (m : meta) : result meta := match v with VList _ => Ok (set_args v m) | _ => Err TypeError end.
(** 136-140 *)
Definition edit_kwargs (v : pyval) (m : meta) : result meta := match v with VDict _ => Ok (set_kwargs v m) | _ => Err TypeError end.
(** 141-145 *)
Definition edit_exec (v : pyval) (m : meta) : result meta := match v with VStr s => Ok (set_exec (Some s) m) | _ => Err TypeError end.
(** 146-147 *)
Definition edit_coalesce (v : pyval) (m : meta) : result meta := Ok (set_coalesce (truthy v) m).
(** 148-152; bool is an int *)
Definition edit_max (v : pyval) (m : meta) : result meta :=
  match v with
  | VInt z => if z <=? 0 then Err TypeError else Ok (set_max z m)
  | VBool b => if b then Ok (set_max 1 m) else Err TypeError
  | _ => Err TypeError
  end.
(** 153-161 *)
Definition edit_grace (v : pyval) (m : meta) : result meta :=
  match v with
  | VNone => Ok (set_grace None m)
  | VInt z => if z <=? 0 then Err TypeError else Ok (set_grace (Some (z * us)) m)
  | VFloat x => if x <=? 0 then Err TypeError else Ok (set_grace (Some x) m)
  | VBool b => if b then Ok (set_grace (Some us) m) else Err TypeError
  | _ => Err TypeError
  end.
(** one [if key in updates: ... updates.pop(key)]; what was set before an exception stays set *)
Definition edits : list (string * (pyval -> meta -> result meta)) :=
  [("name", edit_name); ("fn", edit_fn); ("args", edit_args); ("kwargs", edit_kwargs); ("executor", edit_exec); ("coalesce", edit_coalesce); ("max_instances", edit_max); ("mistrigger_grace_time", edit_grace)]%string.
Fixpoint apply_edits (es : list (string * (pyval -> meta -> result meta))) (ups : dict pyval) (m : meta) : meta * result (dict pyval) :=
  match es with
  | [] => (m, Ok ups)
  | (k, f) :: es' =>
      match dget k ups with
      | None => apply_edits es' ups m
      | Some v => match f v m with Err e => (m, Err e) | Ok m' => apply_edits es' (ddel k ups) m' end
      end
  end.
(** 110-174 update_task (the scheduler argument is ignored) *)
Definition update (p : proxy) (ups : dict pyval) : proxy * result unit :=
  if dmem "id" ups then (p, Err ValueError)
  else match apply_edits edits ups (p_meta p) with
       | (m, Err e) => (MkProxy (p_info p) m, Err e)
       | (m, Ok rest) => (MkProxy (p_info p) m, match rest with [] => Ok tt | _ => Err AttributeError end)
       end.
(** schedulers/base.py update_task on the worker: [fn] is a parameter of its own (tasks/base.py:76-79) *)
Definition worker_update (env : tenv) (t : task) (sched : option nat) (ups : dict pyval) : task * result unit :=
  update_task env t sched (match dget "fn" ups with Some v => v | None => VNone end) (ddel "fn" ups).
