(** The timeline of upcoming runs: asyncz/cli/commands/timeline.py:16-79 and
    asyncz/contrib/dashboard/controllers/timeline.py:15-79.  The rows carry the task's snapshot; how its fields are
    labelled is not modelled.  Simplified: task ids are texts (an id None is skipped); the previews of one call are
    taken at one instant. *)
From Verif Require Import Prelude Task Triggers Scheduler Text SortList Inspect Forms.
Open Scope Z_scope.

(** one row: run_time and task *)
Definition row := (Z * info)%type.
(** timeline.py:44-63 (dashboard 35-67): the previews of the listed tasks, one after the other *)
Fixpoint gather (c : config) (now per_task : Z) (s : sched) (infos : list info) : result (list row * nat) :=
  match infos with
  | [] => Ok ([], 0%nat)
  | i :: infos' =>
      match preview c now (i_id i) None per_task s with
      | Err e => Err e
      | Ok p =>
          match gather c now per_task s infos' with
          | Err e => Err e
          | Ok (rows, ex) =>
              match p with
              | None => Ok (rows, ex)
              | Some (times, exhausted) => Ok (map (fun x => (x, i)) times ++ rows, if exhausted : bool then S ex else ex)
              end
          end
      end
  end.
Record timeline := MkTimeline { tl_rows : list row; tl_total : nat; tl_returned : nat; tl_tasks : nat; tl_exhausted : nat }.
(** timeline.py:35-79 (dashboard 31-79): rows.sort(key=run_time), rows[:limit] *)
Definition build_timeline (descr : trigger -> string) (c : config) (now per_task limit : Z) (s : sched) : result timeline :=
  match get_task_infos descr (MkQuery None None None None None "next_run_time" false) s with
  | Err e => Err e
  | Ok infos =>
      match gather c now per_task s infos with
      | Err e => Err e
      | Ok (rows, ex) =>
          let shown := firstn (Z.to_nat limit) (isort (fun a b : row => fst a <=? fst b) rows) in
          Ok (MkTimeline shown (List.length rows) (List.length shown) (List.length infos) ex)
      end
  end.
(** timeline.py:16-17, 107-111: the command line's bounds *)
Definition bounded (value minimum maximum : Z) : Z := Z.max minimum (Z.min value maximum).
Definition cli_timeline (descr : trigger -> string) (c : config) (now per_task limit : Z) (s : sched) : result timeline :=
  build_timeline descr c now (bounded per_task 1 10) (bounded limit 1 500) s.
(** dashboard timeline.py:15-28: [int(value or default)], a text that is no number gives the default *)
Definition page_number (value : option string) (default minimum maximum : Z) : Z :=
  match value with
  | Some s => if String.eqb s "" then bounded default minimum maximum
              else match py_int s with Some n => bounded n minimum maximum | None => default end
  | None => bounded default minimum maximum
  end.
Definition page_timeline (descr : trigger -> string) (c : config) (now : Z) (per_task limit : option string) (s : sched) : result timeline :=
  build_timeline descr c now (page_number per_task 3 1 10) (page_number limit 100 1 500) s.
(** dashboard timeline.py:78 *)
Definition next_run (t : timeline) : option row := match tl_rows t with r :: _ => Some r | [] => None end.
