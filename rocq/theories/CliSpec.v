(** What command-line options mean (C49), stated without the parsers. *)
From Verif Require Import Prelude Text CronParseSpec FormsSpec Cli.
Open Scope Z_scope.

(** [core] is [s] without the space around it *)
Definition trims (s core : string) : Prop :=
  exists p q, spaces p /\ spaces q /\ s = (p ++ core ++ q)%string /\
    (core = ""%string \/ (exists a u, core = String a u /\ is_space a = false) /\ (exists u a, core = (u ++ String a "")%string /\ is_space a = false)).
Definition free_of (c : ascii) (s : string) : Prop := forall u v, s <> (u ++ String c v)%string.

(** alias=type, alias=type: and alias=type:workers *)
Inductive type_names : string -> exec_class -> Prop :=
| tn_asyncio : type_names "asyncio" AsyncIOExecutor
| tn_thread w : In w ["thread"; "threads"; "pool"]%string -> type_names w ThreadPoolExecutor
| tn_process w : In w ["process"; "proc"; "processpool"]%string -> type_names w ProcessPoolExecutor
| tn_debug : type_names "debug" DebugExecutor.
Inductive executor_option : string -> string -> exec_class * option Z -> Prop :=
| eo_plain a t alias w c tail : free_of "=" a -> free_of ":" t -> trims a alias -> type_names w c -> says w t -> (tail = "" \/ tail = ":")%string ->
    executor_option (a ++ "=" ++ t ++ tail) alias (c, None)
| eo_workers a t alias w c k n : free_of "=" a -> free_of ":" t -> trims a alias -> type_names w c -> says w t -> int_text k n ->
    executor_option (a ++ "=" ++ t ++ ":" ++ k) alias (c, Some n).

(** nothing, "memory", "memory=anything" and "durable=URL"; the name of the entry: what stands before "=",
    else "default" for the first option and "memory" for later ones *)
Inductive store_option (first : bool) : string -> string -> store_cfg -> Prop :=
| so_empty : store_option first "" (if first then "default" else "memory") CfgMemory
| so_memory s : says "memory" s -> free_of "=" s -> store_option first s (if first then "default" else "memory") CfgMemory
| so_memory_named k v : says "memory" k -> free_of "=" k -> store_option first (k ++ "=" ++ v) "memory" CfgMemory
| so_sql k w v url : In w ["durable"; "sql"; "sqlite"; "sqlalchemy"]%string -> says w k -> free_of "=" k -> trims v url -> url <> ""%string ->
    store_option first (k ++ "=" ++ v) w (CfgSql url).

(** a number of seconds, minutes or hours *)
Inductive unit_letter : ascii -> Z -> Prop :=
| ul_s : unit_letter "s" 1 | ul_S : unit_letter "S" 1
| ul_m : unit_letter "m" 60 | ul_M : unit_letter "M" 60
| ul_h : unit_letter "h" 3600 | ul_H : unit_letter "H" 3600.
Definition duration_text (s : string) (n : Z) : Prop :=
  exists p d k b u m q, spaces p /\ spaces b /\ spaces q /\ numeral d k /\ unit_letter u m /\ s = (p ++ d ++ b ++ String u q)%string /\ n = k * m.

(** the entries of a list of options: one per name, first appearance first, the last option of a name counts *)
Definition entries_of {C} (means : nat -> string -> string -> C -> Prop) (specs : list string) (out : dict C) : Prop :=
  exists l : list (string * C), List.length l = List.length specs /\
    (forall i s a c, nth_error specs i = Some s -> nth_error l i = Some (a, c) -> means i s a c) /\
    first_occurrences (map fst l) (dkeys out) /\
    forall a c, dget a out = Some c <-> exists l1 l2, l = l1 ++ (a, c) :: l2 /\ ~ In a (map fst l2).
