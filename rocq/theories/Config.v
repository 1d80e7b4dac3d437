(** Configuring a scheduler: asyncz/schedulers/base.py:133-174 setup, 1283-1331 (executors and stores of _setup),
    1486-1527 create_plugin_instance.
    Simplifications: configuration values are pure trees.  (The code stores the caller's own dictionaries in the
    configuration: with both "asyncz.executors" and "asyncz.executors.x" given, the former is modified in place.)
    The other options of _setup are taken as they are. *)
From Verif Require Import Prelude Text.
Open Scope string_scope.

(** configuration values; [CObj n]: an executor or store object, [CCls n]: a class, [CNone]: None, [CVal n]: anything else (and true) *)
Inductive cval := CStr (s : string) | CObj (n : nat) | CCls (n : nat) | CVal (n : nat) | CNone | CDict (d : list (string * cval)).
Definition conf := dict cval.

(** base.py:163-171 the nested dictionary of a dotted key: [parent.setdefault(key, {})] until the last part.
    A value in the way that is no dictionary makes the next setdefault or item assignment raise. *)
Fixpoint put_path (parts : list string) (v : cval) (d : conf) : result conf :=
  match parts with
  | [] => Err IndexError
  | [k] => Ok (dset k v d)
  | k :: parts' =>
      match dget k d with
      | None => match put_path parts' v [] with Ok d' => Ok (dset k (CDict d') d) | Err e => Err e end
      | Some (CDict d0) => match put_path parts' v d0 with Ok d' => Ok (dset k (CDict d') d) | Err e => Err e end
      | Some _ => Err TypeError
      end
  end.
Fixpoint unfold_keys (l : list (string * cval)) (d : conf) : result conf :=
  match l with
  | [] => Ok d
  | (key, v) :: l' => match put_path (split_on "." key) v d with Ok d' => unfold_keys l' d' | Err e => Err e end
  end.
(** base.py:155-161 key[len(prefix):] of the keys that start with the prefix (an empty prefix or None: all keys) *)
Fixpoint drop (n : nat) (s : string) : string := match n, s with O, _ => s | S n', String _ s' => drop n' s' | S _, EmptyString => EmptyString end.
Definition prefixed (prefix : string) (g : conf) : conf :=
  flat_map (fun kv => if starts_with prefix (fst kv) then [(drop (String.length prefix) (fst kv), snd kv)] else []) g.
(** config.update(options) *)
Definition update_with (options d : conf) : conf := fold_left (fun d kv => dset (fst kv) (snd kv) d) options d.
(** base.py:133-174 setup, up to the call of _setup *)
Definition setup (stopped : bool) (prefix : string) (g options : conf) : result conf :=
  if stopped then match unfold_keys (prefixed prefix g) [] with Ok d => Ok (update_with options d) | Err e => Err e end
  else Err SchedulerAlreadyRunningError.

(** ** executors and stores: the same code twice *)
(** what importing gives: of a plugin path (base.py:1486-1500), of a textual reference (utils.py maybe_ref); whether
    a class is of the kind wanted; whether its constructor takes the options *)
Record world := MkWorld {
  load : string -> option nat; refer : string -> option nat; of_kind : nat -> bool; takes : nat -> conf -> bool }.
Inductive made := Given (n : nat) | Made (cls : nat) (options : conf).
Record registry := MkReg { plugins : dict string; classes : dict nat; instances : dict made }.

Definition instantiate (w : world) (cls : nat) (options : conf) : result made :=
  if takes w cls options then Ok (Made cls options) else Err TypeError.
(** base.py:1502-1527 *)
Definition create_plugin (w : world) (alias : string) (options : conf) (r : registry) : registry * result made :=
  match dget alias (classes r) with
  | Some cls => (r, instantiate w cls options)
  | None =>
      match dget alias (plugins r) with
      | None => (r, Err LookupError)
      | Some path =>
          match load w path with
          | None => (r, Err OtherError)
          | Some cls =>
              let r' := MkReg (plugins r) (dset alias cls (classes r)) (instances r) in
              (r', if of_kind w cls then instantiate w cls options else Err TypeError)
          end
      end
  end.
(** base.py:1283-1306 (and 1308-1331), one entry: the object to register *)
Definition ctruthy (v : cval) : bool := match v with CStr "" => false | CDict [] => false | CNone => false | _ => true end.
(** value.pop(k, None), if true *)
Definition given (k : string) (d : conf) : option cval := match dget k d with Some v => if ctruthy v then Some v else None | None => None end.
Definition make_entry (w : world) (v : cval) (r : registry) : registry * result made :=
  match v with
  | CObj n => (r, Ok (Given n))
  | CDict d =>
      let options := ddel "type" (ddel "class" d) in
      match given "type" d, given "class" d with
      | Some (CStr alias), _ => create_plugin w alias options r
      | Some _, _ => (r, Err LookupError)
      | None, Some (CStr s) => (r, match refer w s with Some cls => instantiate w cls options | None => Err LookupError end)
      | None, Some (CCls cls) => (r, instantiate w cls options)
      | None, Some _ => (r, Err TypeError)
      | None, None => (r, Err ValueError)
      end
  | _ => (r, Err TypeError)
  end.
(** base.py:376-401 add_executor (416-446 add_store) of an object: it must be of the kind *)
Definition kind_ok (w : world) (m : made) : bool := match m with Given _ => true | Made cls _ => of_kind w cls end.
Definition register (w : world) (alias : string) (m : made) (r : registry) : registry * result unit :=
  if dmem alias (instances r) then (r, Err ValueError)
  else if kind_ok w m then (MkReg (plugins r) (classes r) (dset alias m (instances r)), Ok tt) else (r, Err TypeError).
(** the same with a plugin alias: no check of the instance (base.py:389-392, 434-437) *)
Definition register_plugin (w : world) (alias plugin : string) (options : conf) (r : registry) : registry * result unit :=
  if dmem alias (instances r) then (r, Err ValueError)
  else let (r1, m) := create_plugin w plugin options r in
       match m with Ok m => (MkReg (plugins r1) (classes r1) (dset alias m (instances r1)), Ok tt) | Err e => (r1, Err e) end.
Fixpoint configure_from (w : world) (l : conf) (r : registry) : registry * result unit :=
  match l with
  | [] => (r, Ok tt)
  | (alias, v) :: l' =>
      let (r1, m) := make_entry w v r in
      match m with
      | Err e => (r1, Err e)
      | Ok m => let (r2, x) := register w alias m r1 in match x with Ok _ => configure_from w l' r2 | Err e => (r2, Err e) end
      end
  end.
(** base.py:1283-1285: the former ones are forgotten *)
Definition configure (w : world) (l : conf) (r : registry) : registry * result unit :=
  configure_from w l (MkReg (plugins r) (classes r) []).
(** base.py:1283-1331: the executors, then the stores *)
Definition configure_both (we ws : world) (le ls : conf) (re rs : registry) : registry * registry * result unit :=
  let (re', x) := configure we le re in
  match x with Err e => (re', rs, Err e) | Ok _ => let (rs', y) := configure ws ls rs in (re', rs', y) end.
