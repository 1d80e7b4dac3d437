(** Model of how tasks become bytes and back: asyncz/tasks/base.py:199-245, asyncz/triggers/*.py
    __getstate__/__setstate__, asyncz/state.py, asyncz/datastructures.py, asyncz/stores/base.py:97-176,
    asyncz/stores/persistence.py and the rebuild_task of the stores (redis.py:60-66, file.py:85-91,
    mongo.py:68-74, sqlalchemy.py:88-95, all the same).
    pickle, AES-CCM and the import system are parameters ([codec]); bytes are strings.  Only the
    trigger classes of asyncz/triggers are covered, and the time zone of a trigger is the offset of its
    cron table, as in Triggers.v. *)
From Verif Require Import Prelude CallArgs Calendar Cron FloatDiv Triggers Task.
Open Scope Z_scope.

(** ** Triggers *)
Inductive tclass := CDate | CInterval | CCron | CAnd | COr | CShutdown.
(** datastructures.py:19-62.  [SDict] is the plain dict pydantic produces for a class without its own
    __getstate__ (shutdown.py) *)
Inductive tstate :=
| SDate (run_at : Z)
| SInterval (iv start : Z) (end_at jitter : option Z)
| SCron (tb : crontab) (off : Z) (start_at end_at jitter : option Z)
| SComb (l : list (tclass * tstate)) (jitter : option Z)
| SDict.
(** the class of a trigger and its __getstate__ (date.py:45-50, interval.py:103-111,
    cron/trigger.py:271-279, base.py:69-77): note that interval_size is not saved *)
Fixpoint save_trigger (tr : trigger) : tclass * tstate :=
  match tr with
  | TDate d => (CDate, SDate d)
  | TInterval iv s e j => (CInterval, SInterval iv s e j)
  | TCron tb off s e j => (CCron, SCron tb off s e j)
  | TAnd l j => (CAnd, SComb (map save_trigger l) j)
  | TOr l j => (COr, SComb (map save_trigger l) j)
  | TShutdown => (CShutdown, SDict)
  end.
(** a trigger object as it is in memory: interval_size may be missing *)
Inductive robj :=
| RDate (run_at : Z)
| RInterval (iv : Z) (size : option Z) (start : Z) (end_at jitter : option Z)
| RCron (tb : crontab) (off : Z) (start_at end_at jitter : option Z)
| RAnd (l : list robj) (jitter : option Z)
| ROr (l : list robj) (jitter : option Z)
| RShutdown.
(** the object its constructor builds (interval.py:45-50 sets interval_size) *)
Fixpoint built (tr : trigger) : robj :=
  match tr with
  | TDate d => RDate d
  | TInterval iv s e j => RInterval iv (Some iv) s e j
  | TCron tb off s e j => RCron tb off s e j
  | TAnd l j => RAnd (map built l) j
  | TOr l j => ROr (map built l) j
  | TShutdown => RShutdown
  end.
Fixpoint all_ok {A} (l : list (result A)) : result (list A) :=
  match l with
  | [] => Ok []
  | r :: l' => match r with Err e => Err e | Ok x => match all_ok l' with Err e => Err e | Ok xs => Ok (x :: xs) end end
  end.
(** __setstate__ of a new object of class [c] (state.py:13-26, base.py:79-90, cron/trigger.py:281-284):
    [state.model_config] does not exist on a dict.  States of another class do not occur. *)
Fixpoint load_trigger (c : tclass) (s : tstate) : result robj :=
  match s with
  | SDict => Err AttributeError
  | SDate d => match c with CDate => Ok (RDate d) | _ => Err OtherError end
  | SInterval iv st e j => match c with CInterval => Ok (RInterval iv None st e j) | _ => Err OtherError end
  | SCron tb off st e j => match c with CCron => Ok (RCron tb off st e j) | _ => Err OtherError end
  | SComb l j =>
      match all_ok (map (fun cs => load_trigger (fst cs) (snd cs)) l) with
      | Err e => Err e
      | Ok rs => match c with CAnd => Ok (RAnd rs j) | COr => Ok (ROr rs j) | _ => Err OtherError end
      end
  end.
(** interval.py:58-101 on such an object; everything else as in Triggers.v *)
Definition rinterval_next (iv : Z) (size : option Z) (start : Z) (end_at jitter : option Z) (o : oracle) (prev : option Z) (now : Z) : result (option Z) :=
  match (match prev with
         | Some p => Ok (p + iv)
         | None => if now <? start then Ok start
                   else match size with Some sz => Ok (start + iv * interval_number (now - start) sz) | None => Err AttributeError end
         end) with
  | Err e => Err e
  | Ok t => let t := t + draw o jitter in
            match end_at with None => Ok (Some t) | Some e => if t <=? e then Ok (Some t) else Ok None end
  end.
Fixpoint rget_next (fuel : nat) (r : robj) (prev : option Z) (o : oracle) (now : Z) : result (option Z) :=
  match r with
  | RDate d => Ok (date_next d prev)
  | RInterval iv sz s e j => rinterval_next iv sz s e j o prev now
  | RCron tb off s e j => cron_next tb off s e (draw o j) prev now
  | RAnd l j => and_loop fuel 0 (map (fun t => rget_next fuel t prev) l) j o now
  | ROr l j => or_next (map (fun t => rget_next fuel t prev) l) j o now
  | RShutdown => Ok None
  end.

(** ** Tasks *)
(** datastructures.py:65-79 TaskState; the trigger as pickle saves it; grace time in seconds *)
Record pstate := MkState {
  s_id : string; s_name : string; s_fn : string; s_ref : string; s_args : list pyval; s_kwargs : pyval;
  s_coalesce : bool; s_trigger : tclass * tstate; s_exec : option string; s_grace : option Z; s_max : Z; s_next : option Z }.
(** a task as a store returns it *)
Record rtask := MkRTask {
  r_id : string; r_name : string; r_trigger : robj; r_next : option Z; r_exec : option string; r_store : option string;
  r_grace : option Z; r_coalesce : bool; r_max : Z; r_fn : callable; r_ref : string; r_args : list pyval; r_kwargs : pyval;
  r_sched : option nat; r_pending : bool; r_submitted : bool }.

(** persistence.py and legacy records: what is pickled *)
Inductive payload := PState (s : pstate) | POther.
Inductive stored := Envelope (entity : string) (version : Z) (shape : string) (p : payload) | Legacy (s : pstate) | Foreign.
(** shapes/base.py: the name a Shape class carries, and what its [load] makes of a TaskState payload
    ([POther] is any result that is not a TaskState) *)
Record shape := MkShape { sh_name : string; sh_load : payload -> result payload }.

(** the outside world: pickle, AES-CCM, the object a bound method is bound to ([None] for plain
    callables and class methods), imports *)
Record codec := MkCodec {
  dumps : stored -> result string; loads : string -> result stored;
  enc : string -> string -> string -> string; dec : string -> string -> string -> result string;
  self_of : callable -> option pyval; resolve : string -> result callable }.
(** one store: its alias, scheduler, key (None when the environment variable is unset or empty,
    stores/base.py:82-85) and the Shape it was given *)
Record bstore := MkBStore { b_alias : string; b_sched : nat; b_key : option string; b_shape : shape }.

Section Persist.
  Context (W : codec).
  (** tuple(args) *)
  Definition tuple_of (v : pyval) : result (list pyval) :=
    match v with VList l => Ok l | VDict d => Ok (map (fun kv => VStr (fst kv)) d) | VStr s => Ok (map (fun a => VStr (String a EmptyString)) (list_ascii_of_string s)) | _ => Err TypeError end.
  (** tasks/base.py:213-245 __getstate__; mistrigger_grace_time is an Optional[int] of the TaskState *)
  Definition getstate (t : task) : result pstate :=
    match t_ref t with
    | None => Err ValueError
    | Some ref =>
        if String.eqb ref "" then Err ValueError
        else
          let args :=
            match t_fn t with
            | Some c => match self_of W c with
                        | Some obj => match c_ref c with
                                      | None => Err ValueError
                                      | Some r => match tuple_of (t_args t) with Err e => Err e | Ok l => Ok (if String.eqb r ref then obj :: l else l) end
                                      end
                        | None => tuple_of (t_args t)
                        end
            | None => tuple_of (t_args t)
            end in
          match args with
          | Err e => Err e
          | Ok args =>
              match t_grace t with
              | Some g => if g mod us =? 0 then
                            Ok (MkState (t_id t) (t_name t) ref ref args (if truthy (t_kwargs t) then t_kwargs t else VDict []) (t_coalesce t)
                                        (save_trigger (t_trigger t)) (t_exec t) (Some (g / us)) (t_max t) (t_next t))
                          else Err ValueError
              | None => Ok (MkState (t_id t) (t_name t) ref ref args (if truthy (t_kwargs t) then t_kwargs t else VDict []) (t_coalesce t)
                                    (save_trigger (t_trigger t)) (t_exec t) None (t_max t) (t_next t))
              end
          end
    end.
  (** tasks/base.py:199-211 __setstate__, then scheduler and store_alias are set (redis.py:63-65) *)
  Definition setstate (b : bstore) (s : pstate) (tr : robj) : result rtask :=
    match resolve W (s_fn s) with
    | Err e => Err e
    | Ok c => Ok (MkRTask (s_id s) (s_name s) tr (s_next s) (s_exec s) (Some (b_alias b))
                          (match s_grace s with Some g => Some (g * us) | None => None end) (s_coalesce s) (s_max s) c (s_ref s) (s_args s) (s_kwargs s)
                          (Some (b_sched b)) false true)
    end.

  (** stores/base.py:110-122 and 97-108 *)
  Fixpoint take (n : nat) (s : string) : string := match n, s with S n', String a s' => String a (take n' s') | _, _ => EmptyString end.
  Fixpoint skip (n : nat) (s : string) : string := match n, s with O, _ => s | S n', String _ s' => skip n' s' | S _, EmptyString => EmptyString end.
  Definition conditional_encrypt (key : option string) (nonce inp : string) : string :=
    match key with Some k => (nonce ++ enc W k nonce inp)%string | None => inp end.
  Definition conditional_decrypt (key : option string) (inp : string) : result string :=
    match key with Some k => dec W k (take 13 inp) (skip 13 inp) | None => Ok inp end.

  (** persistence.py:6-7 *)
  Definition ENTITY : string := "task_state".
  Definition VERSION : Z := 1.
  (** stores/base.py:124-139 serialize_task_state *)
  Definition serialize (b : bstore) (t : task) : result stored :=
    match getstate t with Err e => Err e | Ok s => Ok (Envelope ENTITY VERSION (sh_name (b_shape b)) (PState s)) end.
  (** stores/base.py:141-176 deserialize_task_state; [reg] are the registered Shapes.  Errors of the
      shapes package are [OtherError] (ShapeError) and [LookupError] (ShapeNotFoundError). *)
  Definition deserialize (reg : dict shape) (v : stored) : result pstate :=
    match v with
    | Legacy s => Ok s
    | Foreign => Err OtherError
    | Envelope entity version shape p =>
        if negb (String.eqb entity ENTITY) then Err OtherError
        else if negb (version =? VERSION) then Err OtherError
        else match dget shape reg with
             | None => Err LookupError
             | Some sh => match sh_load sh p with Err e => Err e | Ok POther => Err OtherError | Ok (PState s) => Ok s end
             end
    end.
  (** the state a record carries, if any: pickle restores its trigger while loading *)
  Definition state_in (v : stored) : option pstate :=
    match v with Legacy s => Some s | Envelope _ _ _ (PState s) => Some s | _ => None end.
  (** what a store writes (redis.py:117-119), and rebuild_task (redis.py:60-66) *)
  Definition save (b : bstore) (nonce : string) (t : task) : result string :=
    match serialize b t with
    | Err e => Err e
    | Ok v => match dumps W v with Err e => Err e | Ok p => Ok (conditional_encrypt (b_key b) nonce p) end
    end.
  Definition rebuild_task (reg : dict shape) (b : bstore) (bytes : string) : result rtask :=
    match conditional_decrypt (b_key b) bytes with
    | Err e => Err e
    | Ok p =>
        match loads W p with
        | Err e => Err e
        | Ok v =>
            match (match state_in v with Some s => match load_trigger (fst (s_trigger s)) (snd (s_trigger s)) with Err e => Err e | Ok _ => Ok tt end | None => Ok tt end) with
            | Err e => Err e
            | Ok _ =>
                match deserialize reg v with
                | Err e => Err e
                | Ok s => match load_trigger (fst (s_trigger s)) (snd (s_trigger s)) with
                          | Err e => Err e
                          | Ok tr => setstate b s tr
                          end
                end
            end
        end
    end.
End Persist.
