(** Event listeners of a scheduler: schedulers/base.py:463-490, 1394-1412 and events/constants.py. *)
From Verif Require Import Prelude.
Open Scope Z_scope.

(** events/constants.py:1-17: the code of each kind of event *)
Inductive kind := KStarted | KShutdown | KPaused | KResumed | KExecAdded | KExecRemoved | KStoreAdded | KStoreRemoved
  | KAllRemoved | KTaskAdded | KTaskRemoved | KTaskModified | KExecuted | KError | KMissed | KSubmitted | KMaxInstances.
Definition code (k : kind) : Z :=
  match k with
  | KStarted => 1 | KShutdown => 2 | KPaused => 4 | KResumed => 8 | KExecAdded => 16 | KExecRemoved => 32 | KStoreAdded => 64 | KStoreRemoved => 128
  | KAllRemoved => 256 | KTaskAdded => 512 | KTaskRemoved => 1024 | KTaskModified => 2048 | KExecuted => 4096 | KError => 8192 | KMissed => 16384
  | KSubmitted => 32768 | KMaxInstances => 65536 end.
(** events/constants.py:19-38 ALL_EVENTS *)
Definition all_events : Z := Z.lor 1 (Z.lor 1 (Z.lor 2 (Z.lor 4 (Z.lor 8 (Z.lor 16 (Z.lor 32 (Z.lor 64 (Z.lor 128 (Z.lor 256 (Z.lor 512 (Z.lor 1024 (Z.lor 2048 (Z.lor 4096 (Z.lor 8192 (Z.lor 16384 (Z.lor 32768 65536)))))))))))))))).

(** an event: its code and, for task events, the scheduler identity field ([Some None] = not set) *)
Record event := MkEvent { ecode : Z; eident : option (option string) }.
(** a mask: an integer; [None] = a string, which the annotation (463) allows *)
Definition mask := option Z.
Definition listeners := list (nat * mask).   (* callbacks are compared by ==; equal callbacks have the same number *)

(** base.py:463-479 add_listener *)
Definition add_listener (cb : nat) (m : mask) (ls : listeners) : listeners := ls ++ [(cb, m)].
(** base.py:481-490 remove_listener *)
Fixpoint remove_listener (cb : nat) (ls : listeners) : bool * listeners :=
  match ls with
  | [] => (false, [])
  | (cb', m) :: ls' => if Nat.eqb cb cb' then (true, ls') else let '(b, r) := remove_listener cb ls' in (b, (cb', m) :: r)
  end.

(** What a callback may do with the scheduler while it is being called, in order; then it may raise.
    [react n cb ev] is the behaviour of the [n]-th call of the whole run: arbitrary. *)
Inductive lop := LAdd (cb : nat) (m : mask) | LRemove (cb : nat) | LDispatch (ev : event).
Definition reaction := nat -> nat -> event -> list lop * bool.
(** one call of a callback, with the calls of dispatches nested in it *)
Inductive call := Call (cb : nat) (ev : event) (inner : list call).
Record drun := MkRun { calls : list call; count : nat; now_listening : listeners; outcome : result unit }.

(** base.py:1401-1402 *)
Definition stamp (identity : string) (ev : event) : event :=
  match eident ev with
  | Some None => MkEvent (ecode ev) (Some (if String.eqb identity "" then None else Some identity))
  | _ => ev end.

(** base.py:1394-1412 dispatch_event.  [None] = the callbacks nest dispatches deeper than [fuel].
    The snapshot of the listeners is taken once (1404-1405); BaseException of a callback is caught
    (1409-1412), a TypeError of [event.code & mask] is not.  Logging not modelled. *)
Section Dispatch.
  Context (identity : string) (react : reaction).
  Fixpoint dispatch (fuel : nat) (n : nat) (ls : listeners) (ev0 : event) : option drun :=
    match fuel with
    | O => None
    | S fuel' =>
      let ev := stamp identity ev0 in
      (fix notify (snap : listeners) (n : nat) (ls : listeners) : option drun :=
         match snap with
         | [] => Some (MkRun [] n ls (Ok tt))
         | (cb, None) :: _ => Some (MkRun [] n ls (Err TypeError))
         | (cb, Some m) :: snap' =>
             if Z.eqb (Z.land (ecode ev) m) 0 then notify snap' n ls
             else
               match (fix perform (ops : list lop) (n : nat) (ls : listeners) : option drun :=
                        match ops with
                        | [] => Some (MkRun [] n ls (Ok tt))
                        | LAdd cb' m' :: ops' => perform ops' n (add_listener cb' m' ls)
                        | LRemove cb' :: ops' => perform ops' n (snd (remove_listener cb' ls))
                        | LDispatch ev' :: ops' =>
                            match dispatch fuel' n ls ev' with
                            | None => None
                            | Some r => match outcome r with
                                | Err e => Some r
                                | Ok _ => match perform ops' (count r) (now_listening r) with
                                          | None => None
                                          | Some r' => Some (MkRun (calls r ++ calls r') (count r') (now_listening r') (outcome r')) end end end
                        end) (fst (react n cb ev)) (S n) ls with
               | None => None
               | Some r => match notify snap' (count r) (now_listening r) with
                           | None => None
                           | Some r' => Some (MkRun (Call cb ev (calls r) :: calls r') (count r') (now_listening r') (outcome r')) end
               end
         end) ls n ls
    end.
End Dispatch.
