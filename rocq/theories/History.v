(** The dashboard's run history: asyncz/contrib/dashboard/history.py:65-314.
    Run times are their normalised text (history.py:410-428: equal instants have equal text); the
    digest of the run key is a parameter.  Not modelled: log lines written along the way, labels. *)
From Verif Require Import Prelude Text Dash.
Open Scope Z_scope.

Inductive status := Running | Succeeded | Failed | Missed | MaxInstances.
(** history.py:21 TERMINAL_STATUSES *)
Definition terminal (s : status) : bool := match s with Running => false | _ => true end.
(** history.py:417-428 _run_key *)
Definition rkey := (string * option string * string)%type.
Definition rkey_eqb (a b : rkey) : bool :=
  match a, b with
  | (t1, s1, r1), (t2, s2, r2) =>
      String.eqb t1 t2 && String.eqb r1 r2 && match s1, s2 with Some x, Some y => String.eqb x y | None, None => true | _, _ => false end
  end.
(** history.py:25-47 RunRecord; name, callable and executor are the metadata, [h_result] everything
    record_execution stores of the outcome *)
Record run_record := MkRun {
  h_id : string; h_key : rkey; h_name : option string; h_callable : option string; h_executor : option string; h_sched : option string;
  h_coalesced : Z; h_source : string; h_status : status; h_submitted : option Z; h_finished : option Z; h_result : option string;
  h_created : Z; h_updated : Z }.
Record history := MkHist { records : dict run_record; order : list string; index : list (rkey * string) }.
Definition kget (k : rkey) (l : list (rkey * string)) : option string := option_map snd (find (fun kv => rkey_eqb (fst kv) k) l).
Definition kdel (k : rkey) (l : list (rkey * string)) : list (rkey * string) := filter (fun kv => negb (rkey_eqb (fst kv) k)) l.

(** what the environment says about a task when an event arrives (history.py:435-463): name, callable,
    executor, and the identity of the scheduler (event's or scheduler's, history.py:278) *)
Record meta := MkMeta { m_name : option string; m_callable : option string; m_executor : option string; m_sched : option string }.
Definition first_given (old new : option string) : option string := if given old then old else if given new then new else old.

Section History.
  Context (sha : string -> string) (maxlen : nat).
  (** history.py:430-432 _run_id *)
  Definition run_id (k : rkey) : string := match k with (t, s, r) => sha (join "|" [t; or_empty s; r]) end.
  (** history.py:306-314 _trim *)
  Fixpoint trim (fuel : nat) (h : history) : history :=
    match fuel with
    | O => h
    | S fuel' =>
        if Nat.ltb maxlen (List.length (order h)) then
          match order h with
          | [] => h
          | x :: rest =>
              match dget x (records h) with
              | None => trim fuel' (MkHist (records h) rest (index h))
              | Some r => trim fuel' (MkHist (ddel x (records h)) rest (kdel (h_key r) (index h)))
              end
          end
        else h
    end.
  (** history.py:264-304 _upsert: the id of the record found or made; under the lock *)
  Definition upsert (k : rkey) (m : meta) (now : Z) (h : history) : result (string * history) :=
    match kget k (index h) with
    | None =>
        let id := run_id k in
        let r := MkRun id k (m_name m) (m_callable m) (m_executor m) (m_sched m) 0 "unknown" Running None None None now now in
        let h := MkHist (dset id r (records h)) (order h ++ [id]) (index h ++ [(k, id)]) in
        Ok (id, trim (List.length (order h)) h)
    | Some id =>
        match dget id (records h) with
        | None => Err KeyError
        | Some r =>
            let r := MkRun (h_id r) (h_key r) (first_given (h_name r) (m_name m)) (first_given (h_callable r) (m_callable m)) (first_given (h_executor r) (m_executor m))
                           (first_given (h_sched r) (m_sched m)) (h_coalesced r) (h_source r) (h_status r) (h_submitted r) (h_finished r) (h_result r) (h_created r) (h_updated r) in
            Ok (id, MkHist (dset id r (records h)) (order h) (index h))
        end
    end.
  (** assignments to the record object returned by _upsert: seen by the store as long as it holds the
      object *)
  Definition touch (id : string) (f : run_record -> run_record) (h : history) : history :=
    match dget id (records h) with Some r => MkHist (dset id (f r) (records h)) (order h) (index h) | None => h end.
  Definition or_else (a : option Z) (b : Z) : option Z := match a with Some x => Some x | None => Some b end.
  (** history.py:168-190, on one run time *)
  Definition submit (src : string) (st : status) (coalesced now : Z) (r : run_record) : run_record :=
    let submitted := or_else (h_submitted r) (match h_finished r with Some f => f | None => now end) in
    let st' := if terminal (h_status r) then h_status r else st in
    let finished := match st with MaxInstances => or_else (h_finished r) now | _ => h_finished r end in
    MkRun (h_id r) (h_key r) (h_name r) (h_callable r) (h_executor r) (h_sched r) (Z.max (h_coalesced r) coalesced) src st' submitted finished (h_result r) (h_created r) now.
  (** history.py:228-239 *)
  Definition finish (st : status) (res : option string) (now : Z) (r : run_record) : run_record :=
    MkRun (h_id r) (h_key r) (h_name r) (h_callable r) (h_executor r) (h_sched r) (h_coalesced r) (h_source r) st (or_else (h_submitted r) now) (Some now) res (h_created r) now.

  (** events/base.py: a submission names several run times; an execution has its outcome
      (history.py:396-401 _status_from_execution_code) *)
  Inductive outcome := OSucceeded | OFailed | OMissed.
  Definition status_of (o : outcome) : status := match o with OSucceeded => Succeeded | OMissed => Missed | OFailed => Failed end.
  Inductive hevent :=
  | Submission (task : string) (store : option string) (times : list string) (full : bool) (source : option string) (coalesced : Z) (m : meta) (now : Z)
  | Execution (task : string) (store : option string) (time : string) (o : outcome) (res : option string) (m : meta) (now : Z)
  | Clear.
  (** history.py:156-207 record_submission; [full]: the event is TASK_MAX_INSTANCES *)
  Fixpoint submissions (task : string) (store : option string) (times : list string) (st : status) (src : string) (coalesced : Z) (m : meta) (now : Z) (h : history) : result history :=
    match times with
    | [] => Ok h
    | t :: times' =>
        match upsert (task, store, t) m now h with
        | Err e => Err e
        | Ok (id, h) => submissions task store times' st src coalesced m now (touch id (submit src st coalesced now) h)
        end
    end.
  Definition source_text (o : option string) : string := if given o then or_empty o else "scheduled".
  Definition handle (e : hevent) (h : history) : result history :=
    match e with
    | Submission task store times full src c m now =>
        submissions task store times (if full then MaxInstances else Running) (source_text src) c m now h
    | Execution task store time o res m now =>
        match upsert (task, store, time) m now h with
        | Err e => Err e
        | Ok (id, h) => Ok (touch id (finish (status_of o) res now) h)
        end
    | Clear => Ok (MkHist [] [] [])
    end.
  Fixpoint handle_all (es : list hevent) (h : history) : result history :=
    match es with [] => Ok h | e :: es' => match handle e h with Err x => Err x | Ok h => handle_all es' h end end.
  Definition empty_history : history := MkHist [] [] [].
End History.

(** Two threads report on the same run: the record is found under the lock (history.py:280-304) but
    assigned outside it, statement by statement (history.py:176-185 submission, 228-230 execution), so
    the statements of the two may interleave in any way.  Statements that touch neither the status nor
    what the submission decides from it are one step each with the next. *)
Inductive statement := SubmitTest | SubmitAssign | ExecAssign.
Record race := MkRace { shared : run_record; was_open : bool }.
Definition exec_statement (st : status) (o : outcome) (s : statement) (x : race) : race :=
  let set r v := MkRun (h_id r) (h_key r) (h_name r) (h_callable r) (h_executor r) (h_sched r) (h_coalesced r) (h_source r) v (h_submitted r) (h_finished r) (h_result r) (h_created r) (h_updated r) in
  match s with
  | SubmitTest => MkRace (shared x) (negb (terminal (h_status (shared x))))
  | SubmitAssign => if was_open x then MkRace (set (shared x) st) (was_open x) else x
  | ExecAssign => MkRace (set (shared x) (status_of o)) (was_open x)
  end.
(** an interleaving of the submission's two statements with the execution's one *)
Inductive interleaving : list statement -> list statement -> list statement -> Prop :=
| int_nil : interleaving [] [] []
| int_l s a b c : interleaving a b c -> interleaving (s :: a) b (s :: c)
| int_r s a b c : interleaving a b c -> interleaving a (s :: b) (s :: c).
Definition run_race (st : status) (o : outcome) (steps : list statement) (r : run_record) : run_record :=
  shared (fold_left (fun x s => exec_statement st o s x) steps (MkRace r false)).
