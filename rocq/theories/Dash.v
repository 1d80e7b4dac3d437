(** The dashboard's bounded in-memory stores: asyncz/contrib/dashboard/{logs/storage,audit,events}.py.
    Each method holds the store's mutex for its accesses to the store, so methods are atomic.
    Text is ASCII.  Not modelled: the labels of records, coercion of dict log entries
    (storage.py:98-146), details of events (opaque text). *)
From Verif Require Import Prelude Text.
Open Scope Z_scope.

(** str.upper() *)
Definition upper_ascii (a : ascii) : ascii := let n := N_of_ascii a in if ((97 <=? n) && (n <=? 122))%N then ascii_of_N (n - 32) else a.
Fixpoint upper (s : string) : string := match s with EmptyString => EmptyString | String a s' => String (upper_ascii a) (upper s') end.
(** [x or ""] and truth of an optional string *)
Definition or_empty (o : option string) : string := match o with Some s => s | None => EmptyString end.
Definition given (o : option string) : bool := negb (String.eqb (or_empty o) EmptyString).
Definition opt_eqb (o : option string) (s : string) : bool := match o with Some x => String.eqb x s | None => false end.
(** " ".join(...) *)
Fixpoint join (sep : string) (l : list string) : string :=
  match l with [] => EmptyString | [x] => x | x :: l' => (x ++ sep ++ join sep l')%string end.

(** collections.deque(maxlen): append, dropping from the left when full *)
Definition push {A} (maxlen : nat) (x : A) (buf : list A) : list A := skipn (List.length buf + 1 - maxlen) (buf ++ [x]).
(** the loop of every query: keep matching entries in order, stop once [limit] are collected *)
Fixpoint scan {A} (keep : A -> bool) (limit : Z) (out l : list A) : list A :=
  match l with
  | [] => out
  | x :: l' => if keep x then let out := out ++ [x] in if Z.of_nat (List.length out) >=? limit then out else scan keep limit out l'
               else scan keep limit out l'
  end.

(** ** logs/storage.py:11-45 LogEntry ([l_run] is [str(extra["run_id"])], None without extra) *)
Record log_entry := MkLog { l_ts : Z; l_level : string; l_message : string; l_logger : string; l_task : option string; l_run : option string }.
Record log_query := MkLQ { lq_task : option string; lq_run : option string; lq_level : option string; lq_q : option string; lq_since : option Z; lq_until : option Z; lq_limit : Z }.
(** storage.py:191-217 *)
Definition log_keep (q : log_query) (e : log_entry) : bool :=
  negb (given (lq_task q) && negb (opt_eqb (l_task e) (or_empty (lq_task q))))
  && negb (given (lq_run q) && negb (opt_eqb (l_run e) (or_empty (lq_run q))))
  && negb (match lq_since q with Some t => l_ts e <? t | None => false end)
  && negb (match lq_until q with Some t => l_ts e >? t | None => false end)
  && negb (given (lq_level q) && negb (String.eqb (upper (l_level e)) (upper (or_empty (lq_level q)))))
  && (let needle := strip (lower (or_empty (lq_q q))) in
      negb (negb (String.eqb needle "") && negb (contains needle (lower (l_message e))))).
(** storage.py:148-224 append, query, clear *)
Definition log_append (maxlen : nat) (e : log_entry) (buf : list log_entry) := push maxlen e buf.
Definition log_find (q : log_query) (buf : list log_entry) : list log_entry := scan (log_keep q) (lq_limit q) [] (rev buf).

(** ** audit.py *)
Record audit_record := MkAudit { a_id : string; a_action : string; a_status : string; a_ttype : string; a_tid : option string; a_message : option string; a_actor : string }.
Record audit_query := MkAQ { aq_action : option string; aq_status : option string; aq_q : option string; aq_limit : Z }.
Record audit_store := MkAStore { as_records : dict audit_record; as_order : list string }.
(** audit.py:85-110 *)
Definition audit_keep (q : audit_query) (r : audit_record) : bool :=
  let af := lower (strip (or_empty (aq_action q))) in let sf := lower (strip (or_empty (aq_status q))) in let needle := lower (strip (or_empty (aq_q q))) in
  negb (negb (String.eqb af "") && negb (String.eqb (a_action r) af))
  && negb (negb (String.eqb sf "") && negb (String.eqb (a_status r) sf))
  && negb (negb (String.eqb needle "")
           && negb (contains needle (lower (join " " [a_id r; a_action r; a_status r; a_ttype r; or_empty (a_tid r); or_empty (a_message r); a_actor r])))).
(** audit.py:125-128 _trim: popleft while too long (the fuel is the length) *)
Fixpoint audit_trim (maxlen : nat) (fuel : nat) (s : audit_store) : audit_store :=
  match fuel with
  | O => s
  | S fuel' => if Nat.ltb maxlen (List.length (as_order s)) then
                 match as_order s with
                 | [] => s
                 | x :: rest => audit_trim maxlen fuel' (MkAStore (ddel x (as_records s)) rest)
                 end
               else s
  end.
(** audit.py:49-78 append; the id is drawn by uuid4 *)
Definition audit_append (maxlen : nat) (r : audit_record) (s : audit_store) : audit_store :=
  let s := MkAStore (dset (a_id r) r (as_records s)) (as_order s ++ [a_id r]) in audit_trim maxlen (List.length (as_order s)) s.
(** audit.py:92 the list of records, newest first: KeyError when an id has no record *)
Fixpoint lookup_all {V} (ks : list string) (d : dict V) : result (list V) :=
  match ks with
  | [] => Ok []
  | k :: ks' => match dget k d with None => Err KeyError | Some v => match lookup_all ks' d with Err e => Err e | Ok vs => Ok (v :: vs) end end
  end.
Definition audit_find (q : audit_query) (s : audit_store) : result (list audit_record) :=
  match lookup_all (rev (as_order s)) (as_records s) with Err e => Err e | Ok l => Ok (scan (audit_keep q) (aq_limit q) [] l) end.
(** audit.py:114-123 summary: total, succeeded, failed, warning *)
Definition count {A} (p : A -> bool) (l : list A) : nat := List.length (filter p l).
Definition audit_summary (s : audit_store) : nat * nat * nat * nat :=
  let rs := map snd (as_records s) in
  (List.length rs, count (fun r => String.eqb (a_status r) "succeeded") rs, count (fun r => String.eqb (a_status r) "failed") rs, count (fun r => String.eqb (a_status r) "warning") rs).

(** ** events.py:66-163; [e_text] is the text of the details *)
Record event_record := MkEvent { e_id : string; e_code : Z; e_name : string; e_cat : string; e_alias : option string; e_task : option string; e_store : option string; e_sched : option string; e_text : string }.
Record event_query := MkEQ { eq_cat : option string; eq_name : option string; eq_task : option string; eq_q : option string; eq_limit : Z }.
Definition event_keep (q : event_query) (r : event_record) : bool :=
  let cf := lower (strip (or_empty (eq_cat q))) in let nf := lower (strip (or_empty (eq_name q))) in let needle := lower (strip (or_empty (eq_q q))) in
  negb (negb (String.eqb cf "") && negb (String.eqb (e_cat r) cf))
  && negb (negb (String.eqb nf "") && negb (String.eqb (e_name r) nf))
  && negb (given (eq_task q) && negb (opt_eqb (e_task r) (or_empty (eq_task q))))
  && negb (negb (String.eqb needle "")
           && negb (contains needle (lower (join " " [e_name r; e_cat r; or_empty (e_alias r); or_empty (e_task r); or_empty (e_store r); or_empty (e_sched r); e_id r; e_text r])))).
Definition event_append (maxlen : nat) (e : event_record) (buf : list event_record) := push maxlen e buf.
Definition event_find (q : event_query) (buf : list event_record) : list event_record := scan (event_keep q) (eq_limit q) [] (rev buf).

(** ** histories of calls *)
Inductive bop (A Q : Type) := BAppend (x : A) | BQuery (q : Q) | BClear.
Arguments BAppend {A Q} x. Arguments BQuery {A Q} q. Arguments BClear {A Q}.
Fixpoint log_run (maxlen : nat) (buf : list log_entry) (ops : list (bop log_entry log_query)) : list log_entry * list (list log_entry) :=
  match ops with
  | [] => (buf, [])
  | BAppend e :: ops' => log_run maxlen (log_append maxlen e buf) ops'
  | BClear :: ops' => log_run maxlen [] ops'
  | BQuery q :: ops' => let (b, outs) := log_run maxlen buf ops' in (b, log_find q buf :: outs)
  end.
Fixpoint event_run (maxlen : nat) (buf : list event_record) (ops : list (bop event_record event_query)) : list event_record * list (list event_record) :=
  match ops with
  | [] => (buf, [])
  | BAppend e :: ops' => event_run maxlen (event_append maxlen e buf) ops'
  | BClear :: ops' => event_run maxlen [] ops'
  | BQuery q :: ops' => let (b, outs) := event_run maxlen buf ops' in (b, event_find q buf :: outs)
  end.
Fixpoint audit_run (maxlen : nat) (s : audit_store) (ops : list (bop audit_record audit_query)) : audit_store * list (result (list audit_record)) :=
  match ops with
  | [] => (s, [])
  | BAppend r :: ops' => audit_run maxlen (audit_append maxlen r s) ops'
  | BClear :: ops' => audit_run maxlen (MkAStore [] []) ops'
  | BQuery q :: ops' => let (b, outs) := audit_run maxlen s ops' in (b, audit_find q s :: outs)
  end.
