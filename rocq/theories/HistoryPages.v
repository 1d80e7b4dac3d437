(** Looking at the run history, the audit trail and the scheduler's events: history.py:82-153 of
    asyncz/contrib/dashboard, controllers/{history,audit,events,home}.py.  Each of the three stores is
    read under its lock; the pages' templates, and the labels of records, are not modelled. *)
From Verif Require Import Prelude Text Cron Triggers Task Scheduler SortList Inspect Dash History Capture.
Open Scope Z_scope.

(** history.py: the texts of the five statuses *)
Definition status_text (s : status) : string :=
  match s with Running => "running" | Succeeded => "succeeded" | Failed => "failed" | Missed => "missed" | MaxInstances => "max_instances" end.
(** history.py:104-111 sort_key; created_at and updated_at are always set (history.py:291-292) *)
Definition sort_key (r : run_record) : Z :=
  match h_finished r with Some t => t | None => match h_submitted r with Some t => t | None => h_updated r end end.
Definition task_of (r : run_record) : string := fst (fst (h_key r)).
Record hist_query := MkHQ { hq_task : option string; hq_status : option string; hq_source : option string; hq_q : option string; hq_limit : Z }.
(** history.py:114-136: the tests of one record *)
Definition hist_keep (q : hist_query) (r : run_record) : bool :=
  let sf := lower (strip (or_empty (hq_status q))) in let of := lower (strip (or_empty (hq_source q))) in let needle := lower (strip (or_empty (hq_q q))) in
  negb (given (hq_task q) && negb (String.eqb (task_of r) (or_empty (hq_task q))))
  && negb (negb (String.eqb sf "") && negb (String.eqb (status_text (h_status r)) sf))
  && negb (negb (String.eqb of "") && negb (String.eqb (h_source r) of))
  && negb (negb (String.eqb needle "")
           && negb (contains needle (lower (join " " [task_of r; or_empty (h_name r); or_empty (h_callable r); or_empty (h_sched r); if h_coalesced r =? 0 then ""%string else "coalesced"%string; status_text (h_status r); h_source r; h_id r])))).
(** history.py:86-140 query: [sorted(..., reverse=True)] keeps the order of equal records *)
Definition hist_find (q : hist_query) (h : history) : list run_record :=
  scan (hist_keep q) (hq_limit q) [] (isort (fun a b => sort_key b <=? sort_key a) (map snd (records h))).
(** history.py:82-84 latest_for_task *)
Definition latest_for_task (task : string) (h : history) : option run_record :=
  match hist_find (MkHQ (Some task) None None None 1) h with [] => None | r :: _ => Some r end.
(** history.py:142-153 summary *)
Record hist_counts := MkHC { c_total : nat; c_running : nat; c_succeeded : nat; c_failed : nat; c_missed : nat; c_max : nat }.
Definition hist_summary (h : history) : hist_counts :=
  let rs := map snd (records h) in
  let n s := count (fun r => String.eqb (status_text (h_status r)) s) rs in
  MkHC (List.length rs) (n "running"%string) (n "succeeded"%string) (n "failed"%string) (n "missed"%string) (n "max_instances"%string).

(** controllers/history.py:19-48 _history_filters, _limit, build_history_context; the values of the
    query string, None when absent *)
Record hist_params := MkHPar { hp_task : option string; hp_status : option string; hp_source : option string; hp_q : option string; hp_limit : option string }.
Definition history_page (p : hist_params) (h : history) : list run_record :=
  hist_find (MkHQ (or_none (text_param (hp_task p))) (or_none (lower (text_param (hp_status p)))) (or_none (lower (text_param (hp_source p)))) (or_none (text_param (hp_q p)))
                  (log_limit (limit_param (hp_limit p)))) h.
(** controllers/history.py:79-101 HistoryDetailController: None is answered with 404 *)
Definition history_detail (id : string) (h : history) : option run_record := dget id (records h).
(** controllers/audit.py:14-45 *)
Record audit_params := MkAPar { ap_action : option string; ap_status : option string; ap_q : option string; ap_limit : option string }.
Definition audit_page (p : audit_params) (s : audit_store) : result (list audit_record) :=
  audit_find (MkAQ (or_none (lower (text_param (ap_action p)))) (or_none (lower (text_param (ap_status p)))) (or_none (text_param (ap_q p))) (log_limit (limit_param (ap_limit p)))) s.
(** controllers/events.py:14-49 *)
Record event_params := MkEPar { ep_cat : option string; ep_name : option string; ep_task : option string; ep_q : option string; ep_limit : option string }.
Definition events_page (p : event_params) (buf : list event_record) : list event_record :=
  event_find (MkEQ (or_none (lower (text_param (ep_cat p)))) (or_none (lower (text_param (ep_name p)))) (or_none (text_param (ep_task p))) (or_none (text_param (ep_q p))) (log_limit (limit_param (ep_limit p)))) buf.
(** controllers/home.py:30-61 DashboardController.get: the first ten tasks with their last runs, the
    counts, the six newest runs.  inspection.py get_task_infos() sorts by next run time by default. *)
Record overview := MkOver { o_tasks : list (info * option run_record); o_counts : sinfo; o_runs : hist_counts; o_recent : list run_record }.
Definition home_page (descr : trigger -> string) (s : sched) (h : history) : result overview :=
  match get_scheduler_info descr s with
  | Err e => Err e
  | Ok c =>
      match get_task_infos descr (MkQuery None None None None None "next_run_time" false) s with
      | Err e => Err e
      | Ok infos => Ok (MkOver (map (fun i => (i, latest_for_task (i_id i) h)) (firstn 10 infos)) c (hist_summary h) (hist_find (MkHQ None None None None 6) h))
      end
  end.
