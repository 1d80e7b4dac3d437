(** What C98 says about looking at the history. *)
From Verif Require Import Prelude Text Dash DashSpec FormsSpec History CaptureSpec.
From Coq Require Import Permutation Sorted.
Open Scope Z_scope.

(** when a run was last heard of: its end, else its submission, else its last change *)
Definition heard (r : run_record) : Z := first_time [h_finished r; h_submitted r] (h_updated r).
(** [s]: the runs of [l], the last heard of first; those heard of at the same time in the order of [l] *)
Record latest_first (l s : list run_record) : Prop := {
  lf_same : Permutation l s;
  lf_order : StronglySorted (fun a b => heard b <= heard a) s;
  lf_ties : forall t, exists p, picked (fun r => heard r = t) l p /\ picked (fun r => heard r = t) s p }.
(** the words for the states of a run *)
Inductive is_called : status -> string -> Prop :=
| ic_running : is_called Running "running" | ic_ok : is_called Succeeded "succeeded" | ic_failed : is_called Failed "failed"
| ic_missed : is_called Missed "missed" | ic_max : is_called MaxInstances "max_instances".
(** the text a run is searched in *)
Definition run_words (r : run_record) (t : string) : Prop :=
  exists status coalesced, is_called (h_status r) status /\ ((h_coalesced r = 0 /\ coalesced = ""%string) \/ (h_coalesced r <> 0 /\ coalesced = "coalesced"%string)) /\
    t = (run_task_id r ++ " " ++ or_empty (h_name r) ++ " " ++ or_empty (h_callable r) ++ " " ++ or_empty (h_sched r) ++ " " ++ coalesced ++ " " ++ status ++ " " ++ h_source r ++ " " ++ h_id r)%string.
Record run_wanted (task status source q : option string) (r : run_record) : Prop := {
  rw_task : forall s, task = Some s -> s <> ""%string -> run_task_id r = s;
  rw_status : forall s, status = Some s -> strip s <> ""%string -> is_called (h_status r) (lower (strip s));
  rw_source : forall s, source = Some s -> strip s <> ""%string -> h_source r = lower (strip s);
  rw_text : forall s, q = Some s -> exists t, run_words r t /\ found s t }.
(** a parameter of a page, as far as it says something *)
Definition trimmed (o : option string) : option string := option_map strip o.
