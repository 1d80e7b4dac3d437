(** The filters of the dashboard's task list and the query suffix its references carry:
    asyncz/contrib/dashboard/controllers/_helpers.py:248-325 (parse_task_filters, _bounded_int, _build_task_query_suffix)
    and 353-415 (build_task_dashboard_context: listing, page, suffixes).
    Text is bytes (UTF-8); strip and lower are those of ASCII, as in Text.  Not modelled of the context: the last runs, the
    lists of executors and triggers offered, the counts (they do not depend on the filters). *)
From Verif Require Import Prelude Text Scheduler Triggers Inspect Forms Remote Links.
Open Scope string_scope.

Record filters := MkFilters {
  f_q : string; f_state : string; f_executor : string; f_trigger : string; f_sort : string; f_desc : bool; f_page : Z; f_per_page : Z }.
Definition or_default (d s : string) : string := if String.eqb s "" then d else s.
(** 248-289.  [query_param] gives "" for an absent parameter; int("") fails as int(None) does. *)
Definition parse_task_filters (first : bool) (q : option string) : filters :=
  let get k := query_param first k q in
  MkFilters (strip (get "q")) (lower (strip (get "state"))) (strip (get "executor")) (strip (get "trigger"))
    (or_default "next_run_time" (strip (or_default "next_run_time" (get "sort"))))
    (String.eqb (or_default "asc" (lower (strip (or_default "asc" (get "direction"))))) "desc")
    (page_param (Some (get "page"))) (per_page_param (Some (get "per_page"))).
Definition set_page (n : Z) (f : filters) : filters := MkFilters (f_q f) (f_state f) (f_executor f) (f_trigger f) (f_sort f) (f_desc f) n (f_per_page f).

(** urllib.parse.quote_plus *)
Fixpoint quote_plus (s : string) : string :=
  match s with
  | EmptyString => EmptyString
  | String a s' => if unreserved a then String a (quote_plus s') else if Ascii.eqb a " " then String "+" (quote_plus s') else escaped a ++ quote_plus s'
  end.
(** 310-323: what is left out is empty or says the default *)
Definition some_text (s : string) : option string := if String.eqb s "" then None else Some s.
Definition some_number (default n : Z) : option string := if (n =? 0)%Z || (n =? default)%Z then None else Some (show_int n).
Definition fields (f : filters) : list (string * option string) :=
  [("q", some_text (f_q f)); ("state", some_text (f_state f)); ("executor", some_text (f_executor f)); ("trigger", some_text (f_trigger f));
   ("sort", if String.eqb (f_sort f) "next_run_time" then None else some_text (f_sort f));
   ("direction", if f_desc f then Some "desc" else None);
   ("page", some_number 1 (f_page f)); ("per_page", some_number DEFAULT_TASK_PAGE_SIZE (f_per_page f))].
Definition entries (f : filters) : list (string * string) := flat_map (fun kv => match snd kv with Some v => [(fst kv, v)] | None => [] end) (fields f).
(** urllib.parse.urlencode *)
Definition pair_text (kv : string * string) : string := quote_plus (fst kv) ++ String "=" (quote_plus (snd kv)).
Definition urlencode (l : list (string * string)) : string := concat "&" (map pair_text l).
Definition query_suffix (f : filters) : string := let q := urlencode (entries f) in if String.eqb q "" then "" else String "?" q.

(** 353-415: what the list shows, and the filters its references carry *)
Definition listing (descr : trigger -> string) (f : filters) (s : sched) : result (list info) :=
  let opt x := if String.eqb x "" then None else Some x in
  get_task_infos descr (MkQuery None (opt (f_state f)) (opt (f_executor f)) (opt (f_trigger f)) (opt (f_q f)) (f_sort f) (f_desc f)) s.
Record table := MkTable { t_rows : list info; t_info : page_info; t_filters : filters }.
Definition table_of (f : filters) (visible : list info) : table :=
  let (rows, i) := paginate visible (f_page f) (f_per_page f) in MkTable rows i (set_page (pg_page i) f).
Definition build_table (descr : trigger -> string) (f : filters) (s : sched) : result table :=
  match listing descr f s with Ok l => Ok (table_of f l) | Err e => Err e end.
Definition own_suffix (t : table) : string := query_suffix (t_filters t).
Definition previous_suffix (t : table) : string := query_suffix (set_page (pg_previous (t_info t)) (t_filters t)).
Definition next_suffix (t : table) : string := query_suffix (set_page (pg_next (t_info t)) (t_filters t)).

(** the filters of the request a reference of the list leads to *)
Definition asked_filters (first : bool) (p : place) : option filters :=
  match p with Away => None | Here _ q => Some (parse_task_filters first (option_map (encode query_escapes) q)) end.
Definition carries (first : bool) (scheme : string) (mount : list string) (t : method * string) : option filters :=
  asked_filters first (resolve scheme (mount ++ ["tasks"]) (snd t)).
