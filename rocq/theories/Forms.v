(** Dashboard forms: asyncz/contrib/dashboard/controllers/_helpers.py.
    Flash messages are in Banner, the query string in TaskFilters; rendering is not modelled. *)
From Verif Require Import Prelude Text Cron CronParse Triggers.
Open Scope Z_scope.

(** int(text), on ASCII: surrounding space, a sign, digits with single underscores between them.
    (More than 4300 digits are refused by CPython: not modelled.) *)
Fixpoint int_digits (acc : Z) (seen : bool) (s : string) : option Z :=
  match s with
  | EmptyString => if seen then Some acc else None
  | String a s' => if is_digit a then int_digits (10 * acc + (code_of a - 48)) true s'
                   else if Ascii.eqb a "_" then if seen then int_digits acc false s' else None else None
  end.
Definition py_int (s : string) : option Z :=
  match strip s with
  | String a s' => if Ascii.eqb a "-" then option_map Z.opp (int_digits 0 false s') else if Ascii.eqb a "+" then int_digits 0 false s' else int_digits 0 false (String a s')
  | EmptyString => None
  end.

(** ** pages *)
(** _helpers.py:292-297 _bounded_int, of a query parameter: absent is None, int(None) is a TypeError *)
Definition bounded_int (value : option string) (default minimum maximum : Z) : Z :=
  match match value with Some s => py_int s | None => None end with
  | None => default
  | Some n => Z.max minimum (Z.min maximum n)
  end.
(** _helpers.py:22-24, 262-269 *)
Definition DEFAULT_TASK_PAGE_SIZE := 50.
Definition MAX_TASK_PAGE_SIZE := 200.
Definition page_param (v : option string) : Z := bounded_int v 1 1 10000.
Definition per_page_param (v : option string) : Z := bounded_int v DEFAULT_TASK_PAGE_SIZE 1 MAX_TASK_PAGE_SIZE.
(** l[start:end] *)
Definition slice_index (i n : Z) : nat := Z.to_nat (if i <? 0 then i + n else i).
Definition slice {A} (start stop : Z) (l : list A) : list A :=
  let n := Z.of_nat (List.length l) in let a := slice_index start n in firstn (slice_index stop n - a) (skipn a l).
Record page_info := MkPage { pg_page : Z; pg_per_page : Z; pg_count : Z; pg_total : Z; pg_start : Z; pg_end : Z; pg_has_previous : bool; pg_has_next : bool; pg_previous : Z; pg_next : Z }.
(** _helpers.py:326-350 _paginate_task_infos *)
Definition paginate {A} (l : list A) (requested per_page : Z) : list A * page_info :=
  let total := Z.of_nat (List.length l) in
  let page_count := Z.max 1 ((total + per_page - 1) / per_page) in
  let page := Z.min requested page_count in
  let start := (page - 1) * per_page in
  let stop := start + per_page in
  (slice start stop l,
   MkPage page per_page page_count total (if total =? 0 then 0 else start + 1) (Z.min stop total) (1 <? page) (page <? page_count) (Z.max 1 (page - 1)) (Z.min page_count (page + 1))).

(** ** bulk ids *)
(** what a form field may hold; [VOther t]: neither text, bytes, list nor None, with [str] equal to [t] *)
Inductive value := VNone | VText (s : string) | VBytes (b : string) | VList (l : list value) | VOther (t : string).
(** what json.loads gives: a list (its members that are not strings are None here), or something else *)
Inductive json := JList (l : list (option string)) | JOther.
Section Ids.
  (** json.loads, or None when it raises; bytes.decode(), or None when it raises; str of bytes *)
  Context (loads : string -> option json) (decode : string -> option string) (bytes_text : string -> string).
  Definition text_of_bytes (b : string) : string := match decode b with Some s => s | None => bytes_text b end.
  Fixpoint strings (l : list (option string)) : list string := match l with [] => [] | Some s :: l' => s :: strings l' | None :: l' => strings l' end.
  (** [p.strip() for p in s.split(",") if p.strip()], and the variant that keeps the space *)
  Definition nonblank (s : string) : bool := negb (String.eqb (strip s) "").
  Definition pieces (s : string) : list string := map strip (filter nonblank (split_on "," s)).
  Definition raw_pieces (s : string) : list string := filter nonblank (split_on "," s).
  (** _helpers.py:470-487, one member of a list *)
  Definition collect_member (v : value) : list string :=
    let text := fun s => let s := strip s in
      if starts_with "[" s then match loads s with Some (JList l) => strings l | _ => raw_pieces s end else raw_pieces s in
    match v with VText s => text s | VBytes b => text (text_of_bytes b) | _ => [] end.
  (** _helpers.py:488-502, a text *)
  Definition collect_text (s : string) : list string :=
    let s := strip s in
    if starts_with "[" s then match loads s with Some (JList l) => strings l | _ => pieces s end
    else if String.eqb s "" then [] else pieces s.
  (** _helpers.py:508-515 *)
  Fixpoint dedup (seen l : list string) : list string :=
    match l with [] => [] | x :: l' => if existsb (String.eqb x) seen then dedup seen l' else x :: dedup (x :: seen) l' end.
  (** _helpers.py:439-516 parse_ids_from_request_form, of data.get("ids") *)
  Definition collected (raw : value) : list string :=
    match raw with
    | VNone => []
    | VText s => collect_text s
    | VBytes b => collect_text (text_of_bytes b)
    | VList l => flat_map collect_member l
    | VOther t => pieces t
    end.
  Definition parse_ids (raw : value) : list string := dedup [] (collected raw).
End Ids.

(** ** trigger forms *)
(** keyword arguments of the trigger; a date is what datetime.fromisoformat gives (a parameter) *)
Inductive trigger_form (D : Type) :=
| FInterval (unit : string) (n : Z)
| FCron (minute hour day month day_of_week : string)
| FDate (d : D).
Arguments FInterval {D}. Arguments FCron {D}. Arguments FDate {D}.
Fixpoint last_char (s : string) : option (string * ascii) :=
  match s with
  | EmptyString => None
  | String a s' => match last_char s' with None => Some (EmptyString, a) | Some (u, b) => Some (String a u, b) end
  end.
(** tv.rsplit(" ", 1) when there is a blank *)
Fixpoint rsplit_blank (s : string) : option (string * string) :=
  match s with
  | EmptyString => None
  | String a s' => match rsplit_blank s' with Some (h, t) => Some (String a h, t) | None => if Ascii.eqb a " " then Some (EmptyString, s') else None end
  end.
(** _helpers.py:120-124: "... 02:00", the blank being a "+" decoded by the form parser *)
Definition is_offset (t : string) : bool :=
  match t with
  | String a (String b (String c (String d (String e EmptyString)))) =>
      Ascii.eqb c ":" && (let without := filter (fun x => negb (Ascii.eqb x ":")) [a; b; c; d; e] in forallb is_digit without && negb (Nat.eqb (List.length without) 0))
  | _ => false
  end.
Definition repair_offset (tv : string) : string :=
  if contains "T" tv then match rsplit_blank tv with Some (h, t) => if is_offset t then (h ++ "+" ++ t)%string else tv | None => tv end else tv.
(** _helpers.py:80-131 parse_trigger_config *)
Definition parse_trigger_config {D} (fromiso : string -> option D) (ttype : option string) (tvalue : option string) : result (trigger_form D) :=
  let orempty := fun o => match o with Some s => s | None => EmptyString end in
  let tt := lower (strip (orempty ttype)) in
  let tv := strip (orempty tvalue) in
  let interval := fun unit s => match py_int s with Some n => Ok (FInterval unit n) | None => Err ValueError end in
  if String.eqb tt "interval" then
    match last_char tv with
    | Some (u, a) => if Ascii.eqb a "s" then interval "seconds"%string u else if Ascii.eqb a "m" then interval "minutes"%string u else if Ascii.eqb a "h" then interval "hours"%string u
                     else interval "seconds"%string tv
    | None => interval "seconds"%string tv
    end
  else if String.eqb tt "cron" then
    match words tv with
    | [mi; h; d; mo; dw] => Ok (FCron mi h d mo dw)
    | _ => Err ValueError
    end
  else if String.eqb tt "date" then match fromiso (repair_offset tv) with Some d => Ok (FDate d) | None => Err ValueError end
  else Err ValueError.
(** _helpers.py:134-162 parse_trigger: the trigger the form stands for *)
Inductive form_trigger (D : Type) := GInterval (iv : Z) | GCron (t : crontab) | GDate (d : D).
Arguments GInterval {D}. Arguments GCron {D}. Arguments GDate {D}.
Definition parse_trigger {D} (fromiso : string -> option D) (ttype tvalue : option string) : result (form_trigger D) :=
  match parse_trigger_config fromiso ttype tvalue with
  | Err e => Err e
  | Ok (FInterval unit n) => Ok (GInterval (interval_of 0 0 (if String.eqb unit "hours" then n else 0) (if String.eqb unit "minutes" then n else 0) (if String.eqb unit "seconds" then n else 0)))
  | Ok (FCron mi h d mo dw) => match cron_new [(6, mi); (5, h); (2, d); (1, mo); (4, dw)] with Ok c => Ok (GCron c) | Err e => Err e end
  | Ok (FDate d) => Ok (GDate d)
  end.
