(** The gate in front of the dashboard: asyncz/contrib/dashboard/admin/middleware/auth_gate.py,
    forward_root_path.py, security_headers.py, admin/backends.py, admin/core.py:174-193, 262-306, config.py:93-144.
    Simplifications: an application is the answer it gives to a request; header values are texts; session
    cookies (Lilya's SessionMiddleware) are the dictionary they carry; the comparison of addresses with networks
    (ipaddress) is a parameter. *)
From Verif Require Import Prelude Text.
Open Scope string_scope.

(** drop a prefix *)
Fixpoint without (p s : string) : option string :=
  match p, s with
  | EmptyString, _ => Some s
  | String a p', String b s' => if Ascii.eqb a b then without p' s' else None
  | _, _ => None
  end.
Definition or_slash (s : string) : string := match s with EmptyString => "/" | _ => s end.
Definition lead_slash (s : string) : string := if starts_with "/" s then s else "/" ++ s.
(** str.rstrip("/") *)
Fixpoint rstrip_slash (s : string) : string :=
  match s with
  | EmptyString => EmptyString
  | String a s' => match rstrip_slash s' with EmptyString => if Ascii.eqb a "/" then EmptyString else String a EmptyString | r => String a r end
  end.

(** auth_gate.py:57-108; [q_hx]: the request says hx-request: true *)
Record request := MkRequest { q_http : bool; q_root : string; q_path : string; q_hx : bool }.
Inductive verdict (U : Type) := PassOn (u : option U) | SendTo (status : nat) (location : string).
Arguments PassOn {U} u. Arguments SendTo {U} status location.
Definition child_path (q : request) : string :=
  let path := or_slash (q_path q) in
  let c := match q_root q with
           | EmptyString => path
           | r => match without r path with Some rest => or_slash rest | None => path end
           end in
  lead_slash c.
Definition allowed (allow : list string) (c : string) : bool :=
  existsb (fun p => String.eqb c p || starts_with (p ++ "/") c) allow.
Definition gate {U} (allow : list string) (login_path : string) (user : option U) (q : request) : verdict U :=
  if negb (q_http q) then PassOn None
  else if allowed allow (child_path q) then PassOn None
  else match user with
       | Some u => PassOn (Some u)
       | None => SendTo (if q_hx q then 401 else 303)%nat (q_root q ++ login_path ++ "?next=" ++ or_slash (q_path q))
       end.
(** core.py:174-193: the dashboard's own static files are open too *)
Definition gate_allow (allowlist : list string) (url_prefix : string) : list string :=
  match rstrip_slash url_prefix with
  | EmptyString => allowlist
  | p => (allowlist ++ [(p ++ "/static")%string; (p ++ "/assets")%string])%list
  end.

(** backends.py: what the session holds; a User is built from the keywords stored *)
Inductive sval := SText (s : string) | SNum (z : Z) | SBool (b : bool).
Record user := MkUser { us_id : sval; us_name : sval; us_admin : sval; us_extra : dict sval }.
Definition session := dict (dict sval).
Definition user_data (u : user) : dict sval :=
  fold_left (fun d kv => dset (fst kv) (snd kv) d) (us_extra u) [("id", us_id u); ("name", us_name u); ("is_admin", us_admin u)].
Definition user_of (d : dict sval) : result user :=
  match dget "id" d, dget "name" d with
  | Some i, Some n => Ok (MkUser i n (match dget "is_admin" d with Some a => a | None => SBool true end) (ddel "is_admin" (ddel "name" (ddel "id" d))))
  | _, _ => Err TypeError
  end.
(** backends.py:46-58 *)
Definition authenticate (key : string) (s : session) : result (option user) :=
  match dget key s with
  | None | Some [] => Ok None
  | Some d => match user_of d with Ok u => Ok (Some u) | Err e => Err e end
  end.
(** backends.py:60-106, a POST: None: the form again; Some: redirect to this place.  [next]: the field of the form *)
Definition login (key : string) (verify : string -> string -> option user) (index : string) (name password : string) (next : option string) (s : session)
  : session * option string :=
  match verify (strip name) password with
  | None => (s, None)
  | Some u => (dset key (user_data u) s, Some (match next with Some (String a n) => String a n | _ => index end))
  end.
(** backends.py:108-122 *)
Definition logout (key : string) (s : session) : session := ddel key s.
Inductive visit := Login (name password : string) (next : option string) | Logout | Other.
Definition visit_step (key : string) (verify : string -> string -> option user) (index : string) (s : session) (v : visit) : session :=
  match v with Login n p x => fst (login key verify index n p x s) | Logout => logout key s | Other => s end.
Definition visits (key : string) (verify : string -> string -> option user) (index : string) (l : list visit) (s : session) : session :=
  fold_left (visit_step key verify index) l s.

(** forward_root_path.py:87-108 *)
Definition is_trusted (in_network : string -> string -> bool) (trusted : list string) (client : string) : bool :=
  existsb (String.eqb "*") trusted ||
  (negb (String.eqb client "") && (existsb (String.eqb client) trusted || existsb (in_network client) trusted)).
(** forward_root_path.py:61-63: names in lower case, the last one counts *)
Definition header_named (n : string) (headers : list (string * string)) : option string :=
  fold_left (fun o h => if String.eqb (lower (fst h)) (lower n) then Some (snd h) else o) headers None.
(** forward_root_path.py:44-85: app_root_path afterwards ([existing]: app_root_path or root_path) *)
Definition forwarded (in_network : string -> string -> bool) (trusted : list string) (client : string) (header : option string)
  (app_root existing : string) : string :=
  if is_trusted in_network trusted client then
    match header with
    | None => app_root
    | Some h =>
        let p := strip h in
        if String.eqb p "" || String.eqb p "/" then app_root
        else let p := rstrip_slash (lead_slash p) in
             let existing := if String.eqb existing "" then "" else lead_slash existing in
             or_slash (rstrip_slash (p ++ existing))
    end
  else app_root.
(** config.py:93-100 *)
Definition normalize_prefix (v : string) : string :=
  if String.eqb v "" then "/"
  else let v := lead_slash (strip v) in if String.eqb v "/" then v else rstrip_slash v.
(** str.endswith *)
Fixpoint ends_with (suffix s : string) : bool :=
  String.eqb s suffix || match s with EmptyString => false | String _ s' => ends_with suffix s' end.
(** config.py:103-114 *)
Definition combine_prefixes (external configured : string) : string :=
  let e := normalize_prefix external in
  let c := normalize_prefix configured in
  if String.eqb e "/" then c
  else if String.eqb c "/" then e
  else if String.eqb e c || ends_with c e then e
  else e ++ c.
(** config.py:117-144 *)
Definition effective_prefix (configured app_root root : string) : string :=
  let c := normalize_prefix configured in
  let e := normalize_prefix app_root in
  if negb (String.eqb e "/") then combine_prefixes e c
  else if String.eqb c "/" then normalize_prefix root
  else c.
(** core.py:83-86: the prefix the dashboard is mounted under *)
Definition admin_prefix (given : option string) (configured : string) : result string :=
  let p := rstrip_slash (match given with Some (String a s) => String a s | _ => configured end) in
  if starts_with "/" p then Ok p else Err AssertionError.
(** security_headers.py:7-18 *)
Definition default_headers : list (string * string) :=
  [("content-security-policy", "default-src 'self'; script-src 'self'; style-src 'self' 'unsafe-inline'; img-src 'self' data:; font-src 'self' data:; connect-src 'self'; object-src 'none'; base-uri 'self'; frame-ancestors 'none'; form-action 'self'");
   ("referrer-policy", "same-origin"); ("x-content-type-options", "nosniff"); ("x-frame-options", "DENY");
   ("permissions-policy", "camera=(), microphone=(), geolocation=()")].
(** security_headers.py:33-51; header names are compared in lower case *)
Definition add_headers (wanted : list (string * string)) (https : bool) (headers : list (string * string)) : list (string * string) :=
  let existing := map (fun h => lower (fst h)) headers in
  let have n := existsb (String.eqb n) existing in
  (headers ++ filter (fun h => negb (have (fst h))) wanted
   ++ (if https && negb (have "strict-transport-security") then [("strict-transport-security", "max-age=31536000; includeSubDomains")] else []))%list.
