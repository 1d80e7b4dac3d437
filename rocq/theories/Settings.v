(** Settings: asyncz/conf/global_settings.py.
    Simplified: annotations are resolved (safe_get_type_hints, _extract_base_type and _resolve_string_type
    are given the actual types); post_init does nothing; a type other than bool, int and str is the function
    it is when called with a text. *)
From Verif Require Import Prelude Text Dash Forms.
Open Scope Z_scope.

Inductive sval := SNone | SBool (b : bool) | SInt (z : Z) | SText (s : string) | SObj (n : nat).
Inductive sbase := BBool | BInt | BStr | BClass (make : string -> option sval).
(** a plain type, or the members of a union other than None *)
Inductive styp := TPlain (b : sbase) | TUnion (members : list sbase).
(** a settings class: type hints in the order of get_type_hints (those of the base classes first), class
    attributes, properties in the order of inspect.getmembers (by name) with what they compute, None if that raises *)
Record sclass := MkSC { sc_hints : list (string * styp); sc_attrs : dict sval; sc_props : list (string * (dict sval -> option sval)) }.
(** global_settings.py:43 __truthy__ *)
Definition truthy_words : list string := ["true"; "1"; "yes"; "on"; "y"]%string.
Definition word_in (w : string) (l : list string) : bool := existsb (String.eqb w) l.
(** global_settings.py:119-152 _cast: every failure becomes a ValueError *)
Definition call_type (b : sbase) (value : string) : option sval :=
  match b with
  | BBool => Some (SBool (word_in (lower value) truthy_words))
  | BInt => option_map SInt (py_int value)
  | BStr => Some (SText value)
  | BClass make => make value
  end.
Definition cast (t : styp) (value : string) : result sval :=
  match match t with TPlain b => call_type b value | TUnion [b] => call_type b value | TUnion _ => None end with
  | Some v => Ok v
  | None => Err ValueError
  end.
(** object.__setattr__: a property without setter refuses; else the instance's attribute *)
Definition set_attr (c : sclass) (k : string) (v : sval) (o : dict sval) : result (dict sval) :=
  match dget k (sc_props c) with Some _ => Err AttributeError | None => Ok (dset k v o) end.
(** getattr(self, k, None) of a setting: the instance's, the class's, None *)
Definition get_attr (c : sclass) (k : string) (o : dict sval) : sval :=
  match dget k o with Some v => v | None => match dget k (sc_attrs c) with Some v => v | None => SNone end end.
(** global_settings.py:45-72 __init__ *)
Fixpoint set_all (c : sclass) (kwargs : list (string * sval)) (o : dict sval) : result (dict sval) :=
  match kwargs with
  | [] => Ok o
  | (k, v) :: l => match set_attr c k v o with Ok o => set_all c l o | Err e => Err e end
  end.
Fixpoint resolve (c : sclass) (env : dict string) (hints : list (string * styp)) (o : dict sval) : result (dict sval) :=
  match hints with
  | [] => Ok o
  | (k, t) :: l =>
      match (match dget (upper k) env with Some text => cast t text | None => Ok (get_attr c k o) end) with
      | Ok v => match set_attr c k v o with Ok o => resolve c env l o | Err e => Err e end
      | Err e => Err e
      end
  end.
Definition make (c : sclass) (env : dict string) (kwargs : dict sval) : result (dict sval) :=
  match set_all c kwargs [] with Ok o => resolve c env (sc_hints c) o | Err e => Err e end.
(** global_settings.py:154-196 dict *)
Definition is_snone (v : sval) : bool := match v with SNone => true | _ => false end.
Definition out_key (up : bool) (k : string) : string := if up then upper k else k.
Fixpoint dump_hints (c : sclass) (o : dict sval) (exclude_none up : bool) (exclude : list string) (hints : list (string * styp)) (r : dict sval) : dict sval :=
  match hints with
  | [] => r
  | (k, _) :: l =>
      if word_in k exclude then dump_hints c o exclude_none up exclude l r
      else let v := get_attr c k o in
      if exclude_none && is_snone v then dump_hints c o exclude_none up exclude l r
      else dump_hints c o exclude_none up exclude l (dset (out_key up k) v r)
  end.
Fixpoint dump_props (c : sclass) (o : dict sval) (exclude_none up : bool) (exclude : list string) (props : list (string * (dict sval -> option sval))) (r : dict sval) : dict sval :=
  match props with
  | [] => r
  | (k, f) :: l =>
      if word_in k exclude || word_in k (map fst (sc_hints c)) then dump_props c o exclude_none up exclude l r
      else match f o with
      | None => dump_props c o exclude_none up exclude l r
      | Some v => if exclude_none && is_snone v then dump_props c o exclude_none up exclude l r else dump_props c o exclude_none up exclude l (dset (out_key up k) v r)
      end
  end.
Definition dump (c : sclass) (o : dict sval) (exclude_none up : bool) (exclude : list string) (include_properties : bool) : dict sval :=
  let r := dump_hints c o exclude_none up exclude (sc_hints c) [] in if include_properties then dump_props c o exclude_none up exclude (sc_props c) r else r.
(** global_settings.py:34-43, 199-269 Settings; the annotations of BaseSettings itself are hints like any
    other ([dict] and [set] called with a text: a ValueError, a set) *)
Definition asyncz_settings (version : string) : sclass :=
  MkSC [("__type_hints__", TPlain (BClass (fun _ => None))); ("__truthy__", TPlain (BClass (fun _ => Some (SObj 2)))); ("debug", TPlain BBool); ("version", TPlain BStr); ("secret_key", TUnion [BStr])]%string
       [("__type_hints__", SObj 0); ("__truthy__", SObj 1); ("debug", SBool false); ("version", SText version); ("secret_key", SNone)]%string
       [("dashboard_config"%string, fun _ => Some (SObj 3))].
