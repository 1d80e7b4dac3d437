(** The registry of Shapes and plain dumping: asyncz/shapes/registry.py, asyncz/shapes/base.py:48-95,
    asyncz/shapes/__init__.py:25-29.  Not modelled: the validators behind the built-in Shapes. *)
From Verif Require Import Prelude SortList Inspect.

Inductive shape_error := ShapeNotFound (name : string) | ShapeRegistration | ShapeInvalid.
Inductive outcome (A : Type) := Done (a : A) | Failed (e : shape_error).
Arguments Done {A}. Arguments Failed {A}.
(** a subclass of Shape, by its identity; what callers pass: a class, an instance (of a class), a text,
    None, anything else *)
Definition shape_class := string.
Inductive arg := AClass (c : shape_class) | AInstance (c : shape_class) | AText (s : string) | ANone | AOther.
(** registry.py:19 *)
Definition registry := dict shape_class.
(** registry.py:21-38 register *)
Definition register (name : arg) (shape : arg) (replace : bool) (r : registry) : outcome (shape_class * registry) :=
  match name with
  | AText n =>
      if String.eqb n "" then Failed ShapeRegistration else
      match shape with
      | AClass c => if dmem n r && negb replace then Failed ShapeRegistration else Done (c, dset n c r)
      | _ => Failed ShapeRegistration
      end
  | _ => Failed ShapeRegistration
  end.
(** registry.py:40-53 unregister *)
Definition unregister (name : string) (r : registry) : outcome registry :=
  if dmem name r then Done (ddel name r) else Failed (ShapeNotFound name).
(** registry.py:55-68 get: an instance of the class *)
Definition get (name : string) (r : registry) : outcome shape_class :=
  match dget name r with Some c => Done c | None => Failed (ShapeNotFound name) end.
(** registry.py:70-79 available *)
Definition available (r : registry) : list string := isort str_leb (dkeys r).
(** registry.py:81-102 resolve *)
Definition resolve (a : arg) (r : registry) : outcome shape_class :=
  match a with
  | ANone => get "pydantic" r
  | AInstance c => Done c
  | AText n => get n r
  | AClass c => Done c
  | AOther => Failed ShapeInvalid
  end.
(** shapes/__init__.py:25-29 *)
Definition builtin : registry :=
  [("pydantic", "PydanticShape"); ("msgspec", "MsgspecShape"); ("attrs", "AttrsShape"); ("dataclass", "DataclassShape"); ("any", "AnyShape")]%string.
Inductive rop := ORegister (name shape : arg) (replace : bool) | OUnregister (name : string).
Definition rstep (o : rop) (r : registry) : outcome registry :=
  match o with
  | ORegister n s rep => match register n s rep r with Done (_, r') => Done r' | Failed e => Failed e end
  | OUnregister n => unregister n r
  end.
(** a history of calls: a failing one raises and leaves the registry as it was *)
Fixpoint rrun (ops : list rop) (r : registry) : registry :=
  match ops with [] => r | o :: ops' => rrun ops' (match rstep o r with Done r' => r' | Failed _ => r end) end.

(** ** dump_plain *)
(** Python values: None, other atoms (numbers, texts, bytes, ...), pydantic models (as the mapping
    model_dump gives, None entries included), dataclass and attrs instances, mappings, tuples, lists,
    other sequences *)
Inductive pyval :=
| PNone | PAtom (a : string)
| PModel (fields : list (string * pyval)) | PRecord (fields : list (string * pyval)) | PMap (items : list (string * pyval))
| PTuple (l : list pyval) | PList (l : list pyval) | PSeq (l : list pyval).
Definition is_none (v : pyval) : bool := match v with PNone => true | _ => false end.
(** base.py:48-95; [model_dump] is pydantic's *)
Fixpoint dump_plain (model_dump : bool -> list (string * pyval) -> pyval) (ex : bool) (v : pyval) : pyval :=
  let items := fix items (l : list (string * pyval)) : list (string * pyval) :=
    match l with
    | [] => []
    | (k, x) :: l' => if negb ex || negb (is_none x) then (k, dump_plain model_dump ex x) :: items l' else items l'
    end in
  match v with
  | PNone => PNone
  | PAtom a => PAtom a
  | PModel f => model_dump ex f
  | PRecord f => PMap (items f)
  | PMap f => PMap (items f)
  | PTuple l => PTuple (map (dump_plain model_dump ex) l)
  | PList l => PList (map (dump_plain model_dump ex) l)
  | PSeq l => PList (map (dump_plain model_dump ex) l)
  end.
