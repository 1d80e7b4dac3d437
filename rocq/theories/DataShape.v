(** Dataclass and attrs Shapes, the base Shape and the Any Shape: asyncz/shapes/builtins.py:128-318 and 426-503,
    asyncz/shapes/base.py:98-217.  Not modelled: PydanticShape and MsgspecShape (their validators are other
    libraries), annotations, missing attrs, mappings with keys that are not texts (a constructor refuses them). *)
From Verif Require Import Prelude Shapes.

Inductive problem := Validation | Serialization | Deserialization | RawAttributeError.
Inductive answer (A : Type) := Got (a : A) | Raised (p : problem).
Arguments Got {A}. Arguments Raised {A}.

(** ** Classes *)
(** dataclasses.field(default=...), field(default_factory=...), attrs' default; [Factory v] makes an equal
    value [v] every time *)
Inductive fdefault := NoDefault | Value (v : pyval) | Factory (v : pyval).
Record dfield := { f_name : string; f_init : bool; f_default : fdefault }.
Inductive kind := Dataclass | Attrs.
(** [c_finish]: converters, validators and __post_init__: from the attributes __init__ set to the final ones, or
    an exception; [c_single]: the class called with one positional argument; [c_isa]: which classes are subclasses *)
Record dclass := { c_name : string; c_kind : kind; c_fields : list dfield; c_isa : string -> bool;
  c_finish : dict pyval -> option (dict pyval); c_single : pyval -> option (dict pyval) }.
Record instance := { i_class : string; i_attrs : dict pyval }.
(** what callers pass *)
Inductive input := IMap (kw : dict pyval) | IInst (o : instance) | IOther (v : pyval).

(** attrs drops leading underscores for the parameter of __init__; dataclasses do not *)
Fixpoint strip_underscores (s : string) : string :=
  match s with String c s' => if Ascii.eqb c "_" then strip_underscores s' else s | EmptyString => s end.
Definition param (k : kind) (f : dfield) : string :=
  match k with Dataclass => f_name f | Attrs => strip_underscores (f_name f) end.
Definition default_value (f : dfield) : option pyval :=
  match f_default f with NoDefault => None | Value v | Factory v => Some v end.

(** the generated __init__ (dataclasses and attrs libraries): None is a TypeError *)
Fixpoint bind (k : kind) (fs : list dfield) (kw : dict pyval) : option (dict pyval) :=
  match fs with
  | [] => Some []
  | f :: fs' =>
      match bind k fs' kw with
      | None => None
      | Some rest =>
          match (if f_init f then dget (param k f) kw else None), default_value f with
          | Some v, _ => Some ((f_name f, v) :: rest)
          | None, Some v => Some ((f_name f, v) :: rest)
          | None, None => if f_init f then None else Some rest
          end
      end
  end.
Definition known (k : kind) (fs : list dfield) (key : string) : bool :=
  existsb (fun f => f_init f && String.eqb (param k f) key) fs.
Definition call (c : dclass) (kw : dict pyval) : option instance :=
  if forallb (known (c_kind c) (c_fields c)) (dkeys kw) then
    match bind (c_kind c) (c_fields c) kw with
    | Some at0 => match c_finish c at0 with Some at1 => Some {| i_class := c_name c; i_attrs := at1 |} | None => None end
    | None => None
    end
  else None.

(** ** Shapes *)
Inductive shape := ShBase | ShDataclass | ShAttrs | ShAny.
(** base.py:132-156 Shape.construct *)
Definition base_construct (c : dclass) (x : input) : answer instance :=
  match x with
  | IInst o => if c_isa c (i_class o) then Got o else Raised Validation
  | IMap kw => match call c kw with Some o => Got o | None => Raised Validation end
  | IOther _ => Raised Validation
  end.
(** builtins.py:150-173 (dataclass), 247-271 (attrs), 447-478 (any; the model types Any and object are
    [any_construct_anything]) *)
Definition construct (s : shape) (c : dclass) (x : input) : answer instance :=
  let own :=
    match x with
    | IInst o => if c_isa c (i_class o) then Got o else base_construct c x
    | IMap kw => match call c kw with Some o => Got o | None => Raised Validation end
    | IOther _ => base_construct c x
    end in
  match s with
  | ShBase => base_construct c x
  | ShDataclass => match c_kind c with Dataclass => own | Attrs => base_construct c x end
  | ShAttrs => match c_kind c with Attrs => own | Dataclass => base_construct c x end
  | ShAny =>
      match x with
      | IInst o => if c_isa c (i_class o) then Got o else
          match c_single c (PRecord (i_attrs o)) with Some a => Got {| i_class := c_name c; i_attrs := a |} | None => Raised Validation end
      | IMap kw => match call c kw with Some o => Got o | None => Raised Validation end
      | IOther v => match c_single c v with Some a => Got {| i_class := c_name c; i_attrs := a |} | None => Raised Validation end
      end
  end.
Definition any_construct_anything (x : input) : answer input := Got x.
(** base.py:118-130 validate *)
Definition validate := construct.
(** base.py:178-193 load *)
Definition load (s : shape) (c : dclass) (x : input) : answer instance :=
  match construct s c x with Raised Validation => Raised Deserialization | a => a end.

(** getattr(value, field.name) for every field; None: AttributeError.  attr.asdict(value, recurse=False) is the same *)
Fixpoint attributes (fs : list dfield) (at_ : dict pyval) : option (dict pyval) :=
  match fs with
  | [] => Some []
  | f :: fs' => match dget (f_name f) at_, attributes fs' at_ with Some v, Some l => Some ((f_name f, v) :: l) | _, _ => None end
  end.
(** base.py:61-79 the record cases of dump_plain; base.py:158-176 and builtins.py:273-296 dump.  [o] is an instance
    of [c].  A dataclass attribute that was never set raises while exclude_none's condition or the value is read;
    AttrsShape reads outside any try *)
Definition dump (md : bool -> list (string * pyval) -> pyval) (s : shape) (ex : bool) (c : dclass) (o : instance) : answer pyval :=
  match attributes (c_fields c) (i_attrs o) with
  | Some l => Got (dump_plain md ex (PRecord l))
  | None => match s, c_kind c with ShAttrs, Attrs => Raised RawAttributeError | _, _ => Raised Serialization end
  end.

(** what the library's sentinels look like to the reader of the field list: dataclasses.MISSING, attr.Factory(...) *)
Inductive shown := Shown (v : pyval) | ShownSentinel.
Record shape_field := { sf_name : string; sf_default : shown; sf_required : bool }.
(** builtins.py:175-205 and 298-318 fields *)
Definition fields (c : dclass) : list shape_field :=
  map (fun f =>
    let required := match f_default f with NoDefault => true | _ => false end in
    {| sf_name := f_name f; sf_required := required;
       sf_default := match f_default f with NoDefault => Shown PNone | Value v => Shown v | Factory _ => ShownSentinel end |}) (c_fields c).
