(** Textual references to callables and what saving a task does with them:
    asyncz/utils.py:228-305 (get_callable_name, obj_to_ref, ref_to_obj), asyncz/tasks/base.py:90-107 (fn and
    fn_reference), 199-245 (__setstate__, __getstate__).
    Objects are numbers in a graph; a bound method has one number (Python compares them by == : same self, same
    function).  Values of arguments are objects too and are taken to survive pickling unchanged.
    Simplification: every object here is callable, has a __module__, and its module imports without side effects. *)
From Verif Require Import Prelude Text.
Open Scope string_scope.

Inductive okind := Function | Class | Method (self fn : nat) | PartialObj | Instance (cls : nat) | Module.
Record graph := MkGraph {
  kind : nat -> okind;
  qualname : nat -> option string;         (* __qualname__, if there is one *)
  simple : nat -> option string;           (* __name__ *)
  home : nat -> string;                    (* __module__ *)
  attr : nat -> string -> option nat;      (* getattr *)
  import : string -> option nat }.         (* __import__ *)

(** [x in s] *)
Definition class_name (g : graph) (o : nat) : string := match simple g o with Some n => n | None => "" end.
(** utils.py:228-250 *)
Definition callable_name (g : graph) (o : nat) : string :=
  match qualname g o with
  | Some q => q
  | None =>
      match kind g o, simple g o with
      | Method self _, Some n => class_name g (match kind g self with Class => self | Instance c => c | _ => self end) ++ "." ++ n
      | _, Some n => n
      | Instance c, None => class_name g c
      | _, None => ""
      end
  end.
(** utils.py:253-275 (Python 3: bound methods have no im_self) *)
Definition obj_to_ref (g : graph) (o : nat) : result string :=
  match kind g o with
  | PartialObj => Err ValueError
  | _ => let name := callable_name g o in
         if contains "<lambda>" name then Err ValueError
         else if contains "<locals>" name then Err ValueError
         else Ok (home g o ++ ":" ++ name)
  end.
(** ref.split(":", 1) *)
Fixpoint split_first (c : ascii) (s : string) : option (string * string) :=
  match s with
  | EmptyString => None
  | String a s' => if Ascii.eqb a c then Some ("", s')
                   else match split_first c s' with Some (x, y) => Some (String a x, y) | None => None end
  end.
Fixpoint walk (g : graph) (o : nat) (names : list string) : option nat :=
  match names with [] => Some o | n :: names' => match attr g o n with Some o' => walk g o' names' | None => None end end.
(** utils.py:278-305 *)
Definition ref_to_obj (g : graph) (ref : string) : result nat :=
  match split_first ":" ref with
  | None => Err OtherError
  | Some (m, rest) =>
      match import g m with
      | None => Err LookupError
      | Some mo =>
          match walk g mo (split_on "." rest) with
          | None => Err LookupError
          | Some o => match attr g o "fn" with Some o' => Ok o' | None => Ok o end
          end
      end
  end.

(** a task's callable, its reference and its positional arguments *)
Record call := MkCall { k_fn : nat; k_ref : option string; k_args : list nat }.
(** tasks/base.py:90-107: given a callable, or a reference *)
Definition call_of (g : graph) (o : nat) (args : list nat) : call := MkCall o (match obj_to_ref g o with Ok r => Some r | Err _ => None end) args.
Definition call_of_ref (g : graph) (ref : string) (args : list nat) : result call :=
  match ref_to_obj g ref with Ok o => Ok (MkCall o (Some ref) args) | Err e => Err e end.
(** tasks/base.py:214-245 __getstate__: the reference and the arguments saved *)
Definition is_class (g : graph) (o : nat) : bool := match kind g o with Class => true | _ => false end.
Definition save_call (g : graph) (k : call) : result (string * list nat) :=
  match k_ref k with
  | None | Some EmptyString => Err ValueError
  | Some ref =>
      match kind g (k_fn k) with
      | Method self _ =>
          if is_class g self then Ok (ref, k_args k)
          else match obj_to_ref g (k_fn k) with
               | Err e => Err e
               | Ok r => Ok (ref, if String.eqb r ref then self :: k_args k else k_args k)
               end
      | _ => Ok (ref, k_args k)
      end
  end.
(** tasks/base.py:199-212 __setstate__ *)
Definition load_call (g : graph) (saved : string * list nat) : result call :=
  match ref_to_obj g (fst saved) with Ok o => Ok (MkCall o (Some (fst saved)) (snd saved)) | Err e => Err e end.
