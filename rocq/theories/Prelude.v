(** Shared vocabulary of the model: exceptions as values, Python dictionaries as
    association lists in insertion order, instants as integers (microseconds). *)
From Coq Require Export List Arith ZArith Lia Bool String Ascii.
From Coq Require Export ZifyBool ZifyNat ZifyN.
Export ListNotations.
#[global] Set Default Goal Selector "1".

(** Python exceptions raised by the modelled code (asyncz/exceptions.py:1-107 and builtins). *)
Inductive exn : Type :=
| ConflictIdError          (* asyncz/exceptions.py: ConflictIdError *)
| TaskLookupError          (* asyncz/exceptions.py: TaskLookupError *)
| MaximumInstancesError    (* asyncz/exceptions.py: MaximumInstancesError *)
| SchedulerAlreadyRunningError
| SchedulerNotRunningError
| ValueError | TypeError | AttributeError | KeyError | LookupError
| AssertionError | IndexError | OverflowErr | OtherError
| OutOfFuel.   (* not a Python exception: the model ran out of loop iterations *)

Inductive result (A : Type) : Type :=
| Ok (a : A)
| Err (e : exn).
Arguments Ok {A} a.
Arguments Err {A} e.

Definition is_ok {A} (r : result A) : bool := match r with Ok _ => true | Err _ => false end.

(** Python [dict] with string keys: association list in insertion order.
    [dget] is [d.get(k)], [dset] is [d[k] = v] (keeps the slot of an existing key,
    appends otherwise), [ddel] is [d.pop(k, None)]. *)
Section Dict.
  Context {V : Type}.
  Definition dict := list (string * V).
  Fixpoint dget (k : string) (d : dict) : option V :=
    match d with
    | [] => None
    | (k', v) :: d' => if String.eqb k k' then Some v else dget k d'
    end.
  Fixpoint dset (k : string) (v : V) (d : dict) : dict :=
    match d with
    | [] => [(k, v)]
    | (k', v') :: d' => if String.eqb k k' then (k', v) :: d' else (k', v') :: dset k v d'
    end.
  Definition ddel (k : string) (d : dict) : dict :=
    filter (fun kv => negb (String.eqb k (fst kv))) d.
  Definition dmem (k : string) (d : dict) : bool :=
    match dget k d with Some _ => true | None => false end.
  Definition dkeys (d : dict) : list string := map fst d.
End Dict.
Arguments dict V : clear implicits.

(** Python list primitives used by the code. [insert_at] is [l.insert(i, x)]
    (an index past the end appends), [del_at] is [del l[i]] and [set_at] is [l[i] = x],
    both raising IndexError out of range. *)
Definition insert_at {A} (i : nat) (x : A) (l : list A) : list A := firstn i l ++ x :: skipn i l.
Definition del_at {A} (i : nat) (l : list A) : result (list A) :=
  if Nat.ltb i (List.length l) then Ok (firstn i l ++ skipn (S i) l) else Err IndexError.
Definition set_at {A} (i : nat) (x : A) (l : list A) : result (list A) :=
  if Nat.ltb i (List.length l) then Ok (firstn i l ++ x :: skipn (S i) l) else Err IndexError.

(** Comparison of ids: Python compares [str] by code point; ids are modelled as byte strings
    compared byte by byte (identical for ASCII and for UTF-8 encoded text). *)
Definition str_ltb (a b : string) : bool :=
  match String.compare a b with Lt => true | _ => false end.

(** A "timestamp or infinity" as used for ordering tasks ([None] = paused = +inf). *)
Definition tltb (a b : option Z) : bool :=
  match a, b with
  | Some x, Some y => Z.ltb x y
  | Some _, None => true
  | None, _ => false
  end.
Definition teqb (a b : option Z) : bool :=
  match a, b with
  | Some x, Some y => Z.eqb x y
  | None, None => true
  | _, _ => false
  end.

(** Order on (timestamp-or-inf, id), lexicographic. *)
Definition key : Type := (option Z * string)%type.
Definition key_lt (a b : key) : Prop :=
  tltb (fst a) (fst b) = true \/ (fst a = fst b /\ str_ltb (snd a) (snd b) = true).
