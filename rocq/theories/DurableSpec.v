(** What a durable store must answer: the answers of the map of StoreSpec holding the tasks as they
    are restored.  [ser] serialises (with a nonce; may raise), [de] restores, [back t] is the task a
    restored [t] is (same id, same next run time). *)
From Verif Require Import Prelude MemStore StoreSpec SortList Durable.
From Coq Require Import Sorting.Sorted Sorting.Permutation.

Section DSpec.
  Context {T : Type} (tid : T -> string) (tnext : T -> option Z).
  Context (ser : string -> T -> result string) (de : string -> option T) (back : T -> T).

  (** the back end yields each row once, in whatever order *)
  Definition fair (os : list (senv * sop T)) : Prop := forall e o, In (e, o) os -> forall A (l : list A), Permutation (pm e A l) l.
  (** the task written by the operation, if any *)
  Definition written (o : sop T) : option T := match o with SAdd t | SUpdate t => Some t | _ => None end.
  (** every task written can be restored *)
  Definition restorable (os : list (senv * sop T)) : Prop :=
    forall e o t, In (e, o) os -> written o = Some t ->
      forall b, ser (nonce e) t = Ok b -> de b = Some (back t) /\ tid (back t) = tid t /\ tnext (back t) = tnext t.
  Definition as_restored (o : sop T) : sop T := match o with SAdd t => SAdd (back t) | SUpdate t => SUpdate (back t) | _ => o end.
  (** a task that cannot be serialised is refused and nothing changes *)
  Definition dspec_step (m : content) (eo : senv * sop T) (r : sout T) (m' : content) : Prop :=
    match written (snd eo) with
    | Some t => match ser (nonce (fst eo)) t with
                | Err _ => (exists x, r = ORaise x) /\ forall i, m' i = m i
                | Ok _ => spec_step tid tnext false (time_le tnext) m (as_restored (snd eo)) r m'
                end
    | None => spec_step tid tnext false (time_le tnext) m (as_restored (snd eo)) r m'
    end.
  Fixpoint dspec_run (m : content) (os : list (senv * sop T)) (rs : list (sout T)) : Prop :=
    match os, rs with
    | [], [] => True
    | o :: os', r :: rs' => exists m', dspec_step m o r m' /\ dspec_run m' os' rs'
    | _, _ => False
    end.
End DSpec.
