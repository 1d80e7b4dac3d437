(** Specification of a task store, independent of any back end: a finite map from id to task.
    Small and self-contained on purpose; every back end is compared with it. *)
From Verif Require Import Prelude MemStore.
From Coq Require Import Sorting.Sorted.

Section Spec.
  Context {T : Type} (tid : T -> string) (tnext : T -> option Z).

  (** contents of the store: which task (if any) is stored under an id *)
  Definition content := string -> option T.
  Definition c_empty : content := fun _ => None.
  Definition c_set (m : content) (t : T) : content :=
    fun i => if String.eqb i (tid t) then Some t else m i.
  Definition c_del (m : content) (id : string) : content :=
    fun i => if String.eqb i id then None else m i.

  (** [l] lists every stored task exactly once *)
  Definition lists (m : content) (l : list T) : Prop :=
    NoDup (map tid l) /\ forall i t, m i = Some t <-> (In t l /\ tid t = i).

  (** earlier next run time first, paused ([None]) last *)
  Definition time_le (a b : T) : Prop :=
    match tnext a, tnext b with
    | Some x, Some y => (x <= y)%Z
    | Some _, None => True
    | None, Some _ => False
    | None, None => True
    end.
  (** same, ties broken by id *)
  Definition listing_lt (a b : T) : Prop :=
    match tnext a, tnext b with
    | Some x, Some y => (x < y)%Z \/ (x = y /\ str_ltb (tid a) (tid b) = true)
    | Some _, None => True
    | None, Some _ => False
    | None, None => str_ltb (tid a) (tid b) = true
    end.

  Definition is_due (now : Z) (t : T) : Prop := exists x, tnext t = Some x /\ (x <= now)%Z.

  (** [x] is the least next run time of the stored tasks *)
  Definition least_next (m : content) (x : option Z) : Prop :=
    match x with
    | Some v => (exists i t, m i = Some t /\ tnext t = Some v)
                /\ forall i t w, m i = Some t -> tnext t = Some w -> (v <= w)%Z
    | None => forall i t, m i = Some t -> tnext t = None
    end.

  (** What each operation must answer and what it may change.  [tolerant] says whether updating an
      absent id inserts it (memory store) or raises TaskLookupError (all other stores);
      [ord] is the promised order of listings. *)
  Definition spec_step (tolerant : bool) (ord : T -> T -> Prop)
             (m : content) (o : sop T) (r : sout T) (m' : content) : Prop :=
    match o with
    | SAdd t => match m (tid t) with
                | Some _ => r = ORaise ConflictIdError /\ forall i, m' i = m i
                | None => r = ODone /\ forall i, m' i = c_set m t i
                end
    | SUpdate t => match m (tid t), tolerant with
                   | None, false => r = ORaise TaskLookupError /\ forall i, m' i = m i
                   | _, _ => r = ODone /\ forall i, m' i = c_set m t i
                   end
    | SDelete id => match m id with
                    | None => r = ORaise TaskLookupError /\ forall i, m' i = m i
                    | Some _ => r = ODone /\ forall i, m' i = c_del m id i
                    end
    | SClear => r = ODone /\ forall i, m' i = None
    | SLookup id => r = OTask (m id) /\ forall i, m' i = m i
    | SAll => (exists l, r = OTasks l /\ lists m l /\ StronglySorted ord l) /\ forall i, m' i = m i
    | SDue now => (exists l, r = OTasks l /\ NoDup (map tid l) /\ StronglySorted ord l
                             /\ forall t, In t l <-> (m (tid t) = Some t /\ is_due now t))
                  /\ forall i, m' i = m i
    | SNext => (exists x, r = OTime x /\ least_next m x) /\ forall i, m' i = m i
    end.

  (** A whole history: the answers are those of the map, step after step. *)
  Fixpoint spec_run (tolerant : bool) (ord : T -> T -> Prop)
           (m : content) (os : list (sop T)) (rs : list (sout T)) : Prop :=
    match os, rs with
    | [], [] => True
    | o :: os', r :: rs' => exists m', spec_step tolerant ord m o r m' /\ spec_run tolerant ord m' os' rs'
    | _, _ => False
    end.
End Spec.
