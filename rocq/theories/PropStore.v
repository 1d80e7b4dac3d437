(** C01, C02: the in-memory store. *)
From Verif Require Import Prelude MemStore StoreSpec MemStoreProofs.
From Coq Require Import Sorting.Sorted.

(** Every history of operations on a fresh MemoryStore gets, answer by answer, the answers of a
    plain map from id to task (StoreSpec); listings are sorted by next run time then id. *)
Theorem C01_memory_store_is_a_map :
  forall (T : Type) (tid : T -> string) (tnext : T -> option Z) (os : list (sop T)),
    spec_run tid tnext true (listing_lt tid tnext) c_empty os (snd (ms_run tid tnext ms_empty os)).
Proof. exact fresh_run_ok. Qed.
Print Assumptions C01_memory_store_is_a_map.

(** After any history, the due query and the next-run-time query are exact. *)
Theorem C02_memory_store_due_exact :
  forall (T : Type) (tid : T -> string) (tnext : T -> option Z) (os : list (sop T)) (now : Z),
    let s := fst (ms_run tid tnext ms_empty os) in
    (forall t, In t (ms_due s now) <-> (ms_lookup s (tid t) = Some t /\ is_due tnext now t)) /\
    NoDup (map tid (ms_due s now)) /\
    StronglySorted (listing_lt tid tnext) (ms_due s now) /\
    least_next tnext (ms_lookup s) (ms_next_run_time tnext s).
Proof. exact fresh_due_exact. Qed.
Print Assumptions C02_memory_store_due_exact.

(** a history with conflicts, moves and pauses *)
Definition xt : Type := (string * option Z)%type.
Definition x_ops : list (sop xt) :=
  [SAdd ("b"%string, Some 5%Z); SAdd ("a"%string, Some 5%Z); SAdd ("c"%string, None);
   SAdd ("a"%string, Some 9%Z); SUpdate ("b"%string, Some 1%Z); SAll; SDue 5%Z; SDelete "z"%string;
   SUpdate ("b"%string, None); SNext; SAll].
Example C01_example : snd (ms_run fst snd ms_empty x_ops) =
  [ODone; ODone; ODone; ORaise ConflictIdError; ODone;
   OTasks [("b"%string, Some 1%Z); ("a"%string, Some 5%Z); ("c"%string, None)];
   OTasks [("b"%string, Some 1%Z); ("a"%string, Some 5%Z)];
   ORaise TaskLookupError; ODone; OTime (Some 5%Z);
   OTasks [("a"%string, Some 5%Z); ("b"%string, None); ("c"%string, None)]].
Proof. vm_compute. reflexivity. Qed.
