(** What saving and loading tasks should mean (C25, C39), and what is expected of pickle, AES-CCM and
    Python's import system. *)
From Verif Require Import Prelude CallArgs Calendar Cron Triggers Task Persist.
Open Scope Z_scope.

(** pickle: what was dumped loads to the same value *)
Definition pickles (W : codec) : Prop := forall v p, dumps W v = Ok p -> loads W p = Ok v.
(** AES-CCM: decryption inverts encryption, and accepts nothing but encryptions under that key and
    nonce (it recomputes and compares the tag) *)
Definition decrypts (W : codec) : Prop := forall k n m, dec W k n (enc W k n m) = Ok m.
Definition authenticates (W : codec) : Prop := forall k n c m, dec W k n c = Ok m -> c = enc W k n m.

(** calling: [call f args kwargs] is whatever calling [f] does.  The reference of a plain callable
    leads back to a callable that does the same, the one of a bound method to the underlying function *)
Definition references_lead_back {O} (W : codec) (call : callable -> list pyval -> pyval -> O) : Prop :=
  forall c r f, c_ref c = Some r -> resolve W r = Ok f ->
    (self_of W c = None -> forall a k, call f a k = call c a k) /\
    (forall obj, self_of W c = Some obj -> forall a k, call f (obj :: a) k = call c a k).

(** a Shape that hands a TaskState through (all the built-in ones do) *)
Definition hands_through (sh : shape) : Prop := forall s, sh_load sh (PState s) = Ok (PState s).

Fixpoint without_shutdown (tr : trigger) : Prop :=
  match tr with
  | TShutdown => False
  | TAnd l _ | TOr l _ => (fix all l := match l with [] => True | t :: l' => without_shutdown t /\ all l' end) l
  | _ => True
  end.
Fixpoint without_interval (tr : trigger) : Prop :=
  match tr with
  | TInterval _ _ _ _ => False
  | TAnd l _ | TOr l _ => (fix all l := match l with [] => True | t :: l' => without_interval t /\ all l' end) l
  | _ => True
  end.

(** a task as update_task leaves it: arguments are a list and a dictionary, the callable is the one
    its textual reference names, or the reference was made from the callable *)
Record in_order (W : codec) (t : task) (c : callable) (ref : string) (args : list pyval) (kwargs : list (string * pyval)) : Prop := {
  io_fn : t_fn t = Some c; io_ref : t_ref t = Some ref; io_args : t_args t = VList args; io_kwargs : t_kwargs t = VDict kwargs;
  io_named : c_ref c = Some ref \/ resolve W ref = Ok c }.

(** everything the user can see of the task, other than what its trigger does *)
Definition same_settings (t : task) (r : rtask) : Prop :=
  r_id r = t_id t /\ r_name r = t_name t /\ Some (r_ref r) = t_ref t /\ r_next r = t_next t /\ r_exec r = t_exec t /\
  r_grace r = t_grace t /\ r_coalesce r = t_coalesce t /\ r_max r = t_max t.
