(** Model of asyncz/utils.py:338-422 [check_callable_args]: does a callable accept these
    positional and keyword arguments?  Only the number of positional arguments and the names of
    the keyword arguments matter.  Not modelled: [inspect.signature] itself (the signature is
    given) and the wording of the error messages. *)
From Verif Require Import Prelude.

(** inspect.Parameter.kind *)
Inductive pkind := PosOnly | PosOrKw | VarPos | KwOnly | VarKw.
(** inspect.Parameter: name, kind, and whether it has a default *)
Record param := MkParam { p_name : string; p_kind : pkind; p_default : bool }.

Definition mem (k : string) (l : list string) : bool := existsb (String.eqb k) l.
(** [list.remove(k)]: first occurrence *)
Fixpoint remove1 (k : string) (l : list string) : list string :=
  match l with
  | [] => []
  | x :: l' => if String.eqb k x then l' else x :: remove1 k l'
  end.

(** the local variables of the loop (utils.py:342-348) *)
Record cstate := MkC {
  c_conflicts : list string;      (* pos_kwargs_conflicts *)
  c_posonly : list string;        (* positional_only_kwargs *)
  c_unsat : list string;          (* unsatisfied_args *)
  c_unsatkw : list string;        (* unsatisfied_kwargs *)
  c_args : nat;                   (* len(unmatched_args) *)
  c_kws : list string;            (* unmatched_kwargs *)
  c_varargs : bool; c_varkw : bool }.

(** one iteration of the loop, utils.py:355-383 *)
Definition cstep (c : cstate) (p : param) : cstate :=
  let '(MkC cf po us uk a kws va vk) := c in
  let n := p_name p in
  let has_args := Nat.ltb 0 a in
  match p_kind p with
  | PosOrKw =>
      if mem n kws && has_args then MkC (cf ++ [n]) po us uk a kws va vk
      else if has_args then MkC cf po us uk (pred a) kws va vk
      else if mem n kws then MkC cf po us uk a (remove1 n kws) va vk
      else if negb (p_default p) then MkC cf po (us ++ [n]) uk a kws va vk
      else c
  | PosOnly =>
      if has_args then MkC cf po us uk (pred a) kws va vk
      else if mem n kws then MkC cf (po ++ [n]) us uk a (remove1 n kws) va vk
      else if negb (p_default p) then MkC cf po (us ++ [n]) uk a kws va vk
      else c
  | KwOnly =>
      if mem n kws then MkC cf po us uk a (remove1 n kws) va vk
      else if negb (p_default p) then MkC cf po us (uk ++ [n]) a kws va vk
      else c
  | VarPos => MkC cf po us uk a kws true vk
  | VarKw => MkC cf po us uk a kws va true
  end.

Definition nonempty {A} (l : list A) : bool := match l with [] => false | _ => true end.

(** utils.py:338-422 check_callable_args *)
Definition check_callable_args (sig : list param) (nargs : nat) (kwargs : list string) : result unit :=
  let c := fold_left cstep sig (MkC [] [] [] [] nargs kwargs false false) in
  if nonempty (c_conflicts c) then Err ValueError
  else if nonempty (c_posonly c) then Err ValueError
  else if nonempty (c_unsat c) then Err ValueError
  else if nonempty (c_unsatkw c) then Err ValueError
  else if negb (c_varargs c) && Nat.ltb 0 (c_args c) then Err ValueError
  else if negb (c_varkw c) && nonempty (c_kws c) then Err ValueError
  else Ok tt.

(** * What Python does when the call is made (language reference, 6.3.4 "Calls") *)
Definition positional (p : param) : bool :=
  match p_kind p with PosOnly | PosOrKw => true | _ => false end.
(** the positional parameters still empty once [n] positional arguments are in place *)
Definition unfilled (sig : list param) (n : nat) : list param := skipn n (filter positional sig).
Definition is_kind (k : pkind) (p : param) : Prop := p_kind p = k.

(** the call binds: every positional argument has a slot, every keyword argument goes to an empty
    slot of its name or to the ** parameter, and every slot without default is filled *)
Definition binds (sig : list param) (n : nat) (kws : list string) : Prop :=
  (n <= List.length (filter positional sig) \/ exists p, In p sig /\ is_kind VarPos p) /\
  (forall k, In k kws ->
     (exists p, p_name p = k /\ ((In p (unfilled sig n) /\ is_kind PosOrKw p) \/ (In p sig /\ is_kind KwOnly p))) \/
     ((exists p, In p sig /\ is_kind VarKw p) /\
      forall p, In p sig -> p_name p = k -> is_kind PosOnly p \/ is_kind VarPos p \/ is_kind VarKw p)) /\
  (forall p, In p (unfilled sig n) -> p_default p = false -> is_kind PosOrKw p /\ In (p_name p) kws) /\
  (forall p, In p sig -> is_kind KwOnly p -> p_default p = false -> In (p_name p) kws).

(** a legal signature: distinct names *)
Definition sig_ok (sig : list param) : Prop := NoDup (map p_name sig).
