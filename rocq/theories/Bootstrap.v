(** asyncz/cli/bootstrap_loader.py, and the start command under --bootstrap: asyncz/cli/commands/start.py:73-85.
    Simplified: importing a module and reading an attribute have no effects; what a target is does not change; a metaclass
    with get_scheduler is left out. *)
From Verif Require Import Prelude Supervise.
Open Scope Z_scope.

(** ** bootstrap_loader.py *)
(** what a call gives: a scheduler (an AsyncIOScheduler), something else, or an exception *)
Inductive object := Scheduler (id : nat) | Other | Raises.
(** what an import path leads to: a class, whose construction may fail, and whose instances have or have not
    get_scheduler; an object with get_scheduler; a callable; anything else.  The argument is the number of calls made before. *)
Inductive target :=
| TClass (fails : nat -> bool) (get : option (nat -> object)) (made : nat -> object)
| TObject (get : nat -> object) | TCallable (made : nat -> object) | TOther.
Inductive loaded := LScheduler (id : nat) | LTypeError | LValueError | LImportError | LRaised.
(** 95-107 *)
Definition assert_scheduler (x : object) : loaded := match x with Scheduler id => LScheduler id | Other => LTypeError | Raises => LRaised end.
(** 11-38 import_protocol *)
Inductive import := INoColon | INoModule | INoAttribute | IFound (t : target).
(** 41-92 load_bootstrap_scheduler: the cache and the number of calls made so far *)
Definition load_bootstrap (imp : string -> import) (path : string) (cache : dict nat) (n : nat) : loaded * dict nat * nat :=
  match dget path cache with
  | Some id => (LScheduler id, cache, n)
  | None =>
      match imp path with
      | INoColon | INoAttribute => (LValueError, cache, n)
      | INoModule => (LImportError, cache, n)
      | IFound t =>
          let '(r, n') :=
            match t with
            | TClass fails get made =>
                if fails n then (LRaised, S n) else
                match get with
                | Some g => (assert_scheduler (g (S n)), S (S n))
                | None => (assert_scheduler (made (S n)), S (S n))
                end
            | TObject get => (assert_scheduler (get n), S n)
            | TCallable made => (assert_scheduler (made n), S n)
            | TOther => (LTypeError, n)
            end in
          (r, match r with LScheduler id => dset path id cache | _ => cache end, n')
      end
  end.
(** 110-120 clear_bootstrap_cache *)
Inductive request := Load (path : string) | Clear.
Fixpoint session (imp : string -> import) (l : list request) (cache : dict nat) (n : nat) : list (option loaded) :=
  match l with
  | [] => []
  | Load p :: l' => let '(r, cache', n') := load_bootstrap imp p cache n in Some r :: session imp l' cache' n'
  | Clear :: l' => None :: session imp l' [] n
  end.

(** ** asyncz start --bootstrap *)
Inductive bevent := BStart | BUp | BOnStop | BAsk | BDown.
(** base.py:121, 176-190: the users of the scheduler; it is up; shutdowns waiting in the event loop *)
Record bworld := MkB { b_trace : list bevent; refs : Z; up : bool; pend : nat }.
Definition bsay (e : bevent) (w : bworld) : bworld := MkB (b_trace w ++ [e]) (refs w) (up w) (pend w).
(** start.py:79-85 with base.py:192-202: the scheduler comes from the cache; no hook is called.  Simplified: starting it
    fails only at the assertion (base.py:202). *)
Definition b_boot (w : bworld) : bworld * outcome :=
  let w := bsay BStart w in
  let r := refs w + 1 in
  if r >? 1 then (MkB (b_trace w) r (up w) (pend w), Fine)
  else if up w then (MkB (b_trace w) r (up w) (pend w), Fails)
  else (MkB (b_trace w ++ [BUp]) r true (pend w), Fine).
(** base.py:264-279: a shutdown, in the event loop, where its exception is not seen *)
Definition b_shutdown (w : bworld) : bworld :=
  let r := refs w - 1 in
  if r >? 0 then MkB (b_trace w) r (up w) (pend w)
  else if up w then MkB (b_trace w ++ [BDown]) r false (pend w) else MkB (b_trace w) r (up w) (pend w).
Fixpoint b_shutdowns (n : nat) (w : bworld) : bworld := match n with O => w | S n' => b_shutdowns n' (b_shutdown w) end.
Definition b_drain (w : bworld) : bworld := let w' := b_shutdowns (pend w) w in MkB (b_trace w') (refs w') (up w') 0.
Definition b_hook (given : bool) (a : awaited) (w : bworld) : bworld * outcome :=
  if given then (let w := bsay BOnStop w in if suspends a then b_drain w else w, ends a) else (w, Fine).
Definition b_ask (w : bworld) : bworld := let w := bsay BAsk w in MkB (b_trace w) (refs w) (up w) (S (pend w)).
Definition b_finally (o : options) (last : awaited) (cause : outcome) (w : bworld) : bworld * option outcome :=
  let (w, h) := b_hook (o_on_stop o) last w in
  if fine h then (b_drain (b_ask w), Some cause) else (b_drain w, Some h).
(** start.py:122-151 *)
Fixpoint b_loop (o : options) (last : awaited) (ts : list turn) (w : bworld) : bworld * option outcome :=
  match ts with
  | [] => (w, None)
  | t :: ts' =>
      let '(w, r) :=
        if o_watch o && t_changed t then
          let (w, h) := b_hook (o_on_stop o) (t_stop t) w in
          if negb (fine h) then (w, h) else
          let w := b_ask w in
          if o_module o && negb (fine (t_reload t)) then (w, t_reload t) else b_boot w
        else (w, Fine) in
      if negb (fine r) then b_finally o last (caught r) w else
      let w := b_drain w in
      if negb (fine (t_sleep t)) then b_finally o last (caught (t_sleep t)) w else b_loop o last ts' w
  end.
(** start.py:108-151; [users] hold the scheduler already *)
Definition b_start (o : options) (users : Z) (ts : list turn) (last : awaited) : bworld * option outcome :=
  let (w, h) := b_boot (MkB [] users (users >? 0) 0) in
  if negb (fine h) then (b_drain w, Some h) else
  if negb (o_watch o) && negb (o_standalone o) then b_finally o last Fine w else b_loop o last ts w.
