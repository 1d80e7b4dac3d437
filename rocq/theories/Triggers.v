(** Model of asyncz/triggers/{base,date,interval,combination,shutdown}.py.
    Instants and durations in microseconds; the time zone only affects cron (its offset); the
    year-9999 limit of [datetime] is modelled for cron only; [now] is always given (the scheduler
    passes it in every call). *)
From Verif Require Import Prelude FloatDiv Calendar Cron.
Open Scope Z_scope.

(** [random.uniform(0, jitter)] converted by [timedelta(seconds=..)]: an arbitrary number of
    microseconds, one draw per call site ([list nat] addresses the call), given the jitter in
    seconds.  [fair] states what the library promises. *)
Definition oracle := list nat -> Z -> Z.
Definition fair (o : oracle) : Prop := forall p j, 0 <= j -> 0 <= o p j <= j * us.
Definition sub (o : oracle) (i : nat) : oracle := fun p j => o (i :: p) j.

(** base.py:31-44 apply_jitter; [not jitter] covers None and 0 *)
Definition draw (o : oracle) (jitter : option Z) : Z :=
  match jitter with
  | None => 0
  | Some j => if j =? 0 then 0 else o [] j
  end.
Definition apply_jitter (o : oracle) (t : option Z) (jitter : option Z) : option Z :=
  match t with None => None | Some x => Some (x + draw o jitter) end.

(** date.py:38-43 get_next_trigger_time *)
Definition date_next (run_at : Z) (prev : option Z) : option Z :=
  match prev with None => Some run_at | Some _ => None end.

(** interval.py:30-56, the interval part of __init__ (integer arguments):
    an empty interval becomes one second *)
Definition interval_of (weeks days hours minutes seconds : Z) : Z :=
  let iv := (((weeks * 7 + days) * 24 + hours) * 60 + minutes) * 60 + seconds in
  if iv =? 0 then us else iv * us.
(** interval.py:54 default start *)
Definition interval_start (start_at : option Z) (now iv : Z) : Z :=
  match start_at with Some s => s | None => now + iv end.

(** interval.py:58-101 get_next_trigger_time *)
Definition interval_next (iv start : Z) (end_at jitter : option Z) (o : oracle)
           (prev : option Z) (now : Z) : option Z :=
  let t := match prev with
           | Some p => p + iv
           | None => if now <? start then start
                     else start + iv * interval_number (now - start) iv
           end in
  let t := t + draw o jitter in
  match end_at with
  | None => Some t
  | Some e => if t <=? e then Some t else None
  end.

Inductive trigger :=
| TDate (run_at : Z)
| TInterval (iv start : Z) (end_at jitter : option Z)
| TCron (tb : crontab) (off : Z) (start_at end_at jitter : option Z)
| TAnd (l : list trigger) (jitter : option Z)
| TOr (l : list trigger) (jitter : option Z)
| TShutdown.

(** a child trigger, applied to [timezone] and [previous_time]: still waits for its random
    draws and for [now] *)
Definition child := oracle -> Z -> result (option Z).

Fixpoint zmax (x : Z) (l : list Z) : Z := match l with [] => x | y :: l' => zmax (Z.max x y) l' end.
Fixpoint zmin (x : Z) (l : list Z) : Z := match l with [] => x | y :: l' => zmin (Z.min x y) l' end.

(** combination.py:25-31 (AndTrigger), the [for] loop: None as soon as one child answers None *)
Fixpoint ask_all (i : nat) (cs : list child) (o : oracle) (now : Z) : result (option (list Z)) :=
  match cs with
  | [] => Ok (Some [])
  | c :: cs' =>
      match c (sub o i) now with
      | Err e => Err e
      | Ok None => Ok None
      | Ok (Some t) => match ask_all (S i) cs' o now with
                       | Ok (Some l) => Ok (Some (t :: l))
                       | r => r
                       end
      end
  end.

(** combination.py:24-36 (AndTrigger), the [while True] loop, at most [fuel] iterations;
    [k] counts iterations so that every one gets fresh random draws *)
Fixpoint and_loop (fuel k : nat) (cs : list child) (jitter : option Z) (o : oracle) (now : Z)
  : result (option Z) :=
  match fuel with
  | O => Err OutOfFuel
  | S fuel' =>
      match ask_all 0 cs (sub o k) now with
      | Err e => Err e
      | Ok None => Ok None
      | Ok (Some []) => Err ValueError           (* min([]) *)
      | Ok (Some (t :: ts)) =>
          if zmin t ts =? zmax t ts then Ok (apply_jitter (sub o k) (Some t) jitter)
          else and_loop fuel' (S k) cs jitter o (zmax t ts)
      end
  end.

(** combination.py:56-60 (OrTrigger), the [for] loop *)
Fixpoint ask_some (i : nat) (cs : list child) (o : oracle) (now : Z) : result (list Z) :=
  match cs with
  | [] => Ok []
  | c :: cs' =>
      match c (sub o i) now with
      | Err e => Err e
      | Ok r => match ask_some (S i) cs' o now with
                | Err e => Err e
                | Ok l => Ok (match r with Some t => t :: l | None => l end)
                end
      end
  end.

(** combination.py:50-65 (OrTrigger.get_next_trigger_time) *)
Definition or_next (cs : list child) (jitter : option Z) (o : oracle) (now : Z) : result (option Z) :=
  match ask_some 0 cs o now with
  | Err e => Err e
  | Ok [] => Ok None
  | Ok (t :: ts) => Ok (apply_jitter o (Some (zmin t ts)) jitter)
  end.

(** get_next_trigger_time of every trigger class (shutdown.py:10-13 answers None).
    [fuel] bounds the iterations of each AndTrigger loop. *)
Fixpoint get_next (fuel : nat) (tr : trigger) (prev : option Z) (o : oracle) (now : Z)
  : result (option Z) :=
  match tr with
  | TDate d => Ok (date_next d prev)
  | TInterval iv s e j => Ok (interval_next iv s e j o prev now)
  | TCron tb off s e j => cron_next tb off s e (draw o j) prev now
  | TAnd l j => and_loop fuel 0 (map (fun t => get_next fuel t prev) l) j o now
  | TOr l j => or_next (map (fun t => get_next fuel t prev) l) j o now
  | TShutdown => Ok None
  end.
