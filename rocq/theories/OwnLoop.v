(** Which event loop a scheduler runs on, and who ends it: asyncz/schedulers/asyncio.py:32-75 (AsyncIOScheduler) and
    99-149 (NativeAsyncIOScheduler), schedulers/utils.py:6-17, with the counting of users in schedulers/base.py:176-202,
    264-279, the ASGI wrapper base.py:353-374 and the context managers types.py:447-469.
    Trusted about asyncio: call_soon_threadsafe wakes the loop; stop() only sets a flag the loop looks at after its next
    callback; a loop that was stopped may still run callbacks until its thread has closed it.
    Simplified: starting executors and stores does not fail; what process_tasks does is left out but for whether it asks
    for a timer; the user's loop is never stopped. *)
From Verif Require Import Prelude.
Open Scope Z_scope.

(** the application's own event loop, or the loop of the [k]-th thread the scheduler has made *)
Inductive lid := App | Own (k : nat).
Definition lid_eqb (a b : lid) : bool := match a, b with App, App => true | Own x, Own y => Nat.eqb x y | _, _ => false end.
(** a thread made by the scheduler: running its loop; the loop has the stop flag and has not seen it (asleep), or has seen
    it; ended *)
Inductive thread := Alive | Flagged | Stopping | Closed.
Inductive job := JWakeup | JShutdown.
(** [s_mid]: the loop is inside _shutdown, after super().shutdown() returned True (asyncio.py:61) *)
Record state := MkS {
  s_threads : list thread; s_loop : option lid; s_thread : option nat; s_refs : Z; s_up : bool;
  s_queue : list (lid * job); s_timer : option lid; s_mid : bool }.
(** asyncio.py:76-79: the loop given to the constructor *)
Definition made (given : bool) : state := MkS [] (if given then Some App else None) None 0 false [] None false.
Definition enqueue (l : lid) (j : job) (s : state) : state :=
  MkS (s_threads s) (s_loop s) (s_thread s) (s_refs s) (s_up s) (s_queue s ++ [(l, j)]) (s_timer s) (s_mid s).
(** what a public call answers: a boolean, an exception the caller sees *)
Inductive answer := ATrue | AFalse | ANoLoop | AAssertion | ANotRunning.
(** base.py:192-235 start, after the loop is there *)
Definition base_start (paused : bool) (s : state) : state * answer :=
  let r := s_refs s + 1 in
  let s1 := MkS (s_threads s) (s_loop s) (s_thread s) r (s_up s) (s_queue s) (s_timer s) (s_mid s) in
  if r >? 1 then (s1, AFalse)
  else if s_up s then (s1, AAssertion)
  else
    let s2 := MkS (s_threads s) (s_loop s) (s_thread s) r true (s_queue s) (s_timer s) (s_mid s) in
    if paused then (s2, ATrue)
    else match s_loop s with Some l => (enqueue l JWakeup s2, ATrue) | None => (s2, ANoLoop) end.
(** asyncio.py:33-42 _init_new_loop in a new thread *)
Definition new_thread (s : state) : state :=
  let k := List.length (s_threads s) in
  MkS (s_threads s ++ [Alive]) (Some (Own k)) (Some k) (s_refs s) (s_up s) (s_queue s) (s_timer s) (s_mid s).
Definition on_app (s : state) : state := MkS (s_threads s) (Some App) (s_thread s) (s_refs s) (s_up s) (s_queue s) (s_timer s) (s_mid s).
(** asyncio.py:44-57 start; [inside]: called while an event loop runs *)
Definition start (isolated inside paused : bool) (s : state) : state * answer :=
  let s := match s_loop s with
           | Some _ => s
           | None => if isolated || negb inside then new_thread s else on_app s
           end in
  base_start paused s.
(** asyncio.py:70-74 shutdown: the rest is done by the loop *)
Definition shutdown (s : state) : state * answer :=
  match s_loop s with
  | None => (s, ANoLoop)
  | Some l => (enqueue l JShutdown s, if s_refs s >? 1 then ATrue else AFalse)
  end.
(** base.py:264-279, up to the answer *)
Definition base_shutdown (s : state) : state * answer :=
  let r := s_refs s - 1 in
  let s1 up := MkS (s_threads s) (s_loop s) (s_thread s) r up (s_queue s) (s_timer s) (s_mid s) in
  if r >? 0 then (s1 (s_up s), AFalse)
  else if s_up s then (s1 false, ATrue) else (s1 (s_up s), ANotRunning).
Definition set_nth {A} (k : nat) (v : A) (l : list A) : list A := firstn k l ++ match skipn k l with [] => [] | _ :: r => v :: r end.
Definition thread_at (s : state) (k : nat) : thread := nth k (s_threads s) Closed.
Definition set_thread (k : nat) (v : thread) (s : state) : state :=
  MkS (set_nth k v (s_threads s)) (s_loop s) (s_thread s) (s_refs s) (s_up s) (s_queue s) (s_timer s) (s_mid s).
Definition runs (s : state) (l : lid) : bool :=
  match l with App => true | Own k => match thread_at s k with Alive | Stopping => true | _ => false end end.
Definition set_timer (t : option lid) (s : state) : state := MkS (s_threads s) (s_loop s) (s_thread s) (s_refs s) (s_up s) (s_queue s) t (s_mid s).
Definition set_mid (b : bool) (s : state) : state := MkS (s_threads s) (s_loop s) (s_thread s) (s_refs s) (s_up s) (s_queue s) (s_timer s) b.
(** asyncio.py:81-84 start_timer; without a loop the exception ends in the loop's handler *)
Definition start_timer (asks : bool) (s : state) : state :=
  let s := set_timer None s in
  if asks then match s_loop s with Some l => set_timer (Some l) s | None => s end else s.
(** one callback of a loop; [asks]: process_tasks wants a timer *)
Definition run_job (j : job) (asks : bool) (s : state) : state :=
  match j with
  | JWakeup => start_timer asks s
  | JShutdown => match base_shutdown s with (s, ATrue) => set_mid true s | (s, _) => s end
  end.
(** the first callback waiting in loop [l] *)
Fixpoint take (l : lid) (q : list (lid * job)) : option (job * list (lid * job)) :=
  match q with
  | [] => None
  | (m, j) :: q' => if lid_eqb l m then Some (j, q') else match take l q' with Some (x, r) => Some (x, (m, j) :: r) | None => None end
  end.
Definition without (q : list (lid * job)) (s : state) : state := MkS (s_threads s) (s_loop s) (s_thread s) (s_refs s) (s_up s) q (s_timer s) (s_mid s).
(** while the scheduler's loop is inside _shutdown it runs nothing else *)
Definition busy (s : state) (l : lid) : bool := s_mid s && match s_loop s with Some m => lid_eqb l m | None => false end.
Definition run_loop (l : lid) (asks : bool) (s : state) : state :=
  if runs s l && negb (busy s l) then match take l (s_queue s) with Some (j, q) => run_job j asks (without q s) | None => s end else s.
(** asyncio.py:61-68, the rest of _shutdown *)
Definition finish (s : state) : state :=
  if s_mid s then
    let s := set_timer None (set_mid false s) in
    match s_thread s with
    | None => s
    | Some k => let s := set_thread k Stopping s in MkS (s_threads s) None None (s_refs s) (s_up s) (s_queue s) (s_timer s) (s_mid s)
    end
  else s.
(** a timer expires: wakeup is called by the loop it is set on (asyncio.py:84, utils.py:12-15) *)
Definition expire (s : state) : state :=
  match s_timer s with
  | Some l => if runs s l then match s_loop s with Some m => enqueue m JWakeup (set_timer None s) | None => set_timer None s end else s
  | None => s
  end.
(** a thread whose loop has seen the flag ends *)
Definition close (k : nat) (s : state) : state := match thread_at s k with Stopping => set_thread k Closed s | _ => s end.

Inductive event := Start (inside paused : bool) | Shutdown | Run (l : lid) (asks : bool) | Finish | Expire | Close (k : nat) | Wakeup.
Definition step (isolated : bool) (s : state) (e : event) : state :=
  match e with
  | Start inside paused => fst (start isolated inside paused s)
  | Shutdown => fst (shutdown s)
  | Run l asks => run_loop l asks s
  | Finish => finish s
  | Expire => expire s
  | Close k => close k s
  | Wakeup => match s_loop s with Some l => enqueue l JWakeup s | None => s end   (** add_task and others, base.py *)
  end.
Fixpoint history (isolated : bool) (s : state) (es : list event) : state := match es with [] => s | e :: es' => history isolated (step isolated s e) es' end.

(** ** NativeAsyncIOScheduler *)
(** asyncio.py:114-123 *)
Definition native_start (isolated paused : bool) (s : state) : state * answer := base_start paused (if isolated then new_thread s else on_app s).
(** asyncio.py:131-144: run by the caller, who then waits for the thread.  [asleep]: the loop waits for something to
    happen; the flag is not seen then *)
Definition native_shutdown (asleep : bool) (s : state) : state * answer :=
  let was := s_refs s in
  match base_shutdown s with
  | (s, ATrue) =>
      let s := set_timer None s in
      (match s_thread s with
       | None => s
       | Some k => let s := set_thread k (if asleep then Flagged else Stopping) s in MkS (s_threads s) None None (s_refs s) (s_up s) (s_queue s) (s_timer s) (s_mid s)
       end, if was >? 1 then ATrue else AFalse)
  | (s, AFalse) => (s, if was >? 1 then ATrue else AFalse)
  | (s, a) => (s, a)
  end.
(** what can wake a loop asleep: a callback put in its queue, or a timer set on it; it then sees the flag *)
Definition wake (k : nat) (s : state) : state :=
  match thread_at s k with
  | Flagged => if existsb (fun x => lid_eqb (Own k) (fst x)) (s_queue s) || match s_timer s with Some l => lid_eqb (Own k) l | None => false end
               then set_thread k Stopping s else s
  | _ => s
  end.
Inductive nevent := NStart (paused : bool) | NShutdown (asleep : bool) | NRun (l : lid) (asks : bool) | NExpire | NWake (k : nat) | NClose (k : nat) | NWakeup.
Definition nstep (isolated : bool) (s : state) (e : nevent) : state :=
  match e with
  | NStart paused => fst (native_start isolated paused s)
  | NShutdown asleep => fst (native_shutdown asleep s)
  | NRun l asks => run_loop l asks s
  | NExpire => expire s
  | NWake k => wake k s
  | NClose k => close k s
  | NWakeup => match s_loop s with Some l => enqueue l JWakeup s | None => s end
  end.
Fixpoint nhistory (isolated : bool) (s : state) (es : list nevent) : state := match es with [] => s | e :: es' => nhistory isolated (nstep isolated s e) es' end.
