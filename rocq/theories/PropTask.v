(** C13, C14, C23, C24: run times, coalescing, updates and argument checking. *)
From Verif Require Import Prelude CallArgs CallArgsProofs Cron Triggers TriggerSpec Task TaskSpec TaskProofs.
Open Scope Z_scope.

(** C13.  Wake a task up at any non-decreasing sequence of instants ([wakes], TaskSpec): the lists
    of run times handed out, one after the other, are the beginning of the trigger's sequence of
    fire times from the task's next run time on, all of them up to the last wake-up and none
    after it ... *)
Theorem C13_run_times_are_fire_times :
  forall (fuel : nat) (o : oracle) (k : nat) (t : task) (nows : list Z) (H : Z) (ls : list (list Z)) (n : option Z),
    jitter_free (t_trigger t) -> non_decreasing nows -> last_opt nows = Some H ->
    wakes fuel o k t nows = Ok (ls, n) ->
    fire_times (answer_after fuel (t_trigger t)) (t_next t) (List.concat ls) n /\
    Forall (fun x => x <= H) (List.concat ls) /\ after_instant H n.
Proof. exact wakes_is_schedule. Qed.
Print Assumptions C13_run_times_are_fire_times.
(** ... and there is only one such sequence, so nothing is lost and nothing repeated. *)
Theorem C13_no_loss_no_repeat :
  forall (fuel : nat) (o : oracle) (k : nat) (t : task) (nows : list Z) (H : Z) (ls : list (list Z)) (n : option Z),
    jitter_free (t_trigger t) -> non_decreasing nows -> last_opt nows = Some H ->
    wakes fuel o k t nows = Ok (ls, n) ->
    forall L rest, fire_times (answer_after fuel (t_trigger t)) (t_next t) L rest ->
      Forall (fun x => x <= H) L -> after_instant H rest -> List.concat ls = L /\ n = rest.
Proof. exact wakes_are_fire_times. Qed.
Print Assumptions C13_no_loss_no_repeat.
(** With jitter the sequence is random, but never goes back or repeats a run time. *)
Theorem C13_increasing :
  forall (fuel : nat) (o : oracle) (tr : trigger), fair o -> forward tr ->
    forall (nows : list Z) (k : nat) (t : task) (ls : list (list Z)) (n : option Z),
      t_trigger t = tr -> wakes fuel o k t nows = Ok (ls, n) -> increasing (List.concat ls).
Proof. exact wakes_increasing. Qed.
Print Assumptions C13_increasing.
(** The computation ends when the trigger answers ([fuel]: number of loop iterations allowed). *)
Theorem C13_terminates :
  forall (fuel : nat) (o : oracle) (k : nat) (t : task) (now : Z), fair o -> forward (t_trigger t) ->
    (forall i x, x <= now -> exists n, get_next fuel (t_trigger t) (Some x) (sub o i) now = Ok n) ->
    (match t_next t with Some x => Z.to_nat (now - x + 1) | None => 0%nat end <= fuel)%nat ->
    exists l k', get_run_times fuel o k t now = Ok (l, k').
Proof. exact run_times_terminates. Qed.
Print Assumptions C13_terminates.

(** C14. *)
Theorem C14_coalesce :
  forall (c : bool) (due submitted : list Z) (n : nat), due <> [] -> coalesce_run_times c due = (submitted, n) ->
    (c = true -> exists x, submitted = [x] /\ due = removelast due ++ [x] /\ n = List.length (removelast due)) /\
    (c = false -> submitted = due /\ n = 0%nat).
Proof. exact coalesce_spec. Qed.
Print Assumptions C14_coalesce.

(** C23.  A refused update changes nothing; an accepted one changes exactly what was asked for
    ([applied]: which values are acceptable and what each attribute is afterwards); and an update
    is only refused for one of the documented reasons. *)
Theorem C23_update_atomic :
  forall (env : tenv) (t : task) (sched : option nat) (fn : pyval) (ups : dict pyval) (t' : task) (r : result unit),
    NoDup (dkeys ups) -> update_task env t sched fn ups = (t', r) ->
    match r with
    | Ok _ => applied env t sched fn ups t'
    | Err _ => t' = t
    end.
Proof. exact update_spec. Qed.
Print Assumptions C23_update_atomic.
Theorem C23_refused_only_if_invalid :
  forall (env : tenv) (t : task) (sched : option nat) (fn : pyval) (ups : dict pyval) (t' : task) (e : exn),
    NoDup (dkeys ups) -> update_task env t sched fn ups = (t', Err e) -> invalid env t sched fn ups.
Proof. exact update_rejects_invalid. Qed.
Print Assumptions C23_refused_only_if_invalid.

(** C24.  Accepted exactly when the call binds and no keyword argument has the name of a
    positional-only parameter that is left empty. *)
Theorem C24_accepted_exactly_when :
  forall (sig : list param) (nargs : nat) (kwargs : list string), sig_ok sig -> NoDup kwargs ->
    (check_callable_args sig nargs kwargs = Ok tt <->
     binds sig nargs kwargs /\
     forall p, In p (unfilled sig nargs) -> is_kind PosOnly p -> ~ In (p_name p) kwargs).
Proof. exact check_exact. Qed.
Print Assumptions C24_accepted_exactly_when.
(** In particular an accepted call binds, and a refused one (always ValueError) does not, unless
    the callable takes arbitrary keyword arguments and one of them is named like an empty
    positional-only parameter, which has a default. *)
Theorem C24_accepted_call_binds :
  forall (sig : list param) (nargs : nat) (kwargs : list string), sig_ok sig -> NoDup kwargs ->
    check_callable_args sig nargs kwargs = Ok tt -> binds sig nargs kwargs.
Proof. exact check_sound. Qed.
Print Assumptions C24_accepted_call_binds.
Theorem C24_refused_call_fails_or :
  forall (sig : list param) (nargs : nat) (kwargs : list string) (e : exn), sig_ok sig -> NoDup kwargs ->
    check_callable_args sig nargs kwargs = Err e ->
    e = ValueError /\
    (~ binds sig nargs kwargs \/
     exists p q, In p (unfilled sig nargs) /\ is_kind PosOnly p /\ p_default p = true /\ In (p_name p) kwargs /\
                 In q sig /\ is_kind VarKw q).
Proof. exact check_refused. Qed.
Print Assumptions C24_refused_call_fails_or.
(** ... in which case the check can be wrong: [def f(x=1, /, **kw)] called as [f(x=2)]. *)
Definition f_sig := [MkParam "x" PosOnly true; MkParam "kw" VarKw false].
Theorem C24_refused_although_it_binds :
  exists sig nargs kwargs, sig_ok sig /\ NoDup kwargs /\ binds sig nargs kwargs /\ check_callable_args sig nargs kwargs = Err ValueError.
Proof.
  exists f_sig, 0%nat, ["x"%string]. split; [repeat constructor; cbn; intuition discriminate|].
  split; [repeat constructor; cbn; tauto|]. split; [|vm_compute; reflexivity].
  unfold binds, unfilled, is_kind; cbn. split; [left; lia|]. split; [|split].
  - intros k [<-|[]]. right. split; [exists (MkParam "kw" VarKw false); cbn; auto|].
    intros p [<-|[<-|[]]]; cbn; auto.
  - intros p [<-|[]]; cbn; discriminate.
  - intros p [<-|[<-|[]]]; cbn; discriminate.
Qed.
Print Assumptions C24_refused_although_it_binds.

(** *** concrete cases *)
Definition ex_fn := MkCallable "job" (Some "mod:job"%string) [MkParam "a" PosOrKw false; MkParam "b" KwOnly true].
Definition ex_env := MkEnv (fun s => if String.eqb s "mod:job" then Ok ex_fn else Err LookupError) (fun _ => Err OtherError).
Definition ex_task := MkTask "j1" "job" (TInterval (2 * us) 0 None None) (Some (2 * us)) (Some "default"%string) (Some "default"%string)
  (Some us) true 1 (Some ex_fn) (Some "mod:job"%string) (VList [VInt 1]) (VDict []) (Some 0%nat) false true.
Example C13_example :
  wakes 10 (fun _ _ => 0) 0 ex_task [0; 5 * us; 5 * us; 9 * us] =
  Ok ([[]; [2 * us; 4 * us]; []; [6 * us; 8 * us]], Some (10 * us)).
Proof. vm_compute. reflexivity. Qed.
Example C14_example : coalesce_run_times true [1; 2; 3] = ([3], 2%nat). Proof. reflexivity. Qed.
Example C23_example_ok : snd (update_task ex_env ex_task None VNone [("max_instances"%string, VInt 3); ("next_run_time"%string, VNone)]) = Ok tt.
Proof. vm_compute. reflexivity. Qed.
Example C23_example_bad : update_task ex_env ex_task None VNone [("max_instances"%string, VInt 3); ("kwargs"%string, VDict [("z"%string, VNone)])] = (ex_task, Err ValueError).
Proof. vm_compute. reflexivity. Qed.
Example C24_example : check_callable_args (c_sig ex_fn) 1 ["b"%string] = Ok tt /\ sig_ok (c_sig ex_fn).
Proof. split; [vm_compute; reflexivity|]. repeat constructor; cbn; intuition discriminate. Qed.
