(** The log relay of the process pool: asyncz/executors/process_pool.py.  Workers (and the scheduler's own process) hold
    the write end of one pipe; a thread of the scheduler's process reads it and repeats the calls on the real logger.
    The pipe is modelled down to its bytes, because [Connection.send] takes no lock: a frame of up to PIPE_BUF bytes is
    written in one piece, a longer one may be mixed with the frames of other processes.
    Environment modelled after the documentation: multiprocessing.connection.Connection (4 bytes of length, then the
    pickle; length and pickle are written separately above 16384 bytes) and POSIX pipes (PIPE_BUF = 4096 as on Linux).
    Simplified: pickles of 2 GiB and more are not modelled; pickling is any pair of functions ([wire]); what the logger
    does with a call is one bit, whether it raises. *)
From Verif Require Import Prelude.
Open Scope Z_scope.

(** one call on the logger: method name and arguments (process_pool.py:22-23) *)
Record call := MkCall { cl_fn : string; cl_args : list Z }.
Record wire := MkWire { enc : call -> list Z; dec : list Z -> option call; raises : call -> bool; cap : Z }.
Definition size {A} (l : list A) : Z := Z.of_nat (List.length l).
Definition pipe_buf : Z := 4096.

(** struct.pack("!i", n) and back; the first byte of a negative number is 128 or more *)
Definition header (n : Z) : list Z := [n / 16777216 mod 256; n / 65536 mod 256; n / 256 mod 256; n mod 256].
Definition length_of (a b c d : Z) : option Z := if a <? 128 then Some (a * 16777216 + b * 65536 + c * 256 + d) else None.
(** Connection._send_bytes *)
Definition writes (m : list Z) : list (list Z) :=
  if size m <=? 16384 then [header (size m) ++ m] else [header (size m); m].

(** process_pool.py:18-36, one process that holds the write end: the calls sent, the one being sent (with the pieces
    still to be written and whether each goes in one piece), the ones to come, and whether it still holds the pipe *)
Record writer := MkWriter { w_sent : list call; w_cur : option (call * list (bool * list Z)); w_todo : list call; w_open : bool }.
Inductive receiver := Reading | Ended | Died.
(** process_pool.py:39-53: the bytes in the pipe, the calls the logger carried out, the thread *)
Record relay := MkRelay { r_pipe : list Z; r_writers : list writer; r_log : list call; r_thread : receiver }.

Definition pieces (m : list Z) : list (bool * list Z) := map (fun b => (size b <=? pipe_buf, b)) (writes m).
(** what is left of a send after its first piece *)
Definition after_piece (c : call) (ps : list (bool * list Z)) (w : writer) : writer :=
  match ps with
  | [] => MkWriter (w_sent w ++ [c]) None (w_todo w) (w_open w)
  | _ => MkWriter (w_sent w) (Some (c, ps)) (w_todo w) (w_open w)
  end.
(** process_pool.py:33-34: names that start with an underscore are not sent *)
Definition hidden (c : call) : bool := String.prefix "_" (cl_fn c).
(** process_pool.py:46-53, one message; [None] is an exception that ends the thread *)
Definition deliver (w : wire) (m : list Z) (log : list call) : option (list call) :=
  match dec w m with
  | None => None
  | Some c => if hidden c then Some log else if raises w c then None else Some (log ++ [c])
  end.
(** Connection.recv_bytes: the next frame, if all of it is there *)
Inductive frame_read := Incomplete | Bad | Frame (m rest : list Z).
Definition read_frame (p : list Z) : frame_read :=
  match p with
  | a :: b :: c :: d :: p' =>
      match length_of a b c d with
      | None => Bad
      | Some n => if n <=? size p' then Frame (firstn (Z.to_nat n) p') (skipn (Z.to_nat n) p') else Incomplete
      end
  | _ => Incomplete
  end.

Inductive step (w : wire) : relay -> relay -> Prop :=
(** a process begins to send its next call *)
| st_send p l1 l2 log t sent c todo : 
    step w (MkRelay p (l1 ++ MkWriter sent None (c :: todo) true :: l2) log t)
           (MkRelay p (l1 ++ MkWriter sent (Some (c, pieces (enc w c))) todo true :: l2) log t)
(** a piece of at most PIPE_BUF bytes, when there is room for all of it *)
| st_write p l1 l2 log t sent c b ps todo : size p + size b <= cap w ->
    step w (MkRelay p (l1 ++ MkWriter sent (Some (c, (true, b) :: ps)) todo true :: l2) log t)
           (MkRelay (p ++ b) (l1 ++ after_piece c ps (MkWriter sent None todo true) :: l2) log t)
(** some bytes of a longer piece *)
| st_part p l1 l2 log t sent c b b' ps todo : b <> [] -> size p + size b <= cap w ->
    step w (MkRelay p (l1 ++ MkWriter sent (Some (c, (false, b ++ b') :: ps)) todo true :: l2) log t)
           (MkRelay (p ++ b) (l1 ++ after_piece c (match b' with [] => ps | _ => (false, b') :: ps end) (MkWriter sent None todo true) :: l2) log t)
(** the process ends, or closes its end (process_pool.py:80), after its last call *)
| st_close p l1 l2 log t sent :
    step w (MkRelay p (l1 ++ MkWriter sent None [] true :: l2) log t) (MkRelay p (l1 ++ MkWriter sent None [] false :: l2) log t)
(** the thread receives a message *)
| st_recv p ws log m rest : read_frame p = Frame m rest ->
    step w (MkRelay p ws log Reading)
           (match deliver w m log with Some log' => MkRelay rest ws log' Reading | None => MkRelay rest ws log Died end)
| st_bad p ws log : read_frame p = Bad -> step w (MkRelay p ws log Reading) (MkRelay p ws log Died)
(** nobody holds the write end any more: EOFError with an empty pipe, OSError inside a message *)
| st_eof p ws log : Forall (fun x => w_open x = false) ws -> read_frame p = Incomplete ->
    step w (MkRelay p ws log Reading) (MkRelay p ws log (match p with [] => Ended | _ => Died end)).
(** a process is killed, whatever it was doing *)
Inductive killed : relay -> relay -> Prop :=
| a_kill p l1 l2 log t sent cur todo :
    killed (MkRelay p (l1 ++ MkWriter sent cur todo true :: l2) log t) (MkRelay p (l1 ++ MkWriter sent cur todo false :: l2) log t).
Inductive run (w : wire) (s : relay) : relay -> Prop :=
| run_now : run w s s
| run_step s1 s2 : run w s s1 -> step w s1 s2 -> run w s s2
| run_kill s1 s2 : run w s s1 -> killed s1 s2 -> run w s s2.

(** the pool has started: one process for each list of calls, and the receiver *)
Definition started (programs : list (list call)) : relay :=
  MkRelay [] (map (fun l => MkWriter [] None l true) programs) [] Reading.
(** process_pool.py:78-81: shutdown returns once the pool and then the thread are done *)
Definition shutdown_returns (s : relay) : Prop := r_thread s <> Reading.
