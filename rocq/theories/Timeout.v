(** Model of [timeout]: src/xputils.rs:187-209. Two threads share a mutex; either may end the process. Time is a number of ticks.
    Not modelled: the failure of [thread::spawn], and an [action] or [at_exit] that ends the process or uses the mutex (they have no
    access to it). *)
From Verif Require Export Base.
Open Scope nat_scope.

(** What a function without result does at each of its steps: it goes on, returns or panics. For [action] and [at_exit], src/xputils.rs:187-209. *)
Inductive progress := GoesOn | Returns | Panics.
(** [action] or [at_exit], src/xputils.rs:187-209. *)
Definition behaviour := nat -> progress.

(** Where the main thread is: in [action] (line 206), which has done so many steps; about to lock (line 207); with the lock, about to
    call [exit(0)] (line 208). src/xputils.rs:206-208. *)
Inductive main_pc := MAction (k : nat) | MLock | MExit.
(** Where the spawned thread is: asleep (line 199); about to lock (line 201); in [at_exit] (line 202), with the lock; about to call
    [exit(1)] (line 203); dead because [at_exit] or [unwrap] panicked. src/xputils.rs:199-203. *)
Inductive timer_pc := TSleep | TLock | TAtExit (k : nat) | TExit | TDead.
(** The mutex [switch] (line 192). It is poisoned when the thread that holds it panics. src/xputils.rs:192. *)
Inductive mutex := Free | HeldByMain | HeldByTimer | Poisoned.
(** [p_code] is the exit code once the process has ended; the other fields then tell where the threads were. src/xputils.rs:187-209. *)
Record process := mk_process { p_clock : nat; p_main : main_pc; p_timer : timer_pc; p_mutex : mutex; p_code : option Z }.

Section Timeout.
Variable duration : nat.
Variables action at_exit : behaviour.

(** Lines 192-204: both threads exist, nothing has been done. src/xputils.rs:192-204. *)
Definition started (clock : nat) : process := mk_process clock (MAction 0) TSleep Free None.

(** One step of the main thread: lines 206-208. A panic of the main thread ends the process with code 101. src/xputils.rs:206-208. *)
Definition main_step (p : process) : option process :=
  let '(mk_process c m t x code) := p in
  match code with
  | Some _ => None
  | None =>
      match m with
      | MAction k => match action k with
                     | GoesOn => Some (mk_process c (MAction (S k)) t x None)
                     | Returns => Some (mk_process c MLock t x None)
                     | Panics => Some (mk_process c m t x (Some 101%Z))
                     end
      | MLock => match x with
                 | Free => Some (mk_process c MExit t HeldByMain None)
                 | Poisoned => Some (mk_process c m t x (Some 101%Z))
                 | _ => None
                 end
      | MExit => Some (mk_process c m t x (Some 0%Z))
      end
  end.

(** One step of the spawned thread, which started when the clock said [t0]: lines 199-203. [sleep] takes at least that long;
    starting the thread also takes time, which only delays its first step. src/xputils.rs:199-203. *)
Definition timer_step (t0 : nat) (p : process) : option process :=
  let '(mk_process c m t x code) := p in
  match code with
  | Some _ => None
  | None =>
      match t with
      | TSleep => if (t0 + duration <=? c) then Some (mk_process c m TLock x None) else None
      | TLock => match x with
                 | Free => Some (mk_process c m (TAtExit 0) HeldByTimer None)
                 | Poisoned => Some (mk_process c m TDead x None)
                 | _ => None
                 end
      | TAtExit k => match at_exit k with
                     | GoesOn => Some (mk_process c m (TAtExit (S k)) x None)
                     | Returns => Some (mk_process c m TExit x None)
                     | Panics => Some (mk_process c m TDead Poisoned None)
                     end
      | TExit => Some (mk_process c m t x (Some 1%Z))
      | TDead => None
      end
  end.

(** Time passes. For the sleep at src/xputils.rs:199. *)
Definition tick (p : process) : process := mk_process (S (p_clock p)) (p_main p) (p_timer p) (p_mutex p) (p_code p).
End Timeout.
