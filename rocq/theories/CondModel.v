(** Interleaving model of Condition (include/condition.h, src/condition.cpp, the
    HAVE_PTHREADS implementation) used with a Latch (LatchModel.v).

    The condition variable is its POSIX specification: pthread_cond_wait
    releases the mutex and blocks in one atomic step (and reports EPERM at once
    to a thread that does not own the error-checking mutex), a signal unblocks
    at least one of the blocked threads if there is one, a broadcast all of
    them, a blocked thread may also wake up by itself (spuriously), or, in
    pthread_cond_timedwait, when the clock (CLOCK_REALTIME, here milliseconds
    since 1970) has reached the time given; an unblocked thread takes the mutex
    again before it returns. *)
From Verif Require Import Base RefModel LatchModel.

Inductive cpc :=
| CNone                             (* not in wait *)
| CBlocked (until : option Z)       (* blocked; the time at which it gives up *)
| CWoken (expired : bool).          (* unblocked, before it has the mutex again *)

Record cstate := { clatch : lstate;
                   cpcs : list cpc;
                   cclock : Z;
                   cdelay : list Z }.   (* the variable given to the last timed wait *)

Inductive cevent :=
| CLatch (e : levent)               (* a step of the latch *)
| CWait (t : nat) (latch : bool)    (* wait(&latch), or wait() *)
| CTimed (t : nat) (ms : Z)         (* wait(ms, &latch) *)
| CSignal (t : nat) (ws : list nat) (* [ws]: whom the system chooses to wake *)
| CBroadcast (t : nat)
| CSpurious (t : nat)               (* t wakes up by itself *)
| CTimeout (t : nat)                (* t gives up, if it is time *)
| CReturn (t : nat)                 (* an unblocked thread takes the mutex, if it is free *)
| CTick (ms : nat).                 (* time passes *)

Definition thread_of (e : levent) : nat :=
  match e with LCallEnter t | LCallProbe t | LCallHolding t | LCallLeave t | LStep t => t end.

Definition set_pc (s : cstate) (t : nat) (p : cpc) : cstate :=
  {| clatch := clatch s; cpcs := upd (cpcs s) t p; cclock := cclock s; cdelay := cdelay s |}.
Definition set_latch (s : cstate) (l : lstate) : cstate :=
  {| clatch := l; cpcs := cpcs s; cclock := cclock s; cdelay := cdelay s |}.
Definition set_delay (s : cstate) (t : nat) (ms : Z) : cstate :=
  {| clatch := clatch s; cpcs := cpcs s; cclock := cclock s; cdelay := upd (cdelay s) t ms |}.

(** The thread is between calls: neither in the latch's nor in the condition's code. *)
Definition ready (s : cstate) (t : nat) : bool :=
  match nth_error (lpcs (clatch s)) t, nth_error (cpcs s) t with
  | Some LIdle, Some CNone => true
  | _, _ => false
  end.

(** The atomic first half of pthread_cond_wait and pthread_cond_timedwait. *)
Definition block (s : cstate) (t : nat) (until : option Z) : cstate :=
  match lowner (clatch s) with
  | Some u => if Nat.eqb u t then set_pc (set_latch s (lins (lset (clatch s) None t LIdle) t false)) t (CBlocked until) else s
  | None => s                                            (* EPERM *)
  end.

Definition wake (p : cpc) : cpc := match p with CBlocked _ => CWoken false | p => p end.
Definition blocked (p : cpc) : bool := match p with CBlocked _ => true | _ => false end.

(** Which threads are blocked. *)
Definition blocked_in (l : list cpc) (t : nat) : bool :=
  match nth_error l t with Some p => blocked p | None => false end.
Fixpoint wake_all (l : list cpc) (ws : list nat) : list cpc :=
  match ws with
  | [] => l
  | w :: ws => wake_all (match nth_error l w with Some p => upd l w (wake p) | None => l end) ws
  end.
(** The first blocked thread. *)
Fixpoint first_blocked (l : list cpc) : option nat :=
  match l with
  | [] => None
  | p :: l => if blocked p then Some O else option_map S (first_blocked l)
  end.

Definition cstep (debug : bool) (s : cstate) (e : cevent) : outcome cstate :=
  match e with
  | CLatch le =>
      match nth_error (cpcs s) (thread_of le) with
      | Some CNone => do l <- lstep debug (clatch s) le; Ok (set_latch s l)
      | _ => Ok s
      end
  | CWait t latch =>          (* condition.cpp 64: &user_latch->mutex of a null pointer *)
      if ready s t then (if latch then Ok (block s t None) else UB) else Ok s
  | CTimed t ms =>            (* condition.cpp 149-151: the delay is passed as the absolute time *)
      if ready s t then Ok (block (set_delay s t ms) t (Some (ms mod 2^64 / 1000 * 1000 + ms mod 2^64 mod 1000))) else Ok s
  | CSignal t ws =>           (* condition.cpp 102 *)
      if ready s t then
        let ws := if existsb (blocked_in (cpcs s)) ws then ws
                  else match first_blocked (cpcs s) with Some w => [w] | None => [] end in
        Ok {| clatch := clatch s; cpcs := wake_all (cpcs s) ws; cclock := cclock s; cdelay := cdelay s |}
      else Ok s
  | CBroadcast t =>           (* condition.cpp 123 *)
      if ready s t then
        Ok {| clatch := clatch s; cpcs := map wake (cpcs s); cclock := cclock s; cdelay := cdelay s |}
      else Ok s
  | CSpurious t =>
      match nth_error (cpcs s) t with
      | Some (CBlocked _) => Ok (set_pc s t (CWoken false))
      | _ => Ok s
      end
  | CTimeout t =>
      match nth_error (cpcs s) t with
      | Some (CBlocked (Some d)) => if d <=? cclock s then Ok (set_pc s t (CWoken true)) else Ok s
      | _ => Ok s
      end
  | CReturn t =>              (* condition.cpp 152-159: on ETIMEDOUT the delay becomes 0 *)
      match nth_error (cpcs s) t, lowner (clatch s) with
      | Some (CWoken x), None =>
          let s' := set_pc (set_latch s (lins (lset (clatch s) (Some t) t LIdle) t true)) t CNone in
          Ok (if x then set_delay s' t 0 else s')
      | _, _ => Ok s
      end
  | CTick ms => Ok {| clatch := clatch s; cpcs := cpcs s; cclock := cclock s + Z.of_nat ms; cdelay := cdelay s |}
  end.

Fixpoint crun (debug : bool) (s : cstate) (es : list cevent) : outcome cstate :=
  match es with
  | [] => Ok s
  | e :: es => do s <- cstep debug s e; crun debug s es
  end.

(** [nt] threads, at the time [now]. *)
Definition cinit (nt : nat) (now : Z) : cstate :=
  {| clatch := linit nt; cpcs := repeat CNone nt; cclock := now; cdelay := repeat 0 nt |}.
