(** Interleaving model of Latch (include/lockfree.h, the HAVE_PTHREADS
    implementation) over an error-checking pthread mutex.

    The mutex is the POSIX specification of PTHREAD_MUTEX_ERRORCHECK: lock
    acquires a free mutex, reports EDEADLK to the owner and blocks anybody
    else; unlock by a thread that is not the owner reports EPERM and does
    nothing.  One mutex call is one atomic step.  [debug] says whether assert is
    compiled in (NDEBUG undefined): Latch::leave calls pthread_mutex_lock inside
    an assert, so the release build does not make that call. *)
From Verif Require Import Base RefModel.

Inductive lpc :=
| LIdle
| LEnter        (* enter: before pthread_mutex_lock, lockfree.h 87 *)
| LHoldLock     (* holding: before pthread_mutex_lock, lockfree.h 94 *)
| LHoldChk      (* holding -> leave: before the lock call in the assert, lockfree.h 105 *)
| LHoldUnl      (* holding -> leave: before pthread_mutex_unlock, lockfree.h 106 *)
| LLeaveChk     (* leave: before the lock call in the assert, lockfree.h 105 *)
| LLeaveUnl.    (* leave: before pthread_mutex_unlock, lockfree.h 106 *)

Record lstate := { lowner : option nat;        (* the mutex *)
                   lpcs : list lpc;
                   linside : list bool;        (* the caller is between enter/probe=true and leave *)
                   lresult : list (option bool) }. (* last result of probe / holding *)

Inductive levent :=
| LCallEnter (t : nat) | LCallProbe (t : nat) | LCallHolding (t : nat) | LCallLeave (t : nat)
| LStep (t : nat).

(** pthread_mutex_lock: [None] = blocked, [Some true] = 0, [Some false] = EDEADLK. *)
Definition mlock (s : lstate) (t : nat) : option bool :=
  match lowner s with
  | None => Some true
  | Some u => if Nat.eqb u t then Some false else None
  end.

Definition lset (s : lstate) (o : option nat) (t : nat) (p : lpc) : lstate :=
  {| lowner := o; lpcs := upd (lpcs s) t p; linside := linside s; lresult := lresult s |}.
Definition lins (s : lstate) (t : nat) (b : bool) : lstate :=
  {| lowner := lowner s; lpcs := lpcs s; linside := upd (linside s) t b; lresult := lresult s |}.
Definition lres (s : lstate) (t : nat) (b : bool) : lstate :=
  {| lowner := lowner s; lpcs := lpcs s; linside := linside s; lresult := upd (lresult s) t (Some b) |}.

(** pthread_mutex_unlock by [t]. *)
Definition munlock (s : lstate) (t : nat) : option nat :=
  match lowner s with
  | Some u => if Nat.eqb u t then None else lowner s   (* EPERM: ignored by the caller *)
  | None => None
  end.

Definition lstep (debug : bool) (s : lstate) (e : levent) : outcome lstate :=
  let idle t := match nth_error (lpcs s) t with Some LIdle => true | _ => false end in
  match e with
  | LCallEnter t => if idle t then Ok (lset s (lowner s) t LEnter) else Ok s
  | LCallHolding t => if idle t then Ok (lset s (lowner s) t LHoldLock) else Ok s
  | LCallLeave t =>
      if idle t then Ok (lset s (lowner s) t (if debug then LLeaveChk else LLeaveUnl)) else Ok s
  | LCallProbe t =>      (* pthread_mutex_trylock == 0, lockfree.h 81 *)
      if idle t then
        match lowner s with
        | None => Ok (lres (lins (lset s (Some t) t LIdle) t true) t true)
        | Some _ => Ok (lres s t false)
        end
      else Ok s
  | LStep t =>
      match nth_error (lpcs s) t with
      | Some LEnter =>
          match mlock s t with
          | None => Ok s
          | Some true => Ok (lins (lset s (Some t) t LIdle) t true)
          | Some false => if debug then Abort else Ok (lins (lset s (lowner s) t LIdle) t true)
          end
      | Some LHoldLock =>
          match mlock s t with
          | None => Ok s
          | Some false => Ok (lres (lset s (lowner s) t LIdle) t true)
          | Some true => Ok (lset s (Some t) t (if debug then LHoldChk else LHoldUnl))
          end
      | Some LHoldChk =>
          match mlock s t with
          | None => Ok s
          | Some false => Ok (lset s (lowner s) t LHoldUnl)
          | Some true => Abort
          end
      | Some LHoldUnl => Ok (lres (lset s (munlock s t) t LIdle) t false)
      | Some LLeaveChk =>
          match mlock s t with
          | None => Ok s
          | Some false => Ok (lset s (lowner s) t LLeaveUnl)
          | Some true => Abort
          end
      | Some LLeaveUnl => Ok (lins (lset s (munlock s t) t LIdle) t false)
      | _ => Ok s
      end
  end.

Fixpoint lrun (debug : bool) (s : lstate) (es : list levent) : outcome lstate :=
  match es with
  | [] => Ok s
  | e :: r => do s' <- lstep debug s e; lrun debug s' r
  end.

Definition linit (nt : nat) : lstate :=
  {| lowner := None; lpcs := repeat LIdle nt; linside := repeat false nt; lresult := repeat None nt |}.

(** Thread [t] is inside the latch. *)
Definition inside (s : lstate) (t : nat) : Prop := nth_error (linside s) t = Some true.

(** A caller that enters only from outside and leaves only from inside. *)
Definition disciplined (s : lstate) (e : levent) : Prop :=
  match e with
  | LCallEnter t => ~ inside s t
  | LCallLeave t => inside s t
  | _ => True
  end.
(** Every call in the schedule is disciplined at the moment it is made. *)
Fixpoint dsched (debug : bool) (s : lstate) (es : list levent) : Prop :=
  match es with
  | [] => True
  | e :: r => disciplined s e /\ match lstep debug s e with Ok s' => dsched debug s' r | _ => True end
  end.
