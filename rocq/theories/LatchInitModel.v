(** Interleaving model of the construction of latches (include/lockfree.h
    60-72, the HAVE_PTHREADS implementation; the flag and the attributes are
    static, src/lockfree.cpp 10-11): any number of threads construct latches,
    and each read or write of the flag and each pthread call is one step.

    pthread calls are by their POSIX contract: initialising attributes that are
    initialised already, and using attributes that are not, is undefined. *)
From Verif Require Import Base RefModel LatchModel.

(** What Latch::attr, or a mutex made with it, is: not initialised,
    initialised with the default type, of type PTHREAD_MUTEX_ERRORCHECK. *)
Inductive mtype := Raw | Default | ErrorCheck.

Inductive ipc :=
| IIdle
| ICheck        (* before reading initialised, lockfree.h 63 *)
| IFlag         (* before initialised = true, lockfree.h 65 *)
| IAttr         (* before pthread_mutexattr_init, lockfree.h 66 *)
| IType         (* before pthread_mutexattr_settype, lockfree.h 67 *)
| IMake.        (* before pthread_mutex_init, lockfree.h 70 *)

Record istate := mkist { i_flag : bool; i_attr : mtype;
                         i_made : list mtype;   (* the latches constructed so far: the type of their mutex *)
                         i_pcs : list ipc }.

(** A thread starts constructing a latch; a thread takes its next step. *)
Inductive ievent := ICall (t : nat) | IStep (t : nat).
Definition by_thread (e : ievent) : nat := match e with ICall t | IStep t => t end.

Definition at_pc (s : istate) (t : nat) (p : ipc) : istate := mkist (i_flag s) (i_attr s) (i_made s) (upd (i_pcs s) t p).

Definition istep (s : istate) (e : ievent) : outcome istate :=
  match e with
  | ICall t => match nth_error (i_pcs s) t with Some IIdle => Ok (at_pc s t ICheck) | _ => Ok s end
  | IStep t =>
    match nth_error (i_pcs s) t with
    | Some ICheck => Ok (at_pc s t (if i_flag s then IMake else IFlag))
    | Some IFlag => Ok (mkist true (i_attr s) (i_made s) (upd (i_pcs s) t IAttr))
    | Some IAttr =>
      match i_attr s with
      | Raw => Ok (mkist (i_flag s) Default (i_made s) (upd (i_pcs s) t IType))
      | _ => UB
      end
    | Some IType =>
      match i_attr s with
      | Raw => UB
      | _ => Ok (mkist (i_flag s) ErrorCheck (i_made s) (upd (i_pcs s) t IMake))
      end
    | Some IMake =>
      match i_attr s with
      | Raw => UB
      | k => Ok (mkist (i_flag s) k (i_made s ++ [k]) (upd (i_pcs s) t IIdle))
      end
    | _ => Ok s
    end
  end.

Fixpoint irun (s : istate) (es : list ievent) : outcome istate :=
  match es with
  | [] => Ok s
  | e :: es => do s <- istep s e; irun s es
  end.
Definition iinit (nt : nat) : istate := mkist false Raw [] (repeat IIdle nt).

(** Two threads are about to use the attributes, and one of them to change them. *)
Definition changes (p : ipc) : Prop := p = IAttr \/ p = IType.
Definition irace (s : istate) : Prop :=
  exists t u p q, t <> u /\ nth_error (i_pcs s) t = Some p /\ nth_error (i_pcs s) u = Some q /\
    changes p /\ (changes q \/ q = IMake).

(** A latch whose mutex is of the default type: locking it blocks its owner as
    anybody else (LatchModel has the error-checking type).  Latch::enter and
    Latch::leave, debug build (lockfree.h 84-89, 102-107). *)
Definition dlock (s : lstate) : bool := match lowner s with None => true | Some _ => false end.
Definition dstep (s : lstate) (e : levent) : outcome lstate :=
  match e with
  | LCallEnter t => match nth_error (lpcs s) t with Some LIdle => Ok (lset s (lowner s) t LEnter) | _ => Ok s end
  | LCallLeave t => match nth_error (lpcs s) t with Some LIdle => Ok (lset s (lowner s) t LLeaveChk) | _ => Ok s end
  | LStep t =>
    match nth_error (lpcs s) t with
    | Some LEnter => if dlock s then Ok (lins (lset s (Some t) t LIdle) t true) else Ok s
    | Some LLeaveChk => if dlock s then Abort else Ok s
    | Some LLeaveUnl => Ok (lins (lset s (munlock s t) t LIdle) t false)
    | _ => Ok s
    end
  | _ => Ok s
  end.
Fixpoint drun (s : lstate) (es : list levent) : outcome lstate :=
  match es with
  | [] => Ok s
  | e :: es => do s <- dstep s e; drun s es
  end.
