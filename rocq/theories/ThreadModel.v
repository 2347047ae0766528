(** Model of thread bookkeeping: include/thread.h and src/thread.cpp
    (HAVE_PTHREADS).  Every block between thread_latch.enter() and leave() is
    one atomic step (C38 justifies that); a history is any sequence of such
    steps by any threads.  Thread ids stand for the threads and are never
    reused (ThreadIdModel, C60, has ids that the system gives again).  [joinAny]'s scan order is the order of creation
    instead of the order of ids; no theorem depends on which ended thread is
    chosen. *)
From Verif Require Import Base.

Inductive tstate := TNew | TStarted | TEnded.          (* Thread::State, thread.h 36 *)
(** What the thread really is doing; not visible to the code. *)
Inductive phase := Created | Running | Finished.

Record thr := { th_state : tstate; th_phase : phase }.

Record tm := { tmap : list nat;            (* Thread::threads, thread.h 64: ids in the map *)
               tobj : nat -> option thr;   (* the Thread objects *)
               ended : Z }.                (* Thread::ended_count, thread.h 65 *)

Definition tinit : tm := {| tmap := []; tobj := fun _ => None; ended := 0 |}.

Definition tset (s : tm) (t : nat) (x : thr) : nat -> option thr :=
  fun u => if Nat.eqb u t then Some x else tobj s u.

(** Thread::find(t) != 0 (thread.h 188-193). *)
Definition in_map (s : tm) (t : nat) : bool := existsb (Nat.eqb t) (tmap s).
Definition erase (t : nat) (l : list nat) : list nat := filter (fun u => negb (Nat.eqb u t)) l.

Inductive tresult :=
| RNull            (* joinAny returned 0 *)
| RWait            (* joinAny waits on the condition; it re-runs its loop when woken *)
| RGot (t : nat)   (* joinAny returned this thread *)
| RSpin            (* joinAny found nothing although ended_count != 0: it loops forever holding the latch *)
| RNone.           (* not a joinAny *)

Inductive tevent :=
| EResume (t : nat) (g : tstate)  (* resume(); g = the uninitialised state field, thread.h 117, 172-186 *)
| EStart (t : nat)                (* ThreadProc sets Started, thread.cpp 35 *)
| EExit (t : nat)                 (* Thread::exit called by t itself, thread.cpp 58-77 *)
| EFinish (t : nat)               (* run() returned: thread.cpp 43-54 *)
| EJoinAny (first : bool)         (* joinAny entry (first) or a wake-up from its wait *)
| EJoin (t : nat)                 (* t.join() from another thread *)
| EDestroy (t : nat).             (* ~Thread, thread.h 142-159, 195-207 *)

(** joinAny: the size test only on entry (thread.cpp 83), then the loop body
    (thread.cpp 91-113). *)
Definition is_ended (s : tm) (t : nat) : bool :=
  match tobj s t with Some x => match th_state x with TEnded => true | _ => false end | None => false end.
Definition join_any (s : tm) (first : bool) : tm * tresult :=
  if first && (length (tmap s) <=? 1)%nat then (s, RNull)
  else if ended s =? 0 then (s, RWait)
  else match find (is_ended s) (tmap s) with
       | Some t => ({| tmap := erase t (tmap s); tobj := tobj s; ended := ended s - 1 |}, RGot t)
       | None => (s, RSpin)
       end.

(** The state := Ended / count block of ThreadProc and of exit. *)
Definition mark_ended (s : tm) (t : nat) (ph : phase) : tm :=
  {| tmap := tmap s;
     tobj := tset s t {| th_state := TEnded; th_phase := ph |};
     ended := if in_map s t then ended s + 1 else ended s |}.

Definition tstep (s : tm) (e : tevent) : outcome (tm * tresult) :=
  match e with
  | EResume t g =>
      match tobj s t with
      | None => Ok ({| tmap := tmap s ++ [t];
                       tobj := tset s t {| th_state := g; th_phase := Created |};
                       ended := ended s |}, RNone)
      | Some _ => Ok (s, RNone)
      end
  | EStart t =>
      match tobj s t with
      | Some x =>
          match th_phase x with
          | Created => Ok ({| tmap := tmap s;
                              tobj := tset s t {| th_state := TStarted; th_phase := Running |};
                              ended := ended s |}, RNone)
          | _ => Ok (s, RNone)
          end
      | None => Ok (s, RNone)
      end
  | EExit t =>
      match tobj s t with
      | Some x =>
          match th_phase x with
          | Running =>      (* current() returns 0 if t is not in the map: then nothing happens *)
              if in_map s t then Ok (mark_ended s t Running, RNone) else Ok (s, RNone)
          | _ => Ok (s, RNone)
          end
      | None => Ok (s, RNone)
      end
  | EFinish t =>
      match tobj s t with
      | Some x =>
          match th_phase x with
          | Running => Ok (mark_ended s t Finished, RNone)
          | _ => Ok (s, RNone)
          end
      | None => Ok (s, RNone)
      end
  | EJoinAny first => Ok (join_any s first)
  | EJoin t =>          (* pthread_join returns only once t has finished; thread.cpp 117-138 *)
      match tobj s t with
      | Some x =>
          match th_phase x with
          | Finished =>
              if in_map s t then Ok ({| tmap := erase t (tmap s); tobj := tobj s; ended := ended s - 1 |}, RNone)
              else Ok (s, RNone)
          | _ => Ok (s, RNone)
          end
      | None => Ok (s, RNone)
      end
  | EDestroy t =>
      match tobj s t with
      | Some x =>
          cassert (match th_state x with TEnded => true | _ => false end)
            (if in_map s t then Ok ({| tmap := erase t (tmap s); tobj := tobj s; ended := ended s - 1 |}, RNone)
             else Ok (s, RNone))
      | None => Ok (s, RNone)
      end
  end.

(** A history and the results of its joinAny calls. *)
Fixpoint trun (s : tm) (es : list tevent) : outcome (tm * list tresult) :=
  match es with
  | [] => Ok (s, [])
  | e :: r => do p <- tstep s e; do q <- trun (fst p) r; Ok (fst q, snd p :: snd q)
  end.

(** Histories that never call Thread::exit and whose uninitialised state field
    does not happen to read as Ended. *)
Definition clean (e : tevent) : Prop :=
  match e with EExit _ => False | EResume _ TEnded => False | _ => True end.

(** Specification vocabulary: a thread that has really finished and that nobody
    has collected yet (it is still registered). *)
Definition finished (s : tm) (t : nat) : Prop :=
  exists x, tobj s t = Some x /\ th_phase x = Finished.
Definition registered (s : tm) (t : nat) : Prop := In t (tmap s).
