(** Model of thread bookkeeping when the system gives thread ids again:
    include/thread.h and src/thread.cpp (HAVE_PTHREADS).  ThreadModel takes
    thread ids for the threads themselves; here an id is what pthread_create
    stores, the Thread object keeps it in a field, and the map of threads goes
    from ids to objects.  The system may give any id that no other thread has,
    where a thread has its id until pthread_join has returned for it (POSIX;
    nothing here detaches a thread).

    Every block between thread_latch.enter() and leave() is one step (C38);
    [join] is two steps, the pthread_join and the block after it.  [joinAny]
    scans the map in the order of insertion instead of the order of ids; no
    theorem depends on which ended thread is chosen. *)
From Verif Require Import Base ThreadModel.

(** A Thread object: thread.h 59-60 (thread_id, state); whether some thread is
    between the pthread_join and the block of its join(); whether it has been
    destroyed. *)
Record iobj := { o_id : nat; o_state : tstate; o_half : bool; o_dead : bool }.
(** A thread of the system: its id, the object passed to ThreadProc, how far it
    is ([Finished]: ThreadProc has returned), whether it has been joined. *)
Record ios := { k_id : nat; k_obj : nat; k_phase : phase; k_joined : bool }.

Record im := { imap : list (nat * nat);       (* Thread::threads, thread.h 64: id and object *)
               iobjs : nat -> option iobj;    (* the Thread objects *)
               ioss : list ios;               (* every thread created so far *)
               icnt : Z }.                    (* Thread::ended_count, thread.h 65 *)

Definition iinit : im := {| imap := []; iobjs := fun _ => None; ioss := []; icnt := 0 |}.

Definition with_map (s : im) m := {| imap := m; iobjs := iobjs s; ioss := ioss s; icnt := icnt s |}.
Definition with_cnt (s : im) c := {| imap := imap s; iobjs := iobjs s; ioss := ioss s; icnt := c |}.
Definition with_obj (s : im) o x :=
  {| imap := imap s; iobjs := fun p => if Nat.eqb p o then Some x else iobjs s p; ioss := ioss s; icnt := icnt s |}.
Definition with_os (s : im) k y :=
  {| imap := imap s; iobjs := iobjs s; ioss := firstn k (ioss s) ++ y :: skipn (S k) (ioss s); icnt := icnt s |}.

(** Thread::find (thread.h 188-193). *)
Definition ifind (s : im) (i : nat) : option nat :=
  match List.find (fun e => Nat.eqb (fst e) i) (imap s) with Some e => Some (snd e) | None => None end.
(** threads.erase(i); at most one pair has a key. *)
Definition ierase (i : nat) (m : list (nat * nat)) := filter (fun e => negb (Nat.eqb (fst e) i)) m.
(** threads.insert({i, o}) does nothing if there is a pair with that key. *)
Definition iinsert (s : im) (i o : nat) : list (nat * nat) :=
  match ifind s i with Some _ => imap s | None => imap s ++ [(i, o)] end.

Inductive iresult :=
| INull | IWait | IGot (o : nat) | ISpin      (* joinAny, as in ThreadModel *)
| INone.                                      (* not a joinAny *)

Inductive ievent :=
| ENew (o : nat) (g : tstate) (j : nat)   (* the constructor, thread.h 117-140: both fields stay uninitialised *)
| EResume (o i : nat)                     (* resume(), the system gives id i *)
| EStart (k : nat)                        (* ThreadProc of thread k, up to state = Started *)
| EExit (k : nat)                         (* Thread::exit called by thread k *)
| EFinish (k : nat)                       (* run() of thread k returned; the block of ThreadProc *)
| EJoinAny (first : bool)                 (* joinAny entry (first), or its loop after a wake-up *)
| EPJoin (o : nat)                        (* o.join(), called from another thread: pthread_join has returned *)
| EErase (o : nat)                        (* o.join(): the block after that *)
| EDestroy (o : nat)                      (* ~Thread *)
| EFail (o j : nat).                      (* resume(), but pthread_create fails and leaves j in thread_id
                                             (what it leaves there is undefined, so any j) *)

(** The system may give id [i]: ids are not 0 (ThreadProc asserts that) and no
    thread that has not been joined has it. *)
Definition may_give (s : im) (i : nat) : bool :=
  negb (Nat.eqb i 0) && forallb (fun y => k_joined y || negb (Nat.eqb (k_id y) i)) (ioss s).

(** joinAny (thread.cpp 79-114). *)
Definition iended (s : im) (o : nat) : bool :=
  match iobjs s o with Some x => match o_state x with TEnded => true | _ => false end | None => false end.
Definition ijoin_any (s : im) (first : bool) : im * iresult :=
  if first && (length (imap s) <=? 1)%nat then (s, INull)
  else if icnt s =? 0 then (s, IWait)
  else match List.find (fun e => iended s (snd e)) (imap s) with
       | Some e => (with_cnt (with_map s (ierase (fst e) (imap s))) (icnt s - 1), IGot (snd e))
       | None => (s, ISpin)
       end.

(** The thread of the system, not joined yet, that has id [i]. *)
Fixpoint os_with (l : list ios) (i n : nat) : option (nat * ios) :=
  match l with
  | [] => None
  | y :: r => if negb (k_joined y) && Nat.eqb (k_id y) i then Some (n, y) else os_with r i (S n)
  end.

Definition set_state (x : iobj) st := {| o_id := o_id x; o_state := st; o_half := o_half x; o_dead := o_dead x |}.
Definition set_half (x : iobj) h := {| o_id := o_id x; o_state := o_state x; o_half := h; o_dead := o_dead x |}.
Definition set_phase (y : ios) p := {| k_id := k_id y; k_obj := k_obj y; k_phase := p; k_joined := k_joined y |}.

(** Using a Thread object that does not exist (any more) is undefined. *)
Definition live (s : im) (o : nat) : outcome iobj :=
  match iobjs s o with Some x => if o_dead x then UB else Ok x | None => UB end.

(** One step; [None]: it cannot happen (now). *)
Definition istep (s : im) (e : ievent) : option (outcome (im * iresult)) :=
  match e with
  | ENew o g j =>
      match iobjs s o with
      | None => Some (Ok (with_obj s o {| o_id := j; o_state := g; o_half := false; o_dead := false |}, INone))
      | Some _ => None
      end
  | EResume o i =>                       (* thread.h 172-186; it does not look at state *)
      if may_give s i then
        Some (do x <- live s o;
              let s1 := with_obj s o {| o_id := i; o_state := o_state x; o_half := o_half x; o_dead := false |} in
              Ok ({| imap := iinsert s1 i o; iobjs := iobjs s1;
                     ioss := ioss s ++ [{| k_id := i; k_obj := o; k_phase := Created; k_joined := false |}];
                     icnt := icnt s |}, INone))
      else None
  | EStart k =>                          (* thread.cpp 22-35 *)
      match nth_error (ioss s) k with
      | Some y =>
          match k_phase y with
          | Created =>
              Some (do x <- live s (k_obj y);
                    cassert (negb (Nat.eqb (o_id x) 0))
                      (Ok (with_os (with_obj s (k_obj y) (set_state x TStarted)) k (set_phase y Running), INone)))
          | _ => None
          end
      | None => None
      end
  | EExit k =>                           (* thread.cpp 58-77 *)
      match nth_error (ioss s) k with
      | Some y =>
          match k_phase y with
          | Running =>
              match ifind s (k_id y) with
              | Some q => Some (do x <- live s q; Ok (with_cnt (with_obj s q (set_state x TEnded)) (icnt s + 1), INone))
              | None => Some (Ok (s, INone))
              end
          | _ => None
          end
      | None => None
      end
  | EFinish k =>                         (* thread.cpp 43-56 *)
      match nth_error (ioss s) k with
      | Some y =>
          match k_phase y with
          | Running =>
              Some (do x <- live s (k_obj y);
                    let s1 := with_os (with_obj s (k_obj y) (set_state x TEnded)) k (set_phase y Finished) in
                    Ok (with_cnt s1 (match ifind s (o_id x) with Some _ => icnt s + 1 | None => icnt s end), INone))
          | _ => None
          end
      | None => None
      end
  | EJoinAny first => Some (Ok (ijoin_any s first))
  | EPJoin o =>                          (* thread.cpp 117-125; pthread_join with an id nobody has is undefined *)
      match live s o with
      | Ok x =>
          if Nat.eqb (o_id x) 0 then Some Abort
          else match os_with (ioss s) (o_id x) 0 with
               | Some (k, y) =>
                   match k_phase y with
                   | Finished =>
                       Some (Ok (with_os (with_obj s o (set_half x true)) k
                                   {| k_id := k_id y; k_obj := k_obj y; k_phase := Finished; k_joined := true |}, INone))
                   | _ => None           (* it waits *)
                   end
               | None => Some UB
               end
      | Abort => Some Abort
      | UB => Some UB
      end
  | EErase o =>                          (* thread.cpp 129-137 *)
      match iobjs s o with
      | Some x0 =>
          if o_half x0 then
            Some (do x <- live s o;
                  let s1 := with_obj s o (set_half x false) in
                  Ok (match ifind s (o_id x) with
                      | Some _ => with_cnt (with_map s1 (ierase (o_id x) (imap s))) (icnt s - 1)
                      | None => s1
                      end, INone))
          else None
      | None => None
      end
  | EDestroy o =>                        (* thread.h 142-159, 195-207 *)
      Some (do x <- live s o;
            cassert (match o_state x with TEnded => true | _ => false end)
              (let s1 := with_obj s o {| o_id := 0; o_state := o_state x; o_half := o_half x; o_dead := true |} in
               Ok (match ifind s (o_id x) with
                   | Some _ => with_cnt (with_map s1 (ierase (o_id x) (imap s))) (icnt s - 1)
                   | None => s1
                   end, INone)))
  | EFail o j =>                         (* thread.h 172-186: the code is not looked at *)
      Some (do x <- live s o;
            let s1 := with_obj s o {| o_id := j; o_state := o_state x; o_half := o_half x; o_dead := false |} in
            Ok (with_map s1 (iinsert s1 j o), INone))
  end.

(** Thread::current() called by thread [k] (thread.h 242-249); [None] is null. *)
Definition icurrent (s : im) (k : nat) : option nat :=
  match nth_error (ioss s) k with Some y => ifind s (k_id y) | None => None end.

(** A history of steps that can happen, and the results of its joinAny calls. *)
Fixpoint irun (s : im) (es : list ievent) : option (outcome (im * list iresult)) :=
  match es with
  | [] => Some (Ok (s, []))
  | e :: r =>
      match istep s e with
      | Some (Ok p) =>
          match irun (fst p) r with
          | Some (Ok q) => Some (Ok (fst q, snd p :: snd q))
          | Some Abort => Some Abort
          | Some UB => Some UB
          | None => None
          end
      | Some Abort => Some Abort
      | Some UB => Some UB
      | None => None
      end
  end.
