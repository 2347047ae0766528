(** Interleaving model of Latch as it is without HAVE_PTHREADS
    (include/lockfree.h 110-196): a spin lock on an atomic thread id.

    One access to the atomic is one step.  Any number of threads; [id t] is the
    id of thread [t].  The branch does not compile as it stands (probe(ThreadId)
    is declared with result ThreadId and defined with result bool, Thread is not
    declared); both readings of that result give the same model, as it is only
    compared with 0.  get_num_cores (182-194) returns the value of a comparison
    of num_cores, which is 0, with the number of processors, so the spinning
    loop (166-172) is not reached and latch() yields between attempts. *)
From Verif Require Import Base.

Inductive spc :=
| SIdle
| SLatch      (* latch: before the compare-exchange of the loop test, lockfree.h 161 *)
| SYield      (* latch: in Thread::yield, lockfree.h 173 *)
| SUnlatch.   (* unlatch: before the compare-exchange, lockfree.h 180 *)

Record sstate := { s_mutex : Z;                    (* lockfree.h 49; 0 is free *)
                   s_pc : nat -> spc;
                   s_in : nat -> bool;             (* the caller is between enter/probe=true and leave *)
                   s_result : nat -> option bool }.  (* last result of probe / holding *)

Inductive sevent := SEnter (t : nat) | SProbe (t : nat) | SHolding (t : nat) | SLeave (t : nat) | SStep (t : nat).

Definition put {A} (f : nat -> A) (t : nat) (x : A) : nat -> A := fun u => if Nat.eqb u t then x else f u.

Section Ids.
Variable id : nat -> Z.

(** mutex.compare_exchange_strong(expected, desired): the new value and whether it did. *)
Definition cas (m expected desired : Z) : Z * bool := if m =? expected then (desired, true) else (m, false).

(** probe() (lockfree.h 122-125, 150-155): true if the latch was gained. *)
Definition probe (m : Z) (t : nat) : Z * bool := cas m 0 (id t).

Definition sstep (debug : bool) (s : sstate) (e : sevent) : outcome sstate :=
  let idle t := match s_pc s t with SIdle => true | _ => false end in
  match e with
  | SProbe t =>
      if idle t then
        let (m, ok) := probe (s_mutex s) t in
        Ok {| s_mutex := m; s_pc := s_pc s; s_in := if ok then put (s_in s) t true else s_in s; s_result := put (s_result s) t (Some ok) |}
      else Ok s
  | SHolding t =>      (* lockfree.h 136-139 *)
      if idle t then Ok {| s_mutex := s_mutex s; s_pc := s_pc s; s_in := s_in s; s_result := put (s_result s) t (Some (s_mutex s =? id t)) |}
      else Ok s
  | SEnter t =>        (* lockfree.h 129-132 *)
      if idle t then Ok {| s_mutex := s_mutex s; s_pc := put (s_pc s) t SLatch; s_in := s_in s; s_result := s_result s |} else Ok s
  | SLeave t =>        (* lockfree.h 143-146 *)
      if idle t then Ok {| s_mutex := s_mutex s; s_pc := put (s_pc s) t SUnlatch; s_in := s_in s; s_result := s_result s |} else Ok s
  | SStep t =>
      match s_pc s t with
      | SLatch =>
          (* (holder = probe()) != 0: the probe without argument, so holder is 1
             when the latch was gained *)
          let (m, ok) := probe (s_mutex s) t in
          if ok then
            if debug && (1 =? id t) then Abort          (* assert(holder != tid) *)
            else Ok {| s_mutex := m; s_pc := put (s_pc s) t SYield; s_in := s_in s; s_result := s_result s |}
          else Ok {| s_mutex := m; s_pc := put (s_pc s) t SIdle; s_in := put (s_in s) t true; s_result := s_result s |}
      | SYield => Ok {| s_mutex := s_mutex s; s_pc := put (s_pc s) t SLatch; s_in := s_in s; s_result := s_result s |}
      | SUnlatch =>    (* lockfree.h 177-183 *)
          let (m, ok) := cas (s_mutex s) (id t) 0 in
          if debug && negb ok then Abort
          else Ok {| s_mutex := m; s_pc := put (s_pc s) t SIdle; s_in := put (s_in s) t false; s_result := s_result s |}
      | SIdle => Ok s
      end
  end.

Fixpoint srun (debug : bool) (s : sstate) (es : list sevent) : outcome sstate :=
  match es with
  | [] => Ok s
  | e :: es => do s <- sstep debug s e; srun debug s es
  end.
End Ids.

Definition sinit : sstate := {| s_mutex := 0; s_pc := fun _ => SIdle; s_in := fun _ => false; s_result := fun _ => None |}.
