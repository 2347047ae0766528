(** Model of Thread::yield (include/thread.h 227-240, HAVE_PTHREADS). *)
From Verif Require Import Base.

(** struct timespec; time_t and long are 64 bits. *)
Record timespec := { tv_sec : Z; tv_nsec : Z }.

(** request.tv_sec = ms/1000; request.tv_nsec = ms%1000*1000000, in unsigned
    long, and stored in signed 64-bit fields (thread.h 231-232). *)
Definition s64 (x : Z) : Z := let y := x mod 18446744073709551616 in if y <? 9223372036854775808 then y else y - 18446744073709551616.
Definition request (ms : Z) : timespec :=
  {| tv_sec := s64 (u64 ms / 1000); tv_nsec := s64 (u64 (u64 ms mod 1000 * 1000000)) |}.

(** What one nanosleep does: it sleeps for [e] nanoseconds and returns 0, or a
    signal interrupts it after [e] nanoseconds, it returns -1 with EINTR and
    leaves a remaining time.  It fails with EINVAL, without sleeping, if the
    request is not a time. *)
Inductive nap := Slept (e : Z) | Interrupted (e : Z) (remaining : timespec).
Definition valid (t : timespec) : bool := (0 <=? tv_sec t) && (0 <=? tv_nsec t) && (tv_nsec t <? 1000000000).

(** The loop (thread.h 233-234); [env] says for each call of nanosleep what the
    system does with the request it gets.  The result is the time slept, [None]
    while the last call has not returned. *)
Fixpoint sleep_loop (r : timespec) (env : list (timespec -> nap)) : option Z :=
  if valid r then
    match env with
    | [] => None
    | f :: env' =>
      match f r with
      | Slept e => Some e
      | Interrupted e r' => match sleep_loop r' env' with Some t => Some (e + t) | None => None end
      end
    end
  else Some 0.         (* EINVAL: not EINTR, so the loop ends *)
Definition yield (ms : Z) (env : list (timespec -> nap)) : option Z := sleep_loop (request ms) env.
