(** Interleaving model of Condition as it is for MSW (src/condition.cpp,
    include/condition.h): waiters, releases and a generation counted under an
    internal latch, and a Windows event that stays set until it is reset.

    Each block between latch.latch and latch.unlatch is one step (the latch is
    taken to work; C64 is about the latch), and so is each call of the system.
    The user's latch, released and taken again around the wait, is not modelled,
    nor the clock: a timed wait may run out at any moment.  The counts do not
    wrap.  As it stands the branch does not compile (YMDTimeC and MillisecondsC
    are not declared, and see SpinModel). *)
From Verif Require Import Base RefModel.

Inductive wpc :=
| WIdle
| WWait (g : Z) (timed : bool)          (* in WaitForSingleObject, condition.cpp 78, 175; my_generation *)
| WCheck (g : Z) (timed late : bool)    (* before the block at 79-82, 189-192; late: no time remains *)
| WLeave                                (* before the block at 87-90, 197-200 *)
| WReset.                               (* before ResetEvent, 92, 202 *)

Record wstate := { w_waiters : Z; w_release : Z; w_generation : Z; w_event : bool; w_pcs : list wpc }.

Inductive wevent :=
| WCall (t : nat) (timed : bool)   (* wait() or wait(ms) *)
| WSignal | WBroadcast             (* by any thread *)
| WExpire (t : nat)                (* the time of a timed wait is over *)
| WStep (t : nat).

Definition wset (s : wstate) (t : nat) (p : wpc) : wstate :=
  {| w_waiters := w_waiters s; w_release := w_release s; w_generation := w_generation s; w_event := w_event s; w_pcs := upd (w_pcs s) t p |}.

Definition wstep (s : wstate) (e : wevent) : wstate :=
  match e with
  | WCall t timed =>          (* condition.cpp 67-71, 164-168 *)
      match nth_error (w_pcs s) t with
      | Some WIdle => {| w_waiters := w_waiters s + 1; w_release := w_release s; w_generation := w_generation s; w_event := w_event s;
                         w_pcs := upd (w_pcs s) t (WWait (w_generation s) timed) |}
      | _ => s
      end
  | WSignal =>                (* condition.cpp 105-113 *)
      if w_waiters s >? w_release s then
        {| w_waiters := w_waiters s; w_release := w_release s + 1; w_generation := w_generation s + 1; w_event := true; w_pcs := w_pcs s |}
      else s
  | WBroadcast =>             (* condition.cpp 126-134 *)
      if w_waiters s >? 0 then
        {| w_waiters := w_waiters s; w_release := w_waiters s; w_generation := w_generation s + 1; w_event := true; w_pcs := w_pcs s |}
      else s
  | WExpire t =>              (* condition.cpp 175-181 *)
      match nth_error (w_pcs s) t with
      | Some (WWait g true) => wset s t (WCheck g true true)
      | _ => s
      end
  | WStep t =>
      match nth_error (w_pcs s) t with
      | Some (WWait g timed) => if w_event s then wset s t (WCheck g timed false) else s
      | Some (WCheck g timed late) =>
          if (w_release s >? 0) && negb (g =? w_generation s) || late then wset s t WLeave
          else wset s t (WWait g timed)
      | Some WLeave =>
          {| w_waiters := w_waiters s - 1; w_release := w_release s - 1; w_generation := w_generation s; w_event := w_event s;
             w_pcs := upd (w_pcs s) t (if w_release s - 1 =? 0 then WReset else WIdle) |}
      | Some WReset => {| w_waiters := w_waiters s; w_release := w_release s; w_generation := w_generation s; w_event := false; w_pcs := upd (w_pcs s) t WIdle |}
      | Some WIdle | None => s
      end
  end.

Definition wrun (s : wstate) (es : list wevent) : wstate := fold_left wstep es s.

(** [n] threads (condition.cpp 26-39) *)
Definition winit (n : nat) : wstate := {| w_waiters := 0; w_release := 0; w_generation := 0; w_event := false; w_pcs := repeat WIdle n |}.
