(** C38: a latch is held by at most one thread. *)
From Verif Require Import Base RefModel RefProofs LatchModel LatchProofs.

(** Any number of threads, any schedule, any (mis)use, debug and release
    builds: two threads are never inside together. *)
Theorem C38_mutual_exclusion : forall debug nt es s t u,
  lrun debug (linit nt) es = Ok s -> inside s t -> inside s u -> t = u.
Proof. intros debug nt es s t u H. apply inside_unique. eapply lrun_inv; [apply linit_inv|exact H]. Qed.

(** Callers that enter from outside and leave from inside never hit an assert. *)
Theorem C38_no_abort : forall debug nt es,
  dsched debug (linit nt) es -> exists s, lrun debug (linit nt) es = Ok s.
Proof. intros debug nt es H. apply dsched_ok; [apply linit_inv|apply linit_dinv|exact H]. Qed.

(** Leaving lets a waiting thread in. *)
Theorem C38_leave_admits_waiter : forall debug nt es s t u,
  lrun debug (linit nt) es = Ok s -> inside s t ->
  nth_error (lpcs s) t = Some LIdle -> nth_error (lpcs s) u = Some LEnter ->
  t <> u ->
  exists s', lrun debug s [LCallLeave t; LStep t; LStep t; LStep u] = Ok s' /\ inside s' u /\ ~ inside s' t /\
             nth_error (lpcs s') u = Some LIdle.
Proof. intros debug nt es s t u H. apply leave_admits. eapply lrun_inv; [apply linit_inv|exact H]. Qed.

(** A probe that reports success is inside; one that fails changes nothing. *)
Theorem C38_probe : forall debug nt es s t s',
  lrun debug (linit nt) es = Ok s -> nth_error (lpcs s) t = Some LIdle ->
  lstep debug s (LCallProbe t) = Ok s' ->
  (nth_error (lresult s') t = Some (Some true) /\ inside s' t /\ (forall u, ~ inside s u)) \/
  (nth_error (lresult s') t = Some (Some false) /\ linside s' = linside s /\ lowner s' = lowner s /\ lowner s <> None).
Proof. intros debug nt es s t s' H. apply probe_spec. eapply lrun_inv; [apply linit_inv|exact H]. Qed.

(** holding() answers correctly when it can answer ... *)
Theorem C38_holding_partial : forall debug nt es s t,
  lrun debug (linit nt) es = Ok s -> nth_error (lpcs s) t = Some LIdle ->
  (lowner s = None \/ lowner s = Some t) ->
  exists s', lrun debug s [LCallHolding t; LStep t; LStep t; LStep t] = Ok s' /\
    linside s' = linside s /\ lowner s' = lowner s /\ nth_error (lpcs s') t = Some LIdle /\
    exists b, nth_error (lresult s') t = Some (Some b) /\ (b = true <-> inside s t).
Proof. intros debug nt es s t H. apply holding_spec. eapply lrun_inv; [apply linit_inv|exact H]. Qed.

(** ... but a thread that asks while another is inside is stuck until the
    other leaves: no number of its own steps gives it an answer. *)
Theorem C38_holding_blocks_refuted : exists es s, lrun true (linit 2) es = Ok s /\
  inside s 0 /\ nth_error (lpcs s) 1 = Some LHoldLock /\
  forall n, lrun true s (repeat (LStep 1) n) = Ok s.
Proof.
  exists [LCallEnter 0; LStep 0; LCallHolding 1]%nat. eexists. split; [vm_compute; reflexivity|].
  split; [reflexivity|]. split; [reflexivity|]. intros n. induction n as [|n IH]; [reflexivity|].
  cbn [repeat lrun]. cbn [lstep obind]. exact IH.
Qed.

Example C38_example : exists s,
  lrun true (linit 2) [LCallEnter 0; LCallEnter 1; LStep 0; LStep 1]%nat = Ok s /\
  inside s 0 /\ nth_error (lpcs s) 0 = Some LIdle /\ nth_error (lpcs s) 1 = Some LEnter.
Proof. eexists. split; [vm_compute; reflexivity|]. repeat split. Qed.
Example C38_discipline_example :
  dsched true (linit 2) [LCallEnter 0; LCallEnter 1; LStep 0; LStep 1; LCallLeave 0; LStep 0; LStep 0; LStep 1]%nat.
Proof. repeat split; simpl; try discriminate; intros H; discriminate. Qed.

Print Assumptions C38_mutual_exclusion.
Print Assumptions C38_no_abort.
Print Assumptions C38_leave_admits_waiter.
Print Assumptions C38_probe.
Print Assumptions C38_holding_partial.
Print Assumptions C38_holding_blocks_refuted.
