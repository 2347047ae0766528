(** C61: Thread::yield sleeps as long as it was asked to. *)
From Verif Require Import Base YieldModel.

(** POSIX on nanosleep, for a request: a completed sleep is not shorter than
    asked; an interrupted one leaves a proper time that makes up for what is
    missing. *)
Definition ns (t : timespec) : Z := tv_sec t * 1000000000 + tv_nsec t.
Definition proper (t : timespec) : Prop := 0 <= tv_sec t /\ 0 <= tv_nsec t < 1000000000.
Definition posix (f : timespec -> nap) : Prop := forall r, proper r ->
  match f r with
  | Slept e => ns r <= e
  | Interrupted e r' => 0 <= e /\ proper r' /\ ns r - e <= ns r'
  end.
(** A system that is not late: it sleeps as long as it is asked to, and says
    exactly what is left when a signal comes before that. *)
Definition on_time (f : timespec -> nap) : Prop := forall r, proper r ->
  match f r with
  | Slept e => e = ns r
  | Interrupted e r' => 0 <= e <= ns r /\ proper r' /\ ns r' = ns r - e
  end.

Lemma request_ok ms : 0 <= ms < 18446744073709551616 ->
  valid (request ms) = true /\ ns (request ms) = ms * 1000000.
Proof.
  intros H. unfold valid, ns, request, s64, u64. cbn [tv_sec tv_nsec].
  rewrite (Z.mod_small ms) by lia.
  assert (0 <= ms / 1000 < 18446744073709552) by (split; [apply Z.div_pos; lia|apply Z.div_lt_upper_bound; lia]).
  assert (0 <= ms mod 1000 < 1000) by (apply Z.mod_pos_bound; lia).
  rewrite (Z.mod_small (ms / 1000)), (Z.mod_small (ms mod 1000 * 1000000)) by lia.
  rewrite (Z.mod_small (ms mod 1000 * 1000000)) by lia.
  replace (ms / 1000 <? 9223372036854775808) with true by (symmetry; apply Z.ltb_lt; lia).
  replace (ms mod 1000 * 1000000 <? 9223372036854775808) with true by (symmetry; apply Z.ltb_lt; lia).
  split; [lia|]. pose proof (Z.div_mod ms 1000). lia.
Qed.

Lemma valid_ok r : valid r = true <-> 0 <= tv_sec r /\ 0 <= tv_nsec r < 1000000000.
Proof. unfold valid. lia. Qed.

Lemma sleep_enough env : forall r t, valid r = true -> Forall posix env -> sleep_loop r env = Some t -> ns r <= t.
Proof.
  induction env as [|f env IH]; intros r t V P H; cbn [sleep_loop] in H; rewrite V in H; [discriminate|].
  inversion P as [|? ? P1 P2]; subst. specialize (P1 r (proj1 (valid_ok r) V)).
  destruct (f r) as [e|e r']; [injection H as <-; exact P1|]. destruct P1 as (Q0 & Q1 & Q2).
  destruct (sleep_loop r' env) as [u|] eqn:E; [|discriminate]. injection H as <-.
  specialize (IH r' u (proj2 (valid_ok r') Q1) P2 E). lia.
Qed.
Lemma sleep_exact env : forall r t, valid r = true -> Forall on_time env -> sleep_loop r env = Some t -> t = ns r.
Proof.
  induction env as [|f env IH]; intros r t V P H; cbn [sleep_loop] in H; rewrite V in H; [discriminate|].
  inversion P as [|? ? P1 P2]; subst. specialize (P1 r (proj1 (valid_ok r) V)).
  destruct (f r) as [e|e r']; [injection H as <-; exact P1|]. destruct P1 as (Q0 & Q1 & Q2).
  destruct (sleep_loop r' env) as [u|] eqn:E; [|discriminate]. injection H as <-.
  specialize (IH r' u (proj2 (valid_ok r') Q1) P2 E). lia.
Qed.

(** yield(ms) does not return before ms milliseconds have passed, however many
    signals interrupt it, for every ms of type unsigned long. *)
Theorem C61_sleeps_long_enough : forall ms env t,
  0 <= ms < 2^64 -> Forall posix env -> yield ms env = Some t -> ms * 1000000 <= t.
Proof.
  intros ms env t H P Y. destruct (request_ok ms H) as (V & N). rewrite <- N. exact (sleep_enough env _ t V P Y).
Qed.

(** Signals do not make it sleep longer: if the system is never late it is ms
    milliseconds exactly. *)
Theorem C61_sleeps_no_longer : forall ms env t,
  0 <= ms < 2^64 -> Forall on_time env -> yield ms env = Some t -> t = ms * 1000000.
Proof.
  intros ms env t H P Y. destruct (request_ok ms H) as (V & N). rewrite <- N. exact (sleep_exact env _ t V P Y).
Qed.

(** It returns from the first sleep that is not interrupted, and not before. *)
Theorem C61_returns : forall ms naps f env,
  0 <= ms < 2^64 -> Forall posix naps ->
  (forall g r, In g naps -> exists d r', g r = Interrupted d r') -> (forall r, exists e, f r = Slept e) ->
  yield ms naps = None /\ exists t, yield ms (naps ++ f :: env) = Some t.
Proof.
  intros ms naps f env H. destruct (request_ok ms H) as (V & _). unfold yield. revert V. generalize (request ms) as r.
  induction naps as [|n naps IH]; intros r V P A F.
  - cbn [app sleep_loop]. rewrite V. destruct (F r) as (e & ->). eauto.
  - inversion P as [|? ? P1 P2]; subst. specialize (P1 r (proj1 (valid_ok r) V)).
    destruct (A n r (or_introl eq_refl)) as (d & r' & E). rewrite E in P1. destruct P1 as (Q0 & Q1 & Q2).
    destruct (IH r' (proj2 (valid_ok r') Q1) P2 (fun g r Hg => A g r (or_intror Hg)) F) as (N & t & T).
    cbn [app sleep_loop]. rewrite V, E, N, T. eauto.
Qed.

(** yield(2500) with two signals, one second and 0.6 s into the sleeps. *)
Definition signal_after (d : Z) (r : timespec) : nap :=
  if d <=? ns r then Interrupted d {| tv_sec := (ns r - d) / 1000000000; tv_nsec := (ns r - d) mod 1000000000 |} else Slept (ns r).
Lemma signal_on_time d : 0 <= d -> on_time (signal_after d).
Proof.
  intros D r (P1 & P2). unfold signal_after. destruct (Z.leb_spec d (ns r)); [|reflexivity].
  assert (X := Z.div_mod (ns r - d) 1000000000 ltac:(lia)). assert (Y := Z.mod_pos_bound (ns r - d) 1000000000 ltac:(lia)).
  assert (W : 0 <= (ns r - d) / 1000000000) by (apply Z.div_pos; lia).
  split; [lia|]. split; [unfold proper; cbn [tv_sec tv_nsec]; lia|].
  transitivity ((ns r - d) / 1000000000 * 1000000000 + (ns r - d) mod 1000000000); [reflexivity|lia].
Qed.
Example C61_example :
  Forall on_time [signal_after 1000000000; signal_after 600000000; fun r => Slept (ns r)] /\
  yield 2500 [signal_after 1000000000; signal_after 600000000; fun r => Slept (ns r)] = Some 2500000000 /\
  yield 2500 [signal_after 1000000000; signal_after 600000000] = None.
Proof.
  split; [|split; vm_compute; reflexivity].
  repeat constructor; try (apply signal_on_time; lia).
Qed.

Print Assumptions C61_sleeps_long_enough.
Print Assumptions C61_sleeps_no_longer.
Print Assumptions C61_returns.
