(** C64: the latch without pthreads. *)
From Verif Require Import Base SpinModel.

(** Thread ids are not 0, and different threads have different ids. *)
Definition ids (id : nat -> Z) : Prop := (forall t, id t <> 0) /\ (forall t u, id t = id u -> t = u).
Definition no_enter (e : sevent) : Prop := match e with SEnter _ => False | _ => True end.

Lemma put_same {A} (f : nat -> A) t x : put f t x t = x.
Proof. unfold put. rewrite Nat.eqb_refl. reflexivity. Qed.
Lemma put_other {A} (f : nat -> A) t x u : u <> t -> put f t x u = f u.
Proof. intros H. unfold put. destruct (Nat.eqb_spec u t); [contradiction|reflexivity]. Qed.

Definition SInv (id : nat -> Z) (s : sstate) : Prop :=
  (forall t, s_in s t = true <-> s_mutex s = id t) /\ (forall t, s_pc s t = SIdle \/ s_pc s t = SUnlatch) /\
  (s_mutex s = 0 \/ exists t, s_mutex s = id t).

Lemma sinit_inv id : ids id -> SInv id sinit.
Proof. intros [H _]. split; [|cbn; auto]. intros t. cbn. split; [discriminate|]. intros E. destruct (H t). auto. Qed.
Lemma sstep_inv id debug s e s' : ids id -> no_enter e -> SInv id s -> sstep id debug s e = Ok s' -> SInv id s'.
Proof.
  intros [Z0 J] NE (I & P & O) H.
  assert (W : forall t p, (p = SIdle \/ p = SUnlatch) -> forall u, put (s_pc s) t p u = SIdle \/ put (s_pc s) t p u = SUnlatch).
  { intros t p Hp u. unfold put. destruct (Nat.eqb u t); auto. }
  destruct e as [t|t|t|t|t]; cbn in NE; try contradiction; cbn [sstep] in H.
  - destruct (match s_pc s t with SIdle => true | _ => false end); [|assert (s' = s) by congruence; subst; split; auto].
    unfold probe, cas in H. destruct (Z.eqb_spec (s_mutex s) 0) as [E|E]; match type of H with Ok ?x = _ => assert (s' = x) by congruence end; subst s'; unfold SInv; cbn; (split; [intros u|split; [exact P|first [exact O|right; exists t; reflexivity]]]).
    + unfold put. destruct (Nat.eqb_spec u t) as [->|N]; [split; auto|].
      split; intros X; [apply I in X; destruct (Z0 u); congruence|]. destruct N. auto.
    + apply I.
  - destruct (match s_pc s t with SIdle => true | _ => false end); assert (s_mutex s' = s_mutex s /\ s_in s' = s_in s /\ s_pc s' = s_pc s) as (A & B & C) by (split; [|split]; (match type of H with Ok ?x = _ => assert (s' = x) by congruence end; subst s'; reflexivity));
      unfold SInv; rewrite A, B, C; auto.
  - destruct (match s_pc s t with SIdle => true | _ => false end); match type of H with Ok ?x = _ => assert (s' = x) by congruence end; subst s'; unfold SInv; cbn; (split; [exact I|]); cbn; auto.
  - destruct (P t) as [E|E]; rewrite E in H; [assert (s' = s) by congruence; subst; split; auto|].
    unfold cas in H. destruct (Z.eqb_spec (s_mutex s) (id t)) as [M|M].
    + rewrite andb_false_r in H. match type of H with Ok ?x = _ => assert (s' = x) by congruence end; subst s'. unfold SInv; cbn. split; [|auto].
      intros u. unfold put. destruct (Nat.eqb_spec u t) as [->|N]; [split; [discriminate|]; intros X; destruct (Z0 t); auto|].
      split; intros X; [apply I in X; destruct N; apply J; congruence|destruct (Z0 u); auto].
    + destruct (debug && negb false); [discriminate|]. match type of H with Ok ?x = _ => assert (s' = x) by congruence end; subst s'. unfold SInv; cbn. split; [|auto].
      intros u. unfold put. destruct (Nat.eqb_spec u t) as [->|N]; [|apply I]. split; [discriminate|congruence].
Qed.
Lemma srun_inv id debug es : ids id -> forall s s', Forall no_enter es -> SInv id s -> srun id debug s es = Ok s' -> SInv id s'.
Proof.
  intros HI. induction es as [|e es IH]; intros s s' F I H; cbn [srun] in H; [congruence|]. inversion F; subst.
  apply obind_ok in H as (s1 & E & H). eapply IH; [assumption|eapply sstep_inv; eauto|exact H].
Qed.

(** Threads that use probe(), holding() and leave() only (in any way): never two
    inside, probe() gains the latch exactly when nobody is inside, holding()
    tells who is inside, without waiting, and leave() from inside frees it. *)
Theorem C64_probe_partial : forall id debug es s, ids id -> Forall no_enter es -> srun id debug sinit es = Ok s ->
  (forall t u, s_in s t = true -> s_in s u = true -> t = u) /\
  forall t, s_pc s t = SIdle ->
  (exists s', sstep id debug s (SProbe t) = Ok s' /\
     ((s_result s' t = Some true /\ s_in s' t = true /\ forall u, s_in s u = false) \/
      (s_result s' t = Some false /\ (exists u, s_in s u = true) /\ s_in s' = s_in s))) /\
  (exists s', sstep id debug s (SHolding t) = Ok s' /\ s_result s' t = Some (s_in s t) /\ s_in s' = s_in s) /\
  (s_in s t = true -> exists s', srun id debug s [SLeave t; SStep t] = Ok s' /\ s_pc s' t = SIdle /\ forall u, s_in s' u = false).
Proof.
  intros id debug es s HI F H. pose proof (srun_inv id debug es HI _ _ F (sinit_inv id HI) H) as (I & P & O). destruct HI as [Z0 J].
  assert (FR : s_mutex s = 0 -> forall u, s_in s u = false).
  { intros E u. destruct (s_in s u) eqn:X; [|reflexivity]. apply I in X. destruct (Z0 u). congruence. }
  split; [|intros t PT; split; [|split]].
  - intros t u A B. apply I in A, B. apply J. congruence.
  - cbn [sstep]. rewrite PT. unfold probe, cas. destruct (Z.eqb_spec (s_mutex s) 0) as [E|E]; eexists; (split; [reflexivity|]); cbn; rewrite !put_same.
    + left. auto.
    + right. split; [reflexivity|]. split; [|reflexivity]. destruct O as [O|[u O]]; [contradiction|]. exists u. apply I, O.
  - cbn [sstep]. rewrite PT. eexists. split; [reflexivity|]. cbn. rewrite put_same. split; [|reflexivity]. f_equal.
    destruct (s_in s t) eqn:X; [apply Z.eqb_eq, I, X|]. apply Z.eqb_neq. intros E. apply I in E. congruence.
  - intros X. apply I in X. cbn [srun sstep]. rewrite PT. cbn [obind s_pc s_mutex]. rewrite put_same. unfold cas. rewrite X, Z.eqb_refl, andb_false_r. cbn [obind].
    eexists. split; [reflexivity|]. cbn. rewrite put_same. split; [reflexivity|]. intros u. unfold put. destruct (Nat.eqb_spec u t) as [->|N]; [reflexivity|].
    destruct (s_in s u) eqn:Y; [|reflexivity]. apply I in Y. destruct N. apply J. congruence.
Qed.
Example C64_probe_example : exists s, srun (fun t => Z.of_nat t + 4) true sinit [SProbe 0; SProbe 1; SHolding 0; SHolding 1; SLeave 0; SStep 0; SProbe 1]%nat = Ok s /\ s_in s 1%nat = true /\ s_result s 0%nat = Some true.
Proof. eexists. split; [reflexivity|]. split; reflexivity. Qed.

Lemma leave_aborts id s t : s_pc s t = SIdle -> s_mutex s <> id t -> srun id true s [SLeave t; SStep t] = Abort.
Proof.
  intros P N. cbn [srun sstep]. rewrite P. cbn [obind s_pc s_mutex]. rewrite put_same. unfold cas. destruct (Z.eqb_spec (s_mutex s) (id t)); [contradiction|]. reflexivity.
Qed.

(** enter() tests the result of probe() the wrong way round: whatever the state,
    a thread that finds the latch taken goes straight in, and fails the
    assertion of leave(), while one that finds it free takes it and goes round
    once more. *)
Theorem C64_enter_refuted :
  (forall id debug s t, s_pc s t = SIdle -> s_mutex s <> 0 ->
     exists s', srun id debug s [SEnter t; SStep t] = Ok s' /\ s_pc s' t = SIdle /\ s_in s' t = true /\
       s_mutex s' = s_mutex s /\ (forall u, u <> t -> s_in s' u = s_in s u) /\
       (s_mutex s <> id t -> srun id true s' [SLeave t; SStep t] = Abort)) /\
  (forall id debug s t, s_pc s t = SIdle -> s_mutex s = 0 -> id t <> 0 -> id t <> 1 ->
     exists s', srun id debug s [SEnter t; SStep t; SStep t; SStep t] = Ok s' /\ s_pc s' t = SIdle /\ s_in s' t = true /\ s_mutex s' = id t) /\
  (exists s, srun (fun t => Z.of_nat t + 4) true sinit [SEnter 0; SStep 0; SStep 0; SStep 0; SEnter 1; SStep 1]%nat = Ok s /\
     s_in s 0%nat = true /\ s_in s 1%nat = true).
Proof.
  split; [|split].
  - intros id debug s t P M.
    set (s' := {| s_mutex := s_mutex s; s_pc := put (put (s_pc s) t SLatch) t SIdle; s_in := put (s_in s) t true; s_result := s_result s |}).
    assert (E : srun id debug s [SEnter t; SStep t] = Ok s').
    { cbn [srun sstep]. rewrite P. cbn [obind s_pc s_mutex]. rewrite put_same. unfold probe, cas. destruct (Z.eqb_spec (s_mutex s) 0) as [E|E]; [contradiction|]. reflexivity. }
    exists s'. split; [exact E|]. split; [apply put_same|]. split; [apply put_same|]. split; [reflexivity|]. split.
    + intros u N. apply put_other, N.
    + intros N. apply leave_aborts; [apply put_same|exact N].
  - intros id debug s t P M N0 N1. cbn [srun sstep]. rewrite P. cbn [obind s_pc s_mutex]. rewrite put_same. unfold probe, cas. rewrite M, Z.eqb_refl.
    destruct (Z.eqb_spec 1 (id t)) as [E|E]; [congruence|]. rewrite andb_false_r. cbn [obind s_pc s_mutex]. rewrite put_same. cbn [obind s_pc s_mutex]. rewrite put_same.
    destruct (Z.eqb_spec (id t) 0) as [E0|E0]; [contradiction|]. cbn [obind]. eexists. split; [reflexivity|]. cbn. rewrite !put_same. auto.
  - eexists. split; [reflexivity|]. split; reflexivity.
Qed.

Print Assumptions C64_probe_partial.
Print Assumptions C64_enter_refuted.
