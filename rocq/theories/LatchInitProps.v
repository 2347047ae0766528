(** C57: latches constructed in several threads. *)
From Verif Require Import Base RefModel RefProofs LatchProofs ArrayProofs LatchModel LatchInitModel.

(** Before the first latch is finished, when one thread makes it *)
Definition Warm (t : nat) (s : istate) : Prop :=
  (forall u p, u <> t -> nth_error (i_pcs s) u = Some p -> p = IIdle) /\
  match nth_error (i_pcs s) t with
  | None => i_made s = []
  | Some p =>
    (i_flag s = false /\ i_attr s = Raw /\ i_made s = [] /\ (p = IIdle \/ p = ICheck \/ p = IFlag)) \/
    (i_flag s = true /\ i_attr s = Raw /\ i_made s = [] /\ p = IAttr) \/
    (i_flag s = true /\ i_attr s = Default /\ i_made s = [] /\ p = IType) \/
    (i_flag s = true /\ i_attr s = ErrorCheck /\ Forall (eq ErrorCheck) (i_made s) /\ (p = IIdle \/ p = ICheck \/ p = IMake))
  end.
(** Afterwards *)
Definition Ready (s : istate) : Prop :=
  i_flag s = true /\ i_attr s = ErrorCheck /\ Forall (eq ErrorCheck) (i_made s) /\
  forall u p, nth_error (i_pcs s) u = Some p -> p = IIdle \/ p = ICheck \/ p = IMake.

Lemma nth_upd_or {A} (l : list A) t x u p : nth_error (upd l t x) u = Some p -> (u = t /\ p = x) \/ (u <> t /\ nth_error l u = Some p).
Proof.
  rewrite nth_upd. destruct (Nat.eqb_spec u t); [|intros H; right; auto]. destruct (t <? length l)%nat eqn:L; cbn [andb]; intros H.
  - left. split; [assumption|congruence].
  - subst. apply nth_lt in H. apply Nat.ltb_ge in L. lia.
Qed.

Lemma ready_step s e : Ready s -> exists s', istep s e = Ok s' /\ Ready s' /\ exists l, i_made s' = i_made s ++ l.
Proof.
  intros (F & A & M & P).
  assert (KEEP : Ready s /\ exists l, i_made s = i_made s ++ l) by (split; [exact (conj F (conj A (conj M P)))|exists []; rewrite app_nil_r; reflexivity]).
  assert (PU : forall t x, x = IIdle \/ x = ICheck \/ x = IMake -> forall u p, nth_error (upd (i_pcs s) t x) u = Some p -> p = IIdle \/ p = ICheck \/ p = IMake).
  { intros t x X u p H. apply nth_upd_or in H as [[_ ->]|[_ H]]; [exact X|eapply P; exact H]. }
  destruct e as [t|t]; cbn [istep]; destruct (nth_error (i_pcs s) t) as [p|] eqn:E; try (exists s; split; [reflexivity|exact KEEP]).
  - destruct (P _ _ E) as [->|[->| ->]]; try (exists s; split; [reflexivity|exact KEEP]).
    eexists. split; [reflexivity|]. split; [|exists []; rewrite app_nil_r; reflexivity]. split; [exact F|]. split; [exact A|]. split; [exact M|].
    cbn [at_pc i_pcs]. apply PU. auto.
  - destruct (P _ _ E) as [->|[->| ->]]; [exists s; split; [reflexivity|exact KEEP]| |].
    + rewrite F. eexists. split; [reflexivity|]. split; [|exists []; rewrite app_nil_r; reflexivity]. split; [exact F|]. split; [exact A|]. split; [exact M|].
      cbn [at_pc i_pcs]. apply PU. auto.
    + rewrite A. eexists. split; [reflexivity|]. split; [|eexists; reflexivity]. split; [exact F|]. split; [reflexivity|].
      split; [cbn [i_made]; apply Forall_app; split; [exact M|constructor; [reflexivity|constructor]]|]. cbn [i_pcs]. apply PU. auto.
Qed.
Lemma ready_run es : forall s, Ready s -> exists s', irun s es = Ok s' /\ Ready s' /\ exists l, i_made s' = i_made s ++ l.
Proof.
  induction es as [|e es IH]; intros s R; cbn [irun].
  - exists s. split; [reflexivity|]. split; [exact R|]. exists []. rewrite app_nil_r. reflexivity.
  - destruct (ready_step s e R) as (s1 & E1 & R1 & l1 & L1). rewrite E1. cbn [obind]. destruct (IH s1 R1) as (s2 & E2 & R2 & l2 & L2).
    exists s2. split; [exact E2|]. split; [exact R2|]. exists (l1 ++ l2). rewrite L2, L1, app_assoc. reflexivity.
Qed.
Lemma ready_no_race s : Ready s -> ~ irace s.
Proof. intros (_ & _ & _ & P) (t & u & p & q & _ & Ep & _ & C & _). destruct (P _ _ Ep) as [->|[->| ->]]; destruct C; discriminate. Qed.

Lemma warm_step t s e : Warm t s -> by_thread e = t -> exists s', istep s e = Ok s' /\ Warm t s'.
Proof.
  intros [O W] B.
  assert (OU : forall x u p, u <> t -> nth_error (upd (i_pcs s) t x) u = Some p -> p = IIdle).
  { intros x u p N H. rewrite nth_upd_ne in H by congruence. eapply O; eassumption. }
  assert (KEEP : Warm t s) by exact (conj O W).
  destruct e as [u|u]; cbn [by_thread] in B; subst u; cbn [istep]; destruct (nth_error (i_pcs s) t) as [p|] eqn:E; try (exists s; split; [reflexivity|exact KEEP]);
    assert (LT := nth_lt _ _ _ E);
    assert (NX : forall x, nth_error (upd (i_pcs s) t x) t = Some x) by (intros x; apply nth_upd_lt; exact LT).
  - destruct p; try (exists s; split; [reflexivity|exact KEEP]). eexists. split; [reflexivity|]. split; [exact (OU _)|]. cbn [at_pc i_pcs i_flag i_attr i_made]. rewrite NX.
    destruct W as [(A & B & C & _)|[(_ & _ & _ & X)|[(_ & _ & _ & X)|(A & B & C & _)]]]; try discriminate; [left|right; right; right]; auto 6.
  - destruct W as [(A & B & C & X)|[(A & B & C & ->)|[(A & B & C & ->)|(A & B & C & X)]]].
    + destruct X as [->|[->| ->]].
      * exists s; split; [reflexivity|exact KEEP].
      * rewrite A. eexists. split; [reflexivity|]. split; [exact (OU _)|]. cbn [at_pc i_pcs i_flag i_attr i_made]. rewrite NX. left. auto 6.
      * eexists. split; [reflexivity|]. split; [exact (OU _)|]. cbn [i_pcs i_flag i_attr i_made]. rewrite NX. right. left. auto.
    + rewrite B. eexists. split; [reflexivity|]. split; [exact (OU _)|]. cbn [i_pcs i_flag i_attr i_made]. rewrite NX. right. right. left. auto.
    + rewrite B. eexists. split; [reflexivity|]. split; [exact (OU _)|]. cbn [i_pcs i_flag i_attr i_made]. rewrite NX. right. right. right. rewrite C. auto 6.
    + destruct X as [->|[->| ->]].
      * exists s; split; [reflexivity|exact KEEP].
      * rewrite A. eexists. split; [reflexivity|]. split; [exact (OU _)|]. cbn [at_pc i_pcs i_flag i_attr i_made]. rewrite NX. right. right. right. auto 6.
      * rewrite B. eexists. split; [reflexivity|]. split; [exact (OU _)|]. cbn [i_pcs i_flag i_attr i_made]. rewrite NX. right. right. right.
        split; [exact A|]. split; [reflexivity|]. split; [apply Forall_app; split; [exact C|constructor; [reflexivity|constructor]]|auto].
Qed.
Lemma warm_run t es : forall s, Warm t s -> Forall (fun e => by_thread e = t) es -> exists s', irun s es = Ok s' /\ Warm t s'.
Proof.
  induction es as [|e es IH]; intros s W F; [exists s; auto|]. inversion F; subst. destruct (warm_step _ s e W eq_refl) as (s1 & E1 & W1).
  cbn [irun]. rewrite E1. cbn [obind]. apply IH; assumption.
Qed.
Lemma warm_init t nt : Warm t (iinit nt).
Proof.
  assert (P : forall u p, nth_error (i_pcs (iinit nt)) u = Some p -> p = IIdle) by (intros u p H; apply nth_error_In, repeat_spec in H; exact H).
  split; [intros u p _; apply P|]. destruct (nth_error (i_pcs (iinit nt)) t) as [p|] eqn:E; [|reflexivity]. apply P in E. left. cbn. auto.
Qed.
Lemma warm_ready t s : Warm t s -> i_made s <> [] -> Ready s.
Proof.
  intros [O W] M. destruct (nth_error (i_pcs s) t) as [p|] eqn:E; [|congruence].
  destruct W as [(_ & _ & C & _)|[(_ & _ & C & _)|[(_ & _ & C & _)|(A & B & C & X)]]]; try congruence.
  split; [exact A|]. split; [exact B|]. split; [exact C|]. intros u q H. destruct (Nat.eq_dec u t) as [->|N]; [|left; eapply O; eassumption].
  assert (q = p) by congruence. subst. exact X.
Qed.

(** One thread finishes a latch before any other starts one (say, main does
    before it creates threads).  Then, whatever the threads construct and however
    they interleave, nothing is undefined, no two threads race for the attributes,
    and every latch has an error-checking mutex, the one that C38 is about. *)
Theorem C57_first_alone_partial : forall nt t es1 es2 s1,
  Forall (fun e => by_thread e = t) es1 -> irun (iinit nt) es1 = Ok s1 -> i_made s1 <> [] ->
  exists s, irun (iinit nt) (es1 ++ es2) = Ok s /\ Forall (eq ErrorCheck) (i_made s) /\ ~ irace s /\
    (length (i_made s1) <= length (i_made s))%nat.
Proof.
  intros nt t es1 es2 s1 F E M. destruct (warm_run t es1 (iinit nt) (warm_init t nt) F) as (s & ES & W). assert (s = s1) by congruence. subst s.
  destruct (ready_run es2 s1 (warm_ready t s1 W M)) as (s2 & E2 & R2 & l & L). exists s2.
  assert (AP : forall a b s, irun s (a ++ b) = do s <- irun s a; irun s b).
  { clear. induction a as [|e a IH]; intros b s; [reflexivity|]. cbn [app irun]. destruct (istep s e); cbn [obind]; [apply IH|reflexivity..]. }
  rewrite AP, E. cbn [obind]. split; [exact E2|]. split; [apply R2|]. split; [apply ready_no_race; exact R2|]. rewrite L, app_length. lia.
Qed.
(** A single thread makes as many as it likes, and each construction takes at
    most five steps. *)
Theorem C57_one_thread : forall nt t es, Forall (fun e => by_thread e = t) es ->
  exists s, irun (iinit nt) es = Ok s /\ Forall (eq ErrorCheck) (i_made s) /\ ~ irace s /\
  (nth_error (i_pcs s) t = Some IIdle -> exists s', irun s (ICall t :: repeat (IStep t) 5) = Ok s' /\
     i_made s' = i_made s ++ [ErrorCheck] /\ nth_error (i_pcs s') t = Some IIdle).
Proof.
  intros nt t es F. destruct (warm_run t es (iinit nt) (warm_init t nt) F) as (s & ES & W). exists s. split; [exact ES|]. destruct W as [O W].
  split; [|split].
  - destruct (nth_error (i_pcs s) t) as [p|] eqn:E; [|rewrite W; constructor].
    destruct W as [(_ & _ & C & _)|[(_ & _ & C & _)|[(_ & _ & C & _)|(_ & _ & C & _)]]]; rewrite ?C; try constructor; exact C.
  - intros (a & b & p & q & N & Ea & Eb & C & D).
    destruct (Nat.eq_dec a t) as [->|NA]; [|rewrite (O _ _ NA Ea) in C; destruct C; discriminate].
    destruct (Nat.eq_dec b t) as [->|NB]; [congruence|]. rewrite (O _ _ NB Eb) in D. destruct D as [[D|D]|D]; discriminate.
  - intros E. rewrite E in W. assert (LT := nth_lt _ _ _ E). destruct s as [f a m pcs]. cbn [i_flag i_attr i_made i_pcs] in *.
    assert (NX : forall (l : list ipc) x, length l = length pcs -> nth_error (upd l t x) t = Some x) by (intros l x H; apply nth_upd_lt; lia).
    destruct W as [(A & B & C & _)|[(_ & _ & _ & X)|[(_ & _ & _ & X)|(A & B & C & _)]]]; try discriminate; subst.
    + cbn [irun repeat istep i_pcs]. rewrite E. cbn [obind at_pc i_pcs i_flag i_attr i_made istep].
      repeat (rewrite NX by (rewrite ?upd_length; reflexivity); cbn [obind at_pc i_pcs i_flag i_attr i_made istep]). eexists. split; [reflexivity|]. cbn [i_made i_pcs]. split; [reflexivity|].
      apply NX. rewrite ?upd_length. reflexivity.
    + cbn [irun repeat istep i_pcs]. rewrite E. cbn [obind at_pc i_pcs i_flag i_attr i_made istep].
      repeat (rewrite NX by (rewrite ?upd_length; reflexivity); cbn [obind at_pc i_pcs i_flag i_attr i_made istep]). eexists. split; [reflexivity|]. cbn [i_made i_pcs]. split; [reflexivity|].
      apply NX. rewrite ?upd_length. reflexivity.
Qed.

(** Two threads construct the first latches at the same time: the flag is set
    before the attributes are ready, and reading it and setting it are two steps.
    The second thread makes its latch with attributes that are not initialised;
    both initialise them; or the second makes a latch whose mutex is not
    error-checking. *)
Theorem C57_first_together_refuted :
  irun (iinit 2) [ICall 0; ICall 1; IStep 0; IStep 0; IStep 1; IStep 1]%nat = UB /\
  irun (iinit 2) [ICall 0; ICall 1; IStep 0; IStep 1; IStep 0; IStep 0; IStep 1; IStep 1]%nat = UB /\
  exists s, irun (iinit 2) [ICall 0; ICall 1; IStep 0; IStep 0; IStep 0; IStep 1; IStep 1]%nat = Ok s /\ i_made s = [Default].
Proof. split; [vm_compute; reflexivity|]. split; [vm_compute; reflexivity|]. eexists. split; vm_compute; reflexivity. Qed.
(** A latch made that way can be entered but never left (debug build: leave
    locks it once more to see that it is held): the thread waits for itself, and
    every other thread that enters waits for ever. *)
Theorem C57_default_latch_refuted : exists s, drun (linit 2) [LCallEnter 0; LStep 0; LCallLeave 0]%nat = Ok s /\
  inside s 0 /\ nth_error (lpcs s) 0 = Some LLeaveChk /\
  forall es s', Forall (fun e => e = LStep 0 \/ e = LCallEnter 1 \/ e = LStep 1)%nat es -> drun s es = Ok s' ->
    lowner s' = Some 0%nat /\ nth_error (lpcs s') 0 = Some LLeaveChk /\ ~ inside s' 1.
Proof.
  eexists. split; [vm_compute; reflexivity|]. split; [reflexivity|]. split; [reflexivity|].
  set (s0 := {| lowner := _; lpcs := _; linside := _; lresult := _ |}).
  assert (G : forall es s s', (exists p, (p = LIdle \/ p = LEnter) /\ lpcs s = [LLeaveChk; p]) -> lowner s = Some 0%nat -> linside s = [true; false] ->
    Forall (fun e => e = LStep 0 \/ e = LCallEnter 1 \/ e = LStep 1)%nat es -> drun s es = Ok s' ->
    lowner s' = Some 0%nat /\ nth_error (lpcs s') 0 = Some LLeaveChk /\ ~ inside s' 1).
  { induction es as [|e es IH]; intros s s' (p & P & L) O I F R.
    - assert (s' = s) by (cbn in R; congruence). subst. unfold inside. rewrite L, O, I. split; [reflexivity|]. split; [reflexivity|]. discriminate.
    - inversion F as [|? ? F1 F2]; subst. cbn [drun] in R. destruct s as [ow pcs ins res]. cbn [lpcs lowner linside] in *. subst.
      destruct F1 as [->|[->| ->]]; destruct P as [->| ->]; cbn in R; (eapply IH; [| | |exact F2|exact R]; cbn; eauto). }
  intros es s'. apply G; [exists LIdle|..]; auto.
Qed.

(** Main makes one latch; then two threads make one each at the same time. *)
Example C57_example : exists s1 s,
  irun (iinit 3) (ICall 0 :: repeat (IStep 0) 5)%nat = Ok s1 /\ i_made s1 = [ErrorCheck] /\
  irun (iinit 3) ((ICall 0 :: repeat (IStep 0) 5) ++ [ICall 1; ICall 2; IStep 2; IStep 1; IStep 1; IStep 2])%nat = Ok s /\
  i_made s = [ErrorCheck; ErrorCheck; ErrorCheck].
Proof. do 2 eexists. repeat (split; [vm_compute; reflexivity|]). vm_compute. reflexivity. Qed.
Example C57_race_example : exists s,
  irun (iinit 2) [ICall 0; ICall 1; IStep 0; IStep 0; IStep 1]%nat = Ok s /\ irace s.
Proof.
  eexists. split; [vm_compute; reflexivity|]. exists 0%nat, 1%nat, IAttr, IMake. split; [discriminate|].
  split; [reflexivity|]. split; [reflexivity|]. split; [left; reflexivity|right; reflexivity].
Qed.

Print Assumptions C57_first_alone_partial.
Print Assumptions C57_one_thread.
Print Assumptions C57_first_together_refuted.
Print Assumptions C57_default_latch_refuted.
