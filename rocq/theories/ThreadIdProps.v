(** C60: threads are told apart when the system gives thread ids again. *)
From Verif Require Import Base ThreadModel ThreadIdModel ThreadIdSpec ThreadIdProofs.

(** Membership in lists of numbers. *)
Ltac pick :=
  repeat match goal with
         | |- _ /\ _ => split
         | |- True => exact Logic.I
         | |- ~ _ => intro
         | |- _ -> _ => intro
         | |- forall _, _ => intro
         | H : _ \/ _ |- _ => destruct H
         | H : False |- _ => destruct H
         | H : ?a = ?a |- _ => clear H
         | H : _ = _ |- _ => discriminate H
         | H : _ = _ |- _ => subst
         | |- _ = _ \/ _ => first [left; reflexivity | right]
         | |- _ <> _ => discriminate
         end.

Lemma orderly_inv es s rs : irun iinit es = Some (Ok (s, rs)) -> each orderly nothing es rs -> Inv (sees nothing es rs) s.
Proof. intros H E. exact (irun_inv es nothing iinit s rs inv_init H E). Qed.

Lemma in_skip {A} (z : A) n l : In z (skipn n l) -> In z l.
Proof. intros H. rewrite <- (firstn_skipn n l). apply in_or_app. right. exact H. Qed.
Lemma in_first {A} (z : A) n l : In z (firstn n l) -> In z l.
Proof. intros H. rewrite <- (firstn_skipn n l). apply in_or_app. left. exact H. Qed.

(** After any orderly history, whatever ids the system gave: Thread::current()
    called in thread [k] returns the object that was resumed [k]-th, as long as
    its run() has not returned. *)
Theorem C60_current_partial : forall es s rs k y,
  irun iinit es = Some (Ok (s, rs)) -> each orderly nothing es rs ->
  nth_error (ioss s) k = Some y -> k_phase y <> Finished ->
  icurrent s k = nth_error (runs (sees nothing es rs)) k /\ icurrent s k <> None.
Proof.
  intros es s rs k y H E K P. assert (I := orderly_inv es s rs H E). set (g := sees nothing es rs) in *.
  assert (Y := nth_error_In _ _ K). destruct (i_os g s I y Y) as (Oj & Op & O0).
  destruct (i_sub g s I) as (S1 & S2 & S3 & S4 & S5 & S6).
  assert (NR : ~ In (k_obj y) (ran g)) by tauto.
  assert (RK : nth_error (runs g) k = Some (k_obj y)) by (rewrite <- (i_runs g s I); apply map_nth_error; exact K).
  assert (RI : In (k_obj y) (runs g)) by (eapply nth_error_In; exact RK).
  assert (NG : ~ In (k_obj y) (gone g)) by auto.
  destruct (iobjs s (k_obj y)) as [x|] eqn:X; [|exfalso; apply (proj1 (i_made g s I (k_obj y))); auto].
  assert (Xd : o_dead x = false) by (destruct (o_dead x) eqn:D; [apply (i_dead g s I _ _ X) in D; contradiction|reflexivity]).
  unfold icurrent. rewrite K, RK, <- (i_id g s I y x Y X Xd).
  destruct (inv_find g s (k_obj y) x I X RI NG) as [[-> _]|[_ N]]; [split; congruence|].
  exfalso. apply N. split; [exact RI|]. split; [|split; [|exact NG]]; intros Q; apply NR; auto.
Qed.

(** joinAny, called when at least two threads are pending, or woken: it returns
    a pending thread whose run() has returned if there is one, and waits if
    there is none.  It never spins and never returns null. *)
Theorem C60_join_any_partial : forall es s rs first s' r,
  irun iinit es = Some (Ok (s, rs)) -> each orderly nothing es rs ->
  let g := sees nothing es rs in
  (first = true -> exists a b, a <> b /\ pending g a /\ pending g b) ->
  istep s (EJoinAny first) = Some (Ok (s', r)) ->
  (exists o, r = IGot o /\ pending g o /\ In o (ran g)) \/
  ((forall o, pending g o -> ~ In o (ran g)) /\ r = IWait /\ s' = s).
Proof.
  intros es s rs first s' r H E g L J. assert (I := orderly_inv es s rs H E). fold g in I.
  assert (PM : forall o, pending g o -> exists i, In (i, o) (imap s)).
  { intros o P. destruct (i_sub g s I) as (S1 & S2 & S3 & S4 & S5 & S6).
    destruct (iobjs s o) as [x|] eqn:X; [|exfalso; apply (proj1 (i_made g s I o)); [apply S3, P|exact X]].
    exists (o_id x). apply (i_map g s I). eauto. }
  assert (PE : forall i o, In (i, o) (imap s) -> (iended s o = true <-> In o (ran g))).
  { intros i o M. apply (i_map g s I) in M as (_ & x & X & _). unfold iended. rewrite X.
    rewrite <- (i_state g s I o x X). destruct (o_state x); split; congruence. }
  cbn [istep] in J. unfold ijoin_any in J.
  replace (first && (length (imap s) <=? 1)%nat) with false in J.
  2:{ destruct first; [|reflexivity]. destruct (L eq_refl) as (a & b & N & Pa & Pb).
      destruct (PM a Pa) as (i & Ma). destruct (PM b Pb) as (j & Mb).
      destruct (imap s) as [|p [|q m]]; [destruct Ma| |reflexivity].
      destruct Ma as [->|[]], Mb as [Mb|[]]. congruence. }
  destruct (Z.eqb_spec (icnt s) 0) as [C|C].
  - right. injection J as <- <-. split; [|auto]. intros o P R. destruct (PM o P) as (i & M).
    rewrite (i_cnt g s I) in C. unfold ecount in C. apply (PE i o M) in R.
    assert (Q : In (i, o) (filter (fun e => iended s (snd e)) (imap s))) by (apply filter_In; auto).
    destruct (filter _ (imap s)); [destruct Q|cbn in C; lia].
  - left. destruct (List.find _ (imap s)) as [[i o]|] eqn:F.
    + apply find_some in F as (F1 & F2). cbn [fst snd] in *. exists o.
      split; [congruence|]. split; [apply (i_map g s I) in F1; apply F1|apply (PE i o F1); exact F2].
    + exfalso. apply C. rewrite (i_cnt g s I). unfold ecount.
      destruct (filter (fun e => iended s (snd e)) (imap s)) as [|e l] eqn:Q; [reflexivity|].
      assert (Q1 : In e (filter (fun e => iended s (snd e)) (imap s))) by (rewrite Q; left; reflexivity).
      apply filter_In in Q1 as (Q1 & Q2). rewrite (find_none _ _ F e Q1) in Q2. discriminate.
Qed.

(** join() waits for the thread of its own object: when the pthread_join has
    returned that run() has returned, and when run() has returned it returns. *)
Theorem C60_join_waits_partial : forall es s rs o,
  irun iinit es = Some (Ok (s, rs)) -> each orderly nothing es rs -> orderly (sees nothing es rs) (EPJoin o) ->
  (In o (ran (sees nothing es rs)) <-> exists p, istep s (EPJoin o) = Some (Ok p)).
Proof.
  intros es s rs o H E D. assert (I := orderly_inv es s rs H E). set (g := sees nothing es rs) in *.
  destruct D as (D & _). destruct (i_sub g s I) as (S1 & S2 & S3 & S4 & S5 & S6).
  destruct (iobjs s o) as [x|] eqn:X; [|exfalso; apply (proj1 (i_made g s I o)); [apply S3, D|exact X]].
  destruct (pjoin_own g s o x I D X) as (X0 & k & y & W & K & Ky & Kj & Xd).
  cbn [istep]. replace (live s o) with (Ok x) by (symmetry; apply live_ok; auto).
  apply Nat.eqb_neq in X0. rewrite X0, W. destruct (i_os g s I y (nth_error_In _ _ K)) as (_ & Op & _). rewrite Ky in Op.
  rewrite <- Op. destruct (k_phase y); split; try discriminate; eauto; intros (p & Q); discriminate.
Qed.

(** No step of an orderly history fails an assertion or is undefined. *)
Theorem C60_no_error_partial : forall es s rs e,
  irun iinit es = Some (Ok (s, rs)) -> each orderly nothing es rs -> orderly (sees nothing es rs) e ->
  istep s e <> Some Abort /\ istep s e <> Some UB.
Proof.
  intros es s rs e H E D. assert (I := orderly_inv es s rs H E). set (g := sees nothing es rs) in *.
  destruct D as (D & _). destruct (i_sub g s I) as (S1 & S2 & S3 & S4 & S5 & S6).
  assert (LV : forall o, In o (made g) -> ~ In o (gone g) -> exists x, iobjs s o = Some x /\ live s o = Ok x).
  { intros o M G. destruct (iobjs s o) as [x|] eqn:X; [|exfalso; apply (proj1 (i_made g s I o) M X)].
    exists x. split; [reflexivity|]. apply live_ok. split; [exact X|].
    destruct (o_dead x) eqn:Q; [apply (i_dead g s I _ _ X) in Q; contradiction|reflexivity]. }
  assert (OS : forall k y, nth_error (ioss s) k = Some y -> k_phase y <> Finished ->
             exists x, live s (k_obj y) = Ok x /\ Nat.eqb (o_id x) 0 = false).
  { intros k y K P. assert (Y := nth_error_In _ _ K). destruct (i_os g s I y Y) as (Oj & Op & O0).
    assert (RI : In (k_obj y) (runs g)) by (rewrite <- (i_runs g s I); apply List.in_map; exact Y).
    destruct (LV (k_obj y)) as (x & X & L); [auto|intros G; apply P, Op, S1, G|].
    exists x. split; [exact L|]. apply live_ok in L as (_ & Xd). apply Nat.eqb_neq. rewrite (i_id g s I y x Y X Xd). exact O0. }
  destruct e as [o st j|o i|k|k|k|first|o|o|o|o j]; cbn [istep].
  - destruct (iobjs s o); split; discriminate.
  - destruct (may_give s i); [|split; discriminate]. destruct D as (D1 & D2).
    destruct (LV o D1) as (x & _ & ->); [intros G; apply D2, S2, S1, G|]. split; discriminate.
  - destruct (nth_error (ioss s) k) as [y|] eqn:K; [|split; discriminate]. destruct (k_phase y) eqn:P; try (split; discriminate).
    destruct (OS k y K) as (x & -> & X0); [congruence|]. cbn [obind]. rewrite X0. split; discriminate.
  - destruct D.
  - destruct (nth_error (ioss s) k) as [y|] eqn:K; [|split; discriminate]. destruct (k_phase y) eqn:P; try (split; discriminate).
    destruct (OS k y K) as (x & -> & X0); [congruence|]. split; discriminate.
  - split; discriminate.
  - destruct D as (D1 & D2 & D3). destruct (LV o (S3 o D1) D3) as (x & X & ->).
    destruct (pjoin_own g s o x I (conj D1 (conj D2 D3)) X) as (X0 & k & y & -> & _). apply Nat.eqb_neq in X0. rewrite X0.
    destruct (k_phase y); split; discriminate.
  - destruct (iobjs s o) as [x0|] eqn:X0; [|split; discriminate]. destruct (o_half x0) eqn:Hf; [|split; discriminate].
    cbn [duty] in D. destruct (LV o) as (x & _ & ->); [apply (i_made g s I); congruence|exact D|]. split; discriminate.
  - destruct D as (D1 & D2 & D3). destruct (LV o (S3 o (S2 o D1)) D2) as (x & X & ->). cbn [obind].
    apply (i_state g s I o x X) in D1. rewrite D1. split; discriminate.
  - destruct D.
Qed.

(** Joining a thread, starting another one and destroying the first - in one
    thread of a program that does nothing else wrong: the id that join() kept is
    that of the new thread, so that the destructor unregisters the new thread
    and counts an ended thread less than there are.  The new thread runs, but
    current() in it is null, and the next joinAny spins forever with the latch
    held.  With this [orderly] cannot be relaxed to [duty]. *)
Theorem C60_start_before_destroy_refuted : exists es s rs s' rs',
  irun iinit es = Some (Ok (s, rs)) /\ each duty nothing es rs /\
  nth_error (runs (sees nothing es rs)) 1 = Some 2%nat /\ pending (sees nothing es rs) 2 /\ icurrent s 1 = None /\
  irun s [ENew 3 TNew 0; EResume 3 6; ENew 4 TNew 0; EResume 4 7; EJoinAny true]%nat = Some (Ok (s', rs' ++ [ISpin])) /\
  each duty (sees nothing es rs) [ENew 3 TNew 0; EResume 3 6; ENew 4 TNew 0; EResume 4 7; EJoinAny true]%nat (rs' ++ [ISpin]).
Proof.
  exists [ENew 1 TNew 0; EResume 1 5; EStart 0; EFinish 0; EPJoin 1; EErase 1; ENew 2 TNew 0; EResume 2 5; EDestroy 1; EStart 1]%nat.
  eexists. eexists. eexists. exists [INone; INone; INone; INone]. split; [vm_compute; reflexivity|].
  cbn [sees see nothing made runs ran joining joined collected gone each duty nth_error app]. unfold pending.
  cbn [nothing made runs ran joining joined collected gone In]. split; [pick|]. split; [vm_compute; reflexivity|]. split; [pick|].
  split; [vm_compute; reflexivity|]. split; [vm_compute; reflexivity|]. pick.
Qed.

(** A thread started by one thread while another one is in join(), between the
    pthread_join and the block after it, gets the id that has just become free
    and is not registered: current() in it returns the object that is being
    joined, and after that null; it runs and ends, and joinAny waits. *)
Theorem C60_start_while_joining_refuted : exists es s rs es' s' rs',
  irun iinit es = Some (Ok (s, rs)) /\ each duty nothing es rs /\ icurrent s 1 = Some 1%nat /\
  nth_error (runs (sees nothing es rs)) 1 = Some 2%nat /\
  irun iinit (es ++ es') = Some (Ok (s', rs')) /\ each duty nothing (es ++ es') rs' /\ icurrent s' 1 = None /\
  (exists a b, a <> b /\ pending (sees nothing (es ++ es') rs') a /\ pending (sees nothing (es ++ es') rs') b) /\
  pending (sees nothing (es ++ es') rs') 2 /\ In 2%nat (ran (sees nothing (es ++ es') rs')) /\
  istep s' (EJoinAny true) = Some (Ok (s', IWait)).
Proof.
  exists [ENew 1 TNew 0; EResume 1 5; EStart 0; EFinish 0; EPJoin 1; ENew 2 TNew 0; EResume 2 5; EStart 1]%nat.
  eexists. eexists. exists [EErase 1; EFinish 1; ENew 3 TNew 0; EResume 3 6; ENew 4 TNew 0; EResume 4 7]%nat. eexists. eexists.
  split; [vm_compute; reflexivity|].
  cbn [sees see nothing made runs ran joining joined collected gone each duty nth_error app]. 
  cbn [nothing made runs ran joining joined collected gone In]. split; [pick|].
  split; [vm_compute; reflexivity|]. split; [vm_compute; reflexivity|]. split; [vm_compute; reflexivity|].
  cbn [sees see nothing made runs ran joining joined collected gone each duty nth_error app]. unfold pending.
  cbn [nothing made runs ran joining joined collected gone In]. split; [pick|]. split; [vm_compute; reflexivity|].
  split; [exists 3%nat, 4%nat; pick|]. split; [pick|]. split; [tauto|vm_compute; reflexivity].
Qed.

(** joinAny only takes the thread out of the map: whatever else happens, a
    thread for which join() is not called is never joined, and the system keeps
    its stack and its id for good. *)
Theorem C60_never_reclaimed_refuted : forall es s rs,
  irun iinit es = Some (Ok (s, rs)) -> (forall o, ~ In (EPJoin o) es) ->
  (forall y, In y (ioss s) -> k_joined y = false).
Proof.
  intros es s rs H N.
  assert (G : forall es s0 s1 r1, irun s0 es = Some (Ok (s1, r1)) -> (forall o, ~ In (EPJoin o) es) ->
            (forall y, In y (ioss s0) -> k_joined y = false) -> forall y, In y (ioss s1) -> k_joined y = false).
  { clear. induction es as [|e es IH]; intros s0 s1 r1 H N F; cbn [irun] in H; [injection H as <- <-; exact F|].
    destruct (istep s0 e) as [[[s2 r2]| |]|] eqn:E; try discriminate. cbn [fst snd] in H.
    destruct (irun s2 es) as [[[s3 r3]| |]|] eqn:R; try discriminate. injection H as <- <-. cbn [fst snd].
    apply (IH s2 s3 r3 R); [intros o Q; apply (N o); right; exact Q|].
    assert (WO : forall s k (y y' : ios), nth_error (ioss s) k = Some y -> (forall z, In z (ioss s) -> k_joined z = false) ->
               k_joined y' = false -> forall z, In z (ioss (with_os s k y')) -> k_joined z = false).
    { intros s k y y' K A B z Z. cbn [with_os ioss] in Z. apply in_app_or in Z as [Z|[<-|Z]]; [|exact B|];
        apply A; [eapply in_first; exact Z|eapply in_skip; exact Z]. }
    destruct e as [o st j|o i|k|k|k|first|o|o|o|o j]; cbn [istep] in E.
    - destruct (iobjs s0 o); [discriminate|]. injection E as <- <-. exact F.
    - destruct (may_give s0 i); [|discriminate]. destruct (live s0 o) as [x| |]; try discriminate. cbn [obind] in E.
      assert (E1 := f_equal (fun z => match z with Some (Ok p) => ioss (fst p) | _ => [] end) E). cbn in E1. rewrite <- E1.
      intros y Y. apply in_app_or in Y as [Y|[<-|[]]]; [exact (F y Y)|reflexivity].
    - destruct (nth_error (ioss s0) k) as [y|] eqn:K; [|discriminate]. destruct (k_phase y); try discriminate.
      destruct (live s0 (k_obj y)) as [x| |]; try discriminate. cbn [obind] in E. unfold cassert in E.
      destruct (negb _); [|discriminate]. assert (E1 := f_equal (fun z => match z with Some (Ok p) => fst p | _ => s0 end) E). cbn beta iota in E1. cbn [fst] in E1. subst s2.
      apply (WO (with_obj s0 (k_obj y) (set_state x TStarted)) k y); [exact K|exact F|]. cbn. apply F. eapply nth_error_In; exact K.
    - destruct (nth_error (ioss s0) k) as [y|] eqn:K; [|discriminate]. destruct (k_phase y); try discriminate.
      destruct (ifind s0 (k_id y)) as [q|]; [|injection E as <- <-; exact F].
      destruct (live s0 q) as [x| |]; try discriminate. cbn [obind] in E.
      assert (E1 := f_equal (fun z => match z with Some (Ok p) => ioss (fst p) | _ => [] end) E). cbn in E1. rewrite <- E1. exact F.
    - destruct (nth_error (ioss s0) k) as [y|] eqn:K; [|discriminate]. destruct (k_phase y); try discriminate.
      destruct (live s0 (k_obj y)) as [x| |]; try discriminate. cbn [obind] in E.
      assert (E1 := f_equal (fun z => match z with Some (Ok p) => fst p | _ => s0 end) E). cbn beta iota in E1. cbn [fst] in E1. subst s2.
      apply (WO (with_obj s0 (k_obj y) (set_state x TEnded)) k y); [exact K|exact F|]. cbn. apply F. eapply nth_error_In; exact K.
    - unfold ijoin_any in E. destruct (first && _); [injection E as <- <-; exact F|].
      destruct (icnt s0 =? 0); [injection E as <- <-; exact F|]. destruct (List.find _ _) as [e|]; injection E as <- <-; exact F.
    - destruct (N o). left. reflexivity.
    - destruct (iobjs s0 o) as [x0|]; [|discriminate]. destruct (o_half x0); [|discriminate].
      destruct (live s0 o) as [x| |]; try discriminate. cbn [obind] in E.
      assert (E1 := f_equal (fun z => match z with Some (Ok p) => ioss (fst p) | _ => [] end) E). cbn beta iota in E1. cbn [fst] in E1. rewrite <- E1.
      destruct (ifind s0 (o_id x)); exact F.
    - destruct (live s0 o) as [x| |]; try discriminate. cbn [obind] in E. unfold cassert in E.
      destruct (match o_state x with TEnded => true | _ => false end); [|discriminate].
      assert (E1 := f_equal (fun z => match z with Some (Ok p) => ioss (fst p) | _ => [] end) E). cbn beta iota in E1. cbn [fst] in E1. rewrite <- E1.
      destruct (ifind s0 (o_id x)); exact F.
    - destruct (live s0 o) as [x| |]; try discriminate. cbn [obind] in E.
      assert (E1 := f_equal (fun z => match z with Some (Ok p) => ioss (fst p) | _ => [] end) E). cbn beta iota in E1. cbn [fst] in E1. rewrite <- E1. exact F. }
  exact (G es iinit s rs H N (fun y Y => match Y with end)).
Qed.

(** Destroying a thread that was constructed and never started: both fields are
    uninitialised.  Unless the state happens to read as Ended the destructor's
    assertion fails; if it does, and the id reads as that of a running thread,
    that thread is unregistered. *)
Theorem C60_unstarted_refuted :
  (forall es s rs o g j, irun iinit es = Some (Ok (s, rs)) -> iobjs s o = None -> g <> TEnded ->
     irun s [ENew o g j; EDestroy o] = Some Abort) /\
  (forall es s rs o j p, irun iinit es = Some (Ok (s, rs)) -> iobjs s o = None -> ifind s j = Some p ->
     exists s', irun s [ENew o TEnded j; EDestroy o] = Some (Ok (s', [INone; INone])) /\ ifind s' j = None).
Proof.
  split.
  - intros es s rs o g j _ O G. cbn [irun istep]. rewrite O. cbn [fst]. unfold live; cbn. rewrite Nat.eqb_refl. cbn.
    destruct g; try reflexivity. congruence.
  - intros es s rs o j p _ O F. cbn [irun istep]. rewrite O. cbn [fst]. unfold live; cbn. rewrite Nat.eqb_refl. cbn.
    match goal with |- context [ifind ?st j] => replace (ifind st j) with (Some p) by (symmetry; exact F) end. eexists. split; [reflexivity|].
    match goal with |- ifind ?st j = None => destruct (ifind st j) as [q|] eqn:Q; [|reflexivity] end. apply ifind_some in Q. cbn [imap with_cnt with_map] in Q. apply ierase_in in Q as (_ & Q). congruence.
Qed.

(** suspend() does nothing, and resume() does not ask whether the thread is
    running: called again, it starts a second thread on the same object and
    the object forgets the id of the first. *)
Theorem C60_resume_again_refuted : forall es s rs o x i,
  irun iinit es = Some (Ok (s, rs)) -> iobjs s o = Some x -> o_dead x = false -> may_give s i = true ->
  exists s' x', istep s (EResume o i) = Some (Ok (s', INone)) /\
    map k_obj (ioss s') = map k_obj (ioss s) ++ [o] /\ iobjs s' o = Some x' /\ o_id x' = i.
Proof.
  intros es s rs o x i _ X D M. cbn [istep]. rewrite M. replace (live s o) with (Ok x) by (symmetry; apply live_ok; auto).
  cbn [obind]. eexists. eexists. split; [reflexivity|]. split; [cbn [ioss]; apply map_app|].
  cbn. rewrite Nat.eqb_refl. split; reflexivity.
Qed.

Lemma find_only f (m : list (nat * nat)) i o : In (i, o) m -> (forall j p, In (j, p) m -> (f p = true <-> p = o)) ->
  (forall j, In (j, o) m -> j = i) -> List.find (fun e => f (snd e)) m = Some (i, o).
Proof.
  intros M F U. destruct (List.find (fun e => f (snd e)) m) as [[j p]|] eqn:Q.
  - apply find_some in Q as (Q1 & Q2). apply (F j p Q1) in Q2 as ->. apply U in Q1 as ->. reflexivity.
  - pose proof (find_none _ _ Q _ M) as N. cbn [snd] in N. rewrite (proj2 (F i o M) eq_refl) in N. discriminate.
Qed.
Lemma find_no f (m : list (nat * nat)) i o : (forall j p, In (j, p) m -> (f p = true <-> p = o)) ->
  (forall j, In (j, o) m -> j = i) -> List.find (fun e => f (snd e)) (ierase i m) = None.
Proof.
  intros F U. destruct (List.find (fun e => f (snd e)) (ierase i m)) as [[j p]|] eqn:Q; [|reflexivity].
  apply find_some in Q as (Q1 & Q2). apply ierase_in in Q1 as (Q1 & N). apply (F j p Q1) in Q2 as ->. apply U in Q1. contradiction.
Qed.
(** Thread::exit, called by a thread while no other started one has ended: it is
    ended for joinAny, though its run() has not returned; and when that returns
    before a joinAny, ThreadProc counts the thread again, so that the joinAny
    after the one that gets it spins, with the latch held. *)
Theorem C60_exit_refuted : forall es s rs k y,
  irun iinit es = Some (Ok (s, rs)) -> each orderly nothing es rs ->
  nth_error (ioss s) k = Some y -> k_phase y = Running ->
  let g := sees nothing es rs in
  let o := k_obj y in
  pending g o -> (forall p, pending g p -> ~ In p (ran g)) ->
  (exists s', irun s [EExit k; EJoinAny false; EJoinAny false] = Some (Ok (s', [INone; IGot o; IWait])) /\
     nth_error (ioss s') k = Some y) /\
  (exists s', irun s [EExit k; EFinish k; EJoinAny false; EJoinAny false] = Some (Ok (s', [INone; INone; IGot o; ISpin]))).
Proof.
  intros es s rs k y H E K P g o PO PN. assert (I := orderly_inv es s rs H E). fold g in I.
  assert (Y := nth_error_In _ _ K). destruct (i_sub g s I) as (S1 & S2 & S3 & S4 & S5 & S6).
  destruct PO as (PO1 & PO2 & PO3 & PO4).
  destruct (iobjs s o) as [x|] eqn:X; [|exfalso; apply (proj1 (i_made g s I o)); auto].
  assert (Xd : o_dead x = false) by (destruct (o_dead x) eqn:D; [apply (i_dead g s I _ _ X) in D; contradiction|reflexivity]).
  assert (Xi : o_id x = k_id y) by (apply (i_id g s I y x Y X Xd)).
  assert (M : In (k_id y, o) (imap s)) by (apply (i_map g s I); split; [repeat split; auto|eauto]).
  assert (FI : ifind s (k_id y) = Some o).
  { destruct (ifind s (k_id y)) as [p|] eqn:Q.
    - apply ifind_some in Q. f_equal. symmetry. exact (inv_key g s (k_id y) o p I M Q).
    - destruct (ifind_none s (k_id y) o Q M). }
  assert (U : forall j, In (j, o) (imap s) -> j = k_id y).
  { intros j J. apply (i_map g s I) in J as (_ & x' & X' & <-). congruence. }
  assert (NE : forall j p, In (j, p) (imap s) -> iended s p = false).
  { intros j p J. apply (i_map g s I) in J as (J & x' & X' & _). unfold iended. rewrite X'.
    destruct (o_state x') eqn:Q; try reflexivity. apply (i_state g s I p x' X') in Q. destruct (PN p J Q). }
  assert (C : icnt s = 0).
  { rewrite (i_cnt g s I). unfold ecount. destruct (filter _ (imap s)) as [|[j p] l] eqn:Q; [reflexivity|].
    assert (Q1 : In (j, p) (filter (fun e => iended s (snd e)) (imap s))) by (rewrite Q; left; reflexivity).
    apply filter_In in Q1 as (Q1 & Q2). cbn [snd] in Q2. rewrite (NE j p Q1) in Q2. discriminate. }
  assert (F : forall s', (forall p, iobjs s' p = if Nat.eqb p o then Some (set_state x TEnded) else iobjs s p) ->
            forall j p, In (j, p) (imap s) -> (iended s' p = true <-> p = o)).
  { intros s' Q j p J. unfold iended. rewrite Q. destruct (Nat.eqb_spec p o) as [->|N]; [cbn; tauto|].
    pose proof (NE j p J) as G. unfold iended in G. rewrite G. split; [discriminate|congruence]. }
  assert (L : live s o = Ok x) by (apply live_ok; auto).
  split.
  - eexists. cbn [irun istep]. rewrite K, P, FI, L. cbn [obind fst snd].
    unfold ijoin_any. cbn [andb]. rewrite C. cbn [icnt with_cnt Z.add Z.eqb imap with_obj].
    match goal with |- context [List.find (fun e => iended ?st (snd e)) (imap s)] =>
      rewrite (find_only (iended st) (imap s) (k_id y) o M (F st (fun p => eq_refl)) U) end.
    cbn [fst snd icnt with_cnt with_map]. cbn. split; [reflexivity|exact K].
  - eexists. cbn [irun istep]. rewrite K, P, FI, L. cbn [obind fst snd ioss with_cnt with_obj]. rewrite K, P.
    unfold live. cbn [iobjs with_cnt with_obj]. fold o. rewrite Nat.eqb_refl. cbn [o_dead set_state]. rewrite Xd. cbn [obind fst snd o_id set_state].
    match goal with |- context [ifind ?st (o_id x)] => replace (ifind st (o_id x)) with (Some o) by (rewrite Xi; symmetry; exact FI) end.
    unfold ijoin_any. cbn [andb]. rewrite C. cbn [icnt with_cnt Z.add Z.eqb imap with_obj with_os Pos.add].
    match goal with |- context [List.find (fun e => iended ?st (snd e)) (imap s)] =>
      assert (F' := F st); rewrite (find_only (iended st) (imap s) (k_id y) o M) end.
    3: exact U.
    2: apply F'; intros p; cbn; destruct (Nat.eqb p o); reflexivity.
    cbn [fst snd icnt with_cnt with_map imap with_os with_obj].
    match goal with |- context [Z.eqb ?a 0] => change (Z.eqb a 0) with false end. cbv iota.
    match goal with |- context [List.find (fun e => iended ?st (snd e)) (ierase _ (imap s))] =>
      rewrite (find_no (iended st) (imap s) (k_id y) o) end.
    3: exact U.
    2: apply (F' ); intros p; cbn; destruct (Nat.eqb p o); reflexivity.
    cbn. reflexivity.
Qed.

(** When pthread_create fails, resume() does not notice: no thread is made, but
    the object is registered, with whatever id was left in it, unless that is
    already registered.  After two such calls joinAny waits forever for threads
    that do not exist; destroying the object fails its assertion, and joining it
    is undefined (or fails an assertion, if the id is 0). *)
Theorem C60_create_fails_refuted :
  (forall es s rs o x j, irun iinit es = Some (Ok (s, rs)) -> iobjs s o = Some x -> o_dead x = false -> o_state x <> TEnded ->
     exists s', istep s (EFail o j) = Some (Ok (s', INone)) /\ ioss s' = ioss s /\
       ifind s' j = Some (match ifind s j with Some p => p | None => o end) /\ istep s' (EDestroy o) = Some Abort /\
     (os_with (ioss s) j 0 = None -> istep s' (EPJoin o) = Some (if Nat.eqb j 0 then Abort else UB))) /\
  (forall n, exists s rs, irun iinit ([ENew 1 TNew 0; EFail 1 5; ENew 2 TNew 0; EFail 2 6]%nat ++ EJoinAny true :: repeat (EJoinAny false) n) = Some (Ok (s, rs)) /\
     rs = repeat INone 4 ++ repeat IWait (S n) /\ ioss s = []).
Proof.
  split.
  - intros es s rs o x j _ X D ST. cbn [istep]. replace (live s o) with (Ok x) by (symmetry; apply live_ok; auto). cbn [obind].
    eexists. split; [reflexivity|]. split; [reflexivity|]. split; [|split].
    + unfold iinsert. match goal with |- context [match ifind ?st j with _ => _ end] => replace (ifind st j) with (ifind s j) by reflexivity end.
      destruct (ifind s j) as [p|] eqn:F; [exact F|]. revert F. unfold ifind. cbn [imap with_map with_obj].
      induction (imap s) as [|[a b] l IH]; cbn [List.find app fst snd]; [rewrite Nat.eqb_refl; reflexivity|]. destruct (Nat.eqb a j); [discriminate|exact IH].
    + unfold live. cbn. rewrite Nat.eqb_refl. cbn. destruct (o_state x); try reflexivity. congruence.
    + intros W. unfold live. cbn [iobjs with_map with_obj]. rewrite Nat.eqb_refl. cbn [o_dead o_id ioss with_map with_obj]. rewrite W. destruct (Nat.eqb j 0); reflexivity.
  - intros n. assert (G : forall (s : im), (icnt s =? 0) = true -> irun s (repeat (EJoinAny false) n) = Some (Ok (s, repeat IWait n))).
    { intros s C. induction n as [|n IH]; [reflexivity|]. cbn [repeat irun istep ijoin_any]. unfold ijoin_any. rewrite andb_false_l, C. cbn [fst]. rewrite IH. reflexivity. }
    cbn [app]. eexists. eexists. split.
    + cbn [irun istep live iobjs iinit fst snd obind with_obj with_map Nat.eqb o_dead iinsert ifind imap List.find app ijoin_any andb length Nat.leb icnt Z.eqb]. rewrite G by reflexivity. cbn. reflexivity.
    + split; [reflexivity|reflexivity].
Qed.

(** Two threads joined one after the other and destroyed, a third that gets the
    id of the first, a fourth: an orderly history in which an id is used twice;
    joinAny returns the third. *)
Example C60_example : exists es s rs,
  irun iinit es = Some (Ok (s, rs)) /\ each orderly nothing es rs /\
  pending (sees nothing es rs) 3 /\ pending (sees nothing es rs) 4 /\ icurrent s 2 = Some 3%nat /\
  exists s' s'', istep s (EFinish 2) = Some (Ok (s', INone)) /\ istep s' (EJoinAny true) = Some (Ok (s'', IGot 3%nat)).
Proof.
  exists [ENew 1 TNew 0; EResume 1 5; ENew 2 TNew 5; EResume 2 6; EStart 0; EFinish 0; EStart 1; EPJoin 1; EErase 1; EDestroy 1;
          EFinish 1; EPJoin 2; EErase 2; EDestroy 2; ENew 3 TNew 6; EResume 3 5; ENew 4 TNew 0; EResume 4 9; EStart 2]%nat.
  eexists. eexists. split; [vm_compute; reflexivity|].
  cbn [sees see nothing made runs ran joining joined collected gone each duty nth_error app]. unfold pending, orderly.
  cbn [nothing runs joined collected gone In duty made ran joining]. split; [pick|].
  split; [pick|]. split; [pick|]. split; [vm_compute; reflexivity|].
  eexists. eexists. split; vm_compute; reflexivity.
Qed.

(** A thread joined and destroyed, a second, with its id, running, and the
    hypotheses of [C60_exit_refuted] hold of it. *)
Example C60_exit_example : exists es s rs y,
  irun iinit es = Some (Ok (s, rs)) /\ each orderly nothing es rs /\ nth_error (ioss s) 1 = Some y /\ k_phase y = Running /\
  k_obj y = 2%nat /\ pending (sees nothing es rs) 2 /\ (forall p, pending (sees nothing es rs) p -> ~ In p (ran (sees nothing es rs))).
Proof.
  exists [ENew 1 TNew 0; EResume 1 5; EStart 0; EFinish 0; EPJoin 1; EErase 1; EDestroy 1; ENew 2 TNew 0; EResume 2 5; EStart 1]%nat.
  eexists. eexists. eexists. split; [vm_compute; reflexivity|].
  cbn [sees see nothing made runs ran joining joined collected gone each duty nth_error app]. unfold pending, orderly.
  cbn [nothing runs joined collected gone In duty made ran joining]. split; [pick|].
  split; [vm_compute; reflexivity|]. split; [reflexivity|]. split; [reflexivity|]. split; [pick|].
  intros p (_ & J & _) R. apply J. exact R.
Qed.

(** A thread collected by joinAny and destroyed, which the system still has. *)
Example C60_reclaim_example : exists es s rs,
  irun iinit es = Some (Ok (s, rs)) /\ each orderly nothing es rs /\ (forall o, ~ In (EPJoin o) es) /\
  In 1%nat (collected (sees nothing es rs)) /\ In 1%nat (gone (sees nothing es rs)) /\ length (ioss s) = 2%nat.
Proof.
  exists [ENew 1 TNew 0; EResume 1 5; ENew 2 TNew 0; EResume 2 6; EStart 0; EFinish 0; EJoinAny true; EDestroy 1]%nat.
  eexists. eexists. split; [vm_compute; reflexivity|].
  cbn [sees see nothing made runs ran joining joined collected gone each duty nth_error app]. unfold orderly.
  cbn [nothing runs joined collected gone In duty made ran joining]. split; [pick|].
  split; [intros o; pick|]. split; [tauto|]. split; [tauto|vm_compute; reflexivity].
Qed.

Print Assumptions C60_current_partial.
Print Assumptions C60_join_any_partial.
Print Assumptions C60_join_waits_partial.
Print Assumptions C60_no_error_partial.
Print Assumptions C60_start_before_destroy_refuted.
Print Assumptions C60_start_while_joining_refuted.
Print Assumptions C60_never_reclaimed_refuted.
Print Assumptions C60_unstarted_refuted.
Print Assumptions C60_resume_again_refuted.
Print Assumptions C60_create_fails_refuted.
Print Assumptions C60_exit_refuted.
