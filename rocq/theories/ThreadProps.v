(** C37: joinAny waits for a thread and never loses one. *)
From Verif Require Import Base ThreadModel ThreadProofs.

(** After any history without Thread::exit (and with a state field that does
    not start out as Ended), with at least two registered threads: joinAny
    returns a registered thread that has really finished - and unregisters
    exactly that one - if there is any, and otherwise waits; it never spins and
    never returns null. *)
Theorem C37_join_any_partial : forall es s rs first s' r,
  Forall clean es -> trun tinit es = Ok (s, rs) ->
  (first = true -> (2 <= length (tmap s))%nat) ->
  tstep s (EJoinAny first) = Ok (s', r) ->
  ((exists t, registered s t /\ finished s t) /\
     exists t, r = RGot t /\ registered s t /\ finished s t /\
       (forall u, registered s' u <-> registered s u /\ u <> t) /\ (forall u, tobj s' u = tobj s u)) \/
  ((forall t, registered s t -> ~ finished s t) /\ r = RWait /\ s' = s).
Proof.
  intros es s rs first s' r C H L E. cbn [tstep] in E. injection E as E.
  apply (join_any_spec s first); [eapply trun_inv; [apply tinit_inv|exact C|exact H]|exact L|exact E].
Qed.

(** A waiter is woken usefully: when a registered thread finishes, the next run
    of the loop returns a thread. *)
Theorem C37_finish_wakes : forall es s rs t x s1 s2 r1 r2,
  Forall clean es -> trun tinit es = Ok (s, rs) ->
  registered s t -> tobj s t = Some x -> th_phase x = Running ->
  tstep s (EFinish t) = Ok (s1, r1) -> tstep s1 (EJoinAny false) = Ok (s2, r2) ->
  exists u, r2 = RGot u.
Proof.
  intros es s rs t x s1 s2 r1 r2 C H R X P E1 E2.
  assert (I := trun_inv es _ _ _ tinit_inv C H). assert (I1 := tstep_inv s (EFinish t) s1 r1 I Logic.I E1).
  cbn [tstep] in E2. injection E2 as E2.
  destruct (join_any_spec s1 false s2 r2 I1 ltac:(discriminate) E2) as [(_ & u & -> & _)|(N & _)]; [eauto|exfalso].
  cbn [tstep] in E1. rewrite X, P in E1. injection E1 as <- <-.
  apply (N t R). eexists. split; [simpl; unfold tset; rewrite Nat.eqb_refl; reflexivity|reflexivity].
Qed.

(** No thread is returned twice, whatever the history (exit included). *)
Theorem C37_never_returned_twice : forall es s rs first s1 t es' s' rs',
  trun tinit es = Ok (s, rs) -> tstep s (EJoinAny first) = Ok (s1, RGot t) ->
  trun s1 es' = Ok (s', rs') -> ~ In (RGot t) rs'.
Proof.
  intros es s rs first s1 t es' s' rs' H E H'. eapply trun_never; [exact H'| |].
  - cbn [tstep] in E. injection E as E. unfold join_any in E. destruct (first && _); [discriminate|].
    destruct (ended s =? 0); [discriminate|]. destruct (find (is_ended s) (tmap s)) as [u|] eqn:F; [|discriminate].
    injection E as <- ->. simpl. apply find_some in F as [F _].
    eapply map_known; [|exact H|exact F]. intros ? [].
  - cbn [tstep] in E. injection E as E. unfold join_any in E. destruct (first && _); [discriminate|].
    destruct (ended s =? 0); [discriminate|]. destruct (find (is_ended s) (tmap s)) as [u|]; [|discriminate].
    injection E as <- ->. simpl. rewrite erase_in. tauto.
Qed.

(** With a single registered thread joinAny returns null although the thread
    is running or has ended: the main thread is not in the map, so the test
    should have been for an empty map. *)
Theorem C37_single_thread_refuted : exists es s rs,
  Forall clean es /\ trun tinit es = Ok (s, rs) /\
  (exists t, registered s t /\ finished s t) /\ tstep s (EJoinAny true) = Ok (s, RNull).
Proof.
  exists [EResume 7 TNew; EStart 7; EFinish 7]%nat. eexists. eexists. split; [repeat constructor|].
  split; [vm_compute; reflexivity|]. split; [|reflexivity].
  exists 7%nat. split; [left; reflexivity|]. eexists. split; reflexivity.
Qed.

(** Thread::exit counts the thread as ended, and ThreadProc counts it again:
    after joining it, joinAny spins forever with the latch held. *)
Theorem C37_exit_spins_refuted : exists es s rs,
  trun tinit es = Ok (s, rs) /\ (forall t, registered s t -> ~ finished s t) /\
  (2 <= length (tmap s))%nat /\ tstep s (EJoinAny true) = Ok (s, RSpin).
Proof.
  exists [EResume 1 TNew; EResume 2 TNew; EResume 3 TNew; EStart 1; EStart 2; EStart 3; EExit 1; EFinish 1; EJoinAny true]%nat.
  eexists. eexists. split; [vm_compute; reflexivity|]. split; [|split; [simpl; lia|reflexivity]].
  intros t [<-|[<-|[]]] (x & E & P); simpl in E; injection E as <-; discriminate.
Qed.

(** The state field is not initialised: if it happens to read as Ended, joinAny
    hands out a thread that is still running. *)
Theorem C37_uninitialised_state_refuted : exists es s rs s' t,
  trun tinit es = Ok (s, rs) /\ tstep s (EJoinAny true) = Ok (s', RGot t) /\ ~ finished s t.
Proof.
  exists [EResume 1 TEnded; EResume 2 TNew; EStart 2; EFinish 2]%nat. eexists. eexists. eexists. exists 1%nat.
  split; [vm_compute; reflexivity|]. split; [reflexivity|].
  intros (x & E & P); simpl in E; injection E as <-; discriminate.
Qed.

Example C37_example : exists s,
  trun tinit [EResume 1 TNew; EResume 2 TNew; EStart 1; EJoinAny true; EFinish 1; EJoinAny false; EStart 2]%nat
    = Ok (s, [RNone; RNone; RNone; RWait; RNone; RGot 1; RNone]%nat) /\ registered s 2.
Proof. eexists. split; [vm_compute; reflexivity|]. left; reflexivity. Qed.

Print Assumptions C37_join_any_partial.
Print Assumptions C37_finish_wakes.
Print Assumptions C37_never_returned_twice.
Print Assumptions C37_single_thread_refuted.
Print Assumptions C37_exit_spins_refuted.
Print Assumptions C37_uninitialised_state_refuted.
