(** C14: reference counting frees exactly once, under any interleaving;
    C46: what Unshare decides stays true. *)
From Verif Require Import Base RefModel RefSpec RefProofs.

(** Any number of threads, any assignment of handles to threads (fewer than
    2^31 of both together, the range of the int count), any schedule: no use
    after delete, no failing assert; each object is deleted at most once and
    never while a handle refers to it; at rest the count is the number of
    handles, and the object is deleted exactly when there is none. *)
Theorem C14_refcount_exact : forall nt owners es,
  Z.of_nat (length owners + nt) < 2^31 ->
  exists s, run (init nt owners) es = Ok s /\
    forall o ob, nth_error (objs s) o = Some ob ->
      (o_dels ob <= 1)%nat /\
      (o_dels ob = 1%nat -> holders s o = 0%nat) /\
      (quiescent s ->
         (o_dels ob = 0%nat <-> (holders s o > 0)%nat) /\
         (o_dels ob = 0%nat -> o_count ob = Z.of_nat (holders s o))).
Proof.
  intros nt owners es B. destruct (run_inv es _ (init_inv nt owners B)) as (s & E & I).
  exists s. split; [exact E|]. intros o ob Ho. apply obj_ok_spec; assumption.
Qed.

(** A handle never refers to a deleted or non-existing object. *)
Theorem C14_no_dangling_handle : forall nt owners es s i o,
  Z.of_nat (length owners + nt) < 2^31 ->
  run (init nt owners) es = Ok s -> nth_error (slots s) i = Some (Some o) ->
  exists ob, nth_error (objs s) o = Some ob /\ o_dels ob = 0%nat /\ o_count ob >= Z.of_nat (holders s o).
Proof.
  intros nt owners es s i o B E H. destruct (run_inv es _ (init_inv nt owners B)) as (s' & E' & I).
  rewrite E in E'. injection E' as <-.
  destruct (access_ok s o I (or_introl (slot_refs _ _ _ H))) as (ob & Hob & _ & D & C).
  exists ob. split; [exact Hob|]. split; [exact D|]. rewrite C, holders_handles. unfold refs. lia.
Qed.

(** C46. If a thread that is between operations sees count <= 1 on the object of
    one of its handles (the test of Unshare), then whatever the other threads
    do afterwards, its handle stays the only handle on that object, the object
    is not touched, and no other thread is about to use it. *)
Theorem C46_unshare_sole_owner_stable : forall nt owners es s t dst o ob es' s',
  Z.of_nat (length owners + nt) < 2^31 ->
  run (init nt owners) es = Ok s ->
  idle s t = true -> owns s t dst = true ->
  nth_error (slots s) dst = Some (Some o) -> nth_error (objs s) o = Some ob -> o_count ob <= 1 ->
  Forall (fun e => by_thread e <> t) es' -> run s es' = Ok s' ->
  nth_error (slots s') dst = Some (Some o) /\ holders s' o = 1%nat /\
  nth_error (objs s') o = Some ob /\
  (forall i, i <> dst -> nth_error (slots s') i <> Some (Some o)) /\
  (forall u d, nth_error (pcs s') u <> Some (AddChk d o) /\ nth_error (pcs s') u <> Some (Swap d (Some o)) /\
               nth_error (pcs s') u <> Some (RelChk o) /\ nth_error (pcs s') u <> Some (RelDec o)).
Proof.
  intros nt owners es s t dst o ob es' s' B E Hi Hw Hs Ho Hc F E'.
  destruct (run_inv es _ (init_inv nt owners B)) as (s1 & E1 & I). rewrite E in E1. injection E1 as <-.
  assert (W := run_own es _ _ (init_own nt owners) E).
  assert (S : Sole s t dst o).
  { split; [exact Hs|]. split; [exact Hw|]. split; [exact Hi|].
    assert (R := slot_refs _ _ _ Hs).
    destruct (access_ok s o I (or_introl R)) as (ob' & Hob & _ & _ & C). rewrite Ho in Hob. injection Hob as <-. lia. }
  destruct (run_sole es' s s' t dst o I W S F E') as [S' X]. destruct (sole_others _ _ _ _ S') as [P Q].
  split; [apply S'|]. split; [|split; [exact (X ob Ho)|split; [exact P|]]].
  - destruct S' as (Hs' & _ & _ & R). assert (K := sum_pos (in_slot o) (slots s') dst _ Hs'). simpl in K.
    rewrite Nat.eqb_refl in K. rewrite holders_handles. unfold refs, handles in *. lia.
  - intros u d. repeat split; intros H; specialize (Q u _ H); simpl in Q; rewrite Nat.eqb_refl in Q; discriminate.
Qed.

(** C46. If the count was above 1, Unshare makes a private copy: once the
    thread has finished, whatever the others did meanwhile, its handle refers
    to the new object and no other handle does. *)
Theorem C46_unshare_copy_private : forall nt owners es s t dst o ob es' s',
  Z.of_nat (length owners + nt) < 2^31 ->
  run (init nt owners) es = Ok s ->
  idle s t = true -> owns s t dst = true ->
  nth_error (slots s) dst = Some (Some o) -> nth_error (objs s) o = Some ob -> o_count ob > 1 ->
  Forall (fun e => by_thread e <> t \/ e = Step t) es' ->
  run s (Unshare t dst :: es') = Ok s' -> idle s' t = true ->
  nth_error (slots s') dst = Some (Some (length (objs s))) /\ holders s' (length (objs s)) = 1%nat /\
  exists nb, nth_error (objs s') (length (objs s)) = Some nb /\ o_count nb = 1 /\ o_dels nb = 0%nat.
Proof.
  intros nt owners es s t dst o ob es' s' B E Hi Hw Hs Ho Hc F E' Hi'.
  destruct (run_inv es _ (init_inv nt owners B)) as (s1 & E1 & I). rewrite E in E1. injection E1 as <-.
  assert (W := run_own es _ _ (init_own nt owners) E).
  exact (unshare_copy_private s t dst o ob es' s' I W Hi Hw Hs Ho Hc F E' Hi').
Qed.

(** Non-vacuity: two threads, three handles; thread 0 creates an object, hands a
    copy to thread 1, both drop concurrently; and an Unshare that copies. *)
Example C14_example : exists s,
  run (init 2 [0;0;1]%nat) ([New 0 0; Step 0; Step 0; Copy 0 1 0; Step 0; Step 0; Give 0 1 1;
     Drop 0 0; Drop 1 1; Step 0; Step 1; Step 0; Step 1; Step 1; Step 0; Step 0])%nat = Ok s /\
  map o_dels (objs s) = [1%nat] /\ quiescent s.
Proof. eexists. split; [vm_compute; reflexivity|]. split; [reflexivity|]. repeat constructor. Qed.

Example C46_example : exists s,
  run (init 2 [0;1]%nat) ([New 0 0; Step 0; Step 0; Give 0 1 0; Give 1 1 0; Copy 0 1 0; Step 0; Step 0; Give 0 1 1])%nat = Ok s /\
  idle s 0 = true /\ owns s 0 0 = true /\ nth_error (slots s) 0 = Some (Some 0%nat) /\ map o_count (objs s) = [2].
Proof. eexists. split; [vm_compute; reflexivity|]. vm_compute. auto. Qed.

Print Assumptions C14_refcount_exact.
Print Assumptions C14_no_dangling_handle.
Print Assumptions C46_unshare_sole_owner_stable.
Print Assumptions C46_unshare_copy_private.
