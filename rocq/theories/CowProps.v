(** Properties C18, C19: copy-on-write maps. *)
From Verif Require Import Base RefModel CowModel CowSpec CowProofs.

Section Props.
Context {K V : Type} (ltb : K -> K -> bool).

(** C18 (what holds): in every history no operation fails or touches a freed
    body, and an operation through one map variable changes what no other
    variable answers — except that [put] of a key already present, on a shared
    body, may change the answer for that one key (see the refutation below). *)
Theorem C18_operations_leave_other_maps_alone_partial :
  key_order ltb -> forall n (os : list (cop K V)) (o : cop K V),
  exists s s', crun ltb (cinit n) os = Ok s /\ cstep ltb s o = Ok s' /\
    forall w k, w <> ctarget o ->
      (put_on_shared ltb s o -> match o with CPut _ k0 _ => k <> k0 | _ => True end) ->
      clookup ltb s' w k = clookup ltb s w k.
Proof.
  intros KO n os o. destruct (run_inv ltb KO os (cinit n) (init_inv n)) as (s & E & I & _).
  destruct (step_spec ltb KO s o I) as (s' & E' & _ & _ & _ & F). exists s, s'. auto.
Qed.

(** C18: the count of every live body is the number of variables on it, every
    body nobody uses has been freed, and every variable's body is alive. *)
Theorem C18_bodies_counted_and_freed_exactly :
  key_order ltb -> forall n (os : list (cop K V)),
  exists s, crun ltb (cinit n) os = Ok s /\
    (forall b x, nth_error (ch s) b = Some (Some x) -> c_refs x = Z.of_nat (c_handles s b) /\ (0 < c_handles s b)%nat) /\
    (forall v b, nth_error (cv s) v = Some b -> exists x, nth_error (ch s) b = Some (Some x)) /\
    length (cv s) = n.
Proof.
  intros KO n os. destruct (run_inv ltb KO os (cinit n) (init_inv n)) as (s & E & I & L). exists s. split; [exact E|]. destruct I as [A B].
  split; [|split].
  - intros b x Hb. destruct (A b x Hb) as (R & P & _). unfold c_handles. fold (cnt b (cv s)). lia.
  - intros v b Hv. apply alive. apply B. eapply nth_error_In. exact Hv.
  - rewrite L. cbn. apply seq_length.
Qed.

(** C19: whatever the history, each operation makes its target behave as the
    abstract map says, for every key. *)
Theorem C19_target_becomes_the_expected_map :
  key_order ltb -> forall n (os : list (cop K V)) (o : cop K V),
  exists s s', crun ltb (cinit n) os = Ok s /\ cstep ltb s o = Ok s' /\
    ((ctarget o < n)%nat -> match o with CCopy _ v => (v < n)%nat | _ => True end ->
     forall k, clookup ltb s' (ctarget o) k = c_expected ltb (clookup ltb s) o k).
Proof.
  intros KO n os o. destruct (run_inv ltb KO os (cinit n) (init_inv n)) as (s & E & I & L).
  assert (Ln : length (cv s) = n) by (rewrite L; apply seq_length).
  destruct (step_spec ltb KO s o I) as (s' & E' & _ & _ & T & _). exists s, s'. split; [exact E|]. split; [exact E'|].
  intros Ht Hv. destruct (nth_error (cv s) (ctarget o)) as [b|] eqn:Eb; [|apply nth_error_None in Eb; lia].
  apply (T b eq_refl). destruct o; auto. intros X. apply nth_error_None in X. lia.
Qed.

(** C19: size is the number of keys that are present: the present keys can be
    listed without repetition, and size is the length of that list. *)
Theorem C19_size_counts_present_keys :
  key_order ltb -> forall n (os : list (cop K V)), exists s, crun ltb (cinit n) os = Ok s /\
    forall v, (v < n)%nat -> exists ks, csize s v = Some (length ks) /\ NoDup ks /\ forall k, In k ks <-> clookup ltb s v k <> None.
Proof.
  intros KO n os. destruct (run_inv ltb KO os (cinit n) (init_inv n)) as (s & E & I & L). exists s. split; [exact E|]. intros v Hv.
  assert (Ln : length (cv s) = n) by (rewrite L; apply seq_length).
  destruct (nth_error (cv s) v) as [b|] eqn:Eb; [|apply nth_error_None in Eb; lia].
  assert (A : mapof (ch s) b <> None) by (apply I; eapply nth_error_In; exact Eb). destruct (alive _ _ A) as [x Hx].
  exists (map fst (c_map x)). split; [|split].
  - unfold csize. rewrite Eb, Hx, map_length. reflexivity.
  - apply I in Hx. apply Hx.
  - intros k. unfold clookup. rewrite Eb, Hx. assert (N := mfind_none ltb KO k (c_map x)).
    destruct (mfind ltb k (c_map x)); [|tauto]. split; [congruence|]. intros _.
    destruct (In_dec_mfind ltb KO k (c_map x)) as [H|H]; [exact H|]. apply N in H. discriminate.
Qed.
End Props.

(** The key order of integers qualifies. *)
Lemma Z_key_order : key_order Z.ltb.
Proof. intros a b. unfold eqv. destruct (Z.ltb_spec a b); destruct (Z.ltb_spec b a); cbn; split; intros; try discriminate; lia. Qed.

Definition put_history : list (cop Z Z) := [CNew 0 [(1, 10); (2, 20)]; CCopy 1 0].

(** C18 as documented is false: after b = a, a.put(1, 11) makes b lose key 1. *)
Theorem C18_put_changes_other_maps_refuted :
  exists s s', crun Z.ltb (cinit 2) put_history = Ok s /\ cstep Z.ltb s (CPut 0 1 11) = Ok s' /\
    clookup Z.ltb s 1 1 = Some 10 /\ clookup Z.ltb s' 1 1 = None /\ clookup Z.ltb s' 0 1 = Some 11.
Proof. eexists. eexists. split; [vm_compute; reflexivity|]. split; [vm_compute; reflexivity|]. vm_compute. auto. Qed.

(** A history with sharing, insertion, removal and clearing. *)
Example C18_hypotheses_met : exists s s', crun Z.ltb (cinit 3) (put_history ++ [CCopy 2 1; CRemove 1 2; CInsert 0 5 50]) = Ok s /\
  cstep Z.ltb s (CClear 2) = Ok s' /\ clookup Z.ltb s' 0 5 = Some 50 /\ clookup Z.ltb s 1 2 = None /\ clookup Z.ltb s 2 2 = Some 20 /\
  csize s 0 = Some 3%nat /\ csize s' 2 = Some 0%nat /\ ~ put_on_shared Z.ltb s (CClear 2 : cop Z Z).
Proof. eexists. eexists. split; [vm_compute; reflexivity|]. split; [vm_compute; reflexivity|]. vm_compute. auto 10. Qed.

Print Assumptions C18_operations_leave_other_maps_alone_partial.
Print Assumptions C18_bodies_counted_and_freed_exactly.
Print Assumptions C19_target_becomes_the_expected_map.
Print Assumptions C19_size_counts_present_keys.
Print Assumptions C18_put_changes_other_maps_refuted.
