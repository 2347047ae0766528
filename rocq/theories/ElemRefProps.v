(** Property C58: references to the elements of an array.  Programs start with
    [n] empty arrays and [k] references not set; [usable] (ElemRefSpec) reads off
    the program which references may be used at its end; [rhist_ok] says that it
    used no others and that arguments were in range. *)
From Verif Require Import Base RefModel ArrayModel ArraySpec ArrayProofs ArrayHeap ArrayOps ArrayState ArraySafe ElemRefModel ElemRefSpec ElemRefProofs.
Ltac Zify.zify_post_hook ::= Z.div_mod_to_equations.

(** C58. Reading through a usable reference gives the present value of that
    element of that array. *)
Theorem C58_read : forall A n k (os : list (rop A)) rs r m v i,
  rhist_ok (rinit n k) (repeat None k) os -> rrun (rinit n k) os = Ok rs -> nth_error (usable k os) r = Some (Some (m, v, i)) ->
  exists l a rs', contents (r_st rs) v = Some l /\ 0 <= i /\ nth_error l (Z.to_nat i) = Some a /\
    rstep rs (RGet r) = Ok rs' /\ r_out rs' = r_out rs ++ [a] /\ r_st rs' = r_st rs.
Proof.
  intros A n k os rs r m v i H R E. assert (RR := rrun_RI os _ _ rs (rinit_RI n k) H R). fold (usable k os) in RR.
  destruct (on_ref_good rs _ r m v i _ (fun p => do a <- deref (hp (r_st rs)) p; Ok {| r_st := r_st rs; r_refs := r_refs rs; r_out := r_out rs ++ [a] |}) RR E)
    as (p & l & a & EO & _ & C & Na & Bi & D). rewrite D in EO. cbn [obind] in EO.
  exists l, a. eexists. split; [exact C|]. split; [lia|]. split; [exact Na|]. split; [exact EO|]. split; reflexivity.
Qed.

(** C58. Writing through a usable reference from elem_mut succeeds, sets that
    element of that array, and changes no other array. *)
Theorem C58_write : forall A n k (os : list (rop A)) rs r v i a,
  rhist_ok (rinit n k) (repeat None k) os -> rrun (rinit n k) os = Ok rs -> nth_error (usable k os) r = Some (Some (true, v, i)) ->
  exists l rs', contents (r_st rs) v = Some l /\ 0 <= i < Z.of_nat (length l) /\ rstep rs (RPut r a) = Ok rs' /\
    contents (r_st rs') v = Some (l_set l (Z.to_nat i) a) /\ forall w, w <> v -> contents (r_st rs') w = contents (r_st rs) w.
Proof.
  intros A n k os rs r v i a H R E. assert (RR := rrun_RI os _ _ rs (rinit_RI n k) H R). fold (usable k os) in RR.
  destruct (on_ref_good rs _ r true v i unit (fun _ => Ok tt) RR E) as (p & l & b & _ & _ & C & Na & Bi & D).
  destruct (use_put rs _ r v i a RR E) as (st' & ES & ST & _ & BI). exists l. eexists. split; [exact C|]. split; [exact Bi|]. split; [exact ES|].
  destruct (step_spec _ _ _ (proj1 RR) (BI : op_ok (r_st rs) (OSet v i a)) ST) as [[_ [Q|Q]]|(L & (_ & _ & C' & ISO & _) & Q)].
  - cbn [target] in Q. congruence.
  - cbn [expected] in Q. rewrite C in Q. discriminate.
  - cbn [with_st r_st target] in *. split; [|exact ISO]. rewrite C'. symmetry. rewrite <- Q by (intros X; discriminate X). cbn [expected]. rewrite C. reflexivity.
Qed.

(** C58. Passing a usable reference to push of another array, or to set of any
    array, does what passing a copy of the element does (C16).  (Missing, and
    false: push to the array itself.) *)
Theorem C58_pass_partial : forall A n k (os : list (rop A)) rs r m v i,
  rhist_ok (rinit n k) (repeat None k) os -> rrun (rinit n k) os = Ok rs -> nth_error (usable k os) r = Some (Some (m, v, i)) ->
  exists l a, contents (r_st rs) v = Some l /\ nth_error l (Z.to_nat i) = Some a /\
    (forall w j, rstep rs (RSet w j r) = rstep rs (RDo (OSet w j a))) /\
    (forall w, w <> v -> rstep rs (RPush w r) = rstep rs (RDo (OPush w a))).
Proof.
  intros A n k os rs r m v i H R E. assert (RR := rrun_RI os _ _ rs (rinit_RI n k) H R). fold (usable k os) in RR.
  destruct (on_ref_good rs _ r m v i unit (fun _ => Ok tt) RR E) as (p & l & a & _ & _ & C & Na & _). exists l, a. split; [exact C|]. split; [exact Na|]. split.
  - intros w j. destruct (use_set rs _ w j r m v i RR E) as (l' & a' & C' & Na' & Q). assert (a' = a) by congruence. subst a'. exact Q.
  - intros w N. destruct (use_push rs _ w r m v i RR E (not_eq_sym N)) as (l' & a' & C' & Na' & Q). assert (a' = a) by congruence. subst a'. exact Q.
Qed.

(** C58. elem_mut changes no array's contents, whatever it has to copy; it
    succeeds exactly for indices inside the array (given room for a copy), and
    otherwise stops at its assertion. *)
Theorem C58_take : forall A n k (os : list (rop A)) rs r v i l,
  rhist_ok (rinit n k) (repeat None k) os -> rrun (rinit n k) os = Ok rs -> contents (r_st rs) v = Some l -> is_int i ->
  (forall rs', rstep rs (RMut r v i) = Ok rs' -> forall w, contents (r_st rs') w = contents (r_st rs) w) /\
  (0 <= i < Z.of_nat (length l) -> Z.of_nat (length l) <= 2^32 - 8 -> exists rs', rstep rs (RMut r v i) = Ok rs') /\
  (~ 0 <= i < Z.of_nat (length l) -> rstep rs (RMut r v i) = Abort).
Proof.
  intros A n k os rs r v i l H R C BI. assert (RR := rrun_RI os _ _ rs (rinit_RI n k) H R). fold (usable k os) in RR.
  split; [intros rs' E; exact (proj1 (proj2 (proj2 (mut_RI rs _ r v i rs' RR BI ltac:(congruence) E))))|].
  destruct RR as (I & _ & _). assert (C0 := C). unfold contents in C. destruct (nth_error (vars (r_st rs)) v) as [s|] eqn:Ev; [|discriminate].
  destruct (Inv_view _ v s I Ev) as (KS & L & V & _). assert (L = l) by congruence. subst L. destruct (view_len _ s l KS V) as (LN & _).
  cbn [rstep]. unfold on_var. rewrite Ev. unfold elem_mut, cassert. split.
  - intros Bi BL. destruct (Z.leb_spec 0 i); [|lia]. destruct (Z.ltb_spec i (s_num s)); [|lia]. cbn [andb].
    assert (EB : exists b, s_body s = Some b) by (unfold slice_ok in KS; destruct (s_body s); [eauto|lia]). destruct EB as [b EB]. rewrite EB.
    destruct (store_spec _ v s (fun _ => True) Ev I) as (hs & WS & _ & _).
    destruct (unshare_ok _ s hs 0 l WS V ltac:(lia) ltac:(lia)) as (h1 & s1 & U). rewrite U. cbn [obind].
    destruct (unshare_spec _ _ _ _ _ _ _ WS V U) as (_ & _ & _ & (b1 & x1 & E1 & X1 & _) & _). rewrite E1. unfold hget. rewrite X1. cbn [obind store fst snd]. eauto.
  - intros NB. destruct (Z.leb_spec 0 i); cbn [andb obind]; [|reflexivity]. destruct (Z.ltb_spec i (s_num s)); [lia|reflexivity].
Qed.

(** C58. C15 with references about: every array keeps well-defined contents, and
    an operation changes no array but its own, even while there are references
    (usable or not) to the elements. *)
Theorem C58_isolation : forall A n k (os : list (rop A)) rs,
  rhist_ok (rinit n k) (repeat None k) os -> rrun (rinit n k) os = Ok rs ->
  (forall v s, nth_error (vars (r_st rs)) v = Some s -> exists l, contents (r_st rs) v = Some l) /\
  (forall o rs' w, op_ok (r_st rs) o -> rstep rs (RDo o) = Ok rs' -> w <> target o -> contents (r_st rs') w = contents (r_st rs) w).
Proof.
  intros A n k os rs H R. assert (RR := rrun_RI os _ _ rs (rinit_RI n k) H R). destruct RR as (I & _ & _). split.
  - intros v s E. destruct (Inv_view _ v s I E) as (_ & l & _ & C). eauto.
  - intros o rs' w K E N. cbn [rstep] in E. apply obind_ok in E as (st' & ES & E). injection E as <-. cbn [with_st r_st].
    destruct (step_spec _ o st' I K ES) as [[-> _]|(L & (_ & _ & _ & S & _) & _)]; [reflexivity|exact (S w N)].
Qed.

(** C58 refuted for an array's own element: a.push(a.elem_mut(0)) on a full
    array reads the storage that growing has just deleted. *)
Theorem C58_push_own_refuted : exists rs,
  rrun (rinit 1 1) [RDo (OMake 0 [1;2;3;4;5;6;7;8] 0); RMut 0 0 0] = Ok rs /\
  nth_error (usable 1 [RDo (OMake 0 [1;2;3;4;5;6;7;8] 0); RMut 0 0 0]) 0 = Some (Some (true, 0%nat, 0)) /\
  contents (r_st rs) 0 = Some [1;2;3;4;5;6;7;8] /\ rstep rs (RPush 0 0) = UB.
Proof. eexists. split; [vm_compute; reflexivity|]. vm_compute. auto. Qed.

(** Why sharing ends a writable reference: after b = a, writing through a
    reference taken before changes both arrays; and after a push that had to
    grow, the old reference is dangling. *)
Theorem C58_stale_refuted :
  (exists rs rs', rrun (rinit 2 1) [RDo (OMake 0 [1;2;3] 0); RMut 0 0 1; RDo (OCopy 1 0)] = Ok rs /\
     rstep rs (RPut 0 9) = Ok rs' /\ contents (r_st rs') 0 = Some [1;9;3] /\ contents (r_st rs') 1 = Some [1;9;3]) /\
  (exists rs, rrun (rinit 2 1) [RDo (OMake 0 [1;2;3;4;5;6;7;8] 0); RMut 0 0 1; RDo (OPush 0 9)] = Ok rs /\
     rstep rs (RGet 0) = UB /\ rstep rs (RPut 0 9) = UB).
Proof.
  split.
  - do 2 eexists. split; [vm_compute; reflexivity|]. split; [vm_compute; reflexivity|]. vm_compute. auto.
  - eexists. split; [vm_compute; reflexivity|]. vm_compute. auto.
Qed.

(** A program that meets the hypotheses: a shared array is made writable, two
    references are used, one passed to another array's push and one to the
    array's own set, and operations on other arrays come in between. *)
Definition demo : list (rop Z) :=
  [RDo (OMake 0 [1;2;3] 0); RDo (OCopy 1 0); RPeek 2 1 0; RMut 0 0 1; RPut 0 7; RDo (OPush 1 5); RMut 1 0 2; RSet 0 0 1; RPush 1 0; RDo (OPlus 2 0 6); RPut 1 4; RGet 0].
Lemma rhist_cons (st st' : rstate Z) ls o r : rstep st o = Ok st' -> rop_ok st ls o -> rhist_ok st' (track ls o) r -> rhist_ok st ls (o :: r).
Proof. intros E K H. cbn [rhist_ok]. split; [exact K|]. rewrite E. exact H. Qed.
Example C58_demo_ok : rhist_ok (rinit 3 3) (repeat None 3) demo.
Proof.
  unfold demo.
  repeat (eapply rhist_cons; [vm_compute; reflexivity| |];
    [cbn [rop_ok op_ok]; first [ exact Logic.I | unfold is_index; cbn; lia
      | split; [unfold is_int; lia|vm_compute; discriminate]
      | eexists; split; [vm_compute; reflexivity|cbn; lia]
      | split; [unfold is_int; lia|do 3 eexists; vm_compute; reflexivity]
      | do 3 eexists; split; [vm_compute; reflexivity|discriminate]
      | do 3 eexists; vm_compute; reflexivity | do 2 eexists; vm_compute; reflexivity ] |]).
  exact Logic.I.
Qed.
Example C58_demo_run : exists rs, rrun (rinit 3 3) demo = Ok rs /\ r_out rs = [7] /\ contents (r_st rs) 0 = Some [3;7;4] /\
  contents (r_st rs) 1 = Some [1;2;3;5;7] /\ contents (r_st rs) 2 = Some [3;7;3;6] /\
  usable 3 demo = [Some (true, 0%nat, 1); Some (true, 0%nat, 2); None].
Proof. eexists. split; [vm_compute; reflexivity|]. vm_compute. auto. Qed.

Print Assumptions C58_read.
Print Assumptions C58_write.
Print Assumptions C58_pass_partial.
Print Assumptions C58_take.
Print Assumptions C58_isolation.
Print Assumptions C58_push_own_refuted.
Print Assumptions C58_stale_refuted.
