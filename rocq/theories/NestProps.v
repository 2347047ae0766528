(** C59: arrays of arrays edited in place are values. *)
From Verif Require Import Base RefModel RefProofs NestModel NestSpec NestProofs NestEdit NestSim.

Lemma run_any os : forall st e, SInv st -> shows st e -> run_ok st os ->
  match run st os with
  | Ok st' => exists e', effects (length (st_vars st)) e os = Some e' /\ shows st' e' /\ SInv st' /\ length (st_vars st') = length (st_vars st)
  | Abort => effects (length (st_vars st)) e os = None \/ existsb is_slice os = true
  | UB => False
  end.
Proof.
  induction os as [|o os IH]; intros st e I S R; cbn [run effects existsb].
  - exists e. auto.
  - destruct R as [R1 R2]. pose proof (step_ok st e o I S (R1 e S)) as Q. destruct (effect (length (st_vars st)) e o) as [e1|]; cbn [bind].
    + destruct Q as [(st1 & Q & S1 & I1 & L1)|[SL Q]]; rewrite Q; cbn [obind]; [|right; rewrite SL; reflexivity].
      specialize (IH st1 e1 I1 S1 (R2 st1 Q)). rewrite <- L1. destruct (run st1 os) as [st2| |]; [|destruct IH as [->|IH]; [auto|right; rewrite IH; apply orb_true_r]|exact IH].
      destruct IH as (e2 & E2 & S2 & I2 & L2). exists e2. split; [exact E2|]. split; [exact S2|]. split; [exact I2|congruence].
    + rewrite Q. left. reflexivity.
Qed.
Lemma reached n os st : run_ok (start n) os -> run (start n) os = Ok st ->
  exists e, effects n (fun _ => None) os = Some e /\ shows st e /\ SInv st /\ length (st_vars st) = n.
Proof.
  intros R E. destruct (start_ok n) as [I S]. pose proof (run_any os (start n) _ I S R) as Q. rewrite E in Q. cbn [start st_vars] in Q. rewrite repeat_length in Q. exact Q.
Qed.
Lemma shows_det st e e' : shows st e -> shows st e' -> forall x, e x = e' x.
Proof.
  intros A B x. specialize (A x). specialize (B x). destruct (nth_error (st_vars st) x) as [[v|]|]; [|congruence|congruence].
  destruct A as (t & -> & A). destruct B as (t' & -> & B). f_equal. eapply means_det; eauto.
Qed.

(** After every history, every operation changes the values of the variables as
    its specification says, or aborts where it must; a slice may abort. *)
Theorem C59_values : forall n os st, run_ok (start n) os -> run (start n) os = Ok st ->
  exists e, effects n (fun _ => None) os = Some e /\ shows st e /\
  forall o, op_ok st e o ->
  match effect n e o with
  | Some e' => (exists st', step st o = Ok st' /\ shows st' e') \/ (is_slice o = true /\ step st o = Abort)
  | None => step st o = Abort
  end.
Proof.
  intros n os st R E. destruct (reached n os st R E) as (e & EF & S & I & L). exists e. split; [exact EF|]. split; [exact S|].
  intros o Ho. pose proof (step_ok st e o I S Ho) as Q. rewrite L in Q. destruct (effect n e o); [|exact Q].
  destruct Q as [(st' & Q & S' & _)|Q]; [left; eauto|right; exact Q].
Qed.

(** The values are unique (and finite). *)
Theorem C59_one_value : forall st e e', shows st e -> shows st e' -> forall x, e x = e' x.
Proof. exact shows_det. Qed.

Lemma effect_others n e o e' y : effect n e o = Some e' -> target o <> y -> e' y = e y.
Proof.
  intros E T. assert (P : forall x t, x <> y -> put e x t y = e y) by (intros x t N; unfold put; destruct (Nat.eqb_spec y x); congruence).
  assert (B : forall A B (a : option A) (k : A -> option B) r, bind a k = Some r -> exists v, a = Some v /\ k v = Some r) by (intros A B [v|] k r H; [eauto|discriminate]).
  destruct o; cbn [effect target] in *;
    repeat match goal with
    | H : bind _ _ = Some _ |- _ => apply B in H; destruct H as (? & ? & H)
    | H : (if ?c then _ else _) = Some _ |- _ => destruct c; [|discriminate]
    | H : match ?c with Some _ => None | None => _ end = Some _ |- _ => destruct c; [discriminate|]
    end; assert (EQ := E); clear E; try (injection EQ as <-; apply P; assumption).
Qed.
Lemma effects_others n os : forall e e' y, effects n e os = Some e' -> Forall (fun o => target o <> y) os -> e' y = e y.
Proof.
  induction os as [|o os IH]; intros e e' y E T; cbn [effects] in E; [congruence|]. inversion T as [|? ? T1 T2]; subst.
  destruct (effect n e o) as [e1|] eqn:Q; cbn [bind] in E; [|discriminate]. rewrite (IH e1 e' y E T2). eapply effect_others; eauto.
Qed.

(** Whatever is done to other arrays, one that is a copy or an element of them
    or that contains them keeps its value. *)
Theorem C59_independent : forall n os st e os' st' y, run_ok (start n) os -> run (start n) os = Ok st -> shows st e ->
  run_ok st os' -> Forall (fun o => target o <> y) os' -> run st os' = Ok st' ->
  exists e', shows st' e' /\ e' y = e y.
Proof.
  intros n os st e os' st' y R E S R' T E'. destruct (reached n os st R E) as (e0 & _ & S0 & I & L).
  pose proof (run_any os' st e I S R') as Q. rewrite E' in Q. destruct Q as (e' & EF & S' & _). exists e'. split; [exact S'|].
  eapply effects_others; eauto.
Qed.

(** No history has undefined behaviour. *)
Theorem C59_defined : forall n os, run_ok (start n) os -> run (start n) os <> UB.
Proof.
  intros n os R E. destruct (start_ok n) as [I S]. pose proof (run_any os (start n) _ I S R) as Q. rewrite E in Q. exact Q.
Qed.

(** When the last variable is gone, so is all storage. *)
Theorem C59_no_leak : forall n os st, run_ok (start n) os -> run (start n) os = Ok st ->
  (forall x v, nth_error (st_vars st) x <> Some (Some v)) ->
  forall b x, nth_error (st_heap st) b <> Some (Some x).
Proof.
  intros n os st R E N b x L. destruct (reached n os st R E) as (_ & _ & _ & I & _). unfold SInv in I.
  assert (Q : var_roots (st_vars st) = []).
  { clear - N. induction (st_vars st) as [|[v|] vs IH]; [reflexivity| |].
    - exfalso. apply (N 0%nat v). reflexivity.
    - cbn. apply IH. intros x v. apply (N (S x) v). }
  rewrite Q in I. exact (inv_empty _ _ _ I L).
Qed.

(** Assigning an array to one of its own elements, x.elem_mut(0) = x, with the
    left side evaluated first (C++11 leaves the order to the compiler): the array
    contains itself, has no value, and is never freed. *)
Definition cyclic : list op := [New 0 INil; New 1 (IArr [0]%nat); SetLeft 1 0 1].
Theorem C59_cycle_refuted : exists st st', run (start 2) cyclic = Ok st /\
  (exists v, nth_error (st_vars st) 1 = Some (Some v) /\ forall t, ~ means (st_heap st) v t) /\
  run st [Delete 0; Delete 1] = Ok st' /\ st_vars st' = [None; None] /\
  exists x, nth_error (st_heap st') 0 = Some (Some x) /\ b_refs x = 1%nat.
Proof.
  eexists. eexists. split; [vm_compute; reflexivity|]. split; [|split; [vm_compute; reflexivity|split; [reflexivity|eexists; split; reflexivity]]].
  eexists. split; [reflexivity|]. cbn [st_heap]. intros t [f D]. revert t D. induction f as [|f IH]; intros t D; [discriminate|].
  cbn [denote elements s_body nth_error s_off s_len b_num b_cells length skipn firstn map Nat.leb Nat.add andb] in D.
  destruct (denote f _ _) as [u|] eqn:Q in D; [|discriminate]. exact (IH u Q).
Qed.

(** An element taken off the end (or removed) stays alive as long as the array. *)
Theorem C59_retained_refuted : exists st x,
  run (start 3) [New 0 (INum 5); New 1 (IArr [0]%nat); New 2 (IArr [1]%nat); Pull 2; Delete 1] = Ok st /\
  shows st (fun y => nth y [Some (Number 5); None; Some (Node [])] None) /\
  nth_error (st_heap st) 0 = Some (Some x) /\ hd Nil (b_cells x) = Num 5.
Proof.
  eexists. eexists. split; [vm_compute; reflexivity|]. split; [|split; reflexivity].
  intros x. do 3 (destruct x as [|x]; [cbn; try (eexists; split; [reflexivity|]; exists 3%nat; vm_compute; reflexivity); reflexivity|]).
  cbn. destruct x; reflexivity.
Qed.

(** *** Histories that meet the conditions *)
Definition starts (st : state) (x : nat) : bool :=
  match nth_error (st_vars st) x with
  | Some (Some (Arr (mkslice (Some b) o _))) =>
    match nth_error (st_heap st) b with Some (Some y) => negb (Nat.eqb (b_refs y) 1) || Nat.eqb o 0 | _ => true end
  | _ => true
  end.
Definition len_of (st : state) (x : nat) : nat :=
  match nth_error (st_vars st) x with Some (Some (Arr s)) => s_len s | _ => 0 end.
Definition op_okb (st : state) (o : op) : bool :=
  match o with
  | Push x _ => starts st x
  | Insert x pos y => starts st x && negb (Nat.eqb x y) && (pos <=? len_of st x)%nat
  | Remove x pos n => Nat.eqb pos 0 || Nat.eqb (pos + n) (len_of st x) || starts st x
  | SetLeft x _ y => negb (Nat.eqb x y)
  | _ => true
  end.
Fixpoint run_okb (st : state) (os : list op) : bool :=
  match os with
  | [] => true
  | o :: os => op_okb st o && match step st o with Ok st' => run_okb st' os | _ => true end
  end.
Lemma starts_ok st x : starts st x = true -> at_start st x.
Proof.
  unfold starts, at_start. intros H s b y N B L R. rewrite N in H. destruct s as [[b0|] o l]; cbn in *; [|discriminate]. injection B as ->. rewrite L, R in H.
  cbn in H. apply Nat.eqb_eq in H. exact H.
Qed.
Lemma len_of_ok st e x l : shows st e -> list_of e x = Some l -> length l = len_of st x.
Proof.
  intros S E. pose proof (list_of_ok st e x S) as V. rewrite E in V. destruct V as (s & f & l0 & N & _ & EL & W). unfold len_of. rewrite N.
  rewrite <- (F2_length _ _ _ W). apply (elements_view _ _ _ EL).
Qed.
Lemma op_okb_ok st e o : shows st e -> op_okb st o = true -> op_ok st e o.
Proof.
  intros S. destruct o; cbn [op_okb op_ok]; intros H; try exact Logic.I.
  - apply starts_ok, H.
  - apply negb_true_iff, Nat.eqb_neq in H. exact H.
  - apply andb_true_iff in H. destruct H as [H H3]. apply andb_true_iff in H. destruct H as [H1 H2]. split; [apply starts_ok, H1|].
    split; [apply negb_true_iff, Nat.eqb_neq in H2; exact H2|]. intros l E. rewrite (len_of_ok st e x l S E). apply Nat.leb_le, H3.
  - apply orb_true_iff in H. destruct H as [H|H]; [apply orb_true_iff in H; destruct H as [H|H]; apply Nat.eqb_eq in H|]; [left; exact H| |right; right; apply starts_ok, H].
    right. left. intros l E. rewrite (len_of_ok st e x l S E). exact H.
Qed.
Lemma run_okb_ok os : forall st, run_okb st os = true -> run_ok st os.
Proof.
  induction os as [|o os IH]; intros st H; cbn [run_ok run_okb] in *; [exact Logic.I|]. apply andb_true_iff in H. destruct H as [H1 H2].
  split; [intros e S; apply op_okb_ok; auto|]. intros st' E. rewrite E in H2. apply IH, H2.
Qed.

(** Arrays in arrays, copied, edited through each other, joined, sliced. *)
Definition prog : list op :=
  [New 0 (INum 1); New 1 (IArr [0; 0]%nat); New 2 (IArr [1; 0; 1]%nat); New 3 (ICopy 2);
   Set_ 2 1 2; Push 1 2; SetNum 1 0 7; New 4 (IElem 2 1); SetLeft 4 0 1; Insert 3 1 1; Remove 3 2 2; Pull 4; New 5 (ISlice 3 1 2); Delete 1].
Example C59_ex : exists st, run_ok (start 6) prog /\ run (start 6) prog = Ok st /\
  let pair := Node [Number 1; Number 1] in let triple := Node [pair; Number 1; pair] in
  shows st (fun y => nth y [Some (Number 1); None; Some (Node [pair; triple; pair]); Some (Node [pair; Number 7; Number 1; pair]);
    Some (Node [Node [Number 7; Number 1; Node [pair; triple; pair]]; Number 1]); Some (Node [Number 7; Number 1])] None).
Proof.
  eexists. split; [apply run_okb_ok; vm_compute; reflexivity|]. split; [vm_compute; reflexivity|]. cbv zeta.
  intros x. do 6 (destruct x as [|x]; [cbn [st_vars nth_error nth]; first [reflexivity|eexists; split; [reflexivity|]; exists 8%nat; vm_compute; reflexivity]|]).
  cbn. destruct x; reflexivity.
Qed.
(** ... and all gone in the end. *)
Example C59_ex_gone : let os := prog ++ map Delete [0; 2; 3; 4; 5]%nat in
  exists st, run_ok (start 6) os /\ run (start 6) os = Ok st /\ st_vars st = repeat None 6 /\ st_heap st = repeat None 6.
Proof.
  cbv zeta. eexists. split; [apply run_okb_ok; vm_compute; reflexivity|]. split; [vm_compute; reflexivity|]. split; reflexivity.
Qed.
(** Editing variables 1 and 2 leaves 3, a copy of 2, alone. *)
Example C59_ex_independent : exists st, run (start 6) (firstn 4 prog) = Ok st /\
  run_ok st [Set_ 2 1 2; Push 1 2] /\ Forall (fun o => target o <> 3%nat) [Set_ 2 1 2; Push 1 2].
Proof. eexists. split; [vm_compute; reflexivity|]. split; [apply run_okb_ok; vm_compute; reflexivity|]. repeat constructor; discriminate. Qed.

Print Assumptions C59_values.
Print Assumptions C59_one_value.
Print Assumptions C59_independent.
Print Assumptions C59_defined.
Print Assumptions C59_no_leak.
Print Assumptions C59_cycle_refuted.
Print Assumptions C59_retained_refuted.
