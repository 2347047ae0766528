(** C28, C29: variants. *)
From Verif Require Import Base RefModel RefProofs CowModel StrFindSpec StrNumSpec StrNumProofs VarModel VarSpec VarProofs VarSim VarCoerce.

(** ** Histories *)
Lemma coerce_step st e x ty lost : SInv st lost -> shows st e ->
  step st (Coerce x ty) = Abort \/
  (step st (Coerce x ty) = UB /\ numeric ty = true /\ exists a b, e x = Some (Str (a ++ b)) /\ numeral 0 a (- 2^63)) \/
  exists st' t lost', step st (Coerce x ty) = Ok st' /\ shows st' (put e x (Some t)) /\ SInv st' (lost' ++ lost) /\
    length (st_vars st') = length (st_vars st) /\
    (lost' = [] \/ numeric ty = true /\ exists tx, e x = Some (Str tx)).
Proof.
  intros I S. cbn [step]. pose proof (var_ok st e x S) as V. destruct (e x) as [t|] eqn:EX; [|left; rewrite V; reflexivity].
  destruct V as (v & f & N & V & D). rewrite V. cbn [obind].
  assert (Lx : (x < length (st_vars st))%nat) by (apply nth_error_Some; congruence).
  destruct (coerce_ok f (st_heap st) v t ty (var_roots (upd (st_vars st) x None) ++ lost)) as [C|[(C & NT & a & b & -> & NU)|(h' & v' & t' & l' & C & I' & K & M & L)]].
  { revert I. apply inv_perm. intros c. rewrite !cnt_app, (roots_split _ _ _ c N). lia. }
  { exact D. }
  - left. rewrite C. reflexivity.
  - right. left. rewrite C. split; [reflexivity|]. split; [exact NT|]. exists a, b. auto.
  - right. right. rewrite C. cbn [obind fst snd]. exists (mkstate h' (upd (st_vars st) x (Some v'))), t', l'. split; [reflexivity|].
    split; [|split; [|split]].
    + apply put_ok; auto; [|eauto]. intros y w Ny Hw u [fq Dq]. exists fq. apply K; [|exact Dq]. apply incl_appl. eapply roots_without; eauto.
    + unfold SInv. cbn [st_heap st_vars]. revert I'. apply inv_perm. intros c. rewrite !cnt_app, (roots_put _ _ _ v' c N). lia.
    + cbn [st_vars]. apply upd_length.
    + destruct L as [->|[NT TS]]; [left; reflexivity|right; split; [exact NT|]]. destruct t; try discriminate TS. eauto.
Qed.

Lemma write_step st e x ty z lost : SInv st lost -> shows st e ->
  step st (Write x ty z) = Abort \/
  (step st (Write x ty z) = UB /\ numeric ty = true /\ exists a b, e x = Some (Str (a ++ b)) /\ numeral 0 a (- 2^63)) \/
  exists st' t lost', step st (Write x ty z) = Ok st' /\ shows st' (put e x (Some t)) /\ SInv st' (lost' ++ lost) /\
    length (st_vars st') = length (st_vars st) /\
    (lost' = [] \/ numeric ty = true /\ exists tx, e x = Some (Str tx)).
Proof.
  intros I S. pose proof (var_ok st e x S) as V. destruct (e x) as [t|] eqn:EX; [|left; cbn [step]; rewrite V; reflexivity].
  destruct V as (v & f & N & V & D). destruct (numeric ty) eqn:NT.
  2: { left. cbn [step]. rewrite V. cbn [obind]. destruct ty; try discriminate NT; reflexivity. }
  rewrite (write_eq st x ty z NT), V. cbn [obind].
  assert (Lx : (x < length (st_vars st))%nat) by (apply nth_error_Some; congruence).
  destruct (coerce_ok f (st_heap st) v t ty (var_roots (upd (st_vars st) x None) ++ lost)) as [C|[(C & _ & a & b & -> & NU)|(h' & v' & t' & l' & C & I' & K & M & L)]].
  { revert I. apply inv_perm. intros c. rewrite !cnt_app, (roots_split _ _ _ c N). lia. }
  { exact D. }
  - left. rewrite C. reflexivity.
  - right. left. rewrite C. split; [reflexivity|]. split; [reflexivity|]. exists a, b. auto.
  - right. right. rewrite C. cbn [obind fst snd].
    destruct (poke_ok h' v' ty z (coerce_numeric _ _ _ _ _ C NT)) as (O1 & O2 & u & MU).
    exists (mkstate h' (upd (st_vars st) x (Some (poke v' ty z)))), u, l'. split; [reflexivity|].
    split; [|split; [|split]].
    + apply put_ok; auto; [|eauto]. intros y w Ny Hw q [fq Dq]. exists fq. apply K; [|exact Dq]. apply incl_appl. eapply roots_without; eauto.
    + unfold SInv. cbn [st_heap st_vars]. rewrite O1 in I'. revert I'. apply inv_perm. intros c. rewrite !cnt_app, (roots_put _ _ _ _ c N), O2. cbn. lia.
    + cbn [st_vars]. apply upd_length.
    + destruct L as [->|[_ TS]]; [left; reflexivity|right; split; [reflexivity|]]. destruct t; try discriminate TS. eauto.
Qed.

(** Both of them. *)
Lemma coercing_step st e o x ty lost : SInv st lost -> shows st e -> coerces o = Some (x, ty) ->
  step st o = Abort \/
  (step st o = UB /\ numeric ty = true /\ exists a b, e x = Some (Str (a ++ b)) /\ numeral 0 a (- 2^63)) \/
  exists st' t lost', step st o = Ok st' /\ shows st' (put e x (Some t)) /\ SInv st' (lost' ++ lost) /\
    length (st_vars st') = length (st_vars st) /\
    (lost' = [] \/ numeric ty = true /\ exists tx, e x = Some (Str tx)).
Proof.
  intros I S C. destruct o; try discriminate C; cbn [coerces] in C; injection C as -> ->; [apply coerce_step|apply write_step]; assumption.
Qed.
Lemma coerces_target o x ty : coerces o = Some (x, ty) -> target o = x.
Proof. destruct o; cbn; congruence. Qed.
Lemma is_coerce_some o : is_coerce o = true -> exists x ty, coerces o = Some (x, ty).
Proof. unfold is_coerce. destruct (coerces o) as [[x ty]|]; [eauto|discriminate]. Qed.

Lemma start_ok n : SInv (start n) [] /\ shows (start n) (fun _ => None) /\ length (st_vars (start n)) = n.
Proof.
  assert (R : forall x, nth_error (repeat (@None variant) n) x = Some None \/ nth_error (repeat (@None variant) n) x = None).
  { induction n as [|n IH]; intros [|x]; cbn; auto. }
  split; [|split].
  - split; [|intros b x k L; unfold live in L; cbn in L; destruct b; discriminate].
    intros b. unfold start. cbn [st_heap st_vars]. destruct b; cbn [nth_error]; (split; [|reflexivity]); rewrite app_nil_r.
    all: assert (Q : var_roots (repeat None n) = []) by (induction n as [|m IH]; cbn; [reflexivity|apply IH; intros x; apply (R (S x))]); rewrite Q; reflexivity.
  - intros x. cbn [start st_vars]. destruct (R x) as [->| ->]; reflexivity.
  - apply repeat_length.
Qed.

Lemma step_any st e o lost : SInv st lost -> shows st e -> op_fits o -> forall st', step st o = Ok st' ->
  exists e' lost', shows st' e' /\ SInv st' lost' /\ length (st_vars st') = length (st_vars st) /\
    (forall y, y <> target o -> e' y = e y).
Proof.
  intros I S F st' E. destruct (is_coerce o) eqn:C.
  - destruct (is_coerce_some o C) as (x & ty & CO). destruct (coercing_step st e o x ty lost I S CO) as [Q|[(Q & _)|(st1 & t & l' & Q & S' & I' & L & _)]]; try congruence.
    assert (st1 = st') by congruence. subst st1. exists (put e x (Some t)), (l' ++ lost). split; [exact S'|]. split; [exact I'|]. split; [exact L|].
    intros y Ny. unfold put. rewrite (coerces_target o x ty CO) in Ny. destruct (Nat.eqb_spec y x); [contradiction|reflexivity].
  - pose proof (step_ok st e o lost I S F C) as Q. destruct (effect (length (st_vars st)) e o) as [e'|] eqn:EF; [|congruence].
    destruct Q as (st1 & Q & S' & I' & L). assert (st1 = st') by congruence. subst st1. exists e', lost. split; [exact S'|]. split; [exact I'|]. split; [exact L|].
    intros y Ny. assert (G : exists t, e' = put e (target o) t).
    { destruct o as [x i|x z|x z i|x| |]; cbn [effect target] in *; try discriminate.
      - destruct (x <? length (st_vars st))%nat; [|discriminate]. destruct (e x); [discriminate|]. destruct (expected e i); cbn in EF; [|discriminate]. injection EF as <-. eauto.
      - destruct (e x); cbn in EF; [|discriminate]. destruct (e z); cbn in EF; [|discriminate]. injection EF as <-. eauto.
      - destruct (e x); cbn in EF; [|discriminate]. destruct (element e z i); cbn in EF; [|discriminate]. injection EF as <-. eauto.
      - destruct (e x); cbn in EF; [|discriminate]. injection EF as <-. eauto. }
    destruct G as (t & ->). unfold put. destruct (Nat.eqb_spec y (target o)); [contradiction|reflexivity].
Qed.

Lemma run_any os : forall st e lost, SInv st lost -> shows st e -> Forall op_fits os -> forall st', run st os = Ok st' ->
  exists e' lost', shows st' e' /\ SInv st' lost' /\ length (st_vars st') = length (st_vars st) /\
    (forall y, Forall (fun o => target o <> y) os -> e' y = e y).
Proof.
  induction os as [|o os IH]; intros st e lost I S F st' E; cbn [run] in E.
  - injection E as <-. exists e, lost. auto.
  - inversion F as [|? ? F1 F2]; subst. destruct (step st o) as [st1| |] eqn:E1; cbn [obind] in E; try discriminate.
    destruct (step_any st e o lost I S F1 st1 E1) as (e1 & l1 & S1 & I1 & L1 & K1).
    destruct (IH st1 e1 l1 I1 S1 F2 st' E) as (e2 & l2 & S2 & I2 & L2 & K2).
    exists e2, l2. split; [exact S2|]. split; [exact I2|]. split; [congruence|].
    intros y H. inversion H as [|? ? H1 H2]; subst. rewrite (K2 y H2). apply K1. congruence.
Qed.

Lemma reached_any n os st : Forall op_fits os -> run (start n) os = Ok st ->
  exists e lost, shows st e /\ SInv st lost /\ length (st_vars st) = n.
Proof.
  intros F E. destruct (start_ok n) as (I & S & L). destruct (run_any os _ _ _ I S F st E) as (e & l & S' & I' & L' & _).
  exists e, l. split; [exact S'|]. split; [exact I'|]. congruence.
Qed.

Lemma shows_det st e e' : shows st e -> shows st e' -> forall x, e x = e' x.
Proof.
  intros A B x. specialize (A x). specialize (B x). destruct (nth_error (st_vars st) x) as [[v|]|]; try congruence.
  destruct A as (t & -> & M). destruct B as (t' & -> & M'). f_equal. eapply means_det; eauto.
Qed.

(** ** C28 *)

(** After any history every variable in scope has a value, and every operation
    (construction from anything, copy, assignment, including that of an element
    of an array to the variable that holds the array, destruction) does to the
    values exactly what it should; what is not a program, and using a variant
    as what it is not, aborts. *)
Theorem C28_values : forall n os st, Forall op_fits os -> run (start n) os = Ok st ->
  exists e, shows st e /\
  forall o, op_fits o -> is_coerce o = false ->
  match effect n e o with
  | Some e' => exists st', step st o = Ok st' /\ shows st' e'
  | None => step st o = Abort
  end.
Proof.
  intros n os st F E. destruct (reached_any n os st F E) as (e & lost & S & I & L). exists e. split; [exact S|].
  intros o Fo C. pose proof (step_ok st e o lost I S Fo C) as Q. rewrite L in Q. destruct (effect n e o); [|exact Q].
  destruct Q as (st' & Q & S' & _). eauto.
Qed.

(** The values are unique. *)
Theorem C28_one_value : forall st e e', shows st e -> shows st e' -> forall x, e x = e' x.
Proof. exact shows_det. Qed.

(** Whatever is done to other variables, coercions included, a variable keeps
    its value. *)
Theorem C28_independent : forall n os st e os' st' y, Forall op_fits os -> run (start n) os = Ok st -> shows st e ->
  Forall op_fits os' -> Forall (fun o => target o <> y) os' -> run st os' = Ok st' ->
  exists e', shows st' e' /\ e' y = e y.
Proof.
  intros n os st e os' st' y F E S F' T E'. destruct (reached_any n os st F E) as (e0 & lost & S0 & I & L).
  destruct (run_any os' st e lost I S F' st' E') as (e' & l' & S' & _ & _ & K). exists e'. split; [exact S'|]. apply K, T.
Qed.

(** No history has undefined behaviour, except by coercing to a number a string
    that begins with a numeral of value -2^63. *)
Theorem C28_defined : forall n os, Forall op_fits os -> run (start n) os = UB ->
  exists os1 o x ty os2 st e a b, os = os1 ++ o :: os2 /\ coerces o = Some (x, ty) /\ run (start n) os1 = Ok st /\ shows st e /\
    e x = Some (Str (a ++ b)) /\ numeral 0 a (- 2^63).
Proof.
  intros n os F E. destruct (start_ok n) as (I & S & _). revert I S E. generalize (start n) as s0, (@nil nat) as lost, (fun _ : nat => @None tree) as e.
  induction os as [|o os IH]; intros s0 lost e I S E; cbn [run] in E; [discriminate|]. inversion F as [|? ? F1 F2]; subst.
  destruct (step s0 o) as [s1| |] eqn:E1; cbn [obind] in E; [|discriminate|].
  - destruct (step_any s0 e o lost I S F1 s1 E1) as (e1 & l1 & S1 & I1 & _ & _).
    destruct (IH F2 s1 l1 e1 I1 S1 E) as (os1 & o' & x & ty & os2 & st & e' & a & b & -> & CO & R & Q). exists (o :: os1), o', x, ty, os2, st, e', a, b.
    split; [reflexivity|]. split; [exact CO|]. split; [cbn [run]; rewrite E1; exact R|exact Q].
  - destruct (is_coerce o) eqn:C.
    + destruct (is_coerce_some o C) as (x & ty & CO). destruct (coercing_step s0 e o x ty lost I S CO) as [Q|[(Q & NT & a & b & EX & NU)|(st1 & t & l' & Q & _)]]; try congruence.
      exists [], o, x, ty, os, s0, e, a, b. split; [reflexivity|]. auto.
    + pose proof (step_ok s0 e o lost I S F1 C) as Q. destruct (effect _ e o); [destruct Q as (? & Q & _)|]; congruence.
Qed.

(** When the last variable is gone, so are all bodies, if no string was
    coerced to a number on the way. *)
Theorem C28_no_leak_partial : forall n os st, Forall op_fits os -> run (start n) os = Ok st ->
  (forall os1 o x ty os2 s1 v, os = os1 ++ o :: os2 -> coerces o = Some (x, ty) -> run (start n) os1 = Ok s1 ->
     nth_error (st_vars s1) x = Some (Some v) -> v_type v = TString -> numeric ty = false) ->
  (forall x v, nth_error (st_vars st) x <> Some (Some v)) ->
  forall b, match nth_error (st_heap st) b with Some (Some _) => False | _ => True end.
Proof.
  intros n os st F E C N. assert (I : SInv st []).
  { destruct (start_ok n) as (I & S & _). clear N. revert I S E C. generalize (start n) as s0, (fun _ : nat => @None tree) as e.
    induction os as [|o os IH]; intros s0 e I S E C; cbn [run] in E; [injection E as <-; exact I|]. inversion F as [|? ? F1 F2]; subst.
    destruct (step s0 o) as [s1| |] eqn:E1; cbn [obind] in E; try discriminate.
    assert (G : exists e1, shows s1 e1 /\ SInv s1 []).
    { destruct (is_coerce o) eqn:CO.
      - destruct (is_coerce_some o CO) as (x & ty & CC). destruct (coercing_step s0 e o x ty [] I S CC) as [Q|[(Q & _)|(st1 & t & l' & Q & S' & I' & L & LL)]]; try congruence.
        assert (st1 = s1) by congruence. subst st1. exists (put e x (Some t)). split; [exact S'|]. destruct LL as [->|[NT (tx & EX)]]; [exact I'|].
        exfalso. pose proof (var_ok s0 e x S) as V. rewrite EX in V. destruct V as (v & f & Nv & _ & D).
        specialize (C [] o x ty os s0 v eq_refl CC eq_refl Nv (denote_type _ _ _ _ D)). congruence.
      - pose proof (step_ok s0 e o [] I S F1 CO) as Q. destruct (effect _ e o) as [e1|]; [|congruence].
        destruct Q as (st1 & Q & S' & I' & _). assert (st1 = s1) by congruence. subst st1. eauto. }
    destruct G as (e1 & S1 & I1). apply (IH F2 s1 e1 I1 S1 E).
    intros os1 o' x ty os2 s2 v -> CO R. apply (C (o :: os1) o' x ty os2 s2 v); [reflexivity|exact CO|]. cbn [run]. rewrite E1. exact R. }
  intros b. destruct (nth_error (st_heap st) b) as [[x|]|] eqn:L; auto. apply (inv_empty (st_heap st) b x); [|exact L].
  unfold SInv in I. assert (Q : var_roots (st_vars st) = []).
  { clear - N. induction (st_vars st) as [|[v|] vs IH]; [reflexivity| |].
    - exfalso. apply (N 0%nat v). reflexivity.
    - cbn. apply IH. intros x v. apply (N (S x) v). }
  rewrite Q in I. exact I.
Qed.

(** Coercing a string to a number forgets the string. *)
Theorem C28_no_leak_refuted : exists st,
  run (start 1) [New 0 (IStr [52; 50]); Coerce 0 TLongLong; Delete 0] = Ok st /\
  st_vars st = [None] /\ nth_error (st_heap st) 0 = Some (Some (mkbody 1 (DStr [52; 50]))).
Proof. eexists. split; [vm_compute; reflexivity|]. split; reflexivity. Qed.

(** An array, copied, with a map of it, one of whose elements replaces it. *)
Definition prog : list op :=
  [New 0 (IStr [97; 98; 99]); New 1 (IInt (-7)); New 2 (IVars [0; 1]%nat); New 3 (ICopy 2);
   New 4 (IMap [0]%nat [2]%nat); New 5 (IPair 4 3); AssignElem 2 2 0; Delete 0; Assign 1 1; New 0 (ISub 2 1 9)].
Example C28_ex : exists st, Forall op_fits prog /\ run (start 6) prog = Ok st /\
  shows st (fun x => nth x [Some (Str [98; 99]); Some (Int (-7)); Some (Str [97; 98; 99]); Some (Vars [Str [97; 98; 99]; Int (-7)]);
    Some (Map [([97; 98; 99], Vars [Str [97; 98; 99]; Int (-7)])]);
    Some (Vars [Map [([97; 98; 99], Vars [Str [97; 98; 99]; Int (-7)])]; Vars [Str [97; 98; 99]; Int (-7)]])] None).
Proof.
  eexists. split; [repeat (apply Forall_cons || apply Forall_nil); cbn; try exact I; lia|]. split; [vm_compute; reflexivity|].
  intros x. do 6 (destruct x as [|x]; [eexists; split; [reflexivity|]; exists 5%nat; vm_compute; reflexivity|]).
  cbn. destruct x; reflexivity.
Qed.

(** Slices and keys: a slice of an array survives it; a key that is missing. *)
Definition prog2 : list op :=
  [New 0 (IStr [97]); New 1 (IInt 7); New 2 (IVars [0; 1; 0; 1]%nat); New 3 (ISlice 2 1 9); Delete 2;
   New 2 (IMap [0]%nat [3]%nat); New 4 (IKey 2 0); New 5 (IDefault TString); New 6 (IKey 2 5); Assign 2 3; AssignElem 3 3 1].
Example C28_ex2 : exists st, Forall op_fits prog2 /\ run (start 7) prog2 = Ok st /\
  shows st (fun x => nth x [Some (Str [97]); Some (Int 7); Some (Vars [Int 7; Str [97]; Int 7]); Some (Str [97]);
    Some (Vars [Int 7; Str [97]; Int 7]); Some (Str []); Some Null] None).
Proof.
  eexists. split; [repeat (apply Forall_cons || apply Forall_nil); cbn; try exact I; lia|]. split; [vm_compute; reflexivity|].
  intros x. do 7 (destruct x as [|x]; [eexists; split; [reflexivity|]; exists 5%nat; vm_compute; reflexivity|]).
  cbn. destruct x; reflexivity.
Qed.

(** ** C29 *)

(** "After a coercion the type is the new one": not between the number types. *)
Theorem C29_type_refuted : exists st v, run (start 1) [New 0 (ILong 5); Coerce 0 TInteger] = Ok st /\
  nth_error (st_vars st) 0 = Some (Some v) /\ v_type v = TLong.
Proof. eexists. eexists. split; [vm_compute; reflexivity|]. split; reflexivity. Qed.

(** A string to an Integer or a Long: "12" aborts, "12x" is taken for 12. *)
Theorem C29_string_refuted : forall ty, ty = TInteger \/ ty = TLong ->
  run (start 1) [New 0 (IStr [49; 50]); Coerce 0 ty] = Abort /\
  exists st, run (start 1) [New 0 (IStr [49; 50; 120]); Coerce 0 ty] = Ok st /\ reads ty st 0 = Some 12.
Proof. intros ty [-> | ->]; (split; [vm_compute; reflexivity|]; eexists; split; [vm_compute; reflexivity|]; reflexivity). Qed.

(** Numbers: the accessor reads the number if it fits the requested type and
    aborts otherwise; the variant stays what it was, type included. *)
Theorem C29_numbers_partial : forall n os st e x t z ty, Forall op_fits os -> run (start n) os = Ok st -> shows st e ->
  e x = Some t -> number t = Some z -> numeric ty = true ->
  (in_type ty z -> exists st', step st (Coerce x ty) = Ok st' /\ reads ty st' x = Some z /\ shows st' e) /\
  (~ in_type ty z -> step st (Coerce x ty) = Abort).
Proof.
  intros n os st e x t z ty F E S EX N NT. cbn [step]. pose proof (var_ok st e x S) as V. rewrite EX in V.
  destruct V as (v & f & Nv & V & D). rewrite V. cbn [obind]. destruct (coerce_number f (st_heap st) v t z ty D N NT) as [A B].
  assert (Lx : (x < length (st_vars st))%nat) by (apply nth_error_Some; congruence).
  split; intros H.
  - destruct (A H) as (v' & C & D' & _ & R). rewrite C. cbn [obind fst snd]. eexists. split; [reflexivity|]. split.
    + unfold reads. cbn [st_vars]. rewrite nth_upd_any, Nat.eqb_refl by exact Lx. f_equal. exact R.
    + intros y. cbn [st_vars st_heap]. rewrite nth_upd_any by exact Lx. destruct (Nat.eqb_spec y x) as [->|Ny]; [|apply (S y)].
      exists t. split; [exact EX|]. exists f. exact D'.
  - rewrite (B H). reflexivity.
Qed.

(** A number becomes its decimal notation. *)
Theorem C29_to_string : forall n os st e x t z, Forall op_fits os -> run (start n) os = Ok st -> shows st e ->
  e x = Some t -> number t = Some z ->
  exists st' l, step st (Coerce x TString) = Ok st' /\ shows st' (put e x (Some (Str l))) /\ decimal_text z l.
Proof.
  intros n os st e x t z F E S EX N. destruct (reached_any n os st F E) as (e0 & lost & _ & I & _).
  cbn [step]. pose proof (var_ok st e x S) as V. rewrite EX in V. destruct V as (v & f & Nv & V & D). rewrite V. cbn [obind].
  destruct (coerce_string f (st_heap st) v t z (var_roots (upd (st_vars st) x None) ++ lost)) as (h' & v' & C & I' & K & D').
  { revert I. apply inv_perm. intros c. rewrite !cnt_app, (roots_split _ _ _ c Nv). lia. }
  { exact D. } { exact N. }
  rewrite C. cbn [obind fst snd]. eexists. exists (decimal z). split; [reflexivity|].
  assert (Lx : (x < length (st_vars st))%nat) by (apply nth_error_Some; congruence). split.
  - apply put_ok; auto; [|eexists; split; [reflexivity|exists 1%nat; exact D']].
    intros y w Ny Hw u [fq Dq]. exists fq. apply K; [|exact Dq]. apply incl_appl. eapply roots_without; eauto.
  - destruct (denote_number _ _ _ _ _ D N) as (_ & _ & _ & RZ). apply decimal_ok. destruct (v_type v); cbn [in_type] in RZ; lia.
Qed.

(** A string that is a numeral (C26) in 32 bits becomes a LongLong of its value;
    when it becomes one, then it is a numeral, and the value agrees with it
    modulo 2^32. *)
Theorem C29_to_longlong_partial : forall n os st e x tx, Forall op_fits os -> run (start n) os = Ok st -> shows st e ->
  e x = Some (Str tx) ->
  (forall k, numeral 0 tx k -> -2^31 <= k < 2^31 ->
     exists st', step st (Coerce x TLongLong) = Ok st' /\ shows st' (put e x (Some (LongLong k)))) /\
  (forall st', step st (Coerce x TLongLong) = Ok st' ->
     exists k, numeral 0 tx k /\ shows st' (put e x (Some (LongLong (s32 k))))).
Proof.
  intros n os st e x tx F E S EX. cbn [step]. pose proof (var_ok st e x S) as V. rewrite EX in V.
  destruct V as (v & f & Nv & V & D). rewrite V. cbn [obind]. pose proof (coerce_of_string f (st_heap st) v tx TLongLong D eq_refl) as C.
  assert (Lx : (x < length (st_vars st))%nat) by (apply nth_error_Some; congruence). cbn [vtype_eqb] in C. split.
  - intros k NU B. destruct (numeral_in 0 tx k) as (neg & u & NN & EK & EP); [left; reflexivity|exact NU|]. rewrite EP in C.
    unfold outcome_of in C. assert (BU : u <= 2^31) by (destruct neg; lia).
    destruct (Z.leb_spec (2^64) u); [lia|]. destruct (Z.eqb_spec u (2^63)); [lia|]. rewrite andb_false_r in C.
    destruct (Z.gtb_spec u (2^63 - 1 + (if neg then 1 else 0))); [destruct neg; lia|]. rewrite <- EK in C. cbn [Z.eqb Bool.eqb] in C.
    destruct C as (v' & C & _ & D'). rewrite C. cbn [obind fst snd]. eexists. split; [reflexivity|].
    apply put_ok; auto. eexists. split; [reflexivity|]. exists 1%nat. rewrite D'. cbn [of_number]. rewrite s32_id, s64_id by lia. reflexivity.
  - intros st' E'. destruct (pint 0 tx) as [[k' er]|] eqn:EP; [|rewrite C in E'; discriminate].
    destruct (Z.eqb_spec er 0) as [->|]; cbn [Bool.eqb] in C; [|rewrite C in E'; discriminate].
    destruct (numeral_out 0 tx k') as (k & NU & _ & ->); [left; reflexivity|exact EP|]. exists k. split; [exact NU|].
    destruct C as (v' & C & _ & D'). rewrite C in E'. cbn [obind fst snd] in E'. injection E' as <-.
    apply put_ok; auto. eexists. split; [reflexivity|]. exists 1%nat. rewrite D'. cbn [of_number]. pose proof (s32_range k). rewrite s64_id by lia. reflexivity.
Qed.

(** Coercing to the same type does nothing; to None, it discards the value; what
    is not a conversion between numbers and strings is reported. *)
Theorem C29_other : forall n os st e x t ty, Forall op_fits os -> run (start n) os = Ok st -> shows st e -> e x = Some t ->
  (ty = type_of t -> exists st', step st (Coerce x ty) = Ok st' /\ shows st' e) /\
  (ty = TNone -> exists st', step st (Coerce x ty) = Ok st' /\ shows st' (put e x (Some Null))) /\
  (ty <> type_of t -> ty <> TNone ->
   (type_of t = TNone \/ type_of t = TStrArray \/ type_of t = TVarArray \/ type_of t = TStrVarMap \/
    ty = TStrArray \/ ty = TVarArray \/ ty = TStrVarMap) -> step st (Coerce x ty) = Abort).
Proof.
  intros n os st e x t ty F E S EX. destruct (reached_any n os st F E) as (e0 & lost & _ & I & _).
  cbn [step]. pose proof (var_ok st e x S) as V. rewrite EX in V. destruct V as (v & f & Nv & V & D). rewrite V. cbn [obind].
  assert (Lx : (x < length (st_vars st))%nat) by (apply nth_error_Some; congruence).
  pose proof (denote_type _ _ _ _ D) as TT. split; [|split].
  - intros ->. rewrite coerce_same by exact TT. cbn [obind fst snd]. eexists. split; [reflexivity|].
    intros y. cbn [st_vars st_heap]. rewrite nth_upd_any by exact Lx. destruct (Nat.eqb_spec y x) as [->|Ny]; [|apply (S y)].
    exists t. split; [exact EX|]. exists f. exact D.
  - intros ->. destruct (vtype_eqb (v_type v) TNone) eqn:Q.
    + assert (TN : v_type v = TNone) by (destruct (v_type v); try discriminate Q; reflexivity).
      rewrite (coerce_same _ _ _ TN). cbn [obind fst snd]. eexists. split; [reflexivity|].
      apply put_ok; auto. exists Null. split; [reflexivity|]. exists 1%nat. cbn [denote]. rewrite TN. reflexivity.
    + unfold coerce. rewrite Q.
      destruct (coerce_none_ok (st_heap st) v (var_roots (upd (st_vars st) x None) ++ lost)) as (h' & C & I' & K).
      { revert I. apply inv_perm. intros c. rewrite !cnt_app, (roots_split _ _ _ c Nv). lia. }
      rewrite C. cbn [obind fst snd]. eexists. split; [reflexivity|].
      apply put_ok; auto; [|exists Null; split; [reflexivity|exists 1%nat; reflexivity]].
      intros y w Ny Hw u [fq Dq]. exists fq. apply K; [|exact Dq]. apply incl_appl. eapply roots_without; eauto.
  - intros N1 N2 H. rewrite coerce_impossible; [reflexivity|]. rewrite TT. unfold possible.
    destruct (type_of t), ty; try reflexivity; try (exfalso; apply N1; reflexivity); try (exfalso; apply N2; reflexivity);
      exfalso; intuition discriminate.
Qed.

Example C29_ex : exists st st', run (start 2) [New 0 (ILongLong (-2147483648)); New 1 (IStr [32; 45; 48; 120; 49; 70])] = Ok st /\
  shows st (fun x => nth x [Some (LongLong (-2147483648)); Some (Str [32; 45; 48; 120; 49; 70])] None) /\
  run st [Coerce 0 TInteger; Coerce 1 TLongLong; Coerce 0 TString] = Ok st' /\
  shows st' (fun x => nth x [Some (Str [45; 50; 49; 52; 55; 52; 56; 51; 54; 52; 56]); Some (LongLong (-31))] None).
Proof.
  eexists. eexists. split; [vm_compute; reflexivity|]. split; [|split; [vm_compute; reflexivity|]].
  - intros x. do 2 (destruct x as [|x]; [eexists; split; [reflexivity|]; exists 5%nat; vm_compute; reflexivity|]). cbn. destruct x; reflexivity.
  - intros x. do 2 (destruct x as [|x]; [eexists; split; [reflexivity|]; exists 5%nat; vm_compute; reflexivity|]). cbn. destruct x; reflexivity.
Qed.

(** ** C66 *)
Lemma s32_fits z : s32 z = z <-> -2^31 <= z < 2^31.
Proof. split; [intros <-; apply s32_range|apply s32_id]. Qed.

(** u.i over u.l: the low half is new. *)
Lemma get_l_set_i u k z : get_l u = k -> -2^31 <= k < 2^31 -> -2^31 <= z < 2^31 ->
  get_l (set_i u z) = if Bool.eqb (k <? 0) (z <? 0) then z else if k <? 0 then z - 2^32 else z + 2^32.
Proof.
  unfold get_l, set_i, u32. cbn [bits]. intros K BK BZ. set (b := bits u) in *. clearbody b. clear u.
  assert (Q : exists q, b = 18446744073709551616 * q + k).
  { unfold s64 in K. pose proof (Z.div_mod b 18446744073709551616 ltac:(lia)) as E.
    destruct (b mod 18446744073709551616 <? 9223372036854775808); [exists (b / 18446744073709551616)|exists (b / 18446744073709551616 + 1)]; lia. }
  destruct Q as (q & Q).
  assert (M : b mod 4294967296 = if k <? 0 then k + 4294967296 else k).
  { rewrite Q. replace (18446744073709551616 * q + k) with (k + (4294967296 * q) * 4294967296) by lia. rewrite Z_mod_plus_full.
    destruct (Z.ltb_spec k 0); [|apply Z.mod_small; lia]. rewrite <- (Z_mod_plus_full k 1). apply Z.mod_small. lia. }
  assert (MZ : z mod 4294967296 = if z <? 0 then z + 4294967296 else z).
  { destruct (Z.ltb_spec z 0); [|apply Z.mod_small; lia]. rewrite <- (Z_mod_plus_full z 1). apply Z.mod_small. lia. }
  rewrite M, MZ, Q. change (2^32) with 4294967296.
  assert (G : forall w, -9223372036854775808 <= w < 9223372036854775808 -> s64 (18446744073709551616 * q + w) = w).
  { intros w W. replace (18446744073709551616 * q + w) with (w + q * 18446744073709551616) by lia.
    unfold s64. rewrite Z_mod_plus_full. apply s64_id. exact W. }
  destruct (Z.ltb_spec k 0), (Z.ltb_spec z 0); cbn [Bool.eqb].
  all: match goal with |- s64 ?x = ?w => replace x with (18446744073709551616 * q + w) by lia; apply G; lia end.
Qed.

(** Writing through the reference of an accessor of the variant's own type
    gives the variant that number, and does nothing else. *)
Theorem C66_same_type : forall n os st e x t z, Forall op_fits os -> run (start n) os = Ok st -> shows st e ->
  e x = Some t -> numeric (type_of t) = true -> in_type (type_of t) z ->
  exists st', step st (Write x (type_of t) z) = Ok st' /\ shows st' (put e x (Some (with_number (type_of t) z))).
Proof.
  intros n os st e x t z F E S EX NT IT. rewrite (write_eq st x _ z NT). pose proof (var_ok st e x S) as V. rewrite EX in V.
  destruct V as (v & f & Nv & V & D). rewrite V. cbn [obind]. pose proof (denote_type _ _ _ _ D) as TT.
  rewrite (coerce_same _ _ _ TT). cbn [obind fst snd]. eexists. split; [reflexivity|].
  assert (Lx : (x < length (st_vars st))%nat) by (apply nth_error_Some; congruence).
  apply put_ok; auto. eexists. split; [reflexivity|]. exists 1%nat. unfold poke. cbn [denote v_type v_u]. rewrite TT.
  destruct (type_of t); try discriminate NT; cbn [in_type with_number] in *.
  - rewrite get_set_i, s32_id by exact IT. reflexivity.
  - rewrite get_set_l, s64_id by exact IT. reflexivity.
  - rewrite get_set_l, s64_id by exact IT. reflexivity.
Qed.

(** The accessors of the other number types, when they don't abort (C29): the
    variant keeps its type and the others their values; it has the number
    written if and only if it fits the type, and, for an int written to a Long or
    a LongLong, if it has the sign of the old number. *)
Theorem C66_numbers_partial : forall n os st e x t k ty z, Forall op_fits os -> run (start n) os = Ok st -> shows st e ->
  e x = Some t -> number t = Some k -> numeric ty = true -> in_type ty k -> in_type ty z ->
  exists st' z', step st (Write x ty z) = Ok st' /\ shows st' (put e x (Some (with_number (type_of t) z'))) /\
    (z' = z <-> in_type (type_of t) z /\ (ty = TInteger -> type_of t <> TInteger -> (k < 0 <-> z < 0))).
Proof.
  intros n os st e x t k ty z F E S EX NK NT IK IZ. rewrite (write_eq st x _ z NT). pose proof (var_ok st e x S) as V. rewrite EX in V.
  destruct V as (v & f & Nv & V & D). rewrite V. cbn [obind]. destruct (coerce_number f (st_heap st) v t k ty D NK NT) as [A _].
  destruct (A IK) as (v' & C & D' & _ & R). rewrite C. cbn [obind fst snd]. pose proof (denote_type _ _ _ _ D') as TT.
  destruct (denote_number _ _ _ _ _ D' NK) as (_ & _ & EK & RK).
  assert (Lx : (x < length (st_vars st))%nat) by (apply nth_error_Some; congruence).
  assert (P : forall z', denote 1 (st_heap st) (poke v' ty z) = Some (with_number (type_of t) z') ->
    (z' = z <-> in_type (type_of t) z /\ (ty = TInteger -> type_of t <> TInteger -> (k < 0 <-> z < 0))) ->
    exists st' z', Ok (mkstate (st_heap st) (upd (st_vars st) x (Some (poke v' ty z)))) = Ok st' /\
      shows st' (put e x (Some (with_number (type_of t) z'))) /\
      (z' = z <-> in_type (type_of t) z /\ (ty = TInteger -> type_of t <> TInteger -> (k < 0 <-> z < 0)))).
  { intros z' DZ IFF. eexists. exists z'. split; [reflexivity|]. split; [|exact IFF]. apply put_ok; auto.
    eexists. split; [reflexivity|]. exists 1%nat. exact DZ. }
  unfold poke in *. cbn [denote v_type v_u] in P. rewrite TT in *. clear C A D D' V Nv EX Lx S E F.
  destruct t; try discriminate NK; cbn [type_of with_number number] in *; destruct ty; try discriminate NT; cbn [in_type] in *.
  - eapply P; [rewrite get_set_i; reflexivity|]. rewrite s32_id by exact IZ. split; [split; [exact IZ|intros; congruence]|reflexivity].
  - eapply P; [rewrite get_i_set_l; reflexivity|]. rewrite s32_fits. split; [intros; split; [assumption|discriminate]|intros []; assumption].
  - eapply P; [rewrite get_i_set_l; reflexivity|]. rewrite s32_fits. split; [intros; split; [assumption|discriminate]|intros []; assumption].
  - eapply P; [rewrite (get_l_set_i _ k z) by (congruence || exact IK || exact IZ); reflexivity|].
    destruct (Z.ltb_spec k 0), (Z.ltb_spec z 0); cbn [Bool.eqb]; (split; [intros Q; split; [lia|intros; lia]|intros [_ Q]; specialize (Q eq_refl ltac:(discriminate)); lia]).
  - eapply P; [rewrite get_set_l; reflexivity|]. rewrite s64_id by exact IZ. split; [split; [exact IZ|discriminate]|reflexivity].
  - eapply P; [rewrite get_set_l; reflexivity|]. rewrite s64_id by exact IZ. split; [split; [exact IZ|discriminate]|reflexivity].
  - eapply P; [rewrite (get_l_set_i _ k z) by (congruence || exact IK || exact IZ); reflexivity|].
    destruct (Z.ltb_spec k 0), (Z.ltb_spec z 0); cbn [Bool.eqb]; (split; [intros Q; split; [lia|intros; lia]|intros [_ Q]; specialize (Q eq_refl ltac:(discriminate)); lia]).
  - eapply P; [rewrite get_set_l; reflexivity|]. rewrite s64_id by exact IZ. split; [split; [exact IZ|discriminate]|reflexivity].
  - eapply P; [rewrite get_set_l; reflexivity|]. rewrite s64_id by exact IZ. split; [split; [exact IZ|discriminate]|reflexivity].
Qed.

(** A string that is a numeral (C26) in 32 bits, through as_longlong(). *)
Theorem C66_string_partial : forall n os st e x tx k z, Forall op_fits os -> run (start n) os = Ok st -> shows st e ->
  e x = Some (Str tx) -> numeral 0 tx k -> -2^31 <= k < 2^31 -> -2^63 <= z < 2^63 ->
  exists st', step st (Write x TLongLong z) = Ok st' /\ shows st' (put e x (Some (LongLong z))).
Proof.
  intros n os st e x tx k z F E S EX NU BK BZ. destruct (C29_to_longlong_partial n os st e x tx F E S EX) as [H _].
  destruct (H k NU BK) as (s1 & ST & SH). rewrite (write_eq st x TLongLong z eq_refl). cbn [step] in ST.
  pose proof (var_ok st e x S) as V. rewrite EX in V. destruct V as (v & f & Nv & V & D). rewrite V in *. cbn [obind] in *.
  assert (Lx : (x < length (st_vars st))%nat) by (apply nth_error_Some; congruence).
  destruct (coerce (st_heap st) v TLongLong) as [[h' v']| |]; cbn [obind fst snd] in *; try discriminate.
  assert (s1 = mkstate h' (upd (st_vars st) x (Some v'))) by congruence. subst s1. eexists. split; [reflexivity|].
  assert (T : v_type v' = TLongLong).
  { specialize (SH x). cbn [st_vars st_heap] in SH. rewrite nth_upd_any, Nat.eqb_refl in SH by exact Lx. destruct SH as (t & P & g & Dg).
    unfold put in P. rewrite Nat.eqb_refl in P. assert (t = LongLong k) by congruence. subst t. exact (denote_type _ _ _ _ Dg). }
  intros y. specialize (SH y). cbn [st_vars st_heap] in *. rewrite nth_upd_any in * by exact Lx. unfold put in *.
  destruct (Nat.eqb_spec y x) as [Ey|Ny]; [|exact SH]. eexists. split; [reflexivity|]. exists 1%nat. unfold poke. cbn [denote v_type v_u]. rewrite T.
  rewrite get_set_l, s64_id by exact BZ. reflexivity.
Qed.

(** A Long of 5, as_int() = -1: now it is 4294967295, and as_int() aborts.  An
    Integer, as_long() = 2^40: now it is 0. *)
Theorem C66_numbers_refuted :
  (exists st, run (start 1) [New 0 (ILong 5); Write 0 TInteger (-1)] = Ok st /\
     shows st (fun x => nth x [Some (Long 4294967295)] None) /\ step st (Coerce 0 TInteger) = Abort) /\
  (exists st, run (start 1) [New 0 (IInt 5); Write 0 TLong (2^40)] = Ok st /\
     shows st (fun x => nth x [Some (Int 0)] None)).
Proof.
  split.
  - eexists. split; [vm_compute; reflexivity|]. split; [|vm_compute; reflexivity].
    intros x. destruct x as [|x]; [eexists; split; [reflexivity|]; exists 1%nat; vm_compute; reflexivity|]. cbn. destruct x; reflexivity.
  - eexists. split; [vm_compute; reflexivity|].
    intros x. destruct x as [|x]; [eexists; split; [reflexivity|]; exists 1%nat; vm_compute; reflexivity|]. cbn. destruct x; reflexivity.
Qed.

Example C66_ex : exists st, run (start 3) [New 0 (ILongLong (-3)); Write 0 TInteger (-9); Write 0 TLong (2^60); New 1 (IStr [32; 55]);
    Write 1 TLongLong (-8); New 2 (IDefault TInteger); Write 2 TInteger 11] = Ok st /\
  shows st (fun x => nth x [Some (LongLong (2^60)); Some (LongLong (-8)); Some (Int 11)] None).
Proof.
  eexists. split; [vm_compute; reflexivity|].
  intros x. do 3 (destruct x as [|x]; [eexists; split; [reflexivity|]; exists 1%nat; vm_compute; reflexivity|]). cbn. destruct x; reflexivity.
Qed.

Print Assumptions C28_values.
Print Assumptions C28_one_value.
Print Assumptions C28_independent.
Print Assumptions C28_defined.
Print Assumptions C28_no_leak_partial.
Print Assumptions C28_no_leak_refuted.
Print Assumptions C29_type_refuted.
Print Assumptions C29_string_refuted.
Print Assumptions C29_numbers_partial.
Print Assumptions C29_to_string.
Print Assumptions C29_to_longlong_partial.
Print Assumptions C29_other.
Print Assumptions C66_same_type.
Print Assumptions C66_numbers_partial.
Print Assumptions C66_string_partial.
Print Assumptions C66_numbers_refuted.
