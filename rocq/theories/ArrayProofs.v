From Verif Require Import Base RefModel RefProofs ArrayModel ArraySpec.
From Coq Require Import Permutation.
Ltac Zify.zify_post_hook ::= Z.div_mod_to_equations.

(** ** Lists *)
Lemma nth_firstn {A} (l : list A) n j : nth_error (firstn n l) j = if (j <? n)%nat then nth_error l j else None.
Proof.
  revert n j. induction l as [|a l IH]; intros [|n] [|j]; simpl; auto.
  - destruct (S j <? S n)%nat; reflexivity.
  - rewrite IH. reflexivity.
Qed.
Lemma nth_skipn {A} (l : list A) n j : nth_error (skipn n l) j = nth_error l (n + j).
Proof. revert n. induction l as [|a l IH]; intros [|n]; simpl; auto. destruct j; reflexivity. Qed.

Lemma nth_ext_list {A} (l m : list A) : (forall j, nth_error l j = nth_error m j) -> l = m.
Proof.
  revert m. induction l as [|a l IH]; intros [|b m] H; auto.
  - specialize (H 0%nat); discriminate.
  - specialize (H 0%nat); discriminate.
  - assert (E := H 0%nat). injection E as <-. f_equal. apply IH. intros j. exact (H (S j)).
Qed.

Lemma nth_upd {A} (l : list A) i x j : nth_error (upd l i x) j =
  if (j =? i)%nat && (i <? length l)%nat then Some x else nth_error l j.
Proof.
  destruct (Nat.eqb_spec j i) as [->|N].
  - destruct (Nat.ltb_spec i (length l)); simpl.
    + destruct (nth_error l i) eqn:E; [eapply nth_upd_eq; exact E|apply nth_error_None in E; lia].
    + assert (E : nth_error (upd l i x) i = None) by (apply nth_error_None; rewrite upd_length; lia).
      rewrite E. symmetry. apply nth_error_None. lia.
  - simpl. apply nth_upd_ne. congruence.
Qed.

Lemma nth_some_lt {A} (l : list A) i : (i < length l)%nat -> exists a, nth_error l i = Some a.
Proof. intros H. destruct (nth_error l i) eqn:E; [eauto|apply nth_error_None in E; lia]. Qed.

Lemma nth_lt {A} (l : list A) i a : nth_error l i = Some a -> (i < length l)%nat.
Proof. intros H. apply nth_error_Some. congruence. Qed.

Section Proofs.
Context {A : Type}.
Implicit Types (d dst : list (option A)) (f src : Z -> outcome A) (L S : list A) (x : body A) (h : heap A) (hs : list slice).

(** ** Cells *)
Definition agree d L := forall j a, nth_error L j = Some a -> nth_error d j = Some (Some a).

Lemma agree_len d L : agree d L -> (length L <= length d)%nat.
Proof.
  intros H. destruct L as [|a0 L0] eqn:E; [simpl; lia|rewrite <- E in *].
  assert (K : (length L - 1 < length L)%nat) by (rewrite E; simpl; lia).
  destruct (nth_some_lt L _ K) as [a Ha]. apply H in Ha. apply nth_lt in Ha. lia.
Qed.

Lemma cell_rd_inv d i a : cell_rd d i = Ok a <-> 0 <= i /\ nth_error d (Z.to_nat i) = Some (Some a).
Proof.
  unfold cell_rd, rdZ. destruct (Z.ltb_spec i 0); simpl.
  - split; [discriminate|lia].
  - unfold rd. destruct (nth_error d (Z.to_nat i)) as [[b|]|]; simpl; split; try discriminate; try (intros [_ E]; congruence).
    intros E; injection E as ->. auto.
Qed.
Lemma cell_wr_inv d i a d' : cell_wr d i a = Ok d' <->
  0 <= i < Z.of_nat (length d) /\ d' = upd d (Z.to_nat i) (Some a).
Proof.
  unfold cell_wr. destruct (Z.leb_spec 0 i); destruct (Z.ltb_spec i (Z.of_nat (length d))); simpl; split; intros E;
    try discriminate; try (destruct E; lia).
  - injection E as <-. auto.
  - destruct E as [_ ->]. reflexivity.
Qed.

Lemma agree_rd d L i a : agree d L -> 0 <= i -> nth_error L (Z.to_nat i) = Some a -> cell_rd d i = Ok a.
Proof. intros H Hi E. apply cell_rd_inv. auto. Qed.

(** copy_up *)
Lemma copy_up_spec k : forall i src off dst dst', copy_up k i src off dst = Ok dst' -> 0 <= off + i ->
  length dst' = length dst /\
  (forall j, (off + i <= j < off + i + Z.of_nat k) ->
     exists a, src (j - off) = Ok a /\ nth_error dst' (Z.to_nat j) = Some (Some a)) /\
  (forall j, ~ (off + i <= Z.of_nat j < off + i + Z.of_nat k) -> nth_error dst' j = nth_error dst j).
Proof.
  induction k as [|k IH]; intros i src off dst dst' H P; cbn [copy_up] in H.
  - injection H as <-. split; [reflexivity|]. split; [intros; lia|reflexivity].
  - apply obind_ok in H as (a & E & H). apply obind_ok in H as (d1 & W & H). apply cell_wr_inv in W as [W ->].
    destruct (IH _ _ _ _ _ H ltac:(lia)) as (L & R & O). rewrite upd_length in L. split; [exact L|]. split.
    + intros j Hj. destruct (Z.eq_dec j (off + i)) as [->|N].
      * exists a. split; [replace (off + i - off) with i by lia; exact E|].
        rewrite O by lia. rewrite nth_upd.
        destruct (Nat.eqb_spec (Z.to_nat (off+i)) (Z.to_nat (off+i))); destruct (Nat.ltb_spec (Z.to_nat (off+i)) (length dst)); try lia. reflexivity.
      * apply R. lia.
    + intros j Hj. rewrite O by lia. rewrite nth_upd. destruct (Nat.eqb_spec j (Z.to_nat (off + i))); [lia|reflexivity].
Qed.
Lemma copy_up_ok k : forall i src off dst, 0 <= off + i -> off + i + Z.of_nat k <= Z.of_nat (length dst) ->
  (forall j, i <= j < i + Z.of_nat k -> exists a, src j = Ok a) -> exists d', copy_up k i src off dst = Ok d'.
Proof.
  induction k as [|k IH]; intros i src off dst P Q R; cbn [copy_up]; [eauto|].
  destruct (R i ltac:(lia)) as [a ->]. cbn [obind].
  replace (cell_wr dst (off + i) a) with (Ok (upd dst (Z.to_nat (off + i)) (Some a))) by (symmetry; apply cell_wr_inv; split; [lia|reflexivity]).
  cbn [obind]. apply IH; [lia|rewrite upd_length; lia|intros j Hj; apply R; lia].
Qed.

(** shift_up *)
Lemma shift_up_spec i : forall pos num d d', shift_up i pos num d = Ok d' -> 0 < num -> 0 <= pos -> pos + num < 2^32 ->
  length d' = length d /\
  (forall j, (pos + num <= Z.of_nat j < Z.of_nat i) -> nth_error d' j = nth_error d (j - Z.to_nat num)) /\
  (forall j, ~ (pos + num <= Z.of_nat j < Z.of_nat i) -> nth_error d' j = nth_error d j).
Proof.
  induction i as [|i IH]; intros pos num d d' H Hn Hp Hb; cbn [shift_up] in H.
  - injection H as <-. split; [reflexivity|]. split; [intros; lia|reflexivity].
  - assert (U : u32 (pos + num) = pos + num) by (unfold u32; apply Z.mod_small; lia). rewrite U in H.
    destruct (Z.gtb_spec (Z.of_nat (Datatypes.S i)) (pos + num)) as [G|G].
    + apply obind_ok in H as (a & R & H). apply obind_ok in H as (d1 & W & H).
      apply cell_rd_inv in R as [R1 R2]. apply cell_wr_inv in W as [W ->].
      destruct (IH _ _ _ _ H Hn Hp Hb) as (L & X & Y). rewrite upd_length in L. split; [exact L|]. split.
      * intros j Hj. destruct (Nat.eq_dec j i) as [->|N].
        -- rewrite Y by lia. rewrite nth_upd.
           destruct (Nat.eqb_spec i (Z.to_nat (Z.of_nat (Datatypes.S i) - 1))); [|lia].
           destruct (Nat.ltb_spec (Z.to_nat (Z.of_nat (Datatypes.S i) - 1)) (length d)); [|lia]. simpl.
           rewrite <- R2. f_equal. lia.
        -- rewrite X by lia. rewrite nth_upd. destruct (Nat.eqb_spec (j - Z.to_nat num) (Z.to_nat (Z.of_nat (Datatypes.S i) - 1))); [lia|reflexivity].
      * intros j Hj. rewrite Y by lia. rewrite nth_upd. destruct (Nat.eqb_spec j (Z.to_nat (Z.of_nat (Datatypes.S i) - 1))); [lia|reflexivity].
    + injection H as <-. split; [reflexivity|]. split; [intros; lia|reflexivity].
Qed.
Lemma shift_up_ok i : forall pos num d, 0 < num -> 0 <= pos -> pos + num < 2^32 -> (i <= length d)%nat ->
  (forall j, pos <= Z.of_nat j < Z.of_nat i - num -> exists a, nth_error d j = Some (Some a)) ->
  exists d', shift_up i pos num d = Ok d'.
Proof.
  induction i as [|i IH]; intros pos num d Hn Hp Hb Hl R; cbn [shift_up]; [eauto|].
  assert (U : u32 (pos + num) = pos + num) by (unfold u32; apply Z.mod_small; lia). rewrite U.
  destruct (Z.gtb_spec (Z.of_nat (Datatypes.S i)) (pos + num)) as [G|G]; [|eauto].
  destruct (R (i - Z.to_nat num)%nat ltac:(lia)) as [a Ha].
  replace (cell_rd d (Z.of_nat (Datatypes.S i) - 1 - num)) with (Ok a).
  2:{ symmetry. apply cell_rd_inv. split; [lia|]. rewrite <- Ha. f_equal. lia. }
  cbn [obind].
  replace (cell_wr d (Z.of_nat (Datatypes.S i) - 1) a) with (Ok (upd d (Z.to_nat (Z.of_nat (Datatypes.S i) - 1)) (Some a)))
    by (symmetry; apply cell_wr_inv; split; [lia|reflexivity]).
  cbn [obind]. apply IH; auto; [rewrite upd_length; lia|].
  intros j Hj. rewrite nth_upd. destruct (Nat.eqb_spec j (Z.to_nat (Z.of_nat (Datatypes.S i) - 1))); [lia|]. simpl. apply R. lia.
Qed.

(** copy_in from outside *)
Lemma copy_in_spec k : forall i pos f d d', copy_in k i pos (Ext f) d = Ok d' -> 0 <= i -> 0 <= pos ->
  pos + i + Z.of_nat k <= 2^32 ->
  length d' = length d /\
  (forall j, (i <= j < i + Z.of_nat k) -> exists a, f j = Ok a /\ nth_error d' (Z.to_nat (pos + j)) = Some (Some a)) /\
  (forall j, ~ (pos + i <= Z.of_nat j < pos + i + Z.of_nat k) -> nth_error d' j = nth_error d j).
Proof.
  induction k as [|k IH]; intros i pos f d d' H Hi Hp Hb; cbn [copy_in] in H.
  - injection H as <-. split; [reflexivity|]. split; [intros; lia|reflexivity].
  - apply obind_ok in H as (a & E & H). apply obind_ok in H as (d1 & W & H).
    assert (U : u32 (pos + i) = pos + i) by (unfold u32; apply Z.mod_small; lia). rewrite U in W.
    apply cell_wr_inv in W as [W ->].
    destruct (IH _ _ _ _ _ H ltac:(lia) Hp ltac:(lia)) as (L & R & O). rewrite upd_length in L. split; [exact L|]. split.
    + intros j Hj. destruct (Z.eq_dec j i) as [->|N].
      * exists a. split; [exact E|]. rewrite O by lia. rewrite nth_upd.
        destruct (Nat.eqb_spec (Z.to_nat (pos+i)) (Z.to_nat (pos+i))); destruct (Nat.ltb_spec (Z.to_nat (pos+i)) (length d)); try lia. reflexivity.
      * apply R. lia.
    + intros j Hj. rewrite O by lia. rewrite nth_upd. destruct (Nat.eqb_spec j (Z.to_nat (pos + i))); [lia|reflexivity].
Qed.
Lemma copy_in_ok k : forall i pos f d, 0 <= i -> 0 <= pos -> pos + i + Z.of_nat k <= Z.of_nat (length d) ->
  pos + i + Z.of_nat k <= 2^32 ->
  (forall j, i <= j < i + Z.of_nat k -> exists a, f j = Ok a) -> exists d', copy_in k i pos (Ext f) d = Ok d'.
Proof.
  induction k as [|k IH]; intros i pos f d Hi Hp Hl Hb R; cbn [copy_in]; [eauto|].
  destruct (R i ltac:(lia)) as [a ->]. cbn [obind].
  assert (U : u32 (pos + i) = pos + i) by (unfold u32; apply Z.mod_small; lia). rewrite U.
  replace (cell_wr d (pos + i) a) with (Ok (upd d (Z.to_nat (pos + i)) (Some a))) by (symmetry; apply cell_wr_inv; split; [lia|reflexivity]).
  cbn [obind]. apply IH; auto; try lia; [rewrite upd_length; lia|intros j Hj; apply R; lia].
Qed.

(** shift_down *)
Lemma shift_down_spec k : forall i len d d', shift_down k i len d = Ok d' -> 0 <= i -> 0 < len ->
  length d' = length d /\
  (forall j, i <= Z.of_nat j < i + Z.of_nat k -> nth_error d' j = nth_error d (j + Z.to_nat len)) /\
  (forall j, ~ (i <= Z.of_nat j < i + Z.of_nat k) -> nth_error d' j = nth_error d j).
Proof.
  induction k as [|k IH]; intros i len d d' H Hi Hl; cbn [shift_down] in H.
  - injection H as <-. split; [reflexivity|]. split; [intros; lia|reflexivity].
  - apply obind_ok in H as (a & R & H). apply obind_ok in H as (d1 & W & H).
    apply cell_rd_inv in R as [R1 R2]. apply cell_wr_inv in W as [W ->].
    destruct (IH _ _ _ _ H ltac:(lia) Hl) as (L & X & Y). rewrite upd_length in L. split; [exact L|]. split.
    + intros j Hj. destruct (Z.eq_dec (Z.of_nat j) i) as [E|N].
      * rewrite Y by lia. rewrite nth_upd. destruct (Nat.eqb_spec j (Z.to_nat i)); [|lia].
        destruct (Nat.ltb_spec (Z.to_nat i) (length d)); [|lia]. simpl. rewrite <- R2. f_equal. lia.
      * rewrite X by lia. rewrite nth_upd. destruct (Nat.eqb_spec (j + Z.to_nat len) (Z.to_nat i)); [lia|reflexivity].
    + intros j Hj. rewrite Y by lia. rewrite nth_upd. destruct (Nat.eqb_spec j (Z.to_nat i)); [lia|reflexivity].
Qed.
Lemma shift_down_ok k : forall i len d, 0 <= i -> 0 < len -> i + Z.of_nat k + len <= Z.of_nat (length d) ->
  (forall j, i + len <= Z.of_nat j < i + Z.of_nat k + len -> exists a, nth_error d j = Some (Some a)) ->
  exists d', shift_down k i len d = Ok d'.
Proof.
  induction k as [|k IH]; intros i len d Hi Hl Hb R; cbn [shift_down]; [eauto|].
  destruct (R (Z.to_nat (i + len)) ltac:(lia)) as [a Ha].
  replace (cell_rd d (i + len)) with (Ok a) by (symmetry; apply cell_rd_inv; split; [lia|exact Ha]). cbn [obind].
  replace (cell_wr d i a) with (Ok (upd d (Z.to_nat i) (Some a))) by (symmetry; apply cell_wr_inv; split; [lia|reflexivity]).
  cbn [obind]. apply IH; auto; try lia; [rewrite upd_length; lia|].
  intros j Hj. rewrite nth_upd. destruct (Nat.eqb_spec j (Z.to_nat i)); [lia|]. simpl. apply R. lia.
Qed.

(** ** Bodies *)
Definition valid x L : Prop :=
  agree (b_data x) L /\ b_num x = Z.of_nat (length L) /\ b_num x < 2^32 /\
  (b_static x = false -> b_alloc x = Z.of_nat (length (b_data x))) /\ 0 <= b_alloc x < 2^32.

Lemma u32_range z : 0 <= u32 z < 2^32.
Proof. unfold u32. change (2^32) with 4294967296. apply Z.mod_pos_bound. lia. Qed.

Lemma resize_spec x L m x' mv : valid x L -> b_static x = false -> resize x m = Ok (x', mv) ->
  valid x' L /\ b_num x' = b_num x /\ b_refs x' = b_refs x /\ b_static x' = b_static x.
Proof.
  intros V Hs H. unfold resize in H. destruct (Z.leb_spec m (b_alloc x)).
  - injection H as <- <-. auto.
  - apply obind_ok in H as (nd & C & H). injection H as <- <-. simpl.
    destruct V as (V1 & V2 & V3 & V4 & V5).
    set (al := if _ <? _ then u32 _ else _) in *.
    assert (Hal : 0 <= al < 2^32).
    { unfold al. destruct (_ <? _); [apply u32_range|]. destruct (b_alloc x =? 0); [exact V5|apply u32_range]. }
    apply copy_up_spec in C as (CL & CR & _); [|lia]. rewrite repeat_length in CL.
    split; [|auto]. split; [|split; [exact V2|split; [exact V3|split; [intros _; simpl; lia|exact Hal]]]]. simpl.
    intros j a Ha. assert (J := nth_lt _ _ _ Ha).
    destruct (CR (Z.of_nat j) ltac:(lia)) as (a' & E1 & E2). rewrite Nat2Z.id in E2. rewrite E2.
    apply cell_rd_inv in E1 as [_ E1]. replace (Z.to_nat (Z.of_nat j - 0)) with j in E1 by lia.
    rewrite (V1 j a Ha) in E1. congruence.
Qed.

Lemma lor_up z m : 0 <= z -> 0 <= m -> z <= Z.lor z m <= z + m.
Proof.
  intros Hz Hm.
  assert (E1 : Z.lor z m = z + Z.ldiff m z).
  { rewrite Z.add_nocarry_lxor.
    - apply Z.bits_inj'. intros n Hn. rewrite Z.lxor_spec, Z.ldiff_spec, Z.lor_spec. destruct (Z.testbit z n), (Z.testbit m n); reflexivity.
    - apply Z.bits_inj'. intros n Hn. rewrite Z.land_spec, Z.ldiff_spec, Z.bits_0. destruct (Z.testbit z n), (Z.testbit m n); reflexivity. }
  assert (E2 : m = Z.ldiff m z + Z.land m z).
  { rewrite Z.add_nocarry_lxor.
    - apply Z.bits_inj'. intros n Hn. rewrite Z.lxor_spec, Z.ldiff_spec, Z.land_spec. destruct (Z.testbit z n), (Z.testbit m n); reflexivity.
    - apply Z.bits_inj'. intros n Hn. rewrite !Z.land_spec, Z.ldiff_spec, Z.bits_0. destruct (Z.testbit z n), (Z.testbit m n); reflexivity. }
  assert (0 <= Z.ldiff m z) by (apply Z.ldiff_nonneg; auto).
  assert (0 <= Z.land m z) by (apply Z.land_nonneg; auto). lia.
Qed.

Lemma resize_ok x L m : valid x L -> b_static x = false -> b_num x <= m -> 0 <= m <= 2^32 - 8 ->
  exists x' mv, resize x m = Ok (x', mv) /\ m <= Z.of_nat (length (b_data x')).
Proof.
  intros V Hs Hn Hm. unfold resize. assert (V0 := V). destruct V as (V1 & V2 & V3 & V4 & V5).
  destruct (Z.leb_spec m (b_alloc x)).
  - exists x, false. split; [reflexivity|]. rewrite (V4 Hs) in H. exact H.
  - set (mm := u64 _).
    assert (HM : mm = Z.lor (m - 1) 7 + 1 /\ m <= mm < 2^32).
    { unfold mm, u64. rewrite (Z.mod_small (m - 1)) by lia.
      assert (B := lor_up (m - 1) 7 ltac:(lia) ltac:(lia)).
      assert (B2 : Z.lor (m - 1) 7 < 2^32 - 8 + 7) by lia.
      rewrite Z.mod_small by lia. lia. }
    destruct HM as [_ HM].
    set (al1 := if b_alloc x =? 0 then b_alloc x else _).
    set (al := if al1 <? mm then u32 mm else al1).
    assert (Hal : m <= al).
    { unfold al. destruct (Z.ltb_spec al1 mm); [unfold u32; rewrite Z.mod_small by lia|]; lia. }
    destruct (copy_up_ok (Z.to_nat (b_num x)) 0 (cell_rd (b_data x)) 0 (repeat None (Z.to_nat al))) as [nd E].
    + lia.
    + rewrite repeat_length. lia.
    + intros j Hj. destruct (nth_some_lt L (Z.to_nat j) ltac:(lia)) as [a Ha]. exists a. eapply agree_rd; eauto; lia.
    + rewrite E. cbn [obind]. eexists. eexists. split; [reflexivity|]. simpl.
      apply copy_up_spec in E as (CL & _); [|lia]. rewrite CL, repeat_length. lia.
Qed.

Definition src_is (f : Z -> outcome A) S : Prop :=
  forall i, 0 <= i < Z.of_nat (length S) -> exists a, f i = Ok a /\ nth_error S (Z.to_nat i) = Some a.

Lemma new_body_spec f S al x : src_is f S -> Z.of_nat (length S) < 2^32 ->
  new_body f (Z.of_nat (length S)) al = Ok x ->
  valid x S /\ b_refs x = 0 /\ b_static x = false.
Proof.
  intros F LS H. unfold new_body in H. apply obind_ok in H as ([x1 mv] & R & H). cbn [fst] in H.
  apply obind_ok in H as (d & C & H). injection H as <-. simpl.
  assert (V0 : valid {| b_data := []; b_num := 0; b_alloc := 0; b_refs := 0; b_static := false |} []).
  { split; [intros [|j] a Ha; discriminate|]. simpl. repeat split; auto; lia. }
  destruct (resize_spec _ _ _ _ _ V0 eq_refl R) as ((_ & _ & _ & V4 & V5) & _ & _ & ST).
  apply copy_up_spec in C as (CL & CR & _); [|lia].
  split; [|auto]. split; [|split; [reflexivity|split; [exact LS|]]]; simpl.
  - intros j a Ha. assert (J := nth_lt _ _ _ Ha).
    destruct (CR (Z.of_nat j) ltac:(lia)) as (a' & E1 & E2). rewrite Nat2Z.id in E2. rewrite E2.
    destruct (F (Z.of_nat j) ltac:(lia)) as (a2 & E3 & E4). rewrite Nat2Z.id in E4. rewrite Z.sub_0_r in E1. congruence.
  - split; [intros _; rewrite CL; apply V4; exact ST|exact V5].
Qed.
Lemma new_body_ok f S al : src_is f S -> Z.of_nat (length S) <= 2^32 - 8 -> 0 <= al <= 2^32 - 8 ->
  exists x, new_body f (Z.of_nat (length S)) al = Ok x.
Proof.
  intros F LS Hal. unfold new_body.
  assert (V0 : valid {| b_data := []; b_num := 0; b_alloc := 0; b_refs := 0; b_static := false |} []).
  { split; [intros [|j] a Ha; discriminate|]. simpl. repeat split; auto; lia. }
  set (a2 := if al <? _ then _ else al).
  assert (H2 : Z.of_nat (length S) <= a2 <= 2^32 - 8) by (unfold a2; destruct (Z.ltb_spec al (Z.of_nat (length S))); lia).
  destruct (resize_ok _ _ a2 V0 eq_refl ltac:(simpl; lia) ltac:(lia)) as (x' & mv & -> & B). cbn [obind fst].
  destruct (copy_up_ok (Z.to_nat (Z.of_nat (length S))) 0 f 0 (b_data x')) as [d ->]; [lia|lia| |].
  - intros j Hj. destruct (F j ltac:(lia)) as (a & E & _). eauto.
  - cbn [obind]. eauto.
Qed.

Lemma nth_insert L p S j : (p <= length L)%nat -> nth_error (l_insert L p S) j =
  if (j <? p)%nat then nth_error L j
  else if (j <? p + length S)%nat then nth_error S (j - p)
  else nth_error L (j - length S).
Proof.
  intros Hp. unfold l_insert. assert (LF : length (firstn p L) = p) by (rewrite firstn_length; lia).
  destruct (Nat.ltb_spec j p).
  - rewrite nth_error_app1 by lia. rewrite nth_firstn. destruct (Nat.ltb_spec j p); [reflexivity|lia].
  - rewrite nth_error_app2 by lia. rewrite LF. destruct (Nat.ltb_spec j (p + length S)).
    + apply nth_error_app1. lia.
    + rewrite nth_error_app2 by lia. rewrite nth_skipn. f_equal. lia.
Qed.
Lemma length_insert L p S : (p <= length L)%nat -> length (l_insert L p S) = (length L + length S)%nat.
Proof. intros H. unfold l_insert. rewrite !app_length, firstn_length, skipn_length. lia. Qed.

Lemma body_insert_spec x L pos f S x' : valid x L -> b_static x = false -> 0 <= pos -> src_is f S ->
  Z.of_nat (length S) < 2^32 ->
  body_insert x pos (Ext f) (Z.of_nat (length S)) = Ok x' ->
  valid x' (l_insert L (Z.to_nat pos) S) /\ b_refs x' = b_refs x /\ b_static x' = false /\ pos <= b_num x \/ (S = [] /\ x' = x).
Proof.
  intros V Hs Hp F LS H. unfold body_insert, cassert in H. destruct (b_refs x <=? 1); [|discriminate].
  destruct (Z.leb_spec (Z.of_nat (length S)) 0).
  { right. destruct S; [|simpl in *; lia]. split; [reflexivity|congruence]. }
  left. destruct (Z.leb_spec pos (b_num x)) as [HP|]; [|discriminate]. assert (V0 := V).
  destruct V as (V1 & V2 & V3 & V4 & V5).
  destruct (Z.geb_spec (u32 (b_num x + Z.of_nat (length S))) (b_num x)) as [NW|]; [|discriminate].
  assert (NW2 : b_num x + Z.of_nat (length S) < 2^32 /\ u32 (b_num x + Z.of_nat (length S)) = b_num x + Z.of_nat (length S)).
  { unfold u32 in *. lia. }
  destruct NW2 as [NB NU]. rewrite NU in *.
  apply obind_ok in H as ([x1 mv] & R & H). cbn [fst snd] in H.
  destruct (resize_spec _ _ _ _ _ V0 Hs R) as ((W1 & W2 & W3 & W4 & W5) & N1 & R1 & S1).
  apply obind_ok in H as (d1 & SH & H). apply obind_ok in H as (d2 & CI & H). injection H as <-.
  assert (D1 : length d1 = length (b_data x1) /\
    (forall j, pos + Z.of_nat (length S) <= Z.of_nat j < b_num x + Z.of_nat (length S) -> nth_error d1 j = nth_error (b_data x1) (j - length S)) /\
    (forall j, Z.of_nat j < pos -> nth_error d1 j = nth_error (b_data x1) j)).
  { destruct (Z.gtb_spec (b_num x) pos).
    - apply shift_up_spec in SH as (L1 & X & Y); [|lia|lia|lia]. split; [exact L1|]. split.
      + intros j Hj. rewrite X by lia. f_equal. lia.
      + intros j Hj. apply Y. lia.
    - injection SH as <-. split; [reflexivity|]. split; [intros; lia|reflexivity]. }
  destruct D1 as (L1 & X1 & Y1).
  apply copy_in_spec in CI as (L2 & X2 & Y2); [|lia|lia|lia].
  split; [|simpl; auto]. split; [|simpl; rewrite length_insert by lia; split; [lia|split; [lia|split; [intros _; rewrite L2, L1; apply W4; congruence|exact W5]]]].
  simpl. intros j a. rewrite nth_insert by lia.
  destruct (Nat.ltb_spec j (Z.to_nat pos)).
  - intros Ha. rewrite Y2 by lia. rewrite Y1 by lia. apply W1. exact Ha.
  - destruct (Nat.ltb_spec j (Z.to_nat pos + length S)).
    + intros Ha. destruct (X2 (Z.of_nat j - pos) ltac:(lia)) as (a' & E1 & E2).
      destruct (F (Z.of_nat j - pos) ltac:(lia)) as (a2 & E3 & E4).
      replace (Z.to_nat (pos + (Z.of_nat j - pos))) with j in E2 by lia.
      replace (Z.to_nat (Z.of_nat j - pos)) with (j - Z.to_nat pos)%nat in E4 by lia. congruence.
    + intros Ha. assert (J := nth_lt _ _ _ Ha). rewrite Y2 by lia. rewrite X1 by lia. apply W1. exact Ha.
Qed.

Lemma body_insert_ok x L pos f S : valid x L -> b_static x = false -> 0 <= pos <= b_num x -> src_is f S ->
  b_refs x <= 1 -> b_num x + Z.of_nat (length S) <= 2^32 - 8 ->
  exists x', body_insert x pos (Ext f) (Z.of_nat (length S)) = Ok x'.
Proof.
  intros V Hs Hp F Hr LS. unfold body_insert, cassert. destruct (Z.leb_spec (b_refs x) 1); [|lia].
  destruct (Z.leb_spec (Z.of_nat (length S)) 0); [eauto|].
  destruct (Z.leb_spec pos (b_num x)); [|lia]. assert (V0 := V). destruct V as (V1 & V2 & V3 & V4 & V5).
  assert (NU : u32 (b_num x + Z.of_nat (length S)) = b_num x + Z.of_nat (length S)) by (unfold u32; apply Z.mod_small; lia).
  rewrite NU. destruct (Z.geb_spec (b_num x + Z.of_nat (length S)) (b_num x)); [|lia].
  destruct (resize_ok x L (b_num x + Z.of_nat (length S)) V0 Hs ltac:(lia) ltac:(lia)) as (x1 & mv & R & B).
  destruct (resize_spec _ _ _ _ _ V0 Hs R) as ((W1 & W2 & W3 & W4 & W5) & N1 & R1 & S1).
  rewrite R. cbn [obind fst snd].
  assert (K : exists d1, (if b_num x >? pos then shift_up (Z.to_nat (b_num x + Z.of_nat (length S))) pos (Z.of_nat (length S)) (b_data x1) else Ok (b_data x1)) = Ok d1 /\ length d1 = length (b_data x1)).
  { destruct (Z.gtb_spec (b_num x) pos); [|eauto].
    destruct (shift_up_ok (Z.to_nat (b_num x + Z.of_nat (length S))) pos (Z.of_nat (length S)) (b_data x1)) as [d1 E]; try lia.
    - intros j Hj. destruct (nth_some_lt L j ltac:(lia)) as [a Ha]. exists a. apply W1. exact Ha.
    - exists d1. split; [exact E|]. apply shift_up_spec in E as (E & _); try lia. }
  destruct K as (d1 & -> & LD). cbn [obind].
  destruct (copy_in_ok (Z.to_nat (Z.of_nat (length S))) 0 pos f d1) as [d2 ->]; try lia.
  - intros j Hj. destruct (F j ltac:(lia)) as (a & E & _). eauto.
  - cbn [obind]. eauto.
Qed.

Lemma nth_remove L p n j : (p + n <= length L)%nat -> nth_error (l_remove L p n) j =
  if (j <? p)%nat then nth_error L j else nth_error L (j + n).
Proof.
  intros Hp. unfold l_remove. assert (LF : length (firstn p L) = p) by (rewrite firstn_length; lia).
  destruct (Nat.ltb_spec j p).
  - rewrite nth_error_app1 by lia. rewrite nth_firstn. destruct (Nat.ltb_spec j p); [reflexivity|lia].
  - rewrite nth_error_app2 by lia. rewrite LF, nth_skipn. f_equal. lia.
Qed.
Lemma length_remove L p n : (p + n <= length L)%nat -> length (l_remove L p n) = (length L - n)%nat.
Proof. intros H. unfold l_remove. rewrite !app_length, firstn_length, skipn_length. lia. Qed.

Lemma body_remove_spec x L at_ len x' : valid x L -> b_static x = false -> 0 <= at_ -> 0 < len ->
  at_ + len <= b_num x ->
  body_remove x at_ len = Ok x' ->
  valid x' (l_remove L (Z.to_nat at_) (Z.to_nat len)) /\ b_refs x' = b_refs x /\ b_static x' = false.
Proof.
  intros V Hs Ha Hl Hb H. unfold body_remove, cassert in H. destruct (b_refs x <=? 1); [|discriminate].
  destruct (Z.eqb_spec len 0); [lia|]. destruct (Z.geb_spec len (-1)); [|discriminate].
  destruct (Z.ltb_spec at_ (b_num x)); [|discriminate]. destruct (Z.eqb_spec len (-1)); [lia|].
  destruct V as (V1 & V2 & V3 & V4 & V5).
  assert (NU : u32 (b_num x - len) = b_num x - len) by (unfold u32; apply Z.mod_small; lia). rewrite NU in H.
  apply obind_ok in H as (d & SD & H). injection H as <-.
  apply shift_down_spec in SD as (L1 & X & Y); [|lia|lia].
  split; [|simpl; auto]. split; [|simpl; rewrite length_remove by lia; split; [lia|split; [lia|split; [intros _; rewrite L1; apply V4; exact Hs|exact V5]]]].
  simpl. intros j a. rewrite nth_remove by lia. destruct (Nat.ltb_spec j (Z.to_nat at_)).
  - intros E. rewrite Y by lia. apply V1; exact E.
  - intros E. assert (J := nth_lt _ _ _ E). rewrite X by lia. apply V1. rewrite <- E. f_equal; lia.
Qed.
Lemma body_remove_ok x L at_ len : valid x L -> b_static x = false -> 0 <= at_ -> 0 < len ->
  at_ + len <= b_num x -> b_refs x <= 1 -> exists x', body_remove x at_ len = Ok x'.
Proof.
  intros V Hs Ha Hl Hb Hr. unfold body_remove, cassert. destruct (Z.leb_spec (b_refs x) 1); [|lia].
  destruct (Z.eqb_spec len 0); [lia|]. destruct (Z.geb_spec len (-1)); [|lia].
  destruct (Z.ltb_spec at_ (b_num x)); [|lia]. destruct (Z.eqb_spec len (-1)); [lia|].
  assert (V0 := V). destruct V as (V1 & V2 & V3 & V4 & V5).
  assert (NU : u32 (b_num x - len) = b_num x - len) by (unfold u32; apply Z.mod_small; lia). rewrite NU.
  assert (AL := agree_len _ _ V1).
  destruct (shift_down_ok (Z.to_nat (b_num x - len - at_)) at_ len (b_data x)) as [d ->]; [lia|lia|lia| |cbn [obind]; eauto].
  intros j Hj. destruct (nth_some_lt L j ltac:(lia)) as [a E]. exists a. apply V1; exact E.
Qed.
End Proofs.
