From Verif Require Import Base UTF8Proofs ErrNumModel.
Ltac Zify.zify_post_hook ::= Z.div_mod_to_equations.

Lemma lor_bound a b n : 0 <= n -> 0 <= a < 2^n -> 0 <= b < 2^n -> 0 <= Z.lor a b < 2^n.
Proof.
  intros Hn Ha Hb. split; [apply Z.lor_nonneg; lia|].
  destruct (Z.eq_dec (Z.lor a b) 0) as [->|N]; [apply Z.pow_pos_nonneg; lia|].
  apply Z.log2_lt_pow2; [assert (0 <= Z.lor a b) by (apply Z.lor_nonneg; lia); lia|].
  rewrite Z.log2_lor by lia.
  assert (L : forall x, 0 <= x < 2^n -> x <> 0 -> Z.log2 x < n) by (intros; apply Z.log2_lt_pow2; lia).
  destruct (Z.eq_dec a 0) as [->|Na].
  - destruct (Z.eq_dec b 0) as [->|Nb]; [simpl in N; congruence|].
    specialize (L b Hb Nb). assert (0 <= Z.log2 b) by apply Z.log2_nonneg. simpl. lia.
  - destruct (Z.eq_dec b 0) as [->|Nb].
    + specialize (L a Ha Na). assert (0 <= Z.log2 a) by apply Z.log2_nonneg. simpl. lia.
    + assert (A := L a Ha Na). assert (B := L b Hb Nb). lia.
Qed.

Definition folded (set : Z) : Z := Z.lor 0x3000 (set mod 65536).

Lemma folded_bound set : 0x3000 <= folded set < 65536.
Proof.
  assert (B := lor_bound 0x3000 (set mod 65536) 16 ltac:(lia) ltac:(lia) ltac:(lia)).
  unfold folded. split; [|lia].
  destruct (Z.le_gt_cases 0x3000 (Z.lor 0x3000 (set mod 65536))) as [|H]; [assumption|exfalso].
  assert (E : Z.land (Z.lor 0x3000 (set mod 65536)) 0x3000 = 0x3000).
  { rewrite Z.land_comm, Z.land_lor_distr_r. change (Z.land 0x3000 0x3000) with 0x3000.
    apply Z.bits_inj'; intros i Hi. rewrite Z.lor_spec, Z.land_spec. destruct (Z.testbit 0x3000 i); reflexivity. }
  assert (L : forall x m, 0 <= x -> 0 <= m -> Z.land x m <= x).
  { intros x m Hx Hm. assert (x = Z.lor (Z.land x m) (Z.ldiff x m)).
    { apply Z.bits_inj'; intros i Hi. rewrite Z.lor_spec, Z.land_spec, Z.ldiff_spec.
      destruct (Z.testbit x i), (Z.testbit m i); reflexivity. }
    assert (Z.land (Z.land x m) (Z.ldiff x m) = 0).
    { apply Z.bits_inj'; intros i Hi. rewrite !Z.land_spec, Z.ldiff_spec, Z.bits_0.
      destruct (Z.testbit x i), (Z.testbit m i); reflexivity. }
    assert (E2 : Z.land x m + Z.ldiff x m = x).
    { rewrite Z.add_nocarry_lxor, Z.lxor_lor by assumption. symmetry; assumption. }
    assert (0 <= Z.ldiff x m) by (apply Z.ldiff_nonneg; left; exact Hx). lia. }
  specialize (L (Z.lor 0x3000 (set mod 65536)) 0x3000 ltac:(lia) ltac:(lia)). lia.
Qed.

Lemma errnum2_eq set msg : ErrNum2 set msg = folded set * 2^14 + msg mod 16384.
Proof.
  unfold ErrNum2, ERR_FLAG, ERR_CUST.
  change 0xFFFF with (2^16-1). change 0x3FFF with (2^14-1). rewrite !land_ones_mod by lia.
  change (Z.lor 0x8000000 0x4000000) with (Z.shiftl 0x3000 14).
  rewrite <- Z.shiftl_lor. rewrite Z.shiftl_mul_pow2 by lia.
  rewrite lor_disjoint by lia. reflexivity.
Qed.

Lemma folded_id set : folded (folded set) = folded set.
Proof.
  assert (B := folded_bound set). unfold folded at 1. rewrite Z.mod_small by lia. unfold folded.
  rewrite Z.lor_assoc. reflexivity.
Qed.

Lemma err_facts set msg :
  err_msg (ErrNum2 set msg) = msg mod 16384 /\
  err_set (ErrNum2 set msg) = folded set /\
  0 < ErrNum2 set msg < 2^30.
Proof.
  assert (B := folded_bound set).
  rewrite errnum2_eq. unfold err_msg, err_set.
  change 0xFFFF with (2^16-1). change 0x3FFF with (2^14-1).
  rewrite !land_ones_mod, Z.shiftr_div_pow2 by lia.
  repeat split; try lia.
Qed.

Lemma errnum1_idem x : ErrNum1 (ErrNum1 x) = ErrNum1 x.
Proof.
  unfold ErrNum1. destruct (Z.eqb_spec x 0) as [->|N]; [reflexivity|].
  destruct (Z.eqb_spec (Z.lor (Z.lor x ERR_FLAG) ERR_CUST) 0) as [E|E].
  - rewrite E. reflexivity.
  - apply Z.bits_inj'; intros i Hi. rewrite !Z.lor_spec.
    destruct (Z.testbit x i), (Z.testbit ERR_FLAG i), (Z.testbit ERR_CUST i); reflexivity.
Qed.

Lemma errnum1_of_2 set msg : ErrNum1 (ErrNum2 set msg) = ErrNum2 set msg.
Proof.
  destruct (err_facts set msg) as (_ & _ & P). unfold ErrNum1.
  destruct (Z.eqb_spec (ErrNum2 set msg) 0); [lia|].
  unfold ErrNum2. apply Z.bits_inj'; intros i Hi. rewrite !Z.lor_spec.
  destruct (Z.testbit ERR_FLAG i), (Z.testbit ERR_CUST i);
    rewrite ?orb_true_r, ?orb_false_r, ?orb_true_l; reflexivity.
Qed.
