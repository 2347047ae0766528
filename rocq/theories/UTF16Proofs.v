From Verif Require Import Base UTF8Proofs UTF16Model.
Ltac Zify.zify_post_hook ::= Z.div_mod_to_equations.

Definition is_u16 (x : Z) : Prop := 0 <= x < 65536.

(** Splitting a 16-bit value at bit k. *)
Lemma land_split x k hi lo : 0 <= k -> 0 <= lo < 2 ^ k -> 0 <= x < 65536 ->
  Z.land x (hi * 2 ^ k + lo) = Z.land (x / 2 ^ k) hi * 2 ^ k + Z.land (x mod 2 ^ k) lo.
Proof.
  intros Hk Hlo Hx.
  assert (B : 0 <= x mod 2 ^ k < 2 ^ k) by (apply Z.mod_pos_bound, Z.pow_pos_nonneg; lia).
  assert (E : x = Z.lor (Z.shiftl (x / 2^k) k) (x mod 2^k)).
  { rewrite Z.shiftl_mul_pow2, lor_disjoint by lia.
    rewrite Z.mul_comm. apply Z.div_mod. lia. }
  assert (L : 0 <= Z.land (x mod 2 ^ k) lo < 2 ^ k).
  { split; [apply Z.land_nonneg; lia|].
    destruct (Z.eq_dec (Z.land (x mod 2^k) lo) 0) as [->|N]; [lia|].
    assert (0 <= Z.land (x mod 2^k) lo) by (apply Z.land_nonneg; lia).
    destruct (Z.eq_dec lo 0) as [->|Nl]; [rewrite Z.land_0_r in N; lia|].
    assert (Z.log2 (Z.land (x mod 2^k) lo) <= Z.min (Z.log2 (x mod 2^k)) (Z.log2 lo)) by (apply Z.log2_land; lia).
    assert (Z.log2 lo < k) by (apply Z.log2_lt_pow2; lia).
    apply Z.log2_lt_pow2; lia. }
  rewrite <- (lor_disjoint _ k _ Hk L). rewrite <- (lor_disjoint _ k _ Hk Hlo).
  rewrite <- !Z.shiftl_mul_pow2 by lia.
  apply Z.bits_inj'; intros i Hi.
  rewrite Z.lor_spec, !Z.land_spec, Z.lor_spec.
  rewrite E at 1. rewrite Z.lor_spec.
  destruct (Z.ltb_spec i k).
  - rewrite !Z.shiftl_spec_low by lia. rewrite !orb_false_l. reflexivity.
  - rewrite !Z.shiftl_spec_high by lia. rewrite Z.land_spec.
    assert (F : forall y, 0 <= y < 2 ^ k -> Z.testbit y i = false).
    { intros y Hy. destruct (Z.eq_dec y 0) as [->|]; [apply Z.bits_0|].
      apply Z.bits_above_log2; [lia|]. assert (Z.log2 y < k) by (apply Z.log2_lt_pow2; lia). lia. }
    rewrite (F _ B), (F _ Hlo). rewrite ?orb_false_r, ?andb_false_l, ?orb_false_r. reflexivity.
Qed.

Definition hi_sweep (P : Z -> bool) (n : nat) : bool := forallb P (map Z.of_nat (List.seq 0 n)).
Lemma sweep_n (P : Z -> bool) n : hi_sweep P n = true -> forall x, 0 <= x < Z.of_nat n -> P x = true.
Proof.
  unfold hi_sweep. intros H x Hx. rewrite forallb_forall in H. apply H.
  apply in_map_iff. exists (Z.to_nat x). split; [lia|]. apply in_seq. lia.
Qed.

Lemma surrogate_spec x : is_u16 x -> UTF16IsSurrogate x = (0xD800 <=? x) && (x <=? 0xDFFF).
Proof.
  unfold is_u16, UTF16IsSurrogate; intros Hx.
  change 0xF800 with (31 * 2^11 + 0). rewrite land_split by lia. rewrite Z.land_0_r.
  change 31 with (2^5-1). rewrite land_ones_mod by lia.
  replace (x / 2^11 mod 2^5) with (x / 2^11) by lia. lia.
Qed.
Lemma is1st16_spec x : is_u16 x -> UTF16Is1st x = (0xD800 <=? x) && (x <=? 0xDBFF).
Proof.
  unfold is_u16, UTF16Is1st; intros Hx.
  change 0xFC00 with (63 * 2^10 + 0). rewrite land_split by lia. rewrite Z.land_0_r.
  change 63 with (2^6-1). rewrite land_ones_mod by lia.
  replace (x / 2^10 mod 2^6) with (x / 2^10) by lia. lia.
Qed.
Lemma is2nd16_spec x : is_u16 x -> UTF16Is2nd x = (0xDC00 <=? x) && (x <=? 0xDFFF).
Proof.
  unfold is_u16, UTF16Is2nd; intros Hx.
  change 0xFC00 with (63 * 2^10 + 0). rewrite land_split by lia. rewrite Z.land_0_r.
  change 63 with (2^6-1). rewrite land_ones_mod by lia.
  replace (x / 2^10 mod 2^6) with (x / 2^10) by lia. lia.
Qed.

Lemma swab_eq x : is_u16 x -> UTF16Swab x = (x mod 256) * 256 + x / 256.
Proof.
  unfold is_u16, UTF16Swab, u16; intros Hx.
  change 0xff with (2^8-1). rewrite land_ones_mod by lia.
  change 0xff00 with (255 * 2^8 + 0). rewrite land_split by lia. rewrite Z.land_0_r.
  change 255 with (2^8-1). rewrite land_ones_mod by lia.
  rewrite Z.shiftl_mul_pow2, Z.shiftr_div_pow2 by lia.
  replace ((x / 2 ^ 8 mod 2 ^ 8 * 2 ^ 8 + 0) / 2 ^ 8) with (x / 256) by lia.
  rewrite lor_disjoint by lia. lia.
Qed.
Lemma swab_u16 x : is_u16 x -> is_u16 (UTF16Swab x).
Proof. intros H. rewrite swab_eq by exact H. unfold is_u16 in *. lia. Qed.
Lemma swab_swab x : is_u16 x -> UTF16Swab (UTF16Swab x) = x.
Proof. intros H. rewrite (swab_eq (UTF16Swab x)) by (apply swab_u16; exact H). rewrite swab_eq by exact H. unfold is_u16 in H. lia. Qed.

Definition scalar (ch : Z) : Prop := 0 <= ch < 0xD800 \/ 0xE000 <= ch < 0x110000.

Lemma high_eq ch : 0x10000 <= ch < 0x110000 -> UCS4HighSurrogate ch = 0xD800 + (ch - 0x10000) / 1024.
Proof.
  intros H. unfold UCS4HighSurrogate, u16, u32. rewrite Z.shiftr_div_pow2 by lia.
  change (2^10) with 1024. lia.
Qed.
Lemma low_eq ch : 0x10000 <= ch < 0x110000 -> UCS4LowSurrogate ch = 0xDC00 + ch mod 1024.
Proof.
  intros H. unfold UCS4LowSurrogate, u16. change 0x3FF with (2^10-1). rewrite land_ones_mod by lia.
  change (2^10) with 1024. lia.
Qed.

Lemma land_hi_pay c : 0xD800 <= c <= 0xDBFF -> Z.land c (u32 (Z.lnot 0xD800)) = c - 0xD800.
Proof.
  intros H. change (u32 (Z.lnot 0xD800)) with (0x3FFFC9 * 2^10 + 1023). rewrite land_split by lia.
  change 1023 with (2^10-1). rewrite land_ones_mod by lia.
  replace (c / 2^10) with 54 by lia. change (Z.land 54 0x3FFFC9) with 0. lia.
Qed.
Lemma land_lo_pay c : 0xDC00 <= c <= 0xDFFF -> Z.land c (u32 (Z.lnot 0xDC00)) = c - 0xDC00.
Proof.
  intros H. change (u32 (Z.lnot 0xDC00)) with (0x3FFFC8 * 2^10 + 1023). rewrite land_split by lia.
  change 1023 with (2^10-1). rewrite land_ones_mod by lia.
  replace (c / 2^10) with 55 by lia. change (Z.land 55 0x3FFFC8) with 0. lia.
Qed.

Lemma unswap (swap : bool) x : is_u16 x ->
  (if swap then UTF16Swab (if swap then UTF16Swab x else x) else (if swap then UTF16Swab x else x)) = x.
Proof. intros H. destruct swap; [apply swab_swab; exact H|reflexivity]. Qed.

Lemma utf16_roundtrip ch swap rest : scalar ch ->
  exists us n, UTF16Put ch swap = Ok us /\ UTF16Len ch = Ok n /\ length us = n /\
    UTF16Get (us ++ rest) swap = Ok (ch, n) /\ UTF16LenPtr (us ++ rest) swap = Ok n.
Proof.
  intros Hs. unfold UTF16Put, UTF16Len, UCS4IsUnicode.
  destruct (Z.leb_spec ch 0xFFFF) as [Hle|Hgt].
  - assert (Hu : is_u16 ch) by (unfold is_u16, scalar in *; lia).
    replace (u16 ch) with ch by (unfold u16, is_u16 in *; lia).
    replace (ch <? 0x110000) with true by lia. replace (ch >? 0xFFFF) with false by lia.
    cbn [cassert]. do 2 eexists. split; [reflexivity|]. split; [reflexivity|]. split; [reflexivity|].
    unfold UTF16Get, UTF16LenPtr, rd. cbn [app nth_error obind].
    rewrite (unswap swap ch Hu).
    rewrite surrogate_spec, is1st16_spec by exact Hu.
    assert (E : (0xD800 <=? ch) && (ch <=? 0xDFFF) = false) by (unfold scalar in Hs; lia).
    assert (E2 : (0xD800 <=? ch) && (ch <=? 0xDBFF) = false) by (unfold scalar in Hs; lia).
    rewrite E, E2. split; reflexivity.
  - assert (R : 0x10000 <= ch < 0x110000) by (unfold scalar in Hs; lia).
    replace (ch <? 0x110000) with true by lia. replace (ch >? 0xFFFF) with true by lia. cbn [cassert].
    do 2 eexists. split; [reflexivity|]. split; [reflexivity|]. split; [reflexivity|].
    rewrite high_eq, low_eq by exact R.
    set (c1 := 0xD800 + (ch - 0x10000) / 1024). set (c2 := 0xDC00 + ch mod 1024).
    assert (H1 : 0xD800 <= c1 <= 0xDBFF) by (unfold c1; lia).
    assert (H2 : 0xDC00 <= c2 <= 0xDFFF) by (unfold c2; lia).
    assert (U1 : is_u16 c1) by (unfold is_u16; lia). assert (U2 : is_u16 c2) by (unfold is_u16; lia).
    unfold UTF16Get, UTF16LenPtr, rd. cbn [app nth_error obind].
    rewrite !(unswap swap c1 U1). rewrite !(unswap swap c2 U2).
    rewrite surrogate_spec, is1st16_spec, is2nd16_spec by assumption.
    replace ((0xD800 <=? c1) && (c1 <=? 0xDFFF)) with true by lia.
    replace ((0xD800 <=? c1) && (c1 <=? 0xDBFF)) with true by lia.
    replace ((0xDC00 <=? c2) && (c2 <=? 0xDFFF)) with true by lia.
    cbn [negb cassert]. split; [|reflexivity].
    rewrite land_hi_pay, land_lo_pay by assumption. f_equal. f_equal.
    rewrite Z.shiftl_mul_pow2 by lia. unfold u32. unfold c1, c2. lia.
Qed.

Lemma utf16_get_total m (swap : bool) : Forall is_u16 m ->
  (exists u r, m = u :: r /\ let c1 := if swap then UTF16Swab u else u in
     (~ (0xD800 <= c1 <= 0xDFFF) \/
      (0xD800 <= c1 <= 0xDBFF /\ exists v r', r = v :: r' /\
         0xDC00 <= (if swap then UTF16Swab v else v) <= 0xDFFF))) ->
  exists ch k, UTF16Get m swap = Ok (ch, k) /\ (k = 1 \/ k = 2)%nat /\ scalar ch.
Proof.
  intros Hm (u & r & -> & H). cbn zeta in H.
  inversion Hm as [|? ? Hu Hr]; subst.
  assert (U1 : is_u16 (if swap then UTF16Swab u else u)) by (destruct swap; [apply swab_u16|]; exact Hu).
  unfold UTF16Get, rd. cbn [nth_error obind].
  set (c1 := if swap then UTF16Swab u else u) in *.
  rewrite surrogate_spec, is1st16_spec by assumption.
  destruct H as [H|(H & v & r' & -> & Hv)].
  - replace ((0xD800 <=? c1) && (c1 <=? 0xDFFF)) with false by lia. cbn [negb].
    do 2 eexists. split; [reflexivity|]. split; [auto|]. unfold scalar, is_u16 in *; lia.
  - replace ((0xD800 <=? c1) && (c1 <=? 0xDFFF)) with true by lia.
    replace ((0xD800 <=? c1) && (c1 <=? 0xDBFF)) with true by lia.
    cbn [negb cassert nth_error obind].
    inversion Hr as [|? ? Hv2 Hr']; subst.
    assert (U2 : is_u16 (if swap then UTF16Swab v else v)) by (destruct swap; [apply swab_u16|]; exact Hv2).
    set (c2 := if swap then UTF16Swab v else v) in *.
    rewrite is2nd16_spec by assumption.
    replace ((0xDC00 <=? c2) && (c2 <=? 0xDFFF)) with true by lia. cbn [cassert].
    do 2 eexists. split; [reflexivity|]. split; [auto|].
    rewrite land_hi_pay, land_lo_pay by lia. rewrite Z.shiftl_mul_pow2 by lia. unfold u32, scalar. lia.
Qed.
