(** Lemmas about the UTF-8 model. *)
From Verif Require Import Base UTF8Model UTF8Spec.
Ltac Zify.zify_post_hook ::= Z.div_mod_to_equations.

(** *** Finite sweeps over bytes *)
Definition all_bytes : list Z := map Z.of_nat (List.seq 0 256).

Lemma byte_sweep (P : Z -> bool) :
  forallb P all_bytes = true -> forall b, is_byte b -> P b = true.
Proof.
  intros H b Hb. rewrite forallb_forall in H. apply H.
  unfold all_bytes. apply in_map_iff. exists (Z.to_nat b).
  unfold is_byte in Hb. split; [lia|]. apply in_seq. lia.
Qed.

Lemma is2nd_spec b : is_byte b -> UTF8Is2nd b = (0x80 <=? b) && (b <=? 0xBF).
Proof.
  intros Hb. apply eqb_prop.
  apply (byte_sweep (fun b => eqb (UTF8Is2nd b) ((0x80 <=? b) && (b <=? 0xBF)))); [vm_compute; reflexivity|exact Hb].
Qed.

Lemma is1st_spec b : is_byte b -> UTF8Is1st b = negb ((0x80 <=? b) && (b <=? 0xBF)).
Proof. intros Hb. rewrite <- is2nd_spec by exact Hb. reflexivity. Qed.

(** *** Bit arithmetic *)
Lemma land_ones_mod a n : 0 <= n -> Z.land a (2 ^ n - 1) = a mod 2 ^ n.
Proof. intros H. rewrite <- Z.land_ones by lia. f_equal. rewrite Z.ones_equiv. lia. Qed.

Lemma land3F b : Z.land b 0x3F = b mod 64.
Proof. apply (land_ones_mod b 6); lia. Qed.
Lemma landFF b : Z.land b 0xFF = b mod 256.
Proof. apply (land_ones_mod b 8); lia. Qed.
Lemma land7F b : Z.land b 0x7F = b mod 128.
Proof. apply (land_ones_mod b 7); lia. Qed.
Lemma land1F b : Z.land b 0x1F = b mod 32.
Proof. apply (land_ones_mod b 5); lia. Qed.
Lemma land0F b : Z.land b 0x0F = b mod 16.
Proof. apply (land_ones_mod b 4); lia. Qed.
Lemma land07 b : Z.land b 0x07 = b mod 8.
Proof. apply (land_ones_mod b 3); lia. Qed.
Lemma land03 b : Z.land b 0x03 = b mod 4.
Proof. apply (land_ones_mod b 2); lia. Qed.

Lemma lor_disjoint a n lo : 0 <= n -> 0 <= lo < 2 ^ n -> Z.lor (a * 2 ^ n) lo = a * 2 ^ n + lo.
Proof.
  intros Hn Hlo. rewrite <- Z.shiftl_mul_pow2 by lia.
  destruct (Z.eq_dec lo 0) as [->|Hnz]; [rewrite Z.lor_0_r; lia|].
  assert (Hlog : Z.log2 lo < n) by (apply Z.log2_lt_pow2; lia).
  assert (D : Z.land (Z.shiftl a n) lo = 0).
  { apply Z.bits_inj'; intros i Hi; rewrite Z.land_spec, Z.bits_0.
    destruct (Z.ltb_spec i n).
    - rewrite Z.shiftl_spec_low by lia; reflexivity.
    - rewrite (Z.bits_above_log2 lo), andb_false_r by lia; reflexivity. }
  symmetry. rewrite Z.add_nocarry_lxor, Z.lxor_lor by exact D. reflexivity.
Qed.

Lemma lor_80 x : 0 <= x < 64 -> Z.lor 0x80 x = 0x80 + x.
Proof. intros H. exact (lor_disjoint 2 6 x ltac:(lia) H). Qed.

Lemma lor_C0 x : 0 <= x < 32 -> Z.lor 0xC0 x = 0xC0 + x.
Proof. intros H. exact (lor_disjoint 6 5 x ltac:(lia) H). Qed.
Lemma lor_E0 x : 0 <= x < 16 -> Z.lor 0xE0 x = 0xE0 + x.
Proof. intros H. exact (lor_disjoint 14 4 x ltac:(lia) H). Qed.
Lemma lor_F0 x : 0 <= x < 8 -> Z.lor 0xF0 x = 0xF0 + x.
Proof. intros H. exact (lor_disjoint 30 3 x ltac:(lia) H). Qed.
Lemma lor_F8 x : 0 <= x < 4 -> Z.lor 0xF8 x = 0xF8 + x.
Proof. intros H. exact (lor_disjoint 62 2 x ltac:(lia) H). Qed.
Lemma lor_FC x : 0 <= x < 4 -> Z.lor 0xFC x = 0xFC + x.
Proof. intros H. exact (lor_disjoint 63 2 x ltac:(lia) H). Qed.

Lemma shiftr_div a n : 0 <= n -> Z.shiftr a n = a / 2 ^ n.
Proof. intros; apply Z.shiftr_div_pow2; lia. Qed.

Lemma put2nd_eq ch sh : 0 <= sh -> put2nd ch sh = 0x80 + (ch / 2 ^ sh) mod 64.
Proof.
  intros H. unfold put2nd. rewrite land3F, shiftr_div by lia. apply lor_80.
  apply Z.mod_pos_bound; lia.
Qed.

Lemma encode_illegal_eq b : is_byte b -> UTF8EncodeIllegal b = 0x80000000 + b.
Proof.
  intros Hb. unfold UTF8EncodeIllegal, is_byte in *. rewrite landFF.
  rewrite Z.mod_small by lia.
  exact (lor_disjoint 0x800000 8 b ltac:(lia) Hb).
Qed.

Lemma land_hi24 x : ucs4 x -> Z.land x 0xFFFFFF00 = x / 256 * 256.
Proof.
  intros Hx. unfold ucs4 in Hx.
  assert (E : x = Z.lor (Z.shiftl (x / 256) 8) (x mod 256)).
  { rewrite Z.shiftl_mul_pow2 by lia. rewrite (lor_disjoint (x/256) 8 (x mod 256)) by lia. lia. }
  rewrite E at 1. rewrite Z.land_lor_distr_l.
  assert (E1 : Z.land (x mod 256) 0xFFFFFF00 = 0).
  { apply Z.bits_inj'; intros i Hi. rewrite Z.land_spec, Z.bits_0.
    destruct (Z.ltb_spec i 8).
    - assert (H8 : i = 0 \/ i = 1 \/ i = 2 \/ i = 3 \/ i = 4 \/ i = 5 \/ i = 6 \/ i = 7) by lia.
      decompose [or] H8; subst; apply andb_false_r.
    - rewrite (Z.bits_above_log2 (x mod 256)); [reflexivity|lia|].
      destruct (Z.eq_dec (x mod 256) 0) as [->|]; [simpl; lia|].
      assert (Z.log2 (x mod 256) < 8) by (apply Z.log2_lt_pow2; lia). lia. }
  rewrite E1, Z.lor_0_r.
  change 0xFFFFFF00 with (Z.shiftl (2 ^ 24 - 1) 8). rewrite <- Z.shiftl_land.
  rewrite (land_ones_mod (x / 256) 24) by lia.
  rewrite Z.shiftl_mul_pow2 by lia. f_equal. lia.
Qed.

Lemma land_msb x : ucs4 x -> (Z.land x 0x80000000 =? 0) = (x <? 2 ^ 31).
Proof.
  intros Hx. unfold ucs4 in Hx.
  change 0x80000000 with (Z.shiftl 1 31).
  assert (E : x = Z.lor (Z.shiftl (x / 2^31) 31) (x mod 2^31)).
  { rewrite Z.shiftl_mul_pow2 by lia. rewrite (lor_disjoint (x/2^31) 31 (x mod 2^31)) by lia. lia. }
  rewrite E at 1. rewrite Z.land_lor_distr_l, <- Z.shiftl_land.
  assert (E1 : Z.land (x mod 2^31) (Z.shiftl 1 31) = 0).
  { apply Z.bits_inj'; intros i Hi. rewrite Z.land_spec, Z.bits_0.
    destruct (Z.ltb_spec i 31).
    - rewrite Z.shiftl_spec_low by lia. apply andb_false_r.
    - rewrite (Z.bits_above_log2 (x mod 2^31)); [reflexivity|lia|].
      destruct (Z.eq_dec (x mod 2^31) 0) as [->|]; [simpl; lia|].
      assert (Z.log2 (x mod 2^31) < 31) by (apply Z.log2_lt_pow2; lia). lia. }
  rewrite E1, Z.lor_0_r.
  destruct (Z.ltb_spec x (2^31)).
  - replace (x / 2^31) with 0 by lia. reflexivity.
  - replace (x / 2^31) with 1 by lia. reflexivity.
Qed.

Lemma illegal_spec x : ucs4 x -> UCS4IsIllegal x = true <-> replacement x.
Proof.
  intros Hx. unfold UCS4IsIllegal, replacement. rewrite land_hi24 by exact Hx.
  unfold ucs4 in Hx. rewrite orb_true_iff, !Z.eqb_eq. lia.
Qed.

(** *** The length function *)
Definition cap (n : nat) : Z :=
  match n with 1%nat => 2^7 | 2%nat => 2^11 | 3%nat => 2^16 | 4%nat => 2^21 | 5%nat => 2^26
  | 6%nat => 2^32 | _ => 0 end.

Lemma len_repl x : ucs4 x -> replacement x -> UTF8Len x = 1%nat.
Proof.
  intros Hx Hr. unfold UTF8Len. rewrite land_msb by exact Hx.
  assert (Hi : UCS4IsIllegal x = true) by (apply illegal_spec; assumption).
  rewrite Hi. unfold replacement in Hr.
  destruct (Z.ltb_spec x (2^31)); [lia|reflexivity].
Qed.

Lemma len_norm x : ucs4 x -> ~ replacement x ->
  UTF8Len x = if x <? 2^7 then 1%nat else if x <? 2^11 then 2%nat else if x <? 2^16 then 3%nat
               else if x <? 2^21 then 4%nat else if x <? 2^26 then 5%nat else 6%nat.
Proof.
  intros Hx Hr. unfold UTF8Len. rewrite land_msb by exact Hx.
  assert (Hi : UCS4IsIllegal x = false).
  { destruct (UCS4IsIllegal x) eqn:E; [|reflexivity]. exfalso; apply Hr, illegal_spec; assumption. }
  rewrite Hi.
  destruct (Z.ltb_spec x (2^31)); simpl negb; cbv iota; [reflexivity|].
  destruct (Z.ltb_spec x (2^7)); [lia|]. destruct (Z.ltb_spec x (2^11)); [lia|].
  destruct (Z.ltb_spec x (2^16)); [lia|]. destruct (Z.ltb_spec x (2^21)); [lia|].
  destruct (Z.ltb_spec x (2^26)); [lia|]. reflexivity.
Qed.

Lemma len_cases x : ucs4 x -> ~ replacement x ->
  exists n, UTF8Len x = n /\ (1 <= n <= 6)%nat /\ x < cap n /\ (forall k, (k < n)%nat -> cap k <= x).
Proof.
  intros Hx Hr. rewrite len_norm by assumption. unfold ucs4 in Hx. eexists; split; [reflexivity|].
  destruct (Z.ltb_spec x (2^7)); [repeat split; simpl; try lia; intros [|k]; simpl; lia|].
  destruct (Z.ltb_spec x (2^11)); [repeat split; simpl; try lia; intros [|[|k]]; simpl; lia|].
  destruct (Z.ltb_spec x (2^16)); [repeat split; simpl; try lia; intros [|[|[|k]]]; simpl; lia|].
  destruct (Z.ltb_spec x (2^21)); [repeat split; simpl; try lia; intros [|[|[|[|k]]]]; simpl; lia|].
  destruct (Z.ltb_spec x (2^26)); [repeat split; simpl; try lia; intros [|[|[|[|[|k]]]]]; simpl; lia|].
  repeat split; simpl; try lia; intros [|[|[|[|[|[|k]]]]]]; simpl; lia.
Qed.

Lemma put_length x : ucs4 x -> length (UTF8Put x) = UTF8Len x.
Proof.
  intros Hx. destruct (UCS4IsIllegal x) eqn:E.
  - apply illegal_spec in E; [|exact Hx]. unfold UTF8Put. rewrite len_repl by assumption. reflexivity.
  - assert (Hr : ~ replacement x) by (intros R; apply illegal_spec in R; [congruence|exact Hx]).
    destruct (len_cases x Hx Hr) as (n & En & Hn & _). unfold UTF8Put. rewrite En.
    destruct n as [|[|[|[|[|[|[|n]]]]]]]; try reflexivity; lia.
Qed.

Lemma put_repl x : ucs4 x -> replacement x -> UTF8Put x = [x mod 256].
Proof. intros Hx Hr. unfold UTF8Put. rewrite len_repl by assumption. reflexivity. Qed.

(** *** tail_value *)
Lemma tail_value_cons hd b tl : tail_value hd (b :: tl) = tail_value (hd * 64 + (b - 0x80)) tl.
Proof. reflexivity. Qed.

Lemma tail_value_bounds tl : Forall continuation tl -> forall hd,
  hd * 64 ^ Z.of_nat (length tl) <= tail_value hd tl < (hd + 1) * 64 ^ Z.of_nat (length tl).
Proof.
  induction 1 as [|b tl Hb Htl IH]; intros hd.
  - simpl. unfold tail_value; simpl. lia.
  - rewrite tail_value_cons. specialize (IH (hd * 64 + (b - 0x80))).
    cbn [length]. rewrite Nat2Z.inj_succ, Z.pow_succ_r by lia.
    set (p := 64 ^ Z.of_nat (length tl)) in *.
    assert (0 < p) by (apply Z.pow_pos_nonneg; lia). unfold continuation in Hb. nia.
Qed.

Lemma tail_value_inj tl : Forall continuation tl -> forall tl' hd hd',
  Forall continuation tl' -> length tl = length tl' ->
  tail_value hd tl = tail_value hd' tl' -> hd = hd' /\ tl = tl'.
Proof.
  intros Htl. induction Htl as [|b tl Hb Htl IH]; intros [|b' tl'] hd hd' H' L E; try discriminate.
  - auto.
  - inversion H' as [|? ? Hb' Ht']; subst. rewrite !tail_value_cons in E.
    destruct (IH tl' _ _ Ht' ltac:(simpl in L; lia) E) as [E1 ->].
    unfold continuation in *. split; [lia|f_equal; lia].
Qed.

Lemma form_some n lo pay : form n = Some (lo, pay) ->
  (n = 1%nat /\ lo = 0 /\ pay = 128) \/ (n = 2%nat /\ lo = 0xC0 /\ pay = 32) \/
  (n = 3%nat /\ lo = 0xE0 /\ pay = 16) \/ (n = 4%nat /\ lo = 0xF0 /\ pay = 8) \/
  (n = 5%nat /\ lo = 0xF8 /\ pay = 4) \/ (n = 6%nat /\ lo = 0xFC /\ pay = 4).
Proof.
  destruct n as [|[|[|[|[|[|[|n]]]]]]]; simpl; intros H; inversion H; subst; auto 8; tauto.
Qed.

Lemma form_correctlen n lo pay lead : form n = Some (lo, pay) -> lo <= lead < lo + pay ->
  UTF8CorrectLen lead = n /\ Z.land lead (nth n masks 0) = lead - lo.
Proof.
  intros F H. apply form_some in F. unfold masks, UTF8CorrectLen.
  destruct F as [F|[F|[F|[F|[F|F]]]]]; destruct F as (-> & -> & ->); cbn [nth];
  rewrite ?land7F, ?land1F, ?land0F, ?land07, ?land03;
  (split; [|lia]);
  destruct (Z.ltb_spec lead 0x80); try lia;
  destruct (Z.ltb_spec lead 0xC0); try lia;
  destruct (Z.ltb_spec lead 0xE0); try lia;
  destruct (Z.ltb_spec lead 0xF0); try lia;
  destruct (Z.ltb_spec lead 0xF8); try lia;
  destruct (Z.ltb_spec lead 0xFC); lia.
Qed.

Lemma correctlen_form c : is_byte c ->
  (UTF8CorrectLen c = 0%nat /\ continuation c) \/
  exists n lo pay, UTF8CorrectLen c = n /\ form n = Some (lo, pay) /\ lo <= c < lo + pay /\ (1 <= n <= 6)%nat.
Proof.
  intros Hc. unfold is_byte in Hc. unfold UTF8CorrectLen, continuation.
  destruct (Z.ltb_spec c 0x80); [right; exists 1%nat, 0, 128; simpl; repeat split; lia|].
  destruct (Z.ltb_spec c 0xC0); [left; split; [reflexivity|lia]|].
  destruct (Z.ltb_spec c 0xE0); [right; exists 2%nat, 0xC0, 32; simpl; repeat split; lia|].
  destruct (Z.ltb_spec c 0xF0); [right; exists 3%nat, 0xE0, 16; simpl; repeat split; lia|].
  destruct (Z.ltb_spec c 0xF8); [right; exists 4%nat, 0xF0, 8; simpl; repeat split; lia|].
  destruct (Z.ltb_spec c 0xFC); [right; exists 5%nat, 0xF8, 4; simpl; repeat split; lia|].
  right; exists 6%nat, 0xFC, 4; simpl; repeat split; lia.
Qed.

Lemma seq_bounds s ch : seq s ch -> 0 <= ch < cap (length s) /\ (1 <= length s <= 6)%nat /\ bytes s.
Proof.
  intros (lead & tl & lo & pay & -> & F & Hl & Ht & ->).
  assert (B := tail_value_bounds tl Ht (lead - lo)).
  apply form_some in F. cbn [length] in F.
  assert (Hb : bytes (lead :: tl)).
  { constructor; [unfold is_byte; lia|]. eapply Forall_impl; [|exact Ht]. unfold continuation, is_byte; intros; lia. }
  split; [|split; [cbn [length]; lia|exact Hb]].
  destruct F as [F|[F|[F|[F|[F|F]]]]]; destruct F as (L & -> & ->);
  injection L as L; rewrite L in B; cbn [length]; rewrite L; simpl cap; simpl Z.of_nat in B;
  [change (64 ^ 0) with 1 in B | change (64 ^ 1) with 64 in B | change (64 ^ 2) with 4096 in B
  | change (64 ^ 3) with 262144 in B | change (64 ^ 4) with 16777216 in B | change (64 ^ 5) with 1073741824 in B];
  lia.
Qed.

(** *** UTF8Get on complete sequences *)
Lemma get_cont_ok tl : Forall continuation tl -> forall m i ch,
  (forall k, (k < length tl)%nat -> nth_error m (i + k) = nth_error tl k) ->
  0 <= ch -> (ch + 1) * 64 ^ Z.of_nat (length tl) <= 2 ^ 32 ->
  UTF8Get_cont m (length tl) i ch = Ok (Some (tail_value ch tl)).
Proof.
  induction 1 as [|b tl Hb Htl IH]; intros m i ch Hm Hch Hcap; [reflexivity|].
  cbn [length UTF8Get_cont].
  assert (Hr : rd m i = Ok b).
  { apply rd_ok. specialize (Hm 0%nat ltac:(simpl; lia)). rewrite Nat.add_0_r in Hm. exact Hm. }
  rewrite Hr. cbn [obind].
  assert (Hbb : is_byte b) by (unfold is_byte, continuation in *; lia).
  rewrite is1st_spec by exact Hbb. unfold continuation in Hb.
  replace (0x80 <=? b) with true by lia. replace (b <=? 0xBF) with true by lia. cbn [andb negb].
  cbn [length] in Hcap. rewrite Nat2Z.inj_succ, Z.pow_succ_r in Hcap by lia.
  set (p := 64 ^ Z.of_nat (length tl)) in *.
  assert (0 < p) by (apply Z.pow_pos_nonneg; lia).
  assert (E : Z.lor (u32 (Z.shiftl ch 6)) (Z.land b 0x3F) = ch * 64 + (b - 0x80)).
  { unfold u32. rewrite Z.shiftl_mul_pow2 by lia. rewrite Z.mod_small by (split; nia).
    rewrite land3F. replace (b mod 64) with (b - 0x80) by lia.
    apply (lor_disjoint ch 6); lia. }
  rewrite E, tail_value_cons. apply IH.
  - intros k Hk. specialize (Hm (S k) ltac:(simpl; lia)). rewrite Nat.add_succ_r in Hm. exact Hm.
  - lia.
  - fold p. nia.
Qed.

Lemma seq_cap32 lead tl lo pay : form (length (lead :: tl)) = Some (lo, pay) -> lo <= lead < lo + pay ->
  (lead - lo + 1) * 64 ^ Z.of_nat (length tl) <= 2 ^ 32.
Proof.
  intros F Hl. apply form_some in F. cbn [length] in F.
  destruct F as [F|[F|[F|[F|[F|F]]]]]; destruct F as (L & -> & ->); injection L as L; rewrite L;
  simpl Z.of_nat;
  [change (64 ^ 0) with 1 | change (64 ^ 1) with 64 | change (64 ^ 2) with 4096
  | change (64 ^ 3) with 262144 | change (64 ^ 4) with 16777216 | change (64 ^ 5) with 1073741824]; lia.
Qed.

Lemma get_seq s ch rest : seq s ch -> UTF8Get (s ++ rest) = Ok (ch, length s).
Proof.
  intros (lead & tl & lo & pay & -> & F & Hl & Ht & ->).
  assert (C := seq_cap32 _ _ _ _ F Hl).
  destruct (form_correctlen _ _ _ _ F Hl) as [CL M].
  unfold UTF8Get. cbn [app rd nth_error obind]. unfold rd; cbn [nth_error obind].
  rewrite CL. cbn [length] in *. rewrite M.
  rewrite (get_cont_ok tl Ht); [reflexivity| |lia|exact C].
  intros k Hk. simpl. apply nth_error_app1. exact Hk.
Qed.

Lemma get_cont_inv n : forall m i ch r, bytes m -> UTF8Get_cont m n i ch = Ok r ->
  match r with
  | Some _ => exists tl, length tl = n /\ Forall continuation tl /\
       firstn n (skipn i m) = tl
  | None => exists k b, (k < n)%nat /\ nth_error m (i + k) = Some b /\ ~ continuation b /\
       (forall j c, (j < k)%nat -> nth_error m (i + j) = Some c -> continuation c)
  end.
Proof.
  induction n as [|n IH]; intros m i ch r Hm H.
  - inversion H; subst. exists []. auto.
  - cbn [UTF8Get_cont] in H. apply obind_ok in H as (b & Hr & H).
    apply rd_ok in Hr.
    assert (Hb : is_byte b) by (eapply Forall_forall; [exact Hm|eapply nth_error_In; exact Hr]).
    rewrite is1st_spec in H by exact Hb.
    destruct ((0x80 <=? b) && (b <=? 0xBF)) eqn:E; cbn [negb] in H.
    + apply IH in H; [|exact Hm]. destruct r as [z|].
      * destruct H as (tl & L & C & E').
        exists (b :: tl). split; [simpl; lia|]. split; [constructor; [unfold continuation; lia|exact C]|].
        assert (Sk : skipn i m = b :: skipn (S i) m).
        { clear -Hr. revert i Hr. induction m as [|x m IH]; intros [|i] Hr; simpl in *; try discriminate.
          - inversion Hr; reflexivity.
          - apply IH; exact Hr. }
        rewrite Sk. cbn [firstn]. f_equal. exact E'.
      * destruct H as (k & c & Hk & Hc & Hn & Hall).
        exists (S k), c. split; [lia|]. split; [rewrite Nat.add_succ_r; exact Hc|]. split; [exact Hn|].
        intros [|j] c' Hj Hc'.
        -- rewrite Nat.add_0_r in Hc'. rewrite Hr in Hc'. inversion Hc'; subst. unfold continuation; lia.
        -- apply (Hall j); [lia|]. rewrite Nat.add_succ_r in Hc'. exact Hc'.
    + inversion H; subst. exists 0%nat, b. split; [lia|]. rewrite Nat.add_0_r. split; [exact Hr|].
      split; [unfold continuation; lia|]. intros j c Hj; lia.
Qed.

Lemma firstn_skipn1 (A:Type) (x:A) m n : firstn n (skipn 1 (x :: m)) = firstn n m.
Proof. reflexivity. Qed.

(** Every successful decode is a complete sequence or a stray byte. *)
Lemma get_inv m ch k : bytes m -> UTF8Get m = Ok (ch, k) ->
  (seq (firstn k m) ch /\ length (firstn k m) = k) \/
  (bad_start m /\ k = 1%nat /\ exists b r, m = b :: r /\ ch = 0x80000000 + b).
Proof.
  intros Hm H. destruct m as [|c m]; [discriminate|].
  assert (Hc : is_byte c) by (inversion Hm; assumption).
  unfold UTF8Get in H. unfold rd in H at 1; cbn [nth_error obind] in H.
  destruct (correctlen_form c Hc) as [[CL Cc]|(n & lo & pay & CL & F & Hl & Hn)]; rewrite CL in H.
  - inversion H; subst. right. split; [|split; [reflexivity|]].
    + intros a b ch' E (lead & tl & lo & pay & -> & F & Hl & _). inversion E; subst.
      apply form_some in F. unfold continuation in Cc. lia.
    + exists c, m. split; [reflexivity|]. apply encode_illegal_eq; exact Hc.
  - destruct n as [|n]; [lia|].
    apply obind_ok in H as (r & G & H).
    destruct r as [ch'|].
    + assert (I := get_cont_inv _ _ _ _ _ Hm G). cbn beta iota in I.
      destruct I as (tl & L & C & E). rewrite firstn_skipn1 in E.
      inversion H; subst ch' k. left. cbn [firstn]. rewrite E. split; [|simpl; lia].
      exists c, tl, lo, pay. split; [reflexivity|]. cbn [length]. rewrite L.
      split; [exact F|]. split; [exact Hl|]. split; [exact C|].
      assert (Q : seq (c :: tl) (tail_value (c - lo) tl)).
      { exists c, tl, lo, pay. cbn [length]; rewrite L. auto. }
      assert (G2 := get_seq _ _ (skipn n m) Q).
      cbn [app] in G2. rewrite <- E in G2 at 1. rewrite firstn_skipn in G2.
      unfold UTF8Get in G2. unfold rd in G2 at 1; cbn [nth_error obind] in G2. rewrite CL, G in G2.
      cbn [obind] in G2. inversion G2; reflexivity.
    + assert (I := get_cont_inv _ _ _ _ _ Hm G). cbn beta iota in I.
      destruct I as (j & b & Hj & Hb & Hnc & _).
      inversion H; subst ch k. right. split; [|split; [reflexivity|]].
      * intros a b' ch' E (lead & tl & lo' & pay' & -> & F' & Hl' & C' & _).
        injection E as E1 E2. subst lead.
        destruct (form_correctlen _ _ _ _ F' Hl') as [CL' _]. rewrite CL in CL'. cbn [length] in CL'.
        apply Hnc. simpl in Hb. rewrite E2 in Hb.
        rewrite nth_error_app1 in Hb by lia.
        eapply Forall_forall; [exact C'|]. eapply nth_error_In; exact Hb.
      * exists c, m. split; [reflexivity|]. apply encode_illegal_eq; exact Hc.
Qed.

(** Reading never needs more than the bytes up to a NUL. *)
Lemma get_cont_nul n : forall m i ch z, bytes m -> nth_error m z = Some 0 -> (i <= z)%nat ->
  exists r, UTF8Get_cont m n i ch = Ok r.
Proof.
  induction n as [|n IH]; intros m i ch z Hm Hz Hi; [eexists; reflexivity|].
  cbn [UTF8Get_cont].
  destruct (nth_error m i) as [b|] eqn:E.
  2:{ apply nth_error_None in E. assert (z < length m)%nat by (apply nth_error_Some; congruence). lia. }
  apply rd_ok in E as E'. rewrite E'. cbn [obind].
  assert (Hb : is_byte b) by (eapply Forall_forall; [exact Hm|eapply nth_error_In; exact E]).
  rewrite is1st_spec by exact Hb.
  destruct ((0x80 <=? b) && (b <=? 0xBF)) eqn:Eb; cbn [negb]; [|eexists; reflexivity].
  assert (i <> z). { intros ->. rewrite E in Hz. inversion Hz; subst. discriminate. }
  apply (IH _ _ _ z); [exact Hm|exact Hz|lia].
Qed.

Lemma get_nul m z : bytes m -> nth_error m z = Some 0 -> exists r, UTF8Get m = Ok r.
Proof.
  intros Hm Hz. destruct m as [|c m]; [destruct z; discriminate|].
  unfold UTF8Get. unfold rd at 1; cbn [nth_error obind].
  destruct (UTF8CorrectLen c) as [|n] eqn:CL; [eexists; reflexivity|].
  destruct n as [|n].
  - eexists; reflexivity.
  - assert (exists r, UTF8Get_cont (c :: m) (S n) 1 (Z.land c (nth (S (S n)) masks 0)) = Ok r) as (r & G).
    { apply (get_cont_nul _ _ _ _ z Hm Hz). destruct z; [|lia].
      simpl in Hz; inversion Hz; subst. discriminate. }
    rewrite G. cbn [obind]. destruct r; eexists; reflexivity.
Qed.

(** *** The encoder produces the shortest sequence *)
Ltac cont_tac := apply Forall_cons; [unfold continuation; lia|].

Lemma put_seq x : ucs4 x -> ~ replacement x -> seq (UTF8Put x) x.
Proof.
  intros Hx Hr. destruct (len_cases x Hx Hr) as (n & En & Hn & Hcap & _).
  unfold UTF8Put. rewrite En. clear En. unfold ucs4 in Hx. clear Hr.
  assert (D : n = 1%nat \/ n = 2%nat \/ n = 3%nat \/ n = 4%nat \/ n = 5%nat \/ n = 6%nat) by lia.
  destruct D as [->|[->|[->|[->|[->| ->]]]]]; simpl in Hcap; cbv beta iota;
    rewrite ?put2nd_eq by lia; rewrite ?land1F, ?land0F, ?land07, ?land03, ?shiftr_div by lia;
    rewrite ?Z.pow_0_r, ?Z.div_1_r.
  - exists (u8 x), [], 0, 128. unfold u8. rewrite Z.mod_small by lia.
    repeat split; try lia; [constructor|]. unfold tail_value; simpl. lia.
  - rewrite lor_C0 by lia.
    do 4 eexists. split; [reflexivity|]. split; [reflexivity|]. split; [lia|].
    split; [repeat cont_tac; constructor|]. unfold tail_value; cbn [fold_left]. lia.
  - rewrite lor_E0 by lia.
    do 4 eexists. split; [reflexivity|]. split; [reflexivity|]. split; [lia|].
    split; [repeat cont_tac; constructor|]. unfold tail_value; cbn [fold_left]. lia.
  - rewrite lor_F0 by lia.
    do 4 eexists. split; [reflexivity|]. split; [reflexivity|]. split; [lia|].
    split; [repeat cont_tac; constructor|]. unfold tail_value; cbn [fold_left]. lia.
  - rewrite lor_F8 by lia.
    do 4 eexists. split; [reflexivity|]. split; [reflexivity|]. split; [lia|].
    split; [repeat cont_tac; constructor|]. unfold tail_value; cbn [fold_left]. lia.
  - rewrite lor_FC by lia.
    do 4 eexists. split; [reflexivity|]. split; [reflexivity|]. split; [lia|].
    split; [repeat cont_tac; constructor|]. unfold tail_value; cbn [fold_left]. lia.
Qed.

Lemma cap_mono a b : (1 <= a <= b)%nat -> (b <= 6)%nat -> cap a <= cap b.
Proof.
  intros. destruct a as [|[|[|[|[|[|[|a]]]]]]]; destruct b as [|[|[|[|[|[|[|b]]]]]]]; simpl; lia.
Qed.

Lemma put_shortest x : ucs4 x -> ~ replacement x -> shortest (UTF8Put x) x.
Proof.
  intros Hx Hr. split; [apply put_seq; assumption|].
  intros s' S'. rewrite put_length by exact Hx.
  destruct (len_cases x Hx Hr) as (n & -> & Hn & Hcap & Hmin).
  destruct (seq_bounds _ _ S') as (B & L & _).
  destruct (Nat.le_gt_cases n (length s')) as [|Hlt]; [assumption|].
  specialize (Hmin _ Hlt). lia.
Qed.

Lemma seq_unique_len a a' ch : seq a ch -> seq a' ch -> length a = length a' -> a = a'.
Proof.
  intros (l & t & lo & pay & -> & F & Hl & Ht & ->) (l' & t' & lo' & pay' & -> & F' & Hl' & Ht' & E) L.
  rewrite L in F. rewrite F in F'. inversion F'; subst lo' pay'.
  cbn [length] in L. injection L as L.
  destruct (tail_value_inj t Ht t' _ _ Ht' L E) as [E1 ->]. f_equal. lia.
Qed.

Lemma shortest_put s ch : shortest s ch -> ~ replacement ch -> s = UTF8Put ch.
Proof.
  intros [S M] Hr. assert (Hx : ucs4 ch).
  { destruct (seq_bounds _ _ S) as (B & L & _). unfold ucs4.
    assert (cap (length s) <= cap 6) by (apply cap_mono; lia). simpl cap in *. lia. }
  destruct (put_shortest ch Hx Hr) as [S' M'].
  apply (seq_unique_len _ _ ch S S').
  apply Nat.le_antisymm; [apply M; exact S'|apply M'; exact S].
Qed.

Lemma seq_ucs4 s ch : seq s ch -> ucs4 ch.
Proof.
  intros S. destruct (seq_bounds _ _ S) as (B & L & _). unfold ucs4.
  assert (cap (length s) <= cap 6) by (apply cap_mono; lia). simpl cap in *. lia.
Qed.

Lemma put_len_le s ch : seq s ch -> (length (UTF8Put ch) <= length s)%nat.
Proof.
  intros S. assert (Hx := seq_ucs4 _ _ S).
  destruct (UCS4IsIllegal ch) eqn:E.
  - apply illegal_spec in E; [|exact Hx]. rewrite put_repl by assumption.
    destruct (seq_bounds _ _ S) as (_ & L & _). simpl; lia.
  - assert (Hr : ~ replacement ch) by (intros R; apply illegal_spec in R; [congruence|exact Hx]).
    destruct (put_shortest ch Hx Hr) as [_ M]. apply M; exact S.
Qed.

Lemma seq_nonnil s ch : seq s ch -> s <> [].
Proof. intros (l & t & lo & pay & -> & _). discriminate. Qed.

(** *** Whole strings *)
Lemma get_advance m ch k : bytes m -> UTF8Get m = Ok (ch, k) -> (1 <= k <= 6)%nat /\ (k <= length m)%nat.
Proof.
  intros Hm H. destruct (get_inv _ _ _ Hm H) as [[S L]|(_ & -> & b & r & -> & _)].
  - destruct (seq_bounds _ _ S) as (_ & L2 & _). rewrite L in L2. split; [lia|].
    rewrite firstn_length in L. lia.
  - simpl. lia.
Qed.

(** A decode inside [s ++ 0 :: _] never runs past [s]. *)
Lemma get_within s t ch k : bytes s -> bytes t -> s <> [] -> UTF8Get (s ++ 0 :: t) = Ok (ch, k) ->
  (1 <= k <= length s)%nat.
Proof.
  intros Hs Ht Hne H.
  assert (Hm : bytes (s ++ 0 :: t)).
  { apply Forall_app; split; [exact Hs|]. constructor; [unfold is_byte; lia|exact Ht]. }
  destruct (get_advance _ _ _ Hm H) as [A B].
  destruct (get_inv _ _ _ Hm H) as [[S L]|(_ & -> & _)].
  - split; [lia|]. destruct (Nat.le_gt_cases k (length s)) as [|Hgt]; [assumption|exfalso].
    destruct S as (lead & tl & lo & pay & E & _ & _ & C & _).
    destruct s as [|s0 s]; [congruence|].
    destruct k as [|k]; [lia|]. cbn [app firstn] in E. injection E as E1 E2.
    assert (N : nth_error tl (length s) = Some 0).
    { rewrite <- E2. rewrite firstn_app. rewrite nth_error_app2.
      - rewrite firstn_length. simpl in Hgt. replace (length s - min k (length s))%nat with 0%nat by lia.
        destruct (k - length s)%nat eqn:Ek; [lia|]. reflexivity.
      - rewrite firstn_length. lia. }
    rewrite Forall_forall in C. specialize (C 0 (nth_error_In _ _ N)). unfold continuation in C; lia.
  - destruct s; [congruence|]. simpl; lia.
Qed.

Lemma skipn_app_le (A:Type) k (a b : list A) : (k <= length a)%nat -> skipn k (a ++ b) = skipn k a ++ b.
Proof. intros H. rewrite skipn_app. replace (k - length a)%nat with 0%nat by lia. reflexivity. Qed.

Lemma firstn_app_le (A:Type) k (a b : list A) : (k <= length a)%nat -> firstn k (a ++ b) = firstn k a.
Proof. intros H. rewrite firstn_app. replace (k - length a)%nat with 0%nat by lia. simpl. apply app_nil_r. Qed.

Lemma bytes_skipn k s : bytes s -> bytes (skipn k s).
Proof.
  intros H. unfold bytes in *. rewrite <- (firstn_skipn k s) in H. apply Forall_app in H. apply H.
Qed.
Lemma bytes_firstn k s : bytes s -> bytes (firstn k s).
Proof.
  intros H. unfold bytes in *. rewrite <- (firstn_skipn k s) in H. apply Forall_app in H. apply H.
Qed.

Lemma bytes_nul s : bytes s -> bytes (s ++ [0]).
Proof. intros H. apply Forall_app; split; [exact H|]. constructor; [unfold is_byte; lia|constructor]. Qed.

Lemma decode_loop_S fuel m n : (0 < n)%nat ->
  decode_loop (S fuel) m n =
  (do r <- UTF8Get m; let '(ch, k) := r in
   do rest <- decode_loop fuel (skipn k m) (n - k); Ok (ch :: rest)).
Proof. destruct n; [lia|reflexivity]. Qed.

Lemma decode_loop_total fuel : forall s, bytes s -> (length s <= fuel)%nat ->
  exists chs, decode_loop fuel (s ++ [0]) (length s) = Ok chs.
Proof.
  induction fuel as [|fuel IH]; intros s Hs Hf.
  - destruct s; [|simpl in Hf; lia]. exists []; reflexivity.
  - destruct s as [|b s]; [exists []; reflexivity|].
    rewrite decode_loop_S by (simpl; lia).
    assert (Hm := bytes_nul _ Hs).
    destruct (get_nul ((b :: s) ++ [0]) (length (b :: s)) Hm) as ([ch k] & G).
    { rewrite nth_error_app2 by lia. rewrite Nat.sub_diag. reflexivity. }
    rewrite G. cbn [obind].
    assert (W := get_within (b :: s) [] ch k Hs ltac:(constructor) ltac:(discriminate) G).
    rewrite skipn_app_le by lia.
    replace (length (b :: s) - k)%nat with (length (skipn k (b :: s))) by (rewrite skipn_length; lia).
    destruct (IH (skipn k (b :: s))) as (chs & E).
    + apply bytes_skipn; exact Hs.
    + rewrite skipn_length. cbn [length] in *; lia.
    + rewrite E. eexists; reflexivity.
Qed.

Lemma decode_all_total s : bytes s -> exists chs, decode_all s = Ok chs.
Proof. intros H. apply decode_loop_total; [exact H|lia]. Qed.

(** Fuel does not matter. *)
Lemma decode_loop_fuel f1 : forall f2 s, bytes s -> (length s <= f1)%nat -> (length s <= f2)%nat ->
  decode_loop f1 (s ++ [0]) (length s) = decode_loop f2 (s ++ [0]) (length s).
Proof.
  induction f1 as [|f1 IH]; intros f2 s Hs H1 H2.
  - destruct s; [|simpl in H1; lia]. destruct f2; reflexivity.
  - destruct s as [|b s]; [destruct f2; reflexivity|]. destruct f2 as [|f2]; [simpl in H2; lia|].
    rewrite !decode_loop_S by (simpl; lia).
    destruct (UTF8Get ((b :: s) ++ [0])) as [[ch k]| |] eqn:G; cbn [obind]; [|reflexivity|reflexivity].
    assert (W := get_within (b :: s) [] ch k Hs ltac:(constructor) ltac:(discriminate) G).
    rewrite skipn_app_le by lia.
    replace (length (b :: s) - k)%nat with (length (skipn k (b :: s))) by (rewrite skipn_length; lia).
    rewrite (IH f2); [reflexivity|apply bytes_skipn; exact Hs| |]; rewrite skipn_length; cbn [length] in *; lia.
Qed.

Lemma decode_all_cons s : bytes s -> s <> [] ->
  decode_all s = (do r <- UTF8Get (s ++ [0]); let '(ch, k) := r in
                  do rest <- decode_all (skipn k s); Ok (ch :: rest)).
Proof.
  intros Hs Hne. unfold decode_all. destruct s as [|b s]; [congruence|].
  change (length (b :: s)) with (S (length s)) at 1.
  rewrite decode_loop_S by (simpl; lia).
  destruct (UTF8Get ((b :: s) ++ [0])) as [[ch k]| |] eqn:G; cbn [obind]; [|reflexivity|reflexivity].
  assert (W := get_within (b :: s) [] ch k Hs ltac:(constructor) ltac:(discriminate) G).
  rewrite skipn_app_le by lia.
  replace (length (b :: s) - k)%nat with (length (skipn k (b :: s))) by (rewrite skipn_length; lia).
  rewrite (decode_loop_fuel (length s) (length (skipn k (b :: s)))); [reflexivity| | |].
  - apply bytes_skipn; exact Hs.
  - rewrite skipn_length; cbn [length] in *; lia.
  - lia.
Qed.

(** bad_start is stable when the text is followed by a NUL. *)
Lemma bad_start_nul s : bytes s -> s <> [] -> bad_start s -> bad_start (s ++ [0]).
Proof.
  intros Hs Hne Hb a b ch E Q.
  assert (G := get_seq a ch b Q). rewrite <- E in G.
  assert (W := get_within s [] ch (length a) Hs ltac:(constructor) Hne G).
  apply (Hb a (skipn (length a) s) ch); [|exact Q].
  rewrite <- (firstn_skipn (length a) s) at 1. f_equal.
  assert (F := f_equal (firstn (length a)) E).
  rewrite firstn_app_le in F by lia. rewrite firstn_app_le in F by lia. rewrite firstn_all in F. exact F.
Qed.

Lemma get_bad m : bytes m -> bad_start m -> forall ch k, UTF8Get m = Ok (ch, k) ->
  k = 1%nat /\ exists b r, m = b :: r /\ ch = 0x80000000 + b.
Proof.
  intros Hm Hb ch k G. destruct (get_inv _ _ _ Hm G) as [[S L]|(_ & K & E)]; [|auto].
  exfalso. apply (Hb (firstn k m) (skipn k m) ch); [symmetry; apply firstn_skipn|exact S].
Qed.

Lemma put_stray b : is_byte b -> UTF8Put (0x80000000 + b) = [b].
Proof.
  intros Hb. unfold is_byte in Hb. rewrite put_repl.
  - f_equal. lia.
  - unfold ucs4; lia.
  - left; lia.
Qed.

Lemma clean_roundtrip s : clean s -> bytes s -> exists chs, decode_all s = Ok chs /\ encode_all chs = s.
Proof.
  induction 1 as [|s ch rest Sh Hr Hc IH|b rest Hbad Hc IH]; intros Hb.
  - exists []; auto.
  - apply Forall_app in Hb as Hb'. destruct Hb' as [Hb1 Hb2].
    destruct (IH Hb2) as (chs & D & E).
    destruct Sh as [Q M].
    assert (Hne := seq_nonnil _ _ Q).
    rewrite decode_all_cons; [|exact Hb|intros N; apply app_eq_nil in N; tauto].
    rewrite <- app_assoc. rewrite (get_seq s ch (rest ++ [0]) Q). cbn [obind].
    rewrite skipn_app_le by lia. rewrite skipn_all. cbn [app]. rewrite D. cbn [obind].
    exists (ch :: chs). split; [reflexivity|].
    unfold encode_all in *. cbn [map concat]. rewrite E.
    rewrite <- (shortest_put s ch (conj Q M) Hr). reflexivity.
  - inversion Hb as [|? ? Hb0 Hbr]; subst. destruct (IH Hbr) as (chs & D & E).
    rewrite decode_all_cons; [|exact Hb|discriminate].
    assert (Hm := bytes_nul _ Hb).
    destruct (get_nul ((b :: rest) ++ [0]) (length (b :: rest)) Hm) as ([ch k] & G).
    { rewrite nth_error_app2 by lia. rewrite Nat.sub_diag. reflexivity. }
    assert (Hbad' := bad_start_nul (b :: rest) Hb ltac:(discriminate) Hbad).
    destruct (get_bad _ Hm Hbad' _ _ G) as (-> & b' & r & Eb & ->).
    inversion Eb; subst b'. rewrite G. cbn [obind skipn]. rewrite D. cbn [obind].
    exists (0x80000000 + b :: chs). split; [reflexivity|].
    unfold encode_all in *. cbn [map concat]. rewrite E, put_stray by assumption. reflexivity.
Qed.

(** First step of a decode, as a fact about the text. *)
Lemma decode_all_step s ch chs : bytes s -> s <> [] -> decode_all s = Ok (ch :: chs) ->
  exists k, (1 <= k <= length s)%nat /\ decode_all (skipn k s) = Ok chs /\
    ((seq (firstn k s) ch) \/
     (k = 1%nat /\ bad_start s /\ exists b r, s = b :: r /\ ch = 0x80000000 + b)).
Proof.
  intros Hs Hne H. rewrite decode_all_cons in H by assumption.
  apply obind_ok in H as ([c k] & G & H). apply obind_ok in H as (rest & D & H).
  inversion H; subst c rest.
  assert (W := get_within s [] ch k Hs ltac:(constructor) Hne G).
  exists k. split; [exact W|]. split; [exact D|].
  destruct (get_inv _ _ _ (bytes_nul _ Hs) G) as [[Q L]|(Hbad & -> & b & r & E & ->)].
  - left. rewrite firstn_app_le in Q by lia. exact Q.
  - right. split; [reflexivity|]. split.
    + intros x y c' E' Q. apply (Hbad x (y ++ [0]) c'); [|exact Q]. rewrite E', app_assoc. reflexivity.
    + destruct s as [|s0 s]; [congruence|]. inversion E; subst. eauto.
Qed.

Lemma decode_nonnil s ch chs : decode_all s = Ok (ch :: chs) -> s <> [].
Proof. intros H ->. discriminate. Qed.

Lemma decode_nil_inv s : bytes s -> decode_all s = Ok [] -> s = [].
Proof.
  intros Hs H. destruct s as [|b s]; [reflexivity|exfalso].
  rewrite decode_all_cons in H; [|exact Hs|discriminate].
  apply obind_ok in H as ([c k] & G & H). apply obind_ok in H as (rest & D & H). discriminate.
Qed.

(** Re-encoding never grows the text. *)
Lemma reencode_le chs : forall s, bytes s -> decode_all s = Ok chs ->
  (length (encode_all chs) <= length s)%nat.
Proof.
  induction chs as [|ch chs IH]; intros s Hs H; [simpl; lia|].
  destruct (decode_all_step s ch chs Hs (decode_nonnil _ _ _ H) H) as (k & W & D & C).
  unfold encode_all in *. cbn [map concat]. rewrite app_length.
  assert (I := IH _ (bytes_skipn k s Hs) D). rewrite skipn_length in I.
  assert (P : (length (UTF8Put ch) <= k)%nat).
  { destruct C as [Q|(-> & _ & b & r & -> & ->)].
    - apply put_len_le in Q. rewrite firstn_length in Q. lia.
    - inversion Hs; subst. rewrite put_stray by assumption. simpl; lia. }
  lia.
Qed.

Lemma reencode_clean chs : forall s, bytes s -> decode_all s = Ok chs -> encode_all chs = s -> clean s.
Proof.
  induction chs as [|ch chs IH]; intros s Hs H E.
  - apply decode_nil_inv in H; [|exact Hs]. subst. constructor.
  - destruct (decode_all_step s ch chs Hs (decode_nonnil _ _ _ H) H) as (k & W & D & C).
    assert (I := reencode_le _ _ (bytes_skipn k s Hs) D). rewrite skipn_length in I.
    unfold encode_all in *. cbn [map concat] in E.
    assert (L := f_equal (@length Z) E). rewrite app_length in L.
    destruct C as [Q|(-> & Hbad & b & r & -> & ->)].
    + assert (P := put_len_le _ _ Q). rewrite firstn_length in P.
      assert (LP : length (UTF8Put ch) = k) by lia.
      assert (Hx := seq_ucs4 _ _ Q).
      assert (E1 : firstn k s = UTF8Put ch).
      { rewrite <- E. rewrite firstn_app_le by lia. rewrite <- LP. apply firstn_all. }
      assert (E2 : skipn k s = concat (map UTF8Put chs)).
      { rewrite <- E at 1. rewrite skipn_app_le by lia. rewrite <- LP, skipn_all. reflexivity. }
      assert (Hr : ~ replacement ch).
      { intros R. assert (B := seq_bounds _ _ Q).
        rewrite put_repl in LP by assumption. simpl in LP. subst k.
        destruct B as (B & _ & _). rewrite E1, put_repl in B by assumption. simpl length in B.
        unfold replacement in R. simpl cap in B. lia. }
      rewrite <- (firstn_skipn k s). apply clean_char with (ch := ch).
      * rewrite E1. apply put_shortest; assumption.
      * exact Hr.
      * apply IH; [apply bytes_skipn; exact Hs|exact D|symmetry; exact E2].
    + inversion Hs; subst. apply clean_stray; [exact Hbad|].
      rewrite put_stray in E by assumption. cbn [app] in E. inversion E; subst.
      apply IH; [assumption|exact D|reflexivity].
Qed.

(** *** UTF8Len of a pointer *)
Lemma lenptr_chk_spec m k : bytes m -> (k <= length m)%nat ->
  exists r, UTF8LenPtr_chk m k = Ok r /\
   (r = true <-> forall j b, (1 <= j < k)%nat -> nth_error m j = Some b -> continuation b).
Proof.
  intros Hm. induction k as [|k IH]; intros Hk.
  - exists true. split; [reflexivity|]. split; [intros _ j b Hj; lia|reflexivity].
  - destruct k as [|k].
    + exists true. split; [reflexivity|]. split; [intros _ j b Hj; lia|reflexivity].
    + change (UTF8LenPtr_chk m (S (S k))) with
        (do b <- rd m (S k); if UTF8Is1st b then Ok false else UTF8LenPtr_chk m (S k)).
      destruct (nth_error m (S k)) as [b|] eqn:E.
      2:{ apply nth_error_None in E. lia. }
      apply rd_ok in E as E'. rewrite E'. cbn [obind].
      assert (Hb : is_byte b) by (eapply Forall_forall; [exact Hm|eapply nth_error_In; exact E]).
      rewrite is1st_spec by exact Hb.
      destruct ((0x80 <=? b) && (b <=? 0xBF)) eqn:Eb; cbn [negb].
      * destruct (IH ltac:(lia)) as (r & -> & Hr). exists r. split; [reflexivity|].
        rewrite Hr. split; intros A j c Hj Hc.
        -- destruct (Nat.eq_dec j (S k)) as [->|]; [rewrite E in Hc; inversion Hc; subst; unfold continuation; lia|].
           apply (A j c); [lia|exact Hc].
        -- apply (A j c); [lia|exact Hc].
      * exists false. split; [reflexivity|]. split; [discriminate|].
        intros A. specialize (A (S k) b ltac:(lia) E). unfold continuation in A. lia.
Qed.

Lemma lenptr_get m : bytes m -> (6 <= length m)%nat -> exists ch k, UTF8Get m = Ok (ch, k) /\ UTF8LenPtr m = Ok k.
Proof.
  intros Hm HL. destruct m as [|c m]; [simpl in HL; lia|].
  assert (Hc : is_byte c) by (inversion Hm; assumption).
  unfold UTF8LenPtr. unfold rd at 1; cbn [nth_error obind].
  destruct (correctlen_form c Hc) as [[CL Cc]|(n & lo & pay & CL & F & Hl & Hn)].
  - unfold UTF8Get. unfold rd at 1; cbn [nth_error obind]. rewrite CL. eauto.
  - rewrite CL. destruct n as [|n]; [lia|].
    destruct (lenptr_chk_spec (c :: m) (S n) Hm ltac:(lia)) as (r & -> & Hr). cbn [obind].
    destruct r.
    + assert (T : forall j b, (1 <= j < S n)%nat -> nth_error (c :: m) j = Some b -> continuation b) by (apply Hr; reflexivity).
      assert (Q : seq (c :: firstn n m) (tail_value (c - lo) (firstn n m))).
      { exists c, (firstn n m), lo, pay. cbn [length]. rewrite firstn_length.
        replace (min n (length m)) with n by (simpl in HL; lia).
        split; [reflexivity|]. split; [exact F|]. split; [exact Hl|]. split; [|reflexivity].
        apply Forall_forall. intros b Hb. apply In_nth_error in Hb as (j & Hj).
        assert (j < n)%nat.
        { assert (j < length (firstn n m))%nat by (apply nth_error_Some; congruence). rewrite firstn_length in *. lia. }
        apply (T (S j) b); [lia|]. simpl.
        rewrite <- (firstn_skipn n m). rewrite nth_error_app1; [exact Hj|]. rewrite firstn_length. simpl in HL; lia. }
      assert (G := get_seq _ _ (skipn n m) Q). cbn [app] in G. rewrite firstn_skipn in G.
      rewrite G. do 2 eexists. split; [reflexivity|].
      cbn [length]. rewrite firstn_length. f_equal. simpl in HL; lia.
    + unfold UTF8Get. unfold rd at 1; cbn [nth_error obind]. rewrite CL.
      assert (G : exists r, UTF8Get_cont (c :: m) n 1 (Z.land c (nth (S n) masks 0)) = Ok r).
      { assert (B : forall q i x, (i + q <= 6)%nat -> exists r, UTF8Get_cont (c :: m) q i x = Ok r).
        { induction q as [|q IHq]; intros i x Hi; [eexists; reflexivity|].
          cbn [UTF8Get_cont]. destruct (nth_error (c :: m) i) as [b|] eqn:E.
          2:{ apply nth_error_None in E. lia. }
          apply rd_ok in E. rewrite E. cbn [obind]. destruct (UTF8Is1st b); [eexists; reflexivity|].
          apply IHq. lia. }
        apply B. lia. }
      destruct G as ([z|] & G).
      * exfalso. assert (I := get_cont_inv _ _ _ _ _ Hm G). cbn beta iota in I.
        destruct I as (tl & L & C & E). rewrite firstn_skipn1 in E.
        enough (false = true) by discriminate. apply Hr. intros j b Hj Hb.
        destruct j as [|j]; [lia|]. simpl in Hb.
        rewrite Forall_forall in C. apply C. rewrite <- E.
        apply (nth_error_In _ j). rewrite <- (firstn_skipn n m) in Hb. rewrite nth_error_app1 in Hb; [exact Hb|].
        rewrite firstn_length. simpl in HL; lia.
      * rewrite G. cbn [obind]. do 2 eexists. split; reflexivity.
Qed.

(** *** Backing up *)
Lemma rdZ_ok {A} (m : list A) i b : 0 <= i -> nth_error m (Z.to_nat i) = Some b -> rdZ m i = Ok b.
Proof. intros Hi H. unfold rdZ. destruct (Z.ltb_spec i 0); [lia|]. apply rd_ok. exact H. Qed.

Lemma backup_scan_seq pre lead tl rest lo pay :
  form (length (lead :: tl)) = Some (lo, pay) -> lo <= lead < lo + pay -> Forall continuation tl ->
  forall cp, cp = Z.of_nat (length pre + S (length tl)) ->
  forall n k, (k <= length tl)%nat -> (k + 1 <= n)%nat ->
  UTF8Backup_scan (pre ++ lead :: tl ++ rest) cp (Z.of_nat (length pre + k)) n
    = Ok (Z.of_nat (length pre)).
Proof.
  intros F Hl Ht cp Ecp n. induction n as [|n IH]; intros k Hk Hn; [lia|].
  cbn [UTF8Backup_scan].
  destruct k as [|k].
  - rewrite Nat.add_0_r.
    rewrite (rdZ_ok _ _ lead); [|lia|].
    2:{ rewrite Nat2Z.id, nth_error_app2, Nat.sub_diag by lia. reflexivity. }
    cbn [obind].
    assert (Hb : is_byte lead) by (apply form_some in F; unfold is_byte; lia).
    rewrite is1st_spec by exact Hb.
    assert (E : (0x80 <=? lead) && (lead <=? 0xBF) = false) by (apply form_some in F; lia).
    rewrite E. cbn [negb].
    destruct (form_correctlen _ _ _ _ F Hl) as [-> _]. cbn [length].
    destruct (Z.geb_spec (Z.of_nat (S (length tl))) (cp - Z.of_nat (length pre))); [reflexivity|lia].
  - destruct (nth_error tl k) as [b|] eqn:Eb.
    2:{ apply nth_error_None in Eb; lia. }
    rewrite (rdZ_ok _ _ b); [|lia|].
    2:{ rewrite Nat2Z.id, nth_error_app2 by lia.
        replace (length pre + S k - length pre)%nat with (S k) by lia. simpl.
        rewrite nth_error_app1 by lia. exact Eb. }
    cbn [obind].
    assert (Cb : continuation b) by (eapply Forall_forall; [exact Ht|eapply nth_error_In; exact Eb]).
    unfold continuation in Cb.
    rewrite is1st_spec by (unfold is_byte; lia).
    replace (0x80 <=? b) with true by lia. replace (b <=? 0xBF) with true by lia. cbn [andb negb].
    replace (Z.of_nat (length pre + S k) - 1) with (Z.of_nat (length pre + k)) by lia.
    apply IH; lia.
Qed.

Lemma backup_seq pre s ch rest limit : seq s ch ->
  match limit with None => True | Some l => l <= Z.of_nat (length pre) end ->
  UTF8Backup (pre ++ s ++ rest) (Z.of_nat (length pre + length s)) limit
   = Ok (Some (Z.of_nat (length pre))).
Proof.
  intros Q Hlim. assert (B := seq_bounds _ _ Q). destruct B as (_ & L & _).
  destruct Q as (lead & tl & lo & pay & -> & F & Hl & Ht & ->).
  cbn [length] in *.
  set (cp := Z.of_nat (length pre + S (length tl))).
  unfold UTF8Backup.
  set (l' := match limit with None => cp - 6 | Some l => if cp - l >? 6 then cp - 6 else l end).
  assert (Hl' : l' <= Z.of_nat (length pre) /\ l' < cp).
  { unfold l', cp. destruct limit as [l|]; [|lia].
    destruct (Z.gtb_spec (Z.of_nat (length pre + S (length tl)) - l) 6); lia. }
  destruct (Z.geb_spec l' cp); [lia|].
  replace (cp - 1) with (Z.of_nat (length pre + length tl)) by (unfold cp; lia).
  cbn [app]. rewrite (backup_scan_seq pre lead tl rest lo pay F Hl Ht cp eq_refl) by (unfold cp in *; lia).
  reflexivity.
Qed.

(** Inside the buffer, backing up with a limit is always defined. *)
Lemma backup_scan_range m cp : bytes m -> forall n sp, -1 <= sp - Z.of_nat n -> sp < cp -> sp < Z.of_nat (length m) ->
  exists p, UTF8Backup_scan m cp sp n = Ok p /\ (sp - Z.of_nat n < p \/ p = cp - 1) /\ p < cp.
Proof.
  intros Hm. induction n as [|n IH]; intros sp H0 H1 H2.
  - cbn [UTF8Backup_scan]. eexists; split; [reflexivity|]. lia.
  - cbn [UTF8Backup_scan].
    destruct (nth_error m (Z.to_nat sp)) as [b|] eqn:E.
    2:{ apply nth_error_None in E. lia. }
    rewrite (rdZ_ok _ _ b); [|lia|exact E]. cbn [obind].
    destruct (UTF8Is1st b).
    + destruct (_ >=? _); eexists; (split; [reflexivity|]); lia.
    + destruct (IH (sp - 1)) as (p & -> & A & B); [lia|lia|lia|]. exists p. split; [reflexivity|]. lia.
Qed.

Lemma backup_range m cp l : bytes m -> 0 <= l -> l < cp -> cp <= Z.of_nat (length m) ->
  exists p, UTF8Backup m cp (Some l) = Ok (Some p) /\ l <= p /\ cp - 6 <= p < cp.
Proof.
  intros Hm Hl Hc Hm2. unfold UTF8Backup.
  set (l' := if cp - l >? 6 then cp - 6 else l).
  assert (l <= l' /\ l' < cp /\ cp - 6 <= l') by (unfold l'; destruct (Z.gtb_spec (cp - l) 6); lia).
  destruct (Z.geb_spec l' cp); [lia|].
  destruct (backup_scan_range m cp Hm (Z.to_nat (cp - l')) (cp - 1)) as (p & -> & A & B); [lia|lia|lia|].
  cbn [obind]. exists p. split; [reflexivity|]. lia.
Qed.
