(** Texts under the editing operations. *)
From Verif Require Import Base RefModel RefProofs UTF8Model UTF8Spec UTF8Proofs ArrayModel ArraySpec ArrayProofs ArrayRead StrModel StrSpec StrText StrHeap StrState StrOps.
From Verif Require ArrayHeap ArrayOps.
From Coq Require Import Permutation.
Ltac Zify.zify_post_hook ::= Z.div_mod_to_equations.

Implicit Types (h : sheap) (s t w : sval) (hs : list sval) (x y : sbody) (chs : list Z).

Definition ascii chs : Prop := Forall (fun c => c < 128) chs.
Definition mark_none s : Prop := fst (v_mk s) = 0 \/ 2^31 <= fst (v_mk s).

Lemma put_ascii c : good c -> c < 128 -> length (UTF8Put c) = 1%nat.
Proof. intros [G R] H. rewrite put_length by exact G. unfold ucs4 in G. rewrite len_norm by assumption. change (2^7) with 128. destruct (Z.ltb_spec c 128); [reflexivity|lia]. Qed.
Lemma bpos_ascii chs k : Forall good chs -> ascii chs -> (k <= length chs)%nat -> bpos chs k = k.
Proof.
  intros G A. apply bpos_ascii_full; [exact G|]. induction G as [|c l G GL IH]; [reflexivity|].
  inversion A; subst. rewrite enc_cons, app_length, put_ascii, IH by assumption. reflexivity.
Qed.

Lemma refs_pos h s hs x : RC h (s :: hs) -> sget h (v_body s) = Ok x ->
  b_refs (sb_arr x) = 1 + Z.of_nat (cnt (v_body s) hs) + stat (sb_arr x).
Proof. intros [A _] S. destruct (A _ _ (sget_arr _ _ _ S)) as [E _]. rewrite E, cnt_cons, Nat.eqb_refl. lia. Qed.

(** [s] may be written in place. *)
Definition excl h s : Prop := exists x, sget h (v_body s) = Ok x /\ b_refs (sb_arr x) <= 1 /\ b_static (sb_arr x) = false.
Definition shared h s : Prop := exists x, sget h (v_body s) = Ok x /\ 1 < b_refs (sb_arr x).

Lemma unshare_ok h s hs chs : BG h -> RC h (s :: hs) -> vin h s chs ->
  exists h' s' cs, unshare h s = Ok (h', s') /\ BG h' /\ vin h' s' cs /\ vtext s' cs = vtext s chs /\ v_len s' = v_len s /\
    excl h' s' /\ (length (enc cs) <= length (enc chs))%nat /\ incl cs chs /\
    (forall pos, 0 <= pos -> mark_le s pos -> mark_le s' pos) /\ (mark_none s -> mark_none s') /\
    (~ shared h s /\ s' = s /\ cs = chs \/ v_off s' = 0 /\ (0 < v_len s -> cs = vtext s chs)).
Proof.
  intros G R V. assert (V0 := V). destruct V0 as ((x & SX & BX) & O & L & OL & M). unfold unshare. rewrite SX. cbn [obind].
  assert (IS := is_static_eq _ _ _ G SX). assert (RP := refs_pos _ _ _ _ R SX).
  destruct (is_static x) eqn:ST.
  - destruct (num_chars_spec x chs BX) as (y & -> & EA & BY & NY). cbn [obind fst snd].
    assert (S1 : hsim h (sput h (v_body s) y)) by (eapply sput_sim; [exact SX|exact EA]).
    assert (G1 : BG (sput h (v_body s) y)) by (eapply BG_sput; [exact G|exact SX|exact BY|rewrite EA; apply (G _ _ SX)]).
    assert (SHR : is_shared x = true) by (unfold is_shared; unfold stat in RP; rewrite <- IS in RP; destruct (Z.gtb_spec (b_refs (sb_arr x)) 1); [reflexivity|lia]).
    rewrite SHR, orb_true_r.
    destruct (copy_body_ok _ _ _ _ G1 (hsim_RC _ _ _ S1 R) (sim_vin _ _ _ _ G1 S1 V)) as (h' & s' & cs & -> & G' & V' & T' & O' & L' & B' & (x' & SX' & R1 & S1') & LE & EQ & ML & MN & INC).
    exists h', s', cs. split; [reflexivity|]. split; [exact G'|]. split; [exact V'|]. split; [exact T'|]. split; [exact L'|].
    split; [exists x'; split; [exact SX'|split; [lia|exact S1']]|]. split; [exact LE|]. split; [exact INC|]. split; [exact ML|]. split; [exact MN|]. right. auto.
  - cbn [obind orb]. destruct (is_shared x) eqn:SH.
    + destruct (copy_body_ok _ _ _ _ G R V) as (h' & s' & cs & -> & G' & V' & T' & O' & L' & B' & (x' & SX' & R1 & S1') & LE & EQ & ML & MN & INC).
      exists h', s', cs. split; [reflexivity|]. split; [exact G'|]. split; [exact V'|]. split; [exact T'|]. split; [exact L'|].
      split; [exists x'; split; [exact SX'|split; [lia|exact S1']]|]. split; [exact LE|]. split; [exact INC|]. split; [exact ML|]. split; [exact MN|]. right. auto.
    + exists h, s, chs. unfold is_shared in SH. split; [reflexivity|]. split; [exact G|]. split; [exact V|]. split; [reflexivity|]. split; [reflexivity|].
      split; [exists x; split; [exact SX|split; [lia|congruence]]|]. split; [lia|]. split; [intros c Hc; exact Hc|]. split; [auto|]. split; [auto|]. left. split; [|auto].
      intros (x2 & SX2 & R2). rewrite SX in SX2. injection SX2 as <-. lia.
Qed.

Lemma vin_nomark h s s' chs : v_body s' = v_body s -> 0 <= v_off s' -> 0 <= v_len s' -> v_off s' + v_len s' <= Z.of_nat (length chs) -> v_mk s' = (0, 0) ->
  bview h (v_body s) chs -> vin h s' chs.
Proof. intros E O L OL M B. split; [rewrite E; exact B|]. split; [exact O|]. split; [exact L|]. split; [exact OL|]. left. exact M. Qed.

Lemma addref_view h b x chs h' : BG h' -> saddref h b = Ok h' -> sget h b = Ok x -> bview h b chs -> bview h' b chs.
Proof.
  intros G A S B. eapply keep_bview; [exact G| |exact B]. unfold saddref in A. rewrite S in A. cbn [obind] in A. injection A as <-.
  unfold obits. rewrite (arr_sput _ _ _ _ _ S), Nat.eqb_refl, (sget_arr _ _ _ S). reflexivity.
Qed.

(** Either the copy shares the body, or it has its own and shows all of it. *)
Lemma copy_val_ok h s hs chs : BG h -> RC h hs -> vin h s chs ->
  exists h' s' cs, copy_val h s = Ok (h', s') /\ BG h' /\ vin h' s' cs /\ vtext s' cs = vtext s chs /\ v_len s' = v_len s /\
    mark_none s' /\ (length (enc cs) <= length (enc chs))%nat /\ incl cs chs /\
    (In s hs -> 0 < v_len s -> shared h' s' \/ v_off s' = 0 /\ cs = vtext s chs).
Proof.
  intros G R V. assert (V0 := V). destruct V0 as ((x & SX & BX) & O & L & OL & M). unfold copy_val.
  destruct (saddref_ok h _ x G SX) as (h1 & E1 & G1 & SX1). rewrite E1. cbn [obind]. cbv zeta.
  set (s1 := {| v_body := v_body s; v_off := v_off s; v_len := v_len s; v_mk := (0, 0) |}).
  destruct (addref_rc h (v_body s) h1 hs s1 R E1 eq_refl) as (R1 & K1 & L1 & OB).
  rewrite SX1. cbn [obind].
  assert (V1 : vin h1 s1 chs).
  { eapply (vin_nomark h1 s); try reflexivity; try assumption. eapply addref_view; [exact G1|exact E1|exact SX|]. exists x. auto. }
  destruct (is_static _) eqn:ST.
  - destruct (unshare_ok h1 s1 hs chs G1 R1 V1) as (h' & s' & cs & -> & G' & V' & T' & L' & X' & LE & INC & _ & MN & C).
    exists h', s', cs. split; [reflexivity|]. split; [exact G'|]. split; [exact V'|]. split; [exact T'|]. split; [exact L'|].
    split; [apply MN; left; reflexivity|]. split; [exact LE|]. split; [exact INC|]. intros _ HL.
    destruct C as [(NS & _)|[C1 C2]]; [|right; split; [exact C1|apply C2; exact HL]].
    exfalso. apply NS. eexists. cbn [v_body s1]. split; [exact SX1|].
    assert (RP := refs_pos _ _ _ _ R1 SX1). assert (IS := is_static_eq _ _ _ G1 SX1). rewrite ST in IS. unfold stat in RP. rewrite <- IS in RP. lia.
  - exists h1, s1, chs. split; [reflexivity|]. split; [exact G1|]. split; [exact V1|]. split; [reflexivity|]. split; [reflexivity|].
    split; [left; reflexivity|]. split; [lia|]. split; [apply incl_refl|]. intros IS _. left. eexists. split; [exact SX1|].
    assert (RP := refs_pos _ _ _ _ R1 SX1). assert (C := cnt_in (v_body s) hs s IS eq_refl). cbn [v_body s1] in RP. unfold stat in RP. destruct (b_static _); lia.
Qed.

Lemma slice_slice {A} (L : list A) o n a k : (a + k <= n)%nat -> l_slice (l_slice L o n) a k = l_slice L (o + a) k.
Proof.
  intros H. unfold l_slice. apply nth_ext_list. intros j. rewrite !nth_firstn, !nth_skipn, nth_firstn, nth_skipn.
  destruct (Nat.ltb_spec j k); [|reflexivity]. destruct (Nat.ltb_spec (a + j) n); [|lia]. f_equal. lia.
Qed.

(** substr's text: clipped to the string. *)
Definition sub_len (n at_ len : Z) : Z :=
  if (len <? -1) || (len =? 0) || (at_ >=? n) then 0 else if len >? 0 then Z.min len (n - at_) else n - at_.

Lemma substr_ok h s hs chs at_ len nc : BG h -> RC h hs -> vin h s chs -> vin h null_val nc -> 0 <= at_ < 2^32 -> -2^31 <= len < 2^31 ->
  exists h' s' cs, substr h s at_ len = Ok (h', s') /\ BG h' /\ vin h' s' cs /\
    vtext s' cs = l_slice (vtext s chs) (Z.to_nat at_) (Z.to_nat (sub_len (v_len s) at_ len)) /\ (0 < v_len s' \/ incl cs nc).
Proof.
  intros G R V VN Ha Hl. assert (V0 := V). destruct V0 as ((x & SX & BX) & O & L & OL & M). assert (SM := bchars_small _ _ BX).
  unfold substr. cbv zeta. unfold sub_len. destruct ((len <? -1) || (len =? 0) || (at_ >=? v_len s)) eqn:C.
  - destruct (copy_val_ok h null_val hs nc G R VN) as (h' & s' & cs & E & G' & V' & T' & _ & _ & _ & INC & _). exists h', s', cs.
    split; [exact E|]. split; [exact G'|]. split; [exact V'|]. rewrite T'. split; [reflexivity|right; exact INC].
  - destruct (saddref_ok h _ x G SX) as (h1 & E1 & G1 & SX1). rewrite E1. cbn [obind].
    assert (MK : forall n, 0 < n <= v_len s - at_ -> exists h' s' cs, Ok (h1, {| v_body := v_body s; v_off := u32 (v_off s + at_); v_len := n; v_mk := (0, 0) |}) = Ok (h', s') /\ BG h' /\ vin h' s' cs /\
       vtext s' cs = l_slice (vtext s chs) (Z.to_nat at_) (Z.to_nat n) /\ (0 < v_len s' \/ incl cs nc)).
    { intros n Hn. do 2 eexists. exists chs. split; [reflexivity|]. split; [exact G1|].
      assert (EO : u32 (v_off s + at_) = v_off s + at_) by (unfold u32; lia). split.
      - eapply (vin_nomark h1 s); cbn [v_body v_off v_len v_mk]; try reflexivity; try lia.
        eapply addref_view; [exact G1|exact E1|exact SX|]. exists x. auto.
      - split; [|left; cbn [v_len]; lia]. unfold vtext. cbn [v_off v_len]. rewrite EO, slice_slice by lia. f_equal. lia. }
    assert (EU : u32 (v_len s - at_) = v_len s - at_) by (unfold u32; lia). rewrite EU.
    destruct (Z.gtb_spec len 0).
    + destruct (Z.gtb_spec len (v_len s - at_)).
      * replace (Z.min len (v_len s - at_)) with (v_len s - at_) by lia. apply MK. lia.
      * replace (Z.min len (v_len s - at_)) with len by lia. apply MK. lia.
    + apply MK. lia.
Qed.

(** ** insert *)
Definition wr_ok h s : Prop := v_off s = 0 \/ shared h s.

Lemma sv_mem_ok h s chs : vin h s chs -> sv_mem h s = Ok (enc chs ++ [0]).
Proof. intros ((x & SX & BX) & _). unfold sv_mem. rewrite SX. cbn [obind]. apply bchars_smem. exact BX. Qed.

Lemma src_mem chs o n : (o + n <= length chs)%nat ->
  src_is (fun i => rdZ (enc chs ++ [0]) (Z.of_nat (bpos chs o) + i)) (enc (l_slice chs o n)).
Proof.
  intros H i Hi. assert (E := skipn_bpos chs o [0]). rewrite (skipn_slice chs o n) in E.
  destruct (nth_some_lt (enc (l_slice chs o n)) (Z.to_nat i) ltac:(lia)) as [a Ha]. exists a. split; [|exact Ha].
  apply rdZ_ok; [lia|]. replace (Z.to_nat (Z.of_nat (bpos chs o) + i)) with (bpos chs o + Z.to_nat i)%nat by lia.
  rewrite <- nth_skipn, E, nth_error_app1 by lia. exact Ha.
Qed.

Lemma insert_enc cs p tw : (p <= length cs)%nat -> l_insert (enc cs ++ [0]) (bpos cs p) (enc tw) = enc (l_insert cs p tw) ++ [0].
Proof.
  intros H. unfold l_insert at 1. rewrite firstn_bpos, skipn_bpos. unfold l_insert. rewrite !enc_app, <- !app_assoc. reflexivity.
Qed.
Lemma good_insert cs p tw : Forall good cs -> Forall good tw -> Forall good (l_insert cs p tw).
Proof.
  intros A B. unfold l_insert. apply Forall_app. split; [|apply Forall_app; split; [exact B|]]; apply Forall_forall; intros c Hc; (eapply Forall_forall; [exact A|]);
    rewrite <- (firstn_skipn p cs); apply in_app_iff; [left|right]; exact Hc.
Qed.
Lemma bpos_insert cs p tw c : (c <= p <= length cs)%nat -> bpos (l_insert cs p tw) c = bpos cs c.
Proof.
  intros H. unfold bpos. f_equal. f_equal. unfold l_insert. rewrite firstn_app, firstn_length. replace (c - Nat.min p (length cs))%nat with 0%nat by lia.
  cbn [firstn]. rewrite app_nil_r, firstn_firstn. f_equal. lia.
Qed.
Lemma insert_enc_len cs p tw : (p <= length cs)%nat -> length (enc (l_insert cs p tw)) = (length (enc cs) + length (enc tw))%nat.
Proof.
  intros H. unfold l_insert. rewrite !enc_app, !app_length. rewrite <- (firstn_skipn p cs) at 3. rewrite enc_app, app_length. lia.
Qed.

Lemma insert_bytes_ok x cs p tw src : bchars x cs -> (p <= length cs)%nat -> Forall good tw -> src_is src (enc tw) ->
  b_refs (sb_arr x) <= 1 -> b_static (sb_arr x) = false -> Z.of_nat (length (enc cs) + length (enc tw)) < 2^30 ->
  exists y, insert_bytes x (Z.of_nat (bpos cs p)) (Ext src) (Z.of_nat (length (enc tw))) = Ok y /\ bchars y (l_insert cs p tw) /\
    b_refs (sb_arr y) = b_refs (sb_arr x) /\ b_static (sb_arr y) = false.
Proof.
  intros B HP GT SR RF ST LB. assert (NU := bchars_num _ _ B). destruct B as (GC & V & NN & LC). assert (BM := bpos_max cs p).
  unfold insert_bytes.
  destruct (body_insert_ok (sb_arr x) _ (Z.of_nat (bpos cs p)) src (enc tw) V ST ltac:(lia) SR RF ltac:(lia)) as [a EA]. rewrite EA. cbn [obind].
  eexists. split; [reflexivity|].
  assert (IL := insert_enc_len cs p tw HP). assert (IE := insert_enc cs p tw HP).
  destruct (body_insert_spec (sb_arr x) _ (Z.of_nat (bpos cs p)) src (enc tw) a V ST ltac:(lia) SR ltac:(lia) EA) as [(VA & RA & SA & _)|(E0 & ->)].
  - rewrite Nat2Z.id, IE in VA. split; [|auto]. split; [apply good_insert; assumption|]. cbn [sb_arr sb_n]. split; [exact VA|]. split; [auto|lia].
  - assert (tw = []) by (destruct tw as [|c tw]; [reflexivity|]; exfalso; inversion GT as [|? ? GC' _]; subst; apply put_len_pos in GC'; rewrite enc_cons in E0; apply app_eq_nil in E0 as [E0 _]; rewrite E0 in GC'; cbn in GC'; lia).
    subst tw. assert (EI : l_insert cs p [] = cs) by (unfold l_insert; cbn [app]; apply firstn_skipn). rewrite EI.
    split; [|auto]. split; [exact GC|]. split; [exact V|]. split; [left; reflexivity|exact LC].
Qed.

Lemma insert_ok h s hs w chs cw pos : BG h -> RC h (s :: hs) -> In w hs -> vin h s chs -> vin h w cw -> 0 <= pos <= v_len s ->
  wr_ok h s -> (mark_le s pos \/ ascii chs /\ ascii (vtext w cw)) -> Z.of_nat (length (enc chs) + length (enc (vtext w cw))) < 2^30 ->
  exists h' s' cs, insert h s pos w false = Ok (h', s') /\ BG h' /\ vin h' s' cs /\
    vtext s' cs = l_insert (vtext s chs) (Z.to_nat pos) (vtext w cw) /\ wr_ok h' s' /\
    (length (enc cs) <= length (enc chs) + length (enc (vtext w cw)))%nat /\ incl cs (chs ++ vtext w cw).
Proof.
  intros G R IW V VW HP WR MK LB. assert (V0 := V). destruct V0 as ((x & SX & BX) & O & L & OL & M).
  assert (VW0 := VW). destruct VW0 as ((xw & SXW & BXW) & OW & LW & OLW & MW).
  assert (SM := bchars_small _ _ BX). assert (SMW := bchars_small _ _ BXW). unfold insert.
  destruct ((pos =? v_len s) && (v_body s =? v_body w)%nat && (u32 (v_off s + pos) =? v_off w)) eqn:CT.
  - apply andb_true_iff in CT as [CT C3]. apply andb_true_iff in CT as [C1 C2]. apply Z.eqb_eq in C1, C3. apply Nat.eqb_eq in C2.
    assert (EC : cw = chs) by (eapply bview_fun; [exists xw; split; [exact SXW|exact BXW]|exists x; rewrite <- C2; auto]). subst cw.
    replace (u32 (v_off s + pos)) with (v_off s + pos) in C3 by (unfold u32; lia).
    replace (u32 (v_len s + v_len w)) with (v_len s + v_len w) by (unfold u32; lia).
    do 2 eexists. exists chs. split; [reflexivity|]. split; [exact G|]. split; [|split; [|split; [|split; [lia|apply incl_appl, incl_refl]]]].
    + split; [exists x; auto|]. cbn [v_off v_len]. split; [lia|]. split; [lia|]. split; [lia|].
      destruct M as [M|[(c & M & P & B)|M]]; [left; exact M|right; left|right; right; exact M]. exists c. cbn [v_mk v_off v_len]. split; [exact M|lia].
    + unfold vtext. cbn [v_off v_len]. replace (Z.to_nat (v_len s + v_len w)) with (Z.to_nat (v_len s) + Z.to_nat (v_len w))%nat by lia.
      rewrite ArrayOps.slice_join by lia. unfold l_insert. assert (SL : length (l_slice chs (Z.to_nat (v_off s)) (Z.to_nat (v_len s))) = Z.to_nat (v_len s)) by (apply slice_len; lia).
      rewrite firstn_all2, skipn_all2 by lia. rewrite app_nil_r. f_equal. f_equal. lia.
    + unfold wr_ok, shared in *. cbn [v_off v_body]. exact WR.
  - destruct (unshare_ok h s hs chs G R V) as (h1 & s1 & cs & EU & G1 & V1 & T1 & L1 & X1 & LE & INC & ML1 & _ & C1). rewrite EU. cbn [obind]. cbv zeta.
    destruct (unshare_rc _ _ _ _ _ R EU) as (R1 & K1 & _).
    assert (VW1 : vin h1 w cw) by (eapply keep_vin_in; eassumption).
    assert (O1 : v_off s1 = 0).
    { destruct C1 as [(NS & -> & _)|[C1 _]]; [|exact C1]. destruct WR as [WR|WR]; [exact WR|contradiction]. }
    destruct (nth_c_ok h1 w cw 0 G1 VW1 ltac:(lia)) as (h2 & -> & G2 & S2 & VW2). cbn [obind fst snd].
    destruct (nth_c_ok h2 w cw (v_len w) G2 VW2 ltac:(lia)) as (h3 & -> & G3 & S3 & VW3). cbn [obind fst snd].
    rewrite (sv_mem_ok _ _ _ VW3). cbn [obind].
    assert (S13 := hsim_trans _ _ _ S2 S3). assert (V3 : vin h3 s1 cs) by (eapply sim_vin; [exact G3|exact S13|exact V1]).
    assert (MK1 : mark_le s1 pos \/ ascii cs /\ ascii (vtext w cw)).
    { destruct MK as [MK|[A1 A2]]; [left; apply ML1; [lia|exact MK]|right; split; [|exact A2]]. unfold ascii in *. rewrite Forall_forall in *. intros c Hc. apply A1, INC, Hc. }
    destruct (nth_m_ok h3 s1 cs pos G3 V3 ltac:(lia)) as (h4 & s2 & -> & G4 & S4 & V4 & E1 & E2 & E3 & MLE & _). cbn [obind].
    destruct (nth_m_ok h4 s2 cs 0 G4 V4 ltac:(lia)) as (h5 & s3 & -> & G5 & S5 & V5 & F1 & F2 & F3 & _ & MK3). cbn [obind].
    assert (VB : 0 <= v_off s1 /\ 0 <= v_len s1 /\ v_off s1 + v_len s1 <= Z.of_nat (length cs)) by (destruct V1 as (_ & A & B & C & _); auto).
    rewrite E2, O1, !Z.add_0_l. cbn [Z.to_nat]. rewrite bpos_0.
    assert (BMP := bpos_max cs (Z.to_nat pos)). rewrite Z.sub_0_r.
    assert (V5' := V5). destruct V5' as ((x5 & SX5 & BX5) & _ & _ & _ & M5). rewrite SX5. cbn [obind].
    assert (S15 := hsim_trans _ _ _ S13 (hsim_trans _ _ _ S4 S5)).
    destruct X1 as (x1 & SX1 & RF1 & ST1).
    assert (EA5 : sb_arr x5 = sb_arr x1).
    { destruct S15 as [_ S15]. specialize (S15 (v_body s1)). assert (EB : v_body s3 = v_body s1) by congruence. rewrite EB in SX5. rewrite (sget_arr _ _ _ SX5), (sget_arr _ _ _ SX1) in S15. congruence. }
    rewrite !Z.add_0_r. set (ow := Z.to_nat (v_off w)). set (kw := Z.to_nat (v_len w)).
    replace (Z.to_nat (v_off w + v_len w)) with (ow + kw)%nat by lia.
    assert (TW : vtext w cw = l_slice cw ow kw) by reflexivity.
    assert (SLW := enc_slice_len cw ow kw). assert (BLW := bpos_le cw ow (ow + kw) ltac:(lia)). assert (BMW := bpos_max cw (ow + kw)).
    assert (LBW := proj2 (proj2 (proj2 BXW))). assert (LBC : Z.of_nat (length (enc cs)) < 2^30) by (apply BX5).
    replace (u32 (Z.of_nat (bpos cw (ow + kw)) - Z.of_nat (bpos cw ow))) with (Z.of_nat (length (enc (vtext w cw)))) by (rewrite TW, SLW; unfold u32; lia).
    replace (u32 (Z.of_nat (bpos cs (Z.to_nat pos)))) with (Z.of_nat (bpos cs (Z.to_nat pos))) by (unfold u32; lia).
    assert (SRC := src_mem cw ow kw ltac:(lia)). rewrite <- TW in SRC.
    assert (GT : Forall good (vtext w cw)) by (apply good_slice; apply BXW).
    destruct (insert_bytes_ok x5 cs (Z.to_nat pos) (vtext w cw) _ BX5 ltac:(lia) GT SRC ltac:(rewrite EA5; exact RF1) ltac:(rewrite EA5; exact ST1) ltac:(lia)) as (y & EY & BY & RY & SY).
    rewrite EY. cbn [obind].
    assert (LT := vtext_len _ _ _ VW). assert (IL := insert_enc_len cs (Z.to_nat pos) (vtext w cw) ltac:(lia)).
    assert (LEN : length (l_insert cs (Z.to_nat pos) (vtext w cw)) = (length cs + length (vtext w cw))%nat) by (apply length_insert; lia).
    replace (u32 (v_len s3 + v_len w)) with (v_len s3 + v_len w) by (unfold u32; lia).
    do 2 eexists. exists (l_insert cs (Z.to_nat pos) (vtext w cw)). split; [reflexivity|].
    assert (G6 : BG (sput h5 (v_body s3) y)) by (eapply BG_sput; [exact G5|exact SX5|exact BY|rewrite SY; discriminate]).
    split; [exact G6|]. split; [|split; [|split; [|split]]].
    + split; [exists y; cbn [v_body]; rewrite (sget_sput _ _ _ _ _ SX5), Nat.eqb_refl; auto|]. cbn [v_off v_len]. rewrite F2, E2, F3, E3. split; [lia|]. split; [lia|]. split; [rewrite LEN; lia|].
      unfold vmark. cbn [v_off v_len v_mk]. unfold vmark in M5. assert (MK3' : v_mk s3 = v_mk s2) by (apply MK3; lia). rewrite MK3' in *.
      destruct M5 as [M5|[(c & M5 & P & B)|M5]]; [left; exact M5|right; left|right; right; rewrite F2, E2 in M5; exact M5].
      exists c. split; [|rewrite F2, E2, F3, E3 in B; lia]. rewrite M5. f_equal. f_equal.
      destruct MK1 as [MK1|[A1 A2]].
      * assert (Q := MLE pos ltac:(lia) MK1). unfold mark_le in Q. rewrite M5, E2 in Q. cbn [fst] in Q. rewrite F2, E2, F3, E3 in B. symmetry. apply bpos_insert. lia.
      * rewrite F2, E2, F3, E3 in B. rewrite (bpos_ascii cs c (proj1 BX5) A1) by lia.
        rewrite bpos_ascii; [reflexivity|apply BY| |lia]. unfold ascii, l_insert in *.
        apply Forall_app. split; [|apply Forall_app; split; [exact A2|]]; rewrite Forall_forall in *; intros e He; apply A1; rewrite <- (firstn_skipn (Z.to_nat pos) cs); apply in_app_iff; [left|right]; exact He.
    + rewrite <- T1. unfold vtext at 1 3. cbn [v_off v_len]. rewrite F2, E2, F3, E3, O1. cbn [Z.to_nat].
      replace (Z.to_nat (v_len s1 + v_len w)) with (Z.to_nat (v_len s1) + length (vtext w cw))%nat by lia. apply ArrayOps.slice_insert; lia.
    + left. cbn [v_off]. congruence.
    + rewrite IL. lia.
    + intros c Hc. unfold l_insert in Hc. apply in_app_iff in Hc. apply in_app_iff. destruct Hc as [Hc|Hc]; [left; apply INC; rewrite <- (firstn_skipn (Z.to_nat pos) cs); apply in_app_iff; left; exact Hc|].
      apply in_app_iff in Hc as [Hc|Hc]; [right; exact Hc|left; apply INC; rewrite <- (firstn_skipn (Z.to_nat pos) cs); apply in_app_iff; right; exact Hc].
Qed.

(** Appending never meets a stale bookmark. *)
Lemma vmark_end chs s : vmark chs s -> 0 <= v_off s -> 0 <= v_len s -> mark_le s (v_len s).
Proof.
  intros [M|[(c & M & P & B)|(Z0 & M & _)]] O L; unfold mark_le; [rewrite M; cbn; lia|rewrite M; cbn [fst]; lia|lia].
Qed.
Lemma insert_end {A} (L M : list A) : l_insert L (length L) M = L ++ M.
Proof. unfold l_insert. rewrite firstn_all, skipn_all, app_nil_r. reflexivity. Qed.

(** An empty string shows an empty body. *)
Definition tight s chs : Prop := v_len s = 0 -> chs = [].
Lemma tight_insert h s s' w chs cs cw : vin h s' cs -> incl cs (chs ++ vtext w cw) -> (v_len s' = 0 -> v_len s = 0 /\ v_len w = 0) ->
  tight s chs -> tight w cw -> tight s' cs.
Proof.
  intros V I Z0 A B E. destruct (Z0 E) as [E1 E2]. rewrite (A E1), (B E2) in I. unfold vtext, l_slice in I. rewrite skipn_nil, firstn_nil in I.
  destruct cs as [|c cs]; [reflexivity|]. destruct (I c (or_introl eq_refl)).
Qed.

Lemma append_ok h s hs w chs cw : BG h -> RC h (s :: hs) -> In w hs -> vin h s chs -> vin h w cw -> wr_ok h s ->
  Z.of_nat (length (enc chs) + length (enc (vtext w cw))) < 2^30 ->
  exists h' s' cs, insert h s (v_len s) w false = Ok (h', s') /\ BG h' /\ vin h' s' cs /\
    vtext s' cs = vtext s chs ++ vtext w cw /\ wr_ok h' s' /\ (length (enc cs) <= length (enc chs) + length (enc (vtext w cw)))%nat /\
    (tight s chs -> tight w cw -> tight s' cs).
Proof.
  intros G R IW V VW WR LB. assert (TL := vtext_len _ _ _ V). assert (V0 := V). destruct V0 as (_ & O & L & _ & M).
  destruct (insert_ok h s hs w chs cw (v_len s) G R IW V VW ltac:(lia) WR (or_introl (vmark_end _ _ M O L)) LB) as (h' & s' & cs & E & G' & V' & T' & W' & LE & INC).
  exists h', s', cs. assert (T2 : vtext s' cs = vtext s chs ++ vtext w cw) by (rewrite T', <- TL, Nat2Z.id; apply insert_end).
  split; [exact E|]. split; [exact G'|]. split; [exact V'|]. split; [exact T2|]. split; [exact W'|]. split; [exact LE|].
  eapply tight_insert; [exact V'|exact INC|]. assert (A := vtext_len _ _ _ V'). assert (B := vtext_len _ _ _ VW). rewrite T2, app_length in A. lia.
Qed.

Lemma assign_ok h s hs w cw : BG h -> RC h (s :: hs) -> vin h w cw -> In w hs ->
  exists h', assign_val h s w = Ok (h', w) /\ BG h' /\ vin h' w cw.
Proof.
  intros G R VW IW. assert (V0 := VW). destruct V0 as ((x & SX & BX) & _). unfold assign_val.
  destruct (saddref_ok h _ x G SX) as (h1 & E1 & G1 & SX1). rewrite E1. cbn [obind].
  destruct (addref_rc h _ h1 _ w R E1 eq_refl) as (R1 & K1 & L1 & OB).
  assert (R1' : RC h1 (s :: w :: hs)) by (eapply RC_perm; [apply perm_swap|exact R1]).
  destruct (srelease_ok _ _ _ G1 R1') as (h2 & E2 & G2). rewrite E2. cbn [obind]. exists h2. split; [reflexivity|]. split; [exact G2|].
  destruct (release_rc _ _ _ _ R1' E2) as (R2 & K2 & L2).
  eapply keep_vin; [exact G2|exact (keep_hd _ _ _ _ K2)|]. eapply keep_vin; [exact G1|exact OB|exact VW].
Qed.

Lemma len0_text h s chs : vin h s chs -> v_len s = 0 -> vtext s chs = [].
Proof. intros V E. apply vtext_len in V. destruct (vtext s chs); [reflexivity|cbn [length] in V; lia]. Qed.

Lemma add_eq_ok h s hs w chs cw : BG h -> RC h (s :: hs) -> In w hs -> vin h s chs -> vin h w cw -> wr_ok h s ->
  Z.of_nat (length (enc chs) + length (enc (vtext w cw))) < 2^30 ->
  exists h' s' cs, add_eq h s w false = Ok (h', s') /\ BG h' /\ vin h' s' cs /\ vtext s' cs = vtext s chs ++ vtext w cw /\ wr_ok h' s' /\
    ((length (enc cs) <= length (enc chs) + length (enc (vtext w cw)))%nat \/ v_len s = 0 /\ cs = cw) /\
    (tight s chs -> tight w cw -> tight s' cs).
Proof.
  intros G R IW V VW WR LB. assert (VW0 := VW). destruct VW0 as ((xw & SXW & BXW) & OW & LW & OLW & MW). unfold add_eq. rewrite SXW. cbn [obind].
  destruct ((v_len s =? 0) && negb (is_static xw)) eqn:C.
  - assert (Z0 : v_len s = 0) by lia. destruct (assign_ok h s hs w cw G R VW IW) as (h' & E & G' & V'). exists h', w, cw. split; [exact E|]. split; [exact G'|]. split; [exact V'|].
    rewrite (len0_text _ _ _ V Z0). split; [reflexivity|]. split; [|split; [right; auto|auto]].
    destruct (assign_rc _ _ _ _ _ _ R E) as (R' & _). right. destruct V' as ((x' & SX' & _) & _). exists x'. split; [exact SX'|].
    assert (RP := refs_pos _ _ _ _ R' SX'). assert (CI := cnt_in (v_body w) hs w IW eq_refl). unfold stat in RP. destruct (b_static _); lia.
  - destruct (append_ok h s hs w chs cw G R IW V VW WR LB) as (h' & s' & cs & E & G' & V' & T' & W' & LE & TI). exists h', s', cs. auto 10.
Qed.

(** ** Constructors *)
(** nullBody *)
Definition null_ok h : Prop := vin h null_val [].
Lemma num_chars_vin h b x chs : BG h -> sget h b = Ok x -> bchars x chs -> exists y, num_chars x = Ok (y, Z.of_nat (length chs)) /\ BG (sput h b y) /\ hsim h (sput h b y).
Proof.
  intros G S B. destruct (num_chars_spec x chs B) as (y & E & EA & BY & NY). exists y. split; [exact E|]. split.
  - eapply BG_sput; [exact G|exact S|exact BY|rewrite EA; apply (G _ _ S)].
  - eapply sput_sim; [exact S|exact EA].
Qed.

Lemma make_null_ok h data al hs : BG h -> RC h hs -> null_ok h -> exists h' s', make h data 0 al = Ok (h', s') /\ BG h' /\ vin h' s' [] /\ v_off s' = 0 /\ v_len s' = 0.
Proof.
  intros G R V. unfold make. cbn [Z.eqb]. assert (V0 := V). destruct V0 as ((x & SX & BX) & _). cbn [v_body null_val] in SX.
  destruct (saddref_ok h _ x G SX) as (h1 & E1 & G1 & SX1). rewrite E1. cbn [obind]. rewrite SX1. cbn [obind].
  assert (BX1 := bchars_refs _ (b_refs (sb_arr x) + 1) _ BX).
  destruct (num_chars_vin h1 0 _ [] G1 SX1 BX1) as (y & EN & G2 & S2). rewrite EN. cbn [obind fst snd length Z.of_nat].
  do 2 eexists. split; [reflexivity|]. split; [exact G2|]. cbn [v_off v_len]. split; [|auto].
  eapply (vin_nomark _ null_val); try reflexivity; try (cbn; lia). cbn [v_body null_val].
  eapply keep_bview; [exact G2| |exists (with_refs x (b_refs (sb_arr x) + 1)); split; [exact SX1|exact BX1]]. unfold obits. destruct S2 as [_ S2]. rewrite S2. reflexivity.
Qed.

Lemma fresh_vin h y cs hs n mk : BG h -> RC h hs -> bchars y cs -> b_refs (sb_arr y) = 1 + stat (sb_arr y) -> (b_static (sb_arr y) = true -> b_alloc (sb_arr y) = 0) ->
  mk = (0, 0) -> n = Z.of_nat (length cs) ->
  BG (h ++ [Some y]) /\ vin (h ++ [Some y]) {| v_body := length h; v_off := 0; v_len := n; v_mk := mk |} cs /\
  vtext {| v_body := length h; v_off := 0; v_len := n; v_mk := mk |} cs = cs.
Proof.
  intros G R B RR SA -> ->. assert (G1 : BG (h ++ [Some y])) by (eapply BG_app; eassumption). split; [exact G1|]. split.
  - split; [exists y; cbn [v_body]; rewrite sget_app, Nat.eqb_refl; auto|]. cbn [v_off v_len]. split; [lia|]. split; [lia|]. split; [lia|]. left. reflexivity.
  - unfold vtext. cbn [v_off v_len]. unfold l_slice. rewrite Nat2Z.id. apply firstn_all.
Qed.

Lemma make_ok h cs d tl al hs : BG h -> RC h hs -> Forall good cs -> cs <> [] -> Z.of_nat (length (enc cs)) < 2^30 -> 0 <= al < 2^31 ->
  exists h' s', make h (enc cs ++ d :: tl) (Z.of_nat (length (enc cs))) al = Ok (h', s') /\ BG h' /\ vin h' s' cs /\ vtext s' cs = cs /\ v_off s' = 0.
Proof.
  intros G R GC NE LB AL. unfold make. assert (LG := enc_len_ge _ GC). assert (0 < length cs)%nat by (destruct cs; [congruence|cbn; lia]).
  destruct (Z.eqb_spec (Z.of_nat (length (enc cs))) 0); [lia|].
  destruct (new_sbody_ok cs d tl (u32 (if al <=? Z.of_nat (length (enc cs)) then 0 else al)) 1 GC NE LB) as (y & EY & BY & NY).
  { destruct (_ <=? _); unfold u32; lia. }
  rewrite EY. cbn [obind]. destruct (new_sbody_rc _ _ _ _ _ EY) as [YR YS].
  destruct (num_chars_spec y cs BY) as (z & EZ & EA & BZ & NZ). rewrite EZ. cbn [obind fst snd]. do 2 eexists. split; [reflexivity|].
  destruct (fresh_vin h z cs hs (Z.of_nat (length cs)) (0, 0) G R BZ) as (G1 & V1 & T1); try reflexivity.
  - unfold stat. rewrite EA, YR, YS. reflexivity.
  - rewrite EA, YS. discriminate.
  - cbn [v_off]. auto.
Qed.

Lemma upto0_id cs : Forall (fun c => c <> 0) cs -> upto0 cs = cs.
Proof. induction 1 as [|c cs N _ IH]; [reflexivity|]. cbn [upto0]. destruct (Z.eqb_spec c 0); [congruence|]. rewrite IH. reflexivity. Qed.

Lemma static_bchars cs r : Forall good cs -> Z.of_nat (length (enc cs)) < 2^30 -> bchars (with_refs (static_sbody (enc cs)) r) cs.
Proof.
  intros G LB. apply bchars_refs. split; [exact G|]. cbn [static_sbody sb_arr sb_n]. split; [|auto].
  split; [|cbn [b_num b_alloc b_static b_data]; rewrite app_length; cbn [length]; split; [lia|split; [lia|split; [discriminate|lia]]]].
  cbn [b_data]. intros j a Ha. rewrite nth_error_map, Ha. reflexivity.
Qed.

Lemma make_lit_ok h cs st hs : BG h -> RC h hs -> null_ok h -> Forall good cs -> Forall (fun c => c <> 0) cs -> Z.of_nat (length (enc cs)) < 2^30 ->
  exists h' s', make_lit h (enc cs) st = Ok (h', s') /\ BG h' /\ vin h' s' cs /\ vtext s' cs = cs.
Proof.
  intros G R NO GC NZ LB. unfold make_lit. destruct (enc cs) as [|b bs] eqn:EE.
  - assert (cs = []) by (assert (LG := enc_len_ge _ GC); rewrite EE in LG; destruct cs; [reflexivity|cbn [length] in LG; lia]). subst cs.
    destruct (make_null_ok h [0] 0 hs G R NO) as (h' & s' & E & G' & V' & O' & L'). exists h', s'. split; [exact E|]. split; [exact G'|]. split; [exact V'|]. unfold vtext. rewrite O', L'. reflexivity.
  - rewrite <- EE in *. clear b bs EE. destruct st.
    + cbn [obind]. assert (B := static_bchars cs 2 GC LB). destruct (num_chars_spec _ cs B) as (z & EZ & EA & BZ & _). rewrite EZ. cbn [obind fst snd].
      do 2 eexists. split; [reflexivity|]. apply (fresh_vin h z cs hs); try reflexivity; try assumption; rewrite EA; reflexivity.
    + destruct (new_sbody_0 cs [] 1 GC LB) as (y & EY & BY & NY). rewrite EY. cbn [obind]. rewrite upto0_id in BY by exact NZ.
      destruct (new_sbody_rc _ _ _ _ _ EY) as [YR YS]. destruct (num_chars_spec y cs BY) as (z & EZ & EA & BZ & _). rewrite EZ. cbn [obind fst snd].
      do 2 eexists. split; [reflexivity|]. apply (fresh_vin h z cs hs); try reflexivity; try assumption; [unfold stat; rewrite EA, YR, YS; reflexivity|rewrite EA, YS; discriminate].
Qed.

Lemma make_char_ok h ch hs : BG h -> RC h hs -> good ch ->
  exists h' s', make_char h ch = Ok (h', s') /\ BG h' /\ vin h' s' [ch] /\ vtext s' [ch] = [ch].
Proof.
  intros G R GC. unfold make_char. assert (PL := put_len_pos _ GC). assert (EE : UTF8Put ch = enc [ch]) by (rewrite enc_cons, enc_nil, app_nil_r; reflexivity). rewrite EE in *.
  destruct (new_sbody_ok [ch] 0 [] 0 1) as (y & EY & BY & NY); [constructor; [exact GC|constructor]|discriminate|lia|lia|]. rewrite EY. cbn [obind].
  destruct (new_sbody_rc _ _ _ _ _ EY) as [YR YS]. do 2 eexists. split; [reflexivity|].
  apply (fresh_vin h y [ch] hs); try reflexivity; try assumption; [unfold stat; rewrite YR, YS; reflexivity|rewrite YS; discriminate].
Qed.

Lemma local_char_ok h ch hs : BG h -> RC h hs -> good ch ->
  exists h' t, local_char h ch = Ok (h', t) /\ BG h' /\ vin h' t [ch] /\ vtext t [ch] = [ch].
Proof.
  intros G R GC. unfold local_char. assert (PL := put_len_pos _ GC). assert (EE : UTF8Put ch = enc [ch]) by (rewrite enc_cons, enc_nil, app_nil_r; reflexivity). rewrite EE in *.
  assert (B := static_bchars [ch] 2 (Forall_cons _ GC (Forall_nil _)) ltac:(lia)). destruct (num_chars_spec _ [ch] B) as (z & EZ & EA & BZ & _). rewrite EZ. cbn [obind fst snd].
  do 2 eexists. split; [reflexivity|]. apply (fresh_vin h z [ch] hs); try reflexivity; try assumption; rewrite EA; reflexivity.
Qed.

Lemma end_local_ok h t hs : BG h -> RC h (t :: hs) -> exists h', end_local h t = Ok h' /\ BG h'.
Proof.
  intros G R. unfold end_local. destruct (srelease_ok _ _ _ G R) as (h1 & E & G1). rewrite E. cbn [obind]. eexists. split; [reflexivity|]. apply BG_none. exact G1.
Qed.

Lemma num_bytes_ok h s chs : BG h -> vin h s chs -> exists h', num_bytes h s = Ok (h', Z.of_nat (length (enc (vtext s chs)))) /\ BG h' /\ hsim h h' /\ vin h' s chs.
Proof.
  intros G V. assert (V0 := V). destruct V0 as ((x & SX & BX) & O & L & OL & M). unfold num_bytes.
  destruct (nth_c_ok h s chs (v_len s) G V ltac:(lia)) as (h1 & -> & G1 & S1 & V1). cbn [obind fst snd].
  destruct (nth_c_ok h1 s chs 0 G1 V1 ltac:(lia)) as (h2 & -> & G2 & S2 & V2). cbn [obind fst snd].
  exists h2. split; [|split; [exact G2|split; [exact (hsim_trans _ _ _ S1 S2)|exact V2]]]. f_equal. f_equal.
  unfold vtext. rewrite enc_slice_len. assert (B1 := bpos_max chs (Z.to_nat (v_off s) + Z.to_nat (v_len s))). assert (B2 := bpos_le chs (Z.to_nat (v_off s)) (Z.to_nat (v_off s) + Z.to_nat (v_len s)) ltac:(lia)).
  assert (LB := proj2 (proj2 (proj2 BX))). rewrite Z.add_0_r. replace (Z.to_nat (v_off s + v_len s)) with (Z.to_nat (v_off s) + Z.to_nat (v_len s))%nat by lia.
  unfold u32. lia.
Qed.
