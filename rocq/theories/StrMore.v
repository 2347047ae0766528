(** Texts under +, *, appended characters, case conversion, asUTF8, indexing. *)
From Verif Require Import Base RefModel RefProofs UTF8Model UTF8Spec UTF8Proofs ArrayModel ArraySpec ArrayProofs ArrayRead StrModel StrSpec StrText StrHeap StrState StrOps StrEdit.
From Verif Require ArrayHeap ArrayOps CharTables CharModel CharSpec CharProofs.
From Coq Require Import Permutation.
Ltac Zify.zify_post_hook ::= Z.div_mod_to_equations.

Implicit Types (h : sheap) (s t w : sval) (hs : list sval) (x y : sbody) (chs : list Z).

Lemma sim_null h h' : BG h' -> hsim h h' -> null_ok h -> null_ok h'.
Proof. intros G S N. eapply sim_vin; eassumption. Qed.
Lemma enc_nonempty cs : Forall good cs -> Z.of_nat (length (enc cs)) = 0 -> cs = [].
Proof. intros G E. assert (L := enc_len_ge _ G). destruct cs; [reflexivity|cbn [length] in L; lia]. Qed.

Lemma plus_ok h s w hs chs cw : BG h -> RC h hs -> null_ok h -> In w hs -> vin h s chs -> vin h w cw -> tight s chs -> tight w cw ->
  Z.of_nat (length (enc (vtext s chs)) + length (enc (vtext w cw))) < 2^30 ->
  exists h' r cs, plus h s w = Ok (h', r) /\ BG h' /\ vin h' r cs /\ vtext r cs = vtext s chs ++ vtext w cw /\ tight r cs /\
    (length (enc cs) <= Nat.max (length (enc chs)) (Nat.max (length (enc cw)) (length (enc (vtext s chs)) + length (enc (vtext w cw)))))%nat.
Proof.
  intros G R NO IW V VW TS TW LB. assert (V0 := V). destruct V0 as ((x & SX & BX) & O & L & OL & M).
  assert (VW0 := VW). destruct VW0 as ((xw & SXW & BXW) & OW & LW & OLW & MW).
  assert (SM := bchars_small _ _ BX). assert (SMW := bchars_small _ _ BXW). unfold plus.
  destruct ((v_body s =? v_body w)%nat && (u32 (v_off s + v_len s) =? v_off w)) eqn:CT.
  - apply andb_true_iff in CT as [C2 C3]. apply Z.eqb_eq in C3. apply Nat.eqb_eq in C2.
    assert (EC : cw = chs) by (eapply bview_fun; [exists xw; split; [exact SXW|exact BXW]|exists x; rewrite <- C2; auto]). subst cw.
    replace (u32 (v_off s + v_len s)) with (v_off s + v_len s) in C3 by (unfold u32; lia).
    replace (u32 (v_len s + v_len w)) with (v_len s + v_len w) by (unfold u32; lia).
    destruct (saddref_ok h _ x G SX) as (h1 & E1 & G1 & SX1). rewrite E1. cbn [obind].
    do 2 eexists. exists chs. split; [reflexivity|]. split; [exact G1|]. split; [|split; [|split; [|lia]]].
    + eapply (vin_nomark h1 s); cbn [v_body v_off v_len v_mk]; try reflexivity; try lia. eapply addref_view; [exact G1|exact E1|exact SX|]. exists x. auto.
    + unfold vtext. cbn [v_off v_len]. replace (Z.to_nat (v_len s + v_len w)) with (Z.to_nat (v_len s) + Z.to_nat (v_len w))%nat by lia.
      rewrite ArrayOps.slice_join by lia. f_equal. f_equal. lia.
    + unfold tight. cbn [v_len]. intros E. apply TS. lia.
  - destruct (nth_c_ok h s chs 0 G V ltac:(lia)) as (h1 & -> & G1 & S1 & V1). cbn [obind fst snd].
    destruct (num_bytes_ok h1 s chs G1 V1) as (h2 & -> & G2 & S2 & V2). cbn [obind fst snd].
    assert (S12 := hsim_trans _ _ _ S1 S2). assert (VW2 := sim_vin _ _ _ _ G2 S12 VW).
    destruct (num_bytes_ok h2 w cw G2 VW2) as (h3 & -> & G3 & S3 & VW3). cbn [obind fst snd].
    assert (S13 := hsim_trans _ _ _ S12 S3). assert (V3 := sim_vin _ _ _ _ G3 S13 V). rewrite (sv_mem_ok _ _ _ V3). cbn [obind].
    rewrite Z.add_0_r. destruct (Z.ltb_spec (Z.of_nat (bpos chs (Z.to_nat (v_off s)))) 0); [lia|]. rewrite Nat2Z.id, skipn_bpos.
    assert (GC : Forall good chs) by apply BX. assert (GT : Forall good (vtext s chs)) by (apply good_slice; exact GC).
    assert (R3 := hsim_RC _ _ _ S13 R). assert (N3 := sim_null _ _ G3 S13 NO).
    assert (MK : exists h4 t, make h3 (enc (skipn (Z.to_nat (v_off s)) chs) ++ [0]) (Z.of_nat (length (enc (vtext s chs))))
                     (u32 (Z.of_nat (length (enc (vtext s chs))) + Z.of_nat (length (enc (vtext w cw))))) = Ok (h4, t) /\ BG h4 /\
                 vin h4 t (vtext s chs) /\ vtext t (vtext s chs) = vtext s chs /\ v_off t = 0).
    { destruct (Z.eq_dec (Z.of_nat (length (enc (vtext s chs)))) 0) as [E0|NE].
      - rewrite E0. assert (T0 := enc_nonempty _ GT E0). rewrite T0.
        destruct (make_null_ok h3 (enc (skipn (Z.to_nat (v_off s)) chs) ++ [0]) (u32 (0 + Z.of_nat (length (enc (vtext w cw))))) hs G3 R3 N3) as (h4 & t & E4 & G4 & V4 & O4 & L4).
        exists h4, t. split; [exact E4|]. split; [exact G4|]. split; [exact V4|]. split; [unfold vtext; rewrite O4, L4; reflexivity|exact O4].
      - assert (SK := skipn_slice chs (Z.to_nat (v_off s)) (Z.to_nat (v_len s)) [0]).
        destruct (follows chs (Z.to_nat (v_off s) + Z.to_nat (v_len s))) as (d & tl & F). rewrite F in SK. rewrite SK. fold (vtext s chs).
        destruct (make_ok h3 (vtext s chs) d tl (u32 (Z.of_nat (length (enc (vtext s chs))) + Z.of_nat (length (enc (vtext w cw))))) hs G3 R3 GT) as (h4 & t & E4 & G4 & V4 & T4 & O4).
        + intros E. rewrite E in NE. apply NE. reflexivity.
        + lia.
        + unfold u32. lia.
        + exists h4, t. auto. }
    destruct MK as (h4 & t & E4 & G4 & V4 & T4 & O4). rewrite E4. cbn [obind].
    destruct (make_rc _ _ _ _ _ _ _ R3 E4) as (R4 & K4 & _).
    assert (VW4 : vin h4 w cw) by (eapply keep_vin_in; [exact G4|exact K4|exact IW|exact VW3]).
    assert (TT : tight t (vtext s chs)).
    { intros E. apply vtext_len in V4. rewrite T4 in V4. destruct (vtext s chs); [reflexivity|cbn [length] in V4; lia]. }
    destruct (add_eq_ok h4 t hs w (vtext s chs) cw G4 R4 IW V4 VW4 (or_introl O4) ltac:(lia)) as (h5 & r & cs & E5 & G5 & V5 & T5 & _ & LE & TI).
    exists h5, r, cs. split; [exact E5|]. split; [exact G5|]. split; [exact V5|]. rewrite T5, T4. split; [reflexivity|]. split; [apply TI; assumption|].
    destruct LE as [LE|[_ ->]]; lia.
Qed.

Lemma tight1 t ch : v_len t = 1 -> tight t [ch].
Proof. intros E1 E2. lia. Qed.
Lemma local_len h ch h' t : good ch -> vin h' t [ch] -> vtext t [ch] = [ch] -> v_len t = 1.
Proof. intros G V T. apply vtext_len in V. rewrite T in V. cbn [length] in V. lia. Qed.
Lemma enc1 ch : length (enc [ch]) = length (UTF8Put ch).
Proof. rewrite enc_cons, enc_nil, app_nil_r. reflexivity. Qed.

Lemma add_eq_char_ok h s hs chs ch : BG h -> RC h (s :: hs) -> vin h s chs -> tight s chs -> wr_ok h s -> good ch ->
  Z.of_nat (length (enc chs) + length (UTF8Put ch)) < 2^30 ->
  exists h' s' cs, add_eq_char h s ch = Ok (h', s') /\ BG h' /\ vin h' s' cs /\ vtext s' cs = vtext s chs ++ [ch] /\ tight s' cs.
Proof.
  intros G R V TS WR GC LB. unfold add_eq_char.
  destruct (local_char_ok h ch _ G R GC) as (h1 & t & E1 & G1 & V1 & T1). rewrite E1. cbn [obind].
  destruct (local_char_rc _ _ _ _ _ R E1) as (R1 & K1 & B1 & L1 & ST).
  assert (R1' : RC h1 (s :: t :: hs)) by (eapply RC_perm; [apply perm_swap|exact R1]).
  assert (VS1 : vin h1 s chs) by (eapply keep_vin_in; [exact G1|exact K1|left; reflexivity|exact V]).
  assert (WR1 : wr_ok h1 s).
  { destruct WR as [WR|(x & SX & RF)]; [left; exact WR|right]. destruct VS1 as ((x1 & SX1 & _) & _). exists x1. split; [exact SX1|].
    assert (P1 := refs_pos _ _ _ _ R SX). assert (P2 := refs_pos _ _ _ _ R1' SX1).
    assert (OB := keep_hd _ _ _ _ K1). unfold obits in OB. rewrite (sget_arr _ _ _ SX), (sget_arr _ _ _ SX1) in OB. cbn in OB. injection OB as _ _ _ OB.
    rewrite cnt_cons in P2. unfold stat in *. rewrite OB in P2. destruct (v_body t =? v_body s)%nat; lia. }
  destruct (add_eq_ok h1 s (t :: hs) t chs [ch] G1 R1' (or_introl eq_refl) VS1 V1 WR1 ltac:(rewrite T1, enc1; exact LB)) as (h2 & s2 & cs & E2 & G2 & V2 & T2 & _ & _ & TI).
  rewrite E2. cbn [obind]. destruct (add_eq_rc _ _ _ _ _ _ _ R1' E2) as (R2 & K2 & L2 & C).
  assert (R2' : RC h2 (t :: s2 :: hs)) by (eapply RC_perm; [apply perm_swap|exact R2]).
  destruct (end_local_ok _ _ _ G2 R2') as (h3 & E3 & G3). rewrite E3. cbn [obind].
  assert (LS := RC_lt _ _ s R (or_introl eq_refl)).
  destruct (end_local_rc h2 t (s2 :: hs) h3 R2' E3) as (R3 & K3 & _).
  { intros u [<-|Hu].
    - destruct C as [C|[C|[-> C]]]; [lia|lia|].
      destruct R1 as [_ B]. inversion B as [|? ? [a Ha] _]; subst. destruct (arr_sget _ _ _ Ha) as (z & Gz & _).
      specialize (ST z Gz). rewrite (C z Gz) in ST. discriminate.
    - assert (X := RC_lt _ _ u R (or_intror Hu)). lia. }
  exists h3, s2, cs. split; [reflexivity|]. split; [exact G3|]. split; [eapply keep_vin; [exact G3|exact (keep_hd _ _ _ _ K3)|exact V2]|].
  rewrite T2, T1. split; [reflexivity|]. apply TI; [exact TS|]. apply tight1. eapply local_len; eassumption.
Qed.

Lemma plus_char_ok h s hs chs ch : BG h -> RC h hs -> null_ok h -> In s hs -> In null_val hs -> vin h s chs -> tight s chs -> good ch ->
  Z.of_nat (length (enc (vtext s chs)) + length (UTF8Put ch)) < 2^30 ->
  exists h' r cs, plus_char h s ch = Ok (h', r) /\ BG h' /\ vin h' r cs /\ vtext r cs = vtext s chs ++ [ch] /\ tight r cs.
Proof.
  intros G R NO IS IN V TS GC LB. unfold plus_char.
  destruct (local_char_ok h ch _ G R GC) as (h1 & t & E1 & G1 & V1 & T1). rewrite E1. cbn [obind].
  destruct (local_char_rc _ _ _ _ _ R E1) as (R1 & K1 & B1 & L1 & ST).
  assert (VS1 : vin h1 s chs) by (eapply keep_vin_in; [exact G1|exact K1|exact IS|exact V]).
  assert (NO1 : null_ok h1) by (eapply keep_vin_in; [exact G1|exact K1|exact IN|exact NO]).
  destruct (plus_ok h1 s t (t :: hs) chs [ch] G1 R1 NO1 (or_introl eq_refl) VS1 V1 TS) as (h2 & r & cs & E2 & G2 & V2 & T2 & TI & _).
  { apply tight1. eapply local_len; eassumption. }
  { rewrite T1, enc1. exact LB. }
  rewrite E2. cbn [obind]. destruct (plus_rc _ _ _ _ _ _ R1 (or_introl eq_refl) E2) as (R2 & K2 & L2 & C).
  assert (R2' : RC h2 (t :: r :: hs)) by (eapply RC_perm; [apply perm_swap|exact R2]).
  destruct (end_local_ok _ _ _ G2 R2') as (h3 & E3 & G3). rewrite E3. cbn [obind].
  assert (LS := RC_lt _ _ s R IS). assert (LN := RC_lt _ _ _ R IN). cbn [v_body null_val] in LN.
  destruct (end_local_rc h2 t (r :: hs) h3 R2' E3) as (R3 & K3 & _).
  { intros u [<-|Hu].
    - destruct C as [C|[C|[C|[-> C]]]]; [lia|lia|lia|].
      destruct R1 as [_ B]. inversion B as [|? ? [a Ha] _]; subst. destruct (arr_sget _ _ _ Ha) as (z & Gz & _).
      specialize (ST z Gz). rewrite (C z Gz) in ST. discriminate.
    - assert (X := RC_lt _ _ u R Hu). lia. }
  exists h3, r, cs. split; [reflexivity|]. split; [exact G3|]. split; [eapply keep_vin; [exact G3|exact (keep_hd _ _ _ _ K3)|exact V2]|].
  rewrite T2, T1. auto.
Qed.

(** ** operator* *)
Lemma times_loop_ok s chs hs : tight s chs -> In s hs -> forall k h res cr, BG h -> RC h (res :: hs) -> vin h s chs -> vin h res cr -> wr_ok h res -> tight res cr ->
  Z.of_nat (Nat.max (length (enc cr)) (length (enc chs)) + k * length (enc (vtext s chs))) < 2^30 ->
  exists h' r cs, times_loop k h res s = Ok (h', r) /\ BG h' /\ vin h' r cs /\ vtext r cs = vtext res cr ++ concat (repeat (vtext s chs) k) /\ tight r cs.
Proof.
  intros TS IS. induction k as [|k IH]; intros h res cr G R V VR WR TR LB; cbn [times_loop].
  - exists h, res, cr. cbn [repeat concat]. rewrite app_nil_r. auto.
  - destruct (add_eq_ok h res hs s cr chs G R IS VR V WR ltac:(cbn [Nat.mul] in LB; lia)) as (h1 & r1 & c1 & E1 & G1 & V1 & T1 & W1 & LE & TI).
    rewrite E1. cbn [obind]. destruct (add_eq_rc _ _ _ _ _ _ _ R E1) as (R1 & K1 & _).
    destruct (IH h1 r1 c1 G1 R1) as (h2 & r & cs & E2 & G2 & V2 & T2 & TI2).
    + eapply keep_vin_in; eassumption.
    + exact V1.
    + exact W1.
    + apply TI; assumption.
    + cbn [Nat.mul] in LB. destruct LE as [LE|[_ ->]]; lia.
    + exists h2, r, cs. split; [exact E2|]. split; [exact G2|]. split; [exact V2|]. rewrite T2, T1. cbn [repeat concat]. rewrite <- app_assoc. auto.
Qed.

Lemma times_ok h s hs chs n : BG h -> RC h hs -> null_ok h -> In s hs -> vin h s chs -> tight s chs ->
  Z.of_nat (length (enc chs) + Z.to_nat n * length (enc (vtext s chs))) < 2^30 ->
  exists h' s' r cs, times h s n = Ok (h', s', r) /\ BG h' /\ vin h' r cs /\ vtext r cs = concat (repeat (vtext s chs) (Z.to_nat n)) /\ tight r cs /\
    vin h' s' chs /\ v_body s' = v_body s /\ v_off s' = v_off s /\ v_len s' = v_len s.
Proof.
  intros G R NO IS V TS LB. assert (V0 := V). destruct V0 as (_ & O & L & _ & _). unfold times.
  destruct (nth_m_ok h s chs 0 G V ltac:(lia)) as (h1 & s1 & N1 & G1 & S1 & V1 & E1 & E2 & E3 & _). rewrite N1. cbn [obind].
  destruct (nth_m_ok h1 s1 chs (v_len s) G1 V1 ltac:(lia)) as (h2 & s2 & N2 & G2 & S2 & V2 & F1 & F2 & F3 & _). rewrite N2. cbn [obind].
  assert (S12 := hsim_trans _ _ _ S1 S2). assert (R2 := hsim_RC _ _ _ S12 R).
  destruct (in_split _ _ IS) as (l1 & l2 & EL). 
  assert (P0 : Permutation hs (s :: l1 ++ l2)) by (rewrite EL; symmetry; apply Permutation_middle).
  assert (R2' : RC h2 (s2 :: l1 ++ l2)) by (eapply RC_body; [|eapply RC_perm; [exact P0|exact R2]]; congruence).
  destruct (make_null_ok h2 [0] 0 _ G2 R2' (sim_null _ _ G2 S12 NO)) as (h3 & res & E4 & G3 & V3 & O3 & L3). rewrite E4. cbn [obind].
  destruct (make_rc _ _ _ _ _ _ _ R2' E4) as (R3 & K3 & _).
  assert (VT : vtext s2 chs = vtext s chs) by (unfold vtext; congruence).
  assert (V23 : vin h3 s2 chs) by (eapply keep_vin_in; [exact G3|exact K3|left; reflexivity|exact V2]).
  destruct (times_loop_ok s2 chs (s2 :: l1 ++ l2) ltac:(unfold tight; rewrite F3, E3; exact TS) (or_introl eq_refl) (Z.to_nat n) h3 res [] G3 R3 V23 V3 (or_introl O3)) as (h4 & r & cs & E5 & G4 & V4 & T4 & TI).
  { intros _. reflexivity. }
  { rewrite VT. rewrite enc_nil. cbn [length Nat.max]. exact LB. }
  rewrite E5. cbn [obind fst snd]. destruct (times_loop_rc _ _ _ _ _ _ _ R3 E5) as [R4 K4].
  exists h4, s2, r, cs. split; [reflexivity|]. split; [exact G4|]. split; [exact V4|]. rewrite T4, VT.
  assert (T0 : vtext res [] = []) by (unfold vtext; rewrite O3, L3; reflexivity). rewrite T0. split; [reflexivity|]. split; [exact TI|].
  split; [eapply keep_vin_in; [exact G4|exact K4|left; reflexivity|exact V23]|]. split; [congruence|split; congruence].
Qed.

(** ** Case conversion *)
Definition ctable (up : bool) := if up then CharTables.UnicodeToUpper else CharTables.UnicodeToLower.
Definition casec (up : bool) (ch : Z) : Z := CharProofs.conv (ctable up) ch.

Lemma case_char_ok up ch : good ch -> case_char up ch = Ok (casec up ch) /\ good (casec up ch).
Proof.
  intros [GU GR]. assert (RO : CharProofs.ranges_ok (ctable up) = true) by (destruct up; [exact CharProofs.upper_ok|exact CharProofs.lower_ok]).
  assert (VM : CharProofs.valid_memo (ctable up) 0) by (destruct up; vm_compute; split; congruence).
  destruct (CharProofs.case_convert_spec (ctable up) RO 0 ch VM GU) as (r & w & E & T & _).
  assert (TC := CharProofs.conv_maps (ctable up) ch). assert (ER := CharProofs.table_maps_fun _ RO _ _ _ T TC). subst r. fold (casec up ch) in *.
  split.
  - unfold case_char. destruct up; cbn [ctable] in E; unfold CharModel.UCS4ToUpper, CharModel.UCS4ToLower; rewrite E; reflexivity.
  - destruct TC as [(e & I & Hin & EC)|[_ EC]].
    + destruct (CharProofs.ranges_in _ _ RO I) as (A & B & C & D). unfold CharSpec.in_entry in Hin. unfold good, ucs4, replacement in *. lia.
    + rewrite EC. split; assumption.
Qed.
Lemma case_bytes_ok up ch : good ch -> case_bytes up ch = Ok (UTF8Put (casec up ch)).
Proof. intros G. unfold case_bytes. rewrite (proj1 (case_char_ok up ch G)). reflexivity. Qed.
Lemma map_case_good up l : Forall good l -> Forall good (map (casec up) l).
Proof. intros G. apply Forall_forall. intros c Hc. apply in_map_iff in Hc as (d & <- & Hd). rewrite Forall_forall in G. apply case_char_ok, G, Hd. Qed.
Lemma enc_le6 l : Forall good l -> (length (enc l) <= 6 * length l)%nat.
Proof. induction 1 as [|c l G _ IH]; [cbn; lia|]. rewrite enc_cons, app_length. cbn [length]. apply put_len_pos in G. lia. Qed.
Lemma map_case_len up l : Forall good l -> (length (enc (map (casec up) l)) <= 6 * length l)%nat.
Proof. intros G. assert (E := enc_le6 _ (map_case_good up l G)). rewrite map_length in E. exact E. Qed.

Lemma body_append (a : body Z) L bs : valid a L -> b_static a = false -> b_refs a <= 1 -> bs <> [] -> b_num a + Z.of_nat (length bs) <= 2^32 - 8 ->
  exists a', body_insert a (b_num a) (Ext (rdZ bs)) (Z.of_nat (length bs)) = Ok a' /\ valid a' (L ++ bs) /\ b_static a' = false /\ b_refs a' = b_refs a.
Proof.
  intros V ST RF NE LB. assert (NN : b_num a = Z.of_nat (length L)) by apply V.
  assert (SR : src_is (rdZ bs) bs). { assert (X := src_list bs (length bs) ltac:(lia)). rewrite firstn_all in X. exact X. }
  destruct (body_insert_ok a L (b_num a) (rdZ bs) bs V ST ltac:(lia) SR RF LB) as [a' E]. exists a'. split; [exact E|].
  destruct (body_insert_spec a L (b_num a) (rdZ bs) bs a' V ST ltac:(lia) SR ltac:(lia) E) as [(V' & R' & S' & _)|[Z0 _]]; [|congruence].
  rewrite NN, Nat2Z.id, insert_end in V'. auto.
Qed.

Lemma skip_one m up next k : (up < next)%nat -> UTF8LenPtr (skipn up m) = Ok k -> (up + k = next)%nat -> forall fuel, (0 < fuel)%nat -> skip_to fuel m up next = Ok next.
Proof.
  intros A B C [|fuel] F; [lia|]. cbn [skip_to]. destruct (Nat.ltb_spec up next); [|lia]. rewrite B. cbn [obind]. rewrite C.
  destruct fuel; cbn [skip_to]; (destruct (Nat.ltb_spec next next); [lia|reflexivity]).
Qed.

Lemma transform_loop_ok up l : Forall good l -> forall fuel pre a done n,
  (length l <= fuel)%nat -> Forall good pre -> Forall good done -> valid a (enc done) -> b_static a = false -> b_refs a <= 1 ->
  n = Z.of_nat (length done) -> Z.of_nat (length done + 7 * length l + length (enc done)) < 2^31 ->
  exists a', transform_loop fuel (enc pre ++ enc l ++ [0]) (length (enc pre)) (length (enc pre) + length (enc l)) (case_bytes up) a n
     = Ok (a', Z.of_nat (length done + length l)) /\ valid a' (enc (done ++ map (casec up) l)) /\ b_static a' = false /\ b_refs a' = b_refs a.
Proof.
  induction 1 as [|c l G GL IH]; intros fuel pre a done n HF GP GD VA ST RF EN LB.
  - exists a. rewrite enc_nil. cbn [length map app]. rewrite app_nil_r, !Nat.add_0_r, <- EN. split; [|auto].
    destruct fuel; cbn [transform_loop]; (destruct (Nat.ltb_spec (length (enc pre)) (length (enc pre))); [lia|reflexivity]).
  - destruct fuel as [|fuel]; cbn [length] in HF; [lia|]. assert (PL := put_len_pos _ G). cbn [transform_loop].
    assert (EL : length (enc (c :: l)) = (length (UTF8Put c) + length (enc l))%nat) by (rewrite enc_cons, app_length; reflexivity).
    destruct (Nat.ltb_spec (length (enc pre)) (length (enc pre) + length (enc (c :: l)))); [|lia].
    set (m := enc pre ++ enc (c :: l) ++ [0]).
    assert (SK : skipn (length (enc pre)) m = UTF8Put c ++ enc l ++ [0]).
    { unfold m. rewrite skipn_app, skipn_all2, Nat.sub_diag by lia. cbn [skipn app]. rewrite enc_cons, <- app_assoc. reflexivity. }
    rewrite SK, get_good by exact G. cbn [obind fst snd]. rewrite case_bytes_ok by exact G. cbn [obind].
    assert (GC := proj2 (case_char_ok up c G)). assert (PC := put_len_pos _ GC).
    assert (CL := count_loop_spec [casec up c] (Forall_cons _ GC (Forall_nil _)) (length (UTF8Put (casec up c))) [] [] 0 ltac:(cbn [length]; lia) ltac:(lia) ltac:(cbn; lia)).
    rewrite enc_cons, enc_nil, app_nil_r in CL. cbn [app length Nat.add] in CL. rewrite CL. cbn [obind].
    rewrite (skip_one m _ _ (length (UTF8Put c))); [|lia|rewrite SK; apply lenptr_good; exact G|reflexivity|unfold m; rewrite !app_length; cbn [length]; lia]. cbn [obind].
    cbn [length] in LB. assert (NA : b_num a = Z.of_nat (length (enc done))) by apply VA.
    destruct (body_append a (enc done) (UTF8Put (casec up c)) VA ST RF) as (a1 & -> & VA1 & ST1 & RF1).
    { intros E. rewrite E in PC. cbn in PC. lia. }
    { lia. }
    cbn [obind].
    assert (E1 : enc done ++ UTF8Put (casec up c) = enc (done ++ [casec up c])) by (rewrite enc_app, enc_cons, enc_nil, app_nil_r; reflexivity). rewrite E1 in VA1.
    assert (EP : enc (pre ++ [c]) = enc pre ++ UTF8Put c) by (rewrite enc_app, enc_cons, enc_nil, app_nil_r; reflexivity).
    destruct (IH fuel (pre ++ [c]) a1 (done ++ [casec up c]) (u32 (n + (0 + Z.of_nat 1)))) as (a2 & E2 & VA2 & ST2 & RF2).
    + lia.
    + apply Forall_app. split; [exact GP|constructor; [exact G|constructor]].
    + apply Forall_app. split; [exact GD|constructor; [exact GC|constructor]].
    + exact VA1.
    + exact ST1.
    + lia.
    + rewrite app_length. cbn [length]. unfold u32. lia.
    + rewrite enc_app, enc_cons, enc_nil, app_nil_r, !app_length. cbn [length]. lia.
    + exists a2. split; [|split; [|split; [exact ST2|lia]]].
      * rewrite EP, app_length in E2. unfold m. rewrite EL. rewrite enc_cons, <- app_assoc.
        rewrite <- app_assoc in E2. cbn [app] in E2. rewrite <- Nat.add_assoc in E2. rewrite E2. f_equal. f_equal. rewrite app_length. cbn [length]. lia.
      * rewrite <- app_assoc in VA2. exact VA2.
Qed.

Lemma transform_ok up x cs : bchars x cs -> b_static (sb_arr x) = false -> b_refs (sb_arr x) <= 1 -> 7 * Z.of_nat (length cs) < 2^30 ->
  exists y, transform x (case_bytes up) = Ok y /\ bchars y (map (casec up) cs) /\ b_static (sb_arr y) = false /\ b_refs (sb_arr y) = b_refs (sb_arr x).
Proof.
  intros B ST RF LB. assert (NU := bchars_num _ _ B). assert (SMM := bchars_smem _ _ B). assert (GC := proj1 B). assert (LC := proj2 (proj2 (proj2 B))).
  unfold transform, cassert. destruct (Z.leb_spec (b_refs (sb_arr x)) 1); [|lia]. rewrite SMM. cbn [obind]. rewrite ST.
  set (e := {| b_data := []; b_num := 0; b_alloc := 0; b_refs := b_refs (sb_arr x); b_static := false |}).
  assert (VE : valid e []). { split; [intros j a Ha; destruct j; discriminate|]. cbn. repeat split; lia. }
  destruct (resize_ok e [] (b_num (sb_arr x) + 6) VE eq_refl ltac:(cbn [b_num e]; lia) ltac:(lia)) as (a0 & mv & ER & _). rewrite ER. cbn [obind fst].
  destruct (resize_spec e [] _ a0 mv VE eq_refl ER) as (V0 & N0 & RF0 & ST0). cbn [b_refs b_static e] in RF0, ST0.
  destruct (transform_loop_ok up cs GC (length (enc cs ++ [0])) [] a0 [] 0) as (a1 & E1 & V1 & ST1 & RF1).
  - rewrite app_length. cbn [length]. assert (X := enc_len_ge _ GC). lia.
  - constructor.
  - constructor.
  - exact V0.
  - exact ST0.
  - lia.
  - reflexivity.
  - cbn. lia.
  - rewrite enc_nil in E1. cbn [app length Nat.add] in E1. rewrite app_length. cbn [length]. rewrite app_length in E1. cbn [length] in E1.
    replace (length (enc cs) + 1 - 1)%nat with (length (enc cs)) by lia. rewrite E1. cbn [obind fst snd].
    cbn [app] in V1. assert (ML := map_case_len up cs GC). assert (NA : b_num a1 = Z.of_nat (length (enc (map (casec up) cs)))) by apply V1.
    destruct (body_append a1 _ [0] V1 ST1 ltac:(lia) ltac:(discriminate) ltac:(cbn [length]; lia)) as (a2 & E2 & V2 & ST2 & RF2).
    cbn [length Z.of_nat Pos.of_succ_nat] in E2. rewrite E2. cbn [obind]. eexists. split; [reflexivity|]. cbn [sb_arr]. split; [|split; [exact ST2|lia]].
    split; [apply map_case_good; exact GC|]. cbn [sb_arr sb_n]. split; [exact V2|]. rewrite map_length. split; [right; reflexivity|]. lia.
Qed.

Definition whole s chs : Prop := v_off s = 0 /\ v_len s = Z.of_nat (length chs).
Lemma whole_text s chs : whole s chs -> vtext s chs = chs.
Proof. intros [O L]. unfold vtext, l_slice. rewrite O, L, Nat2Z.id. cbn [Z.to_nat skipn]. apply firstn_all. Qed.

Lemma case_ascii up c : good c -> c < 128 -> casec up c < 128.
Proof.
  intros [[G0 _] _] H. assert (A : forallb (fun c => casec up c <? 128) (map Z.of_nat (List.seq 0 128)) = true) by (destruct up; vm_compute; reflexivity).
  rewrite forallb_forall in A. specialize (A c). rewrite Z.ltb_lt in A. apply A. apply in_map_iff. exists (Z.to_nat c). split; [lia|]. apply in_seq. lia.
Qed.

Lemma to_case_ok up h s hs chs : BG h -> RC h (s :: hs) -> vin h s chs -> tight s chs -> whole s chs \/ shared h s -> mark_none s \/ ascii chs ->
  7 * Z.of_nat (length chs) < 2^30 ->
  exists h' s' cs, to_case up h s = Ok (h', s') /\ BG h' /\ vin h' s' cs /\ vtext s' cs = map (casec up) (vtext s chs) /\ tight s' cs /\ whole s' cs.
Proof.
  intros G R V TS WH MK LB. unfold to_case.
  destruct (unshare_ok h s hs chs G R V) as (h1 & s1 & cs & EU & G1 & V1 & T1 & L1 & X1 & LE & INC & ML1 & MN & C1). rewrite EU. cbn [obind].
  assert (W1 : whole s1 cs /\ cs = vtext s chs).
  { destruct C1 as [(NS & -> & ->)|[C1 C2]].
    - destruct WH as [WH|WH]; [|contradiction]. split; [exact WH|]. symmetry. apply whole_text. exact WH.
    - destruct (Z.eq_dec (v_len s) 0) as [E0|NE].
      + specialize (TS E0). subst chs. assert (cs = []) by (destruct cs as [|c cs]; [reflexivity|destruct (INC c (or_introl eq_refl))]). subst cs.
        split; [split; [exact C1|rewrite L1, E0; reflexivity]|]. unfold vtext, l_slice. rewrite skipn_nil, firstn_nil. reflexivity.
      + assert (0 <= v_len s) by apply V. specialize (C2 ltac:(lia)). split; [|exact C2]. split; [exact C1|]. rewrite L1, C2. symmetry. eapply vtext_len. exact V. }
  destruct W1 as [[O1 LL1] EC]. destruct X1 as (x & SX & RF & ST). rewrite SX. cbn [obind].
  assert (VV := V1). destruct VV as ((x1 & SX1 & BX) & _ & _ & _ & M1). rewrite SX in SX1. injection SX1 as <-.
  assert (LEN : (length cs <= length chs)%nat).
  { assert (A := vtext_len _ _ _ V). rewrite <- EC in A. destruct V as (_ & A1 & A2 & A3 & _). lia. }
  destruct (transform_ok up x cs BX ST RF ltac:(lia)) as (y & ET & BY & SY & RY). rewrite ET. cbn [obind]. rewrite (bchars_smem _ _ BY). cbn [obind]. cbv zeta.
  set (y0 := if forallb _ _ then y else _).
  assert (BY0 : bchars y0 (map (casec up) cs)).
  { unfold y0. destruct (forallb _ _); [exact BY|]. eapply bchars_same; [exact BY|reflexivity|left; reflexivity]. }
  assert (A0 : sb_arr y0 = sb_arr y) by (unfold y0; destruct (forallb _ _); reflexivity).
  destruct (num_chars_spec y0 _ BY0) as (z & EZ & EA & BZ & NZ). rewrite EZ. cbn [obind fst snd].
  do 2 eexists. exists (map (casec up) cs). split; [reflexivity|].
  split; [eapply BG_sput; [exact G1|exact SX|exact BZ|rewrite EA, A0, SY; discriminate]|].
  match goal with |- vin _ ?t _ /\ _ => set (s' := t) end.
  assert (W' : whole s' (map (casec up) cs)) by (split; [exact O1|reflexivity]).
  split; [|split; [rewrite (whole_text _ _ W'), EC; reflexivity|split; [|exact W']]].
  - split; [exists z; cbn [v_body s']; rewrite (sget_sput _ _ _ _ _ SX), Nat.eqb_refl; auto|]. cbn [v_off v_len s']. rewrite O1. split; [lia|]. split; [lia|]. split; [lia|].
    unfold vmark. cbn [v_off v_len v_mk s']. rewrite map_length.
    destruct M1 as [M1|[(c & M1 & P & B)|M1]]; [left; exact M1| |right; right; rewrite O1 in *; exact M1].
    destruct MK as [MK|MK].
    + destruct (MN MK) as [Q|Q]; rewrite M1 in Q; cbn [fst] in Q; [lia|]. exfalso. assert (X := bchars_small _ _ BX). lia.
    + right. left. exists c. split; [|lia]. rewrite M1. f_equal. f_equal.
      assert (AC : ascii cs) by (unfold ascii in *; rewrite Forall_forall in *; intros d Hd; apply MK, INC, Hd).
      rewrite (bpos_ascii cs c (proj1 BX) AC) by lia. rewrite bpos_ascii; [reflexivity|apply BY| |rewrite map_length; lia].
      unfold ascii in *. rewrite Forall_forall in *. intros d Hd. apply in_map_iff in Hd as (e & <- & He). apply case_ascii; [|apply AC; exact He].
      assert (GC := proj1 BX). rewrite Forall_forall in GC. apply GC. exact He.
  - intros E. cbn [v_len s'] in E. destruct (map (casec up) cs); [reflexivity|cbn [length] in E; lia].
Qed.

Lemma as_case_ok up h s hs chs : BG h -> RC h hs -> In s hs -> vin h s chs -> tight s chs -> 7 * Z.of_nat (length (enc chs)) < 2^30 ->
  exists h' s' cs, as_case up h s = Ok (h', s') /\ BG h' /\ vin h' s' cs /\ vtext s' cs = map (casec up) (vtext s chs) /\ tight s' cs.
Proof.
  intros G R IS V TS LB. unfold as_case.
  destruct (copy_val_ok h s hs chs G R V) as (h1 & t & c1 & EC & G1 & V1 & T1 & L1 & MN & LE & INC & SH). rewrite EC. cbn [obind].
  destruct (copy_val_rc _ _ _ _ _ R EC) as (R1 & _).
  assert (TT : tight t c1). { intros E. rewrite L1 in E. rewrite (TS E) in INC. destruct c1 as [|c c1]; [reflexivity|destruct (INC c (or_introl eq_refl))]. }
  assert (WH : whole t c1 \/ shared h1 t).
  { destruct (Z.eq_dec (v_len s) 0) as [E0|NE].
    - left. rewrite (TT ltac:(congruence)) in *. destruct V1 as (_ & A1 & A2 & A3 & _). cbn [length] in A3. split; cbn [length]; lia.
    - assert (0 <= v_len s) by apply V. destruct (SH IS ltac:(lia)) as [S|[O C]]; [right; exact S|left]. split; [exact O|]. rewrite L1, C. symmetry. eapply vtext_len. exact V. }
  assert (LB1 : 7 * Z.of_nat (length c1) < 2^30) by (destruct V1 as ((z & _ & BZ) & _); assert (X := enc_len_ge _ (proj1 BZ)); lia).
  destruct (to_case_ok up h1 t hs c1 G1 R1 V1 TT WH (or_introl MN) LB1) as (h' & s' & cs & E & G' & V' & T' & TI & _).
  exists h', s', cs. rewrite T', T1. auto.
Qed.

(** ** asUTF8 and indexing *)
Lemma incl_nil_r {A} (l : list A) : incl l [] -> l = [].
Proof. destruct l as [|a l]; [reflexivity|]. intros I. destruct (I a (or_introl eq_refl)). Qed.

Lemma as_utf8_ok h s hs chs : BG h -> RC h (s :: hs) -> vin h s chs -> tight s chs ->
  exists h' s' cs p, as_utf8 h s = Ok (h', s', Z.of_nat p) /\ BG h' /\ vin h' s' cs /\ vtext s' cs = vtext s chs /\ tight s' cs /\
    sv_mem h' s' = Ok (enc cs ++ [0]) /\ skipn p (enc cs ++ [0]) = enc (vtext s chs) ++ [0].
Proof.
  intros G R V TS. assert (V0 := V). destruct V0 as ((x & SX & BX) & O & L & OL & M). unfold as_utf8. rewrite SX. cbn [obind].
  destruct (num_chars_vin h _ x chs G SX BX) as (y & -> & G1 & S1). cbn [obind fst snd]. cbv zeta. assert (SM := bchars_small _ _ BX).
  replace (u32 (v_off s + v_len s)) with (v_off s + v_len s) by (unfold u32; lia).
  assert (V1 := sim_vin _ _ _ _ G1 S1 V). assert (R1 := hsim_RC _ _ _ S1 R).
  assert (MID : exists h2 s2 cs, (if v_off s + v_len s <? Z.of_nat (length chs) then copy_body (sput h (v_body s) y) s else Ok (sput h (v_body s) y, s)) = Ok (h2, s2) /\
     BG h2 /\ vin h2 s2 cs /\ vtext s2 cs = vtext s chs /\ tight s2 cs /\ v_off s2 + v_len s2 = Z.of_nat (length cs)).
  { destruct (Z.ltb_spec (v_off s + v_len s) (Z.of_nat (length chs))).
    - destruct (copy_body_ok _ _ _ _ G1 R1 V1) as (h' & s' & cs & E & G' & V' & T' & O' & L' & B' & _ & LE & EQ & ML & MN & INC).
      exists h', s', cs. split; [exact E|]. split; [exact G'|]. split; [exact V'|]. split; [exact T'|].
      assert (0 < v_len s). { destruct (Z.eq_dec (v_len s) 0) as [E0|]; [|lia]. rewrite (TS E0) in *. cbn [length] in *. lia. }
      specialize (EQ ltac:(lia)). split; [intros E0; rewrite L' in E0; lia|]. rewrite O', L', EQ. symmetry. eapply vtext_len. exact V.
    - exists (sput h (v_body s) y), s, chs. split; [reflexivity|]. split; [exact G1|]. split; [exact V1|]. split; [reflexivity|]. split; [exact TS|]. lia. }
  destruct MID as (h2 & s2 & cs & -> & G2 & V2 & T2 & TI & EO). cbn [obind].
  assert (V2' := V2). destruct V2' as (_ & O2 & L2 & OL2 & _).
  destruct (nth_m_ok h2 s2 cs 0 G2 V2 ltac:(lia)) as (h3 & s3 & -> & G3 & S3 & V3 & E1 & E2 & E3 & _). cbn [obind fst snd].
  exists h3, s3, cs, (bpos cs (Z.to_nat (v_off s2 + 0))). split; [reflexivity|]. split; [exact G3|]. split; [exact V3|].
  split; [unfold vtext in *; rewrite E2, E3; exact T2|]. split; [unfold tight; rewrite E3; exact TI|]. split; [exact (sv_mem_ok _ _ _ V3)|].
  rewrite skipn_bpos, Z.add_0_r. f_equal. f_equal. rewrite <- T2. unfold vtext, l_slice. symmetry. apply firstn_all2. rewrite skipn_length. lia.
Qed.

Lemma sv_index_ok h s chs i : BG h -> vin h s chs -> -2^31 <= i < 2^31 ->
  exists h', sv_index h s i = Ok (h', if i =? v_len s then 0 else match nth_error (vtext s chs) (Z.to_nat i) with Some c => if i <? 0 then UCS4_NONE else c | None => UCS4_NONE end) /\
    BG h' /\ hsim h h'.
Proof.
  intros G V HI. assert (V0 := V). destruct V0 as ((x & SX & BX) & O & L & OL & M). assert (SM := bchars_small _ _ BX). unfold sv_index.
  destruct (Z.ltb_spec i 0).
  - assert (EU : u32 i = i + 2^32) by (unfold u32; lia). rewrite EU. destruct (Z.eqb_spec (i + 2^32) (v_len s)); [lia|]. destruct (Z.eqb_spec i (v_len s)); [lia|].
    unfold nth_c, sv_nth. destruct (Z.gtb_spec (i + 2^32) (v_len s)); [|lia]. cbn [obind fst snd]. exists h. split; [destruct (nth_error _ _); reflexivity|]. split; [exact G|apply hsim_refl].
  - replace (u32 i) with i by (unfold u32; lia). destruct (Z.eqb_spec i (v_len s)); [exists h; split; [reflexivity|split; [exact G|apply hsim_refl]]|].
    assert (TL := vtext_len _ _ _ V). destruct (Z.le_gt_cases i (v_len s)).
    + destruct (nth_c_ok h s chs i G V ltac:(lia)) as (h1 & -> & G1 & S1 & V1). cbn [obind fst snd]. rewrite (sv_mem_ok _ _ _ V1). cbn [obind].
      destruct (Z.ltb_spec (Z.of_nat (bpos chs (Z.to_nat (v_off s + i)))) 0); [lia|]. rewrite Nat2Z.id.
      destruct (nth_some_lt (vtext s chs) (Z.to_nat i) ltac:(lia)) as [c Hc]. rewrite Hc.
      assert (HC : nth_error chs (Z.to_nat (v_off s + i)) = Some c).
      { unfold vtext, l_slice in Hc. rewrite nth_firstn, nth_skipn in Hc. destruct (Nat.ltb_spec (Z.to_nat i) (Z.to_nat (v_len s))); [|discriminate].
        rewrite <- Hc. f_equal. lia. }
      rewrite (skipn_at _ _ _ _ HC), get_good; [|assert (GC := proj1 BX); rewrite Forall_forall in GC; apply GC; eapply nth_error_In; exact HC].
      cbn [obind fst]. exists h1. auto.
    + unfold nth_c, sv_nth. destruct (Z.gtb_spec i (v_len s)); [|lia]. cbn [obind fst snd].
      assert (N : nth_error (vtext s chs) (Z.to_nat i) = None) by (apply nth_error_None; lia). rewrite N. exists h. split; [reflexivity|]. split; [exact G|apply hsim_refl].
Qed.
