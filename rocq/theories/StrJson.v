(** toJSON and asJSON compute [flat_map json_of] on texts. *)
From Verif Require Import Base RefModel RefProofs UTF8Model UTF8Spec UTF8Proofs UTF16Model UTF16Proofs ArrayModel ArraySpec ArrayProofs StrModel StrSpec StrHeap StrState StrText StrOps StrEdit StrMore.
Ltac Zify.zify_post_hook ::= Z.div_mod_to_equations.

Section Replace.
Variables (f : Z -> outcome (list Z)) (g : Z -> list Z) (P : Z -> Prop).
Hypothesis FG : forall c, good c -> P c -> f c = Ok (enc (g c)) /\ Forall good (g c) /\ g c <> [] /\ (length (enc (g c)) <= 12)%nat.

Lemma g_len c : good c -> P c -> (1 <= length (g c) <= 12)%nat /\ (1 <= length (enc (g c)) <= 12)%nat.
Proof. intros G H. destruct (FG c G H) as (_ & GG & NE & L). assert (X := enc_len_ge _ GG). destruct (g c); [congruence|]. cbn [length] in *. lia. Qed.
Lemma replace_good l : Forall good l -> Forall P l -> Forall good (flat_map g l).
Proof.
  induction 1 as [|c l G _ IH]; intros H; [constructor|]. inversion H; subst. cbn [flat_map]. apply Forall_app. split; [apply (FG c); assumption|apply IH; assumption].
Qed.
Lemma replace_len l : Forall good l -> Forall P l -> (length l <= length (flat_map g l) <= 12 * length l)%nat /\ (length (enc (flat_map g l)) <= 12 * length l)%nat.
Proof.
  induction 1 as [|c l G _ IH]; intros H; [cbn; lia|]. inversion H; subst. cbn [flat_map length]. rewrite enc_app, !app_length. destruct (g_len c G) as [A B]; [assumption|]. specialize (IH ltac:(assumption)). lia.
Qed.
Lemma replace_loop l : Forall good l -> Forall P l -> forall fuel pre a done n,
  (length l <= fuel)%nat -> Forall good pre -> Forall good done -> valid a (enc done) -> b_static a = false -> b_refs a <= 1 ->
  n = Z.of_nat (length done) -> Z.of_nat (length done + 24 * length l + length (enc done)) < 2^31 ->
  exists a', transform_loop fuel (enc pre ++ enc l ++ [0]) (length (enc pre)) (length (enc pre) + length (enc l)) f a n
     = Ok (a', Z.of_nat (length (done ++ flat_map g l))) /\ valid a' (enc (done ++ flat_map g l)) /\ b_static a' = false /\ b_refs a' = b_refs a.
Proof.
  induction 1 as [|c l G GL IH]; intros HP fuel pre a done n HF GP GD VA ST RF EN LB.
  - exists a. rewrite enc_nil. cbn [length flat_map app]. rewrite app_nil_r, !Nat.add_0_r, <- EN. split; [|auto].
    destruct fuel; cbn [transform_loop]; (destruct (Nat.ltb_spec (length (enc pre)) (length (enc pre))); [lia|reflexivity]).
  - inversion HP as [|? ? PC PL0]; subst. destruct fuel as [|fuel]; cbn [length] in HF; [lia|]. assert (PL := put_len_pos _ G). cbn [transform_loop].
    assert (EL : length (enc (c :: l)) = (length (UTF8Put c) + length (enc l))%nat) by (rewrite enc_cons, app_length; reflexivity).
    destruct (Nat.ltb_spec (length (enc pre)) (length (enc pre) + length (enc (c :: l)))); [|lia].
    set (m := enc pre ++ enc (c :: l) ++ [0]).
    assert (SK : skipn (length (enc pre)) m = UTF8Put c ++ enc l ++ [0]).
    { unfold m. rewrite skipn_app, skipn_all2, Nat.sub_diag by lia. cbn [skipn app]. rewrite enc_cons, <- app_assoc. reflexivity. }
    destruct (FG c G PC) as (EF & GG & NE & _). destruct (g_len c G PC) as [GL1 GL2].
    rewrite SK, get_good by exact G. cbn [obind fst snd]. rewrite EF. cbn [obind].
    assert (CL := count_loop_spec (g c) GG (length (enc (g c))) [] [] 0 (enc_len_ge _ GG) ltac:(lia) ltac:(lia)).
    cbn [app length Nat.add] in CL. rewrite CL. cbn [obind].
    rewrite (skip_one m _ _ (length (UTF8Put c))); [|lia|rewrite SK; apply lenptr_good; exact G|reflexivity|unfold m; rewrite !app_length; cbn [length]; lia]. cbn [obind].
    cbn [length] in LB. assert (NA : b_num a = Z.of_nat (length (enc done))) by apply VA.
    destruct (body_append a (enc done) (enc (g c)) VA ST RF) as (a1 & -> & VA1 & ST1 & RF1).
    { intros E. rewrite E in GL2. cbn in GL2. lia. }
    { lia. }
    cbn [obind]. rewrite <- enc_app in VA1.
    assert (EP : enc (pre ++ [c]) = enc pre ++ UTF8Put c) by (rewrite enc_app, enc_cons, enc_nil, app_nil_r; reflexivity).
    destruct (IH PL0 fuel (pre ++ [c]) a1 (done ++ g c) (u32 (Z.of_nat (length done) + (0 + Z.of_nat (length (g c)))))) as (a2 & E2 & VA2 & ST2 & RF2).
    + lia.
    + apply Forall_app. split; [exact GP|constructor; [exact G|constructor]].
    + apply Forall_app. split; [exact GD|exact GG].
    + exact VA1.
    + exact ST1.
    + lia.
    + rewrite app_length. unfold u32. lia.
    + rewrite enc_app, !app_length. lia.
    + exists a2. cbn [flat_map]. split; [|split; [|split; [exact ST2|lia]]].
      * rewrite EP, app_length in E2. unfold m. rewrite EL. rewrite enc_cons, <- app_assoc.
        rewrite <- app_assoc in E2. cbn [app] in E2. rewrite <- Nat.add_assoc in E2. rewrite <- app_assoc in E2. exact E2.
      * rewrite <- app_assoc in VA2. exact VA2.
Qed.
Lemma replace_ok x cs : bchars x cs -> Forall P cs -> b_static (sb_arr x) = false -> b_refs (sb_arr x) <= 1 -> 24 * Z.of_nat (length cs) < 2^30 ->
  exists y, transform x f = Ok y /\ bchars y (flat_map g cs) /\ b_static (sb_arr y) = false /\ b_refs (sb_arr y) = b_refs (sb_arr x).
Proof.
  intros B HP ST RF LB. assert (NU := bchars_num _ _ B). assert (SMM := bchars_smem _ _ B). assert (GC := proj1 B). assert (LC := proj2 (proj2 (proj2 B))).
  unfold transform, cassert. destruct (Z.leb_spec (b_refs (sb_arr x)) 1); [|lia]. rewrite SMM. cbn [obind]. rewrite ST.
  set (e := {| b_data := []; b_num := 0; b_alloc := 0; b_refs := b_refs (sb_arr x); b_static := false |}).
  assert (VE : valid e []). { split; [intros j a Ha; destruct j; discriminate|]. cbn. repeat split; lia. }
  destruct (resize_ok e [] (b_num (sb_arr x) + 6) VE eq_refl ltac:(cbn [b_num e]; lia) ltac:(lia)) as (a0 & mv & ER & _). rewrite ER. cbn [obind fst].
  destruct (resize_spec e [] _ a0 mv VE eq_refl ER) as (V0 & N0 & RF0 & ST0). cbn [b_refs b_static e] in RF0, ST0.
  destruct (replace_loop cs GC HP (length (enc cs ++ [0])) [] a0 [] 0) as (a1 & E1 & V1 & ST1 & RF1).
  - rewrite app_length. cbn [length]. assert (X := enc_len_ge _ GC). lia.
  - constructor.
  - constructor.
  - exact V0.
  - exact ST0.
  - lia.
  - reflexivity.
  - cbn. lia.
  - rewrite enc_nil in E1. cbn [app length Nat.add] in E1. rewrite app_length. cbn [length]. rewrite app_length in E1. cbn [length] in E1.
    replace (length (enc cs) + 1 - 1)%nat with (length (enc cs)) by lia. rewrite E1. cbn [obind fst snd].
    cbn [app] in V1. destruct (replace_len cs GC HP) as [ML1 ML2]. assert (NA : b_num a1 = Z.of_nat (length (enc (flat_map g cs)))) by apply V1.
    destruct (body_append a1 _ [0] V1 ST1 ltac:(lia) ltac:(discriminate) ltac:(cbn [length]; lia)) as (a2 & E2 & V2 & ST2 & RF2).
    cbn [length Z.of_nat Pos.of_succ_nat] in E2. rewrite E2. cbn [obind]. eexists. split; [reflexivity|]. cbn [sb_arr]. split; [|split; [exact ST2|lia]].
    split; [apply replace_good; assumption|]. cbn [sb_arr sb_n]. split; [exact V2|]. split; [right; reflexivity|]. lia.
Qed.
End Replace.

(** *** The character function *)
Lemma low_ascii b : 0 <= b < 128 -> UTF8Put b = [b].
Proof.
  intros H. assert (A : forallb (fun b => match UTF8Put b with [x] => x =? b | _ => false end) (map Z.of_nat (List.seq 0 128)) = true) by (vm_compute; reflexivity).
  rewrite forallb_forall in A. specialize (A b ltac:(apply in_map_iff; exists (Z.to_nat b); split; [lia|apply in_seq; lia])). destruct (UTF8Put b) as [|x [|y q]]; try discriminate. apply Z.eqb_eq in A. congruence.
Qed.
Lemma low_enc l : Forall (fun b => 0 <= b < 128) l -> enc l = l.
Proof. induction 1 as [|b l H _ IH]; [reflexivity|]. rewrite enc_cons, low_ascii, IH by exact H. reflexivity. Qed.
Lemma low_good l : Forall (fun b => 0 <= b < 128) l -> Forall good l.
Proof. apply Forall_impl. intros b H. unfold good, ucs4, replacement. lia. Qed.
Lemma nibble u k : 0 <= u -> 0 <= k -> Z.land (Z.shiftr u k) 15 = u / 2^k mod 16.
Proof. intros U K. rewrite Z.shiftr_div_pow2 by exact K. change 15 with (Z.ones 4). rewrite Z.land_ones by lia. reflexivity. Qed.
Lemma hex_digit_char d : 0 <= d < 16 -> hex_digit d = hex_char d /\ 0 <= hex_char d < 128.
Proof.
  intros H. assert (A : forallb (fun d => (hex_digit d =? hex_char d) && (0 <=? hex_char d) && (hex_char d <? 128)) (map Z.of_nat (List.seq 0 16)) = true) by (vm_compute; reflexivity).
  rewrite forallb_forall in A. specialize (A d ltac:(apply in_map_iff; exists (Z.to_nat d); split; [lia|apply in_seq; lia])). lia.
Qed.
Lemma u4_hex4 u : 0 <= u -> u4 u = hex4 u /\ Forall (fun b => 0 <= b < 128) (hex4 u).
Proof.
  intros U. unfold u4, hex4. rewrite !nibble by lia. replace (Z.land u 15) with (u mod 16) by (change 15 with (Z.ones 4); rewrite Z.land_ones by lia; reflexivity).
  change (2^12) with 4096. change (2^8) with 256. change (2^4) with 16.
  destruct (hex_digit_char (u / 4096 mod 16) ltac:(lia)) as [-> ?]. destruct (hex_digit_char (u / 256 mod 16) ltac:(lia)) as [-> ?]. destruct (hex_digit_char (u / 16 mod 16) ltac:(lia)) as [-> ?]. destruct (hex_digit_char (u mod 16) ltac:(lia)) as [-> ?].
  split; [reflexivity|]. repeat constructor; lia.
Qed.
Definition small_char (c : Z) : Prop := c <= 0xFFFFF.
Lemma json_bytes_ok c : good c -> small_char c -> json_bytes c = Ok (enc (json_of c)) /\ Forall good (json_of c) /\ json_of c <> [] /\ (length (enc (json_of c)) <= 12)%nat.
Proof.
  intros G SC. unfold small_char in SC. assert (C0 : 0 <= c) by (destruct G as [[? _] _]; lia).
  assert (LOW : forall l, Forall (fun b => 0 <= b < 128) l -> l <> [] -> (length l <= 12)%nat -> Ok l = Ok (enc l) /\ Forall good l /\ l <> [] /\ (length (enc l) <= 12)%nat).
  { intros l F N L. rewrite (low_enc l F). split; [reflexivity|]. split; [apply low_good; exact F|]. auto. }
  unfold json_bytes, json_of, short_escapes. cbn [List.find fst snd]. rewrite (Z.eqb_sym 0), (Z.eqb_sym 34), (Z.eqb_sym 92), (Z.eqb_sym 47), (Z.eqb_sym 8), (Z.eqb_sym 12), (Z.eqb_sym 10), (Z.eqb_sym 13), (Z.eqb_sym 9).
  repeat match goal with |- context [if c =? ?k then _ else _] => destruct (c =? k); [apply LOW; [repeat (apply Forall_cons; [cbn [snd]; lia|]); apply Forall_nil|discriminate|cbn; lia]|] end.
  cbn [fst snd]. destruct (Z.ltb_spec 0xFFFF c) as [B|B].
  - replace (c <=? 0xFFFF) with false by lia. rewrite andb_false_r. cbn [andb]. unfold cassert. replace (c <=? 0xFFFFF) with true by lia.
    replace (Z.land (Z.shiftr c 10) 1023) with (c / 1024 mod 1024) by (change 1023 with (Z.ones 10); rewrite Z.land_ones, Z.shiftr_div_pow2 by lia; reflexivity).
    replace (Z.land c 1023) with (c mod 1024) by (change 1023 with (Z.ones 10); rewrite Z.land_ones by lia; reflexivity).
    destruct (u4_hex4 (0xD800 + c / 1024 mod 1024) ltac:(lia)) as [-> F1]. destruct (u4_hex4 (0xDC00 + c mod 1024) ltac:(lia)) as [-> F2].
    apply LOW; [apply Forall_app; split; assumption|discriminate|cbn; lia].
  - replace (c <=? 0xFFFF) with true by lia. rewrite (surrogate_spec c ltac:(unfold is_u16; lia)).
    destruct ((0xD800 <=? c) && (c <=? 0xDFFF)) eqn:S; cbn [negb].
    + rewrite andb_false_r, orb_true_r. destruct (u4_hex4 c C0) as [-> F1]. apply LOW; [exact F1|discriminate|cbn; lia].
    + rewrite orb_false_r. destruct (Z.ltb_spec c 32).
      * replace (c >=? 32) with false by lia. cbn [andb]. destruct (u4_hex4 c C0) as [-> F1]. apply LOW; [exact F1|discriminate|cbn; lia].
      * replace (c >=? 32) with true by lia. cbn [andb]. rewrite enc_cons, enc_nil, app_nil_r. split; [reflexivity|]. split; [constructor; [exact G|constructor]|]. split; [discriminate|]. assert (X := put_len_pos _ G). lia.
Qed.
Lemma json_ascii c : good c -> c < 128 -> Forall (fun b => b < 128) (json_of c).
Proof.
  intros [[C0 _] _] H. assert (A : forallb (fun c => forallb (fun b => b <? 128) (json_of c)) (map Z.of_nat (List.seq 0 128)) = true) by (vm_compute; reflexivity).
  rewrite forallb_forall in A. specialize (A c ltac:(apply in_map_iff; exists (Z.to_nat c); split; [lia|apply in_seq; lia])). rewrite forallb_forall in A. apply Forall_forall. intros b Hb. apply Z.ltb_lt. apply A. exact Hb.
Qed.

Lemma to_json_ok h s hs chs : BG h -> RC h (s :: hs) -> vin h s chs -> tight s chs -> whole s chs \/ shared h s -> mark_none s \/ ascii chs ->
  Forall small_char (vtext s chs) -> 24 * Z.of_nat (length chs) < 2^30 ->
  exists h' s' cs, to_json h s = Ok (h', s') /\ BG h' /\ vin h' s' cs /\ vtext s' cs = flat_map json_of (vtext s chs) /\ tight s' cs /\ whole s' cs.
Proof.
  intros G R V TS WH MK SM LB. unfold to_json.
  destruct (unshare_ok h s hs chs G R V) as (h1 & s1 & cs & EU & G1 & V1 & T1 & L1 & X1 & LE & INC & ML1 & MN & C1). rewrite EU. cbn [obind].
  assert (W1 : whole s1 cs /\ cs = vtext s chs).
  { destruct C1 as [(NS & -> & ->)|[C1 C2]].
    - destruct WH as [WH|WH]; [|contradiction]. split; [exact WH|]. symmetry. apply whole_text. exact WH.
    - destruct (Z.eq_dec (v_len s) 0) as [E0|NE].
      + specialize (TS E0). subst chs. assert (cs = []) by (destruct cs as [|c cs]; [reflexivity|destruct (INC c (or_introl eq_refl))]). subst cs.
        split; [split; [exact C1|rewrite L1, E0; reflexivity]|]. unfold vtext, l_slice. rewrite skipn_nil, firstn_nil. reflexivity.
      + assert (0 <= v_len s) by apply V. specialize (C2 ltac:(lia)). split; [|exact C2]. split; [exact C1|]. rewrite L1, C2. symmetry. eapply vtext_len. exact V. }
  destruct W1 as [[O1 LL1] EC]. destruct X1 as (x & SX & RF & ST). rewrite SX. cbn [obind].
  assert (VV := V1). destruct VV as ((x1 & SX1 & BX) & _ & _ & _ & M1). rewrite SX in SX1. injection SX1 as <-.
  assert (LEN : (length cs <= length chs)%nat).
  { assert (A := vtext_len _ _ _ V). rewrite <- EC in A. destruct V as (_ & A1 & A2 & A3 & _). lia. }
  rewrite <- EC in SM.
  destruct (replace_ok json_bytes json_of small_char json_bytes_ok x cs BX SM ST RF ltac:(lia)) as (y & ET & BY & SY & RY). rewrite ET. cbn [obind].
  destruct (num_chars_spec y _ BY) as (z & EZ & EA & BZ & NZ). rewrite EZ. cbn [obind fst snd].
  destruct (replace_len json_bytes json_of small_char json_bytes_ok cs (proj1 BX) SM) as [[LF _] _].
  do 2 eexists. exists (flat_map json_of cs). split; [reflexivity|].
  split; [eapply BG_sput; [exact G1|exact SX|exact BZ|rewrite EA, SY; discriminate]|].
  match goal with |- vin _ ?t _ /\ _ => set (s' := t) end.
  assert (W' : whole s' (flat_map json_of cs)) by (split; [exact O1|reflexivity]).
  split; [|split; [rewrite (whole_text _ _ W'), EC; reflexivity|split; [|exact W']]].
  - split; [exists z; cbn [v_body s']; rewrite (sget_sput _ _ _ _ _ SX), Nat.eqb_refl; auto|]. cbn [v_off v_len s']. rewrite O1. split; [lia|]. split; [lia|]. split; [lia|].
    unfold vmark. cbn [v_off v_len v_mk s'].
    destruct M1 as [M1|[(c & M1 & P & B)|M1]]; [left; exact M1| |right; right; rewrite O1 in *; exact M1].
    destruct MK as [MK|MK].
    + destruct (MN MK) as [Q|Q]; rewrite M1 in Q; cbn [fst] in Q; [lia|]. exfalso. assert (X := bchars_small _ _ BX). lia.
    + right. left. exists c. split; [|lia]. rewrite M1. f_equal. f_equal.
      assert (AC : ascii cs) by (unfold ascii in *; rewrite Forall_forall in *; intros d Hd; apply MK, INC, Hd).
      rewrite (bpos_ascii cs c (proj1 BX) AC) by lia. rewrite bpos_ascii; [reflexivity|apply BY| |lia].
      unfold ascii in *. rewrite Forall_forall in *. intros d Hd. apply in_flat_map in Hd as (e & He & Hd).
      assert (GC := proj1 BX). rewrite Forall_forall in GC. assert (J := json_ascii e (GC e He) (AC e He)). rewrite Forall_forall in J. apply J. exact Hd.
  - intros E. cbn [v_len s'] in E. destruct (flat_map json_of cs); [reflexivity|cbn [length] in E; lia].
Qed.
Lemma as_json_ok h s hs chs : BG h -> RC h hs -> In s hs -> vin h s chs -> tight s chs -> Forall small_char (vtext s chs) -> 24 * Z.of_nat (length (enc chs)) < 2^30 ->
  exists h' s' cs, as_json h s = Ok (h', s') /\ BG h' /\ vin h' s' cs /\ vtext s' cs = flat_map json_of (vtext s chs) /\ tight s' cs.
Proof.
  intros G R IS V TS SM LB. unfold as_json.
  destruct (copy_val_ok h s hs chs G R V) as (h1 & t & c1 & EC & G1 & V1 & T1 & L1 & MN & LE & INC & SH). rewrite EC. cbn [obind].
  destruct (copy_val_rc _ _ _ _ _ R EC) as (R1 & _).
  assert (TT : tight t c1). { intros E. rewrite L1 in E. rewrite (TS E) in INC. destruct c1 as [|c c1]; [reflexivity|destruct (INC c (or_introl eq_refl))]. }
  assert (WH : whole t c1 \/ shared h1 t).
  { destruct (Z.eq_dec (v_len s) 0) as [E0|NE].
    - left. rewrite (TT ltac:(congruence)) in *. destruct V1 as (_ & A1 & A2 & A3 & _). cbn [length] in A3. split; cbn [length]; lia.
    - assert (0 <= v_len s) by apply V. destruct (SH IS ltac:(lia)) as [S|[O C]]; [right; exact S|left]. split; [exact O|]. rewrite L1, C. symmetry. eapply vtext_len. exact V. }
  assert (LB1 : 24 * Z.of_nat (length c1) < 2^30) by (destruct V1 as ((z & _ & BZ) & _); assert (X := enc_len_ge _ (proj1 BZ)); lia).
  rewrite <- T1 in SM. destruct (to_json_ok h1 t hs c1 G1 R1 V1 TT WH (or_introl MN) SM LB1) as (h' & s' & cs & E & G' & V' & T' & TI & _).
  exists h', s', cs. rewrite T', T1. auto.
Qed.
