(** Programs on StrRawBinary strings compute on lists of bytes. *)
From Verif Require Import Base RefModel RefProofs ArrayModel ArraySpec ArrayProofs ArrayRead StrModel StrSpec StrHeap StrState StrFindModel RawModel RawSpec.
From Verif Require StrEdit UTF8Proofs StrOps StrInv ArrayOps ArrayHeap.
From Coq Require Import Permutation.
Ltac Zify.zify_post_hook ::= Z.div_mod_to_equations.
Implicit Types (h : sheap) (s t w : sval) (hs : list sval) (x y : sbody) (bs cs : list Z).

Definition nraw bs : Z := match bs with [] => 0 | _ => marker end.
Definition braw x bs : Prop :=
  valid (sb_arr x) (bs ++ [0]) /\ Z.of_nat (length bs) < 2^30 /\ Forall (fun b => 0 <= b < 256) bs /\ sb_n x = nraw bs /\
  (bs <> [] -> b_static (sb_arr x) = false).
Definition RG h : Prop := forall b x, sget h b = Ok x -> exists bs, braw x bs.
(** String [s] is on the body of bytes [bs], which is empty if [s] is. *)
Definition rin h s bs : Prop :=
  (exists x, sget h (v_body s) = Ok x /\ braw x bs) /\ 0 <= v_off s /\ 0 <= v_len s /\ v_off s + v_len s <= Z.of_nat (length bs) /\
  (v_len s = 0 -> bs = []).
Definition rbytes s bs : list Z := l_slice bs (Z.to_nat (v_off s)) (Z.to_nat (v_len s)).

Lemma braw_num x bs : braw x bs -> b_num (sb_arr x) = Z.of_nat (length bs) + 1.
Proof. intros ((_ & E & _) & _). rewrite E, app_length. cbn [length]. lia. Qed.
Lemma braw_smem x bs : braw x bs -> smem x = Ok (bs ++ [0]).
Proof.
  intros H. assert (N := braw_num _ _ H). destruct H as (V & _). unfold smem. rewrite N.
  assert (E := ArrayHeap.valid_cells (sb_arr x) _ 0 (length bs + 1) V). cbn [skipn plus] in E. rewrite app_length in E. cbn [length] in E.
  replace (Z.to_nat (Z.of_nat (length bs) + 1)) with (length bs + 1)%nat by lia. rewrite E by lia.
  rewrite firstn_all2 by (rewrite app_length; cbn [length]; lia). rewrite ArrayHeap.all_some_map. reflexivity.
Qed.
Lemma braw_raw x bs : braw x bs -> is_raw x = match bs with [] => false | _ => true end.
Proof. intros (_ & _ & _ & E & _). unfold is_raw. rewrite E. destruct bs; reflexivity. Qed.
Lemma braw_bits x y bs cs : bits (sb_arr x) = bits (sb_arr y) -> braw x bs -> braw y cs -> bs = cs.
Proof.
  intros E (V & _) (W & _). unfold bits in E.
  assert (D : b_data (sb_arr x) = b_data (sb_arr y)) by congruence. assert (N : b_num (sb_arr x) = b_num (sb_arr y)) by congruence.
  assert (X : bs ++ [0] = cs ++ [0]).
  { apply (StrOps.valid_fun (sb_arr x)); [exact V|]. destruct V as (_ & _ & V3 & V4 & V5), W as (W1 & W2 & _). split; [rewrite D; exact W1|]. split; [congruence|]. split; [exact V3|]. split; [exact V4|exact V5]. }
  apply app_inj_tail in X. tauto.
Qed.
Lemma braw_refs x n bs : braw x bs -> braw (with_refs x n) bs.
Proof. intros (V & H). split; [exact V|exact H]. Qed.
Lemma braw_shared_static x bs : braw x bs -> is_static x = true -> bs = [].
Proof.
  intros (V & _ & _ & _ & S) H. destruct bs as [|b bs]; [reflexivity|exfalso]. specialize (S ltac:(discriminate)).
  destruct V as (V1 & V2 & _ & V4 & _). specialize (V4 S). apply agree_len in V1. rewrite app_length in V1. cbn [length] in V1. unfold is_static in H. lia.
Qed.

Lemma RG_sput h b x y bs : RG h -> sget h b = Ok x -> braw y bs -> RG (sput h b y).
Proof.
  intros G S B c z. rewrite (StrOps.sget_sput _ _ _ _ _ S). destruct (Nat.eqb c b); [|apply G]. intros E. injection E as <-. eauto.
Qed.
Lemma RG_app h y bs : RG h -> braw y bs -> RG (h ++ [Some y]).
Proof. intros G B c z. rewrite StrOps.sget_app. destruct (Nat.eqb c (length h)); [|apply G]. intros E. injection E as <-. eauto. Qed.
Lemma RG_none h b : RG h -> RG (upd h b None).
Proof.
  intros G c z. rewrite !sget_ok. rewrite nth_upd. destruct (Nat.eqb c b && _); [discriminate|]. rewrite <- sget_ok. apply G.
Qed.
Lemma raddref_ok h b x : RG h -> sget h b = Ok x -> exists h', saddref h b = Ok h' /\ RG h' /\ sget h' b = Ok (with_refs x (b_refs (sb_arr x) + 1)).
Proof.
  intros G S. unfold saddref. rewrite S. cbn [obind]. eexists. split; [reflexivity|]. destruct (G _ _ S) as [bs B]. split; [eapply RG_sput; [exact G|exact S|apply braw_refs; exact B]|].
  rewrite (StrOps.sget_sput _ _ _ _ _ S), Nat.eqb_refl. reflexivity.
Qed.
Lemma rrelease_ok h s hs : RG h -> RC h (s :: hs) -> exists h', srelease h (v_body s) = Ok h' /\ RG h'.
Proof.
  intros G [A B]. inversion B as [|? ? [a Ha] _]; subst. destruct (arr_sget _ _ _ Ha) as (x & S & <-). destruct (A _ _ Ha) as [_ P].
  unfold srelease. rewrite S. cbn [obind]. unfold cassert. destruct (Z.gtb_spec (b_refs (sb_arr x)) 0); [|lia].
  destruct (G _ _ S) as [bs C]. destruct (_ =? 0); (eexists; split; [reflexivity|]).
  - apply RG_none. exact G.
  - eapply RG_sput; [exact G|exact S|apply braw_refs; exact C].
Qed.
Lemma keep_rin h h' s bs : RG h' -> obits h' (v_body s) = obits h (v_body s) -> rin h s bs -> rin h' s bs.
Proof.
  intros G E ((x & S & B) & H). split; [|exact H]. unfold obits in E. rewrite (sget_arr _ _ _ S) in E. cbn [option_map] in E.
  destruct (arr h' (v_body s)) as [a|] eqn:EA; [|discriminate]. destruct (arr_sget _ _ _ EA) as (y & SY & <-). exists y. split; [exact SY|].
  destruct (G _ _ SY) as [cs C]. cbn [option_map] in E. assert (EB : bits (sb_arr y) = bits (sb_arr x)) by congruence. rewrite <- (braw_bits _ _ _ _ EB C B). exact C.
Qed.
Lemma keep_rin_in h h' hs s bs : RG h' -> keep h h' hs -> In s hs -> rin h s bs -> rin h' s bs.
Proof. intros G K I. apply keep_rin; [exact G|]. unfold keep in K. rewrite Forall_forall in K. apply K. exact I. Qed.

(** ** Reading *)
Lemma upd_same {A} (l : list A) k a : nth_error l k = Some a -> upd l k a = l.
Proof. revert k. induction l as [|b l IH]; intros [|k] E; cbn in *; try discriminate; [congruence|f_equal; auto]. Qed.
Lemma sput_same h b x : sget h b = Ok x -> sput h b x = h.
Proof. intros S. apply sget_ok in S. unfold sput. apply upd_same. exact S. Qed.
Lemma rin_small h s bs : rin h s bs -> Z.of_nat (length bs) < 2^30.
Proof. intros ((x & _ & B) & _). apply B. Qed.
Lemma r_nth_ok h s bs i : rin h s bs -> 0 <= i <= v_len s -> r_sv_nth h s i = Ok (h, v_mk s, Some (v_off s + i)).
Proof.
  intros V Hi. assert (SM := rin_small _ _ _ V). destruct V as ((x & S & B) & O & L & OL & T0). unfold r_sv_nth.
  destruct (Z.gtb_spec i (v_len s)); [lia|]. rewrite S. cbn [obind]. replace (u32 (v_off s + i)) with (v_off s + i) by (unfold u32; lia).
  unfold r_nth_char. rewrite (braw_raw _ _ B). destruct bs as [|b bs].
  - cbn [length] in OL. replace (v_off s + i) with 0 by lia. unfold nth_char. cbn [Z.eqb orb obind fst snd]. rewrite (sput_same _ _ _ S). reflexivity.
  - cbn [obind fst snd]. rewrite (sput_same _ _ _ S). reflexivity.
Qed.
Lemma r_nth_c_ok h s bs i : rin h s bs -> 0 <= i <= v_len s -> r_nth_c h s i = Ok (h, Some (v_off s + i)).
Proof. intros V Hi. unfold r_nth_c. rewrite (r_nth_ok _ _ _ _ V Hi). reflexivity. Qed.
Lemma sval_eta s : {| v_body := v_body s; v_off := v_off s; v_len := v_len s; v_mk := v_mk s |} = s.
Proof. destruct s. reflexivity. Qed.
Lemma r_nth_m_ok h s bs i : rin h s bs -> 0 <= i <= v_len s -> r_nth_m h s i = Ok (h, s, Some (v_off s + i)).
Proof. intros V Hi. unfold r_nth_m. rewrite (r_nth_ok _ _ _ _ V Hi). cbn [obind fst snd]. rewrite sval_eta. reflexivity. Qed.
Lemma r_num_bytes_ok h s bs : rin h s bs -> r_num_bytes h s = Ok (h, v_len s).
Proof.
  intros V. assert (SM := rin_small _ _ _ V). assert (V0 := V). destruct V0 as (_ & O & L & OL & _). unfold r_num_bytes. rewrite (r_nth_c_ok _ _ _ _ V) by lia. cbn [obind fst snd].
  rewrite (r_nth_c_ok _ _ _ _ V) by lia. cbn [obind fst snd]. do 2 f_equal. unfold u32. lia.
Qed.
Lemma r_num_ok x bs : braw x bs -> r_num x = Ok (x, Z.of_nat (length bs)).
Proof.
  intros B. unfold r_num. rewrite (braw_raw _ _ B). assert (N := braw_num _ _ B). destruct bs as [|b bs].
  - unfold num_chars. assert (SN : sb_n x = 0) by apply B. rewrite SN. change (0 =? 0) with true. cbv iota. rewrite (braw_smem _ _ B).
    cbn -[u32 sb_n sb_arr]. rewrite <- SN. destruct x. reflexivity.
  - rewrite N. do 2 f_equal. destruct B as (_ & B & _). unfold u32. lia.
Qed.
Lemma rbytes_len h s bs : rin h s bs -> Z.of_nat (length (rbytes s bs)) = v_len s.
Proof. intros (_ & O & L & OL & _). unfold rbytes. rewrite StrOps.slice_len by lia. lia. Qed.
Lemma rbytes_nth s bs i b : nth_error (rbytes s bs) i = Some b -> nth_error bs (Z.to_nat (v_off s) + i) = Some b /\ (i < Z.to_nat (v_len s))%nat.
Proof.
  unfold rbytes, l_slice. intros H. rewrite nth_firstn in H. destruct (Nat.ltb_spec i (Z.to_nat (v_len s))); [|discriminate].
  rewrite nth_skipn in H. auto.
Qed.
Lemma seen_char b : 0 <= b < 256 -> char_value b = seen b.
Proof. intros H. unfold char_value, seen, u32. destruct (Z.ltb_spec b 128); lia. Qed.
Lemma nth_some_nil bs k b : nth_error bs k = Some b -> bs <> [].
Proof. intros H ->. destruct k; discriminate. Qed.
Lemma r_get_ok h s bs k b : rin h s bs -> nth_error bs k = Some b -> r_get h s (Z.of_nat k) = Ok (seen b).
Proof.
  intros ((x & S & B) & _) E. unfold r_get. rewrite S. cbn [obind]. rewrite (braw_smem _ _ B). cbn [obind]. destruct (Z.ltb_spec (Z.of_nat k) 0); [lia|].
  assert (NE := nth_some_nil _ _ _ E). rewrite (braw_raw _ _ B). destruct bs as [|b0 bs0] eqn:EB; [congruence|]. rewrite <- EB in *.
  assert (K := nth_lt _ _ _ E). rewrite (UTF8Proofs.rdZ_ok _ _ b) by (try lia; rewrite Nat2Z.id, nth_error_app1 by exact K; exact E). cbn [obind]. f_equal. apply seen_char.
  destruct B as (_ & _ & F & _). rewrite Forall_forall in F. apply F. eapply nth_error_In. exact E.
Qed.
Lemma r_index_ok h s bs i b : rin h s bs -> nth_error (rbytes s bs) i = Some b -> r_index h s (Z.of_nat i) = Ok (h, seen b).
Proof.
  intros V E. assert (SM := rin_small _ _ _ V). assert (V0 := V). destruct V0 as (_ & O & L & OL & _). apply rbytes_nth in E as [E LT].
  unfold r_index. replace (u32 (Z.of_nat i)) with (Z.of_nat i) by (unfold u32; lia). destruct (Z.eqb_spec (Z.of_nat i) (v_len s)); [lia|].
  rewrite (r_nth_c_ok _ _ _ _ V) by lia. cbn [obind fst snd]. replace (v_off s + Z.of_nat i) with (Z.of_nat (Z.to_nat (v_off s) + i)) by lia.
  rewrite (r_get_ok _ _ _ _ _ V E). reflexivity.
Qed.

(** ** New bodies *)
Lemma new_raw bs d tl al r : bs <> [] -> Z.of_nat (length bs) < 2^30 -> 0 <= al < 2^31 ->
  exists y, new_sbody (bs ++ d :: tl) (Z.of_nat (length bs)) al r = Ok y /\ valid (sb_arr y) (bs ++ [0]) /\ b_static (sb_arr y) = false /\ b_refs (sb_arr y) = r.
Proof.
  intros NE LB AL. unfold new_sbody. assert (0 < length bs)%nat by (destruct bs; [congruence|cbn; lia]).
  destruct (Z.eqb_spec (Z.of_nat (length bs)) 0); [lia|]. cbn [obind].
  assert (SS := StrOps.src_list (bs ++ d :: tl) (length bs + 1)). rewrite app_length in SS. cbn [length] in SS. specialize (SS ltac:(lia)).
  rewrite firstn_app, firstn_all2 in SS by lia. replace (length bs + 1 - length bs)%nat with 1%nat in SS by lia. cbn [firstn] in SS.
  assert (LS : length (bs ++ [d]) = (length bs + 1)%nat) by (rewrite app_length; reflexivity).
  replace (u32 (Z.of_nat (length bs) + 1)) with (Z.of_nat (length (bs ++ [d]))) by (unfold u32; lia).
  destruct (new_body_ok _ _ al SS ltac:(lia) ltac:(lia)) as [a EA]. rewrite EA. cbn [obind].
  destruct (new_body_spec _ _ _ _ SS ltac:(lia) EA) as ((V1 & V2 & V3 & V4 & V5) & RA & SA).
  unfold cell_wr. assert (AL2 := agree_len _ _ V1). rewrite LS in *.
  destruct ((0 <=? b_num a - 1) && (b_num a - 1 <? Z.of_nat (length (b_data a)))) eqn:CW; [|lia]. cbn [obind].
  eexists. split; [reflexivity|]. split; [|split; reflexivity]. cbn [sb_arr].
  split; [|cbn [b_num b_alloc b_static b_data]; rewrite app_length; cbn [length]; rewrite upd_length; split; [lia|split; [lia|split; [intros _; apply V4; exact SA|exact V5]]]].
  cbn [b_data]. intros j a' Ha. rewrite nth_upd. destruct (Nat.eqb_spec j (Z.to_nat (b_num a - 1))).
  - destruct (Nat.ltb_spec (Z.to_nat (b_num a - 1)) (length (b_data a))); [|lia]. cbn [andb]. subst j.
    rewrite nth_error_app2 in Ha by lia. replace (Z.to_nat (b_num a - 1) - length bs)%nat with 0%nat in Ha by lia. cbn in Ha. congruence.
  - cbn [andb]. apply V1. assert (J := nth_lt _ _ _ Ha). rewrite app_length in J. cbn [length] in J. rewrite nth_error_app1 in Ha by lia. rewrite nth_error_app1 by lia. exact Ha.
Qed.
Lemma new_raw0 bs tl r : Forall (fun b => b <> 0) bs -> Z.of_nat (length bs) < 2^30 ->
  exists y, new_sbody (bs ++ 0 :: tl) 0 0 r = Ok y /\ valid (sb_arr y) (bs ++ [0]) /\ b_static (sb_arr y) = false /\ b_refs (sb_arr y) = r /\ sb_n y = 0.
Proof.
  intros NZ LB. unfold new_sbody. cbn [Z.eqb]. rewrite StrOps.strlen_nz by exact NZ. cbn [obind].
  assert (SS := StrOps.src_list (bs ++ 0 :: tl) (length bs + 1)). rewrite app_length in SS. cbn [length] in SS. specialize (SS ltac:(lia)).
  rewrite firstn_app, firstn_all2 in SS by lia. replace (length bs + 1 - length bs)%nat with 1%nat in SS by lia. cbn [firstn] in SS.
  assert (LS : length (bs ++ [0]) = (length bs + 1)%nat) by (rewrite app_length; reflexivity).
  replace (u32 (Z.of_nat (length bs) + 1)) with (Z.of_nat (length (bs ++ [0]))) by (unfold u32; lia).
  destruct (new_body_ok _ _ 0 SS ltac:(lia) ltac:(lia)) as [a EA]. rewrite EA. cbn [obind].
  destruct (new_body_spec _ _ _ _ SS ltac:(lia) EA) as ((V1 & V2 & V3 & V4 & V5) & RA & SA).
  eexists. split; [reflexivity|]. split; [|split; [reflexivity|split; reflexivity]]. cbn [sb_arr].
  split; [exact V1|]. cbn [b_num b_alloc b_static b_data]. split; [exact V2|]. split; [exact V3|]. split; [intros _; apply V4; exact SA|exact V5].
Qed.

(** ** Copies *)
Definition lone h s : Prop := exists x, sget h (v_body s) = Ok x /\ b_refs (sb_arr x) <= 1 /\ b_static (sb_arr x) = false.
Lemma byte_slice bs o k : Forall (fun b => 0 <= b < 256) bs -> Forall (fun b => 0 <= b < 256) (l_slice bs o k).
Proof.
  intros F. rewrite Forall_forall in *. intros b Hb. apply F. exact (StrOps.slice_incl bs o k b Hb).
Qed.
Lemma r_copy_body_ok h s hs bs : RG h -> RC h (s :: hs) -> rin h s bs ->
  exists h' s', r_copy_body h s = Ok (h', s') /\ RG h' /\ rin h' s' (rbytes s bs) /\ v_off s' = 0 /\ v_len s' = v_len s /\
    RC h' (s' :: hs) /\ keep h h' hs /\ lone h' s'.
Proof.
  intros G R V. assert (SM := rin_small _ _ _ V). assert (RL := rbytes_len _ _ _ V). assert (V0 := V). destruct V0 as ((x & S & B) & O & L & OL & T0).
  unfold r_copy_body. cbv zeta. rewrite (r_nth_m_ok _ _ _ _ V) by lia. cbn [obind]. rewrite (r_nth_m_ok _ _ _ _ V) by lia. cbn [obind].
  rewrite S. cbn [obind]. rewrite (braw_smem _ _ B). cbn [obind]. rewrite Z.add_0_r. destruct (Z.ltb_spec (v_off s) 0); [lia|].
  replace (u32 (v_off s + v_len s - v_off s)) with (v_len s) by (unfold u32; lia).
  assert (NEW : exists y, r_new (is_raw x) (skipn (Z.to_nat (v_off s)) (bs ++ [0])) (v_len s) 1 = Ok y /\ braw y (rbytes s bs) /\ b_refs (sb_arr y) = 1 /\ b_static (sb_arr y) = false).
  { unfold r_new. rewrite (braw_raw _ _ B). destruct bs as [|b0 bs0] eqn:EB.
    - cbn [length] in OL. replace (v_off s) with 0 by lia. replace (v_len s) with 0 by lia.
      destruct (new_raw0 [] [] 1 (Forall_nil _) ltac:(cbn; lia)) as (y & E & W & ST & RF & N). cbn [app Z.to_nat skipn] in *. rewrite E. cbn [obind]. exists y. split; [reflexivity|].
      split; [|auto]. unfold rbytes. cbn [Z.to_nat]. unfold l_slice. rewrite skipn_nil, firstn_nil. split; [exact W|]. split; [cbn; lia|]. split; [constructor|]. split; [exact N|congruence].
    - rewrite <- EB in *. assert (LP : 0 < v_len s) by (destruct (Z.eq_dec (v_len s) 0) as [Z0|]; [specialize (T0 Z0); congruence|lia]).
      assert (DE : exists d tl, skipn (Z.to_nat (v_off s)) (bs ++ [0]) = rbytes s bs ++ d :: tl).
      { unfold rbytes, l_slice. rewrite skipn_app. replace (Z.to_nat (v_off s) - length bs)%nat with 0%nat by lia. cbn [skipn].
        assert (Q := firstn_skipn (Z.to_nat (v_len s)) (skipn (Z.to_nat (v_off s)) bs)). revert Q. generalize (skipn (Z.to_nat (v_off s)) bs). intros l Q.
        destruct (skipn (Z.to_nat (v_len s)) l) as [|d tl]; [exists 0, []|exists d, (tl ++ [0])]; rewrite <- Q at 1; [rewrite app_nil_r; reflexivity|]. rewrite <- app_assoc. reflexivity. }
      destruct DE as (d & tl & ->). rewrite <- RL.
      assert (NE : rbytes s bs <> []) by (intros E; rewrite E in RL; cbn in RL; lia).
      destruct (new_raw (rbytes s bs) d tl 0 1 NE ltac:(lia) ltac:(lia)) as (y & E & W & ST & RF). rewrite E. cbn [obind]. eexists. split; [reflexivity|]. cbn [sb_arr].
      split; [|auto]. split; [exact W|]. split; [lia|]. split; [apply byte_slice; apply B|]. split; [cbn [sb_n]; destruct (rbytes s bs); [congruence|reflexivity]|auto]. }
  destruct NEW as (y & -> & BY & YR & YS). cbn [obind].
  set (s' := {| v_body := length h; v_off := 0; v_len := v_len s; v_mk := _ |}).
  destruct (fresh_rc h (s :: hs) y s' R eq_refl) as [R3 K3]; [unfold stat; rewrite YR, YS; reflexivity|].
  assert (R4 : RC (h ++ [Some y]) (s :: s' :: hs)) by (eapply RC_perm; [apply perm_swap|exact R3]).
  assert (G3 : RG (h ++ [Some y])) by (eapply RG_app; eassumption).
  destruct (rrelease_ok _ _ _ G3 R4) as (h3 & E4 & G4). rewrite E4. cbn [obind].
  destruct (release_rc _ _ _ _ R4 E4) as (R5 & K5 & L5).
  exists h3, s'. split; [reflexivity|]. split; [exact G4|].
  assert (V3 : rin (h ++ [Some y]) s' (rbytes s bs)).
  { split; [exists y; split; [cbn [v_body s']; rewrite StrOps.sget_app, Nat.eqb_refl; reflexivity|exact BY]|]. cbn [v_off v_len s']. split; [lia|]. split; [exact L|]. split; [lia|].
    intros Z0. destruct (rbytes s bs); [reflexivity|cbn [length] in RL; lia]. }
  assert (V4 : rin h3 s' (rbytes s bs)) by (eapply keep_rin; [exact G4|exact (keep_hd _ _ _ _ K5)|exact V3]).
  split; [exact V4|]. split; [reflexivity|]. split; [reflexivity|]. split; [exact R5|].
  split; [eapply keep_trans; [exact (keep_tl _ _ _ _ K3)|exact (keep_tl _ _ _ _ K5)]|].
  destruct V4 as ((x' & SX' & BX') & _). exists x'. split; [exact SX'|].
  assert (A5 := sget_arr _ _ _ SX'). destruct R5 as [A5' _]. destruct (A5' _ _ A5) as [RR RP].
  assert (OB := keep_hd _ _ _ _ K5). cbn [v_body s'] in OB, A5. unfold obits in OB. rewrite A5 in OB. rewrite arr_app, Nat.eqb_refl in OB. cbn [option_map] in OB. unfold bits in OB.
  assert (ST : b_static (sb_arr x') = false) by congruence. split; [|exact ST]. rewrite RR. unfold stat. rewrite ST.
  rewrite cnt_cons. cbn [v_body s']. rewrite Nat.eqb_refl.
  assert (C0 : cnt (length h) hs = 0%nat).
  { destruct (cnt (length h) hs) eqn:CE; [reflexivity|exfalso]. unfold cnt in CE. destruct (filter (refers (length h)) hs) as [|u l] eqn:FE; [discriminate|].
    assert (X : In u (filter (refers (length h)) hs)) by (rewrite FE; left; reflexivity). apply filter_In in X as [X1 X2]. unfold refers in X2. apply Nat.eqb_eq in X2.
    assert (Q := RC_lt _ _ u R (or_intror X1)). lia. }
  rewrite C0. lia.
Qed.

Lemma rbytes_whole h s bs : rin h s bs -> v_off s = 0 -> v_len s = Z.of_nat (length bs) -> rbytes s bs = bs.
Proof. intros V O L. unfold rbytes, l_slice. rewrite O, L. cbn [Z.to_nat skipn]. apply firstn_all2. lia. Qed.

Lemma r_unshare_ok h s hs bs : RG h -> RC h (s :: hs) -> rin h s bs ->
  exists h' s' cs, r_unshare h s = Ok (h', s') /\ RG h' /\ rin h' s' cs /\ rbytes s' cs = rbytes s bs /\ v_len s' = v_len s /\ (length cs <= length bs)%nat /\
    RC h' (s' :: hs) /\ keep h h' hs /\ lone h' s' /\
    (v_off s' = 0 \/ s' = s /\ h' = h /\ exists x, sget h (v_body s) = Ok x /\ b_refs (sb_arr x) <= 1).
Proof.
  intros G R V. assert (V0 := V). destruct V0 as ((x & S & B) & O & L & OL & T0).
  assert (CP : exists h' s' cs, r_copy_body h s = Ok (h', s') /\ RG h' /\ rin h' s' cs /\ rbytes s' cs = rbytes s bs /\ v_len s' = v_len s /\ (length cs <= length bs)%nat /\
    RC h' (s' :: hs) /\ keep h h' hs /\ lone h' s' /\ v_off s' = 0).
  { destruct (r_copy_body_ok h s hs bs G R V) as (h' & s' & E & G' & V' & O' & L' & R' & K' & LN). exists h', s', (rbytes s bs). split; [exact E|]. split; [exact G'|]. split; [exact V'|].
    assert (RL := rbytes_len _ _ _ V). split; [eapply rbytes_whole; [exact V'|exact O'|lia]|]. split; [exact L'|]. split; [lia|auto]. }
  unfold r_unshare. rewrite S. cbn [obind].
  assert (MM : exists must, (if is_static x then do p <- r_num x; Ok (sput h (v_body s) (fst p), u32 (v_off s + v_len s) <? snd p) else Ok (h, false)) = Ok (h, must)).
  { destruct (is_static x); [|eauto]. rewrite (r_num_ok _ _ B). cbn [obind fst snd]. rewrite (sput_same _ _ _ S). eauto. }
  destruct MM as [must ->]. cbn [obind]. destruct (must || is_shared x) eqn:MS.
  - destruct CP as (h' & s' & cs & E & G' & V' & T' & L' & LE & R' & K' & LN & O'). exists h', s', cs. rewrite E. split; [reflexivity|]. split; [exact G'|]. split; [exact V'|]. split; [exact T'|]. split; [exact L'|]. split; [exact LE|]. split; [exact R'|]. split; [exact K'|]. split; [exact LN|]. left. exact O'.
  - apply orb_false_iff in MS as [_ SH]. unfold is_shared in SH. exists h, s, bs. split; [reflexivity|]. split; [exact G|]. split; [exact V|]. split; [reflexivity|]. split; [reflexivity|]. split; [lia|]. split; [exact R|]. split; [apply keep_refl|].
    assert (RF : b_refs (sb_arr x) <= 1) by lia. split; [|right; split; [reflexivity|split; [reflexivity|eauto]]].
    exists x. split; [exact S|]. split; [exact RF|]. destruct R as [A _]. destruct (A _ _ (sget_arr _ _ _ S)) as [RR _]. rewrite cnt_cons, Nat.eqb_refl in RR. unfold stat in RR. destruct (b_static (sb_arr x)); [lia|reflexivity].
Qed.

(** ** insert *)
Definition wr h s : Prop := v_off s = 0 \/ exists x, sget h (v_body s) = Ok x /\ 1 < b_refs (sb_arr x).
Lemma src_slice bs o k : (o + k <= length bs)%nat -> src_is (fun i => rdZ (bs ++ [0]) (Z.of_nat o + i)) (l_slice bs o k).
Proof.
  intros H i Hi. assert (SL := StrOps.slice_len bs o k H). rewrite SL in Hi.
  destruct (nth_some_lt bs (o + Z.to_nat i) ltac:(lia)) as [a Ha]. exists a. split.
  - apply UTF8Proofs.rdZ_ok; [lia|]. replace (Z.to_nat (Z.of_nat o + i)) with (o + Z.to_nat i)%nat by lia. rewrite nth_error_app1 by lia. exact Ha.
  - unfold l_slice. rewrite nth_firstn. destruct (Nat.ltb_spec (Z.to_nat i) k); [|lia]. rewrite nth_skipn. exact Ha.
Qed.
Lemma insert_end bs p ws : (p <= length bs)%nat -> l_insert (bs ++ [0]) p ws = l_insert bs p ws ++ [0].
Proof.
  intros H. unfold l_insert. rewrite firstn_app, skipn_app. replace (p - length bs)%nat with 0%nat by lia. cbn [firstn skipn]. rewrite app_nil_r, <- !app_assoc. reflexivity.
Qed.
Lemma r_insert_bytes_ok x bs p ws src : braw x bs -> (p <= length bs)%nat -> src_is src ws -> b_refs (sb_arr x) <= 1 -> b_static (sb_arr x) = false ->
  Forall (fun b => 0 <= b < 256) ws -> Z.of_nat (length bs + length ws) < 2^30 -> (bs = [] -> ws = []) ->
  exists y, r_insert_bytes x (Z.of_nat p) (Ext src) (Z.of_nat (length ws)) = Ok y /\ braw y (l_insert bs p ws) /\ b_refs (sb_arr y) = b_refs (sb_arr x) /\ b_static (sb_arr y) = false.
Proof.
  intros B HP SR RF ST FW LB NE. assert (N := braw_num _ _ B). assert (RA0 := braw_raw _ _ B). assert (B0 := B). destruct B0 as (V & _ & FB & SN & _). unfold r_insert_bytes.
  destruct (body_insert_ok (sb_arr x) _ (Z.of_nat p) src ws V ST ltac:(lia) SR RF ltac:(lia)) as [a EA]. rewrite EA. cbn [obind].
  assert (LI : length (l_insert bs p ws) = (length bs + length ws)%nat) by (apply length_insert; lia).
  eexists. split; [reflexivity|]. cbn [sb_arr].
  assert (SN' : (if is_raw x then sb_n x else 0) = nraw (l_insert bs p ws)).
  { rewrite RA0, SN. destruct bs as [|b bs0] eqn:EB; [rewrite (NE eq_refl); unfold l_insert; rewrite skipn_nil, firstn_nil; reflexivity|]. rewrite <- EB in *.
    destruct (l_insert bs p ws) eqn:EI; [rewrite EB in LI; cbn in LI; lia|]. rewrite EB. reflexivity. }
  assert (FI : Forall (fun b => 0 <= b < 256) (l_insert bs p ws)).
  { unfold l_insert. rewrite !Forall_app. rewrite <- (firstn_skipn p bs), Forall_app in FB. tauto. }
  destruct (body_insert_spec (sb_arr x) _ (Z.of_nat p) src ws a V ST ltac:(lia) SR ltac:(lia) EA) as [(VA & RA & SA & _)|(E0 & ->)].
  - rewrite Nat2Z.id, insert_end in VA by exact HP. split; [|auto]. split; [exact VA|]. split; [lia|]. split; [exact FI|]. split; [exact SN'|auto].
  - subst ws. assert (EI : l_insert bs p [] = bs) by (unfold l_insert; cbn [app]; apply firstn_skipn). rewrite EI in *.
    split; [|auto]. split; [exact V|]. split; [lia|]. split; [exact FB|]. split; [exact SN'|auto].
Qed.

Lemma r_insert_ok h s hs w bs ws pos : RG h -> RC h (s :: hs) -> In w hs -> rin h s bs -> rin h w ws -> 0 <= pos <= v_len s -> wr h s ->
  Z.of_nat (length bs) + v_len w < 2^30 -> (v_len s = 0 -> v_len w = 0) ->
  exists h' s' cs, r_insert h s pos w false = Ok (h', s') /\ RG h' /\ rin h' s' cs /\ rbytes s' cs = l_insert (rbytes s bs) (Z.to_nat pos) (rbytes w ws) /\
    RC h' (s' :: hs) /\ keep h h' hs.
Proof.
  intros G R IW V VW HP WR LB NE. assert (V0 := V). destruct V0 as ((x & S & B) & O & L & OL & T0). assert (VW0 := VW). destruct VW0 as ((xw & SW & BW) & OW & LW & OLW & TW).
  assert (SM := rin_small _ _ _ V). assert (SMW := rin_small _ _ _ VW). assert (RL := rbytes_len _ _ _ V). assert (RLW := rbytes_len _ _ _ VW). unfold r_insert.
  destruct ((pos =? v_len s) && (v_body s =? v_body w)%nat && (u32 (v_off s + pos) =? v_off w)) eqn:CT.
  - apply andb_true_iff in CT as [CT C3]. apply andb_true_iff in CT as [C1 C2]. apply Z.eqb_eq in C1, C3. apply Nat.eqb_eq in C2.
    assert (EX : xw = x) by (rewrite C2 in S; congruence). subst xw. assert (EC : ws = bs) by (eapply braw_bits; [reflexivity|exact BW|exact B]). subst ws.
    replace (u32 (v_off s + pos)) with (v_off s + pos) in C3 by (unfold u32; lia).
    replace (u32 (v_len s + v_len w)) with (v_len s + v_len w) by (unfold u32; lia).
    do 2 eexists. exists bs. split; [reflexivity|]. split; [exact G|]. split; [|split; [|split; [eapply RC_body; [|exact R]; reflexivity|apply keep_refl]]].
    + split; [exists x; auto|]. cbn [v_off v_len]. split; [lia|]. split; [lia|]. split; [lia|]. intros Z0. apply T0. lia.
    + unfold rbytes. cbn [v_off v_len]. replace (Z.to_nat (v_len s + v_len w)) with (Z.to_nat (v_len s) + Z.to_nat (v_len w))%nat by lia.
      rewrite ArrayOps.slice_join by lia. unfold l_insert. assert (SL : length (l_slice bs (Z.to_nat (v_off s)) (Z.to_nat (v_len s))) = Z.to_nat (v_len s)) by (apply StrOps.slice_len; lia).
      rewrite firstn_all2, skipn_all2 by lia. rewrite app_nil_r. f_equal. f_equal. lia.
  - destruct (r_unshare_ok h s hs bs G R V) as (h1 & s1 & cs & EU & G1 & V1 & T1 & L1 & LE & R1 & K1 & (x1 & S1 & RF1 & ST1) & C1). rewrite EU. cbn [obind]. cbv zeta.
    assert (VW1 : rin h1 w ws) by (eapply keep_rin_in; eassumption).
    assert (O1 : v_off s1 = 0).
    { destruct C1 as [C1|(-> & -> & x2 & S2 & R2)]; [exact C1|]. destruct WR as [WR|(x3 & S3 & R3)]; [exact WR|]. rewrite S2 in S3. injection S3 as <-. lia. }
    rewrite (r_nth_c_ok _ _ _ _ VW1) by lia. cbn [obind fst snd]. rewrite (r_nth_c_ok _ _ _ _ VW1) by lia. cbn [obind fst snd].
    assert (MW : sv_mem h1 w = Ok (ws ++ [0])) by (destruct VW1 as ((y & SY & BY) & _); unfold sv_mem; rewrite SY; cbn [obind]; apply braw_smem; exact BY). rewrite MW. cbn [obind].
    rewrite (r_nth_m_ok _ _ _ _ V1) by lia. cbn [obind]. rewrite (r_nth_m_ok _ _ _ _ V1) by lia. cbn [obind]. rewrite S1. cbn [obind].
    assert (V1' := V1). destruct V1' as ((y & SY & BY) & _ & L1' & OL1 & T1'). assert (EY : y = x1) by congruence. subst y.
    rewrite O1, !Z.add_0_r, Z.add_0_l, Z.sub_0_r. replace (u32 pos) with (Z.of_nat (Z.to_nat pos)) by (unfold u32; lia).
    replace (u32 (v_off w + v_len w - v_off w)) with (Z.of_nat (length (rbytes w ws))) by (unfold u32; lia).
    assert (SRC := src_slice ws (Z.to_nat (v_off w)) (Z.to_nat (v_len w)) ltac:(lia)). rewrite Z2Nat.id in SRC by lia. fold (rbytes w ws) in SRC.
    assert (FW : Forall (fun b => 0 <= b < 256) (rbytes w ws)) by (apply byte_slice; apply BW).
    assert (NE' : cs = [] -> rbytes w ws = []).
    { intros ->. cbn [length] in OL1. assert (Z0 : v_len w = 0) by (apply NE; lia). destruct (rbytes w ws); [reflexivity|cbn [length] in RLW; lia]. }
    destruct (r_insert_bytes_ok x1 cs (Z.to_nat pos) (rbytes w ws) _ BY ltac:(lia) SRC RF1 ST1 FW ltac:(lia) NE') as (y & EY2 & BY2 & RY & SY2). rewrite EY2. cbn [obind].
    assert (LEN : length (l_insert cs (Z.to_nat pos) (rbytes w ws)) = (length cs + length (rbytes w ws))%nat) by (apply length_insert; lia).
    replace (u32 (v_len s1 + v_len w)) with (v_len s1 + v_len w) by (unfold u32; lia).
    do 2 eexists. exists (l_insert cs (Z.to_nat pos) (rbytes w ws)). split; [reflexivity|].
    split; [eapply RG_sput; eassumption|]. split; [|split; [|]].
    + split; [exists y; cbn [v_body]; rewrite (StrOps.sget_sput _ _ _ _ _ S1), Nat.eqb_refl; auto|]. cbn [v_off v_len]. split; [lia|]. split; [lia|]. split; [rewrite LEN; lia|].
      intros Z0. assert (cs = []) by (apply T1'; lia). subst cs. rewrite (NE' eq_refl). unfold l_insert. rewrite skipn_nil, firstn_nil. reflexivity.
    + rewrite <- T1. unfold rbytes at 1 3. cbn [v_off v_len]. rewrite O1. cbn [Z.to_nat].
      replace (Z.to_nat (v_len s1 + v_len w)) with (Z.to_nat (v_len s1) + length (rbytes w ws))%nat by lia. apply ArrayOps.slice_insert; lia.
    + match goal with |- RC (sput _ _ ?y) (?t :: _) /\ _ => destruct (write_rc h1 s1 t hs x1 y R1 S1 RF1 eq_refl RY ltac:(congruence)) as [R4 K4] end.
      split; [exact R4|]. eapply keep_trans; eassumption.
Qed.

Lemma r_assign_ok h s hs w bs ws : RG h -> RC h (s :: hs) -> rin h s bs -> In w (s :: hs) -> rin h w ws ->
  exists h', assign_val h s w = Ok (h', w) /\ RG h' /\ rin h' w ws /\ RC h' (w :: hs) /\ keep h h' hs.
Proof.
  intros G R V IW VW. unfold assign_val. assert (VW0 := VW). destruct VW0 as ((xw & SW & BW) & _).
  destruct (raddref_ok h _ _ G SW) as (h1 & E1 & G1 & _). rewrite E1. cbn [obind].
  destruct (addref_rc h _ h1 _ w R E1 eq_refl) as (R1 & K1 & L1 & OB).
  assert (R1' : RC h1 (s :: w :: hs)) by (eapply RC_perm; [apply perm_swap|exact R1]).
  destruct (rrelease_ok _ _ _ G1 R1') as (h2 & E2 & G2). rewrite E2. cbn [obind]. destruct (release_rc _ _ _ _ R1' E2) as (R2 & K2 & L2).
  exists h2. split; [reflexivity|]. split; [exact G2|]. split; [eapply keep_rin; [exact G2|rewrite (keep_hd _ _ _ _ K2); exact OB|exact VW]|]. split; [exact R2|].
  eapply keep_trans; [exact (keep_tl _ _ _ _ K1)|exact (keep_tl _ _ _ _ K2)].
Qed.

Lemma r_add_eq_ok h s hs w bs ws : RG h -> RC h (s :: hs) -> In w hs -> rin h s bs -> rin h w ws -> wr h s -> Z.of_nat (length bs) + v_len w < 2^30 ->
  exists h' s' cs, r_add_eq h s w false = Ok (h', s') /\ RG h' /\ rin h' s' cs /\ rbytes s' cs = rbytes s bs ++ rbytes w ws /\
    RC h' (s' :: hs) /\ keep h h' hs.
Proof.
  intros G R IW V VW WR LB. unfold r_add_eq. assert (RL := rbytes_len _ _ _ V). assert (RLW := rbytes_len _ _ _ VW). assert (VW0 := VW). destruct VW0 as ((xw & SW & BW) & OW & LW & OLW & TW). rewrite SW. cbn [obind].
  assert (LL := proj1 (proj2 (proj2 V))).
  destruct ((v_len s =? 0) && negb (is_static xw)) eqn:C.
  - apply andb_true_iff in C as [C _]. apply Z.eqb_eq in C. destruct (r_assign_ok h s hs w bs ws G R V (or_intror IW) VW) as (h' & E & G' & V' & R' & K'). exists h', w, ws. split; [exact E|]. split; [exact G'|]. split; [exact V'|].
    split; [|auto]. destruct (rbytes s bs); [reflexivity|cbn [length] in RL; lia].
  - assert (NE : v_len s = 0 -> v_len w = 0).
    { intros Z0. rewrite Z0 in C. cbn [Z.eqb andb] in C. apply negb_false_iff in C. assert (E := braw_shared_static _ _ BW C). subst ws. cbn [length] in OLW. lia. }
    destruct (r_insert_ok h s hs w bs ws (v_len s) G R IW V VW ltac:(lia) WR LB NE) as (h' & s' & cs & E & G' & V' & T' & R' & K'). exists h', s', cs. split; [exact E|]. split; [exact G'|]. split; [exact V'|]. split; [|auto].
    rewrite T'. unfold l_insert. rewrite firstn_all2, skipn_all2 by lia. rewrite app_nil_r. reflexivity.
Qed.

(** ** Values *)
Definition unmark s := {| v_body := v_body s; v_off := v_off s; v_len := v_len s; v_mk := (0, 0) |}.
Definition made h hs (r : outcome (sheap * sval)) (e : list Z) : Prop :=
  exists h' t cs, r = Ok (h', t) /\ RG h' /\ rin h' t cs /\ rbytes t cs = e /\ RC h' (t :: hs) /\ keep h h' hs.

Lemma r_ref_ok h hs s bs t : RG h -> RC h hs -> In s hs -> rin h s bs -> v_body t = v_body s ->
  exists h1, saddref h (v_body s) = Ok h1 /\ RG h1 /\ RC h1 (t :: hs) /\ keep h h1 hs /\ rin h1 s bs.
Proof.
  intros G R IN V E. assert (V0 := V). destruct V0 as ((x & S & B) & _). destruct (raddref_ok h _ _ G S) as (h1 & E1 & G1 & _).
  destruct (addref_rc h _ h1 _ t R E1 E) as (R1 & K1 & _). exists h1. split; [exact E1|]. split; [exact G1|]. split; [exact R1|]. split; [exact K1|]. eapply keep_rin_in; eassumption.
Qed.
Lemma rin_unmark h s bs : rin h s bs -> rin h (unmark s) bs.
Proof. intros V. exact V. Qed.
Lemma r_copy_val_ok h hs s bs : RG h -> RC h hs -> In s hs -> rin h s bs -> made h hs (r_copy_val h s) (rbytes s bs).
Proof.
  intros G R IN V. destruct (r_ref_ok h hs s bs (unmark s) G R IN V eq_refl) as (h1 & E1 & G1 & R1 & K1 & V1). unfold r_copy_val, made. rewrite E1. cbn [obind].
  apply rin_unmark in V1. assert (V0 := V1). destruct V0 as ((x & S & B) & _). cbn [v_body unmark] in S. rewrite S. cbn [obind]. fold (unmark s). destruct (is_static x).
  - destruct (r_unshare_ok h1 (unmark s) hs bs G1 R1 V1) as (h2 & s2 & cs & E2 & G2 & V2 & T2 & _ & _ & R2 & K2 & _). exists h2, s2, cs. split; [exact E2|]. split; [exact G2|]. split; [exact V2|].
    split; [exact T2|]. split; [exact R2|]. eapply keep_trans; eassumption.
  - exists h1, (unmark s), bs. split; [reflexivity|]. split; [exact G1|]. split; [exact V1|]. split; [reflexivity|]. split; [exact R1|exact K1].
Qed.

Lemma r_sub_ok h hs s bs at_ n : RG h -> RC h hs -> In s hs -> rin h s bs -> 0 <= at_ -> 0 < n -> at_ + n <= v_len s ->
  made h hs (do h1 <- saddref h (v_body s); Ok (h1, {| v_body := v_body s; v_off := u32 (v_off s + at_); v_len := n; v_mk := (0, 0) |})) (l_slice (rbytes s bs) (Z.to_nat at_) (Z.to_nat n)).
Proof.
  intros G R IN V HA HN HL. assert (SM := rin_small _ _ _ V). assert (V0 := V). destruct V0 as (_ & O & L & OL & _). replace (u32 (v_off s + at_)) with (v_off s + at_) by (unfold u32; lia).
  set (t := {| v_body := v_body s; v_off := v_off s + at_; v_len := n; v_mk := (0, 0) |}).
  destruct (r_ref_ok h hs s bs t G R IN V eq_refl) as (h1 & E1 & G1 & R1 & K1 & V1). exists h1, t, bs. rewrite E1. split; [reflexivity|]. split; [exact G1|].
  split; [destruct V1 as (X & _); split; [exact X|]; cbn [v_off v_len t]; lia|]. split; [|split; [exact R1|exact K1]].
  unfold rbytes, l_slice. cbn [v_off v_len t]. rewrite skipn_firstn_comm, firstn_firstn, ArrayOps.skipn_skipn. f_equal; [lia|]. f_equal. lia.
Qed.
Lemma r_substr_ok h hs s bs at_ len : RG h -> RC h hs -> In s hs -> In null_val hs -> rin h null_val [] -> rin h s bs -> 0 <= at_ < 2^32 -> -2^31 <= len < 2^31 ->
  made h hs (r_substr h s at_ len) (t_substr (rbytes s bs) at_ len).
Proof.
  intros G R IN INN NO V HA HL. assert (SM := rin_small _ _ _ V). assert (RL := rbytes_len _ _ _ V). assert (V0 := V). destruct V0 as (_ & O & L & OL & _).
  rewrite <- (StrInv.sub_spec _ (v_len s)) by lia. unfold r_substr, StrEdit.sub_len.
  destruct ((len <? -1) || (len =? 0) || (at_ >=? v_len s)) eqn:C.
  - assert (M := r_copy_val_ok h hs null_val [] G R INN NO). unfold made in *. unfold l_slice. cbn [Z.to_nat firstn]. exact M.
  - replace (u32 (v_len s - at_)) with (v_len s - at_) by (unfold u32; lia). destruct (Z.gtb_spec len 0).
    + destruct (Z.gtb_spec len (v_len s - at_)).
      * rewrite Z.min_r by lia. apply r_sub_ok; auto; lia.
      * rewrite Z.min_l by lia. apply r_sub_ok; auto; lia.
    + apply r_sub_ok; auto; lia.
Qed.

Lemma r_own_ok h hs a bs : RG h -> RC h hs -> valid a (bs ++ [0]) -> b_static a = false -> b_refs a = 1 -> Z.of_nat (length bs) < 2^30 -> Forall (fun b => 0 <= b < 256) bs -> bs <> [] ->
  made h hs (do r <- r_num {| sb_arr := a; sb_n := marker |}; Ok (h ++ [Some (fst r)], {| v_body := length h; v_off := 0; v_len := snd r; v_mk := (0, 0) |})) bs.
Proof.
  intros G R W ST RF LB F NE. set (x := {| sb_arr := a; sb_n := marker |}).
  assert (B : braw x bs) by (split; [exact W|]; split; [exact LB|]; split; [exact F|]; split; [destruct bs; [congruence|reflexivity]|auto]).
  rewrite (r_num_ok _ _ B). cbn [obind fst snd]. set (t := {| v_body := length h; v_off := 0; v_len := Z.of_nat (length bs); v_mk := (0, 0) |}).
  destruct (fresh_rc h hs x t R eq_refl) as [R1 K1]; [unfold stat; cbn [sb_arr x]; rewrite RF, ST; reflexivity|].
  exists (h ++ [Some x]), t, bs. split; [reflexivity|]. split; [eapply RG_app; eassumption|].
  assert (V : rin (h ++ [Some x]) t bs).
  { split; [exists x; cbn [v_body t]; rewrite StrOps.sget_app, Nat.eqb_refl; auto|]. cbn [v_off v_len t]. split; [lia|]. split; [lia|]. split; [lia|]. intros Z0. destruct bs; [reflexivity|cbn [length] in Z0; lia]. }
  split; [exact V|]. split; [eapply rbytes_whole; [exact V|reflexivity|reflexivity]|]. split; [exact R1|exact K1].
Qed.
Lemma r_body_ok h hs data len : RG h -> RC h hs -> Forall (fun b => 0 <= b < 256) data -> 0 < len < 2^30 -> len < Z.of_nat (length data) ->
  made h hs (r_body h data len) (firstn (Z.to_nat len) data).
Proof.
  intros G R F LB LD. unfold r_body, r_new. remember (firstn (Z.to_nat len) data) as bs eqn:EQB. assert (L : length bs = Z.to_nat len) by (subst bs; apply firstn_length_le; lia).
  assert (DE : exists d tl, data = bs ++ d :: tl).
  { assert (Q := firstn_skipn (Z.to_nat len) data). destruct (skipn (Z.to_nat len) data) as [|d tl] eqn:E; [exfalso; assert (X := skipn_length (Z.to_nat len) data); rewrite E in X; cbn [length] in X; lia|]. exists d, tl. subst bs. symmetry. exact Q. }
  destruct DE as (d & tl & ED). rewrite ED in *. clear EQB. replace len with (Z.of_nat (length bs)) by lia. assert (NE : bs <> []) by (intros E; rewrite E in L; cbn in L; lia).
  destruct (new_raw bs d tl 0 1 NE ltac:(lia) ltac:(lia)) as (y & E & W & ST & RF). rewrite E. cbn [obind]. apply r_own_ok; try assumption; [lia|]. rewrite Forall_app in F. tauto.
Qed.
Lemma r_lit_ok h hs bs : RG h -> RC h hs -> In null_val hs -> rin h null_val [] -> Forall (fun b => 0 < b < 256) bs -> Z.of_nat (length bs) < 2^30 ->
  made h hs (r_lit h bs true) bs.
Proof.
  intros G R INN NO F LB. unfold r_lit. destruct bs as [|b0 bs0] eqn:EB.
  - destruct (r_ref_ok h hs null_val [] null_val G R INN NO eq_refl) as (h1 & E1 & G1 & R1 & K1 & V1). unfold make. cbn [Z.eqb]. cbn [v_body null_val] in E1. rewrite E1. cbn [obind].
    assert (V0 := V1). destruct V0 as ((x & S & B) & _). cbn [v_body null_val] in S. rewrite S. cbn [obind]. assert (N := r_num_ok _ _ B). unfold r_num in N. rewrite (braw_raw _ _ B) in N. rewrite N. cbn [obind fst snd].
    rewrite (sput_same _ _ _ S). exists h1, null_val, []. split; [reflexivity|]. split; [exact G1|]. split; [exact V1|]. split; [reflexivity|]. split; [exact R1|exact K1].
  - rewrite <- EB in *. assert (NZ : Forall (fun b => b <> 0) bs) by (eapply Forall_impl; [|exact F]; cbv beta; lia).
    destruct (new_raw0 bs [] 1 NZ LB) as (y & E & W & ST & RF & N). unfold r_new. rewrite E. cbn [obind]. apply r_own_ok; try assumption; [eapply Forall_impl; [|exact F]; cbv beta; lia|congruence].
Qed.

Lemma r_plus_ok h hs s t bs ts : RG h -> RC h hs -> In s hs -> rin h s bs -> rin h t ts -> v_body s = v_body t -> v_off t = v_off s + v_len s ->
  made h hs (r_plus h s t) (rbytes s bs ++ rbytes t ts).
Proof.
  intros G R IN V VT EB EO. assert (SM := rin_small _ _ _ V). assert (V0 := V). destruct V0 as ((x & S & B) & O & L & OL & T0). assert (W0 := VT). destruct W0 as ((xt & ST & BT) & OT & LT & OLT & TT).
  rewrite <- EB in ST. assert (EX : xt = x) by congruence. subst xt. assert (EC : ts = bs) by (eapply braw_bits; [reflexivity|exact BT|exact B]). subst ts.
  unfold r_plus. replace (u32 (v_off s + v_len s)) with (v_off t) by (unfold u32; lia). rewrite EB, Nat.eqb_refl, Z.eqb_refl. cbn [andb]. rewrite <- EB.
  replace (u32 (v_len s + v_len t)) with (v_len s + v_len t) by (unfold u32; lia). set (r := {| v_body := v_body s; v_off := v_off s; v_len := v_len s + v_len t; v_mk := (0, 0) |}).
  destruct (r_ref_ok h hs s bs r G R IN V eq_refl) as (h1 & E1 & G1 & R1 & K1 & V1). exists h1, r, bs. rewrite E1. split; [reflexivity|]. split; [exact G1|].
  split. { destruct V1 as (X & _). split; [exact X|]. cbn [v_off v_len r]. split; [lia|]. split; [lia|]. split; [lia|]. intros Z0. apply T0. lia. }
  split; [|split; [exact R1|exact K1]]. unfold rbytes. cbn [v_off v_len r]. replace (Z.to_nat (v_len s + v_len t)) with (Z.to_nat (v_len s) + Z.to_nat (v_len t))%nat by lia.
  rewrite ArrayOps.slice_join by lia. f_equal. f_equal. lia.
Qed.

(** asUTF8: the characters, and then NUL. *)
Lemma r_as_utf8_ok h s hs bs : RG h -> RC h (s :: hs) -> rin h s bs ->
  exists h' s' cs, r_as_utf8 h s = Ok (h', s', v_off s') /\ RG h' /\ rin h' s' cs /\ rbytes s' cs = rbytes s bs /\ RC h' (s' :: hs) /\ keep h h' hs /\
    v_off s' + v_len s' = Z.of_nat (length cs).
Proof.
  intros G R V. assert (SM := rin_small _ _ _ V). assert (V0 := V). destruct V0 as ((x & S & B) & O & L & OL & T0). unfold r_as_utf8. rewrite S. cbn [obind].
  rewrite (r_num_ok _ _ B). cbn [obind fst snd]. cbv zeta. rewrite (sput_same _ _ _ S). replace (u32 (v_off s + v_len s)) with (v_off s + v_len s) by (unfold u32; lia).
  destruct (Z.ltb_spec (v_off s + v_len s) (Z.of_nat (length bs))).
  - destruct (r_copy_body_ok h s hs bs G R V) as (h' & s' & E & G' & V' & O' & L' & R' & K' & _). rewrite E. cbn [obind]. rewrite (r_nth_m_ok _ _ _ _ V') by (rewrite L'; lia). cbn [obind fst snd]. rewrite Z.add_0_r.
    assert (RL := rbytes_len _ _ _ V). exists h', s', (rbytes s bs). split; [reflexivity|]. split; [exact G'|]. split; [exact V'|]. split; [eapply rbytes_whole; [exact V'|exact O'|lia]|]. split; [exact R'|]. split; [exact K'|lia].
  - cbn [obind]. rewrite (r_nth_m_ok _ _ _ _ V) by lia. cbn [obind fst snd]. rewrite Z.add_0_r. exists h, s, bs. split; [reflexivity|]. split; [exact G|]. split; [exact V|]. split; [reflexivity|]. split; [exact R|]. split; [apply keep_refl|lia].
Qed.

(** ** Programs *)
Definition Rel st (ts : list (list Z)) : Prop :=
  RCS st /\ RG (sh st) /\ rin (sh st) null_val [] /\ length ts = length (sv st) /\
  forall u s, nth_error (sv st) u = Some s -> exists bs, rin (sh st) s bs /\ rbytes s bs = nth u ts [].

Lemma nth_upd_same {A} (l : list A) k a d : (k < length l)%nat -> nth k (upd l k a) d = a.
Proof. revert k. induction l as [|b l IH]; intros [|k] H; cbn in *; try lia; [reflexivity|apply IH; lia]. Qed.
Lemma nth_upd_other {A} (l : list A) k j a d : j <> k -> nth j (upd l k a) d = nth j l d.
Proof. revert k j. induction l as [|b l IH]; intros [|k] [|j] H; cbn; try reflexivity; try congruence. apply IH. congruence. Qed.
Lemma put_rel st ts d old h t cs hs : Rel st ts -> nth_error (sv st) d = Some old -> (forall u s, u <> d -> nth_error (sv st) u = Some s -> In s hs) -> In null_val hs ->
  (forall t, Permutation (t :: hs) (null_val :: upd (sv st) d t)) -> RC h (t :: hs) -> keep (sh st) h hs -> RG h -> rin h t cs ->
  Rel {| sh := h; sv := upd (sv st) d t |} (upd ts d (rbytes t cs)).
Proof.
  intros (R & G & NO & LT & F) ED OT NI P R' K' G' V'. split; [unfold RCS; cbn [sh sv]; eapply RC_perm; [apply P|exact R']|]. cbn [sh sv]. split; [exact G'|].
  split; [eapply keep_rin_in; eassumption|]. split; [rewrite !upd_length; exact LT|]. assert (LD := nth_lt _ _ _ ED). intros u s HU. destruct (Nat.eq_dec u d) as [->|N].
  - rewrite (nth_upd_eq _ _ _ _ ED) in HU. assert (s = t) by congruence. subst s. exists cs. split; [exact V'|]. rewrite nth_upd_same by lia. reflexivity.
  - rewrite nth_upd_ne in HU by congruence. destruct (F u s HU) as (bs & V & E). exists bs. rewrite nth_upd_other by exact N. split; [|exact E]. eapply keep_rin_in; [exact G'|exact K'|eapply OT; eassumption|exact V].
Qed.
Lemma rassign st ts d r e : Rel st ts -> (d < length (sv st))%nat -> made (sh st) (null_val :: sv st) r e -> exists st', sassign st d r = Ok st' /\ Rel st' (upd ts d e).
Proof.
  intros RL LD (h & t & cs & -> & G1 & V1 & <- & R1 & K1). destruct (nth_some_lt _ _ LD) as [old ED]. unfold sassign. rewrite ED. cbn [obind].
  assert (R := proj1 RL). assert (V1' := V1). destruct V1' as ((x & SX & BX) & _).
  destruct (raddref_ok h _ x G1 SX) as (h1 & E1 & G2 & SX1). rewrite E1. cbn [obind].
  destruct (addref_rc h (v_body t) h1 _ t R1 E1 eq_refl) as (R2 & K2 & L2 & _).
  destruct (take st d old ED R) as (hs & _ & I1 & O1 & NI & P1).
  assert (PO : Permutation (null_val :: sv st) (old :: hs)) by (rewrite (P1 old), (upd_same _ _ _ ED); reflexivity).
  assert (R2' : RC h1 (old :: t :: t :: hs)).
  { eapply RC_perm; [|exact R2]. eapply perm_trans; [apply perm_skip, perm_skip, PO|]. eapply perm_trans; [apply perm_skip, perm_swap|]. apply perm_swap. }
  destruct (rrelease_ok _ _ _ G2 R2') as (h2 & E2 & G3). rewrite E2. cbn [obind]. destruct (release_rc h1 old h2 _ R2' E2) as (R3 & K3 & L3).
  destruct (rrelease_ok _ _ _ G3 R3) as (h3 & E3 & G4). rewrite E3. cbn [obind]. destruct (release_rc h2 t h3 _ R3 E3) as (R4 & K4 & L4).
  assert (KT : obits h3 (v_body t) = obits h (v_body t)) by (rewrite (keep_hd _ _ _ _ K4), (keep_hd _ _ _ _ K3); exact (keep_hd _ _ _ _ K2)).
  assert (KH : keep (sh st) h3 hs).
  { eapply keep_trans; [exact (keep_sub _ _ _ _ I1 K1)|]. eapply keep_trans; [eapply keep_sub; [|exact K2]; intros u Hu; right; apply I1; exact Hu|].
    eapply keep_trans; [exact (keep_tl _ _ _ _ (keep_tl _ _ _ _ K3))|exact (keep_tl _ _ _ _ K4)]. }
  eexists. split; [reflexivity|]. eapply put_rel; try eassumption. eapply keep_rin; [exact G4|exact KT|exact V1].
Qed.
Lemma rstore st ts v s r e : Rel st ts -> nth_error (sv st) v = Some s ->
  (forall hs, RC (sh st) (s :: hs) -> (forall u t, u <> v -> nth_error (sv st) u = Some t -> In t hs) -> made (sh st) hs r e) ->
  exists st', sstore st v r = Ok st' /\ Rel st' (upd ts v e).
Proof.
  intros RL EV HH. destruct (take st v s EV (proj1 RL)) as (hs & R1 & I1 & O1 & NI & P1). destruct (HH hs R1 O1) as (h' & s' & cs & -> & G2 & V2 & <- & R2 & K2).
  unfold sstore. cbn [obind fst snd]. eexists. split; [reflexivity|]. eapply put_rel; eassumption.
Qed.

Lemma front_wr st v s : nth_error (sv st) v = Some s -> at_front st v -> wr (sh st) s.
Proof.
  intros E (s2 & x & E2 & EX & C). rewrite E in E2. assert (s2 = s) by congruence. subst s2. destruct C as [C|C]; [left; exact C|right]. exists x. split; [apply sget_ok; exact EX|exact C].
Qed.
Lemma room_ok st v (w : nat) s t bs : nth_error (sv st) v = Some s -> nth_error (sv st) w = Some t -> rin (sh st) s bs -> room st v w -> Z.of_nat (length bs) + v_len t < 2^30.
Proof.
  intros E1 E2 ((x & S & B) & _) (s2 & x2 & t2 & F1 & F2 & F3 & H). assert (s2 = s) by congruence. assert (t2 = t) by congruence. subst s2 t2.
  apply sget_ok in S. assert (x2 = x) by congruence. subst x2. rewrite (braw_num _ _ B) in H. lia.
Qed.

Lemma rstep_ok st ts o : Rel st ts -> Forall (fun v => (v < length (sv st))%nat) (r_operands o) -> r_step_ok st o ->
  exists st', rstep st o = Ok st' /\ Rel st' (r_spec_step ts o).
Proof.
  intros RL FO OK. assert (RL0 := RL). destruct RL0 as (R & G & NO & LT & F). unfold r_spec_step.
  destruct o as [d bs|d data len|d v|d v|d v at_ len|v pos w|v w|v|d bs|d v w|v up]; cbn [r_operands] in FO; cbn [r_step_ok] in OK; cbn [r_target r_expected]; unfold rstep; cbv zeta; try tauto.
  - assert (LD := Forall_inv FO). apply rassign; [exact RL|exact LD|]. apply r_lit_ok; try tauto; first [exact R|left; reflexivity].
  - assert (LD := Forall_inv FO). apply rassign; [exact RL|exact LD|]. apply r_body_ok; try tauto.
  - assert (LD := Forall_inv FO). assert (LV := Forall_inv (Forall_inv_tail FO)). destruct (nth_some_lt _ _ LD) as [old ED]. destruct (nth_some_lt _ _ LV) as [s EV]. rewrite EV, ED.
    destruct (F _ _ EV) as (bs & V & E). destruct (F _ _ ED) as (bd & VD & _). rewrite <- E. eapply rstore; [exact RL|exact ED|]. intros hs RH OT.
    assert (IW : In s (old :: hs)) by (destruct (Nat.eq_dec v d) as [->|N]; [left; congruence|right; eapply OT; eassumption]).
    destruct (r_assign_ok _ _ _ _ _ _ G RH VD IW V) as (h' & E' & G' & V' & R' & K'). exists h', s, bs. split; [exact E'|]. split; [exact G'|]. split; [exact V'|]. split; [reflexivity|]. split; [exact R'|exact K'].
  - assert (LD := Forall_inv FO). assert (LV := Forall_inv (Forall_inv_tail FO)). destruct (nth_some_lt _ _ LV) as [s EV]. rewrite EV. destruct (F _ _ EV) as (bs & V & E). rewrite <- E.
    apply rassign; [exact RL|exact LD|]. apply r_copy_val_ok; [exact G|exact R|eapply in_vars; exact EV|exact V].
  - assert (LD := Forall_inv FO). assert (LV := Forall_inv (Forall_inv_tail FO)). destruct (nth_some_lt _ _ LV) as [s EV]. rewrite EV. destruct (F _ _ EV) as (bs & V & E). rewrite <- E.
    apply rassign; [exact RL|exact LD|]. apply r_substr_ok; try tauto; first [exact R|eapply in_vars; exact EV|left; reflexivity].
  - assert (LV := Forall_inv FO). assert (LW := Forall_inv (Forall_inv_tail FO)). destruct (nth_some_lt _ _ LV) as [s EV]. destruct (nth_some_lt _ _ LW) as [t EW]. rewrite EV, EW.
    destruct OK as (NE & FR & RM & EM & s2 & E2 & HP). assert (s2 = s) by congruence. subst s2. destruct (F _ _ EV) as (bs & V & E). destruct (F _ _ EW) as (ws & VW & E3). rewrite <- E, <- E3.
    destruct (Nat.eqb_spec v w); [congruence|]. eapply rstore; [exact RL|exact EV|]. intros hs RH OT.
    destruct (r_insert_ok _ s hs t bs ws pos G RH ltac:(eapply OT; [|exact EW]; congruence) V VW HP (front_wr _ _ _ EV FR) (room_ok _ _ _ _ _ _ EV EW V RM)) as (h' & s' & cs & E' & G' & V' & T' & R' & K').
    { intros Z0. destruct EM as (t2 & E4 & H4); [exists s; auto|]. congruence. }
    exists h', s', cs. split; [exact E'|]. split; [exact G'|]. split; [exact V'|]. split; [exact T'|]. split; [exact R'|exact K'].
  - assert (LV := Forall_inv FO). assert (LW := Forall_inv (Forall_inv_tail FO)). destruct (nth_some_lt _ _ LV) as [s EV]. destruct (nth_some_lt _ _ LW) as [t EW]. rewrite EV, EW.
    destruct OK as (NE & FR & RM). destruct (F _ _ EV) as (bs & V & E). destruct (F _ _ EW) as (ws & VW & E3). rewrite <- E, <- E3.
    destruct (Nat.eqb_spec v w); [congruence|]. eapply rstore; [exact RL|exact EV|]. intros hs RH OT.
    destruct (r_add_eq_ok _ s hs t bs ws G RH ltac:(eapply OT; [|exact EW]; congruence) V VW (front_wr _ _ _ EV FR) (room_ok _ _ _ _ _ _ EV EW V RM)) as (h' & s' & cs & E' & G' & V' & T' & R' & K').
    exists h', s', cs. split; [exact E'|]. split; [exact G'|]. split; [exact V'|]. split; [exact T'|]. split; [exact R'|exact K'].
  - assert (LV := Forall_inv FO). destruct (nth_some_lt _ _ LV) as [s EV]. rewrite EV. destruct (F _ _ EV) as (bs & V & E). rewrite <- E. eapply rstore; [exact RL|exact EV|]. intros hs RH OT.
    destruct (r_as_utf8_ok _ s hs bs G RH V) as (h' & s' & cs & E' & G' & V' & T' & R' & K' & _). exists h', s', cs. rewrite E'. split; [reflexivity|]. split; [exact G'|]. split; [exact V'|]. split; [exact T'|]. split; [exact R'|exact K'].
  - assert (LD := Forall_inv FO). assert (LV := Forall_inv (Forall_inv_tail FO)). assert (LW := Forall_inv (Forall_inv_tail (Forall_inv_tail FO))). destruct (nth_some_lt _ _ LV) as [s EV]. destruct (nth_some_lt _ _ LW) as [t EW]. rewrite EV, EW.
    destruct OK as (s2 & t2 & E2 & F2 & EB & EO). assert (s2 = s) by congruence. assert (t2 = t) by congruence. subst s2 t2. destruct (F _ _ EV) as (bs & V & E). destruct (F _ _ EW) as (ws & VW & E3). rewrite <- E, <- E3.
    apply rassign; [exact RL|exact LD|]. apply r_plus_ok; try assumption. eapply in_vars; exact EV.
Qed.
Lemma rinit_rel n : Rel (sinit n) (repeat [] n).
Proof.
  split; [apply sinit_rc|]. remember (2 + Z.of_nat n) as k eqn:Ek. unfold sinit. rewrite <- Ek. cbn [sh sv].
  assert (B : braw (with_refs (static_sbody []) k) []).
  { split; [|split; [cbn; lia|split; [constructor|split; [reflexivity|congruence]]]]. split; [|cbn; repeat split; try lia; discriminate].
    intros j a Ha. destruct j as [|j]; [|destruct j; discriminate]. cbn in *. congruence. }
  split. { intros b x S. apply sget_ok in S. destruct b as [|b]; [|destruct b; discriminate]. cbn [nth_error] in S. assert (x = with_refs (static_sbody []) k) by congruence. subst x. eauto. }
  assert (NO : rin [Some (with_refs (static_sbody []) k)] null_val []).
  { split; [exists (with_refs (static_sbody []) k); split; [reflexivity|exact B]|]. cbn. repeat split; lia. }
  split; [exact NO|]. split; [rewrite !repeat_length; reflexivity|]. intros u s Hs. assert (LU := nth_lt _ _ _ Hs). rewrite repeat_length in LU. apply nth_error_In in Hs. apply repeat_spec in Hs. subst s. exists []. split; [exact NO|].
  rewrite nth_repeat. reflexivity.
Qed.
Lemma rrun_ok os : forall st ts, Rel st ts -> r_run_ok st os -> exists st', rrun st os = Ok st' /\ Rel st' (fold_left r_spec_step os ts).
Proof.
  induction os as [|o os IH]; intros st ts RL OK; cbn [r_run_ok] in OK; cbn [rrun fold_left]; [eauto|].
  destruct OK as (FO & SO & NX). destruct (rstep_ok st ts o RL FO SO) as (st' & E & RL'). rewrite E. cbn [obind]. apply IH; auto.
Qed.
Lemma rel_reads st ts v : Rel st ts -> (v < length (sv st))%nat -> raw_reads st v (nth v ts []).
Proof.
  intros (_ & _ & _ & _ & F) LV. destruct (nth_some_lt _ _ LV) as [s EV]. destruct (F _ _ EV) as (bs & V & E). rewrite <- E. assert (RL := rbytes_len _ _ _ V). exists s. split; [exact EV|]. split; [lia|].
  split; [exists (sh st); rewrite (r_num_bytes_ok _ _ _ V), RL; reflexivity|]. intros i b Hb. exists (sh st). eapply r_index_ok; eassumption.
Qed.

(** ** Comparing and finding *)
Lemma memcmp_eq n : forall a b : list Z, (n <= length a)%nat -> (n <= length b)%nat -> exists c, memcmp a b n = Ok c /\ (c = 0 <-> firstn n a = firstn n b).
Proof.
  induction n as [|n IH]; intros [|p a] [|q b] HA HB; cbn [length] in *; try lia; cbn [memcmp firstn]; try (exists 0; split; [reflexivity|tauto]).
  cbn [rd nth_error obind tl]. destruct (Z.eqb_spec p q) as [->|N].
  - destruct (IH a b ltac:(lia) ltac:(lia)) as (c & E & Q). exists c. split; [exact E|]. rewrite Q. split; [congruence|]. intros X. congruence.
  - eexists. split; [reflexivity|]. split; [destruct (p <? q); discriminate|congruence].
Qed.
Lemma slice_end bs o n : (o + n <= length bs)%nat -> firstn n (skipn o (bs ++ [0])) = l_slice bs o n.
Proof. intros H. unfold l_slice. rewrite skipn_app, firstn_app, skipn_length. replace (n - (length bs - o))%nat with 0%nat by lia. cbn [firstn]. apply app_nil_r. Qed.
Lemma rin_mem h s bs : rin h s bs -> sv_mem h s = Ok (bs ++ [0]).
Proof. intros ((x & S & B) & _). unfold sv_mem. rewrite S. cbn [obind]. apply braw_smem. exact B. Qed.
Lemma r_equal_ok h s t bs cs : rin h s bs -> rin h t cs -> exists q, r_equal h s t = Ok q /\ (q = true <-> rbytes s bs = rbytes t cs).
Proof.
  intros V W. assert (SM := rin_small _ _ _ V). assert (SM' := rin_small _ _ _ W). assert (RV := rbytes_len _ _ _ V). assert (RW := rbytes_len _ _ _ W).
  unfold r_equal. destruct (Z.eqb_spec (v_len s) (v_len t)) as [EL|NL]; [|exists false; split; [reflexivity|split; [discriminate|intros E; exfalso; rewrite E in RV; lia]]].
  assert (V0 := V). assert (W0 := W). destruct V0 as (_ & O1 & L1 & OL1 & _). destruct W0 as (_ & O2 & L2 & OL2 & _).
  unfold r_compare. rewrite (r_nth_c_ok _ _ _ _ V) by lia. cbn [obind fst snd]. rewrite (r_nth_c_ok _ _ _ _ W) by lia. cbn [obind fst snd].
  rewrite (r_num_bytes_ok _ _ _ V). cbn [obind fst snd]. rewrite (rin_mem _ _ _ V). cbn [obind]. rewrite (rin_mem _ _ _ W). cbn [obind].
  destruct (Z.ltb_spec (v_off s + 0) 0); [lia|]. destruct (Z.ltb_spec (v_off t + 0) 0); [lia|]. cbn [orb]. rewrite !Z.add_0_r.
  destruct (memcmp_eq (Z.to_nat (v_len s)) (skipn (Z.to_nat (v_off s)) (bs ++ [0])) (skipn (Z.to_nat (v_off t)) (cs ++ [0]))) as (c & E & Q); [rewrite skipn_length, app_length; cbn [length]; lia|rewrite skipn_length, app_length; cbn [length]; lia|].
  rewrite E. cbn [obind]. rewrite !slice_end in Q by lia. fold (rbytes s bs) in Q. rewrite EL in Q. fold (rbytes t cs) in Q.
  destruct (Z.eqb_spec c 0) as [->|N].
  - rewrite (r_num_bytes_ok _ _ _ W). cbn [obind fst snd]. eexists. split; [reflexivity|]. rewrite EL, Z.sub_diag. change (s32 0) with 0. cbn [Z.eqb]. tauto.
  - cbn [obind]. eexists. split; [reflexivity|]. rewrite <- Q. destruct (Z.eqb_spec c 0); [tauto|]. split; [discriminate|tauto].
Qed.

Lemma r_get_any h s bs k : rin h s bs -> (k <= length bs)%nat -> exists c, r_get h s (Z.of_nat k) = Ok c.
Proof.
  intros V HK. destruct (nth_error bs k) as [b|] eqn:E; [exists (seen b); eapply r_get_ok; eassumption|]. apply nth_error_None in E. destruct V as ((x & S & B) & _). unfold r_get. rewrite S. cbn [obind]. rewrite (braw_smem _ _ B). cbn [obind].
  destruct (Z.ltb_spec (Z.of_nat k) 0); [lia|]. rewrite (braw_raw _ _ B). destruct bs as [|b0 bs0] eqn:EB.
  - assert (k = 0%nat) by (cbn in HK; lia). subst k. eexists. vm_compute. reflexivity.
  - rewrite <- EB in *. rewrite (UTF8Proofs.rdZ_ok _ _ 0); [cbn [obind]; eauto|lia|]. rewrite Nat2Z.id, nth_error_app2 by lia. replace (k - length bs)%nat with 0%nat by lia. reflexivity.
Qed.
Lemma s32_small z : 0 <= z < 2^31 -> s32 z = z.
Proof. intros H. unfold s32. rewrite Z.mod_small by lia. cbv zeta. destruct (Z.ltb_spec z 2147483648); lia. Qed.
Lemma r_find_loop_ok h s bs ch : rin h s bs -> forall k n f, (n + k = length (rbytes s bs))%nat -> (k + 2 <= f)%nat ->
  exists r, r_find_loop f h s ch (Z.of_nat n) = Ok r /\
    match r_first ch (map seen (skipn n (rbytes s bs))) with Some i => r = Z.of_nat (n + i) | None => r = -1 \/ r = v_len s end.
Proof.
  intros V. assert (SM := rin_small _ _ _ V). assert (RV := rbytes_len _ _ _ V). assert (V0 := V). destruct V0 as (_ & O & L & OL & _).
  induction k as [|k IH]; intros n [|f] HN HF; try lia; cbn [r_find_loop]; rewrite (r_nth_c_ok _ _ _ _ V) by lia; cbn [obind fst snd].
  - replace (v_off s + Z.of_nat n) with (Z.of_nat (Z.to_nat (v_off s) + n)) by lia. destruct (r_get_any h s bs (Z.to_nat (v_off s) + n) V ltac:(lia)) as [c EC]. rewrite EC. cbn [obind].
    rewrite skipn_all2 by lia. cbn [map r_first]. destruct (c =? ch); [eexists; split; [reflexivity|]; right; rewrite s32_small by lia; lia|].
    destruct f as [|f]; [lia|]. cbn [r_find_loop]. unfold r_nth_c, r_sv_nth. replace (u32 (Z.of_nat n + 1)) with (Z.of_nat n + 1) by (unfold u32; lia). destruct (Z.gtb_spec (Z.of_nat n + 1) (v_len s)); [|lia]. cbn [obind fst snd].
    eexists. split; [reflexivity|]. auto.
  - destruct (nth_some_lt (rbytes s bs) n ltac:(lia)) as [b EB]. assert (EB' := EB). apply rbytes_nth in EB' as [EB' _].
    replace (v_off s + Z.of_nat n) with (Z.of_nat (Z.to_nat (v_off s) + n)) by lia. rewrite (r_get_ok _ _ _ _ _ V EB'). cbn [obind].
    assert (SK : skipn n (rbytes s bs) = b :: skipn (S n) (rbytes s bs)).
    { clear -EB. revert n EB. induction (rbytes s bs) as [|x l IHl]; intros [|n] E; cbn in *; try discriminate; [congruence|apply IHl; exact E]. }
    rewrite SK. cbn [map r_first]. destruct (Z.eqb_spec (seen b) ch) as [E|N].
    + eexists. split; [reflexivity|]. rewrite s32_small by lia. lia.
    + replace (u32 (Z.of_nat n + 1)) with (Z.of_nat (S n)) by (unfold u32; lia). destruct (IH (Datatypes.S n) f ltac:(lia) ltac:(lia)) as (r & E & Q).
      exists r. split; [exact E|]. revert Q. destruct (r_first ch (map seen (skipn (S n) (rbytes s bs)))); cbn [option_map]; [intros ->; f_equal; lia|auto].
Qed.
