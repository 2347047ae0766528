(** Sequences of quantified atoms with many ? or * at the beginning: the
    matcher overruns its shunts (RxMaxNesting) on every text. *)
From Verif Require Import Base UTF8Model CharModel RxCompModel RxModel RxSpec RxVm RxScan RxGen RxProg RxCheck RxStraight RxQuant.
From Verif Require RxSpell RxSpellSpec RxLay RxRun.

Section Deep.
Variable P : list Z.
(** [k] splits, each at the station that the one before leads to first *)
Fixpoint splits (k : nat) (s q : Z) : Prop :=
  match k with
  | O => True
  | S k => exists n j, decode P s = Ok (ISplit n j) /\ s < n <= q /\ splits k n q
  end.
Lemma splits_of s : wf_sq s -> plain_sq s -> small P -> forall X pre post, code_of s X -> P = pre ++ X ++ post -> splits (leading (quants s)) (zl pre) (zl pre + zl X).
Proof.
  intros HW HS SM. induction s as [|i s IH]; intros X pre post HC HP; cbn [code_of quants leading] in *; [exact Logic.I|].
  destruct HW as [Hwi HW]. destruct HS as [Hi HS]. destruct HC as (Y & Z & -> & SH & HC).
  destruct (decode_item P i Y pre (Z ++ post) Hi Hwi SM SH) as (j & L). { rewrite HP. norm_app. }
  specialize (IH HW HS Z (pre ++ Y) post HC). rewrite !zl_app in IH. rewrite zl_app.
  assert (HP' : P = (pre ++ Y) ++ Z ++ post) by (rewrite HP; norm_app). specialize (IH HP').
  destruct (may_skip (quant_of i)) eqn:K; [|exact Logic.I]. cbn [splits].
  exists (zl pre + zl Y), j. replace (zl pre + (zl Y + zl Z)) with (zl pre + zl Y + zl Z) by lia. pose proof (zl_pos Z).
  assert (1 <= zl Y /\ decode P (zl pre) = Ok (ISplit (zl pre + zl Y) j)).
  { destruct (quant_of i); try discriminate K; cbn [link shape] in *.
    - destruct SH as (v & _ & ->). destruct L as [L _]. split; [|exact L]. rewrite zl_cons. pose proof (zl_pos (offset_bytes v ++ atom_code i)). lia.
    - destruct SH as (v & w & _ & _ & ->). destruct L as [L _]. split; [|exact L]. rewrite zl_cons. pose proof (zl_pos (offset_bytes v ++ atom_code i ++ 74 :: offset_bytes w)). lia. }
  split; [apply H0|]. split; [lia|exact IH].
Qed.
Variables (h : header) (t : list Z) (g : Z) (look : Z -> Z -> outcome (bool * Z)) (q : Z).
Lemma apart s sh : s <= q -> (forall x, In x sh -> x < s \/ q < x) -> existsb (Z.eqb s) sh = false.
Proof. intros Hs Hx. apply not_true_is_false. intros E. apply existsb_exists in E as (x & X & E). apply Z.eqb_eq in E. subst x. destruct (Hx s X); lia. Qed.
Lemma deep k : forall f s sh r off, splits k s q -> s <= q -> (forall x, In x sh -> x < s \/ q < x) -> (length sh <= 12)%nat -> (12 <= length sh + k)%nat -> (2 * k + 2 < f)%nat ->
  addthread P h t g look f (mkthread s r) off sh 0 [] = Abort.
Proof.
  induction k as [|k IH]; intros f s sh r off HS Hs HX HL HK Hf; (destruct f as [|[|f]]; [lia..|]); rewrite RxRun.addS; cbn [t_station]; rewrite (apart s sh Hs HX).
  - assert (length sh = 12)%nat as -> by lia. reflexivity.
  - destruct HS as (n & j & D & Hn & HS). unfold RxMaxNesting. destruct (Nat.ltb_spec (length sh) 12) as [L|L]; [|reflexivity]. cbn [cassert duplicate].
    rewrite RxRun.goS. cbv zeta. cbn [t_station t_result]. rewrite D. cbn [obind].
    rewrite (IH f n (s :: sh) r off HS); [reflexivity|lia| |cbn [length]; lia|cbn [length]; lia|lia].
    intros x [<-|Hx]; [left; lia|]. destruct (HX x Hx); [left|right]; lia.
Qed.
Lemma deep_go k f s sh r off : splits (S k) s q -> (forall x, In x sh -> x < s \/ q < x) -> (length sh <= 12)%nat -> (12 <= length sh + k)%nat -> (2 * k + 4 < f)%nat ->
  go P h t g look f (mkthread s r) off sh [] = Abort.
Proof.
  intros (n & j & D & Hn & HS) HX HL HK Hf. destruct f as [|f]; [lia|]. rewrite RxRun.goS. cbv zeta. cbn [t_station t_result]. rewrite D. cbn [obind].
  rewrite (deep k f n sh r off HS); [reflexivity|lia| |lia..]. intros x Hx. destruct (HX x Hx); [left|right]; lia.
Qed.
End Deep.

Lemma splits_less P k k' s q : (k' <= k)%nat -> splits P k s q -> splits P k' s q.
Proof.
  revert k s. induction k' as [|k' IH]; intros k s H HS; [exact Logic.I|]. destruct k as [|k]; [lia|]. destruct HS as (n & j & D & Hn & HS). exists n, j. split; [exact D|]. split; [exact Hn|].
  apply (IH k); [lia|exact HS].
Qed.
Lemma many_abort s re prog m : wf (XSeq s) -> plain_sq s -> RxSpellSpec.written (XSeq s) re -> short_program AllFeatures 0 re ->
  compile AllFeatures 0 re = Ok (Some prog, m) -> forall f g t off, (40 < f)%nat ->
  ((12 <= leading (quants s))%nat -> match_at f g prog t off = Abort) /\ ((11 <= leading (quants s))%nat -> match_after f g prog t off = Abort).
Proof.
  intros Hw HS HW HL H. unfold compile in H. cbv zeta in H. bind H es Es. unfold short_program, counted in HL. rewrite Es in HL. change (Z.land AllFeatures (Z.lnot 0)) with AllFeatures in Es. rewrite (RxSpell.scan_written _ re Hw HW) in Es. assert (es = map Tok (all_toks (XSeq s))) by congruence. subst es.
  bind H x Ex. destruct x as [[s1 m1] ok]. destruct ok; [|discriminate H]. cbn [negb] in H. destruct (o_stack s1) eqn:Estk; [|discriminate H]. rewrite Ex, Estk in HL. specialize (HL _ _ _ eq_refl).
  destruct (cost_toks _ Hw) as [HK _].
  destruct (first_all _ _ _ _ _ HK Ex) as ((B1 & B2 & B3 & B4 & _) & _).
  { unfold one_ok. cbn. repeat split; try lia. constructor. }
  pose proof (sizes (o_bytes s1) (o_offsets s1) B1 B2 ltac:(lia)) as HM.
  set (M := offset_max_bytes (o_bytes s1) (o_offsets s1)) in *. set (cap := Z.to_nat (allocated (o_bytes s1) (o_offsets s1) + 1)) in *.
  bind H y Ey. destruct y as [[w m2] ok2]. apply pass_run in Ey. cbn [fst snd] in Ey. destruct Ey as (Er & -> & ->). rewrite B4 in Er.
  bind H b Eb. assert (b = prog) by congruence. subst b.
  assert (Hst : 0 <= o_stations s1 < 2^29) by lia.
  destruct (whole_plain M cap (o_stations s1) HM s _ w prog HS Er Eb) as (v1 & v2 & mx & a & c & X & HC & HP & HSm & Hv2 & Hv1 & Ha & Hc).
  destruct (RxLay.whole_program v1 v2 (o_stations s1) mx a c [] X prog) as (h & P1 & P2 & P3 & _ & P5 & _).
  { rewrite HP. reflexivity. } { exact HSm. } { exact Hst. } { constructor. } { cbn. lia. } { change RxCode.zob with zob. change (zl (flat_map string_bytes [])) with 0. lia. } { change RxCode.zob with zob. change (zl (flat_map string_bytes [])) with 0. lia. }
  destruct (whole_code v1 v2 _ mx a c X prog HP HSm Ha Hc) as (D1 & D2 & D3 & D4 & D5 & E & Ez & L1 & L2 & L3 & L4 & L5).
  change RxCode.zob with zob in P2, P3. change (zl (flat_map string_bytes [])) with 0 in P2, P3. rewrite Z.add_0_r in P2, P3.
  rewrite zigzag_st in P5 by exact Hst.
  set (start := 1 + zob v1 + zob v2 + zob (o_stations s1) + 3) in *. set (rs := start + 2) in *. set (q := rs + zl X) in *. set (search := q + 1) in *. set (anyst := search + 1 + zob a) in *. set (jmp := anyst + 1) in *.
  pose proof (splits_of prog s Hw HS HSm X _ _ HC E) as SP. rewrite Ez in SP. fold q in SP.
  intros f g t off Hf. unfold match_at, match_after. rewrite P1. cbn [obind]. rewrite P2, P3. unfold match_from.
  assert (ST : forall look f r sh k, (32 < f)%nat -> existsb (Z.eqb start) sh = false -> (length sh <= 1)%nat -> (forall x, In x sh -> q < x) -> (k <= leading (quants s))%nat ->
    k = (12 - length sh)%nat -> addthread prog h t g look f (mkthread start r) off sh 0 [] = Abort).
  { clear f Hf. intros look f r sh k Hf NI HLs HQs HKl Hk. destruct f as [|[|f]]; [lia..|]. rewrite RxRun.addS. cbn [t_station]. rewrite NI. unfold RxMaxNesting.
    destruct (Nat.ltb_spec (length sh) 12) as [L|L]; [|lia]. cbn [cassert duplicate]. rewrite RxRun.goS. cbv zeta. cbn [t_station t_result]. rewrite D1. cbn [obind]. unfold capture_set. cbn [Z.mul Z.eqb obind].
    destruct k as [|k]; [lia|].
    apply (deep_go prog h t g look q k f rs); [eapply splits_less; [exact HKl|exact SP]| |cbn [length]; lia|cbn [length]; lia|lia].
    intros x [<-|Hx]; [left; lia|right; apply HQs, Hx]. }
  split; intros HKl.
  - rewrite (ST _ f _ [] 12%nat); [reflexivity|lia|reflexivity|cbn; lia|intros ? []|exact HKl|reflexivity].
  - destruct f as [|[|f]]; [lia..|]. match goal with |- context [addthread _ _ _ _ ?l] => set (lk := l) end. rewrite RxRun.addS. cbn [t_station existsb length duplicate]. unfold RxMaxNesting. cbn [Nat.ltb Nat.leb cassert].
    rewrite RxRun.goS. cbv zeta. cbn [t_station t_result]. rewrite D3. cbn [obind].
    rewrite (ST lk f _ [search] 11%nat); [reflexivity|lia| |cbn; lia| |exact HKl|reflexivity].
    + cbn [existsb]. destruct (Z.eqb_spec start search); [lia|reflexivity].
    + intros x [<-|[]]. lia.
Qed.
