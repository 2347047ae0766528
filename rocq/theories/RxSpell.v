(** Every way to write a regular expression is scanned to the same tokens. *)
From Verif Require Import Base UTF8Model CharModel ErrNumModel StrNumModel RxCompModel RxSpec RxSpellSpec RxVm RxScan.
From Verif Require StrNumSpec StrNumProofs.

(** ** Numbers *)
Lemma white_span l : skip_white l = snd (StrNumProofs.span UCS4IsWhite l).
Proof. induction l as [|c l IH]; [reflexivity|]. cbn [skip_white StrNumProofs.span]. destruct (UCS4IsWhite c); [|reflexivity]. rewrite IH. destruct (StrNumProofs.span _ l). reflexivity. Qed.
Lemma acc_bound radix ds : 2 <= radix <= 16 -> Forall (fun d => 0 <= d < radix) ds -> forall a, 0 <= a ->
  StrNumProofs.acc radix ds a < (a + 1) * 16 ^ Z.of_nat (length ds).
Proof.
  intros R. induction 1 as [|d ds D _ IH]; intros a A; [cbn; lia|]. cbn [StrNumProofs.acc fold_left length]. unfold StrNumProofs.acc in IH.
  rewrite Nat2Z.inj_succ, Z.pow_succ_r by lia. specialize (IH (a * radix + d) ltac:(nia)).
  assert (0 < 16 ^ Z.of_nat (length ds)) by (apply Z.pow_pos_nonneg; lia). nia.
Qed.
(** The digits, up to something that is none *)
Definition no_more (radix : Z) (tail : list Z) : Prop :=
  match tail with [] => True | c :: _ => UCS4IsWhite c = false /\ StrNumProofs.isdig radix c = false end.
Lemma digits_run radix b tail : 2 <= radix <= 16 -> Forall (fun c => StrNumProofs.isdig radix c = true) b -> no_more radix tail ->
  forall l, 0 <= l -> (l + 1) * 16 ^ Z.of_nat (length b) <= 2^60 ->
  RxCompModel.digits radix (u64 ((2^64 - 2) / radix + 1)) l (b ++ tail) = Ok (tail, Some (StrNumProofs.acc radix (map (StrNumProofs.dv radix) b) l)).
Proof.
  intros R F HT. induction F as [|c b D F IH]; intros l L B.
  - destruct tail as [|c tail]; [reflexivity|]. cbn [app RxCompModel.digits]. destruct (StrNumProofs.Digit_spec radix c ltac:(lia)) as [-> _]. cbn [obind].
    destruct HT as [_ HT]. unfold StrNumProofs.isdig in HT. destruct (Z.ltb_spec (StrNumProofs.dv radix c) 0); [reflexivity|lia].
  - cbn [app RxCompModel.digits]. destruct (StrNumProofs.Digit_spec radix c ltac:(lia)) as (-> & _ & RG & _). cbn [obind]. unfold StrNumProofs.isdig in D.
    destruct (Z.ltb_spec (StrNumProofs.dv radix c) 0); [lia|]. cbn [length] in B. rewrite Nat2Z.inj_succ, Z.pow_succ_r in B by lia.
    set (d := StrNumProofs.dv radix c) in *. set (p := 16 ^ Z.of_nat (length b)) in *. assert (0 < p) by (apply Z.pow_pos_nonneg; lia).
    assert (LB : l < 2^60) by nia. assert (NB : (l * radix + d + 1) * p <= 2^60) by nia.
    destruct (StrNumProofs.overflow_test radix l d) as [O1 O2]; [lia..|].
    assert (l * radix + d < 2^64) by nia. cbv zeta. rewrite O1, O2 by lia. destruct (Z.leb_spec (2^64) (l * radix + d)); [lia|].
    rewrite IH by (exact NB || nia). reflexivity.
Qed.
Lemma as_int_digits radix b v tail : 2 <= radix <= 16 -> StrNumSpec.digits radix b v -> (length b <= 5)%nat -> no_more radix tail ->
  as_int radix (b ++ tail) = Ok {| ir_value := v; ir_err := match tail with [] => 0 | _ => STRERR_TRAIL_TEXT end; ir_scanned := Z.of_nat (length b) |} /\ 0 <= v < 2^20.
Proof.
  intros R HD L HT. apply StrNumProofs.digits_isdig in HD; [|lia]. destruct HD as (N & F & EV).
  assert (V : 0 <= v < 2^20).
  { assert (FR : Forall (fun d => 0 <= d < radix) (map (StrNumProofs.dv radix) b)).
    { apply Forall_map. eapply Forall_impl; [|exact F]. intros c D. destruct (StrNumProofs.Digit_spec radix c ltac:(lia)) as (_ & _ & RG & _). unfold StrNumProofs.isdig in D. cbv beta in D. lia. }
    rewrite EV. split; [apply StrNumProofs.acc_ge; [lia| |lia]; eapply Forall_impl; [|exact FR]; cbv beta; lia|].
    pose proof (acc_bound radix _ R FR 0 ltac:(lia)) as A. rewrite map_length in A.
    assert (16 ^ Z.of_nat (length b) <= 16 ^ 5) by (apply Z.pow_le_mono_r; lia). change (16^5) with (2^20) in *. lia. }
  split; [|exact V]. destruct b as [|c b]; [contradiction|].
  assert (Dc : StrNumProofs.isdig radix c = true) by (inversion F; assumption).
  pose proof (proj1 (StrNumProofs.isdig_spec radix c ltac:(lia)) Dc) as Dg.
  assert (W : UCS4IsWhite c = false) by (eapply StrNumProofs.digit_noblank; exact Dg).
  assert (S1 : (c =? 43) || (c =? 45) = false).
  { destruct (Z.eqb_spec c 43); [exfalso; eapply (StrNumProofs.sign_nodigit radix c); [left; assumption|exact Dg]|].
    destruct (Z.eqb_spec c 45); [exfalso; eapply (StrNumProofs.sign_nodigit radix c); [right; assumption|exact Dg]|]. reflexivity. }
  assert (S2 : (c =? 45) = false) by (apply orb_false_iff in S1; apply S1).
  unfold as_int. cbn [app skip_white]. rewrite W, S1, S2. destruct (StrNumProofs.Digit_spec radix c ltac:(lia)) as (-> & _). cbn [obind].
  unfold StrNumProofs.isdig in Dc. destruct (Z.ltb_spec (StrNumProofs.dv radix c) 0); [lia|].
  change (c :: b ++ tail) with ((c :: b) ++ tail). rewrite digits_run; [|assumption..|lia|].
  2:{ assert (16 ^ Z.of_nat (length (c :: b)) <= 16 ^ 5) by (apply Z.pow_le_mono_r; lia). change (16^5) with (2^20) in *. lia. }
  cbn [obind fst snd andb]. rewrite <- EV. assert (ET : skip_white tail = tail) by (destruct tail as [|x tail]; [reflexivity|]; cbn [skip_white]; destruct HT as [-> _]; reflexivity).
  rewrite ET. destruct (Z.gtb_spec v (2^63 - 1 + 0)); [lia|]. destruct (Z.ltb_spec v (2^63)); [|lia].
  rewrite app_length. do 2 f_equal; [|lia]. unfold s32. rewrite Z.mod_small by lia. destruct (Z.ltb_spec v 2147483648); lia.
Qed.

(** ** Characters *)
Lemma at_app pre rest k : k = length pre -> at_ (pre ++ rest) k = at_ rest 0.
Proof.
  intros ->. unfold at_. rewrite app_length, app_nth2 by lia. rewrite Nat.sub_diag.
  destruct (Nat.eqb_spec (length pre) (length pre + length rest)), (Nat.eqb_spec 0 (length rest)); reflexivity || lia.
Qed.
Lemma skip_app pre rest k : k = length pre -> skipn k (pre ++ rest : list Z) = rest.
Proof. intros ->. induction pre; [reflexivity|assumption]. Qed.
Lemma first_at w rest : at_ (w ++ rest) 0 = first w (at_ rest 0).
Proof. destruct w; reflexivity. Qed.

Lemma code_tail radix k w c rest : 2 <= radix -> code radix k w c (at_ rest 0) -> exists tail, firstn k (w ++ rest) = w ++ tail /\ no_more radix tail.
Proof.
  intros R (_ & L & [E|[B D]]).
  - exists []. split; [|exact I]. rewrite <- E, firstn_app, Nat.sub_diag, firstn_all. destruct rest; reflexivity.
  - rewrite firstn_app, (firstn_all2 w) by exact L. eexists. split; [reflexivity|].
    destruct rest as [|x rest]; [rewrite firstn_nil; exact I|]. destruct (k - length w)%nat; [exact I|]. cbn [firstn no_more]. change (at_ (x :: rest) 0) with x in B, D. split.
    + destruct (UCS4IsWhite x) eqn:W; [|reflexivity]. apply StrNumProofs.white_blank in W. contradiction.
    + destruct (StrNumProofs.isdig radix x) eqn:W; [|reflexivity]. apply StrNumProofs.isdig_spec in W; [|lia]. destruct (D _ W).
Qed.
Lemma round_code radix bad pre k n w c rest d : 2 <= radix <= 16 -> (n <= 5)%nat -> k = length pre -> code radix n w c (at_ rest 0) ->
  scan_code radix k n bad (pre ++ w ++ rest) d = Ok (delay [] d c (at_ rest 0) rest).
Proof.
  intros R N Hk HC. unfold scan_code. rewrite skip_app by exact Hk.
  destruct (code_tail radix n w c rest ltac:(lia) HC) as (tail & -> & HT). destruct HC as (HD & L & _).
  destruct (as_int_digits radix w c tail R HD ltac:(lia) HT) as [-> V]. cbn [obind ir_err ir_scanned ir_value]. clear HT.
  assert (W : (0 < length w)%nat) by (destruct HD as [NE _]; destruct w; [contradiction|cbn; lia]).
  assert (Z.of_nat (length w) =? 0 = false) as -> by lia.
  assert (E : negb (match tail with [] => 0 | _ => STRERR_TRAIL_TEXT end =? 0) && negb (match tail with [] => 0 | _ => STRERR_TRAIL_TEXT end =? STRERR_TRAIL_TEXT) = false).
  { destruct tail; [reflexivity|]. rewrite Z.eqb_refl. apply andb_false_r. }
  rewrite E. cbn [orb]. cbv zeta. rewrite Nat2Z.id, app_assoc, at_app, skip_app by (rewrite app_length; lia).
  unfold u32. rewrite Z.mod_small by lia. reflexivity.
Qed.

Lemma not_letter c x : ~ escape_letter c -> In x [98; 101; 102; 110; 114; 116; 120; 117; 115; 100; 104; 112] -> c =? x = false.
Proof. intros H I. destruct (Z.eqb_spec c x) as [->|]; [|reflexivity]. destruct H. left. exact I. Qed.
Lemma round_spelt c w rest d : spells c w (at_ rest 0) -> scan_round AllFeatures 0 (w ++ rest) d = Ok (delay [] d c (at_ rest 0) rest).
Proof.
  intros H. inversion H as [n S|n Q|l n L|o v n O C|v n C|v n C]; subst.
  - apply round_plain. unfold plain. rewrite S. reflexivity.
  - cbn [app]. change (scan_round AllFeatures 0 (92 :: c :: rest) d) with (scan_escape AllFeatures (92 :: c :: rest) d).
    unfold scan_escape. rewrite at_1, at_0, at_2. cbn [skipn]. rewrite !(not_letter c) by (assumption || (cbn; tauto)).
    assert ((48 <=? c) && (c <=? 55) = false) as -> by (destruct (Z.leb_spec 48 c), (Z.leb_spec c 55); try reflexivity; exfalso; apply Q; right; lia). reflexivity.
  - cbn [letter_escape In] in L. unfold letter_escape in L. cbn [In] in L.
    repeat (destruct L as [L|L]; [assert (l = fst (l, c)) as El by reflexivity; rewrite <- L in El; assert (c = snd (l, c)) as Ec by reflexivity; rewrite <- L in Ec; cbn [fst snd] in El, Ec; subst; reflexivity|]). contradiction.
  - cbn [app]. change (scan_round AllFeatures 0 (92 :: o :: v ++ rest) d) with (scan_escape AllFeatures (92 :: o :: v ++ rest) d).
    unfold scan_escape. rewrite at_1, at_0. cbv zeta. assert ((48 <=? o) && (o <=? 55) = true) as -> by lia.
    repeat match goal with |- context [o =? ?k] => replace (o =? k) with false by lia end.
    change (enabled AllFeatures OctalChar) with true. cbv iota. apply (round_code 8 MBadOctal [92] 1 3 (o :: v)); [lia|lia|reflexivity|exact C].
  - cbn [app]. change (scan_round AllFeatures 0 (92 :: 120 :: v ++ rest) d) with (scan_code 16 2 2 MBadHex (92 :: 120 :: v ++ rest) d).
    apply (round_code 16 MBadHex [92; 120] 2 2 v); [lia|lia|reflexivity|exact C].
  - cbn [app]. change (scan_round AllFeatures 0 (92 :: 117 :: v ++ rest) d) with (scan_code 16 2 5 MBadUnicode (92 :: 117 :: v ++ rest) d).
    apply (round_code 16 MBadUnicode [92; 117] 2 5 v); [lia|lia|reflexivity|exact C].
Qed.
Lemma spells_head c w n : spells c w n -> exists x w', w = x :: w' /\ repeats x = false.
Proof.
  intros H. inversion H; subst; try (eexists _, _; split; [reflexivity|reflexivity]).
  exists c, []. split; [reflexivity|]. unfold repeats. rewrite !(plain_ne c) by ((unfold plain; match goal with E : special _ = false |- _ => rewrite E end; reflexivity) || (cbn; tauto)). reflexivity.
Qed.

(** ** Classes *)
Lemma in_class_len c w : spells_in_class c w -> (1 <= length w)%nat.
Proof. intros H. inversion H; cbn; lia. Qed.
Lemma class_first' f c w r param : ok_char c -> spells_in_class c w ->
  class_loop (S f) (w ++ r) param =
  let r' := c :: r in
  if (at_ r' 1 =? 45) && negb (at_ r' 2 =? 93) then
    let r := skipn 2 r' in
    let d := at_ r 0 in
    if d =? 0 then (None, r)
    else
      let r := if d =? 92 then skipn 1 r else r in
      let d := at_ r 0 in
      if d =? 0 then (None, r)
      else class_loop f (skipn 1 r) (param ++ [c; d])
  else class_loop f r (param ++ [c; c]).
Proof.
  intros Hc H. assert (E0 : c =? 0 = false) by (destruct Hc; lia). cbn zeta. inversion H as [N1 N2 N3|]; subst.
  - cbn [app class_loop]. rewrite at_0, E0. assert (c =? 93 = false) as -> by lia. assert (c =? 92 = false) as -> by lia. rewrite at_0, E0. reflexivity.
  - cbn [app class_loop]. rewrite at_0. cbn [Z.eqb Pos.eqb skipn]. rewrite at_0, E0. reflexivity.
Qed.
(** What follows a range: not a -, but for the last character *)
Definition after_range (r : list Z) : Prop := at_ r 0 <> 45 \/ at_ r 1 = 93.
Lemma class_range' f x w r param : ok_char (fst x) -> ok_char (snd x) -> range_spelt x w -> after_range r ->
  class_loop (S f) (w ++ r) param = class_loop f r (param ++ [fst x; snd x]).
Proof.
  intros H1 H2 HR HA. inversion HR as [c w' Hc|a b w1 w2 Ha Hb]; subst; cbn [fst snd] in *.
  - rewrite (class_first' _ c) by assumption. cbn zeta. rewrite at_1. change (at_ (c :: r) 2) with (at_ r 1).
    destruct HA as [N| ->]; [assert (at_ r 0 =? 45 = false) as -> by lia; reflexivity|]. cbn [Z.eqb Pos.eqb negb]. rewrite andb_false_r. reflexivity.
  - rewrite <- !app_assoc. rewrite (class_first' _ a) by assumption. cbn zeta. cbn [app]. rewrite at_1, at_0. cbn [Z.eqb Pos.eqb andb].
    change (at_ (a :: 45 :: w2 ++ r) 2) with (at_ (w2 ++ r) 0). cbn [skipn].
    assert (E0 : b =? 0 = false) by (destruct H2; lia). inversion Hb as [N1 N2 N3|]; subst.
    + cbn [app]. rewrite !at_0. assert (b =? 93 = false) as -> by lia. assert (b =? 92 = false) as -> by lia. cbn [negb]. rewrite at_0, E0. reflexivity.
    + cbn [app]. rewrite !at_0. cbn [Z.eqb Pos.eqb negb skipn]. rewrite at_0, E0. reflexivity.
Qed.
Lemma range_first x w : range_spelt x w -> exists c w', w = c :: w' /\ c <> 45 /\ c <> 93.
Proof.
  assert (G : forall c w, spells_in_class c w -> exists x w', w = x :: w' /\ x <> 45 /\ x <> 93) by (intros c v H; inversion H; subst; eexists _, _; (split; [reflexivity|lia])).
  intros H. inversion H as [c v Hc|a b w1 w2 Ha Hb]; subst; [eauto|]. destruct (G _ _ Ha) as (c & v & -> & E). cbn [app]. eexists _, _. split; [reflexivity|exact E].
Qed.
Lemma ranges_after l w r : ranges_spelt l w -> after_range (w ++ 93 :: r).
Proof.
  intros H. inversion H as [| |x l' w1 w2 HR _]; subst; [left; cbn; lia|right; reflexivity|].
  destruct (range_first _ _ HR) as (c & v & -> & N & _). left. exact N.
Qed.
Lemma ranges_len' l w : ranges_spelt l w -> (length l <= length w)%nat.
Proof.
  induction 1 as [| |x l w w' HR _ IH]; [reflexivity..|]. destruct (range_first _ _ HR) as (c & v & -> & _). rewrite app_length. cbn [length]. lia.
Qed.
Lemma class_ranges' l w : ranges_spelt l w -> Forall (fun x => ok_char (fst x) /\ ok_char (snd x)) l -> forall f param r,
  (length l < f)%nat -> class_loop f (w ++ 93 :: r) param = (Some (param ++ class_text l), 93 :: r).
Proof.
  induction 1 as [| |x l w w' HR HL IH]; intros F f param r Hf.
  - destruct f as [|f]; [cbn in Hf; lia|]. cbn [app class_loop]. rewrite at_0. cbn. rewrite app_nil_r. reflexivity.
  - destruct f as [|[|f]]; [cbn in Hf; lia..|]. reflexivity.
  - destruct f as [|f]; [cbn in Hf; lia|]. inversion F as [|? ? [F1 F2] F3]; subst. rewrite <- app_assoc.
    rewrite (class_range' f x) by (assumption || (eapply ranges_after; eassumption)).
    cbn [length] in Hf. rewrite IH by (assumption || lia). rewrite <- app_assoc. reflexivity.
Qed.
Lemma scan_class_spelt neg l w rest d : class_spelt neg l w -> l <> [] -> Forall (fun x => ok_char (fst x) /\ ok_char (snd x)) l ->
  scan_class [] (([91] ++ (if neg then [94] else []) ++ w ++ [93]) ++ rest) d = emit [] d (map Tok [TClass neg (class_text l)]) rest.
Proof.
  intros HC NE F. rewrite <- !app_assoc. cbn [app].
  assert (B : forall h r, h = at_ ((if neg then [94] else []) ++ r) 0 -> (neg = false -> at_ r 0 <> 94) -> (h =? 94) = neg).
  { intros h r -> N. destruct neg; [reflexivity|]. specialize (N eq_refl). cbn [app]. lia. }
  assert (SK : forall r, skipn (if neg then 2 else 1) (91 :: (if neg then [94] else []) ++ r) = r) by (intros; destruct neg; reflexivity).
  unfold scan_class. rewrite at_1. inversion HC as [l' w' HR N1 N2|c l' w' Hc HR]; subst.
  - assert (HW : exists x v, w = x :: v). { inversion HR as [| |x l' w1 w2 R1 R2]; subst; [contradiction|eauto|]. destruct (range_first _ _ R1) as (c & v & -> & _). cbn [app]. eauto. }
    destruct HW as (x & v & ->). cbn [first] in N1, N2. cbn [app].
    rewrite (B _ (x :: v ++ 93 :: rest) eq_refl N2), SK, at_0. assert (x <> 93).
    { inversion HR as [| |y l' w1 w2 R1 R2 E1 E2]; subst; [lia|]. destruct (range_first _ _ R1) as (c & v' & -> & _ & K). cbn [app] in E2. congruence. }
    assert ((x =? 45) || (x =? 93) = false) as -> by lia. cbn zeta.
    change (x :: v ++ 93 :: rest) with ((x :: v) ++ 93 :: rest). rewrite (class_ranges' l (x :: v)); [reflexivity|assumption..|].
    pose proof (ranges_len' _ _ HR). rewrite app_length. cbn [length] in *. lia.
  - cbn [app]. rewrite (B _ (c :: w' ++ 93 :: rest) eq_refl) by (intros _; rewrite at_0; lia). rewrite SK, at_0.
    assert ((c =? 45) || (c =? 93) = true) as -> by lia. cbn zeta. cbn [skipn].
    inversion F as [|? ? [F1 F2] F3]; subst. rewrite (class_ranges' l' w'); [reflexivity|assumption..|].
    pose proof (ranges_len' _ _ HR). cbn [length]. rewrite app_length. cbn [length]. lia.
Qed.

(** ** Everything *)
Definition scansB (rest d : list Z) (es : list event) : Prop := exists f, (f <= length rest)%nat /\ scan_loop AllFeatures 0 f rest d = Ok es.
Lemma roundB pre rest d es d' es' : pre <> [] -> scan_round AllFeatures 0 (pre ++ rest) d = Ok (es, d', rest) ->
  scansB rest d' es' -> scansB (pre ++ rest) d (es ++ es').
Proof.
  intros NE E (f & L & H). exists (S f). split; [rewrite app_length; destruct pre; [contradiction|cbn [length]; lia]|].
  destruct pre as [|c pre]; [contradiction|]. cbn [app scan_loop] in *. rewrite E. cbn [obind]. rewrite H. reflexivity.
Qed.
Lemma emitB pre rest d ts es : pre <> [] -> scan_round AllFeatures 0 (pre ++ rest) d = Ok (emit [] d (map Tok ts) rest) ->
  scansB rest [] es -> scansB (pre ++ rest) d (map Tok (flush' d ++ ts) ++ es).
Proof. intros Hn H Hs. rewrite map_app, <- flush_map. eapply roundB; [exact Hn|exact H|exact Hs]. Qed.
Lemma quantB q rest d es : scansB rest [] es -> q <> QOne -> scansB (show_quant q ++ rest) d (map Tok (flush' d ++ rep_toks q) ++ es).
Proof. intros H Hq. destruct q; [contradiction|..]; (apply emitB; [discriminate|reflexivity|exact H]). Qed.
Lemma quantB0 q rest es : scansB rest [] es -> scansB (show_quant q ++ rest) [] (map Tok (rep_toks q) ++ es).
Proof. intros H. destruct q; [exact H|exact (quantB QOpt rest [] es H ltac:(discriminate))|exact (quantB QStar rest [] es H ltac:(discriminate))|exact (quantB QPlus rest [] es H ltac:(discriminate))]. Qed.

Lemma atom_head' a w n rest : spelt_atom a w n -> head_ok (w ++ rest).
Proof.
  unfold head_ok. destruct a; cbn [spelt_atom]; intros H.
  - destruct (spells_head _ _ _ H) as (x & w' & -> & E). exact E.
  - subst. reflexivity.
  - destruct H as (w1 & -> & _). reflexivity.
  - subst. reflexivity.
  - destruct H as (w1 & -> & _). reflexivity.
Qed.
Lemma sq_head' s w n rest : spelt_sq s w n -> head_ok rest -> head_ok (w ++ rest).
Proof.
  destruct s as [|i s]; cbn [spelt_sq]; intros H Hr; [subst; exact Hr|]. destruct H as (w1 & w2 & -> & H & _). rewrite <- app_assoc. destruct i; cbn [spelt_item] in H.
  - subst. reflexivity.
  - subst. reflexivity.
  - destruct H as (w3 & -> & H). rewrite <- app_assoc. eapply atom_head'; eassumption.
Qed.
Lemma rx_head' r w n rest : spelt r w n -> head_ok rest -> head_ok (w ++ rest).
Proof.
  destruct r as [s|s r]; cbn [spelt]; intros H Hr; [eapply sq_head'; eassumption|]. destruct H as (w1 & w2 & -> & H & _). rewrite <- !app_assoc. eapply sq_head'; [exact H|reflexivity].
Qed.
Lemma spells_ne c w n : spells c w n -> w <> [].
Proof. intros H. destruct (spells_head _ _ _ H) as (x & w' & -> & _). discriminate. Qed.

Lemma atom_round' a w d rest : wf_atom a -> match a with AChar _ | AGroup _ _ => False | _ => True end -> spelt_atom a w (at_ rest 0) ->
  w <> [] /\ scan_round AllFeatures 0 (w ++ rest) d = Ok (emit [] d (map Tok (toks_atom a)) rest).
Proof.
  destruct a; intros H K S; try contradiction; cbn [spelt_atom] in S.
  - subst. split; [discriminate|reflexivity].
  - destruct S as (w1 & -> & S). split; [discriminate|]. unfold scan_round.
    change (at_ (([91] ++ (if neg then [94] else []) ++ w1 ++ [93]) ++ rest) 0) with 91. cbn [Z.eqb Pos.eqb].
    change (supported AllFeatures 0 CharClasses) with (@nil event, true). cbv iota. rewrite (scan_class_spelt neg ranges) by (assumption || apply H). reflexivity.
  - subst. split; [discriminate|]. destruct H as [-> | [-> | ->]]; reflexivity.
Qed.

Lemma scan_spelt :
  (forall r, wf r -> forall w rest d es, spelt r w (at_ rest 0) -> head_ok rest -> scansB rest (snd (toks r d)) es ->
     scansB (w ++ rest) d (map Tok (fst (toks r d)) ++ es)) /\
  (forall s, wf_sq s -> forall w rest d es, spelt_sq s w (at_ rest 0) -> head_ok rest -> scansB rest (snd (toks_sq s d)) es ->
     scansB (w ++ rest) d (map Tok (fst (toks_sq s d)) ++ es)) /\
  (forall i, wf_item i -> forall w rest d es, spelt_item i w (at_ rest 0) -> head_ok rest -> scansB rest (snd (toks_item i d)) es ->
     scansB (w ++ rest) d (map Tok (fst (toks_item i d)) ++ es)) /\
  (forall a, wf_atom a -> match a with AChar _ => True | _ => forall w rest d es, spelt_atom a w (at_ rest 0) -> scansB rest [] es ->
     scansB (w ++ rest) d (map Tok (flush' d ++ toks_atom a) ++ es) end).
Proof.
  apply rx_mutind.
  - intros s IH H. exact (IH H).
  - intros s IHs r IHr [Hs Hr] w rest d es HS Hh H. cbn [spelt toks fst snd] in *. destruct HS as (w1 & w2 & -> & S1 & S2). rewrite <- !app_assoc.
    rewrite (map_app _ (fst (toks_sq s d))), <- (app_assoc (map Tok (fst (toks_sq s d)))). apply IHs; [assumption|exact S1|reflexivity|].
    match goal with |- scansB _ _ ?x => replace x with (map Tok (flush' (snd (toks_sq s d)) ++ [TAlt]) ++ map Tok (fst (toks r [])) ++ es) by (rewrite !map_app, <- !app_assoc; reflexivity) end.
    apply emitB; [discriminate|reflexivity|]. apply IHr; assumption.
  - intros _ w rest d es HS Hh H. cbn [spelt_sq] in HS. subst. exact H.
  - intros i IHi s IHs [Hi Hs] w rest d es HS Hh H. cbn [spelt_sq toks_sq fst snd] in *. destruct HS as (w1 & w2 & -> & S1 & S2). rewrite <- app_assoc, map_app, <- app_assoc.
    apply IHi; [assumption|rewrite first_at; exact S1|eapply sq_head'; eassumption|]. apply IHs; assumption.
  - intros _ w rest d es HS Hh H. cbn [spelt_item] in HS. subst. apply emitB; [discriminate|reflexivity|exact H].
  - intros _ w rest d es HS Hh H. cbn [spelt_item] in HS. subst. apply emitB; [discriminate|reflexivity|exact H].
  - intros a IHa q Ha w rest d es HS Hh H. cbn [spelt_item] in HS. destruct HS as (w1 & -> & HS). rewrite <- app_assoc. rewrite <- first_at in HS.
    assert (G : match a with AChar _ => False | _ => True end -> scansB rest [] es ->
              scansB (w1 ++ show_quant q ++ rest) d (map Tok (flush' d ++ toks_atom a ++ rep_toks q) ++ es)).
    { intros K Hs. specialize (IHa Ha). rewrite (app_assoc (flush' d)), (map_app _ _ (rep_toks q)), <- (app_assoc (map Tok _)).
      pose proof (quantB0 q _ _ Hs). destruct a; [contradiction|apply IHa; assumption..]. }
    destruct a as [c| | | |]; try (apply (G I); exact H). clear G. cbn [spelt_atom] in HS.
    destruct (quant_dec q) as [-> | Hq].
    + cbn [toks_item fst snd show_quant app] in *. change (scansB (w1 ++ rest) d ([] ++ es)).
      eapply roundB; [eapply spells_ne; exact HS| |exact H]. rewrite (round_spelt c), delay_head by assumption. reflexivity.
    + assert (E : toks_item (It (AChar c) q) d = (flush' d ++ [TLit [c]] ++ rep_toks q, [])) by (destruct q; [contradiction|reflexivity..]).
      rewrite E in *. cbn [fst snd] in *. rewrite map_app, <- app_assoc.
      eapply roundB; [eapply spells_ne; exact HS| |apply (quantB q rest [c] es H Hq)].
      rewrite (round_spelt c), delay_rep, <- flush_map by assumption. reflexivity.
  - intros c H. exact I.
  - intros Hw w rest d es HS H. destruct (atom_round' AAny w d rest Hw I HS) as [NE R]. apply emitB; assumption.
  - intros neg l Hw w rest d es HS H. destruct (atom_round' (AClass neg l) w d rest Hw I HS) as [NE R]. apply emitB; assumption.
  - intros c Hw w rest d es HS H. destruct (atom_round' (AProp c) w d rest Hw I HS) as [NE R]. apply emitB; assumption.
  - intros colon r IH Hw w rest d es HS H. cbn [toks_atom spelt_atom] in *. destruct HS as (w1 & -> & HS).
    replace (flush' d ++ TGroup :: fst (toks r []) ++ flush' (snd (toks r [])) ++ [TEnd])
      with ((flush' d ++ [TGroup]) ++ fst (toks r []) ++ (flush' (snd (toks r [])) ++ [TEnd])) by (rewrite <- app_assoc; reflexivity).
    rewrite (map_app _ (flush' d ++ [TGroup])), (map_app _ (fst _)), <- !app_assoc.
    assert (B : scansB (w1 ++ [41] ++ rest) [] (map Tok (fst (toks r [])) ++ map Tok (flush' (snd (toks r [])) ++ [TEnd]) ++ es)).
    { apply IH; [exact Hw|exact HS|reflexivity|]. apply emitB; [discriminate|reflexivity|exact H]. }
    destruct colon.
    + change ([40] ++ [63; 58] ++ w1 ++ [41] ++ rest) with ([40; 63; 58] ++ (w1 ++ [41] ++ rest)). apply emitB; [discriminate|reflexivity|exact B].
    + change ([40] ++ [] ++ w1 ++ [41] ++ rest) with ([40] ++ (w1 ++ [41] ++ rest)). apply emitB; [discriminate| |exact B].
      apply scan_group_plain. eapply rx_head'; [exact HS|reflexivity].
Qed.

(** The tokens do not depend on the spelling. *)
Lemma scan_written r re : wf r -> written r re -> scan AllFeatures 0 re = Ok (map Tok (all_toks r)).
Proof.
  intros Hw HS. destruct scan_spelt as [S _].
  assert (B0 : scansB [] (snd (toks r [])) (flush (snd (toks r [])))) by (exists O; split; [cbn; lia|reflexivity]).
  pose proof (S r Hw re [] [] _ HS eq_refl B0) as (f & L & Q). rewrite app_nil_r in L, Q. apply (scan_loop_mono _ _ _ _ (length re)) in Q; [|exact L].
  unfold scan. rewrite Q. cbn [obind]. rewrite flush_map, <- map_app, no_err. unfold all_toks. cbn [map]. rewrite !map_app, <- app_assoc. reflexivity.
Qed.

(** [show] is one of the spellings. *)
Lemma show_char_spells c n : spells c (show_char c) n.
Proof.
  unfold show_char. destruct (special c) eqn:E; [|apply sp_plain, E]. apply sp_quoted. apply special_in in E. unfold escape_letter. cbn [In] in *. lia.
Qed.
Lemma show_class_char_spells c : spells_in_class c (show_class_char c).
Proof.
  unfold show_class_char. destruct (class_special c) eqn:E; [apply sc_quoted|].
  apply sc_plain; intros ->; discriminate E.
Qed.
Lemma show_ranges_spelt l : ranges_spelt l (flat_map show_range l).
Proof.
  induction l as [|[a b] l IH]; [constructor|]. cbn [flat_map]. apply ss_more; [|exact IH]. unfold show_range. cbn [fst snd].
  destruct (Z.eqb_spec a b) as [->|]; [apply sr_one, show_class_char_spells|apply sr_two; apply show_class_char_spells].
Qed.
Lemma show_spelt :
  (forall r, wf r -> forall n, spelt r (show r) n) /\ (forall s, wf_sq s -> forall n, spelt_sq s (show_sq s) n) /\
  (forall i, wf_item i -> forall n, spelt_item i (show_item i) n) /\ (forall a, wf_atom a -> forall n, spelt_atom a (show_atom a) n).
Proof.
  apply rx_mutind; cbn [wf wf_sq wf_item wf_atom spelt spelt_sq spelt_item spelt_atom show show_sq show_item show_atom].
  - auto.
  - intros s IHs r IHr [Hs Hr] n. eexists _, _. split; [reflexivity|]. auto.
  - reflexivity.
  - intros i IHi s IHs [Hi Hs] n. eexists _, _. split; [reflexivity|]. auto.
  - reflexivity.
  - reflexivity.
  - intros a IH q Hw n. eexists. split; [reflexivity|]. auto.
  - intros c _ n. apply show_char_spells.
  - reflexivity.
  - intros neg l [NE _] n. eexists. split; [reflexivity|].
    destruct (ranges_first l [] NE) as (c & r' & E & N1 & N2 & N3). rewrite app_nil_r in E. apply sk_ranges; [apply show_ranges_spelt|rewrite E; exact N1|rewrite E; intros _; exact N3].
  - reflexivity.
  - intros colon r IH Hw n. eexists. split; [reflexivity|]. auto.
Qed.
