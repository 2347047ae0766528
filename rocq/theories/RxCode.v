(** The second pass of the compiler makes well-formed code of any tokens. *)
From Verif Require Import Base UTF8Model UTF8Spec UTF8Proofs CharModel RxCompModel RxModel RxSpec RxVm RxScan RxTotal RxGen RxProg.
From Verif Require RxSize.

(** A 32-bit character that does not stand for an encoding error (UTF8Spec.v) *)
Definition fine (c : Z) : Prop := ucs4 c /\ ~ replacement c.
Lemma get_fine c rest : fine c -> UTF8Get (UTF8Put c ++ rest) = Ok (c, length (UTF8Put c)).
Proof. intros [H1 H2]. apply get_seq, put_seq; assumption. Qed.
Lemma get_at_fine pre c post p : p = zl pre -> fine c -> get_at (pre ++ UTF8Put c ++ post) p = Ok (c, p + zl (UTF8Put c)).
Proof.
  intros -> H. unfold get_at. pose proof (zl_pos pre). destruct (zl pre <? 0) eqn:E; [lia|].
  rewrite skipn_len by (unfold zl; lia). rewrite get_fine by assumption. reflexivity.
Qed.

(** Well-formed code: the offsets lead to where the instructions say, and the groups are below [ng] *)
Inductive coded (ng : Z) : list Z -> Prop :=
| c_nil : coded ng []
| c_app X Y : coded ng X -> coded ng Y -> coded ng (X ++ Y)
| c_char c : fine c -> coded ng (67 :: UTF8Put c)
| c_any : coded ng [46]
| c_bol : coded ng [94]
| c_eol : coded ng [36]
| c_class (neg : bool) l : Forall fine l -> coded ng ((if neg then 78 else 76) :: string_bytes l)
| c_prop l : Forall fine l -> coded ng (80 :: string_bytes l)
| c_opt v X : v = zl (offset_bytes v) + zl X -> coded ng X -> coded ng (65 :: offset_bytes v ++ X)
| c_alt v w X Y : v = zl (offset_bytes v) + zl X + 1 + zl (offset_bytes w) -> w = zl (offset_bytes w) + zl Y ->
    coded ng X -> coded ng Y -> coded ng (65 :: offset_bytes v ++ X ++ 74 :: offset_bytes w ++ Y)
| c_star v w X : v = zl (offset_bytes v) + zl X + 1 + zl (offset_bytes w) -> w = - (1 + zl (offset_bytes v) + zl X + 1) ->
    coded ng X -> coded ng (65 :: offset_bytes v ++ X ++ 74 :: offset_bytes w)
| c_plus v X : v = - (zl X + 1) -> coded ng X -> coded ng (X ++ 65 :: offset_bytes v)
| c_count a b v X : v = - (zl X + 3) -> coded ng X -> coded ng (90 :: X ++ 82 :: a :: b :: offset_bytes v)
| c_named g X : 1 < g <= ng -> coded ng X -> coded ng (40 :: g :: X ++ [41; g])
| c_neg v X : v = zl (offset_bytes v) + zl X + 1 -> coded ng X -> coded ng (33 :: offset_bytes v ++ X ++ [35]).

Lemma code_lit ng l : Forall fine l -> coded ng (flat_map (fun c => 67 :: UTF8Put c) l).
Proof. induction 1 as [|c l H _ IH]; [constructor|]. cbn [flat_map]. change (67 :: UTF8Put c ++ flat_map (fun c => 67 :: UTF8Put c) l) with ((67 :: UTF8Put c) ++ flat_map (fun c => 67 :: UTF8Put c) l). apply c_app; [apply c_char, H|exact IH]. Qed.

Section Code.
Variables (ng : Z) (M cap : nat) (stations : Z) (names : list (list Z)).
Notation code := (coded ng).
Hypothesis HM : (M = 1 /\ cap <= 64)%nat \/ (M = 2 /\ cap <= 1024)%nat.
Notation pass2 := (second_pass M cap stations names).
Notation chain := (RxGen.chain M).
Notation jump_of := (RxGen.jump_of M).
Notation padded_len := (RxGen.padded_len M cap HM).
Notation patch_fwd := (RxGen.patch_fwd M cap HM).

Lemma fixup_code l : Forall code l -> l <> [] -> forall pre Y f contents jump b b',
  code Y -> b = pre ++ chain l ++ Y -> contents = length pre -> jump = jump_of pre l -> (length b <= cap)%nat ->
  fixup_loop M f b contents jump = Ok b' ->
  exists Z0, b' = pre ++ Z0 /\ code Z0 /\ (length b' <= length b)%nat.
Proof.
  induction 1 as [|X l HX Hl IH]; intros Hne pre Y f contents jump b b' HY Hb Hc Hj Hlen H; [contradiction|]. clear Hne.
  destruct f as [|f]; [discriminate|]. cbn [fixup_loop] in H.
  set (d := match l with [] => 0 | _ => back M X end) in *.
  assert (Hchain : chain (X :: l) = chain l ++ seg M d X) by reflexivity.
  set (p1 := pre ++ chain l ++ 65 :: padded M 0 ++ X ++ [74]).
  assert (Hb1 : b = p1 ++ padded M d ++ Y ++ []).
  { rewrite Hb, Hchain, app_nil_r. unfold p1, seg. norm_app; cbn [app]; norm_app. }
  assert (Hp1 : jump = length p1).
  { rewrite Hj. unfold RxGen.jump_of. rewrite Hchain. unfold p1. rewrite !app_length, (seg_len M cap HM). cbn [length]. rewrite !app_length, padded_len. cbn [length]. lia. }
  assert (Hlen1 : (length p1 + M + length Y <= cap)%nat).
  { rewrite Hb1, !app_length, padded_len in Hlen. cbn [length] in Hlen. lia. }
  assert (Hp1l : length p1 = (length pre + length (chain l) + 2 + M + length X)%nat).
  { unfold p1. rewrite !app_length. cbn [length]. rewrite !app_length, padded_len. cbn [length]. lia. }
  assert (Hd : Z.abs d < Z.of_nat cap).
  { unfold d. destruct l as [|X' l']; [lia|]. unfold back, zl. cbn [RxGen.chain] in Hp1l. rewrite app_length, (seg_len M cap HM) in Hp1l. lia. }
  assert (Hd0 : (l = [] /\ d = 0) \/ (l <> [] /\ d = back M X)) by (unfold d; destruct l; [left|right]; split; auto; discriminate).
  bind H g E. rewrite Hb1, skipn_len in E by exact Hp1. destruct (get_padded M cap HM d (Y ++ []) Hd) as [n En].
  assert (g = (zigzag d, n)) by congruence. subst g. cbn [fst] in H. rewrite zagzig_zigzag in H by lia.
  bind H o Eo. apply cassert_ok in H. destruct H as [_ H].
  bind H r Er. assert (Hbl : length b = (length p1 + M + length Y)%nat) by (rewrite Hb1, !app_length, padded_len; cbn [length]; lia).
  destruct (patch_fwd p1 (padded M d) Y [] b jump (length b) r Hb1 (padded_len d) Hp1 ltac:(lia) ltac:(lia) Hlen Er) as (w & Er1 & Hw & Ersh & Hwl).
  rewrite app_nil_r in Er1. rewrite Er1 in H.
  bind H o2 Eo2. apply cassert_ok in H. destruct H as [_ H].
  set (sp := if d =? 0 then S contents else Z.to_nat (Z.of_nat jump + d + Z.of_nat M + 1)) in *.
  set (p2 := pre ++ chain l ++ [65]).
  assert (Hsp : sp = length p2).
  { unfold p2, sp. rewrite !app_length. cbn [length]. destruct Hd0 as [[-> ->]|[Hln ->]].
    - cbn. lia.
    - unfold back, zl. destruct (- (Z.of_nat (length X) + 2 + 2 * Z.of_nat M) =? 0) eqn:E0; [lia|]. lia. }
  bind H r2 Er2.
  assert (Hb2 : p1 ++ offset_bytes w ++ Y = p2 ++ padded M 0 ++ (X ++ 74 :: offset_bytes w) ++ Y).
  { unfold p1, p2. norm_app; cbn [app]; norm_app; cbn [app]; norm_app. }
  assert (Hsplen : (length (p1 ++ offset_bytes w ++ Y) <= cap)%nat) by (rewrite !app_length; lia).
  destruct (patch_fwd p2 (padded M 0) (X ++ 74 :: offset_bytes w) Y _ sp (jump + M - snd r) r2 Hb2 (padded_len 0) Hsp) as (v & Er3 & Hv & _ & Hvl).
  { rewrite app_length. cbn [length]. rewrite Ersh, Hp1, Hp1l. unfold p2 in Hsp. rewrite !app_length in Hsp. cbn [length] in Hsp. lia. }
  { unfold p2. rewrite !app_length. cbn [length]. lia. }
  { exact Hsplen. }
  { exact Er2. }
  rewrite Er3 in H. rewrite zl_app, zl_cons in Hv.
  set (Y' := 65 :: offset_bytes v ++ X ++ 74 :: offset_bytes w ++ Y).
  assert (HY' : code Y') by (apply c_alt; [lia|exact Hw|assumption..]).
  assert (Hb3 : p2 ++ offset_bytes v ++ (X ++ 74 :: offset_bytes w) ++ Y = pre ++ chain l ++ Y').
  { unfold p2, Y'. norm_app; cbn [app]; norm_app. }
  rewrite Hb3 in H.
  assert (Hb3l : (length (pre ++ chain l ++ Y') <= length b)%nat).
  { rewrite <- Hb3, Hbl, Hp1l. unfold p2. rewrite !app_length. cbn [length]. lia. }
  destruct Hd0 as [[-> Hd0]|[Hln Hd0]]; rewrite Hd0 in H.
  - cbn in H. assert (b' = pre ++ Y') by congruence. subst b'. exists Y'.
    split; [reflexivity|]. split; [exact HY'|exact Hb3l].
  - destruct (back M X =? 0) eqn:E0; [unfold back, zl in E0; lia|]. apply cassert_ok in H. destruct H as [_ H].
    destruct (IH Hln pre Y' f contents (Z.to_nat (Z.of_nat jump + back M X)) _ b' HY' eq_refl Hc) as (Z0 & A & B & C).
    + rewrite Hp1, Hp1l. unfold RxGen.jump_of, back, zl. destruct l; [contradiction|]. lia.
    + lia.
    + exact H.
    + exists Z0. split; [exact A|]. split; [exact B|lia].
Qed.
Lemma fixup_frame l pre Y fr b b' : Forall code l -> code Y -> b = pre ++ chain l ++ Y ->
  f_contents fr = length pre -> f_jump fr = jump_of pre l -> (length b <= cap)%nat ->
  fixup M b fr = Ok b' -> exists Z0, b' = pre ++ Z0 /\ code Z0 /\ (length b' <= length b)%nat.
Proof.
  intros HL HY Hb Hc Hj Hlen H. unfold fixup in H. destruct l as [|X l].
  - cbn [RxGen.jump_of] in Hj. rewrite Hj in H. exists Y. assert (b' = b) by congruence. subst b'. split; [exact Hb|]. split; [exact HY|lia].
  - assert (Hj0 : f_jump fr <> O).
    { rewrite Hj. unfold RxGen.jump_of. cbn [RxGen.chain]. rewrite app_length, (seg_len M cap HM). lia. }
    destruct (f_jump fr) as [|j] eqn:Ej; [contradiction|]. eapply (fixup_code (X :: l) HL); try eassumption. discriminate.
Qed.

(** ** Repetition *)
Ltac start H := unfold second_pass in H; cbv zeta in H; apply obind_ok in H; destruct H as (? & _ & H).
Lemma rep_code mn mx X pre w r : pass2 (TRep mn mx) w = Ok r -> w_buf w = pre ++ X -> w_atom w = length pre -> code X -> (3 <= length pre)%nat ->
  exists X', w_buf (fst (fst r)) = pre ++ X' /\ code X' /\ w_stack (fst (fst r)) = w_stack w.
Proof.
  intros H Hb Ha HX Hpre. start H. rewrite Ha in H. destruct ((mn =? 0) && (mx =? 0)).
  - bind H b1 E1. destruct (insert_ok M cap pre X _ _ _ Hb eq_refl E1) as [Eb1 Lb1].
    bind H b2 E2. apply fits_ok in E2. destruct E2 as [Eb2 Lb2].
    assert (Hl2 : length b2 = (length pre + 1 + M + length X + 1)%nat).
    { subst b2 b1. rewrite !app_length. cbn [length]. rewrite app_length, padded_len. lia. }
    rewrite <- Eb2 in Lb2.
    destruct (star_loop M 8 (length b2) (length pre) M) as [rev rd] eqn:ES.
    bind H r1 E3. bind H b3 E4. apply fits_ok in E4. destruct E4 as [Eb3 Lb3].
    apply done_ok in H. destruct H as (-> & _ & _ & _). cbn [w_buf w_stack].
    set (L := Z.of_nat (length X) + 2 + Z.of_nat M) in *.
    assert (HL : Z.of_nat (length b2) = Z.of_nat (length pre) + L) by (unfold L; lia).
    assert (Hsmall : L + 2 < Z.of_nat cap) by lia.
    assert (G : exists v, fst r1 = pre ++ 65 :: offset_bytes v ++ X ++ [74] /\ v = zl (offset_bytes v) + zl X + 1 + zl (offset_bytes rd) /\
                rd = - (1 + zl (offset_bytes v) + zl X + 1)).
    { assert (HPV : forall vv, Z.abs vv < 1024 -> patch_value M b2 (S (length pre)) vv = Ok r1 -> fst r1 = pre ++ 65 :: offset_bytes vv ++ X ++ [74]).
      { intros vv _ Hp. unfold patch_value in Hp. destruct (M <? _)%nat; [discriminate|].
        assert (Hr1 : r1 = (firstn (S (length pre)) b2 ++ offset_bytes vv ++ skipn (S (length pre) + M) b2, (M - UTF8Len (zigzag vv))%nat)) by congruence.
        rewrite Hr1. cbn [fst]. rewrite Eb2, Eb1.
        replace ((pre ++ 65 :: padded M 0 ++ X) ++ [74]) with ((pre ++ [65]) ++ padded M 0 ++ X ++ [74]) by norm_app.
        rewrite firstn_len by (rewrite app_length; cbn; lia). rewrite (app_assoc (pre ++ [65]) (padded M 0)).
        rewrite skipn_len by (rewrite !app_length, padded_len; cbn; lia). norm_app. }
      assert (Hzx : zl X = L - 2 - Z.of_nat M) by (unfold zl, L; lia).
      assert (HT' : forall k, (1 <= k)%nat -> (S (length pre) <? length b2 + k)%nat = true) by (intros k Hk; apply Nat.ltb_lt; lia).
      unfold patch_offset in E3.
      destruct (star_ok M cap HM (length b2) (length pre) L HL ltac:(lia) Hsmall) as [(HM1 & HL1 & E)|[(HM1 & HL1 & E)|(HM1 & HL1 & E)]];
        rewrite E in ES; assert (Hrev : rev = fst (rev, rd)) by reflexivity; assert (Hrd : rd = snd (rev, rd)) by reflexivity;
        rewrite <- ES in Hrev, Hrd; cbn [fst snd] in Hrev, Hrd; subst rev rd; rewrite HT', andb_true_r in E3 by lia; clear E;
        rewrite HM1 in *; rewrite RxGen.len_small in E3 by lia.
      - destruct (Z.ltb_spec (Z.abs (Z.of_nat (length b2 + 1) - Z.of_nat (S (length pre)))) 64); [|lia].
        cbn [Nat.ltb Nat.leb] in E3. apply HPV in E3; [|lia]. eexists. split; [exact E3|].
        rewrite !ob_len by lia. repeat match goal with |- context [Z.abs ?x <? 64] => destruct (Z.ltb_spec (Z.abs x) 64); try lia end.
      - destruct (Z.ltb_spec (Z.abs (Z.of_nat (length b2 + 1) - Z.of_nat (S (length pre)))) 64); [|lia].
        cbn [Nat.ltb Nat.leb] in E3. apply HPV in E3; [|lia]. eexists. split; [exact E3|].
        rewrite !ob_len by lia. repeat match goal with |- context [Z.abs ?x <? 64] => destruct (Z.ltb_spec (Z.abs x) 64); try lia end.
      - destruct (Z.ltb_spec (Z.abs (Z.of_nat (length b2 + 2) - Z.of_nat (S (length pre)))) 64); [lia|].
        cbn [Nat.ltb Nat.leb] in E3. apply HPV in E3; [|lia]. eexists. split; [exact E3|].
        rewrite !ob_len by lia. repeat match goal with |- context [Z.abs ?x <? 64] => destruct (Z.ltb_spec (Z.abs x) 64); try lia end. }
    destruct G as (v & G1 & G2 & G3). subst b3. rewrite G1.
    exists (65 :: offset_bytes v ++ X ++ 74 :: offset_bytes rd). split; [norm_app; cbn [app]; norm_app|]. split; [|reflexivity].
    apply c_star; assumption.
  - destruct ((mn =? 0) && (mx =? 1)).
    + bind H b1 E1. destruct (insert_ok M cap pre X _ _ _ Hb eq_refl E1) as [Eb1 Lb1].
      bind H r1 E2. subst b1.
      replace (pre ++ 65 :: padded M 0 ++ X) with ((pre ++ [65]) ++ padded M 0 ++ X ++ []) in E2, Lb1 by (rewrite app_nil_r; norm_app).
      destruct (patch_fwd (pre ++ [65]) (padded M 0) X [] _ (S (length pre)) (length ((pre ++ [65]) ++ padded M 0 ++ X ++ [])) r1 eq_refl (padded_len 0) ltac:(rewrite app_length; cbn; lia)
        ltac:(rewrite !app_length, padded_len; cbn; lia) ltac:(rewrite app_length; cbn; lia) Lb1 E2) as (v & A & Hv & _ & _).
      rewrite A in H. apply done_ok in H. destruct H as (-> & _ & _ & _). cbn [w_buf w_stack]. rewrite app_nil_r.
      exists (65 :: offset_bytes v ++ X). split; [norm_app|]. split; [|reflexivity]. apply c_opt; assumption.
    + destruct ((mn =? 1) && (mx =? 0)).
      * bind H b1 E1. apply fits_ok in E1. destruct E1 as [-> L1].
        bind H b2 E2. apply fits_ok in E2. destruct E2 as [-> L2].
        apply done_ok in H. destruct H as (-> & _ & _ & _). cbn [w_buf w_stack].
        rewrite Hb. set (v := Z.of_nat (length pre) - Z.of_nat (length ((pre ++ X) ++ [65]))).
        exists (X ++ 65 :: offset_bytes v). split; [norm_app|]. split; [|reflexivity].
        apply c_plus; [|assumption]. unfold v, zl. rewrite !app_length. cbn [length]. lia.
      * bind H b1 E1. apply fits_ok in E1. destruct E1 as [E1 L1]. rewrite Hb, firstn_len, skipn_len in E1 by reflexivity.
        bind H b2 E2. apply fits_ok in E2. destruct E2 as [E2 L2]. bind H b3 E3. apply fits_ok in E3. destruct E3 as [E3 L3].
        apply done_ok in H. destruct H as (-> & _ & _ & _). cbn [w_buf w_stack].
        set (v := Z.of_nat (S (length pre)) - Z.of_nat (length b2)) in *.
        exists (90 :: X ++ 82 :: u8 (mn + 1) :: u8 (mx + 1) :: offset_bytes v). split; [rewrite E3, E2, E1; norm_app; cbn [app]; norm_app|]. split; [|reflexivity].
        apply c_count; [|assumption]. unfold v, zl. rewrite E2, E1, !app_length. cbn [length]. lia.
Qed.

(** ** The buffer and the stack of frames *)
Definition opening (fr : frame) (op : list Z) : Prop :=
  match f_op fr with
  | KStart => False
  | KGroup => op = []
  | KNamed => op = [40; u8 (f_group fr)] /\ 1 < u8 (f_group fr) <= ng
  | KNeg => op = 33 :: padded M 0
  end.
Inductive built (base : list Z) : list frame -> list Z -> list (list Z) -> Prop :=
| built_base fr l : f_op fr = KStart -> f_contents fr = length base -> f_jump fr = jump_of base l -> Forall code l -> built base [fr] base l
| built_push k pre0 l0 Y0 fr op pre l : built base k pre0 l0 -> code Y0 -> pre = pre0 ++ chain l0 ++ Y0 ++ op -> opening fr op ->
    f_start fr = length (pre0 ++ chain l0 ++ Y0) -> f_contents fr = length pre -> f_jump fr = jump_of pre l -> Forall code l -> built base (fr :: k) pre l.
Lemma built_base_le base k pre l : built base k pre l -> exists more, pre = base ++ more.
Proof.
  induction 1 as [fr l A B C D|k pre0 l0 Y0 fr op pre l A (more & IH) B C D E F G H]; [exists []; rewrite app_nil_r; reflexivity|].
  rewrite C, IH. eexists. rewrite <- !app_assoc. reflexivity.
Qed.
Lemma built_frame base fr k pre l : built base (fr :: k) pre l -> f_contents fr = length pre /\ f_jump fr = jump_of pre l /\ Forall code l.
Proof. intros H. inversion H; subst; auto. Qed.
(** Another alternative in the top frame *)
Lemma built_alt base fr fr' k pre l X : built base (fr :: k) pre l -> code X -> f_contents fr' = length pre -> f_jump fr' = jump_of pre (X :: l) ->
  f_op fr' = f_op fr -> f_start fr' = f_start fr -> f_group fr' = f_group fr -> built base (fr' :: k) pre (X :: l).
Proof.
  intros H HX A B C D E. inversion H; subst.
  - apply built_base; try congruence. constructor; assumption.
  - eapply built_push; try eassumption; try reflexivity; try congruence; [|constructor; assumption].
    unfold opening in *. rewrite C, E. assumption.
Qed.

Definition Inv (base : list Z) (rep : bool) (w : two) : Prop := exists pre l Y X,
  built base (w_stack w) pre l /\ w_buf w = pre ++ chain l ++ Y ++ X /\ code Y /\ code X /\
  (rep = true -> w_atom w = length (pre ++ chain l ++ Y)) /\ (length (w_buf w) <= cap)%nat.

Definition token_ok (t : token) : Prop :=
  match t with TLit l | TProp l | TClass _ l => Forall fine l | TNamed l => Forall fine l /\ l <> [] | TRep a _ => 0 <= a | _ => True end.
(** Whether the first pass takes a repetition after the token *)
Definition repeatable (t : token) : bool :=
  match t with TLit _ | TAny | TClass _ _ | TProp _ | TEnd => true | _ => false end.

Lemma inv_plain base rep rep' x w r : Inv base rep w -> code x ->
  (do b <- app_bytes cap (w_buf w) x; done cap b (w_stack w) (w_max w) (w_group w) (length (w_buf w))) = Ok r -> Inv base rep' (fst (fst r)).
Proof.
  intros (pre & l & Y & X & HB & Hb & HY & HX & _ & _) Hx H. apply plain_ok in H. destruct H as (A & B & C & D).
  exists pre, l, (Y ++ X), x. rewrite B. split; [exact HB|]. split; [rewrite A, Hb; norm_app|]. split; [apply c_app; assumption|]. split; [exact Hx|].
  split; [intros _; rewrite C, Hb; reflexivity|lia].
Qed.
Lemma inv_done base k pre l Y X b mx g a rep r : built base k pre l -> b = pre ++ chain l ++ Y ++ X -> code Y -> code X -> (rep = true -> a = length (pre ++ chain l ++ Y)) ->
  done cap b k mx g a = Ok r -> Inv base rep (fst (fst r)).
Proof.
  intros HB Hb HY HX Ha H. apply done_ok in H. destruct H as (E & _ & _ & L). rewrite E. exists pre, l, Y, X. cbn [w_stack w_buf w_atom]. repeat split; auto. lia.
Qed.

Lemma step_code base t rep w r : (3 <= length base)%nat -> token_ok t -> t <> TStart -> t <> TAccept -> (match t with TRep _ _ => rep = true | TNamed _ => 1 <= w_group w < 255 /\ w_group w + 1 <= ng | _ => True end) ->
  Inv base rep w -> pass2 t w = Ok r -> Inv base (repeatable t) (fst (fst r)).
Proof.
  intros H3 Ht N1 N2 Hr HI H. pose proof HI as (pre & l & Y & X & HB & Hb & HY & HX & HA & HL). destruct (built_base_le _ _ _ _ HB) as (more & Hpre).
  assert (HYX : code (Y ++ X)) by (apply c_app; assumption).
  destruct t; try congruence; cbn [repeatable token_ok] in *.
  - start H. eapply inv_plain; [exact HI|apply c_bol|exact H].
  - start H. eapply inv_plain; [exact HI|apply c_eol|exact H].
  - start H. eapply inv_plain; [exact HI|apply c_any|exact H].
  - start H. eapply inv_plain; [exact HI|apply code_lit, Ht|exact H].
  - specialize (HA Hr). assert (Hb' : w_buf w = (pre ++ chain l ++ Y) ++ X) by (rewrite Hb; norm_app).
    pose proof (RxProg.second_true _ _ _ _ _ _ _ H) as _. assert (HL' : (length (w_buf (fst (fst r))) <= cap)%nat).
    { clear - H. start H. repeat match type of H with (if ?b then _ else _) = _ => destruct b end; crack H; apply done_ok in H; destruct H as (-> & _ & _ & L); cbn [w_buf]; lia. }
    destruct (rep_code min max X _ w r H Hb' HA HX) as (X' & A & B & C). { rewrite Hpre, !app_length. lia. }
    exists pre, l, Y, X'. rewrite C. split; [exact HB|]. split; [rewrite A; norm_app|]. split; [exact HY|]. split; [exact B|]. split; [discriminate|exact HL'].
  - start H. eapply inv_plain; [exact HI|apply c_prop, Ht|exact H].
  - start H. eapply inv_plain; [exact HI|apply c_class, Ht|exact H].
  - (* TAlt *)
    destruct (w_stack w) as [|fr k] eqn:Es; [inversion HB|]. destruct (built_frame _ _ _ _ _ HB) as (C1 & C2 & C3).
    assert (HL' : (length (w_buf (fst (fst r))) <= cap)%nat /\ f_group (hd (mkframe KStart 0 0 0 0) (w_stack (fst (fst r)))) = f_group fr).
    { clear - H Es. start H. rewrite Es in H. destruct (f_jump fr); crack H; apply done_ok in H; destruct H as (-> & _ & _ & L); cbn [w_buf w_stack hd f_group]; split; [lia|reflexivity|lia|reflexivity]. }
    assert (HR : run M cap stations names [TAlt] w = Ok (fst (fst r))) by (cbn [run]; rewrite H; reflexivity).
    destruct (alt_ok M cap stations names HM pre l (Y ++ X) w _ fr k HR Hb Es C1 C2) as (fr' & G1 & G2 & G3 & G4 & G5 & G6).
    exists pre, ((Y ++ X) :: l), [], []. rewrite G2 in HL' |- *. cbn [hd] in HL'. split; [eapply built_alt; try eassumption; apply HL'|].
    split; [rewrite G1, !app_nil_r; reflexivity|]. split; [constructor|]. split; [constructor|]. split; [discriminate|apply HL'].
  - (* TGroup *)
    start H. eapply (inv_done base _ (pre ++ chain l ++ (Y ++ X) ++ []) [] [] []); [| | | | |exact H]; try constructor.
    + eapply built_push; [exact HB|exact HYX|reflexivity|reflexivity| | |reflexivity|constructor]; cbn [f_start f_contents]; rewrite Hb, ?app_nil_r; reflexivity.
    + cbn [RxGen.chain]. rewrite !app_nil_r. exact Hb.
    + discriminate.
  - (* TNamed *)
    start H. bind H b1 E1. apply fits_ok in E1. destruct E1 as [E1 L1]. eapply (inv_done base _ b1 [] [] []); [| | | | |exact H]; try constructor.
    + eapply (built_push base _ pre l (Y ++ X) _ [40; u8 (w_group w + 1)]); [exact HB|exact HYX|rewrite E1, Hb; norm_app|split; [reflexivity|cbn [f_group]; unfold u8; rewrite Z.mod_small by lia; lia]| | |reflexivity|constructor]; cbn [f_start f_contents]; [rewrite Hb; reflexivity|reflexivity].
    + cbn [RxGen.chain]. rewrite !app_nil_r. reflexivity.
    + discriminate.
  - (* TNeg *)
    start H. bind H b1 E1. apply fits_ok in E1. destruct E1 as [E1 L1]. eapply (inv_done base _ b1 [] [] []); [| | | | |exact H]; try constructor.
    + eapply (built_push base _ pre l (Y ++ X) _ (33 :: padded M 0)); [exact HB|exact HYX|rewrite E1, Hb; norm_app|reflexivity| | |reflexivity|constructor]; cbn [f_start f_contents]; [rewrite Hb; reflexivity|reflexivity].
    + cbn [RxGen.chain]. rewrite !app_nil_r. reflexivity.
    + discriminate.
  - (* TEnd *)
    start H. destruct (w_stack w) as [|fr k] eqn:Es; [discriminate H|]. destruct (built_frame _ _ _ _ _ HB) as (C1 & C2 & C3).
    inversion HB as [fr' l' D1 D2 D3 D4|k' pre0 l0 Y0 fr' op pre' l' D1 D2 D3 D4 D5 D6 D7 D8]; [subst; rewrite D1 in H; discriminate H|].
    subst fr' k' pre' l'. unfold opening in D4. destruct (f_op fr) eqn:Eo; [contradiction| | |].
    + bind H b E. destruct (fixup_frame l pre (Y ++ X) fr _ b C3 HYX Hb C1 C2 HL E) as (Z0 & A & B & C).
      eapply (inv_done base _ pre0 l0 Y0 Z0); [exact D1| |exact D2|exact B| |exact H]; [rewrite A, D3, D4; norm_app|intros _; exact D5].
    + bind H b E. destruct (fixup_frame l pre (Y ++ X) fr _ b C3 HYX Hb C1 C2 HL E) as (Z0 & A & B & C).
      bind H b2 E2. apply fits_ok in E2. destruct E2 as [E2 L2].
      eapply (inv_done base _ pre0 l0 Y0 (40 :: u8 (f_group fr) :: Z0 ++ [41; u8 (f_group fr)])); [exact D1| |exact D2|apply c_named; [apply D4|exact B]| |exact H]; [rewrite E2, A, D3, (proj1 D4); norm_app|intros _; exact D5].
    + bind H b E. destruct (fixup_frame l pre (Y ++ X) fr _ b C3 HYX Hb C1 C2 HL E) as (Z0 & A & B & C).
      bind H b2 E2. apply fits_ok in E2. destruct E2 as [E2 L2]. bind H p Ep.
      assert (Hb2 : b2 = ((pre0 ++ chain l0 ++ Y0) ++ [33]) ++ padded M 0 ++ (Z0 ++ [35]) ++ []).
      { rewrite E2, A, D3, D4, app_nil_r. norm_app; cbn [app]; norm_app. }
      destruct (patch_fwd _ (padded M 0) (Z0 ++ [35]) [] b2 (S (f_start fr)) (length b2) p Hb2 (padded_len 0)) as (v & F1 & F2 & F3 & F4).
      { rewrite D5, (app_length _ [33]). cbn [length]. lia. }
      { rewrite Hb2, D5. rewrite !(app_length (_ ++ [33])), !app_length, padded_len. cbn [length]. lia. }
      { rewrite app_length. cbn [length]. lia. }
      { rewrite E2. exact L2. }
      { exact Ep. }
      rewrite zl_app in F2. change (zl [35]) with 1 in F2.
      eapply (inv_done base _ pre0 l0 Y0 (33 :: offset_bytes v ++ Z0 ++ [35])); [exact D1| |exact D2|apply c_neg; [lia|exact B]| |exact H]; [rewrite F1, app_nil_r; norm_app; cbn [app]; norm_app|intros _; exact D5].
Qed.

(** ** The whole program *)
Definition zob (v : Z) : Z := zl (offset_bytes v).
Definition whole (v1 v2 st mx a c : Z) (names : list (list Z)) (X : list Z) : list Z :=
  83 :: offset_bytes v1 ++ offset_bytes v2 ++ offset_bytes st ++ [mx; u8 (Z.of_nat (length names) + 1); u8 (Z.of_nat (length names) + 1)] ++
  flat_map string_bytes names ++ [40; 1] ++ X ++ [35] ++ [65] ++ offset_bytes a ++ [46; 74] ++ offset_bytes c ++ [0].

Let n := u8 (Z.of_nat (length names) + 1).
Let ns := flat_map string_bytes names.
Definition base_of (v2 mx : Z) : list Z := 83 :: padded M 0 ++ offset_bytes v2 ++ offset_bytes stations ++ [mx; n; n] ++ ns ++ [40; 1].
Lemma start_code mx r : pass2 TStart (mktwo [] [] mx 0 0) = Ok r ->
  exists v2 mx', v2 = zob v2 + zob stations + 3 + zl ns /\ Inv (base_of v2 mx') false (fst (fst r)) /\ (length (base_of v2 mx') <= cap)%nat.
Proof.
  intros H. start H. cbn [w_buf w_stack w_max w_group length app] in H. fold n ns in H.
  set (mx' := Z.of_nat (Nat.max mx 1)) in *. bind H b1 E1. apply fits_ok in E1. destruct E1 as [E1 L1]. bind H p E2.
  assert (Hb1 : b1 = (83 :: padded M 0) ++ padded M 0 ++ (offset_bytes stations ++ [mx'; n; n] ++ ns) ++ []).
  { rewrite E1, app_nil_r. norm_app; cbn [app]; norm_app. }
  assert (L1' : (length b1 <= cap)%nat) by (rewrite E1; exact L1).
  destruct (patch_fwd (83 :: padded M 0) (padded M 0) (offset_bytes stations ++ [mx'; n; n] ++ ns) [] b1 (1 + M) (length b1) p Hb1) as (v2 & F1 & F2 & _ & _).
  { exact (padded_len 0). } { cbn [length]. rewrite padded_len. lia. }
  { rewrite Hb1. rewrite !app_length. cbn [length]. rewrite !padded_len. lia. }
  { cbn [length]. lia. } { exact L1'. } { exact E2. }
  bind H b2 E3. apply fits_ok in E3. destruct E3 as [E3 L3]. exists v2, mx'. split; [unfold zob; rewrite !zl_app in F2; change (zl [mx'; n; n]) with 3 in F2; lia|].
  assert (Eb : b2 = base_of v2 mx').
  { rewrite E3, F1, app_nil_r. unfold base_of. norm_app; cbn [app]; norm_app; cbn [app]; norm_app. }
  split; [|rewrite <- Eb, E3; exact L3]. eapply (inv_done _ _ (base_of v2 mx') [] [] []); [| | | | |exact H]; try constructor; try discriminate.
  - reflexivity.
  - cbn [f_contents]. rewrite Eb. reflexivity.
  - reflexivity.
  - constructor.
  - cbn [RxGen.chain]. rewrite !app_nil_r. exact Eb.
Qed.

Lemma built_bottom base fr k pre l : built base (fr :: k) pre l -> f_op fr = KStart -> k = [] /\ pre = base.
Proof. intros H Ho. inversion H; subst; [auto|]. match goal with X : opening _ _ |- _ => unfold opening in X; rewrite Ho in X; contradiction end. Qed.
Lemma accept_code v2 mx rep w r P : v2 = zob v2 + zob stations + 3 + zl ns -> Inv (base_of v2 mx) rep w -> (exists fr, w_stack w = [fr] /\ f_op fr = KStart) -> pass2 TAccept w = Ok r ->
  app_bytes cap (w_buf (fst (fst r))) [0] = Ok P -> exists v1 a c X, P = whole v1 v2 stations mx a c names X /\ code X /\ small P /\
    v1 = zob v1 + zob v2 + zob stations + 3 + zl ns + 2 + zl X + 1 /\ a = - (zl X + 4) /\ c = - (zob a + 3).
Proof.
  intros Hv2 (pre & l & Y & X & HB & Hb & HY & HX & _ & HL) (fr & Es & Ho) H HP. start H. rewrite Es in *.
  destruct (built_frame _ _ _ _ _ HB) as (C1 & C2 & C3). destruct (built_bottom _ _ _ _ _ HB Ho) as [_ ->]. clear HB.
  bind H b E. destruct (fixup_frame l (base_of v2 mx) (Y ++ X) fr _ b C3 ltac:(apply c_app; assumption) Hb C1 C2 HL E) as (X0 & A & B & C). clear HX HY X Y Hb E C1 C2 C3 l.
  bind H b2 E2. apply fits_ok in E2. destruct E2 as [E2 L2].
  set (S := offset_bytes v2 ++ offset_bytes stations ++ [mx; n; n] ++ ns ++ [40; 1] ++ X0 ++ [35]).
  assert (Hb2 : b2 = [83] ++ padded M 0 ++ S ++ []).
  { rewrite E2, A, app_nil_r. unfold S, base_of. norm_app; cbn [app]; norm_app; cbn [app]; norm_app. }
  bind H p Ep.
  destruct (patch_fwd [83] (padded M 0) S [] b2 1%nat (length b2) p Hb2) as (v1 & F1 & F2 & F3 & F4).
  { exact (padded_len 0). } { reflexivity. } { rewrite Hb2, !app_length, padded_len. cbn [length]. lia. } { cbn; lia. } { rewrite E2. exact L2. } { exact Ep. }
  rewrite app_nil_r in F1. rewrite F1, F3 in H.
  replace (1 + M - (M - length (offset_bytes v1)))%nat with (1 + length (offset_bytes v1))%nat in H by lia.
  bind H gg Eg.
  assert (Hv2b : - 2^30 < v2 < 2^30).
  { assert (LS : (length S <= 1024)%nat) by (rewrite <- E2, Hb2, !app_length in L2; lia). unfold S in LS. rewrite !app_length in LS. unfold zob, zl in Hv2. lia. }
  rewrite app_assoc, skipn_len in Eg by (rewrite app_length; reflexivity). unfold S in Eg. unfold offset_bytes at 1 in Eg.
  rewrite get_put in Eg by (apply zigzag_range, Hv2b). assert (Hgg : fst gg = zigzag v2) by (inversion Eg; reflexivity). rewrite Hgg, zagzig_zigzag in H by exact Hv2b.
  bind H b3 E3. apply fits_ok in E3. destruct E3 as [E3 _]. bind H b4 E4. apply fits_ok in E4. destruct E4 as [E4 _].
  bind H b5 E5. apply fits_ok in E5. destruct E5 as [E5 _]. bind H b6 E6. apply fits_ok in E6. destruct E6 as [E6 _].
  apply done_ok in H. destruct H as (Er & _ & _ & _). rewrite Er in HP. cbn [w_buf] in HP. apply fits_ok in HP. destruct HP as [HP LP].
  set (a := Z.of_nat (1 + length (offset_bytes v1)) + v2 - Z.of_nat (length b3)) in *.
  set (c := Z.of_nat (length ([83] ++ offset_bytes v1 ++ S)) - Z.of_nat (length b5)) in *.
  exists v1, a, c, X0. split; [|split; [exact B|split; [|split; [|split]]]].
  - rewrite HP, E6, E5, E4, E3. unfold whole, S. fold n ns. norm_app; cbn [app]; norm_app; cbn [app]; norm_app.
  - unfold small, zl. rewrite HP. lia.
  - unfold S in F2. rewrite !zl_app in F2. change (zl [mx; n; n]) with 3 in F2. change (zl [40; 1]) with 2 in F2. change (zl [35]) with 1 in F2. unfold zob. lia.
  - unfold a. rewrite E3. unfold S. rewrite !app_length. cbn [length]. unfold zob, zl in *. lia.
  - unfold c. rewrite E5, E4, E3. rewrite !app_length. cbn [length]. unfold zob, zl. lia.
Qed.
End Code.
