(** The second pass of the compiler turns the tokens of a regular expression
    into code that implements what it matches. *)
From Verif Require Import Base UTF8Model UTF8Spec UTF8Proofs CharModel RxCompModel RxModel RxSpec RxVm RxScan.

Ltac norm_app := repeat (rewrite <- app_assoc || rewrite <- app_comm_cons); try reflexivity.
Ltac bind H x E := apply obind_ok in H; destruct H as (x & E & H).
Lemma cassert_ok {A} b (k : outcome A) a : cassert b k = Ok a -> b = true /\ k = Ok a.
Proof. destruct b; [auto|discriminate]. Qed.
Lemma skipn_lt {A} (l : list A) n : (length l <= n)%nat -> skipn n l = [].
Proof. apply skipn_all2. Qed.

Lemma put_some c : 0 <= c < 2^31 -> (1 <= length (UTF8Put c))%nat.
Proof.
  intros H. rewrite put_len by assumption. rewrite len_norm by (apply small_ucs4; assumption).
  repeat match goal with |- context [if ?b then _ else _] => destruct b end; lia.
Qed.
Lemma len_small v : Z.abs v < 1024 -> UTF8Len (zigzag v) = (if Z.abs v <? 64 then 1%nat else 2%nat).
Proof.
  intros H. pose proof (zigzag_range v ltac:(lia)) as R. rewrite len_norm by (apply small_ucs4; assumption).
  rewrite zigzag_eq by lia. destruct (v <? 0) eqn:N, (Z.abs v <? 64) eqn:A; cbn [negb];
  repeat match goal with |- context [?a <? ?b] => destruct (Z.ltb_spec a b); try lia end; reflexivity.
Qed.
Lemma ob_len v : Z.abs v < 1024 -> zl (offset_bytes v) = (if Z.abs v <? 64 then 1 else 2).
Proof.
  intros H. unfold zl, offset_bytes. pose proof (zigzag_range v ltac:(lia)). rewrite put_len, len_small by assumption. destruct (_ <? _); reflexivity.
Qed.

Section Gen.
Variable t : list Z.
Variables (M cap : nat) (stations : Z) (names : list (list Z)).
Hypothesis HM : (M = 1 /\ cap <= 64)%nat \/ (M = 2 /\ cap <= 1024)%nat.
Notation pass2 := (second_pass M cap stations names).

Fixpoint run (ts : list token) (w : two) : outcome two :=
  match ts with
  | [] => Ok w
  | x :: ts => do r <- pass2 x w; run ts (fst (fst r))
  end.
Lemma run_app a b w w' : run (a ++ b) w = Ok w' -> exists w1, run a w = Ok w1 /\ run b w1 = Ok w'.
Proof.
  revert w. induction a as [|x a IH]; intros w H; [exists w; auto|]. cbn [run app] in *. bind H r E. destruct (IH _ H) as (w1 & A & B).
  exists w1. rewrite E. auto.
Qed.
Lemma run_one x w w' : run [x] w = Ok w' -> exists r, pass2 x w = Ok r /\ fst (fst r) = w'.
Proof. cbn [run]. intros H. bind H r E. exists r. split; [exact E|congruence]. Qed.

(** ** Pieces *)
Lemma fits_ok b b' : fits cap b = Ok b' -> b' = b /\ (length b <= cap)%nat.
Proof. unfold fits. destruct (length b <=? cap)%nat eqn:E; [|discriminate]. intros H. split; [congruence|]. apply Nat.leb_le, E. Qed.
Lemma done_ok b k mx g a r : done cap b k mx g a = Ok r -> fst (fst r) = mktwo b k mx g a /\ snd (fst r) = None /\ snd r = true /\ (length b < cap - 1)%nat.
Proof.
  unfold done. intros H. apply cassert_ok in H. destruct H as [H1 H2]. assert (r = (mktwo b k mx g a, None, true)) by congruence. subst r.
  apply Nat.ltb_lt in H1. auto.
Qed.
Lemma padded_len v : length (padded M v) = M.
Proof. unfold padded. rewrite firstn_length, app_length, repeat_length. lia. Qed.
Lemma padded_eq v : Z.abs v < Z.of_nat cap -> exists z, padded M v = offset_bytes v ++ z.
Proof.
  intros H. unfold padded. rewrite firstn_app. rewrite firstn_all2; [eauto|].
  assert (Z.abs v < 1024) by lia. pose proof (ob_len v ltac:(lia)) as E. unfold zl in E.
  destruct (Z.abs v <? 64) eqn:A; lia.
Qed.
Lemma get_padded v rest : Z.abs v < Z.of_nat cap -> exists n, UTF8Get (padded M v ++ rest) = Ok (zigzag v, n).
Proof.
  intros H. destruct (padded_eq v H) as [z ->]. rewrite <- app_assoc. unfold offset_bytes.
  rewrite get_put by (apply zigzag_range; lia). eauto.
Qed.

(** Patching an offset to a place further on *)
Lemma patch_fwd p1 z S T b loc to_ r : b = p1 ++ z ++ S ++ T -> length z = M -> loc = length p1 -> to_ = (loc + M + length S)%nat ->
  (1 <= length p1)%nat -> (length b <= cap)%nat ->
  patch_offset M b loc to_ = Ok r ->
  exists v, fst r = p1 ++ offset_bytes v ++ S ++ T /\ v = zl (offset_bytes v) + zl S /\ snd r = (M - length (offset_bytes v))%nat /\
    (length (offset_bytes v) <= M)%nat.
Proof.
  intros Hb Hz Hl Ht Hp Hc H. unfold patch_offset in H.
  assert (Hlen : (length p1 + M + length S <= cap)%nat) by (subst b; rewrite !app_length in Hc; lia).
  set (off := Z.of_nat to_ - Z.of_nat loc) in *.
  assert (Ho : off = Z.of_nat M + zl S) by (unfold off, zl; lia).
  assert (Hz0 : 0 <= zl S) by apply zl_pos.
  assert (Ho2 : 0 <= off < 1024) by (unfold zl in Ho; lia).
  rewrite (len_small off) in H by lia.
  set (v := if _ && _ then _ else _) in H.
  assert (Hv : v = zl (offset_bytes v) + zl S /\ (length (offset_bytes v) <= M)%nat).
  { assert (HS : (loc <? to_)%nat = true) by (apply Nat.ltb_lt; lia).
    assert (Hcase : (M = 1%nat /\ off < 64) \/ M = 2%nat) by (destruct HM as [[-> ?]|[-> ?]]; [left|right]; lia).
    unfold v. rewrite HS. destruct Hcase as [[-> Hoff]|HM2].
    - destruct (Z.abs off <? 64) eqn:A; [|lia]. cbn [Nat.ltb Nat.leb andb]. pose proof (ob_len off ltac:(lia)) as E. rewrite A in E. unfold zl in *. lia.
    - rewrite HM2 in *. destruct (Z.abs off <? 64) eqn:A; cbn [Nat.ltb Nat.leb andb].
      + pose proof (ob_len (off - Z.of_nat (2 - 1)) ltac:(lia)) as E. destruct (Z.abs (off - Z.of_nat (2 - 1)) <? 64) eqn:B; [|lia]. unfold zl in *. lia.
      + pose proof (ob_len off ltac:(lia)) as E. rewrite A in E. unfold zl in *. lia. }
  clearbody v. destruct Hv as [Hv Hvl]. unfold patch_value in H. destruct (M <? UTF8Len (zigzag v))%nat eqn:E; [discriminate|].
  assert (r = (firstn loc b ++ offset_bytes v ++ skipn (loc + M) b, (M - UTF8Len (zigzag v))%nat)) by congruence. subst r. cbn [fst snd].
  exists v. repeat split.
  - subst b. rewrite firstn_len by exact Hl. do 2 f_equal. rewrite app_assoc, skipn_len by (rewrite app_length; lia). reflexivity.
  - exact Hv.
  - unfold offset_bytes. rewrite put_len; [reflexivity|]. apply zigzag_range.
    assert (zl S < 1024) by (unfold zl; lia). assert (zl (offset_bytes v) <= 2) by (unfold zl; lia). pose proof (zl_pos (offset_bytes v)). lia.
  - exact Hvl.
Qed.

Lemma insert_ok p X loc b b' : b = p ++ X -> loc = length p -> insert_split M cap b loc = Ok b' ->
  b' = p ++ 65 :: padded M 0 ++ X /\ (length b' <= cap)%nat.
Proof.
  intros -> -> H. unfold insert_split in H. apply fits_ok in H. destruct H as [-> H]. split; [|exact H].
  rewrite firstn_len, skipn_len by reflexivity. reflexivity.
Qed.

(** ** Alternatives before they are fixed up, newest first *)
Definition seg (d : Z) (X : list Z) : list Z := 65 :: padded M 0 ++ X ++ 74 :: padded M d.
Definition back (X : list Z) : Z := - (zl X + 2 + 2 * Z.of_nat M).
Fixpoint chain (l : list (list Z)) : list Z :=
  match l with
  | [] => []
  | X :: l => chain l ++ seg (match l with [] => 0 | _ => back X end) X
  end.
Definition jump_of (pre : list Z) (l : list (list Z)) : nat :=
  match l with [] => O | _ => (length pre + length (chain l) - M)%nat end.
Lemma seg_len d X : length (seg d X) = (2 + M + M + length X)%nat.
Proof. unfold seg. cbn [length]. rewrite !app_length. cbn [length]. rewrite !padded_len. lia. Qed.

(** Any of the alternatives, or the last one *)
Fixpoint any (RL : list (Z -> Z -> Prop)) (R : Z -> Z -> Prop) (i j : Z) : Prop :=
  match RL with
  | [] => R i j
  | R1 :: RL => any RL (fun i j => R1 i j \/ R i j) i j
  end.

Lemma fixup_chain l RL : Forall2 (impl t) RL l -> l <> [] -> forall R pre Y f contents jump b b',
  impl t R Y -> b = pre ++ chain l ++ Y -> contents = length pre -> jump = jump_of pre l -> (length b <= cap)%nat ->
  fixup_loop M f b contents jump = Ok b' ->
  exists Z0, b' = pre ++ Z0 /\ impl t (any RL R) Z0 /\ (length b' <= length b)%nat.
Proof.
  induction 1 as [|R1 X RL l HX Hl IH]; intros Hne R pre Y f contents jump b b' HY Hb Hc Hj Hlen H; [contradiction|]. clear Hne.
  destruct f as [|f]; [discriminate|]. cbn [fixup_loop] in H.
  set (d := match l with [] => 0 | _ => back X end) in *.
  assert (Hchain : chain (X :: l) = chain l ++ seg d X) by reflexivity.
  set (p1 := pre ++ chain l ++ 65 :: padded M 0 ++ X ++ [74]).
  assert (Hb1 : b = p1 ++ padded M d ++ Y ++ []).
  { rewrite Hb, Hchain, app_nil_r. unfold p1, seg. norm_app; cbn [app]; norm_app. }
  assert (Hp1 : jump = length p1).
  { rewrite Hj. unfold jump_of. rewrite Hchain. unfold p1. rewrite !app_length, seg_len. cbn [length]. rewrite !app_length, padded_len. cbn [length]. lia. }
  assert (Hlen1 : (length p1 + M + length Y <= cap)%nat).
  { rewrite Hb1, !app_length, padded_len in Hlen. cbn [length] in Hlen. lia. }
  assert (Hp1l : length p1 = (length pre + length (chain l) + 2 + M + length X)%nat).
  { unfold p1. rewrite !app_length. cbn [length]. rewrite !app_length, padded_len. cbn [length]. lia. }
  assert (Hd : Z.abs d < Z.of_nat cap).
  { unfold d. destruct l as [|X' l']; [lia|]. unfold back, zl. cbn [chain] in Hp1l. rewrite app_length, seg_len in Hp1l. lia. }
  assert (Hd0 : (l = [] /\ d = 0) \/ (l <> [] /\ d = back X)) by (unfold d; destruct l; [left|right]; split; auto; discriminate).
  bind H g E. rewrite Hb1, skipn_len in E by exact Hp1. destruct (get_padded d (Y ++ []) Hd) as [n En].
  assert (g = (zigzag d, n)) by congruence. subst g. cbn [fst] in H. rewrite zagzig_zigzag in H by lia.
  bind H o Eo. apply cassert_ok in H. destruct H as [_ H].
  bind H r Er. assert (Hbl : length b = (length p1 + M + length Y)%nat) by (rewrite Hb1, !app_length, padded_len; cbn [length]; lia).
  destruct (patch_fwd p1 (padded M d) Y [] b jump (length b) r Hb1 (padded_len d) Hp1 ltac:(lia) ltac:(lia) Hlen Er) as (w & Er1 & Hw & Ersh & Hwl).
  rewrite app_nil_r in Er1. rewrite Er1 in H.
  bind H o2 Eo2. apply cassert_ok in H. destruct H as [_ H].
  set (sp := if d =? 0 then S contents else Z.to_nat (Z.of_nat jump + d + Z.of_nat M + 1)) in *.
  set (p2 := pre ++ chain l ++ [65]).
  assert (Hsp : sp = length p2).
  { unfold p2, sp. rewrite !app_length. cbn [length]. destruct Hd0 as [[-> ->]|[Hln ->]].
    - cbn. lia.
    - unfold back, zl. destruct (- (Z.of_nat (length X) + 2 + 2 * Z.of_nat M) =? 0) eqn:E0; [lia|]. lia. }
  bind H r2 Er2.
  assert (Hb2 : p1 ++ offset_bytes w ++ Y = p2 ++ padded M 0 ++ (X ++ 74 :: offset_bytes w) ++ Y).
  { unfold p1, p2. norm_app; cbn [app]; norm_app; cbn [app]; norm_app. }
  assert (Hsplen : (length (p1 ++ offset_bytes w ++ Y) <= cap)%nat) by (rewrite !app_length; lia).
  destruct (patch_fwd p2 (padded M 0) (X ++ 74 :: offset_bytes w) Y _ sp (jump + M - snd r) r2 Hb2 (padded_len 0) Hsp) as (v & Er3 & Hv & _ & Hvl).
  { rewrite app_length. cbn [length]. rewrite Ersh, Hp1, Hp1l. unfold p2 in Hsp. rewrite !app_length in Hsp. cbn [length] in Hsp. lia. }
  { unfold p2. rewrite !app_length. cbn [length]. lia. }
  { exact Hsplen. }
  { exact Er2. }
  rewrite Er3 in H. rewrite zl_app, zl_cons in Hv.
  set (Y' := 65 :: offset_bytes v ++ X ++ 74 :: offset_bytes w ++ Y).
  assert (HY' : impl t (fun i j => R1 i j \/ R i j) Y') by (apply impl_alt; [lia|exact Hw|assumption..]).
  assert (Hb3 : p2 ++ offset_bytes v ++ (X ++ 74 :: offset_bytes w) ++ Y = pre ++ chain l ++ Y').
  { unfold p2, Y'. norm_app; cbn [app]; norm_app. }
  rewrite Hb3 in H.
  assert (Hb3l : (length (pre ++ chain l ++ Y') <= length b)%nat).
  { rewrite <- Hb3, Hbl, Hp1l. unfold p2. rewrite !app_length. cbn [length]. lia. }
  destruct Hd0 as [[-> Hd0]|[Hln Hd0]]; rewrite Hd0 in H.
  - cbn in H. assert (b' = pre ++ Y') by congruence. subst b'. exists Y'. inversion Hl; subst RL.
    split; [reflexivity|]. split; [exact HY'|exact Hb3l].
  - destruct (back X =? 0) eqn:E0; [unfold back, zl in E0; lia|]. apply cassert_ok in H. destruct H as [_ H].
    destruct (IH Hln (fun i j => R1 i j \/ R i j) pre Y' f contents (Z.to_nat (Z.of_nat jump + back X)) _ b' HY' eq_refl Hc) as (Z0 & A & B & C).
    + rewrite Hp1, Hp1l. unfold jump_of, back, zl. destruct l; [contradiction|]. lia.
    + lia.
    + exact H.
    + exists Z0. split; [exact A|]. split; [exact B|lia].
Qed.
Lemma fixup_ok l RL R pre Y fr b b' : Forall2 (impl t) RL l -> impl t R Y -> b = pre ++ chain l ++ Y ->
  f_contents fr = length pre -> f_jump fr = jump_of pre l -> (length b <= cap)%nat ->
  fixup M b fr = Ok b' -> exists Z0, b' = pre ++ Z0 /\ impl t (any RL R) Z0 /\ (length b' <= length b)%nat.
Proof.
  intros HL HY Hb Hc Hj Hlen H. unfold fixup in H. destruct l as [|X l].
  - cbn [jump_of] in Hj. rewrite Hj in H. inversion HL; subst RL. exists Y. assert (b' = b) by congruence. subst b'. split; [exact Hb|]. split; [exact HY|lia].
  - assert (Hj0 : f_jump fr <> O).
    { rewrite Hj. unfold jump_of. cbn [chain]. rewrite app_length, seg_len. lia. }
    destruct (f_jump fr) as [|j] eqn:Ej; [contradiction|]. eapply (fixup_chain (X :: l) RL HL); try eassumption. discriminate.
Qed.

(** ** Literals *)
Definition lit (d : list Z) : list Z := flat_map (fun c => 67 :: UTF8Put c) d.
Lemma lit_app a b : lit (a ++ b) = lit a ++ lit b.
Proof. apply flat_map_app. Qed.

Definition same_stack (w w' : two) := w_stack w' = w_stack w.

Ltac start H := unfold second_pass in H; cbv zeta in H; apply obind_ok in H; destruct H as (? & _ & H).
Lemma plain_ok x w r : (do b <- app_bytes cap (w_buf w) x; done cap b (w_stack w) (w_max w) (w_group w) (length (w_buf w))) = Ok r ->
  w_buf (fst (fst r)) = w_buf w ++ x /\ w_stack (fst (fst r)) = w_stack w /\ w_atom (fst (fst r)) = length (w_buf w) /\ (length (w_buf (fst (fst r))) < cap - 1)%nat.
Proof.
  intros H. bind H b E. apply fits_ok in E. destruct E as [-> _]. apply done_ok in H. destruct H as (-> & _ & _ & L). cbn. auto.
Qed.
Lemma flush_ok d w w' : run (flush' d) w = Ok w' -> w_buf w' = w_buf w ++ lit d /\ w_stack w' = w_stack w.
Proof.
  destruct d as [|c d]; cbn [flush'].
  - cbn [run lit flat_map]. intros H. assert (w' = w) by congruence. subst. rewrite app_nil_r. auto.
  - intros H. apply run_one in H. destruct H as (r & H & <-). start H. apply plain_ok in H. destruct H as (A & B & _ & _). auto.
Qed.

(** ** Quantifiers *)
Lemma star_loop_S m f e a rev : star_loop m (S f) e a rev =
  let rd := Z.of_nat a - (Z.of_nat e - (Z.of_nat m - Z.of_nat (UTF8Len (zigzag (Z.of_nat (e + rev) - Z.of_nat (S a)))))) in
  if (UTF8Len (zigzag rd) <? rev)%nat then star_loop m f e a (UTF8Len (zigzag rd)) else (UTF8Len (zigzag rd), rd).
Proof. reflexivity. Qed.
Lemma star_ok e a L : Z.of_nat e = Z.of_nat a + L -> 2 + Z.of_nat M <= L -> L + 2 < Z.of_nat cap ->
  (M = 1%nat /\ L <= 63 /\ star_loop M 8 e a M = (1%nat, - L)) \/
  (M = 2%nat /\ L <= 63 /\ star_loop M 8 e a M = (1%nat, - (L - 1))) \/
  (M = 2%nat /\ 64 <= L /\ star_loop M 8 e a M = (2%nat, - L)).
Proof.
  intros He HL Hc.
  destruct HM as [[HM1 Hc']|[HM2 Hc']]; [left|right].
  - split; [assumption|]. split; [lia|]. rewrite HM1 in *. rewrite star_loop_S. cbv zeta.
    rewrite (len_small (Z.of_nat (e + 1) - Z.of_nat (S a))) by lia.
    destruct (Z.ltb_spec (Z.abs (Z.of_nat (e + 1) - Z.of_nat (S a))) 64); [|lia].
    replace (Z.of_nat a - (Z.of_nat e - (Z.of_nat 1 - Z.of_nat 1))) with (- L) by lia.
    rewrite len_small by lia. destruct (Z.ltb_spec (Z.abs (- L)) 64); [reflexivity|lia].
  - assert (Hcase : L <= 62 \/ L = 63 \/ 64 <= L) by lia.
    destruct Hcase as [HL1|[HL1|HL1]]; [left|left|right]; (split; [assumption|]); (split; [lia|]); rewrite HM2 in *; rewrite star_loop_S; cbv zeta.
    + rewrite (len_small (Z.of_nat (e + 2) - Z.of_nat (S a))) by lia.
      destruct (Z.ltb_spec (Z.abs (Z.of_nat (e + 2) - Z.of_nat (S a))) 64); [|lia].
      replace (Z.of_nat a - (Z.of_nat e - (Z.of_nat 2 - Z.of_nat 1))) with (- (L - 1)) by lia.
      rewrite len_small by lia. destruct (Z.ltb_spec (Z.abs (- (L - 1))) 64); [|lia]. cbn [Nat.ltb Nat.leb].
      rewrite star_loop_S; cbv zeta.
      rewrite (len_small (Z.of_nat (e + 1) - Z.of_nat (S a))) by lia.
      destruct (Z.ltb_spec (Z.abs (Z.of_nat (e + 1) - Z.of_nat (S a))) 64); [|lia].
      replace (Z.of_nat a - (Z.of_nat e - (Z.of_nat 2 - Z.of_nat 1))) with (- (L - 1)) by lia.
      rewrite len_small by lia. destruct (Z.ltb_spec (Z.abs (- (L - 1))) 64); [reflexivity|lia].
    + rewrite (len_small (Z.of_nat (e + 2) - Z.of_nat (S a))) by lia.
      destruct (Z.ltb_spec (Z.abs (Z.of_nat (e + 2) - Z.of_nat (S a))) 64); [lia|].
      replace (Z.of_nat a - (Z.of_nat e - (Z.of_nat 2 - Z.of_nat 2))) with (- L) by lia.
      rewrite len_small by lia. destruct (Z.ltb_spec (Z.abs (- L)) 64); [|lia]. cbn [Nat.ltb Nat.leb].
      rewrite star_loop_S; cbv zeta.
      rewrite (len_small (Z.of_nat (e + 1) - Z.of_nat (S a))) by lia.
      destruct (Z.ltb_spec (Z.abs (Z.of_nat (e + 1) - Z.of_nat (S a))) 64); [|lia].
      replace (Z.of_nat a - (Z.of_nat e - (Z.of_nat 2 - Z.of_nat 1))) with (- (L - 1)) by lia.
      rewrite len_small by lia. destruct (Z.ltb_spec (Z.abs (- (L - 1))) 64); [reflexivity|lia].
    + rewrite (len_small (Z.of_nat (e + 2) - Z.of_nat (S a))) by lia.
      destruct (Z.ltb_spec (Z.abs (Z.of_nat (e + 2) - Z.of_nat (S a))) 64); [lia|].
      replace (Z.of_nat a - (Z.of_nat e - (Z.of_nat 2 - Z.of_nat 2))) with (- L) by lia.
      rewrite len_small by lia. destruct (Z.ltb_spec (Z.abs (- L)) 64); [lia|reflexivity].
Qed.
(** The code of an atom with a quantifier, out of the code of the atom. *)
Definition shape (q : quant) (X X' : list Z) : Prop :=
  match q with
  | QOne => X' = X
  | QOpt => exists v, v = zl (offset_bytes v) + zl X /\ X' = 65 :: offset_bytes v ++ X
  | QStar => exists v rd, v = zl (offset_bytes v) + zl X + 1 + zl (offset_bytes rd) /\ rd = - (1 + zl (offset_bytes v) + zl X + 1) /\
      X' = 65 :: offset_bytes v ++ X ++ 74 :: offset_bytes rd
  | QPlus => exists v, v = - (zl X + 1) /\ X' = X ++ 65 :: offset_bytes v
  end.
Lemma rep_shape q X pre w w' : run (rep_toks q) w = Ok w' -> w_buf w = pre ++ X -> w_atom w = length pre -> (3 <= length pre)%nat ->
  (length (w_buf w) <= cap)%nat ->
  exists X', w_buf w' = pre ++ X' /\ shape q X X' /\ w_stack w' = w_stack w.
Proof.
  intros H Hb Ha Hpre Hcap. destruct q; cbn [rep_toks] in H.
  - assert (w' = w) by (cbn in H; congruence). subst. exists X. cbn [shape]. auto.
  - apply run_one in H. destruct H as (r & H & <-). start H. cbn [Z.eqb andb] in H. rewrite Ha in H.
    bind H b1 E1. destruct (insert_ok pre X _ _ _ Hb eq_refl E1) as [Eb1 Lb1].
    bind H r1 E2. subst b1.
    replace (pre ++ 65 :: padded M 0 ++ X) with ((pre ++ [65]) ++ padded M 0 ++ X ++ []) in E2, Lb1 by (rewrite app_nil_r; norm_app).
    destruct (patch_fwd (pre ++ [65]) (padded M 0) X [] _ (S (length pre)) (length ((pre ++ [65]) ++ padded M 0 ++ X ++ [])) r1 eq_refl (padded_len 0) ltac:(rewrite app_length; cbn; lia)
      ltac:(rewrite !app_length, padded_len; cbn; lia) ltac:(rewrite app_length; cbn; lia) Lb1 E2) as (v & A & Hv & _ & _).
    rewrite A in H. apply done_ok in H. destruct H as (-> & _ & _ & _). cbn [w_buf w_stack]. rewrite app_nil_r.
    exists (65 :: offset_bytes v ++ X). split; [norm_app|]. split; [|reflexivity].
    exists v. split; [assumption|reflexivity].
  - apply run_one in H. destruct H as (r & H & <-). start H. cbn [Z.eqb andb] in H. rewrite Ha in H.
    bind H b1 E1. destruct (insert_ok pre X _ _ _ Hb eq_refl E1) as [Eb1 Lb1].
    bind H b2 E2. apply fits_ok in E2. destruct E2 as [Eb2 Lb2].
    assert (Hl2 : length b2 = (length pre + 1 + M + length X + 1)%nat).
    { subst b2 b1. rewrite !app_length. cbn [length]. rewrite app_length, padded_len. lia. }
    rewrite <- Eb2 in Lb2.
    destruct (star_loop M 8 (length b2) (length pre) M) as [rev rd] eqn:ES.
    bind H r1 E3. bind H b3 E4. apply fits_ok in E4. destruct E4 as [Eb3 Lb3].
    apply done_ok in H. destruct H as (-> & _ & _ & _). cbn [w_buf w_stack].
    (* the two offsets *)
    set (L := Z.of_nat (length X) + 2 + Z.of_nat M) in *.
    assert (HL : Z.of_nat (length b2) = Z.of_nat (length pre) + L) by (unfold L; lia).
    assert (Hsmall : L + 2 < Z.of_nat cap) by lia.
    assert (G : exists v, fst r1 = pre ++ 65 :: offset_bytes v ++ X ++ [74] /\ v = zl (offset_bytes v) + zl X + 1 + zl (offset_bytes rd) /\
                rd = - (1 + zl (offset_bytes v) + zl X + 1)).
    { assert (HPV : forall vv, Z.abs vv < 1024 -> patch_value M b2 (S (length pre)) vv = Ok r1 -> fst r1 = pre ++ 65 :: offset_bytes vv ++ X ++ [74]).
      { intros vv _ Hp. unfold patch_value in Hp. destruct (M <? _)%nat; [discriminate|].
        assert (Hr1 : r1 = (firstn (S (length pre)) b2 ++ offset_bytes vv ++ skipn (S (length pre) + M) b2, (M - UTF8Len (zigzag vv))%nat)) by congruence.
        rewrite Hr1. cbn [fst]. rewrite Eb2, Eb1.
        replace ((pre ++ 65 :: padded M 0 ++ X) ++ [74]) with ((pre ++ [65]) ++ padded M 0 ++ X ++ [74]) by norm_app.
        rewrite firstn_len by (rewrite app_length; cbn; lia). rewrite (app_assoc (pre ++ [65]) (padded M 0)).
        rewrite skipn_len by (rewrite !app_length, padded_len; cbn; lia). norm_app. }
      assert (Hzx : zl X = L - 2 - Z.of_nat M) by (unfold zl, L; lia).
      assert (HT' : forall k, (1 <= k)%nat -> (S (length pre) <? length b2 + k)%nat = true) by (intros k Hk; apply Nat.ltb_lt; lia).
      unfold patch_offset in E3.
      destruct (star_ok (length b2) (length pre) L HL ltac:(lia) Hsmall) as [(HM1 & HL1 & E)|[(HM1 & HL1 & E)|(HM1 & HL1 & E)]];
        rewrite E in ES; assert (Hrev : rev = fst (rev, rd)) by reflexivity; assert (Hrd : rd = snd (rev, rd)) by reflexivity;
        rewrite <- ES in Hrev, Hrd; cbn [fst snd] in Hrev, Hrd; subst rev rd; rewrite HT', andb_true_r in E3 by lia; clear E;
        rewrite HM1 in *; rewrite len_small in E3 by lia.
      - destruct (Z.ltb_spec (Z.abs (Z.of_nat (length b2 + 1) - Z.of_nat (S (length pre)))) 64); [|lia].
        cbn [Nat.ltb Nat.leb] in E3. apply HPV in E3; [|lia]. eexists. split; [exact E3|].
        rewrite !ob_len by lia. repeat match goal with |- context [Z.abs ?x <? 64] => destruct (Z.ltb_spec (Z.abs x) 64); try lia end.
      - destruct (Z.ltb_spec (Z.abs (Z.of_nat (length b2 + 1) - Z.of_nat (S (length pre)))) 64); [|lia].
        cbn [Nat.ltb Nat.leb] in E3. apply HPV in E3; [|lia]. eexists. split; [exact E3|].
        rewrite !ob_len by lia. repeat match goal with |- context [Z.abs ?x <? 64] => destruct (Z.ltb_spec (Z.abs x) 64); try lia end.
      - destruct (Z.ltb_spec (Z.abs (Z.of_nat (length b2 + 2) - Z.of_nat (S (length pre)))) 64); [lia|].
        cbn [Nat.ltb Nat.leb] in E3. apply HPV in E3; [|lia]. eexists. split; [exact E3|].
        rewrite !ob_len by lia. repeat match goal with |- context [Z.abs ?x <? 64] => destruct (Z.ltb_spec (Z.abs x) 64); try lia end. }
    destruct G as (v & G1 & G2 & G3). subst b3. rewrite G1.
    exists (65 :: offset_bytes v ++ X ++ 74 :: offset_bytes rd). split; [norm_app; cbn [app]; norm_app|]. split; [|reflexivity].
    exists v, rd. split; [assumption|]. split; [assumption|reflexivity].
  - apply run_one in H. destruct H as (r & H & <-). start H. cbn [Z.eqb andb] in H. rewrite Ha in H.
    bind H b1 E1. apply fits_ok in E1. destruct E1 as [-> L1].
    bind H b2 E2. apply fits_ok in E2. destruct E2 as [-> L2].
    apply done_ok in H. destruct H as (-> & _ & _ & _). cbn [w_buf w_stack].
    rewrite Hb. set (v := Z.of_nat (length pre) - Z.of_nat (length ((pre ++ X) ++ [65]))).
    exists (X ++ 65 :: offset_bytes v). split; [norm_app|]. split; [|reflexivity].
    exists v. split; [|reflexivity]. unfold v, zl. rewrite !app_length. cbn [length]. lia.
Qed.
Lemma rep_ok q X R pre w w' : run (rep_toks q) w = Ok w' -> w_buf w = pre ++ X -> w_atom w = length pre -> impl t R X -> (3 <= length pre)%nat ->
  (length (w_buf w) <= cap)%nat ->
  exists X', w_buf w' = pre ++ X' /\ impl t (quantified q R) X' /\ w_stack w' = w_stack w.
Proof.
  intros H Hb Ha HX Hpre Hcap. destruct (rep_shape q X pre w w' H Hb Ha Hpre Hcap) as (X' & A & B & C). exists X'. split; [exact A|]. split; [|exact C].
  destruct q; cbn [shape quantified] in *.
  - subst X'. exact HX.
  - destruct B as (v & B & ->). apply impl_opt; assumption.
  - destruct B as (v & rd & B & B' & ->). apply impl_star; assumption.
  - destruct B as (v & B & ->). apply impl_plus; assumption.
Qed.

(** ** Everything *)
Lemma any_ext RL : forall R R', (forall i j, R i j <-> R' i j) -> forall i j, any RL R i j <-> any RL R' i j.
Proof.
  induction RL as [|R1 RL IH]; intros R R' E i j; cbn [any]; [apply E|]. apply IH. intros a b. rewrite E. reflexivity.
Qed.

(** The tokens of [r], in the frame [fr] whose alternatives so far are [l] *)
Definition gen_rx (r : rx) : Prop := wf r -> forall w w' pre l RL fr k,
  run (fst (toks r [])) w = Ok w' -> (3 <= length (w_buf w))%nat ->
  w_buf w = pre ++ chain l -> Forall2 (impl t) RL l -> w_stack w = fr :: k -> f_contents fr = length pre -> f_jump fr = jump_of pre l ->
  exists l' RL' R Y fr',
    w_buf w' ++ lit (snd (toks r [])) = pre ++ chain l' ++ Y /\ Forall2 (impl t) RL' l' /\ impl t R Y /\
    (forall i j, any RL' R i j <-> any RL (matches t r) i j) /\
    w_stack w' = fr' :: k /\ f_contents fr' = length pre /\ f_jump fr' = jump_of pre l' /\ f_op fr' = f_op fr /\ f_start fr' = f_start fr.
Definition gen_sq (s : sq) : Prop := wf_sq s -> forall w w' d,
  run (fst (toks_sq s d)) w = Ok w' -> (3 <= length (w_buf w))%nat ->
  exists X, w_buf w' ++ lit (snd (toks_sq s d)) = w_buf w ++ lit d ++ X /\ impl t (matches_sq t s) X /\ w_stack w' = w_stack w /\ (3 <= length (w_buf w'))%nat.
Definition gen_item (i : item) : Prop := wf_item i -> forall w w' d,
  run (fst (toks_item i d)) w = Ok w' -> (3 <= length (w_buf w))%nat ->
  exists X, w_buf w' ++ lit (snd (toks_item i d)) = w_buf w ++ lit d ++ X /\ impl t (matches_item t i) X /\ w_stack w' = w_stack w /\ (3 <= length (w_buf w'))%nat.
Definition gen_atom (a : atom) : Prop := wf_atom a -> forall w w',
  run (toks_atom a) w = Ok w' -> (3 <= length (w_buf w))%nat ->
  exists X, w_buf w' = w_buf w ++ X /\ impl t (matches_atom t a) X /\ w_stack w' = w_stack w /\ w_atom w' = length (w_buf w) /\
    (length (w_buf w') <= cap)%nat.

Lemma alt_ok pre l X w w' fr k : run [TAlt] w = Ok w' -> w_buf w = pre ++ chain l ++ X -> w_stack w = fr :: k ->
  f_contents fr = length pre -> f_jump fr = jump_of pre l ->
  exists fr', w_buf w' = pre ++ chain (X :: l) /\ w_stack w' = fr' :: k /\ f_contents fr' = length pre /\ f_jump fr' = jump_of pre (X :: l) /\
    f_op fr' = f_op fr /\ f_start fr' = f_start fr.
Proof.
  intros H Hb Hs Hc Hj. apply run_one in H. destruct H as (r & H & <-). start H. rewrite Hs in H.
  destruct l as [|X0 l].
  - cbn [jump_of] in Hj. rewrite Hj in H. bind H b1 E1. cbn [chain app] in Hb.
    destruct (insert_ok pre X _ _ _ Hb Hc E1) as [Eb1 _]. bind H b2 E2. apply fits_ok in E2. destruct E2 as [Eb2 _].
    bind H b3 E3. apply fits_ok in E3. destruct E3 as [Eb3 _]. apply done_ok in H. destruct H as (-> & _ & _ & _). cbn [w_buf w_stack].
    assert (HB : b3 = pre ++ chain [X]) by (subst b3 b2 b1; unfold chain, seg; norm_app; cbn [app]; norm_app).
    eexists. split; [exact HB|]. split; [reflexivity|]. cbn [f_contents f_jump f_op f_start]. split; [exact Hc|]. split; [|auto].
    unfold jump_of. rewrite <- app_length, <- HB, Eb3, app_length, padded_len. lia.
  - assert (Hj0 : f_jump fr <> O).
    { rewrite Hj. unfold jump_of. cbn [chain]. rewrite app_length, seg_len. lia. }
    assert (Hjv : (f_jump fr + M)%nat = length (pre ++ chain (X0 :: l))).
    { rewrite Hj. unfold jump_of. rewrite app_length. cbn [chain]. rewrite app_length, seg_len. lia. }
    destruct (f_jump fr) as [|j0] eqn:Ej; [contradiction|]. bind H b1 E1.
    assert (Hb' : w_buf w = (pre ++ chain (X0 :: l)) ++ X) by (rewrite Hb; apply app_assoc).
    destruct (insert_ok (pre ++ chain (X0 :: l)) X _ _ _ Hb' Hjv E1) as [Eb1 _]. bind H b2 E2. apply fits_ok in E2. destruct E2 as [Eb2 _].
    bind H b3 E3. apply fits_ok in E3. destruct E3 as [Eb3 _]. apply done_ok in H. destruct H as (-> & _ & _ & _). cbn [w_buf w_stack].
    assert (HD : Z.of_nat (S j0) - Z.of_nat (length b2) = back X).
    { subst b2 b1. rewrite !app_length. cbn [length]. rewrite app_length, padded_len. rewrite app_length in Hjv. unfold back, zl. lia. }
    rewrite HD in Eb3.
    assert (HB : b3 = pre ++ chain (X :: X0 :: l)).
    { subst b3 b2 b1. change (chain (X :: X0 :: l)) with (chain (X0 :: l) ++ seg (back X) X). unfold seg. norm_app; cbn [app]; norm_app. }
    eexists. split; [exact HB|]. split; [reflexivity|]. cbn [f_contents f_jump f_op f_start]. split; [exact Hc|]. split; [|auto].
    unfold jump_of. rewrite <- app_length, <- HB, Eb3, app_length, padded_len. lia.
Qed.

Lemma fits_before x w r : pass2 x w = Ok r -> (length (w_buf w) < cap)%nat.
Proof.
  intros H. unfold second_pass in H; cbv zeta in H. bind H u E. apply fits_ok in E. destruct E as [_ E]. rewrite app_length in E. cbn [length] in E. lia.
Qed.

Lemma gen_all : (forall r, gen_rx r) /\ (forall s, gen_sq s) /\ (forall i, gen_item i) /\ (forall a, gen_atom a).
Proof.
  apply rx_mutind.
  - intros s IH Hw w w' pre l RL fr k H H3 Hb HL Hs Hc Hj. cbn [toks] in *.
    destruct (IH Hw w w' [] H H3) as (X & A & B & C & _). exists l, RL, (matches_sq t s), X, fr.
    split; [rewrite A, Hb; cbn [lit flat_map app]; norm_app|]. split; [assumption|]. split; [assumption|].
    split; [reflexivity|]. split; [congruence|auto].
  - intros s IHs r IHr [Hws Hwr] w w' pre l RL fr k H H3 Hb HL Hs Hc Hj. cbn [toks fst snd] in *.
    apply run_app in H. destruct H as (w1 & H1 & H). apply run_app in H. destruct H as (w2 & H2 & H).
    change (TAlt :: fst (toks r [])) with ([TAlt] ++ fst (toks r [])) in H.
    apply run_app in H. destruct H as (w3 & H4 & H).
    destruct (IHs Hws w w1 [] H1 H3) as (X & A & B & C & _). apply flush_ok in H2. destruct H2 as [F1 F2].
    cbn [lit flat_map app] in A.
    destruct (alt_ok pre l X w2 w3 fr k H4) as (fr' & G1 & G2 & G3 & G4 & G5 & G6).
    { rewrite F1, A, Hb. norm_app. }
    { congruence. } { assumption. } { assumption. }
    destruct (IHr Hwr w3 w' pre (X :: l) (matches_sq t s :: RL) fr' k H) as (l' & RL' & R & Y & fr'' & K1 & K2 & K3 & K4 & K5 & K6 & K7 & K8 & K9); try assumption.
    { rewrite G1. rewrite Hb in H3. rewrite !app_length in *. cbn [chain]. rewrite app_length. lia. }
    { constructor; assumption. }
    exists l', RL', R, Y, fr''. split; [exact K1|]. split; [exact K2|]. split; [exact K3|]. split; [exact K4|]. repeat (split; [congruence|]). congruence.
  - intros _ w w' d H H3. exists []. cbn [toks_sq fst snd run] in *. assert (w' = w) by congruence. subst. rewrite app_nil_r.
    split; [reflexivity|]. split; [apply impl_nil|auto].
  - intros i IHi s IHs [Hi Hs] w w' d H H3. cbn [toks_sq fst snd] in *. apply run_app in H. destruct H as (w1 & H1 & H).
    destruct (IHi Hi w w1 d H1 H3) as (X & A & B & C & H3').
    destruct (IHs Hs _ _ _ H H3') as (Y & A' & B' & C' & H3'').
    exists (X ++ Y). split; [rewrite A', app_assoc, A; norm_app|]. split; [apply impl_app; assumption|split; [congruence|exact H3'']].
  - intros _ w w' d H H3. cbn [toks_item fst snd] in *. apply run_app in H. destruct H as (w1 & H1 & H). apply flush_ok in H1. destruct H1 as [F1 F2].
    apply run_one in H. destruct H as (r & H & <-). start H. apply plain_ok in H. destruct H as (A & B & _).
    exists [94]. split; [rewrite A, F1; cbn [lit flat_map]; norm_app; rewrite app_nil_r; norm_app|]. split; [apply impl_bol|]. split; [congruence|].
    rewrite A, F1, !app_length. lia.
  - intros _ w w' d H H3. cbn [toks_item fst snd] in *. apply run_app in H. destruct H as (w1 & H1 & H). apply flush_ok in H1. destruct H1 as [F1 F2].
    apply run_one in H. destruct H as (r & H & <-). start H. apply plain_ok in H. destruct H as (A & B & _).
    exists [36]. split; [rewrite A, F1; cbn [lit flat_map]; norm_app; rewrite app_nil_r; norm_app|]. split; [apply impl_eol|]. split; [congruence|].
    rewrite A, F1, !app_length. lia.
  - intros a IHa q Hw w w' d H H3.
    assert (G : run (flush' d ++ toks_atom a ++ rep_toks q) w = Ok w' -> exists X, w_buf w' ++ lit [] = w_buf w ++ lit d ++ X /\ impl t (matches_item t (It a q)) X /\ w_stack w' = w_stack w /\ (3 <= length (w_buf w'))%nat).
    { clear H. intros H. apply run_app in H. destruct H as (w1 & H1 & H). apply run_app in H. destruct H as (w2 & H2 & H).
      apply flush_ok in H1. destruct H1 as [F1 F2].
      destruct (IHa Hw w1 w2 H2) as (X & A & B & C & D & L). { rewrite F1, app_length. lia. }
      destruct (rep_ok q X (matches_atom t a) (w_buf w1) w2 w' H A D B) as (X' & A' & B' & C'). { rewrite F1, app_length. lia. } { exact L. }
      exists X'. split; [cbn [lit flat_map]; rewrite app_nil_r, A', F1; norm_app|]. split; [exact B'|]. split; [congruence|].
      rewrite A', F1, !app_length. lia. }
    assert (HT : (exists c, a = AChar c /\ q = QOne) \/ toks_item (It a q) d = (flush' d ++ toks_atom a ++ rep_toks q, [])).
    { destruct a as [c| | | |]; try (right; reflexivity). destruct q; [left; eauto|right; reflexivity..]. }
    destruct HT as [(c & -> & ->)|E]; [|rewrite E in *; cbn [fst snd] in *; apply G, H].
    clear G. cbn [toks_item fst snd run] in *. assert (w' = w) by congruence. subst.
    exists (67 :: UTF8Put c). split; [rewrite lit_app; cbn [lit flat_map]; rewrite app_nil_r; reflexivity|]. split; [|auto].
    apply impl_char, Hw.
  - intros c Hw w w' H H3. cbn [toks_atom] in H. apply run_one in H. destruct H as (r & H & <-). start H. apply plain_ok in H.
    destruct H as (A & B & C & D). exists (67 :: UTF8Put c). split; [rewrite A; cbn [flat_map]; rewrite app_nil_r; reflexivity|].
    split; [apply impl_char, Hw|]. split; [exact B|]. split; [exact C|lia].
  - intros Hw w w' H H3. cbn [toks_atom] in H. apply run_one in H. destruct H as (r & H & <-). start H. apply plain_ok in H.
    destruct H as (A & B & C & D). exists [46]. split; [exact A|].
    split; [apply impl_any|]. split; [exact B|]. split; [exact C|lia].
  - intros neg l [Hne Hl] w w' H H3. cbn [toks_atom] in H. apply run_one in H. destruct H as (r & H & <-). start H. apply plain_ok in H.
    destruct H as (A & B & C & D). eexists. split; [exact A|].
    split; [apply impl_class; assumption|]. split; [exact B|]. split; [exact C|lia].
  - intros c Hw w w' H H3. cbn [toks_atom] in H. apply run_one in H. destruct H as (r & H & <-). start H. apply plain_ok in H.
    destruct H as (A & B & C & D). eexists. split; [exact A|].
    split; [apply impl_prop, Hw|]. split; [exact B|]. split; [exact C|lia].
  - intros colon r IH Hw w w' H H3. cbn [toks_atom] in H.
    change (TGroup :: fst (toks r []) ++ flush' (snd (toks r [])) ++ [TEnd]) with ([TGroup] ++ fst (toks r []) ++ flush' (snd (toks r [])) ++ [TEnd]) in H.
    apply run_app in H. destruct H as (w1 & H1 & H). apply run_app in H. destruct H as (w2 & H2 & H). apply run_app in H. destruct H as (w3 & H4 & H).
    apply run_one in H1. destruct H1 as (r1 & H1 & <-). start H1. apply done_ok in H1. destruct H1 as (E1 & _ & _ & _). rewrite E1 in H2. clear E1.
    destruct (IH Hw _ _ (w_buf w) [] [] (mkframe KGroup 0 (length (w_buf w)) (length (w_buf w)) O) (w_stack w) H2 H3) as (l & RL & R & Y & fr' & K1 & K2 & K3 & K4 & K5 & K6 & K7 & K8 & K9);
      [cbn [w_buf chain]; rewrite app_nil_r; reflexivity|constructor|reflexivity..|].
    apply flush_ok in H4. destruct H4 as [F1 F2].
    apply run_one in H. destruct H as (r2 & H & <-). pose proof (fits_before _ _ _ H) as HB. start H. rewrite F2, K5 in H. rewrite K8 in H. cbn [f_op] in H.
    bind H b E. destruct (fixup_ok l RL R (w_buf w) Y fr' (w_buf w3) b K2 K3) as (Z0 & A & B & C).
    { rewrite F1. exact K1. } { exact K6. } { exact K7. } { lia. } { exact E. }
    apply done_ok in H. destruct H as (E2 & _ & _ & L). rewrite E2. cbn [w_buf w_stack w_atom].
    exists Z0. split; [exact A|]. split; [eapply impl_ext; [|exact B]; exact K4|]. split; [reflexivity|]. split; [exact K9|lia].
Qed.
End Gen.
