(** transform computes what XformSpec says. *)
From Verif Require Import Base RefModel RefProofs UTF8Model UTF8Spec UTF8Proofs ArrayModel ArraySpec ArrayProofs StrModel StrSpec StrHeap StrState StrText StrOps StrEdit StrMore StrJson.
From Verif Require Import XformModel XformSpec.
Ltac Zify.zify_post_hook ::= Z.div_mod_to_equations.

Lemma plain_is_good c : plain c -> good c.
Proof. unfold plain, good, ucs4, replacement. lia. Qed.
Lemma put_char_ok (a : body Z) L ch : valid a L -> b_static a = false -> good ch -> b_num a + 7 <= 2^32 - 8 ->
  exists a', put_char a ch = Ok a' /\ valid a' (L ++ UTF8Put ch) /\ b_static a' = false /\ b_refs a' = b_refs a.
Proof.
  intros V ST G LB. assert (PL := put_len_pos _ G). unfold put_char.
  assert (X : exists a1 mv, (if b_alloc a <? b_num a + 7 then resize a (b_num a + 7) else Ok (a, false)) = Ok (a1, mv) /\
    valid a1 L /\ b_num a1 = b_num a /\ b_refs a1 = b_refs a /\ b_static a1 = false /\ b_num a + 7 <= Z.of_nat (length (b_data a1))).
  { destruct (Z.ltb_spec (b_alloc a) (b_num a + 7)) as [H|H].
    - assert (NN : 0 <= b_num a) by (destruct V as (_ & -> & _); lia).
      destruct (resize_ok a L (b_num a + 7) V ST ltac:(lia) ltac:(lia)) as (a1 & mv & E & LE). exists a1, mv.
      destruct (resize_spec a L _ a1 mv V ST E) as (V1 & N1 & R1 & S1). rewrite ST in S1. auto 8.
    - exists a, false. destruct V as (V1 & V2 & V3 & V4 & V5). rewrite <- (V4 ST). split; [reflexivity|]. split; [repeat split; auto; lia|]. auto. }
  destruct X as (a1 & mv & -> & V1 & N1 & R1 & S1 & LE). cbn [obind fst snd]. cbv zeta.
  assert (SR : src_is (rdZ (UTF8Put ch)) (UTF8Put ch)). { assert (Y := src_list (UTF8Put ch) (length (UTF8Put ch)) ltac:(lia)). rewrite firstn_all in Y. exact Y. }
  assert (L7 : (length (UTF8Put ch) <= 7)%nat) by lia.
  destruct V1 as (W1 & W2 & W3 & W4 & W5).
  destruct (copy_in_ok (length (UTF8Put ch)) 0 (b_num a1) (rdZ (UTF8Put ch)) (b_data a1)) as [d E]; try lia.
  { intros j Hj. destruct (SR j ltac:(lia)) as (b & E & _). eauto. }
  rewrite E. cbn [obind]. eexists. split; [reflexivity|]. cbn [b_static b_refs]. split; [|auto].
  apply copy_in_spec in E as (L2 & X2 & Y2); [|lia|lia|lia].
  assert (U : u32 (b_num a1 + Z.of_nat (length (UTF8Put ch))) = b_num a1 + Z.of_nat (length (UTF8Put ch))) by (unfold u32; lia).
  split; [|cbn [b_data b_num b_alloc b_static]; rewrite U, app_length; split; [lia|split; [lia|split; [intros _; rewrite L2; apply W4; exact S1|exact W5]]]].
  cbn [b_data]. intros j b Hb. destruct (Nat.lt_ge_cases j (length L)).
  - rewrite nth_error_app1 in Hb by assumption. rewrite Y2 by lia. apply W1. exact Hb.
  - rewrite nth_error_app2 in Hb by assumption. assert (J := nth_lt _ _ _ Hb).
    destruct (X2 (Z.of_nat j - b_num a1) ltac:(lia)) as (b' & E1 & E2). destruct (SR (Z.of_nat j - b_num a1) ltac:(lia)) as (b2 & E3 & E4).
    replace (Z.to_nat (b_num a1 + (Z.of_nat j - b_num a1))) with j in E2 by lia.
    replace (Z.to_nat (Z.of_nat j - b_num a1)) with (j - length L)%nat in E4 by lia. congruence.
Qed.

Lemma started_le l : forall k, (started l k <= length l)%nat.
Proof. induction l as [|c l IH]; intros k; cbn [started length]; [lia|]. destruct (k <=? 0); [lia|]. specialize (IH (k - nbytes [c])). lia. Qed.
Lemma nb1 c : nbytes [c] = Z.of_nat (length (UTF8Put c)).
Proof. unfold nbytes. rewrite enc_cons, enc_nil, app_nil_r. reflexivity. Qed.

Lemma walk_ok l : Forall good l -> forall fuel pre next done, (length l <= fuel)%nat -> 0 <= done -> done + Z.of_nat (length l) < 2^32 ->
  (next <= length (enc pre) + length (enc l))%nat ->
  let n := started l (Z.of_nat next - Z.of_nat (length (enc pre))) in
  walk (enc (pre ++ l) ++ [0]) fuel (length (enc pre)) next done = Ok (length (enc (pre ++ firstn n l)), done + Z.of_nat n).
Proof.
  induction 1 as [|c l G GL IH]; intros fuel pre next done HF H0 HB HN; cbv zeta.
  - cbn [started firstn]. rewrite enc_nil in HN. cbn [length] in HN. rewrite app_nil_r. destruct fuel; cbn [walk]; (destruct (Nat.ltb_spec (length (enc pre)) next); [lia|]); f_equal; f_equal; lia.
  - cbn [started]. rewrite nb1. assert (PL := put_len_pos _ G). destruct fuel as [|fuel]; cbn [length] in HF; [lia|]. cbn [walk].
    destruct (Nat.ltb_spec (length (enc pre)) next) as [LT|GE].
    + destruct (Z.leb_spec (Z.of_nat next - Z.of_nat (length (enc pre))) 0); [lia|].
      assert (SK : skipn (length (enc pre)) (enc (pre ++ c :: l) ++ [0]) = UTF8Put c ++ enc l ++ [0]).
      { rewrite enc_app, <- app_assoc, skipn_app, skipn_all2, Nat.sub_diag by lia. cbn [skipn app]. rewrite enc_cons, <- app_assoc. reflexivity. }
      rewrite SK, lenptr_good by exact G. cbn [obind].
      assert (EP : length (enc (pre ++ [c])) = (length (enc pre) + length (UTF8Put c))%nat) by (rewrite enc_app, enc_cons, enc_nil, app_nil_r, app_length; reflexivity).
      rewrite enc_cons, app_length in HN. cbn [length] in HB.
      specialize (IH fuel (pre ++ [c]) next (done + 1) ltac:(lia) ltac:(lia) ltac:(lia) ltac:(lia)). cbv zeta in IH. rewrite EP in IH.
      rewrite <- app_assoc in IH. cbn [app] in IH. replace (u32 (done + 1)) with (done + 1) by (unfold u32; lia). rewrite IH.
      replace (Z.of_nat next - Z.of_nat (length (enc pre) + length (UTF8Put c))) with (Z.of_nat next - Z.of_nat (length (enc pre)) - Z.of_nat (length (UTF8Put c))) by lia.
      set (q := started l _). cbn [firstn]. rewrite <- app_assoc. cbn [app]. f_equal. f_equal. lia.
    + destruct (Z.leb_spec (Z.of_nat next - Z.of_nat (length (enc pre))) 0); [|lia]. cbn [firstn]. rewrite app_nil_r. f_equal. f_equal. lia.
Qed.

Lemma put_bytes (a : body Z) out rep : valid a (enc out) -> b_static a = false -> b_refs a <= 1 -> Forall good rep ->
  Z.of_nat (length (enc out) + length (enc rep)) < 2^31 ->
  exists a', body_insert a (b_num a) (Ext (rdZ (enc rep))) (Z.of_nat (length (enc rep))) = Ok a' /\ valid a' (enc (out ++ rep)) /\ b_static a' = false /\ b_refs a' = b_refs a.
Proof.
  intros V ST RF G LB. rewrite enc_app. destruct (enc rep) as [|b bs] eqn:E.
  - exists a. rewrite app_nil_r. split; [|auto]. unfold body_insert, cassert. replace (b_refs a <=? 1) with true by lia. reflexivity.
  - assert (NA : b_num a = Z.of_nat (length (enc out))) by apply V. apply body_append; try assumption; [discriminate|lia].
Qed.

(** *** The copying phase *)
Section Loop.
Context {K : Type}.
Variables (cb : callback K) (after : Z).
Definition idle (stopped : bool) (done : Z) : Prop := working after done stopped = false.

Lemma copy_phase l : Forall good l -> forall r fuel pre done stopped k a n out,
  (forall i, 0 <= i < Z.of_nat (length l) -> idle stopped (done + i)) ->
  Forall good pre -> valid a (enc out) -> b_static a = false ->
  0 <= done -> done + Z.of_nat (length l) < 2^31 -> 0 <= n -> n + Z.of_nat (length l) < 2^31 ->
  Z.of_nat (length (enc out) + length (enc l)) < 2^31 ->
  exists a', valid a' (enc (out ++ l)) /\ b_static a' = false /\ b_refs a' = b_refs a /\
    let t := pre ++ l ++ r in
    xform_loop (enc t ++ [0]) (length (enc t)) cb after (length l + fuel) (length (enc pre)) done stopped k a n =
    xform_loop (enc t ++ [0]) (length (enc t)) cb after fuel (length (enc (pre ++ l))) (done + Z.of_nat (length l)) stopped k a' (n + Z.of_nat (length l)).
Proof.
  induction 1 as [|c l G GL IH]; intros r fuel pre done stopped k a n out ID GP VA ST D0 DB N0 NB LB; cbv zeta.
  - exists a. cbn [length Nat.add]. rewrite !app_nil_r, !Z.add_0_r. auto.
  - assert (PL := put_len_pos _ G). cbn [length] in *. assert (NA : b_num a = Z.of_nat (length (enc out))) by apply VA.
    rewrite enc_cons, app_length in LB.
    destruct (put_char_ok a (enc out) c VA ST G ltac:(lia)) as (a1 & E1 & VA1 & ST1 & RF1).
    assert (EO : enc out ++ UTF8Put c = enc (out ++ [c])) by (rewrite enc_app, enc_cons, enc_nil, app_nil_r; reflexivity).
    rewrite EO in VA1.
    destruct (IH r fuel (pre ++ [c]) (done + 1) stopped k a1 (n + 1) (out ++ [c])) as (a2 & VA2 & ST2 & RF2 & E2); try lia; try assumption.
    { intros i Hi. replace (done + 1 + i) with (done + (i + 1)) by lia. apply ID. lia. }
    { apply Forall_app. split; [exact GP|constructor; [exact G|constructor]]. }
    { rewrite <- EO, app_length. lia. }
    exists a2. rewrite <- !app_assoc in *. cbn [app] in *. split; [exact VA2|]. split; [exact ST2|]. split; [congruence|]. cbv zeta in E2.
    set (t := pre ++ c :: l ++ r) in *.
    assert (LT : (length (enc pre) < length (enc t))%nat) by (unfold t; rewrite enc_app, enc_cons, !app_length; lia).
    assert (SK : skipn (length (enc pre)) (enc t ++ [0]) = UTF8Put c ++ enc (l ++ r) ++ [0]).
    { unfold t. rewrite enc_app, <- app_assoc, skipn_app, skipn_all2, Nat.sub_diag by lia. cbn [skipn app]. rewrite enc_cons, <- app_assoc. reflexivity. }
    cbn [Nat.add]. cbn [xform_loop]. destruct (Nat.ltb_spec (length (enc pre)) (length (enc t))); [|lia].
    replace (working after done stopped) with false by (symmetry; specialize (ID 0 ltac:(lia)); rewrite Z.add_0_r in ID; exact ID).
    rewrite SK, get_good by exact G. cbn [obind fst snd]. rewrite E1. cbn [obind].
    replace (u32 (done + 1)) with (done + 1) by (unfold u32; lia). replace (u32 (n + 1)) with (n + 1) by (unfold u32; lia).
    assert (EP : length (enc (pre ++ [c])) = (length (enc pre) + length (UTF8Put c))%nat) by (rewrite enc_app, enc_cons, enc_nil, app_nil_r, app_length; reflexivity).
    rewrite EP in E2. rewrite E2. f_equal; lia.
Qed.

Lemma loop_end m ep fuel done stopped k a n : xform_loop m ep cb after fuel ep done stopped k a n = Ok (a, n, k).
Proof. destruct fuel; cbn [xform_loop]; (destruct (Nat.ltb_spec ep ep); [lia|reflexivity]). Qed.

Hypothesis AF : -1 <= after < 2^31 - 1.
Lemma busy done : 0 <= done < 2^31 -> after < done -> working after done false = true.
Proof. intros H A. unfold working. rewrite andb_true_r. unfold u32. lia. Qed.

(** *** The callback at work *)
Lemma work_phase k pre rest o k' : rewrites cb k pre rest o k' -> Forall good (pre ++ rest) -> minds_the_text cb (pre ++ rest) ->
  forall fuel a n out, (S (length rest) <= fuel)%nat ->
  after < Z.of_nat (length pre) -> valid a (enc out) -> b_static a = false -> b_refs a <= 1 ->
  n = Z.of_nat (length out) -> Forall good out ->
  Z.of_nat (length (enc (pre ++ rest))) < 2^30 -> Z.of_nat (length (enc (out ++ o))) < 2^30 ->
  exists a', xform_loop (enc (pre ++ rest) ++ [0]) (length (enc (pre ++ rest))) cb after fuel (length (enc pre)) (Z.of_nat (length pre)) false k a n
     = Ok (a', Z.of_nat (length (out ++ o)), k') /\ valid a' (enc (out ++ o)) /\ b_static a' = false /\ b_refs a' = b_refs a /\ Forall good (out ++ o).
Proof.
  intros RW. induction RW as [k pre|k pre rest k' rep NE PR EC|k pre rest k' next rep o k'' NE PR EC LT j RW IH]; intros GT MT fuel a n out HF HA VA ST RF EN GO TB OB.
  - exists a. rewrite !app_nil_r in *. rewrite loop_end, EN. auto.
  - assert (GR : Forall good rep) by (eapply Forall_impl; [|exact PR]; intros ? X; exact (plain_is_good _ X)).
    assert (GRE : Forall good rest) by (apply Forall_app in GT; tauto).
    assert (TL := enc_len_ge _ GT). assert (GOO : Forall good (out ++ rep ++ rest)) by (repeat (apply Forall_app; split); assumption).
    assert (OL := enc_len_ge _ GOO). rewrite !enc_app in OL, OB. rewrite !app_length in OL. rewrite !app_length in OB.
    assert (PE : (length (enc pre) + length (enc rest) = length (enc (pre ++ rest)))%nat) by (rewrite enc_app, app_length; lia).
    rewrite (app_length pre) in TL.
    destruct fuel as [|fuel]; [lia|]. cbn [xform_loop].
    assert (RL : (0 < length (enc rest))%nat) by (assert (X := enc_len_ge _ GRE); destruct rest; [congruence|cbn [length] in X; lia]).
    destruct (Nat.ltb_spec (length (enc pre)) (length (enc (pre ++ rest)))); [|lia].
    rewrite busy by lia. rewrite EC.
    assert (CL := count_loop_spec rep GR (length (enc rep)) [] [] 0 (enc_len_ge _ GR) ltac:(lia) ltac:(lia)).
    cbn [app length Nat.add] in CL. rewrite CL. cbn [obind].
    assert (W := walk_ok rest GRE (length (enc (pre ++ rest) ++ [0])) pre (length (enc pre)) (Z.of_nat (length pre)) ltac:(rewrite app_length; assert (X := enc_len_ge _ GRE); lia) ltac:(lia) ltac:(lia) ltac:(lia)).
    cbv zeta in W. rewrite Z.sub_diag in W. replace (started rest 0) with O in W by (destruct rest; reflexivity). cbn [firstn] in W. rewrite app_nil_r, Z.add_0_r in W. rewrite W. cbn [obind fst snd].
    rewrite Z.sub_diag. cbn [orb]. change (u32 0 =? 0) with true.
    destruct (put_bytes a out rep VA ST RF GR) as (a1 & E1 & VA1 & ST1 & RF1); [lia|]. rewrite E1. cbn [obind].
    destruct fuel as [|fuel0] eqn:FU; [destruct rest; cbn [length] in HF; [congruence|lia]|]. rewrite <- FU in *.
    replace (u32 (n + (0 + Z.of_nat (length rep)))) with (Z.of_nat (length (out ++ rep))) by (rewrite app_length; unfold u32; lia).
    destruct (copy_phase rest GRE [] (fuel - length rest) pre (Z.of_nat (length pre)) true k' a1 (Z.of_nat (length (out ++ rep))) (out ++ rep)) as (a2 & VA2 & ST2 & RF2 & E2); try lia; try assumption.
    { intros i Hi. unfold idle, working. apply andb_false_r. }
    { apply Forall_app in GT; tauto. }
    { rewrite app_length. lia. }
    { rewrite enc_app, app_length. lia. }
    cbv zeta in E2. rewrite app_nil_r in E2. replace (length rest + (fuel - length rest))%nat with fuel in E2 by lia.
    rewrite E2, loop_end. exists a2. rewrite <- app_assoc in VA2.
    split; [do 3 f_equal; rewrite !app_length; lia|]. split; [exact VA2|]. split; [exact ST2|]. split; [congruence|exact GOO].
  - destruct (MT k pre rest eq_refl NE) as (k1 & next1 & rep1 & EC1 & RN & _). rewrite EC in EC1.
    assert (next1 = next) by congruence. subst next1. clear EC1 k1 rep1.
    assert (GR : Forall good rep) by (eapply Forall_impl; [|exact PR]; intros ? X; exact (plain_is_good _ X)).
    assert (GRE : Forall good rest) by (apply Forall_app in GT; tauto).
    assert (TL := enc_len_ge _ GT). assert (SPL : pre ++ rest = (pre ++ firstn j rest) ++ skipn j rest) by (rewrite <- app_assoc, firstn_skipn; reflexivity).
    assert (JL := started_le rest (Z.of_nat next - Z.of_nat (length (enc pre)))). fold j in JL.
    assert (J1 : (0 < j)%nat).
    { unfold j. destruct rest as [|c rest]; [congruence|]. cbn [started]. destruct (Z.leb_spec (Z.of_nat next - Z.of_nat (length (enc pre))) 0); lia. }
    assert (OLR := enc_len_ge _ (proj2 (Forall_app good out rep) (conj GO GR))).
    assert (FJ : length (firstn j rest) = j) by (apply firstn_length_le; exact JL).
    destruct fuel as [|fuel]; [lia|]. cbn [xform_loop].
    rewrite app_assoc in OB. assert (OB2 := OB). rewrite enc_app, app_length in OB2. 
    rewrite (enc_app out rep), (app_length (enc out)) in OB2, OLR. rewrite (app_length out) in OLR.
    assert (RL : (length (enc pre) < length (enc (pre ++ rest)))%nat) by lia.
    destruct (Nat.ltb_spec (length (enc pre)) (length (enc (pre ++ rest)))); [|lia].
    assert (PL : (length pre <= length (pre ++ rest))%nat) by (rewrite app_length; lia).
    assert (PL2 : (length pre + length rest = length (pre ++ rest))%nat) by (rewrite app_length; lia).
    rewrite busy by lia. rewrite EC.
    assert (CL := count_loop_spec rep GR (length (enc rep)) [] [] 0 (enc_len_ge _ GR) ltac:(lia) ltac:(lia)).
    cbn [app length Nat.add] in CL. rewrite CL. cbn [obind].
    assert (PE : (length (enc pre) + length (enc rest) = length (enc (pre ++ rest)))%nat) by (rewrite enc_app, app_length; lia).
    assert (W := walk_ok rest GRE (length (enc (pre ++ rest) ++ [0])) pre next (Z.of_nat (length pre)) ltac:(rewrite app_length; lia) ltac:(lia) ltac:(lia) ltac:(lia)).
    cbv zeta in W. fold j in W. rewrite W. cbn [obind fst snd].
    replace (u32 (Z.of_nat next - Z.of_nat (length (enc pre))) =? 0) with false by (symmetry; apply Z.eqb_neq; unfold u32; lia). cbn [orb].
    destruct (put_bytes a out rep VA ST RF GR) as (a1 & E1 & VA1 & ST1 & RF1); [lia|]. rewrite E1. cbn [obind].
    destruct (IH ltac:(rewrite <- SPL; exact GT) ltac:(rewrite <- SPL; exact MT) fuel a1 (Z.of_nat (length (out ++ rep))) (out ++ rep)) as (a2 & E2 & VA2 & ST2 & RF2 & G2); try lia; try assumption; try reflexivity.
    { rewrite skipn_length. lia. }
    { rewrite app_length. lia. }
    { apply Forall_app; auto. }
    { rewrite <- SPL. lia. }
    rewrite <- SPL in E2. exists a2. rewrite app_assoc. split; [|split; [exact VA2|split; [exact ST2|split; [congruence|exact G2]]]].
    replace (u32 (n + (0 + Z.of_nat (length rep)))) with (Z.of_nat (length (out ++ rep))) by (rewrite app_length; unfold u32; lia).
    replace (Z.of_nat (length pre) + Z.of_nat j) with (Z.of_nat (length (pre ++ firstn j rest))) by (rewrite app_length; lia).
    exact E2.
Qed.
End Loop.

Lemma rewrites_nil {K} (cb : callback K) k pre o k' : rewrites cb k pre [] o k' -> o = [] /\ k' = k.
Proof. intros H. inversion H; subst; try congruence. auto. Qed.
Lemma kept_idle after t i stopped : -2^31 <= after < 2^31 - 1 -> Z.of_nat (length t) < 2^30 -> 0 <= i < Z.of_nat (length (firstn (kept after t) t)) -> working after (0 + i) stopped = false.
Proof.
  intros A L H. rewrite firstn_length in H. unfold kept in H. unfold working, u32. destruct (Z.ltb_spec after (-1)).
  - replace ((0 + i + 1) mod 4294967296 >? (after + 1) mod 4294967296) with false by lia. reflexivity.
  - replace ((0 + i + 1) mod 4294967296 >? (after + 1) mod 4294967296) with false by lia. reflexivity.
Qed.

Lemma xform_ok {K} (cb : callback K) after k t out k' x : -2^31 <= after < 2^31 - 1 -> bchars x t -> b_static (sb_arr x) = false -> b_refs (sb_arr x) <= 1 ->
  minds_the_text cb t -> transforms cb after k t out k' -> Z.of_nat (length (enc out)) < 2^30 ->
  exists y, xform x cb after k = Ok (y, k') /\ bchars y out /\ b_static (sb_arr y) = false /\ b_refs (sb_arr y) = b_refs (sb_arr x).
Proof.
  intros A B ST RF MT (o & -> & RW) OB. assert (NU := bchars_num _ _ B). assert (SMM := bchars_smem _ _ B). assert (GC := proj1 B). assert (LC := proj2 (proj2 (proj2 B))).
  set (j := kept after t) in *. assert (SPL := firstn_skipn j t).
  assert (GA : Forall good (firstn j t)) by (rewrite <- SPL in GC; apply Forall_app in GC; tauto).
  assert (TL := enc_len_ge _ GC).
  unfold xform, cassert. destruct (Z.leb_spec (b_refs (sb_arr x)) 1); [|lia]. rewrite SMM. cbn [obind]. rewrite ST.
  set (e := {| b_data := []; b_num := 0; b_alloc := 0; b_refs := b_refs (sb_arr x); b_static := false |}).
  assert (VE : valid e []). { split; [intros i a Ha; destruct i; discriminate|]. cbn. repeat split; lia. }
  destruct (resize_ok e [] (b_num (sb_arr x) + 6) VE eq_refl ltac:(cbn [b_num e]; lia) ltac:(lia)) as (a0 & mv & ER & _). rewrite ER. cbn [obind fst].
  destruct (resize_spec e [] _ a0 mv VE eq_refl ER) as (V0 & N0 & RF0 & ST0). cbn [b_refs b_static e] in RF0, ST0.
  destruct (Z.eqb_spec after 2147483647); [lia|].
  assert (LJ : (length (firstn j t) <= length t)%nat) by (rewrite firstn_length; lia).
  set (F := Nat.mul 2 (length (enc t ++ [0]))). assert (FF : (length t + 2 <= F)%nat) by (unfold F; rewrite app_length; cbn [length]; lia).
  assert (EJ : (length (enc (firstn j t)) <= length (enc t))%nat) by (rewrite <- SPL at 2; rewrite enc_app, app_length; lia).
  destruct (copy_phase cb after (firstn j t) GA (skipn j t) (F - length (firstn j t)) [] 0 false k a0 0 []) as (a1 & VA1 & ST1 & RF1 & E1).
  - intros i Hi. apply (kept_idle after t i false A ltac:(lia) Hi).
  - constructor.
  - exact V0.
  - exact ST0.
  - lia.
  - lia.
  - lia.
  - lia.
  - change (length (enc [])) with O. lia.
  - cbv zeta in E1. cbn [app] in E1. rewrite SPL in E1. change (length (enc [])) with O in E1. rewrite !Z.add_0_l in E1.
    replace (length (firstn j t) + (F - length (firstn j t)))%nat with F in E1 by lia.
    replace (Nat.sub (length (enc t ++ [0])) 1) with (length (enc t)) by (rewrite app_length; cbn [length]; lia).
    rewrite E1. cbn [app] in VA1.
    assert (X : exists a2, xform_loop (enc t ++ [0]) (length (enc t)) cb after (F - length (firstn j t)) (length (enc (firstn j t))) (Z.of_nat (length (firstn j t))) false k a1 (Z.of_nat (length (firstn j t)))
       = Ok (a2, Z.of_nat (length (firstn j t ++ o)), k') /\ valid a2 (enc (firstn j t ++ o)) /\ b_static a2 = false /\ b_refs a2 = b_refs a1 /\ Forall good (firstn j t ++ o)).
    { destruct (skipn j t) as [|c r] eqn:SK.
      - apply rewrites_nil in RW as [-> ->]. rewrite app_nil_r in SPL. rewrite !app_nil_r. exists a1. rewrite SPL. rewrite loop_end. rewrite SPL in VA1. auto.
      - assert (HJ : (j < length t)%nat) by (assert (Q := skipn_length j t); rewrite SK in Q; cbn [length] in Q; lia).
        assert (LEN : length (firstn j t) = j) by (apply firstn_length_le; lia).
        assert (AJ : -1 <= after /\ Z.of_nat j = after + 1). { unfold j, kept in *. destruct (Z.ltb_spec after (-1)); lia. }
        rewrite <- SK in *.
        destruct (work_phase cb after ltac:(lia) k (firstn j t) (skipn j t) o k' RW ltac:(rewrite SPL; exact GC) ltac:(rewrite SPL; exact MT) (F - length (firstn j t)) a1 (Z.of_nat (length (firstn j t))) (firstn j t)) as (a2 & E2 & VA2 & ST2 & RF2 & G2); try assumption; try lia.
        { rewrite skipn_length. lia. }
        { rewrite SPL. lia. }
        rewrite SPL in E2. exists a2. auto. }
    destruct X as (a2 & E2 & VA2 & ST2 & RF2 & G2). rewrite E2. cbn [obind].
    assert (NA : b_num a2 = Z.of_nat (length (enc (firstn j t ++ o)))) by apply VA2. assert (OL := enc_len_ge _ G2).
    destruct (body_append a2 _ [0] VA2 ST2 ltac:(lia) ltac:(discriminate) ltac:(cbn [length]; lia)) as (a3 & E3 & V3 & ST3 & RF3).
    cbn [length Z.of_nat Pos.of_succ_nat] in E3. rewrite E3. cbn [obind]. eexists. split; [reflexivity|]. cbn [sb_arr]. split; [|split; [exact ST3|lia]].
    split; [exact G2|]. cbn [sb_arr sb_n]. split; [exact V3|]. split; [right; reflexivity|]. lia.
Qed.

Lemma str_transform_ok {K} (cb : callback K) after k out k' h s hs chs : -2^31 <= after < 2^31 - 1 ->
  BG h -> RC h (s :: hs) -> vin h s chs -> tight s chs -> whole s chs \/ shared h s ->
  minds_the_text cb (vtext s chs) -> transforms cb after k (vtext s chs) out k' -> Z.of_nat (length (enc out)) < 2^30 ->
  exists h' s', str_transform h s cb after k = Ok (h', s', k') /\ BG h' /\ vin h' s' out /\ vtext s' out = out /\ tight s' out /\ whole s' out.
Proof.
  intros A G R V TS WH MT TR OB. unfold str_transform.
  destruct (unshare_ok h s hs chs G R V) as (h1 & s1 & cs & EU & G1 & V1 & T1 & L1 & X1 & LE & INC & ML1 & MN & C1). rewrite EU. cbn [obind].
  assert (W1 : whole s1 cs /\ cs = vtext s chs).
  { destruct C1 as [(NS & -> & ->)|[C1 C2]].
    - destruct WH as [WH|WH]; [|contradiction]. split; [exact WH|]. symmetry. apply whole_text. exact WH.
    - destruct (Z.eq_dec (v_len s) 0) as [E0|NE].
      + specialize (TS E0). subst chs. assert (cs = []) by (destruct cs as [|c cs]; [reflexivity|destruct (INC c (or_introl eq_refl))]). subst cs.
        split; [split; [exact C1|rewrite L1, E0; reflexivity]|]. unfold vtext, l_slice. rewrite skipn_nil, firstn_nil. reflexivity.
      + assert (0 <= v_len s) by apply V. specialize (C2 ltac:(lia)). split; [|exact C2]. split; [exact C1|]. rewrite L1, C2. symmetry. eapply vtext_len. exact V. }
  destruct W1 as [[O1 LL1] EC]. destruct X1 as (x & SX & RF & ST). rewrite SX. cbn [obind].
  assert (VV := V1). destruct VV as ((x1 & SX1 & BX) & _ & _ & _ & M1). rewrite SX in SX1. injection SX1 as <-.
  rewrite <- EC in MT, TR.
  destruct (xform_ok cb after k cs out k' x A BX ST RF MT TR OB) as (y & ET & BY & SY & RY). rewrite ET. cbn [obind fst snd].
  destruct (num_chars_spec y _ BY) as (z & EZ & EA & BZ & NZ). rewrite EZ. cbn [obind fst snd].
  do 2 eexists. split; [reflexivity|].
  split; [eapply BG_sput; [exact G1|exact SX|exact BZ|rewrite EA, SY; discriminate]|].
  match goal with |- vin _ ?t _ /\ _ => set (s' := t) end.
  assert (W' : whole s' out) by (split; [exact O1|reflexivity]).
  split; [|split; [exact (whole_text _ _ W')|split; [|exact W']]].
  - split; [exists z; cbn [v_body s']; rewrite (sget_sput _ _ _ _ _ SX), Nat.eqb_refl; auto|]. cbn [v_off v_len s']. rewrite O1. split; [lia|]. split; [lia|]. split; [lia|].
    unfold vmark. cbn [v_off v_len v_mk s']. left. reflexivity.
  - intros E. cbn [v_len s'] in E. destruct out; [reflexivity|cbn [length] in E; lia].
Qed.

(** *** Everyone else *)
Lemma xform_loop_keeps {K} m ep (cb : callback K) after f : forall up done stopped k a n a' n' k', xform_loop m ep cb after f up done stopped k a n = Ok (a', n', k') ->
  b_refs a' = b_refs a /\ b_static a' = b_static a.
Proof.
  induction f as [|f IH]; intros up done stopped k a n a' n' k'; cbn [xform_loop]; destruct (up <? ep)%nat; intros H; try discriminate;
    try (injection H as <- <- <-; auto).
  destruct (working after done stopped).
  - destruct (cb k m up) as [[k1 next] bs]. apply obind_ok in H as (c & _ & H). apply obind_ok in H as (w & _ & H). apply obind_ok in H as (a1 & B & H).
    apply body_insert_keeps in B as (B1 & B2 & _). apply IH in H as [H1 H2]. split; congruence.
  - apply obind_ok in H as (r & _ & H). apply obind_ok in H as (a1 & P & H). apply IH in H as [H1 H2].
    unfold put_char in P. apply obind_ok in P as ([x mv] & R & P). apply obind_ok in P as (d & _ & P). injection P as <-. cbn [b_refs b_static fst] in *.
    assert (Q : b_refs x = b_refs a /\ b_static x = b_static a).
    { destruct (b_alloc a <? b_num a + 7); [apply resize_keeps in R; exact R|injection R as <- _; auto]. }
    destruct Q. split; congruence.
Qed.
Lemma xform_keeps {K} x (cb : callback K) after k y k' : xform x cb after k = Ok (y, k') ->
  b_refs (sb_arr y) = b_refs (sb_arr x) /\ b_static (sb_arr y) = b_static (sb_arr x) /\ b_refs (sb_arr x) <= 1.
Proof.
  unfold xform, cassert. destruct (Z.leb_spec (b_refs (sb_arr x)) 1); [|discriminate]. intros E.
  apply obind_ok in E as (m & _ & E). apply obind_ok in E as ([x1 mv] & RZ & E). destruct (after =? 2147483647); [discriminate|]. apply obind_ok in E as ([[a n] k1] & T & E).
  apply obind_ok in E as (a2 & I & E). injection E as <- <-. cbn [fst snd sb_arr] in *.
  apply resize_keeps in RZ as [Z1 Z2]. apply xform_loop_keeps in T as [T1 T2]. apply body_insert_keeps in I as (I1 & I2 & _). cbn in Z1, Z2.
  split; [congruence|]. split; [congruence|exact H].
Qed.
Lemma str_transform_rc {K} (cb : callback K) after k h s hs h' s' k' : RC h (s :: hs) -> str_transform h s cb after k = Ok (h', s', k') -> RC h' (s' :: hs) /\ keep h h' hs.
Proof.
  intros R H. unfold str_transform in H. apply obind_ok in H as ([h1 s1] & U & H). destruct (unshare_rc _ _ _ _ _ R U) as (R1 & K1 & _).
  apply obind_ok in H as (x & G & H). apply obind_ok in H as ([y k1] & T & H). cbn [fst snd] in H.
  apply obind_ok in H as ([z n] & N & H). injection H as <- <- <-. cbn [fst snd].
  apply xform_keeps in T as (T1 & T2 & T3). apply num_chars_arr in N.
  match goal with |- RC _ (?t :: _) /\ _ => destruct (write_rc h1 s1 t hs x z R1 G T3 eq_refl) as [R2 K2] end; [congruence|congruence|].
  split; [exact R2|eapply keep_trans; eassumption].
Qed.

(** *** There always is an outcome, and one only *)
Lemma rewrites_total {K} (cb : callback K) t : minds_the_text cb t -> forall f k pre rest, (length rest <= f)%nat -> t = pre ++ rest ->
  exists o k', rewrites cb k pre rest o k'.
Proof.
  intros MT. induction f as [|f IH]; intros k pre rest LF ET.
  - destruct rest; [|cbn [length] in LF; lia]. exists [], k. constructor.
  - destruct rest as [|c rest]; [exists [], k; constructor|].
    destruct (MT k pre (c :: rest) ET ltac:(discriminate)) as (k1 & next & rep & EC & RN & PR). rewrite ET in EC.
    destruct (Nat.eq_dec next (length (enc pre))) as [->|N].
    + exists (rep ++ c :: rest), k1. eapply R_stop; [discriminate|exact PR|exact EC].
    + set (n := started (c :: rest) (Z.of_nat next - Z.of_nat (length (enc pre)))).
      assert (N1 : (0 < n)%nat) by (unfold n; cbn [started]; destruct (Z.leb_spec (Z.of_nat next - Z.of_nat (length (enc pre))) 0); lia).
      destruct (IH k1 (pre ++ firstn n (c :: rest)) (skipn n (c :: rest))) as (o & k2 & RW).
      { rewrite skipn_length. cbn [length] in *. lia. }
      { rewrite <- app_assoc, firstn_skipn. exact ET. }
      exists (rep ++ o), k2. eapply R_move; [discriminate|exact PR|exact EC|lia|exact RW].
Qed.
Lemma enc_inj a b : Forall plain a -> Forall plain b -> enc a = enc b -> a = b.
Proof.
  intros A B E. assert (GA : Forall good a) by (eapply Forall_impl; [|exact A]; exact plain_is_good). assert (GB : Forall good b) by (eapply Forall_impl; [|exact B]; exact plain_is_good).
  assert (X := decode_enc a GA). assert (Y := decode_enc b GB). rewrite E in X. congruence.
Qed.
Lemma rewrites_fun {K} (cb : callback K) k pre rest o k' : rewrites cb k pre rest o k' -> forall o' k'', rewrites cb k pre rest o' k'' -> o = o' /\ k' = k''.
Proof.
  intros RW. induction RW as [k pre|k pre rest k' rep NE PR EC|k pre rest k' next rep o k'' NE PR EC LT j RW IH]; intros o' k2 H.
  - apply rewrites_nil in H as [-> ->]. auto.
  - destruct H as [|k pre rest k1 rep1 NE1 PR1 EC1|k pre rest k1 next1 rep1 o1 k2 NE1 PR1 EC1 LT1 j1 RW1]; [congruence| |]; rewrite EC in EC1.
    + assert (E : enc rep = enc rep1) by congruence. rewrite (enc_inj _ _ PR PR1 E). split; congruence.
    + assert (next1 = length (enc pre)) by congruence. lia.
  - destruct H as [|k pre rest k1 rep1 NE1 PR1 EC1|k pre rest k1 next1 rep1 o1 k2 NE1 PR1 EC1 LT1 j1 RW1]; [congruence| |]; rewrite EC in EC1.
    + assert (next = length (enc pre)) by congruence. lia.
    + assert (E : enc rep = enc rep1) by congruence. assert (next1 = next) by congruence. assert (k1 = k') by congruence. subst next1 k1.
      rewrite (enc_inj _ _ PR PR1 E). destruct (IH _ _ RW1) as [-> ->]. auto.
Qed.
