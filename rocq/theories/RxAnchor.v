(** Sequences of quantified characters, [.], classes, \s \d \h, which may have
    a ^ before them and a $ after them: the certificate that matching returns. *)
From Coq Require Import Sorting.Permutation.
From Verif Require Import Base UTF8Model CharModel RxCompModel RxModel RxSpec RxVm RxScan RxGen RxProg RxCheck RxStraight RxQuant.
From Verif Require RxSpell RxSpellSpec RxLay.

(** ** The patterns *)
Fixpoint tail_sq (s : sq) : Prop :=
  match s with
  | SNil => True
  | SCons ItEol SNil => True
  | SCons i s => plain_item i /\ tail_sq s
  end.
Definition anchored_sq (s : sq) : Prop := match s with SCons ItBol s => tail_sq s | _ => tail_sq s end.
Definition anchored (r : rx) : Prop := match r with XSeq s => anchored_sq s | XAlt _ _ => False end.

Fixpoint sapp (a b : sq) : sq := match a with SNil => b | SCons i a => SCons i (sapp a b) end.
Definition bolsq (b : bool) (s : sq) : sq := if b then SCons ItBol s else s.
Definition eolsq (e : bool) : sq := if e then SCons ItEol SNil else SNil.
Lemma tail_split s : tail_sq s -> exists s0 e, plain_sq s0 /\ s = sapp s0 (eolsq e).
Proof.
  induction s as [|i s IH]; intros H; [exists SNil, false; split; [exact Logic.I|reflexivity]|].
  assert (C : (i = ItEol /\ s = SNil) \/ (plain_item i /\ tail_sq s)).
  { destruct i as [| |a q]; cbn [tail_sq] in H; [destruct H as [[] _]|destruct s; [left; auto|destruct H as [[] _]]|right; exact H]. }
  destruct C as [[-> ->]|[A B]]; [exists SNil, true; split; [exact Logic.I|reflexivity]|].
  destruct (IH B) as (s0 & e & P0 & ->). exists (SCons i s0), e. split; [split; assumption|reflexivity].
Qed.
Lemma anchored_split s : anchored_sq s -> exists b s0 e, plain_sq s0 /\ s = bolsq b (sapp s0 (eolsq e)).
Proof.
  intros H. assert (C : (exists s1, s = SCons ItBol s1 /\ tail_sq s1) \/ tail_sq s).
  { destruct s as [|[| |a q] s1]; cbn [anchored_sq] in H; eauto. }
  destruct C as [(s1 & -> & T)|T]; destruct (tail_split _ T) as (s0 & e & A & ->); [exists true, s0, e|exists false, s0, e]; auto.
Qed.
Lemma toks_sapp a b : forall d, toks_sq (sapp a b) d = (fst (toks_sq a d) ++ fst (toks_sq b (snd (toks_sq a d))), snd (toks_sq b (snd (toks_sq a d)))).
Proof.
  induction a as [|i a IH]; intros d; cbn [sapp toks_sq fst snd app]; [apply surjective_pairing|]. rewrite IH. cbn [fst snd]. rewrite app_assoc. reflexivity.
Qed.
Lemma wf_sapp a b : wf_sq (sapp a b) -> wf_sq a.
Proof. induction a as [|i a IH]; intros H; [exact Logic.I|]. destruct H as [A B]. split; [exact A|apply IH, B]. Qed.
Lemma quants_sapp a b : quants (sapp a b) = quants a ++ quants b.
Proof. induction a as [|i a IH]; [reflexivity|]. cbn [sapp quants app]. rewrite IH. reflexivity. Qed.
Lemma leading_app a b : (leading a <= leading (a ++ b))%nat.
Proof. induction a as [|x a IH]; cbn [app leading]; [lia|]. destruct (may_skip x); lia. Qed.
Lemma few_app a b : few (a ++ b) -> few a.
Proof. induction a as [|x a IH]; intros H; [exact Logic.I|]. destruct H as [A B]. split; [|apply IH, B]. pose proof (leading_app (x :: a) b) as L. cbn [app] in L. lia. Qed.

(** ** Their code *)
Definition bolc (b : bool) : list Z := if b then [94] else [].
Definition eolc (e : bool) : list Z := if e then [36] else [].
Section Gen.
Variables (M cap : nat) (st : Z) (nm : list (list Z)).
Hypothesis HM : (M = 1 /\ cap <= 64)%nat \/ (M = 2 /\ cap <= 1024)%nat.
Notation run := (run M cap st nm).
Ltac start H := unfold second_pass in H; cbv zeta in H; apply obind_ok in H; destruct H as (? & _ & H).
Lemma anchored_run b s0 e : plain_sq s0 -> forall w w', run (fst (toks_sq (bolsq b (sapp s0 (eolsq e))) [])) w = Ok w' -> (3 <= length (w_buf w))%nat ->
  exists X, (exists X0, code_of s0 X0 /\ X = bolc b ++ X0 ++ eolc e) /\
    w_buf w' ++ lit (snd (toks_sq (bolsq b (sapp s0 (eolsq e))) [])) = w_buf w ++ X /\ w_stack w' = w_stack w.
Proof.
  intros HS.
  assert (T : forall w w', run (fst (toks_sq (sapp s0 (eolsq e)) [])) w = Ok w' -> (3 <= length (w_buf w))%nat ->
    exists X0, code_of s0 X0 /\ w_buf w' ++ lit (snd (toks_sq (sapp s0 (eolsq e)) [])) = w_buf w ++ X0 ++ eolc e /\ w_stack w' = w_stack w).
  { intros w w' H H3. rewrite toks_sapp in *. cbn [fst snd] in *. apply run_app in H. destruct H as (w1 & H1 & H).
    destruct (sq_run M cap st nm HM s0 HS w w1 [] H1 H3) as (X0 & A & B & C). cbn [lit flat_map app] in B. exists X0. split; [exact A|].
    destruct e; cbn [eolsq eolc] in *.
    - cbn [toks_sq toks_item fst snd] in *. rewrite app_nil_r in H. apply run_app in H. destruct H as (w2 & H2 & H). apply flush_ok in H2. destruct H2 as [F1 F2].
      apply run_one in H. destruct H as (r & H & <-). start H. apply plain_ok in H. destruct H as (A' & B' & _).
      split; [|congruence]. rewrite A', F1, B. cbn [lit flat_map]. rewrite app_nil_r, <- app_assoc. reflexivity.
    - cbn [toks_sq fst snd RxGen.run] in *. assert (w' = w1) by congruence. subst w'. split; [|exact C]. rewrite app_nil_r. exact B. }
  intros w w' H H3. destruct b; cbn [bolsq bolc] in *.
  - cbn [toks_sq toks_item fst snd flush' app] in *. change (TBOL :: fst (toks_sq (sapp s0 (eolsq e)) [])) with ([TBOL] ++ fst (toks_sq (sapp s0 (eolsq e)) [])) in H. apply run_app in H. destruct H as (w1 & H1 & H).
    apply run_one in H1. destruct H1 as (r & H1 & <-). start H1. apply plain_ok in H1. destruct H1 as (A' & B' & _).
    destruct (T _ _ H) as (X0 & A & B & C). { rewrite A', app_length. lia. }
    exists ([94] ++ X0 ++ eolc e). split; [exists X0; auto|]. split; [|congruence]. rewrite B, A', <- app_assoc. reflexivity.
  - destruct (T _ _ H H3) as (X0 & A & B & C). exists (X0 ++ eolc e). split; [exists X0; auto|]. auto.
Qed.
End Gen.
Definition one (b : bool) : Z := if b then 1 else 0.
Lemma anchored_states b s0 e : plain_sq s0 -> Forall counted_tok (fst (toks_sq (bolsq b (sapp s0 (eolsq e))) [])) /\
  Z.of_nat (length (quants s0)) + one b + one e <= states_all (fst (toks_sq (bolsq b (sapp s0 (eolsq e))) [])) + nbytes (snd (toks_sq (bolsq b (sapp s0 (eolsq e))) [])).
Proof.
  intros HS. destruct (sq_states s0 HS []) as [A B]. change (nbytes []) with 0 in B.
  assert (T : Forall counted_tok (fst (toks_sq (sapp s0 (eolsq e)) [])) /\
    Z.of_nat (length (quants s0)) + one e <= states_all (fst (toks_sq (sapp s0 (eolsq e)) [])) + nbytes (snd (toks_sq (sapp s0 (eolsq e)) []))).
  { rewrite toks_sapp. cbn [fst snd]. destruct e; cbn [eolsq toks_sq toks_item fst snd one].
    - destruct (flush_states (snd (toks_sq s0 []))) as [F1 F2]. rewrite app_nil_r. split; [repeat (apply Forall_app; split); try assumption; repeat constructor|].
      rewrite !states_app, F2. cbn [states_all fold_right states_of]. change (nbytes []) with 0. lia.
    - rewrite app_nil_r. split; [exact A|lia]. }
  destruct b; cbn [bolsq one]; [|rewrite Z.add_0_r; exact T]. destruct T as [T1 T2]. cbn [toks_sq toks_item fst snd flush' app].
  split; [constructor; [exact Logic.I|exact T1]|]. cbn [states_all fold_right states_of]. fold (states_all (fst (toks_sq (sapp s0 (eolsq e)) []))). lia.
Qed.

(** ** The certificate *)
Section Line.
Variable P : list Z.
Variables (q0 q : Z) (el : bool).
Hypothesis HQ : decode P q = Ok IAccept.
Hypothesis HE : if el then decode P q0 = Ok (IEOL q) else q0 = q.
(** After a $, accepting threads are not tested *)
Definition after_eol : list Z := if el then [q] else [].
Fixpoint terms (s : Z) (l : list (quant * Z * Z)) : list Z :=
  match l with [] => if el then [] else [q] | (_, j, n) :: l => j :: terms n l end.
Definition first (s : Z) (l : list (quant * Z * Z)) : list Z :=
  match l with (k, _, _) :: _ => if may_skip k then [] else [s] | [] => [q] end.
Lemma goes_end f (root : bool) sh : goes P (S (S f)) root q0 sh = Some (if el then ([], [q]) else if root then ([q], []) else ([], [q])).
Proof. rewrite goesS. destruct el; [rewrite HE, goesS, HQ; reflexivity|]. rewrite HE, HQ. reflexivity. Qed.
Lemma line_ok l : forall f s sh, line P s l q0 -> (2 * length l + 4 < f)%nat ->
  ((length sh + leading (kinds l) < 12)%nat -> exists r c, adds P f s sh = Some (r, c) /\ incl r (terms s l) /\ sub c after_eol) /\
  forall root : bool, (length sh + leading (kinds l) <= 12)%nat -> exists r c, goes P f root s sh = Some (r, c) /\ incl r (terms s l) /\ sub c (if root then after_eol else first s l ++ after_eol).
Proof.
  induction l as [|[[k j] n] l IH]; intros f s sh HL Hf.
  - cbn [line] in HL. subst s. destruct f as [|[|[|f]]]; [lia..|]. cbn [kinds map leading terms first length] in *. unfold after_eol.
    assert (G : forall f (root : bool) sh, exists r c, goes P (S (S f)) root q0 sh = Some (r, c) /\ incl r (if el then [] else [q]) /\ sub c (if root then if el then [q] else [] else [q] ++ if el then [q] else [])).
    { intros g root h. rewrite goes_end. destruct el; [exists [], [q]|destruct root; [exists [q], []|exists [], [q]]]; (split; [reflexivity|]); split; try (intros ? []; fail); try apply incl_refl; try apply sub_nil;
        try apply sub_refl. destruct root; [apply sub_refl|apply sub_l, sub_refl]. }
    split.
    + intros L. rewrite addsS. destruct (existsb (Z.eqb q0) sh); [exists [], []; split; [reflexivity|split; [intros ? []|apply sub_nil]]|].
      assert (L' : (length sh < 12)%nat) by lia. apply Nat.ltb_lt in L'. unfold RxMaxNesting. rewrite L'. exact (G f true (q0 :: sh)).
    + intros root L. apply G.
  - destruct HL as [HL HN].
    assert (GG : forall f sh root, (2 * length l + 5 < f)%nat -> (length sh + leading (kinds ((k, j, n) :: l)) <= 12)%nat ->
      exists r c, goes P f root s sh = Some (r, c) /\ incl r (terms s ((k, j, n) :: l)) /\ sub c (if root : bool then after_eol else first s ((k, j, n) :: l) ++ after_eol)).
    { clear f sh Hf. intros f sh root Hf L. destruct f as [|[|[|f]]]; [lia..|]. cbn [kinds map fst leading] in L. fold (kinds l) in L. cbn [terms first].
      assert (SP : forall e, decode P s = Ok (ISplit n j) -> eats P j e -> may_skip k = true ->
        exists r c, goes P (S (S (S f))) root s sh = Some (r, c) /\ incl r (j :: terms n l) /\ sub c (if root then after_eol else [] ++ after_eol)).
      { intros e D E K. rewrite K in L. rewrite goesS, D. destruct (proj1 (IH (S (S f)) n sh HN ltac:(lia)) ltac:(lia)) as (r1 & c1 & -> & I1 & J1).
        destruct (adds_eats P f j e sh E ltac:(lia)) as (r2 & -> & I2). exists (r1 ++ r2), (c1 ++ []). split; [reflexivity|]. split.
        - intros x Hx. apply in_app_or in Hx as [Hx|Hx]; [right; apply I1, Hx|left]. destruct (I2 x Hx) as [<-|[]]. reflexivity.
        - rewrite app_nil_r. destruct root; exact J1. }
      assert (AT : forall e, j = s -> eats P s e -> may_skip k = false ->
        exists r c, goes P (S (S (S f))) root s sh = Some (r, c) /\ incl r (j :: terms n l) /\ sub c (if root then after_eol else [s] ++ after_eol)).
      { intros e -> E K. rewrite (goes_eats _ _ _ _ _ _ E). destruct root; [exists [s], []|exists [], [s]]; (split; [reflexivity|]).
        - split; [intros x [<-|[]]; left; reflexivity|apply sub_nil].
        - split; [intros ? []|apply sub_l, sub_refl]. }
      destruct k; cbn [link may_skip] in *.
      - destruct HL as [A B]. eapply AT; eauto.
      - destruct HL as [A B]. eapply SP; eauto.
      - destruct HL as [A (e & B & _)]. eapply SP; eauto.
      - destruct HL as [A (e & B & _)]. eapply AT; eauto. }
    split.
    + intros L. destruct f as [|f]; [lia|]. rewrite addsS. destruct (existsb (Z.eqb s) sh); [exists [], []; split; [reflexivity|split; [intros ? []|apply sub_nil]]|].
      assert (L' : (length sh < 12)%nat) by lia. apply Nat.ltb_lt in L'. unfold RxMaxNesting. rewrite L'.
      apply (GG f (s :: sh) true); cbn [length] in *; lia.
    + intros root L. apply GG; [cbn [length] in Hf; lia|exact L].
Qed.
Lemma terms_next l : forall f s, line P s l q0 -> few (kinds l) -> (2 * length l + 6 < f)%nat -> forall x, In x (terms s l) ->
  exists r c, next_adds P f x = Some (r, c) /\ incl r (terms s l) /\ sub c after_eol.
Proof.
  induction l as [|[[k j] n] l IH]; intros f s HL HF Hf x Hx; cbn [line length terms] in *.
  - assert (x = q) by (destruct el; [destruct Hx|destruct Hx as [->|[]]; reflexivity]). subst x. unfold next_adds. rewrite HQ. exists [], []. split; [reflexivity|]. split; [intros ? []|apply sub_nil].
  - destruct HL as [HL HN]. cbn [kinds map fst] in HF. fold (kinds l) in HF. pose proof (few_next _ _ HF) as L6.
    destruct Hx as [<-|Hx].
    2:{ destruct (IH f n HN (proj2 HF) ltac:(lia) x Hx) as (r & c & A & B & C). exists r, c. split; [exact A|]. split; [intros z Hz; right; apply B, Hz|exact C]. }
    assert (NX : forall e, eats P j e -> next_adds P f j = adds P f e []).
    { intros e (y & D & T). unfold next_adds. rewrite D, T. reflexivity. }
    assert (NN : forall e, eats P j e -> e = n -> exists r c, next_adds P f j = Some (r, c) /\ incl r (j :: terms n l) /\ sub c after_eol).
    { intros e E ->. rewrite (NX _ E). destruct (proj1 (line_ok l f n [] HN ltac:(lia)) ltac:(cbn [length]; lia)) as (r & c & -> & I & J). exists r, c. split; [reflexivity|]. split; [intros z Hz; right; apply I, Hz|exact J]. }
    assert (SP : forall f e a, (2 * length l + 4 < S (S f))%nat -> (length (e : list Z) < 12)%nat -> (length e + leading (kinds l) < 12)%nat -> eats P j a ->
      (exists r c, match adds P (S (S f)) n e, adds P (S (S f)) j e with Some (r1, c1), Some (r2, c2) => Some (r1 ++ r2, c1 ++ c2) | _, _ => None end = Some (r, c) /\ incl r (j :: terms n l) /\ sub c after_eol) /\
      (exists r c, match adds P (S (S f)) j e, adds P (S (S f)) n e with Some (r1, c1), Some (r2, c2) => Some (r1 ++ r2, c1 ++ c2) | _, _ => None end = Some (r, c) /\ incl r (j :: terms n l) /\ sub c after_eol)).
    { intros g e a A B C E. destruct (proj1 (line_ok l (S (S g)) n e HN A) C) as (r1 & c1 & -> & I1 & J1). destruct (adds_eats P g j a e E B) as (r2 & -> & I2).
      split; [exists (r1 ++ r2), (c1 ++ [])|exists (r2 ++ r1), ([] ++ c1)]; (split; [reflexivity|]); (split; [|rewrite ?app_nil_r; exact J1]); intros z Hz; apply in_app_or in Hz as [Hz|Hz];
        try (right; apply I1, Hz); left; destruct (I2 z Hz) as [<-|[]]; reflexivity. }
    destruct k; cbn [link] in HL.
    + destruct HL as [-> E]. eapply NN; eauto.
    + destruct HL as [_ E]. eapply NN; eauto.
    + destruct HL as [D (e & E & DJ)]. rewrite (NX _ E). destruct f as [|[|[|[|[|f]]]]]; [lia..|]. rewrite addsS. cbn [existsb length Nat.ltb]. replace (1 <=? RxMaxNesting)%nat with true by reflexivity.
      rewrite goesS, DJ, goesS, D. eapply (proj1 (SP f [e] e ltac:(lia) ltac:(cbn; lia) ltac:(cbn [length]; lia) E)).
    + destruct HL as [-> (e & E & D)]. rewrite (NX _ E). destruct f as [|[|[|[|f]]]]; [lia..|]. rewrite addsS. cbn [existsb length Nat.ltb]. replace (1 <=? RxMaxNesting)%nat with true by reflexivity.
      rewrite goesS, D. eapply (proj2 (SP f [e] e ltac:(lia) ltac:(cbn; lia) ltac:(cbn [length]; lia) E)).
Qed.
Lemma terms_length l : forall s, length (terms s l) = (length l + if el then 0 else 1)%nat.
Proof. induction l as [|[[k j] n] l IH]; intros s; cbn [terms length]; [destruct el; reflexivity|]. rewrite IH. lia. Qed.
Definition many (k : nat) : list Z := concat (repeat after_eol k).
Lemma many_app a b : many (a + b) = many a ++ many b.
Proof. unfold many. rewrite repeat_app, concat_app. reflexivity. Qed.
Lemma many_sub a b : (a <= b)%nat -> sub (many a) (many b).
Proof. intros H. replace b with (a + (b - a))%nat by lia. rewrite many_app. apply sub_l, sub_refl. Qed.
Lemma many_length k : length (many k) = (k * if el then 1 else 0)%nat.
Proof. unfold many, after_eol. induction k as [|k IH]; [reflexivity|]. cbn [repeat concat]. rewrite app_length, IH. destruct el; cbn [length]; lia. Qed.
Lemma many_in k x : In x (many k) -> x = q.
Proof. unfold many, after_eol. induction k as [|k IH]; cbn [repeat concat]; [intros []|]. intros H. apply in_app_or in H as [H|H]; [destruct el; [destruct H as [->|[]]; reflexivity|destruct H]|apply IH, H]. Qed.

Variables (rs0 rs start search anyst jmp : Z) (bl : bool) (l : list (quant * Z * Z)).
Hypothesis HB : if bl then decode P rs0 = Ok (IBOL rs) else rs0 = rs.
Hypotheses (HL : line P rs l q0) (HF : few (kinds l)) (D1 : decode P start = Ok (ICapStart 0 rs0)) (D2 : decode P search = Ok (ISplit start anyst))
  (D3 : decode P anyst = Ok (IAny jmp)) (D4 : decode P jmp = Ok (IJump search)).
Hypotheses (N1 : start < search) (N2 : search < anyst) (N3 : anyst < jmp).
Lemma adds_start f sh : (2 * length l + 7 < f)%nat -> (length sh <= 1)%nat -> ~ In start sh -> exists r c, adds P f start sh = Some (r, c) /\ incl r (terms rs l) /\ sub c (first rs l ++ after_eol).
Proof using HQ HE HB HL HF D1.
  intros Hf Hs Hn. destruct f as [|[|[|f]]]; [lia..|]. rewrite addsS. replace (existsb (Z.eqb start) sh) with false.
  2:{ symmetry. apply not_true_is_false. intros E. apply existsb_exists in E as (y & Y & E). apply Z.eqb_eq in E. subst y. contradiction. }
  assert (Hs' : (length sh < 12)%nat) by lia. apply Nat.ltb_lt in Hs'. unfold RxMaxNesting. rewrite Hs', goesS, D1. cbn [Z.eqb].
  assert (L6 : (leading (kinds l) <= 10)%nat) by (destruct (kinds l); [cbn; lia|apply HF]).
  destruct bl.
  - rewrite goesS, HB. apply (proj2 (line_ok l f rs (start :: sh) HL ltac:(lia)) false). cbn [length]. lia.
  - rewrite HB. apply (proj2 (line_ok l (S f) rs (start :: sh) HL ltac:(lia)) false). cbn [length]. lia.
Qed.
Lemma split_any f root sh : (2 * length l + 9 < f)%nat -> (length sh <= 1)%nat -> ~ In start sh -> ~ In anyst sh ->
  exists r c, goes P f root search sh = Some (r, c) /\ incl r (anyst :: terms rs l) /\ sub c (first rs l ++ after_eol).
Proof using HQ HE HB HL HF D1 D2 D3.
  intros Hf Hs A B. destruct f as [|f]; [lia|]. rewrite goesS, D2. destruct (adds_start f sh ltac:(lia) Hs A) as (r1 & c1 & -> & I1 & J1).
  destruct f as [|[|f]]; [lia..|]. destruct (adds_eats P f anyst jmp sh) as (r2 & -> & I2); [exists (IAny jmp); split; [exact D3|reflexivity]|lia|].
  exists (r1 ++ r2), (c1 ++ []). split; [reflexivity|]. split; [|rewrite app_nil_r; exact J1].
  intros x Hx. apply in_app_or in Hx as [Hx|Hx]; [right; apply I1, Hx|left]. destruct (I2 x Hx) as [<-|[]]. reflexivity.
Qed.
Lemma snds_many f k : (forall x, In x k -> sub (snds P f x) after_eol) -> sub (flat_map (snds P f) k) (many (length k)).
Proof.
  induction k as [|x k IH]; intros H; [apply sub_nil|]. cbn [flat_map length]. change (many (S (length k))) with (after_eol ++ many (length k)).
  apply sub_app; [apply H; left; reflexivity|]. apply IH. intros y Y. apply H. right. exact Y.
Qed.
Lemma snds_q f : snds P f q = [].
Proof using HQ. unfold snds, next_adds. rewrite HQ. reflexivity. Qed.
Lemma anchored_cert f limit from : (2 * length l + 14 < f)%nat -> (if el then 2 * Z.of_nat (length l) + 4 else Z.of_nat (length l) + 3) <= limit -> from = start \/ from = search ->
  certified P f limit from (anyst :: terms rs l) (first rs l ++ many (length (terms rs l) + 2)).
Proof.
  intros Hf Hlim Hfrom.
  assert (E1 : sub (first rs l ++ after_eol) (first rs l ++ many (length (terms rs l) + 2))).
  { apply sub_app; [apply sub_refl|]. replace after_eol with (many 1) by (unfold many; cbn [repeat concat]; apply app_nil_r). apply many_sub. lia. }
  assert (NA : exists r c, next_adds P f anyst = Some (r, c) /\ incl r (anyst :: terms rs l) /\ sub c (first rs l ++ after_eol)).
  { unfold next_adds. rewrite D3. cbn [terminal_next]. destruct f as [|[|[|f]]]; [lia..|]. rewrite addsS. cbn [existsb length]. replace (0 <? RxMaxNesting)%nat with true by reflexivity.
    rewrite goesS, D4. apply split_any; [lia|cbn; lia| |]; intros [X|[]]; lia. }
  assert (FT : forall s, In s (first rs l) -> In s (terms rs l) \/ s = q).
  { destruct l as [|[[k j] n] l']; cbn [first terms]; [intros s [<-|[]]; auto|]. cbn [line] in HL. destruct HL as [HLk _]. destruct k; cbn [may_skip link] in *; try solve [intros ? []];
      destruct HLk as [-> _]; intros ? [<-|[]]; left; left; reflexivity. }
  assert (SN : forall s, In s (terms rs l) \/ s = q -> sub (snds P f s) after_eol).
  { intros s [Hs| ->]; [|rewrite snds_q; apply sub_nil]. destruct (terms_next l f rs HL HF ltac:(lia) s Hs) as (r & c & A & _ & B). unfold snds. rewrite A. exact B. }
  assert (LF : (length (first rs l) <= 1)%nat) by (destruct l as [|[[k j] n] l']; cbn [first]; [cbn; lia|destruct (may_skip k); cbn; lia]).
  constructor.
  - destruct Hfrom as [-> | ->].
    + destruct (adds_start f [] ltac:(lia) ltac:(cbn; lia) ltac:(intros [])) as (r & c & A & B & C). exists r, c. split; [exact A|]. split; [intros x Hx; right; apply B, Hx|eapply sub_trans; eauto].
    + destruct f as [|f]; [lia|]. rewrite addsS. cbn [existsb length]. replace (0 <? RxMaxNesting)%nat with true by reflexivity.
      destruct (split_any f true [search]) as (r & c & A & B & C); [lia|cbn; lia|intros [X|[]]; lia..|]. exists r, c. split; [exact A|]. split; [exact B|eapply sub_trans; eauto].
  - intros s Hs. assert (Hs' : s = anyst \/ In s (terms rs l) \/ s = q).
    { destruct Hs as [[Hs|Hs]|Hs]; auto. apply in_app_or in Hs as [Hs|Hs]; [auto|]. right. right. eapply many_in; eauto. }
    destruct Hs' as [-> |[Hs'| ->]].
    + destruct NA as (r & c & A & B & _). exists r, c. auto.
    + destruct (terms_next l f rs HL HF ltac:(lia) s Hs') as (r & c & A & B & _). exists r, c. split; [exact A|]. intros z Hz. right. apply B, Hz.
    + exists [], []. unfold next_adds. rewrite HQ. split; [reflexivity|intros ? []].
  - cbn [flat_map]. rewrite flat_map_app.
    assert (S0 : flat_map (snds P f) (many (length (terms rs l) + 2)) = []).
    { assert (Z0 : forall k, (forall x, In x k -> x = q) -> flat_map (snds P f) k = []).
      { induction k as [|x k IH]; intros H; [reflexivity|]. cbn [flat_map]. rewrite (H x (or_introl eq_refl)), snds_q. apply IH. intros y Y. apply H. right. exact Y. }
      apply Z0. intros x. apply many_in. }
    rewrite S0, app_nil_r. destruct NA as (r & c & A & _ & B). unfold snds at 1. rewrite A.
    pose proof (snds_many f (terms rs l) (fun x H => SN x (or_introl H))) as S1.
    pose proof (snds_many f (first rs l) (fun x H => SN x (FT x H))) as S2.
    rewrite <- app_assoc. eapply sub_trans; [apply sub_app; [exact B|apply sub_app; [exact S1|exact S2]]|].
    rewrite <- app_assoc. apply sub_app; [apply sub_refl|]. change after_eol with ([] ++ after_eol). replace ([] ++ after_eol) with (many 1) by (unfold many; cbn [repeat concat app]; apply app_nil_r).
    rewrite <- !many_app. apply many_sub. lia.
  - cbn [length]. rewrite app_length, many_length, terms_length. destruct el; lia.
Qed.
End Line.

(** ** Their programs *)
Section Whole.
Variables (M cap : nat) (st : Z).
Hypothesis HM : (M = 1 /\ cap <= 64)%nat \/ (M = 2 /\ cap <= 1024)%nat.
Hypothesis Hst : 0 <= st < 2^29.
Lemma whole_any (K : list Z -> Prop) s mx w P :
  (forall w w', run M cap st [] (fst (toks_sq s [])) w = Ok w' -> (3 <= length (w_buf w))%nat ->
    exists X, K X /\ w_buf w' ++ lit (snd (toks_sq s [])) = w_buf w ++ X /\ w_stack w' = w_stack w) -> run M cap st [] (all_toks (XSeq s)) (mktwo [] [] mx 0 0) = Ok w -> app_bytes cap (w_buf w) [0] = Ok P ->
  exists v1 v2 mx' a c X, K X /\ P = whole v1 v2 st mx' a c X /\ small P /\
    v2 = zob v2 + zob st + 3 /\
    v1 = zob v1 + zob v2 + zob st + 3 + 2 + zl X + 1 /\
    a = - (zl X + 4) /\ c = - (zob a + 3).
Proof.
  intros Hw H HP. set (r := XSeq s) in *. unfold all_toks in H. change (TStart :: fst (toks r []) ++ flush' (snd (toks r [])) ++ [TAccept]) with ([TStart] ++ fst (toks r []) ++ flush' (snd (toks r [])) ++ [TAccept]) in H.
  apply run_app in H. destruct H as (w1 & H1 & H). apply run_app in H. destruct H as (w2 & H2 & H). apply run_app in H. destruct H as (w3 & H3 & H).
  destruct (start_ok M cap st HM _ _ H1) as (v2 & mx' & fr & B1 & Hv2 & S1 & C1 & J1 & L1).
  destruct (Hw w1 w2 H2) as (X & KC & K1 & K2). { rewrite B1. cbn [length]. rewrite !app_length. cbn [length]. lia. }
  apply flush_ok in H3. destruct H3 as [F1 F2].
  apply run_one in H. destruct H as (rr & H & Ew). pose proof (fits_before M cap st [] HM TAccept w3 rr H) as HBf. unfold second_pass in H; cbv zeta in H. bind H u Eu. clear Eu.
  rewrite F2, K2, S1 in H. unfold fixup in H. rewrite J1 in H. cbn [obind] in H.
  assert (A : w_buf w3 = w_buf w1 ++ X) by (rewrite F1; exact K1). clear F1 F2 K1 K2. set (b := w_buf w3) in *.
  bind H b2 E2. apply fits_ok in E2. destruct E2 as [E2 L2].
  set (S := offset_bytes v2 ++ offset_bytes st ++ [mx'; 1; 1] ++ [40; 1] ++ X ++ [35]).
  assert (Hb2 : b2 = [83] ++ padded M 0 ++ S ++ []).
  { rewrite E2, A, B1, app_nil_r. unfold S. norm_app; cbn [app]; norm_app; cbn [app]; norm_app. }
  bind H p Ep.
  destruct (patch_fwd M cap HM [83] (padded M 0) S [] b2 1%nat (length b2) p Hb2) as (v1 & F1 & F2 & F3 & F4).
  { exact (padded_len M cap HM 0). } { reflexivity. } { rewrite Hb2, !app_length, (padded_len M cap HM). cbn [length]. lia. } { cbn; lia. } { rewrite E2. exact L2. } { exact Ep. }
  rewrite app_nil_r in F1. rewrite F1, F3 in H.
  replace (1 + M - (M - length (offset_bytes v1)))%nat with (1 + length (offset_bytes v1))%nat in H by lia.
  bind H gg Eg.
  assert (Hv2b : - 2^30 < v2 < 2^30).
  { pose proof (ob_len v2) as Q. unfold zob in Hv2. assert (length (offset_bytes v2) <= 1024)%nat.
    { rewrite B1 in L1. cbn [length] in L1. rewrite !app_length in L1. lia. }
    assert (length (offset_bytes st) <= 1024)%nat.
    { rewrite B1 in L1. cbn [length] in L1. rewrite !app_length in L1. lia. }
    unfold zl in Hv2. lia. }
  rewrite app_assoc, skipn_len in Eg by (rewrite app_length; reflexivity). unfold S in Eg. unfold offset_bytes at 1 in Eg.
  rewrite get_put in Eg by (apply zigzag_range, Hv2b). assert (Hgg : fst gg = zigzag v2) by (inversion Eg; reflexivity). rewrite Hgg, zagzig_zigzag in H by exact Hv2b.
  bind H b3 E3. apply fits_ok in E3. destruct E3 as [E3 _]. bind H b4 E4. apply fits_ok in E4. destruct E4 as [E4 _].
  bind H b5 E5. apply fits_ok in E5. destruct E5 as [E5 _]. bind H b6 E6. apply fits_ok in E6. destruct E6 as [E6 _].
  apply done_ok in H. destruct H as (Er & _ & _ & _). rewrite Er in Ew. subst w. cbn [w_buf] in HP. apply fits_ok in HP. destruct HP as [HP LP].
  set (a := Z.of_nat (1 + length (offset_bytes v1)) + v2 - Z.of_nat (length b3)) in *.
  set (c := Z.of_nat (length ([83] ++ offset_bytes v1 ++ S)) - Z.of_nat (length b5)) in *.
  exists v1, v2, mx', a, c, X. split; [exact KC|]. split; [|split; [|split; [exact Hv2|split; [|split]]]].
  - rewrite HP, E6, E5, E4, E3. unfold whole, S. norm_app; cbn [app]; norm_app; cbn [app]; norm_app.
  - unfold small, zl. rewrite HP. lia.
  - unfold S in F2. rewrite !zl_app in F2. change (zl [mx'; 1; 1]) with 3 in F2. change (zl [40; 1]) with 2 in F2. change (zl [35]) with 1 in F2. unfold zob. lia.
  - unfold a. rewrite E3. unfold S. rewrite !app_length. cbn [length]. unfold zob, zl in *. lia.
  - unfold c. rewrite E5, E4, E3. rewrite !app_length. cbn [length]. unfold zob, zl. lia.
Qed.
End Whole.
Lemma anchored_returns s re prog m : wf (XSeq s) -> anchored_sq s -> few (quants s) -> s <> SNil -> RxSpellSpec.written (XSeq s) re -> short_program AllFeatures 0 re ->
  compile AllFeatures 0 re = Ok (Some prog, m) -> forall f g t off, (2 * length (quants s) + 14 < f)%nat -> 0 <= off ->
  (exists res, match_at f g prog t off = Ok res) /\ exists res, match_after f g prog t off = Ok res.
Proof.
  intros Hw HA HFew HNil HW HL H. destruct (anchored_split _ HA) as (bl & s0 & el & HS & ES).
  assert (HQs : quants s = (if bl then [QOne] else []) ++ quants s0 ++ (if el then [QOne] else [])).
  { rewrite ES. destruct bl, el; cbn [bolsq eolsq quants quant_of app]; rewrite ?quants_sapp; cbn [eolsq quants quant_of]; reflexivity. }
  assert (HF0 : few (quants s0)).
  { rewrite HQs in HFew. destruct bl; cbn [app] in HFew; [destruct HFew as [_ HFew]|]; eapply few_app; exact HFew. }
  assert (HW0 : wf_sq s0) by (cbn [wf] in Hw; rewrite ES in Hw; destruct bl; [destruct Hw as [_ Hw]|]; eapply wf_sapp; exact Hw).
  unfold compile in H. cbv zeta in H. bind H es Es. unfold short_program, counted in HL. rewrite Es in HL. change (Z.land AllFeatures (Z.lnot 0)) with AllFeatures in Es. rewrite (RxSpell.scan_written _ re Hw HW) in Es. assert (es = map Tok (all_toks (XSeq s))) by congruence. subst es.
  bind H x Ex. destruct x as [[s1 m1] ok]. destruct ok; [|discriminate H]. cbn [negb] in H. destruct (o_stack s1) eqn:Estk; [|discriminate H]. rewrite Ex, Estk in HL. specialize (HL _ _ _ eq_refl).
  destruct (cost_toks _ Hw) as [HK _].
  destruct (first_all _ _ _ _ _ HK Ex) as ((B1 & B2 & B3 & B4 & _) & _).
  { unfold one_ok. cbn. repeat split; try lia. constructor. }
  assert (HN : Z.of_nat (length (quants s0)) + one bl + one el + 1 <= o_stations s1).
  { unfold all_toks in Ex. cbn [map pass] in Ex. apply obind_ok in Ex. destruct Ex as (r0 & E0 & Ex). destruct r0 as [[sx mx0] ok]. destruct ok; [|discriminate Ex].
    destruct (anchored_states bl s0 el HS) as [Q1 Q2]. rewrite <- ES in Q1, Q2. destruct (flush_states (snd (toks_sq s []))) as [Q3 Q4].
    apply first_states in Ex; [|cbn [toks]; apply Forall_app; split; [exact Q1|apply Forall_app; split; [exact Q3|repeat constructor]]].
    cbn [toks] in Ex. rewrite !states_app, Q4 in Ex. cbn [states_all fold_right states_of nbytes] in Ex.
    assert (o_stations sx = 0) by (cbn [first_pass] in E0; unfold add1 in E0; inversion E0; reflexivity). unfold states_all in *. lia. }
  pose proof (sizes (o_bytes s1) (o_offsets s1) B1 B2 ltac:(lia)) as HM.
  set (M := offset_max_bytes (o_bytes s1) (o_offsets s1)) in *. set (cap := Z.to_nat (allocated (o_bytes s1) (o_offsets s1) + 1)) in *.
  bind H y Ey. destruct y as [[w m2] ok2]. apply pass_run in Ey. cbn [fst snd] in Ey. destruct Ey as (Er & -> & ->). rewrite B4 in Er.
  bind H b Eb. assert (b = prog) by congruence. subst b.
  assert (Hst : 0 <= o_stations s1 < 2^29) by lia.
  destruct (whole_any M cap (o_stations s1) HM (fun X => exists X0, code_of s0 X0 /\ X = bolc bl ++ X0 ++ eolc el) s _ w prog ltac:(rewrite ES; exact (anchored_run M cap _ [] HM bl s0 el HS)) Er Eb) as (v1 & v2 & mx & a & c & X & HC & HP & HSm & Hv2 & Hv1 & Ha & Hc).
  destruct (RxLay.whole_program v1 v2 (o_stations s1) mx a c [] X prog) as (h & P1 & P2 & P3 & _ & P5 & _).
  { rewrite HP. reflexivity. } { exact HSm. } { exact Hst. } { constructor. } { cbn. lia. } { change RxCode.zob with zob. change (zl (flat_map string_bytes [])) with 0. lia. } { change RxCode.zob with zob. change (zl (flat_map string_bytes [])) with 0. lia. }
  destruct (whole_code v1 v2 _ mx a c X prog HP HSm Ha Hc) as (D1 & D2 & D3 & D4 & D5 & E & Ez & L1 & L2 & L3 & L4 & L5).
  change RxCode.zob with zob in P2, P3. change (zl (flat_map string_bytes [])) with 0 in P2, P3. rewrite Z.add_0_r in P2, P3.
  rewrite zigzag_st in P5 by exact Hst.
  set (start := 1 + zob v1 + zob v2 + zob (o_stations s1) + 3) in *. set (rs := start + 2) in *. set (q := rs + zl X) in *. set (search := q + 1) in *. set (anyst := search + 1 + zob a) in *. set (jmp := anyst + 1) in *.
  destruct HC as (X0 & HC & EX). match type of E with prog = ?p ++ X ++ ?t => set (pre := p) in *; set (post := t) in * end.
  assert (ZB : zl X = zl (bolc bl) + zl X0 + zl (eolc el)) by (rewrite EX, !zl_app; lia).
  assert (EP : prog = (pre ++ bolc bl) ++ X0 ++ eolc el ++ post) by (rewrite E, EX; rewrite <- !app_assoc; reflexivity).
  destruct (line_of prog s0 HW0 HS HSm X0 (pre ++ bolc bl) (eolc el ++ post) HC EP) as (l & LN & LK).
  rewrite zl_app, Ez in LN. set (rs1 := rs + zl (bolc bl)) in *. set (q0 := rs1 + zl X0) in *.
  assert (HB : if bl then decode prog rs = Ok (IBOL rs1) else rs = rs1).
  { unfold rs1. destruct bl; cbn [bolc] in *; [|rewrite zl_nil; lia]. change (zl [94]) with 1. unfold decode. rewrite EP at 1. rewrite <- app_assoc. cbn [app]. rewrite rdZ_mid by lia. reflexivity. }
  assert (HE : if el then decode prog q0 = Ok (IEOL q) else q0 = q).
  { assert (Hq : q = q0 + zl (eolc el)) by (unfold q, q0, rs1; lia). destruct el; cbn [eolc] in *; [|rewrite Hq, zl_nil; lia]. change (zl [36]) with 1 in Hq.
    assert (EP' : prog = ((pre ++ bolc bl) ++ X0) ++ 36 :: post) by (rewrite EP at 1; rewrite <- !app_assoc; reflexivity).
    unfold decode. rewrite EP' at 1. rewrite rdZ_mid by (rewrite !zl_app, Ez; unfold q0, rs1; lia). cbn [obind Z.eqb Pos.eqb]. rewrite Hq. reflexivity. }
  rewrite <- LK in HF0.
  assert (LL : length l = length (quants s0)) by (rewrite <- LK; unfold kinds; rewrite map_length; reflexivity).
  assert (LQ : Z.of_nat (length (quants s)) = Z.of_nat (length l) + one bl + one el).
  { rewrite HQs, !app_length, LL. destruct bl, el; cbn [length one]; lia. }
  assert (L1' : (1 <= length (quants s))%nat) by (destruct s; [contradiction|cbn; lia]).
  intros f g t off Hf Ho. rewrite <- LL in HN.
  assert (O1 : 0 <= one bl /\ 0 <= one el /\ one el = if el then 1 else 0) by (destruct bl, el; cbn; lia).
  assert (Hlim : (if el then 2 * Z.of_nat (length l) + 4 else Z.of_nat (length l) + 3) <= h_stations h) by (rewrite P5; destruct el; lia).
  assert (Hf' : (2 * length l + 14 < f)%nat) by lia.
  unfold match_at, match_after. rewrite P1. cbn [obind]. rewrite P2, P3. split.
  - destruct (match_from_ok prog h t g (look prog h t g f f) _ f _ start
      (anchored_cert prog q0 q el D2 HE rs rs1 start search anyst jmp bl l HB LN HF0 D1 D3 D4 D5 ltac:(lia) ltac:(lia) ltac:(lia) f _ start Hf' Hlim (or_introl eq_refl)) f off (le_n f) Ho) as (y & ->). cbn [obind]. eauto.
  - destruct (match_from_ok prog h t g (look prog h t g f f) _ f _ search
      (anchored_cert prog q0 q el D2 HE rs rs1 start search anyst jmp bl l HB LN HF0 D1 D3 D4 D5 ltac:(lia) ltac:(lia) ltac:(lia) f _ search Hf' Hlim (or_intror eq_refl)) f off (le_n f) Ho) as (y & ->). cbn [obind]. eauto.
Qed.
