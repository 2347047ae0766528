(** Sequences of quantified characters, [.], classes, \s \d \h: their programs,
    and the certificate (RxCheck.v) that matching them returns. *)
From Verif Require Import Base UTF8Model CharModel RxCompModel RxModel RxSpec RxVm RxScan RxGen RxProg RxCheck RxStraight.
From Verif Require RxSpell RxSpellSpec RxLay.

(** A sequence of atoms other than groups, each with ?, *, + or nothing. *)
Definition plain_item (i : item) : Prop :=
  match i with It (AGroup _ _) _ | ItBol | ItEol => False | It _ _ => True end.
Fixpoint plain_sq (s : sq) : Prop := match s with SNil => True | SCons i s => plain_item i /\ plain_sq s end.
Definition plain (r : rx) : Prop := match r with XSeq s => plain_sq s | XAlt _ _ => False end.
Definition quant_of (i : item) : quant := match i with It _ q => q | _ => QOne end.
Fixpoint quants (s : sq) : list quant := match s with SNil => [] | SCons i s => quant_of i :: quants s end.
Definition may_skip (q : quant) : bool := match q with QOpt | QStar => true | _ => false end.
(** How many items at the beginning can be left out *)
Fixpoint leading (l : list quant) : nat := match l with q :: l => if may_skip q then S (leading l) else O | [] => O end.
(** No more than ten items in a row have ? or * *)
Fixpoint few (l : list quant) : Prop := match l with [] => True | q :: l' => (leading l <= 10)%nat /\ few l' end.
Definition few_in_a_row (r : rx) : Prop := match r with XSeq s => few (quants s) | XAlt _ _ => False end.

(** ** Their code *)
Definition atom_code (i : item) : list Z := match i with It a _ => snd (piece (It a QOne)) | _ => [] end.
Fixpoint code_of (s : sq) (X : list Z) : Prop :=
  match s with
  | SNil => X = []
  | SCons i s => exists Y Z, X = Y ++ Z /\ shape (quant_of i) (atom_code i) Y /\ code_of s Z
  end.

Section Gen.
Variables (M cap : nat) (st : Z) (nm : list (list Z)).
Hypothesis HM : (M = 1 /\ cap <= 64)%nat \/ (M = 2 /\ cap <= 1024)%nat.
Notation run := (run M cap st nm).
Ltac start H := unfold second_pass in H; cbv zeta in H; apply obind_ok in H; destruct H as (? & _ & H).
Lemma atom_run a q : plain_item (It a q) -> forall w w', run (toks_atom a) w = Ok w' ->
  w_buf w' = w_buf w ++ atom_code (It a q) /\ w_stack w' = w_stack w /\ w_atom w' = length (w_buf w) /\ (length (w_buf w') <= cap)%nat.
Proof.
  intros HP w w' H. destruct a as [c| |neg l|c|]; [| | | |destruct HP]; cbn [toks_atom] in H; apply run_one in H; destruct H as (r & H & <-); start H; apply plain_ok in H;
    destruct H as (A & B & C & D); cbn [flat_map atom_code piece snd] in *; rewrite ?app_nil_r in A; split; [exact A| |exact A| |exact A| |exact A|]; (split; [exact B|split; [exact C|lia]]).
Qed.
Lemma item_run i : plain_item i -> forall w w' d, run (fst (toks_item i d)) w = Ok w' -> (3 <= length (w_buf w))%nat ->
  exists Y, shape (quant_of i) (atom_code i) Y /\ w_buf w' ++ lit (snd (toks_item i d)) = w_buf w ++ lit d ++ Y /\ w_stack w' = w_stack w /\ (3 <= length (w_buf w'))%nat.
Proof.
  destruct i as [| |a q]; intros HP w w' d H H3; [destruct HP..|].
  assert (G : run (flush' d ++ toks_atom a ++ rep_toks q) w = Ok w' -> exists Y, shape q (atom_code (It a q)) Y /\ w_buf w' ++ lit [] = w_buf w ++ lit d ++ Y /\ w_stack w' = w_stack w /\ (3 <= length (w_buf w'))%nat).
  { clear H. intros H. apply run_app in H. destruct H as (w1 & H1 & H). apply run_app in H. destruct H as (w2 & H2 & H).
    apply flush_ok in H1. destruct H1 as [F1 F2]. destruct (atom_run a q HP _ _ H2) as (A & B & C & D).
    assert (L3 : (3 <= length (w_buf w1))%nat) by (rewrite F1, app_length; lia).
    destruct (rep_shape M cap st nm HM q _ (w_buf w1) w2 w' H A C L3 D) as (Y & A' & B' & C').
    exists Y. split; [exact B'|]. split; [cbn [lit flat_map]; rewrite app_nil_r, A', F1; norm_app|]. split; [congruence|].
    rewrite A', app_length. lia. }
  assert (HT : (exists c, a = AChar c /\ q = QOne) \/ toks_item (It a q) d = (flush' d ++ toks_atom a ++ rep_toks q, [])).
  { destruct a as [c| | | |]; try (right; reflexivity). destruct q; [left; eauto|right; reflexivity..]. }
  destruct HT as [(c & -> & ->)|E]; [|rewrite E in *; cbn [fst snd quant_of] in *; apply G, H].
  clear G. cbn [toks_item fst snd RxGen.run] in *. assert (w' = w) by congruence. subst.
  eexists. split; [reflexivity|]. split; [rewrite lit_app; cbn [lit flat_map atom_code piece snd]; rewrite app_nil_r; reflexivity|auto].
Qed.
Lemma sq_run s : plain_sq s -> forall w w' d, run (fst (toks_sq s d)) w = Ok w' -> (3 <= length (w_buf w))%nat ->
  exists X, code_of s X /\ w_buf w' ++ lit (snd (toks_sq s d)) = w_buf w ++ lit d ++ X /\ w_stack w' = w_stack w.
Proof.
  induction s as [|i s IH]; intros HS w w' d H H3.
  - cbn [toks_sq fst snd RxGen.run] in *. assert (w' = w) by congruence. subst. exists []. cbn [code_of]. rewrite app_nil_r. auto.
  - destruct HS as [Hi HS]. cbn [toks_sq fst snd] in *. apply run_app in H. destruct H as (w1 & H1 & H).
    destruct (item_run i Hi _ _ _ H1 H3) as (Y & A & B & C & D). destruct (IH HS _ _ _ H D) as (Z & A' & B' & C').
    exists (Y ++ Z). split; [exists Y, Z; auto|]. split; [|congruence]. rewrite B', app_assoc, B. norm_app.
Qed.
End Gen.

(** ** The states that the first pass counts *)
Definition counted_tok (x : token) : Prop :=
  match x with TLit _ | TBOL | TEOL | TAny | TClass _ _ | TProp _ | TAccept => True | TRep a b => (a = 0 /\ (b = 0 \/ b = 1)) \/ (a = 1 /\ b = 0) | _ => False end.
Definition states_of (x : token) : Z := match x with TLit l => nbytes l | TRep _ _ => 0 | _ => 1 end.
Definition states_all (ts : list token) : Z := fold_right (fun x n => states_of x + n) 0 ts.
Lemma states_app a b : states_all (a ++ b) = states_all a + states_all b.
Proof. induction a as [|x a IH]; [reflexivity|]. cbn [app states_all fold_right]. fold (states_all (a ++ b)) (states_all a). lia. Qed.
Lemma first_states ts : forall s m s' m', Forall counted_tok ts -> pass first_pass (map Tok ts) s m = Ok (s', m', true) -> o_stations s' = o_stations s + states_all ts.
Proof.
  induction ts as [|x ts IH]; intros s m s' m' HP H; cbn [map pass] in H.
  - assert (s' = s) by congruence. subst. cbn. lia.
  - apply Forall_cons_iff in HP. destruct HP as [Hx HP]. apply obind_ok in H. destruct H as (r & E & H). destruct r as [[s1 m1] ok].
    destruct ok; [|discriminate H]. specialize (IH _ _ _ _ HP H). cbn [states_all fold_right]. fold (states_all ts).
    assert (o_stations s1 = o_stations s + states_of x).
    { destruct x as [| | | | |l|mn mx|l|neg l| | | | |]; try contradiction; cbn [first_pass] in E; unfold add1 in E; try (inversion E; subst; cbn [o_stations set_stack states_of]; lia).
      destruct (o_repeatable s); [|discriminate E]. cbn [negb] in E.
      destruct Hx as [[-> [-> | ->]]|[-> ->]]; cbn [Z.gtb Z.compare Pos.compare Pos.compare_cont orb andb Z.eqb Pos.eqb] in E; inversion E; subst; cbn [o_stations states_of]; lia. }
    lia.
Qed.
Lemma flush_states d : Forall counted_tok (flush' d) /\ states_all (flush' d) = nbytes d.
Proof. destruct d as [|c d]; cbn [flush']; [split; [constructor|reflexivity]|]. split; [repeat constructor|]. cbn [states_all fold_right states_of]. lia. Qed.
Lemma item_states i : plain_item i -> forall d, Forall counted_tok (fst (toks_item i d)) /\
  nbytes d + 1 <= states_all (fst (toks_item i d)) + nbytes (snd (toks_item i d)).
Proof.
  destruct i as [| |a q]; intros HP d; [destruct HP..|].
  assert (HR : Forall counted_tok (rep_toks q) /\ states_all (rep_toks q) = 0).
  { destruct q; cbn [rep_toks]; (split; [repeat constructor; cbn; lia|reflexivity]). }
  assert (HA : Forall counted_tok (toks_atom a) /\ 1 <= states_all (toks_atom a)).
  { destruct a as [c| |neg l|c|]; [| | | |destruct HP]; cbn [toks_atom]; (split; [repeat constructor|cbn [states_all fold_right states_of nbytes]; try lia]).
    pose proof (blen_range c). unfold nbytes. cbn [fold_right]. lia. }
  destruct (flush_states d) as [F1 F2]. destruct HR as [R1 R2], HA as [A1 A2].
  assert (HT : (exists c, a = AChar c /\ q = QOne) \/ toks_item (It a q) d = (flush' d ++ toks_atom a ++ rep_toks q, [])).
  { destruct a as [c| | | |]; try (right; reflexivity). destruct q; [left; eauto|right; reflexivity..]. }
  destruct HT as [(c & -> & ->)|E].
  - cbn [toks_item fst snd]. split; [constructor|]. rewrite nbytes_app. cbn [states_all fold_right nbytes]. pose proof (blen_range c). unfold nbytes in *. cbn [fold_right] in *. lia.
  - rewrite E. cbn [fst snd]. split; [repeat (apply Forall_app; split); assumption|]. rewrite !states_app, F2, R2. change (nbytes []) with 0. lia.
Qed.
Lemma sq_states s : plain_sq s -> forall d, Forall counted_tok (fst (toks_sq s d)) /\
  nbytes d + Z.of_nat (length (quants s)) <= states_all (fst (toks_sq s d)) + nbytes (snd (toks_sq s d)).
Proof.
  induction s as [|i s IH]; intros HS d; cbn [toks_sq fst snd quants length].
  - split; [constructor|]. cbn [states_all fold_right]. lia.
  - destruct HS as [Hi HS]. destruct (item_states i Hi d) as [A B]. destruct (IH HS (snd (toks_item i d))) as [A' B'].
    split; [apply Forall_app; auto|]. rewrite states_app. lia.
Qed.

(** ** The stations of the code *)
Section Line.
Variable P : list Z.
Definition eats (s n : Z) : Prop := exists x, decode P s = Ok x /\ terminal_next x = Some (Some n).
(** From station [s] on to [n]; [j] is where the atom is. *)
Definition link (k : quant) (s j n : Z) : Prop :=
  match k with
  | QOne => j = s /\ eats s n
  | QOpt => decode P s = Ok (ISplit n j) /\ eats j n
  | QStar => decode P s = Ok (ISplit n j) /\ exists e, eats j e /\ decode P e = Ok (IJump s)
  | QPlus => j = s /\ exists e, eats s e /\ decode P e = Ok (ISplit s n)
  end.
Fixpoint line (s : Z) (l : list (quant * Z * Z)) (q : Z) : Prop :=
  match l with
  | [] => s = q
  | (k, j, n) :: l => link k s j n /\ line n l q
  end.
Definition kinds (l : list (quant * Z * Z)) : list quant := map (fun x => fst (fst x)) l.

Lemma decode_atom a q pre post : plain_item (It a q) -> wf_atom a -> small P -> P = pre ++ atom_code (It a q) ++ post -> eats (zl pre) (zl pre + zl (atom_code (It a q))).
Proof.
  intros HP Hwi SM E. unfold eats. destruct a as [c| |neg l|c|]; [| | | |destruct HP]; cbn [atom_code piece snd wf_atom] in *.
  - eexists. split; [eapply decode_char; [exact E|exact Hwi]|reflexivity].
  - exists (IAny (zl pre + 1)). split; [|reflexivity]. unfold decode. rewrite E at 1. cbn [app]. rewrite rdZ_mid by reflexivity. reflexivity.
  - destruct Hwi as [Hne Hl]. apply class_text_ok in Hl. pose proof (decode_text _ _ _ _ _ E SM Hl) as E'.
    exists (IClass neg (class_text l) (zl pre + zl ((if neg then 78 else 76) :: string_bytes (class_text l)))). split.
    + unfold decode. rewrite E at 1. cbn [app]. rewrite rdZ_mid by reflexivity. cbn [obind]. destruct neg; cbn [Z.eqb Pos.eqb]; rewrite E'; reflexivity.
    + destruct l as [|[lo hi] l]; [contradiction|reflexivity].
  - assert (Hl : Forall ok_char [c]) by (repeat constructor; lia). pose proof (decode_text _ _ _ _ _ E SM Hl) as E'.
    exists (IProp [c] (zl pre + zl (80 :: string_bytes [c]))). split; [|reflexivity].
    unfold decode. rewrite E at 1. cbn [app]. rewrite rdZ_mid by reflexivity. cbn [obind Z.eqb Pos.eqb]. rewrite E'. reflexivity.
Qed.
Ltac lens := repeat (rewrite zl_cons in * || rewrite zl_app in * || rewrite zl_nil in * ).
Lemma decode_item i Y pre post : plain_item i -> wf_item i -> small P -> shape (quant_of i) (atom_code i) Y -> P = pre ++ Y ++ post ->
  exists j, link (quant_of i) (zl pre) j (zl pre + zl Y).
Proof.
  destruct i as [| |a q]; intros HP HW SM HSh E; [destruct HP..|]. cbn [wf_item quant_of] in *.
  destruct (small_app _ _ _ _ E SM) as (A1 & A2 & A3 & A4). assert (HPl : zl P = zl pre + zl Y + zl post) by (rewrite E; lens; lia).
  set (X := atom_code (It a q)) in *. pose proof (zl_pos X).
  destruct q; cbn [shape link] in *.
  - subst Y. exists (zl pre). split; [reflexivity|]. eapply decode_atom; eauto.
  - destruct HSh as (v & Hv & ->). set (o := offset_bytes v) in *. pose proof (zl_pos o). exists (zl pre + 1 + zl o).
    assert (D : decode P (zl pre) = Ok (ISplit (zl pre + 1 + v) (zl pre + 1 + zl o))).
    { apply (decode_split pre v (X ++ post)); [rewrite E; norm_app|exact SM|]. lens. lia. }
    split; [rewrite D; do 2 f_equal; lens; lia|].
    pose proof (decode_atom a QOpt (pre ++ 65 :: o) post HP HW SM ltac:(rewrite E; norm_app)) as G. fold X in G. lens.
    replace (zl pre + 1 + zl o) with (zl pre + (1 + zl o)) by lia. replace (zl pre + (1 + (zl o + zl X))) with (zl pre + (1 + zl o) + zl X) by lia. exact G.
  - destruct HSh as (v & w & Hv & Hw & ->). set (o := offset_bytes v) in *. set (u := offset_bytes w) in *. pose proof (zl_pos o). pose proof (zl_pos u). exists (zl pre + 1 + zl o).
    assert (D : decode P (zl pre) = Ok (ISplit (zl pre + 1 + v) (zl pre + 1 + zl o))).
    { apply (decode_split pre v (X ++ 74 :: u ++ post)); [rewrite E; norm_app|exact SM|]. lens. lia. }
    pose proof (decode_jump (pre ++ 65 :: o ++ X) w post P ltac:(rewrite E; norm_app) SM) as D2.
    split; [rewrite D; do 2 f_equal; lens; lia|].
    pose proof (decode_atom a QStar (pre ++ 65 :: o) (74 :: u ++ post) HP HW SM ltac:(rewrite E; norm_app)) as G. fold X in G. lens.
    specialize (D2 ltac:(lia)).
    exists (zl pre + (1 + (zl o + zl X))). split.
    + replace (zl pre + 1 + zl o) with (zl pre + (1 + zl o)) by lia. replace (zl pre + (1 + (zl o + zl X))) with (zl pre + (1 + zl o) + zl X) by lia. exact G.
    + rewrite D2. do 2 f_equal. lia.
  - destruct HSh as (v & Hv & ->). set (o := offset_bytes v) in *. pose proof (zl_pos o). exists (zl pre). split; [reflexivity|].
    pose proof (decode_split (pre ++ X) v post P ltac:(rewrite E; norm_app) SM) as D. fold o in D.
    pose proof (decode_atom a QPlus pre ((65 :: o) ++ post) HP HW SM ltac:(rewrite E; norm_app)) as G. fold X in G. lens. specialize (D ltac:(lia)).
    exists (zl pre + zl X). split; [exact G|]. rewrite D. f_equal. f_equal; lia.
Qed.
Lemma line_of s : wf_sq s -> plain_sq s -> small P -> forall X pre post, code_of s X -> P = pre ++ X ++ post ->
  exists l, line (zl pre) l (zl pre + zl X) /\ kinds l = quants s.
Proof.
  intros HW HS SM. induction s as [|i s IH]; intros X pre post HC HP; cbn [code_of] in HC.
  - subst X. exists []. split; [|reflexivity]. cbn [line]. unfold zl. cbn [length]. lia.
  - destruct HW as [Hwi HW]. destruct HS as [Hi HS]. destruct HC as (Y & Z & -> & SH & HC).
    destruct (decode_item i Y pre (Z ++ post) Hi Hwi SM SH) as (j & L). { rewrite HP. norm_app. }
    destruct (IH HW HS Z (pre ++ Y) post HC) as (l & L' & K). { rewrite HP. norm_app. }
    exists ((quant_of i, j, zl pre + zl Y) :: l). split; [|cbn [kinds map fst quants]; fold (kinds l); congruence].
    cbn [line]. split; [exact L|]. rewrite zl_app in *. replace (zl pre + (zl Y + zl Z)) with (zl pre + zl Y + zl Z) by lia. exact L'.
Qed.

Fixpoint terms (s : Z) (l : list (quant * Z * Z)) : list Z :=
  match l with [] => [s] | (_, j, n) :: l => j :: terms n l end.
(** Added without a test at the beginning *)
Definition first (s : Z) (l : list (quant * Z * Z)) : list Z :=
  match l with (k, _, _) :: _ => if may_skip k then [] else [s] | [] => [s] end.
Variable q : Z.
Hypothesis HQ : decode P q = Ok IAccept.
Lemma goes_eats f root s n sh : eats s n -> goes P (S f) root s sh = Some (if root then ([s], []) else ([], [s])).
Proof. intros (x & D & T). rewrite goesS, D. destruct x; try discriminate T; rewrite T; reflexivity. Qed.
Lemma adds_eats f s n sh : eats s n -> (length sh < 12)%nat -> exists r, adds P (S (S f)) s sh = Some (r, []) /\ incl r [s].
Proof.
  intros E L. rewrite addsS. destruct (existsb (Z.eqb s) sh); [exists []; split; [reflexivity|intros ? []]|].
  apply Nat.ltb_lt in L. unfold RxMaxNesting. rewrite L, (goes_eats _ _ _ _ _ E). exists [s]. split; [reflexivity|apply incl_refl].
Qed.
Lemma line_ok l : forall f s sh, line s l q -> (2 * length l + 3 < f)%nat ->
  ((length sh + leading (kinds l) < 12)%nat -> exists r, adds P f s sh = Some (r, []) /\ incl r (terms s l)) /\
  forall root : bool, (length sh + leading (kinds l) <= 12)%nat -> exists r, goes P f root s sh = Some (r, if root then [] else first s l) /\ incl r (terms s l).
Proof.
  induction l as [|[[k j] n] l IH]; intros f s sh HL Hf.
  - cbn [line] in HL. subst s. assert (G : forall f root sh, goes P (S f) root q sh = Some (if root : bool then ([q], []) else ([], [q]))) by (intros; rewrite goesS, HQ; reflexivity).
    destruct f as [|[|f]]; [lia..|]. cbn [kinds map leading terms first length] in *. split.
    + intros L. rewrite addsS. destruct (existsb (Z.eqb q) sh); [exists []; split; [reflexivity|intros ? []]|].
      assert (L' : (length sh < 12)%nat) by lia. apply Nat.ltb_lt in L'. unfold RxMaxNesting. rewrite L', G. exists [q]. split; [reflexivity|apply incl_refl].
    + intros root L. rewrite G. destruct root; [exists [q]|exists []]; (split; [reflexivity|]); [apply incl_refl|intros ? []].
  - destruct HL as [HL HN].
    assert (GG : forall f sh root, (2 * length l + 4 < f)%nat -> (length sh + leading (kinds ((k, j, n) :: l)) <= 12)%nat ->
      exists r, goes P f root s sh = Some (r, if root : bool then [] else first s ((k, j, n) :: l)) /\ incl r (terms s ((k, j, n) :: l))).
    { clear f sh Hf. intros f sh root Hf L. destruct f as [|[|[|f]]]; [lia..|]. cbn [kinds map fst leading] in L. fold (kinds l) in L. cbn [terms first].
      assert (SP : forall e, decode P s = Ok (ISplit n j) -> eats j e -> may_skip k = true ->
        exists r, goes P (S (S (S f))) root s sh = Some (r, if root then [] else []) /\ incl r (j :: terms n l)).
      { intros e D E K. rewrite K in L. rewrite goesS, D. destruct (proj1 (IH (S (S f)) n sh HN ltac:(lia)) ltac:(lia)) as (r1 & -> & I1).
        destruct (adds_eats f j e sh E ltac:(lia)) as (r2 & -> & I2). exists (r1 ++ r2). split; [destruct root; reflexivity|].
        intros x Hx. apply in_app_or in Hx as [Hx|Hx]; [right; apply I1, Hx|left]. destruct (I2 x Hx) as [<-|[]]. reflexivity. }
      assert (AT : forall e, j = s -> eats s e -> may_skip k = false ->
        exists r, goes P (S (S (S f))) root s sh = Some (r, if root then [] else [s]) /\ incl r (j :: terms n l)).
      { intros e -> E K. rewrite (goes_eats _ _ _ _ _ E). destruct root; [exists [s]|exists []]; (split; [reflexivity|]); [intros x [<-|[]]; left; reflexivity|intros ? []]. }
      destruct k; cbn [link may_skip] in *.
      - destruct HL as [A B]. eapply AT; eauto.
      - destruct HL as [A B]. eapply SP; eauto.
      - destruct HL as [A (e & B & _)]. eapply SP; eauto.
      - destruct HL as [A (e & B & _)]. eapply AT; eauto. }
    split.
    + intros L. destruct f as [|f]; [lia|]. rewrite addsS. destruct (existsb (Z.eqb s) sh); [exists []; split; [reflexivity|intros ? []]|].
      assert (L' : (length sh < 12)%nat) by lia. apply Nat.ltb_lt in L'. unfold RxMaxNesting. rewrite L'.
      destruct (GG f (s :: sh) true) as (r & -> & I). { cbn [length] in Hf. lia. } { cbn [length]. lia. } exists r. split; [reflexivity|exact I].
    + intros root L. apply GG; [cbn [length] in Hf; lia|exact L].
Qed.
Lemma few_next x l : few (x :: l) -> (leading l <= 10)%nat.
Proof. destruct l as [|y l]; intros [_ H]; [cbn; lia|apply H]. Qed.
Lemma terms_next l : forall f s, line s l q -> few (kinds l) -> (2 * length l + 5 < f)%nat -> forall x, In x (terms s l) ->
  exists r, next_adds P f x = Some (r, []) /\ incl r (terms s l).
Proof.
  induction l as [|[[k j] n] l IH]; intros f s HL HF Hf x Hx; cbn [line length terms] in *.
  - destruct Hx as [<-|[]]. subst s. unfold next_adds. rewrite HQ. exists []. split; [reflexivity|intros ? []].
  - destruct HL as [HL HN]. cbn [kinds map fst] in HF. fold (kinds l) in HF. pose proof (few_next _ _ HF) as L6.
    destruct Hx as [<-|Hx].
    2:{ destruct (IH f n HN (proj2 HF) ltac:(lia) x Hx) as (r & A & B). exists r. split; [exact A|]. intros z Hz. right. apply B, Hz. }
    assert (NX : forall e, eats j e -> next_adds P f j = adds P f e []).
    { intros e (y & D & T). unfold next_adds. rewrite D, T. reflexivity. }
    assert (NN : forall e, eats j e -> e = n -> exists r, next_adds P f j = Some (r, []) /\ incl r (j :: terms n l)).
    { intros e E ->. rewrite (NX _ E). destruct (proj1 (line_ok l f n [] HN ltac:(lia)) ltac:(cbn [length]; lia)) as (r & -> & I). exists r. split; [reflexivity|]. intros z Hz. right. apply I, Hz. }
    assert (SP : forall f e a, (2 * length l + 3 < S (S f))%nat -> (length (e : list Z) < 12)%nat -> (length e + leading (kinds l) < 12)%nat -> eats j a ->
      (exists r, match adds P (S (S f)) n e, adds P (S (S f)) j e with Some (r1, c1), Some (r2, c2) => Some (r1 ++ r2, c1 ++ c2) | _, _ => None end = Some (r, []) /\ incl r (j :: terms n l)) /\
      (exists r, match adds P (S (S f)) j e, adds P (S (S f)) n e with Some (r1, c1), Some (r2, c2) => Some (r1 ++ r2, c1 ++ c2) | _, _ => None end = Some (r, []) /\ incl r (j :: terms n l))).
    { intros g e a A B C E. destruct (proj1 (line_ok l (S (S g)) n e HN A) C) as (r1 & -> & I1). destruct (adds_eats g j a e E B) as (r2 & -> & I2).
      split; [exists (r1 ++ r2)|exists (r2 ++ r1)]; (split; [reflexivity|]); intros z Hz; apply in_app_or in Hz as [Hz|Hz];
        try (right; apply I1, Hz); left; destruct (I2 z Hz) as [<-|[]]; reflexivity. }
    destruct k; cbn [link] in HL.
    + destruct HL as [-> E]. eapply NN; eauto.
    + destruct HL as [_ E]. eapply NN; eauto.
    + destruct HL as [D (e & E & DJ)]. rewrite (NX _ E). destruct f as [|[|[|[|[|f]]]]]; [lia..|]. rewrite addsS. cbn [existsb length Nat.ltb]. replace (1 <=? RxMaxNesting)%nat with true by reflexivity.
      rewrite goesS, DJ, goesS, D. eapply (proj1 (SP f [e] e ltac:(lia) ltac:(cbn; lia) ltac:(cbn [length]; lia) E)).
    + destruct HL as [-> (e & E & D)]. rewrite (NX _ E). destruct f as [|[|[|[|f]]]]; [lia..|]. rewrite addsS. cbn [existsb length Nat.ltb]. replace (1 <=? RxMaxNesting)%nat with true by reflexivity.
      rewrite goesS, D. eapply (proj2 (SP f [e] e ltac:(lia) ltac:(cbn; lia) ltac:(cbn [length]; lia) E)).
Qed.
Lemma terms_length l : forall s, length (terms s l) = S (length l).
Proof. induction l as [|[[k j] n] l IH]; intros s; cbn [terms length]; [reflexivity|]. rewrite IH. reflexivity. Qed.

(** The certificate. *)
Variables (rs start search anyst jmp : Z) (l : list (quant * Z * Z)).
Hypotheses (HL : line rs l q) (HF : few (kinds l)) (D1 : decode P start = Ok (ICapStart 0 rs)) (D2 : decode P search = Ok (ISplit start anyst))
  (D3 : decode P anyst = Ok (IAny jmp)) (D4 : decode P jmp = Ok (IJump search)).
Hypotheses (N1 : start < search) (N2 : search < anyst) (N3 : anyst < jmp).
Lemma adds_start f sh : (2 * length l + 5 < f)%nat -> (length sh <= 1)%nat -> ~ In start sh -> exists r, adds P f start sh = Some (r, first rs l) /\ incl r (terms rs l).
Proof using HQ HL HF D1.
  intros Hf Hs Hn. destruct f as [|[|f]]; [lia..|]. rewrite addsS. replace (existsb (Z.eqb start) sh) with false.
  2:{ symmetry. apply not_true_is_false. intros E. apply existsb_exists in E as (y & Y & E). apply Z.eqb_eq in E. subst y. contradiction. }
  assert (Hs' : (length sh < 12)%nat) by lia. apply Nat.ltb_lt in Hs'. unfold RxMaxNesting. rewrite Hs', goesS, D1. cbn [Z.eqb].
  assert (L6 : (leading (kinds l) <= 10)%nat) by (destruct (kinds l); [cbn; lia|apply HF]).
  apply (proj2 (line_ok l f rs (start :: sh) HL ltac:(lia)) false). cbn [length]. lia.
Qed.
Lemma split_any f root sh : (2 * length l + 7 < f)%nat -> (length sh <= 1)%nat -> ~ In start sh -> ~ In anyst sh ->
  exists r, goes P f root search sh = Some (r, first rs l) /\ incl r (anyst :: terms rs l).
Proof using HQ HL HF D1 D2 D3.
  intros Hf Hs A B. destruct f as [|f]; [lia|]. rewrite goesS, D2. destruct (adds_start f sh ltac:(lia) Hs A) as (r1 & -> & I1).
  destruct f as [|[|f]]; [lia..|]. destruct (adds_eats f anyst jmp sh) as (r2 & -> & I2); [exists (IAny jmp); split; [exact D3|reflexivity]|lia|].
  exists (r1 ++ r2). rewrite app_nil_r. split; [reflexivity|]. intros x Hx. apply in_app_or in Hx as [Hx|Hx]; [right; apply I1, Hx|left]. destruct (I2 x Hx) as [<-|[]]. reflexivity.
Qed.
Lemma plain_cert f limit from : (2 * length l + 12 < f)%nat -> Z.of_nat (length l) + 3 <= limit -> from = start \/ from = search ->
  certified P f limit from (anyst :: terms rs l) (first rs l).
Proof.
  intros Hf Hlim Hfrom.
  assert (NA : exists r, next_adds P f anyst = Some (r, first rs l) /\ incl r (anyst :: terms rs l)).
  { unfold next_adds. rewrite D3. cbn [terminal_next]. destruct f as [|[|[|f]]]; [lia..|]. rewrite addsS. cbn [existsb length]. replace (0 <? RxMaxNesting)%nat with true by reflexivity.
    rewrite goesS, D4. apply split_any; [lia|cbn; lia| |]; intros [X|[]]; lia. }
  assert (FT : forall s, In s (first rs l) -> In s (terms rs l)).
  { destruct l as [|[[k j] n] l']; cbn [first terms]; [auto|]. cbn [line] in HL. destruct HL as [HLk _]. destruct k; cbn [may_skip link] in *; try solve [intros ? []];
      destruct HLk as [-> _]; intros ? [<-|[]]; left; reflexivity. }
  assert (SN : forall s, In s (terms rs l) -> snds P f s = []).
  { intros s Hs. destruct (terms_next l f rs HL HF ltac:(lia) s Hs) as (r & A & _). unfold snds. rewrite A. reflexivity. }
  assert (FM : forall k, incl k (terms rs l) -> flat_map (snds P f) k = []).
  { intros k. induction k as [|x k IH]; intros I; [reflexivity|]. cbn [flat_map]. rewrite (SN x (I x (or_introl eq_refl))), IH; [reflexivity|]. intros y Y. apply I. right. exact Y. }
  constructor.
  - destruct Hfrom as [-> | ->].
    + destruct (adds_start f [] ltac:(lia) ltac:(cbn; lia) ltac:(intros [])) as (r & A & B). exists r, (first rs l). split; [exact A|]. split; [intros x Hx; right; apply B, Hx|apply sub_refl].
    + destruct f as [|f]; [lia|]. rewrite addsS. cbn [existsb length]. replace (0 <? RxMaxNesting)%nat with true by reflexivity.
      destruct (split_any f true [search]) as (r & A & B); [lia|cbn; lia|intros [X|[]]; lia..|]. exists r, (first rs l). split; [exact A|]. split; [exact B|apply sub_refl].
  - intros s Hs. assert (Hs' : s = anyst \/ In s (terms rs l)) by (destruct Hs as [[Hs|Hs]|Hs]; auto).
    destruct Hs' as [-> |Hs'].
    + destruct NA as (r & A & B). exists r, (first rs l). auto.
    + destruct (terms_next l f rs HL HF ltac:(lia) s Hs') as (r & A & B). exists r, []. split; [exact A|]. intros z Hz. right. apply B, Hz.
  - cbn [flat_map]. rewrite (FM (terms rs l) (incl_refl _)), (FM (first rs l) FT). destruct NA as (r & A & _). unfold snds at 1. rewrite A, !app_nil_r. apply sub_refl.
  - cbn [length]. rewrite terms_length. assert (length (first rs l) <= 1)%nat by (destruct l as [|[[k j] n] l']; cbn [first]; [cbn; lia|destruct (may_skip k); cbn; lia]). lia.
Qed.
End Line.

(** ** Their programs *)
Section Whole.
Variables (M cap : nat) (st : Z).
Hypothesis HM : (M = 1 /\ cap <= 64)%nat \/ (M = 2 /\ cap <= 1024)%nat.
Hypothesis Hst : 0 <= st < 2^29.
Lemma whole_plain s mx w P : plain_sq s -> run M cap st [] (all_toks (XSeq s)) (mktwo [] [] mx 0 0) = Ok w -> app_bytes cap (w_buf w) [0] = Ok P ->
  exists v1 v2 mx' a c X, code_of s X /\ P = whole v1 v2 st mx' a c X /\ small P /\
    v2 = zob v2 + zob st + 3 /\
    v1 = zob v1 + zob v2 + zob st + 3 + 2 + zl X + 1 /\
    a = - (zl X + 4) /\ c = - (zob a + 3).
Proof.
  intros Hw H HP. set (r := XSeq s) in *. unfold all_toks in H. change (TStart :: fst (toks r []) ++ flush' (snd (toks r [])) ++ [TAccept]) with ([TStart] ++ fst (toks r []) ++ flush' (snd (toks r [])) ++ [TAccept]) in H.
  apply run_app in H. destruct H as (w1 & H1 & H). apply run_app in H. destruct H as (w2 & H2 & H). apply run_app in H. destruct H as (w3 & H3 & H).
  destruct (start_ok M cap st HM _ _ H1) as (v2 & mx' & fr & B1 & Hv2 & S1 & C1 & J1 & L1).
  destruct (sq_run M cap st [] HM s Hw w1 w2 [] H2) as (X & KC & K1 & K2). { rewrite B1. cbn [length]. rewrite !app_length. cbn [length]. lia. }
  cbn [lit flat_map app] in K1.
  apply flush_ok in H3. destruct H3 as [F1 F2].
  apply run_one in H. destruct H as (rr & H & Ew). pose proof (fits_before M cap st [] HM TAccept w3 rr H) as HBf. unfold second_pass in H; cbv zeta in H. bind H u Eu. clear Eu.
  rewrite F2, K2, S1 in H. unfold fixup in H. rewrite J1 in H. cbn [obind] in H.
  assert (A : w_buf w3 = w_buf w1 ++ X) by (rewrite F1; exact K1). clear F1 F2 K1 K2. set (b := w_buf w3) in *.
  bind H b2 E2. apply fits_ok in E2. destruct E2 as [E2 L2].
  set (S := offset_bytes v2 ++ offset_bytes st ++ [mx'; 1; 1] ++ [40; 1] ++ X ++ [35]).
  assert (Hb2 : b2 = [83] ++ padded M 0 ++ S ++ []).
  { rewrite E2, A, B1, app_nil_r. unfold S. norm_app; cbn [app]; norm_app; cbn [app]; norm_app. }
  bind H p Ep.
  destruct (patch_fwd M cap HM [83] (padded M 0) S [] b2 1%nat (length b2) p Hb2) as (v1 & F1 & F2 & F3 & F4).
  { exact (padded_len M cap HM 0). } { reflexivity. } { rewrite Hb2, !app_length, (padded_len M cap HM). cbn [length]. lia. } { cbn; lia. } { rewrite E2. exact L2. } { exact Ep. }
  rewrite app_nil_r in F1. rewrite F1, F3 in H.
  replace (1 + M - (M - length (offset_bytes v1)))%nat with (1 + length (offset_bytes v1))%nat in H by lia.
  bind H gg Eg.
  assert (Hv2b : - 2^30 < v2 < 2^30).
  { pose proof (ob_len v2) as Q. unfold zob in Hv2. assert (length (offset_bytes v2) <= 1024)%nat.
    { rewrite B1 in L1. cbn [length] in L1. rewrite !app_length in L1. lia. }
    assert (length (offset_bytes st) <= 1024)%nat.
    { rewrite B1 in L1. cbn [length] in L1. rewrite !app_length in L1. lia. }
    unfold zl in Hv2. lia. }
  rewrite app_assoc, skipn_len in Eg by (rewrite app_length; reflexivity). unfold S in Eg. unfold offset_bytes at 1 in Eg.
  rewrite get_put in Eg by (apply zigzag_range, Hv2b). assert (Hgg : fst gg = zigzag v2) by (inversion Eg; reflexivity). rewrite Hgg, zagzig_zigzag in H by exact Hv2b.
  bind H b3 E3. apply fits_ok in E3. destruct E3 as [E3 _]. bind H b4 E4. apply fits_ok in E4. destruct E4 as [E4 _].
  bind H b5 E5. apply fits_ok in E5. destruct E5 as [E5 _]. bind H b6 E6. apply fits_ok in E6. destruct E6 as [E6 _].
  apply done_ok in H. destruct H as (Er & _ & _ & _). rewrite Er in Ew. subst w. cbn [w_buf] in HP. apply fits_ok in HP. destruct HP as [HP LP].
  set (a := Z.of_nat (1 + length (offset_bytes v1)) + v2 - Z.of_nat (length b3)) in *.
  set (c := Z.of_nat (length ([83] ++ offset_bytes v1 ++ S)) - Z.of_nat (length b5)) in *.
  exists v1, v2, mx', a, c, X. split; [exact KC|]. split; [|split; [|split; [exact Hv2|split; [|split]]]].
  - rewrite HP, E6, E5, E4, E3. unfold whole, S. norm_app; cbn [app]; norm_app; cbn [app]; norm_app.
  - unfold small, zl. rewrite HP. lia.
  - unfold S in F2. rewrite !zl_app in F2. change (zl [mx'; 1; 1]) with 3 in F2. change (zl [40; 1]) with 2 in F2. change (zl [35]) with 1 in F2. unfold zob. lia.
  - unfold a. rewrite E3. unfold S. rewrite !app_length. cbn [length]. unfold zob, zl in *. lia.
  - unfold c. rewrite E5, E4, E3. rewrite !app_length. cbn [length]. unfold zob, zl. lia.
Qed.
End Whole.
Lemma plain_returns s re prog m : wf (XSeq s) -> plain_sq s -> few (quants s) -> s <> SNil -> RxSpellSpec.written (XSeq s) re -> short_program AllFeatures 0 re ->
  compile AllFeatures 0 re = Ok (Some prog, m) -> forall f g t off, (2 * length (quants s) + 12 < f)%nat -> 0 <= off ->
  (exists res, match_at f g prog t off = Ok res) /\ exists res, match_after f g prog t off = Ok res.
Proof.
  intros Hw HS HFew HNil HW HL H. unfold compile in H. cbv zeta in H. bind H es Es. unfold short_program, counted in HL. rewrite Es in HL. change (Z.land AllFeatures (Z.lnot 0)) with AllFeatures in Es. rewrite (RxSpell.scan_written _ re Hw HW) in Es. assert (es = map Tok (all_toks (XSeq s))) by congruence. subst es.
  bind H x Ex. destruct x as [[s1 m1] ok]. destruct ok; [|discriminate H]. cbn [negb] in H. destruct (o_stack s1) eqn:Estk; [|discriminate H]. rewrite Ex, Estk in HL. specialize (HL _ _ _ eq_refl).
  destruct (cost_toks _ Hw) as [HK _].
  destruct (first_all _ _ _ _ _ HK Ex) as ((B1 & B2 & B3 & B4 & _) & _).
  { unfold one_ok. cbn. repeat split; try lia. constructor. }
  assert (HN : Z.of_nat (length (quants s)) + 1 <= o_stations s1).
  { unfold all_toks in Ex. cbn [map pass] in Ex. apply obind_ok in Ex. destruct Ex as (r0 & E0 & Ex). destruct r0 as [[s0 m0] ok]. destruct ok; [|discriminate Ex].
    destruct (sq_states s HS []) as [Q1 Q2]. destruct (flush_states (snd (toks_sq s []))) as [Q3 Q4].
    apply first_states in Ex; [|cbn [toks]; apply Forall_app; split; [exact Q1|apply Forall_app; split; [exact Q3|repeat constructor]]].
    cbn [toks] in Ex. rewrite !states_app, Q4 in Ex. cbn [states_all fold_right states_of nbytes] in Ex, Q2.
    assert (o_stations s0 = 0) by (cbn [first_pass] in E0; unfold add1 in E0; inversion E0; reflexivity). unfold states_all in *. lia. }
  pose proof (sizes (o_bytes s1) (o_offsets s1) B1 B2 ltac:(lia)) as HM.
  set (M := offset_max_bytes (o_bytes s1) (o_offsets s1)) in *. set (cap := Z.to_nat (allocated (o_bytes s1) (o_offsets s1) + 1)) in *.
  bind H y Ey. destruct y as [[w m2] ok2]. apply pass_run in Ey. cbn [fst snd] in Ey. destruct Ey as (Er & -> & ->). rewrite B4 in Er.
  bind H b Eb. assert (b = prog) by congruence. subst b.
  assert (Hst : 0 <= o_stations s1 < 2^29) by lia.
  destruct (whole_plain M cap (o_stations s1) HM s _ w prog HS Er Eb) as (v1 & v2 & mx & a & c & X & HC & HP & HSm & Hv2 & Hv1 & Ha & Hc).
  destruct (RxLay.whole_program v1 v2 (o_stations s1) mx a c [] X prog) as (h & P1 & P2 & P3 & _ & P5 & _).
  { rewrite HP. reflexivity. } { exact HSm. } { exact Hst. } { constructor. } { cbn. lia. } { change RxCode.zob with zob. change (zl (flat_map string_bytes [])) with 0. lia. } { change RxCode.zob with zob. change (zl (flat_map string_bytes [])) with 0. lia. }
  destruct (whole_code v1 v2 _ mx a c X prog HP HSm Ha Hc) as (D1 & D2 & D3 & D4 & D5 & E & Ez & L1 & L2 & L3 & L4 & L5).
  change RxCode.zob with zob in P2, P3. change (zl (flat_map string_bytes [])) with 0 in P2, P3. rewrite Z.add_0_r in P2, P3.
  rewrite zigzag_st in P5 by exact Hst.
  set (start := 1 + zob v1 + zob v2 + zob (o_stations s1) + 3) in *. set (rs := start + 2) in *. set (q := rs + zl X) in *. set (search := q + 1) in *. set (anyst := search + 1 + zob a) in *. set (jmp := anyst + 1) in *.
  destruct (line_of prog s Hw HS HSm X _ _ HC E) as (l & LN & LK). rewrite Ez in LN. fold q in LN. rewrite <- LK in HFew.
  assert (LL : length l = length (quants s)) by (rewrite <- LK; unfold kinds; rewrite map_length; reflexivity).
  assert (L1' : (1 <= length l)%nat) by (rewrite LL; destruct s; [contradiction|cbn; lia]).
  intros f g t off Hf Ho. rewrite <- LL in Hf, HN.
  assert (Hlim : Z.of_nat (length l) + 3 <= h_stations h) by (rewrite P5; lia).
  unfold match_at, match_after. rewrite P1. cbn [obind]. rewrite P2, P3. split.
  - destruct (match_from_ok prog h t g (look prog h t g f f) _ f _ start
      (plain_cert prog q D2 rs start search anyst jmp l LN HFew D1 D3 D4 D5 ltac:(lia) ltac:(lia) ltac:(lia) f _ start Hf Hlim (or_introl eq_refl)) f off (le_n f) Ho) as (y & ->). cbn [obind]. eauto.
  - destruct (match_from_ok prog h t g (look prog h t g f f) _ f _ search
      (plain_cert prog q D2 rs start search anyst jmp l LN HFew D1 D3 D4 D5 ltac:(lia) ltac:(lia) ltac:(lia) f _ search Hf Hlim (or_intror eq_refl)) f off (le_n f) Ho) as (y & ->). cbn [obind]. eauto.
Qed.
