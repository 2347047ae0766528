(** Patterns without quantifiers, alternatives and groups: their programs, and
    the certificate (RxCheck.v) that matching them returns. *)
From Coq Require Import Sorting.Permutation.
From Verif Require Import Base UTF8Model CharModel RxCompModel RxModel RxSpec RxVm RxScan RxGen RxProg RxCheck.
From Verif Require RxSpell RxSpellSpec RxLay.

(** A sequence of characters, [.], classes, \s \d \h, ^ and $, each once. *)
Definition straight_item (i : item) : Prop :=
  match i with
  | ItBol | ItEol => True
  | It a q => q = QOne /\ match a with AGroup _ _ => False | _ => True end
  end.
Fixpoint straight_sq (s : sq) : Prop :=
  match s with SNil => True | SCons i s => straight_item i /\ straight_sq s end.
Definition straight (r : rx) : Prop := match r with XSeq s => straight_sq s | XAlt _ _ => False end.
(** How many items it has. *)
Fixpoint items (s : sq) : nat := match s with SNil => O | SCons _ s => S (items s) end.
Definition size (r : rx) : nat := match r with XSeq s => items s | XAlt _ _ => O end.

(** ** Their code *)
Definition piece (i : item) : bool * list Z :=
  match i with
  | ItBol => (true, [94])
  | ItEol => (true, [36])
  | It (AChar c) _ => (false, 67 :: UTF8Put c)
  | It AAny _ => (false, [46])
  | It (AClass neg l) _ => (false, (if neg : bool then 78 else 76) :: string_bytes (class_text l))
  | It (AProp c) _ => (false, 80 :: string_bytes [c])
  | It (AGroup _ _) _ => (false, [])
  end.
Fixpoint pieces (s : sq) : list (bool * list Z) :=
  match s with SNil => [] | SCons i s => piece i :: pieces s end.
Definition codes (l : list (bool * list Z)) : list Z := flat_map snd l.

Section Gen.
Variables (M cap : nat) (st : Z) (nm : list (list Z)).
Notation run := (run M cap st nm).
Ltac start H := unfold second_pass in H; cbv zeta in H; apply obind_ok in H; destruct H as (? & _ & H).
Lemma item_line i : straight_item i -> forall w w' d, run (fst (toks_item i d)) w = Ok w' ->
  w_buf w' ++ lit (snd (toks_item i d)) = w_buf w ++ lit d ++ snd (piece i) /\ w_stack w' = w_stack w.
Proof.
  destruct i as [| |a q]; intros HS w w' d H.
  - cbn [toks_item fst snd] in *. apply run_app in H. destruct H as (w1 & H1 & H). apply flush_ok in H1. destruct H1 as [F1 F2].
    apply run_one in H. destruct H as (r & H & <-). start H. apply plain_ok in H. destruct H as (A & B & _).
    split; [|congruence]. rewrite A, F1. cbn [lit flat_map piece snd]. rewrite app_nil_r, <- app_assoc. reflexivity.
  - cbn [toks_item fst snd] in *. apply run_app in H. destruct H as (w1 & H1 & H). apply flush_ok in H1. destruct H1 as [F1 F2].
    apply run_one in H. destruct H as (r & H & <-). start H. apply plain_ok in H. destruct H as (A & B & _).
    split; [|congruence]. rewrite A, F1. cbn [lit flat_map piece snd]. rewrite app_nil_r, <- app_assoc. reflexivity.
  - destruct HS as [-> Ha]. destruct a as [c| |neg l|c|]; [| | | |destruct Ha].
    + cbn [toks_item fst snd run] in *. assert (w' = w) by congruence. subst. split; [|reflexivity]. rewrite lit_app. cbn [lit flat_map piece snd]. rewrite app_nil_r. reflexivity.
    + cbn [toks_item fst snd toks_atom rep_toks] in *. apply run_app in H. destruct H as (w1 & H1 & H). apply flush_ok in H1. destruct H1 as [F1 F2]. rewrite app_nil_r in H.
      apply run_one in H. destruct H as (r & H & <-). start H. apply plain_ok in H. destruct H as (A & B & _).
      split; [|congruence]. rewrite A, F1. cbn [lit flat_map piece snd]. rewrite app_nil_r, <- app_assoc. reflexivity.
    + cbn [toks_item fst snd toks_atom rep_toks] in *. apply run_app in H. destruct H as (w1 & H1 & H). apply flush_ok in H1. destruct H1 as [F1 F2]. rewrite app_nil_r in H.
      apply run_one in H. destruct H as (r & H & <-). start H. apply plain_ok in H. destruct H as (A & B & _).
      split; [|congruence]. rewrite A, F1. cbn [lit flat_map piece snd]. rewrite app_nil_r, <- app_assoc. reflexivity.
    + cbn [toks_item fst snd toks_atom rep_toks] in *. apply run_app in H. destruct H as (w1 & H1 & H). apply flush_ok in H1. destruct H1 as [F1 F2]. rewrite app_nil_r in H.
      apply run_one in H. destruct H as (r & H & <-). start H. apply plain_ok in H. destruct H as (A & B & _).
      split; [|congruence]. rewrite A, F1. cbn [lit flat_map piece snd]. rewrite app_nil_r, <- app_assoc. reflexivity.
Qed.
Lemma sq_line s : straight_sq s -> forall w w' d, run (fst (toks_sq s d)) w = Ok w' ->
  w_buf w' ++ lit (snd (toks_sq s d)) = w_buf w ++ lit d ++ codes (pieces s) /\ w_stack w' = w_stack w.
Proof.
  induction s as [|i s IH]; intros HS w w' d H.
  - cbn [toks_sq fst snd run] in *. assert (w' = w) by congruence. subst. cbn [pieces codes flat_map]. rewrite app_nil_r. auto.
  - destruct HS as [Hi HS]. cbn [toks_sq fst snd] in *. apply run_app in H. destruct H as (w1 & H1 & H).
    destruct (item_line i Hi _ _ _ H1) as [A B]. destruct (IH HS _ _ _ H) as [A' B'].
    split; [|congruence]. rewrite A', app_assoc, A. cbn [pieces codes flat_map]. rewrite <- !app_assoc. reflexivity.
Qed.
End Gen.

(** ** The states that the first pass counts *)
Fixpoint atoms (l : list (bool * list Z)) : Z := match l with [] => 0 | x :: l => (if fst x then 0 else 1) + atoms l end.
Definition plain_tok (x : token) : Prop :=
  match x with TLit _ | TBOL | TEOL | TAny | TClass _ _ | TProp _ | TAccept => True | _ => False end.
Definition states_of (x : token) : Z := match x with TLit l => nbytes l | _ => 1 end.
Definition states_all (ts : list token) : Z := fold_right (fun x n => states_of x + n) 0 ts.
Lemma states_app a b : states_all (a ++ b) = states_all a + states_all b.
Proof. induction a as [|x a IH]; [reflexivity|]. cbn [app states_all fold_right]. fold (states_all (a ++ b)) (states_all a). lia. Qed.
Lemma first_states ts : forall s m s' m', Forall plain_tok ts -> pass first_pass (map Tok ts) s m = Ok (s', m', true) -> o_stations s' = o_stations s + states_all ts.
Proof.
  induction ts as [|x ts IH]; intros s m s' m' HP H; cbn [map pass] in H.
  - assert (s' = s) by congruence. subst. cbn. lia.
  - apply Forall_cons_iff in HP. destruct HP as [Hx HP]. apply obind_ok in H. destruct H as (r & E & H). destruct r as [[s1 m1] ok].
    destruct ok; [|discriminate H]. specialize (IH _ _ _ _ HP H). cbn [states_all fold_right]. fold (states_all ts).
    assert (o_stations s1 = o_stations s + states_of x).
    { destruct x; try contradiction; cbn [first_pass] in E; unfold add1 in E; inversion E; subst; cbn [o_stations set_stack states_of]; lia. }
    lia.
Qed.
Lemma nbytes_app a b : nbytes (a ++ b) = nbytes a + nbytes b.
Proof. unfold nbytes. induction a as [|x a IH]; cbn [app fold_right]; lia. Qed.
Lemma flush_states d : Forall plain_tok (flush' d) /\ states_all (flush' d) = nbytes d.
Proof. destruct d as [|c d]; cbn [flush']; [split; [constructor|reflexivity]|]. split; [repeat constructor|]. cbn [states_all fold_right states_of]. lia. Qed.
Lemma item_states i : straight_item i -> forall d, Forall plain_tok (fst (toks_item i d)) /\
  nbytes d + (if fst (piece i) then 0 else 1) <= states_all (fst (toks_item i d)) + nbytes (snd (toks_item i d)).
Proof.
  destruct (flush_states []) as [_ N0].
  assert (G : forall d x b, plain_tok x -> b = true \/ b = false -> (1 <= states_of x) -> Forall plain_tok (flush' d ++ [x]) /\ nbytes d + (if b : bool then 0 else 1) <= states_all (flush' d ++ [x]) + nbytes []).
  { intros d x b Hx _ H1. destruct (flush_states d) as [F1 F2]. split; [apply Forall_app; auto|].
    rewrite states_app, F2. cbn [states_all fold_right]. cbn [nbytes fold_right]. destruct b; lia. }
  destruct i as [| |a q]; intros HS d.
  - cbn [toks_item fst snd piece]. apply (G d TBOL true); auto. cbn. lia.
  - cbn [toks_item fst snd piece]. apply (G d TEOL true); auto. cbn. lia.
  - destruct HS as [-> Ha]. destruct a as [c| |neg l|c|]; [| | | |destruct Ha]; cbn [toks_item fst snd piece toks_atom rep_toks]; rewrite ?app_nil_r.
    + split; [constructor|]. rewrite nbytes_app. cbn [states_all fold_right nbytes]. pose proof (blen_range c). lia.
    + apply (G d TAny false); auto. cbn. lia.
    + apply (G d (TClass neg (class_text l)) false); try exact Logic.I; auto; cbn; lia.
    + apply (G d (TProp [c]) false); try exact Logic.I; auto; cbn; lia.
Qed.
Lemma sq_states s : straight_sq s -> forall d, Forall plain_tok (fst (toks_sq s d)) /\
  nbytes d + atoms (pieces s) <= states_all (fst (toks_sq s d)) + nbytes (snd (toks_sq s d)).
Proof.
  induction s as [|i s IH]; intros HS d; cbn [toks_sq fst snd pieces atoms].
  - split; [constructor|]. cbn [states_all fold_right]. lia.
  - destruct HS as [Hi HS]. destruct (item_states i Hi d) as [A B]. destruct (IH HS (snd (toks_item i d))) as [A' B'].
    split; [apply Forall_app; auto|]. rewrite states_app. lia.
Qed.

(** ** The stations of the code *)
Fixpoint ends (p : Z) (l : list (bool * list Z)) : list (bool * Z) :=
  match l with
  | [] => []
  | x :: l => (fst x, p + zl (snd x)) :: ends (p + zl (snd x)) l
  end.
Section Line.
Variable P : list Z.
Fixpoint line (s : Z) (l : list (bool * Z)) (q : Z) : Prop :=
  match l with
  | [] => s = q
  | (b, n) :: l =>
    (if b : bool then decode P s = Ok (IBOL n) \/ decode P s = Ok (IEOL n)
     else exists x, decode P s = Ok x /\ terminal_next x = Some (Some n)) /\ line n l q
  end.
Lemma line_of s : wf_sq s -> straight_sq s -> small P -> forall pre post, P = pre ++ codes (pieces s) ++ post ->
  line (zl pre) (ends (zl pre) (pieces s)) (zl pre + zl (codes (pieces s))).
Proof.
  intros HW HS SM. induction s as [|i s IH]; intros pre post HP; cbn [pieces codes flat_map ends line].
  - cbn [zl length Z.of_nat]. lia.
  - destruct HW as [Hwi HW]. destruct HS as [Hi HS]. cbn [pieces codes flat_map] in HP. fold (codes (pieces s)) in *.
    split.
    + destruct i as [| |a q]; cbn [piece fst snd] in *.
      * left. unfold decode. rewrite HP at 1. rewrite <- app_assoc. cbn [app]. rewrite rdZ_mid by reflexivity. reflexivity.
      * right. unfold decode. rewrite HP at 1. rewrite <- app_assoc. cbn [app]. rewrite rdZ_mid by reflexivity. reflexivity.
      * destruct Hi as [-> Ha]. destruct a as [c| |neg l|c|]; [| | | |destruct Ha]; cbn [fst snd wf_item wf_atom] in *.
        -- eexists. split; [eapply decode_char; [rewrite <- app_assoc in HP; exact HP|exact Hwi]|reflexivity].
        -- exists (IAny (zl pre + 1)). split; [|reflexivity]. unfold decode. rewrite HP at 1. rewrite <- app_assoc. cbn [app]. rewrite rdZ_mid by reflexivity. reflexivity.
        -- destruct Hwi as [Hne Hl]. apply class_text_ok in Hl. rewrite <- app_assoc in HP. pose proof (decode_text _ _ _ _ _ HP SM Hl) as E.
           exists (IClass neg (class_text l) (zl pre + zl ((if neg then 78 else 76) :: string_bytes (class_text l)))). split.
           ++ unfold decode. rewrite HP at 1. cbn [app]. rewrite rdZ_mid by reflexivity. cbn [obind]. destruct neg; cbn [Z.eqb Pos.eqb]; rewrite E; reflexivity.
           ++ destruct l as [|[lo hi] l]; [contradiction|reflexivity].
        -- assert (Hl : Forall ok_char [c]) by (repeat constructor; lia). rewrite <- app_assoc in HP. pose proof (decode_text _ _ _ _ _ HP SM Hl) as E.
           exists (IProp [c] (zl pre + zl (80 :: string_bytes [c]))). split; [|reflexivity].
           unfold decode. rewrite HP at 1. cbn [app]. rewrite rdZ_mid by reflexivity. cbn [obind Z.eqb Pos.eqb]. rewrite E. reflexivity.
    + specialize (IH HW HS (pre ++ snd (piece i)) post). rewrite zl_app in IH. rewrite zl_app, Z.add_assoc. apply IH. rewrite HP, <- !app_assoc. reflexivity.
Qed.

(** Where a thread from a station comes to rest, and the states that are tested
    for duplicates (by [arr]: or not) after the station. *)
Fixpoint tgt (s : Z) (l : list (bool * Z)) : Z :=
  match l with (true, n) :: l => tgt n l | _ => s end.
Definition arr (s : Z) (l : list (bool * Z)) : list Z * list Z :=
  match l with (true, _) :: _ => ([], [tgt s l]) | _ => ([s], []) end.
Fixpoint rest (s : Z) (l : list (bool * Z)) : list Z * list Z :=
  match l with
  | [] => ([], [])
  | (true, n) :: l => rest n l
  | (false, n) :: l => (fst (arr n l) ++ fst (rest n l), snd (arr n l) ++ snd (rest n l))
  end.
Fixpoint terms (s : Z) (l : list (bool * Z)) : list Z :=
  match l with
  | [] => [s]
  | (true, n) :: l => terms n l
  | (false, n) :: l => s :: terms n l
  end.
Variable q : Z.
Hypothesis HQ : decode P q = Ok IAccept.
Lemma terms_all l : forall s, Permutation (terms s l) (tgt s l :: fst (rest s l) ++ snd (rest s l)).
Proof.
  induction l as [|[[] n] l IH]; intros s; cbn [terms tgt rest fst snd app]; [reflexivity|apply IH|].
  constructor. rewrite (IH n). destruct l as [|[[] m] l]; cbn [arr fst snd app tgt].
  - reflexivity.
  - apply Permutation_middle.
  - reflexivity.
Qed.
Lemma goes_line l : forall f s sh, line s l q -> (length l < f)%nat -> goes P f false s sh = Some ([], [tgt s l]).
Proof.
  induction l as [|[[] n] l IH]; intros f s sh HL Hf; cbn [line length] in *; (destruct f as [|f]; [lia|]); rewrite goesS.
  - subst s. rewrite HQ. reflexivity.
  - destruct HL as [HD HL]. cbn [tgt]. destruct HD as [-> | ->]; apply IH; auto; lia.
  - destruct HL as [(x & -> & T) HL]. cbn [tgt]. destruct x; try discriminate T; rewrite T; reflexivity.
Qed.
Lemma adds_line l f s : line s l q -> (length l + 2 < f)%nat -> adds P f s [] = Some (arr s l).
Proof.
  intros HL Hf. destruct f as [|[|f]]; [lia..|]. rewrite addsS. cbn [existsb length Nat.ltb]. replace (1 <=? RxMaxNesting)%nat with true by reflexivity. rewrite goesS.
  destruct l as [|[[] n] l]; cbn [line length arr] in *.
  - subst s. rewrite HQ. reflexivity.
  - destruct HL as [HD HL]. cbn [tgt]. destruct HD as [-> | ->]; apply goes_line; auto; lia.
  - destruct HL as [(x & -> & T) HL]. destruct x; try discriminate T; rewrite T; reflexivity.
Qed.
Lemma terms_next l : forall f s, line s l q -> (length l + 2 < f)%nat -> forall x, In x (terms s l) -> exists r c, next_adds P f x = Some (r, c) /\ incl r (fst (rest s l)).
Proof.
  induction l as [|[[] n] l IH]; intros f s HL Hf x Hx; cbn [line length terms rest fst snd] in *.
  - destruct Hx as [<-|[]]. subst s. unfold next_adds. rewrite HQ. exists [], []. split; [reflexivity|intros ? []].
  - apply (IH f n); [apply HL|lia|exact Hx].
  - destruct HL as [(y & D & T) HL]. destruct Hx as [<-|Hx].
    + unfold next_adds. rewrite D, T, (adds_line l f n HL) by lia. exists (fst (arr n l)), (snd (arr n l)). split; [destruct (arr n l); reflexivity|].
      intros z Hz. apply in_or_app. auto.
    + destruct (IH f n HL ltac:(lia) x Hx) as (r & c & A & B). exists r, c. split; [exact A|]. intros z Hz. apply in_or_app. right. apply B, Hz.
Qed.
Lemma terms_snds l : forall f s, line s l q -> (length l + 2 < f)%nat -> flat_map (snds P f) (terms s l) = snd (rest s l).
Proof.
  induction l as [|[[] n] l IH]; intros f s HL Hf; cbn [line length terms rest fst snd flat_map] in *.
  - subst s. unfold snds, next_adds. rewrite HQ. reflexivity.
  - apply IH; [apply HL|lia].
  - destruct HL as [(y & D & T) HL]. rewrite (IH f n HL) by lia. f_equal. unfold snds, next_adds. rewrite D, T, (adds_line l f n HL) by lia. destruct (arr n l). reflexivity.
Qed.
Fixpoint waits (l : list (bool * Z)) : Z := match l with [] => 0 | x :: l => (if fst x then 0 else 1) + waits l end.
Lemma terms_length l : forall s, Z.of_nat (length (terms s l)) = waits l + 1.
Proof. induction l as [|[[] n] l IH]; intros s; cbn [terms length waits fst]; [lia|rewrite IH; lia|rewrite Nat2Z.inj_succ, IH; lia]. Qed.

(** The certificate. *)
Variables (rs start search anyst jmp : Z) (l : list (bool * Z)).
Hypotheses (HL : line rs l q) (D1 : decode P start = Ok (ICapStart 0 rs)) (D2 : decode P search = Ok (ISplit start anyst))
  (D3 : decode P anyst = Ok (IAny jmp)) (D4 : decode P jmp = Ok (IJump search)).
Hypotheses (N1 : start < search) (N2 : search < anyst) (N3 : anyst < jmp).
Lemma adds_start f sh : (length l + 4 < f)%nat -> (length sh < RxMaxNesting)%nat -> ~ In start sh -> adds P f start sh = Some ([], [tgt rs l]).
Proof using HQ HL D1.
  intros Hf Hs Hn. destruct f as [|[|f]]; [lia..|]. rewrite addsS. replace (existsb (Z.eqb start) sh) with false.
  2:{ symmetry. apply not_true_is_false. intros E. apply existsb_exists in E as (y & Y & E). apply Z.eqb_eq in E. subst y. contradiction. }
  apply Nat.ltb_lt in Hs. rewrite Hs, goesS, D1. cbn [Z.eqb]. apply goes_line; [exact HL|lia].
Qed.
Lemma adds_any f sh : (length l + 4 < f)%nat -> (length sh < RxMaxNesting)%nat -> ~ In anyst sh -> adds P f anyst sh = Some ([anyst], []).
Proof using D3.
  intros Hf Hs Hn. destruct f as [|[|f]]; [lia..|]. rewrite addsS. replace (existsb (Z.eqb anyst) sh) with false.
  2:{ symmetry. apply not_true_is_false. intros E. apply existsb_exists in E as (y & Y & E). apply Z.eqb_eq in E. subst y. contradiction. }
  apply Nat.ltb_lt in Hs. rewrite Hs, goesS, D3. reflexivity.
Qed.
Lemma split_any f root sh : (length l + 6 < f)%nat -> (length sh < RxMaxNesting)%nat -> ~ In start sh -> ~ In anyst sh ->
  goes P f root search sh = Some ([anyst], [tgt rs l]).
Proof.
  intros Hf Hs A B. destruct f as [|f]; [lia|]. rewrite goesS, D2, adds_start, adds_any by (assumption || lia). reflexivity.
Qed.
Lemma straight_cert f limit from : (length l + 9 < f)%nat -> waits l + 2 <= limit -> from = start \/ from = search ->
  certified P f limit from (anyst :: fst (rest rs l)) (tgt rs l :: snd (rest rs l)).
Proof.
  intros Hf Hlim Hfrom.
  assert (NA : next_adds P f anyst = Some ([anyst], [tgt rs l])).
  { unfold next_adds. rewrite D3. cbn [terminal_next]. destruct f as [|[|[|f]]]; [lia..|]. rewrite addsS. cbn [existsb length]. replace (0 <? RxMaxNesting)%nat with true by reflexivity.
    rewrite goesS, D4. apply split_any; [lia|cbn; unfold RxMaxNesting; lia| |]; intros [X|[]]; lia. }
  assert (PT := terms_all l rs).
  constructor.
  - destruct Hfrom as [-> | ->].
    + exists [], [tgt rs l]. split; [apply adds_start; [lia|cbn; unfold RxMaxNesting; lia|intros []]|]. split; [intros ? []|].
      exists (snd (rest rs l)). reflexivity.
    + exists [anyst], [tgt rs l]. split; [|split; [intros x [<-|[]]; left; reflexivity|exists (snd (rest rs l)); reflexivity]].
      destruct f as [|f]; [lia|]. rewrite addsS. cbn [existsb length]. replace (0 <? RxMaxNesting)%nat with true by reflexivity.
      apply split_any; [lia|cbn; unfold RxMaxNesting; lia| |]; intros [X|[]]; lia.
  - intros s Hs. assert (Hs' : s = anyst \/ In s (terms rs l)).
    { assert (Q : In s (tgt rs l :: fst (rest rs l) ++ snd (rest rs l)) -> In s (terms rs l)) by (apply Permutation_in; symmetry; exact PT).
      cbn [In] in *. rewrite in_app_iff in Q. intuition. }
    destruct Hs' as [-> |Hs'].
    + exists [anyst], [tgt rs l]. split; [exact NA|]. intros x [<-|[]]. left. reflexivity.
    + destruct (terms_next l f rs HL ltac:(lia) s Hs') as (r & c & A & B). exists r, c. split; [exact A|]. intros z Hz. right. apply B, Hz.
  - assert (Q : Permutation (flat_map (snds P f) (anyst :: fst (rest rs l)) ++ flat_map (snds P f) (tgt rs l :: snd (rest rs l))) (tgt rs l :: snd (rest rs l))).
    { rewrite <- flat_map_app. transitivity (flat_map (snds P f) (anyst :: terms rs l)).
      - apply Permutation_flat_map. cbn [app]. constructor. rewrite PT. symmetry. apply Permutation_middle.
      - cbn [flat_map]. rewrite terms_snds by (assumption || lia). unfold snds. rewrite NA. reflexivity. }
    eapply sub_perm; [exact Q|apply sub_refl].
  - pose proof (terms_length l rs) as TL. apply Permutation_length in PT. cbn [length] in *. rewrite app_length in PT. lia.
Qed.
End Line.
Lemma ends_waits l : forall p, waits (ends p l) = atoms l.
Proof. induction l as [|x l IH]; intros p; [reflexivity|]. cbn [ends waits atoms fst]. rewrite IH. reflexivity. Qed.
Lemma ends_length l : forall p, length (ends p l) = length l.
Proof. induction l as [|x l IH]; intros p; [reflexivity|]. cbn [ends length]. rewrite IH. reflexivity. Qed.

(** ** Their programs *)
Section Whole.
Variables (M cap : nat) (st : Z).
Hypothesis HM : (M = 1 /\ cap <= 64)%nat \/ (M = 2 /\ cap <= 1024)%nat.
Hypothesis Hst : 0 <= st < 2^29.
Lemma whole_straight s mx w P : straight_sq s -> run M cap st [] (all_toks (XSeq s)) (mktwo [] [] mx 0 0) = Ok w -> app_bytes cap (w_buf w) [0] = Ok P ->
  exists v1 v2 mx' a c, P = whole v1 v2 st mx' a c (codes (pieces s)) /\ small P /\
    v2 = zob v2 + zob st + 3 /\
    v1 = zob v1 + zob v2 + zob st + 3 + 2 + zl (codes (pieces s)) + 1 /\
    a = - (zl (codes (pieces s)) + 4) /\ c = - (zob a + 3).
Proof.
  intros Hw H HP. set (r := XSeq s) in *. set (X := codes (pieces s)) in *. unfold all_toks in H. change (TStart :: fst (toks r []) ++ flush' (snd (toks r [])) ++ [TAccept]) with ([TStart] ++ fst (toks r []) ++ flush' (snd (toks r [])) ++ [TAccept]) in H.
  apply run_app in H. destruct H as (w1 & H1 & H). apply run_app in H. destruct H as (w2 & H2 & H). apply run_app in H. destruct H as (w3 & H3 & H).
  destruct (start_ok M cap st HM _ _ H1) as (v2 & mx' & fr & B1 & Hv2 & S1 & C1 & J1 & L1).
  destruct (sq_line M cap st [] s Hw w1 w2 [] H2) as [K1 K2]. cbn [lit flat_map app] in K1. fold X in K1.
  apply flush_ok in H3. destruct H3 as [F1 F2].
  apply run_one in H. destruct H as (rr & H & Ew). pose proof (fits_before M cap st [] HM TAccept w3 rr H) as HBf. unfold second_pass in H; cbv zeta in H. bind H u Eu. clear Eu.
  rewrite F2, K2, S1 in H. unfold fixup in H. rewrite J1 in H. cbn [obind] in H.
  assert (A : w_buf w3 = w_buf w1 ++ X) by (rewrite F1; exact K1). clear F1 F2 K1 K2. set (b := w_buf w3) in *.
  bind H b2 E2. apply fits_ok in E2. destruct E2 as [E2 L2].
  set (S := offset_bytes v2 ++ offset_bytes st ++ [mx'; 1; 1] ++ [40; 1] ++ X ++ [35]).
  assert (Hb2 : b2 = [83] ++ padded M 0 ++ S ++ []).
  { rewrite E2, A, B1, app_nil_r. unfold S. norm_app; cbn [app]; norm_app; cbn [app]; norm_app. }
  bind H p Ep.
  destruct (patch_fwd M cap HM [83] (padded M 0) S [] b2 1%nat (length b2) p Hb2) as (v1 & F1 & F2 & F3 & F4).
  { exact (padded_len M cap HM 0). } { reflexivity. } { rewrite Hb2, !app_length, (padded_len M cap HM). cbn [length]. lia. } { cbn; lia. } { rewrite E2. exact L2. } { exact Ep. }
  rewrite app_nil_r in F1. rewrite F1, F3 in H.
  replace (1 + M - (M - length (offset_bytes v1)))%nat with (1 + length (offset_bytes v1))%nat in H by lia.
  bind H gg Eg.
  assert (Hv2b : - 2^30 < v2 < 2^30).
  { pose proof (ob_len v2) as Q. unfold zob in Hv2. assert (length (offset_bytes v2) <= 1024)%nat.
    { rewrite B1 in L1. cbn [length] in L1. rewrite !app_length in L1. lia. }
    assert (length (offset_bytes st) <= 1024)%nat.
    { rewrite B1 in L1. cbn [length] in L1. rewrite !app_length in L1. lia. }
    unfold zl in Hv2. lia. }
  rewrite app_assoc, skipn_len in Eg by (rewrite app_length; reflexivity). unfold S in Eg. unfold offset_bytes at 1 in Eg.
  rewrite get_put in Eg by (apply zigzag_range, Hv2b). assert (Hgg : fst gg = zigzag v2) by (inversion Eg; reflexivity). rewrite Hgg, zagzig_zigzag in H by exact Hv2b.
  bind H b3 E3. apply fits_ok in E3. destruct E3 as [E3 _]. bind H b4 E4. apply fits_ok in E4. destruct E4 as [E4 _].
  bind H b5 E5. apply fits_ok in E5. destruct E5 as [E5 _]. bind H b6 E6. apply fits_ok in E6. destruct E6 as [E6 _].
  apply done_ok in H. destruct H as (Er & _ & _ & _). rewrite Er in Ew. subst w. cbn [w_buf] in HP. apply fits_ok in HP. destruct HP as [HP LP].
  set (a := Z.of_nat (1 + length (offset_bytes v1)) + v2 - Z.of_nat (length b3)) in *.
  set (c := Z.of_nat (length ([83] ++ offset_bytes v1 ++ S)) - Z.of_nat (length b5)) in *.
  exists v1, v2, mx', a, c. split; [|split; [|split; [exact Hv2|split; [|split]]]].
  - rewrite HP, E6, E5, E4, E3. unfold whole, S. norm_app; cbn [app]; norm_app; cbn [app]; norm_app.
  - unfold small, zl. rewrite HP. lia.
  - unfold S in F2. rewrite !zl_app in F2. change (zl [mx'; 1; 1]) with 3 in F2. change (zl [40; 1]) with 2 in F2. change (zl [35]) with 1 in F2. unfold zob. lia.
  - unfold a. rewrite E3. unfold S. rewrite !app_length. cbn [length]. unfold zob, zl in *. lia.
  - unfold c. rewrite E5, E4, E3. rewrite !app_length. cbn [length]. unfold zob, zl. lia.
Qed.
End Whole.
Lemma zigzag_st st : 0 <= st < 2^29 -> s32 (zigzag st) = 2 * st.
Proof.
  intros H. rewrite zigzag_eq by lia. destruct (Z.ltb_spec st 0); [lia|]. rewrite Z.abs_eq by lia.
  unfold s32. rewrite Z.mod_small by lia. destruct (Z.ltb_spec (2 * st + 0) 2147483648); lia.
Qed.
Lemma straight_returns s re prog m : wf (XSeq s) -> straight_sq s -> RxSpellSpec.written (XSeq s) re -> short_program AllFeatures 0 re ->
  compile AllFeatures 0 re = Ok (Some prog, m) -> forall f g t off, (length (pieces s) + 9 < f)%nat -> 0 <= off ->
  (exists res, match_at f g prog t off = Ok res) /\ exists res, match_after f g prog t off = Ok res.
Proof.
  intros Hw HS HW HL H. unfold compile in H. cbv zeta in H. bind H es Es. unfold short_program, counted in HL. rewrite Es in HL. change (Z.land AllFeatures (Z.lnot 0)) with AllFeatures in Es. rewrite (RxSpell.scan_written _ re Hw HW) in Es. assert (es = map Tok (all_toks (XSeq s))) by congruence. subst es.
  bind H x Ex. destruct x as [[s1 m1] ok]. destruct ok; [|discriminate H]. cbn [negb] in H. destruct (o_stack s1) eqn:Estk; [|discriminate H]. rewrite Ex, Estk in HL. specialize (HL _ _ _ eq_refl).
  destruct (cost_toks _ Hw) as [HK _].
  destruct (first_all _ _ _ _ _ HK Ex) as ((B1 & B2 & B3 & B4 & _) & _).
  { unfold one_ok. cbn. repeat split; try lia. constructor. }
  assert (HN : atoms (pieces s) + 1 <= o_stations s1).
  { unfold all_toks in Ex. cbn [map pass] in Ex. apply obind_ok in Ex. destruct Ex as (r0 & E0 & Ex). destruct r0 as [[s0 m0] ok]. destruct ok; [|discriminate Ex].
    destruct (sq_states s HS []) as [Q1 Q2]. destruct (flush_states (snd (toks_sq s []))) as [Q3 Q4].
    apply first_states in Ex; [|cbn [toks]; apply Forall_app; split; [exact Q1|apply Forall_app; split; [exact Q3|repeat constructor]]].
    cbn [toks] in Ex. rewrite !states_app, Q4 in Ex. cbn [states_all fold_right states_of nbytes] in Ex, Q2.
    assert (o_stations s0 = 0) by (cbn [first_pass] in E0; unfold add1 in E0; inversion E0; reflexivity). unfold states_all in *. lia. }
  pose proof (sizes (o_bytes s1) (o_offsets s1) B1 B2 ltac:(lia)) as HM.
  set (M := offset_max_bytes (o_bytes s1) (o_offsets s1)) in *. set (cap := Z.to_nat (allocated (o_bytes s1) (o_offsets s1) + 1)) in *.
  bind H y Ey. destruct y as [[w m2] ok2]. apply pass_run in Ey. cbn [fst snd] in Ey. destruct Ey as (Er & -> & ->). rewrite B4 in Er.
  bind H b Eb. assert (b = prog) by congruence. subst b.
  assert (Hst : 0 <= o_stations s1 < 2^29) by lia.
  destruct (whole_straight M cap (o_stations s1) HM s _ w prog HS Er Eb) as (v1 & v2 & mx & a & c & HP & HSm & Hv2 & Hv1 & Ha & Hc).
  set (X := codes (pieces s)) in *.
  destruct (RxLay.whole_program v1 v2 (o_stations s1) mx a c [] X prog) as (h & P1 & P2 & P3 & _ & P5 & _).
  { rewrite HP. reflexivity. } { exact HSm. } { exact Hst. } { constructor. } { cbn. lia. } { change RxCode.zob with zob. change (zl (flat_map string_bytes [])) with 0. lia. } { change RxCode.zob with zob. change (zl (flat_map string_bytes [])) with 0. lia. }
  destruct (whole_code v1 v2 _ mx a c X prog HP HSm Ha Hc) as (D1 & D2 & D3 & D4 & D5 & E & Ez & L1 & L2 & L3 & L4 & L5).
  change RxCode.zob with zob in P2, P3. change (zl (flat_map string_bytes [])) with 0 in P2, P3. rewrite Z.add_0_r in P2, P3.
  rewrite zigzag_st in P5 by exact Hst.
  set (start := 1 + zob v1 + zob v2 + zob (o_stations s1) + 3) in *. set (rs := start + 2) in *. set (q := rs + zl X) in *. set (search := q + 1) in *. set (anyst := search + 1 + zob a) in *. set (jmp := anyst + 1) in *.
  pose proof (line_of prog s Hw HS HSm _ _ E) as LN. rewrite Ez in LN. fold X q in LN.
  intros f g t off Hf Ho.
  assert (Hf' : (length (ends rs (pieces s)) + 9 < f)%nat) by (rewrite ends_length; exact Hf).
  assert (Hlim : waits (ends rs (pieces s)) + 2 <= h_stations h).
  { rewrite ends_waits, P5. assert (A0 : forall l, 0 <= atoms l) by (induction l as [|y l IHl]; cbn [atoms]; [lia|destruct (fst y); lia]). specialize (A0 (pieces s)). lia. }
  unfold match_at, match_after. rewrite P1. cbn [obind]. rewrite P2, P3. split.
  - destruct (match_from_ok prog h t g (look prog h t g f f) _ f _ start
      (straight_cert prog q D2 rs start search anyst jmp _ LN D1 D3 D4 D5 ltac:(lia) ltac:(lia) ltac:(lia) f _ start Hf' Hlim (or_introl eq_refl)) f off (le_n f) Ho) as (y & ->). cbn [obind]. eauto.
  - destruct (match_from_ok prog h t g (look prog h t g f f) _ f _ search
      (straight_cert prog q D2 rs start search anyst jmp _ LN D1 D3 D4 D5 ltac:(lia) ltac:(lia) ltac:(lia) f _ search Hf' Hlim (or_intror eq_refl)) f off (le_n f) Ho) as (y & ->). cbn [obind]. eauto.
Qed.
Lemma pieces_items s : length (pieces s) = items s.
Proof. induction s as [|i s IH]; [reflexivity|]. cbn [pieces length items]. rewrite IH. reflexivity. Qed.
