(** The program that compile makes from a regular expression. *)
From Verif Require Import Base UTF8Model UTF8Spec UTF8Proofs CharModel RxCompModel RxModel RxSpec RxVm RxScan RxGen RxRun.
From Verif Require RxSpellSpec RxSpell.

(** ** The first pass *)
Lemma blen_range c : 1 <= blen c <= 6.
Proof. unfold blen, UTF8Len. repeat match goal with |- context [if ?b then _ else _] => destruct b end; lia. Qed.
Lemma nbytes_range l : 0 <= nbytes l <= 6 * zl l.
Proof.
  induction l as [|c l IH]; [unfold nbytes, zl; cbn; lia|]. cbn [nbytes fold_right]. fold (nbytes l). rewrite zl_cons. pose proof (blen_range c). lia.
Qed.
Lemma zl_one (c : Z) : zl [c] = 1. Proof. reflexivity. Qed.
(** At most what a token adds: the bytes, and three for each offset *)
Definition cost (x : token) : Z :=
  match x with
  | TStart => 15 | TAccept => 11 | TLit l => 1 + zl l + nbytes l
  | TBOL | TEOL | TAny => 1
  | TClass _ l | TProp l => 1 + string_size l
  | TGroup => 1 | TEnd => 2 | TAlt => 12 | TRep _ _ => 8
  | TNamed _ | TNeg => 0
  end.
Definition costs (ts : list token) : Z := fold_right (fun x n => cost x + n) 0 ts.
Lemma costs_app a b : costs (a ++ b) = costs a + costs b.
Proof. induction a as [|x a IH]; [reflexivity|]. cbn [costs fold_right app] in *. unfold costs in *. lia. Qed.
Lemma string_size_range l : 0 <= string_size l <= 6 + 6 * zl l.
Proof. unfold string_size. pose proof (blen_range (nbytes l)). pose proof (nbytes_range l). lia. Qed.
Lemma cost_pos x : 0 <= cost x.
Proof. destruct x; cbn [cost]; try lia; try (pose proof (string_size_range s); lia). pose proof (nbytes_range s). pose proof (zl_pos s). lia. Qed.

Definition known (x : token) : Prop :=
  match x with TNamed _ | TNeg => False | TRep a b => (a = 0 /\ b = 0) \/ (a = 0 /\ b = 1) \/ (a = 1 /\ b = 0) | _ => True end.
Definition groups (k : list (kind * bool)) : Prop := Forall (fun x => fst x = KStart \/ fst x = KGroup) k.
Definition one_ok (s : one) : Prop := 0 <= o_bytes s /\ 0 <= o_offsets s /\ 0 <= o_stations s <= o_bytes s /\ o_names s = [] /\ groups (o_stack s).

Lemma push1_ok k s s' : push1 k s = Some s' -> k = KStart \/ k = KGroup -> one_ok s -> one_ok s' /\ o_bytes s' = o_bytes s /\ o_offsets s' = o_offsets s /\ o_stations s' = o_stations s.
Proof.
  unfold push1, one_ok, groups. destruct (_ <=? _)%nat; [discriminate|]. intros H Hk (A & B & C & D & E). inversion H; subst; clear H. cbn.
  repeat split; auto; lia.
Qed.
Lemma add1_ok s b o st atom r : add1 s b o st atom = Ok r -> one_ok s -> 0 <= o_bytes s + 1 + b -> 0 <= o -> 0 <= st <= 1 + b ->
  one_ok (fst (fst r)) /\ o_bytes (fst (fst r)) = o_bytes s + 1 + b /\ o_offsets (fst (fst r)) = o_offsets s + o /\ o_stations (fst (fst r)) = o_stations s + st.
Proof.
  unfold add1. intros H (A & B & C & D & E) Hb Ho Hs. inversion H; subst; clear H. cbn [fst snd]. unfold one_ok. cbn. repeat split; auto; lia.
Qed.
Lemma set_stack_ok s k : one_ok s -> groups k -> one_ok (set_stack s k).
Proof. unfold one_ok. cbn. tauto. Qed.

Lemma first_ok x s r : known x -> first_pass x s = Ok r -> snd r = true -> one_ok s ->
  one_ok (fst (fst r)) /\ o_bytes (fst (fst r)) + 3 * o_offsets (fst (fst r)) <= o_bytes s + 3 * o_offsets s + cost x .
Proof.
  intros K H T O. pose proof O as (Ob & Oo & Os & On & Og). destruct x; cbn [first_pass cost known] in *; try contradiction.
  - set (s1 := match push1 KStart s with Some s0 => s0 | None => s end) in *.
    assert (O1 : one_ok s1 /\ o_bytes s1 = o_bytes s /\ o_offsets s1 = o_offsets s).
    { unfold s1. destruct (push1 KStart s) as [s'|] eqn:E; [|auto]. apply push1_ok in E; [tauto|auto|exact O]. }
    destruct O1 as (O1 & E1 & E2). clearbody s1. apply add1_ok in H; try lia.
    + cbn [o_bytes o_offsets o_stations] in H. destruct H as (A & B & C & D). split; [exact A|]. lia.
    + destruct O1 as (? & ? & ? & ? & ?). unfold one_ok. cbn. repeat split; auto; lia.
    + cbn. lia.
  - apply add1_ok in H; try lia.
    + cbn in H. destruct H as (A & B & C & D). split; [exact A|]. lia.
    + apply set_stack_ok; [exact O|]. unfold groups in *. destruct (o_stack s); cbn; [constructor|]. inversion Og; assumption.
    + cbn. lia.
  - apply add1_ok in H; try lia; [|exact O]. destruct H as (A & B & C & D). split; [exact A|]. lia.
  - apply add1_ok in H; try lia; [|exact O]. destruct H as (A & B & C & D). split; [exact A|]. lia.
  - apply add1_ok in H; try lia; [|exact O]. destruct H as (A & B & C & D). split; [exact A|]. lia.
  - pose proof (nbytes_range s0). pose proof (zl_pos s0). apply add1_ok in H; try lia; [|exact O]. destruct H as (A & B & C & D). split; [exact A|]. unfold zl in *. lia.
  - destruct (negb (o_repeatable s)); [unfold fail1 in H; inversion H; subst; discriminate|].
    destruct K as [[-> ->]|[[-> ->]|[-> ->]]]; cbn [Z.gtb Z.compare Pos.compare Pos.compare_cont orb Z.eqb Pos.eqb andb] in H;
      apply add1_ok in H; try lia; try exact O; destruct H as (A & B & C & D); (split; [exact A|]); lia.
  - pose proof (string_size_range s0). apply add1_ok in H; try lia; [|exact O]. destruct H as (A & B & C & D). split; [exact A|]. lia.
  - pose proof (string_size_range s0). apply add1_ok in H; try lia; [|exact O]. destruct H as (A & B & C & D). split; [exact A|]. lia.
  - destruct (o_stack s) as [|[k b] stk] eqn:Ek; [discriminate|]. destruct b.
    + apply add1_ok in H; try (cbn; lia).
      * cbn in H. destruct H as (A & B & C & D). split; [exact A|]. lia.
      * apply set_stack_ok; [exact O|]. unfold groups in *. inversion Og; subst. constructor; assumption.
    + apply add1_ok in H; try lia; [|exact O]. destruct H as (A & B & C & D). split; [exact A|]. lia.
  - destruct (push1 KGroup s) as [s'|] eqn:E; [|unfold fail1 in H; inversion H; subst; discriminate].
    apply push1_ok in E; [|auto|exact O]. destruct E as (O' & E1 & E2 & E3).
    apply add1_ok in H; try lia; [|exact O']. destruct H as (A & B & C & D). split; [exact A|]. lia.
  - destruct (o_stack s) as [|[k b] stk] eqn:Ek; [unfold fail1 in H; inversion H; subst; discriminate|].
    unfold groups in Og. inversion Og as [|? ? Hk Hg]; subst. cbn [fst] in Hk.
    destruct Hk as [-> | ->]; [unfold fail1 in H; inversion H; subst; discriminate|].
    apply add1_ok in H; try (cbn; lia); [|apply set_stack_ok; assumption].
    cbn in H. destruct H as (A & B & C & D). split; [exact A|]. lia.
Qed.
Lemma first_all ts : forall s s' m' m, Forall known ts -> pass first_pass (map Tok ts) s m = Ok (s', m', true) -> one_ok s ->
  one_ok s' /\ o_bytes s' + 3 * o_offsets s' <= o_bytes s + 3 * o_offsets s + costs ts .
Proof.
  induction ts as [|x ts IH]; intros s s' m' m K H O.
  - cbn [map pass] in H. inversion H; subst. cbn. split; [exact O|lia].
  - inversion K; subst. cbn [map pass] in H. bind H r E. destruct r as [[s1 m1] ok]. destruct ok; [|discriminate].
    destruct (first_ok _ _ _ H2 E eq_refl O) as (A & B). cbn [fst snd] in *.
    destruct (IH _ _ _ _ H3 H A) as (A' & B'). split; [exact A'|]. cbn [costs fold_right]. fold (costs ts). lia.
Qed.

(** ** What a pattern costs *)
Definition held (d : list Z) : Z := 8 * zl d.
Lemma held_app a b : held (a ++ b) = held a + held b.
Proof. unfold held. rewrite zl_app. lia. Qed.
Lemma flush_cost d : costs (flush' d) <= held d.
Proof.
  destruct d as [|c d]; [cbn; lia|]. cbn [flush' costs fold_right cost]. pose proof (nbytes_range (c :: d)). unfold held. rewrite zl_cons in *. pose proof (zl_pos d). lia.
Qed.
Lemma held_pos d : 0 <= held d.
Proof. unfold held. pose proof (zl_pos d). lia. Qed.
Lemma rep_cost q : costs (rep_toks q) <= 12 * zl (show_quant q).
Proof. destruct q; cbn; lia. Qed.
Lemma class_cost l : 6 * zl (class_text l) <= 12 * zl (flat_map show_range l).
Proof.
  induction l as [|[a b] l IH]; [cbn; lia|].
  change (class_text ((a, b) :: l)) with (a :: b :: class_text l). change (flat_map show_range ((a, b) :: l)) with (show_range (a, b) ++ flat_map show_range l).
  rewrite zl_app, !zl_cons. assert (1 <= zl (show_range (a, b))); [|lia].
  unfold show_range, show_class_char. cbn [fst snd]. destruct (a =? b); repeat destruct (class_special _); cbn [app]; rewrite ?zl_cons; match goal with |- context [zl ?x] => pose proof (zl_pos x) end; lia.
Qed.
Lemma cost_all :
  (forall r, wf r -> forall d, Forall known (fst (toks r d)) /\ costs (fst (toks r d)) + held (snd (toks r d)) <= held d + 12 * zl (show r)) /\
  (forall s, wf_sq s -> forall d, Forall known (fst (toks_sq s d)) /\ costs (fst (toks_sq s d)) + held (snd (toks_sq s d)) <= held d + 12 * zl (show_sq s)) /\
  (forall i, wf_item i -> forall d, Forall known (fst (toks_item i d)) /\ costs (fst (toks_item i d)) + held (snd (toks_item i d)) <= held d + 12 * zl (show_item i)) /\
  (forall a, wf_atom a -> Forall known (toks_atom a) /\ costs (toks_atom a) <= 12 * zl (show_atom a)).
Proof.
  assert (HK : forall d, Forall known (flush' d)) by (intros []; repeat constructor).
  apply rx_mutind.
  - intros s IH Hw d. exact (IH Hw d).
  - intros s IHs r IHr [Hs Hr] d. cbn [toks show fst snd]. destruct (IHs Hs d) as [K1 C1]. destruct (IHr Hr []) as [K2 C2].
    rewrite !zl_app, !costs_app. split; [repeat (apply Forall_app; split); auto; repeat constructor|].
    pose proof (flush_cost (snd (toks_sq s d))). change (zl [124]) with 1. change (costs [TAlt]) with 12. change (held []) with 0 in C2. lia.
  - intros _ d. cbn. split; [constructor|lia].
  - intros i IHi s IHs [Hi Hs] d. cbn [toks_sq show_sq fst snd]. destruct (IHi Hi d) as [K1 C1]. destruct (IHs Hs (snd (toks_item i d))) as [K2 C2].
    rewrite zl_app, costs_app. split; [apply Forall_app; auto|lia].
  - intros _ d. cbn [toks_item show_item fst snd]. rewrite costs_app. split; [apply Forall_app; split; [apply HK|repeat constructor]|].
    pose proof (flush_cost d). change (zl [94]) with 1. change (costs [TBOL]) with 1. change (held []) with 0. lia.
  - intros _ d. cbn [toks_item show_item fst snd]. rewrite costs_app. split; [apply Forall_app; split; [apply HK|repeat constructor]|].
    pose proof (flush_cost d). change (zl [36]) with 1. change (costs [TEOL]) with 1. change (held []) with 0. lia.
  - intros a IHa q Hw d.
    assert (HT : (exists c, a = AChar c /\ q = QOne) \/ toks_item (It a q) d = (flush' d ++ toks_atom a ++ rep_toks q, [])).
    { destruct a as [c| | | |]; try (right; reflexivity). destruct q; [left; eauto|right; reflexivity..]. }
    destruct HT as [(c & -> & ->)|E].
    + cbn [toks_item show_item fst snd show_atom show_quant]. rewrite held_app, zl_app. split; [constructor|]. change (held [c]) with 8. change (costs []) with 0. change (zl []) with 0.
      assert (1 <= zl (show_char c)) by (unfold show_char; destruct (special c); cbn; lia). lia.
    + rewrite E. cbn [fst snd show_item]. destruct (IHa Hw) as [K C]. rewrite !costs_app, zl_app. split.
      * apply Forall_app. split; [apply HK|]. apply Forall_app. split; [exact K|]. destruct q; [constructor|(constructor; [cbn; auto|constructor])..].
      * pose proof (flush_cost d). pose proof (rep_cost q). change (held []) with 0. lia.
  - intros c Hw. cbn [toks_atom show_atom]. split; [repeat constructor|]. cbn [costs fold_right cost]. pose proof (nbytes_range [c]). rewrite !zl_one in *.
    assert (1 <= zl (show_char c)) by (unfold show_char; destruct (special c); cbn; lia). lia.
  - intros _. cbn. split; [repeat constructor|lia].
  - intros neg l Hw. cbn [toks_atom show_atom]. split; [repeat constructor|]. cbn [costs fold_right cost]. pose proof (string_size_range (class_text l)). pose proof (class_cost l).
    rewrite !zl_app. change (zl [91]) with 1. change (zl [93]) with 1. pose proof (zl_pos (if neg then [94] else [])). lia.
  - intros c Hw. cbn [toks_atom show_atom]. split; [repeat constructor|]. cbn [costs fold_right cost]. pose proof (string_size_range [c]). rewrite zl_one in *. change (zl [92; c]) with 2. lia.
  - intros colon r IH Hw. cbn [toks_atom show_atom]. destruct (IH Hw []) as [K C]. split.
    + constructor; [exact I|]. apply Forall_app. split; [exact K|]. apply Forall_app. split; [apply HK|repeat constructor].
    + cbn [costs fold_right]. fold (costs (fst (toks r []) ++ flush' (snd (toks r [])) ++ [TEnd])). rewrite !costs_app. rewrite !zl_app.
      change (zl [40]) with 1. change (zl [41]) with 1. pose proof (zl_pos (if colon then [63; 58] else [])). pose proof (flush_cost (snd (toks r []))).
      change (held []) with 0 in C. change (cost TGroup) with 1. change (costs [TEnd]) with 2. lia.
Qed.
Lemma cost_toks r : wf r -> Forall known (all_toks r) /\ costs (all_toks r) <= 26 + 12 * zl (show r).
Proof.
  intros Hw. destruct cost_all as [H _]. destruct (H r Hw []) as [K C]. unfold all_toks. split.
  - constructor; [exact I|]. apply Forall_app. split; [exact K|]. apply Forall_app. split; [destruct (snd (toks r [])); repeat constructor|repeat constructor].
  - cbn [costs fold_right]. fold (costs (fst (toks r []) ++ flush' (snd (toks r [])) ++ [TAccept])). rewrite !costs_app.
    pose proof (flush_cost (snd (toks r []))). change (held []) with 0 in C. change (cost TStart) with 15. change (costs [TAccept]) with 11. lia.
Qed.

(** ** The sizes *)
Lemma blen_small c : 0 <= c < 2048 -> blen c = if c <? 128 then 1 else 2.
Proof.
  intros H. unfold blen. rewrite len_norm by (apply small_ucs4; lia). destruct (Z.ltb_spec c 128); destruct (Z.ltb_spec c (2^7)); try lia.
  destruct (Z.ltb_spec c (2^11)); lia.
Qed.
Lemma blen_3 c : 0 <= c < 65536 -> blen c <= 3.
Proof.
  intros H. unfold blen. rewrite len_norm by (apply small_ucs4; lia). destruct (c <? 2^7), (c <? 2^11); try lia. destruct (Z.ltb_spec c (2^16)); lia.
Qed.
Lemma sizes B O : 0 <= B -> 0 <= O -> B + 3 * O < 1024 ->
  (offset_max_bytes B O = 1%nat /\ (Z.to_nat (allocated B O + 1) <= 64)%nat) \/ (offset_max_bytes B O = 2%nat /\ (Z.to_nat (allocated B O + 1) <= 1024)%nat).
Proof.
  intros HB HO H. unfold allocated. set (M := offset_max_bytes B O) in *.
  assert (HM : Z.of_nat M = if B + O * blen (2 * (B + O * 4)) <? 64 then 1 else 2).
  { unfold M, offset_max_bytes. pose proof (blen_range (2 * (B + O * 4))). pose proof (blen_3 (2 * (B + O * 4)) ltac:(lia)).
    set (b := blen (2 * (B + O * 4))) in *. assert (O * b <= O * 3) by nia. assert (0 <= O * b) by nia.
    change (Z.of_nat (UTF8Len (2 * (B + O * b)))) with (blen (2 * (B + O * b))).
    rewrite blen_small by lia. destruct (Z.ltb_spec (2 * (B + O * b)) 128), (Z.ltb_spec (B + O * b) 64); lia. }
  destruct (Z.ltb_spec (B + O * blen (2 * (B + O * 4))) 64) as [L|L].
  - left. split; [lia|]. pose proof (blen_range (2 * (B + O * 4))). assert (B + O < 64) by nia. rewrite HM.
    rewrite blen_small by lia. destruct (Z.ltb_spec (B + O * 1) 128); lia.
  - right. split; [lia|]. rewrite HM. rewrite blen_small by lia. destruct (_ <? 128); lia.
Qed.

(** ** The second pass *)
Ltac crack H := repeat first
  [ match type of H with (do x <- _; _) = Ok _ => let y := fresh "y" in let E := fresh "E" in apply obind_ok in H; destruct H as (y & E & H) end
  | match type of H with cassert _ _ = Ok _ => apply cassert_ok in H; destruct H as [_ H] end
  | match type of H with (match ?x with _ => _ end) = Ok _ => destruct x end
  | discriminate H
  | progress cbv zeta in H ].
Lemma second_true M cap st nm x w r : second_pass M cap st nm x w = Ok r -> snd (fst r) = None /\ snd r = true.
Proof.
  intros H. unfold second_pass in H. cbv zeta in H. bind H u Eu. clear Eu.
  assert (D : forall b k mx g a r, done cap b k mx g a = Ok r -> snd (fst r) = None /\ snd r = true) by (intros b k mx g a r0 HD; apply done_ok in HD; tauto).
  destruct x; cbv beta in H; crack H; solve [eapply D; exact H].
Qed.
Lemma pass_run M cap st nm ts : forall w r, pass (second_pass M cap st nm) (map Tok ts) w None = Ok r ->
  run M cap st nm ts w = Ok (fst (fst r)) /\ snd (fst r) = None /\ snd r = true.
Proof.
  induction ts as [|x ts IH]; intros w r H.
  - cbn [map pass] in H. assert (r = (w, None, true)) by congruence. subst r. auto.
  - cbn [map pass] in H. bind H y E. destruct (second_true _ _ _ _ _ _ _ E) as [T1 T2]. destruct y as [[w1 m1] ok]. cbn [fst snd] in *. subst m1 ok.
    destruct (IH _ _ H) as (A & B & C). cbn [run]. rewrite E. cbn [obind fst]. auto.
Qed.

Definition whole (v1 v2 st mx a c : Z) (X : list Z) : list Z :=
  83 :: offset_bytes v1 ++ offset_bytes v2 ++ offset_bytes st ++ [mx; 1; 1] ++ [40; 1] ++ X ++ [35] ++
  [65] ++ offset_bytes a ++ [46; 74] ++ offset_bytes c ++ [0].
Definition zob (v : Z) : Z := zl (offset_bytes v).

Section Whole.
Variables (t : list Z) (M cap : nat) (st : Z).
Hypothesis HM : (M = 1 /\ cap <= 64)%nat \/ (M = 2 /\ cap <= 1024)%nat.
Hypothesis Hst : 0 <= st < 2^29.

Lemma start_ok mx w : run M cap st [] [TStart] (mktwo [] [] mx 0 0) = Ok w ->
  exists v2 mx' fr, w_buf w = 83 :: padded M 0 ++ offset_bytes v2 ++ offset_bytes st ++ [mx'; 1; 1] ++ [40; 1] /\
    v2 = zob v2 + zob st + 3 /\ w_stack w = [fr] /\ f_contents fr = length (w_buf w) /\ f_jump fr = O /\ (length (w_buf w) <= cap)%nat.
Proof.
  intros H. apply run_one in H. destruct H as (r & H & <-). unfold second_pass in H. cbv zeta in H. bind H u Eu. clear Eu.
  cbn [w_buf w_stack w_max w_group length app flat_map] in H. change (u8 (Z.of_nat 0 + 1)) with 1 in H.
  set (mx' := Z.of_nat (Nat.max mx 1)) in *. bind H b1 E1. apply fits_ok in E1. destruct E1 as [E1 L1]. bind H p E2.
  assert (Hb1 : b1 = (83 :: padded M 0) ++ padded M 0 ++ (offset_bytes st ++ [mx'; 1; 1]) ++ []).
  { rewrite E1, app_nil_r. norm_app; cbn [app]; norm_app. }
  assert (L1' : (length b1 <= cap)%nat) by (rewrite E1; exact L1).
  destruct (patch_fwd M cap HM (83 :: padded M 0) (padded M 0) (offset_bytes st ++ [mx'; 1; 1]) [] b1 (1 + M) (length b1) p Hb1) as (v2 & F1 & F2 & _ & _).
  { exact (padded_len M cap HM 0). } { cbn [length]. rewrite (padded_len M cap HM). lia. }
  { rewrite Hb1. rewrite !app_length. cbn [length]. rewrite !(padded_len M cap HM). lia. }
  { cbn [length]. lia. } { exact L1'. } { exact E2. }
  bind H b2 E3. apply fits_ok in E3. destruct E3 as [E3 L3]. apply done_ok in H. destruct H as (-> & _ & _ & L4). cbn [w_buf w_stack].
  exists v2, mx'. eexists. split; [|split; [|split; [reflexivity|]]].
  - rewrite E3, F1, app_nil_r. norm_app; cbn [app]; norm_app.
  - unfold zob. rewrite zl_app in F2. change (zl [mx'; 1; 1]) with 3 in F2. lia.
  - cbn [f_contents f_jump]. split; [reflexivity|]. split; [reflexivity|lia].
Qed.

Lemma whole_ok r mx w P : wf r -> run M cap st [] (all_toks r) (mktwo [] [] mx 0 0) = Ok w -> app_bytes cap (w_buf w) [0] = Ok P ->
  exists v1 v2 mx' a c X, P = whole v1 v2 st mx' a c X /\ impl t (matches t r) X /\ small P /\
    v2 = zob v2 + zob st + 3 /\
    v1 = zob v1 + zob v2 + zob st + 3 + 2 + zl X + 1 /\
    a = - (zl X + 4) /\ c = - (zob a + 3).
Proof.
  intros Hw H HP. unfold all_toks in H. change (TStart :: fst (toks r []) ++ flush' (snd (toks r [])) ++ [TAccept]) with ([TStart] ++ fst (toks r []) ++ flush' (snd (toks r [])) ++ [TAccept]) in H.
  apply run_app in H. destruct H as (w1 & H1 & H). apply run_app in H. destruct H as (w2 & H2 & H). apply run_app in H. destruct H as (w3 & H3 & H).
  destruct (start_ok _ _ H1) as (v2 & mx' & fr & B1 & Hv2 & S1 & C1 & J1 & L1).
  destruct (gen_all t M cap st [] HM) as [G _].
  destruct (G r Hw w1 w2 (w_buf w1) [] [] fr [] H2) as (l & RL & R & Y & fr' & K1 & K2 & K3 & K4 & K5 & K6 & K7 & K8 & K9).
  { rewrite B1. cbn [length]. rewrite !app_length. cbn [length]. lia. }
  { cbn [chain]. rewrite app_nil_r. reflexivity. } { constructor. } { exact S1. } { exact C1. } { exact J1. }
  apply flush_ok in H3. destruct H3 as [F1 F2].
  apply run_one in H. destruct H as (rr & H & Ew). pose proof (fits_before M cap st [] HM TAccept w3 rr H) as HBf. unfold second_pass in H; cbv zeta in H. bind H u Eu. clear Eu.
  rewrite F2, K5 in H. bind H b E. destruct (fixup_ok t M cap HM l RL R (w_buf w1) Y fr' (w_buf w3) b K2 K3) as (X & A & B & C).
  { rewrite F1. exact K1. } { exact K6. } { exact K7. } { lia. } { exact E. }
  assert (HX : impl t (matches t r) X) by (eapply impl_ext; [exact K4|exact B]). clear K1 K2 K3 K4 K5 K6 K7 B E l RL R Y F1 F2.
  bind H b2 E2. apply fits_ok in E2. destruct E2 as [E2 L2].
  set (S := offset_bytes v2 ++ offset_bytes st ++ [mx'; 1; 1] ++ [40; 1] ++ X ++ [35]).
  assert (Hb2 : b2 = [83] ++ padded M 0 ++ S ++ []).
  { rewrite E2, A, B1, app_nil_r. unfold S. norm_app; cbn [app]; norm_app; cbn [app]; norm_app. }
  bind H p Ep.
  destruct (patch_fwd M cap HM [83] (padded M 0) S [] b2 1%nat (length b2) p Hb2) as (v1 & F1 & F2 & F3 & F4).
  { exact (padded_len M cap HM 0). } { reflexivity. } { rewrite Hb2, !app_length, (padded_len M cap HM). cbn [length]. lia. } { cbn; lia. } { rewrite E2. exact L2. } { exact Ep. }
  rewrite app_nil_r in F1. rewrite F1, F3 in H.
  replace (1 + M - (M - length (offset_bytes v1)))%nat with (1 + length (offset_bytes v1))%nat in H by lia.
  bind H gg Eg.
  assert (Hv2b : - 2^30 < v2 < 2^30).
  { pose proof (ob_len v2) as Q. unfold zob in Hv2. assert (length (offset_bytes v2) <= 1024)%nat.
    { rewrite B1 in L1. cbn [length] in L1. rewrite !app_length in L1. lia. }
    assert (length (offset_bytes st) <= 1024)%nat.
    { rewrite B1 in L1. cbn [length] in L1. rewrite !app_length in L1. lia. }
    unfold zl in Hv2. lia. }
  rewrite app_assoc, skipn_len in Eg by (rewrite app_length; reflexivity). unfold S in Eg. unfold offset_bytes at 1 in Eg.
  rewrite get_put in Eg by (apply zigzag_range, Hv2b). assert (Hgg : fst gg = zigzag v2) by (inversion Eg; reflexivity). rewrite Hgg, zagzig_zigzag in H by exact Hv2b.
  bind H b3 E3. apply fits_ok in E3. destruct E3 as [E3 _]. bind H b4 E4. apply fits_ok in E4. destruct E4 as [E4 _].
  bind H b5 E5. apply fits_ok in E5. destruct E5 as [E5 _]. bind H b6 E6. apply fits_ok in E6. destruct E6 as [E6 _].
  apply done_ok in H. destruct H as (Er & _ & _ & _). rewrite Er in Ew. subst w. cbn [w_buf] in HP. apply fits_ok in HP. destruct HP as [HP LP].
  set (a := Z.of_nat (1 + length (offset_bytes v1)) + v2 - Z.of_nat (length b3)) in *.
  set (c := Z.of_nat (length ([83] ++ offset_bytes v1 ++ S)) - Z.of_nat (length b5)) in *.
  exists v1, v2, mx', a, c, X. split; [|split; [exact HX|split; [|split; [exact Hv2|split; [|split]]]]].
  - rewrite HP, E6, E5, E4, E3. unfold whole, S. norm_app; cbn [app]; norm_app; cbn [app]; norm_app.
  - unfold small, zl. rewrite HP. lia.
  - unfold S in F2. rewrite !zl_app in F2. change (zl [mx'; 1; 1]) with 3 in F2. change (zl [40; 1]) with 2 in F2. change (zl [35]) with 1 in F2. unfold zob. lia.
  - unfold a. rewrite E3. unfold S. rewrite !app_length. cbn [length]. unfold zob, zl in *. lia.
  - unfold c. rewrite E5, E4, E3. rewrite !app_length. cbn [length]. unfold zob, zl. lia.
Qed.
End Whole.

(** ** What is where *)
Section Layout.
Variables (t : list Z) (v1 v2 st mx a c : Z) (X P : list Z).
Hypothesis HP : P = whole v1 v2 st mx a c X.
Hypothesis HS : small P.
Hypothesis Hst : 0 <= st < 2^29.
Hypothesis Hv2 : v2 = zob v2 + zob st + 3.
Hypothesis Hv1 : v1 = zob v1 + zob v2 + zob st + 3 + 2 + zl X + 1.
Hypothesis Ha : a = - (zl X + 4).
Hypothesis Hc : c = - (zob a + 3).
Let start := 1 + zob v1 + zob v2 + zob st + 3.
Let rs := start + 2.
Let q := rs + zl X.
Let search := q + 1.
Let anyst := search + 1 + zob a.
Let jmp := anyst + 1.

Lemma sizes_pos : 0 <= zob v1 /\ 0 <= zob v2 /\ 0 <= zob st /\ 0 <= zob a /\ 0 <= zob c /\ 0 <= zl X /\ jmp + 1 + zob c + 1 < 2^29 /\ zl P = jmp + 1 + zob c + 1.
Proof.
  unfold small in HS. assert (E : zl P = jmp + 1 + zob c + 1).
  { rewrite HP. unfold whole. rewrite zl_cons, !zl_app. change (zl [mx; 1; 1]) with 3. change (zl [40; 1]) with 2. change (zl [35]) with 1. change (zl [65]) with 1.
    change (zl [46; 74]) with 2. change (zl [0]) with 1. unfold jmp, anyst, search, q, rs, start, zob. lia. }
  unfold zob. repeat split; try apply zl_pos; try (fold (zob c); lia).
Qed.
Let T6 := [46; 74] ++ offset_bytes c ++ [0].
Let T5 := [35] ++ [65] ++ offset_bytes a ++ T6.
Let T4 := [40; 1] ++ X ++ T5.
Let T3 := mx :: 1 :: 1 :: T4.
Ltac shape := rewrite HP; unfold whole, T3, T4, T5, T6; repeat (rewrite <- app_assoc || rewrite <- app_comm_cons || rewrite app_nil_l); reflexivity.
Lemma whole_program : exists h, program P = Ok h /\ h_start h = start /\ h_search h = search.
Proof.
  destruct sizes_pos as (A1 & A2 & A3 & A4 & A5 & A6 & A7 & A8). unfold jmp, anyst, search, q, rs, start in *. unfold program.
  assert (E0 : P = [] ++ 83 :: offset_bytes v1 ++ offset_bytes v2 ++ offset_bytes st ++ T3) by shape.
  assert (E1 : P = [83] ++ offset_bytes v1 ++ offset_bytes v2 ++ offset_bytes st ++ T3) by shape.
  assert (E2 : P = (83 :: offset_bytes v1) ++ offset_bytes v2 ++ offset_bytes st ++ T3) by shape.
  assert (E3 : P = (83 :: offset_bytes v1 ++ offset_bytes v2) ++ offset_bytes st ++ T3) by shape.
  set (p4 := 83 :: offset_bytes v1 ++ offset_bytes v2 ++ offset_bytes st).
  assert (E4 : P = p4 ++ mx :: 1 :: 1 :: T4) by (unfold p4; shape).
  assert (E5 : P = (p4 ++ [mx]) ++ 1 :: 1 :: T4) by (unfold p4; shape).
  assert (E6 : P = (p4 ++ [mx; 1]) ++ 1 :: T4) by (unfold p4; shape).
  assert (Z4 : zl p4 = 1 + zob v1 + zob v2 + zob st) by (unfold p4; rewrite zl_cons, !zl_app; unfold zob; lia).
  assert (R0 : rdZ P 0 = Ok 83) by (rewrite E0; apply rdZ_mid; reflexivity). rewrite R0. cbn [obind Z.eqb Pos.eqb cassert].
  assert (R1 : offset_at P 1 = Ok (1 + v1, 1 + zob v1)) by (rewrite E1 at 1; apply offset_at_put; [reflexivity|lia|lia]). rewrite R1. cbn [obind fst snd].
  assert (R2 : offset_at P (1 + zob v1) = Ok (1 + zob v1 + v2, 1 + zob v1 + zob v2)) by (rewrite E2 at 1; apply offset_at_put; [rewrite zl_cons; reflexivity|lia|lia]). rewrite R2. cbn [obind fst snd].
  assert (R3 : get_at P (1 + zob v1 + zob v2) = Ok (zigzag st, 1 + zob v1 + zob v2 + zob st)).
  { rewrite E3 at 1. apply get_at_put; [rewrite zl_cons, zl_app; unfold zob; lia|apply zigzag_range; lia]. }
  rewrite R3. cbn [obind fst snd].
  assert (R4 : rdZ P (1 + zob v1 + zob v2 + zob st) = Ok mx) by (rewrite E4 at 1; apply rdZ_mid; lia). rewrite R4. cbn [obind].
  assert (R5 : rdZ P (1 + zob v1 + zob v2 + zob st + 1) = Ok 1) by (rewrite E5 at 1; apply rdZ_mid; rewrite zl_app; change (zl [mx]) with 1; lia). rewrite R5. cbn [obind].
  assert (R6 : rdZ P (1 + zob v1 + zob v2 + zob st + 2) = Ok 1) by (rewrite E6 at 1; apply rdZ_mid; rewrite zl_app; change (zl [mx; 1]) with 2; lia). rewrite R6. cbn [obind].
  change (Z.to_nat (1 - 1)) with O. cbn [names_at obind fst snd]. destruct (Z.eqb_spec (1 + zob v1 + v2) (1 + zob v1 + zob v2 + zob st + 3)); [|lia]. cbn [cassert].
  eexists. split; [reflexivity|]. cbn [h_start h_search]. lia.
Qed.
Lemma zl_lst pre : zl (pre ++ [35]) = zl pre + 1. Proof. apply zl_snoc. Qed.
Let pre := 83 :: offset_bytes v1 ++ offset_bytes v2 ++ offset_bytes st ++ [mx; 1; 1] ++ [40; 1].
Lemma whole_code : decode P start = Ok (ICapStart 0 rs) /\ decode P q = Ok IAccept /\ decode P search = Ok (ISplit start anyst) /\
  decode P anyst = Ok (IAny jmp) /\ decode P jmp = Ok (IJump search) /\ P = pre ++ X ++ T5 /\ zl pre = rs /\
  start < rs /\ rs <= q /\ q < search /\ search < anyst /\ anyst < jmp.
Proof.
  destruct sizes_pos as (A1 & A2 & A3 & A4 & A5 & A6 & A7 & A8). unfold jmp, anyst, search, q, rs, start in *.
  set (p4 := 83 :: offset_bytes v1 ++ offset_bytes v2 ++ offset_bytes st ++ [mx; 1; 1]).
  assert (Z4 : zl p4 = 1 + zob v1 + zob v2 + zob st + 3) by (unfold p4; rewrite zl_cons, !zl_app; change (zl [mx; 1; 1]) with 3; unfold zob; lia).
  assert (E4 : P = p4 ++ 40 :: 1 :: X ++ T5) by (unfold p4; shape).
  assert (E4' : P = (p4 ++ [40]) ++ 1 :: X ++ T5) by (unfold p4; shape).
  set (p5 := p4 ++ [40; 1] ++ X).
  assert (Z5 : zl p5 = 1 + zob v1 + zob v2 + zob st + 3 + 2 + zl X) by (unfold p5; rewrite !zl_app; change (zl [40; 1]) with 2; lia).
  assert (E5 : P = p5 ++ 35 :: 65 :: offset_bytes a ++ T6) by (unfold p5, p4; shape).
  assert (E6 : P = (p5 ++ [35]) ++ (65 :: offset_bytes a) ++ T6) by (unfold p5, p4; shape).
  set (p7 := p5 ++ [35] ++ 65 :: offset_bytes a).
  assert (Z7 : zl p7 = 1 + zob v1 + zob v2 + zob st + 3 + 2 + zl X + 1 + 1 + zob a) by (unfold p7; rewrite (zl_app p5), Z5, zl_app, !zl_cons, zl_nil; unfold zob in *; lia).
  assert (E7 : P = p7 ++ 46 :: 74 :: offset_bytes c ++ [0]) by (unfold p7, p5, p4; shape).
  assert (E8 : P = (p7 ++ [46]) ++ (74 :: offset_bytes c) ++ [0]) by (unfold p7, p5, p4; shape).
  repeat match goal with |- _ /\ _ => split end.
  - unfold decode. rewrite E4 at 1. rewrite rdZ_mid by lia. cbn [obind Z.eqb Pos.eqb]. rewrite E4' at 1. rewrite rdZ_mid by (rewrite zl_snoc; lia). cbn [obind]. f_equal. f_equal; lia.
  - unfold decode. rewrite E5 at 1. rewrite rdZ_mid by lia. reflexivity.
  - pose proof (decode_split _ _ _ _ E6 HS) as D. rewrite zl_snoc, Z5 in D. rewrite D by lia. f_equal. f_equal; unfold zob in *; lia.
  - unfold decode. rewrite E7 at 1. rewrite rdZ_mid by lia. reflexivity.
  - pose proof (decode_jump _ _ _ _ E8 HS) as D. rewrite zl_snoc, Z7 in D. rewrite D by lia. f_equal. f_equal. lia.
  - unfold pre. shape.
  - unfold pre. rewrite zl_cons, !zl_app. change (zl [mx; 1; 1]) with 3. change (zl [40; 1]) with 2. unfold zob. lia.
  - lia.
  - lia.
  - lia.
  - lia.
  - lia.
Qed.
End Layout.

(** What the first pass counts: the bytes of the program without its offsets,
    the offsets, and the states of the machine; nothing if it reports an error. *)
Definition counted (features reject : Z) (re : list Z) : option (Z * Z * Z) :=
  match scan (Z.land features (Z.lnot reject)) reject re with
  | Ok es =>
    match pass first_pass es one0 None with
    | Ok (s, _, true) => match o_stack s with [] => Some (o_bytes s, o_offsets s, o_stations s) | _ => None end
    | _ => None
    end
  | _ => None
  end.
(** The program is below 1024 bytes, even if each of its offsets took three:
    then all of its offsets take at most two. *)
Definition short_program (features reject : Z) (re : list Z) : Prop :=
  forall bytes offsets states, counted features reject re = Some (bytes, offsets, states) -> bytes + 3 * offsets < 1024.

(** ** A regular expression, its program, and what is matched *)
Lemma program_ok r re prog m t : wf r -> RxSpellSpec.written r re -> short_program AllFeatures 0 re -> compile AllFeatures 0 re = Ok (Some prog, m) ->
  m = None /\ exists h rs q start search anyst jmp,
    program prog = Ok h /\ h_start h = start /\ h_search h = search /\
    decode prog start = Ok (ICapStart 0 rs) /\ decode prog q = Ok IAccept /\ decode prog search = Ok (ISplit start anyst) /\
    decode prog anyst = Ok (IAny jmp) /\ decode prog jmp = Ok (IJump search) /\
    start < rs /\ rs <= q /\ q < search /\ search < anyst /\ anyst < jmp /\
    (forall o k, pos t o -> matches t r o k -> pos t k /\ reach t prog (rs, o) (q, k)) /\
    (forall o s k, pos t o -> reach t prog (rs, o) (s, k) -> inside prog rs q s \/ (s = q /\ matches t r o k)).
Proof.
  intros Hw HW HL H. unfold compile in H. cbv zeta in H. bind H es Es. unfold short_program, counted in HL. rewrite Es in HL. change (Z.land AllFeatures (Z.lnot 0)) with AllFeatures in Es. rewrite (RxSpell.scan_written r re Hw HW) in Es. assert (es = map Tok (all_toks r)) by congruence. subst es.
  bind H x Ex. destruct x as [[s m1] ok]. destruct ok; [|discriminate H]. cbn [negb] in H. destruct (o_stack s) eqn:Estk; [|discriminate H]. rewrite Ex, Estk in HL. specialize (HL _ _ _ eq_refl).
  destruct (cost_toks r Hw) as [HK _].
  destruct (first_all _ _ _ _ _ HK Ex) as ((B1 & B2 & B3 & B4 & _) & _).
  { unfold one_ok. cbn. repeat split; try lia. constructor. }
  pose proof (sizes (o_bytes s) (o_offsets s) B1 B2 ltac:(lia)) as HM.
  set (M := offset_max_bytes (o_bytes s) (o_offsets s)) in *. set (cap := Z.to_nat (allocated (o_bytes s) (o_offsets s) + 1)) in *.
  bind H y Ey. destruct y as [[w m2] ok2]. apply pass_run in Ey. cbn [fst snd] in Ey. destruct Ey as (Er & -> & ->). rewrite B4 in Er.
  bind H b Eb. assert (b = prog) by congruence. assert (m = None) by congruence. subst b m. split; [reflexivity|].
  assert (Hst : 0 <= o_stations s < 2^29) by lia.
  destruct (whole_ok t M cap (o_stations s) HM r _ w prog Hw Er Eb) as (v1 & v2 & mx & a & c & X & HP & HX & HS & Hv2 & Hv1 & Ha & Hc).
  destruct (whole_program v1 v2 _ mx a c X prog HP HS Hst Hv2 Hv1) as (h & P1 & P2 & P3).
  destruct (whole_code v1 v2 _ mx a c X prog HP HS Ha Hc) as (D1 & D2 & D3 & D4 & D5 & E & Ez & L1 & L2 & L3 & L4 & L5).
  exists h. do 6 eexists. split; [exact P1|]. split; [exact P2|]. split; [exact P3|].
  split; [exact D1|]. split; [exact D2|]. split; [exact D3|]. split; [exact D4|]. split; [exact D5|].
  do 5 (split; [assumption|]). destruct (HX _ _ _ E HS) as [F B]. rewrite Ez in F, B. split.
  - intros o k Ho Hr. apply F; assumption.
  - intros o s0 k Ho [n Hn]. destruct (B n o s0 k Ho Hn) as [L|(m & j & Lm & Rj & Pj & Sj)]; [left; exact L|]. right.
    inversion Sj as [x|n' x y z St Rest]; subst; [auto|]. exfalso. inversion St as [i' s1 s2 He|i' s1 x' s2 He Hcc]; subst.
    + exact (eps_inv _ _ _ _ _ _ He D2).
    + pose proof (eq_trans (eq_sym He) D2) as HX2. inversion HX2; subst. discriminate Hcc.
Qed.
