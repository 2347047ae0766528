(** The program that compile makes of any pattern: its header, its code and its search loop. *)
From Verif Require Import Base UTF8Model UTF8Spec UTF8Proofs CharModel RxCompModel RxModel RxSpec RxVm RxScan RxTotal RxGen RxProg RxCode RxTame.
From Verif Require RxSize.

(** ** The first pass *)
Definition counts (s : one) : Prop :=
  0 <= o_bytes s /\ 0 <= o_offsets s /\ 0 <= o_stations s <= 254 * o_bytes s /\ Forall (Forall fine) (o_names s) /\ Forall (fun l => l <> []) (o_names s) /\ (length (o_names s) <= 254)%nat.
Lemma add_counts s b o st atom r : add1 s b o st atom = Ok r -> counts s -> 0 <= 1 + b -> 0 <= o -> 0 <= st <= 254 * (1 + b) -> counts (fst (fst r)).
Proof. unfold add1, counts. intros H (A & B & C & D & D' & E) Hb Ho Hs. inversion H; subst; clear H. cbn [fst o_bytes o_offsets o_stations o_names]. repeat split; auto; lia. Qed.
Lemma set_counts s k : counts s -> counts (set_stack s k).
Proof. unfold counts. cbn. tauto. Qed.
Lemma push_counts k s s' : push1 k s = Some s' -> counts s -> counts s'.
Proof. unfold push1, counts. destruct (_ <=? _)%nat; [discriminate|]. intros H (A & B & C & D & D' & E). inversion H; subst; clear H. cbn [o_bytes o_offsets o_stations o_names]. repeat split; auto; lia. Qed.
Lemma first_counts t s r : token_ok t -> first_pass t s = Ok r -> snd r = true -> counts s -> counts (fst (fst r)).
Proof.
  intros K H T O. assert (FF : forall s m, fail1 s m = Ok r -> counts (fst (fst r))) by (intros s0 m0 X; unfold fail1 in X; inversion X; subst; discriminate T).
  destruct t; cbn [first_pass token_ok] in *.
  - set (s1 := match push1 KStart s with Some s0 => s0 | None => s end) in *.
    assert (O1 : counts s1) by (unfold s1; destruct (push1 KStart s) as [s'|] eqn:E; [eapply push_counts; eassumption|exact O]). clearbody s1.
    eapply add_counts; [exact H| |lia|lia|lia]. unfold counts in *. cbn [o_bytes o_offsets o_stations o_names]. repeat split; try apply O1; lia.
  - eapply add_counts; [exact H|apply set_counts, O|lia|lia|lia].
  - eapply add_counts; [exact H|exact O|lia|lia|lia].
  - eapply add_counts; [exact H|exact O|lia|lia|lia].
  - eapply add_counts; [exact H|exact O|lia|lia|lia].
  - pose proof (nbytes_range s0). eapply add_counts; [exact H|exact O|lia|lia|lia].
  - destruct (negb _); [eapply FF, H|]. destruct (_ || _) eqn:EM; [eapply FF, H|]. apply orb_false_elim in EM. destruct EM as [E1 E2].
    destruct (_ && _); [eapply add_counts; [exact H|exact O|lia|lia|lia]|]. destruct (_ && _); [eapply add_counts; [exact H|exact O|lia|lia|lia]|].
    destruct (_ && _); eapply add_counts; try exact H; try exact O; lia.
  - pose proof (string_size_range s0). eapply add_counts; [exact H|exact O|lia|lia|lia].
  - pose proof (string_size_range s0). eapply add_counts; [exact H|exact O|lia|lia|lia].
  - destruct (o_stack s) as [|[k [|]] stk]; [discriminate H| |]; eapply add_counts; try exact H; try (apply set_counts); try exact O; lia.
  - destruct (push1 KGroup s) eqn:E; [|eapply FF, H]. eapply add_counts; [exact H|eapply push_counts; eassumption|lia|lia|lia].
  - destruct (Nat.leb_spec 254 (length (o_names s))); [eapply FF, H|]. destruct (existsb _ _); [eapply FF, H|]. destruct (push1 KNamed _) eqn:E; [|eapply FF, H].
    pose proof (string_size_range s0). eapply add_counts; [exact H| |lia|lia|lia]. eapply push_counts; [exact E|].
    destruct O as (A & B & C & D & D' & F). unfold counts. cbn [o_bytes o_offsets o_stations o_names]. repeat split; try assumption; try lia. { apply Forall_app. split; [exact D|]. constructor; [apply K|constructor]. } { apply Forall_app. split; [exact D'|]. constructor; [apply K|constructor]. } rewrite app_length. cbn [length]. lia.
  - destruct (push1 KNeg s) eqn:E; [|eapply FF, H]. eapply add_counts; [exact H|eapply push_counts; eassumption|lia|lia|lia].
  - destruct (o_stack s) as [|[[| | |] b] stk]; try (eapply FF, H); (eapply add_counts; [exact H|apply set_counts, O|lia|lia|lia]).
Qed.
Lemma pass_counts es : forall s m s' m', tame es -> pass first_pass es s m = Ok (s', m', true) -> counts s -> counts s'.
Proof.
  induction es as [|[t|e] es IH]; intros s m s' m' HT H O; cbn [pass] in H.
  - assert (s' = s) by congruence. subst. exact O.
  - apply Forall_cons_iff in HT. destruct HT as [Ht HT]. bind H r E. pose proof (first_counts _ _ _ Ht E) as C. destruct r as [[s1 m1] ok]. destruct ok; [|discriminate H]. eapply IH; [exact HT|exact H|]. apply C; [reflexivity|exact O].
  - apply Forall_cons_iff in HT. destruct HT as [_ HT]. eapply IH; eassumption.
Qed.

(** ** The two passes side by side *)
Lemma first_rep t s r : RxSize.inner t -> first_pass t s = Ok r -> snd r = true -> o_repeatable (fst (fst r)) = repeatable t /\ (match t with TRep _ _ => o_repeatable s = true | _ => True end).
Proof.
  intros HI H T. destruct t; try contradiction; cbn [first_pass] in H; unfold add1, fail1, push1, set_stack in H;
  repeat match type of H with (if ?b then _ else _) = _ => destruct b eqn:? | context [if (?a <=? ?b)%nat then _ else _] => destruct (a <=? b)%nat | (match ?x with _ => _ end) = _ => destruct x eqn:? end;
  try discriminate H; inversion H; subst; try discriminate T; cbn [fst snd o_repeatable repeatable]; (split; [reflexivity|]); try exact I;
  destruct (o_repeatable s); [reflexivity|discriminate|reflexivity|discriminate|reflexivity|discriminate|reflexivity|discriminate..].
Qed.
Lemma stack_len M cap st nm t s r w rr : RxSize.inner t -> first_pass t s = Ok r -> snd r = true -> second_pass M cap st nm t w = Ok rr ->
  length (o_stack s) = length (w_stack w) -> length (o_stack (fst (fst r))) = length (w_stack (fst (fst rr))).
Proof.
  intros HI H T H2 HL. unfold second_pass in H2. cbv zeta in H2. apply obind_ok in H2. destruct H2 as (? & _ & H2).
  assert (F : length (o_stack (fst (fst r))) = match t with TGroup | TNamed _ | TNeg => S (length (o_stack s)) | TEnd => pred (length (o_stack s)) | _ => length (o_stack s) end).
  { destruct t; try contradiction; cbn [first_pass] in H; unfold add1, fail1, push1, set_stack in H;
    repeat match type of H with (if ?b then _ else _) = _ => destruct b eqn:? | context [if (?a <=? ?b)%nat then _ else _] => destruct (a <=? b)%nat | (match ?x with _ => _ end) = _ => destruct x eqn:? end;
    try discriminate H; inversion H; subst; try discriminate T; cbn [fst snd o_stack length pred]; try reflexivity;
    repeat match goal with E : o_stack _ = _ |- _ => rewrite E end; reflexivity. }
  rewrite F, HL. clear F H T HL r s. destruct t; try contradiction; crack H2; try (apply done_ok in H2; destruct H2 as (-> & _); cbn [w_stack length pred]; reflexivity).
Qed.

Lemma groups M cap st nm t s r w rr : RxSize.inner t -> first_pass t s = Ok r -> snd r = true -> second_pass M cap st nm t w = Ok rr ->
  w_group w = Z.of_nat (length (o_names s)) + 1 -> (length (o_names s) <= 254)%nat ->
  w_group (fst (fst rr)) = Z.of_nat (length (o_names (fst (fst r)))) + 1 /\ (length (o_names (fst (fst r))) <= 254)%nat /\ (match t with TNamed _ => 1 <= w_group w < 255 /\ w_group w = Z.of_nat (length (o_names (fst (fst r)))) | _ => True end).
Proof.
  intros HI H T H2 HL HN. unfold second_pass in H2. cbv zeta in H2. apply obind_ok in H2. destruct H2 as (? & _ & H2).
  assert (F : length (o_names (fst (fst r))) = match t with TNamed _ => S (length (o_names s)) | _ => length (o_names s) end /\ (match t with TNamed _ => length (o_names s) < 254 | _ => True end)%nat).
  { destruct t; try contradiction; cbn [first_pass] in H; unfold add1, fail1, push1, set_stack in H;
    try (destruct (Nat.leb_spec 254 (length (o_names s))) as [L|L]; [inversion H; subst; discriminate T|]);
    repeat match type of H with (if ?b then _ else _) = _ => destruct b eqn:? | context [if (?a <=? ?b)%nat then _ else _] => destruct (a <=? b)%nat | (match ?x with _ => _ end) = _ => destruct x eqn:? end;
    try discriminate H; inversion H; subst; try discriminate T; cbn [fst snd o_names length pred]; rewrite ?app_length; cbn [length]; (split; [lia|first [exact I|lia]]). }
  destruct F as [F1 F2]. rewrite F1.
  assert (G : w_group (fst (fst rr)) = match t with TNamed _ => w_group w + 1 | _ => w_group w end).
  { clear F1 F2 H T HL HN r s. destruct t; try contradiction; crack H2; try (apply done_ok in H2; destruct H2 as (-> & _); cbn [w_group]; reflexivity). }
  rewrite G. destruct t; repeat split; lia.
Qed.
Lemma names_mono t s r : first_pass t s = Ok r -> snd r = true -> (length (o_names s) <= length (o_names (fst (fst r))))%nat.
Proof.
  intros H T. destruct t; cbn [first_pass] in H; unfold add1, fail1, push1, set_stack in H; cbv zeta in H;
    repeat match type of H with (if ?b then _ else _) = _ => destruct b eqn:? | context [if (?a <=? ?b)%nat then _ else _] => destruct (a <=? b)%nat | (match ?x with _ => _ end) = _ => destruct x eqn:? end;
    try discriminate H; inversion H; subst; try discriminate T; cbn [fst snd o_names]; rewrite ?app_length; lia.
Qed.
Lemma pass_names es : forall s m s' m', pass first_pass es s m = Ok (s', m', true) -> (length (o_names s) <= length (o_names s'))%nat.
Proof.
  induction es as [|[t|e] es IH]; intros s m s' m' H; cbn [pass] in H.
  - assert (s' = s) by congruence. subst. lia.
  - bind H r E. pose proof (names_mono _ _ _ E) as N. destruct r as [[s1 m1] ok]. destruct ok; [|discriminate H]. specialize (N eq_refl). cbn [fst] in N. apply IH in H. lia.
  - eapply IH, H.
Qed.
Lemma first_accept s r : first_pass TAccept s = Ok r -> snd r = true /\ snd (fst r) = None /\ o_stack (fst (fst r)) = List.tl (o_stack s).
Proof. cbn [first_pass]. unfold add1. intros H. inversion H. auto. Qed.
Section Two.
Variables (ng : Z) (M cap : nat) (st : Z) (nm : list (list Z)).
Hypothesis HM : (M = 1 /\ cap <= 64)%nat \/ (M = 2 /\ cap <= 1024)%nat.
Notation pass2 := (second_pass M cap st nm).
Lemma both_passes base mid : (3 <= length base)%nat -> forall s w s' w' m m' ok, Forall RxSize.inner_event mid -> tame mid -> pass first_pass (mid ++ [Tok TAccept]) s None = Ok (s', m, true) -> o_stack s' = [] -> Z.of_nat (length (o_names s')) + 1 <= ng ->
  Inv ng M cap base (o_repeatable s) w -> length (o_stack s) = length (w_stack w) -> w_group w = Z.of_nat (length (o_names s)) + 1 -> (length (o_names s) <= 254)%nat ->
  pass pass2 (mid ++ [Tok TAccept]) w None = Ok (w', m', ok) ->
  exists w1 rep, Inv ng M cap base rep w1 /\ (exists fr, w_stack w1 = [fr] /\ f_op fr = KStart) /\ pass2 TAccept w1 = Ok (w', None, true).
Proof.
  intros H3. induction mid as [|[t|e] mid IH]; intros s w s' w' m m' ok HI HT H HS Hng HV HL HG HN H2; cbn [app pass] in H, H2.
  - bind H r E. bind H2 r2 E2. destruct (second_true _ _ _ _ _ _ _ E2) as [T1 T2]. destruct r2 as [[w1 m1] ok1]. cbn [fst snd] in *. subst m1 ok1. assert (w1 = w') by congruence. subst w1.
    exists w, (o_repeatable s). split; [exact HV|]. split; [|exact E2]. apply first_accept in E. destruct E as (F1 & F2 & F3). destruct r as [[s1 m1] ok1]. cbn [fst snd] in F1, F2, F3. subst m1 ok1. assert (s1 = s') by congruence. subst s1. rewrite HS in F3.
    destruct HV as (pre & l & Y & X & HB & _). inversion HB as [fr l' B1 B2 B3 B4 B5|k' pre0 l0 Y0 fr op pre' l' B1 B2 B3 B4 B5 B6 B7 B8 B9]; [exists fr; auto|].
    exfalso. rewrite <- B9 in HL. assert (k' = []) by (destruct (o_stack s) as [|? l1]; cbn [List.tl length] in *; [discriminate HL|]; rewrite <- F3 in HL; destruct k'; [reflexivity|discriminate HL]). subst k'. inversion B1.
  - apply Forall_cons_iff in HI. destruct HI as [Hi HI]. apply Forall_cons_iff in HT. destruct HT as [Ht HT]. cbn [RxSize.inner_event] in Hi.
    bind H r E. bind H2 r2 E2. pose proof (first_rep t s r Hi E) as FR. pose proof (fun T => stack_len M cap st nm t s r w r2 Hi E T E2 HL) as SL. pose proof (fun T => groups M cap st nm t s r w r2 Hi E T E2 HG HN) as GR. destruct r as [[s1 m1] ok1]. destruct ok1; [|discriminate H]. cbn [fst snd] in *.
    destruct (FR eq_refl) as [F1 F2]. specialize (SL eq_refl). destruct (GR eq_refl) as (GR1 & GR2 & GR3). destruct (pass_err _ _ _ _ _ _ _ H eq_refl) as (_ & MM & _). rewrite MM in H.
    assert (HV' : Inv ng M cap base (repeatable t) (fst (fst r2))).
    { eapply step_code; [exact HM|exact H3|exact Ht| | | |exact HV|exact E2]; [intros ->; exact Hi|intros ->; exact Hi|]. assert (NM := pass_names _ _ _ _ _ H). destruct t; first [exact F2|exact I|split; [apply GR3|destruct GR3; lia]]. }
    destruct (second_true _ _ _ _ _ _ _ E2) as [T1 T2]. destruct r2 as [[w1 m2] ok2]. cbn [fst snd] in *. subst m2 ok2. eapply (IH s1 w1); try eassumption. rewrite F1. exact HV'.
  - exfalso. destruct (pass_err _ _ _ _ _ _ _ H eq_refl) as (_ & X & _). discriminate X.
Qed.
End Two.

(** ** The program *)
Lemma compile_code features reject re prog m : ordinary re -> short_program features reject re -> compile features reject re = Ok (Some prog, m) ->
  exists v1 v2 st mx a c names X, prog = whole v1 v2 st mx a c names X /\ coded (Z.of_nat (length names) + 1) X /\ small prog /\ 0 <= st < 2^29 /\ Forall (Forall fine) names /\ Forall (fun l => l <> []) names /\ (length names <= 254)%nat /\
    v2 = zob v2 + zob st + 3 + zl (flat_map string_bytes names) /\
    v1 = zob v1 + zob v2 + zob st + 3 + zl (flat_map string_bytes names) + 2 + zl X + 1 /\ a = - (zl X + 4) /\ c = - (zob a + 3).
Proof.
  intros HO HS H. unfold compile in H. cbv zeta in H. bind H es Es. unfold short_program, counted in HS. rewrite Es in HS. pose proof (scan_tame _ _ _ _ HO Es) as HT.
  bind H x Ex. destruct x as [[s m1] ok]. destruct ok; [|discriminate H]. cbn [negb] in H. destruct (o_stack s) eqn:Ek; [|discriminate H]. rewrite Ex, Ek in HS. specialize (HS _ _ _ eq_refl).
  pose proof (pass_counts _ _ _ _ _ HT Ex ltac:(unfold counts; cbn; repeat split; try lia; constructor)) as (C1 & C2 & C3 & C4 & C4' & C5).
  pose proof (sizes (o_bytes s) (o_offsets s) C1 C2 HS) as HM.
  set (ng := Z.of_nat (length (o_names s)) + 1).
  set (M := offset_max_bytes (o_bytes s) (o_offsets s)) in *. set (cap := Z.to_nat (allocated (o_bytes s) (o_offsets s) + 1)) in *.
  destruct (pass_err _ _ _ _ _ _ _ Ex eq_refl) as (_ & _ & HF). destruct (RxSize.scan_calm _ _ _ _ Es HF) as (mid & EM & HC). subst es. cbn [pass] in Ex. rewrite RxSize.first_start in Ex. cbn [obind] in Ex.
  bind H y Ey. destruct y as [[w m2] ok2]. cbn [pass] in Ey. bind Ey r1 E1. destruct (second_true _ _ _ _ _ _ _ E1) as [T1 T2].
  destruct (start_code ng M cap _ _ HM _ _ E1) as (v2 & mx & Hv2 & HI & HL).
  destruct r1 as [[w1 m3] ok3]. cbn [fst snd] in *. subst m3 ok3.
  apply Forall_cons_iff in HT. destruct HT as [_ HT]. apply Forall_app in HT. destruct HT as [HT _].
  assert (HW : length (w_stack w1) = 1%nat /\ w_group w1 = 1).
  { clear - E1. unfold second_pass in E1. cbv zeta in E1. apply obind_ok in E1. destruct E1 as (? & _ & E1). crack E1. apply done_ok in E1. destruct E1 as (E1 & _). cbn [fst] in E1. rewrite E1. split; reflexivity. }
  destruct (both_passes ng M cap (o_stations s) (o_names s) HM (base_of M (o_stations s) (o_names s) v2 mx) mid ltac:(unfold base_of; cbn [length]; rewrite !app_length; cbn [length]; lia) RxSize.oneS w1 s w m1 m2 ok2 HC HT Ex Ek ltac:(unfold ng; lia)) as (w2 & rep & HI2 & HK & HA).
  { exact HI. } { rewrite (proj1 HW). reflexivity. } { rewrite (proj2 HW). reflexivity. } { cbn. lia. } { exact Ey. }
  bind H b Eb. assert (b = prog) by (destruct ok2; congruence). subst b.
  destruct (accept_code ng M cap _ _ HM v2 mx rep w2 _ prog Hv2 HI2 HK HA Eb) as (v1 & a & c & X & P1 & P2 & P3 & P4 & P5 & P6).
  exists v1, v2, (o_stations s), mx, a, c, (o_names s), X. repeat (split; [first [assumption|lia]|]). assumption.
Qed.

(** ** Reading it *)
Lemma nbytes_fine l : Forall fine l -> nbytes l = zl (flat_map UTF8Put l).
Proof. intros _. unfold zl. rewrite RxSize.flat_put_len. reflexivity. Qed.
Lemma decode_fine l : Forall fine l -> forall f post n, n = length (flat_map UTF8Put l) -> (n <= f)%nat -> decode_loop f (flat_map UTF8Put l ++ post) n = Ok l.
Proof.
  induction 1 as [|c l H Hl IH]; intros f post n -> Hf; [destruct f; reflexivity|].
  cbn [flat_map] in *. rewrite app_length in *.
  assert (Hp : (0 < length (UTF8Put c))%nat) by (rewrite RxSize.utf8put_len; pose proof (RxSize.utf8len_range c); lia).
  destruct f as [|f]; [lia|]. rewrite decode_loop_S by lia. rewrite <- app_assoc, get_fine by exact H. cbn [obind].
  rewrite skipn_len by reflexivity. rewrite (IH f post) by lia. reflexivity.
Qed.
Lemma text_fine pre l post p : p = zl pre -> Forall fine l -> nbytes l < 2^31 -> text_at (pre ++ string_bytes l ++ post) p = Ok (l, p + zl (string_bytes l)).
Proof.
  intros -> Hl Hn. unfold text_at, string_bytes. rewrite <- app_assoc.
  pose proof (nbytes_fine l Hl) as E. pose proof (zl_pos (flat_map UTF8Put l)).
  rewrite get_at_put by lia. cbn [obind fst snd].
  rewrite app_assoc, skipn_len by (rewrite app_length; unfold zl; lia).
  rewrite decode_fine by (assumption || (rewrite E; unfold zl; lia)). cbn [obind]. rewrite zl_app. do 2 f_equal. lia.
Qed.
Lemma string_fine l : zl (string_bytes l) >= nbytes l.
Proof. unfold string_bytes. rewrite zl_app. unfold zl at 2. rewrite RxSize.flat_put_len. pose proof (zl_pos (UTF8Put (nbytes l))). lia. Qed.
Lemma names_fine names : Forall (Forall fine) names -> forall pre post p P, P = pre ++ flat_map string_bytes names ++ post -> small P -> p = zl pre ->
  names_at P (length names) p = Ok (names, p + zl (flat_map string_bytes names)).
Proof.
  induction 1 as [|l names Hl _ IH]; intros pre post p P HP HS Hp; [cbn [names_at length flat_map]; rewrite zl_nil, Z.add_0_r; reflexivity|].
  cbn [names_at length flat_map] in *. assert (E : P = pre ++ string_bytes l ++ flat_map string_bytes names ++ post) by (rewrite HP; rewrite <- app_assoc; reflexivity).
  assert (T : text_at P p = Ok (l, p + zl (string_bytes l))).
  { rewrite E. apply text_fine; [exact Hp|exact Hl|]. unfold small in HS. rewrite E, !zl_app in HS. pose proof (string_fine l). pose proof (zl_pos pre). pose proof (zl_pos (flat_map string_bytes names)). pose proof (zl_pos post). lia. }
  rewrite T. cbn [obind fst snd]. rewrite (IH (pre ++ string_bytes l) post (p + zl (string_bytes l)) P).
  - cbn [obind fst snd]. rewrite zl_app. do 2 f_equal. lia.
  - rewrite E. rewrite <- app_assoc. reflexivity.
  - exact HS.
  - rewrite zl_app. lia.
Qed.

Section Layout.
Variables (v1 v2 st mx a c : Z) (names : list (list Z)) (X P : list Z).
Hypothesis HP : P = whole v1 v2 st mx a c names X.
Hypothesis HS : small P.
Hypothesis Hst : 0 <= st < 2^29.
Hypothesis HN : Forall (Forall fine) names.
Hypothesis HN2 : (length names <= 254)%nat.
Let zn := zl (flat_map string_bytes names).
Let n := u8 (Z.of_nat (length names) + 1).
Hypothesis Hv2 : v2 = zob v2 + zob st + 3 + zn.
Hypothesis Hv1 : v1 = zob v1 + zob v2 + zob st + 3 + zn + 2 + zl X + 1.
Hypothesis Ha : a = - (zl X + 4).
Hypothesis Hc : c = - (zob a + 3).
Let start := 1 + zob v1 + zob v2 + zob st + 3 + zn.
Let rs := start + 2.
Let q := rs + zl X.
Let search := q + 1.
Let anyst := search + 1 + zob a.
Let jmp := anyst + 1.

Lemma sizes_pos : 0 <= zob v1 /\ 0 <= zob v2 /\ 0 <= zob st /\ 0 <= zob a /\ 0 <= zob c /\ 0 <= zn /\ 0 <= zl X /\ jmp + 1 + zob c + 1 < 2^29 /\ zl P = jmp + 1 + zob c + 1.
Proof.
  clear Hst HN HN2 Hv2 Hv1 Ha Hc. unfold small in HS. assert (E : zl P = jmp + 1 + zob c + 1).
  { rewrite HP. unfold whole. fold n. rewrite zl_cons, !zl_app. change (zl [mx; n; n]) with 3. change (zl [40; 1]) with 2. change (zl [35]) with 1. change (zl [65]) with 1.
    change (zl [46; 74]) with 2. change (zl [0]) with 1. unfold jmp, anyst, search, q, rs, start, zob, zn. lia. }
  unfold zob, zn. repeat split; try apply zl_pos; try (fold (zob c); lia).
Qed.
Let T6 := [46; 74] ++ offset_bytes c ++ [0].
Let T5 := [35] ++ [65] ++ offset_bytes a ++ T6.
Let T4 := [40; 1] ++ X ++ T5.
Let T35 := flat_map string_bytes names ++ T4.
Let T3 := mx :: n :: n :: T35.
Ltac shape := rewrite HP; unfold whole; fold n; unfold T3, T35, T4, T5, T6; repeat (rewrite <- app_assoc || rewrite <- app_comm_cons || rewrite app_nil_l); reflexivity.
Lemma whole_program : exists h, program P = Ok h /\ h_start h = start /\ h_search h = search /\ h_names h = names /\ h_stations h = s32 (zigzag st) /\ h_captures h = n.
Proof.
  destruct sizes_pos as (A1 & A2 & A3 & A4 & A5 & A5n & A6 & A7 & A8). unfold jmp, anyst, search, q, rs, start in *. unfold program.
  assert (E0 : P = [] ++ 83 :: offset_bytes v1 ++ offset_bytes v2 ++ offset_bytes st ++ T3) by shape.
  assert (E1 : P = [83] ++ offset_bytes v1 ++ offset_bytes v2 ++ offset_bytes st ++ T3) by shape.
  assert (E2 : P = (83 :: offset_bytes v1) ++ offset_bytes v2 ++ offset_bytes st ++ T3) by shape.
  assert (E3 : P = (83 :: offset_bytes v1 ++ offset_bytes v2) ++ offset_bytes st ++ T3) by shape.
  set (p4 := 83 :: offset_bytes v1 ++ offset_bytes v2 ++ offset_bytes st).
  assert (E4 : P = p4 ++ mx :: n :: n :: T35) by (unfold p4; shape).
  assert (E5 : P = (p4 ++ [mx]) ++ n :: n :: T35) by (unfold p4; shape).
  assert (E6 : P = (p4 ++ [mx; n]) ++ n :: T35) by (unfold p4; shape).
  assert (E7 : P = (p4 ++ [mx; n; n]) ++ flat_map string_bytes names ++ T4) by (unfold p4; shape).
  assert (Z4 : zl p4 = 1 + zob v1 + zob v2 + zob st) by (unfold p4; rewrite zl_cons, !zl_app; unfold zob; lia).
  assert (R0 : rdZ P 0 = Ok 83) by (rewrite E0; apply rdZ_mid; reflexivity). rewrite R0. cbn [obind Z.eqb Pos.eqb cassert].
  assert (R1 : offset_at P 1 = Ok (1 + v1, 1 + zob v1)) by (rewrite E1 at 1; apply offset_at_put; [reflexivity|lia|lia]). rewrite R1. cbn [obind fst snd].
  assert (R2 : offset_at P (1 + zob v1) = Ok (1 + zob v1 + v2, 1 + zob v1 + zob v2)) by (rewrite E2 at 1; apply offset_at_put; [rewrite zl_cons; reflexivity|lia|lia]). rewrite R2. cbn [obind fst snd].
  assert (R3 : get_at P (1 + zob v1 + zob v2) = Ok (zigzag st, 1 + zob v1 + zob v2 + zob st)).
  { rewrite E3 at 1. apply get_at_put; [rewrite zl_cons, zl_app; unfold zob; lia|apply zigzag_range; lia]. }
  rewrite R3. cbn [obind fst snd].
  assert (R4 : rdZ P (1 + zob v1 + zob v2 + zob st) = Ok mx) by (rewrite E4 at 1; apply rdZ_mid; lia). rewrite R4. cbn [obind].
  assert (R5 : rdZ P (1 + zob v1 + zob v2 + zob st + 1) = Ok n) by (rewrite E5 at 1; apply rdZ_mid; rewrite zl_app; change (zl [mx]) with 1; lia). rewrite R5. cbn [obind].
  assert (R6 : rdZ P (1 + zob v1 + zob v2 + zob st + 2) = Ok n) by (rewrite E6 at 1; apply rdZ_mid; rewrite zl_app; change (zl [mx; n]) with 2; lia). rewrite R6. cbn [obind].
  assert (Nn : Z.to_nat (n - 1) = length names) by (unfold n, u8; rewrite Z.mod_small by lia; lia). rewrite Nn.
  rewrite (names_fine names HN _ _ (1 + zob v1 + zob v2 + zob st + 3) P E7 HS) by (rewrite zl_app; change (zl [mx; n; n]) with 3; lia). cbn [obind fst snd]. fold zn.
  destruct (Z.eqb_spec (1 + zob v1 + v2) (1 + zob v1 + zob v2 + zob st + 3 + zn)); [|lia]. cbn [cassert].
  eexists. split; [reflexivity|]. cbn [h_start h_search h_names h_stations h_captures]. repeat split; lia.
Qed.
Let pre := 83 :: offset_bytes v1 ++ offset_bytes v2 ++ offset_bytes st ++ [mx; n; n] ++ flat_map string_bytes names ++ [40; 1].
Lemma whole_code : decode P start = Ok (ICapStart 0 rs) /\ decode P q = Ok IAccept /\ decode P search = Ok (ISplit start anyst) /\
  decode P anyst = Ok (IAny jmp) /\ decode P jmp = Ok (IJump search) /\ P = pre ++ X ++ T5 /\ zl pre = rs /\
  0 <= start /\ start < rs /\ rs <= q /\ q < search /\ search < anyst /\ anyst < jmp /\ jmp < zl P.
Proof.
  clear Hst HN HN2 Hv2 Hv1. destruct sizes_pos as (A1 & A2 & A3 & A4 & A5 & A5n & A6 & A7 & A8). unfold jmp, anyst, search, q, rs, start in *.
  set (p4 := 83 :: offset_bytes v1 ++ offset_bytes v2 ++ offset_bytes st ++ [mx; n; n] ++ flat_map string_bytes names).
  assert (Z4 : zl p4 = 1 + zob v1 + zob v2 + zob st + 3 + zn) by (unfold p4; rewrite zl_cons, !zl_app; change (zl [mx; n; n]) with 3; unfold zob, zn; lia).
  assert (E4 : P = p4 ++ 40 :: 1 :: X ++ T5) by (unfold p4; shape).
  assert (E4' : P = (p4 ++ [40]) ++ 1 :: X ++ T5) by (unfold p4; shape).
  set (p5 := p4 ++ [40; 1] ++ X).
  assert (Z5 : zl p5 = 1 + zob v1 + zob v2 + zob st + 3 + zn + 2 + zl X) by (unfold p5; rewrite !zl_app; change (zl [40; 1]) with 2; lia).
  assert (E5 : P = p5 ++ 35 :: 65 :: offset_bytes a ++ T6) by (unfold p5, p4; shape).
  assert (E6 : P = (p5 ++ [35]) ++ (65 :: offset_bytes a) ++ T6) by (unfold p5, p4; shape).
  set (p7 := p5 ++ [35] ++ 65 :: offset_bytes a).
  assert (Z7 : zl p7 = 1 + zob v1 + zob v2 + zob st + 3 + zn + 2 + zl X + 1 + 1 + zob a) by (unfold p7; rewrite (zl_app p5), Z5, zl_app, !zl_cons, zl_nil; unfold zob in *; lia).
  assert (E7 : P = p7 ++ 46 :: 74 :: offset_bytes c ++ [0]) by (unfold p7, p5, p4; shape).
  assert (E8 : P = (p7 ++ [46]) ++ (74 :: offset_bytes c) ++ [0]) by (unfold p7, p5, p4; shape).
  repeat match goal with |- _ /\ _ => split end.
  - unfold decode. rewrite E4 at 1. rewrite rdZ_mid by lia. cbn [obind Z.eqb Pos.eqb]. rewrite E4' at 1. rewrite rdZ_mid by (rewrite zl_snoc; lia). cbn [obind]. f_equal. f_equal; lia.
  - unfold decode. rewrite E5 at 1. rewrite rdZ_mid by lia. reflexivity.
  - pose proof (decode_split _ _ _ _ E6 HS) as D. rewrite zl_snoc, Z5 in D. rewrite D by lia. f_equal. f_equal; unfold zob in *; lia.
  - unfold decode. rewrite E7 at 1. rewrite rdZ_mid by lia. reflexivity.
  - pose proof (decode_jump _ _ _ _ E8 HS) as D. rewrite zl_snoc, Z7 in D. rewrite D by lia. f_equal. f_equal. lia.
  - unfold pre. shape.
  - unfold pre. rewrite zl_cons, !zl_app. change (zl [mx; n; n]) with 3. change (zl [40; 1]) with 2. unfold zob, zn. lia.
  - lia.
  - lia.
  - lia.
  - lia.
  - lia.
  - lia.
  - lia.
Qed.
End Layout.

Lemma program_code features reject re prog m : ordinary re -> short_program features reject re -> compile features reject re = Ok (Some prog, m) ->
  exists h X pre post start rs q search anyst jmp,
    program prog = Ok h /\ h_start h = start /\ h_search h = search /\ (exists ng, coded ng X) /\ small prog /\
    decode prog start = Ok (ICapStart 0 rs) /\ decode prog q = Ok IAccept /\ decode prog search = Ok (ISplit start anyst) /\
    decode prog anyst = Ok (IAny jmp) /\ decode prog jmp = Ok (IJump search) /\ prog = pre ++ X ++ post /\ zl pre = rs /\ q = rs + zl X /\
    0 <= start /\ start < rs /\ rs <= q /\ q < search /\ search < anyst /\ anyst < jmp /\ jmp < zl prog.
Proof.
  intros HO HS H. destruct (compile_code _ _ _ _ _ HO HS H) as (v1 & v2 & st & mx & a & c & names & X & HP & HX & HSm & Hst & HN & HNE & HN2 & Hv2 & Hv1 & Ha & Hc).
  destruct (whole_program v1 v2 st mx a c names X prog HP HSm Hst HN HN2 Hv2 Hv1) as (h & P1 & P2 & P3 & _).
  destruct (whole_code v1 v2 st mx a c names X prog HP HSm Ha Hc) as (D1 & D2 & D3 & D4 & D5 & E & Ez & L0 & L1 & L2 & L3 & L4 & L5 & L6).
  exists h, X. do 8 eexists. split; [exact P1|]. split; [exact P2|]. split; [exact P3|]. split; [eexists; exact HX|]. split; [exact HSm|].
  split; [exact D1|]. split; [exact D2|]. split; [exact D3|]. split; [exact D4|]. split; [exact D5|]. split; [exact E|]. split; [exact Ez|]. split; [reflexivity|].
  repeat (split; [assumption|]). assumption.
Qed.
