(** StringArray::join (strval.h 1187-1222), on the heap of string bodies. *)
From Verif Require Import Base RefModel RefProofs UTF8Model UTF8Spec UTF8Proofs ArrayModel ArraySpec ArrayProofs ArrayRead StrModel StrSpec StrText StrHeap StrState StrOps StrEdit StrMore StrJson StrInv.
From Verif Require ArrayHeap ArrayOps CharTables CharModel CharSpec CharProofs.
From Coq Require Import Permutation.
Ltac Zify.zify_post_hook ::= Z.div_mod_to_equations.

(** ** Model *)

(** StrVal(const StrRef&), which elem returns (strval.h 396-399, 1226-1227): a
    new handle on the same body. *)
Definition elem_val (h : sheap) (e : sval) : outcome (sheap * sval) :=
  do h1 <- saddref h (v_body e);
  Ok (h1, {| v_body := v_body e; v_off := v_off e; v_len := v_len e; v_mk := (0, 0) |}).

(** strval.h 1219-1220: joined += joiner + StrVal(elem(i)); the two temporaries
    go at the end of the expression. *)
Fixpoint join_loop (h : sheap) (joined j : sval) (es : list sval) : outcome (sheap * sval) :=
  match es with
  | [] => Ok (h, joined)
  | e :: es =>
    do a <- elem_val h e;
    let (h1, te) := a : sheap * sval in
    do b <- plus h1 j te;
    let (h2, tp) := b : sheap * sval in
    do c <- add_eq h2 joined tp false;
    let (h3, joined) := c : sheap * sval in
    do h4 <- srelease h3 (v_body tp);
    do h5 <- srelease h4 (v_body te);
    join_loop h5 joined j es
  end.
(** strval.h 1213-1215 *)
Definition result_length (j : sval) (e0 : sval) (es : list sval) : Z :=
  fold_left (fun n e => u32 (n + u32 (v_len j + v_len e))) es (v_len e0).
(** strval.h 1207-1222.  The elements and the joiner are handles of the caller;
    the temporaries that only give their length() are left out. *)
Definition join (h : sheap) (els : list sval) (j : sval) : outcome (sheap * sval) :=
  match els with
  | [] => make_lit h [] false
  | e0 :: es =>
    do a <- elem_val h e0;
    let (h1, t0) := a : sheap * sval in
    do b <- as_utf8 h1 t0;
    let '(h2, t0, p) := b : sheap * sval * Z in
    do c <- num_bytes h2 t0;
    let (h3, nb) := c : sheap * Z in
    do m <- sv_mem h3 t0;
    if p <? 0 then UB
    else
      do d <- make h3 (skipn (Z.to_nat p) m) nb (u32 (result_length j e0 es + 1));
      let (h4, joined) := d : sheap * sval in
      do r <- join_loop h4 joined j es;
      let (h5, joined) := r : sheap * sval in
      do h6 <- srelease h5 (v_body t0);
      Ok (h6, joined)
  end.

(** ** Proofs *)
Implicit Types (h : sheap) (s t w e j : sval) (hs : list sval).

Definition from hs s : Prop := v_off s = 0 \/ exists u, In u hs /\ v_body u = v_body s.
Lemma from_wr h s hs hs' : RC h (s :: hs) -> from hs' s -> incl hs' hs -> wr_ok h s.
Proof.
  intros R [O|(u & I & E)] IN; [left; exact O|]. right. destruct R as [A B]. inversion B as [|? ? [a Ha] _]; subst.
  destruct (arr_sget _ _ _ Ha) as (x & SX & EX). exists x. split; [exact SX|]. rewrite EX. destruct (A _ _ Ha) as [RR _]. rewrite RR, cnt_cons, Nat.eqb_refl.
  assert (C := cnt_in (v_body s) hs u (IN u I) E). unfold stat. destruct (b_static a); lia.
Qed.

Lemma elem_val_ok h e hs chs : BG h -> RC h hs -> vin h e chs -> exists h' t, elem_val h e = Ok (h', t) /\ BG h' /\ vin h' t chs /\
  v_body t = v_body e /\ v_off t = v_off e /\ v_len t = v_len e /\ RC h' (t :: hs) /\ keep h h' hs.
Proof.
  intros G R V. assert (V0 := V). destruct V0 as ((x & SX & BX) & O & L & OL & M). unfold elem_val.
  destruct (saddref_ok h _ x G SX) as (h1 & E1 & G1 & SX1). rewrite E1. cbn [obind].
  set (t := {| v_body := v_body e; v_off := v_off e; v_len := v_len e; v_mk := (0, 0) |}).
  destruct (addref_rc h _ h1 hs t R E1 eq_refl) as (R1 & K1 & _). exists h1, t. split; [reflexivity|]. split; [exact G1|]. split.
  - eapply (vin_nomark h1 e); try reflexivity; try assumption. eapply addref_view; [exact G1|exact E1|exact SX|]. exists x. auto.
  - auto 10.
Qed.

Lemma add_eq_src h s w hs h' s' : RC h (s :: hs) -> add_eq h s w false = Ok (h', s') -> s' = w \/ v_off s' = 0 \/ v_body s' = v_body s /\ v_off s' = v_off s.
Proof.
  intros R H. unfold add_eq in H. apply obind_ok in H as (x & _ & H). destruct (_ && _).
  - destruct (assign_rc _ _ _ _ _ _ R H) as (_ & _ & _ & ->). auto.
  - right. unfold insert in H. destruct (_ && _).
    + injection H as _ <-. cbn. auto.
    + apply obind_ok in H as ([h1 s1] & U & H). cbv beta iota zeta in H. destruct (unshare_rc _ _ _ _ _ R U) as (_ & _ & _ & _ & C).
      apply obind_ok in H as (ra & _ & H). apply obind_ok in H as (rb & _ & H). destruct (snd ra); [|discriminate]. destruct (snd rb); [|discriminate].
      apply obind_ok in H as (m & _ & H). apply obind_ok in H as ([[h2 s2] p] & N1 & H). apply obind_ok in H as ([[h3 s3] q] & N2 & H).
      destruct p; [|discriminate]. destruct q; [|discriminate]. apply obind_ok in H as (x1 & _ & H). apply obind_ok in H as (x2 & _ & H). injection H as _ <-.
      cbn [v_off v_body]. apply nth_m_sim in N1. apply nth_m_sim in N2. destruct N1 as (_ & A1 & A2 & _). destruct N2 as (_ & B1 & B2 & _). rewrite B1, B2, A1, A2.
      destruct C as [[-> _]|[_ ->]]; auto.
Qed.
Lemma make_off h data n al h' s' : make h data n al = Ok (h', s') -> v_off s' = 0.
Proof.
  unfold make. destruct (n =? 0); intros H.
  - apply obind_ok in H as (h1 & _ & H). apply obind_ok in H as (x & _ & H). apply obind_ok in H as (r & _ & H). injection H as _ <-. reflexivity.
  - apply obind_ok in H as (y & _ & H). apply obind_ok in H as (r & _ & H). injection H as _ <-. reflexivity.
Qed.
Lemma plus_src h s w hs h' r : RC h hs -> plus h s w = Ok (h', r) -> v_off r = 0 \/ v_body r = v_body s \/ r = w.
Proof.
  intros R H. unfold plus in H. destruct (_ && _).
  - apply obind_ok in H as (h1 & _ & H). injection H as _ <-. cbn. auto.
  - apply obind_ok in H as (r1 & N1 & H). destruct (snd r1); [|discriminate]. apply obind_ok in H as (r2 & N2 & H). apply obind_ok in H as (r3 & N3 & H).
    apply obind_ok in H as (m & _ & H). destruct (_ <? 0); [discriminate|]. apply obind_ok in H as ([h4 t] & M & H).
    assert (S : hsim h (fst r3)).
    { eapply hsim_trans; [eapply nth_c_sim; exact N1|]. eapply hsim_trans; [eapply num_bytes_sim; exact N2|eapply num_bytes_sim; exact N3]. }
    destruct (make_rc _ _ _ _ _ _ _ (hsim_RC _ _ _ S R) M) as (R4 & _). apply make_off in M.
    destruct (add_eq_src _ _ _ _ _ _ R4 H) as [->|[O|[_ O]]]; auto. left. congruence.
Qed.

Definition elem_ok (K : nat) h e : Prop := exists chs, vin h e chs /\ tight e chs /\ (length (enc chs) <= K)%nat.
(** The text of a handle, as a list *)
Definition txt h s : list Z := match val_text h s with Some t => t | None => [] end.
Lemma vin_txt h s chs : vin h s chs -> txt h s = vtext s chs.
Proof. intros V. unfold txt. rewrite (vin_text _ _ _ V). reflexivity. Qed.
Lemma keep_txt h h' hs e K : BG h' -> keep h h' hs -> In e hs -> elem_ok K h e -> elem_ok K h' e /\ txt h' e = txt h e.
Proof.
  intros G KP I (chs & V & TI & LK). assert (V' := keep_vin_in _ _ _ _ _ G KP I V). split; [exists chs; auto|]. rewrite (vin_txt _ _ _ V), (vin_txt _ _ _ V'). reflexivity.
Qed.

Definition bytes (l : list Z) : nat := length (enc l).
Definition sum (l : list (list Z)) : nat := fold_right (fun x n => bytes x + n)%nat O l.

Lemma join_loop_ok hs j K : In j hs -> In null_val hs -> forall es h joined cr, incl es hs ->
  BG h -> RC h (joined :: hs) -> null_ok h -> elem_ok K h j -> Forall (elem_ok K h) es -> vin h joined cr -> tight joined cr -> from hs joined ->
  Z.of_nat (Nat.max (length (enc cr)) K + (length es * bytes (txt h j) + sum (map (txt h) es))) < 2^30 ->
  exists h' r cs, join_loop h joined j es = Ok (h', r) /\ BG h' /\ RC h' (r :: hs) /\ keep h h' hs /\ vin h' r cs /\
    vtext r cs = vtext joined cr ++ flat_map (fun e => txt h j ++ txt h e) es.
Proof.
  intros IJ IN. induction es as [|e es IH]; intros h joined cr IE G R NO EJ FE V TI FR LB; cbn [join_loop].
  - exists h, joined, cr. cbn [flat_map]. rewrite app_nil_r. split; [reflexivity|]. split; [exact G|]. split; [exact R|]. split; [apply keep_refl|]. auto.
  - inversion FE as [|? ? EE FE']; subst. assert (I1 : In e hs) by (apply IE; left; reflexivity).
    destruct EE as (ce & VE & TE & KE). destruct EJ as (cj & VJ & TJ & KJ).
    destruct (elem_val_ok h e _ ce G R VE) as (h1 & te & -> & G1 & V1 & B1 & O1 & L1 & R1 & K1). cbn [obind].
    assert (T1 : vtext te ce = vtext e ce) by (unfold vtext; congruence).
    assert (VJ1 : vin h1 j cj) by (eapply keep_vin_in; [exact G1|exact K1|right; exact IJ|exact VJ]).
    assert (NO1 : null_ok h1) by (eapply keep_vin_in; [exact G1|exact K1|right; exact IN|exact NO]).
    assert (XJ := vin_txt _ _ _ VJ). assert (XE := vin_txt _ _ _ VE).
    cbn [length map sum fold_right] in LB. fold (sum (map (txt h) es)) in LB. rewrite XJ, XE in LB. unfold bytes in LB. cbn [Nat.mul] in LB.
    destruct (plus_ok h1 j te (te :: joined :: hs) cj ce G1 R1 NO1 (or_introl eq_refl) VJ1 V1 TJ) as (h2 & tp & cp & E2 & G2 & V2 & T2 & TP & LP).
    { unfold tight. rewrite L1. exact TE. }
    { rewrite T1. lia. }
    rewrite E2. cbn [obind]. assert (SR := plus_src _ _ _ _ _ _ R1 E2). destruct (plus_rc _ _ _ _ _ _ R1 (or_introl eq_refl) E2) as (R2 & K2 & _).
    assert (P2 : Permutation (tp :: te :: joined :: hs) (joined :: tp :: te :: hs)) by (eapply perm_trans; [apply perm_skip, perm_swap|apply perm_swap]).
    assert (R2' := RC_perm _ _ _ P2 R2).
    assert (VJO : vin h2 joined cr).
    { eapply keep_vin_in; [exact G2|exact K2|right; left; reflexivity|]. eapply keep_vin_in; [exact G1|exact K1|left; reflexivity|exact V]. }
    assert (W : wr_ok h2 joined) by (eapply from_wr; [exact R2'|exact FR|intros u Hu; right; right; exact Hu]).
    rewrite T1 in *. assert (LT : length (enc (vtext tp cp)) = (length (enc (vtext j cj)) + length (enc (vtext e ce)))%nat) by (rewrite T2, enc_app, app_length; reflexivity).
    destruct (add_eq_ok h2 joined (tp :: te :: hs) tp cr cp G2 R2' (or_introl eq_refl) VJO V2 W ltac:(lia)) as (h3 & jo & c3 & E3 & G3 & V3 & T3 & _ & L3 & TI3).
    rewrite E3. cbn [obind]. assert (S3 := add_eq_src _ _ _ _ _ _ R2' E3). destruct (add_eq_rc _ _ _ _ _ _ _ R2' E3) as (R3 & K3 & _).
    assert (R3' : RC h3 (tp :: te :: jo :: hs)) by (eapply RC_perm; [|exact R3]; eapply perm_trans; [apply perm_swap|apply perm_skip, perm_swap]).
    destruct (srelease_ok _ _ _ G3 R3') as (h4 & E4 & G4). rewrite E4. cbn [obind]. destruct (release_rc _ _ _ _ R3' E4) as (R4 & K4 & _).
    destruct (srelease_ok _ _ _ G4 R4) as (h5 & E5 & G5). rewrite E5. cbn [obind]. destruct (release_rc _ _ _ _ R4 E5) as (R5 & K5 & _).
    assert (K15 : keep h h5 hs).
    { eapply keep_trans; [exact (keep_tl _ _ _ _ K1)|]. eapply keep_trans; [exact (keep_tl _ _ _ _ (keep_tl _ _ _ _ K2))|]. eapply keep_trans; [exact (keep_tl _ _ _ _ (keep_tl _ _ _ _ K3))|].
      eapply keep_trans; [exact (keep_tl _ _ _ _ (keep_tl _ _ _ _ K4))|exact (keep_tl _ _ _ _ K5)]. }
    assert (V5 : vin h5 jo c3).
    { eapply keep_vin; [exact G5|exact (keep_hd _ _ _ _ K5)|]. eapply keep_vin; [exact G4|exact (keep_hd _ _ _ _ (keep_tl _ _ _ _ K4))|exact V3]. }
    assert (F5 : from hs jo).
    { destruct S3 as [->|[O|[EB EO]]].
      - destruct SR as [O|[EB| ->]]; [left; exact O|right; exists j; auto|right; exists e; auto].
      - left. exact O.
      - destruct FR as [O|(u & Iu & Eu)]; [left; congruence|right; exists u; split; [exact Iu|congruence]]. }
    assert (KT : forall x, In x hs -> elem_ok K h x -> elem_ok K h5 x /\ txt h5 x = txt h x) by (intros x Ix; apply (keep_txt _ _ hs); assumption).
    assert (EJ : elem_ok K h j) by (exists cj; auto).
    assert (IE' : incl es hs) by (intros x Hx; apply IE; right; exact Hx).
    assert (ME : map (txt h5) es = map (txt h) es).
    { apply map_ext_in. intros x Hx. rewrite Forall_forall in FE'. apply KT; auto. }
    destruct (IH h5 jo c3 IE' G5 R5) as (h6 & r & cs & E6 & G6 & R6 & K6 & V6 & T6).
    + eapply keep_vin_in; [exact G5|exact K15|exact IN|exact NO].
    + apply KT; assumption.
    + apply Forall_forall. intros x Hx. rewrite Forall_forall in FE'. apply KT; auto.
    + exact V5.
    + apply TI3; assumption.
    + exact F5.
    + rewrite ME. destruct (KT j IJ EJ) as [_ ->]. unfold bytes. rewrite XJ. destruct L3 as [L3|[_ ->]]; lia.
    + exists h6, r, cs. split; [exact E6|]. split; [exact G6|]. split; [exact R6|]. split; [eapply keep_trans; [exact K15|exact K6]|]. split; [exact V6|].
      rewrite T6, T3, T2, <- app_assoc. f_equal. cbn [flat_map]. destruct (KT j IJ EJ) as [_ ->]. rewrite XJ, XE, !flat_map_concat_map.
      f_equal. f_equal. apply map_ext_in. intros x Hx. rewrite Forall_forall in FE'. destruct (KT x (IE' x Hx) (FE' x Hx)) as [_ ->]. reflexivity.
Qed.

Lemma result_length_bound j es : forall n, 0 <= n -> 0 <= v_len j -> Forall (fun e => 0 <= v_len e) es ->
  0 <= fold_left (fun n e => u32 (n + u32 (v_len j + v_len e))) es n <= n + Z.of_nat (length es) * v_len j + fold_right (fun e m => v_len e + m) 0 es.
Proof.
  induction es as [|e es IH]; intros n Hn Hj F; cbn [fold_left fold_right length].
  - lia.
  - inversion F as [|? ? He F']; subst. specialize (IH (u32 (n + u32 (v_len j + v_len e))) ltac:(unfold u32; lia) Hj F').
    assert (U : u32 (n + u32 (v_len j + v_len e)) <= n + v_len j + v_len e) by (unfold u32; lia). lia.
Qed.

Lemma join_ok hs els j K h : In j hs -> In null_val hs -> incl els hs -> BG h -> RC h hs -> null_ok h -> elem_ok K h j -> Forall (elem_ok K h) els ->
  Z.of_nat (K + (length els * bytes (txt h j) + sum (map (txt h) els))) < 2^30 ->
  exists h' r, join h els j = Ok (h', r) /\ RC h' (r :: hs) /\ keep h h' hs /\ BG h' /\
    val_text h' r = Some (match els with [] => [] | e0 :: es => txt h e0 ++ flat_map (fun e => txt h j ++ txt h e) es end).
Proof.
  intros IJ IN IE G R NO EJ FE LB. unfold join. destruct els as [|e0 es].
  - destruct (make_lit_ok h [] false hs G R NO) as (h' & s' & E & X); try constructor; try (cbn; lia).
    exists h', s'. change (enc []) with (@nil Z) in E. split; [exact E|]. destruct (make_lit_rc _ _ _ _ _ _ R E) as [R' K']. split; [exact R'|]. split; [exact K'|].
    destruct X as (G' & V' & T'). split; [exact G'|]. rewrite (vin_text _ _ _ V'). rewrite T'. reflexivity.
  - inversion FE as [|? ? EE FE']; subst. assert (EJ0 := EJ). destruct EE as (ce & VE & TE & KE). destruct EJ as (cj & VJ & TJ & KJ).
    assert (I0 : In e0 hs) by (apply IE; left; reflexivity).
    destruct (elem_val_ok h e0 _ ce G R VE) as (h1 & t0 & -> & G1 & V1 & B1 & O1 & L1 & R1 & K1). cbn [obind].
    assert (T1 : vtext t0 ce = vtext e0 ce) by (unfold vtext; congruence).
    destruct (as_utf8_ok h1 t0 hs ce G1 R1 V1) as (h2 & t1 & c2 & p & E2 & G2 & V2 & T2 & TI2 & M2 & S2); [unfold tight; rewrite L1; exact TE|].
    rewrite E2. cbn [obind]. destruct (as_utf8_rc _ _ _ _ _ _ R1 E2) as [R2 K2].
    destruct (num_bytes_ok h2 t1 c2 G2 V2) as (h3 & E3 & G3 & S3 & V3). rewrite E3. cbn [obind]. rewrite (sv_mem_ok _ _ _ V3). cbn [obind].
    destruct (Z.ltb_spec (Z.of_nat p) 0); [lia|]. rewrite Nat2Z.id, S2, T2, T1.
    assert (R3 := hsim_RC _ _ _ S3 R2). assert (K13 : keep h h3 hs).
    { eapply keep_trans; [exact K1|]. eapply keep_trans; [exact K2|exact (keep_tl _ _ _ _ (hsim_keep _ _ (t1 :: hs) S3))]. }
    assert (NO3 : null_ok h3) by (eapply keep_vin_in; [exact G3|exact K13|exact IN|exact NO]).
    set (x0 := vtext e0 ce) in *. assert (X0 : txt h e0 = x0) by (apply vin_txt; exact VE).
    assert (G0 : Forall good x0) by (unfold x0; apply good_slice; destruct VE as ((x & _ & BX) & _); apply BX).
    cbn [length map sum fold_right Nat.mul] in LB. fold (sum (map (txt h) es)) in LB. rewrite X0 in LB. unfold bytes at 1 2 in LB.
    assert (RL : 0 <= u32 (result_length j e0 es + 1) < 2^31).
    { assert (LL : forall e, elem_ok K h e -> 0 <= v_len e <= Z.of_nat (bytes (txt h e))).
      { intros e (c & Vc & _ & _). rewrite (vin_txt _ _ _ Vc). assert (LV := vtext_len _ _ _ Vc). destruct Vc as ((x & _ & BX) & _ & L & _). split; [exact L|].
        assert (GG : Forall good (vtext e c)) by (apply good_slice; apply BX). assert (LE := enc_len_ge _ GG). unfold bytes. lia. }
      assert (LS : forall l, Forall (elem_ok K h) l -> fold_right (fun e m => v_len e + m) 0 l <= Z.of_nat (sum (map (txt h) l))).
      { induction l as [|a l IHl]; intros F; cbn [fold_right map sum]; [lia|]. inversion F; subst. fold (sum (map (txt h) l)). specialize (LL a ltac:(assumption)). specialize (IHl ltac:(assumption)). lia. }
      assert (LJ := LL j EJ0). assert (L0 := LL e0 ltac:(exists ce; auto)). rewrite X0 in L0. specialize (LS es FE').
      assert (RB := result_length_bound j es (v_len e0) ltac:(lia) ltac:(lia) ltac:(eapply Forall_impl; [|exact FE']; intros a Ha; specialize (LL a Ha); lia)).
      fold (result_length j e0 es) in RB. unfold bytes in *.
      assert (Z.of_nat (length es) * v_len j <= Z.of_nat (length es * length (enc (txt h j)))) by (rewrite Nat2Z.inj_mul; apply Z.mul_le_mono_nonneg_l; lia).
      unfold u32. lia. }
    assert (MK : exists h4 jo, make h3 (enc x0 ++ [0]) (Z.of_nat (length (enc x0))) (u32 (result_length j e0 es + 1)) = Ok (h4, jo) /\ BG h4 /\ vin h4 jo x0 /\ vtext jo x0 = x0 /\ v_off jo = 0).
    { destruct (Z.eq_dec (Z.of_nat (length (enc x0))) 0) as [E0|NE].
      - assert (Y := enc_nonempty _ G0 E0). rewrite E0, Y.
        destruct (make_null_ok h3 (enc [] ++ [0]) (u32 (result_length j e0 es + 1)) _ G3 R3 NO3) as (h4 & t & E4 & G4 & V4 & O4 & L4).
        exists h4, t. split; [exact E4|]. split; [exact G4|]. split; [exact V4|]. split; [unfold vtext; rewrite O4, L4; reflexivity|exact O4].
      - destruct (make_ok h3 x0 0 [] (u32 (result_length j e0 es + 1)) _ G3 R3 G0) as (h4 & t & E4 & G4 & V4 & T4 & O4); [intros E; rewrite E in NE; apply NE; reflexivity| |exact RL|].
        + unfold bytes in LB. lia.
        + exists h4, t. auto. }
    destruct MK as (h4 & jo & E4 & G4 & V4 & T4 & O4). rewrite E4. cbn [obind]. destruct (make_rc _ _ _ _ _ _ _ R3 E4) as (R4 & K4 & _).
    assert (K14 : keep h h4 hs) by (eapply keep_trans; [exact K13|exact (keep_tl _ _ _ _ K4)]).
    assert (KT : forall x, In x hs -> elem_ok K h x -> elem_ok K h4 x /\ txt h4 x = txt h x) by (intros x Ix; apply (keep_txt _ _ hs); assumption).
    assert (IE' : incl es hs) by (intros x Hx; apply IE; right; exact Hx).
    assert (ME : map (txt h4) es = map (txt h) es) by (apply map_ext_in; intros x Hx; rewrite Forall_forall in FE'; apply KT; auto).
    assert (TIJ : tight jo x0).
    { intros E. apply vtext_len in V4. rewrite T4 in V4. destruct x0; [reflexivity|cbn [length] in V4; lia]. }
    destruct (join_loop_ok (t1 :: hs) j K (or_intror IJ) (or_intror IN) es h4 jo x0) as (h5 & r & cs & E5 & G5 & R5 & K5 & V5 & T5).
    + intros x Hx. right. apply IE'. exact Hx.
    + exact G4.
    + exact R4.
    + eapply keep_vin_in; [exact G4|exact K14|exact IN|exact NO].
    + apply KT; assumption.
    + apply Forall_forall. intros x Hx. rewrite Forall_forall in FE'. apply KT; auto.
    + exact V4.
    + exact TIJ.
    + left. exact O4.
    + rewrite ME. destruct (KT j IJ EJ0) as [_ ->]. unfold bytes in *. lia.
    + rewrite E5. cbn [obind]. assert (R5' : RC h5 (t1 :: r :: hs)) by (eapply RC_perm; [apply perm_swap|exact R5]).
      destruct (srelease_ok _ _ _ G5 R5') as (h6 & E6 & G6). rewrite E6. cbn [obind]. destruct (release_rc _ _ _ _ R5' E6) as (R6 & K6 & _).
      exists h6, r. split; [reflexivity|]. split; [exact R6|]. split; [eapply keep_trans; [exact K14|]; eapply keep_trans; [exact (keep_tl _ _ _ _ K5)|exact (keep_tl _ _ _ _ K6)]|]. split; [exact G6|].
      rewrite (vin_text h6 r cs); [|eapply keep_vin; [exact G6|exact (keep_hd _ _ _ _ K6)|exact V5]]. f_equal. rewrite T5, T4. rewrite <- X0. f_equal.
      rewrite !flat_map_concat_map. f_equal. apply map_ext_in. intros x Hx. rewrite Forall_forall in FE'. destruct (KT j IJ EJ0) as [_ ->]. destruct (KT x (IE' x Hx) (FE' x Hx)) as [_ ->]. reflexivity.
Qed.
