(** Programs on strings compute on texts. *)
From Verif Require Import Base RefModel RefProofs UTF8Model UTF8Spec UTF8Proofs ArrayModel ArraySpec ArrayProofs ArrayRead StrModel StrSpec StrText StrHeap StrState StrOps StrEdit StrMore StrJson.
From Verif Require ArrayHeap ArrayOps CharTables CharModel CharSpec CharProofs.
From Coq Require Import Permutation.
Ltac Zify.zify_post_hook ::= Z.div_mod_to_equations.

Definition vok (h : sheap) (s : sval) : Prop := exists chs, vin h s chs /\ tight s chs.
Definition Inv (st : sstate) : Prop := RCS st /\ BG (sh st) /\ null_ok (sh st) /\ Forall (vok (sh st)) (sv st).

Lemma plain_good c : plain c <-> good c.
Proof. unfold plain, good, ucs4, replacement. lia. Qed.
Lemma plain_all l : Forall plain l <-> Forall good l.
Proof. rewrite !Forall_forall. split; intros H c Hc; apply plain_good; auto. Qed.
Lemma case_of_casec up ch : case_of up ch = casec up ch.
Proof. reflexivity. Qed.

Lemma keep_vok h h' hs s : BG h' -> keep h h' hs -> In s hs -> vok h s -> vok h' s.
Proof. intros G K I (chs & V & TI). exists chs. split; [eapply keep_vin_in; eassumption|exact TI]. Qed.

Lemma inv_vok st v s : Inv st -> nth_error (sv st) v = Some s -> exists chs, vin (sh st) s chs /\ tight s chs /\ T st v = vtext s chs /\ body_text st v = chs /\
  Z.of_nat (length (T st v)) = v_len s.
Proof.
  intros (_ & _ & _ & F) E. rewrite Forall_forall in F. destruct (F s (nth_error_In _ _ E)) as (chs & V & TI). exists chs. split; [exact V|]. split; [exact TI|].
  assert (ET : T st v = vtext s chs) by (unfold T, text; rewrite E, (vin_text _ _ _ V); reflexivity).
  split; [exact ET|]. split; [|rewrite ET; eapply vtext_len; exact V]. unfold body_text. rewrite E. destruct V as ((x & SX & BX) & _). apply sget_ok in SX. rewrite SX, (bchars_body _ _ BX). reflexivity.
Qed.

Lemma sassign_inv st d old h t cs : Inv st -> nth_error (sv st) d = Some old ->
  RC h (t :: null_val :: sv st) -> keep (sh st) h (null_val :: sv st) -> BG h -> vin h t cs -> tight t cs ->
  exists st', sassign st d (Ok (h, t)) = Ok st' /\ Inv st' /\ T st' d = vtext t cs /\ text st' d = Some (vtext t cs).
Proof.
  intros (R & G & NO & F) ED R1 K1 G1 V1 TI. unfold sassign. rewrite ED. cbn [obind].
  assert (V1' := V1). destruct V1' as ((x & SX & BX) & _).
  destruct (saddref_ok h _ x G1 SX) as (h1 & E1 & G2 & SX1). rewrite E1. cbn [obind].
  destruct (addref_rc h (v_body t) h1 _ t R1 E1 eq_refl) as (R2 & K2 & L2 & _).
  destruct (take st d old ED R) as (hs & _ & I1 & O1 & NI & P1).
  assert (PO : Permutation (null_val :: sv st) (old :: hs)).
  { rewrite (P1 old). assert (U : upd (sv st) d old = sv st) by (clear -ED; revert d ED; induction (sv st) as [|a l IH]; intros [|d] E; cbn in *; try discriminate; [congruence|f_equal; auto]). rewrite U. reflexivity. }
  assert (R2' : RC h1 (old :: t :: t :: hs)).
  { eapply RC_perm; [|exact R2]. eapply perm_trans; [apply perm_skip, perm_skip, PO|]. eapply perm_trans; [apply perm_skip, perm_swap|]. apply perm_swap. }
  destruct (srelease_ok _ _ _ G2 R2') as (h2 & E2 & G3). rewrite E2. cbn [obind]. destruct (release_rc h1 old h2 _ R2' E2) as (R3 & K3 & L3).
  destruct (srelease_ok _ _ _ G3 R3) as (h3 & E3 & G4). rewrite E3. cbn [obind]. destruct (release_rc h2 t h3 _ R3 E3) as (R4 & K4 & L4).
  assert (KT : obits h3 (v_body t) = obits h (v_body t)) by (rewrite (keep_hd _ _ _ _ K4), (keep_hd _ _ _ _ K3); exact (keep_hd _ _ _ _ K2)).
  assert (VT : vin h3 t cs) by (eapply keep_vin; [exact G4|exact KT|exact V1]).
  assert (KH : keep (sh st) h3 hs).
  { eapply keep_trans; [exact (keep_sub _ _ _ _ I1 K1)|]. eapply keep_trans; [eapply keep_sub; [|exact K2]; intros u Hu; right; apply I1; exact Hu|].
    eapply keep_trans; [exact (keep_tl _ _ _ _ (keep_tl _ _ _ _ K3))|exact (keep_tl _ _ _ _ K4)]. }
  eexists. split; [reflexivity|].
  assert (TX : text {| sh := h3; sv := upd (sv st) d t |} d = Some (vtext t cs)).
  { unfold text. cbn [sv sh]. rewrite (nth_upd_eq _ _ _ _ ED). apply vin_text. exact VT. }
  split; [|split; [unfold T; rewrite TX; reflexivity|exact TX]].
  split; [unfold RCS; cbn [sh sv]; eapply RC_perm; [apply P1|exact R4]|]. cbn [sh sv]. split; [exact G4|].
  split; [eapply keep_vin_in; [exact G4|exact KH|exact NI|exact NO]|].
  apply Forall_forall. intros u Hu. apply In_nth_error in Hu as (i & Hi). destruct (Nat.eq_dec i d) as [->|N].
  - rewrite (nth_upd_eq _ _ _ _ ED) in Hi. injection Hi as <-. exists cs. auto.
  - rewrite nth_upd_ne in Hi by congruence. eapply keep_vok; [exact G4|exact KH|eapply O1; [exact N|exact Hi]|]. rewrite Forall_forall in F. apply F. eapply nth_error_In. exact Hi.
Qed.

Lemma sstore_inv st v s r : Inv st -> nth_error (sv st) v = Some s ->
  (forall hs, RC (sh st) (s :: hs) -> In null_val hs -> (forall u t, u <> v -> nth_error (sv st) u = Some t -> In t hs) ->
     exists h' s' cs, r = Ok (h', s') /\ RC h' (s' :: hs) /\ keep (sh st) h' hs /\ BG h' /\ vin h' s' cs /\ tight s' cs) ->
  exists st' h' s' cs, sstore st v r = Ok st' /\ r = Ok (h', s') /\ vin h' s' cs /\ Inv st' /\ T st' v = vtext s' cs /\ text st' v = Some (vtext s' cs).
Proof.
  intros (R & G & NO & F) EV HH. destruct (take st v s EV R) as (hs & R1 & I1 & O1 & NI & P1).
  destruct (HH hs R1 NI O1) as (h' & s' & cs & -> & R2 & K2 & G2 & V2 & TI). unfold sstore. cbn [obind fst snd]. do 2 eexists. exists s', cs. split; [reflexivity|]. split; [reflexivity|]. split; [exact V2|].
  assert (TX : text {| sh := h'; sv := upd (sv st) v s' |} v = Some (vtext s' cs)).
  { unfold text. cbn [sv sh]. rewrite (nth_upd_eq _ _ _ _ EV). apply vin_text. exact V2. }
  split; [|split; [unfold T; rewrite TX; reflexivity|exact TX]].
  split; [unfold RCS; cbn [sh sv]; eapply RC_perm; [apply P1|exact R2]|]. cbn [sh sv]. split; [exact G2|].
  split; [eapply keep_vin_in; [exact G2|exact K2|exact NI|exact NO]|].
  apply Forall_forall. intros u Hu. apply In_nth_error in Hu as (i & Hi). destruct (Nat.eq_dec i v) as [->|N].
  - rewrite (nth_upd_eq _ _ _ _ EV) in Hi. injection Hi as <-. exists cs. auto.
  - rewrite nth_upd_ne in Hi by congruence. eapply keep_vok; [exact G2|exact K2|eapply O1; [exact N|exact Hi]|]. rewrite Forall_forall in F. apply F. eapply nth_error_In. exact Hi.
Qed.

Lemma sub_spec (t : list Z) n at_ len : n = Z.of_nat (length t) -> 0 <= at_ -> l_slice t (Z.to_nat at_) (Z.to_nat (sub_len n at_ len)) = t_substr t at_ len.
Proof.
  intros -> Ha. unfold t_substr, sub_len, l_slice. set (L := skipn (Z.to_nat at_) t). assert (LL : length L = (length t - Z.to_nat at_)%nat) by apply skipn_length.
  destruct (Z.eqb_spec len (-1)).
  - subst len. change (-1 <? -1) with false. change (-1 =? 0) with false. change (-1 >? 0) with false. cbn [orb]. destruct (Z.geb_spec at_ (Z.of_nat (length t))).
    + destruct L; [rewrite !firstn_nil; reflexivity|cbn [length] in LL; lia].
    + rewrite (firstn_all2 L (n := Z.to_nat (Z.of_nat (length t) - at_))) by lia. rewrite (firstn_all2 L (n := length t)) by lia. reflexivity.
  - destruct ((len <? -1) || (len =? 0) || (at_ >=? Z.of_nat (length t))) eqn:C.
    + cbn [Z.to_nat firstn]. destruct (Z.ltb_spec len 0); [replace (Z.to_nat len) with 0%nat by lia; reflexivity|].
      destruct (Z.eqb_spec len 0); [subst; reflexivity|]. assert (length L = 0%nat) by lia. destruct L; [rewrite firstn_nil; reflexivity|cbn [length] in *; lia].
    + destruct (Z.gtb_spec len 0); [|lia]. destruct (Z.leb_spec len (Z.of_nat (length t) - at_)).
      * rewrite Z.min_l by lia. reflexivity.
      * rewrite Z.min_r by lia. rewrite (firstn_all2 L) by lia. rewrite firstn_all2 by lia. reflexivity.
Qed.

Lemma utf8_good bs : utf8 bs -> exists cs, bs = enc cs /\ Forall good cs /\ decode_all bs = Ok cs.
Proof. intros (cs & -> & P). apply plain_all in P. exists cs. split; [reflexivity|]. split; [exact P|apply decode_enc; exact P]. Qed.
Lemma nonzero_chars cs : ~ In 0 (enc cs) -> Forall (fun c => c <> 0) cs.
Proof.
  induction cs as [|c cs IH]; intros H; constructor.
  - intros ->. apply H. rewrite enc_cons, put_zero. left. reflexivity.
  - apply IH. intros I. apply H. rewrite enc_cons. apply in_app_iff. right. exact I.
Qed.

Lemma front_wr st v s chs : nth_error (sv st) v = Some s -> vin (sh st) s chs -> at_front st v -> wr_ok (sh st) s.
Proof.
  intros E V (s2 & x & E2 & EX & C). rewrite E in E2. injection E2 as <-. destruct C as [C|C]; [left; exact C|right]. exists x. split; [apply sget_ok; exact EX|lia].
Qed.
Lemma covers_whole st v s chs : nth_error (sv st) v = Some s -> body_text st v = chs -> covers st v -> whole s chs \/ shared (sh st) s.
Proof.
  intros E EB (s2 & x & E2 & EX & C). rewrite E in E2. injection E2 as <-. rewrite EB in C. destruct C as [C|C]; [left; exact C|right]. exists x. split; [apply sget_ok; exact EX|lia].
Qed.

Lemma step_inv st o : Inv st -> Forall (fun v => (v < length (sv st))%nat) (operands o) -> step_ok st o ->
  exists st', sstep st o = Ok st' /\ Inv st' /\ text st' (starget o) = Some (expected (T st) o).
Proof.
  intros I OPS SO. assert (I0 := I). destruct I0 as (R & G & NO & F). assert (INN : In null_val (null_val :: sv st)) by (left; reflexivity).
  assert (VAR : forall v, In v (operands o) -> exists s, nth_error (sv st) v = Some s).
  { intros v Hv. rewrite Forall_forall in OPS. exact (nth_some_lt _ _ (OPS v Hv)). }
  destruct o; cbn [sstep starget operands step_ok expected] in *.
  - destruct SO as (U & NZ & LB). destruct (VAR d (or_introl eq_refl)) as [old ED]. destruct (utf8_good _ U) as (cs & EB & GC & DC). rewrite DC. subst bs.
    destruct (make_lit_ok (sh st) cs static _ G R NO GC (nonzero_chars _ NZ) LB) as (h1 & t & E1 & G1 & V1 & T1). rewrite E1.
    destruct (make_lit_rc _ _ _ _ _ _ R E1) as [R1 K1].
    destruct (sassign_inv st d old h1 t cs I ED R1 K1 G1 V1) as (st' & E2 & I2 & _ & TX).
    { intros E. apply vtext_len in V1. rewrite T1 in V1. destruct cs; [reflexivity|cbn [length] in V1; lia]. }
    exists st'. rewrite TX, T1. auto.
  - destruct SO as (U & LB & AL). destruct (VAR d (or_introl eq_refl)) as [old ED]. destruct (utf8_good _ U) as (cs & EB & GC & DC). rewrite DC. subst bs.
    destruct (list_eq_dec Z.eq_dec cs []) as [->|NE].
    + rewrite enc_nil. cbn [app length Z.of_nat]. destruct (make_null_ok (sh st) [0] al _ G R NO) as (h1 & t & E1 & G1 & V1 & O1 & L1). rewrite E1.
      destruct (make_rc _ _ _ _ _ _ _ R E1) as (R1 & K1 & _).
      destruct (sassign_inv st d old h1 t [] I ED R1 K1 G1 V1 ltac:(intros _; reflexivity)) as (st' & E2 & I2 & _ & TX).
      exists st'. rewrite TX. unfold vtext. rewrite O1, L1. auto.
    + destruct (make_ok (sh st) cs 0 [] al _ G R GC NE LB AL) as (h1 & t & E1 & G1 & V1 & T1 & O1). rewrite E1. destruct (make_rc _ _ _ _ _ _ _ R E1) as (R1 & K1 & _).
      destruct (sassign_inv st d old h1 t cs I ED R1 K1 G1 V1) as (st' & E2 & I2 & _ & TX).
      { intros E. apply vtext_len in V1. rewrite T1 in V1. destruct cs; [reflexivity|cbn [length] in V1; lia]. }
      exists st'. rewrite TX, T1. auto.
  - apply plain_good in SO. destruct (VAR d (or_introl eq_refl)) as [old ED].
    destruct (make_char_ok (sh st) ch _ G R SO) as (h1 & t & E1 & G1 & V1 & T1). rewrite E1. destruct (make_char_rc _ _ _ _ _ R E1) as [R1 K1].
    destruct (sassign_inv st d old h1 t [ch] I ED R1 K1 G1 V1) as (st' & E2 & I2 & _ & TX).
    { intros E. apply vtext_len in V1. rewrite T1 in V1. cbn [length] in V1. lia. }
    exists st'. rewrite TX, T1. auto.
  - destruct (VAR d (or_introl eq_refl)) as [old ED]. destruct (VAR v (or_intror (or_introl eq_refl))) as [s EV]. rewrite EV, ED.
    destruct (inv_vok st v s I EV) as (chs & V & TI & ET & _). destruct (Nat.eq_dec v d) as [->|ND].
    + assert (old = s) by congruence. subst old.
      destruct (sstore_inv st d s (assign_val (sh st) s s) I EV) as (st' & h' & s' & cs & E & ER & V' & I' & TX & TXT).
      { intros hs R1 NI O1. assert (V0 := V). destruct V0 as ((x & SX & BX) & _). unfold assign_val.
        destruct (saddref_ok (sh st) _ x G SX) as (h1 & E1 & G1 & SX1). rewrite E1. cbn [obind].
        destruct (addref_rc (sh st) _ h1 _ s R1 E1 eq_refl) as (R2 & K2 & L2 & OB).
        destruct (srelease_ok _ _ _ G1 R2) as (h2 & E2 & G2). rewrite E2. cbn [obind]. destruct (release_rc _ _ _ _ R2 E2) as (R3 & K3 & _).
        exists h2, s, chs. split; [reflexivity|]. split; [exact R3|]. split; [eapply keep_trans; [exact (keep_tl _ _ _ _ K2)|exact (keep_tl _ _ _ _ K3)]|].
        split; [exact G2|]. split; [|exact TI]. eapply keep_vin; [exact G2|rewrite (keep_hd _ _ _ _ K3); exact OB|exact V]. }
      exists st'. split; [exact E|]. split; [exact I'|]. rewrite TXT, ET. f_equal.
      assert (S' : s' = s). { unfold assign_val in ER. apply obind_ok in ER as (? & _ & ER). apply obind_ok in ER as (? & _ & ER). congruence. }
      subst s'. f_equal. unfold assign_val in ER. apply obind_ok in ER as (hh & A1 & ER). apply obind_ok in ER as (hh2 & A2 & ER). injection ER as <-.
      destruct (take st d s EV R) as (hs & R1 & _ & _ & _ & _).
      destruct (addref_rc (sh st) _ hh _ s R1 A1 eq_refl) as (R2 & K2 & _ & OB). destruct (release_rc _ _ _ _ R2 A2) as (R3 & K3 & _).
      eapply bview_fun; [apply V'|]. destruct V as (BV & _). destruct I' as (_ & GG & _). 
      assert (GG2 : BG hh2). { unfold sstore, assign_val in E. rewrite A1 in E. cbn [obind] in E. rewrite A2 in E. cbn [obind] in E. injection E as <-. exact GG. }
      eapply keep_bview; [exact GG2|rewrite (keep_hd _ _ _ _ K3); exact OB|exact BV].
    + destruct (sstore_inv st d old (assign_val (sh st) old s) I ED) as (st' & h' & s' & cs & E & ER & V' & I' & TX & TXT).
      { intros hs R1 NI O1. destruct (assign_ok (sh st) old hs s chs G R1 V (O1 v s ND EV)) as (h1 & E1 & G1 & V1).
        destruct (assign_rc _ _ _ _ _ _ R1 E1) as (R2 & K2 & _). exists h1, s, chs. auto 10. }
      exists st'. split; [exact E|]. split; [exact I'|]. rewrite TXT, ET. f_equal.
      destruct (take st d old ED R) as (hs & R1 & _ & O1 & _ & _). destruct (assign_ok (sh st) old hs s chs G R1 V (O1 v s ND EV)) as (h1 & E1 & G1 & V1).
      rewrite E1 in ER. injection ER as <- <-. f_equal. eapply bview_fun; [apply V'|apply V1].
  - destruct (VAR d (or_introl eq_refl)) as [old ED]. destruct (VAR v (or_intror (or_introl eq_refl))) as [s EV]. rewrite EV.
    destruct (inv_vok st v s I EV) as (chs & V & TI & ET & _).
    destruct (copy_val_ok (sh st) s _ chs G R V) as (h1 & t & cs & E1 & G1 & V1 & T1 & L1 & _ & _ & INC & _). rewrite E1. destruct (copy_val_rc _ _ _ _ _ R E1) as (R1 & K1 & _).
    destruct (sassign_inv st d old h1 t cs I ED R1 K1 G1 V1) as (st' & E2 & I2 & _ & TX).
    { intros E. rewrite L1 in E. rewrite (TI E) in INC. apply incl_nil_r in INC. exact INC. }
    exists st'. rewrite TX, T1, ET. auto.
  - destruct SO as [SA SL]. destruct (VAR d (or_introl eq_refl)) as [old ED]. destruct (VAR v (or_intror (or_introl eq_refl))) as [s EV]. rewrite EV.
    destruct (inv_vok st v s I EV) as (chs & V & TI & ET & _ & EL).
    destruct (substr_ok (sh st) s _ chs at_ len [] G R V NO SA SL) as (h1 & t & cs & E1 & G1 & V1 & T1 & NZ). rewrite E1. destruct (substr_rc _ _ _ _ _ _ _ R E1) as [R1 K1].
    destruct (sassign_inv st d old h1 t cs I ED R1 K1 G1 V1) as (st' & E2 & I2 & _ & TX).
    { intros E. destruct NZ as [NZ|NZ]; [lia|apply incl_nil_r in NZ; exact NZ]. }
    exists st'. split; [exact E2|]. split; [exact I2|]. rewrite TX, T1, <- ET. f_equal. apply sub_spec; lia.
  - destruct (VAR d (or_introl eq_refl)) as [old ED]. destruct (VAR v (or_intror (or_introl eq_refl))) as [s EV]. destruct (VAR w (or_intror (or_intror (or_introl eq_refl)))) as [t EW]. rewrite EV, EW.
    destruct (inv_vok st v s I EV) as (chs & V & TI & ET & _). destruct (inv_vok st w t I EW) as (cw & VW & TW & ETW & _). unfold nbytes in SO. rewrite ET, ETW in *.
    destruct (plus_ok (sh st) s t _ chs cw G R NO (in_vars _ _ _ EW) V VW TI TW ltac:(lia)) as (h1 & r & cs & E1 & G1 & V1 & T1 & TR & _). rewrite E1.
    destruct (plus_rc _ _ _ _ _ _ R (in_vars _ _ _ EW) E1) as (R1 & K1 & _). destruct (sassign_inv st d old h1 r cs I ED R1 K1 G1 V1 TR) as (st' & E2 & I2 & _ & TX).
    exists st'. rewrite TX, T1. auto.
  - destruct SO as [PC LB]. apply plain_good in PC. destruct (VAR d (or_introl eq_refl)) as [old ED]. destruct (VAR v (or_intror (or_introl eq_refl))) as [s EV]. rewrite EV.
    destruct (inv_vok st v s I EV) as (chs & V & TI & ET & _). unfold nbytes in LB. rewrite ET in *. assert (PL := put_len_pos _ PC).
    destruct (plus_char_ok (sh st) s _ chs ch G R NO (in_vars _ _ _ EV) INN V TI PC ltac:(lia)) as (h1 & r & cs & E1 & G1 & V1 & T1 & TR). rewrite E1.
    assert (NZ : (0 < length (sh st))%nat) by (exact (Nat.le_lt_trans _ _ _ (Nat.le_0_l _) (RC_lt _ _ null_val R (or_introl eq_refl)))).
    destruct (plus_char_rc _ _ _ _ _ _ R NZ (in_vars _ _ _ EV) E1) as (R1 & K1). destruct (sassign_inv st d old h1 r cs I ED R1 K1 G1 V1 TR) as (st' & E2 & I2 & _ & TX).
    exists st'. rewrite TX, T1. auto.
  - destruct (VAR d (or_introl eq_refl)) as [old ED]. destruct (VAR v (or_intror (or_introl eq_refl))) as [s EV]. rewrite EV, ED.
    destruct (inv_vok st v s I EV) as (chs & V & TI & ET & EB & _). unfold nbytes in SO. rewrite ET, EB in *.
    destruct (times_ok (sh st) s _ chs n G R NO (in_vars _ _ _ EV) V TI ltac:(nia)) as (h1 & s1 & r & cs & E1 & G1 & V1 & T1 & TR & VS1 & F1 & F2 & F3). rewrite E1. cbn [obind].
    destruct (times_rc _ _ _ _ _ _ _ R E1) as (R1 & K1 & _).
    destruct (take st v s EV R) as (hs & RV & I1 & O1 & NI & P1).
    set (st1 := {| sh := h1; sv := upd (sv st) v s1 |}).
    assert (PV : Permutation (null_val :: sv st) (s :: hs)).
    { rewrite (P1 s). assert (U : upd (sv st) v s = sv st) by (clear -EV; revert v EV; induction (sv st) as [|a l IH]; intros [|d] E; cbn in *; try discriminate; [congruence|f_equal; auto]). rewrite U. reflexivity. }
    assert (R1' : RC h1 (s1 :: r :: hs)).
    { eapply RC_body; [exact F1|]. eapply RC_perm; [|exact R1]. eapply perm_trans; [apply perm_skip, PV|apply perm_swap]. }
    assert (R1'' : RC h1 (r :: null_val :: sv st1)).
    { eapply RC_perm; [|exact R1']. eapply perm_trans; [apply perm_swap|]. apply perm_skip. apply P1. }
    (* a state whose heap already has the result, seen without it *)
    unfold sassign. destruct (nth_error (sv st1) d) as [old1|] eqn:ED1.
    2:{ apply nth_error_None in ED1. cbn [st1 sv] in ED1. rewrite upd_length in ED1. apply nth_lt in ED. lia. }
    cbn [obind]. assert (V1' := V1). destruct V1' as ((x & SX & BX) & _).
    destruct (saddref_ok h1 _ x G1 SX) as (h2 & E2 & G2 & SX2). rewrite E2. cbn [obind].
    destruct (addref_rc h1 (v_body r) h2 _ r R1'' E2 eq_refl) as (R2 & K2 & L2 & _).
    destruct (ArrayState.split_at _ _ _ ED1) as (l1 & l2 & EL & LL).
    assert (R2' : RC h2 (old1 :: r :: r :: null_val :: l1 ++ l2)).
    { eapply RC_perm; [|exact R2]. rewrite EL.
      eapply perm_trans; [apply perm_skip, perm_skip, perm_skip, ArrayState.perm_mid|].
      eapply perm_trans; [apply perm_skip, perm_skip, perm_swap|]. eapply perm_trans; [apply perm_skip, perm_swap|]. apply perm_swap. }
    destruct (srelease_ok _ _ _ G2 R2') as (h3 & E3 & G3). rewrite E3. cbn [obind]. destruct (release_rc h2 old1 h3 _ R2' E3) as (R3 & K3 & L3).
    destruct (srelease_ok _ _ _ G3 R3) as (h4 & E4 & G4). rewrite E4. cbn [obind]. destruct (release_rc h3 r h4 _ R3 E4) as (R4 & K4 & L4).
    assert (KA : keep h1 h4 (null_val :: l1 ++ l2)).
    { eapply keep_trans; [|eapply keep_trans; [exact (keep_tl _ _ _ _ (keep_tl _ _ _ _ K3))|exact (keep_tl _ _ _ _ K4)]].
      eapply keep_sub; [|exact K2]. intros u [<-|Hu]; right; [left; reflexivity|right]. rewrite EL. apply in_app_iff in Hu. apply in_app_iff. destruct Hu; [left|right; right]; assumption. }
    assert (VR : vin h4 r cs) by (eapply keep_vin; [exact G4|rewrite (keep_hd _ _ _ _ K4), (keep_hd _ _ _ _ K3); exact (keep_hd _ _ _ _ K2)|exact V1]).
    eexists. split; [reflexivity|].
    assert (TX : text {| sh := h4; sv := upd (sv st1) d r |} d = Some (vtext r cs)).
    { unfold text. cbn [sv sh]. rewrite (nth_upd_eq _ _ _ _ ED1). apply vin_text. exact VR. }
    split; [|rewrite TX, T1; reflexivity].
    split; [unfold RCS; cbn [sh sv]; rewrite EL, <- LL, ArrayState.upd_split; eapply RC_perm; [|exact R4]; eapply perm_trans; [apply perm_swap|]; apply perm_skip; apply Permutation_middle|].
    cbn [sh sv]. split; [exact G4|].
    assert (NO1 : null_ok h1) by (eapply keep_vin_in; [exact G1|exact K1|left; reflexivity|exact NO]).
    split; [eapply keep_vin_in; [exact G4|exact KA|left; reflexivity|exact NO1]|].
    apply Forall_forall. intros u Hu. apply In_nth_error in Hu as (i & Hi). destruct (Nat.eq_dec i d) as [->|N].
    + rewrite (nth_upd_eq _ _ _ _ ED1) in Hi. injection Hi as <-. exists cs. auto.
    + rewrite nth_upd_ne in Hi by congruence.
      assert (IT : In u (null_val :: l1 ++ l2)).
      { right. rewrite EL in Hi. destruct (Nat.lt_ge_cases i (length l1)).
        - rewrite nth_error_app1 in Hi by assumption. apply in_app_iff. left. eapply nth_error_In; exact Hi.
        - rewrite nth_error_app2 in Hi by assumption. destruct (i - length l1)%nat eqn:K; [lia|]. apply in_app_iff. right. eapply nth_error_In; exact Hi. }
      eapply keep_vok; [exact G4|exact KA|exact IT|]. cbn [st1 sv] in Hi. destruct (Nat.eq_dec i v) as [->|NV].
      * rewrite (nth_upd_eq _ _ _ _ EV) in Hi. injection Hi as <-. exists chs. split; [exact VS1|]. unfold tight. rewrite F3. exact TI.
      * rewrite nth_upd_ne in Hi by congruence. eapply keep_vok; [exact G1|exact K1|right; eapply nth_error_In; exact Hi|]. rewrite Forall_forall in F. apply F. eapply nth_error_In. exact Hi.
  - destruct (VAR d (or_introl eq_refl)) as [old ED]. destruct (VAR v (or_intror (or_introl eq_refl))) as [s EV]. rewrite EV.
    destruct (inv_vok st v s I EV) as (chs & V & TI & ET & EB & _). unfold nbytes in SO. rewrite EB in SO.
    destruct (as_case_ok upper (sh st) s _ chs G R (in_vars _ _ _ EV) V TI SO) as (h1 & t & cs & E1 & G1 & V1 & T1 & TR). rewrite E1.
    destruct (as_case_rc _ _ _ _ _ _ R E1) as [R1 K1]. destruct (sassign_inv st d old h1 t cs I ED R1 K1 G1 V1 TR) as (st' & E2 & I2 & _ & TX).
    exists st'. rewrite TX, T1, ET. auto.
  - destruct SO as [SM SO]. destruct (VAR d (or_introl eq_refl)) as [old ED]. destruct (VAR v (or_intror (or_introl eq_refl))) as [s EV]. rewrite EV.
    destruct (inv_vok st v s I EV) as (chs & V & TI & ET & EB & _). unfold nbytes in SO. rewrite EB in SO. rewrite ET in SM.
    destruct (as_json_ok (sh st) s _ chs G R (in_vars _ _ _ EV) V TI SM SO) as (h1 & t & cs & E1 & G1 & V1 & T1 & TR). rewrite E1.
    destruct (as_json_rc _ _ _ _ _ R E1) as [R1 K1]. destruct (sassign_inv st d old h1 t cs I ED R1 K1 G1 V1 TR) as (st' & E2 & I2 & _ & TX).
    exists st'. rewrite TX, T1, ET. auto.
  - destruct SO as (NVW & HP & FR & MK & LB). destruct (VAR v (or_introl eq_refl)) as [s EV]. destruct (VAR w (or_intror (or_introl eq_refl))) as [t EW]. rewrite EV, EW.
    destruct (Nat.eqb_spec v w); [contradiction|].
    destruct (inv_vok st v s I EV) as (chs & V & TI & ET & EB & EL). destruct (inv_vok st w t I EW) as (cw & VW & TW & ETW & _). unfold nbytes in LB. rewrite EB, ETW in *.
    assert (FR' := front_wr _ _ _ _ EV V FR).
    assert (MK' : mark_le s pos \/ ascii chs /\ ascii (vtext t cw)).
    { destruct MK as [(s2 & E2 & C)|MK]; [left|right; exact MK]. rewrite EV in E2. injection E2 as <-. exact C. }
    destruct (take st v s EV R) as (hs0 & RV & _ & O1 & NI & _).
    destruct (insert_ok (sh st) s hs0 t chs cw pos G RV (O1 w t ltac:(congruence) EW) V VW ltac:(lia) FR' MK' ltac:(lia)) as (h1 & s1 & cs & E1 & G1 & V1 & T1 & _ & _ & INC).
    assert (TR : tight s1 cs).
    { eapply tight_insert; [exact V1|exact INC| |exact TI|exact TW]. assert (A := vtext_len _ _ _ V1). assert (B := vtext_len _ _ _ VW). assert (C := vtext_len _ _ _ V). rewrite T1, length_insert in A by lia. lia. }
    destruct (sstore_inv st v s (insert (sh st) s pos t false) I EV) as (st' & h' & s' & cs' & E & ER & V' & I' & TX & TXT).
    { intros hs R1 _ _. destruct (insert_rc _ _ _ _ _ _ _ _ R1 E1) as (R2 & K2 & _). exists h1, s1, cs. auto 10. }
    rewrite E1 in ER. injection ER as <- <-. exists st'. split; [exact E|]. split; [exact I'|]. rewrite TXT, ET. f_equal. rewrite <- T1. f_equal. eapply bview_fun; [apply V'|apply V1].
  - destruct SO as (NVW & FR & LB). destruct (VAR v (or_introl eq_refl)) as [s EV]. destruct (VAR w (or_intror (or_introl eq_refl))) as [t EW]. rewrite EV, EW.
    destruct (Nat.eqb_spec v w); [contradiction|].
    destruct (inv_vok st v s I EV) as (chs & V & TI & ET & EB & EL). destruct (inv_vok st w t I EW) as (cw & VW & TW & ETW & _). unfold nbytes in LB. rewrite EB, ETW in *.
    assert (FR' := front_wr _ _ _ _ EV V FR). destruct (take st v s EV R) as (hs0 & RV & _ & O1 & NI & _).
    destruct (add_eq_ok (sh st) s hs0 t chs cw G RV (O1 w t ltac:(congruence) EW) V VW FR' ltac:(lia)) as (h1 & s1 & cs & E1 & G1 & V1 & T1 & _ & _ & TR).
    destruct (sstore_inv st v s (add_eq (sh st) s t false) I EV) as (st' & h' & s' & cs' & E & ER & V' & I' & TX & TXT).
    { intros hs R1 _ _. destruct (add_eq_rc _ _ _ _ _ _ _ R1 E1) as (R2 & K2 & _). exists h1, s1, cs. auto 10. }
    rewrite E1 in ER. injection ER as <- <-. exists st'. split; [exact E|]. split; [exact I'|]. rewrite TXT, ET. f_equal. rewrite <- T1. f_equal. eapply bview_fun; [apply V'|apply V1].
  - destruct SO as (PC & FR & LB). apply plain_good in PC. destruct (VAR v (or_introl eq_refl)) as [s EV]. rewrite EV.
    destruct (inv_vok st v s I EV) as (chs & V & TI & ET & EB & EL). unfold nbytes in LB. rewrite EB in *. assert (PL := put_len_pos _ PC).
    assert (FR' := front_wr _ _ _ _ EV V FR). destruct (take st v s EV R) as (hs0 & RV & _).
    destruct (add_eq_char_ok (sh st) s hs0 chs ch G RV V TI FR' PC ltac:(lia)) as (h1 & s1 & cs & E1 & G1 & V1 & T1 & TR).
    destruct (sstore_inv st v s (add_eq_char (sh st) s ch) I EV) as (st' & h' & s' & cs' & E & ER & V' & I' & TX & TXT).
    { intros hs R1 _ _. destruct (add_eq_char_rc _ _ _ _ _ _ R1 E1) as (R2 & K2). exists h1, s1, cs. auto 10. }
    rewrite E1 in ER. injection ER as <- <-. exists st'. split; [exact E|]. split; [exact I'|]. rewrite TXT, ET. f_equal. rewrite <- T1. f_equal. eapply bview_fun; [apply V'|apply V1].
  - destruct SO as (CV & MK & LB). destruct (VAR v (or_introl eq_refl)) as [s EV]. rewrite EV.
    destruct (inv_vok st v s I EV) as (chs & V & TI & ET & EB & EL). unfold nbytes in LB. assert (CV' := covers_whole _ _ _ _ EV EB CV). rewrite EB in *.
    assert (MK' : mark_none s \/ ascii chs).
    { destruct MK as [(s2 & E2 & C)|MK]; [left|right; exact MK]. rewrite EV in E2. injection E2 as <-. exact C. }
    destruct (take st v s EV R) as (hs0 & RV & _).
    assert (LB' : 7 * Z.of_nat (length chs) < 2^30) by (destruct V as ((z & _ & BZ) & _); assert (X := enc_len_ge _ (proj1 BZ)); lia).
    destruct (to_case_ok upper (sh st) s hs0 chs G RV V TI CV' MK' LB') as (h1 & s1 & cs & E1 & G1 & V1 & T1 & TR & _).
    destruct (sstore_inv st v s (to_case upper (sh st) s) I EV) as (st' & h' & s' & cs' & E & ER & V' & I' & TX & TXT).
    { intros hs R1 _ _. destruct (to_case_rc _ _ _ _ _ _ R1 E1) as (R2 & K2). exists h1, s1, cs. auto 10. }
    rewrite E1 in ER. injection ER as <- <-. exists st'. split; [exact E|]. split; [exact I'|]. rewrite TXT, ET. f_equal. change (map (case_of upper) (vtext s chs)) with (map (casec upper) (vtext s chs)). rewrite <- T1. f_equal. eapply bview_fun; [apply V'|apply V1].
  - destruct SO as (SM & CV & MK & LB). destruct (VAR v (or_introl eq_refl)) as [s EV]. rewrite EV.
    destruct (inv_vok st v s I EV) as (chs & V & TI & ET & EB & EL). unfold nbytes in LB. assert (CV' := covers_whole _ _ _ _ EV EB CV). rewrite EB in *. rewrite ET in SM.
    assert (MK' : mark_none s \/ ascii chs).
    { destruct MK as [(s2 & E2 & C)|MK]; [left|right; exact MK]. rewrite EV in E2. injection E2 as <-. exact C. }
    destruct (take st v s EV R) as (hs0 & RV & _).
    assert (LB' : 24 * Z.of_nat (length chs) < 2^30) by (destruct V as ((z & _ & BZ) & _); assert (X := enc_len_ge _ (proj1 BZ)); lia).
    destruct (to_json_ok (sh st) s hs0 chs G RV V TI CV' MK' SM LB') as (h1 & s1 & cs & E1 & G1 & V1 & T1 & TR & _).
    destruct (sstore_inv st v s (to_json (sh st) s) I EV) as (st' & h' & s' & cs' & E & ER & V' & I' & TX & TXT).
    { intros hs R1 _ _. destruct (to_json_rc _ _ _ _ _ R1 E1) as (R2 & K2). exists h1, s1, cs. auto 10. }
    rewrite E1 in ER. injection ER as <- <-. exists st'. split; [exact E|]. split; [exact I'|]. rewrite TXT, ET. f_equal. rewrite <- T1. f_equal. eapply bview_fun; [apply V'|apply V1].
  - destruct (VAR v (or_introl eq_refl)) as [s EV]. rewrite EV. destruct (inv_vok st v s I EV) as (chs & V & TI & ET & EB & EL).
    destruct (take st v s EV R) as (hs0 & RV & _).
    destruct (as_utf8_ok (sh st) s hs0 chs G RV V TI) as (h1 & s1 & cs & p & E1 & G1 & V1 & T1 & TR & _).
    destruct (sstore_inv st v s (do r <- as_utf8 (sh st) s; Ok (fst r)) I EV) as (st' & h' & s' & cs' & E & ER & V' & I' & TX & TXT).
    { intros hs R1 _ _. rewrite E1. cbn [obind fst]. destruct (as_utf8_rc _ _ _ _ _ _ R1 E1) as (R2 & K2). exists h1, s1, cs. auto 10. }
    rewrite E1 in ER. cbn [obind fst] in ER. injection ER as <- <-. exists st'. split; [exact E|]. split; [exact I'|]. rewrite TXT, ET. f_equal. rewrite <- T1. f_equal. eapply bview_fun; [apply V'|apply V1].
  - destruct (VAR v (or_introl eq_refl)) as [s EV]. rewrite EV. destruct (inv_vok st v s I EV) as (chs & V & TI & ET & EB & EL).
    destruct (sv_index_ok (sh st) s chs i G V SO) as (h1 & E1 & G1 & S1). rewrite E1. cbn [obind fst]. eexists. split; [reflexivity|].
    assert (V1 := sim_vin _ _ _ _ G1 S1 V).
    split; [|unfold text; cbn [sv sh]; rewrite EV, (vin_text _ _ _ V1), ET; reflexivity].
    split; [exact (hsim_RC _ _ _ S1 R)|]. cbn [sh sv]. split; [exact G1|]. split; [exact (sim_null _ _ G1 S1 NO)|].
    rewrite Forall_forall in *. intros u Hu. destruct (F u Hu) as (c & VU & TU). exists c. split; [exact (sim_vin _ _ _ _ G1 S1 VU)|exact TU].
Qed.

Lemma sinit_inv n : Inv (sinit n).
Proof.
  assert (B : bchars (with_refs (static_sbody []) (2 + Z.of_nat n)) []) by (apply (static_bchars []); [constructor|cbn; lia]).
  split; [apply sinit_rc|]. remember (2 + Z.of_nat n) as k eqn:Ek. unfold sinit. rewrite <- Ek. cbn [sh sv].
  assert (GG : BG [Some (with_refs (static_sbody []) k)]).
  { intros b x S. apply sget_ok in S. destruct b as [|b]; [|destruct b; discriminate]. injection S as <-. split; [exists []; exact B|reflexivity]. }
  assert (NO : null_ok [Some (with_refs (static_sbody []) k)]).
  { split; [exists (with_refs (static_sbody []) k); split; [reflexivity|exact B]|]. cbn. repeat split; try lia. left. reflexivity. }
  split; [exact GG|]. split; [exact NO|]. apply Forall_forall. intros s Hs. apply repeat_spec in Hs. subst s. exists []. split; [exact NO|]. intros _. reflexivity.
Qed.
